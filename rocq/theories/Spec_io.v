(** Specifications for C55-C58: a reader for matrix files, file names with one rank number, padded names. *)
From Coq Require Import ZArith NArith String Ascii List Bool Arith DecimalString.
Import ListNotations.
Open Scope nat_scope.

(** ** Reading a matrix file *)
(** the text before and after the first occurrence of a character *)
Fixpoint until (c : ascii) (s : string) : option (string * string) :=
  match s with
  | EmptyString => None
  | String a r => if Ascii.eqb a c then Some (EmptyString, r)
                  else match until c r with Some (x, y) => Some (String a x, y) | None => None end
  end.
(** [s] without the prefix [p] *)
Fixpoint after (p s : string) : option string :=
  match p, s with
  | EmptyString, _ => Some s
  | String a p', String b s' => if Ascii.eqb a b then after p' s' else None
  | _, EmptyString => None
  end.
Definition obind {A B} (x : option A) (f : A -> option B) : option B := match x with Some a => f a | None => None end.
Definition number (s : string) : option nat := option_map Nat.of_uint (NilZero.uint_of_string s).
Definition line_end : string := String (ascii_of_nat 10) EmptyString.
(** [n] entries separated by ", " *)
Fixpoint entries (n : nat) (s : string) : option (list string) :=
  match n with
  | 0 => match s with EmptyString => Some [] | _ => None end
  | 1 => Some [s]
  | S m => obind (until "," s) (fun p => obind (after " " (snd p)) (fun s' => option_map (cons (fst p)) (entries m s')))
  end.
Fixpoint rows (r c : nat) (s : string) : option (list (list string) * string) :=
  match r with
  | 0 => Some ([], s)
  | S r' => obind (after "(" s) (fun s1 => obind (until ")" s1) (fun p => obind (after (String "," line_end) (snd p)) (fun s2 =>
            obind (entries c (fst p)) (fun e => obind (rows r' c s2) (fun q => Some (e :: fst q, snd q))))))
  end.
(** the dimensions and the entries *)
Definition read_matrix (s : string) : option (nat * nat * list (list string)) :=
  obind (after "[" s) (fun s1 => obind (until "," s1) (fun p => obind (after " " (snd p)) (fun s2 => obind (until "]" s2) (fun q =>
  obind (after (line_end ++ "(" ++ line_end) (snd q)) (fun s3 => obind (number (fst p)) (fun r => obind (number (fst q)) (fun c =>
  obind (rows r c s3) (fun t => if String.eqb (snd t) ")" then Some (r, c, fst t) else None)))))))).
Fixpoint contains (c : ascii) (s : string) : Prop := match s with EmptyString => False | String a r => a = c \/ contains c r end.
(** a rendering the format can hold *)
Definition plain (s : string) : Prop := ~ contains "," s /\ ~ contains "(" s /\ ~ contains ")" s /\ ~ contains (ascii_of_nat 10) s.

(** ** File names *)
Definition digit (c : ascii) : Prop := 48 <= nat_of_ascii c <= 57.
Definition rank : list ascii := ["R"; "a"; "n"; "k"]%char.
(** no "Rank" followed by a digit *)
Definition no_rank (s : list ascii) : Prop := ~ exists a c b, s = a ++ rank ++ c :: b /\ digit c.
(** the decimal number written with digits *)
Inductive numeral : list ascii -> N -> Prop :=
| numeral_nil : numeral [] 0
| numeral_snoc d n c : numeral d n -> digit c -> numeral (d ++ [c]) (10 * n + N.of_nat (nat_of_ascii c - 48)).
(** the path of a file whose name has exactly one rank number *)
Definition ranked (path : list ascii) (n : N) : Prop :=
  exists dir pre d post, path = dir ++ pre ++ rank ++ d ++ post /\
    (dir = [] \/ exists e, dir = e ++ ["/"%char]) /\ ~ In "/"%char (pre ++ rank ++ d ++ post) /\
    d <> [] /\ numeral d n /\ no_rank pre /\ no_rank post /\ (forall c r, post = c :: r -> ~ digit c).

(** ** Names in fixed-width matrices *)
Definition ascii_name (s : string) : Prop := Forall (fun c => 0 < nat_of_ascii c < 128) (list_ascii_of_string s).
Definition padded (w : nat) (pad : ascii) (s : string) : list ascii := list_ascii_of_string s ++ repeat pad (w - String.length s).

(** ** Dimensions: d has length n (the first entry of this name) *)
Definition dimension (l : list (string * nat)) (d : string) (n : nat) : Prop :=
  exists a b, l = a ++ (d, n) :: b /\ ~ In d (map fst a).
