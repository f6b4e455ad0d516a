(** Vocabulary for C80-C82: opening a data set. *)
From Coq Require Import String List.
From Verif Require Import Num NdArr M_nc.
Import ListNotations.
Open Scope string_scope.

Section Spec.
Context {V : Type} (text : V -> res string) (of_text : string -> V).
Implicit Types file : dataset V.
Definition has_dim (d : string) file : Prop := exists n v, In (n, v) file /\ In d (v_dims v).
(** the variable that labels each dimension *)
Definition label_of : list (string * string) :=
  [("num_flts", "FLTs"); ("num_parameters", "ParameterNames"); ("num_test_times", "test_times");
   ("num_search_times", "search_times"); ("num_times", "Times")].
Definition labelled file (d : string) : Prop := exists n v, In (d, n) label_of /\ has_dim d file /\ In (n, v) file.
(** num_test_times is called num_times afterwards, unless there is a num_times already *)
Definition renames file : Prop := ~ has_dim "num_times" file /\ has_dim "num_test_times" file.
Definition new_name file (x y : string) : Prop :=
  (renames file /\ x = "num_test_times" /\ y = "num_times") \/ (~ (renames file /\ x = "num_test_times") /\ y = x).
(** the values after opening: a matrix of characters becomes its rows as strings, all else is unchanged *)
Definition same_values (v w : variable V) : Prop :=
  (~ In "num_chars" (v_dims v) /\ shape (v_data w) = shape (v_data v) /\ forall ix, Forall2 lt ix (shape (v_data v)) -> get (v_data w) ix = get (v_data v) ix) \/
  (In "num_chars" (v_dims v) /\ exists a b, shape (v_data v) = [a; b] /\ shape (v_data w) = [a] /\
    forall i, i < a -> exists cs, Forall2 (fun j c => text (get (v_data v) [i; j]) = Ok c) (seq 0 b) cs /\ get (v_data w) [i] = of_text (String.concat "" cs)).
(** the files treated here: xarray's rules (distinct names, one length per dimension, a variable named after
    a dimension lies along it), names stored as readable matrices of characters, labels along their dimension, no
    stray variable called num_times *)
Definition anen_file file : Prop :=
  NoDup (map fst file) /\
  (forall n v, In (n, v) file -> length (shape (v_data v)) = length (v_dims v)) /\
  (forall n v m w i j d, In (n, v) file -> In (m, w) file -> nth_error (v_dims v) i = Some d -> nth_error (v_dims w) j = Some d ->
     nth_error (shape (v_data v)) i = nth_error (shape (v_data w)) j) /\
  (forall n v, In (n, v) file -> has_dim n file -> v_dims v = [n]) /\
  (forall n v, In (n, v) file -> In "num_chars" (v_dims v) -> exists d, v_dims v = [d; "num_chars"] /\ d <> "num_chars" /\
     forall ix, Forall2 lt ix (shape (v_data v)) -> exists c, text (get (v_data v) ix) = Ok c) /\
  (forall d n v, In (d, n) label_of -> has_dim d file -> In (n, v) file -> v_dims v = [d] \/ v_dims v = [d; "num_chars"]) /\
  (In "num_times" (map fst file) -> has_dim "num_times" file).
End Spec.
