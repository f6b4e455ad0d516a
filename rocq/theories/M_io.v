(** Model of Grid.write_matrix (Grid.py 28-59), IO._decode_name_matrix and IO.__add_coords__ (IO.py 32-50) and of the
    settings set on import (__init__.py 16-40).
    Simplified: paths are names with a parent each, without links or permissions; text is ASCII; the warning for NaNs
    is not modelled; station coordinates are exact rationals (their float64 values are treated in M_float). *)
From Coq Require Import ZArith NArith String Ascii List Bool Arith QArith Qcanon DecimalString.
From Verif Require Import QcTac Num NdArr.
Import ListNotations.
Open Scope nat_scope.

(** ** Text *)
Definition nl : string := String (ascii_of_nat 10) EmptyString.
(** sep.join(l) *)
Fixpoint join (sep : string) (l : list string) : string :=
  match l with [] => EmptyString | [x] => x | x :: r => (x ++ sep ++ join sep r)%string end.
(** str of a natural number *)
Definition natstr (n : nat) : string := NilZero.string_of_uint (Nat.to_uint n).

(** ** Grid.py 28-59 *)
Inductive node := Absent | Folder | Text (s : string).
Definition files := string -> node.
Section Matrix.
Variable dirname : string -> string.
Variable str_of : num -> string. (* str(e) of an entry that is not NaN *)
Definition exists_file (fs : files) (p : string) : bool := match fs p with Absent => false | _ => true end.
(** open(file, 'w') and writing [s]: the exception, or the new files *)
Definition write_file (fs : files) (p s : string) : res files :=
  match fs p with
  | Folder => Raise IsADirectoryError
  | Text _ => Ok (fun q => if String.eqb q p then Text s else fs q)
  | Absent => match fs (dirname p) with
              | Folder => Ok (fun q => if String.eqb q p then Text s else fs q)
              | Absent => Raise FileNotFoundError
              | Text _ => Raise NotADirectoryError
              end
  end.
(** lines 55-56: one row *)
Definition row_text (mat : arr num) (n_col i : nat) : string :=
  ("(" ++ join ", " (map (fun j => match get mat [i; j] with NaN => "nan" | e => str_of e end) (seq 0 n_col)) ++ ")," ++ nl)%string.
(** lines 48-57 *)
Definition matrix_text (mat : arr num) (r c : nat) : string :=
  ("[" ++ natstr r ++ ", " ++ natstr c ++ "]" ++ nl ++ "(" ++ nl ++ join "" (map (row_text mat c) (seq 0 r)) ++ ")")%string.
(** lines 39-59 *)
Definition write_matrix (file : string) (mat : arr num) (overwrite : bool) (fs : files) : res bool * files :=
  match shape mat with
  | [r; c] =>
      if exists_file fs file && negb overwrite then (Raise PlainException, fs)
      else match write_file fs file (matrix_text mat r c) with
           | Ok fs' => (Ok true, fs')
           | Raise e => (Raise e, fs)
           end
  | _ => (Raise AssertionError, fs)
  end.
End Matrix.

(** ** IO.py 32-33, and the astype('str') of IO.py 74 *)
(** one byte as a NumPy string: NUL is the empty string, other than ASCII is a UnicodeDecodeError (a ValueError) *)
Definition astype_str (c : ascii) : res string :=
  if nat_of_ascii c =? 0 then Ok EmptyString
  else if nat_of_ascii c <? 128 then Ok (String c EmptyString) else Raise ValueError.
Definition decode_name_matrix (mat : list (list ascii)) : res (list string) :=
  rmap (map (join "")) (mapM (mapM astype_str) mat).

(** ** IO.py 36-50 *)
Definition is_digit (c : ascii) : bool := (48 <=? nat_of_ascii c) && (nat_of_ascii c <=? 57).
(** the longest prefix of digits, and the rest *)
Fixpoint digits (s : list ascii) : list ascii * list ascii :=
  match s with
  | c :: r => if is_digit c then let (d, t) := digits r in (c :: d, t) else ([], s)
  | [] => ([], [])
  end.
(** re.findall(r'Rank(\d+)', s); the fuel is the length of the text *)
Fixpoint findall (fuel : nat) (s : list ascii) : list (list ascii) :=
  match fuel with
  | O => []
  | S k =>
      match s with
      | [] => []
      | ("R" :: "a" :: "n" :: "k" :: t)%char =>
          match digits t with
          | ([], _) => findall k (tl s)
          | (d, u) => d :: findall k u
          end
      | _ :: r => findall k r
      end
  end.
(** os.path.basename *)
Fixpoint basename (s : list ascii) : list ascii :=
  match s with
  | [] => []
  | c :: r => if existsb (Ascii.eqb "/") s then basename r else s
  end.
(** int of a text of digits *)
Definition value (d : list ascii) : N := fold_left (fun a c => (10 * a + N.of_nat (nat_of_ascii c - 48))%N) d 0%N.
(** the dimensions of a dataset with their lengths, and the station coordinates *)
Record dataset := Dataset { dims : list (string * nat); stations : option (list Qc) }.
Definition dim_len (ds : dataset) (d : string) : option nat :=
  option_map snd (find (fun p => String.eqb (fst p) d) (dims ds)).
Definition add_coords (source : list ascii) (dim_name : string) (ds : dataset) : res dataset :=
  let matched := findall (length (basename source)) (basename source) in
  passert (negb (length matched =? 0)) ;;;
  let start := value (concat matched) in
  match dim_len ds dim_name with
  | None => Raise AssertionError
  | Some total =>
      let coords := map (fun k => (qz (Z.of_N start) + qn k / qn total)%Qc) (seq 0 total) in
      match dim_len ds "num_stations" with
      | Some n => if n =? total then Ok (Dataset (dims ds) (Some coords)) else Raise ValueError
      | None => Ok (Dataset (dims ds ++ [("num_stations"%string, total)]) (Some coords))
      end
  end.

(** ** __init__.py 16-40: the settings with str of their values *)
Definition defaults : list (string * string) :=
  [("pyanen_ens_to_prob_method", "moments"); ("pyanen_kde_bandwidth", "0.01"); ("pyanen_kde_kernel", "gaussian");
   ("pyanen_kde_samples", "1000"); ("pyanen_kde_multiply_spread", "5"); ("pyanen_boot_confidence", "0.95");
   ("pyanen_boot_repeats", "1000"); ("pyanen_boot_samples", "300"); ("pyanen_tqdm_disable", "True");
   ("pyanen_tqdm_leave", "False"); ("pyanen_tqdm_workers", "1"); ("pyanen_tqdm_map_axis", "-1");
   ("pyanen_tqdm_chunksize", "1"); ("pyanen_use_tensorflow_math", "False"); ("pyanen_skip_nan", "False");
   ("pyanen_split_crps_ensemble_along_0", "False"); ("pyanen_integrate_range_multiplier", "5");
   ("pyanen_integrate_with_less_memory", "False"); ("pyanen_integrate_wdir", "")]%string.
Definition environment := string -> option string.
Definition set_default (e : environment) (kv : string * string) : environment :=
  match e (fst kv) with
  | Some _ => e
  | None => fun j => if String.eqb j (fst kv) then Some (snd kv) else e j
  end.
Definition import (e : environment) : environment := fold_left set_default defaults e.
(** print_settings, __init__.py 43-45: the lines printed *)
Definition print_settings (e : environment) : res (list (string * string)) :=
  mapM (fun kv => match e (fst kv) with Some v => Ok (fst kv, v) | None => Raise KeyError end) defaults.
