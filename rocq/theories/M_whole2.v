(** The library of the whole program (M_whole), continued: the Brier decomposition and the reliability diagram. *)
From Coq Require Import String ZArith List Bool QArith Qcanon.
From Verif Require Import QcTac Num NdArr Numpy M_common M_boot M_special M_rel Store M_state M_whole.
Import ListNotations.
Open Scope string_scope.
Open Scope list_scope.

(** ** Encodings *)
Definition ints_val (a : arr Z) : val := val_of (amap (fun z => Fin (qz z)) a).
Definition ints_of (v : val) : arr Z := amap to_int (arr_of v).
Definition counts_val (a : arr nat) : val := val_of (amap nnat a).
(** a labelled series of counts *)
Definition series_val (l : list (Z * nat)) : val :=
  VDict [("index", vec_of (map (fun p => Fin (qz (fst p))) l)); ("values", vec_of (map (fun p => nnat (snd p)) l))].
(** an array of arrays: its shape and its entries *)
Definition objects_val (a : arr (list num)) : val :=
  VTuple [VTuple (map (fun n => VInt (Z.of_nat n)) (shape a)); VList (map vec_of (ravel a))].
Definition stacked_val (s : stacked num) : val := match s with Regular a => val_of a | Objects a => objects_val a end.
Definition stacked_counts (s : stacked nat) : val :=
  match s with Regular a => counts_val a | Objects a => objects_val (amap (map nnat) a) end.
Definition triple_val (t : arr num * arr num * arr num) : val :=
  VTuple [val_of (fst (fst t)); val_of (snd (fst t)); val_of (snd t)].
(** prob_pred, prob_true, pred_count, true_count *)
Definition rel_val (r : rel_out) : val :=
  match r with
  | Single p t pc tc => VTuple [vec_of p; vec_of t; series_val pc; series_val tc]
  | Many p t pc tc => VTuple [stacked_val p; stacked_val t; stacked_counts pc; stacked_counts tc]
  end.
Definition rel_boot_val (r : rel_boot_out) : val :=
  match r with
  | BSingle p t pc tc => VTuple [VList (map vec_of p); VList (map vec_of t); series_val pc; series_val tc]
  | BMany p t pc tc => VTuple [val_of p; val_of t; stacked_counts pc; stacked_counts tc]
  end.
(** bin numbers, forecasts, observations and bins: what is kept (and saved) between the two parts of the diagram,
    utils_verify.py 296-322 *)
Definition split_val (s : arr Z * arr num * arr num * list num) : val :=
  let '(ids, f, o, bins) := s in VTuple [ints_val ids; val_of f; val_of o; vec_of bins].
Definition split_of (v : val) : option (arr Z * arr num * arr num * list num) :=
  match v with VTuple [a; b; c; d] => Some (ints_of a, arr_of b, arr_of c, ravel (arr_of d)) | _ => None end.

Section More.
Variable S : settings.
Variable gen_decomp : nat -> nat -> nat -> nat -> nat.          (* the numbers behind one draw *)
Variable gen_rel : nat -> nat -> nat -> nat -> nat -> nat.
Variable other : string -> list val -> res val.
Variable otherr : string -> list val -> nat -> res val.

(** Verify.py 128-138, utils_special_boot.py 29-43, utils_verify.py 296-382 *)
Definition more_lib (n : string) (args : list val) : res val :=
  let oth := other n args in
  match args with
  | [v] =>
      if String.eqb n "post_reliability" then
        match split_of v with
        | Some (ids, f, o, bins) => rmap rel_val (rel_agg ids f o bins)
        | None => oth
        end
      else oth
  | [f; o; avg] =>
      if String.eqb n "brier_decomp" then
        match axes_of avg with
        | Some ax => rmap triple_val (brier_decomp (w_boot S) (fun _ _ _ => O) (arr_of f) (arr_of o) ax None)
        | None => oth
        end
      else oth
  | [f; o; nbins; avg] =>
      if String.eqb n "reliability_split" then
        match count_of nbins, axes_of avg with
        | Some k, Some ax => rmap split_val (rel_split (arr_of f) (arr_of o) k ax)
        | _, _ => oth
        end
      else oth
  | _ => oth
  end.
(** the same with boot_samples: utils_special_boot.py 83-114, utils_verify.py 385-478 *)
Definition more_libr (n : string) (args : list val) (d : nat) : res val :=
  let oth := otherr n args d in
  match args with
  | [v; b] =>
      if String.eqb n "post_reliability" then
        match split_of v, count_of b with
        | Some (ids, f, o, bins), Some k => rmap rel_boot_val (rel_agg_boot (w_boot S) (gen_rel d) k ids f o bins)
        | _, _ => oth
        end
      else oth
  | [f; o; avg; b] =>
      if String.eqb n "brier_decomp" then
        match axes_of avg, count_of b with
        | Some ax, Some k => rmap triple_val (brier_decomp (w_boot S) (gen_decomp d) (arr_of f) (arr_of o) ax (Some k))
        | _, _ => oth
        end
      else oth
  | _ => oth
  end.
End More.
