(** The library of the whole program (M_whole, M_whole2, M_whole3), continued: the variance of the members, the binned
    spread-skill diagram and the correlation. *)
From Coq Require Import String ZArith List Bool Arith QArith Qcanon.
From Verif Require Import QcTac Num NdArr Numpy M_common M_boot M_special M_ss Store M_state M_whole.
Import ListNotations.
Open Scope string_scope.
Open Scope list_scope.

(** np.var of a list: the mean of the squared deviations from the mean (ddof=0); NaN if a value is missing, infinite,
    or if there are none *)
Definition nvar (l : list num) : num := let m := nmean l in nmean (map (fun x => nsq (nsub x m)) l).
(** a.var(axis), VerifyEnsemble.py 125-126; an ensemble without members gives NaN and a warning *)
Definition var_along (axis : Z) (a : arr num) : res (arr num) :=
  ax <- norm_axis (length (shape a)) axis ;;
  let sh := remove_at ax (shape a) in
  Ok (Arr sh (fun ix => nvar (map (fun m => get a (insert_at ax m ix)) (seq 0 (nth ax (shape a) 0%nat))))).

(** what is kept (and saved) between the two parts of the spread-skill diagram: arr_split and shape_to_keep,
    utils_ss.py 85-87 *)
Definition bins_val (s : ss_split) : val :=
  VTuple [VList (map val_of (ss_bins s)); VTuple (map (fun n => VInt (Z.of_nat n)) (ss_keep s))].
Definition bins_of (v : val) : option (list (arr num) * list nat) :=
  match v with
  | VTuple [VList l; VTuple k] => Some (map arr_of l, map (fun z => Z.to_nat (int_of z)) k)
  | _ => None
  end.

(** the functions of NumPy whose values are not rational *)
Record stats := {
  w_argsort : list num -> list nat;                 (* np.argsort, utils_ss.py 72 *)
  w_sqrt : num -> num;                              (* np.sqrt, utils_ss.py 116-117 *)
  w_corrcoef : list num -> list num -> num          (* np.corrcoef(f, o)[0, 1], utils_special_boot.py 122-124 *)
}.

Section Stats.
Variable S : settings.
Variable T : stats.
Variable other : string -> list val -> res val.

(** utils_special_boot.py 25-26 and 117-139 without boot_samples *)
Definition corr_with (f o : arr num) (ax : option (list Z)) : res (arr num) :=
  workflow NaN (fun _ x y => Ok [corr_masked (w_corrcoef T) (skip_nan (w_boot S)) x y]) f o ax.
(** Verify.py 117-126, VerifyEnsemble.py 125-136, VerifyProb.py 124-132 *)
Definition stat_lib (n : string) (args : list val) : res val :=
  let oth := other n args in
  match args with
  | [v] =>
      if String.eqb n "post_binned_spread_skill" then
        match bins_of v with
        | Some (bins, keep) => rmap (fun r => VTuple [val_of (fst r); val_of (snd r)]) (ss_curves (w_sqrt T) (skip_nan (w_boot S)) bins keep)
        | None => oth
        end
      else oth
  | [a; b] => if String.eqb n "var" then rmap val_of (var_along (int_of b) (arr_of a)) else oth
  | [f; o; avg] =>
      if String.eqb n "corr" then
        match axes_of avg with Some ax => rmap val_of (corr_with (arr_of f) (arr_of o) ax) | None => oth end
      else oth
  | [v; e; nbins; avg] =>
      if String.eqb n "spread_skill_split" then
        match count_of nbins, axes_of avg with
        | Some k, Some ax => rmap bins_val (ss_create_split (w_argsort T) (arr_of v) (arr_of e) k ax)
        | _, _ => oth
        end
      else oth
  | _ => oth
  end.
End Stats.
