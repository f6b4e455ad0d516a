(** Vocabulary for C118: the triple of statistics of which some may be missing, and the bootstrapped spread-skill diagram. *)
From Coq Require Import String ZArith List Bool QArith Qcanon.
From Verif Require Import QcTac Num NdArr Numpy M_boot Spec Spec_ss M_state M_whole P_whole.
Import ListNotations.
Open Scope nat_scope.

(** lower bound, mean and upper bound of the statistics; with [skip] those that are missing are left out *)
Definition triple_skipping (skip : bool) (lo_level hi_level : Qc) (stats v : list num) : Prop :=
  exists lo hi, (if skip then np_nanquantile else np_quantile) stats lo_level = Ok lo /\ (if skip then np_nanquantile else np_quantile) stats hi_level = Ok hi /\
    v = [lo; (if skip then nanmean else nmean) stats; hi].

(** The bootstrapped spread-skill diagram [sp], [rm] of the variances [p] and the squared errors [y]: in every slice the
    cells are put in [nb] bins by increasing variance; an entry is the root of one of the (quantile, mean, quantile) of
    the mean variances, or squared errors, of the same resamples of [n] cells of the bin. *)
Definition boot_spread_skill (root : num -> num) (e : boot_env) (n nb : nat) (sh ns : list nat) (p y : list nat -> Qc) (sp rm : M_state.val) : Prop :=
  let ks := kept (length sh) ns sh in
  arr_shape sp = ks ++ [nb; 3] /\ arr_shape rm = ks ++ [nb; 3] /\
  forall k L, Forall2 lt k ks -> Cells sh ns k L ->
  exists Bs, ordered_bins (fun i j => (p i <= p j)%Qc) L nb Bs /\
  forall b, b < nb -> exists rs tv te, resamples_of (nth b Bs []) n (repeats e) rs /\
    triple_of np_quantile (1 - confidence e)%Qc (confidence e) (map (fun s => Fin (mean_of (map p s))) rs) tv /\
    triple_of np_quantile (1 - confidence e)%Qc (confidence e) (map (fun s => Fin (mean_of (map y s))) rs) te /\
    forall t, t < 3 -> reads sp (k ++ [b; t]) = root (nth t tv NaN) /\ reads rm (k ++ [b; t]) = root (nth t te NaN).
(** lower bounds are not above upper bounds, and the intervals of the spread do not overlap from one bin to the next *)
Definition intervals_in_order (nb : nat) (sh ns : list nat) (sp rm : M_state.val) : Prop :=
  forall k L, Forall2 lt k (kept (length sh) ns sh) -> Cells sh ns k L -> forall b, b < nb ->
  exists l m u l' m' u', map (fun t => reads sp (k ++ [b; t])) [0; 1; 2] = map Fin [l; m; u] /\ map (fun t => reads rm (k ++ [b; t])) [0; 1; 2] = map Fin [l'; m'; u'] /\
    (l <= u)%Qc /\ (l' <= u')%Qc /\
    forall b', b < b' -> b' < nb -> exists l2 m2, reads sp (k ++ [b'; 0]) = Fin l2 /\ reads sp (k ++ [b'; 1]) = Fin m2 /\ (u <= l2)%Qc /\ (m <= m2)%Qc.
