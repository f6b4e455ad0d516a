(** Vocabulary for the reliability diagram with bootstrap (C79): reading the curve of the slice [k] off the result. *)
From Coq Require Import ZArith List Sorted.
From Verif Require Import Num NdArr M_rel Spec_rel.
Import ListNotations.

Definition triples (a : arr num) (k : list nat) : list (list num) :=
  map (fun j => map (fun t => get a (k ++ [j; t])) (seq 0 3)) (seq 0 (nth (length k) (shape a) 0)).
Definition boot_forecast_points (out : rel_boot_out) (k : list nat) : list (list num) :=
  match out with BSingle p _ _ _ => p | BMany p _ _ _ => triples p k end.
Definition boot_observed_points (out : rel_boot_out) (k : list nat) : list (list num) :=
  match out with BSingle _ t _ _ => t | BMany _ t _ _ => triples t k end.
Definition boot_point_counts (out : rel_boot_out) (k : list nat) : list nat :=
  match out with BSingle _ _ c _ => map snd c | BMany _ _ c _ => row c k end.
Definition boot_outcome_counts (out : rel_boot_out) (k : list nat) : list nat :=
  match out with BSingle _ _ _ c => map snd c | BMany _ _ _ c => row c k end.
(** [bs] lists, in increasing order, the bins holding at least one of the cells [L] *)
Definition bins_of (bin : list nat -> nat) (L : list (list nat)) (bs : list nat) : Prop :=
  StronglySorted lt bs /\ forall b, In b bs <-> exists ix, In ix L /\ bin ix = b.
