(** Specification vocabulary for the reliability diagram. *)
From Coq Require Import ZArith List Bool Arith QArith Qcanon.
From Verif Require Import QcTac QSum Num NdArr Spec M_rel.
Import ListNotations.
Open Scope nat_scope.

(** the bins: nb intervals of equal width over [0, 1 + 1e-8), closed below, open above *)
Definition rel_edge (nb j : nat) : Qc := (qn j / qn nb * (1 + / qz 100000000))%Qc.
Definition rel_bin (nb : nat) (p : Qc) (j : nat) : Prop :=
  j < nb /\ (rel_edge nb j <= p)%Qc /\ (p < rel_edge nb (S j))%Qc.

(** reading the curve of the slice [k] off the returned value (only the result types of the model are used) *)
Definition row {A} (s : stacked A) (k : list nat) : list A :=
  match s with
  | Regular a => map (fun j => get a (k ++ [j])) (seq 0 (last (shape a) 0))
  | Objects a => get a (k ++ [0])
  end.
Definition forecast_points (out : rel_out) (k : list nat) : list num :=
  match out with Single p _ _ _ => p | Many p _ _ _ => row p k end.
Definition observed_points (out : rel_out) (k : list nat) : list num :=
  match out with Single _ t _ _ => t | Many _ t _ _ => row t k end.
Definition point_counts (out : rel_out) (k : list nat) : list nat :=
  match out with Single _ _ c _ => map snd c | Many _ _ c _ => row c k end.
Definition outcome_counts (out : rel_out) (k : list nat) : list nat :=
  match out with Single _ _ _ c => map snd c | Many _ _ _ c => row c k end.
(** the labels of the counts, kept when there is only one slice: bin numbers, outcomes *)
Definition point_labels (out : rel_out) : list Z := match out with Single _ _ c _ => map fst c | Many _ _ _ _ => [] end.
Definition outcome_labels (out : rel_out) : list Z := match out with Single _ _ _ c => map fst c | Many _ _ _ _ => [] end.
(** mean of [xs] weighted by the counts [cs] *)
Definition weighted_mean (cs : list nat) (xs : list Qc) : Qc :=
  (fold_right Qcplus 0 (map (fun t => qn (fst t) * snd t) (combine cs xs)) / qn (fold_right Nat.add 0%nat cs))%Qc.
