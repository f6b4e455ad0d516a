(** Specification vocabulary for probability bins and the Brier decomposition. *)
From Coq Require Import ZArith List Bool Arith QArith Qcanon.
From Verif Require Import QcTac QSum Num NdArr Spec.
Import ListNotations.
Open Scope nat_scope.

(** [k] is the bin of probability [p] among [nb] equal bins: half-open intervals, the last one closed *)
Definition in_bin (nb : nat) (p : Qc) (k : nat) : Prop :=
  k < nb /\ (qn k / qn nb <= p)%Qc /\ ((p < qn (S k) / qn nb)%Qc \/ k = nb - 1).
(** mean of [g] over the samples that share the bin of [x] *)
Definition bin_mean {A} (bin : A -> nat) (g : A -> Qc) (S : list A) (x : A) : Qc :=
  mean_of (map g (filter (fun y => Nat.eqb (bin y) (bin x)) S)).
(** average over the samples *)
Definition avg_over {A} (g : A -> Qc) (S : list A) : Qc := mean_of (map g S).
