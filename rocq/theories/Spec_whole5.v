(** Words for C114: the sums that stand for mean, variance and CRPS of a distribution function. *)
From Coq Require Import String ZArith List Bool QArith Qcanon.
From Verif Require Import QcTac Num NdArr M_state M_whole Spec_whole P_whole.
Import ListNotations.

Definition total (l : list Qc) : Qc := fold_right Qcplus 0%Qc l.
(** [n] equally spaced points from [lo] to [hi] *)
Definition knot (lo hi : Qc) (n j : nat) : Qc := (lo + qn j * ((hi - lo) / qn (n - 1)))%Qc.
(** the intervals between the points *)
Definition over_intervals (n : nat) (h : nat -> Qc) : Qc := total (map h (seq 0 (n - 1))).
(** mean of [h], taken as the mean of its values at the ends of each interval, weighted with the increase of [F] *)
Definition weighted (x : nat -> Qc) (n : nat) (F h : Qc -> Qc) : Qc :=
  over_intervals n (fun j => (h (x (S j)) + h (x j)) / qz 2 * (F (x (S j)) - F (x j)))%Qc.
Definition stepwise_mean (x : nat -> Qc) (n : nat) (F : Qc -> Qc) : Qc := weighted x n F (fun t => t).
Definition stepwise_variance (x : nat -> Qc) (n : nat) (F : Qc -> Qc) : Qc :=
  (weighted x n F (fun t => t * t) - stepwise_mean x n F * stepwise_mean x n F)%Qc.
(** squared distance of [F] to the step function of the observation *)
Definition step_distance (F : Qc -> Qc) (y : num) (t : Qc) : Qc :=
  let d := (F t - indicator (nlt y (Fin t)))%Qc in (d * d)%Qc.
Definition stepwise_crps (x : nat -> Qc) (n : nat) (F : Qc -> Qc) (y : num) : Qc :=
  over_intervals n (fun j => (step_distance F y (x (S j)) + step_distance F y (x j)) / qz 2 * (x (S j) - x j))%Qc.

(** the ends of the integration: those given, or the smallest and largest observation moved outwards by [m] times
    their distance *)
Inductive ends (m : Z) (x : obj) (lo hi : Qc) : Prop :=
  | given a b : a_range x = VTuple [a; b] \/ a_range x = VList [a; b] -> scalar_of a = Some (Fin lo) -> scalar_of b = Some (Fin hi) -> ends m x lo hi
  | from_observations least most jl jm : a_range x = VNone -> (0 < m)%Z ->
      Forall2 lt jl (arr_shape (a_o x)) -> reads (a_o x) jl = Fin least -> Forall2 lt jm (arr_shape (a_o x)) -> reads (a_o x) jm = Fin most ->
      (forall ix, Forall2 lt ix (arr_shape (a_o x)) -> exists y, reads (a_o x) ix = Fin y /\ (least <= y)%Qc /\ (y <= most)%Qc) ->
      lo = (least - qz m * (most - least))%Qc -> hi = (most + qz m * (most - least))%Qc -> ends m x lo hi.
