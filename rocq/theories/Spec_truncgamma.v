(** What is assumed of the incomplete gamma functions at one shape parameter, and the truncated distribution. *)
From Coq Require Import Reals.
Open Scope R_scope.

Record incomplete_gamma (P Pinv : R -> R -> R) (s : R) : Prop := IncGamma {
  ig_zero : P s 0 = 0;
  ig_strict : forall x y, 0 <= x -> x < y -> P s x < P s y;
  ig_below : forall x, P s x < 1;
  ig_inv : forall p, 0 <= p -> p < 1 -> 0 <= Pinv s p /\ P s (Pinv s p) = p
}.
(** the gamma distribution with mean mu and standard deviation sigma, moved by shift *)
Definition gamma_dist (P : R -> R -> R) (mu sigma shift x : R) : R :=
  if Rle_dec x shift then 0 else P ((mu / sigma) ^ 2) ((x - shift) / (sigma ^ 2 / mu)).
(** a distribution conditioned on lying between l and u *)
Definition conditioned (F : R -> R) (l u x : R) : R :=
  if Rle_dec x l then 0 else if Rle_dec u x then 1 else (F x - F l) / (F u - F l).
