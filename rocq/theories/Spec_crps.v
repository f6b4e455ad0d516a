(** What a CRPS is, and the distributions whose CRPS the closed forms claim to be. *)
From Coq Require Import Reals Lra.
From Coquelicot Require Import Coquelicot.
From Verif Require Import R_gauss.
Open Scope R_scope.

(** the continuous ranked probability score of a forecast CDF for an observation: the integral over the
    whole line of the squared distance between the CDF and the step at the observation *)
Definition step_at (y x : R) : R := if Rle_dec y x then 1 else 0.
Definition is_crps (F : R -> R) (y v : R) : Prop :=
  is_RInt_gen (fun x => (F x - step_at y x) ^ 2) (Rbar_locally m_infty) (Rbar_locally p_infty) v.

(** the normal CDF with mean m and standard deviation s, and the same conditioned on being at least l *)
Definition normal_cdf (m s x : R) : R := ncdf ((x - m) / s).
Definition truncated_cdf (m s l x : R) : R :=
  if Rlt_dec x l then 0 else (normal_cdf m s x - normal_cdf m s l) / (1 - normal_cdf m s l).

(** What is assumed of the gamma function and of the gamma CDF of the library, at one shape parameter:
    facts about Euler's function and the density x^(k-1) exp(-x) / Gamma(k) on the positive numbers. *)
Definition is_gamma_cdf (G : R -> R) (cdf : R -> R -> R) (j : R) : Prop :=
  (forall x, x <= 0 -> cdf j x = 0) /\
  (forall x, 0 < x -> is_derive (cdf j) x (Rpower x (j - 1) * exp (- x) / G j)) /\
  continuous (cdf j) 0 /\ is_lim (cdf j) p_infty 1.
Record gamma_lib (G : R -> R) (cdf : R -> R -> R) (k : R) : Prop := GammaLib {
  gl_half : G (1 / 2) = sqrt PI;
  gl_pos : 0 < G k /\ 0 < G (k + 1 / 2) /\ 0 < G (2 * k);
  gl_step : G (k + 1) = k * G k;
  gl_dup : G k * G (k + 1 / 2) = Rpower 2 (1 - 2 * k) * sqrt PI * G (2 * k);
  gl_cdf : is_gamma_cdf G cdf k /\ is_gamma_cdf G cdf (k + 1) /\ is_gamma_cdf G cdf (2 * k)
}.
(** the gamma distribution with mean mu and standard deviation sigma, moved by shift; and the same with all
    probability below zero put on zero *)
Definition shifted_gamma (cdf : R -> R -> R) (mu sigma shift x : R) : R :=
  cdf ((mu / sigma) ^ 2) ((x - shift) / (sigma ^ 2 / mu)).
Definition censored_gamma (cdf : R -> R -> R) (mu sigma shift x : R) : R :=
  if Rlt_dec x 0 then 0 else shifted_gamma cdf mu sigma shift x.

(** first and second moment of a distribution from its CDF (integration by parts of the usual integrals): the CDF is
    compared with that of the number 0 *)
Definition is_mean (F : R -> R) (v : R) : Prop :=
  is_RInt_gen (fun x => step_at 0 x - F x) (Rbar_locally m_infty) (Rbar_locally p_infty) v.
Definition is_second_moment (F : R -> R) (v : R) : Prop :=
  is_RInt_gen (fun x => 2 * x * (step_at 0 x - F x)) (Rbar_locally m_infty) (Rbar_locally p_infty) v.
Definition is_variance (F : R -> R) (v : R) : Prop :=
  exists m m2, is_mean F m /\ is_second_moment F m2 /\ v = m2 - m ^ 2.
(** the CDF used by a Gaussian verifier *)
Definition gaussian_cdf (truncated : bool) (m s : R) : R -> R := if truncated then truncated_cdf m s 0 else normal_cdf m s.
