(** C52: closed forms of the CRPS of (truncated) Gaussian forecasts. *)
From Coq Require Import Reals List Bool Arith Lra Psatz.
From Coquelicot Require Import Coquelicot.
From Verif Require Import Num NdArr R_gauss M_crps Spec_crps P_crps.
Import ListNotations.
Open Scope R_scope.

(** The function used for stats.norm().cdf is the integral of the normal density over everything below. *)
Theorem c52_normal : forall x, is_RInt_gen npdf (Rbar_locally m_infty) (at_point x) (ncdf x).
Proof.
  intros x P [eps HP]. pose proof ncdf_lim_m as L. apply is_lim_spec in L. destruct (L eps) as [M HM].
  exists (fun a => a < M) (fun b => b = x).
  - exists M. auto.
  - reflexivity.
  - intros a b Ha ->. exists (ncdf x - ncdf a). split; [apply ftc; [apply ncdf_derive|apply npdf_cont]|]. apply HP.
    unfold ball; cbn. unfold AbsRing_ball, abs, minus, plus, opp; cbn. replace (ncdf x - ncdf a + - ncdf x) with (- (ncdf a - 0)) by ring. rewrite Rabs_Ropp. apply HM, Ha.
Qed.

(** Every cell of a truncated Gaussian verifier's CRPS is the CRPS of the Gaussian truncated at zero. *)
Theorem c52_truncated : forall o mu sigma ix, 0 < get sigma ix ->
  is_crps (truncated_cdf (get mu ix) (get sigma ix) 0) (get o ix) (get (gaussian_crps true o mu sigma) ix).
Proof. intros o mu sigma ix S. apply (trunc_crps (get mu ix) (get sigma ix) 0 S (get o ix)). Qed.
(** The same for any truncation point of crps_truncated_gaussian, *)
Theorem c52_truncated_at : forall y mu scale l ix, 0 < get scale ix ->
  is_crps (truncated_cdf (get mu ix) (get scale ix) l) (get y ix) (get (crps_truncated_gaussian y mu scale l) ix).
Proof. intros y mu scale l ix S. apply (trunc_crps (get mu ix) (get scale ix) l S (get y ix)). Qed.
(** and without truncation for the Gaussian itself. *)
Theorem c52_gaussian : forall o mu sigma ix, 0 < get sigma ix ->
  is_crps (normal_cdf (get mu ix) (get sigma ix)) (get o ix) (get (gaussian_crps false o mu sigma) ix).
Proof. intros o mu sigma ix S. apply (gauss_crps (get mu ix) (get sigma ix) S (get o ix)). Qed.
(** The CRPS of a forecast and an observation is one number, and not negative. *)
Theorem c52_unique : forall F y v w, is_crps F y v -> is_crps F y w -> v = w /\ 0 <= v.
Proof. intros F y v w V W. split; [exact (gen_unique _ _ _ V W)|]. apply (gen_nonneg _ _ (fun x => pow2_ge_0 _) V). Qed.
(** The result has the shape of the observations. *)
Theorem c52_shape : forall t o mu sigma, shape mu = shape o -> shape sigma = shape o -> shape (gaussian_crps t o mu sigma) = shape o.
Proof. intros [|] o mu sigma M S; cbn; [reflexivity|exact S]. Qed.

(** one forecast and observation *)
Definition one (x : R) : arr R := Arr [] (fun _ => x).
Definition score (l m s y : R) : R := get (crps_truncated_gaussian (one y) (one m) (one s) l) [].
(** As a function of the observation: continuous, slope -1 below the truncation point, 2F-1 above it, *)
Theorem c52_slopes : forall l m s, 0 < s ->
  (forall y, continuous (score l m s) y) /\
  (forall y, y < l -> is_derive (score l m s) y (-1)) /\
  (forall y, l < y -> is_derive (score l m s) y (2 * truncated_cdf m s l y - 1)).
Proof.
  intros l m s S. exact (conj (trunc_cont m s l S) (conj (trunc_slope_below m s l S) (trunc_slope_above m s l S))).
Qed.
(** and smallest exactly at the median of the forecast, which exists. *)
Theorem c52_median : forall l m s, 0 < s -> exists q, truncated_cdf m s l q = 1 / 2 /\ forall y, y <> q -> score l m s q < score l m s y.
Proof.
  intros l m s S. set (a := (l - m) / s). set (g v := ncdf v - (1 + ncdf a) / 2). pose proof (ncdf_lt_1 a) as A1.
  assert (B : exists b, a < b /\ 0 < g b).
  { pose proof ncdf_lim as L. apply is_lim_spec in L. assert (E : 0 < (1 - ncdf a) / 2) by lra. destruct (L (mkposreal _ E)) as [M HM]. cbn in HM.
    exists (Rmax a M + 1). pose proof (Rmax_l a M). pose proof (Rmax_r a M). split; [lra|]. specialize (HM (Rmax a M + 1) ltac:(lra)). apply Rabs_def2 in HM. unfold g. lra. }
  destruct B as (b & Ab & Gb).
  destruct (IVT g a b) as (z & [Z1 Z2] & Z).
  - intros x. apply continuity_pt_filterlim, (dcont g). eexists. unfold g. apply d_minus; [apply ncdf_derive|apply d_const].
  - exact Ab.
  - unfold g. lra.
  - exact Gb.
  - exists (m + s * z). assert (F : truncated_cdf m s l (m + s * z) = 1 / 2).
    { unfold truncated_cdf, normal_cdf. fold a. assert (l <= m + s * z). { assert (s * a = l - m) by (unfold a; field; lra). nra. } destruct (Rlt_dec (m + s * z) l); [lra|].
      replace ((m + s * z - m) / s) with z by (field; lra). unfold g in Z. replace (ncdf z) with ((1 + ncdf a) / 2) by lra. field. lra. }
    split; [exact F|]. exact (trunc_min m s l S _ F).
Qed.
(** As the truncation point moves to minus infinity the score becomes that of the untruncated Gaussian. *)
Theorem c52_limit : forall m s y, 0 < s ->
  is_lim (fun l => score l m s y) m_infty (get (gaussian_crps false (one y) (one m) (one s)) []).
Proof. intros m s y S. exact (trunc_to_gauss m s y S). Qed.
Print Assumptions c52_normal.
Print Assumptions c52_truncated.
Print Assumptions c52_truncated_at.
Print Assumptions c52_gaussian.
Print Assumptions c52_unique.
Print Assumptions c52_shape.
Print Assumptions c52_slopes.
Print Assumptions c52_median.
Print Assumptions c52_limit.

(** A concrete case: mean 0, deviation 1, truncated at 0.  The density is the folded normal, the slope at 0+ is -1,
    and the score below zero falls by one per unit. *)
Example c52_nonvacuous : 0 < get (one 1) [] /\
  score 0 0 1 (-3) = 3 + score 0 0 1 0 /\ truncated_cdf 0 1 0 0 = 0 /\ 0 < truncated_cdf 0 1 0 1 < 1 /\ normal_cdf 0 1 0 = 1 / 2.
Proof.
  assert (H : ncdf ((0 - 0) / 1) = / 2) by (replace ((0 - 0) / 1) with 0 by field; unfold ncdf; rewrite RInt_point; cbn; unfold zero; cbn; lra).
  split; [cbn; lra|]. split; [|split; [|split]].
  - change (score 0 0 1) with (trunc_value 0 1 0). rewrite (trunc_below 0 1 0 Rlt_0_1 (-3)) by lra. lra.
  - unfold truncated_cdf. destruct (Rlt_dec 0 0); [lra|]. unfold normal_cdf. rewrite H. lra.
  - unfold truncated_cdf. destruct (Rlt_dec 1 0); [lra|]. unfold normal_cdf. rewrite H. pose proof (ncdf_lt ((0 - 0) / 1) ((1 - 0) / 1)) as L. rewrite H in L. pose proof (ncdf_lt_1 ((1 - 0) / 1)). assert ((0 - 0) / 1 < (1 - 0) / 1) by lra. specialize (L ltac:(lra)). split; lra.
  - unfold normal_cdf. rewrite H. lra.
Qed.
