(** C74: probabilities from a kernel density estimate. *)
From Coq Require Import Reals List Bool Arith ZArith Lra Lia.
From Coquelicot Require Import Coquelicot.
From Verif Require Import Num R_gauss M_kde P_kde.
Import ListNotations.
Open Scope R_scope.

(** The estimated distribution: a normal distribution of standard deviation [h] around every member. *)
Definition mixture (h : R) (ens : list R) (x : R) : R := rsum (map (fun e => ncdf ((x - e) / h)) ens) / INR (length ens).
(** The computed integral starts [mult] spreads below the smallest member. *)
Definition lower_end (mult : Z) (ens : list R) (a : R) : Prop :=
  exists lo hi, In lo ens /\ In hi ens /\ (forall e, In e ens -> lo <= e <= hi) /\ a = lo - (hi - lo) * IZR mult.
Lemma lower_end_from mult ens a : lower_end mult ens a -> ens <> [] /\ a = kde_from mult ens.
Proof.
  intros (lo & hi & Il & Ih & B & ->). split; [intros ->; destruct Il|]. destruct ens as [|e l]; [destruct Il|]. cbn [kde_from].
  destruct (lmin_spec l e) as [I1 M1], (lmax_spec l e) as [I2 M2].
  assert (lo = lmin e l) by (apply Rle_antisym; [apply B, I1|apply M1, Il]).
  assert (hi = lmax e l) by (apply Rle_antisym; [apply M2, Ih|apply B, I2]). congruence.
Qed.
Lemma lower_end_exists mult ens : ens <> [] -> exists a, lower_end mult ens a.
Proof.
  destruct ens as [|e l]; [congruence|]. intros _. exists (kde_from mult (e :: l)), (lmin e l), (lmax e l).
  destruct (lmin_spec l e) as [I1 M1], (lmax_spec l e) as [I2 M2].
  split; [exact I1|split; [exact I2|split; [|reflexivity]]]. intros x I. split; [apply M1, I|apply M2, I].
Qed.

(** At thresholds above the lower end the result is the probability of lying between the lower end and the threshold, up to an
    error that vanishes with the number of samples.
    Missing: thresholds below the lower end, the mass below the lower end, and a bound by 1. *)
Theorem c74_integral_partial : forall h n mult ens a t, 0 < h -> (2 <= n)%nat -> lower_end mult ens a -> a <= t ->
  exists p, ens_to_prob_kde h n mult (t :: ens) = Ok p /\ 0 <= p /\
    Rabs (p - (mixture h ens t - mixture h ens a)) <= (t - a) / INR (n - 1) * ((t - a) / (h * h) + / h).
Proof.
  intros h n mult ens a t H N L T. destruct (lower_end_from _ _ _ L) as [He ->].
  exists (kde_value h n (kde_from mult ens) t ens). split; [apply kde_ok; assumption|]. split.
  - destruct (value_sign h H ens He n (kde_from mult ens) t N) as (P & _ & Z). destruct T as [T|T]; [left; apply P, T|right; symmetry; apply Z; auto].
  - exact (value_error h H ens He n (kde_from mult ens) t N T).
Qed.
Theorem c74_limit_partial : forall h mult ens a t, 0 < h -> lower_end mult ens a -> a <= t ->
  forall eps, 0 < eps -> exists n0, forall n, (n0 <= n)%nat ->
    exists p, ens_to_prob_kde h n mult (t :: ens) = Ok p /\ Rabs (p - (mixture h ens t - mixture h ens a)) < eps.
Proof.
  intros h mult ens a t H L T eps E. set (c := (t - a) * ((t - a) / (h * h) + / h)).
  destruct (archimed_cor1 (eps / (1 + Rabs c))) as (m & M & Pm); [apply Rdiv_lt_0_compat; [auto|pose proof (Rabs_pos c); lra]|].
  exists (2 + m)%nat. intros n N. destruct (c74_integral_partial h n mult ens a t H ltac:(lia) L T) as (p & Ep & _ & B).
  exists p. split; [exact Ep|]. eapply Rle_lt_trans; [exact B|].
  assert (Pn : 0 < INR (n - 1)) by (apply lt_0_INR; lia).
  replace ((t - a) / INR (n - 1) * ((t - a) / (h * h) + / h)) with (c / INR (n - 1)) by (unfold c; field; split; lra).
  assert (Mn : INR m <= INR (n - 1)) by (apply le_INR; lia).
  assert (Pm' : 0 < INR m) by (apply lt_0_INR; lia).
  assert (Q : 1 + Rabs c < eps * INR m).
  { pose proof (Rabs_pos c). apply (Rmult_lt_compat_r (INR m * (1 + Rabs c))) in M; [|apply Rmult_lt_0_compat; lra].
    replace (/ INR m * (INR m * (1 + Rabs c))) with (1 + Rabs c) in M by (field; lra).
    replace (eps / (1 + Rabs c) * (INR m * (1 + Rabs c))) with (eps * INR m) in M by (field; lra). exact M. }
  assert (Q2 : eps * INR m <= eps * INR (n - 1)) by (apply Rmult_le_compat_l; lra).
  pose proof (Rle_abs c). apply (Rmult_lt_reg_r (INR (n - 1))); [exact Pn|].
  replace (c / INR (n - 1) * INR (n - 1)) with c by (field; lra). lra.
Qed.
(** Below the lower end the "probability" is negative, so that of the complementary event exceeds 1. *)
Theorem c74_negative_refuted : forall h n mult ens a t, 0 < h -> (2 <= n)%nat -> lower_end mult ens a -> t < a ->
  exists p, ens_to_prob_kde h n mult (t :: ens) = Ok p /\ p < 0 /\ 1 < 1 - p.
Proof.
  intros h n mult ens a t H N L T. destruct (lower_end_from _ _ _ L) as [He ->].
  exists (kde_value h n (kde_from mult ens) t ens). split; [apply kde_ok; assumption|].
  destruct (value_sign h H ens He n (kde_from mult ens) t N) as (_ & P & _). specialize (P T). lra.
Qed.
(** Whatever the ensemble and the number of samples, all large enough thresholds give more than 1. *)
Theorem c74_above_one_refuted : forall h n mult ens, 0 < h -> (2 <= n)%nat -> ens <> [] ->
  exists t0, forall t, t0 <= t -> exists p, ens_to_prob_kde h n mult (t :: ens) = Ok p /\ 1 < p.
Proof.
  intros h n mult ens H N He. set (a := kde_from mult ens).
  pose proof (density_pos h H ens He a) as D. assert (Pn : 0 < INR (n - 1)) by (apply lt_0_INR; lia).
  exists (a + 2 * (INR (n - 1) / kde_density h ens a)). intros t T.
  exists (kde_value h n a t ens). split; [apply kde_ok; assumption|].
  assert (Q : 0 < INR (n - 1) / kde_density h ens a) by (apply Rdiv_lt_0_compat; auto).
  eapply Rlt_le_trans; [|apply value_large; [exact H|exact He|exact N|lra]].
  assert (L : 2 <= kde_density h ens a * ((t - a) / INR (n - 1))).
  { replace 2 with (kde_density h ens a * ((2 * (INR (n - 1) / kde_density h ens a)) / INR (n - 1))) by (field; split; lra).
    apply Rmult_le_compat_l; [lra|]. unfold Rdiv at 1 3. apply Rmult_le_compat_r; [left; apply Rinv_0_lt_compat; auto|lra]. }
  lra.
Qed.
(** If all members agree the integral starts at the members: the probability of a threshold above all of them stays below one half
    as soon as there are enough samples. *)
Theorem c74_agreeing_members_refuted : forall h mult ens v t, 0 < h -> ens <> [] -> (forall e, In e ens -> e = v) -> v <= t ->
  exists n0, forall n, (n0 <= n)%nat -> exists p, ens_to_prob_kde h n mult (t :: ens) = Ok p /\ p < / 2.
Proof.
  intros h mult ens v t H He V T.
  assert (L : lower_end mult ens v).
  { destruct (lower_end_exists mult ens He) as [a La]. destruct (lower_end_from _ _ _ La) as [_ Ea]. rewrite (kde_from_const mult v ens He V) in Ea. subst a. exact La. }
  pose proof (kde_cdf_range h ens He t) as R. change (kde_cdf h ens t) with (mixture h ens t) in R.
  destruct (c74_limit_partial h mult ens v t H L T (1 - mixture h ens t) ltac:(lra)) as [n0 N0].
  exists n0. intros n N. destruct (N0 n N) as (p & Ep & B). exists p. split; [exact Ep|].
  replace (mixture h ens v) with (/ 2) in B by (symmetry; apply (kde_cdf_const h v ens He V)).
  apply Rabs_def2 in B. lra.
Qed.
(** Unusable settings are rejected. *)
Theorem c74_rejects : forall h n mult ens t,
  (ens = [] \/ h <= 0 -> ens_to_prob_kde h n mult (t :: ens) = Raise ValueError) /\
  (ens <> [] -> 0 < h -> (n < 2)%nat -> ens_to_prob_kde h n mult (t :: ens) = Raise IndexError).
Proof.
  intros h n mult ens t. split.
  - intros [->|H]; [reflexivity|]. destruct ens as [|e l]; [reflexivity|]. cbn. destruct (Rle_dec h 0); [reflexivity|lra].
  - intros He H N. destruct ens as [|e l]; [congruence|]. unfold ens_to_prob_kde. destruct (Rle_dec h 0); [lra|].
    destruct n as [|[|n]]; [reflexivity|reflexivity|lia].
Qed.

(** Members 0 and 1: with the default settings the integral starts at -5; at threshold 2 the result is that probability up to the error
    bound, at threshold -6 it is negative; three members at 0 and the threshold 1. *)
Example c74_case :
  lower_end 5 [0; 1] (-5) /\
  (exists p, ens_to_prob_kde (1 / 100) 1000 5 [-6; 0; 1] = Ok p /\ p < 0) /\
  (exists p, ens_to_prob_kde 1 50 5 [2; 0; 1] = Ok p /\ Rabs (p - (mixture 1 [0; 1] 2 - mixture 1 [0; 1] (-5))) <= 7 / INR (50 - 1) * (7 / (1 * 1) + / 1)) /\
  (exists n0, forall n, (n0 <= n)%nat -> exists p, ens_to_prob_kde (1 / 100) n 5 [1; 0; 0; 0] = Ok p /\ p < / 2) /\
  (exists t0, forall t, t0 <= t -> exists p, ens_to_prob_kde (1 / 100) 1000 5 [t; 0; 1] = Ok p /\ 1 < p).
Proof.
  assert (L : lower_end 5 [0; 1] (-5)).
  { exists 0, 1. split; [left; auto|split; [right; left; auto|split; [|lra]]]. intros e [<-|[<-|[]]]; lra. }
  split; [exact L|split].
  - destruct (c74_negative_refuted (1 / 100) 1000 5 [0; 1] (-5) (-6) ltac:(lra) ltac:(apply Nat.leb_le; reflexivity) L ltac:(lra)) as (p & E & P & _). exists p. auto.
  - split; [|split].
    + destruct (c74_integral_partial 1 50 5 [0; 1] (-5) 2 ltac:(lra) ltac:(apply Nat.leb_le; reflexivity) L ltac:(lra)) as (p & E & _ & B).
      exists p. split; [exact E|]. replace (2 - -5) with 7 in B by ring. exact B.
    + apply (c74_agreeing_members_refuted (1 / 100) 5 [0; 0; 0] 0 1); [lra|discriminate| |lra]. intros e [<-|[<-|[<-|[]]]]; reflexivity.
    + apply (c74_above_one_refuted (1 / 100) 1000 5 [0; 1]); [lra|apply Nat.leb_le; reflexivity|discriminate].
Qed.
Print Assumptions c74_integral_partial.
Print Assumptions c74_limit_partial.
Print Assumptions c74_negative_refuted.
Print Assumptions c74_above_one_refuted.
Print Assumptions c74_agreeing_members_refuted.
Print Assumptions c74_rejects.
