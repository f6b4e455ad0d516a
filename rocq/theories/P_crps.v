(** Proofs about the closed forms of the CRPS. *)
From Coq Require Import Reals List Bool Arith Lra Psatz.
From Coquelicot Require Import Coquelicot.
From Verif Require Import Num NdArr R_gauss M_crps Spec_crps.
Open Scope R_scope.

(** ** Improper integrals *)
Lemma gen_both (f A B : R -> R) (LA LB A0 B0 : R) :
  (forall a b, a < A0 -> B0 < b -> is_RInt f a b (A a + B b)) ->
  is_lim A m_infty LA -> is_lim B p_infty LB ->
  is_RInt_gen f (Rbar_locally m_infty) (Rbar_locally p_infty) (LA + LB).
Proof.
  intros I LimA LimB P [eps HP]. apply is_lim_spec in LimA. apply is_lim_spec in LimB.
  assert (E : 0 < eps / 2) by (pose proof (cond_pos eps); lra).
  destruct (LimA (mkposreal _ E)) as [MA HA]. destruct (LimB (mkposreal _ E)) as [MB HB]. cbn in HA, HB.
  exists (fun a => a < A0 /\ a < MA) (fun b => B0 < b /\ MB < b).
  - exists (Rmin A0 MA). intros x Hx. split; eapply Rlt_le_trans; [exact Hx|apply Rmin_l|exact Hx|apply Rmin_r].
  - exists (Rmax B0 MB). intros x Hx. split; (eapply Rle_lt_trans; [|exact Hx]); [apply Rmax_l|apply Rmax_r].
  - intros a b [a1 a2] [b1 b2]. exists (A a + B b). split; [apply I; assumption|]. apply HP.
    specialize (HA a a2). specialize (HB b b2). unfold ball; cbn. unfold AbsRing_ball, abs, minus, plus, opp; cbn.
    replace (A a + B b + - (LA + LB)) with ((A a - LA) + (B b - LB)) by ring.
    eapply Rle_lt_trans; [apply Rabs_triang|]. lra.
Qed.
Lemma gen_nonneg (f : R -> R) v :
  (forall x, 0 <= f x) -> is_RInt_gen f (Rbar_locally m_infty) (Rbar_locally p_infty) v -> 0 <= v.
Proof.
  intros N I. destruct (Rle_lt_dec 0 v) as [?|V]; [assumption|exfalso].
  destruct (I (fun y => y < 0)) as [Q T HQ HT H].
  - assert (E : 0 < - v) by lra. exists (mkposreal _ E). intros y Hy. unfold ball in Hy; cbn in Hy. unfold AbsRing_ball, abs, minus, plus, opp in Hy; cbn in Hy. apply Rabs_def2 in Hy. lra.
  - destruct HQ as [MQ HQ]. destruct HT as [MT HT].
    destruct (H (Rmin MQ MT - 1) (Rmax MQ MT + 1)) as (y & Iy & Ny).
    + apply HQ. pose proof (Rmin_l MQ MT). lra.
    + apply HT. pose proof (Rmax_r MQ MT). lra.
    + cbn in Iy. assert (0 <= y); [|lra]. eapply is_RInt_ge_0; [|exact Iy|intros; apply N].
      pose proof (Rmin_l MQ MT). pose proof (Rmax_l MQ MT). lra.
Qed.
Lemma gen_unique (f : R -> R) v w :
  is_RInt_gen f (Rbar_locally m_infty) (Rbar_locally p_infty) v ->
  is_RInt_gen f (Rbar_locally m_infty) (Rbar_locally p_infty) w -> v = w.
Proof.
  intros V W. rewrite <- (is_RInt_gen_unique _ _ V). apply is_RInt_gen_unique, W.
Qed.

(** ** Tails of the normal distribution *)
Lemma mills x : 0 < x -> x * (1 - ncdf x) <= npdf x.
Proof.
  intros X. assert (B : forall b, x < b -> x * (ncdf b - ncdf x) <= npdf x).
  { intros b Hb. destruct (MVT_gen (fun b => npdf x - npdf b - x * (ncdf b - ncdf x)) x b (fun b => b * npdf b - x * npdf b)) as (c & Hc & E).
    - intros z _. eapply d_eq; [apply d_minus; [apply d_minus; [apply d_const|apply npdf_derive]|apply d_scal, d_minus; [apply ncdf_derive|apply d_const]]|]. toR; ring.
    - intros z _. apply continuity_pt_filterlim, (dcont (fun b => npdf x - npdf b - x * (ncdf b - ncdf x))). eexists. apply d_minus; [apply d_minus; [apply d_const|apply npdf_derive]|apply d_scal, d_minus; [apply ncdf_derive|apply d_const]].
    - rewrite Rmin_left, Rmax_right in Hc by lra. cbn in E. pose proof (npdf_pos c). pose proof (npdf_pos b).
      assert (0 <= (c * npdf c - x * npdf c) * (b - x)) by (apply Rmult_le_pos; nra). lra. }
  apply (is_lim_le_loc (fun b => x * (ncdf b - ncdf x)) (fun _ => npdf x) p_infty (x * (1 - ncdf x)) (npdf x)).
  - exists x. exact B.
  - apply (is_lim_scal_l (fun b => ncdf b - ncdf x) x p_infty (1 - ncdf x)). apply is_lim_minus'; [apply ncdf_lim|apply is_lim_const].
  - apply is_lim_const.
Qed.
Lemma npdf_lim : is_lim npdf p_infty 0.
Proof.
  pose proof sqrt_2PI_pos as P. apply (is_lim_ext (fun x => bell (x / sqrt 2) * / sqrt (2 * PI))).
  - intros x. unfold npdf, bell, Rdiv. f_equal. f_equal. assert (Q : sqrt 2 * sqrt 2 = 2) by (apply sqrt_sqrt; lra). assert (sqrt 2 <> 0) by (intros Z; rewrite Z in Q; lra). toR. replace (x * / sqrt 2 * (x * / sqrt 2)) with (x * x * / (sqrt 2 * sqrt 2)) by (field; assumption). rewrite Q. ring.
  - replace (Finite 0) with (Finite (0 * / sqrt (2 * PI))) by (f_equal; ring).
    assert (A : is_lim (fun x => bell (x / sqrt 2)) p_infty 0).
    { apply (is_lim_comp bell (fun x => x / sqrt 2) p_infty 0 p_infty); [apply bell_lim| |exists 0; intros y _; discriminate].
      assert (S2 : 0 < sqrt 2) by (apply sqrt_lt_R0; lra).
      apply is_lim_spec. intros M. exists (M * sqrt 2). intros x Hx. apply Rmult_lt_reg_r with (sqrt 2); [exact S2|]. unfold Rdiv. rewrite Rmult_assoc, Rinv_l by lra. lra. }
    apply (is_lim_mult _ _ _ _ _ A (is_lim_const _ _)). exact Logic.I.
Qed.
Lemma npdf_even x : npdf (- x) = npdf x.
Proof. unfold npdf. do 3 f_equal. ring. Qed.

(** ** The antiderivatives *)
Definition K1 (c u : R) : R := u * (ncdf u - c) ^ 2 + 2 * npdf u * (ncdf u - c) - ncdf (u * sqrt 2) / sqrt PI.
Definition K2 (u : R) : R := u * (1 - ncdf u) ^ 2 - 2 * npdf u * (1 - ncdf u) - ncdf (u * sqrt 2) / sqrt PI.
Lemma twin u : sqrt 2 * npdf (u * sqrt 2) / sqrt PI = 2 * npdf u * npdf u.
Proof.
  pose proof PI_RGT_0 as P. assert (S2 : 0 < sqrt 2) by (apply sqrt_lt_R0; lra). assert (SP : 0 < sqrt PI) by (apply sqrt_lt_R0; lra).
  assert (Q : sqrt 2 * sqrt 2 = 2) by (apply sqrt_sqrt; lra). unfold npdf. rewrite sqrt_mult_alt by lra.
  replace (- (u * sqrt 2 * (u * sqrt 2)) / 2) with (- (u * u) / 2 + - (u * u) / 2).
  2:{ replace (u * sqrt 2 * (u * sqrt 2)) with (u * u * (sqrt 2 * sqrt 2)) by ring. rewrite Q. field. }
  rewrite exp_plus. set (e := exp (- (u * u) / 2)). replace (2 * (e / (sqrt 2 * sqrt PI)) * (e / (sqrt 2 * sqrt PI))) with ((2 / (sqrt 2 * sqrt 2)) * (e * e / (sqrt PI * sqrt PI))) by (field; lra).
  rewrite Q. field. lra.
Qed.
Lemma twin_derive u : is_derive (fun u => ncdf (u * sqrt 2) / sqrt PI) u (2 * npdf u * npdf u).
Proof.
  eapply d_eq. apply (d_mult (fun u => ncdf (u * sqrt 2)) (fun _ => / sqrt PI)); [apply (d_comp (fun u => u * sqrt 2) ncdf); [apply d_mult; [apply d_id|apply d_const]|apply ncdf_derive]|apply d_const].
  toR. rewrite <- twin. unfold Rdiv. ring.
Qed.
Lemma K1_derive c u : is_derive (K1 c) u ((ncdf u - c) ^ 2).
Proof.
  assert (D : is_derive (fun u => ncdf u - c) u (npdf u)). { eapply d_eq; [apply d_minus; [apply ncdf_derive|apply d_const]|toR; ring]. }
  assert (E : is_derive (fun u => (ncdf u - c) ^ 2) u (2 * (ncdf u - c) * npdf u)).
  { apply (is_derive_ext (fun u => (ncdf u - c) * (ncdf u - c))); [intros t; toR; ring|]. eapply d_eq; [apply d_mult; exact D|toR; ring]. }
  unfold K1. eapply d_eq.
  - apply d_minus; [apply d_plus; [apply d_mult; [apply d_id|exact E]|apply d_mult; [apply d_scal, npdf_derive|exact D]]|apply twin_derive].
  - toR. ring.
Qed.
Lemma K2_derive u : is_derive K2 u ((1 - ncdf u) ^ 2).
Proof.
  assert (D : is_derive (fun u => 1 - ncdf u) u (- npdf u)). { eapply d_eq; [apply d_minus; [apply d_const|apply ncdf_derive]|toR; ring]. }
  assert (E : is_derive (fun u => (1 - ncdf u) ^ 2) u (- 2 * (1 - ncdf u) * npdf u)).
  { apply (is_derive_ext (fun u => (1 - ncdf u) * (1 - ncdf u))); [intros t; toR; ring|]. eapply d_eq; [apply d_mult; exact D|toR; ring]. }
  unfold K2. eapply d_eq.
  - apply d_minus; [apply d_minus; [apply d_mult; [apply d_id|exact E]|apply d_mult; [apply d_scal, npdf_derive|exact D]]|apply twin_derive].
  - toR. ring.
Qed.
Lemma lin_lim (s : R) : 0 < s -> is_lim (fun u => u * s) p_infty p_infty.
Proof. intros S. apply is_lim_spec. intros M. exists (M / s). intros x Hx. apply Rmult_lt_reg_r with (/ s); [apply Rinv_0_lt_compat, S|]. rewrite Rmult_assoc, Rinv_r by lra. unfold Rdiv in Hx. lra. Qed.
Lemma K2_lim : is_lim K2 p_infty (- / sqrt PI).
Proof.
  assert (S2 : 0 < sqrt 2) by (apply sqrt_lt_R0; lra). assert (SP : 0 < sqrt PI) by (apply sqrt_lt_R0, PI_RGT_0).
  unfold K2. replace (Finite (- / sqrt PI)) with (Finite (0 - 0 - 1 * / sqrt PI)) by (f_equal; ring).
  apply is_lim_minus'; [apply is_lim_minus'|].
  - apply (is_lim_le_le_loc (fun _ => 0) npdf); [|apply is_lim_const|apply npdf_lim]. exists 0. intros y Y. pose proof (ncdf_lt_1 y) as L. pose proof (ncdf_pos y) as G. pose proof (mills y Y). split; [apply Rmult_le_pos; [lra|apply pow2_ge_0]|].
    replace (y * (1 - ncdf y) ^ 2) with (y * (1 - ncdf y) * (1 - ncdf y)) by ring. apply Rle_trans with (npdf y * (1 - ncdf y)); [apply Rmult_le_compat_r; lra|]. pose proof (npdf_pos y). nra.
  - apply (is_lim_le_le_loc (fun _ => 0) (fun y => 2 * npdf y)); [|apply is_lim_const|].
    + exists 0. intros y Y. pose proof (ncdf_lt_1 y) as L. pose proof (ncdf_pos y) as G. pose proof (npdf_pos y). split; [apply Rmult_le_pos; lra|nra].
    + replace (Finite 0) with (Rbar_mult 2 0) by (cbn; f_equal; ring). apply is_lim_scal_l, npdf_lim.
  - assert (A : is_lim (fun x => ncdf (x * sqrt 2)) p_infty 1).
    { apply (is_lim_comp ncdf (fun x => x * sqrt 2) p_infty 1 p_infty); [apply ncdf_lim|apply lin_lim, S2|exists 0; intros y _; discriminate]. }
    apply (is_lim_mult _ _ _ _ _ A (is_lim_const _ _)). exact Logic.I.
Qed.
Lemma K1_K2 u : K1 0 (- u) = - / sqrt PI - K2 u.
Proof.
  unfold K1, K2. rewrite npdf_even, ncdf_sym. replace (- u * sqrt 2) with (- (u * sqrt 2)) by ring. rewrite ncdf_sym. unfold Rdiv. ring.
Qed.
Lemma K1_lim : is_lim (K1 0) m_infty 0.
Proof.
  apply (is_lim_ext (fun u => - / sqrt PI - K2 (- u))). { intros u. rewrite <- (Ropp_involutive u) at 2. symmetry. apply K1_K2. }
  replace (Finite 0) with (Finite (- / sqrt PI - - / sqrt PI)) by (f_equal; ring). apply is_lim_minus'; [apply is_lim_const|].
  apply (is_lim_comp K2 Ropp m_infty (- / sqrt PI) p_infty); [apply K2_lim| |exists 0; intros y _; discriminate].
  replace p_infty with (Rbar_opp m_infty) by reflexivity. apply is_lim_opp, is_lim_id.
Qed.
(** in the variable x, with u = (x - m) / s *)
Lemma std_lim_up (f : R -> R) m s L : 0 < s -> is_lim f p_infty L -> is_lim (fun x => f ((x - m) / s)) p_infty L.
Proof.
  intros S F. apply (is_lim_comp f (fun x => (x - m) / s) p_infty L p_infty); [exact F| |exists 0; intros y _; discriminate].
  apply is_lim_spec. intros M. exists (M * s + m). intros x Hx. apply Rmult_lt_reg_r with s; [exact S|]. unfold Rdiv. rewrite Rmult_assoc, Rinv_l by lra. lra.
Qed.
Lemma std_lim_down (f : R -> R) m s L : 0 < s -> is_lim f m_infty L -> is_lim (fun x => f ((x - m) / s)) m_infty L.
Proof.
  intros S F. apply (is_lim_comp f (fun x => (x - m) / s) m_infty L m_infty); [exact F| |exists 0; intros y _; discriminate].
  apply is_lim_spec. intros M. exists (M * s + m). intros x Hx. apply Rmult_lt_reg_r with s; [exact S|]. unfold Rdiv. rewrite Rmult_assoc, Rinv_l by lra. lra.
Qed.
Lemma std_derive (f : R -> R) m s x a : s <> 0 -> is_derive f ((x - m) / s) a -> is_derive (fun x => s * f ((x - m) / s)) x a.
Proof.
  intros S F. eapply d_eq; [apply d_scal, (d_comp (fun x => (x - m) / s) f); [|exact F]|].
  - apply (d_mult (fun x => x - m) (fun _ => / s)); [apply d_minus; [apply d_id|apply d_const]|apply d_const].
  - toR. field. exact S.
Qed.
Lemma std_derive1 (f : R -> R) m s x a : is_derive f ((x - m) / s) a -> is_derive (fun x => f ((x - m) / s)) x (a / s).
Proof.
  intros F. eapply d_eq; [apply (d_comp (fun x => (x - m) / s) f); [|exact F]|].
  - apply (d_mult (fun x => x - m) (fun _ => / s)); [apply d_minus; [apply d_id|apply d_const]|apply d_const].
  - toR. unfold Rdiv. ring.
Qed.
(** integrating a derivative *)
Lemma ftc (f g : R -> R) a b :
  (forall x, is_derive f x (g x)) -> (forall x, continuous g x) -> is_RInt g a b (f b - f a).
Proof. intros D C. apply (@is_RInt_derive R_CompleteNormedModule f g a b); intros x _; [apply D|apply C]. Qed.
Lemma rint_eq (f : R -> R) a b u v : is_RInt f a b u -> u = v -> is_RInt f a b v.
Proof. intros H <-. exact H. Qed.
Lemma rint_chasles (f : R -> R) a b c u v : is_RInt f a b u -> is_RInt f b c v -> is_RInt f a c (u + v).
Proof. apply (@is_RInt_Chasles R_NormedModule). Qed.
Lemma rint_ext (f g : R -> R) a b u : a <= b -> (forall x, a < x < b -> f x = g x) -> is_RInt f a b u -> is_RInt g a b u.
Proof. intros L E. apply (@is_RInt_ext R_NormedModule). rewrite Rmin_left, Rmax_right by lra. exact E. Qed.
Lemma rint_const (k a b : R) : is_RInt (fun _ => k) a b ((b - a) * k).
Proof. apply (@is_RInt_const R_NormedModule). Qed.

Section Gauss.
Variables m s : R.
Hypothesis S : 0 < s.
Let u x := (x - m) / s.
Lemma u_cont (f : R -> R) x : (forall z, continuous f z) -> continuous (fun x => f (u x)) x.
Proof.
  intros C. apply (@continuous_comp R_UniformSpace R_UniformSpace R_UniformSpace u f); [|apply C].
  apply dcont. unfold u. eexists. apply (d_mult (fun x => x - m) (fun _ => / s)); [apply d_minus; [apply d_id|apply d_const]|apply d_const].
Qed.
Lemma sq_cont (f : R -> R) : (forall z, ex_derive f z) -> forall z, continuous (fun x => (f x) ^ 2) z.
Proof. intros D z. apply (dcont (fun x => f x ^ 2)). destruct (D z) as [d Dz]. exists (d * f z + f z * d). apply (is_derive_ext (fun u => f u * f u)); [intros t; toR; ring|]. apply d_mult; exact Dz. Qed.
Lemma low_int c a b : is_RInt (fun x => (ncdf (u x) - c) ^ 2) a b (s * K1 c (u b) - s * K1 c (u a)).
Proof.
  apply (ftc (fun x => s * K1 c (u x)) (fun x => (ncdf (u x) - c) ^ 2)).
  - intros x. apply std_derive; [lra|]. apply K1_derive.
  - intros x. apply (u_cont (fun z => (ncdf z - c) ^ 2)). apply sq_cont. intros z. eexists. apply d_minus; [apply ncdf_derive|apply d_const].
Qed.
Lemma high_int a b : is_RInt (fun x => (1 - ncdf (u x)) ^ 2) a b (s * K2 (u b) - s * K2 (u a)).
Proof.
  apply (ftc (fun x => s * K2 (u x)) (fun x => (1 - ncdf (u x)) ^ 2)).
  - intros x. apply std_derive; [lra|]. apply K2_derive.
  - intros x. apply (u_cont (fun z => (1 - ncdf z) ^ 2)). apply sq_cont. intros z. eexists. apply d_minus; [apply d_const|apply ncdf_derive].
Qed.

(** ** The closed form of the Gaussian *)
Definition gauss_value (y : R) : R := s * (u y * (2 * ncdf (u y) - 1) + 2 * npdf (u y) - 1 / sqrt PI).
Lemma gauss_crps y : is_crps (normal_cdf m s) y (gauss_value y).
Proof.
  assert (SP : 0 < sqrt PI) by (apply sqrt_lt_R0, PI_RGT_0).
  unfold is_crps. replace (gauss_value y) with (s * (K1 0 (u y) - 0) + s * (- / sqrt PI - K2 (u y))) by (unfold gauss_value, K1, K2; field; lra).
  apply (gen_both _ (fun a => s * (K1 0 (u y) - K1 0 (u a))) (fun b => s * (K2 (u b) - K2 (u y))) _ _ y y).
  - intros a b Ha Hb. apply (rint_chasles _ a y b).
    + apply (rint_ext (fun x => (ncdf (u x) - 0) ^ 2)); [lra| |eapply rint_eq; [apply low_int|toR; ring]].
      intros x Hx. unfold normal_cdf, step_at. destruct (Rle_dec y x); [lra|]. reflexivity.
    + apply (rint_ext (fun x => (1 - ncdf (u x)) ^ 2)); [lra| |eapply rint_eq; [apply high_int|toR; ring]].
      intros x Hx. unfold normal_cdf, step_at. destruct (Rle_dec y x); [|lra]. toR. unfold u. ring.
  - apply (is_lim_scal_l _ s m_infty (K1 0 (u y) - 0)). apply is_lim_minus'; [apply is_lim_const|]. apply (std_lim_down (K1 0)); [exact S|apply K1_lim].
  - apply (is_lim_scal_l _ s p_infty (- / sqrt PI - K2 (u y))). apply is_lim_minus'; [|apply is_lim_const]. apply (std_lim_up K2); [exact S|apply K2_lim].
Qed.
End Gauss.

(** ** The closed form of the truncated Gaussian *)
Section Trunc.
Variables m s l : R.
Hypothesis S : 0 < s.
Let u x := (x - m) / s.
Let c := ncdf (u l).
Let p := 1 - c.
Lemma p_pos : 0 < p.
Proof. unfold p, c. pose proof (ncdf_lt_1 (u l)). lra. Qed.
Lemma u_le x y : x <= y -> u x <= u y.
Proof. intros H. unfold u, Rdiv. apply Rmult_le_compat_r; [apply Rlt_le, Rinv_0_lt_compat, S|lra]. Qed.
Lemma u_lt x y : x < y -> u x < u y.
Proof. intros H. unfold u, Rdiv. apply Rmult_lt_compat_r; [apply Rinv_0_lt_compat, S|lra]. Qed.
(** what the code computes in one cell *)
Definition trunc_value (y : R) : R :=
  let z := if rltb (u y) (u l) then u l else u y in
  (Rabs (u y - z) + 1 / (1 - ncdf (u l)) * z * (2 * ncdf z - 1 - ncdf (u l)) + 1 / (1 - ncdf (u l)) * 2 * npdf z
   - (1 / (1 - ncdf (u l))) ^ 2 * 1 / sqrt PI * (1 - ncdf (u l * sqrt 2))) * s.
Definition base : R := s / p ^ 2 * (- / sqrt PI - K1 c (u l)).
Lemma trunc_above y : l <= y -> trunc_value y = s / p * (u y * (2 * ncdf (u y) - 1 - c) + 2 * npdf (u y)) + base.
Proof.
  intros H. assert (SP : 0 < sqrt PI) by (apply sqrt_lt_R0, PI_RGT_0). pose proof p_pos as P. unfold trunc_value, base, rltb.
  pose proof (u_le l y H). destruct (Rlt_dec (u y) (u l)); [lra|]. rewrite Rminus_eq_0, Rabs_R0. unfold K1. fold c. fold p. field. lra.
Qed.
Lemma trunc_below y : y <= l -> trunc_value y = l - y + trunc_value l.
Proof.
  intros H. pose proof (u_le y l H). unfold trunc_value at 2. unfold rltb. destruct (Rlt_dec (u l) (u l)); [lra|].
  assert (A : s * (u l - u y) = l - y) by (unfold u; field; lra). unfold trunc_value, rltb. destruct (Rlt_dec (u y) (u l)) as [L|L].
  - rewrite Rminus_eq_0, Rabs_R0. replace (Rabs (u y - u l)) with (u l - u y) by (rewrite Rabs_left by lra; ring). rewrite <- A. ring.
  - assert (E : u y = u l) by lra. rewrite !E, Rminus_eq_0 in *. rewrite <- A. ring.
Qed.
Lemma F_above x : l <= x -> truncated_cdf m s l x = (ncdf (u x) - c) / p.
Proof. intros H. unfold truncated_cdf. destruct (Rlt_dec x l); [lra|]. reflexivity. Qed.
Lemma F_below x : x < l -> truncated_cdf m s l x = 0.
Proof. intros H. unfold truncated_cdf. destruct (Rlt_dec x l); [reflexivity|lra]. Qed.
Lemma low_trunc a b : is_RInt (fun x => ((ncdf (u x) - c) / p) ^ 2) a b (s / p ^ 2 * (K1 c (u b) - K1 c (u a))).
Proof.
  pose proof p_pos as P. eapply rint_eq.
  - apply (@is_RInt_ext R_NormedModule (fun x => scal (/ p ^ 2) ((ncdf (u x) - c) ^ 2))); [|apply (@is_RInt_scal R_NormedModule), low_int; exact S].
    intros x _. unfold scal; cbn; unfold mult; cbn. toR. field. lra.
  - unfold scal; cbn; unfold mult; cbn. toR. fold (u a). fold (u b). field. lra.
Qed.
Lemma high_trunc a b : is_RInt (fun x => (1 - (ncdf (u x) - c) / p) ^ 2) a b (s / p ^ 2 * (K2 (u b) - K2 (u a))).
Proof.
  pose proof p_pos as P. eapply rint_eq.
  - apply (@is_RInt_ext R_NormedModule (fun x => scal (/ p ^ 2) ((1 - ncdf (u x)) ^ 2))); [|apply (@is_RInt_scal R_NormedModule), high_int; exact S].
    intros x _. unfold scal; cbn; unfold mult; cbn. toR. replace (1 - (ncdf (u x) - c) / p) with ((1 - ncdf (u x)) / p); [field; lra|]. unfold p in *. field. lra.
  - unfold scal; cbn; unfold mult; cbn. toR. fold (u a). fold (u b). field. lra.
Qed.
Lemma trunc_crps y : is_crps (truncated_cdf m s l) y (trunc_value y).
Proof.
  assert (SP : 0 < sqrt PI) by (apply sqrt_lt_R0, PI_RGT_0). pose proof p_pos as P. unfold is_crps.
  assert (LB : forall v, is_lim (fun b => v + s / p ^ 2 * (K2 (u b) - K2 (u (Rmax l y)))) p_infty (v + s / p ^ 2 * (- / sqrt PI - K2 (u (Rmax l y))))).
  { intros v. apply is_lim_plus'; [apply is_lim_const|]. apply (is_lim_scal_l _ _ p_infty (- / sqrt PI - K2 (u (Rmax l y)))). apply is_lim_minus'; [|apply is_lim_const]. apply (std_lim_up K2); [exact S|apply K2_lim]. }
  destruct (Rle_lt_dec l y) as [H|H].
  - rewrite Rmax_right in LB by exact H.
    replace (trunc_value y) with (0 + (s / p ^ 2 * (K1 c (u y) - K1 c (u l)) + s / p ^ 2 * (- / sqrt PI - K2 (u y)))).
    2:{ rewrite trunc_above by exact H. unfold base, K1, K2. unfold p in *. field. lra. }
    apply (gen_both _ (fun _ => 0) (fun b => s / p ^ 2 * (K1 c (u y) - K1 c (u l)) + s / p ^ 2 * (K2 (u b) - K2 (u y))) _ _ l y).
    + intros a b Ha Hb. apply (rint_chasles _ a l b); [|apply (rint_chasles _ l y b)].
      * apply (rint_ext (fun _ => 0)); [lra| |eapply rint_eq; [apply rint_const|toR; ring]].
        intros x Hx. rewrite F_below by lra. unfold step_at. destruct (Rle_dec y x); [lra|]. toR. ring.
      * apply (rint_ext (fun x => ((ncdf (u x) - c) / p) ^ 2)); [lra| |apply low_trunc].
        intros x Hx. rewrite F_above by lra. unfold step_at. destruct (Rle_dec y x); [lra|]. toR. ring.
      * apply (rint_ext (fun x => (1 - (ncdf (u x) - c) / p) ^ 2)); [lra| |apply high_trunc].
        intros x Hx. rewrite F_above by lra. unfold step_at. destruct (Rle_dec y x); [|lra]. toR. ring.
    + apply is_lim_const.
    + apply LB.
  - rewrite Rmax_left in LB by lra.
    replace (trunc_value y) with (0 + ((l - y) + s / p ^ 2 * (- / sqrt PI - K2 (u l)))).
    2:{ rewrite trunc_below, trunc_above by lra. unfold base, K1, K2. fold c. unfold p in *. field. lra. }
    apply (gen_both _ (fun _ => 0) (fun b => (l - y) + s / p ^ 2 * (K2 (u b) - K2 (u l))) _ _ y l).
    + intros a b Ha Hb. apply (rint_chasles _ a y b); [|apply (rint_chasles _ y l b)].
      * apply (rint_ext (fun _ => 0)); [lra| |eapply rint_eq; [apply rint_const|toR; ring]].
        intros x Hx. rewrite F_below by lra. unfold step_at. destruct (Rle_dec y x); [lra|]. toR. ring.
      * apply (rint_ext (fun _ => 1)); [lra| |eapply rint_eq; [apply rint_const|toR; ring]].
        intros x Hx. rewrite F_below by lra. unfold step_at. destruct (Rle_dec y x); [|lra]. toR. ring.
      * apply (rint_ext (fun x => (1 - (ncdf (u x) - c) / p) ^ 2)); [lra| |apply high_trunc].
        intros x Hx. rewrite F_above by lra. unfold step_at. destruct (Rle_dec y x); [|lra]. toR. ring.
    + apply is_lim_const.
    + apply LB.
Qed.
(** *** The shape of the score as a function of the observation *)
Let above y := s / p * (u y * (2 * ncdf (u y) - 1 - c) + 2 * npdf (u y)) + base.
Lemma above_derive y : is_derive above y (2 * ((ncdf (u y) - c) / p) - 1).
Proof.
  pose proof p_pos as P. unfold above. eapply d_eq.
  - apply d_plus; [|apply d_const].
    apply (is_derive_ext (fun y => s * (/ p * (u y * (2 * ncdf (u y) - 1 - c) + 2 * npdf (u y))))). { intros t. toR. field. lra. }
    apply (std_derive (fun v => / p * (v * (2 * ncdf v - 1 - c) + 2 * npdf v)) m s); [lra|]. apply d_scal, d_plus.
    + apply d_mult; [apply d_id|]. apply d_minus; [|apply d_const]. apply d_minus; [|apply d_const]. apply d_scal, ncdf_derive.
    + apply d_scal, npdf_derive.
  - toR. fold (u y). unfold p in *. field. lra.
Qed.
Lemma trunc_slope_above y : l < y -> is_derive trunc_value y (2 * truncated_cdf m s l y - 1).
Proof.
  intros H. rewrite F_above by lra. apply (is_derive_ext_loc above); [|apply above_derive].
  assert (E : 0 < y - l) by lra. exists (mkposreal _ E). intros t Ht. unfold ball in Ht; cbn in Ht. unfold AbsRing_ball, abs, minus, plus, opp in Ht; cbn in Ht. apply Rabs_def2 in Ht.
  unfold above. symmetry. apply trunc_above. lra.
Qed.
Lemma trunc_slope_below y : y < l -> is_derive trunc_value y (-1).
Proof.
  intros H. apply (is_derive_ext_loc (fun y => l - y + trunc_value l)).
  - assert (E : 0 < l - y) by lra. exists (mkposreal _ E). intros t Ht. unfold ball in Ht; cbn in Ht. unfold AbsRing_ball, abs, minus, plus, opp in Ht; cbn in Ht. apply Rabs_def2 in Ht.
    symmetry. apply trunc_below. lra.
  - eapply d_eq; [apply d_plus; [apply d_minus; [apply d_const|apply d_id]|apply d_const]|toR; ring].
Qed.
Lemma trunc_cont y : continuous trunc_value y.
Proof.
  destruct (Rtotal_order y l) as [H|[->|H]].
  - apply dcont. eexists. apply trunc_slope_below, H.
  - assert (CA : continuous above l) by (apply dcont; eexists; apply above_derive).
    assert (CB : continuous (fun y => l - y + trunc_value l) l) by (apply (dcont (fun y => l - y + trunc_value l)); eexists; apply d_plus; [apply d_minus; [apply d_const|apply d_id]|apply d_const]).
    intros P HP. specialize (CA P). specialize (CB P). cbv beta in CB. replace (l - l + trunc_value l) with (trunc_value l) in CB by ring. replace (above l) with (trunc_value l) in CA by (apply trunc_above; lra).
    specialize (CA HP). specialize (CB HP). unfold filtermap in *. generalize (filter_and _ _ CA CB). apply filter_imp. intros x [A B].
    destruct (Rle_lt_dec l x) as [X|X]; [rewrite trunc_above by exact X; exact A|rewrite trunc_below by lra; exact B].
  - apply dcont. eexists. apply trunc_slope_above, H.
Qed.
Lemma F_lt x y : l <= x -> x < y -> truncated_cdf m s l x < truncated_cdf m s l y.
Proof.
  intros H1 H2. rewrite !F_above by lra. unfold Rdiv. apply Rmult_lt_compat_r; [apply Rinv_0_lt_compat, p_pos|]. pose proof (ncdf_lt _ _ (u_lt x y H2)). lra.
Qed.
Lemma trunc_min q : truncated_cdf m s l q = 1 / 2 -> forall y, y <> q -> trunc_value q < trunc_value y.
Proof.
  intros Q y N. assert (L : l < q). { destruct (Rlt_le_dec l q) as [?|[?|E]]; [assumption|rewrite F_below in Q; lra|]. rewrite E in Q. rewrite F_above in Q by lra. unfold c in Q. unfold Rdiv in Q at 1. rewrite Rminus_eq_0 in Q. lra. }
  assert (UP : forall a b, q <= a -> a < b -> trunc_value a < trunc_value b).
  { intros a b Ha Hb. destruct (MVT_gen trunc_value a b (fun y => 2 * truncated_cdf m s l y - 1)) as (z & Hz & E).
    - intros x. rewrite Rmin_left, Rmax_right by lra. intros Hx. apply trunc_slope_above. lra.
    - intros x _. apply continuity_pt_filterlim, trunc_cont.
    - rewrite Rmin_left, Rmax_right in Hz by lra.
      destruct (Req_dec z q) as [Z|Z]; [|pose proof (F_lt q z ltac:(lra) ltac:(lra)); nra].
      (* the mean value is taken at the median: use a point in between *)
      subst z. assert (a = q) by lra. subst a.
      destruct (MVT_gen trunc_value ((q + b) / 2) b (fun y => 2 * truncated_cdf m s l y - 1)) as (z & Hz' & E').
      + intros x. rewrite Rmin_left, Rmax_right by lra. intros Hx. apply trunc_slope_above. lra.
      + intros x _. apply continuity_pt_filterlim, trunc_cont.
      + rewrite Rmin_left, Rmax_right in Hz' by lra. pose proof (F_lt q z ltac:(lra) ltac:(lra)).
        destruct (MVT_gen trunc_value q ((q + b) / 2) (fun y => 2 * truncated_cdf m s l y - 1)) as (z2 & Hz2 & E2).
        * intros x. rewrite Rmin_left, Rmax_right by lra. intros Hx. apply trunc_slope_above. lra.
        * intros x _. apply continuity_pt_filterlim, trunc_cont.
        * rewrite Rmin_left, Rmax_right in Hz2 by lra.
          assert (1 / 2 <= truncated_cdf m s l z2) by (destruct (Req_dec z2 q) as [->|]; [lra|pose proof (F_lt q z2 ltac:(lra) ltac:(lra)); lra]).
          nra. }
  assert (DOWN : forall a b, l <= a -> a < b -> b <= q -> trunc_value b < trunc_value a).
  { intros a b Ha Hb Hq. set (w := (a + b) / 2).
    destruct (MVT_gen trunc_value a w (fun y => 2 * truncated_cdf m s l y - 1)) as (z & Hz & E).
    - intros x. unfold w. rewrite Rmin_left, Rmax_right by lra. intros Hx. apply trunc_slope_above. lra.
    - intros x _. apply continuity_pt_filterlim, trunc_cont.
    - destruct (MVT_gen trunc_value w b (fun y => 2 * truncated_cdf m s l y - 1)) as (z2 & Hz2 & E2).
      + intros x. unfold w. rewrite Rmin_left, Rmax_right by lra. intros Hx. apply trunc_slope_above. lra.
      + intros x _. apply continuity_pt_filterlim, trunc_cont.
      + unfold w in *. rewrite Rmin_left, Rmax_right in Hz, Hz2 by lra.
        pose proof (F_lt z q ltac:(lra) ltac:(lra)).
        assert (truncated_cdf m s l z2 <= 1 / 2) by (destruct (Req_dec z2 q) as [->|]; [lra|pose proof (F_lt z2 q ltac:(lra) ltac:(lra)); lra]).
        nra. }
  destruct (Rtotal_order y q) as [Y|[Y|Y]]; [|contradiction|apply UP; lra].
  destruct (Rle_lt_dec l y) as [H|H]; [apply DOWN; lra|].
  rewrite (trunc_below y) by lra. pose proof (DOWN l q ltac:(lra) L ltac:(lra)). lra.
Qed.
End Trunc.

Lemma trunc_to_gauss m s y : 0 < s -> is_lim (fun l => trunc_value m s l y) m_infty (gauss_value m s y).
Proof.
  intros S. assert (SP : 0 < sqrt PI) by (apply sqrt_lt_R0, PI_RGT_0). assert (S2 : 0 < sqrt 2) by (apply sqrt_lt_R0; lra).
  set (t := (y - m) / s). set (C l := ncdf ((l - m) / s)). set (D l := ncdf ((l - m) / s * sqrt 2)).
  assert (LC : is_lim C m_infty 0) by (apply (std_lim_down ncdf); [exact S|apply ncdf_lim_m]).
  assert (LD : is_lim D m_infty 0).
  { apply (std_lim_down (fun v => ncdf (v * sqrt 2))); [exact S|]. apply (is_lim_comp ncdf (fun v => v * sqrt 2) m_infty 0 m_infty); [apply ncdf_lim_m| |exists 0; intros ? _; discriminate].
    apply is_lim_spec. intros M. exists (M / sqrt 2). intros x Hx. apply Rmult_lt_reg_r with (/ sqrt 2); [apply Rinv_0_lt_compat, S2|]. rewrite Rmult_assoc, Rinv_r by lra. unfold Rdiv in Hx. lra. }
  assert (LI : is_lim (fun l => / (1 - C l)) m_infty 1).
  { replace (Finite 1) with (Rbar_inv (1 - 0)) by (cbn; f_equal; field). apply is_lim_inv; [apply is_lim_minus'; [apply is_lim_const|exact LC]|]. cbn. intros E. apply Rbar_finite_eq in E. lra. }
  apply (is_lim_ext_loc (fun l => ((t * (2 * ncdf t - 1 - C l) + 2 * npdf t) * / (1 - C l) - (/ (1 - C l) * / (1 - C l)) * (/ sqrt PI * (1 - D l))) * s)).
  - exists y. intros l L. rewrite (trunc_above m s l S y) by lra. unfold base, K1. fold t. fold (C l). fold (D l). assert (C l < 1) by apply ncdf_lt_1. field. lra.
  - replace (gauss_value m s y) with (((t * (2 * ncdf t - 1 - 0) + 2 * npdf t) * 1 - (1 * 1) * (/ sqrt PI * (1 - 0))) * s) by (unfold gauss_value; fold t; field; lra).
    assert (MUL : forall f g a b, is_lim f m_infty (Finite a) -> is_lim g m_infty (Finite b) -> is_lim (fun x => f x * g x) m_infty (Finite (a * b))).
    { intros f g a b A B. apply (is_lim_mult f g m_infty a b A B). exact Logic.I. }
    apply MUL; [|apply is_lim_const]. apply is_lim_minus'.
    + apply MUL; [|exact LI]. apply is_lim_plus'; [|apply is_lim_const]. apply MUL; [apply is_lim_const|]. apply is_lim_minus'; [apply is_lim_const|exact LC].
    + apply MUL; [apply MUL; exact LI|]. apply MUL; [apply is_lim_const|]. apply is_lim_minus'; [apply is_lim_const|exact LD].
Qed.
