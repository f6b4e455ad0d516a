(** Proofs about the closed form of the CRPS of the shifted gamma distribution. *)
From Coq Require Import Reals List Bool Arith Lra Psatz.
From Coquelicot Require Import Coquelicot.
From Verif Require Import Num NdArr R_gauss M_crps Spec_crps P_crps.
Open Scope R_scope.

(** a continuous function whose derivative is known except at 0, where it would be continuous *)
Lemma flat (h : R -> R) : (forall x, x <> 0 -> is_derive h x 0) -> continuous h 0 -> forall x, h x = h 0.
Proof.
  intros D C x. assert (CC : forall z, continuity_pt h z).
  { intros z. apply continuity_pt_filterlim. destruct (Req_dec z 0) as [->|Z]; [exact C|]. apply dcont. eexists. apply D, Z. }
  destruct (MVT_gen h 0 x (fun _ => 0)) as (c & _ & E).
  - intros z [Z1 Z2]. apply D. intros ->. unfold Rmin, Rmax in *. destruct (Rle_dec 0 x); lra.
  - intros z _. apply CC.
  - lra.
Qed.
Lemma derive_everywhere (f g : R -> R) :
  (forall x, x <> 0 -> is_derive f x (g x)) -> continuous f 0 -> (forall x, continuous g x) -> forall x, is_derive f x (g x).
Proof.
  intros D C G. assert (I : forall x, is_derive (fun x => RInt g 0 x) x (g x)).
  { intros x. apply (is_derive_RInt g (fun x => RInt g 0 x) 0 x); [|apply G]. exists (mkposreal 1 Rlt_0_1). intros y _. apply (@RInt_correct R_CompleteNormedModule). apply cont_int, G. }
  assert (E : forall x, f x - RInt g 0 x = f 0 - RInt g 0 0).
  { apply (flat (fun x => f x - RInt g 0 x)).
    - intros x X. eapply d_eq; [apply d_minus; [apply D, X|apply I]|toR; ring].
    - apply (@continuous_minus R_UniformSpace R_AbsRing R_NormedModule f (fun x => RInt g 0 x)); [exact C|]. apply (dcont (fun x => RInt g 0 x)). eexists. apply I. }
  intros x. apply (is_derive_ext (fun x => f 0 + RInt g 0 x)).
  - intros t. specialize (E t). assert (E0 : @eq R (RInt g 0 0) 0) by (rewrite RInt_point; reflexivity). rewrite E0 in E. toR. change (@eq R (f t - RInt g 0 t) (f 0 - 0)) in E. generalize dependent (RInt g 0 t). intros; lra.
  - eapply d_eq; [apply d_plus; [apply d_const|apply I]|toR; ring].
Qed.

Section Std.
Variables (G : R -> R) (cdf : R -> R -> R) (k : R).
Hypothesis K : 0 < k.
Hypothesis L : gamma_lib G cdf k.
Definition gpdf (j x : R) : R := if Rle_dec x 0 then 0 else Rpower x (j - 1) * exp (- x) / G j.
Lemma gcdf_derive j x : is_gamma_cdf G cdf j -> x <> 0 -> is_derive (cdf j) x (gpdf j x).
Proof.
  intros (N & D & _ & _) X. unfold gpdf. destruct (Rle_dec x 0) as [H|H].
  - apply (is_derive_ext_loc (fun _ => 0)); [|apply d_const]. assert (E : 0 < - x) by lra. exists (mkposreal _ E). intros t Ht. unfold ball in Ht; cbn in Ht. unfold AbsRing_ball, abs, minus, plus, opp in Ht; cbn in Ht. apply Rabs_def2 in Ht. symmetry. apply N. lra.
  - apply D. lra.
Qed.
Lemma gcdf_cont j x : is_gamma_cdf G cdf j -> continuous (cdf j) x.
Proof. intros C. destruct (Req_dec x 0) as [->|X]; [apply C|]. apply dcont. eexists. apply gcdf_derive; assumption. Qed.
Lemma gcdf_mono j x y : 0 < G j -> is_gamma_cdf G cdf j -> x <= y -> cdf j x <= cdf j y.
Proof.
  intros Gj C H. assert (M : forall a b, 0 <= a -> a < b -> cdf j a < cdf j b).
  { intros a b A B. destruct (MVT_gen (cdf j) a ((a + b) / 2) (gpdf j)) as (c & Hc & E).
    - intros z. rewrite Rmin_left, Rmax_right by lra. intros Hz. apply gcdf_derive; [exact C|lra].
    - intros z _. apply continuity_pt_filterlim, gcdf_cont, C.
    - destruct (MVT_gen (cdf j) ((a + b) / 2) b (gpdf j)) as (c2 & Hc2 & E2).
      + intros z. rewrite Rmin_left, Rmax_right by lra. intros Hz. apply gcdf_derive; [exact C|lra].
      + intros z _. apply continuity_pt_filterlim, gcdf_cont, C.
      + rewrite Rmin_left, Rmax_right in Hc, Hc2 by lra.
        assert (P : forall w, 0 < w -> 0 < gpdf j w). { intros w W. unfold gpdf. destruct (Rle_dec w 0); [lra|]. apply Rdiv_lt_0_compat; [|exact Gj]. apply Rmult_lt_0_compat; apply exp_pos. }
        pose proof (P c2 ltac:(lra)). assert (0 <= gpdf j c). { unfold gpdf. destruct (Rle_dec c 0); [lra|]. apply Rlt_le. generalize (P c ltac:(lra)). unfold gpdf. destruct (Rle_dec c 0); [lra|auto]. }
        nra. }
  destruct (Rle_lt_dec 0 x) as [X|X].
  - destruct (Req_dec x y) as [->|N]; [lra|]. apply Rlt_le, M; lra.
  - rewrite (proj1 C x) by lra. destruct (Rle_lt_dec y 0) as [Y|Y]; [rewrite (proj1 C y) by lra; lra|]. rewrite <- (proj1 C 0) by lra. apply Rlt_le, M; lra.
Qed.
Lemma gcdf_strict j x y : 0 < G j -> is_gamma_cdf G cdf j -> 0 <= x -> x < y -> cdf j x < cdf j y.
Proof.
  intros Gj C X Y. destruct (MVT_gen (cdf j) ((x + y) / 2) y (gpdf j)) as (c & Hc & E).
  - intros z. rewrite Rmin_left, Rmax_right by lra. intros Hz. apply gcdf_derive; [exact C|lra].
  - intros z _. apply continuity_pt_filterlim, gcdf_cont, C.
  - rewrite Rmin_left, Rmax_right in Hc by lra. pose proof (gcdf_mono j x ((x + y) / 2) Gj C ltac:(lra)).
    assert (0 < gpdf j c). { unfold gpdf. destruct (Rle_dec c 0); [lra|]. apply Rdiv_lt_0_compat; [|exact Gj]. apply Rmult_lt_0_compat; apply exp_pos. }
    nra.
Qed.
Lemma gcdf_le_1 j x : 0 < G j -> is_gamma_cdf G cdf j -> cdf j x <= 1.
Proof.
  intros Gj C. apply (is_lim_le_loc (fun _ => cdf j x) (cdf j) p_infty (cdf j x) 1); [|apply is_lim_const|apply C].
  exists x. intros y Y. apply gcdf_mono; [exact Gj|exact C|lra].
Qed.
Lemma gcdf_ge_0 j x : 0 < G j -> is_gamma_cdf G cdf j -> 0 <= cdf j x.
Proof.
  intros Gj C. destruct (Rle_lt_dec x 0) as [X|X]; [rewrite (proj1 C x X); lra|]. rewrite <- (proj1 C 0) by lra. apply gcdf_mono; [exact Gj|exact C|lra].
Qed.
Let F := cdf k.
Let F1 := cdf (k + 1).
Let F2 := cdf (2 * k).
Let f := gpdf k.
Let f1 := gpdf (k + 1).
Let f2 := gpdf (2 * k).
Let Gk : 0 < G k. Proof. apply L. Qed.
Let Gk1 : 0 < G (k + 1). Proof. rewrite (gl_step _ _ _ L). apply Rmult_lt_0_compat; [exact K|exact Gk]. Qed.
Let G2k : 0 < G (2 * k). Proof. apply L. Qed.
Let CF : is_gamma_cdf G cdf k. Proof. apply L. Qed.
Let CF1 : is_gamma_cdf G cdf (k + 1). Proof. apply L. Qed.
Let CF2 : is_gamma_cdf G cdf (2 * k). Proof. apply L. Qed.
(** the constant of the closed form *)
Definition beta : R := k / PI * exp (lbeta G (1 / 2) (k + 1 / 2)).
Lemma beta_gamma : beta = G (k + 1 / 2) / (sqrt PI * G k).
Proof.
  pose proof PI_RGT_0 as P. assert (SP : 0 < sqrt PI) by (apply sqrt_lt_R0, P). assert (Q : sqrt PI * sqrt PI = PI) by (apply sqrt_sqrt; lra).
  destruct L as [H (P1 & P2 & P3) St Du C]. unfold beta, lbeta. replace (1 / 2 + (k + 1 / 2)) with (k + 1) by field. rewrite H, St.
  unfold Rminus. rewrite exp_plus, exp_plus, exp_Ropp, !exp_ln; [|apply Rmult_lt_0_compat; assumption|assumption|assumption].
  set (r := sqrt PI) in *. rewrite <- Q. field. repeat split; lra.
Qed.
Lemma beta_dup : beta = Rpower 2 (1 - 2 * k) * G (2 * k) / (G k * G k).
Proof.
  rewrite beta_gamma. assert (SP : 0 < sqrt PI) by (apply sqrt_lt_R0, PI_RGT_0). destruct L as [H (P1 & P2 & P3) St Du C].
  replace (G (k + 1 / 2)) with (Rpower 2 (1 - 2 * k) * sqrt PI * G (2 * k) / G k) by (rewrite <- Du; field; lra). field. lra.
Qed.
(** the densities *)
Lemma f1_f x : f1 x = x / k * f x.
Proof.
  unfold f1, f, gpdf. destruct (Rle_dec x 0) as [H|H]; [ring|]. replace (k + 1 - 1) with (k - 1 + 1) by ring. rewrite Rpower_plus, Rpower_1 by lra. rewrite (gl_step _ _ _ L). field. lra.
Qed.
Definition gap (x : R) : R := if Rle_dec x 0 then 0 else Rpower x k * exp (- x) / G (k + 1).
Lemma gap_derive x : x <> 0 -> is_derive gap x (f x - f1 x).
Proof.
  intros X. rewrite f1_f. destruct (Rle_lt_dec x 0) as [H|H].
  - apply (is_derive_ext_loc (fun _ => 0)).
    + assert (E : 0 < - x) by lra. exists (mkposreal _ E). intros t Ht. unfold ball in Ht; cbn in Ht. unfold AbsRing_ball, abs, minus, plus, opp in Ht; cbn in Ht. apply Rabs_def2 in Ht. unfold gap. destruct (Rle_dec t 0); [reflexivity|lra].
    + eapply d_eq; [apply d_const|]. unfold f, gpdf. destruct (Rle_dec x 0); [toR; ring|lra].
  - apply (is_derive_ext_loc (fun x => Rpower x k * exp (- x) * / G (k + 1))).
    + exists (mkposreal _ H). intros t Ht. unfold ball in Ht; cbn in Ht. unfold AbsRing_ball, abs, minus, plus, opp in Ht; cbn in Ht. apply Rabs_def2 in Ht. unfold gap. destruct (Rle_dec t 0); [lra|reflexivity].
    + eapply d_eq.
      * apply d_mult; [apply d_mult; [apply is_derive_Reals, derivable_pt_lim_power, H|apply (d_comp Ropp exp); [apply is_derive_Reals, derivable_pt_lim_opp, derivable_pt_lim_id|apply is_derive_Reals, derivable_pt_lim_exp]]|apply d_const].
      * toR. unfold f, gpdf. destruct (Rle_dec x 0); [lra|]. rewrite (gl_step _ _ _ L). replace (Rpower x k) with (Rpower x (k - 1) * x). 2:{ rewrite <- (Rpower_1 x H) at 2. rewrite <- Rpower_plus. f_equal. ring. } field. lra.
Qed.
Lemma gap_cont0 : continuous gap 0.
Proof.
  assert (Z : gap 0 = 0) by (unfold gap; destruct (Rle_dec 0 0); [reflexivity|lra]).
  intros P [eps HP]. rewrite Z in HP.
  set (e := eps * G (k + 1)). assert (E : 0 < e) by (apply Rmult_lt_0_compat; [apply cond_pos|exact Gk1]).
  exists (mkposreal _ (exp_pos (ln e / k))). intros y Hy. unfold ball in Hy; cbn in Hy. unfold AbsRing_ball, abs, minus, plus, opp in Hy; cbn in Hy. apply Rabs_def2 in Hy.
  apply HP. unfold ball; cbn. unfold AbsRing_ball, abs, minus, plus, opp; cbn. unfold gap. destruct (Rle_dec y 0) as [Y|Y].
  - replace (0 + - 0) with 0 by ring. rewrite Rabs_R0. apply cond_pos.
  - assert (P1 : 0 < Rpower y k) by apply exp_pos. assert (P2 : 0 < exp (- y)) by apply exp_pos.
    assert (P3 : Rpower y k < e).
    { unfold Rpower. rewrite <- (exp_ln e E). apply exp_increasing. assert (ln y < ln e / k) by (apply exp_lt_inv; rewrite exp_ln by lra; lra).
      replace (ln e) with (k * (ln e / k)) by (field; lra). apply Rmult_lt_compat_l; assumption. }
    assert (P4 : exp (- y) < 1) by (rewrite <- exp_0; apply exp_increasing; lra).
    rewrite Ropp_0, Rplus_0_r. rewrite Rabs_right by (apply Rle_ge, Rlt_le, Rdiv_lt_0_compat; [apply Rmult_lt_0_compat; assumption|exact Gk1]).
    apply Rmult_lt_reg_r with (G (k + 1)); [exact Gk1|]. unfold Rdiv. rewrite Rmult_assoc, Rinv_l by lra. fold e. nra.
Qed.
Lemma F_F1 x : F x - F1 x = gap x.
Proof.
  assert (E : (fun x => F x - F1 x - gap x) x = (fun x => F x - F1 x - gap x) 0).
  { apply (flat (fun x => F x - F1 x - gap x)).
    - intros z Z. eapply d_eq; [apply d_minus; [apply d_minus; [apply (gcdf_derive k z CF Z)|apply (gcdf_derive (k + 1) z CF1 Z)]|apply gap_derive, Z]|]. toR. unfold f, f1. ring.
    - apply (@continuous_minus R_UniformSpace R_AbsRing R_NormedModule (fun x => F x - F1 x) gap); [|apply gap_cont0].
      apply (@continuous_minus R_UniformSpace R_AbsRing R_NormedModule F F1); apply gcdf_cont; assumption. }
  cbv beta in E. assert (E1 : F 0 = 0) by (apply (proj1 CF); lra). assert (E2 : F1 0 = 0) by (apply (proj1 CF1); lra). assert (E3 : gap 0 = 0) by (unfold gap; destruct (Rle_dec 0 0); [reflexivity|lra]). lra.
Qed.
Lemma cross x : 2 * k * f x * (F x - F1 x) = 2 * beta * f2 (2 * x).
Proof.
  rewrite F_F1, beta_dup. unfold f, f2, gap, gpdf. destruct (Rle_dec x 0) as [H|H]; destruct (Rle_dec (2 * x) 0) as [H'|H']; try lra.
  rewrite (gl_step _ _ _ L). rewrite <- Rpower_mult_distr by lra. replace (exp (- (2 * x))) with (exp (- x) * exp (- x)) by (rewrite <- exp_plus; f_equal; ring).
  replace (2 * k - 1) with ((k - 1) + k) by ring. rewrite (Rpower_plus (k - 1) k x).
  assert (T : Rpower 2 (1 - 2 * k) * Rpower 2 (k - 1 + k) = 1). { rewrite <- Rpower_plus. replace (1 - 2 * k + (k - 1 + k)) with 0 by ring. apply Rpower_O. lra. }
  transitivity (2 * (Rpower x (k - 1) * Rpower x k) * (exp (- x) * exp (- x)) / (G k * G k)); [field; lra|].
  transitivity (2 * (Rpower 2 (1 - 2 * k) * Rpower 2 (k - 1 + k)) * (Rpower x (k - 1) * Rpower x k) * (exp (- x) * exp (- x)) / (G k * G k)); [rewrite T; field; lra|field; lra].
Qed.
(** antiderivatives of F^2, of (1 - F)^2 and of F *)
Definition A1 (x : R) : R := x * (F x * F x) - 2 * k * (F x * F1 x) + k * (F x * F x) - beta * F2 (2 * x).
Definition A0 (x : R) : R := x * F x - k * F1 x.
Definition A2 (x : R) : R := x - 2 * A0 x + A1 x.
Lemma F_d x : x <> 0 -> is_derive F x (f x). Proof. apply gcdf_derive, CF. Qed.
Lemma F1_d x : x <> 0 -> is_derive F1 x (f1 x). Proof. apply gcdf_derive, CF1. Qed.
Lemma F2_d x : x <> 0 -> is_derive (fun x => F2 (2 * x)) x (2 * f2 (2 * x)).
Proof. intros X. eapply d_eq; [apply (d_comp (fun x => 2 * x) F2); [apply d_scal, d_id|apply gcdf_derive; [exact CF2|lra]]|]. toR. unfold f2. ring. Qed.
Lemma c_mult (a b : R -> R) x : continuous a x -> continuous b x -> continuous (fun x => a x * b x) x.
Proof. intros A B. apply (@continuous_mult R_UniformSpace R_AbsRing a b x A B). Qed.
Lemma c_plus (a b : R -> R) x : continuous a x -> continuous b x -> continuous (fun x => a x + b x) x.
Proof. intros A B. apply (@continuous_plus R_UniformSpace R_AbsRing R_NormedModule a b x A B). Qed.
Lemma c_minus (a b : R -> R) x : continuous a x -> continuous b x -> continuous (fun x => a x - b x) x.
Proof. intros A B. apply (@continuous_minus R_UniformSpace R_AbsRing R_NormedModule a b x A B). Qed.
Lemma c_const (a : R) x : continuous (fun _ : R => a) x.
Proof. apply (@continuous_const R_UniformSpace R_UniformSpace). Qed.
Lemma c_id x : continuous (fun x : R => x) x.
Proof. apply (@continuous_id R_UniformSpace). Qed.
Lemma F_c x : continuous F x. Proof. apply gcdf_cont, CF. Qed.
Lemma F1_c x : continuous F1 x. Proof. apply gcdf_cont, CF1. Qed.
Lemma F2_c x : continuous (fun x => F2 (2 * x)) x.
Proof. apply (@continuous_comp R_UniformSpace R_UniformSpace R_UniformSpace (fun x => 2 * x) F2); [apply c_mult; [apply c_const|apply c_id]|apply gcdf_cont, CF2]. Qed.
Lemma A1_c x : continuous A1 x.
Proof.
  unfold A1. apply c_minus; [apply c_plus; [apply c_minus|]|]; repeat apply c_mult; try apply c_const; try apply c_id; try apply F_c; try apply F1_c. apply F2_c.
Qed.
Lemma A0_c x : continuous A0 x.
Proof. unfold A0. apply c_minus; apply c_mult; [apply c_id|apply F_c|apply c_const|apply F1_c]. Qed.
Lemma A1_derive x : is_derive A1 x (F x ^ 2).
Proof.
  revert x. apply derive_everywhere.
  - intros x X. unfold A1. eapply d_eq.
    + apply d_minus; [apply d_plus; [apply d_minus; [apply d_mult; [apply d_id|apply d_mult; apply F_d, X]|apply d_scal, d_mult; [apply F_d, X|apply F1_d, X]]|apply d_scal, d_mult; apply F_d, X]|apply d_scal, F2_d, X].
    + toR. replace (beta * (2 * f2 (2 * x))) with (2 * k * f x * (F x - F1 x)) by (rewrite cross; ring). rewrite f1_f. field. lra.
  - apply A1_c.
  - intros x. apply (continuous_ext (fun x => F x * F x)); [intros; toR; ring|]. apply c_mult; apply F_c.
Qed.
Lemma A0_derive x : is_derive A0 x (F x).
Proof.
  revert x. apply derive_everywhere.
  - intros x X. unfold A0. eapply d_eq; [apply d_minus; [apply d_mult; [apply d_id|apply F_d, X]|apply d_scal, F1_d, X]|]. toR. rewrite f1_f. field. lra.
  - apply A0_c.
  - apply F_c.
Qed.
Lemma A2_derive x : is_derive A2 x ((1 - F x) ^ 2).
Proof.
  unfold A2. eapply d_eq; [apply d_plus; [apply d_minus; [apply d_id|apply d_scal, A0_derive]|apply A1_derive]|]. toR. ring.
Qed.
Lemma markov x : 0 < x -> x * (1 - F x) <= k * (1 - F1 x).
Proof.
  intros X. assert (B : forall b, x < b -> x * (F b - F x) <= k * (F1 b - F1 x)).
  { intros b Hb. destruct (MVT_gen (fun b => k * F1 b - x * F b) x b (fun b => k * f1 b - x * f b)) as (c & Hc & E).
    - intros z. rewrite Rmin_left, Rmax_right by lra. intros Hz. apply d_minus; apply d_scal; [apply F1_d|apply F_d]; lra.
    - intros z _. apply continuity_pt_filterlim. change (continuous (fun b => k * F1 b - x * F b) z). apply c_minus; (apply c_mult; [apply c_const|]); [apply F1_c|apply F_c].
    - rewrite Rmin_left, Rmax_right in Hc by lra. cbn in E. rewrite f1_f in E. replace (k * (c / k * f c) - x * f c) with ((c - x) * f c) in E by (field; lra).
      assert (0 <= f c). { unfold f, gpdf. destruct (Rle_dec c 0); [lra|]. apply Rlt_le, Rdiv_lt_0_compat; [|exact Gk]. apply Rmult_lt_0_compat; apply exp_pos. }
      assert (0 <= (c - x) * f c * (b - x)) by (apply Rmult_le_pos; [apply Rmult_le_pos; lra|lra]). lra. }
  apply (is_lim_le_loc (fun b => x * (F b - F x)) (fun b => k * (F1 b - F1 x)) p_infty (x * (1 - F x)) (k * (1 - F1 x))).
  - exists x. exact B.
  - apply (is_lim_scal_l (fun b => F b - F x) x p_infty (1 - F x)). apply is_lim_minus'; [apply CF|apply is_lim_const].
  - apply (is_lim_scal_l (fun b => F1 b - F1 x) k p_infty (1 - F1 x)). apply is_lim_minus'; [apply CF1|apply is_lim_const].
Qed.
Lemma A2_lim : is_lim A2 p_infty (k - beta).
Proof.
  apply (is_lim_ext (fun x => x * (1 - F x) * (1 - F x) + 2 * k * (F1 x * (1 - F x)) + k * (F x * F x) - beta * F2 (2 * x))). { intros x. unfold A2, A1, A0. toR. ring. }
  assert (MUL : forall a b u v, is_lim a p_infty (Finite u) -> is_lim b p_infty (Finite v) -> is_lim (fun x => a x * b x) p_infty (Finite (u * v))).
  { intros a b u v A B. apply (is_lim_mult a b p_infty u v A B). exact Logic.I. }
  assert (LF : is_lim F p_infty 1) by apply CF. assert (LF1 : is_lim F1 p_infty 1) by apply CF1.
  assert (LC : is_lim (fun x => 1 - F x) p_infty (1 - 1)) by (apply is_lim_minus'; [apply is_lim_const|exact LF]).
  replace (k - beta) with (0 * (1 - 1) + 2 * k * (1 * (1 - 1)) + k * (1 * 1) - beta * 1) by ring.
  apply is_lim_minus'; [apply is_lim_plus'; [apply is_lim_plus'|]|].
  - apply MUL; [|exact LC]. apply (is_lim_le_le_loc (fun _ => 0) (fun x => k * (1 - F1 x))); [|apply is_lim_const|].
    + exists 0. intros y Y. split; [|apply markov, Y]. apply Rmult_le_pos; [lra|]. pose proof (gcdf_le_1 k y Gk CF). unfold F. lra.
    + replace 0 with (k * (1 - 1)) by ring. apply MUL; [apply is_lim_const|]. apply is_lim_minus'; [apply is_lim_const|exact LF1].
  - apply MUL; [apply is_lim_const|]. apply MUL; [exact LF1|exact LC].
  - apply MUL; [apply is_lim_const|]. apply MUL; exact LF.
  - apply MUL; [apply is_lim_const|]. apply (is_lim_comp F2 (fun x => 2 * x) p_infty 1 p_infty); [apply CF2| |exists 0; intros ? _; discriminate].
    apply is_lim_spec. intros M. exists (M / 2). intros x Hx. lra.
Qed.
Lemma A_neg x : x <= 0 -> A1 x = 0 /\ A0 x = 0 /\ A2 x = x.
Proof.
  intros X. assert (E0 : F x = 0) by (apply (proj1 CF); lra). assert (E1 : F1 x = 0) by (apply (proj1 CF1); lra). assert (E2 : F2 (2 * x) = 0) by (apply (proj1 CF2); lra).
  unfold A2, A1, A0. rewrite E0, E1, E2. repeat split; ring.
Qed.
Lemma A1_pos x : 0 < x -> 0 < A1 x.
Proof.
  intros X. destruct (MVT_gen A1 (x / 2) x (fun x => F x ^ 2)) as (c & Hc & E).
  - intros z _. apply A1_derive.
  - intros z _. apply continuity_pt_filterlim, A1_c.
  - destruct (MVT_gen A1 0 (x / 2) (fun x => F x ^ 2)) as (d & Hd & E').
    + intros z _. apply A1_derive.
    + intros z _. apply continuity_pt_filterlim, A1_c.
    + rewrite Rmin_left, Rmax_right in Hc by lra. rewrite (proj1 (A_neg 0 (Rle_refl 0))) in E'. pose proof (gcdf_strict k 0 c Gk CF ltac:(lra) ltac:(lra)) as P. rewrite (proj1 CF 0) in P by lra. fold F in P.
      assert (0 < F c ^ 2) by (cbn; nra). pose proof (pow2_ge_0 (F d)). nra.
Qed.
End Std.

(** ** In the units of the observation *)
Section Shifted.
Variables (G : R -> R) (cdf : R -> R -> R) (k t h : R).
Hypothesis K : 0 < k.
Hypothesis T : 0 < t.
Hypothesis L : gamma_lib G cdf k.
Let u x := (x - h) / t.
Let F x := cdf k (u x).
Definition own_value (y : R) : R := t * A1 G cdf k (u y) + t * (k - beta G k - A2 G cdf k (u y)).
Lemma U_c (f : R -> R) x : (forall z, continuous f z) -> continuous (fun x => f (u x)) x.
Proof. intros C. apply (u_cont h t f x C). Qed.
Lemma A1_int a b : is_RInt (fun x => F x ^ 2) a b (t * A1 G cdf k (u b) - t * A1 G cdf k (u a)).
Proof.
  apply (ftc (fun x => t * A1 G cdf k (u x)) (fun x => F x ^ 2)).
  - intros x. apply (std_derive (A1 G cdf k) h t); [lra|]. apply (A1_derive G cdf k K L).
  - intros x. apply (U_c (fun z => cdf k z ^ 2)). intros z. apply (continuous_ext (fun x => cdf k x * cdf k x)); [intros; toR; ring|]. apply c_mult; apply (F_c G cdf k L).
Qed.
Lemma A2_int a b : is_RInt (fun x => (1 - F x) ^ 2) a b (t * A2 G cdf k (u b) - t * A2 G cdf k (u a)).
Proof.
  apply (ftc (fun x => t * A2 G cdf k (u x)) (fun x => (1 - F x) ^ 2)).
  - intros x. apply (std_derive (A2 G cdf k) h t); [lra|]. apply (A2_derive G cdf k K L).
  - intros x. apply (U_c (fun z => (1 - cdf k z) ^ 2)). intros z. apply (continuous_ext (fun x => (1 - cdf k x) * (1 - cdf k x))); [intros; toR; ring|]. apply c_mult; (apply c_minus; [apply c_const|apply (F_c G cdf k L)]).
Qed.
Lemma u_neg x : x <= h -> u x <= 0.
Proof. intros H. unfold u, Rdiv. assert (0 < / t) by (apply Rinv_0_lt_compat, T). nra. Qed.
Lemma u_pos x : h < x -> 0 < u x.
Proof. intros H. unfold u, Rdiv. assert (0 < / t) by (apply Rinv_0_lt_compat, T). nra. Qed.
Lemma LB2 y v : is_lim (fun b => v + t * (A2 G cdf k (u b) - A2 G cdf k (u y))) p_infty (v + t * (k - beta G k - A2 G cdf k (u y))).
Proof.
  apply is_lim_plus'; [apply is_lim_const|]. apply (is_lim_scal_l _ _ p_infty (k - beta G k - A2 G cdf k (u y))). apply is_lim_minus'; [|apply is_lim_const]. apply (std_lim_up (A2 G cdf k)); [exact T|apply (A2_lim G cdf k K L)].
Qed.
(** the CRPS of the shifted distribution *)
Lemma own_crps y : is_crps F y (own_value y).
Proof.
  unfold is_crps, own_value. rewrite <- (Rplus_0_l (_ + _)).
  apply (gen_both _ (fun _ => 0) (fun b => t * A1 G cdf k (u y) + t * (A2 G cdf k (u b) - A2 G cdf k (u y))) _ _ (Rmin h y) y).
  - intros a b Ha Hb. pose proof (Rmin_l h y). pose proof (Rmin_r h y). rewrite Rplus_0_l. apply (rint_chasles _ a y b).
    + apply (rint_ext (fun x => F x ^ 2)); [lra| |eapply rint_eq; [apply A1_int|]].
      * intros x Hx. unfold step_at. destruct (Rle_dec y x); [lra|]. toR. ring.
      * toR. rewrite (proj1 (A_neg G cdf k L (u a) (u_neg a ltac:(lra)))). ring.
    + apply (rint_ext (fun x => (1 - F x) ^ 2)); [lra| |eapply rint_eq; [apply A2_int|toR; ring]].
      intros x Hx. unfold step_at. destruct (Rle_dec y x); [|lra]. toR. ring.
  - apply is_lim_const.
  - apply LB2.
Qed.
(** the CRPS of the shifted distribution with the probability below zero moved to zero *)
Lemma cens_crps y : 0 <= y -> is_crps (fun x => if Rlt_dec x 0 then 0 else F x) y (own_value y - t * A1 G cdf k (u 0)).
Proof.
  intros Y. unfold is_crps. replace (own_value y - t * A1 G cdf k (u 0)) with (0 + ((t * A1 G cdf k (u y) - t * A1 G cdf k (u 0)) + t * (k - beta G k - A2 G cdf k (u y)))) by (unfold own_value; ring).
  apply (gen_both _ (fun _ => 0) (fun b => (t * A1 G cdf k (u y) - t * A1 G cdf k (u 0)) + t * (A2 G cdf k (u b) - A2 G cdf k (u y))) _ _ 0 y).
  - intros a b Ha Hb. apply (rint_chasles _ a 0 b); [|apply (rint_chasles _ 0 y b)].
    + apply (rint_ext (fun _ => 0)); [lra| |eapply rint_eq; [apply rint_const|toR; ring]].
      intros x Hx. unfold step_at. destruct (Rlt_dec x 0); [|lra]. destruct (Rle_dec y x); [lra|]. toR. ring.
    + apply (rint_ext (fun x => F x ^ 2)); [lra| |apply A1_int].
      intros x Hx. unfold step_at. destruct (Rlt_dec x 0); [lra|]. destruct (Rle_dec y x); [lra|]. toR. ring.
    + apply (rint_ext (fun x => (1 - F x) ^ 2)); [lra| |eapply rint_eq; [apply A2_int|toR; ring]].
      intros x Hx. unfold step_at. destruct (Rlt_dec x 0); [lra|]. destruct (Rle_dec y x); [|lra]. toR. ring.
  - apply is_lim_const.
  - apply LB2.
Qed.
Lemma own_slope y : is_derive own_value y (2 * F y - 1).
Proof.
  unfold own_value. apply (is_derive_ext (fun y => t * A1 G cdf k (u y) + (t * (k - beta G k) - t * A2 G cdf k (u y)))). { intros z. toR. ring. }
  eapply d_eq; [apply d_plus; [apply (std_derive (A1 G cdf k) h t); [lra|apply (A1_derive G cdf k K L)]|apply d_minus; [apply d_const|apply (std_derive (A2 G cdf k) h t); [lra|apply (A2_derive G cdf k K L)]]]|].
  toR. unfold F. fold (u y). ring.
Qed.
Lemma own_min q : F q = 1 / 2 -> forall y, y <> q -> own_value q < own_value y.
Proof.
  intros Q y N. assert (Gk : 0 < G k) by apply L. assert (C : is_gamma_cdf G cdf k) by apply L.
  assert (H : h < q). { destruct (Rlt_le_dec h q) as [?|H]; [assumption|]. unfold F in Q. rewrite (proj1 C (u q) (u_neg q H)) in Q. lra. }
  assert (U : forall a b, a < b -> u a < u b). { intros a b B. unfold u, Rdiv. apply Rmult_lt_compat_r; [apply Rinv_0_lt_compat, T|lra]. }
  assert (UP : forall z, q < z -> 1 / 2 < F z). { intros z Z. rewrite <- Q. apply (gcdf_strict G cdf k); [exact Gk|exact C|apply Rlt_le, u_pos, H|apply U, Z]. }
  assert (DN : forall z, z < q -> F z < 1 / 2).
  { intros z Z. destruct (Rle_lt_dec z h) as [ZH|ZH]; [unfold F; rewrite (proj1 C (u z) (u_neg z ZH)); lra|]. rewrite <- Q. apply (gcdf_strict G cdf k); [exact Gk|exact C|apply Rlt_le, u_pos, ZH|apply U, Z]. }
  assert (MV : forall a b, exists c, Rmin a b <= c <= Rmax a b /\ own_value b - own_value a = (2 * F c - 1) * (b - a)).
  { intros a b. destruct (MVT_gen own_value a b (fun y => 2 * F y - 1)) as (c & Hc & E); [intros z _; apply own_slope|intros z _; apply continuity_pt_filterlim, (dcont own_value); eexists; apply own_slope|]. exists c. auto. }
  set (w := (y + q) / 2). destruct (MV q w) as (c1 & H1 & E1). destruct (MV w y) as (c2 & H2 & E2). unfold w in *.
  destruct (Rtotal_order y q) as [Y|[Y|Y]]; [|contradiction|].
  - rewrite Rmin_right, Rmax_left in H1, H2 by lra. pose proof (DN c2 ltac:(lra)). assert (F c1 <= 1 / 2) by (destruct (Req_dec c1 q) as [->|]; [lra|apply Rlt_le, DN; lra]). nra.
  - rewrite Rmin_left, Rmax_right in H1, H2 by lra. pose proof (UP c2 ltac:(lra)). assert (1 / 2 <= F c1) by (destruct (Req_dec c1 q) as [->|]; [lra|apply Rlt_le, UP; lra]). nra.
Qed.
Lemma own_median : exists q, F q = 1 / 2.
Proof.
  assert (C : is_gamma_cdf G cdf k) by apply L. destruct C as (Z & D & C0 & LM). set (g v := cdf k v - 1 / 2).
  assert (B : exists b, 0 < b /\ 0 < g b).
  { apply is_lim_spec in LM. assert (E : 0 < 1 / 2) by lra. destruct (LM (mkposreal _ E)) as [M HM]. cbn in HM.
    exists (Rmax 0 M + 1). pose proof (Rmax_l 0 M). pose proof (Rmax_r 0 M). split; [lra|]. specialize (HM (Rmax 0 M + 1) ltac:(lra)). apply Rabs_def2 in HM. unfold g. lra. }
  destruct B as (b & Hb & Gb). destruct (IVT g 0 b) as (z & _ & E).
  - intros x. apply continuity_pt_filterlim. apply (c_minus (cdf k) (fun _ => 1 / 2)); [apply (F_c G cdf k L)|apply c_const].
  - exact Hb.
  - unfold g. rewrite Z by lra. lra.
  - exact Gb.
  - exists (h + t * z). unfold F, u. replace ((h + t * z - h) / t) with z by (field; lra). unfold g in E. lra.
Qed.
End Shifted.
