(** C70: mean and variance of Gaussian forecasts. *)
From Coq Require Import Reals List Bool Arith Lra Psatz.
From Coquelicot Require Import Coquelicot.
From Verif Require Import Num NdArr R_gauss M_crps Spec_crps P_crps P_crpsgamma.
Import ListNotations.
Open Scope R_scope.

(** ** Antiderivatives *)
Definition H1 (u : R) : R := u * (1 - ncdf u) - npdf u.
Definition H2 (u : R) : R := / 2 * (u * u * (1 - ncdf u) - u * npdf u + ncdf u).
Definition L1 (u : R) : R := u * ncdf u + npdf u.
Definition L2 (u : R) : R := / 2 * (u * u * ncdf u + u * npdf u - ncdf u).
Lemma sq_d u : is_derive (fun u : R => u * u) u (2 * u).
Proof. eapply d_eq; [apply d_mult; apply d_id|toR; ring]. Qed.
Lemma cc_d u : is_derive (fun u => 1 - ncdf u) u (- npdf u).
Proof. eapply d_eq; [apply d_minus; [apply d_const|apply ncdf_derive]|toR; ring]. Qed.
Lemma up_d u : is_derive (fun u => u * npdf u) u (npdf u - u * u * npdf u).
Proof. eapply d_eq; [apply d_mult; [apply d_id|apply npdf_derive]|toR; ring]. Qed.
Lemma H1_derive u : is_derive H1 u (1 - ncdf u).
Proof. unfold H1. eapply d_eq; [apply d_minus; [apply d_mult; [apply d_id|apply cc_d]|apply npdf_derive]|toR; ring]. Qed.
Lemma H2_derive u : is_derive H2 u (u * (1 - ncdf u)).
Proof. unfold H2. eapply d_eq; [apply d_scal, d_plus; [apply d_minus; [apply d_mult; [apply sq_d|apply cc_d]|apply up_d]|apply ncdf_derive]|toR; field]. Qed.
Lemma L1_H1 u : L1 (- u) = - H1 u.
Proof. unfold L1, H1. rewrite ncdf_sym, npdf_even. ring. Qed.
Lemma L2_H2 u : L2 (- u) = H2 u - / 2.
Proof. unfold L2, H2. rewrite ncdf_sym, npdf_even. ring. Qed.
Lemma L1_derive u : is_derive L1 u (ncdf u).
Proof. unfold L1. eapply d_eq; [apply d_plus; [apply d_mult; [apply d_id|apply ncdf_derive]|apply npdf_derive]|toR; ring]. Qed.
Lemma L2_derive u : is_derive L2 u (u * ncdf u).
Proof. unfold L2. eapply d_eq; [apply d_scal, d_minus; [apply d_plus; [apply d_mult; [apply sq_d|apply ncdf_derive]|apply up_d]|apply ncdf_derive]|toR; field]. Qed.
Lemma unpdf_lim : is_lim (fun u => u * npdf u) p_infty 0.
Proof.
  pose proof sqrt_2PI_pos as P. set (r := sqrt (2 * PI)) in *.
  apply (is_lim_le_le_loc (fun _ => 0) (fun u => 2 / r * / u)); [|apply is_lim_const|].
  - exists 0. intros u U. pose proof (npdf_pos u). split; [apply Rmult_le_pos; lra|].
    unfold npdf. fold r. assert (E : 1 + u * u / 2 < exp (u * u / 2)) by (apply exp_ineq1; nra).
    replace (- (u * u) / 2) with (- (u * u / 2)) by field. rewrite exp_Ropp. pose proof (exp_pos (u * u / 2)).
    apply Rmult_le_reg_r with (u * r * exp (u * u / 2)); [repeat apply Rmult_lt_0_compat; lra|].
    replace (u * (/ exp (u * u / 2) / r) * (u * r * exp (u * u / 2))) with (u * u) by (field; lra).
    replace (2 / r * / u * (u * r * exp (u * u / 2))) with (2 * exp (u * u / 2)) by (field; lra). lra.
  - replace (Finite 0) with (Rbar_mult (2 / r) 0) by (cbn; f_equal; ring). apply is_lim_scal_l. replace (Finite 0) with (Rbar_inv p_infty) by reflexivity. apply is_lim_inv; [apply is_lim_id|discriminate].
Qed.
Lemma H1_lim : is_lim H1 p_infty 0.
Proof.
  unfold H1. replace (Finite 0) with (Finite (0 - 0)) by (f_equal; ring). apply is_lim_minus'; [|apply npdf_lim].
  apply (is_lim_le_le_loc (fun _ => 0) npdf); [|apply is_lim_const|apply npdf_lim]. exists 0. intros u U. pose proof (ncdf_lt_1 u). split; [apply Rmult_le_pos; lra|apply mills, U].
Qed.
Lemma H2_lim : is_lim H2 p_infty (/ 2).
Proof.
  unfold H2. replace (Finite (/ 2)) with (Rbar_mult (/ 2) (0 - 0 + 1)) by (cbn; f_equal; ring). apply is_lim_scal_l. apply is_lim_plus'; [apply is_lim_minus'|apply ncdf_lim]; [|apply unpdf_lim].
  apply (is_lim_le_le_loc (fun _ => 0) (fun u => u * npdf u)); [|apply is_lim_const|apply unpdf_lim]. exists 0. intros u U. pose proof (ncdf_lt_1 u). split; [apply Rmult_le_pos; nra|]. rewrite Rmult_assoc. apply Rmult_le_compat_l; [lra|apply mills, U].
Qed.
Lemma neg_lim (f : R -> R) l : is_lim f p_infty l -> is_lim (fun u => f (- u)) m_infty l.
Proof.
  intros F. apply (is_lim_comp f Ropp m_infty l p_infty); [exact F| |exists 0; intros y _; discriminate].
  replace p_infty with (Rbar_opp m_infty) by reflexivity. apply is_lim_opp, is_lim_id.
Qed.
Lemma L1_lim : is_lim L1 m_infty 0.
Proof.
  apply (is_lim_ext (fun u => - H1 (- u))). { intros u. rewrite <- L1_H1, Ropp_involutive. reflexivity. }
  replace (Finite 0) with (Rbar_opp 0) by (cbn; f_equal; ring). apply is_lim_opp, neg_lim, H1_lim.
Qed.
Lemma L2_lim : is_lim L2 m_infty 0.
Proof.
  apply (is_lim_ext (fun u => H2 (- u) - / 2)). { intros u. rewrite <- L2_H2, Ropp_involutive. reflexivity. }
  replace (Finite 0) with (Finite (/ 2 - / 2)) by (f_equal; ring). apply is_lim_minus'; [apply neg_lim, H2_lim|apply is_lim_const].
Qed.
Lemma mills_strict x : x * (1 - ncdf x) < npdf x.
Proof.
  destruct (Rle_lt_dec x 0) as [X|X]; [pose proof (ncdf_lt_1 x); pose proof (npdf_pos x); nra|].
  destruct (MVT_gen H1 x (x + 1) (fun u => 1 - ncdf u)) as (c & _ & E).
  - intros z _. apply H1_derive.
  - intros z _. apply continuity_pt_filterlim, (dcont H1). eexists. apply H1_derive.
  - pose proof (mills (x + 1) ltac:(lra)). pose proof (ncdf_lt_1 c). unfold H1 in E at 1 2. nra.
Qed.

Lemma gen_eq (f : R -> R) v w : v = w -> is_RInt_gen f (Rbar_locally m_infty) (Rbar_locally p_infty) v -> is_RInt_gen f (Rbar_locally m_infty) (Rbar_locally p_infty) w.
Proof. intros <- H. exact H. Qed.
Section Moments.
Variables m s : R.
Hypothesis S : 0 < s.
Let u x := (x - m) / s.
(** the four integrals in x, and their antiderivatives *)
Let h1 x := s * H1 (u x).
Let h2 x := 2 * m * (s * H1 (u x)) + 2 * s * (s * H2 (u x)).
Let l1 x := s * L1 (u x).
Let l2 x := 2 * m * (s * L1 (u x)) + 2 * s * (s * L2 (u x)).
Lemma ncdf_c z : continuous ncdf z. Proof. apply (dcont ncdf). eexists. apply ncdf_derive. Qed.
Lemma nu_c x : continuous (fun x => ncdf (u x)) x. Proof. apply (u_cont m s ncdf x). intros z. apply ncdf_c. Qed.
Lemma h1_int a b : is_RInt (fun x => 1 - ncdf (u x)) a b (h1 b - h1 a).
Proof.
  apply (ftc h1).
  - intros x. apply (std_derive H1 m s); [lra|apply H1_derive].
  - intros x. apply c_minus; [apply c_const|apply nu_c].
Qed.
Lemma l1_int a b : is_RInt (fun x => ncdf (u x)) a b (l1 b - l1 a).
Proof.
  apply (ftc l1).
  - intros x. apply (std_derive L1 m s); [lra|apply L1_derive].
  - apply nu_c.
Qed.
Lemma h2_int a b : is_RInt (fun x => 2 * x * (1 - ncdf (u x))) a b (h2 b - h2 a).
Proof.
  apply (ftc h2).
  - intros x. unfold h2. eapply d_eq; [apply d_plus; apply d_scal; [apply (std_derive H1 m s); [lra|apply H1_derive]|apply (std_derive H2 m s); [lra|apply H2_derive]]|].
    toR. fold (u x). replace (2 * x) with (2 * (m + s * u x)) by (unfold u; field; lra). ring.
  - intros x. apply c_mult; [apply c_mult; [apply c_const|apply c_id]|]. apply c_minus; [apply c_const|apply nu_c].
Qed.
Lemma l2_int a b : is_RInt (fun x => 2 * x * ncdf (u x)) a b (l2 b - l2 a).
Proof.
  apply (ftc l2).
  - intros x. unfold l2. eapply d_eq; [apply d_plus; apply d_scal; [apply (std_derive L1 m s); [lra|apply L1_derive]|apply (std_derive L2 m s); [lra|apply L2_derive]]|].
    toR. fold (u x). replace (2 * x) with (2 * (m + s * u x)) by (unfold u; field; lra). ring.
  - intros x. apply c_mult; [apply c_mult; [apply c_const|apply c_id]|apply nu_c].
Qed.
Lemma h1_lim : is_lim h1 p_infty (s * 0). Proof. apply (is_lim_scal_l _ s p_infty 0), (std_lim_up H1); [exact S|apply H1_lim]. Qed.
Lemma l1_lim : is_lim l1 m_infty (s * 0). Proof. apply (is_lim_scal_l _ s m_infty 0), (std_lim_down L1); [exact S|apply L1_lim]. Qed.
Lemma h2_lim : is_lim h2 p_infty (2 * m * (s * 0) + 2 * s * (s * / 2)).
Proof. apply is_lim_plus'; [apply (is_lim_scal_l _ _ p_infty (s * 0)), h1_lim|]. apply (is_lim_scal_l _ _ p_infty (s * / 2)), (is_lim_scal_l _ s p_infty (/ 2)), (std_lim_up H2); [exact S|apply H2_lim]. Qed.
Lemma l2_lim : is_lim l2 m_infty (2 * m * (s * 0) + 2 * s * (s * 0)).
Proof. apply is_lim_plus'; [apply (is_lim_scal_l _ _ m_infty (s * 0)), l1_lim|]. apply (is_lim_scal_l _ _ m_infty (s * 0)), (is_lim_scal_l _ s m_infty 0), (std_lim_down L2); [exact S|apply L2_lim]. Qed.
Lemma u0 : s * u 0 = - m. Proof. unfold u. field. lra. Qed.
Lemma normal_mean : is_mean (normal_cdf m s) m.
Proof.
  unfold is_mean. assert (E : (s * 0 - l1 0) + (s * 0 - h1 0) = m) by (unfold l1, h1, L1, H1; pose proof u0; nra). apply (gen_eq _ _ _ E).
  apply (gen_both _ (fun a => l1 a - l1 0) (fun b => h1 b - h1 0) _ _ 0 0).
  - intros a b A B. apply (rint_chasles _ a 0 b).
    + apply (rint_ext (fun x => - ncdf (u x))); [lra| |eapply rint_eq; [apply (@is_RInt_opp R_NormedModule), l1_int|unfold opp; cbn; toR; ring]].
      intros x X. unfold step_at, normal_cdf. destruct (Rle_dec 0 x); [lra|]. toR. fold (u x). ring.
    + apply (rint_ext (fun x => 1 - ncdf (u x))); [lra| |apply h1_int].
      intros x X. unfold step_at, normal_cdf. destruct (Rle_dec 0 x); [|lra]. reflexivity.
  - apply is_lim_minus'; [apply l1_lim|apply is_lim_const].
  - apply is_lim_minus'; [apply h1_lim|apply is_lim_const].
Qed.
Lemma normal_second : is_second_moment (normal_cdf m s) (m ^ 2 + s ^ 2).
Proof.
  unfold is_second_moment. replace (m ^ 2 + s ^ 2) with ((2 * m * (s * 0) + 2 * s * (s * 0) - l2 0) + (2 * m * (s * 0) + 2 * s * (s * / 2) - h2 0)).
  2:{ unfold l2, h2, L1, H1, L2, H2. pose proof u0 as U. replace m with (- (s * u 0)) by lra. field. }
  apply (gen_both _ (fun a => l2 a - l2 0) (fun b => h2 b - h2 0) _ _ 0 0).
  - intros a b A B. apply (rint_chasles _ a 0 b).
    + apply (rint_ext (fun x => - (2 * x * ncdf (u x)))); [lra| |eapply rint_eq; [apply (@is_RInt_opp R_NormedModule), l2_int|unfold opp; cbn; toR; ring]].
      intros x X. unfold step_at, normal_cdf. destruct (Rle_dec 0 x); [lra|]. toR. fold (u x). ring.
    + apply (rint_ext (fun x => 2 * x * (1 - ncdf (u x)))); [lra| |apply h2_int].
      intros x X. unfold step_at, normal_cdf. destruct (Rle_dec 0 x); [|lra]. reflexivity.
  - apply is_lim_minus'; [apply l2_lim|apply is_lim_const].
  - apply is_lim_minus'; [apply h2_lim|apply is_lim_const].
Qed.
(** truncated at zero *)
Let a := u 0.
Let p := 1 - ncdf a.
Let lam := npdf a / p.
Lemma pp : 0 < p. Proof. unfold p. pose proof (ncdf_lt_1 a). lra. Qed.
Lemma cut x : 0 <= x -> 1 - truncated_cdf m s 0 x = / p * (1 - ncdf (u x)).
Proof. intros X. pose proof pp. unfold truncated_cdf. destruct (Rlt_dec x 0); [lra|]. unfold normal_cdf. fold (u x) (u 0) a. unfold p in *. field. lra. Qed.
Lemma trunc_mean : is_mean (truncated_cdf m s 0) (m + s * lam).
Proof.
  pose proof pp as P. unfold is_mean. replace (m + s * lam) with (0 + / p * (s * 0 - h1 0)). 2:{ unfold h1, H1, lam. fold a. fold p. pose proof u0 as U. fold a in U. apply Rmult_eq_reg_l with p; [|lra]. field_simplify; [|lra|lra]. nra. }
  apply (gen_both _ (fun _ => 0) (fun b => / p * (h1 b - h1 0)) _ _ 0 0).
  - intros x b X B. apply (rint_chasles _ x 0 b).
    + apply (rint_ext (fun _ => 0)); [lra| |eapply rint_eq; [apply rint_const|toR; ring]].
      intros z Z. unfold step_at, truncated_cdf. destruct (Rlt_dec z 0); [|lra]. destruct (Rle_dec 0 z); [lra|]. toR. ring.
    + apply (rint_ext (fun x => scal (/ p) (1 - ncdf (u x)))); [lra| |apply (@is_RInt_scal R_NormedModule), h1_int].
      intros z Z. unfold step_at. destruct (Rle_dec 0 z); [|lra]. rewrite cut by lra. reflexivity.
  - apply is_lim_const.
  - apply (is_lim_scal_l _ _ p_infty (s * 0 - h1 0)). apply is_lim_minus'; [apply h1_lim|apply is_lim_const].
Qed.
Lemma trunc_second : is_second_moment (truncated_cdf m s 0) (m ^ 2 + m * s * lam + s ^ 2).
Proof.
  pose proof pp as P. unfold is_second_moment. replace (m ^ 2 + m * s * lam + s ^ 2) with (0 + / p * (2 * m * (s * 0) + 2 * s * (s * / 2) - h2 0)).
  2:{ unfold h2, H1, H2, lam. pose proof u0 as U. fold a in U |- *. replace m with (- (s * a)) by lra. replace (ncdf a) with (1 - p) by (unfold p; ring). field. lra. }
  apply (gen_both _ (fun _ => 0) (fun b => / p * (h2 b - h2 0)) _ _ 0 0).
  - intros x b X B. apply (rint_chasles _ x 0 b).
    + apply (rint_ext (fun _ => 0)); [lra| |eapply rint_eq; [apply rint_const|toR; ring]].
      intros z Z. unfold step_at, truncated_cdf. destruct (Rlt_dec z 0); [|lra]. destruct (Rle_dec 0 z); [lra|]. toR. ring.
    + apply (rint_ext (fun x => scal (/ p) (2 * x * (1 - ncdf (u x))))); [lra| |apply (@is_RInt_scal R_NormedModule), h2_int].
      intros z Z. unfold step_at. destruct (Rle_dec 0 z); [|lra]. rewrite cut by lra. unfold scal; cbn; unfold mult; cbn. toR. ring.
  - apply is_lim_const.
  - apply (is_lim_scal_l _ _ p_infty (2 * m * (s * 0) + 2 * s * (s * / 2) - h2 0)). apply is_lim_minus'; [apply h2_lim|apply is_lim_const].
Qed.
Lemma lam_pos : 0 < lam. Proof. apply Rdiv_lt_0_compat; [apply npdf_pos|apply pp]. Qed.
Lemma lam_gt : a < lam.
Proof. pose proof pp as P. apply Rmult_lt_reg_r with p; [exact P|]. unfold lam, Rdiv. rewrite Rmult_assoc, Rinv_l by lra. pose proof (mills_strict a). unfold p. lra. Qed.
End Moments.

(** Without truncation the deterministic forecast and the variance of a Gaussian verifier are those of its CDF. *)
Theorem c70_moments_partial : forall mu sigma ix, 0 < get sigma ix ->
  is_mean (gaussian_cdf false (get mu ix) (get sigma ix)) (get (gaussian_f_determ false mu sigma) ix) /\
  is_variance (gaussian_cdf false (get mu ix) (get sigma ix)) (get (gaussian_variance false mu sigma) ix).
Proof.
  intros mu sigma ix S. split; [apply normal_mean, S|]. exists (get mu ix), (get mu ix ^ 2 + get sigma ix ^ 2). split; [apply normal_mean, S|]. split; [apply normal_second, S|]. cbn. ring.
Qed.
(** With truncation never: the mean is larger and the variance is smaller. *)
Theorem c70_truncated_refuted : forall mu sigma ix m v, 0 < get sigma ix ->
  is_mean (gaussian_cdf true (get mu ix) (get sigma ix)) m -> is_variance (gaussian_cdf true (get mu ix) (get sigma ix)) v ->
  get (gaussian_f_determ true mu sigma) ix < m /\ v < get (gaussian_variance true mu sigma) ix.
Proof.
  intros mu sigma ix m v S M (m' & m2 & M' & N & ->). cbn [gaussian_f_determ gaussian_variance rmap1 get] in *. cbn [gaussian_cdf] in *.
  pose proof (gen_unique _ _ _ M (trunc_mean _ _ S)) as ->. pose proof (gen_unique _ _ _ M' (trunc_mean _ _ S)) as ->. pose proof (gen_unique _ _ _ N (trunc_second _ _ S)) as ->.
  pose proof (lam_pos (get mu ix) (get sigma ix)) as P. pose proof (lam_gt (get mu ix) (get sigma ix)) as Q. pose proof (u0 (get mu ix) (get sigma ix) S) as U.
  set (lam := npdf ((0 - get mu ix) / get sigma ix) / (1 - ncdf ((0 - get mu ix) / get sigma ix))) in *. set (a := (0 - get mu ix) / get sigma ix) in *. set (s := get sigma ix) in *. replace (get mu ix) with (- (s * a)) by lra.
  assert (0 < s * lam) by (apply Rmult_lt_0_compat; [exact S|exact P]). split; [change (get mu ix < - (s * a) + s * lam); lra|]. change (get (gaussian_variance true mu sigma) ix) with (s ^ 2). clearbody lam. assert (0 < s * lam * (s * (lam - a))) by (apply Rmult_lt_0_compat; [assumption|apply Rmult_lt_0_compat; [exact S|lra]]). apply Rminus_lt. match goal with |- ?G < 0 => replace G with (- (s * lam * (s * (lam - a)))) by ring end. lra.
Qed.
(** both of which exist *)
Theorem c70_exists : forall t m s, 0 < s -> (exists v, is_mean (gaussian_cdf t m s) v) /\ exists v, is_variance (gaussian_cdf t m s) v.
Proof.
  intros [|] m s S; cbn [gaussian_cdf].
  - exact (conj (ex_intro _ _ (trunc_mean m s S)) (ex_intro _ _ (ex_intro _ _ (ex_intro _ _ (conj (trunc_mean m s S) (conj (trunc_second m s S) eq_refl)))))).
  - exact (conj (ex_intro _ _ (normal_mean m s S)) (ex_intro _ _ (ex_intro _ _ (ex_intro _ _ (conj (normal_mean m s S) (conj (normal_second m s S) eq_refl)))))).
Qed.
Print Assumptions c70_moments_partial.
Print Assumptions c70_truncated_refuted.
Print Assumptions c70_exists.

(** the half-normal distribution: mean sqrt (2 / PI) instead of 0 *)
Example c70_nonvacuous : 0 < get (Arr [] (fun _ => 1)) [] /\ is_mean (gaussian_cdf true 0 1) (2 * npdf 0) /\ 0 < 2 * npdf 0.
Proof.
  split; [cbn; lra|]. split; [|pose proof (npdf_pos 0); lra].
  pose proof (trunc_mean 0 1 Rlt_0_1) as M. cbn [gaussian_cdf]. replace (2 * npdf 0) with (0 + 1 * (npdf ((0 - 0) / 1) / (1 - ncdf ((0 - 0) / 1)))); [exact M|].
  replace ((0 - 0) / 1) with 0 by field. replace (ncdf 0) with (/ 2); [field|]. unfold ncdf. rewrite RInt_point. unfold zero; cbn. ring.
Qed.
