(** The standard normal density and distribution function over the reals; the distribution function tends to 1. *)
From Coq Require Import Reals Lra Psatz.
From Coquelicot Require Import Coquelicot.
Open Scope R_scope.

Definition npdf (x : R) : R := exp (- (x * x) / 2) / sqrt (2 * PI).
Definition ncdf (x : R) : R := / 2 + RInt npdf 0 x.

Ltac toR := cbv beta; match goal with |- ?a = ?b => change (@eq R a b) end.
Lemma d_plus (f g : R -> R) x a b :
  is_derive f x a -> is_derive g x b -> is_derive (fun t => f t + g t) x (a + b).
Proof. intros F G. apply is_derive_Reals. apply derivable_pt_lim_plus; apply is_derive_Reals; assumption. Qed.
Lemma d_minus (f g : R -> R) x a b :
  is_derive f x a -> is_derive g x b -> is_derive (fun t => f t - g t) x (a - b).
Proof. intros F G. apply is_derive_Reals. apply derivable_pt_lim_minus; apply is_derive_Reals; assumption. Qed.
Lemma d_mult (f g : R -> R) x a b :
  is_derive f x a -> is_derive g x b -> is_derive (fun t => f t * g t) x (a * g x + f x * b).
Proof. intros F G. apply is_derive_Reals. apply derivable_pt_lim_mult; apply is_derive_Reals; assumption. Qed.
Lemma d_scal (f : R -> R) x c a :
  is_derive f x a -> is_derive (fun t => c * f t) x (c * a).
Proof. intros F. apply is_derive_Reals. apply derivable_pt_lim_scal; apply is_derive_Reals; assumption. Qed.
Lemma d_comp (f g : R -> R) x a b :
  is_derive f x a -> is_derive g (f x) b -> is_derive (fun t => g (f t)) x (b * a).
Proof. intros F G. apply is_derive_Reals. apply (derivable_pt_lim_comp f g); apply is_derive_Reals; assumption. Qed.
Lemma d_eq (f : R -> R) x a b : is_derive f x a -> a = b -> is_derive f x b.
Proof. intros F <-. exact F. Qed.
Lemma d_const (c : R) x : is_derive (fun _ => c) x 0.
Proof. apply is_derive_Reals, derivable_pt_lim_const. Qed.
Lemma d_id x : is_derive (fun t : R => t) x 1.
Proof. apply is_derive_Reals, derivable_pt_lim_id. Qed.
Lemma dcont (f : R -> R) (x : R) : ex_derive f x -> continuous f x.
Proof. exact (@ex_derive_continuous R_AbsRing R_NormedModule f x). Qed.

Lemma cont_int (f : R -> R) a b : (forall x, continuous f x) -> ex_RInt f a b.
Proof. intros H. apply (@ex_RInt_continuous R_CompleteNormedModule). intros z _. apply H. Qed.

Lemma int_scal (f : R -> R) a b k : ex_RInt f a b -> RInt (fun t => k * f t) a b = k * RInt f a b.
Proof. exact (@RInt_scal R_CompleteNormedModule f a b k). Qed.
Lemma int_lin (f : R -> R) u v a b : ex_RInt f (u * a + v) (u * b + v) -> RInt (fun y => u * f (u * y + v)) a b = RInt f (u * a + v) (u * b + v).
Proof. exact (@RInt_comp_lin R_CompleteNormedModule f u v a b). Qed.

(** ** The Gaussian integral *)
Definition bell (x : R) : R := exp (- (x * x)).
Lemma bell_derive x : is_derive bell x (- (2 * x) * exp (- (x * x))).
Proof. unfold bell. auto_derive; [trivial|ring]. Qed.
Lemma bell_cont x : continuous bell x.
Proof. apply dcont. exists (- (2 * x) * exp (- (x * x))). apply bell_derive. Qed.
Lemma bell_int a b : ex_RInt bell a b.
Proof. apply cont_int. intros z. apply bell_cont. Qed.
Definition area (x : R) : R := RInt bell 0 x.
Lemma area_derive x : is_derive area x (bell x).
Proof.
  apply (is_derive_RInt bell area 0 x); [|apply bell_cont]. exists (mkposreal 1 Rlt_0_1). intros y _. apply (@RInt_correct R_CompleteNormedModule), bell_int.
Qed.
Definition kern (x t : R) : R := exp (- (x * x) * (1 + t * t)) / (1 + t * t).
Definition side (x : R) : R := RInt (fun t => kern x t) 0 1.
Lemma one_sq t : 0 < 1 + t * t. Proof. nra. Qed.
Lemma kern_derive x t : is_derive (fun u => kern u t) x (- (2 * x) * exp (- (x * x) * (1 + t * t))).
Proof. unfold kern. pose proof (one_sq t). auto_derive; [lra|field; lra]. Qed.
Lemma kern_cont x t : continuous (fun t => kern x t) t.
Proof. apply dcont. pose proof (one_sq t). unfold kern. auto_derive. lra. Qed.
Lemma kern_int x a b : ex_RInt (fun t => kern x t) a b.
Proof. apply cont_int. intros z. apply kern_cont. Qed.
Lemma inner x : RInt (fun t => x * exp (- (x * x) * (t * t))) 0 1 = area x.
Proof.
  unfold area. replace (RInt bell 0 x) with (RInt bell (x * 0 + 0) (x * 1 + 0)) by (f_equal; ring).
  rewrite <- int_lin by (apply bell_int). apply RInt_ext. intros t _. f_equal. unfold bell. f_equal. ring.
Qed.
Lemma side_derive x : is_derive side x (- (2 * bell x * area x)).
Proof.
  assert (H : is_derive side x (RInt (fun t => Derive (fun u => kern u t) x) 0 1)).
  { apply is_derive_RInt_param.
    - apply filter_forall. intros y t _. eexists. apply kern_derive.
    - intros t _. apply (continuity_2d_pt_ext (fun u v => - (2 * u) * exp (- (u * u) * (1 + v * v)))).
      + intros u v. symmetry. apply is_derive_unique, kern_derive.
      + apply continuity_2d_pt_mult; [apply continuity_2d_pt_opp, continuity_2d_pt_mult; [apply continuity_2d_pt_const|apply continuity_2d_pt_id1]|].
        apply (continuity_1d_2d_pt_comp exp); [apply derivable_continuous_pt, derivable_pt_exp|].
        apply continuity_2d_pt_mult; [apply continuity_2d_pt_opp, continuity_2d_pt_mult; apply continuity_2d_pt_id1|].
        apply continuity_2d_pt_plus; [apply continuity_2d_pt_const|apply continuity_2d_pt_mult; apply continuity_2d_pt_id2].
    - apply filter_forall. intros y. apply kern_int. }
  replace (- (2 * bell x * area x)) with (RInt (fun t => Derive (fun u => kern u t) x) 0 1); [exact H|].
  rewrite <- inner. set (h := fun t => x * exp (- (x * x) * (t * t))). replace (- (2 * bell x * RInt h 0 1)) with ((- (2 * bell x)) * RInt h 0 1) by ring.
  rewrite <- int_scal by (apply cont_int; intros z; apply dcont; unfold h; auto_derive; trivial).
  apply RInt_ext. intros t _. transitivity (- (2 * x) * exp (- (x * x) * (1 + t * t))); [apply is_derive_unique, kern_derive|]. unfold h, bell.
  replace (- (x * x) * (1 + t * t)) with (- (x * x) + - (x * x) * (t * t)) by ring. rewrite exp_plus. toR. ring.
Qed.
Lemma side_0 : side 0 = PI / 4.
Proof.
  unfold side. rewrite <- atan_1. transitivity (RInt (fun t => / (1 + t * t)) 0 1).
  - apply RInt_ext. intros t _. unfold kern. replace (- (0 * 0) * (1 + t * t)) with 0 by ring. rewrite exp_0. unfold Rdiv. toR. ring.
  - replace (atan 1) with (minus (atan 1) (atan 0)) by (rewrite atan_0; unfold minus, plus, opp; cbn; ring). apply is_RInt_unique.
    apply (is_RInt_derive atan).
    + intros x _. replace (/ (1 + x * x)) with (/ (1 + x ^ 2)) by (f_equal; ring). apply is_derive_Reals. apply (derivable_pt_lim_atan x).
    + intros x _. apply dcont. pose proof (one_sq x). auto_derive. lra.
Qed.
Lemma square_side x : area x * area x + side x = PI / 4.
Proof.
  rewrite <- side_0. assert (A0 : area 0 = 0) by (unfold area; rewrite RInt_point; reflexivity).
  replace (side 0) with (area 0 * area 0 + side 0) by (rewrite A0; ring).
  assert (D : forall y, is_derive (fun y => area y * area y + side y) y 0).
  { intros y. eapply d_eq; [apply d_plus; [apply d_mult; apply area_derive|apply side_derive]|]. toR. ring. }
  destruct (MVT_gen (fun y => area y * area y + side y) 0 x (fun _ => 0)) as (c & _ & E).
  - intros y _. apply D.
  - intros y _. apply continuity_pt_filterlim, (dcont (fun y => area y * area y + side y)). exists 0. apply D.
  - lra.
Qed.
Lemma side_bounds x : 0 <= side x <= bell x.
Proof.
  unfold side. assert (K : forall t, 0 <= kern x t <= bell x).
  { intros t. unfold kern, bell. pose proof (one_sq t). assert (E : exp (- (x * x) * (1 + t * t)) <= exp (- (x * x))). { destruct (Req_dec (x * x * (t * t)) 0) as [Z|Z]; [right; f_equal; lra|]. left. apply exp_increasing. assert (0 <= x * x * (t * t)) by (apply Rmult_le_pos; nra). lra. }
    pose proof (exp_pos (- (x * x) * (1 + t * t))). split; [apply Rlt_le, Rdiv_lt_0_compat; lra|]. apply Rle_trans with (exp (- (x * x) * (1 + t * t))); [|exact E]. unfold Rdiv. rewrite <- (Rmult_1_r (exp _)) at 2. apply Rmult_le_compat_l; [lra|]. rewrite <- Rinv_1. apply Rinv_le_contravar; [lra|nra]. }
  split.
  - apply RInt_ge_0; [lra|apply kern_int|]. intros t _. apply K.
  - replace (bell x) with (RInt (fun _ => bell x) 0 1) by (rewrite RInt_const; unfold scal; cbn; unfold mult; cbn; ring). apply RInt_le; [lra|apply kern_int|apply ex_RInt_const|]. intros t _. apply K.
Qed.
Lemma area_pos x : 0 <= x -> 0 <= area x.
Proof. intros H. apply RInt_ge_0; [exact H|apply bell_int|]. intros t _. apply Rlt_le, exp_pos. Qed.
Lemma bell_lim : is_lim bell p_infty 0.
Proof.
  unfold bell. apply (is_lim_comp exp (fun x => - (x * x)) p_infty 0 m_infty).
  - apply is_lim_exp_m.
  - replace m_infty with (Rbar_opp (Rbar_mult p_infty p_infty)) by reflexivity. apply is_lim_opp. apply (is_lim_mult (fun x => x) (fun x => x)); [apply is_lim_id|apply is_lim_id|exact I].
  - exists 0. intros y _. discriminate.
Qed.
Lemma area_lim : is_lim area p_infty (sqrt PI / 2).
Proof.
  assert (L : is_lim (fun x => sqrt (PI / 4 - side x)) p_infty (sqrt (PI / 4))).
  { apply is_lim_comp_continuous.
    - replace (Finite (PI / 4)) with (Rbar_minus (PI / 4) 0) by (cbn; f_equal; ring). apply is_lim_minus'; [apply is_lim_const|].
      apply (is_lim_le_le_loc (fun _ => 0) bell); [exists 0; intros y _; apply side_bounds|apply is_lim_const|apply bell_lim].
    - apply continuity_pt_filterlim, continuity_pt_sqrt. pose proof PI_RGT_0. lra. }
  replace (sqrt PI / 2) with (sqrt (PI / 4)).
  - apply (is_lim_ext_loc (fun x => sqrt (PI / 4 - side x))); [|exact L]. exists 0. intros x Hx. rewrite <- (square_side x). replace (area x * area x + side x - side x) with (area x * area x) by ring. apply sqrt_square, area_pos. lra.
  - pose proof PI_RGT_0. replace (PI / 4) with (PI * (/ 2 * / 2)) by field. rewrite sqrt_mult_alt by lra. rewrite sqrt_square by lra. reflexivity.
Qed.

(** ** The normal distribution *)
Lemma sqrt_2PI_pos : 0 < sqrt (2 * PI). Proof. apply sqrt_lt_R0. pose proof PI_RGT_0. lra. Qed.
Lemma npdf_pos x : 0 < npdf x.
Proof. apply Rdiv_lt_0_compat; [apply exp_pos|apply sqrt_2PI_pos]. Qed.
Lemma npdf_derive x : is_derive npdf x (- x * npdf x).
Proof. unfold npdf. pose proof sqrt_2PI_pos. auto_derive; [trivial|]. toR. unfold Rdiv.  field; lra. Qed.
Lemma npdf_cont x : continuous npdf x.
Proof. apply dcont. eexists. apply npdf_derive. Qed.
Lemma npdf_int a b : ex_RInt npdf a b.
Proof. apply cont_int. intros z. apply npdf_cont. Qed.
Lemma ncdf_derive x : is_derive ncdf x (npdf x).
Proof.
  unfold ncdf. eapply d_eq. apply d_plus; [apply d_const|]. apply (is_derive_RInt npdf (fun x => RInt npdf 0 x) 0 x); [|apply npdf_cont]. exists (mkposreal 1 Rlt_0_1). intros y _. apply (@RInt_correct R_CompleteNormedModule), npdf_int.
  toR. ring.
Qed.
Lemma ncdf_area x : ncdf x = / 2 + area (x / sqrt 2) / sqrt PI.
Proof.
  unfold ncdf. f_equal. pose proof PI_RGT_0 as P. assert (S2 : 0 < sqrt 2) by (apply sqrt_lt_R0; lra). assert (SP : 0 < sqrt PI) by (apply sqrt_lt_R0; lra). assert (Q : sqrt 2 * sqrt 2 = 2) by (apply sqrt_sqrt; lra).
  unfold area. replace (x / sqrt 2) with (/ sqrt 2 * x + 0) by (field; lra). replace (RInt bell 0) with (RInt bell (/ sqrt 2 * 0 + 0)) by (f_equal; ring). rewrite <- int_lin by apply bell_int.
  unfold Rdiv. rewrite Rmult_comm, <- int_scal by (apply cont_int; intros z; apply dcont; unfold bell; auto_derive; trivial).
  apply RInt_ext. intros y _. unfold npdf, bell. rewrite sqrt_mult_alt by lra. replace (- ((/ sqrt 2 * y + 0) * (/ sqrt 2 * y + 0))) with (- (y * y) / 2); [toR; field; lra|]. toR; rewrite <- Q at 1. field. lra.
Qed.
Lemma ncdf_lim : is_lim ncdf p_infty 1.
Proof.
  pose proof PI_RGT_0 as P. assert (S2 : 0 < sqrt 2) by (apply sqrt_lt_R0; lra). assert (SP : 0 < sqrt PI) by (apply sqrt_lt_R0; lra).
  apply (is_lim_ext (fun x => / 2 + area (x / sqrt 2) * / sqrt PI)); [intros x; symmetry; apply ncdf_area|].
  replace (Finite 1) with (Finite (/ 2 + sqrt PI / 2 * / sqrt PI)) by (f_equal; field; lra). apply is_lim_plus'; [apply is_lim_const|].
  assert (A : is_lim (fun x => area (x / sqrt 2)) p_infty (sqrt PI / 2)).
  { apply (is_lim_comp area (fun x => x / sqrt 2) p_infty (sqrt PI / 2) p_infty); [apply area_lim| |exists 0; intros y _; discriminate].
    apply is_lim_spec. intros M. exists (M * sqrt 2). intros x Hx. apply Rmult_lt_reg_r with (sqrt 2); [exact S2|]. unfold Rdiv. rewrite Rmult_assoc, Rinv_l by lra. lra. }
  apply (is_lim_mult _ _ _ _ _ A (is_lim_const _ _)). exact I.
Qed.
Lemma ncdf_sym x : ncdf (- x) = 1 - ncdf x.
Proof.
  unfold ncdf. assert (E : RInt npdf 0 (- x) = - RInt npdf 0 x); [|lra].
  replace (RInt npdf 0 (- x)) with (RInt npdf (-1 * 0 + 0) (-1 * x + 0)) by (f_equal; ring).
  rewrite <- int_lin by apply npdf_int. replace (- RInt npdf 0 x) with (-1 * RInt npdf 0 x) by ring. rewrite <- int_scal by apply npdf_int.
  apply RInt_ext. intros y _. f_equal. unfold npdf. do 2 f_equal. field.
Qed.
Lemma ncdf_lt x y : x < y -> ncdf x < ncdf y.
Proof.
  intros H. destruct (MVT_gen ncdf x y npdf) as (c & _ & E).
  - intros z _. apply ncdf_derive.
  - intros z _. apply continuity_pt_filterlim, (dcont ncdf). eexists. apply ncdf_derive.
  - pose proof (npdf_pos c). nra.
Qed.
Lemma ncdf_lt_1 x : ncdf x < 1.
Proof.
  apply Rlt_le_trans with (ncdf (x + 1)); [apply ncdf_lt; lra|]. apply (is_lim_le_loc (fun _ => ncdf (x + 1)) ncdf p_infty (ncdf (x + 1)) 1); [|apply is_lim_const|apply ncdf_lim].
  exists (x + 1). intros y Hy. apply Rlt_le, ncdf_lt, Hy.
Qed.
Lemma ncdf_pos x : 0 < ncdf x.
Proof. pose proof (ncdf_lt_1 (- x)) as H. rewrite ncdf_sym in H. lra. Qed.
Lemma ncdf_lim_m : is_lim ncdf m_infty 0.
Proof.
  apply (is_lim_ext (fun x => 1 - ncdf (- x))). { intros x. rewrite ncdf_sym. ring. }
  replace (Finite 0) with (Finite (1 - 1)) by (f_equal; ring). apply is_lim_minus'; [apply is_lim_const|]. apply (is_lim_comp ncdf Ropp m_infty 1 p_infty); [apply ncdf_lim| |exists 0; intros y _; discriminate].
  replace p_infty with (Rbar_opp m_infty) by reflexivity. apply is_lim_opp, is_lim_id.
Qed.
