(** C89: the density of the truncated gamma distribution. *)
From Coq Require Import Reals List Bool Arith Lra.
From Coquelicot Require Import Coquelicot.
From Verif Require Import Num NdArr RTier M_truncgamma Spec_density P_density.
Import ListNotations.
Open Scope R_scope.

Section C89.
Variables (P : R -> R -> R) (lg : R -> R).
(** C89.  pdf is a density of cdf inside the support, and 0 outside; *)
Theorem c89_density : forall a b s loc scale, 0 <= a -> a < b -> 0 < scale -> gamma_law P lg s ->
  density_on (fun x => number (tg_cdf P x a b s loc scale)) (fun x => number (tg_pdf P lg x a b s loc scale)) (low a loc scale) (low b loc scale) /\
  (forall x, low a loc scale < x < low b loc scale -> exists d p, tg_pdf P lg x a b s loc scale = RFin d /\ tg_cdf P x a b s loc scale = RFin p) /\
  (forall x, x < low a loc scale \/ low b loc scale < x -> tg_pdf P lg x a b s loc scale = RFin 0).
Proof.
  intros a b s loc scale A B K G.
  assert (Z : forall x, low a loc scale < x < low b loc scale -> 0 < (x - loc) / scale).
  { intros x H. destruct (z_in a b loc scale K x H). lra. }
  assert (Pin : forall x, low a loc scale < x < low b loc scale -> tg_pdf P lg x a b s loc scale = RFin (gpdf P lg a b s loc scale x)).
  { intros x H. apply pdf_in; try assumption; [lra|exact (Z x H)]. }
  split; [split|split].
  - intros x H. rewrite (Pin x H). cbn [number]. split; [apply gpdf_pos; assumption|].
    apply (is_derive_ext_loc (gcdf P a b s loc scale)).
    + assert (L : locally x (fun t => low a loc scale < t < low b loc scale)).
      { apply (locally_interval _ x (low a loc scale) (low b loc scale)); cbn; [lra|lra|]. intros t H1 H2. cbn in *. lra. }
      revert L. apply filter_imp. intros t Ht. rewrite (cdf_in P a b s loc scale A B K t Ht). reflexivity.
    + apply (gcdf_derive P lg); try assumption. exact (Z x H).
  - intros x y Hx Hy. rewrite (cdf_in P a b s loc scale A B K x Hx), (cdf_in P a b s loc scale A B K y Hy). cbn [number].
    assert (In : forall t, Rmin x y <= t <= Rmax x y -> low a loc scale < t < low b loc scale).
    { intros t. unfold Rmin, Rmax. destruct (Rle_dec x y); lra. }
    apply (is_RInt_ext (gpdf P lg a b s loc scale)).
    + intros t Ht. rewrite (Pin t); [reflexivity|]. apply In. lra.
    + apply (gpdf_RInt P lg); try assumption. intros t Ht. exact (Z t (In t Ht)).
  - intros x H. exists (gpdf P lg a b s loc scale x), (gcdf P a b s loc scale x). split; [exact (Pin x H)|exact (cdf_in P a b s loc scale A B K x H)].
  - intros x H. apply pdf_out; assumption.
Qed.
(** with a positive lower bound it integrates to 1; *)
Theorem c89_total : forall a b s loc scale, 0 < a -> a < b -> 0 < scale -> gamma_law P lg s ->
  is_RInt (fun x => number (tg_pdf P lg x a b s loc scale)) (low a loc scale) (low b loc scale) 1.
Proof.
  intros a b s loc scale A B K G.
  assert (LU : low a loc scale <= low b loc scale).
  { unfold low. pose proof (Rmult_lt_compat_r scale a b K B). lra. }
  assert (Z : forall t, Rmin (low a loc scale) (low b loc scale) <= t <= Rmax (low a loc scale) (low b loc scale) -> low a loc scale <= t <= low b loc scale /\ 0 < (t - loc) / scale).
  { intros t. rewrite Rmin_left, Rmax_right by exact LU. intros H. split; [exact H|]. destruct (z_in' a b loc scale K t H). lra. }
  replace 1 with (gcdf P a b s loc scale (low b loc scale) - gcdf P a b s loc scale (low a loc scale)).
  2:{ pose proof (gl_strict _ _ _ G a b ltac:(lra) B). unfold gcdf, low. replace ((loc + b * scale - loc) / scale) with b by (field; lra). replace ((loc + a * scale - loc) / scale) with a by (field; lra). field. lra. }
  apply (is_RInt_ext (gpdf P lg a b s loc scale)).
  - intros t Ht. destruct (Z t ltac:(lra)) as [H1 H2]. rewrite (pdf_in P lg a b s loc scale ltac:(lra) B K t H1 H2). reflexivity.
  - apply (gpdf_RInt P lg); try assumption; [lra|]. intros t Ht. exact (proj2 (Z t Ht)).
Qed.
(** but logpdf, which should be its logarithm, raises at every point of the support. *)
Theorem c89_logpdf_refuted : forall a b s loc scale x, 0 <= a -> a < b -> 0 < scale -> low a loc scale <= x <= low b loc scale ->
  tg_logpdf x a b s loc scale = Raise TypeError.
Proof.
  intros a b s loc scale x A B K H. destruct (z_in' a b loc scale K x H) as [H1 H2]. unfold tg_logpdf, tg_argcheck.
  rewrite (rle_t _ _ A), !(rlt_t _ _ B), !(rlt_t _ _ K), (rle_t _ _ H1), (rle_t _ _ H2). reflexivity.
Qed.
(** With a shape below 1 and no truncation from below, the density at the lower end is infinite, not the 0 found just outside. *)
Theorem c89_lower_end : forall b s loc scale, 0 < b -> 0 < scale -> gamma_law P lg s -> s < 1 ->
  tg_pdf P lg loc 0 b s loc scale = RInf.
Proof.
  intros b s loc scale B K G S. unfold tg_pdf, tg_argcheck, tg_pdf0, tg_logpdf0. replace ((loc - loc) / scale) with 0 by (field; lra).
  rewrite !(rle_t 0 0 ltac:(lra)), (rlt_t _ _ B), (rlt_t _ _ K), (rle_t 0 b ltac:(lra)), (rlt_f 0 0 ltac:(lra)), (rlt_t _ _ S), (rlt_f b 0 ltac:(lra)). reflexivity.
Qed.
End C89.

(** The exponential distribution: shape 1, gammaln(1) = 0; truncated to [1, 3] in units of the scale 2 and moved by 5. *)
Definition w_exp (s x : R) : R := 1 - exp (- x).
Example c89_law : gamma_law w_exp (fun _ => 0) 1.
Proof.
  constructor.
  - intros x y _ H. unfold w_exp. pose proof (exp_increasing (- y) (- x) ltac:(lra)); lra.
  - intros x H. unfold w_exp, std_gamma_density. auto_derive; [exact I|]. replace ((1 - 1) * ln x - x - 0) with (- x) by ring. ring.
Qed.
Example c89_case :
  is_RInt (fun x => number (tg_pdf w_exp (fun _ => 0) x 1 3 1 5 2)) 7 11 1 /\
  tg_pdf w_exp (fun _ => 0) 9 1 3 1 5 2 = RFin (exp (- 2) / (exp (- 1) - exp (- 3)) / 2) /\
  tg_logpdf 9 1 3 1 5 2 = Raise TypeError.
Proof.
  split; [|split].
  - replace 7 with (low 1 5 2) by (unfold low; ring). replace 11 with (low 3 5 2) by (unfold low; ring).
    apply c89_total; try lra. exact c89_law.
  - rewrite (pdf_in w_exp (fun _ => 0) 1 3 1 5 2) by (unfold low; lra). f_equal. unfold gpdf, std_gamma_density, w_exp.
    replace ((1 - 1) * ln ((9 - 5) / 2) - (9 - 5) / 2 - 0) with (- 2) by field. replace (exp (-1) - exp (-3)) with (1 - exp (- (3)) - (1 - exp (- (1)))); [reflexivity|]. replace (-1) with (- (1)) by lra. replace (-3) with (- (3)) by lra. ring.
  - apply c89_logpdf_refuted; unfold low; lra.
Qed.
Print Assumptions c89_density.
Print Assumptions c89_total.
Print Assumptions c89_logpdf_refuted.
Print Assumptions c89_lower_end.
