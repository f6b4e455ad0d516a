(** Lemmas for Props_density.v *)
From Coq Require Import Reals List Bool Arith Lra.
From Coquelicot Require Import Coquelicot.
From Verif Require Import Num NdArr RTier M_truncgamma Spec_density.
Import ListNotations.
Open Scope R_scope.

Section Density.
Variables (P : R -> R -> R) (lg : R -> R).
Lemma rlt_t x y : x < y -> rlt x y = true.
Proof. intros H; unfold rlt; destruct (Rlt_dec x y); [reflexivity|contradiction]. Qed.
Lemma rlt_f x y : y <= x -> rlt x y = false.
Proof. intros H; unfold rlt; destruct (Rlt_dec x y); [lra|reflexivity]. Qed.
Lemma rle_t x y : x <= y -> rle x y = true.
Proof. intros H; unfold rle; destruct (Rle_dec x y); [reflexivity|contradiction]. Qed.
Lemma rle_f x y : y < x -> rle x y = false.
Proof. intros H; unfold rle; destruct (Rle_dec x y); [lra|reflexivity]. Qed.

Section Cell.
Variables (a b s loc scale : R).
Hypothesis A : 0 <= a.
Hypothesis B : a < b.
Hypothesis K : 0 < scale.
Hypothesis G : gamma_law P lg s.
Let z x := (x - loc) / scale.
Let D := P s b - P s a.
Lemma D_pos : 0 < D.
Proof. unfold D. pose proof (gl_strict _ _ _ G a b A B). lra. Qed.
Lemma z_in x : low a loc scale < x < low b loc scale -> a < z x < b.
Proof.
  unfold low, z. intros [H1 H2]. split; apply Rmult_lt_reg_r with scale; try exact K; unfold Rdiv; rewrite ?Rmult_assoc, ?Rinv_l, ?Rmult_1_r by lra; lra.
Qed.
Lemma z_in' x : low a loc scale <= x <= low b loc scale -> a <= z x <= b.
Proof.
  unfold low, z. intros [H1 H2]. split; apply Rmult_le_reg_r with scale; try exact K; unfold Rdiv; rewrite ?Rmult_assoc, ?Rinv_l, ?Rmult_1_r by lra; lra.
Qed.
Lemma z_out x : x < low a loc scale \/ low b loc scale < x -> z x < a \/ b < z x.
Proof.
  unfold low, z. intros [H|H]; [left|right]; apply Rmult_lt_reg_r with scale; try exact K; unfold Rdiv; rewrite ?Rmult_assoc, ?Rinv_l, ?Rmult_1_r by lra; lra.
Qed.
Definition gcdf x := (P s (z x) - P s a) / D.
Definition gpdf x := std_gamma_density (lg s) s (z x) / D / scale.
Lemma cdf_in x : low a loc scale < x < low b loc scale -> tg_cdf P x a b s loc scale = RFin (gcdf x).
Proof.
  intros H. destruct (z_in x H) as [H1 H2]. unfold tg_cdf, tg_argcheck, tg_cdf0, gcdf, D. fold (z x).
  rewrite (rle_t _ _ A), !(rlt_t _ _ B), !(rlt_t _ _ K), (rlt_t _ _ H1), (rlt_t _ _ H2), (rlt_f (z x) a), (rlt_f b (z x)) by lra. reflexivity.
Qed.
Lemma pdf_in x : low a loc scale <= x <= low b loc scale -> 0 < z x -> tg_pdf P lg x a b s loc scale = RFin (gpdf x).
Proof.
  intros H Z. destruct (z_in' x H) as [H1 H2]. unfold tg_pdf, tg_argcheck, tg_pdf0, tg_logpdf0, gpdf, std_gamma_density, D. fold (z x).
  rewrite (rle_t _ _ A), !(rlt_t _ _ B), !(rlt_t _ _ K), (rle_t _ _ H1), (rle_t _ _ H2), (rlt_t _ _ Z), (rlt_f (z x) a), (rlt_f b (z x)) by lra. reflexivity.
Qed.
Lemma pdf_out x : x < low a loc scale \/ low b loc scale < x -> tg_pdf P lg x a b s loc scale = RFin 0.
Proof.
  intros H. destruct (z_out x H) as [H1|H1]; unfold tg_pdf, tg_argcheck; fold (z x);
    rewrite (rle_t _ _ A), !(rlt_t _ _ B), !(rlt_t _ _ K), (rle_f _ _ H1); cbn; rewrite ?andb_false_r; reflexivity.
Qed.
Lemma gpdf_pos x : 0 < gpdf x.
Proof. unfold gpdf, std_gamma_density. pose proof D_pos. apply Rdiv_lt_0_compat; [|exact K]. apply Rdiv_lt_0_compat; [apply exp_pos|assumption]. Qed.
Lemma gcdf_derive x : 0 < z x -> is_derive gcdf x (gpdf x).
Proof.
  intros Z. pose proof D_pos as Dp. unfold gcdf, gpdf.
  assert (Hz : is_derive z x (/ scale)).
  { unfold z. auto_derive; [exact I|]. field. lra. }
  pose proof (is_derive_comp (P s) z x _ _ (gl_density _ _ _ G (z x) Z) Hz) as C.
  apply (is_derive_ext (fun x => scal (/ D) (minus (P s (z x)) (P s a)))).
  { intros t. unfold scal, minus, plus, opp; cbn. unfold mult; cbn. unfold Rdiv. ring. }
  replace (std_gamma_density (lg s) s (z x) / D / scale) with (scal (/ D) (minus (scal (/ scale) (std_gamma_density (lg s) s (z x))) zero)).
  2:{ unfold scal, minus, plus, opp, zero; cbn. unfold mult; cbn. field. split; lra. }
  apply is_derive_scal. apply (is_derive_minus (V := R_NormedModule)); [exact C|apply (is_derive_const (V := R_NormedModule))].
Qed.
Lemma gpdf_cont x : 0 < z x -> continuous gpdf x.
Proof.
  intros Z. apply (ex_derive_continuous (V := R_NormedModule)). unfold gpdf, std_gamma_density, z in *. auto_derive. exact (conj Z (conj I I)) || (repeat split; trivial).
Qed.
Lemma gpdf_RInt x y : (forall t, Rmin x y <= t <= Rmax x y -> 0 < z t) -> is_RInt gpdf x y (gcdf y - gcdf x).
Proof.
  intros H. apply (is_RInt_derive gcdf gpdf); intros t Ht; [exact (gcdf_derive t (H t Ht))|exact (gpdf_cont t (H t Ht))].
Qed.
End Cell.
End Density.
