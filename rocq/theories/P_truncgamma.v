(** Proofs about the truncated gamma distribution. *)
From Coq Require Import Reals List Bool Arith Lra.
From Verif Require Import Num NdArr RTier M_truncgamma Spec_truncgamma.
Import ListNotations.
Open Scope R_scope.

Lemma rle_t x y : x <= y -> rle x y = true.
Proof. intros; unfold rle; destruct (Rle_dec x y); [reflexivity|contradiction]. Qed.
Lemma rle_f x y : y < x -> rle x y = false.
Proof. intros; unfold rle; destruct (Rle_dec x y); [lra|reflexivity]. Qed.
Lemma rlt_t x y : x < y -> rlt x y = true.
Proof. intros; unfold rlt; destruct (Rlt_dec x y); [reflexivity|contradiction]. Qed.
Lemma rlt_f x y : y <= x -> rlt x y = false.
Proof. intros; unfold rlt; destruct (Rlt_dec x y); [lra|reflexivity]. Qed.
Lemma rle_inv x y : rle x y = true -> x <= y.
Proof. unfold rle; destruct (Rle_dec x y); [auto|discriminate]. Qed.

Lemma scale_pos mu sigma : 0 < mu -> 0 < sigma -> 0 < tg_scale mu sigma.
Proof. intros; unfold tg_scale, Rdiv; apply Rmult_lt_0_compat; [apply pow_lt; auto|apply Rinv_0_lt_compat; auto]. Qed.

Lemma div_pos_lt x y c : 0 < c -> x < y -> x / c < y / c.
Proof. intros; unfold Rdiv; apply Rmult_lt_compat_r; [apply Rinv_0_lt_compat; auto|auto]. Qed.
Lemma div_pos_le x y c : 0 < c -> x <= y -> x / c <= y / c.
Proof. intros; unfold Rdiv; apply Rmult_le_compat_r; [left; apply Rinv_0_lt_compat; auto|auto]. Qed.
Lemma div_cancel x c : 0 < c -> x * c / c = x.
Proof. intros; field; lra. Qed.

Lemma clip_in v : 0 <= v <= 1 -> tg_clip (RFin v) = RFin v.
Proof. intros; unfold tg_clip; rewrite (rlt_f v 0) by lra; rewrite (rlt_f 1 v) by lra; reflexivity. Qed.

Section S.
Variables P Pinv : R -> R -> R.
Variables mu sigma shift : R.
Hypothesis Hmu : 0 < mu.
Hypothesis Hsg : 0 < sigma.
Let k := tg_scale mu sigma.
Let s := tg_shape mu sigma.
Hypothesis HG : incomplete_gamma P Pinv s.
Let top := shift + 10000 * k.
Let a := - shift / k.

Let kpos : 0 < k. Proof. apply scale_pos; auto. Qed.

Lemma ig_mono x y : 0 <= x -> x <= y -> P s x <= P s y.
Proof. intros H [L|<-]; [left; apply (ig_strict _ _ _ HG); auto|right; auto]. Qed.
Lemma ig_nonneg x : 0 <= x -> 0 <= P s x.
Proof. intros; rewrite <- (ig_zero _ _ _ HG); apply ig_mono; lra. Qed.

Lemma z_of_top : (top - shift) / k = 10000.
Proof. unfold top; field; lra. Qed.
Lemma a_nonneg : shift <= 0 -> 0 <= a.
Proof. intros; unfold a; replace 0 with (0 / k) by (field; lra); apply div_pos_le; lra. Qed.
Lemma a_lt_b : 0 < top -> a < 10000.
Proof. intros; unfold a; rewrite <- z_of_top; apply div_pos_lt; lra. Qed.
Lemma a_is_z0 : a = (0 - shift) / k.
Proof. unfold a; f_equal; ring. Qed.

Lemma F_at x : shift < x -> gamma_dist P mu sigma shift x = P s ((x - shift) / k).
Proof. intros; unfold gamma_dist; destruct (Rle_dec x shift); [lra|reflexivity]. Qed.
Lemma F_at0 : shift <= 0 -> gamma_dist P mu sigma shift 0 = P s a.
Proof.
  intros H; unfold gamma_dist; destruct (Rle_dec 0 shift).
  - unfold a; replace (- shift / k) with 0; [symmetry; apply (ig_zero _ _ _ HG)|].
    replace (- shift) with 0 by lra; unfold Rdiv; ring.
  - rewrite a_is_z0; reflexivity.
Qed.
Lemma F_top : gamma_dist P mu sigma shift top = P s 10000.
Proof. rewrite F_at, z_of_top; [reflexivity|unfold top; lra]. Qed.

Lemma below_inside x : shift <= 0 -> 0 < x -> x < top ->
  let v := (P s ((x - shift) / k) - P s a) / (P s 10000 - P s a) in
  0 < v < 1 /\ tg_below P mu sigma shift x = RFin v.
Proof.
  intros Hs Hx Ht v.
  assert (La : 0 <= a) by (apply a_nonneg; auto).
  assert (Laz : a < (x - shift) / k) by (rewrite a_is_z0; apply div_pos_lt; lra).
  assert (Lzb : (x - shift) / k < 10000) by (rewrite <- z_of_top; apply div_pos_lt; lra).
  assert (H1 : P s a < P s ((x - shift) / k)) by (apply (ig_strict _ _ _ HG); lra).
  assert (H2 : P s ((x - shift) / k) < P s 10000) by (apply (ig_strict _ _ _ HG); lra).
  assert (Hv : 0 < v < 1).
  { unfold v; split.
    - apply Rdiv_lt_0_compat; lra.
    - apply (Rmult_lt_reg_r (P s 10000 - P s a)); [lra|]. unfold Rdiv; rewrite Rmult_assoc, Rinv_l by lra; lra. }
  split; [exact Hv|].
  unfold tg_below, tg_cdf, tg_argcheck, tg_cdf0, LARGE. fold k s. fold a.
  rewrite (rle_t 0 a), (rlt_t a 10000), (rlt_t 0 k), (rlt_t a ((x - shift) / k)), (rlt_t ((x - shift) / k) 10000) by lra; cbn.
  rewrite (rlt_f ((x - shift) / k) a), (rlt_f 10000 ((x - shift) / k)) by lra; cbn.
  fold v. apply (clip_in v); lra.
Qed.
Lemma below_outside x : shift <= 0 -> 0 < top -> x <= 0 \/ top <= x -> tg_below P mu sigma shift x = RFin 0.
Proof.
  intros Hs Htp Hx.
  assert (La : 0 <= a) by (apply a_nonneg; auto).
  assert (Lab : a < 10000) by (apply a_lt_b; auto).
  unfold tg_below, tg_cdf, tg_argcheck, LARGE. fold k s. fold a.
  rewrite (rle_t 0 a), (rlt_t a 10000), (rlt_t 0 k) by lra; cbn.
  assert (E : rlt a ((x - shift) / k) && rlt ((x - shift) / k) 10000 && true = false).
  { destruct Hx as [Hx|Hx].
    - rewrite (rlt_f a); [reflexivity|]. rewrite a_is_z0; apply div_pos_le; lra.
    - rewrite (rlt_f ((x - shift) / k)); [destruct (rlt a _); reflexivity|]. rewrite <- z_of_top; apply div_pos_le; lra. }
  rewrite E. apply (clip_in 0); lra.
Qed.
Lemma below_value x : shift <= 0 -> 0 < top -> x < top ->
  tg_below P mu sigma shift x = RFin (conditioned (gamma_dist P mu sigma shift) 0 top x).
Proof.
  intros Hs Ht Hx. unfold conditioned. destruct (Rle_dec x 0).
  - apply below_outside; auto.
  - destruct (Rle_dec top x); [lra|].
    rewrite (proj2 (below_inside x Hs ltac:(lra) Hx)), F_at, F_at0, F_top by lra; reflexivity.
Qed.
Lemma below_nan x : 0 < shift -> tg_below P mu sigma shift x = RNaN.
Proof.
  intros Hs. unfold tg_below, tg_cdf, tg_argcheck. fold k s. fold a.
  rewrite (rle_f 0 a); [reflexivity|].
  unfold a; replace 0 with (0 / k) by (field; lra); apply div_pos_lt; lra.
Qed.

Lemma conditioned_range x : shift <= 0 -> 0 < top -> 0 <= conditioned (gamma_dist P mu sigma shift) 0 top x <= 1.
Proof.
  intros Hs Ht; unfold conditioned. destruct (Rle_dec x 0); [lra|]. destruct (Rle_dec top x); [lra|].
  rewrite F_at, F_at0, F_top by lra. destruct (below_inside x Hs) as [H _]; [lra..|]. cbv zeta in H; lra.
Qed.
Lemma conditioned_strict x y : shift <= 0 -> 0 < top -> 0 <= x -> x < y -> y <= top ->
  conditioned (gamma_dist P mu sigma shift) 0 top x < conditioned (gamma_dist P mu sigma shift) 0 top y.
Proof.
  intros Hs Ht Hx Hxy Hy. unfold conditioned.
  destruct (Rle_dec y 0); [lra|]. destruct (Rle_dec top x); [lra|].
  destruct (Rle_dec x 0), (Rle_dec top y); try lra.
  - rewrite F_at, F_at0, F_top by lra. destruct (below_inside y Hs) as [H _]; [lra..|]; cbv zeta in H; lra.
  - rewrite F_at, F_at0, F_top by lra. destruct (below_inside x Hs) as [H _]; [lra..|]; cbv zeta in H; lra.
  - rewrite (F_at x), (F_at y), F_at0, F_top by lra.
    assert (H1 : P s ((x - shift) / k) < P s ((y - shift) / k)).
    { apply (ig_strict _ _ _ HG); [|apply div_pos_lt; lra]. replace 0 with (0 / k) by (field; lra); apply div_pos_le; lra. }
    assert (H2 : P s a < P s 10000) by (apply (ig_strict _ _ _ HG); [apply a_nonneg; auto|apply a_lt_b; auto]).
    apply div_pos_lt; lra.
Qed.

(** samples *)
Lemma rv_inverse q : shift <= 0 -> 0 < top -> 0 <= q -> q < 1 ->
  let m := tg_rv P Pinv q a 10000 s shift k in
  0 <= m /\ m < top /\ conditioned (gamma_dist P mu sigma shift) 0 top m = q.
Proof.
  intros Hs Ht H0 H1 m.
  assert (La : 0 <= a) by (apply a_nonneg; auto).
  assert (Lab : a < 10000) by (apply a_lt_b; auto).
  assert (HP : P s a < P s 10000) by (apply (ig_strict _ _ _ HG); lra).
  assert (HPa : 0 <= P s a) by (apply ig_nonneg; auto).
  assert (HPb : P s 10000 < 1) by apply (ig_below _ _ _ HG).
  set (p := q * (P s 10000 - P s a) + P s a).
  assert (Hp0 : P s a <= p) by (unfold p; assert (0 <= q * (P s 10000 - P s a)) by (apply Rmult_le_pos; lra); lra).
  assert (Hp1 : p < P s 10000).
  { unfold p; assert (q * (P s 10000 - P s a) < 1 * (P s 10000 - P s a)) by (apply Rmult_lt_compat_r; lra); lra. }
  destruct (ig_inv _ _ _ HG p) as [I0 I1]; [lra..|].
  set (z := Pinv s p) in *.
  assert (Hz0 : a <= z).
  { destruct (Rle_or_lt a z); auto. pose proof (ig_strict _ _ _ HG z a I0 H); lra. }
  assert (Hz1 : z < 10000).
  { destruct (Rlt_or_le z 10000); auto. pose proof (ig_mono 10000 z ltac:(lra) H); lra. }
  assert (Em : m = z * k + shift) by reflexivity.
  assert (Ez : (m - shift) / k = z) by (rewrite Em; field; lra).
  assert (Hm0 : 0 <= m).
  { rewrite Em. assert (a * k <= z * k) by (apply Rmult_le_compat_r; lra). assert (a * k = - shift) by (unfold a; field; lra). lra. }
  assert (Hm1 : m < top).
  { rewrite Em; unfold top. assert (z * k < 10000 * k) by (apply Rmult_lt_compat_r; lra). lra. }
  clearbody m. split; [auto|split; [auto|]].
  unfold conditioned. destruct (Rle_dec m 0) as [Z|Z].
  - assert (M0 : m = 0) by lra.
    assert (z = a) by (rewrite M0 in Ez; rewrite <- Ez; symmetry; apply a_is_z0).
    assert (p = P s a) by (rewrite <- I1; f_equal; auto).
    assert (E : q * (P s 10000 - P s a) = 0) by (unfold p in *; lra).
    apply Rmult_integral in E; lra.
  - destruct (Rle_dec top m); [lra|]. rewrite F_at, F_at0, F_top by lra. rewrite Ez, I1. unfold p; field; lra.
Qed.
Lemma rv_iff q t : shift <= 0 -> 0 < top -> 0 <= q -> q < 1 -> 0 <= t ->
  (tg_rv P Pinv q a 10000 s shift k <= t <-> q <= conditioned (gamma_dist P mu sigma shift) 0 top t).
Proof.
  intros Hs Ht H0 H1 Ht0. destruct (rv_inverse q Hs Ht H0 H1) as (A & B & C). cbv zeta in *.
  set (m := tg_rv P Pinv q a 10000 s shift k) in *. clearbody m.
  split; intros H.
  - rewrite <- C. destruct (Rle_or_lt top t).
    + assert (conditioned (gamma_dist P mu sigma shift) 0 top t = 1).
      { unfold conditioned. destruct (Rle_dec t 0); [lra|]. destruct (Rle_dec top t); [reflexivity|lra]. }
      rewrite H3; apply conditioned_range; auto.
    + destruct H as [H|<-]; [|lra]. left; apply conditioned_strict; lra.
  - destruct (Rle_or_lt m t); auto. exfalso.
    pose proof (conditioned_strict t m Hs Ht Ht0 H2 ltac:(lra)). lra.
Qed.
End S.

Lemma sample_ok P Pinv mu sigma shift n q e :
  tg_sample P Pinv mu sigma shift n q = Ok e ->
  shape e = n :: shape mu /\ (forall ix, valid (shape mu) ix -> 0 <= - get shift ix / tg_scale (get mu ix) (get sigma ix) < 10000) /\
  forall m ix, get e (m :: ix) = tg_rv P Pinv (q m ix) (- get shift ix / tg_scale (get mu ix) (get sigma ix)) 10000 (tg_shape (get mu ix) (get sigma ix)) (get shift ix) (tg_scale (get mu ix) (get sigma ix)).
Proof.
  unfold tg_sample. destruct (forallb _ _) eqn:E; [|discriminate]. intros H; injection H as <-.
  split; [reflexivity|split; [|reflexivity]].
  intros ix V. rewrite forallb_forall in E. specialize (E ix (proj2 (in_indices _ _) V)).
  apply andb_true_iff in E as [E _]. unfold tg_argcheck in E. apply andb_true_iff in E as [E1 E2].
  split; [apply rle_inv; auto|]. revert E2; unfold rlt, LARGE; destruct (Rlt_dec _ _); [auto|discriminate].
Qed.
Lemma sample_total P Pinv mu sigma shift n q :
  (forall ix, valid (shape mu) ix -> 0 < get mu ix /\ 0 < get sigma ix /\ get shift ix <= 0 /\ 0 < get shift ix + 10000 * tg_scale (get mu ix) (get sigma ix)) ->
  exists e, tg_sample P Pinv mu sigma shift n q = Ok e.
Proof.
  intros H. unfold tg_sample.
  replace (forallb _ _) with true; [eexists; reflexivity|]. symmetry; apply forallb_forall.
  intros ix I. apply in_indices in I. destruct (H ix I) as (A & B & C & D).
  pose proof (scale_pos _ _ A B). unfold tg_argcheck, LARGE.
  rewrite (rle_t 0 (- get shift ix / _)), (rlt_t (- get shift ix / _)), rle_t; auto; [lra| |].
  - apply (a_lt_b (get mu ix) (get sigma ix) (get shift ix)); auto.
  - apply (a_nonneg (get mu ix) (get sigma ix) (get shift ix)); auto.
Qed.
Lemma sample_raises P Pinv mu sigma shift n q ix :
  valid (shape mu) ix -> 0 < get mu ix -> 0 < get sigma ix -> 0 < get shift ix ->
  tg_sample P Pinv mu sigma shift n q = Raise ValueError.
Proof.
  intros V A B C. unfold tg_sample.
  destruct (forallb _ _) eqn:E; [|reflexivity]. exfalso.
  rewrite forallb_forall in E. specialize (E ix (proj2 (in_indices _ _) V)).
  apply andb_true_iff in E as [E _]. unfold tg_argcheck in E. apply andb_true_iff in E as [E _]. apply rle_inv in E.
  pose proof (scale_pos _ _ A B).
  assert (- get shift ix / tg_scale (get mu ix) (get sigma ix) < 0 / tg_scale (get mu ix) (get sigma ix)) by (apply div_pos_lt; lra).
  unfold Rdiv in H0 at 2; rewrite Rmult_0_l in H0; lra.
Qed.
