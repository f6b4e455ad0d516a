(** Proofs about the kernel density estimate. *)
From Coq Require Import Reals List Bool Arith ZArith Lra Lia.
From Coquelicot Require Import Coquelicot.
From Verif Require Import Num R_gauss M_kde.
Import ListNotations.
Open Scope R_scope.

Lemma rsum_nonneg l : (forall x, In x l -> 0 <= x) -> 0 <= rsum l.
Proof.
  induction l; cbn; intros H; [lra|]. pose proof (H a (or_introl eq_refl)).
  assert (0 <= rsum l) by (apply IHl; intros; apply H; right; auto). lra.
Qed.
Lemma rsum_pos l : l <> [] -> (forall x, In x l -> 0 < x) -> 0 < rsum l.
Proof.
  destruct l as [|a l]; [congruence|]. intros _ H. cbn. assert (0 < a) by (apply H; left; auto).
  assert (0 <= rsum l) by (apply rsum_nonneg; intros; left; apply H; right; auto). lra.
Qed.
Lemma rsum_le (A : Type) (f g : A -> R) l : (forall x, In x l -> f x <= g x) -> rsum (map f l) <= rsum (map g l).
Proof.
  induction l; cbn; intros H; [lra|]. pose proof (H a (or_introl eq_refl)).
  assert (rsum (map f l) <= rsum (map g l)) by (apply IHl; intros; apply H; right; auto). lra.
Qed.
Lemma rsum_const (A : Type) c (l : list A) : rsum (map (fun _ => c) l) = c * INR (length l).
Proof. induction l; [cbn; lra|]. cbn [map rsum length]. rewrite IHl, S_INR; ring. Qed.
Lemma rsum_app a b : rsum (a ++ b) = rsum a + rsum b.
Proof. induction a; cbn; [lra|rewrite IHa; lra]. Qed.
Lemma rsum_minus (A : Type) (f g : A -> R) l : rsum (map (fun x => f x - g x) l) = rsum (map f l) - rsum (map g l).
Proof. induction l; cbn; [lra|rewrite IHl; lra]. Qed.
Lemma rsum_abs (A : Type) (f : A -> R) l : Rabs (rsum (map f l)) <= rsum (map (fun x => Rabs (f x)) l).
Proof.
  induction l; cbn; [rewrite Rabs_R0; lra|]. eapply Rle_trans; [apply Rabs_triang|]. lra.
Qed.
Lemma rsum_in x l : In x l -> (forall y, In y l -> 0 <= y) -> x <= rsum l.
Proof.
  induction l; [intros []|]. intros [->|I] H; cbn.
  - assert (0 <= rsum l) by (apply rsum_nonneg; intros; apply H; right; auto). lra.
  - pose proof (H a (or_introl eq_refl)). assert (x <= rsum l) by (apply IHl; [auto|intros; apply H; right; auto]). lra.
Qed.
Lemma len_pos (A : Type) (l : list A) : l <> [] -> 0 < INR (length l).
Proof. intros H. apply lt_0_INR. destruct l; [congruence|cbn; lia]. Qed.

(** the minimum and maximum *)
Lemma lmin_spec l : forall e, (In (lmin e l) (e :: l)) /\ forall x, In x (e :: l) -> lmin e l <= x.
Proof.
  unfold lmin. induction l as [|a l IH]; intros e; cbn [fold_left].
  - split; [left; auto|]. intros x [->|[]]; lra.
  - destruct (IH (Rmin e a)) as [I M]. split.
    + destruct I as [I|I]; [|right; right; exact I]. rewrite <- I. unfold Rmin; destruct (Rle_dec e a); [left; auto|right; left; auto].
    + intros x [->|[->|J]].
      * eapply Rle_trans; [apply M; left; reflexivity|apply Rmin_l].
      * eapply Rle_trans; [apply M; left; reflexivity|apply Rmin_r].
      * apply M; right; exact J.
Qed.
Lemma lmax_spec l : forall e, (In (lmax e l) (e :: l)) /\ forall x, In x (e :: l) -> x <= lmax e l.
Proof.
  unfold lmax. induction l as [|a l IH]; intros e; cbn [fold_left].
  - split; [left; auto|]. intros x [->|[]]; lra.
  - destruct (IH (Rmax e a)) as [I M]. split.
    + destruct I as [I|I]; [|right; right; exact I]. rewrite <- I. unfold Rmax; destruct (Rle_dec e a); [right; left; auto|left; auto].
    + intros x [->|[->|J]].
      * eapply Rle_trans; [apply Rmax_l|apply M; left; reflexivity].
      * eapply Rle_trans; [apply Rmax_r|apply M; left; reflexivity].
      * apply M; right; exact J.
Qed.

(** lower end of the integration *)
Definition kde_from (mult : Z) (ens : list R) : R :=
  match ens with [] => 0 | e :: l => lmin e l - (lmax e l - lmin e l) * IZR mult end.
Definition kde_value (h : R) (n : nat) (a t : R) (ens : list R) : R :=
  rsum (map (kde_density h ens) (linspace a t n)) * ((t - a) / INR (n - 1)).
Lemma kde_ok h n mult t ens : ens <> [] -> 0 < h -> (2 <= n)%nat ->
  ens_to_prob_kde h n mult (t :: ens) = Ok (kde_value h n (kde_from mult ens) t ens).
Proof.
  intros E H N. destruct ens as [|e l]; [congruence|]. unfold ens_to_prob_kde.
  destruct (Rle_dec h 0); [lra|]. cbn [kde_from]. set (a := lmin e l - _). unfold kde_value.
  destruct n as [|[|n]]; [lia|lia|]. unfold linspace at 1. cbn [seq map]. f_equal. fold a. f_equal.
  cbn [INR]. ring.
Qed.

(** the density and its distribution function *)
Definition kde_cdf (h : R) (ens : list R) (x : R) : R := rsum (map (fun e => ncdf ((x - e) / h)) ens) / INR (length ens).
Section Density.
Variable h : R.
Hypothesis Hh : 0 < h.
Variable ens : list R.
Hypothesis He : ens <> [].

Lemma density_pos x : 0 < kde_density h ens x.
Proof.
  unfold kde_density. apply Rdiv_lt_0_compat; [|apply len_pos; auto]. apply rsum_pos.
  - intros E; apply map_eq_nil in E; auto.
  - intros y I; apply in_map_iff in I as (e & <- & _). apply Rdiv_lt_0_compat; [apply npdf_pos|auto].
Qed.
Lemma lin_derive e x : is_derive (fun x => (x - e) / h) x (/ h).
Proof.
  apply (is_derive_ext (fun x => / h * (x - e))); [intros; toR; unfold Rdiv; ring|].
  eapply d_eq; [apply d_scal, d_minus; [apply d_id|apply d_const]|]. toR; ring.
Qed.
Lemma cell_derive e x : is_derive (fun x => ncdf ((x - e) / h)) x (npdf ((x - e) / h) / h).
Proof. exact (d_comp (fun x => (x - e) / h) ncdf x (/ h) (npdf ((x - e) / h)) (lin_derive e x) (ncdf_derive _)). Qed.
Lemma cell_derive2 e x : is_derive (fun x => npdf ((x - e) / h) / h) x (- ((x - e) / h) * npdf ((x - e) / h) / (h * h)).
Proof.
  apply (is_derive_ext (fun x => / h * npdf ((x - e) / h))); [intros; toR; unfold Rdiv; ring|].
  eapply d_eq; [apply d_scal; exact (d_comp (fun x => (x - e) / h) npdf x (/ h) _ (lin_derive e x) (npdf_derive _))|].
  toR. field; lra.
Qed.
Lemma sum_derive (f g : R -> R -> R) l x : (forall e, In e l -> is_derive (f e) x (g e x)) ->
  is_derive (fun x => rsum (map (fun e => f e x) l)) x (rsum (map (fun e => g e x) l)).
Proof.
  induction l; intros H; cbn [map rsum].
  - apply d_const.
  - apply d_plus; [apply H; left; auto|apply IHl; intros; apply H; right; auto].
Qed.
Lemma cdf_derive x : is_derive (kde_cdf h ens) x (kde_density h ens x).
Proof.
  unfold kde_cdf, kde_density. set (n := INR (length ens)).
  apply (is_derive_ext (fun x => / n * rsum (map (fun e => ncdf ((x - e) / h)) ens))); [intros; toR; unfold Rdiv; ring|].
  eapply d_eq; [apply d_scal, (sum_derive (fun e x => ncdf ((x - e) / h)) (fun e x => npdf ((x - e) / h) / h)); intros; apply cell_derive|].
  toR. unfold Rdiv; ring.
Qed.
Definition density' (x : R) : R := rsum (map (fun e => - ((x - e) / h) * npdf ((x - e) / h) / (h * h)) ens) / INR (length ens).
Lemma density_derive x : is_derive (kde_density h ens) x (density' x).
Proof.
  unfold density', kde_density. set (n := INR (length ens)).
  apply (is_derive_ext (fun x => / n * rsum (map (fun e => npdf ((x - e) / h) / h) ens))); [intros; toR; unfold Rdiv; ring|].
  eapply d_eq; [apply d_scal, (sum_derive (fun e x => npdf ((x - e) / h) / h) (fun e x => - ((x - e) / h) * npdf ((x - e) / h) / (h * h))); intros; apply cell_derive2|].
  toR. unfold Rdiv; ring.
Qed.
Lemma one_le_sqrt : 1 <= sqrt (2 * PI).
Proof. rewrite <- sqrt_1 at 1. apply sqrt_le_1; pose proof PI_RGT_0; pose proof PI2_3_2; unfold PI2 in *; lra. Qed.
Lemma npdf_le_1 x : npdf x <= 1.
Proof.
  unfold npdf. pose proof one_le_sqrt. pose proof (exp_pos (- (x * x) / 2)).
  assert (exp (- (x * x) / 2) <= 1).
  { rewrite <- exp_0 at 1. assert (- (x * x) / 2 <= 0) by (pose proof (Rle_0_sqr x); unfold Rsqr in *; lra).
    destruct H1 as [L|L]; [left; apply exp_increasing; auto|rewrite L; right; reflexivity]. }
  apply (Rmult_le_reg_r (sqrt (2 * PI))); [lra|]. unfold Rdiv. rewrite Rmult_assoc, Rinv_l by lra. lra.
Qed.
Lemma x_npdf x : Rabs (- x * npdf x) <= 1.
Proof.
  pose proof (npdf_pos x). pose proof (Rabs_pos x).
  rewrite Rabs_mult, Rabs_Ropp, (Rabs_right (npdf x)) by lra.
  unfold npdf. pose proof one_le_sqrt as S1. set (q := sqrt (2 * PI)) in *. clearbody q.
  assert (E : Rabs x * exp (- (x * x) / 2) <= 1).
  { replace (- (x * x) / 2) with (- (x * x / 2)) by field. rewrite exp_Ropp.
    pose proof (exp_ineq1_le (x * x / 2)) as L. set (E := exp (x * x / 2)) in *. clearbody E.
    assert (Q : Rabs x <= 1 + x * x / 2).
    { replace (x * x) with (Rabs x * Rabs x) by (rewrite <- Rabs_mult; apply Rabs_right; pose proof (Rle_0_sqr x); unfold Rsqr in *; lra).
      set (u := Rabs x). clearbody u. pose proof (Rle_0_sqr (u - 1)) as K. unfold Rsqr in K. lra. }
    apply (Rmult_le_reg_r E); [pose proof (Rle_0_sqr x); unfold Rsqr in *; lra|].
    rewrite Rmult_assoc, Rinv_l by (pose proof (Rle_0_sqr x); unfold Rsqr in *; lra). lra. }
  unfold Rdiv. rewrite <- Rmult_assoc. set (y := Rabs x * exp (- (x * x) * / 2)) in *.
  assert (E' : y <= 1) by exact E. clear E.
  apply (Rmult_le_reg_r q); [lra|]. rewrite Rmult_assoc, Rinv_l by lra. lra.
Qed.
Lemma mean_le (f : R -> R) c : (forall e, f e <= c) -> rsum (map f ens) / INR (length ens) <= c.
Proof.
  intros H. pose proof (len_pos _ ens He) as L. apply (Rmult_le_reg_r (INR (length ens))); [auto|].
  unfold Rdiv. rewrite Rmult_assoc, Rinv_l by lra. rewrite Rmult_1_r, <- (rsum_const R). apply rsum_le; auto.
Qed.
Lemma density_le x : kde_density h ens x <= / h.
Proof.
  unfold kde_density. apply mean_le. intros e. unfold Rdiv. pose proof (npdf_le_1 ((x - e) * / h)).
  replace (/ h) with (1 * / h) at 3 by ring. apply Rmult_le_compat_r; [left; apply Rinv_0_lt_compat; auto|auto].
Qed.
Lemma density'_le x : Rabs (density' x) <= / (h * h).
Proof.
  unfold density'. pose proof (len_pos _ ens He) as L. unfold Rdiv at 1. rewrite Rabs_mult, (Rabs_right (/ INR (length ens))).
  2: { left; apply Rinv_0_lt_compat; auto. }
  eapply Rle_trans; [apply Rmult_le_compat_r; [left; apply Rinv_0_lt_compat; auto|apply rsum_abs]|].
  apply (mean_le (fun e => Rabs (- ((x - e) / h) * npdf ((x - e) / h) / (h * h)))). intros e.
  unfold Rdiv at 1. rewrite Rabs_mult. rewrite (Rabs_right (/ (h * h))).
  2: { left; apply Rinv_0_lt_compat, Rmult_lt_0_compat; auto. }
  replace (/ (h * h)) with (1 * / (h * h)) at 2 by ring.
  apply Rmult_le_compat_r; [left; apply Rinv_0_lt_compat, Rmult_lt_0_compat; auto|apply x_npdf].
Qed.
Lemma density_lip x y : Rabs (kde_density h ens y - kde_density h ens x) <= / (h * h) * Rabs (y - x).
Proof.
  destruct (MVT_gen (kde_density h ens) x y density') as (c & _ & E).
  - intros; apply density_derive.
  - intros z _. apply continuity_pt_filterlim. apply dcont. eexists; apply density_derive.
  - rewrite E, Rabs_mult. apply Rmult_le_compat_r; [apply Rabs_pos|apply density'_le].
Qed.
Lemma cell_error x s : 0 <= s -> Rabs (s * kde_density h ens x - (kde_cdf h ens (x + s) - kde_cdf h ens x)) <= / (h * h) * (s * s).
Proof.
  intros Hs. destruct (MVT_gen (kde_cdf h ens) x (x + s) (kde_density h ens)) as (c & C & E).
  - intros; apply cdf_derive.
  - intros z _. apply continuity_pt_filterlim. apply dcont. eexists; apply cdf_derive.
  - rewrite E. replace (s * kde_density h ens x - kde_density h ens c * (x + s - x)) with (s * (kde_density h ens x - kde_density h ens c)) by ring.
    rewrite Rabs_mult, (Rabs_right s) by lra. rewrite Rmin_left, Rmax_right in C by lra.
    assert (Rabs (kde_density h ens x - kde_density h ens c) <= / (h * h) * s).
    { eapply Rle_trans; [apply density_lip|]. apply Rmult_le_compat_l; [left; apply Rinv_0_lt_compat, Rmult_lt_0_compat; auto|].
      rewrite Rabs_minus_sym, Rabs_right; lra. }
    replace (/ (h * h) * (s * s)) with (s * (/ (h * h) * s)) by ring. apply Rmult_le_compat_l; auto.
Qed.
(** left Riemann sums *)
Lemma riemann_error a s : 0 <= s -> forall n,
  Rabs (rsum (map (fun j => kde_density h ens (a + INR j * s)) (seq 0 n)) * s - (kde_cdf h ens (a + INR n * s) - kde_cdf h ens a))
  <= / (h * h) * (s * s) * INR n.
Proof.
  intros Hs. induction n.
  - cbn [seq map rsum INR]. replace (a + 0 * s) with a by ring.
    replace (0 * s - (kde_cdf h ens a - kde_cdf h ens a)) with 0 by ring. rewrite Rabs_R0; lra.
  - rewrite seq_S, map_app, rsum_app. cbn [map rsum Nat.add]. rewrite S_INR.
    set (A := rsum _) in *. set (x := a + INR n * s) in *.
    replace (a + (INR n + 1) * s) with (x + s) by (unfold x; ring).
    pose proof (cell_error x s Hs) as C. clearbody A.
    replace ((A + (kde_density h ens x + 0)) * s - (kde_cdf h ens (x + s) - kde_cdf h ens a))
      with ((A * s - (kde_cdf h ens x - kde_cdf h ens a)) + (s * kde_density h ens x - (kde_cdf h ens (x + s) - kde_cdf h ens x))) by ring.
    eapply Rle_trans; [apply Rabs_triang|]. rewrite Rmult_plus_distr_l, Rmult_1_r. apply Rplus_le_compat; [exact IHn|exact C].
Qed.
Lemma value_error n a t : (2 <= n)%nat -> a <= t ->
  let s := (t - a) / INR (n - 1) in
  Rabs (kde_value h n a t ens - (kde_cdf h ens t - kde_cdf h ens a)) <= s * ((t - a) / (h * h) + / h).
Proof.
  intros N L s. unfold kde_value, linspace. rewrite map_map. fold s.
  assert (P : 0 < INR (n - 1)) by (apply lt_0_INR; lia).
  assert (Hs : 0 <= s) by (unfold s, Rdiv; apply Rmult_le_pos; [lra|left; apply Rinv_0_lt_compat; auto]).
  assert (Es : INR (n - 1) * s = t - a) by (unfold s; field; lra).
  destruct n as [|n]; [lia|]. replace (S n - 1)%nat with n in * by lia. clearbody s.
  rewrite seq_S, map_app, rsum_app. cbn [map rsum Nat.add].
  pose proof (riemann_error a s Hs n) as E. set (A := rsum _) in *. clearbody A. rewrite Es in *.
  replace (a + (t - a)) with t in * by ring. rewrite Rplus_0_r.
  replace ((A + kde_density h ens t) * s - (kde_cdf h ens t - kde_cdf h ens a))
    with ((A * s - (kde_cdf h ens t - kde_cdf h ens a)) + s * kde_density h ens t) by ring.
  eapply Rle_trans; [apply Rabs_triang|].
  assert (D : Rabs (s * kde_density h ens t) <= s * / h).
  { pose proof (density_pos t). rewrite Rabs_mult, (Rabs_right s), (Rabs_right (kde_density h ens t)) by lra.
    apply Rmult_le_compat_l; [auto|apply density_le]. }
  replace (/ (h * h) * (s * s) * INR n) with (s * ((t - a) / (h * h))) in E by (rewrite <- Es; unfold Rdiv; ring). lra.
Qed.
Lemma value_sign n a t : (2 <= n)%nat -> (a < t -> 0 < kde_value h n a t ens) /\ (t < a -> kde_value h n a t ens < 0) /\ (t = a -> kde_value h n a t ens = 0).
Proof.
  intros N. assert (P : 0 < INR (n - 1)) by (apply lt_0_INR; lia).
  assert (Q : 0 < rsum (map (kde_density h ens) (linspace a t n))).
  { apply rsum_pos.
    - unfold linspace. destruct n; [lia|]. discriminate.
    - intros x I. apply in_map_iff in I as (y & <- & _). apply density_pos. }
  unfold kde_value. set (A := rsum _) in *. clearbody A. repeat split; intros L.
  - apply Rmult_lt_0_compat; [auto|apply Rdiv_lt_0_compat; lra].
  - assert (0 < A * ((a - t) / INR (n - 1))) by (apply Rmult_lt_0_compat; [auto|apply Rdiv_lt_0_compat; lra]).
    replace (A * ((t - a) / INR (n - 1))) with (- (A * ((a - t) / INR (n - 1)))) by (unfold Rdiv; ring). lra.
  - rewrite L. unfold Rdiv; ring.
Qed.
Lemma value_large n a t : (2 <= n)%nat -> a <= t -> kde_density h ens a * ((t - a) / INR (n - 1)) <= kde_value h n a t ens.
Proof.
  intros N L. unfold kde_value. apply Rmult_le_compat_r.
  - unfold Rdiv; apply Rmult_le_pos; [lra|]. left; apply Rinv_0_lt_compat, lt_0_INR; lia.
  - apply rsum_in.
    + apply in_map_iff. exists a. split; [reflexivity|]. unfold linspace. apply in_map_iff. exists 0%nat. split; [cbn [INR]; ring|]. apply in_seq; lia.
    + intros y I. apply in_map_iff in I as (x & <- & _). left; apply density_pos.
Qed.
Lemma kde_cdf_range x : 0 < kde_cdf h ens x < 1.
Proof.
  pose proof (len_pos _ ens He) as L. unfold kde_cdf. split.
  - apply Rdiv_lt_0_compat; [|auto]. apply rsum_pos; [intros E; apply map_eq_nil in E; auto|].
    intros y I. apply in_map_iff in I as (e & <- & _). apply ncdf_pos.
  - apply (Rmult_lt_reg_r (INR (length ens))); [auto|]. unfold Rdiv. rewrite Rmult_assoc, Rinv_l by lra. rewrite Rmult_1_r.
    rewrite <- (rsum_const R 1 ens).
    assert (0 < rsum (map (fun e => 1 - ncdf ((x - e) * / h)) ens)).
    { apply rsum_pos; [intros E; apply map_eq_nil in E; auto|]. intros y I. apply in_map_iff in I as (e & <- & _). pose proof (ncdf_lt_1 ((x - e) * / h)); lra. }
    rewrite (rsum_minus R (fun _ => 1)) in H. lra.
Qed.
End Density.
Lemma ncdf_0 : ncdf 0 = / 2.
Proof. pose proof (ncdf_sym 0) as H. rewrite Ropp_0 in H. lra. Qed.
Lemma kde_cdf_const h v ens : ens <> [] -> (forall e, In e ens -> e = v) -> kde_cdf h ens v = / 2.
Proof.
  intros He H. unfold kde_cdf. pose proof (len_pos _ ens He) as L.
  replace (map (fun e => ncdf ((v - e) / h)) ens) with (map (fun _ : R => / 2) ens).
  - rewrite rsum_const. field; lra.
  - apply map_ext_in. intros e I. rewrite (H e I). replace ((v - v) / h) with 0 by (unfold Rdiv; ring). symmetry; apply ncdf_0.
Qed.
Lemma kde_from_const mult v ens : ens <> [] -> (forall e, In e ens -> e = v) -> kde_from mult ens = v.
Proof.
  intros He H. destruct ens as [|e l]; [congruence|]. cbn.
  rewrite (H _ (proj1 (lmin_spec l e))), (H _ (proj1 (lmax_spec l e))). ring.
Qed.
