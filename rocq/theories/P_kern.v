(** Proofs for C124. *)
From Coq Require Import String Reals List Bool Arith ZArith Lra Lia Psatz.
From Coquelicot Require Import Coquelicot.
From Verif Require Import Num R_gauss M_kde P_kde M_kern Spec_kern.
Import ListNotations.
Open Scope R_scope.

(** ** One kernel to the right of its centre *)
Lemma mvt_right (K F : R -> R) u v : (forall x, u <= x <= v -> is_derive F x (K x)) -> (forall x, u <= x <= v -> K v <= K x <= K u) -> u <= v ->
  K v * (v - u) <= F v - F u <= K u * (v - u).
Proof.
  intros D M L. destruct L as [L|<-]; [|rewrite !Rminus_diag_eq, ?Rmult_0_r by reflexivity; lra].
  destruct (MVT_gen F u v K) as (c & Hc & E).
  - intros x Hx. rewrite Rmin_left, Rmax_right in Hx by lra. apply D; lra.
  - intros x Hx. rewrite Rmin_left, Rmax_right in Hx by lra. apply continuity_pt_filterlim. apply (dcont F). exists (K x). apply D; lra.
  - rewrite Rmin_left, Rmax_right in Hc by lra. rewrite E. destruct (M c Hc). split; apply Rmult_le_compat_r; lra.
Qed.
Lemma exp_up x : 1 + x <= exp x.
Proof. destruct (Req_dec x 0) as [->|N]; [rewrite exp_0; lra|left; apply exp_ineq1, N]. Qed.
Lemma cos_dec x y : 0 <= x -> x <= y -> y <= PI / 2 -> cos y <= cos x.
Proof. intros A B C. pose proof PI_RGT_0. destruct B as [B|<-]; [|lra]. left. apply cos_decreasing_1; lra. Qed.

Lemma npdf_dec x y : 0 <= x -> x <= y -> npdf y <= npdf x.
Proof.
  intros A B. unfold npdf. apply Rmult_le_compat_r; [left; apply Rinv_0_lt_compat, sqrt_2PI_pos|]. destruct B as [B|<-]; [|lra]. left. apply exp_increasing. nra.
Qed.
Lemma half_cosine u v : 0 <= u -> u <= v -> v <= 1 ->
  PI / 4 * cos (PI / 2 * v) <= PI / 4 * cos (PI / 2 * u) /\
  PI / 4 * cos (PI / 2 * v) * (v - u) <= (1 + sin (PI / 2 * v)) / 2 - (1 + sin (PI / 2 * u)) / 2 <= PI / 4 * cos (PI / 2 * u) * (v - u).
Proof.
  intros A B C. pose proof PI_RGT_0 as P.
  assert (D : forall x y, 0 <= x -> x <= y -> y <= 1 -> PI / 4 * cos (PI / 2 * y) <= PI / 4 * cos (PI / 2 * x)).
  { intros x y X Y Z. apply Rmult_le_compat_l; [lra|]. apply cos_dec; nra. }
  split; [apply D; assumption|].
  apply (mvt_right (fun x => PI / 4 * cos (PI / 2 * x)) (fun x => (1 + sin (PI / 2 * x)) / 2)); [|intros x Hx; split; apply D; lra|exact B].
  intros x _. auto_derive; [exact I|]. field.
Qed.
(** the facts about a kernel that are used *)
Lemma half_kernel k u v : 0 <= u -> u <= v -> kernel_at k v <= kernel_at k u /\ kernel_at k v * (v - u) <= upper_half k v - upper_half k u <= kernel_at k u * (v - u).
Proof.
  intros A B. destruct k; cbn [kernel_at upper_half].
  - split; [apply npdf_dec; assumption|]. apply mvt_right; [intros; apply ncdf_derive|intros x Hx; split; apply npdf_dec; lra|exact B].
  - destruct (Rlt_dec v 1), (Rlt_dec u 1); try lra; nra.
  - destruct (Rlt_dec v 1), (Rlt_dec u 1); try lra; try nra.
    + assert (0 <= (v - u) * (v - u)) by nra. assert (0 <= (v - u) * (v - u) * v) by nra. assert (0 <= (v - u) * (v - u) * u) by nra. split; [nra|]. split; nra.
    + assert (0 <= (1 - u) * (1 - u)) by nra. assert (0 <= (1 - u) * (1 - u) * u) by nra. split; [nra|]. split; nra.
  - pose proof (exp_up (v - u)) as E1. pose proof (exp_up (u - v)) as E2. pose proof (exp_pos (- v)) as P1. pose proof (exp_pos (- u)) as P2.
    assert (Q1 : exp (- u) = exp (- v) * exp (v - u)) by (rewrite <- exp_plus; f_equal; ring). assert (Q2 : exp (- v) = exp (- u) * exp (u - v)) by (rewrite <- exp_plus; f_equal; ring).
    assert (exp (- v) * (1 + (v - u)) <= exp (- u)) by (rewrite Q1; apply Rmult_le_compat_l; lra). assert (exp (- u) * (1 + (u - v)) <= exp (- v)) by (rewrite Q2 at 1; apply Rmult_le_compat_l; lra).
    split; [nra|]. split; nra.
  - destruct (Rlt_dec v 1), (Rlt_dec u 1); try lra; nra.
  - pose proof PI_RGT_0 as P. destruct (Rlt_dec v 1) as [V|V], (Rlt_dec u 1) as [U|U]; try lra; try (apply half_cosine; lra).
    destruct (half_cosine u 1 A ltac:(lra) ltac:(lra)) as (C1 & C2 & C3). replace (PI / 2 * 1) with (PI / 2) in * by ring. rewrite cos_PI2, sin_PI2 in *.
    split; [lra|]. split; [lra|]. replace ((1 + 1) / 2) with 1 in C3 by field. eapply Rle_trans; [exact C3|]. apply Rmult_le_compat_l; lra.
Qed.
Lemma kernel_pos k u : 0 <= u -> 0 <= kernel_at k u.
Proof.
  intros A. pose proof PI_RGT_0. destruct k; cbn [kernel_at]; try (match goal with |- context [Rlt_dec u 1] => destruct (Rlt_dec u 1) end; try lra; try nra).
  - left; apply npdf_pos.
  - pose proof (exp_pos (- u)). lra.
  - apply Rmult_le_pos; [lra|]. apply cos_ge_0; nra.
Qed.
Lemma kernel_0 k : kernel_at k 0 <= 1.
Proof.
  destruct k; cbn [kernel_at]; try (match goal with |- context [Rlt_dec 0 1] => destruct (Rlt_dec 0 1) end; try lra).
  - apply npdf_le_1.
  - rewrite Ropp_0, exp_0. lra.
  - rewrite Rmult_0_r, cos_0. pose proof PI_4. lra.
Qed.
Lemma upper_0 k : upper_half k 0 = / 2.
Proof.
  destruct k; cbn [upper_half]; try (match goal with |- context [Rlt_dec 0 1] => destruct (Rlt_dec 0 1) end; try lra).
  - apply ncdf_0.
  - rewrite Ropp_0, exp_0. lra.
  - rewrite Rmult_0_r, sin_0. lra.
Qed.
Lemma upper_le_1 k u : 0 <= u -> upper_half k u <= 1.
Proof.
  intros A. destruct k; cbn [upper_half]; try (match goal with |- context [Rlt_dec u 1] => destruct (Rlt_dec u 1) end; try lra).
  - left; apply ncdf_lt_1.
  - assert (0 <= (1 - u) * (1 - u)) by nra. assert (0 <= (1 - u) * (1 - u) * (u + 2)) by (apply Rmult_le_pos; lra). nra.
  - pose proof (exp_pos (- u)). lra.
  - assert (0 <= (1 - u) * (1 - u)) by nra. lra.
  - pose proof (SIN_bound (PI / 2 * u)). lra.
Qed.
Lemma upper_lim k : forall eps, 0 < eps -> exists u0, 0 <= u0 /\ forall u, u0 <= u -> 1 - eps < upper_half k u.
Proof.
  intros eps E.
  assert (B : (forall u, 1 <= u -> upper_half k u = 1) -> exists u0, 0 <= u0 /\ forall u, u0 <= u -> 1 - eps < upper_half k u) by (intros H; exists 1; split; [lra|]; intros u U; rewrite H by exact U; lra).
  destruct k; try (apply B; intros u U; cbn [upper_half]; destruct (Rlt_dec u 1); lra); clear B; cbn [upper_half].
  - pose proof ncdf_lim as L. apply is_lim_spec in L. destruct (L (mkposreal eps E)) as (M & HM). exists (Rmax 0 (M + 1)). split; [apply Rmax_l|]. intros u U. pose proof (Rmax_r 0 (M + 1)).
    specialize (HM u ltac:(lra)). cbn in HM. apply Rabs_def2 in HM. lra.
  - exists (/ eps). pose proof (Rinv_0_lt_compat _ E) as I. split; [lra|]. intros u U. assert (X : exp (- u) <= eps).
    { rewrite exp_Ropp. rewrite <- (Rinv_involutive eps) by lra. apply Rinv_le_contravar; [exact I|]. pose proof (exp_up u). lra. }
    lra.
Qed.

(** ** Both sides *)
Section Kernel.
Variable k : kernel.
Notation K := (fun u => kernel_at k (Rabs u)).
Notation F := (kernel_cdf k).
Lemma cdf_right u : 0 <= u -> F u = upper_half k u.
Proof. intros A. unfold kernel_cdf. destruct (Rle_dec 0 u); [reflexivity|lra]. Qed.
Lemma cdf_sym u : F (- u) = 1 - F u.
Proof.
  unfold kernel_cdf. destruct (Rle_dec 0 (- u)) as [A|A], (Rle_dec 0 u) as [B|B]; try lra.
  - assert (u = 0) by lra. subst u. rewrite Ropp_0, upper_0. lra.
  - rewrite Ropp_involutive. lra.
Qed.
Lemma right_side u v : 0 <= u -> u <= v -> K v <= K u /\ K v * (v - u) <= F v - F u <= K u * (v - u).
Proof. intros A B. cbv beta. rewrite !Rabs_right, !cdf_right by lra. apply half_kernel; assumption. Qed.
Lemma left_side u v : v <= 0 -> u <= v -> K u <= K v /\ K u * (v - u) <= F v - F u <= K v * (v - u).
Proof.
  intros A B. destruct (right_side (- v) (- u) ltac:(lra) ltac:(lra)) as (M & L & H). cbv beta in *. rewrite !Rabs_Ropp, !cdf_sym in *. replace (- u - - v) with (v - u) in * by ring. lra.
Qed.
Lemma K_pos u : 0 <= K u. Proof. apply kernel_pos, Rabs_pos. Qed.
Lemma K_top u : K u <= K 0.
Proof. cbv beta. destruct (Rle_dec 0 u) as [A|A]; [apply (right_side 0 u); lra|apply (left_side u 0); lra]. Qed.
Lemma K_one u : K u <= 1.
Proof. eapply Rle_trans; [apply K_top|]. cbv beta. rewrite Rabs_R0. apply kernel_0. Qed.
Lemma cdf_mono u v : u <= v -> F u <= F v.
Proof.
  assert (R : forall u v, 0 <= u -> u <= v -> F u <= F v) by (intros x y A B; destruct (right_side x y A B) as (_ & L & _); pose proof (K_pos y); cbv beta in *; nra).
  assert (L : forall u v, v <= 0 -> u <= v -> F u <= F v) by (intros x y A B; destruct (left_side x y A B) as (_ & L & _); pose proof (K_pos x); cbv beta in *; nra).
  intros A. destruct (Rle_dec 0 u); [apply R; lra|]. destruct (Rle_dec v 0); [apply L; lra|]. eapply Rle_trans; [apply (L u 0)|apply (R 0 v)]; lra.
Qed.
Lemma cdf_range u : 0 <= F u <= 1.
Proof.
  assert (R : forall x, 0 <= x -> / 2 <= F x <= 1).
  { intros x A. split; [|rewrite cdf_right by exact A; apply upper_le_1, A]. pose proof (cdf_mono 0 x A) as M. rewrite (cdf_right 0), upper_0 in M by lra. exact M. }
  destruct (Rle_dec 0 u) as [A|A]; [specialize (R u A); lra|]. specialize (R (- u) ltac:(lra)). rewrite cdf_sym in R. lra.
Qed.
Lemma cdf_integral : integral_of K F.
Proof.
  assert (R : forall u v lo hi, 0 <= u -> u <= v -> (forall x, u <= x <= v -> lo <= K x <= hi) -> lo * (v - u) <= F v - F u <= hi * (v - u)).
  { intros u v lo hi A B H. destruct (right_side u v A B) as (_ & L & U). pose proof (H u ltac:(lra)). pose proof (H v ltac:(lra)). cbv beta in *. nra. }
  assert (L : forall u v lo hi, v <= 0 -> u <= v -> (forall x, u <= x <= v -> lo <= K x <= hi) -> lo * (v - u) <= F v - F u <= hi * (v - u)).
  { intros u v lo hi A B H. destruct (left_side u v A B) as (_ & L & U). pose proof (H u ltac:(lra)). pose proof (H v ltac:(lra)). cbv beta in *. nra. }
  intros u v lo hi B H. destruct (Rle_dec 0 u); [apply R; assumption|]. destruct (Rle_dec v 0); [apply L; assumption|].
  pose proof (L u 0 lo hi ltac:(lra) ltac:(lra) ltac:(intros x X; apply H; lra)). pose proof (R 0 v lo hi ltac:(lra) ltac:(lra) ltac:(intros x X; apply H; lra)). lra.
Qed.
(** how much the kernel has varied up to here *)
Definition varied (u : R) : R := if Rle_dec u 0 then K u else 2 * K 0 - K u.
Lemma varied_range u : 0 <= varied u <= 2.
Proof. unfold varied. pose proof (K_pos u). pose proof (K_top u). pose proof (K_one 0). cbv beta in *. destruct (Rle_dec u 0); lra. Qed.
Lemma one_step u v : u <= v -> Rabs ((v - u) * K u - (F v - F u)) <= (v - u) * (varied v - varied u).
Proof.
  intros A. apply Rabs_le. unfold varied. destruct (Rle_dec u 0) as [U|U], (Rle_dec v 0) as [V|V]; try lra.
  - destruct (left_side u v V A) as (M & L & H). cbv beta in *. nra.
  - destruct (left_side u 0 ltac:(lra) U) as (M & L & H). destruct (right_side 0 v ltac:(lra) ltac:(lra)) as (M' & L' & H'). cbv beta in *.
    set (a := kernel_at k (Rabs u)) in *. set (b := kernel_at k (Rabs v)) in *. set (c := kernel_at k (Rabs 0)) in *. set (D1 := F 0 - F u) in *. set (D2 := F v - F 0) in *.
    replace (F v - F u) with (D1 + D2) by (unfold D1, D2; ring). clearbody a b c D1 D2. split; nra.
  - destruct (right_side u v ltac:(lra) A) as (M & L & H). cbv beta in *. nra.
Qed.

(** ** The mixture *)
Variable h : R.
Hypothesis H : 0 < h.
Variable ens : list R.
Hypothesis He : ens <> [].
Definition avg (f : R -> R) : R := rsum (map f ens) / INR (length ens).
Lemma avg_le f g : (forall e, In e ens -> f e <= g e) -> avg f <= avg g.
Proof. intros A. unfold avg, Rdiv. apply Rmult_le_compat_r; [left; apply Rinv_0_lt_compat, len_pos, He|apply rsum_le, A]. Qed.
Lemma avg_const c : avg (fun _ => c) = c.
Proof. unfold avg. rewrite rsum_const. field. pose proof (len_pos _ _ He). lra. Qed.
Lemma avg_minus f g : avg (fun e => f e - g e) = avg f - avg g.
Proof. unfold avg. rewrite rsum_minus. field. pose proof (len_pos _ _ He). lra. Qed.
Lemma rsum_scal (A : Type) c (f : A -> R) l : rsum (map (fun x => c * f x) l) = c * rsum (map f l).
Proof. induction l as [|a l IH]; cbn [map rsum]; [ring|rewrite IH; ring]. Qed.
Lemma avg_scal c f : avg (fun e => c * f e) = c * avg f.
Proof. unfold avg. rewrite rsum_scal. unfold Rdiv. ring. Qed.
Lemma avg_abs f : Rabs (avg f) <= avg (fun e => Rabs (f e)).
Proof. unfold avg, Rdiv. rewrite Rabs_mult, (Rabs_right (/ _)) by (left; apply Rinv_0_lt_compat, len_pos, He). apply Rmult_le_compat_r; [left; apply Rinv_0_lt_compat, len_pos, He|apply rsum_abs]. Qed.
Lemma avg_ext f g : (forall e, In e ens -> f e = g e) -> avg f = avg g.
Proof. intros E. unfold avg. rewrite (map_ext_in _ _ _ E). reflexivity. Qed.

Definition place (x e : R) : R := (x - e) / h.
Lemma density_avg x : kern_density k h ens x = avg (fun e => K (place x e) / h).
Proof.
  unfold kern_density, avg. f_equal. f_equal. apply map_ext. intros e. unfold place. f_equal. f_equal. unfold Rdiv. rewrite Rabs_mult, (Rabs_right (/ h)); [reflexivity|]. left. apply Rinv_0_lt_compat, H.
Qed.
Lemma mixture_avg x : kern_mixture k h ens x = avg (fun e => F (place x e)). Proof. reflexivity. Qed.
Lemma kern_density_range x : 0 <= kern_density k h ens x <= / h.
Proof.
  pose proof (Rinv_0_lt_compat _ H) as I. rewrite density_avg. split.
  - rewrite <- (avg_const 0). apply avg_le. intros e _. apply Rmult_le_pos; [apply K_pos|lra].
  - rewrite <- (avg_const (/ h)). apply avg_le. intros e _. pose proof (K_one (place x e)) as O. unfold Rdiv. rewrite <- (Rmult_1_l (/ h)) at 2. apply Rmult_le_compat_r; [lra|exact O].
Qed.
Definition var_at (x : R) : R := avg (fun e => varied (place x e)).
Lemma var_range x : 0 <= var_at x <= 2.
Proof. split; [rewrite <- (avg_const 0)|rewrite <- (avg_const 2)]; apply avg_le; intros; apply varied_range. Qed.
Lemma kern_step x s : 0 <= s -> Rabs (s * kern_density k h ens x - (kern_mixture k h ens (x + s) - kern_mixture k h ens x)) <= s / h * (var_at (x + s) - var_at x).
Proof.
  intros Hs. rewrite density_avg, !mixture_avg. unfold var_at. rewrite <- !avg_minus, <- !avg_scal, <- avg_minus. eapply Rle_trans; [apply avg_abs|]. apply avg_le. intros e _.
  assert (P : place (x + s) e - place x e = s / h) by (unfold place; field; lra). pose proof (Rinv_0_lt_compat _ H) as I.
  assert (L : place x e <= place (x + s) e) by (apply Rminus_le; unfold place; replace ((x - e) / h - (x + s - e) / h) with (- (s * / h)) by (field; lra); nra).
  pose proof (one_step _ _ L) as O. rewrite P in O. cbv beta in *. replace (s * (kernel_at k (Rabs (place x e)) / h)) with (s / h * kernel_at k (Rabs (place x e))) by (unfold Rdiv; ring). exact O.
Qed.
Lemma kern_riemann a s : 0 <= s -> forall n,
  Rabs (rsum (map (fun j => kern_density k h ens (a + INR j * s)) (seq 0 n)) * s - (kern_mixture k h ens (a + INR n * s) - kern_mixture k h ens a)) <= s / h * (var_at (a + INR n * s) - var_at a).
Proof.
  intros Hs. induction n.
  - cbn [seq map rsum INR]. replace (a + 0 * s) with a by ring. replace (0 * s - (kern_mixture k h ens a - kern_mixture k h ens a)) with 0 by ring. rewrite Rabs_R0. replace (var_at a - var_at a) with 0 by ring. lra.
  - rewrite seq_S, map_app, rsum_app. cbn [map rsum Nat.add]. rewrite S_INR. set (A := rsum _) in *. set (x := a + INR n * s) in *.
    replace (a + (INR n + 1) * s) with (x + s) by (unfold x; ring). pose proof (kern_step x s Hs) as C. clearbody A.
    replace ((A + (kern_density k h ens x + 0)) * s - (kern_mixture k h ens (x + s) - kern_mixture k h ens a))
      with ((A * s - (kern_mixture k h ens x - kern_mixture k h ens a)) + (s * kern_density k h ens x - (kern_mixture k h ens (x + s) - kern_mixture k h ens x))) by ring.
    eapply Rle_trans; [apply Rabs_triang|]. replace (s / h * (var_at (x + s) - var_at a)) with (s / h * (var_at x - var_at a) + s / h * (var_at (x + s) - var_at x)) by ring. apply Rplus_le_compat; assumption.
Qed.
Definition kern_value (n : nat) (a t : R) : R := rsum (map (kern_density k h ens) (linspace a t n)) * ((t - a) / INR (n - 1)).
Lemma kern_value_error n a t : (2 <= n)%nat -> a <= t -> Rabs (kern_value n a t - (kern_mixture k h ens t - kern_mixture k h ens a)) <= 3 / h * ((t - a) / INR (n - 1)).
Proof.
  intros N L. set (s := (t - a) / INR (n - 1)). unfold kern_value, linspace. rewrite map_map. fold s.
  assert (P : 0 < INR (n - 1)) by (apply lt_0_INR; lia).
  assert (Hs : 0 <= s) by (unfold s, Rdiv; apply Rmult_le_pos; [lra|left; apply Rinv_0_lt_compat; auto]).
  assert (Es : INR (n - 1) * s = t - a) by (unfold s; field; lra).
  destruct n as [|n]; [lia|]. replace (S n - 1)%nat with n in * by lia. clearbody s.
  rewrite seq_S, map_app, rsum_app. cbn [map rsum Nat.add].
  pose proof (kern_riemann a s Hs n) as E. set (A := rsum _) in *. clearbody A. rewrite Es in *. replace (a + (t - a)) with t in * by ring. rewrite Rplus_0_r.
  replace ((A + kern_density k h ens t) * s - (kern_mixture k h ens t - kern_mixture k h ens a)) with ((A * s - (kern_mixture k h ens t - kern_mixture k h ens a)) + s * kern_density k h ens t) by ring.
  eapply Rle_trans; [apply Rabs_triang|]. pose proof (kern_density_range t) as D. pose proof (Rinv_0_lt_compat _ H) as I.
  assert (D1 : Rabs (s * kern_density k h ens t) <= s * / h) by (rewrite Rabs_right by (apply Rle_ge, Rmult_le_pos; lra); apply Rmult_le_compat_l; lra).
  assert (D2 : s / h * (var_at t - var_at a) <= s / h * 2). { apply Rmult_le_compat_l; [apply Rmult_le_pos; lra|]. pose proof (var_range t). pose proof (var_range a). lra. }
  replace (3 / h * s) with (s / h * 2 + s * / h) by (field; lra). lra.
Qed.
End Kernel.
Lemma kern_ok name k h n mult t ens : kernel_of name = Some k -> ens <> [] -> 0 < h -> (2 <= n)%nat ->
  ens_to_prob_kern name h n mult (t :: ens) = Ok (kern_value k h ens n (kde_from mult ens) t).
Proof.
  intros Hk E H N. destruct ens as [|e l]; [congruence|]. unfold ens_to_prob_kern. rewrite Hk.
  destruct (Rle_dec h 0); [lra|]. cbn [kde_from]. set (a := lmin e l - _). unfold kern_value.
  destruct n as [|[|n]]; [lia|lia|]. unfold linspace at 1. cbn [seq map]. f_equal. fold a. f_equal. cbn [INR]. ring.
Qed.
