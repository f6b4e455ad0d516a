(** Numerical integration: error bounds. *)
From Coq Require Import ZArith String Ascii List Lia Bool Arith QArith Qcanon Permutation Reals Lra.
From Coquelicot Require Import Coquelicot.
From Verif Require Import QcTac QSum Num NdArr Numpy RTier M_ens M_integ P_integ P_integ2 Props_integ P_integ3.
Import ListNotations.
Open Scope nat_scope.

(** ** Any real random variable *)
(** The expectation of a real random variable, as a positive linear functional of total mass 1 on a space of functions that
    contains the constants, the indicators of t <= x and the identity cut off outside bounded intervals. *)
Record law := {
  ldom : (R -> R) -> Prop;
  mean_of : (R -> R) -> R;
  ldom_one : ldom (fun _ => 1%R);
  ldom_below : forall x, ldom (fun t => if Rle_dec t x then 1%R else 0%R);
  ldom_cut : forall a b, ldom (fun t => if Rle_dec t a then 0%R else if Rle_dec t b then t else 0%R);
  ldom_add : forall f g, ldom f -> ldom g -> ldom (fun t => f t + g t)%R;
  ldom_scale : forall c f, ldom f -> ldom (fun t => c * f t)%R;
  mean_one : mean_of (fun _ => 1%R) = 1%R;
  mean_add : forall f g, ldom f -> ldom g -> mean_of (fun t => f t + g t)%R = (mean_of f + mean_of g)%R;
  mean_scale : forall c f, ldom f -> mean_of (fun t => c * f t)%R = (c * mean_of f)%R;
  mean_pos : forall f, ldom f -> (forall t, 0 <= f t)%R -> (0 <= mean_of f)%R }.
Section Law.
Open Scope R_scope.
Variable X : law.
Definition lcdf (x : R) : R := mean_of X (below x).
Variable x : nat -> R.
Fixpoint lsum (N : nat) : R := match N with O => 0 | S n => lsum n + mid x n * (lcdf (x (S n)) - lcdf (x n)) end.
Lemma ldom_diff a b : ldom X (fun t => below a t + - 1 * below b t).
Proof. apply ldom_add; [apply ldom_below|]. apply (ldom_scale X (-1) (below b)), ldom_below. Qed.
Lemma mean_diff a b : mean_of X (fun t => below a t + - 1 * below b t) = lcdf a - lcdf b.
Proof.
  rewrite (mean_add X (below a) (fun t => - 1 * below b t)); [|apply ldom_below|apply (ldom_scale X (-1) (below b)), ldom_below].
  rewrite (mean_scale X (-1) (below b)) by apply ldom_below. unfold lcdf. ring.
Qed.
Lemma ldom_steps N : ldom X (steps_fn x N).
Proof.
  induction N as [|N IH]; [apply (ldom_scale X 0 (fun _ => 1)), ldom_one|].
  apply (ldom_add X (steps_fn x N) (fun t => mid x N * (below (x (S N)) t + - 1 * below (x N) t))); [exact IH|].
  apply (ldom_scale X (mid x N) (fun t => below (x (S N)) t + - 1 * below (x N) t)), ldom_diff.
Qed.
Lemma mean_steps N : mean_of X (steps_fn x N) = lsum N.
Proof.
  induction N as [|N IH].
  - cbn [lsum]. change (steps_fn x 0) with (fun _ : R => 0 * 1). rewrite (mean_scale X 0 (fun _ => 1)) by apply ldom_one. ring.
  - cbn [lsum]. change (steps_fn x (S N)) with (fun t => steps_fn x N t + mid x N * (below (x (S N)) t + - 1 * below (x N) t)).
    rewrite (mean_add X (steps_fn x N) (fun t => mid x N * (below (x (S N)) t + - 1 * below (x N) t))), IH.
    + rewrite (mean_scale X (mid x N) (fun t => below (x (S N)) t + - 1 * below (x N) t)) by apply ldom_diff. rewrite mean_diff. reflexivity.
    + apply ldom_steps.
    + apply (ldom_scale X (mid x N) (fun t => below (x (S N)) t + - 1 * below (x N) t)), ldom_diff.
Qed.
Definition cut (a b t : R) : R := if Rle_dec t a then 0 else if Rle_dec t b then t else 0.
Variable d : R.
Hypothesis Hd : forall k, 0 <= x (S k) - x k <= d.
Lemma x_up N : x O <= x N. Proof. induction N as [|N IH]; [lra|]. specialize (Hd N). lra. Qed.
Lemma cut_close N t : - (d / 2) * (below (x N) t - below (x O) t) <= steps_fn x N t - cut (x O) (x N) t <= d / 2 * (below (x N) t - below (x O) t).
Proof.
  pose proof (steps_close x d Hd N t) as S. pose proof (x_up N) as U.
  replace (cut (x O) (x N) t) with (t * (below (x N) t - below (x O) t)); [exact S|].
  unfold cut, below. destruct (Rle_dec t (x O)), (Rle_dec t (x N)); try lra.
Qed.
Lemma cut_sum N : Rabs (lsum N - mean_of X (cut (x O) (x N))) <= d / 2 * (lcdf (x N) - lcdf (x O)).
Proof.
  rewrite <- mean_steps. set (c := cut (x O) (x N)).
  assert (Dc : ldom X c) by apply ldom_cut.
  assert (Dm : ldom X (fun t => steps_fn x N t + - 1 * c t)) by (apply (ldom_add X (steps_fn x N) (fun t => -1 * c t)); [apply ldom_steps|apply (ldom_scale X (-1) c), Dc]).
  assert (Em : mean_of X (fun t => steps_fn x N t + - 1 * c t) = mean_of X (steps_fn x N) - mean_of X c).
  { rewrite (mean_add X (steps_fn x N) (fun t => -1 * c t)); [|apply ldom_steps|apply (ldom_scale X (-1) c), Dc]. rewrite (mean_scale X (-1) c) by exact Dc. ring. }
  assert (Db : ldom X (fun t => d / 2 * (below (x N) t + - 1 * below (x O) t))) by (apply (ldom_scale X (d / 2) (fun t => below (x N) t + - 1 * below (x O) t)), ldom_diff).
  assert (Eb : mean_of X (fun t => d / 2 * (below (x N) t + - 1 * below (x O) t)) = d / 2 * (lcdf (x N) - lcdf (x O))).
  { rewrite (mean_scale X (d / 2) (fun t => below (x N) t + - 1 * below (x O) t)) by apply ldom_diff. rewrite mean_diff. reflexivity. }
  assert (P1 : 0 <= mean_of X (fun t => d / 2 * (below (x N) t + - 1 * below (x O) t) + - 1 * (steps_fn x N t + - 1 * c t))).
  { apply mean_pos; [apply (ldom_add X _ (fun t => - 1 * (steps_fn x N t + - 1 * c t))); [exact Db|apply (ldom_scale X (-1) _ Dm)]|]. intros t. pose proof (cut_close N t). fold c in H. lra. }
  assert (P2 : 0 <= mean_of X (fun t => d / 2 * (below (x N) t + - 1 * below (x O) t) + (steps_fn x N t + - 1 * c t))).
  { apply mean_pos; [apply (ldom_add X _ (fun t => steps_fn x N t + - 1 * c t)); assumption|]. intros t. pose proof (cut_close N t). fold c in H. lra. }
  rewrite (mean_add X _ (fun t => - 1 * (steps_fn x N t + - 1 * c t)) Db (ldom_scale X (-1) _ Dm)) in P1. rewrite (mean_scale X (-1) _ Dm) in P1.
  rewrite (mean_add X _ (fun t => steps_fn x N t + - 1 * c t) Db Dm) in P2. rewrite Eb, Em in P1, P2. apply Rabs_le. lra.
Qed.
End Law.
Lemma lsum_mean (X : law) (x g : nat -> Qc) N : (forall k, k <= N -> q2r (g k) = lcdf X (q2r (x k))) -> lsum X (fun k => q2r (x k)) N = q2r (mean_sum x g N).
Proof.
  rewrite mean_sum_mid. induction N as [|N IH]; intros H; [symmetry; apply q2r_0|]. rewrite seq_snoc, qsumf_app, qsumf_cons, qsumf_nil. cbn [lsum].
  rewrite IH by (intros; apply H; lia). rewrite <- !H by lia. unfold mid. rewrite !q2r_plus, !q2r_mult, !q2r_plus, q2r_minus, q2r_half, q2r_0. field.
Qed.
Lemma q2r_qn k : q2r (qn k) = INR k.
Proof. induction k as [|k IH]; [rewrite qn_0, q2r_0; reflexivity|]. rewrite qn_S, q2r_plus, q2r_1, IH, S_INR. ring. Qed.
Lemma grid_step_r lo hi n k : (lo <= hi)%Qc -> 2 <= n -> (q2r (grid lo hi n (S k)) - q2r (grid lo hi n k) = (q2r hi - q2r lo) / INR (n - 1))%R.
Proof. intros Hlh Hn. rewrite <- q2r_minus, grid_step, q2r_div, q2r_minus, q2r_qn by (apply qn_neq0; lia). reflexivity. Qed.
Lemma step_nonneg lo hi n : (lo <= hi)%Qc -> 2 <= n -> (0 <= (q2r hi - q2r lo) / INR (n - 1))%R.
Proof. intros Hlh Hn. apply Rmult_le_pos; [apply q2r_le in Hlh; lra|]. apply Rlt_le, Rinv_0_lt_compat, lt_0_INR. lia. Qed.

(** ** Trapezium rule for the Brier score *)
Section Trapezium.
Open Scope R_scope.
Variables (F : R -> R) (o : R).
Hypothesis Fmono : forall a b, a <= b -> F a <= F b.
Hypothesis Funit : forall a, 0 <= F a <= 1.
Definition passed (a : R) : R := if Rlt_dec o a then 1 else 0.
Definition bs (a : R) : R := (F a - passed a) * (F a - passed a).
Variables (x : nat -> R) (h : R).
Hypothesis Hh : forall k, x (S k) - x k = h.
Hypothesis h0 : 0 <= h.
Fixpoint trap (N : nat) : R := match N with O => 0 | S n => trap n + (bs (x (S n)) + bs (x n)) / 2 * h end.
Lemma bs_unit a : 0 <= bs a <= 1.
Proof. unfold bs, passed. pose proof (Funit a). destruct (Rlt_dec o a); nra. Qed.
Lemma int_between a b m M I : a <= b -> (forall t, a < t < b -> m <= bs t <= M) -> is_RInt bs a b I -> (b - a) * m <= I <= (b - a) * M.
Proof.
  intros Hab H HI. split.
  - apply (is_RInt_le (fun _ => m) bs a b ((b - a) * m) I Hab); [apply (is_RInt_const a b m)|exact HI|intros t Ht; apply H, Ht].
  - apply (is_RInt_le bs (fun _ => M) a b I ((b - a) * M) Hab); [exact HI|apply (is_RInt_const a b M)|intros t Ht; apply H, Ht].
Qed.
(** one bin: before the observation, after it, and the one in which it lies *)
Lemma bin_before a b I : a <= b -> b <= o -> is_RInt bs a b I -> Rabs ((bs b + bs a) / 2 * (b - a) - I) <= (b - a) / 2 * (bs b - bs a).
Proof.
  intros Hab Hbo HI. destruct (int_between a b (bs a) (bs b) I Hab) as [L U]; [|exact HI|apply Rabs_le; lra].
  intros t Ht. pose proof (Funit a). pose proof (Funit t). pose proof (Funit b). pose proof (Fmono a t ltac:(lra)). pose proof (Fmono t b ltac:(lra)).
  unfold bs, passed. destruct (Rlt_dec o a), (Rlt_dec o b), (Rlt_dec o t); try lra. nra.
Qed.
Lemma bin_after a b I : a <= b -> o < a -> is_RInt bs a b I -> Rabs ((bs b + bs a) / 2 * (b - a) - I) <= (b - a) / 2 * (bs a - bs b).
Proof.
  intros Hab Hbo HI. destruct (int_between a b (bs b) (bs a) I Hab) as [L U]; [|exact HI|apply Rabs_le; lra].
  intros t Ht. pose proof (Funit a). pose proof (Funit t). pose proof (Funit b). pose proof (Fmono a t ltac:(lra)). pose proof (Fmono t b ltac:(lra)).
  unfold bs, passed. destruct (Rlt_dec o a), (Rlt_dec o b), (Rlt_dec o t); try lra. nra.
Qed.
Lemma bin_any a b I : a <= b -> is_RInt bs a b I -> Rabs ((bs b + bs a) / 2 * (b - a) - I) <= b - a.
Proof.
  intros Hab HI. destruct (int_between a b 0 1 I Hab) as [L U]; [|exact HI|].
  - intros t _. apply bs_unit.
  - pose proof (bs_unit a). pose proof (bs_unit b). apply Rabs_le. split; nra.
Qed.
Lemma trap_error N I : is_RInt bs (x O) (x N) I -> Rabs (trap N - I) <= (if Rle_dec (x N) o then h / 2 * bs (x N) else 3 / 2 * h - h / 2 * bs (x N)).
Proof.
  revert I. induction N as [|N IH]; intros I HI.
  - assert (E : I = 0) by (rewrite <- (is_RInt_unique bs (x O) (x O) I HI), RInt_point; reflexivity). subst I. clear HI. cbn [trap]. rewrite Rminus_0_r, Rabs_R0.
    pose proof (bs_unit (x O)). destruct (Rle_dec (x O) o); nra.
  - assert (M : forall k, x k <= x (S k)) by (intros k; specialize (Hh k); lra).
    assert (M0 : x O <= x N) by (clear - M; induction N as [|N IH]; [lra|specialize (M N); lra]).
    assert (X1 : ex_RInt bs (x O) (x N)) by (apply (ex_RInt_Chasles_1 bs (x O) (x N) (x (S N))); [split; [exact M0|apply M]|exists I; exact HI]).
    assert (X2 : ex_RInt bs (x N) (x (S N))) by (apply (ex_RInt_Chasles_2 bs (x O) (x N) (x (S N))); [split; [exact M0|apply M]|exists I; exact HI]).
    destruct X1 as (I1 & H1), X2 as (I2 & H2). pose proof (is_RInt_Chasles bs _ _ _ _ _ H1 H2) as H12.
    assert (E : I = I1 + I2) by (rewrite <- (is_RInt_unique bs _ _ _ HI); rewrite (is_RInt_unique bs _ _ _ H12); reflexivity). subst I.
    specialize (IH I1 H1). cbn [trap]. specialize (M N). specialize (Hh N).
    replace (trap N + (bs (x (S N)) + bs (x N)) / 2 * h - (I1 + I2)) with ((trap N - I1) + ((bs (x (S N)) + bs (x N)) / 2 * h - I2)) by ring.
    refine (Rle_trans _ _ _ (Rabs_triang _ _) _).
    destruct (Rle_dec (x (S N)) o) as [B|B].
    + destruct (Rle_dec (x N) o) as [B'|B']; [|lra]. pose proof (bin_before _ _ _ M B H2) as Q. rewrite Hh in Q. lra.
    + destruct (Rle_dec (x N) o) as [B'|B'].
      * pose proof (bin_any _ _ _ M H2) as Q. rewrite Hh in Q.
        assert (S1 : bs (x N) + bs (x (S N)) <= 1).
        { unfold bs, passed. pose proof (Funit (x N)). pose proof (Funit (x (S N))). pose proof (Fmono _ _ M). destruct (Rlt_dec o (x N)), (Rlt_dec o (x (S N))); try lra. nra. }
        nra.
      * pose proof (bin_after _ _ _ M ltac:(lra) H2) as Q. rewrite Hh in Q. lra.
Qed.
Lemma trap_error_total N I : is_RInt bs (x O) (x N) I -> Rabs (trap N - I) <= 3 / 2 * h.
Proof. intros HI. pose proof (trap_error N I HI) as E. pose proof (bs_unit (x N)). destruct (Rle_dec (x N) o); nra. Qed.
End Trapezium.
