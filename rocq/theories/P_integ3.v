(** Numerical integration: values of the sums. *)
From Coq Require Import ZArith String Ascii List Lia Bool Arith QArith Qcanon Permutation Reals Lra.
From Verif Require Import QcTac QSum Num NdArr Numpy RTier M_ens M_integ P_integ P_integ2 Props_integ.
Import ListNotations.
Open Scope nat_scope.

(** ** Sums over a grid *)
Section Sums.
Open Scope Qc_scope.
Variables (x g : nat -> Qc).
Definition mean_sum (N : nat) : Qc := / qz 2 * qsumf (fun k => (x (S k) + x k) * (g (S k) - g k)) (seq 0 N).
Definition sq_sum (N : nat) : Qc := / qz 2 * qsumf (fun k => (x (S k) * x (S k) + x k * x k) * (g (S k) - g k)) (seq 0 N).
Definition trapezium (N : nat) : Qc := / qz 2 * qsumf (fun k => (g (S k) + g k) * (x (S k) - x k)) (seq 0 N).
End Sums.
Section Bounds.
Open Scope Qc_scope.
Lemma seq_snoc N : seq 0 (S N) = seq 0 N ++ [N]. Proof. rewrite (seq_app N 1 0) || (replace (S N) with (N + 1)%nat by lia; rewrite seq_app). reflexivity. Qed.
Lemma telescope (g : nat -> Qc) N : qsumf (fun k => g (S k) - g k) (seq 0 N) = g N - g 0%nat.
Proof. induction N as [|N IH]; [unfold qsumf; cbn; ring|]. rewrite seq_snoc, qsumf_app, IH, qsumf_cons, qsumf_nil. ring. Qed.
Lemma half_two a : / qz 2 * (a + a) = a.
Proof. transitivity ((/ qz 2 * (1 + 1)) * a); [ring|]. replace (/ qz 2 * (1 + 1)) with 1 by (apply Qc_is_canon; reflexivity). ring. Qed.
Lemma half_ge a b : a + a <= b -> a <= / qz 2 * b.
Proof. intros H. rewrite <- (half_two a), (Qcmult_comm _ (a + a)), (Qcmult_comm _ b). apply Qcmult_le_compat_r; [exact H|discriminate]. Qed.
Lemma half_le a b : b <= a + a -> / qz 2 * b <= a.
Proof. intros H. rewrite <- (half_two a), (Qcmult_comm _ (a + a)), (Qcmult_comm _ b). apply Qcmult_le_compat_r; [exact H|discriminate]. Qed.
Lemma qsumf_double {A} (f : A -> Qc) l : qsumf f l + qsumf f l = qsumf (fun k => f k + f k) l.
Proof. symmetry. apply qsumf_plus. Qed.
Lemma mean_sum_between (x g : nat -> Qc) N lo hi : (forall k, (k <= N)%nat -> lo <= x k) -> (forall k, (k <= N)%nat -> x k <= hi) -> (forall k, (k < N)%nat -> g k <= g (S k)) ->
  lo * (g N - g 0%nat) <= mean_sum x g N /\ mean_sum x g N <= hi * (g N - g 0%nat).
Proof.
  intros Hl Hh Hg. unfold mean_sum. rewrite <- (telescope g N), <- (qsumf_scale (fun k => g (S k) - g k) lo), <- (qsumf_scale (fun k => g (S k) - g k) hi). split; [apply half_ge|apply half_le]; rewrite qsumf_double; apply qsumf_le; intros k Hk; apply in_seq in Hk;
  specialize (Hg k ltac:(lia)); pose proof (Hl k ltac:(lia)); pose proof (Hl (S k) ltac:(lia)); pose proof (Hh k ltac:(lia)); pose proof (Hh (S k) ltac:(lia)); qnra.
Qed.
Lemma mean_sum_mid (x g : nat -> Qc) N : mean_sum x g N = qsumf (fun k => / qz 2 * (x (S k) + x k) * (g (S k) - g k)) (seq 0 N).
Proof. unfold mean_sum. rewrite <- qsumf_scale. apply qsumf_ext. intros k _. ring. Qed.
Lemma variance_nonneg (x g : nat -> Qc) N : (forall k, (k < N)%nat -> g k <= g (S k)) -> g N - g 0%nat <= 1 ->
  0 <= sq_sum x g N - mean_sum x g N * mean_sum x g N.
Proof.
  intros Hg Hm. rewrite mean_sum_mid. set (p := fun k => g (S k) - g k). set (m := fun k => / qz 2 * (x (S k) + x k)).
  change (qsumf _ (seq 0 N)) with (qsumf (fun k => m k * p k) (seq 0 N)). set (M := qsumf (fun k => m k * p k) (seq 0 N)).
  assert (Pp : forall k, In k (seq 0 N) -> 0 <= p k) by (intros k Hk; apply in_seq in Hk; specialize (Hg k ltac:(lia)); unfold p; qlra).
  assert (A : qsumf (fun k => m k * m k * p k) (seq 0 N) <= sq_sum x g N).
  { unfold sq_sum. rewrite <- qsumf_scale. apply qsumf_le. intros k Hk. specialize (Pp k Hk). fold (p k).
    replace (/ qz 2 * ((x (S k) * x (S k) + x k * x k) * p k)) with (m k * m k * p k + (/ qz 2 * (x (S k) - x k)) * (/ qz 2 * (x (S k) - x k)) * p k).
    - set (d := / qz 2 * (x (S k) - x k)). pose proof (qsq_nonneg d). qnra.
    - unfold m. set (a := x (S k)). set (b := x k). set (q := p k). set (h := / qz 2). assert (Hh : h + h = 1) by (apply Qc_is_canon; reflexivity).
      transitivity (h * (h + h) * (a * a + b * b) * q); [ring|]. rewrite Hh. ring. }
  assert (B : 0 <= qsumf (fun k => (m k - M) * (m k - M) * p k) (seq 0 N)).
  { apply qsumf_nonneg. intros k Hk. specialize (Pp k Hk). pose proof (qsq_nonneg (m k - M)). qnra. }
  assert (C : qsumf (fun k => (m k - M) * (m k - M) * p k) (seq 0 N) = qsumf (fun k => m k * m k * p k) (seq 0 N) - (M + M) * M + M * M * (g N - g 0%nat)).
  { rewrite <- (telescope g N). fold p. unfold M at 5. rewrite <- !qsumf_scale, <- qsumf_minus, <- qsumf_plus. apply qsumf_ext. intros k _. unfold p. ring. }
  pose proof (qsq_nonneg M). qnra.
Qed.
Lemma trapezium_between (x g : nat -> Qc) N : (forall k, (k < N)%nat -> x k <= x (S k)) -> (forall k, (k <= N)%nat -> 0 <= g k) -> (forall k, (k <= N)%nat -> g k <= 1) ->
  0 <= trapezium x g N /\ trapezium x g N <= x N - x 0%nat.
Proof.
  intros Hx H0 H1. unfold trapezium. rewrite <- (telescope x N). split; [apply half_ge|apply half_le].
  - replace (0 + 0) with 0 by ring. apply qsumf_nonneg. intros k Hk. apply in_seq in Hk. specialize (Hx k ltac:(lia)). pose proof (H0 k ltac:(lia)). pose proof (H0 (S k) ltac:(lia)). qnra.
  - rewrite qsumf_double. apply qsumf_le. intros k Hk. apply in_seq in Hk. specialize (Hx k ltac:(lia)). pose proof (H1 k ltac:(lia)). pose proof (H1 (S k) ltac:(lia)). qnra.
Qed.
End Bounds.

(** ** Half a bin *)
(** The expectation of a real random variable that takes its values in ( lo, hi ]: a positive linear functional of total mass 1
    on a space of functions ([dom]) that contains the constants, the identity and the indicators of t <= x. *)
Record expectation (lo hi : R) := {
  dom : (R -> R) -> Prop;
  expect : (R -> R) -> R;
  dom_one : dom (fun _ => 1%R);
  dom_id : dom (fun t => t);
  dom_below : forall x, dom (fun t => if Rle_dec t x then 1%R else 0%R);
  dom_add : forall f g, dom f -> dom g -> dom (fun t => f t + g t)%R;
  dom_scale : forall c f, dom f -> dom (fun t => c * f t)%R;
  expect_one : expect (fun _ => 1%R) = 1%R;
  expect_add : forall f g, dom f -> dom g -> expect (fun t => f t + g t)%R = (expect f + expect g)%R;
  expect_scale : forall c f, dom f -> expect (fun t => c * f t)%R = (c * expect f)%R;
  expect_pos : forall f, dom f -> (forall t, lo < t <= hi -> 0 <= f t)%R -> (0 <= expect f)%R }.
Arguments dom {lo hi}. Arguments expect {lo hi}.
Section Expect.
Open Scope R_scope.
Variables (lo hi : R) (X : expectation lo hi).
Definition below (x t : R) : R := if Rle_dec t x then 1 else 0.
Definition cdf_of (x : R) : R := expect X (below x).
Variable x : nat -> R.
Definition mid (k : nat) : R := (x (S k) + x k) / 2.
Fixpoint steps_fn (N : nat) (t : R) : R := match N with O => 0 * 1 | S n => steps_fn n t + mid n * (below (x (S n)) t + - 1 * below (x n) t) end.
Fixpoint steps_sum (N : nat) : R := match N with O => 0 | S n => steps_sum n + mid n * (cdf_of (x (S n)) - cdf_of (x n)) end.
Lemma dom_bin n : dom X (fun t => below (x (S n)) t + - 1 * below (x n) t).
Proof. apply dom_add; [apply dom_below|]. apply (dom_scale _ _ X (-1) (below (x n))), dom_below. Qed.
Lemma dom_steps N : dom X (steps_fn N).
Proof.
  induction N as [|N IH]; [apply (dom_scale _ _ X 0 (fun _ => 1)), dom_one|]. apply (dom_add _ _ X (steps_fn N) (fun t => mid N * (below (x (S N)) t + - 1 * below (x N) t))); [exact IH|].
  apply (dom_scale _ _ X (mid N) (fun t => below (x (S N)) t + - 1 * below (x N) t)), dom_bin.
Qed.
Lemma expect_steps N : expect X (steps_fn N) = steps_sum N.
Proof.
  induction N as [|N IH].
  - cbn [steps_sum]. change (steps_fn 0) with (fun _ : R => 0 * 1). rewrite (expect_scale _ _ X 0 (fun _ => 1)) by apply dom_one. ring.
  - cbn [steps_sum]. change (steps_fn (S N)) with (fun t => steps_fn N t + mid N * (below (x (S N)) t + - 1 * below (x N) t)).
    rewrite (expect_add _ _ X (steps_fn N) (fun t => mid N * (below (x (S N)) t + - 1 * below (x N) t))), IH.
    + rewrite (expect_scale _ _ X (mid N) (fun t => below (x (S N)) t + - 1 * below (x N) t)) by apply dom_bin.
      rewrite (expect_add _ _ X (below (x (S N))) (fun t => - 1 * below (x N) t)); [|apply dom_below|apply (dom_scale _ _ X (-1) (below (x N))), dom_below].
      rewrite (expect_scale _ _ X (-1) (below (x N))) by apply dom_below. unfold cdf_of. ring.
    + apply dom_steps.
    + apply (dom_scale _ _ X (mid N) (fun t => below (x (S N)) t + - 1 * below (x N) t)), dom_bin.
Qed.
Variable d : R.
Hypothesis Hd : forall k, 0 <= x (S k) - x k <= d.
Lemma steps_close N t : - (d / 2) * (below (x N) t - below (x O) t) <= steps_fn N t - t * (below (x N) t - below (x O) t) <= d / 2 * (below (x N) t - below (x O) t).
Proof.
  induction N as [|N IH]; [cbn [steps_fn]; lra|]. cbn [steps_fn]. specialize (Hd N).
  assert (B : - (d / 2) * (below (x (S N)) t - below (x N) t) <= (mid N - t) * (below (x (S N)) t - below (x N) t) <= d / 2 * (below (x (S N)) t - below (x N) t)).
  { unfold below, mid. destruct (Rle_dec t (x (S N))), (Rle_dec t (x N)); lra. }
  lra.
Qed.
Lemma half_a_bin N : x O = lo -> x N = hi -> Rabs (steps_sum N - expect X (fun t => t)) <= d / 2.
Proof.
  intros E0 EN. rewrite <- expect_steps.
  assert (D2 : dom X (fun t => steps_fn N t + - 1 * t)) by (apply (dom_add _ _ X (steps_fn N) (fun t => -1 * t)); [apply dom_steps|apply (dom_scale _ _ X (-1) (fun t => t)), dom_id]).
  assert (E2 : expect X (fun t => steps_fn N t + - 1 * t) = expect X (steps_fn N) - expect X (fun t => t)).
  { rewrite (expect_add _ _ X (steps_fn N) (fun t => -1 * t)); [|apply dom_steps|apply (dom_scale _ _ X (-1) (fun t => t)), dom_id]. rewrite (expect_scale _ _ X (-1) (fun t => t)) by apply dom_id. ring. }
  assert (C : forall c, expect X (fun t => c * 1) = c) by (intros c; rewrite (expect_scale _ _ X c (fun _ => 1)) by apply dom_one; rewrite (expect_one _ _ X); ring).
  assert (DC : forall c, dom X (fun t => c * 1)) by (intros c; apply (dom_scale _ _ X c (fun _ => 1)), dom_one).
  assert (B : forall t, lo < t <= hi -> below (x N) t - below (x 0%nat) t = 1) by (intros t Ht; unfold below; rewrite E0, EN; destruct (Rle_dec t hi), (Rle_dec t lo); lra).
  assert (P1 : 0 <= expect X (fun t => (d / 2) * 1 + -1 * (steps_fn N t + - 1 * t))).
  { apply expect_pos; [apply (dom_add _ _ X (fun t => (d / 2) * 1) (fun t => -1 * (steps_fn N t + - 1 * t))); [apply DC|apply (dom_scale _ _ X (-1) (fun t => steps_fn N t + -1 * t)), D2]|].
    intros t Ht. pose proof (steps_close N t) as S. rewrite (B t Ht) in S. lra. }
  assert (P2 : 0 <= expect X (fun t => (d / 2) * 1 + (steps_fn N t + - 1 * t))).
  { apply expect_pos; [apply (dom_add _ _ X (fun t => (d / 2) * 1) (fun t => steps_fn N t + - 1 * t)); [apply DC|apply D2]|].
    intros t Ht. pose proof (steps_close N t) as S. rewrite (B t Ht) in S. lra. }
  rewrite (expect_add _ _ X (fun t => (d / 2) * 1) (fun t => -1 * (steps_fn N t + - 1 * t))) in P1; [|apply DC|apply (dom_scale _ _ X (-1) (fun t => steps_fn N t + -1 * t)), D2].
  rewrite (expect_scale _ _ X (-1) (fun t => steps_fn N t + -1 * t)) in P1 by exact D2.
  rewrite (expect_add _ _ X (fun t => (d / 2) * 1) (fun t => steps_fn N t + - 1 * t)) in P2 by (try apply DC; exact D2).
  rewrite C, E2 in P1, P2. apply Rabs_le. lra.
Qed.
End Expect.
Lemma steps_sum_ext lo hi (X : expectation lo hi) (x y : nat -> R) N : (forall k, k <= N -> x k = y k) -> steps_sum lo hi X x N = steps_sum lo hi X y N.
Proof. induction N as [|N IH]; intros H; [reflexivity|]. cbn [steps_sum]. unfold mid. rewrite IH by (intros; apply H; lia). rewrite !H by lia. reflexivity. Qed.
Lemma q2r_half : q2r (/ qz 2)%Qc = (/ 2)%R.
Proof. unfold q2r, Q2R. cbn. lra. Qed.
Lemma steps_mean lo hi (X : expectation lo hi) (x g : nat -> Qc) N : (forall k, k <= N -> q2r (g k) = cdf_of lo hi X (q2r (x k))) ->
  steps_sum lo hi X (fun k => q2r (x k)) N = q2r (mean_sum x g N).
Proof.
  rewrite mean_sum_mid. induction N as [|N IH]; intros H; [symmetry; apply q2r_0|]. rewrite seq_snoc, qsumf_app, qsumf_cons, qsumf_nil. cbn [steps_sum].
  rewrite IH by (intros; apply H; lia). rewrite <- !H by lia. unfold mid. rewrite !q2r_plus, !q2r_mult, !q2r_plus, q2r_minus, q2r_half, q2r_0. field.
Qed.

(** ** The grid *)
Definition grid (lo hi : Qc) (n k : nat) : Qc := (lo + qn k * ((hi - lo) / qn (n - 1)))%Qc.
Lemma grid_first lo hi n : grid lo hi n 0 = lo. Proof. unfold grid. rewrite qn_0. ring. Qed.
Lemma grid_last lo hi n : 2 <= n -> grid lo hi n (n - 1) = hi.
Proof. intros H. unfold grid. assert (N : qn (n - 1) <> 0%Qc) by (apply qn_neq0; lia). field. exact N. Qed.
Lemma grid_step lo hi n k : (grid lo hi n (S k) - grid lo hi n k = (hi - lo) / qn (n - 1))%Qc.
Proof. unfold grid. rewrite qn_S. ring. Qed.
Lemma grid_mono lo hi n k : (lo <= hi)%Qc -> 2 <= n -> (grid lo hi n k <= grid lo hi n (S k))%Qc.
Proof.
  intros H Hn. assert (0 <= (hi - lo) / qn (n - 1))%Qc by (apply Qcdiv_nonneg; [qlra|apply qn_pos; lia]). pose proof (grid_step lo hi n k). qlra.
Qed.
Lemma grid_le lo hi n j k : (lo <= hi)%Qc -> 2 <= n -> j <= k -> (grid lo hi n j <= grid lo hi n k)%Qc.
Proof. intros H Hn L. induction L as [|k L IH]; [apply Qcle_refl|]. eapply Qcle_trans; [exact IH|apply grid_mono; assumption]. Qed.
Lemma linspace_grid lo hi n k : 2 <= n -> k < n -> nth k (nlinspace (Fin lo) (Fin hi) n) NaN = Fin (grid lo hi n k).
Proof.
  intros Hn Hk. destruct n as [|[|n]]; [lia|lia|]. unfold nlinspace. set (g := fun i => if i =? S (S n) - 1 then _ else _).
  rewrite (nth_indep _ NaN (g 0)) by (rewrite map_length, seq_length; exact Hk). rewrite map_nth, seq_nth by exact Hk. unfold g. rewrite Nat.add_0_l.
  destruct (Nat.eqb_spec k (S (S n) - 1)) as [->|N]; [rewrite grid_last by lia; reflexivity|]. unfold nnat, ndiv. cbn [nsub nadd nopp].
  destruct (qeqb_spec (qn (S (S n) - 1)) 0) as [E|E]; [exfalso; revert E; apply qn_neq0; lia|]. cbn [nmul nadd]. unfold grid. f_equal. cbn [Nat.sub]. unfold Qcdiv, Qcminus. ring.
Qed.

(** ** What a call returns at a cell *)
(** [F] is the distribution function the verifier uses at cell [ix] *)
Definition cell_cdf (v : verifier) (ix : list nat) (F : Qc -> Qc) : Prop := forall x b, v_cdf v (Fin x) = Ok b -> get b ix = Fin (F x).
Definition brier_of (o : num) (F : Qc -> Qc) (x : Qc) : Qc := let d := (F x - (if nlt o (Fin x) then 1 else 0))%Qc in (d * d)%Qc.
Lemma integrate_cell pyint expanduser isdir wait k v range n w l dir s f a :
  settings_ok pyint s -> result (run (integrate pyint expanduser isdir wait k v range n w l dir) s f) = Ok a ->
  exists i vals, i_v i = v /\ i_nbins i = n /\ points pyint v range n s = Ok (i_x i) /\ (forall j, j < n -> good i (what_of k v) j (vals j)) /\ is_value (i_less i) k i vals a.
Proof.
  intros O. destruct (settings_values pyint expanduser v w l dir s O) as ((c & C) & (b & L) & (dd & D)).
  unfold integrate, result. rewrite run_bind, (new_run pyint expanduser v _ n w l dir s f c b dd O C L D).
  destruct (points pyint v range n s) as [xs|e] eqn:Px; [|discriminate]. cbn [rmap]. set (i := Integ v n xs c b dd).
  intros R. pose proof (points_length _ _ _ _ _ _ Px) as Lx. destruct (settings_reads pyint s O) as (d & z & Rd).
  destruct (all_cases isdir i s (what_of k (i_v i))) as [Bad|(Y & Rm & vals & G)].
  { destruct (workflow_bad pyint isdir wait i Lx k s f d z Rd Bad) as (e & s' & f' & E & _). rewrite E in R. discriminate. }
  destruct (workflow_ok pyint isdir wait i Lx k vals s f d z Rd Y Rm G) as (a' & s' & f' & E & Va & _). rewrite E in R. cbn [fst] in R.
  apply (f_equal (fun r => match r with Ok y => y | _ => a end)) in R. subst a'. exists i, vals. repeat (split; [reflexivity|]). split; [exact G|exact Va].
Qed.
Lemma integrate_value pyint expanduser isdir wait k v range lo hi n w l dir s f a ix F :
  settings_ok pyint s -> points pyint v range n s = Ok (nlinspace (Fin lo) (Fin hi) n) ->
  result (run (integrate pyint expanduser isdir wait k v range n w l dir) s f) = Ok a ->
  2 <= n -> cell_cdf v ix F -> valid (shape (v_o v)) ix ->
  get a ix = Fin (let x := grid lo hi n in let g := fun j => F (x j) in
    match k with
    | KCrps => trapezium x (fun j => brier_of (get (v_o v) ix) F (x j)) (n - 1)
    | KMean => mean_sum x g (n - 1)
    | KVariance => sq_sum x g (n - 1) - mean_sum x g (n - 1) * mean_sum x g (n - 1) end)%Qc.
Proof.
  intros O Px R Hn HF V. destruct (integrate_cell _ _ _ _ _ _ _ _ _ _ _ _ _ _ O R) as (i & vals & Ev & En & Ex & G & [_ Va]).
  rewrite Ev in Va. rewrite Va by exact V. rewrite Px in Ex. apply (f_equal (fun r => match r with Ok y => y | _ => [] end)) in Ex.
  assert (X : forall j, j < n -> xat i j = Fin (grid lo hi n j)) by (intros j Hj; unfold xat; rewrite <- Ex; apply linspace_grid; assumption).
  set (h := fun j => match k with KCrps => brier_of (get (v_o v) ix) F (grid lo hi n j) | _ => F (grid lo hi n j) end).
  assert (Hv : forall j, j < n -> get (vals j) ix = Fin (h j)).
  { intros j Hj. destruct (G j Hj) as [Gj _]. rewrite (X j Hj) in Gj. unfold h. destruct k; cbn [what_of] in Gj; [|apply (HF _ _ Gj)|apply (HF _ _ Gj)].
    unfold v_brier, cell_brier in Gj.  destruct (v_cdf v (Fin (grid lo hi n j))) as [p|] eqn:Ep; [|discriminate]. cbn in Gj.
    apply (f_equal (fun r => match r with Ok y => get y ix | _ => NaN end)) in Gj. cbn [get amap2 amap] in Gj. rewrite <- Gj, (HF _ _ Ep). unfold brier_of.
    destruct (nlt (get (v_o v) ix) (Fin (grid lo hi n j))); reflexivity. }
  assert (E0 : cell_value (i_less i) k i (fun j => get (vals j) ix) = cell_value false k i (fun j => get (vals j) ix)).
  { destruct (i_less i); [|reflexivity]. apply cell_value_less; rewrite En; intros j Hj; [rewrite (Hv j Hj)|rewrite (X j Hj)]; exact I. }
  rewrite E0. clear E0.
  assert (SUM : forall (p : nat -> num) (q : nat -> Qc), (forall j, j < n - 1 -> p j = Fin (q j)) -> nsum (map p (seq 0 (n - 1))) = Fin (qsumf q (seq 0 (n - 1)))).
  { intros p q H. unfold qsumf. rewrite <- nsum_fin, map_map. f_equal. apply map_ext_in. intros j Hj. apply in_seq in Hj. apply H. lia. }
  destruct k; unfold cell_value, diffs; rewrite En.
  - rewrite (SUM _ (fun j => (h (S j) + h j) * (grid lo hi n (S j) - grid lo hi n j))%Qc); [reflexivity|].
    intros j Hj. rewrite !Hv by lia. unfold dx. rewrite !X by lia. reflexivity.
  - rewrite (SUM _ (fun j => (grid lo hi n (S j) + grid lo hi n j) * (h (S j) - h j))%Qc); [reflexivity|].
    intros j Hj. rewrite !Hv by lia. unfold x2. rewrite !X by lia. reflexivity.
  - rewrite (SUM (fun k => nmul (x2 i k) _) (fun j => (grid lo hi n (S j) + grid lo hi n j) * (h (S j) - h j))%Qc); [|intros j Hj; rewrite !Hv by lia; unfold x2; rewrite (X (S j)), (X j) by lia; reflexivity].
    rewrite (SUM _ (fun j => (grid lo hi n (S j) * grid lo hi n (S j) + grid lo hi n j * grid lo hi n j) * (h (S j) - h j))%Qc); [reflexivity|].
    intros j Hj. rewrite !Hv by lia. unfold xsq2. rewrite !X by lia. reflexivity.
Qed.
