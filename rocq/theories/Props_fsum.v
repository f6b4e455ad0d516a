(** Properties C94 and C95: scores in double precision, and what rounding breaks. *)
From Coq Require Import ZArith Reals List Bool Lra Lia Psatz.
From Flocq Require Import Core.
From Verif Require Import M_float M_round Props_float P_round.
Import ListNotations.
Open Scope R_scope.

(** ** Words *)
Fixpoint total (l : list R) : R := match l with [] => 0 | x :: r => x + total r end.
Definition average (l : list R) : R := total l / INR (length l).
(** 2^-53, half of the distance from 1 to the next number *)
Definition unit : R := bpow radix2 (-53).
Definition small_count (n : nat) : Prop := (Z.of_nat n <= 2 ^ 53)%Z.

Lemma total_app a b : total (a ++ b) = total a + total b.
Proof. induction a as [|x r IH]; cbn [app total]; [lra|rewrite IH; lra]. Qed.
Lemma leaves_tmap {A B} (f : A -> B) t : leaves (tmap f t) = map f (leaves t).
Proof. induction t as [x|l IL r IR]; cbn [tmap leaves]; [reflexivity|rewrite IL, IR, map_app; reflexivity]. Qed.
Lemma leaves_pos {A} (t : tree A) : (0 < length (leaves t))%nat.
Proof. induction t as [x|l IL r IR]; cbn [leaves length]; [lia|rewrite app_length; lia]. Qed.
Lemma rn_count n : small_count n -> rn (INR n) = INR n.
Proof. intros H. rewrite INR_IZR_INZ. apply rn_int. unfold small_count in H. lia. Qed.
Lemma tmap_tmap {A B C} (f : A -> B) (g : B -> C) t : tmap g (tmap f t) = tmap (fun x => g (f x)) t.
Proof. induction t as [x|l IL r IR]; cbn [tmap]; [reflexivity|rewrite IL, IR; reflexivity]. Qed.

(** ** Range of an average of numbers between 0 and 1 *)
Lemma fl_sum_range t : (forall x, In x (leaves t) -> 0 <= x <= 1) -> small_count (length (leaves t)) -> 0 <= fl_sum t <= INR (length (leaves t)).
Proof.
  induction t as [x|l IL r IR]; cbn [leaves fl_sum length]; intros H N. { pose proof (H x (or_introl eq_refl)). cbn. lra. }
  rewrite app_length in *. unfold small_count in *.
  destruct (IL (fun x I => H x (in_or_app _ _ _ (or_introl I))) ltac:(lia)) as [L0 L1]. destruct (IR (fun x I => H x (in_or_app _ _ _ (or_intror I))) ltac:(lia)) as [R0 R1].
  split; [apply rn_nonneg; lra|]. rewrite <- (rn_count (length (leaves l) + length (leaves r))) by exact N. apply rn_le. rewrite plus_INR. lra.
Qed.
Lemma fl_mean_range t : (forall x, In x (leaves t) -> 0 <= x <= 1) -> small_count (length (leaves t)) -> 0 <= fl_mean t <= 1.
Proof.
  intros H N. destruct (fl_sum_range t H N) as [A B]. pose proof (lt_0_INR _ (leaves_pos t)) as P. unfold fl_mean. split.
  - apply rn_nonneg. apply Rmult_le_pos; [exact A|apply Rlt_le, Rinv_0_lt_compat, P].
  - apply rn_le_1. apply Rmult_le_reg_r with (INR (length (leaves t))); [exact P|]. unfold Rdiv. rewrite Rmult_assoc, Rinv_l by lra. lra.
Qed.
(** The Brier score of at most 2^53 cells lies in [0,1], in whatever order NumPy adds. *)
Theorem c94_brier_range : forall t : tree (R * R),
  (forall p o, In (p, o) (leaves t) -> 0 <= p <= 1 /\ (o = 0 \/ o = 1)) -> small_count (length (leaves t)) ->
  0 <= fl_mean (tmap fl_sq_error t) <= 1.
Proof.
  intros t H N. apply fl_mean_range; [|rewrite leaves_tmap, map_length; exact N]. intros x I. rewrite leaves_tmap in I. apply in_map_iff in I. destruct I as ((p & o) & <- & I).
  destruct (H p o I) as [P O]. unfold fl_sq_error, fl_error. cbn [fst snd]. assert (E : -1 <= rn (p - o) <= 1).
  { split; [change (-1) with (IZR (-1)); rewrite <- (rn_int (-1)) by (cbn; lia); apply rn_le; change (IZR (-1)) with (-1); destruct O; lra|apply rn_le_1; destruct O; lra]. }
  split; [apply rn_nonneg; nra|apply rn_le_1; nra].
Qed.
Print Assumptions c94_brier_range.
Definition two_cells : tree (R * R) := Node (Leaf (1 / 2, 1)) (Leaf (0, 0)).
Lemma two_small : small_count (length (leaves two_cells)). Proof. unfold small_count. cbn. lia. Qed.
Example c94_brier_case : 0 <= fl_mean (tmap fl_sq_error two_cells) <= 1.
Proof. apply c94_brier_range; [|apply two_small]. cbn. intros p o [H|[H|[]]]; injection H as <- <-; (split; [lra|auto]). Qed.

(** ** Bias and mean absolute error *)
Lemma fl_sum_abs t : Rabs (fl_sum t) <= fl_sum (tmap Rabs t).
Proof.
  induction t as [x|l IL r IR]; cbn [tmap fl_sum]; [apply Rle_refl|]. rewrite rn_abs. apply rn_le. eapply Rle_trans; [apply Rabs_triang|]. lra.
Qed.
(** |error| <= ab_error, in whatever order NumPy adds. *)
Theorem c94_bias : forall t : tree (R * R), Rabs (fl_mean (tmap fl_error t)) <= fl_mean (tmap fl_ab_error t).
Proof.
  intros t. unfold fl_mean. rewrite rn_abs. apply rn_le. rewrite !leaves_tmap, !map_length. pose proof (lt_0_INR _ (leaves_pos t)) as P. unfold Rdiv. rewrite Rabs_mult, (Rabs_pos_eq (/ _)) by (apply Rlt_le, Rinv_0_lt_compat, P).
  apply Rmult_le_compat_r; [apply Rlt_le, Rinv_0_lt_compat, P|]. eapply Rle_trans; [apply fl_sum_abs|]. rewrite tmap_tmap. apply Rle_refl.
Qed.
Print Assumptions c94_bias.
(** rmse and the averages of squares and absolute values are not negative; they are zero for a perfect forecast. *)
Lemma fl_sum_zero t : (forall x, In x (leaves t) -> x = 0) -> fl_sum t = 0.
Proof.
  induction t as [x|l IL r IR]; cbn [leaves fl_sum]; intros H; [apply H; left; reflexivity|].
  rewrite IL, IR by (intros x I; apply H, in_or_app; auto). rewrite Rplus_0_r. apply rn_0.
Qed.
Lemma fl_mean_zero t : (forall x, In x (leaves t) -> x = 0) -> fl_mean t = 0.
Proof. intros H. unfold fl_mean. rewrite fl_sum_zero by exact H. unfold Rdiv. rewrite Rmult_0_l. apply rn_0. Qed.
Lemma fl_sum_nonneg t : (forall x, In x (leaves t) -> 0 <= x) -> 0 <= fl_sum t.
Proof.
  induction t as [x|l IL r IR]; cbn [leaves fl_sum]; intros H; [apply H; left; reflexivity|].
  apply rn_nonneg. apply Rplus_le_le_0_compat; [apply IL|apply IR]; intros x I; apply H, in_or_app; auto.
Qed.
Lemma fl_mean_nonneg t : (forall x, In x (leaves t) -> 0 <= x) -> 0 <= fl_mean t.
Proof. intros H. apply rn_nonneg. apply Rmult_le_pos; [apply fl_sum_nonneg, H|]. apply Rlt_le, Rinv_0_lt_compat, lt_0_INR, leaves_pos. Qed.
Theorem c94_sign : forall t : tree (R * R),
  0 <= fl_mean (tmap fl_ab_error t) /\ 0 <= fl_mean (tmap fl_sq_error t) /\ 0 <= fl_rmse t /\
  ((forall f o, In (f, o) (leaves t) -> f = o) ->
   fl_mean (tmap fl_error t) = 0 /\ fl_mean (tmap fl_ab_error t) = 0 /\ fl_mean (tmap fl_sq_error t) = 0 /\ fl_rmse t = 0).
Proof.
  assert (Z : forall f : R, rn (f - f) = 0) by (intros f; replace (f - f) with 0 by lra; apply rn_0).
  intros t. split; [|split; [|split]].
  - apply fl_mean_nonneg. intros x I. rewrite leaves_tmap in I. apply in_map_iff in I. destruct I as (c & <- & _). apply Rabs_pos.
  - apply fl_mean_nonneg. intros x I. rewrite leaves_tmap in I. apply in_map_iff in I. destruct I as (c & <- & _). apply rn_nonneg. nra.
  - apply rn_nonneg, sqrt_pos.
  - intros H. assert (S : fl_mean (tmap fl_sq_error t) = 0).
    { apply fl_mean_zero. intros x I. rewrite leaves_tmap in I. apply in_map_iff in I. destruct I as ((f & o) & <- & I). unfold fl_sq_error, fl_error. cbn [fst snd]. rewrite (H f o I), Z, Rmult_0_l. apply rn_0. }
    split; [|split; [|split; [exact S|unfold fl_rmse; rewrite S, sqrt_0; apply rn_0]]]; apply fl_mean_zero; intros x I; rewrite leaves_tmap in I; apply in_map_iff in I; destruct I as ((f & o) & <- & I); unfold fl_ab_error, fl_error; cbn [fst snd]; rewrite (H f o I), Z; [reflexivity|apply Rabs_R0].
Qed.
Print Assumptions c94_sign.

(** ** How far the average can be from the exact one *)
Lemma total_abs_nonneg l : 0 <= total (map Rabs l).
Proof. induction l as [|x r IH]; cbn [map total]; [lra|pose proof (Rabs_pos x); lra]. Qed.
Lemma total_abs l : Rabs (total l) <= total (map Rabs l).
Proof. induction l as [|x r IH]; cbn [map total]; [rewrite Rabs_R0; lra|]. eapply Rle_trans; [apply Rabs_triang|]. lra. Qed.
Definition is_double (x : R) : Prop := generic_format radix2 (FLT_exp (-1074) 53) x.
Local Instance prec53' : Prec_gt_0 53. Proof. reflexivity. Qed.
Lemma rn_double x : is_double (rn x).
Proof. apply generic_format_round; typeclasses eauto. Qed.
Lemma fl_sum_double t : (forall x, In x (leaves t) -> is_double x) -> is_double (fl_sum t).
Proof. destruct t as [x|l r]; cbn [leaves fl_sum]; intros H; [apply H; left; reflexivity|apply rn_double]. Qed.
(** a sum of two doubles never underflows *)
Lemma rn_plus x y : is_double x -> is_double y -> Rabs (rn (x + y) - (x + y)) <= unit * Rabs (x + y).
Proof.
  intros Dx Dy. destruct (Rle_or_lt (bpow radix2 (-1022)) (Rabs (x + y))) as [H|H]; [apply rn_rel, H|].
  assert (E : rn (x + y) = x + y).
  { apply round_generic; [typeclasses eauto|]. apply generic_format_FLT_FIX; [typeclasses eauto| |].
    - eapply Rle_trans; [apply Rlt_le, H|]. apply bpow_le. lia.
    - apply generic_format_FIX_FLT in Dx. apply generic_format_FIX_FLT in Dy. apply FIX_format_generic in Dx. apply FIX_format_generic in Dy.
      destruct Dx as [fx Ex Fx], Dy as [fy Ey Fy]. apply generic_format_FIX. exists (Float radix2 (Fnum fx + Fnum fy) (-1074)); [|reflexivity].
      rewrite Ex, Ey. unfold F2R. cbn [Fnum Fexp]. rewrite Fx, Fy, plus_IZR. ring. }
  rewrite E, Rminus_eq_0, Rabs_R0. apply Rmult_le_pos; [apply bpow_ge_0|apply Rabs_pos].
Qed.
Lemma unit_pos : 0 < unit. Proof. apply bpow_gt_0. Qed.
Lemma growth_mono a b : (a <= b)%nat -> (1 + unit) ^ a <= (1 + unit) ^ b.
Proof. intros H. apply Rle_pow; [pose proof unit_pos; lra|exact H]. Qed.
Lemma fl_sum_error t : (forall x, In x (leaves t) -> is_double x) ->
  Rabs (fl_sum t - total (leaves t)) <= ((1 + unit) ^ (length (leaves t) - 1) - 1) * total (map Rabs (leaves t)).
Proof.
  induction t as [x|l IL r IR]; intros D. { cbn [fl_sum leaves total length map Nat.sub pow]. replace (x - (x + 0)) with 0 by lra. rewrite Rabs_R0. lra. }
  cbn [fl_sum leaves]. cbn [leaves] in D. assert (Dl : forall x, In x (leaves l) -> is_double x) by (intros x I; apply D, in_or_app; auto). assert (Dr : forall x, In x (leaves r) -> is_double x) by (intros x I; apply D, in_or_app; auto).
  specialize (IL Dl). specialize (IR Dr). rewrite map_app, !total_app, app_length. pose proof (rn_plus (fl_sum l) (fl_sum r) (fl_sum_double l Dl) (fl_sum_double r Dr)) as E.
  set (a := fl_sum l) in *. set (b := fl_sum r) in *. set (A := total (leaves l)) in *. set (B := total (leaves r)) in *. set (A' := total (map Rabs (leaves l))) in *. set (B' := total (map Rabs (leaves r))) in *.
  pose proof (total_abs (leaves l) : Rabs A <= A') as LA. pose proof (total_abs (leaves r) : Rabs B <= B') as LB. pose proof (total_abs_nonneg (leaves l) : 0 <= A') as PA. pose proof (total_abs_nonneg (leaves r) : 0 <= B') as PB.
  set (n := (length (leaves l) + length (leaves r) - 2)%nat). pose proof (leaves_pos l). pose proof (leaves_pos r).
  pose proof (growth_mono (length (leaves l) - 1) n ltac:(lia)) as G1. pose proof (growth_mono (length (leaves r) - 1) n ltac:(lia)) as G2.
  replace (length (leaves l) + length (leaves r) - 1)%nat with (S n) by lia. cbn [pow]. set (g := (1 + unit) ^ n) in *.
  assert (IL' : Rabs (a - A) <= (g - 1) * A') by (eapply Rle_trans; [exact IL|]; apply Rmult_le_compat_r; [exact PA|lra]).
  assert (IR' : Rabs (b - B) <= (g - 1) * B') by (eapply Rle_trans; [exact IR|]; apply Rmult_le_compat_r; [exact PB|lra]).
  assert (S1 : Rabs ((a + b) - (A + B)) <= (g - 1) * (A' + B')). { replace (a + b - (A + B)) with ((a - A) + (b - B)) by ring. eapply Rle_trans; [apply Rabs_triang|]. rewrite Rmult_plus_distr_l. lra. }
  assert (S2 : Rabs (a + b) <= g * (A' + B')).
  { replace (a + b) with ((a + b - (A + B)) + (A + B)) by ring. eapply Rle_trans; [apply Rabs_triang|]. assert (Rabs (A + B) <= A' + B') by (eapply Rle_trans; [apply Rabs_triang|]; lra). replace (g * (A' + B')) with ((g - 1) * (A' + B') + (A' + B')) by ring. lra. }
  replace (rn (a + b) - (A + B)) with ((rn (a + b) - (a + b)) + ((a + b) - (A + B))) by ring. eapply Rle_trans; [apply Rabs_triang|].
  pose proof unit_pos as U. assert (S3 : unit * Rabs (a + b) <= unit * (g * (A' + B'))) by (apply Rmult_le_compat_l; [lra|exact S2]).
  replace (((1 + unit) * g - 1) * (A' + B')) with (unit * (g * (A' + B')) + (g - 1) * (A' + B')) by ring. lra.
Qed.
(** The computed mean of n doubles, in whatever order, differs from the exact mean by at most ((1+u)^n - 1) times the mean
    of the absolute values (and the smallest number, when the quotient underflows). *)
Theorem c94_mean_error : forall t : tree R, (forall x, In x (leaves t) -> is_double x) ->
  Rabs (fl_mean t - average (leaves t)) <= ((1 + unit) ^ length (leaves t) - 1) * average (map Rabs (leaves t)) + bpow radix2 (-1075).
Proof.
  intros t D. pose proof (fl_sum_error t D) as E. pose proof (lt_0_INR _ (leaves_pos t)) as P. unfold fl_mean, average. rewrite map_length.
  set (N := INR (length (leaves t))) in *. set (s := fl_sum t) in *. set (A := total (leaves t)) in *. set (A' := total (map Rabs (leaves t))) in *.
  pose proof (total_abs (leaves t) : Rabs A <= A') as LA. pose proof (total_abs_nonneg (leaves t) : 0 <= A') as PA. pose proof (leaves_pos t).
  replace (length (leaves t)) with (S (length (leaves t) - 1)) by lia. cbn [pow]. set (g := (1 + unit) ^ (length (leaves t) - 1)) in *. pose proof unit_pos as U.
  pose proof (rn_any (s / N)) as R. fold unit in R. assert (Iv : 0 < / N) by (apply Rinv_0_lt_compat, P).
  assert (Ds : Rabs (s / N - A / N) <= (g - 1) * (A' / N)). { replace (s / N - A / N) with ((s - A) * / N) by (unfold Rdiv; ring). rewrite Rabs_mult, (Rabs_pos_eq (/ N)) by lra. unfold Rdiv. rewrite <- Rmult_assoc. apply Rmult_le_compat_r; [lra|exact E]. }
  assert (LA' : Rabs (A / N) <= A' / N). { unfold Rdiv. rewrite Rabs_mult, (Rabs_pos_eq (/ N)) by lra. apply Rmult_le_compat_r; [lra|exact LA]. }
  assert (S2 : Rabs (s / N) <= g * (A' / N)). { replace (s / N) with ((s / N - A / N) + A / N) by ring. eapply Rle_trans; [apply Rabs_triang|]. replace (g * (A' / N)) with ((g - 1) * (A' / N) + A' / N) by ring. lra. }
  replace (rn (s / N) - A / N) with ((rn (s / N) - s / N) + (s / N - A / N)) by ring. eapply Rle_trans; [apply Rabs_triang|].
  assert (S3 : unit * Rabs (s / N) <= unit * (g * (A' / N))) by (apply Rmult_le_compat_l; [lra|exact S2]).
  replace (((1 + unit) * g - 1) * (A' / N)) with (unit * (g * (A' / N)) + (g - 1) * (A' / N)) by ring. lra.
Qed.
Print Assumptions c94_mean_error.

(** for example the forecasts of these cells *)
Example c94_mean_error_case : (forall x, In x (leaves (tmap fst two_cells)) -> is_double x) /\ 0 < average (map Rabs (leaves (tmap fst two_cells))).
Proof.
  split.
  - cbn. intros x [<-|[<-|[]]]; [|apply generic_format_0]. replace (1 / 2) with (bpow radix2 (-1)) by (cbn; lra). apply generic_format_bpow. unfold FLT_exp. lia.
  - cbn. unfold average. cbn. rewrite Rabs_R0, Rabs_pos_eq by lra. lra.
Qed.

(** ** Ensemble probabilities *)
Lemma double_below_1 : is_double (1 - unit).
Proof.
  apply generic_format_FLT. exists (Float radix2 (2 ^ 53 - 1) (-53)); [unfold F2R, unit; cbn; lra|cbn [Fnum]; change (Zpower radix2 53) with (2 ^ 53)%Z; lia|cbn; lia].
Qed.
Lemma double_unit : is_double unit.
Proof. apply generic_format_bpow. unfold FLT_exp. lia. Qed.
Lemma rn_id x : is_double x -> rn x = x.
Proof. intros H. apply round_generic; [typeclasses eauto|exact H]. Qed.
Lemma unit_inv n : (0 < n)%nat -> small_count n -> unit <= / INR n.
Proof.
  intros P H. unfold unit. change (bpow radix2 (-53)) with (/ IZR (2 ^ 53)). apply Rinv_le_contravar; [apply lt_0_INR, P|]. rewrite INR_IZR_INZ. apply IZR_le. exact H.
Qed.
(** With at most 2^53 members both probabilities lie in [0,1]; they are 0 or 1 exactly if no or all members are counted, and
    they are monotone in the number of members. *)
Theorem c94_probability : forall k n, (0 < n)%nat -> (k <= n)%nat -> small_count n ->
  0 <= fl_below k n <= 1 /\ 0 <= fl_over k n <= 1 /\
  (fl_below k n = 0 <-> k = 0%nat) /\ (fl_below k n = 1 <-> k = n) /\ (fl_over k n = 0 <-> k = n) /\ (fl_over k n = 1 <-> k = 0%nat) /\
  (forall j, (j <= k)%nat -> fl_below j n <= fl_below k n /\ fl_over k n <= fl_over j n).
Proof.
  intros k n P K N. pose proof (lt_0_INR _ P) as PR. pose proof unit_pos as U. pose proof (unit_inv n P N) as UN. assert (U1 : unit <= / 2) by (unfold unit; cbn; lra).
  assert (B : forall j, (j <= n)%nat -> 0 <= INR j / INR n <= 1).
  { intros j J. split; [apply Rmult_le_pos; [apply pos_INR|apply Rlt_le, Rinv_0_lt_compat, PR]|]. apply Rmult_le_reg_r with (INR n); [exact PR|]. unfold Rdiv. rewrite Rmult_assoc, Rinv_l, Rmult_1_l, Rmult_1_r by lra. apply le_INR, J. }
  assert (L : (0 < k)%nat -> unit <= fl_below k n).
  { intros H. unfold fl_below. rewrite <- (rn_id unit double_unit). apply rn_le. apply Rle_trans with (/ INR n); [exact UN|]. unfold Rdiv. rewrite <- (Rmult_1_l (/ INR n)) at 1. apply Rmult_le_compat_r; [apply Rlt_le, Rinv_0_lt_compat, PR|]. apply (le_INR 1). lia. }
  assert (H : (k < n)%nat -> fl_below k n <= 1 - unit). { intros H. unfold fl_below. rewrite <- (rn_id (1 - unit) double_below_1). apply rn_le. destruct (frac_bounds k n H) as (_ & A & _). lra. }
  assert (R1 : 0 <= fl_below k n <= 1) by (unfold fl_below; destruct (B k K); split; [apply rn_nonneg|apply rn_le_1]; assumption).
  assert (Z0 : k = 0%nat -> fl_below k n = 0). { intros ->. unfold fl_below. cbn [INR]. unfold Rdiv. rewrite Rmult_0_l. apply rn_0. }
  assert (Z1 : k = n -> fl_below k n = 1). { intros ->. unfold fl_below. unfold Rdiv. rewrite Rinv_r by lra. apply rn_1. }
  assert (L' : (0 < k)%nat -> fl_over k n <= 1 - unit). { intros A. unfold fl_over. rewrite <- (rn_id (1 - unit) double_below_1). apply rn_le. specialize (L A). lra. }
  assert (H' : (k < n)%nat -> unit <= fl_over k n). { intros A. unfold fl_over. rewrite <- (rn_id unit double_unit). apply rn_le. specialize (H A). lra. }
  split; [exact R1|]. split; [unfold fl_over; split; [apply rn_nonneg|apply rn_le_1]; lra|].
  split; [split; [intros E; destruct k; [reflexivity|specialize (L ltac:(lia)); lra]|exact Z0]|].
  split; [split; [intros E; destruct (Nat.eq_dec k n); [assumption|specialize (H ltac:(lia)); lra]|exact Z1]|].
  split. { split; [intros E; destruct (Nat.eq_dec k n); [assumption|specialize (H' ltac:(lia)); lra]|]. intros E. unfold fl_over. rewrite (Z1 E). replace (1 - 1) with 0 by lra. apply rn_0. }
  split. { split; [intros E; destruct k; [reflexivity|specialize (L' ltac:(lia)); lra]|]. intros E. unfold fl_over. rewrite (Z0 E). rewrite Rminus_0_r. apply rn_1. }
  intros j J. assert (M : fl_below j n <= fl_below k n). { unfold fl_below. apply rn_le. apply Rmult_le_compat_r; [apply Rlt_le, Rinv_0_lt_compat, PR|apply le_INR, J]. }
  split; [exact M|]. unfold fl_over. apply rn_le. lra.
Qed.
Print Assumptions c94_probability.
Example c94_probability_case : small_count 20 /\ fl_below 0 20 = 0 /\ fl_over 3 20 < 1.
Proof.
  assert (S : small_count 20) by (unfold small_count; cbn; lia). split; [exact S|]. split; [apply (c94_probability 0 20); [lia|lia|exact S|reflexivity]|].
  destruct (c94_probability 3 20 ltac:(lia) ltac:(lia) S) as (_ & A & _ & _ & _ & B & _). destruct (Rle_lt_or_eq_dec _ _ (proj2 A)) as [C|C]; [exact C|]. apply B in C. discriminate C.
Qed.

(** ** What rounding breaks *)
Lemma fr_plus a b c d : (0 < b)%Z -> (0 < d)%Z -> IZR a / IZR b + IZR c / IZR d = IZR (a * d + c * b) / IZR (b * d).
Proof. intros B D. apply IZR_lt in B. apply IZR_lt in D. rewrite plus_IZR, !mult_IZR. field. lra. Qed.
Lemma fr_minus a b c d : (0 < b)%Z -> (0 < d)%Z -> IZR a / IZR b - IZR c / IZR d = IZR (a * d - c * b) / IZR (b * d).
Proof. intros B D. apply IZR_lt in B. apply IZR_lt in D. rewrite minus_IZR, !mult_IZR. field. lra. Qed.
Lemma fr_mult a b c d : (0 < b)%Z -> (0 < d)%Z -> IZR a / IZR b * (IZR c / IZR d) = IZR (a * c) / IZR (b * d).
Proof. intros B D. apply IZR_lt in B. apply IZR_lt in D. rewrite !mult_IZR. field. lra. Qed.
Lemma fr_div a b n : (0 < b)%Z -> (0 < n)%Z -> IZR a / IZR b / IZR n = IZR a / IZR (b * n).
Proof. intros B D. apply IZR_lt in B. apply IZR_lt in D. rewrite !mult_IZR. field. lra. Qed.
Lemma fr_lt a b c d : (0 < b)%Z -> (0 < d)%Z -> (a * d < c * b)%Z -> IZR a / IZR b < IZR c / IZR d.
Proof.
  intros B D H. apply IZR_lt in B. apply IZR_lt in D. apply IZR_lt in H. rewrite !mult_IZR in H. apply Rmult_lt_reg_r with (IZR b * IZR d); [nra|].
  replace (IZR a / IZR b * (IZR b * IZR d)) with (IZR a * IZR d) by (field; lra). replace (IZR c / IZR d * (IZR b * IZR d)) with (IZR c * IZR b) by (field; lra). exact H.
Qed.
(** 0.1, the sums 0.1 + 0.1 and 0.1 + 0.1 + 0.1, and their mean *)
Definition tenth : R := rn (1 / 10).
Definition thrice {A} (x : A) : tree A := Node (Node (Leaf x) (Leaf x)) (Leaf x).
Lemma tenth_val : tenth = IZR 7205759403792794 / IZR 72057594037927936.
Proof. unfold tenth. rnd. reflexivity. Qed.
Lemma mean_val : fl_mean (thrice tenth) = IZR 7205759403792795 / IZR 72057594037927936.
Proof.
  unfold fl_mean, thrice. cbn [fl_sum leaves app length]. rewrite tenth_val.
  rewrite fr_plus by reflexivity. rnd.
  rewrite fr_plus by reflexivity. rnd.
  replace (INR 3) with (IZR 3) by (cbn; lra). rewrite fr_div by reflexivity. rnd; reflexivity.
Qed.
(** The mean of numbers need not lie between the smallest and the largest of them: three times 0.1 give more than 0.1. *)
Theorem c95_mean_bounds_refuted : exists t x, is_double x /\ (forall y, In y (leaves t) -> y = x) /\ x < fl_mean t.
Proof.
  exists (thrice tenth), tenth. split; [apply rn_double|]. split; [cbn; intros y [H|[H|[H|[]]]]; symmetry; exact H|].
  rewrite mean_val, tenth_val. apply fr_lt; reflexivity.
Qed.
Print Assumptions c95_mean_bounds_refuted.
(** The mean absolute error can exceed the root mean square error. *)
Theorem c95_rmse_refuted : exists t : tree (R * R), (forall f o, In (f, o) (leaves t) -> is_double f /\ is_double o) /\ fl_rmse t < fl_mean (tmap fl_ab_error t).
Proof.
  assert (Te : rn tenth = tenth) by (apply round_generic; [typeclasses eauto|apply rn_double]). assert (Tp : 0 < tenth) by (rewrite tenth_val; replace 0 with (IZR 0 / IZR 1) by lra; apply fr_lt; reflexivity).
  exists (thrice (tenth, 0)). split. { cbn. intros f o [H|[H|[H|[]]]]; injection H as <- <-; (split; [apply rn_double|apply generic_format_0]). }
  assert (A : fl_error (tenth, 0) = tenth) by (unfold fl_error; cbn [fst snd]; rewrite Rminus_0_r; exact Te).
  assert (M : fl_mean (tmap fl_ab_error (thrice (tenth, 0))) = fl_mean (thrice tenth)).
  { cbn [tmap thrice]. unfold fl_ab_error. rewrite A, Rabs_pos_eq by lra. reflexivity. }
  rewrite M, mean_val. apply Rle_lt_trans with tenth; [|rewrite tenth_val; apply fr_lt; reflexivity].
  assert (Q : fl_sq_error (tenth, 0) = IZR 5764607523034236 / IZR 576460752303423488).
  { unfold fl_sq_error. rewrite A, tenth_val, fr_mult by reflexivity. rnd; reflexivity. }
  assert (V : fl_mean (tmap fl_sq_error (thrice (tenth, 0))) = IZR 5764607523034236 / IZR 576460752303423488).
  { unfold fl_mean, thrice. cbn [tmap fl_sum leaves app length]. rewrite Q. rewrite fr_plus by reflexivity. rnd.
    rewrite fr_plus by reflexivity. rnd.
    replace (INR 3) with (IZR 3) by (cbn; lra). rewrite fr_div by reflexivity. rnd; reflexivity. }
  unfold fl_rmse. rewrite V. set (w := IZR (16 * 7205759403792794 + 7) / IZR (16 * 72057594037927936)).
  assert (W : rn w = tenth) by (unfold w; rewrite tenth_val; rnd; reflexivity). rewrite <- W. apply rn_le.
  assert (W0 : 0 <= w) by (unfold w; replace 0 with (IZR 0 / IZR 1) by lra; apply Rlt_le, fr_lt; reflexivity).
  rewrite <- (sqrt_square w W0). apply sqrt_le_1_alt. unfold w. rewrite fr_mult by reflexivity. apply Rlt_le, fr_lt; reflexivity.
Qed.
Print Assumptions c95_rmse_refuted.
(** The variance of identical members can be positive. *)
Theorem c95_variance_refuted : exists t x, is_double x /\ (forall y, In y (leaves t) -> y = x) /\ 0 < fl_var t.
Proof.
  exists (thrice tenth), tenth. split; [apply rn_double|]. split; [cbn; intros y [H|[H|[H|[]]]]; symmetry; exact H|].
  unfold fl_var. rewrite mean_val. unfold thrice. cbn [tmap].
  assert (D : rn (tenth - IZR 7205759403792795 / IZR 72057594037927936) = - (IZR (2 ^ 52) / IZR (2 ^ 108))).
  { rewrite tenth_val. replace (IZR 7205759403792794 / IZR 72057594037927936 - IZR 7205759403792795 / IZR 72057594037927936) with (- (IZR 1 / IZR 72057594037927936)) by lra.
    rewrite rn_opp. f_equal. rnd; reflexivity. }
  rewrite D. clear D. rewrite Rmult_opp_opp, fr_mult by reflexivity. rnd.
  apply Rlt_le_trans with (IZR 1 / IZR (2 ^ 170)); [replace 0 with (IZR 0 / IZR 1) by lra; apply fr_lt; reflexivity|].
  unfold fl_mean. cbn [fl_sum leaves app length]. rewrite fr_plus by reflexivity. rnd.
  rewrite fr_plus by reflexivity. rnd.
  replace (INR 3) with (IZR 3) by (cbn; lra). rewrite fr_div by reflexivity. rnd.
  apply Rlt_le, fr_lt; reflexivity.
Qed.
Print Assumptions c95_variance_refuted.

(** ** What remains of it *)
(** Integers: sums and means are exact as long as the absolute values add up to at most 2^53. *)
Definition is_int (x : R) : Prop := exists z, x = IZR z.
Lemma total_int l : (forall x, In x l -> is_int x) -> is_int (total l).
Proof.
  induction l as [|x r IH]; cbn [total]; intros H; [exists 0%Z; reflexivity|]. destruct (H x (or_introl eq_refl)) as (z & ->). destruct (IH (fun y I => H y (or_intror I))) as (w & ->). exists (z + w)%Z. rewrite plus_IZR. reflexivity.
Qed.
Lemma rn_small_int x : is_int x -> Rabs x <= IZR (2 ^ 53) -> rn x = x.
Proof. intros (z & ->) H. apply rn_int. rewrite <- abs_IZR in H. apply le_IZR in H. exact H. Qed.
Lemma fl_sum_int t : (forall x, In x (leaves t) -> is_int x) -> total (map Rabs (leaves t)) <= IZR (2 ^ 53) -> fl_sum t = total (leaves t).
Proof.
  induction t as [x|l IL r IR]; cbn [leaves fl_sum]; intros H B; [cbn [total]; lra|]. rewrite map_app, total_app in B.
  pose proof (total_abs_nonneg (leaves l)). pose proof (total_abs_nonneg (leaves r)). rewrite IL by (lra || (intros x I; apply H, in_or_app; auto)). rewrite IR by (lra || (intros x I; apply H, in_or_app; auto)).
  rewrite <- total_app. apply rn_small_int; [apply total_int, H|]. eapply Rle_trans; [apply total_abs|]. rewrite map_app, total_app. exact B.
Qed.
Lemma total_bounds a b l : (forall x, In x l -> a <= x <= b) -> a * INR (length l) <= total l <= b * INR (length l).
Proof.
  induction l as [|x r IH]; intros H; [cbn; lra|]. cbn [total length]. rewrite S_INR. pose proof (H x (or_introl eq_refl)). pose proof (IH (fun y I => H y (or_intror I))). lra.
Qed.
Theorem c95_integers_partial : forall t : tree R, (forall x, In x (leaves t) -> is_int x) -> total (map Rabs (leaves t)) <= IZR (2 ^ 53) ->
  fl_mean t = rn (average (leaves t)) /\
  (forall a b, is_double a -> is_double b -> (forall x, In x (leaves t) -> a <= x <= b) -> a <= fl_mean t <= b) /\
  (forall x, (forall y, In y (leaves t) -> y = x) -> fl_mean t = x /\ fl_var t = 0).
Proof.
  intros t I B. assert (E : fl_mean t = rn (average (leaves t))) by (unfold fl_mean, average; rewrite fl_sum_int by assumption; reflexivity). pose proof (lt_0_INR _ (leaves_pos t)) as P.
  assert (G : forall a b, is_double a -> is_double b -> (forall x, In x (leaves t) -> a <= x <= b) -> a <= fl_mean t <= b).
  { intros a b Da Db H. rewrite E. destruct (total_bounds a b (leaves t) H) as [L U]. rewrite <- (rn_id a Da) at 1. rewrite <- (rn_id b Db). unfold average. split; apply rn_le; apply Rmult_le_reg_r with (INR (length (leaves t))); try exact P; unfold Rdiv; rewrite Rmult_assoc, Rinv_l, Rmult_1_r by lra; assumption. }
  split; [exact E|]. split; [exact G|]. intros x H.
  assert (Ix : In x (leaves t)). { destruct (leaves t) as [|y r] eqn:El; [pose proof (leaves_pos t) as Q; rewrite El in Q; cbn in Q; lia|]. rewrite (H y (or_introl eq_refl)). left. reflexivity. }
  assert (Dx : is_double x).
  { rewrite <- (rn_small_int x); [apply rn_double|apply I, Ix|]. eapply Rle_trans; [|exact B]. clear - Ix. induction (leaves t) as [|y r IH]; [destruct Ix|]. cbn [map total]. pose proof (total_abs_nonneg r). pose proof (Rabs_pos y). destruct Ix as [->|Ix]; [lra|specialize (IH Ix); lra]. }
  assert (M : fl_mean t = x) by (destruct (G x x Dx Dx (fun y Iy => conj (Req_le _ _ (eq_sym (H y Iy))) (Req_le _ _ (H y Iy)))); apply Rle_antisym; assumption).
  split; [exact M|]. unfold fl_var. rewrite M. apply fl_mean_zero. intros z Iz. rewrite leaves_tmap in Iz. apply in_map_iff in Iz. destruct Iz as (y & <- & Iy). rewrite (H y Iy), Rminus_eq_0, rn_0, Rmult_0_l. apply rn_0.
Qed.
Print Assumptions c95_integers_partial.
(** In general the bounds hold up to the error of c94_mean_error. *)
Theorem c95_mean_bounds_partial : forall (t : tree R) a b, (forall x, In x (leaves t) -> is_double x /\ a <= x <= b) ->
  let e := ((1 + unit) ^ length (leaves t) - 1) * Rmax (Rabs a) (Rabs b) + bpow radix2 (-1075) in
  a - e <= fl_mean t <= b + e.
Proof.
  intros t a b H e. pose proof (c94_mean_error t (fun x I => proj1 (H x I))) as E. pose proof (lt_0_INR _ (leaves_pos t)) as P.
  destruct (total_bounds a b (leaves t) (fun x I => proj2 (H x I))) as [L U].
  assert (A : a <= average (leaves t) <= b). { unfold average. split; apply Rmult_le_reg_r with (INR (length (leaves t))); try exact P; unfold Rdiv; rewrite Rmult_assoc, Rinv_l, Rmult_1_r by lra; assumption. }
  set (m := Rmax (Rabs a) (Rabs b)) in *. assert (M : average (map Rabs (leaves t)) <= m).
  { unfold average. rewrite map_length. apply Rmult_le_reg_r with (INR (length (leaves t))); [exact P|]. unfold Rdiv. rewrite Rmult_assoc, Rinv_l, Rmult_1_r by lra.
    rewrite <- (map_length Rabs). apply (total_bounds 0 m). intros x Ix. apply in_map_iff in Ix. destruct Ix as (y & <- & Iy). split; [apply Rabs_pos|]. destruct (H y Iy) as [_ [Hy1 Hy2]].
    unfold m. pose proof (Rmax_l (Rabs a) (Rabs b)). pose proof (Rmax_r (Rabs a) (Rabs b)). unfold Rabs in *. repeat destruct (Rcase_abs _); lra. }
  assert (G : 0 <= (1 + unit) ^ length (leaves t) - 1) by (pose proof (growth_mono 0 (length (leaves t)) ltac:(lia)); cbn [pow] in *; lra).
  assert (K : ((1 + unit) ^ length (leaves t) - 1) * average (map Rabs (leaves t)) <= ((1 + unit) ^ length (leaves t) - 1) * m) by (apply Rmult_le_compat_l; assumption).
  apply Rabs_le_inv in E. unfold e. lra.
Qed.
Print Assumptions c95_mean_bounds_partial.
Example c95_partial_case : (forall x, In x (leaves (thrice 7)) -> is_int x) /\ total (map Rabs (leaves (thrice 7))) <= IZR (2 ^ 53) /\ fl_var (thrice 7) = 0.
Proof.
  assert (A : forall x, In x (leaves (thrice 7)) -> x = 7) by (cbn; intros x [H|[H|[H|[]]]]; symmetry; exact H).
  assert (I : forall x, In x (leaves (thrice 7)) -> is_int x) by (intros x Ix; rewrite (A x Ix); exists 7%Z; reflexivity).
  assert (B : total (map Rabs (leaves (thrice 7))) <= IZR (2 ^ 53)) by (cbn; rewrite Rabs_pos_eq by lra; lra).
  split; [exact I|]. split; [exact B|]. apply (proj2 (proj2 (c95_integers_partial _ I B)) 7 A).
Qed.
