(** Property C98: how close the error metrics computed in double precision are to the exact ones. *)
From Coq Require Import ZArith Reals List Bool Lra Lia Psatz.
From Flocq Require Import Core.
From Verif Require Import M_float M_round Props_float P_round Props_fsum.
Import ListNotations.
Open Scope R_scope.

(** ** Words *)
(** [a] results from the nonnegative [b] by at most [k] roundings *)
Definition near (k : nat) (a b : R) : Prop := (1 - unit) ^ k * b <= a <= (1 + unit) ^ k * b.
Definition diff (c : R * R) : R := fst c - snd c.
Definition double_cells (t : tree (R * R)) : Prop := forall f o, In (f, o) (leaves t) -> is_double f /\ is_double o.
(** equal, or so far apart that the square is a normal number *)
Definition apart (x y : R) : Prop := x = y \/ bpow radix2 (-400) <= Rabs (x - y).

(** ** Relative errors *)
Lemma unit_small : 0 < unit < / 1000.
Proof.
  split; [apply unit_pos|]. assert (E : unit = / IZR (2 ^ 53)) by (apply (bpow_neg 53); lia). rewrite E. apply Rinv_lt_contravar; [|apply IZR_lt; reflexivity].
  apply Rmult_lt_0_compat; [lra|apply (IZR_lt 0); reflexivity].
Qed.
Lemma up_pos k : 1 <= (1 + unit) ^ k. Proof. apply pow_R1_Rle. pose proof unit_small. lra. Qed.
Lemma dn_pos k : 0 < (1 - unit) ^ k <= 1.
Proof.
  pose proof unit_small. split; [apply pow_lt; lra|]. replace 1 with (1 ^ k) at 2 by apply pow1. apply pow_incr. lra.
Qed.
Lemma near_nonneg k a b : 0 <= b -> near k a b -> 0 <= a.
Proof. intros B [L _]. eapply Rle_trans; [|exact L]. apply Rmult_le_pos; [apply Rlt_le, dn_pos|exact B]. Qed.
Lemma near_refl a : near 0 a a. Proof. unfold near. cbn [pow]. lra. Qed.
Lemma near_zero k : near k 0 0. Proof. unfold near. lra. Qed.
Lemma near_mono j k a b : (j <= k)%nat -> 0 <= b -> near j a b -> near k a b.
Proof.
  intros J B [L U]. pose proof unit_small as S. split.
  - eapply Rle_trans; [|exact L]. apply Rmult_le_compat_r; [exact B|]. replace k with (j + (k - j))%nat by lia. rewrite pow_add.
    pose proof (dn_pos j). pose proof (dn_pos (k - j)). nra.
  - eapply Rle_trans; [exact U|]. apply Rmult_le_compat_r; [exact B|]. apply growth_mono, J.
Qed.
Lemma near_trans j k a b c : 0 <= c -> near j a b -> near k b c -> near (j + k) a c.
Proof.
  intros C [L U] [L' U']. unfold near. rewrite !pow_add, !Rmult_assoc. split.
  - eapply Rle_trans; [|exact L]. apply Rmult_le_compat_l; [apply Rlt_le, dn_pos|exact L'].
  - eapply Rle_trans; [exact U|]. apply Rmult_le_compat_l; [pose proof (up_pos j); lra|exact U'].
Qed.
Lemma near_plus k a b a' b' : near k a b -> near k a' b' -> near k (a + a') (b + b').
Proof. unfold near. rewrite !Rmult_plus_distr_l. lra. Qed.
Lemma near_scale k a b c : 0 <= c -> near k a b -> near k (a * c) (b * c).
Proof. intros C [L U]. unfold near. rewrite <- !Rmult_assoc. split; apply Rmult_le_compat_r; assumption. Qed.
Lemma near_square k a b : 0 <= b -> near k a b -> near (2 * k) (a * a) (b * b).
Proof.
  intros B N. pose proof (near_nonneg _ _ _ B N) as A. destruct N as [L U]. unfold near. rewrite !(Nat.mul_comm 2 k), !pow_mult.
  pose proof (dn_pos k). set (d := (1 - unit) ^ k) in *. set (g := (1 + unit) ^ k) in *. replace (d ^ 2 * (b * b)) with ((d * b) * (d * b)) by ring. replace (g ^ 2 * (b * b)) with ((g * b) * (g * b)) by ring.
  split; apply Rmult_le_compat; nra.
Qed.
Lemma near_sqrt k a b : 0 <= b -> near (2 * k) a b -> near k (sqrt a) (sqrt b).
Proof.
  intros B [L U]. rewrite (Nat.mul_comm 2 k), !pow_mult in *. pose proof (dn_pos k) as D. pose proof (up_pos k) as G. set (d := (1 - unit) ^ k) in *. set (g := (1 + unit) ^ k) in *.
  assert (SD : d * sqrt b = sqrt (d ^ 2 * b)) by (rewrite sqrt_mult, sqrt_pow2; [reflexivity|lra|nra|exact B]). assert (SG : g * sqrt b = sqrt (g ^ 2 * b)) by (rewrite sqrt_mult, sqrt_pow2; [reflexivity|lra|nra|exact B]).
  unfold near. fold d g. rewrite SD, SG. split; apply sqrt_le_1_alt; assumption.
Qed.
Lemma near_of_abs a b : 0 <= b -> Rabs (a - b) <= unit * b -> near 1 a b.
Proof. intros B H. apply Rabs_le_inv in H. unfold near. rewrite !pow_1. lra. Qed.
Lemma near_rn x : 0 <= x -> x = 0 \/ bpow radix2 (-1022) <= x -> near 1 (rn x) x.
Proof.
  intros P [->|H]; [rewrite rn_0; apply near_zero|]. apply near_of_abs; [exact P|]. pose proof (rn_rel x) as R. rewrite (Rabs_pos_eq x P) in R. apply R, H.
Qed.

(** ** Sums of nonnegative doubles *)
Lemma total_nonneg l : (forall x, In x l -> 0 <= x) -> 0 <= total l.
Proof. induction l as [|x r IH]; cbn [total]; intros H; [lra|]. pose proof (H x (or_introl eq_refl)). assert (0 <= total r) by (apply IH; intros; apply H; right; assumption). lra. Qed.
Lemma near_sum t : (forall x, In x (leaves t) -> is_double x /\ 0 <= x) -> near (length (leaves t) - 1) (fl_sum t) (total (leaves t)).
Proof.
  induction t as [x|l IL r IR]; intros H; cbn [fl_sum leaves total length Nat.sub]. { rewrite Rplus_0_r. apply near_refl. }
  assert (Hl : forall x, In x (leaves l) -> is_double x /\ 0 <= x) by (intros x I; apply H, in_or_app; auto). assert (Hr : forall x, In x (leaves r) -> is_double x /\ 0 <= x) by (intros x I; apply H, in_or_app; auto).
  rewrite total_app, app_length. pose proof (leaves_pos l). pose proof (leaves_pos r).
  assert (Tl : 0 <= total (leaves l)) by (apply total_nonneg; intros; apply Hl; assumption). assert (Tr : 0 <= total (leaves r)) by (apply total_nonneg; intros; apply Hr; assumption).
  replace (length (leaves l) + length (leaves r) - 1)%nat with (1 + (length (leaves l) + length (leaves r) - 2))%nat by lia. apply (near_trans 1 _ _ (fl_sum l + fl_sum r)); [lra| |].
  - pose proof (fl_sum_nonneg l (fun x I => proj2 (Hl x I))). pose proof (fl_sum_nonneg r (fun x I => proj2 (Hr x I))). apply near_of_abs; [lra|].
    pose proof (rn_plus (fl_sum l) (fl_sum r) (fl_sum_double l (fun x I => proj1 (Hl x I))) (fl_sum_double r (fun x I => proj1 (Hr x I)))) as E. rewrite (Rabs_pos_eq (fl_sum l + fl_sum r)) in E by lra. exact E.
  - apply near_plus; [eapply near_mono; [|exact Tl|apply IL, Hl]; lia|eapply near_mono; [|exact Tr|apply IR, Hr]; lia].
Qed.
Lemma sum_above t x : (forall x, In x (leaves t) -> is_double x /\ 0 <= x) -> In x (leaves t) -> x <= fl_sum t.
Proof.
  induction t as [y|l IL r IR]; cbn [fl_sum leaves]; intros H I. { destruct I as [->|[]]. lra. }
  assert (Hl : forall x, In x (leaves l) -> is_double x /\ 0 <= x) by (intros z J; apply H, in_or_app; auto). assert (Hr : forall x, In x (leaves r) -> is_double x /\ 0 <= x) by (intros z J; apply H, in_or_app; auto).
  pose proof (fl_sum_nonneg l (fun x I => proj2 (Hl x I))). pose proof (fl_sum_nonneg r (fun x I => proj2 (Hr x I))).
  apply in_app_or in I as [I|I].
  - eapply Rle_trans; [apply IL; assumption|]. rewrite <- (rn_id (fl_sum l)) at 1 by (apply fl_sum_double; intros; apply Hl; assumption). apply rn_le. lra.
  - eapply Rle_trans; [apply IR; assumption|]. rewrite <- (rn_id (fl_sum r)) at 1 by (apply fl_sum_double; intros; apply Hr; assumption). apply rn_le. lra.
Qed.
(** each term zero or not tiny *)
Lemma near_mean t : (forall x, In x (leaves t) -> is_double x /\ (x = 0 \/ bpow radix2 (-900) <= x)) -> small_count (length (leaves t)) ->
  near (length (leaves t)) (fl_mean t) (average (leaves t)) /\ (fl_mean t = 0 \/ bpow radix2 (-954) <= fl_mean t).
Proof.
  intros H N. assert (H' : forall x, In x (leaves t) -> is_double x /\ 0 <= x). { intros x I. destruct (H x I) as [D [->|B]]; (split; [exact D|]); [lra|]. eapply Rle_trans; [apply bpow_ge_0|exact B]. }
  assert (T : 0 <= total (leaves t)) by (apply total_nonneg; intros; apply H'; assumption). pose proof (leaves_pos t) as P0. pose proof (lt_0_INR _ P0) as P. pose proof (fl_sum_nonneg t (fun x I => proj2 (H' x I))) as S0.
  assert (C : fl_sum t = 0 \/ bpow radix2 (-900) <= fl_sum t).
  { destruct (Exists_dec (fun x => x <> 0) (leaves t)) as [E|E]. { intros x. destruct (Req_EM_T x 0); [right|left]; auto. }
    - right. apply Exists_exists in E as (x & I & E). destruct (H x I) as [_ [Z|B]]; [contradiction|]. eapply Rle_trans; [exact B|]. apply sum_above; assumption.
    - left. apply fl_sum_zero. intros x I. destruct (Req_EM_T x 0) as [Z|Z]; [exact Z|]. exfalso. apply E, Exists_exists. eauto. }
  assert (Q : fl_sum t / INR (length (leaves t)) = 0 \/ bpow radix2 (-953) <= fl_sum t / INR (length (leaves t))).
  { destruct C as [->|C]; [left; unfold Rdiv; ring|right]. replace (bpow radix2 (-953)) with (bpow radix2 (-900) * bpow radix2 (-53)) by (rewrite <- bpow_plus; reflexivity).
    apply Rmult_le_compat; [apply bpow_ge_0|apply bpow_ge_0|exact C|]. apply unit_inv; assumption. }
  assert (Q0 : 0 <= fl_sum t / INR (length (leaves t))) by (apply Rmult_le_pos; [exact S0|apply Rlt_le, Rinv_0_lt_compat, P]).
  split.
  - replace (length (leaves t)) with (1 + (length (leaves t) - 1))%nat at 1 by lia. unfold average, fl_mean.
    apply (near_trans 1 _ _ (fl_sum t / INR (length (leaves t)))); [apply Rmult_le_pos; [exact T|apply Rlt_le, Rinv_0_lt_compat, P]| |].
    + apply near_rn; [exact Q0|]. destruct Q as [Q|Q]; [left; exact Q|right]. eapply Rle_trans; [|exact Q]. apply bpow_le. lia.
    + apply near_scale; [apply Rlt_le, Rinv_0_lt_compat, P|]. apply near_sum, H'.
  - unfold fl_mean. destruct Q as [->|Q]; [left; apply rn_0|right]. eapply Rle_trans; [|apply rn_le, Q].
    replace (rn (bpow radix2 (-953))) with (bpow radix2 (-953)); [apply bpow_le; lia|]. symmetry. apply rn_id. apply generic_format_bpow. unfold FLT_exp. lia.
Qed.
Lemma total_scale k : forall (l : list (R * R)), (forall a b, In (a, b) l -> near k a b) -> near k (total (map fst l)) (total (map snd l)).
Proof. induction l as [|[a b] r IH]; cbn [map total fst snd]; intros H; [apply near_zero|]. apply near_plus; [apply H; left; reflexivity|apply IH; intros; apply H; right; assumption]. Qed.
Lemma near_average {A} k (f g : A -> R) l : (forall x, In x l -> near k (f x) (g x)) -> near k (average (map f l)) (average (map g l)).
Proof.
  intros H. unfold average. rewrite !map_length. destruct l as [|y r]. { cbn. unfold Rdiv. rewrite Rmult_0_l. apply near_zero. }
  apply near_scale; [apply Rlt_le, Rinv_0_lt_compat, lt_0_INR; cbn; lia|].
  pose proof (total_scale k (map (fun x => (f x, g x)) (y :: r))) as T. rewrite !map_map in T. apply T. intros a b I. apply in_map_iff in I as (x & E & I). injection E as <- <-. apply H, I.
Qed.
Lemma average_nonneg {A} (g : A -> R) l : (forall x, In x l -> 0 <= g x) -> 0 <= average (map g l).
Proof.
  intros H. unfold average. destruct l as [|y r]. { cbn. unfold Rdiv. rewrite Rmult_0_l. lra. } apply Rmult_le_pos; [|apply Rlt_le, Rinv_0_lt_compat, lt_0_INR; cbn; lia].
  apply total_nonneg. intros x I. apply in_map_iff in I as (z & <- & I). apply H, I.
Qed.

(** ** One cell *)
Lemma apart_spec x y : apart x y -> Rabs (x - y) = 0 \/ bpow radix2 (-400) <= Rabs (x - y).
Proof. intros [->|H]; [left|right; exact H]. rewrite Rminus_eq_0. apply Rabs_R0. Qed.
Lemma is_double_opp x : is_double x -> is_double (- x).
Proof. apply generic_format_opp. Qed.
Lemma minus_error x y : is_double x -> is_double y -> Rabs (rn (x - y) - (x - y)) <= unit * Rabs (x - y).
Proof. intros X Y. apply (rn_plus x (- y)); [exact X|apply is_double_opp, Y]. Qed.
Lemma near_minus x y : is_double x -> is_double y -> near 1 (Rabs (rn (x - y))) (Rabs (x - y)).
Proof.
  intros X Y. apply near_of_abs; [apply Rabs_pos|]. eapply Rle_trans; [apply Rabs_triang_inv2|]. apply minus_error; assumption.
Qed.
Lemma near_low k a b : 0 <= b -> near 1 a b -> b = 0 \/ bpow radix2 (k + 1) <= b -> a = 0 \/ bpow radix2 k <= a.
Proof.
  intros B [L U] [->|H]; [left; lra|right]. rewrite pow_1 in L. pose proof unit_small. rewrite bpow_plus_1 in H. cbn in H. eapply Rle_trans; [|exact L]. pose proof (bpow_gt_0 radix2 k). nra.
Qed.
Lemma square_cell x y : is_double x -> is_double y -> apart x y ->
  near 3 (rn (rn (x - y) * rn (x - y))) ((x - y) * (x - y)) /\ (rn (rn (x - y) * rn (x - y)) = 0 \/ bpow radix2 (-900) <= rn (rn (x - y) * rn (x - y))).
Proof.
  intros X Y A. set (d := x - y). set (e := rn d). assert (N : near 1 (Rabs e) (Rabs d)) by (apply near_minus; assumption).
  assert (Sq : forall z, z * z = Rabs z * Rabs z) by (intros z; unfold Rabs; destruct (Rcase_abs z); ring).
  pose proof (near_square 1 _ _ (Rabs_pos d) N) as N2. rewrite <- !Sq in N2. cbn [Nat.mul Nat.add] in N2.
  assert (L : Rabs e = 0 \/ bpow radix2 (-401) <= Rabs e). { apply (near_low (-401) _ _ (Rabs_pos d) N). apply apart_spec, A. }
  assert (L2 : e * e = 0 \/ bpow radix2 (-802) <= e * e).
  { rewrite (Sq e). destruct L as [->|L]; [left; ring|right]. replace (bpow radix2 (-802)) with (bpow radix2 (-401) * bpow radix2 (-401)) by (rewrite <- bpow_plus; reflexivity).
    apply Rmult_le_compat; try apply bpow_ge_0; exact L. }
  assert (D0 : 0 <= d * d) by nra. assert (E0 : 0 <= e * e) by nra. split.
  - apply (near_trans 1 2 _ (e * e)); [exact D0| |exact N2]. apply near_rn; [exact E0|]. destruct L2 as [Z|L2]; [left; exact Z|right]. eapply Rle_trans; [|exact L2]. apply bpow_le. lia.
  - destruct L2 as [->|L2]; [left; apply rn_0|right]. apply (Rle_trans _ (rn (bpow radix2 (-802)))); [|apply rn_le, L2].
    rewrite rn_id by (apply generic_format_bpow; unfold FLT_exp; lia). apply bpow_le. lia.
Qed.

(** ** Bias *)
Lemma average_minus {A} (f g : A -> R) l : average (map f l) - average (map g l) = average (map (fun x => f x - g x) l).
Proof.
  unfold average. rewrite !map_length. unfold Rdiv. rewrite <- Rmult_minus_distr_r. f_equal. induction l as [|x r IH]; cbn [map total]; lra.
Qed.
Lemma average_le {A} (f g : A -> R) l : (forall x, In x l -> f x <= g x) -> average (map f l) <= average (map g l).
Proof.
  intros H. pose proof (average_nonneg (fun x => g x - f x) l) as N. rewrite <- average_minus in N. assert (0 <= average (map g l) - average (map f l)); [|lra]. apply N. intros x I. specialize (H x I). lra.
Qed.
Lemma average_abs l : Rabs (average l) <= average (map Rabs l).
Proof.
  unfold average. rewrite map_length. destruct l as [|x r]. { cbn. unfold Rdiv. rewrite Rmult_0_l, Rabs_R0. lra. }
  unfold Rdiv. rewrite Rabs_mult. rewrite (Rabs_pos_eq (/ _)) by (apply Rlt_le, Rinv_0_lt_compat, lt_0_INR; cbn; lia). apply Rmult_le_compat_r; [apply Rlt_le, Rinv_0_lt_compat, lt_0_INR; cbn; lia|apply total_abs].
Qed.
Lemma average_scale {A} c (f : A -> R) l : average (map (fun x => c * f x) l) = c * average (map f l).
Proof. unfold average. rewrite !map_length. unfold Rdiv. rewrite <- Rmult_assoc. f_equal. induction l as [|x r IH]; cbn [map total]; [ring|rewrite IH; ring]. Qed.
(** The computed bias of n cells is within ((1+u)^(n+1) - 1) times the mean absolute error of the exact one (and the
    smallest number, when the quotient underflows). *)
Theorem c98_bias : forall t, double_cells t -> let n := length (leaves t) in
  Rabs (fl_mean (tmap fl_error t) - average (map diff (leaves t))) <= ((1 + unit) ^ (n + 1) - 1) * average (map (fun c => Rabs (diff c)) (leaves t)) + bpow radix2 (-1075).
Proof.
  intros t D n. assert (De : forall x, In x (leaves (tmap fl_error t)) -> is_double x) by (intros x I; rewrite leaves_tmap in I; apply in_map_iff in I as (c & <- & _); apply rn_double).
  pose proof (c94_mean_error (tmap fl_error t) De) as E. rewrite leaves_tmap, map_length, map_map in E. fold n in E.
  assert (Ce : forall c, In c (leaves t) -> Rabs (fl_error c - diff c) <= unit * Rabs (diff c)) by (intros [f o] I; apply minus_error; apply (D f o I)).
  set (M := average (map (fun c => Rabs (diff c)) (leaves t))) in *.
  assert (M0 : 0 <= M) by (apply average_nonneg; intros; apply Rabs_pos).
  assert (A1 : average (map (fun c => Rabs (fl_error c)) (leaves t)) <= (1 + unit) * M).
  { unfold M. rewrite <- average_scale. apply average_le. intros c I. specialize (Ce c I). replace (fl_error c) with ((fl_error c - diff c) + diff c) by ring. eapply Rle_trans; [apply Rabs_triang|]. lra. }
  assert (A2 : Rabs (average (map fl_error (leaves t)) - average (map diff (leaves t))) <= unit * M).
  { rewrite average_minus. eapply Rle_trans; [apply average_abs|]. rewrite map_map. unfold M. rewrite <- average_scale. apply average_le, Ce. }
  pose proof (up_pos n) as G. rewrite pow_add, pow_1. set (g := (1 + unit) ^ n) in *. pose proof unit_small.
  replace (fl_mean (tmap fl_error t) - average (map diff (leaves t))) with ((fl_mean (tmap fl_error t) - average (map fl_error (leaves t))) + (average (map fl_error (leaves t)) - average (map diff (leaves t)))) by ring.
  eapply Rle_trans; [apply Rabs_triang|]. assert ((g - 1) * average (map (fun c => Rabs (fl_error c)) (leaves t)) <= (g - 1) * ((1 + unit) * M)) by (apply Rmult_le_compat_l; lra). nra.
Qed.
Print Assumptions c98_bias.

(** ** Mean absolute error, mean square error, root mean square error *)
(** at most 2^53 cells, each forecast equal to its observation or at least 2^-400 away *)
Theorem c98_errors : forall t, double_cells t -> (forall f o, In (f, o) (leaves t) -> apart f o) -> let n := length (leaves t) in small_count n ->
  near (n + 1) (fl_mean (tmap fl_ab_error t)) (average (map (fun c => Rabs (diff c)) (leaves t))) /\
  near (n + 3) (fl_mean (tmap fl_sq_error t)) (average (map (fun c => diff c * diff c) (leaves t))) /\
  near ((n + 4) / 2 + 1) (fl_rmse t) (sqrt (average (map (fun c => diff c * diff c) (leaves t)))).
Proof.
  intros t D A n N. assert (LE : forall g : R * R -> R, length (leaves (tmap g t)) = n) by (intros g; rewrite leaves_tmap; apply map_length).
  assert (P1 : 0 <= average (map (fun c => Rabs (diff c)) (leaves t))) by (apply average_nonneg; intros; apply Rabs_pos).
  assert (P2 : 0 <= average (map (fun c => diff c * diff c) (leaves t))) by (apply average_nonneg; intros; apply Rle_0_sqr).
  assert (MS : near (n + 3) (fl_mean (tmap fl_sq_error t)) (average (map (fun c => diff c * diff c) (leaves t))) /\ (fl_mean (tmap fl_sq_error t) = 0 \/ bpow radix2 (-954) <= fl_mean (tmap fl_sq_error t))).
  { destruct (near_mean (tmap fl_sq_error t)) as [M1 M2].
    - intros x I. rewrite leaves_tmap in I. apply in_map_iff in I as ([f o] & <- & I). split; [apply rn_double|]. destruct (D f o I) as [Df Do]. apply (square_cell f o Df Do (A f o I)).
    - rewrite LE. exact N.
    - split; [|exact M2]. rewrite LE in M1. apply (near_trans n 3 _ _ _ P2 M1). rewrite leaves_tmap. apply near_average. intros [f o] I. destruct (D f o I) as [Df Do]. apply (square_cell f o Df Do (A f o I)). }
  split; [|split; [apply MS|]].
  - destruct (near_mean (tmap fl_ab_error t)) as [M1 M2].
    + intros x I. rewrite leaves_tmap in I. apply in_map_iff in I as ([f o] & <- & I). destruct (D f o I) as [Df Do]. split; [apply generic_format_abs, rn_double|].
      apply (near_low (-900) _ _ (Rabs_pos (f - o))); [apply near_minus; assumption|]. destruct (apart_spec f o (A f o I)) as [Z|Z]; [left; exact Z|right]. eapply Rle_trans; [|exact Z]. apply bpow_le. lia.
    + rewrite LE. exact N.
    + rewrite LE in M1. apply (near_trans n 1 _ _ _ P1 M1). rewrite leaves_tmap. apply near_average. intros [f o] I. destruct (D f o I) as [Df Do]. apply near_minus; assumption.
  - destruct MS as [M1 M2]. unfold fl_rmse. rewrite Nat.add_comm. apply (near_trans 1 _ _ (sqrt (fl_mean (tmap fl_sq_error t)))); [apply sqrt_pos| |].
    + apply near_rn; [apply sqrt_pos|]. destruct M2 as [->|M2]; [left; apply sqrt_0|right]. eapply Rle_trans; [|apply sqrt_le_1_alt, M2]. replace (bpow radix2 (-954)) with (bpow radix2 (-477) * bpow radix2 (-477)) by (rewrite <- bpow_plus; reflexivity).
      rewrite sqrt_square by apply bpow_ge_0. apply bpow_le. lia.
    + apply near_sqrt; [exact P2|]. eapply near_mono; [|exact P2|exact M1]. pose proof (Nat.div_mod (n + 4) 2 ltac:(lia)). pose proof (Nat.mod_upper_bound (n + 4) 2 ltac:(lia)). lia.
Qed.
Print Assumptions c98_errors.

(** ** Variance of the members *)
Lemma total_centered c l : total (map (fun x => (x - c) * (x - c)) l) = total (map (fun x => x * x) l) - 2 * c * total l + INR (length l) * (c * c).
Proof. induction l as [|x r IH]; [cbn; lra|]. cbn [map total length]. rewrite IH, S_INR. ring. Qed.
Lemma average_centered c l : l <> [] -> average (map (fun x => (x - c) * (x - c)) l) = average (map (fun x => x * x) l) - 2 * c * average l + c * c.
Proof.
  intros H. unfold average. rewrite !map_length, total_centered. assert (0 < INR (length l)) by (apply lt_0_INR; destruct l; [contradiction|cbn; lia]). field. lra.
Qed.
Definition variance (l : list R) : R := average (map (fun x => (x - average l) * (x - average l)) l).
Lemma steiner c l : l <> [] -> average (map (fun x => (x - c) * (x - c)) l) = variance l + (c - average l) * (c - average l).
Proof. intros H. unfold variance. rewrite !average_centered by exact H. ring. Qed.
Lemma leaves_some {A} (t : tree A) : leaves t <> [].
Proof. pose proof (leaves_pos t). destruct (leaves t); [cbn in *; lia|discriminate]. Qed.
(** The computed variance is within n+3 roundings of the exact one plus the squared error of the computed mean. *)
Theorem c98_variance : forall t, (forall x, In x (leaves t) -> is_double x /\ apart x (fl_mean t)) -> let n := length (leaves t) in small_count n ->
  near (n + 3) (fl_var t) (variance (leaves t) + (fl_mean t - average (leaves t)) * (fl_mean t - average (leaves t))).
Proof.
  intros t H n N. rewrite <- steiner by apply leaves_some. unfold fl_var. set (m := fl_mean t) in *. assert (Dm : is_double m) by apply rn_double.
  assert (P2 : 0 <= average (map (fun x => (x - m) * (x - m)) (leaves t))) by (apply average_nonneg; intros; apply Rle_0_sqr).
  destruct (near_mean (tmap (fun x => rn (rn (x - m) * rn (x - m))) t)) as [M1 _].
  - intros x I. rewrite leaves_tmap in I. apply in_map_iff in I as (z & <- & I). split; [apply rn_double|]. destruct (H z I) as [Dz Az]. apply (square_cell z m Dz Dm Az).
  - rewrite leaves_tmap, map_length. exact N.
  - rewrite leaves_tmap, map_length in M1. fold n in M1. apply (near_trans n 3 _ _ _ P2 M1). apply near_average. intros z I. destruct (H z I) as [Dz Az]. apply (square_cell z m Dz Dm Az).
Qed.
Print Assumptions c98_variance.

(** ** What remains of C95: the mean absolute error exceeds the root mean square error by roundings only *)
Lemma mean_square l : l <> [] -> average l * average l <= average (map (fun x => x * x) l).
Proof.
  intros H. assert (H0 : 0 <= variance l) by (apply average_nonneg; intros; apply Rle_0_sqr). unfold variance in H0. rewrite average_centered in H0 by exact H. lra.
Qed.
Theorem c95_rmse_partial : forall t, double_cells t -> (forall f o, In (f, o) (leaves t) -> apart f o) -> let n := length (leaves t) in small_count n ->
  (1 - unit) ^ ((n + 4) / 2 + 1) * fl_mean (tmap fl_ab_error t) <= (1 + unit) ^ (n + 1) * fl_rmse t.
Proof.
  intros t D A n N. destruct (c98_errors t D A N) as ((_ & U) & _ & (L & _)). fold n in U, L. set (k := ((n + 4) / 2 + 1)%nat) in *.
  set (a := average (map (fun c => Rabs (diff c)) (leaves t))) in *. set (q := average (map (fun c => diff c * diff c) (leaves t))) in *.
  assert (J : a <= sqrt q).
  { assert (A0 : 0 <= a) by (apply average_nonneg; intros; apply Rabs_pos). rewrite <- (sqrt_square a) by exact A0. apply sqrt_le_1_alt.
    pose proof (mean_square (map (fun c => Rabs (diff c)) (leaves t))) as M. rewrite map_map in M. fold a in M. unfold q.
    replace (map (fun c => diff c * diff c) (leaves t)) with (map (fun c => Rabs (diff c) * Rabs (diff c)) (leaves t)).
    - apply M. intros Z. apply map_eq_nil in Z. exact (leaves_some t Z).
    - apply map_ext. intros c. rewrite <- Rabs_mult. apply Rabs_pos_eq. nra. }
  pose proof (dn_pos k) as K. pose proof (up_pos (n + 1)) as G. set (d := (1 - unit) ^ k) in *. set (g := (1 + unit) ^ (n + 1)) in *.
  apply (Rle_trans _ (d * (g * a))); [apply Rmult_le_compat_l; lra|]. replace (d * (g * a)) with (g * (d * a)) by ring. apply Rmult_le_compat_l; [lra|]. eapply Rle_trans; [|exact L]. apply Rmult_le_compat_l; lra.
Qed.
Print Assumptions c95_rmse_partial.

(** ** Brier score *)
Lemma prob_gap k m : (0 < m)%nat -> (k <= m)%nat -> small_count m -> forall p, p = fl_below k m \/ p = fl_over k m ->
  (p = 0 \/ unit <= p) /\ (p = 1 \/ p <= 1 - unit).
Proof.
  intros P K N. destruct (c94_probability k m P K N) as (_ & _ & (_ & Z0) & (_ & Z1) & (_ & O0) & (_ & O1) & _). pose proof (unit_inv m P N) as UN. pose proof (lt_0_INR _ P) as PR.
  assert (L : (0 < k)%nat -> unit <= fl_below k m).
  { intros H. unfold fl_below. rewrite <- (rn_id unit double_unit). apply rn_le. apply Rle_trans with (/ INR m); [exact UN|]. unfold Rdiv. rewrite <- (Rmult_1_l (/ INR m)) at 1. apply Rmult_le_compat_r; [apply Rlt_le, Rinv_0_lt_compat, PR|]. apply (le_INR 1). lia. }
  assert (H : (k < m)%nat -> fl_below k m <= 1 - unit).
  { intros H. unfold fl_below. rewrite <- (rn_id (1 - unit) double_below_1). apply rn_le. assert (INR k + 1 <= INR m) by (rewrite <- S_INR; apply le_INR; lia).
    apply Rmult_le_reg_r with (INR m); [exact PR|]. unfold Rdiv. rewrite Rmult_assoc, Rinv_l, Rmult_1_r by lra. assert (unit * INR m <= 1) by (rewrite <- (Rinv_l (INR m)) by lra; apply Rmult_le_compat_r; lra). lra. }
  assert (L' : (0 < k)%nat -> fl_over k m <= 1 - unit). { intros A. unfold fl_over. rewrite <- (rn_id (1 - unit) double_below_1). apply rn_le. specialize (L A). lra. }
  assert (H' : (k < m)%nat -> unit <= fl_over k m). { intros A. unfold fl_over. rewrite <- (rn_id unit double_unit). apply rn_le. specialize (H A). lra. }
  intros p [-> | ->]; (destruct (Nat.eq_dec k 0) as [E0|E0]; destruct (Nat.eq_dec k m) as [E1|E1]); try (specialize (L ltac:(lia)); specialize (L' ltac:(lia))); try (specialize (H ltac:(lia)); specialize (H' ltac:(lia))); split; auto.
Qed.
(** The Brier score of ensemble probabilities: no condition on the size of the numbers is left. *)
Theorem c98_brier : forall t : tree (R * R), let n := length (leaves t) in small_count n ->
  (forall p o, In (p, o) (leaves t) -> (exists k m, (0 < m)%nat /\ (k <= m)%nat /\ small_count m /\ (p = fl_below k m \/ p = fl_over k m)) /\ (o = 0 \/ o = 1)) ->
  near (n + 3) (fl_mean (tmap fl_sq_error t)) (average (map (fun c => diff c * diff c) (leaves t))).
Proof.
  intros t n N H.
  assert (D : double_cells t). { intros p o I. destruct (H p o I) as [(k & m & _ & _ & _ & [-> | ->]) [-> | ->]]; (split; [apply rn_double|]); try apply generic_format_0; (replace 1 with (bpow radix2 0) by reflexivity; apply generic_format_bpow; unfold FLT_exp; lia). }
  apply (c98_errors t D); [|exact N]. intros p o I. destruct (H p o I) as [(k & m & Pm & K & Sm & E) O]. destruct (prob_gap k m Pm K Sm p E) as [[->|A] [B|B]]; destruct O as [-> | ->]; unfold apart; auto; right;
    (eapply Rle_trans; [apply (bpow_le radix2 (-400) (-53)); lia|]); fold unit; pose proof unit_small; unfold Rabs; destruct (Rcase_abs _); lra.
Qed.
Print Assumptions c98_brier.

(** ** Cases *)
Lemma double_1 : is_double 1. Proof. replace 1 with (bpow radix2 0) by reflexivity. apply generic_format_bpow. unfold FLT_exp. lia. Qed.
Lemma double_half : is_double (1 / 2). Proof. replace (1 / 2) with (bpow radix2 (-1)) by (cbn; lra). apply generic_format_bpow. unfold FLT_exp. lia. Qed.
Lemma half_far : bpow radix2 (-400) <= / 2. Proof. replace (/ 2) with (bpow radix2 (-1)) by (cbn; lra). apply bpow_le. lia. Qed.
Example c98_case : double_cells two_cells /\ (forall f o, In (f, o) (leaves two_cells) -> apart f o) /\ small_count (length (leaves two_cells)) /\
  average (map (fun c => Rabs (diff c)) (leaves two_cells)) = / 4 /\
  near 5 (fl_mean (tmap fl_sq_error two_cells)) (/ 8) /\ near 4 (fl_rmse two_cells) (sqrt (/ 8)).
Proof.
  assert (D : double_cells two_cells). { cbn. intros f o [H|[H|[]]]; injection H as <- <-; split; try apply double_half; try apply double_1; apply generic_format_0. }
  assert (A : forall f o, In (f, o) (leaves two_cells) -> apart f o).
  { cbn. intros f o [H|[H|[]]]; injection H as <- <-; [right|left; reflexivity]. eapply Rle_trans; [apply half_far|]. unfold Rabs. destruct (Rcase_abs _); lra. }
  assert (Q : average (map (fun c => diff c * diff c) (leaves two_cells)) = / 8) by (unfold average, diff; cbn; lra).
  destruct (c98_errors two_cells D A two_small) as (_ & M & R). rewrite Q in M, R.
  split; [exact D|]. split; [exact A|]. split; [apply two_small|]. split; [|split; [exact M|exact R]]. unfold average, diff. cbn. unfold Rabs. destruct (Rcase_abs _), (Rcase_abs _); lra.
Qed.
Definition three_members : tree R := Node (Node (Leaf 0) (Leaf 1)) (Leaf (1 / 2)).
Example c98_variance_case : (forall x, In x (leaves three_members) -> is_double x /\ apart x (fl_mean three_members)) /\ near 6 (fl_var three_members) (/ 6).
Proof.
  assert (R1 : forall z : Z, (Z.abs z <= 2 ^ 53)%Z -> rn (IZR z) = IZR z) by (intros; apply rn_int; assumption).
  assert (M : fl_mean three_members = 1 / 2).
  { unfold fl_mean, three_members. cbn [fl_sum leaves app length]. rewrite Rplus_0_l, rn_1. rewrite (rn_id (1 + 1 / 2)).
    - replace ((1 + 1 / 2) / INR 3) with (1 / 2) by (cbn; lra). apply rn_id, double_half.
    - apply generic_format_FLT. exists (Float radix2 3 (-1)); [unfold F2R; cbn; lra|cbn; lia|cbn; lia]. }
  assert (H : forall x, In x (leaves three_members) -> is_double x /\ apart x (fl_mean three_members)).
  { rewrite M. intros x [<-|[<-|[<-|[]]]]; (split; [first [apply generic_format_0|apply double_1|apply double_half]|]).
    - right. eapply Rle_trans; [apply half_far|]. unfold Rabs. destruct (Rcase_abs _); lra.
    - right. eapply Rle_trans; [apply half_far|]. unfold Rabs. destruct (Rcase_abs _); lra.
    - left. reflexivity. }
  split; [exact H|]. pose proof (c98_variance three_members H) as V. cbn zeta in V. replace (/ 6) with (variance (leaves three_members) + (fl_mean three_members - average (leaves three_members)) * (fl_mean three_members - average (leaves three_members))).
  - apply V. unfold small_count. cbn. lia.
  - rewrite M. unfold variance, average, three_members. cbn. lra.
Qed.
