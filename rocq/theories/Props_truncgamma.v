(** C71, C72: the truncated gamma distribution. *)
From Coq Require Import Reals List Bool Arith Lra.
From Verif Require Import Num NdArr RTier M_truncgamma Spec_truncgamma P_truncgamma.
Import ListNotations.
Open Scope R_scope.

(** What is assumed of scipy's gammainc and gammaincinv is [incomplete_gamma] of Spec_truncgamma.v at the shape parameters
    which occur.  Largest value of a truncated forecast: the upper bound is 10000 in units of the scale. *)
Definition top (mu sigma shift : R) : R := shift + 10000 * (sigma ^ 2 / mu).
Section C71.
Variables P Pinv : R -> R -> R.
Definition good (mu sigma shift : R) : Prop := 0 < mu /\ 0 < sigma /\ 0 < top mu sigma shift /\ incomplete_gamma P Pinv ((mu / sigma) ^ 2).
Definition truncated_gamma (mu sigma shift : R) : R -> R := conditioned (gamma_dist P mu sigma shift) 0 (top mu sigma shift).

(** C71.  With a shift that is not positive, and below the largest value, the CDF is the gamma CDF conditioned on [0, top]. *)
Theorem c71_truncated_partial : forall mu sigma shift t ix, good (get mu ix) (get sigma ix) (get shift ix) -> get shift ix <= 0 ->
  get t ix < top (get mu ix) (get sigma ix) (get shift ix) ->
  get (tg_below_arr P mu sigma shift t) ix = RFin (truncated_gamma (get mu ix) (get sigma ix) (get shift ix) (get t ix)) /\
  get (tg_over_arr P mu sigma shift t) ix = RFin (1 - truncated_gamma (get mu ix) (get sigma ix) (get shift ix) (get t ix)).
Proof.
  intros mu sigma shift t ix (M & S & T & G) H B.
  assert (E : tg_below P (get mu ix) (get sigma ix) (get shift ix) (get t ix) = RFin (truncated_gamma (get mu ix) (get sigma ix) (get shift ix) (get t ix)))
    by exact (below_value P Pinv _ _ _ M S G _ H T B).
  split; [exact E|]. unfold tg_over_arr, tg_below_arr; cbn [get shape]; rewrite E; reflexivity.
Qed.
(** It grows strictly from 0 to 1 on the interval and stays between them. *)
Theorem c71_shape_of_cdf : forall mu sigma shift, good mu sigma shift -> shift <= 0 ->
  truncated_gamma mu sigma shift 0 = 0 /\ truncated_gamma mu sigma shift (top mu sigma shift) = 1 /\
  (forall x, 0 <= truncated_gamma mu sigma shift x <= 1) /\
  (forall x y, 0 <= x -> x < y -> y <= top mu sigma shift -> truncated_gamma mu sigma shift x < truncated_gamma mu sigma shift y).
Proof.
  intros mu sigma shift (M & S & T & G) H.
  split; [unfold truncated_gamma, conditioned; destruct (Rle_dec 0 0); [reflexivity|lra]|].
  split; [unfold truncated_gamma, conditioned; destruct (Rle_dec (top mu sigma shift) 0); [lra|]; destruct (Rle_dec (top mu sigma shift) (top mu sigma shift)); [reflexivity|lra]|].
  split; [intros x; exact (conditioned_range P Pinv _ _ _ M S G x H T)|].
  intros x y; exact (conditioned_strict P Pinv _ _ _ M S G x y H T).
Qed.
(** From the largest value on, the probability of being below falls back from nearly 1 to 0; *)
Theorem c71_top_refuted : forall mu sigma shift t ix, good (get mu ix) (get sigma ix) (get shift ix) -> get shift ix <= 0 ->
  top (get mu ix) (get sigma ix) (get shift ix) <= get t ix ->
  get (tg_below_arr P mu sigma shift t) ix = RFin 0 /\ get (tg_over_arr P mu sigma shift t) ix = RFin 1 /\
  truncated_gamma (get mu ix) (get sigma ix) (get shift ix) (get t ix) = 1.
Proof.
  intros mu sigma shift t ix (M & S & T & G) H B.
  assert (E : tg_below P (get mu ix) (get sigma ix) (get shift ix) (get t ix) = RFin 0) by exact (below_outside P _ _ _ M S _ H T (or_intror B)).
  split; [exact E|split].
  - unfold tg_over_arr, tg_below_arr; cbn [get shape]; rewrite E; cbn; f_equal; ring.
  - unfold truncated_gamma, conditioned. destruct (Rle_dec (get t ix) 0); [lra|]. destruct (Rle_dec _ (get t ix)); [reflexivity|lra].
Qed.
(** and with a positive shift, where nothing lies below zero and truncating changes nothing but the upper end, there is no number at all. *)
Theorem c71_positive_shift_refuted : forall mu sigma shift t ix, 0 < get mu ix -> 0 < get sigma ix -> 0 < get shift ix ->
  get (tg_below_arr P mu sigma shift t) ix = RNaN /\ get (tg_over_arr P mu sigma shift t) ix = RNaN.
Proof.
  intros mu sigma shift t ix M S H.
  assert (E : tg_below P (get mu ix) (get sigma ix) (get shift ix) (get t ix) = RNaN) by exact (below_nan P _ _ _ M S _ H).
  split; [exact E|]. unfold tg_over_arr, tg_below_arr; cbn [get shape]; rewrite E; reflexivity.
Qed.

(** C72.  Members are drawn inside [0, top); a member is at most t exactly if its uniform number is at most the CDF at t. *)
Theorem c72_members_partial : forall mu sigma shift n q,
  (forall ix, valid (shape mu) ix -> good (get mu ix) (get sigma ix) (get shift ix) /\ get shift ix <= 0) ->
  (forall m ix, 0 <= q m ix < 1) ->
  exists e, tg_sample P Pinv mu sigma shift n q = Ok e /\ shape e = n :: shape mu /\
    forall m ix, valid (shape mu) ix ->
      0 <= get e (m :: ix) < top (get mu ix) (get sigma ix) (get shift ix) /\
      forall t, 0 <= t -> (get e (m :: ix) <= t <-> q m ix <= truncated_gamma (get mu ix) (get sigma ix) (get shift ix) t).
Proof.
  intros mu sigma shift n q H Q.
  destruct (sample_total P Pinv mu sigma shift n q) as [e E].
  { intros ix V. destruct (H ix V) as [(M & S & T & G) K]. exact (conj M (conj S (conj K T))). }
  exists e. split; [exact E|]. destruct (sample_ok _ _ _ _ _ _ _ _ E) as (E1 & _ & E2). split; [exact E1|].
  intros m ix V. destruct (H ix V) as [(M & S & T & G) K]. destruct (Q m ix) as [Q0 Q1]. rewrite E2. split.
  - destruct (rv_inverse P Pinv _ _ _ M S G _ K T Q0 Q1) as (A & B & _). exact (conj A B).
  - intros t Ht. exact (rv_iff P Pinv _ _ _ M S G _ t K T Q0 Q1 Ht).
Qed.
(** One positive shift makes the whole call fail. *)
Theorem c72_positive_shift_refuted : forall mu sigma shift n q ix, valid (shape mu) ix -> 0 < get mu ix -> 0 < get sigma ix -> 0 < get shift ix ->
  tg_sample P Pinv mu sigma shift n q = Raise ValueError.
Proof. intros mu sigma shift n q ix. exact (sample_raises P Pinv mu sigma shift n q ix). Qed.
End C71.

(** The exponential distribution (mean 2, standard deviation 2, shape 1). *)
Definition w_inc (s x : R) : R := 1 - exp (- x).
Definition w_inv (s p : R) : R := - ln (1 - p).
Definition cell (x : R) : arr R := Arr [1%nat] (fun _ => x).
Example c71_lib : incomplete_gamma w_inc w_inv ((2 / 2) ^ 2).
Proof.
  unfold w_inc, w_inv. constructor.
  - rewrite Ropp_0, exp_0; ring.
  - intros x y _ H. pose proof (exp_increasing (- y) (- x) ltac:(lra)); lra.
  - intros x. pose proof (exp_pos (- x)); lra.
  - intros p P0 P1. split.
    + destruct P0 as [P0|<-].
      * pose proof (ln_increasing (1 - p) 1 ltac:(lra) ltac:(lra)) as L; rewrite ln_1 in L; lra.
      * rewrite Rminus_0_r, ln_1; lra.
    + rewrite Ropp_involutive, exp_ln by lra; ring.
Qed.
Example c71_good shift : -1 <= shift -> good w_inc w_inv 2 2 shift.
Proof. intros H. split; [lra|split; [lra|split; [unfold top; lra|exact c71_lib]]]. Qed.
(** P(x <= 1) of the forecast shifted by -1 is the conditional probability of [0, 1]; at 30000 it is 0; shifted by 1 it is NaN *)
Example c71_case :
  get (tg_below_arr w_inc (cell 2) (cell 2) (cell (-1)) (cell 1)) [0%nat] = RFin (truncated_gamma w_inc 2 2 (-1) 1) /\
  0 < truncated_gamma w_inc 2 2 (-1) 1 < 1 /\
  get (tg_below_arr w_inc (cell 2) (cell 2) (cell (-1)) (cell 30000)) [0%nat] = RFin 0 /\
  get (tg_below_arr w_inc (cell 2) (cell 2) (cell 1) (cell 3)) [0%nat] = RNaN.
Proof.
  pose proof (c71_good (-1) ltac:(lra)) as G.
  split; [exact (proj1 (c71_truncated_partial w_inc w_inv (cell 2) (cell 2) (cell (-1)) (cell 1) [0%nat] G ltac:(cbn; lra) ltac:(unfold top; cbn; lra)))|].
  split.
  - destruct (c71_shape_of_cdf w_inc w_inv 2 2 (-1) G ltac:(lra)) as (E0 & E1 & _ & I).
    pose proof (I 0 1 ltac:(lra) ltac:(lra) ltac:(unfold top; lra)). pose proof (I 1 (top 2 2 (-1)) ltac:(lra) ltac:(unfold top; lra) ltac:(lra)). lra.
  - split.
    + exact (proj1 (c71_top_refuted w_inc w_inv (cell 2) (cell 2) (cell (-1)) (cell 30000) [0%nat] G ltac:(cbn; lra) ltac:(unfold top; cbn; lra))).
    + apply (c71_positive_shift_refuted w_inc (cell 2) (cell 2) (cell 1) (cell 3) [0%nat]); cbn; lra.
Qed.
Example c72_case : exists e,
  tg_sample w_inc w_inv (cell 2) (cell 2) (cell (-1)) 2 (fun m _ => match m with O => 0 | _ => 1 / 2 end) = Ok e /\ shape e = [2%nat; 1%nat] /\
  0 <= get e [1%nat; 0%nat] < 19999 /\
  tg_sample w_inc w_inv (cell 2) (cell 2) (cell 1) 2 (fun _ _ => 0) = Raise ValueError.
Proof.
  destruct (c72_members_partial w_inc w_inv (cell 2) (cell 2) (cell (-1)) 2 (fun m _ => match m with O => 0 | _ => 1 / 2 end)) as (e & E & Sh & H).
  - intros ix _. split; [exact (c71_good (-1) ltac:(lra))|cbn; lra].
  - intros [|m] ix; lra.
  - exists e. split; [exact E|split; [exact Sh|]].
    assert (V : valid (shape (cell 2)) [0%nat]) by (constructor; [auto|constructor]).
    destruct (H 1%nat [0%nat] V) as [B _]. unfold top in B; cbn in B. split; [lra|].
    apply (c72_positive_shift_refuted w_inc w_inv (cell 2) (cell 2) (cell 1) 2 _ [0%nat] V); cbn; lra.
Qed.
Print Assumptions c71_truncated_partial.
Print Assumptions c71_shape_of_cdf.
Print Assumptions c71_top_refuted.
Print Assumptions c71_positive_shift_refuted.
Print Assumptions c72_members_partial.
Print Assumptions c72_positive_shift_refuted.
