(** Property C68: station coordinates stay distinct and ordered in binary64, within bounds. *)
From Coq Require Import ZArith Reals Lra Lia Psatz.
From Flocq Require Import Core.
From Verif Require Import M_float.
Open Scope R_scope.

Local Instance prec_gt : Prec_gt_0 53. Proof. reflexivity. Qed.
Notation fexp := (FLT_exp (-1074) 53).
Lemma rn_le x y : x <= y -> rn x <= rn y.
Proof. apply round_le; typeclasses eauto. Qed.
Lemma rn_int z : (Z.abs z <= 2 ^ 53)%Z -> rn (IZR z) = IZR z.
Proof.
  intros H. apply round_generic; [typeclasses eauto|]. destruct (Z.eq_dec (Z.abs z) (2 ^ 53)) as [E|E].
  - assert (G : generic_format radix2 fexp (bpow radix2 53)) by (apply generic_format_bpow; unfold FLT_exp; lia).
    destruct (Z.abs_spec z) as [[_ A]|[_ A]]; rewrite A in E.
    + rewrite E. exact G.
    + replace z with (- 2 ^ 53)%Z by lia. rewrite opp_IZR. apply generic_format_opp. exact G.
  - apply generic_format_FLT. exists (Float radix2 z 0); [unfold F2R; cbn; lra|cbn [Fnum]; change (Zpower radix2 53) with (2 ^ 53)%Z; lia|cbn; lia].
Qed.
(** the error of rounding something at most 2^k *)
Lemma rn_err x k : (-100 <= k)%Z -> 0 <= x <= bpow radix2 k -> Rabs (rn x - x) <= bpow radix2 (k - 53).
Proof.
  intros Hk [H0 H1]. destruct (Req_dec x 0) as [->|N]. { unfold rn. rewrite round_0 by typeclasses eauto. rewrite Rminus_0_r, Rabs_R0. apply bpow_ge_0. }
  eapply Rle_trans; [apply error_le_half_ulp; typeclasses eauto|].
  assert (U : ulp radix2 fexp x <= bpow radix2 (k - 52)).
  { eapply Rle_trans; [apply ulp_le_pos; [typeclasses eauto|typeclasses eauto|exact H0|exact H1]|]. rewrite ulp_bpow. apply bpow_le. unfold FLT_exp. lia. }
  replace (bpow radix2 (k - 53)) with (/ 2 * bpow radix2 (k - 52)).
  - apply Rmult_le_compat_l; [lra|exact U].
  - replace (k - 52)%Z with (1 + (k - 53))%Z by lia. rewrite bpow_plus. change (bpow radix2 1) with 2. generalize (bpow radix2 (k - 53)). intros b. lra.
Qed.
Lemma frac_bounds k n : (k < n)%nat -> 0 <= INR k / INR n /\ INR k / INR n <= 1 - / INR n /\ 0 < / INR n <= 1.
Proof.
  intros H. assert (P : 1 <= INR n) by (apply (le_INR 1); lia). assert (I : 0 < / INR n <= 1). { split; [apply Rinv_0_lt_compat; lra|]. rewrite <- Rinv_1. apply Rinv_le_contravar; lra. }
  split; [unfold Rdiv; apply Rmult_le_pos; [apply pos_INR|lra]|]. split; [|exact I]. assert (K : INR k + 1 <= INR n) by (rewrite <- S_INR; apply le_INR; lia).
  apply Rmult_le_reg_r with (INR n); [lra|]. unfold Rdiv. rewrite Rmult_assoc, Rinv_l by lra. rewrite Rmult_minus_distr_r, Rinv_l by lra. lra.
Qed.
(** the coordinate and its exact value *)
Lemma coord_err s n k e : (0 <= e <= 53)%Z -> (0 <= s)%Z -> IZR s + 1 <= bpow radix2 e -> (k < n)%nat ->
  Rabs (coord s n k - (IZR s + INR k / INR n)) <= bpow radix2 (-53) + bpow radix2 (e - 53).
Proof.
  intros He Hs Hb Hk. destruct (frac_bounds k n Hk) as (F0 & F1 & F2).
  assert (S53 : (s <= 2 ^ 53)%Z). { apply le_IZR. change (IZR (2 ^ 53)) with (bpow radix2 53). pose proof (bpow_le radix2 e 53 ltac:(lia)). lra. }
  unfold coord. rewrite rn_int by lia. set (a := rn (INR k / INR n)).
  assert (A : Rabs (a - INR k / INR n) <= bpow radix2 (-53)). { apply (rn_err _ 0); [lia|]. change (bpow radix2 0) with 1. lra. }
  assert (A0 : 0 <= a). { rewrite <- (rn_int 0) by (cbn; lia). apply rn_le. exact F0. }
  assert (A1 : a <= 1). { rewrite <- (rn_int 1) by (cbn; lia). apply rn_le. lra. }
  assert (S0 : 0 <= IZR s) by (apply (IZR_le 0); exact Hs).
  assert (B : Rabs (rn (IZR s + a) - (IZR s + a)) <= bpow radix2 (e - 53)) by (apply rn_err; [lia|lra]).
  replace (rn (IZR s + a) - (IZR s + INR k / INR n)) with ((a - INR k / INR n) + (rn (IZR s + a) - (IZR s + a))) by ring.
  eapply Rle_trans; [apply Rabs_triang|]. lra.
Qed.
(** the power of two above a number *)
Lemma above s : (0 <= s)%Z -> exists e, (0 <= e)%Z /\ IZR s + 1 <= bpow radix2 e <= 2 * (IZR s + 1).
Proof.
  intros H. exists (Z.log2_up (s + 1)). split; [apply Z.log2_up_nonneg|]. assert (P : forall e, (0 <= e)%Z -> bpow radix2 e = IZR (2 ^ e)) by (intros e He; rewrite (IZR_Zpower radix2) by exact He; reflexivity).
  rewrite P by apply Z.log2_up_nonneg. change 1 with (IZR 1). rewrite <- plus_IZR. change 2 with (IZR 2). rewrite <- mult_IZR. destruct (Z.eq_dec s 0) as [->|N].
  - cbn. split; apply IZR_le; lia.
  - pose proof (Z.log2_up_spec (s + 1) ltac:(lia)) as [A B]. split; apply IZR_le; [exact B|]. pose proof (Z.log2_up_pos (s + 1) ltac:(lia)).
    replace (Z.log2_up (s + 1)) with (Z.succ (Z.pred (Z.log2_up (s + 1)))) at 1 by lia. rewrite Z.pow_succ_r by lia. lia.
Qed.
(** Rank number and station count bound each other: 2 (rank + 1) n <= 2^50. *)
Definition moderate (s : Z) (n : nat) : Prop := (0 <= s)%Z /\ (2 * (s + 1) * Z.of_nat n <= 2 ^ 50)%Z.
Lemma coord_close s n k : moderate s n -> (k < n)%nat -> Rabs (coord s n k - (IZR s + INR k / INR n)) <= / 4 * / INR n.
Proof.
  intros [Hs Hm] Hk. destruct (above s Hs) as (e & He & E1 & E2). destruct (frac_bounds k n Hk) as (_ & _ & F2).
  assert (N0 : 0 < INR n) by (apply (lt_INR 0); lia). assert (N1 : 1 <= INR n) by (apply (le_INR 1); lia).
  assert (Hm' : bpow radix2 e * INR n <= bpow radix2 50).
  { eapply Rle_trans; [apply Rmult_le_compat_r; [lra|exact E2]|]. rewrite INR_IZR_INZ. change 1 with (IZR 1). change 2 with (IZR 2). rewrite <- plus_IZR, <- !mult_IZR. change (bpow radix2 50) with (IZR (2 ^ 50)). apply IZR_le. exact Hm. }
  assert (He53 : (e <= 53)%Z). { apply (le_bpow radix2). apply Rle_trans with (bpow radix2 50); [|apply bpow_le; lia]. pose proof (bpow_ge_0 radix2 e). nra. }
  eapply Rle_trans; [apply (coord_err s n k e); [lia|exact Hs|exact E1|exact Hk]|].
  assert (X : bpow radix2 (-53) <= bpow radix2 (e - 53)) by (apply bpow_le; lia).
  assert (Y : bpow radix2 (e - 53) = bpow radix2 e * bpow radix2 (-53)) by (rewrite <- bpow_plus; f_equal; lia).
  assert (Z : bpow radix2 50 * bpow radix2 (-53) = / 8) by (rewrite <- bpow_plus; reflexivity).
  assert (W : bpow radix2 (e - 53) * INR n <= / 8). { rewrite Y, <- Z. rewrite Rmult_assoc, (Rmult_comm _ (INR n)), <- Rmult_assoc. apply Rmult_le_compat_r; [apply bpow_ge_0|exact Hm']. }
  apply Rmult_le_reg_r with (INR n); [exact N0|]. rewrite Rmult_assoc, Rinv_l by lra. rewrite Rmult_plus_distr_r.
  assert (bpow radix2 (-53) * INR n <= bpow radix2 (e - 53) * INR n) by (apply Rmult_le_compat_r; lra). lra.
Qed.
Lemma abs_le a b : Rabs a <= b -> - b <= a <= b. Proof. apply Rabs_le_inv. Qed.
(** In binary64 the stations are ordered by rank number, then by position. *)
Theorem c68_ordered : forall s1 n1 k1 s2 n2 k2, moderate s1 n1 -> moderate s2 n2 -> (k1 < n1)%nat -> (k2 < n2)%nat ->
  ((s1 < s2)%Z -> coord s1 n1 k1 < coord s2 n2 k2) /\ (s1 = s2 -> n1 = n2 -> (k1 < k2)%nat -> coord s1 n1 k1 < coord s2 n2 k2) /\
  (s1 <> s2 -> coord s1 n1 k1 <> coord s2 n2 k2).
Proof.
  assert (Lt : forall s1 n1 k1 s2 n2 k2, moderate s1 n1 -> moderate s2 n2 -> (k1 < n1)%nat -> (k2 < n2)%nat -> (s1 < s2)%Z -> coord s1 n1 k1 < coord s2 n2 k2).
  { intros s1 n1 k1 s2 n2 k2 M1 M2 H1 H2 L. pose proof (abs_le _ _ (coord_close s1 n1 k1 M1 H1)) as C1. destruct (frac_bounds k1 n1 H1) as (A0 & A1 & A2), (frac_bounds k2 n2 H2) as (B0 & B1 & B2).
    assert (Z : IZR s1 + 1 <= IZR s2) by (change 1 with (IZR 1); rewrite <- plus_IZR; apply IZR_le; lia).
    apply Rlt_le_trans with (IZR s2); [lra|]. destruct M2 as [P2 Q2]. assert (S53 : (s2 <= 2 ^ 53)%Z) by nia. unfold coord. rewrite (rn_int s2) by lia. rewrite <- (rn_int s2) at 1 by lia. apply rn_le.
    assert (0 <= rn (INR k2 / INR n2)) by (rewrite <- (rn_int 0) by (cbn; lia); apply rn_le; exact B0). lra. }
  intros s1 n1 k1 s2 n2 k2 M1 M2 H1 H2. split; [intros L; apply Lt; assumption|]. split.
  - intros <- <- L. pose proof (abs_le _ _ (coord_close s1 n1 k1 M1 H1)) as C1. pose proof (abs_le _ _ (coord_close s1 n1 k2 M1 H2)) as C2. destruct (frac_bounds k1 n1 H1) as (A0 & A1 & A2).
    assert (K : INR k1 / INR n1 + / INR n1 <= INR k2 / INR n1). { assert (K : INR k1 + 1 <= INR k2) by (rewrite <- S_INR; apply le_INR; lia). unfold Rdiv. assert (INR k1 * / INR n1 + 1 * / INR n1 <= INR k2 * / INR n1); [|lra]. rewrite <- Rmult_plus_distr_r. apply Rmult_le_compat_r; lra. }
    lra.
  - intros N E. destruct (Z.lt_total s1 s2) as [L|[L|L]]; [|contradiction|].
    + pose proof (Lt _ _ _ _ _ _ M1 M2 H1 H2 L). lra.
    + pose proof (Lt _ _ _ _ _ _ M2 M1 H2 H1 L). lra.
Qed.
Print Assumptions c68_ordered.
Example c68_nonvacuous : moderate 99999 5000 /\ coord 7 4 1 < coord 12 3 0.
Proof. split; [split; cbn; lia|]. apply (proj1 (c68_ordered 7 4 1 12 3 0 ltac:(split; cbn; lia) ltac:(split; cbn; lia) ltac:(lia) ltac:(lia))). lia. Qed.
(** The bound is needed: with rank number 2^53 two stations coincide. *)
Theorem c68_large_collide : coord (2 ^ 53) 2 0 = coord (2 ^ 53) 2 1.
Proof.
  assert (H : forall x, 0 <= x < 1 -> rn (IZR (2 ^ 53) + x) = IZR (2 ^ 53)).
  { intros x Hx. pose proof (rn_le (IZR (2 ^ 53)) (IZR (2 ^ 53) + x) ltac:(lra)) as L. rewrite rn_int in L by lia. apply Rle_antisym; [|exact L].
    assert (G : generic_format radix2 fexp (IZR (2 ^ 53))) by (rewrite <- (rn_int (2 ^ 53)) by lia; apply generic_format_round; typeclasses eauto).
    destruct (round_N_pt radix2 fexp (fun n => negb (Z.even n)) (IZR (2 ^ 53) + x)) as [Gr M]. change (round radix2 fexp ZnearestE (IZR (2 ^ 53) + x)) with (rn (IZR (2 ^ 53) + x)) in *.
    specialize (M _ G). set (r := rn (IZR (2 ^ 53) + x)) in *. destruct (Rle_or_lt r (IZR (2 ^ 53))) as [|C]; [assumption|exfalso].
    assert (S : IZR (2 ^ 53) + ulp radix2 fexp (IZR (2 ^ 53)) <= r) by (pose proof (succ_le_lt radix2 fexp _ _ G Gr C) as S; rewrite succ_eq_pos in S by (apply (IZR_le 0); lia); exact S).
    assert (U : ulp radix2 fexp (IZR (2 ^ 53)) = 2). { change (IZR (2 ^ 53)) with (bpow radix2 53). rewrite ulp_bpow. reflexivity. }
    rewrite U in S. rewrite Rabs_pos_eq in M by lra. replace (IZR (2 ^ 53) - (IZR (2 ^ 53) + x)) with (- x) in M by ring. rewrite Rabs_Ropp, Rabs_pos_eq in M by lra. lra. }
  unfold coord. rewrite rn_int by lia. assert (Z0 : INR 0 / INR 2 = IZR 0) by (cbn; lra). rewrite Z0, rn_int by (cbn; lia).
  assert (Z1 : 0 <= rn (INR 1 / INR 2) < 1).
  { replace (INR 1 / INR 2) with (bpow radix2 (-1)) by (cbn; lra). unfold rn. rewrite round_generic; [cbn; lra|typeclasses eauto|]. apply generic_format_bpow. unfold FLT_exp. lia. }
  rewrite !H by (lra || exact Z1). reflexivity.
Qed.
Print Assumptions c68_large_collide.
