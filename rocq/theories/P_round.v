(** Lemmas on rounding. *)
From Coq Require Import ZArith Reals List Bool Lra Lia Psatz.
From Flocq Require Import Core Relative.
From Verif Require Import M_float M_round Props_float.
Import ListNotations.
Open Scope R_scope.

Local Instance prec53 : Prec_gt_0 53. Proof. reflexivity. Qed.
Lemma rn_0 : rn 0 = 0.
Proof. apply round_0. typeclasses eauto. Qed.
Lemma rn_1 : rn 1 = 1.
Proof. apply (rn_int 1). cbn. lia. Qed.
Lemma rn_nonneg x : 0 <= x -> 0 <= rn x.
Proof. intros H. rewrite <- rn_0. apply rn_le. exact H. Qed.
Lemma rn_le_1 x : x <= 1 -> rn x <= 1.
Proof. intros H. rewrite <- rn_1. apply rn_le. exact H. Qed.
Lemma rn_opp x : rn (- x) = - rn x.
Proof. apply round_NE_opp. Qed.
Lemma rn_abs x : Rabs (rn x) = rn (Rabs x).
Proof. symmetry. apply round_NE_abs; typeclasses eauto. Qed.
(** relative error *)
Lemma rn_rel x : bpow radix2 (-1022) <= Rabs x -> Rabs (rn x - x) <= bpow radix2 (-53) * Rabs x.
Proof.
  intros H. pose proof (relative_error_N_FLT radix2 (-1074) 53 ltac:(lia) (fun z => negb (Z.even z)) x H) as R.
  replace (bpow radix2 (-53)) with (/ 2 * bpow radix2 (- (53) + 1)); [exact R|]. cbn. lra.
Qed.
(** error in general: relative, or less than the smallest numbers *)
Lemma rn_any x : Rabs (rn x - x) <= bpow radix2 (-53) * Rabs x + bpow radix2 (-1075).
Proof.
  destruct (Rle_or_lt (bpow radix2 (-1022)) (Rabs x)) as [H|H].
  - pose proof (rn_rel x H). pose proof (bpow_ge_0 radix2 (-1075)). lra.
  - eapply Rle_trans; [apply error_le_half_ulp; typeclasses eauto|].
    assert (U : ulp radix2 fexp x <= bpow radix2 (-1074)).
    { rewrite <- ulp_abs. eapply Rle_trans; [apply ulp_le_pos; [typeclasses eauto|typeclasses eauto|apply Rabs_pos|apply Rlt_le, H]|]. rewrite ulp_bpow. apply bpow_le. unfold FLT_exp. lia. }
    assert (E : / 2 * bpow radix2 (-1074) = bpow radix2 (-1075)). { change (/ 2) with (bpow radix2 (-1)). rewrite <- bpow_plus. reflexivity. }
    pose proof (bpow_ge_0 radix2 (-53)). pose proof (Rabs_pos x). assert (0 <= bpow radix2 (-53) * Rabs x) by (apply Rmult_le_pos; assumption). lra.
Qed.

(** ** Rounding of fractions by calculation *)
Definition near_ok (p q k m : Z) : bool :=
  ((0 <? q) && (0 <=? k) && (k <=? 1074) && (2 ^ 52 * q <=? p * 2 ^ k) && (p * 2 ^ k <? 2 ^ 53 * q) &&
   ((2 * Z.abs (p * 2 ^ k - m * q) <? q) || ((2 * Z.abs (p * 2 ^ k - m * q) =? q) && Z.even m)))%Z.
Lemma bpow_neg k : (0 <= k)%Z -> bpow radix2 (- k) = / IZR (2 ^ k).
Proof. intros H. rewrite bpow_opp. f_equal. rewrite (IZR_Zpower radix2) by exact H. reflexivity. Qed.
Lemma pow2_pos k : (0 <= k)%Z -> 0 < IZR (2 ^ k).
Proof. intros H. apply (IZR_lt 0). apply Z.pow_pos_nonneg; lia. Qed.
Lemma near_rn p q k m : near_ok p q k m = true -> rn (IZR p / IZR q) = IZR m / IZR (2 ^ k).
Proof.
  unfold near_ok. rewrite !andb_true_iff, orb_true_iff, andb_true_iff, !Z.leb_le, !Z.ltb_lt, Z.eqb_eq. intros (((((Hq & Hk0) & Hk) & Hl) & Hu) & Hn).
  assert (Q : 0 < IZR q) by (apply (IZR_lt 0); exact Hq). pose proof (pow2_pos k Hk0) as T.
  set (x := IZR p / IZR q). assert (X : x * IZR (2 ^ k) = IZR (p * 2 ^ k) / IZR q) by (unfold x; rewrite mult_IZR; field; lra).
  assert (Hl' : IZR (2 ^ 52) <= x * IZR (2 ^ k)). { rewrite X. apply Rmult_le_reg_r with (IZR q); [exact Q|]. unfold Rdiv. rewrite Rmult_assoc, Rinv_l, Rmult_1_r, <- mult_IZR by lra. apply IZR_le. exact Hl. }
  assert (Hu' : x * IZR (2 ^ k) < IZR (2 ^ 53)). { rewrite X. apply Rmult_lt_reg_r with (IZR q); [exact Q|]. unfold Rdiv. rewrite Rmult_assoc, Rinv_l, Rmult_1_r, <- mult_IZR by lra. apply IZR_lt. exact Hu. }
  assert (Mg : mag_val _ _ (mag radix2 x) = (53 - k)%Z).
  { apply mag_unique_pos. replace (53 - k - 1)%Z with (52 + - k)%Z by lia. replace (53 - k)%Z with (53 + - k)%Z by lia. rewrite !bpow_plus, bpow_neg by exact Hk0.
    change (bpow radix2 52) with (IZR (2 ^ 52)). change (bpow radix2 53) with (IZR (2 ^ 53)). split.
    - apply Rmult_le_reg_r with (IZR (2 ^ k)); [exact T|]. rewrite Rmult_assoc, Rinv_l, Rmult_1_r by lra. exact Hl'.
    - apply Rmult_lt_reg_r with (IZR (2 ^ k)); [exact T|]. rewrite Rmult_assoc, Rinv_l, Rmult_1_r by lra. exact Hu'. }
  assert (Ce : cexp radix2 fexp x = (- k)%Z) by (unfold cexp; rewrite Mg; unfold FLT_exp; lia).
  unfold rn, round, scaled_mantissa, F2R. cbn [Fnum Fexp]. rewrite Ce. rewrite Z.opp_involutive. rewrite bpow_neg by exact Hk0.
  assert (Bk : bpow radix2 k = IZR (2 ^ k)) by (rewrite (IZR_Zpower radix2) by exact Hk0; reflexivity). rewrite Bk.
  assert (Zn : ZnearestE (x * IZR (2 ^ k)) = m); [|rewrite Zn; reflexivity].
  assert (Dist : x * IZR (2 ^ k) - IZR m = IZR (p * 2 ^ k - m * q) / IZR q) by (rewrite X, minus_IZR, (mult_IZR m); field; lra).
  destruct Hn as [Hn|[Hn He]].
  - apply Znearest_imp. rewrite Dist. unfold Rdiv. rewrite Rabs_mult, (Rabs_pos_eq (/ IZR q)) by (apply Rlt_le, Rinv_0_lt_compat, Q).
    rewrite <- abs_IZR. apply Rmult_lt_reg_r with (2 * IZR q); [lra|]. replace (IZR (Z.abs (p * 2 ^ k - m * q)) * / IZR q * (2 * IZR q)) with (2 * IZR (Z.abs (p * 2 ^ k - m * q))) by (field; lra).
    replace (/ 2 * (2 * IZR q)) with (IZR q) by field. change 2 with (IZR 2). rewrite <- mult_IZR. apply IZR_lt. exact Hn.
  - (* a tie *)
    assert (A : Rabs (x * IZR (2 ^ k) - IZR m) = / 2).
    { rewrite Dist. unfold Rdiv. rewrite Rabs_mult, (Rabs_pos_eq (/ IZR q)) by (apply Rlt_le, Rinv_0_lt_compat, Q). rewrite <- abs_IZR.
      assert (E : 2 * IZR (Z.abs (p * 2 ^ k - m * q)) = IZR q) by (change 2 with (IZR 2); rewrite <- mult_IZR, Hn; reflexivity). rewrite <- E. assert (0 < IZR (Z.abs (p * 2 ^ k - m * q))) by lra. field. lra. }
    set (y := x * IZR (2 ^ k)) in *. unfold Znearest.
    assert (C : (y = IZR m + / 2) \/ (y = IZR m - / 2)). { unfold Rabs in A. destruct (Rcase_abs _); [right|left]; lra. }
    destruct C as [C|C].
    + assert (F : Zfloor y = m) by (apply Zfloor_imp; rewrite plus_IZR; lra). rewrite F. replace (y - IZR m) with (/ 2) by lra. rewrite Rcompare_Eq by reflexivity. rewrite He. reflexivity.
    + assert (F : Zfloor y = (m - 1)%Z) by (apply Zfloor_imp; rewrite plus_IZR, minus_IZR; lra). rewrite F. replace (y - IZR (m - 1)) with (/ 2) by (rewrite minus_IZR; lra). rewrite Rcompare_Eq by reflexivity.
      assert (O : Z.even (m - 1) = false) by (rewrite Z.even_sub, He; reflexivity). rewrite O. cbn [negb]. rewrite (Zceil_floor_neq y) by (rewrite F, minus_IZR; lra). rewrite F. lia.
Qed.
(** the rounded fraction, found by trying the two possible exponents *)
Definition round_div (a b : Z) : Z :=
  (let q := a / b in let r := a - q * b in if (2 * r <? b) || ((2 * r =? b) && Z.even q) then q else q + 1)%Z.
Definition rq (p q : Z) : option (Z * Z) :=
  let k0 := (52 + Z.log2 q - Z.log2 p)%Z in
  let try k := let m := round_div (p * 2 ^ k) q in if near_ok p q k m then Some (m, (2 ^ k)%Z) else None in
  match try k0 with Some r => Some r | None => try (k0 + 1)%Z end.
Lemma rq_rn p q a b : rq p q = Some (a, b) -> (0 < b)%Z /\ rn (IZR p / IZR q) = IZR a / IZR b.
Proof.
  unfold rq. intros H.
  assert (G : forall k, (if near_ok p q k (round_div (p * 2 ^ k) q) then Some (round_div (p * 2 ^ k) q, (2 ^ k)%Z) else None) = Some (a, b) -> (0 < b)%Z /\ rn (IZR p / IZR q) = IZR a / IZR b).
  { intros k. destruct (near_ok p q k (round_div (p * 2 ^ k) q)) eqn:E; intros K; [|discriminate K]. injection K as <- <-. split; [|apply near_rn, E].
    unfold near_ok in E. rewrite !andb_true_iff, !Z.leb_le in E. apply Z.pow_pos_nonneg; lia. }
  cbv zeta in H. destruct (near_ok p q (52 + Z.log2 q - Z.log2 p) _) eqn:E0; [apply (G (52 + Z.log2 q - Z.log2 p)%Z); rewrite E0; exact H|apply (G _ H)].
Qed.
Ltac rnd := match goal with |- context [rn (IZR ?p / IZR ?q)] => let r := eval vm_compute in (rq p q) in
  match r with Some (?a, ?b) => rewrite (proj2 (rq_rn p q a b ltac:(vm_compute; reflexivity))) end end.
