(** When the bootstrap interval of an average contains the average: repeats * (1 - confidence) <= 2. *)
From Coq Require Import ZArith List Lia Bool Arith Permutation Sorted QArith Qcanon.
From Verif Require Import QcTac QSum Num NdArr Numpy M_common NdAxes M_boot M_determ Spec P_boot P_boot2.
Import ListNotations.
Open Scope Qc_scope.

Lemma qsum_le_all b l : (forall x, In x l -> x <= b) -> qsum l <= qn (length l) * b.
Proof. intros H. rewrite <- qsumf_id, <- qsumf_const. apply qsumf_le. exact H. Qed.
Lemma qsum_ge_all b l : (forall x, In x l -> b <= x) -> qn (length l) * b <= qsum l.
Proof. intros H. rewrite <- qsumf_id, <- qsumf_const. apply qsumf_le. exact H. Qed.
Lemma qsort_length l : length (qsort l) = length l.
Proof. symmetry. apply Permutation_length, qsort_perm. Qed.

Lemma qmul0 x y : 0 <= x -> 0 <= y -> 0 <= x * y.
Proof. intros. qnra. Qed.
Lemma qsub0 x y : x <= y -> 0 <= y - x.
Proof. intros. qlra. Qed.
Lemma qadd0 x y : 0 <= y -> x <= x + y.
Proof. intros. qlra. Qed.
Lemma qsub_pos x y : x < y -> 0 < y - x.
Proof. intros. qlra. Qed.
Lemma qmul_pos x y : 0 < x -> 0 < y -> 0 < x * y.
Proof. intros. qnra. Qed.
Lemma qmul_cancel_lt c x y : 0 < c -> c * x < c * y -> x < y.
Proof. intros. qnra. Qed.
Lemma qmul_cancel c x y : 0 < c -> c * x <= c * y -> x <= y.
Proof. intros. qnra. Qed.

(** all but the largest are at most the second largest *)
Lemma sorted_sum_upper s m : qsorted s -> length s = S (S m) -> qsum s <= nth (S m) s 0 + qn (S m) * nth m s 0.
Proof.
  intros Hs Hn. rewrite <- (firstn_skipn (S m) s) at 1. rewrite qsum_app.
  assert (E : skipn (S m) s = [nth (S m) s 0]).
  { clear Hs. revert s Hn. generalize (S m). intros k s. revert k. induction s as [|x r IH]; intros k H; [discriminate|].
    destruct k; cbn [skipn nth]; [destruct r; [reflexivity|discriminate]|]. apply IH. cbn in H. lia. }
  rewrite E. cbn [qsum fold_right].
  assert (A : qsum (firstn (S m) s) <= qn (length (firstn (S m) s)) * nth m s 0).
  { apply qsum_le_all. intros x Hx. apply (In_nth _ _ 0) in Hx as (i & Hi & <-). rewrite firstn_length in Hi.
    assert (Ei : nth i (firstn (S m) s) 0 = nth i s 0).
    { rewrite <- (firstn_skipn (S m) s) at 2. rewrite app_nth1; [reflexivity|rewrite firstn_length; lia]. }
    rewrite Ei. apply qsorted_nth; [exact Hs|lia|lia]. }
  rewrite firstn_length, Hn, Nat.min_l in A by lia. qlra.
Qed.
Lemma sorted_sum_lower s m : qsorted s -> length s = S (S m) -> nth 0 s 0 + qn (S m) * nth 1 s 0 <= qsum s.
Proof.
  intros Hs Hn. destruct s as [|a [|b r]]; try discriminate. cbn [nth]. cbn [length] in Hn.
  change (qsum (a :: b :: r)) with (a + qsum (b :: r)).
  assert (A : qn (length (b :: r)) * b <= qsum (b :: r)).
  { apply qsum_ge_all. intros x Hx. apply (In_nth _ _ 0) in Hx as (i & Hi & <-).
    apply (qsorted_nth (a :: b :: r) 1 (S i)); [exact Hs|lia|cbn [length] in *; lia]. }
  replace (S m) with (length (b :: r)) by (cbn [length] in *; lia). qlra.
Qed.

Lemma frac_small d m : 0 <= d -> qn (S (S m)) * d <= 1 -> 0 <= qn (S m) * d /\ qn (S m) * d < 1.
Proof.
  intros Hd0 HR. rewrite qn_S in HR. pose proof (qn_nonneg (S m)). split; [qnra|].
  destruct (Qc_eq_dec d 0) as [->|N]; [qlra|].
  assert (P : 0 < d) by (apply Qcnot_le_lt; intros C; apply N, Qcle_antisym; assumption).
  rewrite Qcmult_plus_distr_l in HR; qlra.
Qed.
Lemma length_cases {A} (l : list A) : l <> [] -> length l = 1%nat \/ exists m, length l = S (S m).
Proof. destruct l as [|x [|y r]]; [contradiction|left; reflexivity|right; exists (length r); reflexivity]. Qed.

Lemma floor_upper d m : 0 <= qn (S m) * d -> qn (S m) * d < 1 ->
  (qn (S m) * d = 0 /\ qfloor_nat ((1 - d) * qn (S m)) = S m) \/ (0 < qn (S m) * d /\ qfloor_nat ((1 - d) * qn (S m)) = m).
Proof.
  intros F0 F1. replace ((1 - d) * qn (S m)) with (qn (S m) - qn (S m) * d) by ring.
  destruct (Qc_eq_dec (qn (S m) * d) 0) as [Z|NZ].
  - left. split; [exact Z|]. apply qfloor_nat_unique; rewrite Z; qlra.
  - right. assert (PP : 0 < qn (S m) * d) by (apply Qcnot_le_lt; intros C; apply NZ, Qcle_antisym; assumption).
    split; [exact PP|]. revert F1 PP. generalize (qn (S m) * d). intros x F1 PP. rewrite qn_S. apply qfloor_nat_unique; qlra.
Qed.
Lemma bracket_upper l d : l <> [] -> 0 <= d -> qn (length l) * d <= 1 -> qmean l <= qquant l (1 - d).
Proof.
  intros Hl Hd0 HR. unfold qquant. pose proof (qsort_sorted l) as Hs. pose proof (qsort_length l) as Hn.
  assert (Hsum : qsum (qsort l) = qsum l) by (symmetry; apply qsum_perm, qsort_perm).
  pose proof (qmean_sum l Hl) as M. destruct (length_cases l Hl) as [E1|[m E]].
  - rewrite E1 in *. destruct (qsort l) as [|a [|]] eqn:E; try discriminate. unfold interp_sorted. cbn [length Nat.sub].
    rewrite Nat.min_0_r. cbn [nth qsum fold_right] in *.
    assert (F : qfloor_nat ((1 - d) * qn 0) = 0%nat) by (apply qfloor_nat_unique; change (qn 0) with 0; qlra).
    rewrite F. cbn [nth]. change (qn 0) with 0. change (qn 1) with 1 in M.
    replace (a + (a - a) * ((1 - d) * 0 - 0)) with a by ring. qlra.
  - rewrite E in *. destruct (frac_small d m Hd0 HR) as [F0 F1].
    pose proof (sorted_sum_upper _ m Hs Hn) as U. rewrite Hsum, <- M in U.
    unfold interp_sorted. rewrite Hn. cbn [Nat.sub]. rewrite ?Nat.sub_0_r.
    assert (Mono : nth m (qsort l) 0 <= nth (S m) (qsort l) 0) by (apply qsorted_nth; [exact Hs|lia|lia]).
    assert (P1 : 1 <= qn (S m)) by (rewrite qn_S; pose proof (qn_nonneg m); qlra).
    rewrite (qn_S (S m)) in U, HR.
    destruct (floor_upper d m F0 F1) as [[Z F]|[Z F]]; rewrite F.
    + replace (Nat.min (S m + 1) (S m)) with (S m) by lia.
      revert U Mono. generalize (nth m (qsort l) 0) (nth (S m) (qsort l) 0) (qmean l). intros a b q U Mono.
      replace (b + (b - b) * ((1 - d) * qn (S m) - qn (S m))) with b by ring. qnra.
    + replace (Nat.min (m + 1) (S m)) with (S m) by lia. clear F Z F0 F1. rewrite (qn_S m) in *.
      revert U Mono. generalize (nth m (qsort l) 0) (nth (S m) (qsort l) 0) (qmean l). intros a b q U Mono.
      generalize dependent (qn m). intros k HR P1 U.
      assert (X : (1 + (1 + k)) * (a + (b - a) * ((1 - d) * (1 + k) - k)) = b + (1 + k) * a + (b - a) * (1 + k) * (1 - (1 + (1 + k)) * d)) by ring.
      assert (Y : 0 <= (b - a) * (1 + k) * (1 - (1 + (1 + k)) * d)) by (apply qmul0; [apply qmul0; qlra|apply qsub0; exact HR]).
      apply (qmul_cancel (1 + (1 + k))); [qlra|]. rewrite X. eapply Qcle_trans; [exact U|]. apply qadd0, Y.
Qed.
Lemma bracket_lower l d : l <> [] -> 0 <= d -> qn (length l) * d <= 1 -> qquant l d <= qmean l.
Proof.
  intros Hl Hd0 HR. unfold qquant. pose proof (qsort_sorted l) as Hs. pose proof (qsort_length l) as Hn.
  assert (Hsum : qsum (qsort l) = qsum l) by (symmetry; apply qsum_perm, qsort_perm).
  pose proof (qmean_sum l Hl) as M. destruct (length_cases l Hl) as [E1|[m E]].
  - rewrite E1 in *. destruct (qsort l) as [|a [|]] eqn:E; try discriminate. unfold interp_sorted. cbn [length Nat.sub].
    rewrite Nat.min_0_r. cbn [nth qsum fold_right] in *.
    assert (F : qfloor_nat (d * qn 0) = 0%nat) by (apply qfloor_nat_unique; change (qn 0) with 0; qlra).
    rewrite F. cbn [nth]. change (qn 0) with 0. change (qn 1) with 1 in M.
    replace (a + (a - a) * (d * 0 - 0)) with a by ring. qlra.
  - rewrite E in *. destruct (frac_small d m Hd0 HR) as [F0 F1].
    pose proof (sorted_sum_lower _ m Hs Hn) as U. rewrite Hsum, <- M in U.
    unfold interp_sorted. rewrite Hn. cbn [Nat.sub]. rewrite ?Nat.sub_0_r.
    assert (Mono : nth 0 (qsort l) 0 <= nth 1 (qsort l) 0) by (apply qsorted_nth; [exact Hs|lia|lia]).
    assert (P1 : 1 <= qn (S m)) by (rewrite qn_S; pose proof (qn_nonneg m); qlra).
    rewrite (qn_S (S m)) in U, HR.
    assert (F : qfloor_nat (d * qn (S m)) = 0%nat) by (rewrite Qcmult_comm; apply qfloor_nat_unique; change (qn 0) with 0; qlra).
    rewrite F. change (qn 0) with 0. replace (Nat.min (0 + 1) (S m)) with 1%nat by lia.
    revert U Mono. generalize (nth 0 (qsort l) 0) (nth 1 (qsort l) 0) (qmean l). intros a b q U Mono. clear F F0 F1.
    generalize dependent (qn (S m)). intros k HR P1 U.
    assert (X : a + k * b = (1 + k) * (a + (b - a) * (d * k - 0)) + (b - a) * k * (1 - (1 + k) * d)) by ring.
    assert (Y : 0 <= (b - a) * k * (1 - (1 + k) * d)) by (apply qmul0; [apply qmul0; qlra|apply qsub0; exact HR]).
    apply (qmul_cancel (1 + k)); [qlra|]. eapply Qcle_trans; [|exact U]. rewrite X. apply qadd0, Y.
Qed.

(** the converse: one resample out of [R] with mean 1, the others with mean 0 *)
Lemma qins_zero k : qins 0 (repeat 0 k ++ [1]) = repeat 0 (S k) ++ [1].
Proof. destruct k; reflexivity. Qed.
Lemma qsort_outlier k : qsort (1 :: repeat 0 k) = repeat 0 k ++ [1].
Proof.
  cbn [qsort]. assert (E : qsort (repeat 0 k) = repeat 0 k).
  { induction k as [|k IH]; [reflexivity|]. cbn [repeat qsort]. rewrite IH. destruct k; reflexivity. }
  rewrite E. clear E. induction k as [|k IH]; [reflexivity|]. cbn [repeat qins app].
  change (qleb 1 0) with false. cbn iota. rewrite IH. reflexivity.
Qed.
Lemma qmean_outlier k : qmean (1 :: repeat 0 k) = / qn (S k).
Proof.
  unfold qmean. cbn [length]. rewrite repeat_length. change (qsum (1 :: repeat 0 k)) with (1 + qsum (repeat 0 k)).
  assert (E : qsum (repeat 0 k) = 0) by (induction k as [|k IH]; [reflexivity|cbn [repeat]; change (0 + qsum (repeat 0 k) = 0); rewrite IH; ring]).
  rewrite E. unfold Qcdiv. ring.
Qed.
Lemma nth_zeros i k : nth i (repeat 0 k) 0 = 0.
Proof. revert i. induction k; intros [|i]; cbn; auto. Qed.
Lemma outlier_above k d : 0 <= d -> d <= 1 -> 1 < qn (S k) * d -> (0 < k)%nat -> qquant (1 :: repeat 0 k) (1 - d) < qmean (1 :: repeat 0 k).
Proof.
  intros Hd0 Hd1 HR Hk. destruct k as [|m]; [lia|]. clear Hk. rewrite qmean_outlier. unfold qquant. rewrite qsort_outlier.
  unfold interp_sorted. rewrite app_length, repeat_length. cbn [length]. replace (S m + 1 - 1)%nat with (S m) by lia.
  set (h := (1 - d) * qn (S m)). set (lo := qfloor_nat h).
  pose proof (qn_nonneg m) as Hm. pose proof (qn_S m) as E1. pose proof (qn_S (S m)) as E2.
  assert (Pi : 0 < / qn (S (S m))) by (apply Qcinv_pos; qlra).
  assert (Pm : qn (S (S m)) * / qn (S (S m)) = 1) by (apply Qcmult_inv_r; intros C; rewrite C in *; qlra).
  assert (Hh0 : 0 <= h) by (unfold h; rewrite E1; qnra).
  assert (HhR : h < qn (S m)) by (unfold h; assert (0 < d) by (apply Qcnot_le_lt; intros C; rewrite E2, E1 in HR; qnra); rewrite E1; qnra).
  destruct (qfloor_nat_spec h Hh0) as [A B]. fold lo in A, B.
  assert (Hlo : (lo <= m)%nat).
  { assert (X : qn lo < qn (S m)) by qlra. apply qn_lt in X. lia. }
  assert (Ea : nth lo (repeat 0 (S m) ++ [1]) 0 = 0) by (rewrite app_nth1 by (rewrite repeat_length; lia); apply nth_zeros).
  rewrite Ea. destruct (Nat.eq_dec lo m) as [->|N].
  - replace (Nat.min (m + 1) (S m)) with (S m) by lia.
    rewrite app_nth2, repeat_length, Nat.sub_diag by (rewrite repeat_length; lia). cbn [nth].
    unfold h. clear A B Ea Hlo Hh0 HhR h. rewrite E2 in HR, Pi, Pm |- *. rewrite E1 in HR, Pi, Pm |- *. clear E1 E2.
    set (w := / (1 + (1 + qn m))) in *. clearbody w. generalize dependent (qn m). intros k HR Hm Pm.
    replace (0 + (1 - 0) * ((1 - d) * (1 + k) - k)) with (1 - (1 + k) * d) by ring.
    apply (qmul_cancel_lt (1 + (1 + k))); [qlra|]. rewrite Pm.
    replace ((1 + (1 + k)) * (1 - (1 + k) * d)) with (1 - (1 + k) * ((1 + (1 + k)) * d - 1)) by ring.
    assert (X : 0 < (1 + k) * ((1 + (1 + k)) * d - 1)) by (apply qmul_pos; [qlra|apply qsub_pos; exact HR]). qlra.
  - rewrite app_nth1 by (rewrite repeat_length; lia). rewrite nth_zeros.
    replace (0 + (0 - 0) * (h - qn lo)) with 0 by ring. exact Pi.
Qed.

(** boot_vec over one-element resamples *)
Definition one_outlier (r _ : nat) : nat := match r with O => 1%nat | _ => 0%nat end.
Lemma boot_means_outlier e : (0 < repeats e)%nat ->
  boot_means e one_outlier [Fin 0; Fin 1] 1 = Ok (map Fin (1 :: repeat 0 (repeats e - 1))).
Proof.
  intros HR. unfold boot_means. destruct (repeats e) as [|k]; [lia|]. cbn [seq]. replace (S k - 1)%nat with k by lia.
  assert (E : forall n s, mapM (fun r => s <- choice (one_outlier r) [Fin 0; Fin 1] 1 ;; Ok (if skip_nan e then nanmean s else nmean s)) (seq (S s) n) = Ok (map Fin (repeat 0 n))).
  { induction n as [|n IH]; intros s; [reflexivity|]. cbn [seq mapM]. cbn [one_outlier]. 
    match goal with |- context [choice ?f ?p ?c] => change (choice f p c) with (Ok [Fin 0]) end.
    cbn [bind]. rewrite IH. cbn [bind repeat map]. destruct (skip_nan e); reflexivity. }
  cbn [mapM]. match goal with |- context [choice ?f ?p ?c] => change (choice f p c) with (Ok [Fin 1]) end.
  cbn [bind]. rewrite E. cbn [bind map]. destruct (skip_nan e); reflexivity.
Qed.

(** every triple of numbers boot_vec returns has its mean between the bounds *)
Definition brackets (e : boot_env) : Prop := forall rng pop n lo m hi,
  boot_vec e rng pop n = Ok [Fin lo; Fin m; Fin hi] -> lo <= m /\ m <= hi.
Lemma nsum_fin_inv l q : nsum l = Fin q -> exists xs, l = map Fin xs.
Proof.
  revert q. induction l as [|x r IH]; intros q H; [exists []; reflexivity|].
  change (nadd x (nsum r) = Fin q) in H. destruct x as [a| | |]; destruct (nsum r) as [b| | |] eqn:E; try discriminate.
  destruct (IH b eq_refl) as [xs ->]. exists (a :: xs). reflexivity.
Qed.
Lemma nmean_fin_inv l q : nmean l = Fin q -> exists xs, l = map Fin xs /\ xs <> [] /\ q = qmean xs.
Proof.
  intros H. assert (E : exists xs, l = map Fin xs).
  { unfold nmean in H. destruct (nsum l) as [s| | |] eqn:E; [exact (nsum_fin_inv _ _ E)| | |]; exfalso; revert H;
    unfold nnat, ndiv; unfold inf_sign; repeat match goal with |- context [if ?b then _ else _] => destruct b end; intro Hx; discriminate Hx. }
  destruct E as [xs ->]. destruct xs as [|a xs]; [discriminate H|]. rewrite nmean_fin in H by discriminate.
  injection H as <-. exists (a :: xs). repeat split. discriminate.
Qed.
Lemma two_is : qz 2 = 1 + 1. Proof. apply Qc_is_canon. reflexivity. Qed.
Lemma boot_brackets e : 0 <= confidence e -> confidence e <= 1 -> qn (repeats e) * (1 - confidence e) <= qz 2 -> brackets e.
Proof.
  intros H0 H1 HR rng pop n lo m hi H. unfold boot_vec in H.
  destruct (boot_means e rng pop n) as [means|] eqn:Em; [|discriminate]. cbn [bind] in H.
  destruct (np_quantile means ((1 - confidence e) / qz 2)) as [l|] eqn:El; [|discriminate].
  destruct (np_quantile means (1 - (1 - confidence e) / qz 2)) as [h|] eqn:Eh; [|discriminate].
  cbn [bind] in H. injection H as -> Hm ->.
  destruct (nmean_fin_inv _ _ Hm) as (xs & -> & Hx & ->).
  assert (L : length xs = repeats e).
  { unfold boot_means in Em. apply mapM_length in Em. rewrite map_length, seq_length in Em. exact Em. }
  set (d := (1 - confidence e) / qz 2) in *.
  assert (Ed : d * qz 2 = 1 - confidence e) by (unfold d; field; discriminate).
  rewrite two_is in Ed. assert (Ed' : d + d = 1 - confidence e) by (rewrite <- Ed; ring).
  assert (D0 : 0 <= d) by (clear - Ed' H1; qlra). assert (D1 : d <= 1) by (clear - Ed' H0; qlra).
  rewrite np_quantile_fin in El, Eh by (try assumption; qlra). injection El as <-. injection Eh as <-.
  assert (HR' : qn (length xs) * d <= 1).
  { rewrite L. rewrite <- Ed, two_is in HR. apply (qmul_cancel (1 + 1)); [reflexivity|].
    replace ((1 + 1) * (qn (repeats e) * d)) with (qn (repeats e) * (d * (1 + 1))) by ring. rewrite Qcmult_1_r. exact HR. }
  split; [apply bracket_lower|apply bracket_upper]; assumption.
Qed.
Lemma boot_not_brackets e : 0 <= confidence e -> confidence e <= 1 -> qz 2 < qn (repeats e) * (1 - confidence e) -> 
  exists lo m hi, boot_vec e one_outlier [Fin 0; Fin 1] 1 = Ok [Fin lo; Fin m; Fin hi] /\ hi < m.
Proof.
  intros H0 H1 HR. set (d := (1 - confidence e) / qz 2).
  assert (Ed : d * (1 + 1) = 1 - confidence e) by (unfold d; rewrite two_is; field; discriminate).
  assert (Ed' : d + d = 1 - confidence e) by (rewrite <- Ed; ring).
  assert (D0 : 0 <= d) by (clear - Ed' H1; qlra). assert (D1 : d <= 1) by (clear - Ed' H0; qlra).
  assert (HR' : 1 < qn (repeats e) * d).
  { apply (qmul_cancel_lt (1 + 1)); [reflexivity|].
    replace ((1 + 1) * (qn (repeats e) * d)) with (qn (repeats e) * (d * (1 + 1))) by ring. rewrite Qcmult_1_r, Ed, <- two_is. exact HR. }
  assert (R1 : (1 < repeats e)%nat).
  { apply qn_lt. change (qn 1) with 1. pose proof (qn_nonneg (repeats e)). qnra. }
  unfold boot_vec. rewrite boot_means_outlier by lia. cbn [bind]. fold d.
  set (xs := 1 :: repeat 0 (repeats e - 1)). assert (X : xs <> []) by discriminate.
  rewrite !np_quantile_fin by (try assumption; qlra). cbn [bind]. rewrite nmean_fin by exact X.
  do 3 eexists. split; [reflexivity|]. apply outlier_above; try assumption; [|lia].
  replace (S (repeats e - 1)) with (repeats e) by lia. exact HR'.
Qed.
