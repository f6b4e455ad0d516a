(** Properties C96 and C97: the bins of ensemble probabilities in double precision. *)
From Coq Require Import ZArith Reals List Bool Lra Lia Psatz.
From Flocq Require Import Core.
From Verif Require Import M_float M_round Props_float P_round Props_fsum.
Import ListNotations.
Open Scope R_scope.

(** ** Counting edges *)
Lemma filter_len_upto (f : nat -> bool) s m c : (c <= m)%nat -> (forall j, (s <= j < s + m)%nat -> f j = true <-> (j < s + c)%nat) -> length (filter f (seq s m)) = c.
Proof.
  revert s c. induction m as [|m IH]; intros s c L H; [cbn; lia|]. cbn [seq filter].
  destruct (f s) eqn:E.
  - assert (s < s + c)%nat by (apply H; [lia|exact E]). cbn [length]. rewrite (IH (S s) (c - 1)%nat); [lia|lia|]. intros j J. rewrite H by lia. lia.
  - assert (C : c = 0%nat). { destruct c; [reflexivity|]. assert (T : f s = true) by (apply H; lia). rewrite T in E. discriminate E. } subst c.
    apply IH; [lia|]. intros j J. rewrite H by lia. lia.
Qed.
Lemma filter_map_len {A B} (g : A -> B) (f : B -> bool) l : length (filter f (map g l)) = length (filter (fun x => f (g x)) l).
Proof. induction l as [|x r IH]; [reflexivity|]. cbn [map filter]. destruct (f (g x)); cbn [length]; rewrite IH; reflexivity. Qed.

(** ** Errors *)
Lemma rn_rel_pos x : bpow radix2 (-1022) <= x -> x * (1 - unit) <= rn x <= x * (1 + unit).
Proof.
  intros H. assert (P : 0 < x) by (pose proof (bpow_gt_0 radix2 (-1022)); lra). pose proof (rn_rel x) as E. rewrite Rabs_pos_eq in E by lra. specialize (E H). apply Rabs_le_inv in E. fold unit in E. lra.
Qed.
Lemma tiny x : / 1000000000000000000000000000000 <= x -> bpow radix2 (-1022) <= x.
Proof.
  intros H. eapply Rle_trans; [|exact H]. apply Rle_trans with (bpow radix2 (-100)); [apply bpow_le; lia|]. change (bpow radix2 (-100)) with (/ IZR (2 ^ 100)). assert (A : 0 < 1000000000000000000000000000000) by (apply (IZR_lt 0); vm_compute; reflexivity).
  assert (B : 1000000000000000000000000000000 <= IZR (2 ^ 100)) by (apply IZR_le, Z.leb_le; vm_compute; reflexivity).
  apply Rinv_le_contravar; [exact A|exact B].
Qed.
Lemma unit_val : unit = / 9007199254740992. Proof. reflexivity. Qed.
(** the ensemble probability and its exact value, [k] or [n - k] members of [n] *)
Definition fl_prob (over : bool) (k n : nat) : R := if over then fl_over k n else fl_below k n.
Definition counted (over : bool) (k n : nat) : nat := if over then (n - k)%nat else k.
Lemma prob_error over k n : (0 < n)%nat -> (k <= n)%nat -> (Z.of_nat n <= 10 ^ 9)%Z -> Rabs (fl_prob over k n - INR (counted over k n) / INR n) <= 2 * unit.
Proof.
  intros P K N. assert (PR : 0 < INR n) by (apply lt_0_INR, P).
  assert (B : 0 <= INR k / INR n <= 1).
  { split; [apply Rmult_le_pos; [apply pos_INR|apply Rlt_le, Rinv_0_lt_compat, PR]|]. apply Rmult_le_reg_r with (INR n); [exact PR|]. unfold Rdiv. rewrite Rmult_assoc, Rinv_l, Rmult_1_l, Rmult_1_r by lra. apply le_INR, K. }
  pose proof (rn_err (INR k / INR n) 0 ltac:(lia) ltac:(change (bpow radix2 0) with 1; lra)) as E. change (bpow radix2 (0 - 53)) with unit in E. pose proof unit_pos.
  destruct over; cbn [fl_prob counted]; [|unfold fl_below; lra].
  assert (S : small_count n) by (unfold small_count; lia). destruct (c94_probability k n P K S) as (R1 & _).
  pose proof (rn_err (1 - fl_below k n) 0 ltac:(lia) ltac:(change (bpow radix2 0) with 1; lra)) as E2. change (bpow radix2 (0 - 53)) with unit in E2. fold (fl_over k n) in E2.
  rewrite minus_INR by exact K. replace ((INR n - INR k) / INR n) with (1 - INR k / INR n) by (field; lra).
  replace (fl_over k n - (1 - INR k / INR n)) with ((fl_over k n - (1 - fl_below k n)) - (fl_below k n - INR k / INR n)) by ring. fold (fl_below k n) in E.
  eapply Rle_trans; [apply Rabs_triang|]. rewrite Rabs_Ropp. lra.
Qed.
(** different fractions *)
Lemma frac_gap a n b m : (0 < n)%nat -> (0 < m)%nat -> (a * m < b * n)%nat -> INR a / INR n + / (INR n * INR m) <= INR b / INR m.
Proof.
  intros N M H. assert (PN : 0 < INR n) by (apply lt_0_INR, N). assert (PM : 0 < INR m) by (apply lt_0_INR, M).
  assert (G : INR a * INR m + 1 <= INR b * INR n). { rewrite <- !mult_INR, <- S_INR. apply le_INR. lia. }
  apply Rmult_le_reg_r with (INR n * INR m); [nra|]. rewrite Rmult_plus_distr_r, Rinv_l by nra. replace (INR a / INR n * (INR n * INR m)) with (INR a * INR m) by (field; lra). replace (INR b / INR m * (INR n * INR m)) with (INR b * INR n) by (field; lra). exact G.
Qed.
Lemma frac_le a n b m : (0 < n)%nat -> (0 < m)%nat -> (a * m <= b * n)%nat -> INR a / INR n <= INR b / INR m.
Proof.
  intros N M H. assert (PN : 0 < INR n) by (apply lt_0_INR, N). assert (PM : 0 < INR m) by (apply lt_0_INR, M).
  apply Rmult_le_reg_r with (INR n * INR m); [nra|]. replace (INR a / INR n * (INR n * INR m)) with (INR a * INR m) by (field; lra). replace (INR b / INR m * (INR n * INR m)) with (INR b * INR n) by (field; lra). rewrite <- !mult_INR. apply le_INR, H.
Qed.

(** ** Reliability diagram *)
(** Bin [i] of [nbins] holds the probabilities above i/nbins up to (i+1)/nbins, the first one also zero. *)
Definition right_closed (nbins c n i : nat) : Prop := (i < nbins)%nat /\ (i * n < c * nbins \/ c = 0 /\ i = 0)%nat /\ (c * nbins <= (i + 1) * n)%nat.
Lemma top_is : fl_top = IZR 4503599672406492 / IZR 4503599627370496.
Proof. unfold fl_top. rnd. replace (1 + IZR 6044629098073146 / IZR 604462909807314587353088) with (IZR 1 / IZR 1 + IZR 6044629098073146 / IZR 604462909807314587353088) by lra. rewrite fr_plus by reflexivity. rnd. reflexivity. Qed.
Lemma top_val : 1 + 9 / 1000000000 <= fl_top <= 1 + 11 / 1000000000.
Proof. rewrite top_is. lra. Qed.
Lemma rel_edge nbins j : (0 < j < nbins)%nat -> (Z.of_nat nbins <= 10 ^ 6)%Z ->
  INR j / INR nbins * (1 + 8 / 1000000000) <= rn (INR j * rn (fl_top / INR nbins)) <= INR j / INR nbins * (1 + 12 / 1000000000).
Proof.
  intros J N. destruct top_val as [T1 T2]. assert (PN : 1 <= INR nbins) by (apply (le_INR 1); lia). assert (PJ : 1 <= INR j) by (apply (le_INR 1); lia).
  assert (UN : INR nbins <= 1000000) by (rewrite INR_IZR_INZ; apply IZR_le; exact N).
  assert (I1 : / 1000000 <= / INR nbins) by (apply Rinv_le_contravar; lra). assert (I2 : 0 < / INR nbins) by (apply Rinv_0_lt_compat; lra).
  set (s := fl_top / INR nbins). assert (S0 : / INR nbins <= s). { unfold s, Rdiv. rewrite <- (Rmult_1_l (/ INR nbins)) at 1. apply Rmult_le_compat_r; [lra|]. lra. }
  pose proof (rn_rel_pos s ltac:(apply tiny; lra)) as [A1 A2]. rewrite unit_val in A1, A2.
  assert (S1 : 0 < s) by lra. assert (St : / INR nbins * / 2 <= rn s). { apply Rle_trans with (s * (1 - / 9007199254740992)); [|exact A1]. nra. }
  set (y := INR j * rn s). assert (Y0 : / INR nbins * / 2 <= y) by (unfold y; nra).
  pose proof (rn_rel_pos y ltac:(apply tiny; lra)) as [B1 B2]. rewrite unit_val in B1, B2.
  set (r := INR j / INR nbins). assert (R0 : 0 < r) by (unfold r; apply Rmult_lt_0_compat; lra).
  assert (Es : INR j * s = r * fl_top) by (unfold r, s; field; lra).
  assert (Y1 : r * fl_top * (1 - / 9007199254740992) <= y <= r * fl_top * (1 + / 9007199254740992)) by (unfold y; rewrite <- Es; split; nra).
  split.
  - apply Rle_trans with (y * (1 - / 9007199254740992)); [|exact B1]. apply Rle_trans with (r * fl_top * (1 - / 9007199254740992) * (1 - / 9007199254740992)); [|apply Rmult_le_compat_r; lra].
    rewrite !Rmult_assoc. apply Rmult_le_compat_l; [lra|]. apply Rle_trans with ((1 + 9 / 1000000000) * ((1 - / 9007199254740992) * (1 - / 9007199254740992))); [lra|]. apply Rmult_le_compat_r; [nra|exact T1].
  - apply Rle_trans with (y * (1 + / 9007199254740992)); [exact B2|]. apply Rle_trans with (r * fl_top * (1 + / 9007199254740992) * (1 + / 9007199254740992)); [apply Rmult_le_compat_r; lra|].
    rewrite !Rmult_assoc. apply Rmult_le_compat_l; [lra|]. apply Rle_trans with ((1 + 11 / 1000000000) * ((1 + / 9007199254740992) * (1 + / 9007199254740992))); [apply Rmult_le_compat_r; [nra|exact T2]|lra].
Qed.
Lemma Rle_bool_iff x y : Rle_bool x y = true <-> x <= y.
Proof. destruct (Rle_bool_spec x y); split; intros; try assumption; try reflexivity; try discriminate; lra. Qed.
(** The bin of the reliability diagram in double precision is the one of exact arithmetic with bins closed on the right, for
    all members and bins with n * nbins <= 10^6. *)
Theorem c96_reliability_bins : forall over k n nbins, (0 < n)%nat -> (0 < nbins)%nat -> (k <= n)%nat -> (Z.of_nat n * Z.of_nat nbins <= 10 ^ 6)%Z ->
  exists i, fl_rel_bin nbins (fl_prob over k n) = Z.of_nat i /\ right_closed nbins (counted over k n) n i.
Proof.
  intros over k n nbins P NB K NN. set (c := counted over k n). assert (Cn : (c <= n)%nat) by (unfold c; destruct over; cbn [counted]; lia).
  set (p := fl_prob over k n). assert (Hn : (Z.of_nat n <= 10 ^ 6)%Z) by nia. assert (Hb : (Z.of_nat nbins <= 10 ^ 6)%Z) by nia.
  pose proof (prob_error over k n P K ltac:(lia)) as E. fold c p in E. apply Rabs_le_inv in E. rewrite unit_val in E.
  assert (PN : 0 < INR n) by (apply lt_0_INR, P). assert (PB : 0 < INR nbins) by (apply lt_0_INR, NB).
  assert (Gap : / 1000000 <= / (INR n * INR nbins)). { apply Rinv_le_contravar; [nra|]. rewrite !INR_IZR_INZ, <- mult_IZR. apply IZR_le. exact NN. }
  assert (Small : / 1000000 <= / INR nbins). { apply Rinv_le_contravar; [lra|]. rewrite INR_IZR_INZ. apply IZR_le. exact Hb. }
  assert (P01 : 0 <= p <= 1). { assert (S : small_count n) by (unfold small_count; lia). destruct (c94_probability k n P K S) as (A & B & _). unfold p. destruct over; assumption. }
  set (i := if Nat.eqb c 0 then 0%nat else ((c * nbins - 1) / n)%nat).
  assert (I : right_closed nbins c n i).
  { unfold right_closed, i. destruct (Nat.eqb_spec c 0) as [->|C]; [lia|]. pose proof (Nat.div_mod (c * nbins - 1) n ltac:(lia)) as D. pose proof (Nat.mod_upper_bound (c * nbins - 1) n ltac:(lia)) as M. set (q := ((c * nbins - 1) / n)%nat) in *. nia. }
  exists i. split; [|exact I]. destruct I as (I1 & I2 & I3).
  assert (Cnt : fl_digitize p (fl_linspace0 fl_top (nbins + 1)) = S i); [|unfold fl_rel_bin; rewrite Cnt; lia].
  unfold fl_digitize, fl_linspace0. replace (nbins + 1 - 1)%nat with nbins by lia. rewrite filter_map_len. apply filter_len_upto; [lia|]. intros j J. rewrite Rle_bool_iff. destruct (Nat.eqb_spec j nbins) as [->|Jn].
  { destruct top_val as [T _]. split; [intros L; lra|lia]. }
  destruct (Nat.eq_dec j 0) as [->|J0]. { cbn [INR]. rewrite Rmult_0_l, rn_0. split; [lia|lra]. }
  destruct (rel_edge nbins j ltac:(lia) Hb) as [A1 A2]. set (e := rn _) in *. set (r := INR j / INR nbins) in *.
  assert (R1 : / INR nbins <= r). { unfold r, Rdiv. rewrite <- (Rmult_1_l (/ INR nbins)) at 1. apply Rmult_le_compat_r; [apply Rlt_le, Rinv_0_lt_compat, PB|]. apply (le_INR 1). lia. }
  assert (R2 : r <= 1). { unfold r. apply Rmult_le_reg_r with (INR nbins); [exact PB|]. unfold Rdiv. rewrite Rmult_assoc, Rinv_l, Rmult_1_l, Rmult_1_r by lra. apply le_INR. lia. }
  destruct (Nat.lt_ge_cases (j * n) (c * nbins)) as [L|L].
  - pose proof (frac_gap j nbins c n ltac:(lia) P L) as G. fold r in G. rewrite (Rmult_comm (INR nbins)) in G. split; [intros _; nia|intros _]. lra.
  - pose proof (frac_le c n j nbins P ltac:(lia) L) as G. fold r in G. split; [intros L'; lra|intros L'; exfalso]. destruct I2 as [I2|[-> I2]]; nia.
Qed.
Print Assumptions c96_reliability_bins.
(** The description determines the bin. *)
Lemma right_closed_unique nbins c n i j : (0 < n)%nat -> right_closed nbins c n i -> right_closed nbins c n j -> i = j.
Proof. unfold right_closed. intros N (A & B & C) (D & E & F). destruct B as [B|[-> ->]], E as [E|[E1 E2]]; subst; nia. Qed.
(** Four of twenty members are three fifteenths, the upper end of the third bin; all members are in the last bin. *)
Example c96_case : fl_rel_bin 15 (fl_prob false 4 20) = 2%Z /\ fl_rel_bin 15 (fl_prob true 16 20) = 2%Z /\ fl_rel_bin 15 (fl_prob false 20 20) = 14%Z.
Proof.
  assert (G : forall over k i, (k <= 20)%nat -> right_closed 15 (counted over k 20) 20 i -> fl_rel_bin 15 (fl_prob over k 20) = Z.of_nat i).
  { intros over k i K H. destruct (c96_reliability_bins over k 20 15 ltac:(lia) ltac:(lia) K ltac:(cbn; lia)) as (j & E & R). rewrite E. f_equal. apply (right_closed_unique 15 (counted over k 20) 20); [lia|exact R|exact H]. }
  split; [|split]; [apply (G false 4%nat 2%nat)|apply (G true 16%nat 2%nat)|apply (G false 20%nat 14%nat)]; try lia; unfold right_closed; cbn [counted]; lia.
Qed.

(** ** Brier decomposition *)
Lemma decomp_bin_eq p : fl_decomp_bin p = length (filter (fun j => Rle_bool (rn (INR j * rn (1 / INR 20))) p) (seq 1 19)).
Proof.
  unfold fl_decomp_bin, fl_digitize. replace (firstn 19 (tl (fl_linspace0 1 21))) with (map (fun j => rn (INR j * rn (1 / INR 20))) (seq 1 19)); [apply filter_map_len|].
  unfold fl_linspace0. cbn [Nat.sub]. set (s := rn (1 / INR 20)). cbn [seq map tl firstn Nat.eqb]. reflexivity.
Qed.
Lemma decomp_edge j : (0 < j < 20)%nat -> Rabs (rn (INR j * rn (1 / INR 20)) - INR j / 20) <= 4 * unit.
Proof.
  intros J. replace (INR 20) with 20 by (cbn; lra). assert (J1 : 1 <= INR j) by (apply (le_INR 1); lia). assert (J2 : INR j <= 19) by (replace 19 with (INR 19) by (cbn; lra); apply le_INR; lia).
  destruct (rn_rel_pos (1 / 20) ltac:(apply tiny; lra)) as [A1 A2]. rewrite unit_val in *. set (s := rn (1 / 20)) in *.
  destruct (rn_rel_pos (INR j * s) ltac:(apply tiny; nra)) as [B1 B2]. rewrite unit_val in *. set (e := rn (INR j * s)) in *.
  assert (C1 : INR j * (1 / 20 * (1 - / 9007199254740992)) <= INR j * s) by (apply Rmult_le_compat_l; lra). assert (C2 : INR j * s <= INR j * (1 / 20 * (1 + / 9007199254740992))) by (apply Rmult_le_compat_l; lra).
  apply Rabs_le. split; nra.
Qed.
(** the edges at which double precision puts a probability of exactly j/20 below the edge *)
Definition misplaced (over : bool) : list nat := if over then [2; 4; 7; 9; 12; 14; 17; 19]%nat else [3; 6; 7; 12; 14; 17; 19]%nat.
Definition in_list (j : nat) (l : list nat) : bool := existsb (Nat.eqb j) l.
(** by calculation *)
Definition table_ok (over : bool) (j : nat) : bool :=
  let z := Z.of_nat j in
  match rq 1 20 with
  | Some (a, b) =>
    match rq (z * a) b, (if over then match rq (20 - z) 20 with Some (c, d) => rq (d - c) d | None => None end else rq z 20) with
    | Some (u, v), Some (w, x) => Bool.eqb (u * x <=? w * v)%Z (negb (in_list j (misplaced over)))
    | _, _ => false
    end
  | None => false
  end.
Lemma table_all over j : (0 < j < 20)%nat -> table_ok over j = true.
Proof.
  intros J. assert (F : forallb (fun j => table_ok true j && table_ok false j) (seq 1 19) = true) by (vm_compute; reflexivity).
  rewrite forallb_forall in F. specialize (F j). rewrite in_seq in F. specialize (F ltac:(lia)). apply andb_prop in F. destruct over; apply F.
Qed.
Lemma fr_le_iff a b c d : (0 < b)%Z -> (0 < d)%Z -> IZR a / IZR b <= IZR c / IZR d <-> (a * d <= c * b)%Z.
Proof.
  intros B D. split; intros H.
  - destruct (Z.le_gt_cases (a * d) (c * b)) as [L|L]; [exact L|]. assert (G : IZR c / IZR d < IZR a / IZR b) by (apply fr_lt; assumption). lra.
  - destruct (Rle_or_lt (IZR a / IZR b) (IZR c / IZR d)) as [L|L]; [exact L|exfalso]. apply Z.le_ngt in H. apply H. apply IZR_lt in B. apply IZR_lt in D. apply lt_IZR. rewrite !mult_IZR.
    apply Rmult_lt_compat_r with (r := IZR b * IZR d) in L; [|nra]. replace (IZR c / IZR d * (IZR b * IZR d)) with (IZR c * IZR b) in L by (field; lra). replace (IZR a / IZR b * (IZR b * IZR d)) with (IZR a * IZR d) in L by (field; lra). exact L.
Qed.
Lemma on_edge over k n j : (0 < n)%nat -> (k <= n)%nat -> (0 < j < 20)%nat -> (20 * counted over k n = j * n)%nat ->
  (rn (INR j * rn (1 / INR 20)) <= fl_prob over k n <-> in_list j (misplaced over) = false).
Proof.
  intros P K J E. pose proof (table_all over j J) as T. unfold table_ok in T. destruct (rq 1 20) as [(a, b)|] eqn:E1; [|discriminate T]. destruct (rq_rn 1 20 a b E1) as [Pb R1].
  destruct (rq (Z.of_nat j * a) b) as [(u, v)|] eqn:E2; [|discriminate T]. destruct (rq_rn _ _ _ _ E2) as [Pv R2].
  assert (Ed : rn (INR j * rn (1 / INR 20)) = IZR u / IZR v). { replace (INR 20) with 20 by (cbn; lra). rewrite R1, <- R2, INR_IZR_INZ. f_equal. rewrite mult_IZR. unfold Rdiv. ring. }
  rewrite Ed. assert (PN : 0 < INR n) by (apply lt_0_INR, P).
  assert (C : INR (counted over k n) / INR n = IZR (Z.of_nat j) / 20). { rewrite <- INR_IZR_INZ. apply (Rmult_eq_reg_r (20 * INR n)); [|nra]. apply (f_equal INR) in E. rewrite !mult_INR in E. replace (INR 20) with 20 in E by (cbn; lra). replace (INR (counted over k n) / INR n * (20 * INR n)) with (20 * INR (counted over k n)) by (field; lra). rewrite E. field. }
  destruct over; cbn [counted fl_prob] in *.
  - destruct (rq (20 - Z.of_nat j) 20) as [(c, d)|] eqn:E3; [|discriminate T]. destruct (rq_rn _ _ _ _ E3) as [Pd R3]. destruct (rq (d - c) d) as [(w, x)|] eqn:E4; [|discriminate T]. destruct (rq_rn _ _ _ _ E4) as [Px R4].
    assert (F : fl_over k n = IZR w / IZR x).
    { unfold fl_over. assert (B : fl_below k n = IZR c / IZR d). { unfold fl_below. rewrite <- R3. f_equal. rewrite minus_IZR. rewrite minus_INR in C by exact K. replace ((INR n - INR k) / INR n) with (1 - INR k / INR n) in C by (field; lra). lra. }
      rewrite B, <- R4. f_equal. rewrite minus_IZR. apply IZR_lt in Pd. field. lra. }
    rewrite F, fr_le_iff by assumption. apply eqb_prop in T. rewrite <- Z.leb_le, T. destruct (in_list _ _); cbn; split; congruence.
  - destruct (rq (Z.of_nat j) 20) as [(w, x)|] eqn:E4; [|discriminate T]. destruct (rq_rn _ _ _ _ E4) as [Px R4].
    assert (F : fl_below k n = IZR w / IZR x) by (unfold fl_below; rewrite C; exact R4).
    rewrite F, fr_le_iff by assumption. apply eqb_prop in T. rewrite <- Z.leb_le, T. destruct (in_list _ _); cbn; split; congruence.
Qed.
(** Bin i of the twenty bins holds the probabilities from i/20 up to but not including (i+1)/20, the last one also 1. *)
Definition left_closed (c n i : nat) : Prop := (i < 20)%nat /\ (i * n <= 20 * c)%nat /\ (20 * c < (i + 1) * n \/ c = n /\ i = 19)%nat.
Lemma left_closed_unique c n i j : (0 < n)%nat -> left_closed c n i -> left_closed c n j -> i = j.
Proof. unfold left_closed. intros N (A & B & C) (D & E & F). destruct C as [C|[-> ->]], F as [F|[F1 F2]]; subst; nia. Qed.
(** In double precision probabilities between the edges are in the right bin; those of exactly j/20 fall into the bin below
    for the [misplaced] j, and these differ between over and below. *)
Theorem c97_decomposition_bins_partial : forall over k n, (0 < n)%nat -> (k <= n)%nat -> (Z.of_nat n <= 10 ^ 9)%Z ->
  exists i, left_closed (counted over k n) n i /\
    ((forall j, In j (misplaced over) -> 20 * counted over k n <> j * n)%nat -> fl_decomp_bin (fl_prob over k n) = i) /\
    (In i (misplaced over) -> (20 * counted over k n = i * n)%nat -> S (fl_decomp_bin (fl_prob over k n)) = i).
Proof.
  intros over k n P K N. set (c := counted over k n). assert (Cn : (c <= n)%nat) by (unfold c; destruct over; cbn [counted]; lia).
  set (p := fl_prob over k n). pose proof (prob_error over k n P K N) as E. fold c p in E. apply Rabs_le_inv in E.
  assert (PN : 0 < INR n) by (apply lt_0_INR, P).
  assert (Gap : / 20000000000 <= / (INR n * INR 20)). { replace (INR 20) with 20 by (cbn; lra). apply Rinv_le_contravar; [lra|]. assert (INR n <= 1000000000) by (rewrite INR_IZR_INZ; apply (IZR_le _ 1000000000); exact N). lra. }
  set (i := if Nat.eqb c n then 19%nat else (20 * c / n)%nat).
  assert (I : left_closed c n i).
  { unfold left_closed, i. destruct (Nat.eqb_spec c n) as [->|C]; [lia|]. pose proof (Nat.div_mod (20 * c) n ltac:(lia)) as D. pose proof (Nat.mod_upper_bound (20 * c) n ltac:(lia)) as M. set (q := (20 * c / n)%nat) in *. nia. }
  exists i. split; [exact I|]. destruct I as (I1 & I2 & I3).
  assert (Edge : forall j, (0 < j < 20)%nat -> (20 * c <> j * n)%nat -> (rn (INR j * rn (1 / INR 20)) <= p <-> (j * n < 20 * c)%nat)).
  { intros j J Ne. pose proof (decomp_edge j J) as D. apply Rabs_le_inv in D. rewrite unit_val in *. set (e := rn (INR j * rn (1 / INR 20))) in *. replace 20 with (INR 20) in D by (cbn; lra).
    destruct (Nat.lt_ge_cases (j * n) (20 * c)) as [L|L].
    - pose proof (frac_gap j 20 c n ltac:(lia) P ltac:(lia)) as G. rewrite (Rmult_comm (INR 20)) in G. split; [intros _; exact L|intros _; lra].
    - pose proof (frac_gap c n j 20 P ltac:(lia) ltac:(lia)) as G. split; [intros H; lra|intros H; lia]. }
  assert (Count : forall m, (m <= 19)%nat -> (forall j, (1 <= j < 20)%nat -> rn (INR j * rn (1 / INR 20)) <= p <-> (j < 1 + m)%nat) -> fl_decomp_bin p = m).
  { intros m Hm H. rewrite decomp_bin_eq. apply filter_len_upto; [exact Hm|]. intros j J. rewrite Rle_bool_iff. apply H. lia. }
  split.
  - intros Off. apply Count; [lia|]. intros j J. destruct (Nat.eq_dec (20 * c) (j * n)) as [Q|Q]; [|rewrite Edge by (lia || exact Q); split; intros H; [nia|destruct I3 as [I3|[-> ->]]; nia]].
    unfold p. rewrite on_edge by (assumption || lia). assert (F : in_list j (misplaced over) = false).
    { destruct (in_list j (misplaced over)) eqn:B; [exfalso|reflexivity]. unfold in_list in B. apply existsb_exists in B. destruct B as (j' & In' & B). apply Nat.eqb_eq in B. subst j'. exact (Off j In' Q). }
    split; [intros _; nia|intros _; exact F].
  - intros Mi Q. assert (Mb : in_list i (misplaced over) = true) by (unfold in_list; apply existsb_exists; exists i; split; [exact Mi|apply Nat.eqb_refl]).
    assert (I0 : (0 < i)%nat). { destruct i; [|lia]. destruct over; cbn in Mb; discriminate Mb. }
    assert (D : fl_decomp_bin p = (i - 1)%nat); [|fold p; rewrite D; lia].
    apply Count; [lia|]. intros j J. destruct (Nat.eq_dec j i) as [->|Ji].
    + unfold p. rewrite on_edge by (assumption || lia). rewrite Mb. split; [discriminate|lia].
    + rewrite Edge by (lia || nia). split; intros H; nia.
Qed.
Print Assumptions c97_decomposition_bins_partial.
(** Three of twenty members at or below the threshold fall into bin 2, not 3; the same share of members above a
    threshold falls into bin 3. *)
Theorem c97_decomposition_bins_refuted :
  left_closed (counted false 3 20) 20 3 /\ fl_decomp_bin (fl_prob false 3 20) = 2%nat /\
  counted true 17 20 = counted false 3 20 /\ fl_decomp_bin (fl_prob true 17 20) = 3%nat.
Proof.
  assert (L : left_closed 3 20 3) by (unfold left_closed; lia). split; [exact L|]. split; [|split; [reflexivity|]].
  - destruct (c97_decomposition_bins_partial false 3 20 ltac:(lia) ltac:(lia) ltac:(cbn; lia)) as (i & A & _ & B). cbn [counted] in *. assert (i = 3%nat) by (apply (left_closed_unique 3 20); [lia|exact A|exact L]); subst i. specialize (B ltac:(cbn; auto) eq_refl). lia.
  - destruct (c97_decomposition_bins_partial true 17 20 ltac:(lia) ltac:(lia) ltac:(cbn; lia)) as (i & A & B & _). cbn [counted Nat.sub] in *. assert (i = 3%nat) by (apply (left_closed_unique 3 20); [lia|exact A|exact L]); subst i. apply B. cbn. intros j H. lia.
Qed.
Print Assumptions c97_decomposition_bins_refuted.
