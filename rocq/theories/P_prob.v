(** Proofs about ensemble probabilities and the Brier score per cell. *)
From Coq Require Import ZArith List Lia Bool Arith Permutation QArith Qcanon.
From Verif Require Import QcTac QSum Num NdArr Numpy M_common NdAxes Spec M_ens NdMove P_boot P_rank.
Import ListNotations.
Open Scope nat_scope.

(** threshold of a cell *)
Definition thr_at (b : thr) (ix : list nat) : num :=
  match b with TScalar x => x | TArray a => get a ix | TSeq => NaN end.
(** a threshold that fits the observation shape *)
Definition thr_fits (b : thr) (sh : list nat) : Prop :=
  match b with TScalar _ => True | TArray a => shape a = sh | TSeq => False end.

Lemma drop_axis_set_nth n v sh : n < length sh -> drop_axis n (set_nth n v sh) = drop_axis n sh.
Proof.
  intros H. rewrite !drop_axis_remove. revert sh H. induction n as [|n IH]; intros [|s sh] H; cbn [length] in H; try lia; [reflexivity|].
  rewrite set_nth_cons. cbn [remove_at]. rewrite IH by lia. reflexivity.
Qed.
Lemma prob_stack_spec f z n b : axis_is (length (shape f)) z n -> thr_fits b (drop_axis n (shape f)) ->
  exists c, prob_stack f z b = Ok c /\ shape c = S (nth n (shape f) 0) :: drop_axis n (shape f) /\
    forall ix, length ix = length (shape f) - 1 -> column c ix = thr_at b ix :: members_at n f ix.
Proof.
  intros Hz Hb. pose proof Hz as [Hn Hz']. unfold prob_stack. rewrite (norm_axis_fun _ _ _ Hn Hz').
  rewrite <- drop_axis_remove.
  assert (exists bb, (match b with TArray a => passert (list_eqb (shape a) (drop_axis n (shape f))) ;;; Ok a
         | TScalar x => Ok (afull (drop_axis n (shape f)) x) | TSeq => Raise AssertionError end) = Ok bb /\ forall ix, get bb ix = thr_at b ix) as (bb & Eb & Hbb).
  { destruct b as [x|a|]; cbn in Hb; [|rewrite Hb, list_eqb_refl|destruct Hb]; eexists; (split; [reflexivity|]); reflexivity. }
  rewrite Eb. cbn [bind]. set (cc := concat_first n (expand_dims n bb) f).
  assert (Hlc : length (shape cc) = length (shape f)) by (apply set_nth_length, Hn).
  destruct (moveaxis_front cc z n) as (c & Ec & Hs & Hg); [rewrite Hlc; exact Hz|].
  exists c. split; [exact Ec|].
  assert (Hnth : nth n (shape cc) 0 = S (nth n (shape f) 0)) by (apply nth_set_nth, Hn).
  rewrite Hnth in Hs. split.
  { rewrite Hs. f_equal. apply drop_axis_set_nth, Hn. }
  intros ix Hix. unfold column. rewrite Hs. cbn [hd seq map].
  assert (Hle : n <= length ix) by lia. rewrite Hlc in Hg.
  f_equal.
  - rewrite Hg by exact Hix. rewrite <- insert_at_split by exact Hle. cbn [cc concat_first get].
    rewrite nth_insert_at by exact Hle. cbn [expand_dims get]. rewrite remove_insert_at by exact Hle. apply Hbb.
  - unfold members_at. rewrite <- seq_shift, map_map. apply map_ext. intros m.
    rewrite Hg by exact Hix. rewrite <- !insert_at_split by exact Hle. cbn [cc concat_first get].
    rewrite nth_insert_at by exact Hle. rewrite set_nth_insert_at by exact Hle. reflexivity.
Qed.

(** The parallel run applies the column function to the same columns. *)
Lemma parallel_columns (c : arr num) i : shape c <> [] -> i < prod (tl (shape c)) ->
  column (unit_slice 1 i (reshape [hd 0 (shape c); prod (tl (shape c))] c)) [0] = column c (unflat (tl (shape c)) i).
Proof.
  intros Hne Hi. unfold column, unit_slice, reshape; cbn [shape get]. unfold set_nth at 1. cbn [firstn app hd].
  apply map_ext. intros m. unfold set_nth. cbn [firstn skipn app flat prod].
  destruct (shape c) as [|s sh] eqn:E; [contradiction|]. cbn [tl hd] in *. cbn [unflat].
  f_equal. rewrite !Nat.mul_1_r, Nat.add_0_r. f_equal.
  - rewrite Nat.div_add_l by lia. rewrite Nat.div_small by exact Hi. lia.
  - rewrite Nat.add_comm, Nat.mod_add by lia. rewrite Nat.mod_small by exact Hi. reflexivity.
Qed.
Lemma parallel_run c (k : list num -> res num) : shape c <> [] ->
  mapM (fun p => k (column p [0])) (split_units 1 (reshape [hd 0 (shape c); prod (tl (shape c))] c))
  = mapM (fun ix => k (column c ix)) (indices (tl (shape c))).
Proof.
  intros Hne. unfold split_units. cbn [shape reshape nth]. rewrite mapM_map. rewrite indices_unflat, mapM_map.
  apply mapM_ext. intros i Hi. apply in_seq in Hi. rewrite parallel_columns; [reflexivity|exact Hne|lia].
Qed.
Lemma of_list_cells {A} (d : A) sh (g : list nat -> A) ix : valid sh ix -> get (of_list d sh (map g (indices sh))) ix = g ix.
Proof.
  intros Hv. cbn [of_list get]. rewrite (nth_indep _ d (g [])).
  - rewrite map_nth. f_equal. apply nth_indices, Hv.
  - rewrite map_length, indices_length. apply flat_lt, Hv.
Qed.
Definition prob_par_ok (rest : list nat) (w : nat) : Prop := w = 1 \/ (1 < w /\ 0 < prod rest).
Lemma moments_run w c : shape c <> [] -> prob_par_ok (tl (shape c)) w ->
  exists r, prob_of_stack Moments w c = Ok r /\ shape r = tl (shape c) /\
    forall ix, valid (tl (shape c)) ix -> get r ix = moments_col (column c ix).
Proof.
  intros Hne [->|[Hw Hp]]; unfold prob_of_stack.
  - cbn [Nat.eqb]. eexists. split; [reflexivity|]. split; reflexivity.
  - rewrite (proj2 (Nat.eqb_neq w 1)), (proj2 (Nat.eqb_neq w 0)), (proj2 (Nat.eqb_neq (prod (tl (shape c))) 0)) by lia.
    rewrite (parallel_run c (fun col => Ok (moments_col col)) Hne).
    rewrite (mapM_ok _ (fun ix => moments_col (column c ix))) by reflexivity. cbn [bind].
    eexists. split; [reflexivity|]. split; [reflexivity|]. intros ix Hv. apply (of_list_cells NaN _ (fun ix => moments_col (column c ix))), Hv.
Qed.
(** Serial and parallel agree for every method. *)
Lemma par_serial m w c : shape c <> [] -> 1 < w -> 0 < prod (tl (shape c)) ->
  match prob_of_stack m w c, prob_of_stack m 1 c with
  | Ok a, Ok b => arr_eq a b
  | Raise e1, Raise e2 => e1 = e2
  | _, _ => False
  end.
Proof.
  intros Hne Hw Hp. destruct m as [|k|].
  - destruct (moments_run w c Hne) as (r1 & -> & S1 & G1); [right; auto|].
    destruct (moments_run 1 c Hne) as (r2 & -> & S2 & G2); [left; reflexivity|].
    split; [congruence|]. intros ix Hv. rewrite S1 in Hv. rewrite G1, G2 by exact Hv. reflexivity.
  - unfold prob_of_stack. cbn [Nat.eqb].
    rewrite (proj2 (Nat.eqb_neq w 1)), (proj2 (Nat.eqb_neq w 0)), (proj2 (Nat.eqb_neq (prod (tl (shape c))) 0)) by lia.
    rewrite (parallel_run c k Hne). destruct (mapM _ _); cbn [bind]; [apply arr_eq_refl|reflexivity].
  - unfold prob_of_stack. destruct (Nat.eqb w 1); reflexivity.
Qed.

(** fraction of members not above the threshold *)
Definition frac_le (t : num) (ms : list num) : Qc := (qn (how_many (fun m => nle m t) ms) / qn (length ms))%Qc.
Lemma moments_frac t ms : ms <> [] -> moments_col (t :: ms) = Fin (frac_le t ms).
Proof.
  intros H. unfold moments_col. cbn [hd tl length]. replace (S (length ms) - 1) with (length ms) by lia.
  unfold frac_le, nnat, ndiv. destruct (qeqb_spec (qn (length ms)) 0%Qc) as [E|E]; [|reflexivity].
  exfalso. apply (qn_neq0 (length ms)); [apply length_pos, H|exact E].
Qed.
Lemma members_at_nonempty {A} n (f : arr A) ix : 0 < nth n (shape f) 0 -> members_at n f ix <> [].
Proof. intros H E. apply (f_equal (@length _)) in E. unfold members_at in E. rewrite map_length, seq_length in E. cbn in E. lia. Qed.
Lemma members_at_length {A} n (f : arr A) ix : length (members_at n f ix) = nth n (shape f) 0.
Proof. unfold members_at. rewrite map_length, seq_length. reflexivity. Qed.
Lemma valid_drop_length n sh ix : n < length sh -> valid (drop_axis n sh) ix -> length ix = length sh - 1.
Proof. intros Hn Hv. rewrite (valid_length _ _ Hv), drop_axis_remove. apply remove_at_length, Hn. Qed.
Lemma ens_prob_below w f z n b : axis_is (length (shape f)) z n -> thr_fits b (drop_axis n (shape f)) ->
  0 < nth n (shape f) 0 -> prob_par_ok (drop_axis n (shape f)) w ->
  exists r, ens_to_prob Moments w f z None (Some b) = Ok r /\ shape r = drop_axis n (shape f) /\
    forall ix, valid (drop_axis n (shape f)) ix -> get r ix = Fin (frac_le (thr_at b ix) (members_at n f ix)).
Proof.
  intros Hz Hb HM Hw. unfold ens_to_prob, one_threshold. cbn [is_some negb xorb passert bind].
  destruct (prob_stack_spec f z n b Hz Hb) as (c & -> & Hs & Hc). cbn [bind].
  destruct (moments_run w c) as (r & Er & Hrs & G); [rewrite Hs; discriminate|rewrite Hs; exact Hw|].
  exists r. split; [exact Er|]. rewrite Hs in Hrs, G. cbn [tl] in Hrs, G. split; [exact Hrs|].
  intros ix Hv. rewrite G by exact Hv. rewrite Hc by (eapply valid_drop_length; [apply Hz|exact Hv]).
  apply moments_frac, members_at_nonempty, HM.
Qed.
Lemma ens_cdf_below w f z n b : axis_is (length (shape f)) z n -> thr_fits b (drop_axis n (shape f)) ->
  0 < nth n (shape f) 0 -> prob_par_ok (drop_axis n (shape f)) w ->
  exists r, ens_cdf Moments w f z None (Some b) = Ok r /\ shape r = drop_axis n (shape f) /\
    forall ix, valid (drop_axis n (shape f)) ix -> get r ix = Fin (frac_le (thr_at b ix) (members_at n f ix)).
Proof. intros Hz Hb HM Hw. destruct (ens_prob_below w f z n b Hz Hb HM Hw) as (r & E & H). exists r. split; [|exact H]. exact E. Qed.
Lemma ens_cdf_over w f z n b : axis_is (length (shape f)) z n -> thr_fits b (drop_axis n (shape f)) ->
  0 < nth n (shape f) 0 -> prob_par_ok (drop_axis n (shape f)) w ->
  exists r, ens_cdf Moments w f z (Some b) None = Ok r /\ shape r = drop_axis n (shape f) /\
    forall ix, valid (drop_axis n (shape f)) ix -> get r ix = Fin (1 - frac_le (thr_at b ix) (members_at n f ix))%Qc.
Proof.
  intros Hz Hb HM Hw. destruct (ens_prob_below w f z n b Hz Hb HM Hw) as (r & E & Hs & G).
  exists (amap (nsub (Fin 1%Qc)) r). split; [|split; [exact Hs|]].
  - unfold ens_cdf, one_threshold. cbn [is_some negb xorb passert bind]. rewrite E. reflexivity.
  - intros ix Hv. cbn [amap get]. rewrite G by exact Hv. reflexivity.
Qed.

Lemma how_many_count {A} (p : A -> bool) l : how_many p l = count p l. Proof. reflexivity. Qed.
Lemma frac_bounds t ms : ms <> [] -> (0 <= frac_le t ms /\ frac_le t ms <= 1)%Qc.
Proof.
  intros H. pose proof (qn_pos (length ms) (length_pos _ H)) as Hp. split.
  - apply Qcdiv_nonneg; [apply qn_nonneg|exact Hp].
  - apply Qcdiv_le_iff; [exact Hp|]. rewrite Qcmult_1_l. apply qn_le. apply count_le.
Qed.
Lemma frac_compl t ms : ms <> [] -> (1 - frac_le t ms = qn (how_many (fun m => negb (nle m t)) ms) / qn (length ms))%Qc.
Proof.
  intros H. pose proof (qn_neq0 (length ms) (length_pos _ H)) as Hp. unfold frac_le.
  pose proof (count_negb (fun m => nle m t) ms) as Hc. fold (how_many (fun m => nle m t) ms) in Hc. apply (f_equal qn) in Hc. rewrite qn_plus in Hc.
  change (count (fun m => nle m t) ms) with (how_many (fun m => nle m t) ms) in Hc.
  change (count (fun x => negb (nle x t)) ms) with (how_many (fun m => negb (nle m t)) ms) in Hc.
  rewrite <- Hc in *. field. exact Hp.
Qed.
Lemma nle_trans x y z : nle x y = true -> nle y z = true -> nle x z = true.
Proof.
  destruct x, y, z; cbn [nle]; try discriminate; try reflexivity. intros H1 H2.
  apply qleb_le in H1. apply qleb_le in H2. apply qleb_le. qlra.
Qed.
Lemma frac_mono t1 t2 ms : ms <> [] -> nle t1 t2 = true -> (frac_le t1 ms <= frac_le t2 ms)%Qc.
Proof.
  intros H Ht. pose proof (qn_pos (length ms) (length_pos _ H)) as Hp. unfold frac_le.
  apply Qcdiv_le_iff; [exact Hp|]. unfold Qcdiv. rewrite <- Qcmult_assoc, Qcmult_inv_l, Qcmult_1_r by (intros E; rewrite E in Hp; revert Hp; apply Qclt_not_eq || idtac; apply Qcle_not_lt, Qcle_refl).
  apply qn_le. apply count_mono. intros m _ Hm. eapply nle_trans; eassumption.
Qed.
Lemma frac_zero t ms : (forall m, In m ms -> nlt t m = true) -> frac_le t ms = 0%Qc.
Proof.
  intros H. unfold frac_le. replace (how_many (fun m => nle m t) ms) with 0; [unfold Qcdiv; apply Qcmult_0_l|].
  symmetry. apply count_none. intros m Hm. specialize (H m Hm). destruct (nle m t) eqn:E; [|reflexivity]. exfalso.
  destruct m, t; cbn in *; try discriminate. apply qltb_lt in H. apply qleb_le in E. qlra.
Qed.
Lemma frac_one t ms : ms <> [] -> (forall m, In m ms -> nle m t = true) -> frac_le t ms = 1%Qc.
Proof.
  intros Hne H. unfold frac_le, how_many. change (length (filter (fun m => nle m t) ms)) with (count (fun m => nle m t) ms). rewrite (count_all (fun m => nle m t) ms H). apply Qcmult_inv_r, qn_neq0, length_pos, Hne.
Qed.
Lemma frac_perm t ms ms' : Permutation ms ms' -> frac_le t ms = frac_le t ms'.
Proof. intros H. unfold frac_le, how_many. rewrite (Permutation_length H). f_equal. f_equal. apply (count_perm (fun m => nle m t)), H. Qed.

(** ** Brier score per cell *)
Lemma brier_cells p o over below r : cell_brier p o over below = Ok r ->
  exists pa ob, p = Ok pa /\ binarize_obs o over below = Ok ob /\ shape r = shape pa /\
    forall ix, get r ix = nsq (nsub (get pa ix) (b2n (get ob ix))).
Proof.
  unfold cell_brier. destruct p as [pa|]; [|discriminate]. cbn [bind].
  destruct (binarize_obs o over below) as [ob|]; [|discriminate]. cbn [bind]. intros H. injection H as <-.
  exists pa, ob. repeat split.
Qed.
Lemma brier_unit q b : (0 <= q)%Qc -> (q <= 1)%Qc -> exists s, nsq (nsub (Fin q) (b2n b)) = Fin s /\ (0 <= s /\ s <= 1)%Qc.
Proof.
  intros H0 H1. destruct b; cbn; eexists; (split; [reflexivity|]); split; qnra.
Qed.
