(** Lemmas about the reliability diagram (C29-C31). *)
From Coq Require Import ZArith List Lia Bool Arith Permutation Sorted QArith Qcanon.
From Verif Require Import QcTac QSum Num NdArr Numpy M_common NdAxes M_boot Spec P_boot M_rel Spec_rel P_brier.
From Verif Require P_work.
Import ListNotations.
Open Scope Qc_scope.

(** ** The columns of the moved and flattened array are the groups *)
Lemma moved_columns {A} (a : arr A) ax ns :
  let nd := length (shape a) in let m := mask_of nd ns in
  sorted_spelling nd ax ns ->
  exists b, move_loop (zsort (loop_axes nd ax)) 0 a = Ok (b, length ns) /\
    shape b = sel m (shape a) ++ unsel m (shape a) /\ skipn (length ns) (shape b) = unsel m (shape a) /\
    forall k, valid (unsel m (shape a)) k ->
      map (fun r => get (reshape [prod (sel m (shape a)); prod (unsel m (shape a))] b) [r; flat (unsel m (shape a)) k]) (seq 0 (prod (sel m (shape a))))
        = map (get a) (group (shape a) m k).
Proof.
  intros nd m [Hsp Hs]. destruct (move_loop_spec a (zsort (loop_axes nd ax)) ns Hs Hsp) as (b & Eb & Tb). fold nd in Tb.
  assert (Hlt : forall x, In x ns -> (x < nd)%nat).
  { clear -Hsp. induction Hsp as [|z n l ns Hz _ IH]; intros x []; [subst; apply norm_axis_ok in Hz; tauto|auto]. }
  assert (Hshape : shape b = sel m (shape a) ++ unsel m (shape a)) by (apply (transposed_merge a b ns [] [] Hs Hlt Tb)).
  assert (Hml : length m = length (shape a)) by apply mask_of_length.
  exists b. split; [exact Eb|]. split; [exact Hshape|]. split.
  - rewrite Hshape. replace (length ns) with (length (sel m (shape a))).
    + rewrite skipn_app, skipn_all, Nat.sub_diag. reflexivity.
    + unfold m. rewrite sel_mask_pick by reflexivity. rewrite sorted_filter_seq by assumption. apply pick_length.
  - intros k Hk. rewrite (column_spec b (sel m (shape a)) (unsel m (shape a)) k Hshape Hk).
    rewrite group_merge by assumption. rewrite map_map. apply map_ext_in. intros s Hs'. apply in_indices in Hs'.
    apply (transposed_merge a b ns s k Hs Hlt Tb); assumption.
Qed.

(** ** Bin numbers *)
Lemma rel_bins_eq nb : (0 < nb)%nat -> rel_bins nb = map (fun i => Fin (rel_edge nb i)) (seq 0 (nb + 1)).
Proof.
  intros H. unfold rel_bins, linspace. destruct nb as [|nb]; [lia|]. replace (S nb + 1)%nat with (S (S nb)) by lia. rewrite map_map.
  apply map_ext. intros i. f_equal. unfold rel_edge, rel_top.
  replace (S (S nb) - 1)%nat with (S nb) by lia. unfold Qcdiv. ring.
Qed.
Lemma rel_bins_length nb : length (rel_bins nb) = (nb + 1)%nat.
Proof. unfold rel_bins. rewrite map_length. apply linspace_length. Qed.
Lemma rel_width nb : (0 < nb)%nat -> exists w, 0 < w /\ w * qn nb = 1 + / qz 100000000 /\ forall j, rel_edge nb j = qn j * w.
Proof.
  intros H. exists ((1 + / qz 100000000) / qn nb). assert (P : 0 < qn nb) by (apply qn_pos, H). split; [|split].
  - apply Qclt_div_iff; [exact P|]. rewrite Qcmult_0_l. reflexivity.
  - unfold Qcdiv. rewrite <- Qcmult_assoc, Qcmult_inv_l by (apply qn_neq0, H). ring.
  - intros j. unfold rel_edge, Qcdiv. ring.
Qed.
Lemma rel_edge_le nb i j : (0 < nb)%nat -> (rel_edge nb i <= rel_edge nb j <-> (i <= j)%nat).
Proof.
  intros Hn. destruct (rel_width nb Hn) as (w & Hw & _ & E). rewrite !E. rewrite qn_le. split; intros H; qnra.
Qed.
Lemma rel_edge_lt nb i j : (0 < nb)%nat -> (rel_edge nb i < rel_edge nb j <-> (i < j)%nat).
Proof.
  intros Hn. rewrite <- Nat.nle_gt, <- (rel_edge_le nb j i Hn). split; [apply Qclt_not_le|apply Qcnot_le_lt].
Qed.
Lemma rel_bin_digitize nb p k : rel_bin nb p k -> digitize (rel_bins nb) (Fin p) = S k.
Proof.
  intros (Hk & Hlo & Hhi). unfold digitize. cbn [is_nan]. rewrite rel_bins_eq, count_map by lia.
  rewrite (count_ext _ (fun i => Nat.leb i k)).
  - replace (nb + 1)%nat with (S nb) by lia. cbn [seq]. rewrite count_cons, count_le_seq by lia. reflexivity.
  - intros i _. cbn [nle]. destruct (Nat.leb_spec i k) as [H|H].
    + apply qleb_le. eapply Qcle_trans; [|exact Hlo]. apply rel_edge_le; [lia|exact H].
    + apply qleb_gt. eapply Qclt_le_trans; [exact Hhi|]. apply rel_edge_le; lia.
Qed.
Lemma rel_bin_exists nb p : (0 < nb)%nat -> 0 <= p -> p <= 1 -> exists k, rel_bin nb p k.
Proof.
  intros Hn H0 H1. destruct (rel_width nb Hn) as (w & Hw & W & E). set (h := p / w).
  assert (Hh : 0 <= h) by (apply Qcdiv_nonneg; assumption). destruct (qfloor_nat_spec h Hh) as [A B].
  apply (Qcle_div_iff p w _ Hw) in A. apply (Qcdiv_lt_iff p w _ Hw) in B.
  exists (qfloor_nat h). assert (Hb : p < rel_edge nb (S (qfloor_nat h))) by (rewrite E, qn_S, (Qcplus_comm 1); exact B).
  split; [|split; [rewrite E; exact A|exact Hb]].
  assert (X : qn (qfloor_nat h) * w < qn nb * w).
  { eapply Qcle_lt_trans; [exact A|]. eapply Qcle_lt_trans; [exact H1|]. rewrite (Qcmult_comm (qn nb)), W. reflexivity. }
  rewrite <- !E in X. apply rel_edge_lt in X; [exact X|exact Hn].
Qed.
Lemma rel_bin_mono nb p q j k : rel_bin nb p j -> rel_bin nb q k -> p <= q -> (j <= k)%nat.
Proof.
  intros (H1 & H2 & H3) (H1' & H2' & H3') H. assert (X : rel_edge nb j < rel_edge nb (S k)) by (eapply Qcle_lt_trans; [exact H2|]; eapply Qcle_lt_trans; eassumption).
  apply rel_edge_lt in X; lia.
Qed.
Lemma rel_bin_fun nb p j k : rel_bin nb p j -> rel_bin nb p k -> j = k.
Proof. intros H1 H2. pose proof (rel_bin_mono nb p p j k H1 H2 (Qcle_refl p)). pose proof (rel_bin_mono nb p p k j H2 H1 (Qcle_refl p)). lia. Qed.
(** 1.0 lies in the last bin unless there are more than 10^8 + 1 bins *)
Lemma rel_bin_one nb : (0 < nb)%nat -> (rel_bin nb 1 (nb - 1) <-> qn nb <= qz 100000001).
Proof.
  intros Hn. destruct (rel_width nb Hn) as (w & Hw & W & E). unfold rel_bin. rewrite !E. replace (S (nb - 1)) with nb by lia.
  assert (N : qn nb = 1 + qn (nb - 1)) by (rewrite <- qn_S; f_equal; lia).
  assert (P : 0 < qn nb) by (apply qn_pos, Hn).
  assert (D : qz 100000000 * / qz 100000000 = 1) by (apply Qcmult_inv_r; discriminate).
  assert (I : 0 < / qz 100000000) by reflexivity.
  assert (D1 : qz 100000001 = qz 100000000 + 1) by (apply (qz_plus 100000000 1)). revert D I D1 W. generalize (/ qz 100000000). intros i. generalize (qz 100000000) (qz 100000001). intros c c1 D I D1 W.
  assert (T : 1 < qn nb * w) by (rewrite (Qcmult_comm (qn nb)), W; qlra).
  set (x := qn nb) in *. replace (qn (nb - 1)) with (x - 1) by (rewrite N; ring). clearbody x.
  assert (Key : (x - 1) * w <= 1 <-> x <= c1).
  { assert (G : (x - 1) * w = 1 + i - w) by (rewrite <- W; ring). rewrite G.
    split; intros H.
    - assert (H1 : i <= w) by qlra. assert (H2 : x * i <= 1 + i) by (rewrite <- W; rewrite (Qcmult_comm w x); qnra).
      assert (H3 : x * i * c <= (1 + i) * c) by (assert (0 < c) by qnra; qnra). replace (x * i * c) with (x * (c * i)) in H3 by ring. rewrite D in H3.
      replace ((1 + i) * c) with (c + c * i) in H3 by ring. rewrite D in H3. qlra.
    - assert (H1 : x * i <= c1 * i) by qnra. assert (H2 : c1 * i = 1 + i) by (rewrite D1; transitivity (c * i + i); [ring|rewrite D; reflexivity]). rewrite H2, <- W in H1.
      assert (H3 : i <= w) by qnra. qlra. }
  rewrite Key. split; [tauto|]. intros H. split; [lia|]. split; assumption.
Qed.

(** ** Sorted distinct values *)
Lemma sorted_unique l1 l2 : StronglySorted Z.lt l1 -> StronglySorted Z.lt l2 -> (forall x, In x l1 <-> In x l2) -> l1 = l2.
Proof.
  intros H1. revert l2. induction H1 as [|a l1 S1 IH F1]; intros l2 H2 E.
  - destruct l2 as [|b l2]; [reflexivity|]. exfalso. apply (E b). left. reflexivity.
  - inversion H2 as [|b l2' S2 F2]; subst.
    { exfalso. apply (E a). left. reflexivity. }
    rewrite Forall_forall in F1, F2.
    assert (a = b).
    { destruct (proj1 (E a) (or_introl eq_refl)) as [Ha|Ha]; [auto|]. destruct (proj2 (E b) (or_introl eq_refl)) as [Hb|Hb]; [auto|].
      apply F2 in Ha. apply F1 in Hb. lia. }
    subst b. f_equal. apply IH; [exact S2|]. intros x. split; intros Hx.
    + destruct (proj1 (E x) (or_intror Hx)) as [<-|H]; [|exact H]. apply F1 in Hx. lia.
    + destruct (proj2 (E x) (or_intror Hx)) as [<-|H]; [|exact H]. apply F2 in Hx. lia.
Qed.
Lemma strict_sorted l : StronglySorted Z.le l -> NoDup l -> StronglySorted Z.lt l.
Proof.
  induction 1 as [|a l S IH F]; intros N; [constructor|]. inversion N as [|? ? Ha N']; subst. constructor; [apply IH, N'|].
  rewrite Forall_forall in *. intros x Hx. specialize (F x Hx). assert (a <> x) by (intros ->; contradiction). lia.
Qed.
Lemma filter_sorted {A} (R : A -> A -> Prop) (g : A -> bool) l : StronglySorted R l -> StronglySorted R (filter g l).
Proof.
  induction 1 as [|a l S IH F]; cbn; [constructor|]. destruct (g a); [|exact IH]. constructor; [exact IH|].
  rewrite Forall_forall in *. intros x Hx. apply filter_In in Hx as [Hx _]. auto.
Qed.
Lemma map_sorted {A B} (R : A -> A -> Prop) (Q : B -> B -> Prop) (g : A -> B) l : (forall x y, In x l -> In y l -> R x y -> Q (g x) (g y)) -> StronglySorted R l -> StronglySorted Q (map g l).
Proof.
  intros H S. revert H. induction S as [|a l S IH F]; intros H; cbn; [constructor|]. constructor.
  - apply IH. intros x y Hx Hy. apply H; right; assumption.
  - rewrite Forall_forall in *. intros y Hy. apply in_map_iff in Hy as (x & <- & Hx). apply H; [left; reflexivity|right; exact Hx|auto].
Qed.
Section Slice.
  Context {A : Type}.
  Variables (S : list A) (key : A -> nat).
  Definition cells_of (b : nat) : list A := filter (fun x => Nat.eqb (key x) b) S.
  Definition occupied (n : nat) : list nat := filter (fun b => negb (Nat.eqb (length (cells_of b)) 0)) (seq 0 n).
  Let ids := map (fun x => Z.of_nat (key x)) S.
  Lemma occupied_sorted n : StronglySorted lt (occupied n).
  Proof. apply filter_sorted, seq_sorted. Qed.
  Lemma in_cells b x : In x (cells_of b) <-> In x S /\ key x = b.
  Proof. unfold cells_of. rewrite filter_In, Nat.eqb_eq. reflexivity. Qed.
  Lemma in_occupied n b : In b (occupied n) <-> (b < n)%nat /\ cells_of b <> [].
  Proof.
    unfold occupied. rewrite filter_In, in_seq, negb_true_iff, Nat.eqb_neq. split; intros [H1 H2]; (split; [lia|]).
    - intros E. rewrite E in H2. apply H2. reflexivity.
    - intros E. apply H2. apply length_zero_iff_nil, E.
  Qed.
  Lemma occupied_cell n b : In b (occupied n) <-> (b < n)%nat /\ exists x, In x S /\ key x = b.
  Proof.
    rewrite in_occupied. split; intros [H1 H2]; (split; [exact H1|]).
    - destruct (cells_of b) as [|x r] eqn:E; [congruence|]. exists x. apply in_cells. rewrite E. left. reflexivity.
    - destruct H2 as (x & Hx). intros E. apply in_cells in Hx. rewrite E in Hx. exact Hx.
  Qed.
  Lemma occupied_ext n n' : (n <= n')%nat -> (forall x, In x S -> (key x < n)%nat) -> occupied n' = occupied n.
  Proof.
    intros Hn H. unfold occupied. replace n' with (n + (n' - n))%nat by lia. rewrite seq_app, filter_app.
    rewrite (filter_ext_in' _ (fun _ => false) (seq (0 + n) _)), filter_false, app_nil_r; [reflexivity|].
    intros b Hb. apply in_seq in Hb. apply negb_false_iff, Nat.eqb_eq, length_zero_iff_nil.
    unfold cells_of. rewrite (filter_ext_in' _ (fun _ => false)), filter_false; [reflexivity|]. intros x Hx. apply Nat.eqb_neq. specialize (H x Hx). lia.
  Qed.
  Lemma count_id b : count (Z.eqb (Z.of_nat b)) ids = length (cells_of b).
  Proof.
    unfold ids. rewrite count_map. unfold count, cells_of. f_equal. apply filter_ext_in'. intros x _.
    destruct (Nat.eqb_spec (key x) b) as [<-|N]; [apply Z.eqb_refl|apply Z.eqb_neq; lia].
  Qed.
  Lemma value_counts_spec n : (forall x, In x S -> (key x < n)%nat) ->
    value_counts ids = map (fun b => (Z.of_nat b, length (cells_of b))) (occupied n).
  Proof.
    intros H. unfold value_counts. assert (E : zsort (nodup Z.eq_dec ids) = map Z.of_nat (occupied n)).
    { apply sorted_unique.
      - apply strict_sorted; [apply zsort_sorted|]. eapply Permutation_NoDup; [apply zsort_perm|apply NoDup_nodup].
      - eapply map_sorted; [|apply occupied_sorted]. intros x y _ _ Hl. lia.
      - intros z. split.
        + intros Hz. apply (Permutation_in _ (Permutation_sym (zsort_perm _))) in Hz. apply nodup_In in Hz.
          unfold ids in Hz. apply in_map_iff in Hz as (x & <- & Hx). apply in_map, occupied_cell. split; [apply H, Hx|]. exists x. auto.
        + intros Hz. apply in_map_iff in Hz as (b & <- & Hb). apply occupied_cell in Hb as (_ & x & Hx & Ek). apply (Permutation_in _ (zsort_perm _)), nodup_In.
          unfold ids. rewrite <- Ek. apply (in_map (fun x => Z.of_nat (key x))), Hx. }
    rewrite E, map_map. apply map_ext. intros b. rewrite count_id. reflexivity.
  Qed.
  Lemma occupied_sum n (g : A -> Qc) : (forall x, In x S -> (key x < n)%nat) ->
    qsumf (fun b => qsumf g (cells_of b)) (occupied n) = qsumf g S.
  Proof.
    intros H. rewrite <- (qsumf_partition g key n S H). unfold occupied. rewrite qsumf_filter. apply qsumf_ext. intros b _.
    fold (cells_of b). destruct (cells_of b); [reflexivity|]. reflexivity.
  Qed.
  Lemma occupied_count n : (forall x, In x S -> (key x < n)%nat) -> nsumn (map (fun b => length (cells_of b)) (occupied n)) = length S.
  Proof.
    intros H. apply qn_inj. rewrite length_qsumf, <- (occupied_sum n (fun _ => 1) H).
    induction (occupied n) as [|b l IH]; [reflexivity|]. cbn [map nsumn fold_right]. fold (nsumn (map (fun b => length (cells_of b)) l)).
    rewrite qn_plus, IH, qsumf_cons, <- length_qsumf. reflexivity.
  Qed.
  Lemma ids_nonneg : existsb (fun i => Z.ltb i 0) ids = false.
  Proof. unfold ids. induction S as [|x l IH]; [reflexivity|]. cbn [map existsb]. rewrite IH, orb_false_r. apply Z.ltb_ge. lia. Qed.
  Lemma ids_len n : (forall x, In x S -> (key x < n)%nat) -> bincount_len ids n = n.
  Proof.
    intros H. unfold bincount_len. assert (G : (zmax_list ids < Z.of_nat n)%Z).
    { unfold ids. revert H. induction S as [|x l IH]; intros H; [cbn; lia|]. cbn [map zmax_list fold_right]. fold (zmax_list (map (fun x => Z.of_nat (key x)) l)).
      pose proof (H x (or_introl eq_refl)). specialize (IH (fun y Hy => H y (or_intror Hy))). lia. }
    lia.
  Qed.
  Lemma bincount_spec n : (forall x, In x S -> (key x < n)%nat) -> bincount ids n = Ok (map (fun b => length (cells_of b)) (seq 0 n)).
  Proof.
    intros H. unfold bincount. rewrite ids_nonneg, ids_len by exact H. f_equal. apply map_ext. intros b. rewrite <- count_id.
    apply count_ext. intros i _. apply Z.eqb_sym.
  Qed.
  Lemma bincount_w_spec n (g : A -> Qc) : (forall x, In x S -> (key x < n)%nat) ->
    bincount_w ids (map (fun x => Fin (g x)) S) n = Ok (map (fun b => Fin (qsumf g (cells_of b))) (seq 0 n)).
  Proof.
    intros H. unfold bincount_w. rewrite ids_nonneg, ids_len by exact H. unfold ids at 1. rewrite !map_length, Nat.eqb_refl. cbn [negb]. f_equal.
    apply map_ext. intros b. unfold qsumf. rewrite <- nsum_fin. f_equal. unfold cells_of, ids. clear H.
    induction S as [|x l IH]; [reflexivity|]. cbn [map combine filter fst snd].
    replace (Z.eqb (Z.of_nat (key x)) (Z.of_nat b)) with (Nat.eqb (key x) b) by (destruct (Nat.eqb_spec (key x) b) as [->|N]; symmetry; [apply Z.eqb_refl|apply Z.eqb_neq; lia]).
    destruct (Nat.eqb (key x) b); cbn [map]; rewrite IH; reflexivity.
  Qed.
  Lemma nonzero_spec {B} n (h : nat -> B) : nonzero (map (fun b => length (cells_of b)) (seq 0 n)) (map h (seq 0 n)) = map h (occupied n).
  Proof.
    unfold nonzero, occupied. induction (seq 0 n) as [|b l IH]; [reflexivity|]. cbn [map combine filter fst snd].
    destruct (Nat.eqb (length (cells_of b)) 0); cbn [negb map snd]; rewrite IH; reflexivity.
  Qed.
End Slice.
Lemma combine_map_map {A B C} (f : A -> B) (g : A -> C) l : combine (map f l) (map g l) = map (fun x => (f x, g x)) l.
Proof. induction l as [|x l IH]; [reflexivity|]. cbn. rewrite IH. reflexivity. Qed.

Definition mean_in {A} (g : A -> Qc) (S : list A) (key : A -> nat) (b : nat) : Qc := mean_of (map g (filter (fun x => Nat.eqb (key x) b) S)).
Lemma rel_slice_spec {A} (S : list A) (p y : A -> Qc) (bin : A -> nat) nb :
  (forall x, In x S -> rel_bin nb (p x) (bin x) /\ (y x = 0 \/ y x = 1)) ->
  rel_slice (map (fun x => Z.of_nat (digitize (rel_bins nb) (Fin (p x))) - 1)%Z S) (map (fun x => Fin (p x)) S) (map (fun x => Fin (y x)) S) (rel_bins nb)
  = Ok (map (fun b => Fin (mean_in p S bin b)) (occupied S bin nb), map (fun b => Fin (mean_in y S bin b)) (occupied S bin nb),
        map (fun b => (Z.of_nat b, length (cells_of S bin b))) (occupied S bin nb),
        map (fun b => (Z.of_nat b, length (cells_of S (fun x => if qeqb (y x) 1 then 1%nat else 0%nat) b))) (occupied S (fun x => if qeqb (y x) 1 then 1%nat else 0%nat) 2)).
Proof.
  intros H. assert (Hb : forall x, In x S -> (bin x < nb)%nat) by (intros x Hx; apply (H x Hx)).
  assert (Hb1 : forall x, In x S -> (bin x < nb + 1)%nat) by (intros x Hx; specialize (Hb x Hx); lia).
  rewrite (map_ext_in _ (fun x => Z.of_nat (bin x))).
  2: { intros x Hx. rewrite (rel_bin_digitize nb (p x) (bin x)) by apply (H x Hx). lia. }
  unfold rel_slice. rewrite rel_bins_length, (bincount_w_spec S bin _ p Hb1), (bincount_w_spec S bin _ y Hb1), (bincount_spec S bin _ Hb1). cbn [bind].
  rewrite !nonzero_spec, !combine_map_map, !map_map, (occupied_ext S bin nb (nb + 1)) by (try lia; exact Hb).
  assert (G : forall g, map (fun b => ndiv (Fin (qsumf g (cells_of S bin b))) (nnat (length (cells_of S bin b)))) (occupied S bin nb) = map (fun b => Fin (mean_in g S bin b)) (occupied S bin nb)).
  { intros g. apply map_ext_in. intros b Hi. apply in_occupied in Hi as [_ Hi].
    change (Fin (qsumf g (cells_of S bin b))) with (Fin (qsum (map g (cells_of S bin b)))). rewrite <- nsum_fin.
    transitivity (nmean (map Fin (map g (cells_of S bin b)))).
    - unfold nmean. rewrite !map_length. reflexivity.
    - apply nmean_fin. intros E. apply Hi. eapply map_eq_nil, E. }
  cbn [fst snd]. rewrite !G, (value_counts_spec S bin nb Hb). f_equal. f_equal.
  rewrite (map_ext_in _ (fun x => Z.of_nat (if qeqb (y x) 1 then 1 else 0))); [apply value_counts_spec|].
  - intros x _. destruct (qeqb (y x) 1); lia.
  - intros x Hx. destruct (H x Hx) as [_ [-> | ->]]; reflexivity.
Qed.

(** ** The whole diagram *)
Lemma reshape_reshape {A} s1 s2 (a : arr A) ix : prod s2 = prod s1 -> valid s2 ix ->
  get (reshape s2 (reshape s1 a)) ix = get (reshape s2 a) ix.
Proof. intros H Hv. cbn [reshape get shape]. rewrite flat_unflat; [reflexivity|]. rewrite <- H. apply flat_lt, Hv. Qed.
Lemma row_stack {A} (d : A) keep ls k : length ls = prod keep -> valid keep k -> row (stack d keep ls) k = nth (flat keep k) ls [].
Proof.
  intros Hl Hk. pose proof (flat_lt keep k Hk) as Hf. unfold stack. destruct (forallb _ ls) eqn:E; cbn [row].
  - set (m := length (hd [] ls)) in *. cbn [of_list shape]. rewrite last_last.
    rewrite forallb_forall in E. assert (Hm : forall l, In l ls -> length l = m) by (intros l Hi; apply Nat.eqb_eq, E, Hi).
    apply (nth_ext _ _ d d).
    + rewrite map_length, seq_length. symmetry. apply Hm, nth_In. lia.
    + intros j Hj. rewrite map_length, seq_length in Hj.
      rewrite (nth_indep _ d ((fun j => get (of_list d (keep ++ [m]) (concat ls)) (k ++ [j])) 0%nat)) by (rewrite map_length, seq_length; exact Hj).
      rewrite (map_nth (fun j => get (of_list d (keep ++ [m]) (concat ls)) (k ++ [j]))), seq_nth by exact Hj. cbn [Nat.add of_list get].
      rewrite flat_app by exact Hk. cbn [flat prod]. rewrite Nat.mul_1_r, Nat.add_0_r.
      rewrite <- (P_work.concat_nth d m ls (flat keep k) j Hm); [f_equal; lia|lia|exact Hj].
  - cbn [of_list get]. rewrite flat_app by exact Hk. cbn [flat prod]. f_equal. lia.
Qed.
Lemma mapM_total {A B} (g : A -> res B) (s : A -> B) l : (forall x, In x l -> g x = Ok (s x)) -> mapM g l = Ok (map s l).
Proof. intros H. apply mapM_fwd. induction l as [|x l IH]; constructor; [apply H; left; reflexivity|apply IH; intros y Hy; apply H; right; exact Hy]. Qed.

  Lemma col_amap {A B} (g : A -> B) sh2 (a : arr A) i : col (reshape sh2 (amap g a)) i = map g (col (reshape sh2 a) i).
  Proof. unfold col. rewrite map_map. reflexivity. Qed.
  Lemma ravel_col (a : arr num) N : shape a = [N] -> ravel a = col (reshape [N; 1%nat] a) 0.
  Proof.
    intros E. unfold ravel, col. rewrite E. cbn [reshape shape hd get]. rewrite indices_unflat, map_map. cbn [prod]. rewrite Nat.mul_1_r. apply map_ext. intros r.
    cbn [flat prod]. f_equal. rewrite E. f_equal. lia.
  Qed.
Section Api.
  Variables (f o : arr num) (nb : nat) (ax : option (list Z)) (ns : list nat).
  Let nd := length (shape o).
  Let m := mask_of nd ns.
  Let keep := unsel m (shape o).
  Hypothesis Hsh : shape f = shape o.
  Hypothesis Hsp : sorted_spelling nd ax ns.
  Hypothesis HK : prod keep <> 0%nat.
  Definition bin_id (x : num) : Z := (Z.of_nat (digitize (rel_bins nb) x) - 1)%Z.
  Lemma rel_split_ok : exists f2 o2,
    rel_split f o nb ax = Ok (amap bin_id f2, f2, o2, rel_bins nb) /\
    shape f2 = prod (sel m (shape o)) :: keep /\ shape o2 = prod (sel m (shape o)) :: keep /\
    forall k, valid keep k ->
      col (reshape [prod (sel m (shape o)); prod keep] f2) (flat keep k) = map (get f) (group (shape o) m k) /\
      col (reshape [prod (sel m (shape o)); prod keep] o2) (flat keep k) = map (get o) (group (shape o) m k).
  Proof.
    destruct (moved_columns o ax ns Hsp) as (b & Eb & Sb & Kb & Cb). fold nd m keep in Eb, Sb, Kb, Cb.
    assert (Hsp' : sorted_spelling (length (shape f)) ax ns) by (rewrite Hsh; exact Hsp).
    destruct (moved_columns f ax ns Hsp') as (c & Ec & Sc & Kc & Cc). rewrite Hsh in Ec, Sc, Kc, Cc. fold nd m keep in Ec, Sc, Kc, Cc.
    set (N := prod (sel m (shape o))) in *.
    exists (reshape (N :: keep) c), (reshape (N :: keep) b).
    assert (HN : (prod (shape c) / prod keep = N)%nat) by (rewrite Sc, prod_app; apply Nat.div_mul, HK).
    split; [|split; [reflexivity|split; [reflexivity|]]].
    - unfold rel_split. fold nd. fold (loop_axes nd ax). rewrite Hsh, list_eqb_refl. cbn [passert bind]. rewrite Ec, Eb. cbn [bind fst].
      rewrite Kc. destruct (prod keep) as [|K] eqn:EK; [contradiction|]. rewrite HN. reflexivity.
    - intros k Hk. rewrite <- (Cb k Hk), <- (Cc k Hk). pose proof (flat_lt keep k Hk).
      split; apply map_ext_in; intros r Hr; apply in_seq in Hr; apply reshape_reshape; try (cbn [prod]; lia); (constructor; [lia|]); (constructor; [lia|constructor]).
  Qed.
  Variable sl : list nat -> list num * list num * list (Z * nat) * list (Z * nat).
  Lemma rel_api :
    (forall k, valid keep k -> rel_slice (map (fun ix => bin_id (get f ix)) (group (shape o) m k)) (map (get f) (group (shape o) m k)) (map (get o) (group (shape o) m k)) (rel_bins nb) = Ok (sl k)) ->
    exists out, reliability_diagram f o nb ax = Ok out /\
    forall k, valid keep k ->
      forecast_points out k = fst (fst (fst (sl k))) /\ observed_points out k = snd (fst (fst (sl k))) /\
      point_counts out k = map snd (snd (fst (sl k))) /\ outcome_counts out k = map snd (snd (sl k)) /\
      (keep = [] -> point_labels out = map fst (snd (fst (sl k))) /\ outcome_labels out = map fst (snd (sl k))).
  Proof.
    intros H. destruct rel_split_ok as (f2 & o2 & E & Sf & So & C). set (N := prod (sel m (shape o))) in *.
    unfold reliability_diagram. rewrite E. cbn [bind]. unfold rel_agg. rewrite So. cbn [tl hd].
    assert (X : forall k, valid keep k -> rel_slice (col (reshape [N; prod keep] (amap bin_id f2)) (flat keep k)) (col (reshape [N; prod keep] f2) (flat keep k)) (col (reshape [N; prod keep] o2) (flat keep k)) (rel_bins nb) = Ok (sl k)).
    { intros k Hk. rewrite <- (H k Hk). destruct (C k Hk) as [C1 C2]. rewrite col_amap, C1, C2, map_map. reflexivity. }
    destruct keep as [|K0 keep'] eqn:Ekeep.
    - assert (V : valid [] []) by constructor. specialize (X [] V). cbn [prod flat] in X.
      assert (R : forall g : num -> Z, ravel (amap g f2) = map g (ravel f2)) by (intros g; unfold ravel; rewrite map_map; reflexivity).
      rewrite R, (ravel_col f2 N Sf), (ravel_col o2 N So). rewrite col_amap in X. rewrite X. cbn [bind].
      destruct (sl []) as [[[p t] pc] tc] eqn:Es. exists (Single p t pc tc). split; [reflexivity|].
      intros k Hk. inversion Hk; subst. rewrite Es. repeat split.
    - rewrite <- Ekeep in *. fold keep. rewrite <- (map_flat_indices keep), mapM_map.
      rewrite (mapM_total _ sl).
      2: { intros k Hk. apply X, in_indices, Hk. }
      cbn [bind]. eexists. split; [reflexivity|]. intros k Hk. cbn [forecast_points observed_points point_counts outcome_counts].
      pose proof (flat_lt keep k Hk) as Hf.
      rewrite !row_stack by (try exact Hk; rewrite !map_length; apply indices_length).
      assert (Nt : forall B (g : _ -> list B), nth (flat keep k) (map g (map sl (indices keep))) [] = g (sl k)).
      { intros B g. rewrite (nth_indep _ [] (g (sl (nth 0 (indices keep) [])))) by (rewrite !map_length, indices_length; exact Hf).
        rewrite (map_map sl g), (nth_indep _ _ (g (sl []))) by (rewrite map_length, indices_length; exact Hf).
        rewrite (map_nth (fun x => g (sl x))), nth_indices by exact Hk. reflexivity. }
      rewrite (Nt _ (fun s => fst (fst (fst s)))), (Nt _ (fun s => snd (fst (fst s)))), (Nt _ (fun s => map snd (snd (fst s)))), (Nt _ (fun s => map snd (snd s))).
      repeat (split; [reflexivity|]). intros Z. congruence.
  Qed.
End Api.
