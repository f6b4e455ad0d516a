(** Proofs about ranks (rankdata, rank_histogram). *)
From Coq Require Import ZArith List Lia Bool Arith Sorted QArith Qcanon.
From Verif Require Import QcTac QSum Num NdArr Numpy M_common NdAxes Spec M_ens NdMove P_boot.
Import ListNotations.
Open Scope nat_scope.

(** ** Order on non-NaN numbers *)
Lemma nlt_irrefl x : nlt x x = false.
Proof. destruct x; try reflexivity. cbn [nlt]. apply qltb_ge. apply Qcle_refl. Qed.
Lemma nlt_trans x y z : nlt x y = true -> nlt y z = true -> nlt x z = true.
Proof.
  destruct x, y, z; cbn [nlt]; try discriminate; try reflexivity. intros H1 H2.
  apply qltb_lt in H1. apply qltb_lt in H2. apply qltb_lt. qlra.
Qed.
Lemma nlt_total x y : is_nan x = false -> is_nan y = false -> nlt x y = true \/ x = y \/ nlt y x = true.
Proof.
  destruct x as [a| | |], y as [b| | |]; cbn; try discriminate; auto. intros _ _.
  destruct (qltb_spec a b) as [H|H]; [auto|]. destruct (qltb_spec b a) as [H'|H']; [auto|]. right; left.
  f_equal. qlra.
Qed.
Lemma nle_lt_eq x y : is_nan x = false -> is_nan y = false -> nle x y = true <-> (nlt x y = true \/ x = y).
Proof.
  destruct x as [a| | |], y as [b| | |]; cbn; try discriminate; intros _ _; try (split; intros; auto; fail);
    try (split; [intros H; discriminate|intros [H|H]; discriminate]).
  split; intros H.
  - apply qleb_le in H. destruct (qltb_spec a b); [auto|]. right. f_equal. qlra.
  - apply qleb_le. destruct H as [H|H]; [apply qltb_lt in H; qlra|]. injection H as ->. apply Qcle_refl.
Qed.
Lemma nlt_notnan_l x y : nlt x y = true -> is_nan x = false.
Proof. destruct x, y; cbn; try discriminate; reflexivity. Qed.

(** ** Rank of the observation, ties *)
Lemma count_split {A} (p q : A -> bool) l : (forall x, p x = true -> q x = true) ->
  count q l = count p l + count (fun x => q x && negb (p x))%bool l.
Proof.
  intros H. induction l as [|x r IH]; [reflexivity|]. rewrite !count_cons, IH.
  specialize (H x). destruct (p x) eqn:Ep; [rewrite H by reflexivity|]; cbn; [lia|]. destruct (q x); cbn; lia.
Qed.
Lemma rank_min_notnan col i x : nth i col NaN = x -> is_nan x = false -> rank_min col i = 1 + count (fun y => nlt y x) col.
Proof. intros E H. unfold rank_min. rewrite E. destruct x; try discriminate; reflexivity. Qed.
Lemma rank_min_obs o ms : is_nan o = false -> rank_min (o :: ms) 0 = 1 + how_many (fun y => nlt y o) ms.
Proof.
  intros H. rewrite (rank_min_notnan _ _ o) by auto. rewrite count_cons, nlt_irrefl. reflexivity.
Qed.
Lemma count_lt_strict col x y : In x col -> nlt x y = true -> count (fun z => nlt z x) col < count (fun z => nlt z y) col.
Proof.
  intros Hin Hlt. rewrite (count_split (fun z => nlt z x) (fun z => nlt z y)) by (intros z Hz; eapply nlt_trans; eassumption).
  assert (0 < count (fun z => (nlt z y && negb (nlt z x))%bool) col); [|lia].
  apply count_pos. exists x. split; [exact Hin|]. rewrite Hlt, nlt_irrefl. reflexivity.
Qed.
(** Equal ranks mean equal values. *)
Lemma rank_eq_iff o ms m : is_nan o = false -> m < length ms ->
  Nat.eqb (rank_min (o :: ms) 0) (rank_min (o :: ms) (S m)) = true <-> nth m ms NaN = o.
Proof.
  intros Ho Hm. set (col := o :: ms). rewrite Nat.eqb_eq.
  rewrite (rank_min_notnan col 0 o) by auto.
  assert (Hin : In (nth m ms NaN) col) by (right; apply nth_In, Hm).
  assert (Hio : In o col) by (left; reflexivity).
  destruct (is_nan (nth m ms NaN)) eqn:En.
  - assert (E : nth (S m) col NaN = NaN) by (cbn [nth col]; destruct (nth m ms NaN); try discriminate; reflexivity).
    unfold rank_min at 1. rewrite E. split; intros H; [exfalso|rewrite H in En; congruence].
    assert (count (fun y => nlt y o) col < count (fun y => negb (is_nan y)) col); [|lia].
    rewrite (count_split (fun y => nlt y o) (fun y => negb (is_nan y))).
    + assert (0 < count (fun z => (negb (is_nan z) && negb (nlt z o))%bool) col); [|lia].
      apply count_pos. exists o. split; [exact Hio|]. rewrite Ho, nlt_irrefl. reflexivity.
    + intros z Hz. rewrite (nlt_notnan_l _ _ Hz). reflexivity.
  - rewrite (rank_min_notnan col (S m) (nth m ms NaN)) by auto. split.
    + intros H. destruct (nlt_total (nth m ms NaN) o En Ho) as [C|[C|C]]; [|exact C|].
      * pose proof (count_lt_strict col _ _ Hin C). lia.
      * pose proof (count_lt_strict col _ _ Hio C). lia.
    + intros ->. reflexivity.
Qed.
Lemma count_seq_nth {A} (p : A -> bool) (l : list A) d : count (fun i => p (nth i l d)) (seq 0 (length l)) = count p l.
Proof.
  induction l as [|x r IH]; [reflexivity|]. cbn [length seq]. rewrite !count_cons. cbn [nth]. f_equal.
  rewrite <- seq_shift, count_map. exact IH.
Qed.
Lemma tie_count_spec o ms : is_nan o = false ->
  how_many (fun y => nlt y o) ms + tie_count (o :: ms) = how_many (fun y => nle y o) ms.
Proof.
  intros Ho. unfold tie_count. cbn [length]. replace (S (length ms) - 1) with (length ms) by lia.
  rewrite <- seq_shift, count_map.
  assert (E : count (fun x => Nat.eqb (rank_min (o :: ms) 0) (rank_min (o :: ms) (S x))) (seq 0 (length ms))
            = count (fun y => (nle y o && negb (nlt y o))%bool) ms).
  { rewrite <- (count_seq_nth _ ms NaN). apply count_ext. intros i Hi. apply in_seq in Hi.
    set (y := nth i ms NaN).
    pose proof (rank_eq_iff o ms i Ho ltac:(lia)) as Hr. fold y in Hr.
    destruct (Nat.eqb (rank_min (o :: ms) 0) (rank_min (o :: ms) (S i))) eqn:Er.
    - assert (Ey : y = o) by (apply Hr; reflexivity). rewrite Ey, nlt_irrefl.
      rewrite nle_refl by exact Ho. reflexivity.
    - destruct (nle y o) eqn:El; [|reflexivity]. destruct (nlt y o) eqn:El2; [reflexivity|]. exfalso.
      assert (is_nan y = false) by (destruct y, o; try discriminate; reflexivity).
      apply nle_lt_eq in El; [|assumption|exact Ho]. destruct El as [C|C]; [congruence|].
      apply Hr in C. discriminate. }
  rewrite E. change (@how_many num) with (@count num). symmetry. apply count_split. intros x Hx.
  apply nle_lt_eq; [eapply nlt_notnan_l; exact Hx|exact Ho|left; exact Hx].
Qed.
Lemma tie_count_zero o ms : is_nan o = false -> ~ In o ms -> tie_count (o :: ms) = 0.
Proof.
  intros Ho Hn. unfold tie_count. cbn [length]. replace (S (length ms) - 1) with (length ms) by lia.
  rewrite <- seq_shift, count_map. apply count_none. intros i Hi. apply in_seq in Hi.
  destruct (Nat.eqb _ _) eqn:E; [|reflexivity]. apply rank_eq_iff in E; [|exact Ho|lia]. exfalso. apply Hn.
  rewrite <- E. apply nth_In. lia.
Qed.

(** ** The tie loop *)
Lemma unique_in l k : In k (unique_nat l) <-> In k l.
Proof.
  unfold unique_nat. rewrite filter_In, in_seq, existsb_eqb_in. split; [tauto|]. intros H. split; [|exact H].
  assert (k <= list_max l); [|lia]. assert (F : Forall (fun x => x <= list_max l) l) by (apply list_max_le; lia).
  rewrite Forall_forall in F. apply F, H.
Qed.
Lemma seq_sorted s n : StronglySorted lt (seq s n).
Proof.
  revert s. induction n as [|n IH]; intros s; cbn; constructor; [apply IH|]. apply Forall_forall. intros x Hx. apply in_seq in Hx. lia.
Qed.
Lemma filter_sorted {A} (R : A -> A -> Prop) p l : StronglySorted R l -> StronglySorted R (filter p l).
Proof.
  induction 1 as [|x l Hs IH Hf]; cbn; [constructor|]. destruct (p x); [|exact IH]. constructor; [exact IH|].
  rewrite Forall_forall in *. intros y Hy. apply filter_In in Hy as [Hy _]. apply Hf, Hy.
Qed.
Lemma unique_sorted l : StronglySorted lt (unique_nat l).
Proof. apply filter_sorted, seq_sorted. Qed.
Lemma in_tail_sorted l k : StronglySorted lt l -> (In k (skipn 1 l) <-> In k l /\ exists k', In k' l /\ k' < k).
Proof.
  intros H. destruct H as [|u us Hs Hf]; cbn [skipn]; [cbn; tauto|]. rewrite Forall_forall in Hf. split.
  - intros Hk. split; [right; exact Hk|]. exists u. split; [left; reflexivity|apply Hf, Hk].
  - intros [[<-|Hk] (k' & Hk' & Hlt)]; [|exact Hk]. exfalso. destruct Hk' as [<-|Hk']; [lia|]. apply Hf in Hk'. lia.
Qed.
Lemma tie_passes rng ties us obs : (forall u, In u us -> u <> 0) -> NoDup us ->
  exists r, foldM (tie_pass rng ties) us obs = Ok r /\ shape r = shape obs /\
    forall ix, get r ix = if existsb (Nat.eqb (get ties ix)) us then get obs ix + (rng ix) mod (get ties ix + 1) else get obs ix.
Proof.
  revert obs. induction us as [|u us IH]; intros obs H0 Hnd; cbn [foldM].
  - exists obs. repeat split. 
  - unfold tie_pass at 1. rewrite (proj2 (Nat.eqb_neq u 0)) by (apply H0; left; reflexivity). cbn [bind].
    inversion Hnd as [|? ? Hu Hus]; subst.
    destruct (IH (Arr (shape obs) (fun ix => if Nat.eqb (get ties ix) u then get obs ix + (rng ix) mod (u + 1) else get obs ix))) as (r & Er & Hs & Hg);
      [intros v Hv; apply H0; right; exact Hv|exact Hus|].
    exists r. split; [exact Er|]. split; [exact Hs|]. intros ix. rewrite Hg. cbn [get existsb].
    destruct (Nat.eqb_spec (get ties ix) u) as [E|E]; [|reflexivity]. cbn [orb].
    destruct (existsb (Nat.eqb (get ties ix)) us) eqn:Ee; [|rewrite E; reflexivity].
    exfalso. apply existsb_eqb_in in Ee. apply Hu. rewrite <- E. exact Ee.
Qed.
Definition ties_of (c : arr num) (ix : list nat) : nat := tie_count (column c ix).
Lemma rankdata_exact rng c : exists r, rankdata rng c = Ok r /\ shape r = tl (shape c) /\
  forall ix, valid (tl (shape c)) ix ->
    ((forall ix', valid (tl (shape c)) ix' -> ties_of c ix <= ties_of c ix') -> get r ix = rank_min (column c ix) 0) /\
    ((exists ix', valid (tl (shape c)) ix' /\ ties_of c ix' < ties_of c ix) ->
       get r ix = rank_min (column c ix) 0 + (rng ix) mod (ties_of c ix + 1)).
Proof.
  unfold rankdata. set (ties := Arr (tl (shape c)) (fun ix => tie_count (column c ix))).
  set (us := skipn 1 (unique_nat (ravel ties))).
  assert (Hin : forall k, In k us <-> In k (ravel ties) /\ exists k', In k' (ravel ties) /\ k' < k).
  { intros k. unfold us. rewrite (in_tail_sorted _ _ (unique_sorted _)), unique_in. split.
    - intros [H (k' & H1 & H2)]. split; [exact H|]. exists k'. rewrite unique_in in H1. auto.
    - intros [H (k' & H1 & H2)]. split; [exact H|]. exists k'. rewrite unique_in. auto. }
  assert (Hrav : forall k, In k (ravel ties) <-> exists ix, valid (tl (shape c)) ix /\ ties_of c ix = k).
  { intros k. unfold ravel. rewrite in_map_iff. split; intros (ix & H1 & H2).
    - apply in_indices in H2. exists ix. auto.
    - exists ix. split; [exact H2|]. apply in_indices, H1. }
  destruct (tie_passes rng ties us (Arr (tl (shape c)) (fun ix => rank_min (column c ix) 0))) as (r & Er & Hs & Hg).
  - intros u Hu. apply Hin in Hu as [_ (k' & _ & Hk)]. lia.
  - assert (S : StronglySorted lt us).
    { unfold us. destruct (unique_sorted (ravel ties)) as [|u l Hsl _]; [constructor|exact Hsl]. }
    clear -S. induction S as [|x l H IH Hf]; constructor; [|exact IH]. intros C. rewrite Forall_forall in Hf. apply Hf in C. lia.
  - exists r. split; [exact Er|]. split; [exact Hs|]. intros ix Hix. rewrite Hg. cbn [get ties]. split.
    + intros Hmin. destruct (existsb _ us) eqn:E; [|reflexivity]. exfalso. apply existsb_eqb_in in E.
      apply Hin in E as [_ (k' & Hk' & Hlt)]. apply Hrav in Hk' as (ix' & Hv & <-). specialize (Hmin ix' Hv). unfold ties_of in *. lia.
    + intros (ix' & Hv & Hlt). destruct (existsb _ us) eqn:E; [reflexivity|]. exfalso.
      assert (In (ties_of c ix) us).
      { apply Hin. split; [apply Hrav; exists ix; auto|]. exists (ties_of c ix'). split; [apply Hrav; exists ix'; auto|exact Hlt]. }
      apply existsb_eqb_in in H. unfold ties_of in *. congruence.
Qed.
Lemma ties_dec c ix : (forall ix', valid (tl (shape c)) ix' -> ties_of c ix <= ties_of c ix') \/
  (exists ix', valid (tl (shape c)) ix' /\ ties_of c ix' < ties_of c ix).
Proof.
  destruct (existsb (fun ix' => Nat.ltb (ties_of c ix') (ties_of c ix)) (indices (tl (shape c)))) eqn:E.
  - right. apply existsb_exists in E as (ix' & H1 & H2). exists ix'. split; [apply in_indices, H1|apply Nat.ltb_lt, H2].
  - left. intros ix' Hv. destruct (Nat.le_gt_cases (ties_of c ix) (ties_of c ix')) as [|C]; [assumption|]. exfalso.
    assert (T : existsb (fun ix' => Nat.ltb (ties_of c ix') (ties_of c ix)) (indices (tl (shape c))) = true).
    { apply existsb_exists. exists ix'. split; [apply in_indices, Hv|apply Nat.ltb_lt, C]. }
    congruence.
Qed.
Lemma rankdata_bounds rng c r ix : rankdata rng c = Ok r -> valid (tl (shape c)) ix ->
  shape r = tl (shape c) /\ rank_min (column c ix) 0 <= get r ix <= rank_min (column c ix) 0 + tie_count (column c ix).
Proof.
  intros H Hv. destruct (rankdata_exact rng c) as (r' & E & Hs & G). rewrite H in E. injection E as <-.
  split; [exact Hs|]. destruct (G ix Hv) as [G1 G2]. destruct (ties_dec c ix) as [D|D].
  - rewrite (G1 D). lia.
  - rewrite (G2 D). unfold ties_of. pose proof (Nat.mod_upper_bound (rng ix) (tie_count (column c ix) + 1)). lia.
Qed.

(** ** Serial or parallel *)
(** The result of any accepted run has the right shape, and every cell lies between the smallest and
    the largest admissible rank of its column. *)
Lemma norm_axis_neg nd z a : norm_axis nd z = Ok a -> (z < 0)%Z -> Z.of_nat a = (z + Z.of_nat nd)%Z /\ a < nd.
Proof. intros H Hz. apply norm_axis_ok in H as [H [->| ->]]; split; lia. Qed.
Lemma ranks_parallel w z rng c r : w <> 1 -> 1 < length (shape c) -> ranks_of w z rng c = Ok r ->
  exists j parts, Z.of_nat j = (z + Z.of_nat (length (shape c) - 1))%Z /\ j < length (shape c) - 1 /\
    length parts = nth j (tl (shape c)) 0 /\ 0 < length parts /\
    (forall i, i < length parts -> rankdata (rng i) (unit_slice (S j) i c) = Ok (nth i parts (Arr [] (fun _ => 0)))) /\
    r = concat_units (Arr [] (fun _ => 0)) j parts.
Proof.
  intros Hw Hlen. unfold ranks_of. rewrite (proj2 (Nat.eqb_neq w 1)) by exact Hw.
  destruct (Z.ltb_spec z 0) as [Hz|Hz]; [|discriminate]. cbn [passert bind].
  destruct (norm_axis (length (shape c)) z) as [ax|] eqn:Ea; [|discriminate].
  destruct (Nat.eqb_spec (nth ax (shape c) 0) 0) as [|Hne]; [discriminate|].
  destruct (Nat.eqb w 0); [discriminate|].
  destruct (mapM _ _) as [parts|] eqn:Em; [|discriminate]. cbn [bind].
  destruct (norm_axis (length (shape c) - 1) z) as [oax|] eqn:Eo; [|discriminate]. cbn [bind].
  intros E. injection E as <-.
  apply norm_axis_neg in Ea as [Ea1 Ea2]; [|exact Hz]. apply norm_axis_neg in Eo as [Eo1 Eo2]; [|exact Hz].
  assert (Eax : ax = S oax) by lia. subst ax.
  assert (Enth : nth (S oax) (shape c) 0 = nth oax (tl (shape c)) 0) by (destruct (shape c); [destruct oax; reflexivity|reflexivity]).
  rewrite Enth in *. set (n := nth oax (tl (shape c)) 0) in *.
  assert (Hcomb : combine (seq 0 n) (split_units (S oax) c) = map (fun i => (i, unit_slice (S oax) i c)) (seq 0 n)).
  { unfold split_units. rewrite Enth. fold n. generalize (seq 0 n). intros l. induction l as [|x l IH]; [reflexivity|]. cbn. rewrite IH. reflexivity. }
  rewrite Hcomb in Em. rewrite mapM_map in Em.
  exists oax, parts. pose proof (mapM_length _ _ _ Em) as Hl. rewrite seq_length in Hl.
  split; [lia|]. split; [exact Eo2|]. split; [exact Hl|]. split; [lia|]. split; [|reflexivity].
  intros i Hi. pose proof (mapM_nth _ _ _ i 0 (Arr [] (fun _ => 0)) Em) as Hn.
  rewrite seq_length, seq_nth in Hn by lia. cbn [fst snd] in Hn. apply Hn. lia.
Qed.
Lemma concat_units_get {A} (d : arr A) j parts ix : get (concat_units d j parts) ix = get (nth (nth j ix 0) parts d) (set_nth j 0 ix).
Proof. reflexivity. Qed.
Lemma unit_slice_tl {A} (c : arr A) j i : shape c <> [] -> tl (shape (unit_slice (S j) i c)) = set_nth j 1 (tl (shape c)).
Proof. intros H. unfold unit_slice; cbn [shape]. destruct (shape c); [contradiction|]. rewrite set_nth_cons. reflexivity. Qed.

Lemma ranks_of_bounds w z rng c r : 1 < length (shape c) -> ranks_of w z rng c = Ok r ->
  shape r = tl (shape c) /\ forall ix, valid (tl (shape c)) ix ->
    rank_min (column c ix) 0 <= get r ix <= rank_min (column c ix) 0 + tie_count (column c ix).
Proof.
  intros Hlen H. assert (Hne : shape c <> []) by (destruct (shape c); [cbn in Hlen; lia|discriminate]).
  destruct (Nat.eq_dec w 1) as [->|Hw].
  - unfold ranks_of in H. cbn [Nat.eqb] in H. split.
    + destruct (rankdata_exact (rng 0) c) as (r' & E & Hs & _). rewrite H in E. injection E as <-. exact Hs.
    + intros ix Hv. apply (rankdata_bounds _ _ _ _ H Hv).
  - destruct (ranks_parallel w z rng c r Hw Hlen H) as (j & parts & Hj & Hjl & Hpl & Hpos & Hparts & ->).
    assert (Htl : length (tl (shape c)) = length (shape c) - 1) by (destruct (shape c); cbn; lia).
    assert (Hsh : forall i, i < length parts -> shape (nth i parts (Arr [] (fun _ => 0))) = set_nth j 1 (tl (shape c))).
    { intros i Hi. specialize (Hparts i Hi). destruct (rankdata_exact (rng i) (unit_slice (S j) i c)) as (r' & E & Hs & _).
      rewrite Hparts in E. injection E as <-. rewrite Hs. apply unit_slice_tl, Hne. }
    split.
    + unfold concat_units; cbn [shape]. destruct parts as [|p parts]; [cbn in Hpos; lia|]. cbn [hd].
      specialize (Hsh 0 Hpos). cbn [nth] in Hsh. rewrite Hsh, set_nth_set_nth by lia. rewrite Hpl. apply set_nth_same. lia.
    + intros ix Hv. rewrite concat_units_get.
      pose proof (valid_nth _ _ j Hv ltac:(lia)) as Hi. rewrite <- Hpl in Hi.
      pose proof (valid_length _ _ Hv) as Hvl.
      assert (Hv' : valid (tl (shape (unit_slice (S j) (nth j ix 0) c))) (set_nth j 0 ix)).
      { rewrite unit_slice_tl by exact Hne. apply valid_set_nth_shape; [exact Hv|lia|lia]. }
      destruct (rankdata_bounds _ _ _ _ (Hparts _ Hi) Hv') as [_ B].
      rewrite column_unit_slice in B; [exact B|exact Hne|lia|reflexivity].
Qed.
Lemma mapM_all_ok {A B} (f : A -> res B) l : (forall x, In x l -> exists y, f x = Ok y) -> exists ys, mapM f l = Ok ys.
Proof.
  induction l as [|x r IH]; intros H; [exists []; reflexivity|]. cbn [mapM].
  destruct (H x (or_introl eq_refl)) as (y & ->). cbn [bind].
  destruct IH as (ys & ->); [intros z Hz; apply H; right; exact Hz|]. exists (y :: ys). reflexivity.
Qed.
Definition par_ok (nd : nat) (sh : list nat) (w : nat) (z : Z) : Prop :=
  w = 1 \/ (1 < w /\ exists j, j < nd /\ z = (Z.of_nat j - Z.of_nat nd)%Z /\ 0 < nth j sh 0).
Lemma ranks_of_ok w z rng c : 1 < length (shape c) -> par_ok (length (shape c) - 1) (tl (shape c)) w z -> exists r, ranks_of w z rng c = Ok r.
Proof.
  intros Hlen [->|(Hw & j & Hj & -> & Hpos)]; unfold ranks_of.
  - cbn [Nat.eqb]. destruct (rankdata_exact (rng 0) c) as (r & E & _). exists r. exact E.
  - rewrite (proj2 (Nat.eqb_neq w 1)) by lia. destruct (Z.ltb_spec (Z.of_nat j - Z.of_nat (length (shape c) - 1)) 0); [|lia].
    cbn [passert bind]. rewrite (norm_axis_fun (length (shape c)) _ (S j)) by lia.
    assert (En : nth (S j) (shape c) 0 = nth j (tl (shape c)) 0) by (destruct (shape c); [destruct j; reflexivity|reflexivity]).
    rewrite En. destruct (Nat.eqb_spec (nth j (tl (shape c)) 0) 0); [lia|]. rewrite (proj2 (Nat.eqb_neq w 0)) by lia.
    destruct (mapM_all_ok (fun p => rankdata (rng (fst p)) (snd p)) (combine (seq 0 (nth j (tl (shape c)) 0)) (split_units (S j) c))) as (parts & ->).
    { intros p _. destruct (rankdata_exact (rng (fst p)) (snd p)) as (r & E & _). exists r. exact E. }
    cbn [bind]. rewrite (norm_axis_fun (length (shape c) - 1) _ j) by lia. cbn [bind]. eexists. reflexivity.
Qed.

(** ** rank_histogram *)
Lemma vstack_obs_spec o fm c : vstack_obs o fm = Ok c ->
  shape o <> [] /\ tl (shape fm) = shape o /\ shape c = S (hd 0 (shape fm)) :: shape o /\
  forall ix, column c ix = get o ix :: column fm ix.
Proof.
  unfold vstack_obs. destruct (shape o) as [|s sh] eqn:E; [discriminate|].
  destruct (list_eqb (tl (shape fm)) (s :: sh)) eqn:El; [|discriminate]. apply list_eqb_spec in El.
  intros H. injection H as <-. split; [discriminate|]. split; [exact El|]. split; [reflexivity|].
  intros ix. unfold column; cbn [shape hd]. cbn [seq map get]. f_equal. rewrite <- seq_shift, map_map. reflexivity.
Qed.
Lemma vstack_obs_ok o fm : shape o <> [] -> tl (shape fm) = shape o -> exists c, vstack_obs o fm = Ok c.
Proof.
  intros H E. unfold vstack_obs. destruct (shape o) as [|s sh]; [contradiction|]. rewrite E, list_eqb_refl. eexists; reflexivity.
Qed.
Lemma any_nan_false a : any_nan a = false -> forall ix, valid (shape a) ix -> is_nan (get a ix) = false.
Proof.
  intros H ix Hv. destruct (is_nan (get a ix)) eqn:E; [|reflexivity]. exfalso.
  assert (T : any_nan a = true); [|congruence]. apply existsb_exists. exists (get a ix). split; [|exact E].
  apply in_map, in_indices, Hv.
Qed.
(** What one cell of the result may be. *)
Definition admissible (o : num) (ms : list num) (k : nat) : Prop :=
  how_many (fun m => nlt m o) ms < k <= 1 + how_many (fun m => nle m o) ms.
Lemma rank_histogram_cells skip w z rng f o ea n r :
  rank_histogram skip w z rng f o ea = Ok r -> axis_is (length (shape f)) ea n ->
  shape o <> [] /\ drop_axis n (shape f) = shape o /\ shape r = shape o /\
  (skip = false -> (forall ix, valid (shape f) ix -> is_nan (get f ix) = false) /\ (forall ix, valid (shape o) ix -> is_nan (get o ix) = false)) /\
  forall ix, valid (shape o) ix ->
    let ms := members_at n f ix in
    (skip = true -> is_nan (get o ix) = true \/ is_nan (nsum ms) = true -> get r ix = NaN) /\
    (is_nan (get o ix) = false -> (skip = true -> is_nan (nsum ms) = false) -> exists k, get r ix = nnat k /\ admissible (get o ix) ms k).
Proof.
  intros H Hea. unfold rank_histogram in H.
  destruct (if skip then _ else _) as [[]|] eqn:Es; [|discriminate]. cbn [bind] in H.
  destruct (moveaxis ea 0 f) as [fm|] eqn:Em; [|discriminate]. cbn [bind] in H.
  destruct (vstack_obs o fm) as [c|] eqn:Ec; [|discriminate]. cbn [bind] in H.
  destruct (ranks_of w z rng c) as [ranks|] eqn:Er; [|discriminate]. cbn [bind] in H. injection H as <-.
  destruct (moveaxis_front f ea n Hea) as (fm' & Em' & Hs & _). rewrite Em in Em'. injection Em' as <-.
  destruct (vstack_obs_spec _ _ _ Ec) as (Ho & Htl & Hcs & Hcol).
  rewrite Hs in Htl. cbn [tl] in Htl.
  assert (Hlen : 1 < length (shape c)) by (rewrite Hcs; destruct (shape o); [contradiction|cbn; lia]).
  destruct (ranks_of_bounds _ _ _ _ _ Hlen Er) as [Hrs Hb]. rewrite Hcs in Hrs. cbn [tl] in Hrs. rewrite Hcs in Hb. cbn [tl] in Hb.
  split; [exact Ho|]. split; [exact Htl|]. split; [exact Hrs|]. split.
  { intros ->. unfold passert in Es. destruct (any_nan f) eqn:E1; [discriminate|]. destruct (any_nan o) eqn:E2; [discriminate|].
    split; apply any_nan_false; assumption. }
  intros ix Hv ms. cbn [get].
  assert (Hlix : length ix = length (shape f) - 1).
  { rewrite (valid_length _ _ Hv), <- Htl, drop_axis_remove. apply remove_at_length. apply Hea. }
  assert (Hms : column fm ix = ms) by (apply (column_front f fm ea n); assumption).
  rewrite Hms. split.
  - intros -> [E|E]; rewrite E; [reflexivity|]. rewrite orb_true_r. reflexivity.
  - intros Eo En. exists (get ranks ix). split.
    + rewrite Eo. destruct skip; [rewrite (En eq_refl)|]; reflexivity.
    + specialize (Hb ix Hv). rewrite Hcol, Hms in Hb. rewrite rank_min_obs in Hb by exact Eo.
      pose proof (tie_count_spec (get o ix) ms Eo). unfold admissible. lia.
Qed.
Lemma rank_histogram_accepts skip w z rng f o ea n :
  axis_is (length (shape f)) ea n -> shape o <> [] -> drop_axis n (shape f) = shape o ->
  (skip = false -> any_nan f = false /\ any_nan o = false) ->
  par_ok (length (shape o)) (shape o) w z ->
  exists r, rank_histogram skip w z rng f o ea = Ok r.
Proof.
  intros Hea Ho Hd Hn Hp. unfold rank_histogram.
  assert (E : (if skip then Ok tt else passert (negb (any_nan f)) ;;; passert (negb (any_nan o))) = Ok tt).
  { destruct skip; [reflexivity|]. destruct (Hn eq_refl) as [-> ->]. reflexivity. }
  rewrite E. cbn [bind]. destruct (moveaxis_front f ea n Hea) as (fm & Em & Hs & _). rewrite Em. cbn [bind].
  destruct (vstack_obs_ok o fm) as (c & Ec); [exact Ho|rewrite Hs; exact Hd|]. rewrite Ec. cbn [bind].
  destruct (vstack_obs_spec _ _ _ Ec) as (_ & _ & Hcs & _).
  destruct (ranks_of_ok w z rng c) as (r & ->).
  - rewrite Hcs. destruct (shape o); [contradiction|cbn; lia].
  - rewrite Hcs. cbn [tl length]. rewrite Nat.sub_succ, Nat.sub_0_r. exact Hp.
  - cbn [bind]. eexists; reflexivity.
Qed.
Lemma no_tie_unique o ms k : is_nan o = false -> ~ In o ms -> admissible o ms k -> k = 1 + how_many (fun m => nlt m o) ms.
Proof.
  intros Ho Hn [H1 H2]. pose proof (tie_count_spec o ms Ho). rewrite (tie_count_zero o ms Ho Hn) in *. lia.
Qed.
Lemma nsum_nan_iff ms : (forall m, In m ms -> m = NaN \/ is_fin m) -> is_nan (nsum ms) = true <-> In NaN ms.
Proof.
  intros H. split.
  - induction ms as [|m ms IH]; [discriminate|]. intros E. destruct (H m (or_introl eq_refl)) as [->|[q ->]]; [left; reflexivity|].
    right. apply IH; [intros x Hx; apply H; right; exact Hx|]. cbn [nsum] in E.
    destruct (nsum ms) eqn:En; try reflexivity; cbn in E; discriminate.
  - intros Hin. rewrite nsum_nan by exact Hin. reflexivity.
Qed.
Lemma admissible_range o ms k : admissible o ms k -> 1 <= k <= S (length ms).
Proof. intros [H1 H2]. pose proof (count_le (fun m => nle m o) ms). unfold how_many, count in *. lia. Qed.

(** The serial run in full: cells with the smallest tie count of the whole array get the lowest
    admissible rank, all others lowest + drawn number modulo (ties + 1). *)
Definition ties (o : num) (ms : list num) : nat := how_many (fun m => nle m o) ms - how_many (fun m => nlt m o) ms.
Lemma ties_tie_count o ms : is_nan o = false -> ties o ms = tie_count (o :: ms).
Proof. intros H. pose proof (tie_count_spec o ms H). unfold ties. lia. Qed.
Lemma rank_serial_exact z rng f o ea n r :
  rank_histogram false 1 z rng f o ea = Ok r -> axis_is (length (shape f)) ea n ->
  forall ix, valid (shape o) ix ->
    let T := fun ix => ties (get o ix) (members_at n f ix) in
    let low := 1 + how_many (fun m => nlt m (get o ix)) (members_at n f ix) in
    ((forall ix', valid (shape o) ix' -> T ix <= T ix') -> get r ix = nnat low) /\
    ((exists ix', valid (shape o) ix' /\ T ix' < T ix) -> get r ix = nnat (low + (rng 0 ix) mod (T ix + 1))).
Proof.
  intros H Hea ix Hv T low.
  destruct (rank_histogram_cells _ _ _ _ _ _ _ _ _ H Hea) as (Ho & Hd & _ & Hnan & _).
  destruct (Hnan eq_refl) as [Hnf Hno]. unfold rank_histogram in H.
  destruct (passert (negb (any_nan f)) ;;; passert (negb (any_nan o))) as [[]|]; [|discriminate]. cbn [bind] in H.
  destruct (moveaxis ea 0 f) as [fm|] eqn:Em; [|discriminate]. cbn [bind] in H.
  destruct (vstack_obs o fm) as [c|] eqn:Ec; [|discriminate]. cbn [bind] in H.
  unfold ranks_of in H. cbn [Nat.eqb] in H.
  destruct (rankdata_exact (rng 0) c) as (rk & Erk & Hsr & G). rewrite Erk in H. cbn [bind andb] in H. injection H as <-.
  destruct (vstack_obs_spec _ _ _ Ec) as (_ & Htl & Hcs & Hcol).
  rewrite Hcs in G. cbn [tl] in G.
  assert (Hc : forall ix, valid (shape o) ix -> column c ix = get o ix :: members_at n f ix).
  { intros j Hj. rewrite Hcol. f_equal. apply (column_front f fm ea n); [exact Hea|exact Em|].
    rewrite (valid_length _ _ Hj), <- Hd, drop_axis_remove. apply remove_at_length. apply Hea. }
  assert (Ht : forall ix, valid (shape o) ix -> ties_of c ix = T ix).
  { intros j Hj. unfold ties_of, T. rewrite Hc by exact Hj. symmetry. apply ties_tie_count. apply Hno, Hj. }
  assert (Hl : rank_min (column c ix) 0 = low) by (rewrite Hc by exact Hv; apply rank_min_obs, Hno, Hv).
  destruct (G ix Hv) as [G1 G2]. rewrite Hl in *. cbn [get]. split.
  - intros Hm. rewrite G1; [reflexivity|]. intros ix' Hv'. rewrite !Ht by assumption. apply Hm, Hv'.
  - intros (ix' & Hv' & Hlt). rewrite G2; [rewrite Ht by exact Hv; reflexivity|]. exists ix'. split; [exact Hv'|]. rewrite !Ht by assumption. exact Hlt.
Qed.
