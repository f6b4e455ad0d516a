(** Proofs about the work flow shared by corr and brier_decomp: slices are the averaging groups. *)
From Coq Require Import ZArith List Lia Bool Arith QArith Qcanon Reals.
From Verif Require Import QcTac QSum Num NdArr Numpy M_common NdAxes Spec NdMove P_boot M_boot RTier M_special.
Import ListNotations.
Open Scope nat_scope.

Lemma kept_pick nd ns ix : kept nd ns ix = pick (restof nd ns) ix. Proof. reflexivity. Qed.
Lemma out_axes nd ns : filter (fun j => negb (existsb (Z.eqb (Z.of_nat j)) (map Z.of_nat ns))) (seq 0 nd) = restof nd ns.
Proof.
  unfold restof. apply filter_ext. intros j. f_equal. induction ns as [|n ns IH]; [reflexivity|]. cbn [map existsb]. rewrite IH. f_equal.
  destruct (Nat.eqb_spec j n); [subst; apply Z.eqb_refl|]. apply Z.eqb_neq. lia.
Qed.
Lemma restof_first_perm nd ns : NoDup ns -> (forall x, In x ns -> x < nd) -> is_perm nd (restof nd ns ++ ns).
Proof. intros H1 H2. unfold is_perm. rewrite <- (restof_perm nd ns H1 H2). apply Permutation.Permutation_app_comm. Qed.
Lemma valid_pick p sh ix : (forall j, In j p -> j < length sh) -> valid sh ix -> valid (pick p sh) (pick p ix).
Proof.
  intros Hp Hv. induction p as [|j p IH]; [constructor|]. constructor; [apply valid_nth; [exact Hv|apply Hp; left; reflexivity]|].
  apply IH. intros x Hx. apply Hp. right. exact Hx.
Qed.
Lemma valid_unpick p sh ix : is_perm (length sh) p -> valid (pick p sh) ix ->
  valid sh (map (fun ax => nth (index_of ax p) ix 0) (seq 0 (length sh))).
Proof.
  intros Hp Hv.
  assert (N : forall j, j < length sh -> (fun ax => nth (index_of ax p) ix 0) j < nth j sh 0).
  { intros j Hj. assert (Hin : In j p) by (apply (is_perm_in _ _ _ Hp), Hj).
    pose proof (index_of_lt _ _ Hin) as Hi. rewrite <- (pick_length p sh) in Hi.
    pose proof (valid_nth _ _ _ Hv Hi) as H. unfold pick in H at 1. rewrite pick_length in Hi.
    rewrite nth_map_in in H by exact Hi. rewrite nth_index_of in H by exact Hin. exact H. }
  clear Hv Hp. revert N. generalize (fun ax => nth (index_of ax p) ix 0). intros g N.
  assert (G : forall sh s, (forall j, j < length sh -> g (s + j) < nth j sh 0) -> valid sh (map g (seq s (length sh)))).
  { clear. induction sh as [|x sh IH]; intros s H; cbn; constructor; [specialize (H 0); rewrite Nat.add_0_r in H; apply H; cbn; lia|].
    apply IH. intros j Hj. specialize (H (S j)). rewrite Nat.add_succ_r in H. apply H. cbn. lia. }
  apply G. exact N.
Qed.
Lemma app_len_inj {A} (a b c e : list A) : a ++ b = c ++ e -> length a = length c -> a = c.
Proof. revert c. induction a as [|x a IH]; intros [|y c] H Hl; cbn in *; try discriminate; [reflexivity|]. injection H as -> H. f_equal. apply IH; [exact H|lia]. Qed.
(** all cells of a group, in the order given by the averaged axes *)
Definition group_list (sh ns k : list nat) : list (list nat) :=
  map (fun s => map (fun ax => nth (index_of ax (restof (length sh) ns ++ ns)) (k ++ s) 0) (seq 0 (length sh))) (indices (pick ns sh)).
Lemma group_list_Cells sh ns k : NoDup ns -> (forall x, In x ns -> x < length sh) -> valid (kept (length sh) ns sh) k ->
  Cells sh ns k (group_list sh ns k).
Proof.
  intros Hn Hlt Hk. pose proof (restof_first_perm _ _ Hn Hlt) as Hp. set (p := restof (length sh) ns ++ ns) in *.
  assert (Hpl := is_perm_length _ _ Hp). rewrite kept_pick in Hk.
  assert (Hks : forall s, valid (pick ns sh) s -> valid (pick p sh) (k ++ s)) by (intros s Hs; unfold p; rewrite pick_app; apply valid_app; assumption).
  assert (Hkl : length k = length (restof (length sh) ns)) by (rewrite (valid_length _ _ Hk); apply pick_length).
  assert (Hu : forall s, valid (pick ns sh) s -> pick p (map (fun ax => nth (index_of ax p) (k ++ s) 0) (seq 0 (length sh))) = k ++ s).
  { intros s Hs. apply pick_unpick; [exact Hp|]. rewrite (valid_length _ _ (Hks s Hs)), pick_length. exact Hpl. }
  split.
  - unfold group_list. fold p. assert (ND := NoDup_indices (pick ns sh)).
    assert (V : forall s, In s (indices (pick ns sh)) -> valid (pick ns sh) s) by (intros s; apply in_indices).
    revert ND V. generalize (indices (pick ns sh)). intros l ND V. induction ND as [|s l Hs ND IH]; [constructor|].
    cbn [map]. constructor; [|apply IH; intros; apply V; right; assumption].
    intros Hin. apply in_map_iff in Hin as (s' & E & Hs'). apply (f_equal (pick p)) in E.
    rewrite !Hu in E by (apply V; [left; reflexivity || right; assumption] || (apply V; right; assumption) || (apply V; left; reflexivity)).
    apply app_inv_head in E. subst s'. contradiction.
  - intros ix. unfold group_list. fold p. rewrite in_map_iff. split.
    + intros (s & <- & Hs). apply in_indices in Hs. split; [apply valid_unpick; [exact Hp|apply Hks, Hs]|].
      rewrite kept_pick. pose proof (Hu s Hs) as E. unfold p in E at 1. rewrite pick_app in E.
      apply app_len_inj in E; [exact E|]. rewrite pick_length. symmetry. exact Hkl.
    + intros [Hv Hkk]. exists (pick ns ix). split; [|apply in_indices, valid_pick; assumption].
      rewrite kept_pick in Hkk. rewrite <- Hkk, <- pick_app. apply unpick; [exact Hp|apply (valid_length _ _ Hv)].
Qed.
(** the axis argument is understood: None, or a non-empty list of distinct non-negative axes *)
Definition plain_axes (nd : nat) (ax : option (list Z)) (ns : list nat) : Prop :=
  match ax with
  | None => ns = seq 0 nd
  | Some l => l = map Z.of_nat ns /\ NoDup ns /\ (forall x, In x ns -> x < nd) /\ ns <> []
  end.
Lemma plain_axes_facts nd ax ns : plain_axes nd ax ns ->
  NoDup ns /\ (forall x, In x ns -> x < nd) /\ match ax with None => all_axes nd | Some l => l end = map Z.of_nat ns /\ (ns = [] -> nd = 0).
Proof.
  destruct ax as [l|]; cbn.
  - intros (-> & H1 & H2 & H3). repeat split; auto. intros E. contradiction.
  - intros ->. split; [apply seq_NoDup|]. split; [intros x Hx; apply in_seq in Hx; lia|]. split; [reflexivity|]. destruct nd; [reflexivity|discriminate].
Qed.
Lemma slice_cells (a : arr num) ns k K N :
  let sh := shape a in let p := restof (length sh) ns ++ ns in
  NoDup ns -> (forall x, In x ns -> x < length sh) -> valid (kept (length sh) ns sh) k -> N = prod (pick ns sh) -> K = prod (kept (length sh) ns sh) ->
  map (fun j => get (reshape [K; N] (transpose p a)) [flat (kept (length sh) ns sh) k; j]) (seq 0 N) = map (get a) (group_list sh ns k).
Proof.
  intros sh p Hn Hlt Hk HN HK. unfold group_list. rewrite map_map, indices_unflat, map_map, <- HN. apply map_ext_in. intros j Hj. apply in_seq in Hj.
  cbn [reshape get flat prod]. rewrite !Nat.mul_1_r, Nat.add_0_r. rewrite shape_transpose. fold p.
  assert (Hs : valid (pick ns sh) (unflat (pick ns sh) j)) by (apply unflat_valid; lia).
  assert (E : flat (kept (length sh) ns sh) k * N + j = flat (pick p sh) (k ++ unflat (pick ns sh) j)).
  { unfold p. rewrite pick_app, <- kept_pick. rewrite flat_app by exact Hk. rewrite flat_unflat by lia. rewrite HN. reflexivity. }
  fold sh. rewrite E. rewrite unflat_flat by (unfold p; rewrite pick_app; apply valid_app; assumption). reflexivity.
Qed.
Lemma concat_nth {A} (d : A) m (ls : list (list A)) i q : (forall l, In l ls -> length l = m) -> i < length ls -> q < m ->
  nth (i * m + q) (concat ls) d = nth q (nth i ls []) d.
Proof.
  intros H Hi Hq. revert i Hi. induction ls as [|l ls IH]; intros i Hi; [cbn in Hi; lia|]. cbn [concat].
  assert (Hl : length l = m) by (apply H; left; reflexivity). destruct i as [|i].
  - rewrite app_nth1 by lia. reflexivity.
  - rewrite app_nth2 by (rewrite Hl; cbn; lia). rewrite Hl. replace (S i * m + q - m) with (i * m + q) by (cbn; lia).
    apply IH; [intros; apply H; right; assumption|cbn in Hi; lia].
Qed.
Definition lead (m : nat) (sh : list nat) : list nat := if Nat.eqb m 1 then sh else m :: sh.
Definition lead_ix (m q : nat) (k : list nat) : list nat := if Nat.eqb m 1 then k else q :: k.
Section Work.
  Context {B : Type} (d : B) (func : nat -> list num -> list num -> res (list B)).
  Variables (f o : arr num) (ax : option (list Z)) (ns : list nat).
  Let sh := shape o.
  Let nd := length sh.
  Hypothesis (Hsh : shape f = shape o) (Hax : plain_axes nd ax ns).
  Let keep := kept nd ns sh.
  Definition slice_run (i : nat) : res (list B) :=
    func i (map (get f) (group_list sh ns (unflat keep i))) (map (get o) (group_list sh ns (unflat keep i))).
  Lemma workflow_unfold : workflow d func f o ax =
    (ret <- mapM slice_run (seq 0 (prod keep)) ;;
     match ret with
     | [] => Raise ValueError
     | r0 :: _ => r <- moveaxis (-1) 0 (of_list d (keep ++ [length r0]) (concat ret)) ;;
        Ok (if Nat.eqb (hd 0 (shape r)) 1 then Arr (tl (shape r)) (fun ix => get r (0 :: ix)) else r)
     end).
  Proof.
    destruct (plain_axes_facts _ _ _ Hax) as (Hn & Hlt & El & Hnil). unfold workflow. rewrite Hsh, list_eqb_refl. cbn [passert bind].
    fold sh. fold nd. rewrite El, out_axes. rewrite map_length.
    pose proof (restof_first_perm _ _ Hn Hlt) as Hp. pose proof (is_perm_length _ _ Hp) as Hpl. rewrite app_length in Hpl. rewrite Hpl, Nat.eqb_refl. cbn [negb].
    rewrite map_map. replace (map (fun x => Z.to_nat (Z.of_nat x)) ns) with ns by (rewrite <- (map_id ns) at 1; apply map_ext; intros; symmetry; apply Nat2Z.id).
    rewrite !shape_transpose, Hsh. fold sh.
    assert (E1 : firstn (length (restof nd ns)) (pick (restof nd ns ++ ns) sh) = keep).
    { rewrite pick_app, firstn_app, pick_length, Nat.sub_diag, firstn_O, app_nil_r. rewrite firstn_all2 by (rewrite pick_length; lia). reflexivity. }
    assert (E2 : match map Z.of_nat ns with [] => pick (restof nd ns ++ ns) sh | _ => skipn (length (restof nd ns)) (pick (restof nd ns ++ ns) sh) end = pick ns sh).
    { destruct ns as [|n ns'] eqn:E.
      - cbn. rewrite app_nil_r. rewrite restof_nil. rewrite (Hnil eq_refl). reflexivity.
      - cbn [map]. rewrite pick_app, skipn_app, pick_length, Nat.sub_diag, skipn_O. rewrite skipn_all2 by (rewrite pick_length; lia). reflexivity. }
    rewrite E1, E2. rewrite pick_app, prod_app. fold keep. rewrite Nat.eqb_refl. cbn [negb].
    rewrite (mapM_ext _ slice_run); [reflexivity|].
    intros i Hi. apply in_seq in Hi. unfold slice_run.
    assert (Hv : valid keep (unflat keep i)) by (apply unflat_valid; lia).
    assert (Ei : i = flat keep (unflat keep i)) by (symmetry; apply flat_unflat; lia).
    pose proof (slice_cells o ns (unflat keep i) (prod keep) (prod (pick ns sh)) Hn Hlt Hv eq_refl eq_refl) as So.
    pose proof (slice_cells f ns (unflat keep i) (prod keep) (prod (pick ns sh))) as Sf. rewrite Hsh in Sf. specialize (Sf Hn Hlt Hv eq_refl eq_refl).
    cbv zeta in So, Sf. fold sh in So, Sf. fold nd in So, Sf. fold keep in So, Sf. rewrite <- Ei in So, Sf. rewrite So, Sf. reflexivity.
  Qed.
  Variable m : nat.
  Hypothesis Hm : forall i x y v, func i x y = Ok v -> length v = m.
  Lemma workflow_spec r : workflow d func f o ax = Ok r ->
    0 < prod keep /\ shape r = lead m keep /\
    forall k, valid keep k -> exists v, func (flat keep k) (map (get f) (group_list sh ns k)) (map (get o) (group_list sh ns k)) = Ok v /\
      forall q, q < m -> get r (lead_ix m q k) = nth q v d.
  Proof.
    rewrite workflow_unfold. intros H. destruct (mapM slice_run (seq 0 (prod keep))) as [ret|] eqn:Er; [|discriminate]. cbn [bind] in H.
    pose proof (mapM_length _ _ _ Er) as Hlen. rewrite seq_length in Hlen.
    assert (Hall : forall i, i < prod keep -> slice_run i = Ok (nth i ret [])).
    { intros i Hi. pose proof (mapM_nth _ _ _ i 0 [] Er) as G. rewrite seq_length, seq_nth in G by exact Hi. apply G, Hi. }
    destruct ret as [|r0 ret'] eqn:Eret; [discriminate|]. rewrite <- Eret in *.
    assert (Hpos : 0 < prod keep) by (rewrite <- Hlen, Eret; cbn; lia).
    assert (Hrows : forall l, In l ret -> length l = m).
    { intros l Hl. destruct (In_nth _ _ [] Hl) as (i & Hi & <-). rewrite Hlen in Hi. apply Hall in Hi. unfold slice_run in Hi. eapply Hm, Hi. }
    assert (E0 : length r0 = m) by (apply Hrows; rewrite Eret; left; reflexivity). rewrite E0 in H.
    set (a := of_list d (keep ++ [m]) (concat ret)) in *.
    assert (Hla : length (shape a) = S (length keep)) by (cbn [a of_list shape]; rewrite app_length; cbn; lia).
    destruct (moveaxis_front a (-1) (length keep)) as (b & Eb & Sb & Gb); [split; [lia|right; lia]|].
    rewrite Eb in H. cbn [bind] in H. injection H as <-.
    assert (Sb' : shape b = m :: keep).
    { rewrite Sb. cbn [a of_list shape]. rewrite app_nth2, Nat.sub_diag by lia. cbn [nth]. unfold drop_axis.
      rewrite firstn_app, Nat.sub_diag, firstn_O, app_nil_r, firstn_all. rewrite skipn_all2 by (rewrite app_length; cbn; lia). rewrite app_nil_r. reflexivity. }
    split; [exact Hpos|]. rewrite Sb'. cbn [hd tl]. unfold lead, lead_ix. split; [destruct (Nat.eqb m 1); [reflexivity|exact Sb']|].
    intros k Hk. exists (nth (flat keep k) ret []). pose proof (flat_lt _ _ Hk) as Hf. pose proof (Hall _ Hf) as R. unfold slice_run in R. rewrite unflat_flat in R by exact Hk.
    split; [exact R|]. intros q Hq.
    assert (G : get b (q :: k) = nth q (nth (flat keep k) ret []) d).
    { rewrite Gb by (rewrite Hla, (valid_length _ _ Hk); lia). rewrite firstn_all2, skipn_all2 by (rewrite (valid_length _ _ Hk); lia).
      cbn [a of_list get]. rewrite flat_app by exact Hk. cbn [prod flat]. rewrite !Nat.mul_1_r, Nat.add_0_r.
      apply concat_nth; [exact Hrows|lia|exact Hq]. }
    destruct (Nat.eqb_spec m 1) as [->|Hm1]; cbn [get]; [|exact G]. replace q with 0 in G |- * by lia. exact G.
  Qed.
  Lemma workflow_accepts : 0 < prod keep -> (forall i x y, exists v, func i x y = Ok v) -> exists r, workflow d func f o ax = Ok r.
  Proof.
    intros Hp Hf. rewrite workflow_unfold.
    assert (E : exists ret, mapM slice_run (seq 0 (prod keep)) = Ok ret).
    { generalize (seq 0 (prod keep)). intros l. induction l as [|i l [ret IH]]; [eexists; reflexivity|]. cbn [mapM]. unfold slice_run at 1.
      destruct (Hf i (map (get f) (group_list sh ns (unflat keep i))) (map (get o) (group_list sh ns (unflat keep i)))) as [v ->]. cbn [bind]. rewrite IH. eexists. reflexivity. }
    destruct E as [ret E]. rewrite E. cbn [bind]. pose proof (mapM_length _ _ _ E) as Hl. rewrite seq_length in Hl.
    destruct ret as [|r0 ret]; [cbn in Hl; lia|].
    destruct (moveaxis_front (of_list d (keep ++ [length r0]) (concat (r0 :: ret))) (-1) (length keep)) as (b & -> & _); [cbn [of_list shape]; rewrite app_length; cbn [length]; split; [lia|right; lia]|].
    cbn [bind]. eexists. reflexivity.
  Qed.
End Work.
(** Negative axes are rejected. *)
Lemma filter_length_lt {A} (p q : A -> bool) l : length (filter p l) <= length l.
Proof. induction l as [|x l IH]; cbn; [lia|]. destruct (p x); cbn; lia. Qed.
Lemma workflow_negative {B} (d : B) func f o l : shape f = shape o -> NoDup l -> Exists (fun z => z < 0)%Z l ->
  workflow d func f o (Some l) = Raise ValueError.
Proof.
  intros Hsh Hnd Hneg. unfold workflow. rewrite Hsh, list_eqb_refl. cbn [passert bind]. set (nd := length (shape o)).
  assert (E : Nat.eqb (length (filter (fun j => negb (existsb (Z.eqb (Z.of_nat j)) l)) (seq 0 nd)) + length l) nd = false).
  { apply Nat.eqb_neq. apply Exists_exists in Hneg as (z & Hz & Hz0).
    pose proof (count_negb (fun j => existsb (Z.eqb (Z.of_nat j)) l) (seq 0 nd)) as C. rewrite seq_length in C. unfold count in C.
    assert (length (filter (fun j => existsb (Z.eqb (Z.of_nat j)) l) (seq 0 nd)) < length l); [|lia].
    set (g := filter _ (seq 0 nd)). rewrite <- (map_length Z.of_nat g). change (S (length (map Z.of_nat g)) <= length l).
    change (length (z :: map Z.of_nat g) <= length l). apply NoDup_incl_length.
    - constructor.
      + intros H. apply in_map_iff in H as (j & Hj & _). lia.
      + apply FinFun.Injective_map_NoDup; [intros a b; apply Nat2Z.inj|]. apply NoDup_filter, seq_NoDup.
    - intros y [<-|Hy]; [exact Hz|]. apply in_map_iff in Hy as (j & <- & Hj). apply filter_In in Hj as [_ Hj]. apply existsb_exists in Hj as (w & Hw & E). apply Z.eqb_eq in E. rewrite E. exact Hw. }
  rewrite E. reflexivity.
Qed.
