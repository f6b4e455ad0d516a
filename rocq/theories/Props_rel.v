(** Properties C29, C30, C31: the reliability diagram. *)
From Coq Require Import ZArith List Lia Bool Arith Permutation Sorted QArith Qcanon.
From Verif Require Import QcTac QSum Num NdArr Numpy M_common NdAxes M_boot Spec Spec_prob P_boot M_rel Spec_rel P_rel.
From Verif Require P_special.
Import ListNotations.
Open Scope Qc_scope.

(** Vocabulary: [rel_bin nb p j] says that p lies in the j-th of nb half-open intervals of equal width over
    [0, 1 + 1e-8); forecast_points, observed_points, point_counts and outcome_counts read the curve of one slice
    off the result. *)

(** ** C29 *)
(** every probability gets the number of the one bin that contains it *)
Theorem c29_unique_bin : forall f o nb ax ids f2 o2 bins ix p, (0 < nb)%nat ->
  rel_split f o nb ax = Ok (ids, f2, o2, bins) -> get f2 ix = Fin p -> 0 <= p -> p <= 1 ->
  exists k, get ids ix = Z.of_nat k /\ rel_bin nb p k /\ forall j, rel_bin nb p j -> j = k.
Proof.
  intros f o nb ax ids f2 o2 bins ix p Hn H Ef H0 H1. destruct (rel_bin_exists nb p Hn H0 H1) as (k & Hk). exists k.
  assert (E : ids = amap (bin_id nb) f2).
  { unfold rel_split in H. destruct (passert _); [|discriminate]. cbn [bind] in H. destruct (move_loop _ 0 f) as [[f1 t]|]; [|discriminate]. cbn [bind] in H.
    destruct (move_loop _ 0 o) as [[o1 t']|]; [|discriminate]. cbn [bind] in H. destruct (prod (skipn t (shape f1))); [discriminate|]. injection H as <- <- _ _. reflexivity. }
  split; [|split; [exact Hk|intros j Hj; eapply rel_bin_fun; eassumption]].
  rewrite E. cbn [amap get]. rewrite Ef. unfold bin_id. rewrite (rel_bin_digitize nb p k Hk). lia.
Qed.
Print Assumptions c29_unique_bin.
Theorem c29_monotone : forall f o nb ax ids f2 o2 bins ix jx p q, (0 < nb)%nat ->
  rel_split f o nb ax = Ok (ids, f2, o2, bins) -> get f2 ix = Fin p -> get f2 jx = Fin q -> 0 <= p -> p <= q -> q <= 1 ->
  (get ids ix <= get ids jx)%Z.
Proof.
  intros f o nb ax ids f2 o2 bins ix jx p q Hn H Ei Ej H0 Hpq H1.
  destruct (c29_unique_bin f o nb ax ids f2 o2 bins ix p Hn H Ei H0 (Qcle_trans _ _ _ Hpq H1)) as (a & -> & Ha & _).
  destruct (c29_unique_bin f o nb ax ids f2 o2 bins jx q Hn H Ej (Qcle_trans _ _ _ H0 Hpq) H1) as (b & -> & Hb & _).
  apply Nat2Z.inj_le, (rel_bin_mono nb p q a b Ha Hb Hpq).
Qed.
Print Assumptions c29_monotone.
(** probability one belongs to the last bin, for every number of bins up to 10^8 + 1 and for no larger one *)
Theorem c29_one_in_last_bin : forall f o nb ax ids f2 o2 bins ix, (0 < nb)%nat ->
  rel_split f o nb ax = Ok (ids, f2, o2, bins) -> get f2 ix = Fin 1 ->
  (get ids ix = Z.of_nat (nb - 1) <-> qn nb <= qz 100000001).
Proof.
  intros f o nb ax ids f2 o2 bins ix Hn H E. rewrite <- (rel_bin_one nb Hn).
  destruct (c29_unique_bin f o nb ax ids f2 o2 bins ix 1 Hn H E) as (k & -> & Hk & U); [discriminate|discriminate|]. split; intros G.
  - apply Nat2Z.inj in G. subst k. exact Hk.
  - apply U in G. congruence.
Qed.
Print Assumptions c29_one_in_last_bin.
(** the binned samples are the given ones: column k of the rearranged arrays consists of the cells of group k,
    forecast and observation staying together *)
Theorem c29_samples : forall f o nb ax ns k L, shape f = shape o -> axes_are (length (shape o)) ax ns -> same_sign ax ->
  Forall2 lt k (kept (length (shape o)) ns (shape o)) -> Cells (shape o) ns k L ->
  exists ids f2 o2 bins, rel_split f o nb ax = Ok (ids, f2, o2, bins) /\
    shape ids = length L :: kept (length (shape o)) ns (shape o) /\
    Permutation (map (fun ix => (get f ix, get o ix)) L) (map (fun r => (get f2 (r :: k), get o2 (r :: k))) (seq 0 (length L))).
Proof.
  intros f o nb ax ns k L Hsh Hax Hss Hk HL. destruct (same_sign_spelling _ _ _ Hax Hss) as (ns' & P & Hsp).
  set (nd := length (shape o)) in *. rewrite (kept_perm nd ns ns' (shape o) P) in Hk |- *.
  assert (HC : Cells (shape o) ns' k L).
  { destruct HL as [H1 H2]. split; [exact H1|]. intros ix. rewrite H2. fold nd. rewrite (kept_perm nd ns ns' ix P). reflexivity. }
  apply Cells_perm in HC. rewrite (kept_unsel nd) in Hk |- * by reflexivity. fold nd in HC. set (m := mask_of nd ns') in *.
  assert (HK : prod (unsel m (shape o)) <> 0%nat) by (pose proof (valid_prod_pos _ _ Hk); lia).
  destruct (rel_split_ok f o nb ax ns' Hsh Hsp HK) as (f2 & o2 & E & Sf & So & C). fold nd m in Sf, So, C.
  set (keep := unsel m (shape o)) in *. destruct (C k Hk) as [C1 C2]. set (N := prod (sel m (shape o))) in *.
  assert (HN : length L = N).
  { rewrite <- (Permutation_length HC). apply (f_equal (@length _)) in C1. unfold col in C1. cbn [reshape shape hd] in C1. rewrite !map_length, seq_length in C1. symmetry. exact C1. }
  exists (amap (bin_id nb) f2), f2, o2, (rel_bins nb). split; [exact E|]. split; [cbn [amap shape]; rewrite Sf, HN; reflexivity|].
  rewrite HN. eapply perm_trans; [apply Permutation_map; symmetry; exact HC|].
  rewrite <- (combine_map_map (get f) (get o)), <- C1, <- C2. unfold col. cbn [reshape shape hd]. rewrite combine_map_map.
  erewrite map_ext_in; [reflexivity|]. cbv beta. intros r Hr. apply in_seq in Hr. unfold reshape; cbn [get]. rewrite Sf, So.
  replace (unflat (N :: keep) (flat [N; prod keep] [r; flat keep k])) with (r :: k); [reflexivity|].
  rewrite <- (unflat_flat (N :: keep) (r :: k)) at 1; [f_equal; cbn [flat prod]; lia|]. constructor; [lia|exact Hk].
Qed.
Print Assumptions c29_samples.
(** shape (3,2), five bins, samples along axis 0 *)
Definition rl_f : arr num := of_list NaN [3; 2]%nat [Fin (Q2Qc (1#10)); Fin (Q2Qc (3#10)); Fin 1; Fin (Q2Qc (7#10)); Fin (Q2Qc (1#5)); Fin (Q2Qc (3#4))].
Definition rl_o : arr num := of_list NaN [3; 2]%nat (map nnat [0; 1; 1; 0; 0; 1]%nat).
Example c29_nonvacuous : exists ids f2 o2 bins, rel_split rl_f rl_o 5 (Some [0%Z]) = Ok (ids, f2, o2, bins) /\
  shape ids = [3; 2]%nat /\ map (get ids) (indices [3; 2]%nat) = [0; 1; 4; 3; 0; 3]%Z /\ get f2 [1; 0]%nat = Fin 1 /\ qn 5 <= qz 100000001.
Proof. do 4 eexists. split; [reflexivity|]. split; [reflexivity|]. split; [reflexivity|]. split; [reflexivity|]. discriminate. Qed.

(** ** C30 *)
Definition good_data (f o : arr num) (p y : list nat -> Qc) : Prop :=
  forall ix, Forall2 lt ix (shape o) -> get f ix = Fin (p ix) /\ 0 <= p ix /\ p ix <= 1 /\ get o ix = Fin (y ix) /\ (y ix = 0 \/ y ix = 1).
(** the points of every slice: one per occupied bin, in the order of the bins, with the mean forecast and the
    observed frequency of the bin and the number of samples in it; the numbers of non-events and events *)
Theorem c30_values : forall f o nb ax ns p y (bin : list nat -> nat), (0 < nb)%nat -> shape f = shape o ->
  axes_are (length (shape o)) ax ns -> same_sign ax -> prod (kept (length (shape o)) ns (shape o)) <> 0%nat ->
  good_data f o p y -> (forall ix, Forall2 lt ix (shape o) -> rel_bin nb (p ix) (bin ix)) ->
  exists out, reliability_diagram f o nb ax = Ok out /\
  forall k L, Forall2 lt k (kept (length (shape o)) ns (shape o)) -> Cells (shape o) ns k L ->
  exists bs, StronglySorted lt bs /\ (forall b, In b bs <-> exists ix, In ix L /\ bin ix = b) /\
    forecast_points out k = map (fun b => Fin (mean_of (map p (filter (fun ix => Nat.eqb (bin ix) b) L)))) bs /\
    observed_points out k = map (fun b => Fin (mean_of (map y (filter (fun ix => Nat.eqb (bin ix) b) L)))) bs /\
    point_counts out k = map (fun b => how_many (fun ix => Nat.eqb (bin ix) b) L) bs /\
    outcome_counts out k = filter (fun c => negb (Nat.eqb c 0)) [how_many (fun ix => qeqb (y ix) 0) L; how_many (fun ix => qeqb (y ix) 1) L] /\
    (kept (length (shape o)) ns (shape o) = [] -> point_labels out = map Z.of_nat bs /\
       outcome_labels out = filter (fun e => existsb (fun ix => qeqb (y ix) (qz e)) L) [0; 1]%Z).
Proof.
  intros f o nb ax ns p y bin Hn Hsh Hax Hss HK Hg Hbin. destruct (same_sign_spelling _ _ _ Hax Hss) as (ns' & P & Hsp).
  set (nd := length (shape o)) in *. rewrite (kept_perm nd ns ns' (shape o) P) in HK |- *.
  rewrite (kept_unsel nd) in HK |- * by reflexivity. set (m := mask_of nd ns') in *. set (keep := unsel m (shape o)) in *.
  set (G := fun k => group (shape o) m k).
  assert (HG : forall k ix, In ix (G k) -> Forall2 lt ix (shape o)) by (intros k ix Hi; apply in_group in Hi; apply Hi).
  set (ev := fun ix => if qeqb (y ix) 1 then 1%nat else 0%nat).
  destruct (rel_api f o nb ax ns' Hsh Hsp HK (fun k =>
    (map (fun b => Fin (mean_in p (G k) bin b)) (occupied (G k) bin nb), map (fun b => Fin (mean_in y (G k) bin b)) (occupied (G k) bin nb),
     map (fun b => (Z.of_nat b, length (cells_of (G k) bin b))) (occupied (G k) bin nb), map (fun b => (Z.of_nat b, length (cells_of (G k) ev b))) (occupied (G k) ev 2)))) as (out & E & H).
  { fold nd m keep. intros k Hk. fold (G k).
    rewrite (map_ext_in (get f) (fun ix => Fin (p ix))) by (intros ix Hi; apply HG in Hi; apply (Hg ix Hi)).
    rewrite (map_ext_in (get o) (fun ix => Fin (y ix))) by (intros ix Hi; apply HG in Hi; apply (Hg ix Hi)).
    rewrite (map_ext_in _ (fun ix => Z.of_nat (digitize (rel_bins nb) (Fin (p ix))) - 1)%Z) by (intros ix Hi; apply HG in Hi; unfold bin_id; destruct (Hg ix Hi) as (-> & _); reflexivity).
    apply (rel_slice_spec (G k) p y bin nb). intros ix Hi. apply HG in Hi. split; [apply Hbin, Hi|apply (Hg ix Hi)]. }
  exists out. split; [exact E|]. intros k L Hk HL. destruct (H k Hk) as (H1 & H2 & H3 & H4 & H5). cbn [fst snd] in H1, H2, H3, H4, H5.
  assert (HC : Permutation (G k) L).
  { apply Cells_perm. destruct HL as [A B]. split; [exact A|]. intros ix. rewrite B. fold nd. rewrite (kept_perm nd ns ns' ix P). reflexivity. }
  exists (occupied (G k) bin nb). split; [apply occupied_sorted|].
  assert (PF : forall g : list nat -> bool, Permutation (filter g (G k)) (filter g L)) by (intros g; apply P_special.perm_filter, HC).
  split; [|split; [|split; [|split; [|split]]]].
  - intros b. rewrite occupied_cell. split.
    + intros (_ & ix & Hi & Eb). exists ix. split; [eapply Permutation_in; eassumption|exact Eb].
    + intros (ix & Hi & Eb). apply (Permutation_in _ (Permutation_sym HC)) in Hi. split; [|exists ix; auto]. subst b. apply HG in Hi. apply (Hbin ix Hi).
  - rewrite H1. apply map_ext. intros b. unfold mean_in. rewrite <- !qmean_mean_of. f_equal. apply qmean_perm, Permutation_map, PF.
  - rewrite H2. apply map_ext. intros b. unfold mean_in. rewrite <- !qmean_mean_of. f_equal. apply qmean_perm, Permutation_map, PF.
  - rewrite H3, map_map. apply map_ext. intros b. apply Permutation_length, PF.
  - rewrite H4, map_map. unfold occupied. cbn [seq filter].
    assert (C0 : length (cells_of (G k) ev 0) = how_many (fun ix => qeqb (y ix) 0) L).
    { unfold how_many. rewrite <- (Permutation_length (PF _)). unfold cells_of. f_equal. apply filter_ext_in'. intros ix Hi. apply HG in Hi. unfold ev. destruct (Hg ix Hi) as (_ & _ & _ & _ & [-> | ->]); reflexivity. }
    assert (C1 : length (cells_of (G k) ev 1) = how_many (fun ix => qeqb (y ix) 1) L).
    { unfold how_many. rewrite <- (Permutation_length (PF _)). unfold cells_of. f_equal. apply filter_ext_in'. intros ix Hi. apply HG in Hi. unfold ev. destruct (Hg ix Hi) as (_ & _ & _ & _ & [-> | ->]); reflexivity. }
    rewrite C0, C1. destruct (negb (how_many (fun ix => qeqb (y ix) 0) L =? 0)%nat), (negb (how_many (fun ix => qeqb (y ix) 1) L =? 0)%nat); cbn [map snd]; rewrite ?C0, ?C1; reflexivity.
  - intros Z. destruct (H5 Z) as [-> ->]. rewrite !map_map. cbn [fst]. split; [reflexivity|]. unfold occupied. cbn [seq filter].
    assert (X : forall e, (e < 2)%nat -> negb (length (cells_of (G k) ev e) =? 0)%nat = existsb (fun ix => qeqb (y ix) (qz (Z.of_nat e))) L).
    { intros e He. destruct (existsb _ L) eqn:Ex.
      - apply existsb_exists in Ex as (ix & Hi & Ey). apply (Permutation_in _ (Permutation_sym HC)) in Hi.
        destruct (length (cells_of (G k) ev e)) eqn:El; [|reflexivity]. apply length_zero_iff_nil in El. exfalso. cut (In ix (cells_of (G k) ev e)); [rewrite El; intros []|].
        apply filter_In. split; [exact Hi|]. apply Nat.eqb_eq. unfold ev. destruct e as [|[|e]]; [| |lia]; apply qeqb_eq in Ey; rewrite Ey; reflexivity.
      - destruct (length (cells_of (G k) ev e)) eqn:El; [reflexivity|]. exfalso. destruct (cells_of (G k) ev e) as [|ix r] eqn:Ec; [discriminate|]. assert (I : In ix (cells_of (G k) ev e)) by (rewrite Ec; left; reflexivity).
        apply filter_In in I as [I Ee]. apply Nat.eqb_eq in Ee. assert (existsb (fun ix => qeqb (y ix) (qz (Z.of_nat e))) L = true); [|congruence]. apply existsb_exists. exists ix. split; [apply (Permutation_in _ HC), I|].
        apply HG in I. unfold ev in Ee. destruct (Hg ix I) as (_ & _ & _ & _ & [Ey | Ey]); rewrite Ey in *; subst e; reflexivity. }
    rewrite (X 0%nat), (X 1%nat) by lia. cbn [Z.of_nat Pos.of_succ_nat].
    destruct (existsb (fun ix => qeqb (y ix) (qz 0)) L), (existsb (fun ix => qeqb (y ix) (qz 1)) L); reflexivity.
Qed.
Print Assumptions c30_values.
Lemma mean_strict_le {A} (g : A -> Qc) l b : l <> [] -> (forall x, In x l -> g x < b) -> mean_of (map g l) < b.
Proof.
  intros Hn H. rewrite <- qmean_mean_of. change (qmean (map g l)) with (qmeanf g l). apply Qcnot_le_lt. intros C.
  assert (E : qmeanf (fun x => b - g x) l = b - qmeanf g l) by (rewrite (qmeanf_minus (fun _ => b) g), qmeanf_const by exact Hn; reflexivity).
  assert (P : forall x, In x l -> 0 <= b - g x) by (intros x Hx; specialize (H x Hx); qlra).
  assert (Z : qmeanf (fun x => b - g x) l = 0) by (pose proof (qmeanf_nonneg _ _ Hn P); qlra).
  pose proof (proj1 (qmeanf_zero_iff _ l Hn P) Z) as Z'. destruct l as [|x l]; [congruence|].
  specialize (Z' x (or_introl eq_refl)). specialize (H x (or_introl eq_refl)). qlra.
Qed.
Lemma mean_ge_all {A} (g : A -> Qc) l b : l <> [] -> (forall x, In x l -> b <= g x) -> b <= mean_of (map g l).
Proof.
  intros Hn H. rewrite <- qmean_mean_of. apply qmean_ge; [intros E; apply Hn; eapply map_eq_nil, E|]. intros x Hx. apply in_map_iff in Hx as (z & <- & Hz). auto.
Qed.
Lemma mean_le_all {A} (g : A -> Qc) l b : l <> [] -> (forall x, In x l -> g x <= b) -> mean_of (map g l) <= b.
Proof.
  intros Hn H. rewrite <- qmean_mean_of. apply qmean_le; [intros E; apply Hn; eapply map_eq_nil, E|]. intros x Hx. apply in_map_iff in Hx as (z & <- & Hz). auto.
Qed.
Lemma sorted_nat_unique l1 l2 : StronglySorted lt l1 -> StronglySorted lt l2 -> (forall x, In x l1 <-> In x l2) -> l1 = l2.
Proof.
  intros H1 H2 E. assert (Q : map Z.of_nat l1 = map Z.of_nat l2).
  { apply sorted_unique; [eapply map_sorted; [|exact H1]; intros; lia|eapply map_sorted; [|exact H2]; intros; lia|].
    intros z. rewrite !in_map_iff. split; intros (b & <- & Hb); exists b; (split; [reflexivity|]); apply E, Hb. }
  apply (f_equal (map Z.to_nat)) in Q. rewrite !map_map in Q.
  assert (I : forall l, map (fun x => Z.to_nat (Z.of_nat x)) l = l) by (intros l; rewrite <- (map_id l) at 2; apply map_ext; intros; apply Nat2Z.id). rewrite !I in Q. exact Q.
Qed.
Lemma mean_in_bin {A} nb (p : A -> Qc) bin (L : list A) b : (exists x, In x L /\ bin x = b) -> (forall x, In x L -> rel_bin nb (p x) (bin x)) ->
  rel_bin nb (mean_of (map p (filter (fun x => Nat.eqb (bin x) b) L))) b.
Proof.
  intros (x0 & H0 & E0) HB.
  assert (N : filter (fun x => Nat.eqb (bin x) b) L <> []).
  { intros C. assert (X : In x0 (filter (fun x => Nat.eqb (bin x) b) L)) by (apply filter_In; split; [exact H0|apply Nat.eqb_eq, E0]). rewrite C in X. exact X. }
  assert (A1 : forall x, In x (filter (fun x => Nat.eqb (bin x) b) L) -> rel_bin nb (p x) b).
  { intros x Hi. apply filter_In in Hi as [Hi Eb]. apply Nat.eqb_eq in Eb. rewrite <- Eb. apply HB, Hi. }
  split; [|split].
  - destruct (filter _ L) as [|x r]; [congruence|]. apply (A1 x). left. reflexivity.
  - apply mean_ge_all; [exact N|]. intros x Hi. apply (A1 x Hi).
  - apply mean_strict_le; [exact N|]. intros x Hi. apply (A1 x Hi).
Qed.
Lemma weighted_bins {A} (L : list A) (bin : A -> nat) (g : A -> Qc) n bs : (forall x, In x L -> (bin x < n)%nat) -> StronglySorted lt bs -> (forall b, In b bs <-> exists x, In x L /\ bin x = b) ->
  fold_right Nat.add 0%nat (map (fun b => how_many (fun x => Nat.eqb (bin x) b) L) bs) = length L /\
  weighted_mean (map (fun b => how_many (fun x => Nat.eqb (bin x) b) L) bs) (map (fun b => mean_of (map g (filter (fun x => Nat.eqb (bin x) b) L))) bs) = mean_of (map g L).
Proof.
  intros Hlt Hs Hin. assert (E : bs = occupied L bin n).
  { assert (Q : map Z.of_nat bs = map Z.of_nat (occupied L bin n)).
    { apply sorted_unique.
      - eapply map_sorted; [|exact Hs]. intros; lia.
      - eapply map_sorted; [|apply occupied_sorted]. intros; lia.
      - intros z. rewrite !in_map_iff. split; intros (b & <- & Hb); exists b; (split; [reflexivity|]).
        + apply occupied_cell. apply Hin in Hb. split; [|exact Hb]. destruct Hb as (x & Hx & <-). apply Hlt, Hx.
        + apply Hin. apply occupied_cell in Hb. apply Hb. }
    apply (f_equal (map Z.to_nat)) in Q. rewrite !map_map in Q.
    assert (I : forall l, map (fun x => Z.to_nat (Z.of_nat x)) l = l) by (intros l; rewrite <- (map_id l) at 2; apply map_ext; intros; apply Nat2Z.id). rewrite !I in Q. exact Q. }
  subst bs. pose proof (occupied_count L bin n Hlt) as C. unfold cells_of, nsumn in C. split; [exact C|].
  unfold weighted_mean. unfold how_many at 2. rewrite C. unfold mean_of at 2. rewrite map_length. f_equal.
  rewrite combine_map_map, map_map. cbn [fst snd]. change (fold_right Qcplus 0) with qsum. fold (qsumf g L). rewrite <- (occupied_sum L bin n g Hlt). fold (qsumf (fun b => qn (how_many (fun x => Nat.eqb (bin x) b) L) * mean_of (map g (filter (fun x => Nat.eqb (bin x) b) L))) (occupied L bin n)).
  apply qsumf_ext. intros b Hb. apply in_occupied in Hb as [_ Hb]. unfold cells_of in *. unfold how_many. rewrite <- qmean_mean_of. apply (qmeanf_sum g), Hb.
Qed.

(** the claims of C30 *)
Theorem c30_reliability_points : forall f o nb ax ns p y, (0 < nb)%nat -> shape f = shape o ->
  axes_are (length (shape o)) ax ns -> same_sign ax -> prod (kept (length (shape o)) ns (shape o)) <> 0%nat -> good_data f o p y ->
  exists out, reliability_diagram f o nb ax = Ok out /\
  forall k L, Forall2 lt k (kept (length (shape o)) ns (shape o)) -> Cells (shape o) ns k L ->
  exists xs ys bs,
    forecast_points out k = map Fin xs /\ observed_points out k = map Fin ys /\
    length ys = length xs /\ length (point_counts out k) = length xs /\
    StronglySorted Qclt xs /\ Forall2 (rel_bin nb) xs bs /\ (forall b, In b bs <-> exists ix, In ix L /\ rel_bin nb (p ix) b) /\
    Forall (fun v => 0 <= v /\ v <= 1) ys /\
    fold_right Nat.add 0%nat (point_counts out k) = length L /\ fold_right Nat.add 0%nat (outcome_counts out k) = length L /\
    weighted_mean (point_counts out k) xs = mean_of (map p L) /\ weighted_mean (point_counts out k) ys = mean_of (map y L).
Proof.
  intros f o nb ax ns p y Hn Hsh Hax Hss HK Hg.
  set (bin := fun ix => (digitize (rel_bins nb) (Fin (p ix)) - 1)%nat).
  assert (Hbin : forall ix, Forall2 lt ix (shape o) -> rel_bin nb (p ix) (bin ix)).
  { intros ix Hi. destruct (Hg ix Hi) as (_ & H0 & H1 & _). destruct (rel_bin_exists nb (p ix) Hn H0 H1) as (b & Hb). unfold bin. rewrite (rel_bin_digitize _ _ _ Hb).
    replace (S b - 1)%nat with b by lia. exact Hb. }
  destruct (c30_values f o nb ax ns p y bin Hn Hsh Hax Hss HK Hg Hbin) as (out & E & H). exists out. split; [exact E|].
  intros k L Hk HL. destruct (H k L Hk HL) as (bs & Hs & Hin & -> & -> & -> & -> & _).
  assert (HB : forall ix, In ix L -> rel_bin nb (p ix) (bin ix)) by (intros ix Hi; apply HL in Hi as [Hi _]; apply Hbin, Hi).
  assert (HBn : forall ix, In ix L -> (bin ix < nb)%nat) by (intros ix Hi; apply HB, Hi).
  assert (Hne : forall b, In b bs -> filter (fun ix => Nat.eqb (bin ix) b) L <> []).
  { intros b Hb. apply Hin in Hb as (ix & Hi & Eb). intros C. assert (X : In ix (filter (fun ix => Nat.eqb (bin ix) b) L)) by (apply filter_In; split; [exact Hi|apply Nat.eqb_eq, Eb]). rewrite C in X. exact X. }
  assert (Hx : forall b, In b bs -> rel_bin nb (mean_of (map p (filter (fun ix => Nat.eqb (bin ix) b) L))) b).
  { intros b Hb. pose proof (Hne b Hb) as N. assert (A : forall ix, In ix (filter (fun ix => Nat.eqb (bin ix) b) L) -> rel_bin nb (p ix) b).
    { intros ix Hi. apply filter_In in Hi as [Hi Eb]. apply Nat.eqb_eq in Eb. rewrite <- Eb. apply HB, Hi. }
    split; [|split].
    - destruct (filter _ L) as [|ix r]; [congruence|]. apply (A ix). left. reflexivity.
    - apply mean_ge_all; [exact N|]. intros ix Hi. apply (A ix Hi).
    - apply mean_strict_le; [exact N|]. intros ix Hi. apply (A ix Hi). }
  exists (map (fun b => mean_of (map p (filter (fun ix => Nat.eqb (bin ix) b) L))) bs), (map (fun b => mean_of (map y (filter (fun ix => Nat.eqb (bin ix) b) L))) bs), bs.
  rewrite !map_map. split; [reflexivity|]. split; [reflexivity|]. rewrite !map_length. split; [reflexivity|]. split; [reflexivity|].
  split; [|split; [|split; [|split; [|split; [|split; [|split]]]]]].
  - eapply map_sorted; [|exact Hs]. intros b c Hb Hc Hlt. destruct (Hx b Hb) as (_ & _ & X). destruct (Hx c Hc) as (_ & Y & _).
    eapply Qclt_le_trans; [exact X|]. eapply Qcle_trans; [|exact Y]. apply rel_edge_le; lia.
  - clear -Hx. induction bs as [|b bs IH]; constructor; [apply Hx; left; reflexivity|apply IH; intros c Hc; apply Hx; right; exact Hc].
  - intros b. rewrite Hin. split; intros (ix & Hi & Eb); exists ix; (split; [exact Hi|]); [subst b; apply HB, Hi|]. eapply rel_bin_fun; [apply HB, Hi|exact Eb].
  - apply Forall_forall. intros v Hv. apply in_map_iff in Hv as (b & <- & Hb).
    assert (A : forall ix, In ix (filter (fun ix => Nat.eqb (bin ix) b) L) -> y ix = 0 \/ y ix = 1) by (intros ix Hi; apply filter_In in Hi as [Hi _]; apply HL in Hi as [Hi _]; apply (Hg ix Hi)).
    split; [apply mean_ge_all|apply mean_le_all]; try (apply Hne, Hb); intros ix Hi; destruct (A ix Hi) as [-> | ->]; discriminate.
  - apply (weighted_bins L bin p nb bs HBn Hs Hin).
  - assert (X : (how_many (fun ix => qeqb (y ix) 0) L + how_many (fun ix => qeqb (y ix) 1) L = length L)%nat).
    { rewrite <- (count_negb (fun ix => qeqb (y ix) 0) L). f_equal. unfold how_many, count. f_equal. apply filter_ext_in'. intros ix Hi. apply HL in Hi as [Hi _].
      destruct (Hg ix Hi) as (_ & _ & _ & _ & [-> | ->]); reflexivity. }
    rewrite <- X. cbn [filter]. destruct (Nat.eqb_spec (how_many (fun ix => qeqb (y ix) 0) L) 0), (Nat.eqb_spec (how_many (fun ix => qeqb (y ix) 1) L) 0); cbn [negb filter fold_right]; lia.
  - apply (weighted_bins L bin p nb bs HBn Hs Hin).
  - apply (weighted_bins L bin y nb bs HBn Hs Hin).
Qed.
Print Assumptions c30_reliability_points.
Example c30_nonvacuous :
  good_data rl_f rl_o (fun ix => val (get rl_f ix)) (fun ix => val (get rl_o ix)) /\
  prod (kept 2 [0%nat] [3; 2]%nat) <> 0%nat /\
  exists out, reliability_diagram rl_f rl_o 5 (Some [0%Z]) = Ok out /\
    forecast_points out [0%nat] = map Fin [Q2Qc (3#20); 1] /\ observed_points out [0%nat] = map Fin [0; 1] /\
    point_counts out [0%nat] = [2; 1]%nat /\ outcome_counts out [0%nat] = [2; 1]%nat.
Proof.
  split; [|split; [discriminate|]].
  - intros ix H. inversion H as [|i ? r ? Hi Hr]; subst. inversion Hr as [|j ? r' ? Hj Hr']; subst. inversion Hr'; subst.
    assert (Hi' : i = 0%nat \/ i = 1%nat \/ i = 2%nat) by lia. assert (Hj' : j = 0%nat \/ j = 1%nat) by lia.
    destruct Hi' as [-> | [-> | ->]], Hj' as [-> | ->]; (split; [reflexivity|]); (split; [vm_compute; discriminate|]); (split; [vm_compute; discriminate|]); (split; [reflexivity|]); first [left; reflexivity|right; reflexivity].
  - assert (X : match reliability_diagram rl_f rl_o 5 (Some [0%Z]) with
                | Ok out => (forecast_points out [0%nat], observed_points out [0%nat], point_counts out [0%nat], outcome_counts out [0%nat]) | Raise _ => ([], [], [], []) end
                = (map Fin [Q2Qc (3#20); 1], map Fin [0; 1], [2; 1]%nat, [2; 1]%nat)) by qcomp.
    destruct (reliability_diagram _ _ _ _) as [out|]; [|discriminate]. injection X as X1 X2 X3 X4. exists out. auto.
Qed.

(** ** C31 *)
(** Only the occupied bins are stacked: with one sample per slice, 1/10 and 9/10, two bins, the result is an
    ordinary array of shape (2,1) whose only entry is a point of bin 0 in one slice and of bin 1 in the other. *)
Theorem c31_same_bin_refuted :
  ~ (forall f o nb ax ns p y out pred tr pc oc k k' j x x' b b', (0 < nb)%nat -> shape f = shape o -> axes_are (length (shape o)) ax ns -> same_sign ax ->
       good_data f o p y -> reliability_diagram f o nb ax = Ok out -> out = Many (Regular pred) tr pc oc ->
       Forall2 lt (k ++ [j]) (shape pred) -> Forall2 lt (k' ++ [j]) (shape pred) ->
       get pred (k ++ [j]) = Fin x -> get pred (k' ++ [j]) = Fin x' -> rel_bin nb x b -> rel_bin nb x' b' -> b = b').
Proof.
  intros H. set (f := of_list NaN [1; 2]%nat [Fin (Q2Qc (1#10)); Fin (Q2Qc (9#10))]). set (o := of_list NaN [1; 2]%nat [Fin 0; Fin 1]).
  assert (X : match reliability_diagram f o 2 (Some [0%Z]) with
              | Ok (Many (Regular a) _ _ _) => (shape a, get a [0; 0]%nat, get a [1; 0]%nat) | _ => ([], NaN, NaN) end = ([2; 1]%nat, Fin (Q2Qc (1#10)), Fin (Q2Qc (9#10)))) by qcomp.
  destruct (reliability_diagram f o 2 (Some [0%Z])) as [[? ? ? ?|[a|a] tr pc oc]|] eqn:E; try discriminate X. injection X as X1 X2 X3.
  assert (V : forall i, (i < 2)%nat -> Forall2 lt ([i] ++ [0%nat]) (shape a)) by (intros i Hi; rewrite X1; constructor; [exact Hi|constructor; [lia|constructor]]).
  assert (C : 0%nat = 1%nat); [|clear -C; discriminate C].
  apply (H f o 2%nat (Some [0%Z]) [0%nat] (fun ix => val (get f ix)) (fun ix => val (get o ix)) (Many (Regular a) tr pc oc) a tr pc oc [0%nat] [1%nat] 0%nat (Q2Qc (1#10)) (Q2Qc (9#10)) 0%nat 1%nat); try assumption; [| | | | |reflexivity| | | |].
  - lia.
  - reflexivity.
  - split; [constructor; [split; [cbn; lia|left; reflexivity]|constructor]|constructor; [intros []|constructor]].
  - left. constructor; [lia|constructor].
  - intros ix Hv. inversion Hv as [|i ? r ? Hi Hr]; subst. inversion Hr as [|j ? r' ? Hj Hr']; subst. inversion Hr'; subst.
    assert (i = 0%nat) by lia. subst i. assert (Hj' : j = 0%nat \/ j = 1%nat) by lia.
    destruct Hj' as [-> | ->]; (split; [reflexivity|]); (split; [vm_compute; discriminate|]); (split; [vm_compute; discriminate|]); (split; [reflexivity|]); first [left; reflexivity|right; reflexivity].
  - apply (V 0%nat). lia.
  - apply (V 1%nat). lia.
  - split; [lia|]. split; [vm_compute; discriminate|reflexivity].
  - split; [lia|]. split; [vm_compute; discriminate|reflexivity].
Qed.
Print Assumptions c31_same_bin_refuted.
(** and slices with different numbers of occupied bins do not give an array of numbers at all *)
Theorem c31_ragged_refuted : exists f o p y pred tr pc oc, good_data f o p y /\ shape f = shape o /\
  reliability_diagram f o 2 (Some [0%Z]) = Ok (Many pred tr pc oc) /\ forall a, pred <> Regular a.
Proof.
  set (f := of_list NaN [2; 2]%nat [Fin (Q2Qc (1#10)); Fin (Q2Qc (9#10)); Fin (Q2Qc (1#10)); Fin (Q2Qc (1#10))]). set (o := of_list NaN [2; 2]%nat [Fin 0; Fin 1; Fin 0; Fin 1]).
  assert (X : match reliability_diagram f o 2 (Some [0%Z]) with Ok (Many (Objects a) _ _ _) => shape a | _ => [] end = [2; 1]%nat) by qcomp.
  destruct (reliability_diagram f o 2 (Some [0%Z])) as [[? ? ? ?|[a|a] tr pc oc]|] eqn:E; try discriminate X.
  exists f, o, (fun ix => val (get f ix)), (fun ix => val (get o ix)), (Objects a), tr, pc, oc. split; [|split; [reflexivity|split; [exact E|discriminate]]].
  intros ix Hv. inversion Hv as [|i ? r ? Hi Hr]; subst. inversion Hr as [|j ? r' ? Hj Hr']; subst. inversion Hr'; subst.
  assert (Hi' : i = 0%nat \/ i = 1%nat) by lia. assert (Hj' : j = 0%nat \/ j = 1%nat) by lia.
  destruct Hi' as [-> | ->], Hj' as [-> | ->]; (split; [reflexivity|]); (split; [vm_compute; discriminate|]); (split; [vm_compute; discriminate|]); (split; [reflexivity|]); first [left; reflexivity|right; reflexivity].
Qed.
Print Assumptions c31_ragged_refuted.
(** What holds: entry j of two slices refers to the same bin when the two slices occupy the same bins. *)
Theorem c31_same_bin_partial : forall f o nb ax ns p y k k' L L', (0 < nb)%nat -> shape f = shape o ->
  axes_are (length (shape o)) ax ns -> same_sign ax -> prod (kept (length (shape o)) ns (shape o)) <> 0%nat -> good_data f o p y ->
  Forall2 lt k (kept (length (shape o)) ns (shape o)) -> Cells (shape o) ns k L -> Forall2 lt k' (kept (length (shape o)) ns (shape o)) -> Cells (shape o) ns k' L' ->
  (forall b, (exists ix, In ix L /\ rel_bin nb (p ix) b) <-> (exists ix, In ix L' /\ rel_bin nb (p ix) b)) ->
  exists out, reliability_diagram f o nb ax = Ok out /\ length (forecast_points out k) = length (forecast_points out k') /\
  forall j x x' b b', nth_error (forecast_points out k) j = Some (Fin x) -> nth_error (forecast_points out k') j = Some (Fin x') -> rel_bin nb x b -> rel_bin nb x' b' -> b = b'.
Proof.
  intros f o nb ax ns p y k k' L L' Hn Hsh Hax Hss HK Hg Hk HL Hk' HL' Hsame.
  set (bin := fun ix => (digitize (rel_bins nb) (Fin (p ix)) - 1)%nat).
  assert (Hbin : forall ix, Forall2 lt ix (shape o) -> rel_bin nb (p ix) (bin ix)).
  { intros ix Hi. destruct (Hg ix Hi) as (_ & H0 & H1 & _). destruct (rel_bin_exists nb (p ix) Hn H0 H1) as (b & Hb). unfold bin. rewrite (rel_bin_digitize _ _ _ Hb).
    replace (S b - 1)%nat with b by lia. exact Hb. }
  destruct (c30_values f o nb ax ns p y bin Hn Hsh Hax Hss HK Hg Hbin) as (out & E & H). exists out. split; [exact E|].
  destruct (H k L Hk HL) as (bs & S1 & I1 & F1 & _). destruct (H k' L' Hk' HL') as (bs' & S2 & I2 & F2 & _).
  assert (HB : forall M q, Cells (shape o) ns q M -> forall ix, In ix M -> rel_bin nb (p ix) (bin ix)) by (intros M q HM ix Hi; apply HM in Hi as [Hi _]; apply Hbin, Hi).
  assert (Hbs : bs = bs').
  { apply sorted_nat_unique; [exact S1|exact S2|]. intros b. rewrite I1, I2.
    assert (G : forall M q, Cells (shape o) ns q M -> ((exists ix, In ix M /\ bin ix = b) <-> (exists ix, In ix M /\ rel_bin nb (p ix) b))).
    { intros M q HM. split; intros (ix & Hi & Eb); exists ix; (split; [exact Hi|]); [subst b; eapply HB; eassumption|]. eapply rel_bin_fun; [eapply HB; eassumption|exact Eb]. }
    rewrite (G L k HL), (G L' k' HL'). apply Hsame. }
  subst bs'. rewrite F1, F2, !map_length. split; [reflexivity|]. intros j x x' b b' Ej Ej' Hb Hb'.
  rewrite nth_error_map in Ej, Ej'. destruct (nth_error bs j) as [c|] eqn:Ec; [|discriminate]. cbn [option_map] in Ej, Ej'.
  assert (Hc : In c bs) by (eapply nth_error_In, Ec).
  assert (Hx : forall M q, Cells (shape o) ns q M -> (exists ix, In ix M /\ bin ix = c) -> rel_bin nb (mean_of (map p (filter (fun ix => Nat.eqb (bin ix) c) M))) c).
  { intros M q HM Hex. apply mean_in_bin; [|intros ix Hi; eapply HB; eassumption]. exact Hex. }
  injection Ej as <-. injection Ej' as <-.
  transitivity c; [eapply rel_bin_fun; [exact Hb|apply (Hx L k HL), I1, Hc]|eapply rel_bin_fun; [apply (Hx L' k' HL'), I2, Hc|exact Hb']].
Qed.
Print Assumptions c31_same_bin_partial.
(** both columns of the example below occupy bins 0 and 1 of two *)
Example c31_nonvacuous :
  let f := of_list NaN [2; 2]%nat [Fin (Q2Qc (1#10)); Fin (Q2Qc (9#10)); Fin (Q2Qc (7#10)); Fin (Q2Qc (1#5))] in
  let o := of_list NaN [2; 2]%nat [Fin 0; Fin 1; Fin 0; Fin 1] in let p ix := val (get f ix) in
  Cells [2; 2]%nat [0%nat] [0%nat] [[0; 0]; [1; 0]]%nat /\ Cells [2; 2]%nat [0%nat] [1%nat] [[0; 1]; [1; 1]]%nat /\
  (forall b, (exists ix, In ix [[0; 0]; [1; 0]]%nat /\ rel_bin 2 (p ix) b) <-> (exists ix, In ix [[0; 1]; [1; 1]]%nat /\ rel_bin 2 (p ix) b)) /\
  match reliability_diagram f o 2 (Some [0%Z]) with Ok (Many (Regular a) _ _ _) => (shape a, get a [0; 1]%nat, get a [1; 1]%nat) | _ => ([], NaN, NaN) end
    = ([2; 2]%nat, Fin (Q2Qc (7#10)), Fin (Q2Qc (9#10))).
Proof.
  cbv zeta. split; [change [[0; 0]; [1; 0]]%nat with (group [2; 2]%nat (mask_of 2 [0%nat]) [0%nat]); apply group_Cells|].
  split; [change [[0; 1]; [1; 1]]%nat with (group [2; 2]%nat (mask_of 2 [0%nat]) [1%nat]); apply group_Cells|]. split; [|qcomp].
  assert (R : forall q n b, rel_bin 2 (val (Fin q)) n -> rel_bin 2 (val (Fin q)) b -> b = n) by (intros q n b A B; eapply rel_bin_fun; eassumption).
  assert (A1 : rel_bin 2 (val (Fin (Q2Qc (1#10)))) 0) by (split; [lia|split; [vm_compute; discriminate|reflexivity]]).
  assert (A2 : rel_bin 2 (val (Fin (Q2Qc (9#10)))) 1) by (split; [lia|split; [vm_compute; discriminate|reflexivity]]).
  assert (A3 : rel_bin 2 (val (Fin (Q2Qc (7#10)))) 1) by (split; [lia|split; [vm_compute; discriminate|reflexivity]]).
  assert (A4 : rel_bin 2 (val (Fin (Q2Qc (1#5)))) 0) by (split; [lia|split; [vm_compute; discriminate|reflexivity]]).
  intros b. split; intros (ix & [<-|[<-|[]]] & H); cbn [of_list get flat nth prod Nat.mul Nat.add] in H |- *.
  - apply (R _ _ _ A1) in H. subst b. exists [1; 1]%nat. split; [right; left; reflexivity|exact A4].
  - apply (R _ _ _ A3) in H. subst b. exists [0; 1]%nat. split; [left; reflexivity|exact A2].
  - apply (R _ _ _ A2) in H. subst b. exists [1; 0]%nat. split; [right; left; reflexivity|exact A3].
  - apply (R _ _ _ A4) in H. subst b. exists [0; 0]%nat. split; [left; reflexivity|exact A1].
Qed.
