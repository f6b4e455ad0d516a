(** C75: ROC curve and the area under it.  C76: missing values in the metrics of events. *)
From Coq Require Import ZArith List Lia Bool Arith QArith Qcanon Permutation Sorted.
From Verif Require Import QcTac QSum Num NdArr Numpy M_common M_ens M_roc P_roc Spec_roc.
Import ListNotations.
Open Scope nat_scope.

(** ** From arrays to lists *)
Definition qof (x : num) : Qc := match x with Fin q => q | _ => 0%Qc end.
Definition cell (f : arr num) (o : arr bool) (ix : list nat) : scored := (qof (get f ix), get o ix).
Definition scoreds (f : arr num) (o : arr bool) : list scored := map (cell f o) (known f).
Lemma combine_map {A B C} (f : A -> B) (g : A -> C) l : combine (map f l) (map g l) = map (fun x => (f x, g x)) l.
Proof. induction l as [|x l IH]; [reflexivity|]. cbn. rewrite IH. reflexivity. Qed.
Lemma filter_map_in {A B} (p : B -> bool) (f : A -> B) l : filter p (map f l) = map f (filter (fun x => p (f x)) l).
Proof. induction l as [|x l IH]; [reflexivity|]. cbn. rewrite IH. destruct (p (f x)); reflexivity. Qed.
Lemma filter_all {A} (p : A -> bool) l : (forall x, In x l -> p x = true) -> filter p l = l.
Proof. induction l as [|x l IH]; [reflexivity|]. cbn. intros H. rewrite (H x (or_introl eq_refl)), IH by auto. reflexivity. Qed.
Lemma mapM_total {A B} (f : A -> res B) (g : A -> B) l : (forall x, In x l -> f x = Ok (g x)) -> mapM f l = Ok (map g l).
Proof. induction l as [|x l IH]; [reflexivity|]. intros H. cbn [mapM map]. rewrite (H x (or_introl eq_refl)). cbn [bind]. rewrite IH by (intros; apply H; right; assumption). reflexivity. Qed.
Lemma known_fin s f ix : usable s f -> In ix (known f) -> get f ix = Fin (qof (get f ix)).
Proof.
  intros U I. apply filter_In in I as [I N]. destruct (U ix I) as [[q E]|[_ E]]; rewrite E in *; [reflexivity|discriminate].
Qed.
Lemma calculate_is s f o : usable s f -> shape o = shape f -> calculate_roc s f o = roc_list (scoreds f o).
Proof.
  intros U S. unfold calculate_roc, ravel. rewrite S, !map_length, Nat.eqb_refl. cbn [negb]. rewrite combine_map.
  assert (E : (if s then filter (fun c => negb (is_nan (fst c))) (map (fun x => (get f x, get o x)) (indices (shape f)))
               else map (fun x => (get f x, get o x)) (indices (shape f))) = map (fun x => (get f x, get o x)) (known f)).
  { destruct s; [rewrite filter_map_in; reflexivity|]. unfold known. rewrite filter_all; [reflexivity|].
    intros ix I. destruct (U ix I) as [[q ->]|[H _]]; [reflexivity|discriminate]. }
  cbv zeta. rewrite E.
  rewrite (mapM_total _ (fun c => (qof (fst c), snd c))).
  - cbn [bind]. rewrite map_map. unfold scoreds, roc_list, cell. cbn [fst snd]. reflexivity.
  - intros c I. apply in_map_iff in I as (ix & <- & I). cbn [fst snd]. rewrite (known_fin s f ix U I). reflexivity.
Qed.
Lemma posn_events f o : posn (scoreds f o) = length (events f o).
Proof. unfold posn, scoreds. rewrite filter_map_in, map_length. reflexivity. Qed.
Lemma negn_nonevents f o : negn (scoreds f o) = length (nonevents f o).
Proof. unfold negn, scoreds. rewrite filter_map_in, map_length. reflexivity. Qed.
Lemma cross_wins s f o : usable s f -> cross (scoreds f o) (scoreds f o) = 2 * wins f o + ties f o.
Proof.
  intros U. unfold wins, ties, nonevents, events, scoreds.
  assert (G : forall A B, (forall ix, In ix A \/ In ix B -> get f ix = Fin (qof (get f ix))) ->
    cross (map (cell f o) A) (map (cell f o) B) =
    2 * length (filter (fun p => nlt (get f (fst p)) (get f (snd p))) (list_prod (filter (fun ix => negb (get o ix)) B) (filter (fun ix => get o ix) A))) +
    length (filter (fun p => nle (get f (fst p)) (get f (snd p)) && nle (get f (snd p)) (get f (fst p))) (list_prod (filter (fun ix => negb (get o ix)) B) (filter (fun ix => get o ix) A)))).
  2:{ apply G. intros ix [I|I]; apply (known_fin s f ix U I). }
  intros A. induction B as [|j B IH]; intros F; [reflexivity|].
  unfold cross in *. cbn [map]. rewrite nsumn_cons, IH by (intros ix [I|I]; apply F; [left|right; right]; assumption).
  cbn [filter]. unfold crossj at 1. cbn [cell snd fst].
  destruct (get o j); cbn [negb]; [lia|]. cbn [list_prod]. rewrite !filter_app, !app_length.
  assert (H : nsumn (map (cell_w (qof (get f j), false)) (map (cell f o) A)) =
    2 * length (filter (fun p => nlt (get f (fst p)) (get f (snd p))) (map (fun y => (j, y)) (filter (fun ix => get o ix) A))) +
    length (filter (fun p => nle (get f (fst p)) (get f (snd p)) && nle (get f (snd p)) (get f (fst p))) (map (fun y => (j, y)) (filter (fun ix => get o ix) A)))).
  { assert (Fj := F j (or_intror (or_introl eq_refl))).
    assert (FA : forall ix, In ix A -> get f ix = Fin (qof (get f ix))) by (intros; apply F; left; assumption).
    clear IH F. induction A as [|i A IH]; [reflexivity|]. cbn [map]. rewrite nsumn_cons, IH by (intros; apply FA; right; assumption).
    unfold cell_w at 1. cbn [cell fst snd filter]. destruct (get o i); [|lia]. cbn [map filter fst snd].
    rewrite Fj, (FA i (or_introl eq_refl)). cbn [nlt nle qof]. unfold wt.
    destruct (qltb_spec (qof (get f j)) (qof (get f i))) as [L|L].
    - destruct (qleb_spec (qof (get f j)) (qof (get f i))) as [L2|L2]; [|exfalso; qlra]. destruct (qleb_spec (qof (get f i)) (qof (get f j))) as [L3|L3]; [exfalso; qlra|].
      cbn [andb length]. lia.
    - destruct (qeqb_spec (qof (get f i)) (qof (get f j))) as [E|E].
      + rewrite E, qleb_refl. cbn [andb length]. lia.
      + destruct (qleb_spec (qof (get f j)) (qof (get f i))) as [L2|L2]; [exfalso; apply E, Qcle_antisym; assumption|]. cbn [andb]. lia. }
  change (nsumn (map (cell_w (cell f o j)) (map (cell f o) A))) with (nsumn (map (cell_w (qof (get f j), false)) (map (cell f o) A))). rewrite H. lia.
Qed.

Lemma pos_length {A} (l : list A) : l <> [] -> 0 < length l. Proof. destruct l; [congruence|cbn; lia]. Qed.
Lemma calculate_fin s f o : usable s f -> shape o = shape f -> events f o <> [] -> nonevents f o <> [] ->
  calculate_roc s f o =
  Ok (map (fun x => Fin (qrate x (length (nonevents f o)))) (map fst (pts (scoreds f o))),
      map (fun x => Fin (qrate x (length (events f o)))) (map snd (pts (scoreds f o))),
      Fin (qn (2 * wins f o + ties f o) / (qn 2 * qn (length (events f o)) * qn (length (nonevents f o))))%Qc).
Proof.
  intros U S He Hn. rewrite (calculate_is s f o U S). apply pos_length in He, Hn.
  rewrite roc_list_fin by (rewrite ?posn_events, ?negn_nonevents; assumption).
  rewrite posn_events, negn_nonevents, (cross_wins s f o U). reflexivity.
Qed.

(** The area is the probability that a randomly chosen event had a higher forecast than a randomly chosen non-event, ties
    counting one half. *)
Theorem c75_area : forall s f o, usable s f -> shape o = shape f -> events f o <> [] -> nonevents f o <> [] ->
  exists fpr tpr, calculate_roc s f o =
    Ok (fpr, tpr, Fin ((qn (wins f o) + qn (ties f o) / qn 2) / (qn (length (events f o)) * qn (length (nonevents f o))))%Qc).
Proof.
  intros s f o U S He Hn. eexists _, _. rewrite (calculate_fin s f o U S He Hn). do 2 f_equal. f_equal.
  pose proof (qn_neq0 _ (pos_length _ He)). pose proof (qn_neq0 _ (pos_length _ Hn)). assert (qn 2 <> 0%Qc) by (apply qn_neq0; lia).
  rewrite qn_plus, qn_mult. field. repeat split; assumption.
Qed.
Print Assumptions c75_area.

Lemma filter_split {A} (p q : A -> bool) l : (forall x, In x l -> p x = true -> q x = true -> False) -> length (filter p l) + length (filter q l) <= length l.
Proof.
  induction l as [|x l IH]; intros H; [cbn; lia|]. cbn [filter]. specialize (IH (fun y I => H y (or_intror I))). pose proof (H x (or_introl eq_refl)) as Hx.
  destruct (p x), (q x); cbn [length]; (lia || (exfalso; auto)).
Qed.
Lemma filter_length_le {A} (p : A -> bool) l : length (filter p l) <= length l.
Proof. induction l as [|x l IH]; [cbn; lia|]. cbn [filter]. destruct (p x); cbn [length]; lia. Qed.
Lemma filter_filter_and {A} (p q : A -> bool) l : filter p (filter q l) = filter (fun x => q x && p x) l.
Proof. induction l as [|x l IH]; [reflexivity|]. cbn. destruct (q x); cbn; rewrite IH; reflexivity. Qed.
Lemma filter_full {A} (p : A -> bool) l : length (filter p l) = length l <-> forall x, In x l -> p x = true.
Proof.
  split.
  - induction l as [|x l IH]; intros H y I; [destruct I|]. cbn [filter] in H. pose proof (filter_length_le p l).
    destruct (p x) eqn:E; cbn [length] in H; [|lia]. destruct I as [<-|I]; [exact E|]. apply IH; [lia|exact I].
  - intros H. rewrite filter_all by exact H. reflexivity.
Qed.
Lemma wins_ties f o s : usable s f -> wins f o + ties f o <= length (events f o) * length (nonevents f o).
Proof.
  intros U. unfold wins, ties. rewrite Nat.mul_comm, <- prod_length. apply filter_split. intros [j i] I H1 H2. cbn [fst snd] in *.
  apply in_prod_iff in I as [Ij Ii]. apply filter_In in Ij as [Ij _], Ii as [Ii _].
  rewrite (known_fin s f j U Ij), (known_fin s f i U Ii) in *. cbn [nlt nle] in *. apply qltb_lt in H1. apply andb_true_iff in H2 as [_ H2]. apply qleb_le in H2. qlra.
Qed.
(** It lies between 0 and 1; it is 1 exactly when every event had a higher forecast than every non-event, and 1/2 when all
    forecasts are the same. *)
Theorem c75_area_range : forall s f o fpr tpr a, usable s f -> shape o = shape f -> events f o <> [] -> nonevents f o <> [] ->
  calculate_roc s f o = Ok (fpr, tpr, a) ->
  exists q, a = Fin q /\ (0 <= q)%Qc /\ (q <= 1)%Qc /\
    (q = 1%Qc <-> forall i j, In i (events f o) -> In j (nonevents f o) -> nlt (get f j) (get f i) = true) /\
    ((exists c, forall ix, In ix (known f) -> get f ix = c) -> q = (1 / qn 2)%Qc).
Proof.
  intros s f o fpr tpr a U S He Hn E. rewrite (calculate_fin s f o U S He Hn) in E. injection E as _ _ <-.
  exists (qn (2 * wins f o + ties f o) / (qn 2 * qn (length (events f o)) * qn (length (nonevents f o))))%Qc. split; [reflexivity|].
  pose proof (wins_ties f o s U) as W. apply pos_length in He, Hn.
  set (n := length (events f o)) in *. set (m := length (nonevents f o)) in *. set (w := wins f o) in *. set (t := ties f o) in *.
  assert (D : (0 < qn 2 * qn n * qn m)%Qc) by (rewrite <- !qn_mult; apply qn_pos; nia).
  assert (D0 : (qn 2 * qn n * qn m <> 0)%Qc) by (intros Z; rewrite Z in D; revert D; apply Qcle_not_lt, Qcle_refl).
  split; [|split; [|split]].
  - apply Qcle_div_iff; [exact D|]. rewrite Qcmult_0_l. apply qn_nonneg.
  - apply Qcdiv_le_iff; [exact D|]. rewrite Qcmult_1_l, <- !qn_mult. apply qn_le. nia.
  - assert (K : (qn (2 * w + t) / (qn 2 * qn n * qn m) = 1)%Qc <-> w = n * m).
    { split.
      - intros H. assert (H2 : (qn (2 * w + t) = qn 2 * qn n * qn m)%Qc).
        { replace (qn (2 * w + t)) with ((qn (2 * w + t) / (qn 2 * qn n * qn m)) * (qn 2 * qn n * qn m))%Qc by (field; repeat split; intros Z; apply D0; rewrite Z; ring). rewrite H. ring. }
        rewrite <- !qn_mult in H2. apply qn_inj in H2. nia.
      - intros H. assert (t = 0) as -> by nia. rewrite Nat.add_0_r, H, !qn_mult. unfold Qcdiv. rewrite Qcmult_assoc. apply Qcmult_inv_r, D0. }
    rewrite K. unfold w, n, m, wins. rewrite (Nat.mul_comm (length (events f o))), <- prod_length, filter_full. split.
    + intros H i j Ii Ij. apply (H (j, i)). apply in_prod; assumption.
    + intros H [j i] I. apply in_prod_iff in I as [Ij Ii]. apply H; assumption.
  - intros [c Hc].
    assert (E2 : 2 * w + t = n * m).
    { assert (t = n * m); [|nia]. unfold t, n, m, ties. rewrite (Nat.mul_comm (length (events f o))), <- prod_length. apply filter_full.
      intros [j i] I. apply in_prod_iff in I as [Ij Ii]. apply filter_In in Ij as [Ij _], Ii as [Ii _]. cbn [fst snd].
      pose proof (known_fin s f j U Ij) as Fj. rewrite (Hc j Ij) in Fj. rewrite (Hc j Ij), (Hc i Ii), Fj. cbn [nle]. rewrite qleb_refl. reflexivity. }
    rewrite E2, qn_mult. pose proof (qn_neq0 n He). pose proof (qn_neq0 m Hn). assert (qn 2 <> 0%Qc) by (apply qn_neq0; lia). field. repeat split; assumption.
Qed.
Print Assumptions c75_area_range.

(** The curve starts at (0,0), ends at (1,1), never falls, and every other point is the pair of a false alarm rate and a hit rate
    of the warnings issued at some forecast probability or above. *)
Theorem c75_curve : forall s f o, usable s f -> shape o = shape f -> events f o <> [] -> nonevents f o <> [] ->
  exists ps a, calculate_roc s f o = Ok (map (fun p => Fin (fst p)) ps, map (fun p => Fin (snd p)) ps, a) /\
    hd_error ps = Some (0, 0)%Qc /\ last ps (0, 0)%Qc = (1, 1)%Qc /\
    StronglySorted (fun p q => (fst p <= fst q)%Qc /\ (snd p <= snd q)%Qc) ps /\
    forall p, In p (tl ps) -> exists t, In (Fin t) (map (get f) (known f)) /\ fst p = share f t (nonevents f o) /\ snd p = share f t (events f o).
Proof.
  intros s f o U S He Hn. set (l := scoreds f o).
  exists (map (fun p => (qrate (fst p) (length (nonevents f o)), qrate (snd p) (length (events f o)))) (pts l)). eexists.
  split; [rewrite (calculate_fin s f o U S He Hn); fold l; rewrite !map_map; reflexivity|].
  apply pos_length in He, Hn. pose proof (qn_neq0 _ He) as Ze. pose proof (qn_neq0 _ Hn) as Zn.
  assert (Hl : l <> []) by (intros E; pose proof (posn_events f o) as P; fold l in P; rewrite E in P; cbn in P; lia).
  assert (Z : forall n, qrate 0 n = 0%Qc) by (intros n; unfold qrate, Qcdiv; rewrite qn_0; ring).
  split; [unfold pts; cbn [map hd_error fst snd]; rewrite !Z; reflexivity|]. split; [|split].
  - set (h := fun p => (qrate (fst p) (length (nonevents f o)), qrate (snd p) (length (events f o)))).
    replace (0, 0)%Qc with (h (0, 0)) by (unfold h; cbn [fst snd]; rewrite !Z; reflexivity).
    rewrite (last_map h (pts l) (0, 0)). unfold h. replace (last (pts l) (0, 0)) with (negn l, posn l).
    + cbn [fst snd]. unfold l. rewrite negn_nonevents, posn_events. unfold qrate. f_equal; field; assumption.
    + symmetry. rewrite <- (last_rpoints l (0, 0) Hl). pose proof (rpoints_ne l Hl). unfold pts. destruct (rpoints l); [congruence|reflexivity].
  - pose proof (rpoints_sorted l) as R. fold (pts l) in R. induction R as [|a r R IH F]; cbn [map]; constructor; [exact IH|].
    apply Forall_map. eapply Forall_impl; [|exact F]. intros b [B1 B2]. cbn [fst snd]. unfold qrate. apply qn_le in B1, B2.
    pose proof (Qcinv_pos _ (qn_pos _ He)). pose proof (Qcinv_pos _ (qn_pos _ Hn)). unfold Qcdiv. split; apply Qcmult_le_compat_r; try assumption; apply Qclt_le_weak; assumption.
  - unfold pts. cbn [map tl]. intros p I. apply in_map_iff in I as (q & <- & I). destruct (rpoints_counts l q I) as (t & It & E1 & E2).
    exists t. cbn [fst snd]. split; [|unfold share, qrate; split].
    + unfold l, scoreds in It. rewrite map_map in It. apply in_map_iff in It as (ix & <- & Ix). apply in_map_iff. exists ix. split; [apply (known_fin s f ix U Ix)|exact Ix].
    + f_equal. f_equal. rewrite E1. unfold cnt_ge, l, scoreds. rewrite filter_map_in, map_length. unfold nonevents. cbn [cell fst snd].
      f_equal. rewrite filter_filter_and. apply filter_ext_in. intros ix Ix. rewrite (known_fin s f ix U Ix). cbn [nle qof]. destruct (get o ix); reflexivity.
    + f_equal. f_equal. rewrite E2. unfold cnt_ge, l, scoreds. rewrite filter_map_in, map_length. unfold events. cbn [cell fst snd].
      f_equal. rewrite filter_filter_and. apply filter_ext_in. intros ix Ix. rewrite (known_fin s f ix U Ix). cbn [nle qof]. destruct (get o ix); reflexivity.
Qed.
Print Assumptions c75_curve.

(** Only the order of the forecasts matters. *)
Definition fmap_fin (g : Qc -> Qc) (f : arr num) : arr num := amap (fun x => match x with Fin q => Fin (g q) | x => x end) f.
Theorem c75_order_only : forall g s f o, (forall x y, (x < y)%Qc -> (g x < g y)%Qc) -> usable s f -> shape o = shape f ->
  calculate_roc s (fmap_fin g f) o = calculate_roc s f o.
Proof.
  intros g s f o Hg U S.
  assert (U' : usable s (fmap_fin g f)).
  { intros ix I. cbn [fmap_fin amap shape get] in *. destruct (U ix I) as [[q ->]|[E ->]]; [left; eauto|right; auto]. }
  rewrite (calculate_is s _ o U' S), (calculate_is s f o U S), <- (roc_list_map g Hg (scoreds f o)). f_equal.
  unfold scoreds. rewrite map_map.
  assert (K : known (fmap_fin g f) = known f).
  { unfold known. cbn [fmap_fin amap shape get]. apply filter_ext. intros ix. destruct (get f ix); reflexivity. }
  rewrite K. apply map_ext_in. intros ix I. unfold cell, on_score. cbn [fmap_fin amap get fst snd]. rewrite (known_fin s f ix U I). reflexivity.
Qed.
Print Assumptions c75_order_only.

(** The complementary forecast of the complementary event has the same area. *)
Theorem c75_complement : forall s f o fpr tpr a, usable s f -> shape o = shape f -> events f o <> [] -> nonevents f o <> [] ->
  calculate_roc s f o = Ok (fpr, tpr, a) ->
  exists fpr' tpr', calculate_roc s (amap (nsub (Fin 1%Qc)) f) (amap negb o) = Ok (fpr', tpr', a).
Proof.
  intros s f o fpr tpr a U S He Hn E. rewrite (calculate_fin s f o U S He Hn) in E. injection E as _ _ <-.
  set (f' := amap (nsub (Fin 1%Qc)) f). set (o' := amap negb o).
  assert (U' : usable s f').
  { intros ix I. cbn [f' amap shape get] in *. destruct (U ix I) as [[q ->]|[E ->]]; [left; eexists; reflexivity|right; auto]. }
  assert (K : known f' = known f).
  { unfold known, f'. cbn [amap shape get]. apply filter_ext_in. intros ix I. destruct (U ix I) as [[q ->]|[_ ->]]; reflexivity. }
  assert (Ke : events f' o' = nonevents f o) by (unfold events, nonevents; rewrite K; reflexivity).
  assert (Kn : nonevents f' o' = events f o).
  { unfold events, nonevents. rewrite K. apply filter_ext. intros ix. cbn. apply negb_involutive. }
  eexists _, _. rewrite (calculate_fin s f' o' U' S); rewrite ?Ke, ?Kn; [|assumption|assumption]. do 3 f_equal.
  assert (W : wins f' o' = wins f o /\ ties f' o' = ties f o).
  { assert (G : forall (p q : list nat * list nat -> bool) A B, (forall a b, In a A -> In b B -> p (a, b) = q (b, a)) -> length (filter p (list_prod A B)) = length (filter q (list_prod B A))).
    { intros p q A B H. assert (P : Permutation (list_prod B A) (map (fun x => (snd x, fst x)) (list_prod A B))).
      { clear H. revert B. induction A as [|x A IH]; intros B.
        - cbn [list_prod map]. induction B as [|y B IHB]; [apply Permutation_refl|]. cbn [list_prod map app]. exact IHB.
        - cbn [list_prod]. rewrite map_app, map_map. cbn [fst snd].
          assert (Q : forall C : list (list nat), Permutation (list_prod C (x :: A)) (map (fun y => (y, x)) C ++ list_prod C A)).
          { induction C as [|y B0 IHB]; [apply Permutation_refl|]. cbn [list_prod map app]. apply perm_skip. eapply perm_trans; [apply Permutation_app_head, IHB|].
            rewrite !app_assoc. apply Permutation_app_tail, Permutation_app_comm. }
          eapply perm_trans; [apply Q|]. apply Permutation_app_head, IH. }
      rewrite (Permutation_length (filter_perm q _ _ P)), filter_map_in, map_length. f_equal. apply filter_ext_in. intros [a b] I. apply in_prod_iff in I as [Ia Ib]. apply H; assumption. }
    unfold wins, ties. rewrite Ke, Kn. split; apply G; intros i j Ii Ij; cbn [fst snd f' amap get];
      apply filter_In in Ii as [Ii _], Ij as [Ij _]; rewrite (known_fin s f i U Ii), (known_fin s f j U Ij); unfold nsub; cbn [nopp nadd nlt nle].
    - destruct (qltb_spec (1 + - qof (get f i)) (1 + - qof (get f j))), (qltb_spec (qof (get f j)) (qof (get f i))); try reflexivity; exfalso; qlra.
    - destruct (qleb_spec (1 + - qof (get f i)) (1 + - qof (get f j))), (qleb_spec (1 + - qof (get f j)) (1 + - qof (get f i))), (qleb_spec (qof (get f j)) (qof (get f i))), (qleb_spec (qof (get f i)) (qof (get f j))); try reflexivity; exfalso; qlra. }
  destruct W as [-> ->]. unfold Qcdiv. f_equal. f_equal. ring.
Qed.
Print Assumptions c75_complement.

(** Without events or without non-events the area is undefined; nothing at all, or a forecast that is not finite, is refused. *)
Theorem c75_undefined : forall s f o, shape o = shape f ->
  (usable s f -> known f <> [] -> events f o = [] \/ nonevents f o = [] -> exists fpr tpr, calculate_roc s f o = Ok (fpr, tpr, NaN)) /\
  (usable s f -> known f = [] -> calculate_roc s f o = Raise IndexError) /\
  (forall ix, In ix (indices (shape f)) -> (get f ix = PInf \/ get f ix = NInf \/ (s = false /\ get f ix = NaN)) -> calculate_roc s f o = Raise ValueError).
Proof.
  intros s f o S. split; [|split].
  - intros U K H. rewrite (calculate_is s f o U S). assert (Hl : scoreds f o <> []) by (unfold scoreds; destruct (known f); [congruence|discriminate]).
    destruct H as [H|H].
    + destruct (roc_list_no_pos (scoreds f o) Hl) as [t ->]; [rewrite posn_events, H; reflexivity|]. eauto.
    + destruct (roc_list_no_neg (scoreds f o) Hl) as [t ->]; [rewrite negn_nonevents, H; reflexivity|]. eauto.
  - intros U K. rewrite (calculate_is s f o U S). unfold scoreds. rewrite K. reflexivity.
  - intros ix I H. unfold calculate_roc, ravel. rewrite S, !map_length, Nat.eqb_refl. cbn [negb]. rewrite combine_map. cbv zeta.
    set (cells := if s then _ else _).
    assert (Ic : In (get f ix, get o ix) cells).
    { unfold cells. assert (J : In (get f ix, get o ix) (map (fun x => (get f x, get o x)) (indices (shape f)))) by (apply in_map_iff; eauto).
      destruct s; [|exact J]. apply filter_In. split; [exact J|]. cbn [fst]. destruct H as [->|[->|[E _]]]; [reflexivity|reflexivity|discriminate]. }
    clearbody cells. assert (M : mapM (fun c => match fst c with Fin q => Ok (q, snd c) | _ => Raise ValueError end) cells = Raise ValueError); [|rewrite M; reflexivity].
    induction cells as [|[x b] cells IH]; [destruct Ic|]. cbn [mapM fst snd]. destruct Ic as [E|Ic].
    + injection E as -> _. destruct H as [->|[->|[_ ->]]]; reflexivity.
    + destruct x as [q| | |]; try reflexivity. cbn [bind]. rewrite IH by exact Ic. reflexivity.
Qed.
Print Assumptions c75_undefined.

(** The metric: the events are the observations beyond the threshold. *)
Definition beyond (over below : option thr) (x : num) : option bool :=
  match over, below with
  | Some (TScalar a), None => Some (nlt a x)
  | None, Some (TScalar b) => Some (nlt x b)
  | _, _ => None
  end.
Theorem c75_metric : forall s p o over below ev, shape o = shape p -> (forall x, beyond over below x = Some (ev x)) ->
  let o' := Arr (shape o) (fun ix => ev (get o ix)) in
  (usable s p -> events p o' <> [] -> nonevents p o' <> [] ->
    exists fpr tpr, roc s (Ok p) o over below =
      Ok (fpr, tpr, Fin ((qn (wins p o') + qn (ties p o') / qn 2) / (qn (length (events p o')) * qn (length (nonevents p o'))))%Qc)) /\
  (forall ix, In ix (indices (shape p)) -> (get p ix = PInf \/ get p ix = NInf \/ (s = false /\ get p ix = NaN)) -> roc s (Ok p) o over below = Raise ValueError).
Proof.
  intros s p o over below ev S B o'.
  assert (E : roc s (Ok p) o over below = calculate_roc s p o').
  { assert (X : forall b, binarize_obs o over below = Ok b -> shape b = shape o -> (forall ix, get b ix = ev (get o ix)) -> roc s (Ok p) o over below = calculate_roc s p o').
    { intros b Hb Sb Gb. unfold roc. cbn [bind]. rewrite Hb. cbn [bind]. unfold calculate_roc, ravel. cbn [o' shape get]. rewrite Sb, (map_ext _ _ Gb). reflexivity. }
    destruct over as [[a|a|]|], below as [[b|b|]|]; cbn [beyond] in B; try (specialize (B NaN); discriminate B); (eapply X; [reflexivity|reflexivity|]);
    intros ix; cbn; specialize (B (get o ix)); congruence. }
  rewrite E. split; [intros U He Hn; apply c75_area; assumption|intros ix I H; exact (proj2 (proj2 (c75_undefined s p o' S)) ix I H)].
Qed.
Print Assumptions c75_metric.

(** Four cells, one missing forecast: events 0.7 and 0.2, non-event 0.2. *)
Definition ex_f : arr num := Arr [2; 2] (fun ix => nth (2 * nth 0 ix 0 + nth 1 ix 0) [Fin (Q2Qc (7 # 10)); Fin (Q2Qc (2 # 10)); NaN; Fin (Q2Qc (2 # 10))] NaN).
Definition ex_o : arr bool := Arr [2; 2] (fun ix => nth (2 * nth 0 ix 0 + nth 1 ix 0) [true; false; false; true] false).
Example ex_usable : usable true ex_f /\ shape ex_o = shape ex_f /\ events ex_f ex_o = [[0; 0]; [1; 1]] /\ nonevents ex_f ex_o = [[0; 1]] /\ wins ex_f ex_o = 1 /\ ties ex_f ex_o = 1.
Proof.
  split; [|vm_compute; auto 10]. intros ix I. cbn in I. destruct I as [<-|[<-|[<-|[<-|[]]]]]; [left|left|right|left]; cbn; eauto.
Qed.
Example ex_roc : calculate_roc true ex_f ex_o = Ok ([Fin 0%Qc; Fin 0%Qc; Fin 1%Qc], [Fin 0%Qc; Fin (Q2Qc (1 # 2)); Fin 1%Qc], Fin (Q2Qc (3 # 4))) /\ calculate_roc false ex_f ex_o = Raise ValueError.
Proof. split; vm_compute; repeat first [reflexivity | apply Qc_is_canon; reflexivity | f_equal]. Qed.
Example ex_metric : roc true (Ok (of_list NaN [4] [Fin (qz 2); NaN; Fin (qz 1); Fin (qz 1)])) (of_list NaN [4] [Fin (qz 5); Fin (qz 5); Fin (qz 0); Fin (qz 4)]) (Some (TScalar (Fin (qz 3)))) None
  = Ok ([Fin 0%Qc; Fin 0%Qc; Fin 1%Qc], [Fin 0%Qc; Fin (Q2Qc (1 # 2)); Fin 1%Qc], Fin (Q2Qc (3 # 4))).
Proof. vm_compute; repeat first [reflexivity | apply Qc_is_canon; reflexivity | f_equal]. Qed.
(** An increasing change of scale. *)
Example ex_scale : forall x y, (x < y)%Qc -> (qn 3 * x + 1 < qn 3 * y + 1)%Qc.
Proof. intros x y H. assert (E : qn 3 = (1 + 1 + 1)%Qc) by (apply Qc_is_canon; reflexivity). rewrite E. replace ((1 + 1 + 1) * x + 1)%Qc with (x + x + x + 1)%Qc by ring. replace ((1 + 1 + 1) * y + 1)%Qc with (y + y + y + 1)%Qc by ring. qlra. Qed.
Example ex_no_event : known ex_f <> [] /\ nonevents ex_f (amap (fun _ => true) ex_o) = [].
Proof. split; [discriminate|reflexivity]. Qed.

(** ** C76 *)
(** Binarised observations do not show what is missing: a missing observation is turned into a non-event, as if any value on the
    other side of the threshold had been observed. *)
Definition fill (v : num) (o : arr num) : arr num := amap (fun x => if is_nan x then v else x) o.
Definition not_event (v : num) (over below : option thr) : Prop :=
  match over, below with
  | Some (TScalar a), None => nlt a v = false
  | None, Some (TScalar b) => nlt v b = false
  | _, _ => False
  end.
Theorem c76_missing_is_nonevent : forall o v over below, not_event v over below ->
  exists b b', binarize_obs o over below = Ok b /\ binarize_obs (fill v o) over below = Ok b' /\ shape b = shape b' /\
    forall ix, get b ix = get b' ix /\ (get o ix = NaN -> get b ix = false).
Proof.
  intros o v over below H. destruct over as [[a|a|]|], below as [[b|b|]|]; cbn [not_event] in H; try contradiction.
  - eexists _, _. split; [reflexivity|split; [reflexivity|split; [reflexivity|]]]. intros ix. cbn [fill amap get]. destruct (get o ix); cbn [is_nan]; split; try reflexivity; try discriminate; destruct a; try reflexivity; auto.
  - eexists _, _. split; [reflexivity|split; [reflexivity|split; [reflexivity|]]]. intros ix. cbn [fill amap get]. destruct (get o ix); cbn [is_nan]; split; try reflexivity; try discriminate; auto.
Qed.
Print Assumptions c76_missing_is_nonevent.
(** So a missing observation counts: with skipping of missing values switched on, the area under the curve is 1/2 where the two
    cells with an observation alone give 1, and a missing observation with any forecast [q] adds q^2 to the Brier score. *)
Definition vec {A} (d : A) (l : list A) : arr A := of_list d [length l] l.
Theorem c76_missing_observation_refuted :
  (exists f o (keep : list nat) fpr tpr fpr' tpr', (forall k, In k keep <-> exists q, nth k o NaN = Fin q) /\
    roc true (Ok (vec NaN f)) (vec NaN o) (Some (TScalar (Fin 0%Qc))) None = Ok (fpr, tpr, Fin (Q2Qc (1 # 2))) /\
    roc true (Ok (vec NaN (map (fun k => nth k f NaN) keep))) (vec NaN (map (fun k => nth k o NaN) keep)) (Some (TScalar (Fin 0%Qc))) None = Ok (fpr', tpr', Fin 1%Qc)) /\
  (forall p o a r ix q, cell_brier (Ok p) o (Some (TScalar a)) None = Ok r -> shape p = shape o -> Forall2 lt ix (shape o) ->
    get o ix = NaN -> get p ix = Fin q -> get r ix = Fin (q * q)%Qc).
Proof.
  split.
  - exists [Fin (Q2Qc (5 # 10)); Fin (Q2Qc (1 # 10)); Fin (Q2Qc (8 # 10))], [Fin 1%Qc; Fin 0%Qc; NaN], [0; 1]. do 4 eexists. split; [|split].
    + intros k. split; [intros [<-|[<-|[]]]; cbn; eauto|]. intros [q E]. destruct k as [|[|[|k]]]; cbn in E; [left; reflexivity|right; left; reflexivity|discriminate|destruct k; discriminate].
    + vm_compute. reflexivity.
    + vm_compute. reflexivity.
  - intros p o a r ix q E _ _ Ho Hp. unfold cell_brier in E. cbn in E. injection E as <-. cbn [amap2 amap get]. rewrite Ho, Hp.
    assert (N : nlt a NaN = false) by (destruct a; reflexivity). rewrite N. unfold nsq. cbn. f_equal. ring.
Qed.
Print Assumptions c76_missing_observation_refuted.
(** Missing forecasts are left out: the result is that of the cells with a forecast alone. *)
Theorem c76_missing_forecast_partial : forall f o, usable true f -> shape o = shape f ->
  calculate_roc true f o = calculate_roc false (vec NaN (map (get f) (known f))) (vec false (map (get o) (known f))).
Proof.
  intros f o U S. rewrite (calculate_is true f o U S).
  assert (R : forall A (d : A) l, ravel (vec d l) = l).
  { intros A d l. apply (ravel_of_list d [length l] l). cbn. lia. }
  unfold calculate_roc. rewrite !R, !map_length, Nat.eqb_refl. cbn [negb]. rewrite combine_map. cbv zeta.
  rewrite (mapM_total _ (fun c => (qof (fst c), snd c))).
  - cbn [bind]. rewrite map_map. unfold scoreds, roc_list, cell. cbn [fst snd]. reflexivity.
  - intros c I. apply in_map_iff in I as (ix & <- & I). cbn [fst snd]. rewrite (known_fin true f ix U I). reflexivity.
Qed.
Print Assumptions c76_missing_forecast_partial.
Example ex_fill : not_event (Fin 0%Qc) (Some (TScalar (Fin 0%Qc))) None /\ get (fill (Fin 0%Qc) (vec NaN [Fin 1%Qc; NaN])) [1] = Fin 0%Qc.
Proof. split; reflexivity. Qed.
