(** Proofs about the ROC curve. *)
From Coq Require Import ZArith List Lia Bool Arith QArith Qcanon Permutation Sorted.
From Verif Require Import QcTac QSum Num NdArr Numpy M_common M_ens M_roc.
Import ListNotations.
Open Scope nat_scope.

(** ** Counting *)
Definition posn (l : list scored) : nat := length (filter snd l).
Definition negn (l : list scored) : nat := length (filter (fun c => negb (snd c)) l).
(** 2 for a better score, 1 for an equal one *)
Definition wt (a b : Qc) : nat := if qltb b a then 2 else if qeqb a b then 1 else 0.
Definition cell_w (j : scored) (i : scored) : nat := if snd i then wt (fst i) (fst j) else 0.
Definition crossj (A : list scored) (j : scored) : nat := if snd j then 0 else nsumn (map (cell_w j) A).
Definition cross (A B : list scored) : nat := nsumn (map (crossj A) B).

Lemma posn_app a b : posn (a ++ b) = posn a + posn b.
Proof. unfold posn. rewrite filter_app, app_length. reflexivity. Qed.
Lemma negn_app a b : negn (a ++ b) = negn a + negn b.
Proof. unfold negn. rewrite filter_app, app_length. reflexivity. Qed.
Lemma posn_1 s e : posn [(s, e)] = if e then 1 else 0. Proof. destruct e; reflexivity. Qed.
Lemma negn_1 s e : negn [(s, e)] = if e then 0 else 1. Proof. destruct e; reflexivity. Qed.
Lemma nsumn_map_plus {A} (f g : A -> nat) l : nsumn (map (fun x => f x + g x) l) = nsumn (map f l) + nsumn (map g l).
Proof. induction l as [|x l IH]; [reflexivity|]. cbn [map nsumn fold_right] in *. unfold nsumn in *. lia. Qed.
Lemma nsumn_cons x l : nsumn (x :: l) = x + nsumn l. Proof. reflexivity. Qed.
Lemma crossj_app A B j : crossj (A ++ B) j = crossj A j + crossj B j.
Proof. unfold crossj. destruct (snd j); [reflexivity|]. rewrite map_app, nsumn_app. reflexivity. Qed.
Lemma cross_app_l A B C : cross (A ++ B) C = cross A C + cross B C.
Proof. unfold cross. rewrite <- nsumn_map_plus. f_equal. apply map_ext. intros; apply crossj_app. Qed.
Lemma cross_app_r A B C : cross A (B ++ C) = cross A B + cross A C.
Proof. unfold cross. rewrite map_app, nsumn_app. reflexivity. Qed.
(** weights that do not depend on the pair *)
Lemma cross_const w A B : (forall i j, In i A -> In j B -> snd i = true -> snd j = false -> wt (fst i) (fst j) = w) -> cross A B = w * posn A * negn B.
Proof.
  intros H. induction B as [|j B IH]; [unfold cross, negn; cbn; lia|].
  unfold cross in *. cbn [map]. rewrite nsumn_cons, IH by (intros; apply H; cbn; auto).
  assert (E : crossj A j = if snd j then 0 else w * posn A).
  { unfold crossj. destruct (snd j) eqn:Ej; [reflexivity|].
    assert (K : forall i, In i A -> snd i = true -> wt (fst i) (fst j) = w) by (intros; apply H; cbn; auto).
    clear - K. induction A as [|i A IH]; [unfold posn; cbn; lia|].
    cbn [map]. rewrite nsumn_cons, IH by (intros; apply K; [right; auto|auto]). unfold cell_w, posn. cbn [filter].
    destruct (snd i) eqn:Ei; [|reflexivity]. rewrite (K i (or_introl eq_refl) Ei). cbn [length]. lia. }
  rewrite E. unfold negn. cbn [filter]. destruct (snd j); cbn [negb]; [lia|]. cbn [length]. lia.
Qed.
Lemma wt_same v : wt v v = 1.
Proof. unfold wt. destruct (qltb_spec v v); [exfalso; qlra|]. rewrite qeqb_refl. reflexivity. Qed.
Lemma wt_gt a b : (b < a)%Qc -> wt a b = 2.
Proof. intros H. unfold wt. destruct (qltb_spec b a); [reflexivity|exfalso; qlra]. Qed.
Lemma wt_lt a b : (a < b)%Qc -> wt a b = 0.
Proof. intros H. unfold wt. destruct (qltb_spec b a); [exfalso; qlra|]. destruct (qeqb_spec a b) as [->|]; [exfalso; qlra|reflexivity]. Qed.
Lemma nsumn_perm l1 l2 : Permutation l1 l2 -> nsumn l1 = nsumn l2.
Proof. induction 1; unfold nsumn in *; cbn [fold_right] in *; lia. Qed.
Lemma cross_perm A A' B B' : Permutation A A' -> Permutation B B' -> cross A B = cross A' B'.
Proof.
  intros HA HB. unfold cross. rewrite (nsumn_perm _ _ (Permutation_map (crossj A) HB)). f_equal. apply map_ext.
  intros j. unfold crossj. destruct (snd j); [reflexivity|]. apply nsumn_perm, Permutation_map, HA.
Qed.
Lemma filter_perm {A} (p : A -> bool) l1 l2 : Permutation l1 l2 -> Permutation (filter p l1) (filter p l2).
Proof.
  induction 1; cbn.
  - constructor.
  - destruct (p x); [constructor|]; assumption.
  - destruct (p x), (p y); try apply Permutation_refl. apply perm_swap.
  - eapply perm_trans; eassumption.
Qed.
Lemma posn_perm l1 l2 : Permutation l1 l2 -> posn l1 = posn l2.
Proof. intros H. apply Permutation_length, filter_perm, H. Qed.
Lemma negn_perm l1 l2 : Permutation l1 l2 -> negn l1 = negn l2.
Proof. intros H. apply Permutation_length, filter_perm, H. Qed.

(** ** Sorting *)
Definition pdesc : list scored -> Prop := StronglySorted (fun a b => (fst b <= fst a)%Qc).
Lemma pins_perm x l : Permutation (x :: l) (pins x l).
Proof. induction l as [|y l IH]; cbn; [apply Permutation_refl|]. destruct (qleb (fst x) (fst y)); [apply Permutation_refl|]. eapply perm_trans; [apply perm_swap|]. constructor. exact IH. Qed.
Lemma psort_perm l : Permutation l (psort l).
Proof. induction l as [|x l IH]; cbn; [constructor|]. eapply perm_trans; [constructor; exact IH|apply pins_perm]. Qed.
Lemma pins_sorted x l : StronglySorted (fun a b : scored => (fst a <= fst b)%Qc) l -> StronglySorted (fun a b : scored => (fst a <= fst b)%Qc) (pins x l).
Proof.
  induction l as [|y l IH]; cbn; intros H; [repeat constructor|]. inversion_clear H. destruct (qleb_spec (fst x) (fst y)).
  - constructor; [constructor; assumption|]. constructor; [assumption|]. eapply Forall_impl; [|exact H1]. intros a Ha. cbv beta in *. qlra.
  - constructor; [apply IH; assumption|]. eapply Permutation_Forall; [apply pins_perm|]. constructor; [qlra|assumption].
Qed.
Lemma psort_sorted l : StronglySorted (fun a b : scored => (fst a <= fst b)%Qc) (psort l).
Proof. induction l as [|x l IH]; cbn; [constructor|]. apply pins_sorted, IH. Qed.
Lemma rev_desc l : StronglySorted (fun a b : scored => (fst a <= fst b)%Qc) l -> pdesc (rev l).
Proof.
  induction 1 as [|a l H IH F]; cbn; [constructor|].
  assert (G : forall m, pdesc m -> Forall (fun b : scored => (fst a <= fst b)%Qc) m -> pdesc (m ++ [a])).
  { induction m as [|b m IHm]; cbn; intros Hm Fm; [repeat constructor|]. inversion_clear Hm. inversion_clear Fm.
    constructor; [apply IHm; assumption|]. apply Forall_app. split; [assumption|]. constructor; [assumption|constructor]. }
  apply G; [exact IH|]. apply Forall_rev, F.
Qed.
Lemma desc_sorted l : pdesc (rev (psort l)). Proof. apply rev_desc, psort_sorted. Qed.
Lemma desc_perm l : Permutation l (rev (psort l)).
Proof. eapply perm_trans; [apply psort_perm|apply Permutation_rev]. Qed.

(** ** Area *)
Definition pz (p : nat * nat) : Z * Z := (Z.of_nat (fst p), Z.of_nat (snd p)).
(** twice the area under the segment from a to b, and under a chain of segments *)
Definition seg (a b : nat * nat) : Z := ((fst (pz b) - fst (pz a)) * (snd (pz a) + snd (pz b)))%Z.
Fixpoint area2 (a : nat * nat) (l : list (nat * nat)) : Z :=
  match l with [] => 0%Z | b :: r => (seg a b + area2 b r)%Z end.

Lemma area_points : forall l h p x0 y0, pdesc (h :: l) -> (forall c, In c p -> fst c = fst h) ->
  area2 (x0, y0) (roc_points (h :: l) (x0 + negn p) (y0 + posn p)) =
  Z.of_nat (cross (p ++ h :: l) (p ++ h :: l) + 2 * y0 * negn (p ++ h :: l)).
Proof.
  induction l as [|h2 l IH]; intros [s e] p x0 y0 Hs Hp.
  - cbn [roc_points area2].
    assert (Ex : (if e then x0 + negn p else S (x0 + negn p)) = x0 + negn (p ++ [(s, e)])) by (rewrite negn_app; rewrite negn_1; destruct e; lia).
    assert (Ey : (if e then S (y0 + posn p) else y0 + posn p) = y0 + posn (p ++ [(s, e)])) by (rewrite posn_app; rewrite posn_1; destruct e; lia).
    rewrite Ex, Ey. set (p' := p ++ [(s, e)]).
    assert (C : cross p' p' = 1 * posn p' * negn p').
    { apply cross_const. intros i j Ii Ij _ _.
      assert (Q : forall c, In c p' -> fst c = s) by (intros c I; apply in_app_or in I as [I|[<-|[]]]; [apply Hp, I|reflexivity]).
      rewrite (Q i Ii), (Q j Ij). apply wt_same. }
    change (p ++ [(s, e)]) with p'. rewrite C. unfold seg, pz. cbn [fst snd]. lia.
  - destruct h2 as [s2 e2].
    change (roc_points ((s, e) :: (s2, e2) :: l) (x0 + negn p) (y0 + posn p)) with
      (let fp := if e then x0 + negn p else S (x0 + negn p) in let tp := if e then S (y0 + posn p) else y0 + posn p in
       if qeqb s s2 then roc_points ((s2, e2) :: l) fp tp else (fp, tp) :: roc_points ((s2, e2) :: l) fp tp). cbv zeta.
    assert (Ex : (if e then x0 + negn p else S (x0 + negn p)) = x0 + negn (p ++ [(s, e)])) by (rewrite negn_app; rewrite negn_1; destruct e; lia).
    assert (Ey : (if e then S (y0 + posn p) else y0 + posn p) = y0 + posn (p ++ [(s, e)])) by (rewrite posn_app; rewrite posn_1; destruct e; lia).
    rewrite Ex, Ey. set (p' := p ++ [(s, e)]).
    assert (Q : forall c, In c p' -> fst c = s) by (intros c I; apply in_app_or in I as [I|[<-|[]]]; [apply Hp, I|reflexivity]).
    assert (El : p ++ (s, e) :: (s2, e2) :: l = p' ++ (s2, e2) :: l) by (unfold p'; rewrite <- app_assoc; reflexivity).
    rewrite El. inversion_clear Hs as [|? ? Hs2 Hf].
    destruct (qeqb_spec s s2) as [E|E].
    + apply IH; [exact Hs2|]. intros c I. rewrite (Q c I). exact E.
    + cbn [area2].
      pose proof (IH (s2, e2) [] (x0 + negn p') (y0 + posn p') Hs2 (fun c I => match I with end)) as A.
      cbn [app] in A. change (negn []) with 0 in A. change (posn []) with 0 in A. rewrite !Nat.add_0_r in A. rewrite A.
      set (r := (s2, e2) :: l) in *.
      assert (L : forall c, In c r -> (fst c < s)%Qc).
      { assert (L2 : (s2 < s)%Qc).
        { inversion_clear Hf. cbn in H. destruct (Qcle_lt_or_eq _ _ H) as [|E2]; [assumption|]. exfalso. apply E. symmetry. exact E2. }
        intros c [<-|I]; [exact L2|]. inversion_clear Hs2 as [|? ? _ F2]. rewrite Forall_forall in F2. specialize (F2 c I). cbn in F2. eapply Qcle_lt_trans; eassumption. }
      rewrite !cross_app_l, !cross_app_r, !negn_app.
      rewrite (cross_const 1 p' p') by (intros i j Ii Ij _ _; rewrite (Q i Ii), (Q j Ij); apply wt_same).
      rewrite (cross_const 2 p' r) by (intros i j Ii Ij _ _; rewrite (Q i Ii); apply wt_gt, L, Ij).
      rewrite (cross_const 0 r p') by (intros i j Ii Ij _ _; rewrite (Q j Ij); apply wt_lt, L, Ii).
      unfold seg, pz. cbn [fst snd]. lia.
Qed.
(** leaving out points in the middle of equal steps *)
Lemma area_drop : forall l K a b (m : Z),
  (Z.of_nat (fst a) - Z.of_nat (fst K) = m * (Z.of_nat (fst b) - Z.of_nat (fst a)))%Z ->
  (Z.of_nat (snd a) - Z.of_nat (snd K) = m * (Z.of_nat (snd b) - Z.of_nat (snd a)))%Z ->
  area2 K (drop_inner a (b :: l)) = (seg K a + area2 a (b :: l))%Z.
Proof.
  assert (C : forall K a b m, (Z.of_nat (fst a) - Z.of_nat (fst K) = m * (Z.of_nat (fst b) - Z.of_nat (fst a)))%Z ->
    (Z.of_nat (snd a) - Z.of_nat (snd K) = m * (Z.of_nat (snd b) - Z.of_nat (snd a)))%Z -> seg K b = (seg K a + seg a b)%Z).
  { intros K a b m H1 H2. unfold seg, pz. cbn [fst snd].
    set (dx := (Z.of_nat (fst b) - Z.of_nat (fst a))%Z) in *. set (dy := (Z.of_nat (snd b) - Z.of_nat (snd a))%Z) in *.
    replace (Z.of_nat (fst b)) with (Z.of_nat (fst a) + dx)%Z by (unfold dx; lia). replace (Z.of_nat (snd b)) with (Z.of_nat (snd a) + dy)%Z by (unfold dy; lia).
    replace (Z.of_nat (fst K)) with (Z.of_nat (fst a) - m * dx)%Z by lia. replace (Z.of_nat (snd K)) with (Z.of_nat (snd a) - m * dy)%Z by lia. ring. }
  induction l as [|c l IH]; intros K a b m H1 H2.
  - cbn [drop_inner area2]. rewrite (C K a b m H1 H2). ring.
  - change (drop_inner a (b :: c :: l)) with (if bend a b c then b :: drop_inner b (c :: l) else drop_inner b (c :: l)).
    change (area2 a (b :: c :: l)) with (seg a b + area2 b (c :: l))%Z.
    destruct (bend a b c) eqn:B.
    + change (area2 K (b :: drop_inner b (c :: l))) with (seg K b + area2 b (drop_inner b (c :: l)))%Z.
      rewrite (IH b b c 0%Z) by lia. rewrite (C K a b m H1 H2). replace (seg b b) with 0%Z by (unfold seg; ring). ring.
    + unfold bend in B. apply negb_false_iff, andb_true_iff in B as [B1 B2]. apply Nat.eqb_eq in B1, B2.
      assert (X : (Z.of_nat (fst c) - Z.of_nat (fst b) = Z.of_nat (fst b) - Z.of_nat (fst a))%Z) by lia.
      assert (Y : (Z.of_nat (snd c) - Z.of_nat (snd b) = Z.of_nat (snd b) - Z.of_nat (snd a))%Z) by lia.
      rewrite (IH K b c (m + 1)%Z) by (rewrite ?X, ?Y; lia). rewrite (C K a b m H1 H2). ring.
Qed.
Lemma area_drop_all l : area2 (0, 0) (drop_intermediate l) = area2 (0, 0) l.
Proof.
  destruct l as [|a [|b l]]; [reflexivity|reflexivity|]. unfold drop_intermediate. destruct (Nat.ltb 2 _); [|reflexivity].
  change (area2 (0, 0) (a :: drop_inner a (b :: l))) with (seg (0%nat, 0%nat) a + area2 a (drop_inner a (b :: l)))%Z.
  rewrite (area_drop l a a b 0%Z) by lia. cbn [area2]. replace (seg a a) with 0%Z by (unfold seg; ring). ring.
Qed.
Definition rpoints (l : list scored) : list (nat * nat) := drop_intermediate (roc_points (rev (psort l)) 0 0).
Lemma area_rpoints l : area2 (0, 0) (rpoints l) = Z.of_nat (cross l l).
Proof.
  unfold rpoints. rewrite area_drop_all. pose proof (desc_sorted l) as S. pose proof (desc_perm l) as P.
  rewrite (cross_perm _ _ _ _ P P). destruct (rev (psort l)) as [|h r]; [reflexivity|].
  pose proof (area_points r h [] 0 0 S (fun c I => match I with end)) as A. cbn [app posn negn filter length Nat.add] in A.
  change (negn []) with 0 in A. change (posn []) with 0 in A. cbn [Nat.add] in A. rewrite A. lia.
Qed.

(** ** The points *)
Definition le2 (a b : nat * nat) : Prop := fst a <= fst b /\ snd a <= snd b.
Definition cnt_ge (want : bool) (t : Qc) (l : list scored) : nat := length (filter (fun c => Bool.eqb (snd c) want && qleb t (fst c)) l).
Lemma cnt_ge_app w t a b : cnt_ge w t (a ++ b) = cnt_ge w t a + cnt_ge w t b.
Proof. unfold cnt_ge. rewrite filter_app, app_length. reflexivity. Qed.
Lemma cnt_ge_all w t l : (forall c, In c l -> (t <= fst c)%Qc) -> cnt_ge w t l = if w then posn l else negn l.
Proof.
  intros H. unfold cnt_ge, posn, negn. rewrite (filter_ext_in _ (fun c => Bool.eqb (snd c) w)).
  - destruct w; f_equal; apply filter_ext; intros [s []]; reflexivity.
  - intros c I. destruct (qleb_spec t (fst c)); [apply andb_true_r|]. exfalso. specialize (H c I). qlra.
Qed.
Lemma cnt_ge_none w t l : (forall c, In c l -> (fst c < t)%Qc) -> cnt_ge w t l = 0.
Proof.
  intros H. unfold cnt_ge. replace (filter _ l) with (@nil scored); [reflexivity|]. symmetry.
  induction l as [|c l IH]; [reflexivity|]. cbn. rewrite IH by (intros; apply H; right; assumption).
  destruct (qleb_spec t (fst c)); [exfalso; specialize (H c (or_introl eq_refl)); qlra|]. rewrite andb_false_r. reflexivity.
Qed.
Lemma cnt_ge_perm w t l1 l2 : Permutation l1 l2 -> cnt_ge w t l1 = cnt_ge w t l2.
Proof. intros H. apply Permutation_length, filter_perm, H. Qed.
Lemma points_are_counts : forall l h p x0 y0, pdesc (h :: l) -> (forall c, In c p -> (fst h <= fst c)%Qc) -> x0 = negn p -> y0 = posn p ->
  forall q, In q (roc_points (h :: l) x0 y0) ->
  exists t, In t (map fst (h :: l)) /\ fst q = cnt_ge false t (p ++ h :: l) /\ snd q = cnt_ge true t (p ++ h :: l).
Proof.
  induction l as [|h2 l IH]; intros [s e] p x0 y0 Hs Hp -> -> q I.
  - cbn [roc_points] in I. destruct I as [<-|[]]. exists s. split; [left; reflexivity|]. cbn [fst snd].
    assert (Q : forall c, In c (p ++ [(s, e)]) -> (s <= fst c)%Qc) by (intros c J; apply in_app_or in J as [J|[<-|[]]]; [apply (Hp c J)|apply Qcle_refl]).
    rewrite (cnt_ge_all false s _ Q), (cnt_ge_all true s _ Q). cbv iota. rewrite negn_app, posn_app. rewrite negn_1, posn_1. destruct e; lia.
  - destruct h2 as [s2 e2].
    change (roc_points ((s, e) :: (s2, e2) :: l) (negn p) (posn p)) with
      (let fp := if e then negn p else S (negn p) in let tp := if e then S (posn p) else posn p in
       if qeqb s s2 then roc_points ((s2, e2) :: l) fp tp else (fp, tp) :: roc_points ((s2, e2) :: l) fp tp) in I. cbv zeta in I.
    set (p' := p ++ [(s, e)]).
    assert (Ex : (if e then negn p else S (negn p)) = negn p') by (unfold p'; rewrite negn_app; rewrite negn_1; destruct e; lia).
    assert (Ey : (if e then S (posn p) else posn p) = posn p') by (unfold p'; rewrite posn_app; rewrite posn_1; destruct e; lia).
    rewrite Ex, Ey in I.
    assert (El : p ++ (s, e) :: (s2, e2) :: l = p' ++ (s2, e2) :: l) by (unfold p'; rewrite <- app_assoc; reflexivity).
    inversion_clear Hs as [|? ? Hs2 Hf].
    assert (L2 : (s2 <= s)%Qc) by (inversion_clear Hf; assumption).
    assert (Q : forall c, In c p' -> (s <= fst c)%Qc) by (intros c J; apply in_app_or in J as [J|[<-|[]]]; [apply (Hp c J)|apply Qcle_refl]).
    assert (R : forall q, In q (roc_points ((s2, e2) :: l) (negn p') (posn p')) -> exists t, In t (map fst ((s, e) :: (s2, e2) :: l)) /\ fst q = cnt_ge false t (p ++ (s, e) :: (s2, e2) :: l) /\ snd q = cnt_ge true t (p ++ (s, e) :: (s2, e2) :: l)).
    { intros q' I'. destruct (IH (s2, e2) p' _ _ Hs2 (fun c J => Qcle_trans _ _ _ L2 (Q c J)) eq_refl eq_refl q' I') as (t & It & E1 & E2).
      exists t. rewrite El. split; [right; exact It|split; assumption]. }
    destruct (qeqb_spec s s2) as [E|E]; [apply R, I|]. destruct I as [<-|I]; [|apply R, I].
    exists s. split; [left; reflexivity|]. cbn [fst snd]. rewrite El, !cnt_ge_app.
    assert (N : forall c, In c ((s2, e2) :: l) -> (fst c < s)%Qc).
    { assert (L3 : (s2 < s)%Qc) by (destruct (Qcle_lt_or_eq _ _ L2) as [|E2]; [assumption|exfalso; apply E; symmetry; exact E2]).
      intros c [<-|J]; [exact L3|]. inversion_clear Hs2 as [|? ? _ F2]. rewrite Forall_forall in F2. specialize (F2 c J). cbn in F2. eapply Qcle_lt_trans; eassumption. }
    rewrite (cnt_ge_all false s p' Q), (cnt_ge_all true s p' Q), (cnt_ge_none false s _ N), (cnt_ge_none true s _ N). cbv iota. lia.
Qed.
Lemma points_mono : forall l x0 y0, Forall (le2 (x0, y0)) (roc_points l x0 y0) /\ StronglySorted le2 (roc_points l x0 y0).
Proof.
  induction l as [|[s e] l IH]; intros x0 y0; [split; constructor|].
  cbn [roc_points]. set (x := if e then x0 else S x0). set (y := if e then S y0 else y0).
  assert (L : le2 (x0, y0) (x, y)) by (unfold le2, x, y; cbn; destruct e; lia).
  destruct (IH x y) as [F S].
  assert (F' : Forall (le2 (x0, y0)) (roc_points l x y)) by (eapply Forall_impl; [|exact F]; intros a [A1 A2]; destruct L as [L1 L2]; cbn in *; unfold le2; cbn; lia).
  destruct l as [|[s2 e2] l]; [split; [constructor; [exact L|constructor]|repeat constructor]|].
  destruct (qeqb s s2); [split; assumption|]. split; constructor; assumption.
Qed.
Lemma drop_inner_incl : forall l a q, In q (drop_inner a l) -> In q l.
Proof.
  induction l as [|b l IH]; intros a q; [intros []|]. destruct l as [|c l]; [auto|].
  change (drop_inner a (b :: c :: l)) with (if bend a b c then b :: drop_inner b (c :: l) else drop_inner b (c :: l)).
  destruct (bend a b c); [intros [<-|I]; [left; reflexivity|right; eapply IH, I]|intros I; right; eapply IH, I].
Qed.
Lemma drop_incl l q : In q (drop_intermediate l) -> In q l.
Proof. destruct l as [|a l]; [auto|]. unfold drop_intermediate. destruct (Nat.ltb 2 _); [|auto]. intros [<-|I]; [left; reflexivity|right; eapply drop_inner_incl, I]. Qed.
Lemma drop_inner_sorted : forall l a, StronglySorted le2 l -> StronglySorted le2 (drop_inner a l).
Proof.
  induction l as [|b l IH]; intros a H; [exact H|]. destruct l as [|c l]; [exact H|].
  change (drop_inner a (b :: c :: l)) with (if bend a b c then b :: drop_inner b (c :: l) else drop_inner b (c :: l)).
  inversion_clear H as [|? ? H1 H2]. destruct (bend a b c); [|apply IH, H1]. constructor; [apply IH, H1|].
  apply Forall_forall. intros q I. rewrite Forall_forall in H2. apply H2. eapply drop_inner_incl, I.
Qed.
Lemma drop_sorted l : StronglySorted le2 l -> StronglySorted le2 (drop_intermediate l).
Proof.
  destruct l as [|a l]; [auto|]. intros H. unfold drop_intermediate. destruct (Nat.ltb 2 _); [|exact H]. inversion_clear H as [|? ? H1 H2].
  constructor; [apply drop_inner_sorted, H1|]. apply Forall_forall. intros q I. rewrite Forall_forall in H2. apply H2. eapply drop_inner_incl, I.
Qed.
Lemma last_default {A} (l : list A) d d' : l <> [] -> last l d = last l d'.
Proof. induction l as [|a l IH]; [congruence|]. intros _. destruct l; [reflexivity|]. cbn [last] in *. apply IH. discriminate. Qed.
Lemma last_drop_inner : forall l a d, last (drop_inner a l) d = last l d.
Proof.
  induction l as [|b l IH]; intros a d; [reflexivity|]. destruct l as [|c l]; [reflexivity|].
  change (drop_inner a (b :: c :: l)) with (if bend a b c then b :: drop_inner b (c :: l) else drop_inner b (c :: l)).
  assert (N : drop_inner b (c :: l) <> []).
  { clear IH. revert b c. induction l as [|e l IH]; intros b c; [discriminate|].
    change (drop_inner b (c :: e :: l)) with (if bend b c e then c :: drop_inner c (e :: l) else drop_inner c (e :: l)). destruct (bend b c e); [discriminate|apply IH]. }
  change (last (b :: c :: l) d) with (last (c :: l) d). destruct (bend a b c); [|apply IH].
  rewrite <- (IH b d). destruct (drop_inner b (c :: l)); [congruence|reflexivity].
Qed.
Lemma last_drop l d : last (drop_intermediate l) d = last l d.
Proof.
  destruct l as [|a [|b l]]; [reflexivity|reflexivity|]. unfold drop_intermediate. destruct (Nat.ltb 2 _); [|reflexivity].
  pose proof (last_drop_inner (b :: l) a d) as L. change (last (a :: b :: l) d) with (last (b :: l) d). rewrite <- L.
  destruct (drop_inner a (b :: l)) eqn:E; [|reflexivity]. exfalso.
  clear L. revert a b E. induction l as [|c l IH]; intros a b E; [discriminate|].
  change (drop_inner a (b :: c :: l)) with (if bend a b c then b :: drop_inner b (c :: l) else drop_inner b (c :: l)) in E. destruct (bend a b c); [discriminate|eapply IH, E].
Qed.
Lemma last_points : forall l x0 y0 d, l <> [] -> last (roc_points l x0 y0) d = (x0 + negn l, y0 + posn l).
Proof.
  induction l as [|[s e] l IH]; intros x0 y0 d H; [congruence|].
  assert (N : forall l x y, l <> [] -> roc_points l x y <> []).
  { clear. induction l as [|[s e] l IH]; intros x y H; [congruence|]. cbn [roc_points]. destruct l as [|[s2 e2] l]; [discriminate|].
    destruct (qeqb s s2); [apply IH; discriminate|discriminate]. }
  destruct l as [|[s2 e2] l].
  - cbn [roc_points last]. unfold negn, posn. destruct e; cbn; f_equal; lia.
  - change (roc_points ((s, e) :: (s2, e2) :: l) x0 y0) with
      (let fp := if e then x0 else S x0 in let tp := if e then S y0 else y0 in
       if qeqb s s2 then roc_points ((s2, e2) :: l) fp tp else (fp, tp) :: roc_points ((s2, e2) :: l) fp tp). cbv zeta.
    set (x := if e then x0 else S x0). set (y := if e then S y0 else y0).
    assert (L : last (roc_points ((s2, e2) :: l) x y) d = (x0 + negn ((s, e) :: (s2, e2) :: l), y0 + posn ((s, e) :: (s2, e2) :: l))).
    { rewrite IH by discriminate. change ((s, e) :: (s2, e2) :: l) with ([(s, e)] ++ (s2, e2) :: l). rewrite negn_app, posn_app.
      rewrite negn_1, posn_1. unfold x, y. destruct e; f_equal; lia. }
    destruct (qeqb s s2); [exact L|]. rewrite <- L. pose proof (N ((s2, e2) :: l) x y ltac:(discriminate)). destruct (roc_points ((s2, e2) :: l) x y); [congruence|reflexivity].
Qed.
Lemma last_rpoints l d : l <> [] -> last (rpoints l) d = (negn l, posn l).
Proof.
  intros H. unfold rpoints. rewrite last_drop. pose proof (desc_perm l) as P.
  rewrite last_points.
  - rewrite <- (negn_perm _ _ P), <- (posn_perm _ _ P). reflexivity.
  - intros E. rewrite E in P. apply Permutation_sym, Permutation_nil in P. contradiction.
Qed.
Lemma rpoints_ne l : l <> [] -> rpoints l <> [].
Proof.
  intros H E. pose proof (last_rpoints l (0, 0) H) as A. pose proof (last_rpoints l (1, 1) H) as B. rewrite E in A, B. cbn in A, B. congruence.
Qed.
Lemma rpoints_counts l q : In q (rpoints l) -> exists t, In t (map fst l) /\ fst q = cnt_ge false t l /\ snd q = cnt_ge true t l.
Proof.
  intros I. unfold rpoints in I. apply drop_incl in I. pose proof (desc_sorted l) as S. pose proof (desc_perm l) as P.
  destruct (rev (psort l)) as [|h r] eqn:E; [destruct I|].
  destruct (points_are_counts r h [] 0 0 S (fun c J => match J with end) eq_refl eq_refl q I) as (t & It & E1 & E2). cbn [app] in E1, E2.
  exists t. rewrite !(cnt_ge_perm _ _ _ _ P). split; [|split; assumption].
  eapply Permutation_in; [|exact It]. apply Permutation_sym, Permutation_map, P.
Qed.
Lemma rpoints_sorted l : StronglySorted le2 ((0, 0) :: rpoints l).
Proof.
  constructor; [apply drop_sorted, points_mono|]. apply Forall_forall. intros q _. split; cbn; lia.
Qed.

(** ** The returned numbers *)
Definition qrate (x n : nat) : Qc := (qn x / qn n)%Qc.
Lemma rates_fin l n : last l 0 = n -> 0 < n -> rates l = map (fun x => Fin (qrate x n)) l.
Proof.
  intros E H. unfold rates. rewrite E. destruct (Nat.leb_spec n 0); [lia|]. apply map_ext. intros x. unfold nnat, ndiv.
  destruct (qeqb_spec (qn n) 0) as [Z|_]; [exfalso; revert Z; apply qn_neq0, H|reflexivity].
Qed.
Lemma rates_nan l : last l 0 = 0 -> rates l = map (fun _ => NaN) l.
Proof. intros E. unfold rates. rewrite E. reflexivity. Qed.
Lemma last_map {A B} (f : A -> B) l d : last (map f l) (f d) = f (last l d).
Proof. induction l as [|a l IH]; [reflexivity|]. destruct l; [reflexivity|]. cbn [map last] in *. exact IH. Qed.
Lemma trapz_cons y0 y1 y x0 x1 x : trapz (y0 :: y1 :: y) (x0 :: x1 :: x) = nadd (ndiv (nmul (nsub x1 x0) (nadd y1 y0)) (Fin (qz 2))) (trapz (y1 :: y) (x1 :: x)).
Proof. reflexivity. Qed.
Lemma trapz_area N P : 0 < N -> 0 < P -> forall l a,
  trapz (map (fun x => Fin (qrate x P)) (snd a :: map snd l)) (map (fun x => Fin (qrate x N)) (fst a :: map fst l)) =
  Fin (qz (area2 a l) / (qn 2 * qn P * qn N))%Qc.
Proof.
  intros HN HP. pose proof (qn_neq0 N HN) as ZN. pose proof (qn_neq0 P HP) as ZP. assert (Z2 : qn 2 <> 0%Qc) by (apply qn_neq0; lia).
  induction l as [|b l IH]; intros a.
  - cbn [map trapz area2]. f_equal. change (qz 0) with 0%Qc. unfold Qcdiv. ring.
  - cbn [map]. cbn [map] in IH. rewrite trapz_cons, (IH b). cbn [area2]. unfold nsub. cbn [nopp nadd nmul ndiv].
    change (qz 2) with (qn 2). destruct (qeqb_spec (qn 2) 0) as [Z|_]; [contradiction|]. cbn [nadd]. f_equal.
    rewrite qz_plus. unfold seg, pz. cbn [fst snd]. rewrite qz_mult, qz_plus. replace (Z.of_nat (fst b) - Z.of_nat (fst a))%Z with (Z.of_nat (fst b) + - Z.of_nat (fst a))%Z by lia.
    rewrite qz_plus, qz_opp. change (qz (Z.of_nat (fst b))) with (qn (fst b)). change (qz (Z.of_nat (fst a))) with (qn (fst a)).
    change (qz (Z.of_nat (snd b))) with (qn (snd b)). change (qz (Z.of_nat (snd a))) with (qn (snd a)). unfold qrate. field. repeat split; assumption.
Qed.
Lemma diff_cons a b r : diff (a :: b :: r) = nsub b a :: diff (b :: r). Proof. reflexivity. Qed.
Lemma diff_sorted N l : 0 < N -> StronglySorted le l -> existsb (fun d => nlt d (Fin 0)) (diff (map (fun x => Fin (qrate x N)) l)) = false.
Proof.
  intros HN. induction 1 as [|a l S IH F]; [reflexivity|]. destruct l as [|b l]; [reflexivity|]. cbn [map]. cbn [map] in IH. rewrite diff_cons. cbn [existsb]. rewrite IH, orb_false_r.
  inversion_clear F. unfold nsub. cbn [nopp nadd nlt]. destruct (qltb_spec (qrate b N + - qrate a N) 0) as [L|]; [exfalso|reflexivity].
  pose proof (qn_pos N HN). apply qn_le in H. unfold qrate, Qcdiv in L. pose proof (Qcinv_pos _ H1). qnra.
Qed.
Lemma diff_nan l : existsb (fun d => nlt d (Fin 0)) (diff (map (fun _ : nat => NaN) l)) = false.
Proof. induction l as [|a l IH]; [reflexivity|]. destruct l as [|b l]; [reflexivity|]. cbn [map]. cbn [map] in IH. rewrite diff_cons. cbn [existsb]. rewrite IH. reflexivity. Qed.
Lemma sorted_fst l : StronglySorted le2 l -> StronglySorted le (map fst l).
Proof. induction 1; cbn; constructor; [assumption|]. apply Forall_map. eapply Forall_impl; [|exact H0]. intros b [X _]. exact X. Qed.
Lemma sorted_snd l : StronglySorted le2 l -> StronglySorted le (map snd l).
Proof. induction 1; cbn; constructor; [assumption|]. apply Forall_map. eapply Forall_impl; [|exact H0]. intros b [_ X]. exact X. Qed.
Lemma trapz_nan_x l y : 2 <= length l -> length y = length l -> trapz y (map (fun _ : nat => NaN) l) = NaN.
Proof.
  destruct l as [|a [|b l]]; cbn [length]; [lia|lia|]. intros _ E. destruct y as [|y0 [|y1 y]]; cbn [length] in E; [lia|lia|].
  cbn [map]. rewrite trapz_cons. unfold nsub. cbn [nopp nadd nmul ndiv]. destruct y1, y0; reflexivity.
Qed.
Lemma trapz_nan_y l x : 2 <= length l -> length x = length l -> trapz (map (fun _ : nat => NaN) l) x = NaN.
Proof.
  destruct l as [|a [|b l]]; cbn [length]; [lia|lia|]. intros _ E. destruct x as [|y0 [|y1 y]]; cbn [length] in E; [lia|lia|].
  cbn [map]. rewrite trapz_cons. destruct (nsub y1 y0) as [| | |]; reflexivity.
Qed.
Lemma rates_length l : length (rates l) = length l.
Proof. unfold rates. destruct (Nat.leb _ _); apply map_length. Qed.

(** the list-level result *)
Definition roc_list (l : list scored) : res (list num * list num * num) :=
  match l with [] => Raise IndexError | _ => let c := roc_curve l in a <- auc (fst c) (snd c) ;; Ok (fst c, snd c, a) end.
Definition pts (l : list scored) : list (nat * nat) := (0, 0) :: rpoints l.
Lemma pts_last_fst l : l <> [] -> last (map fst (pts l)) 0 = negn l.
Proof.
  intros H. change 0 with (fst (0, 0)). rewrite last_map. unfold pts.
  pose proof (rpoints_ne l H). destruct (rpoints l) eqn:E; [congruence|]. change (last ((0, 0) :: p :: l0) (0, 0)) with (last (p :: l0) (0, 0)). rewrite <- E, last_rpoints by exact H. reflexivity.
Qed.
Lemma pts_last_snd l : l <> [] -> last (map snd (pts l)) 0 = posn l.
Proof.
  intros H. change 0 with (snd (0, 0)). rewrite last_map. unfold pts.
  pose proof (rpoints_ne l H). destruct (rpoints l) eqn:E; [congruence|]. change (last ((0, 0) :: p :: l0) (0, 0)) with (last (p :: l0) (0, 0)). rewrite <- E, last_rpoints by exact H. reflexivity.
Qed.
Lemma pts_long l : l <> [] -> 2 <= length (pts l).
Proof. intros H. unfold pts. pose proof (rpoints_ne l H). destruct (rpoints l); [congruence|cbn; lia]. Qed.
Lemma roc_list_eq l : l <> [] -> roc_list l = (let c := roc_curve l in a <- auc (fst c) (snd c) ;; Ok (fst c, snd c, a)).
Proof. destruct l; [congruence|reflexivity]. Qed.
Lemma roc_list_fin l : 0 < posn l -> 0 < negn l ->
  roc_list l = Ok (map (fun x => Fin (qrate x (negn l))) (map fst (pts l)), map (fun x => Fin (qrate x (posn l))) (map snd (pts l)),
                   Fin (qn (cross l l) / (qn 2 * qn (posn l) * qn (negn l)))%Qc).
Proof.
  intros HP HN. assert (H : l <> []) by (intros ->; cbn in HP; lia). rewrite roc_list_eq by exact H. cbv zeta. unfold roc_curve.
  change ((0, 0) :: drop_intermediate (roc_points (rev (psort l)) 0 0)) with (pts l). cbn [fst snd].
  rewrite (rates_fin _ _ (pts_last_fst l H) HN), (rates_fin _ _ (pts_last_snd l H) HP).
  unfold auc. rewrite !map_length. pose proof (pts_long l H). destruct (Nat.ltb_spec (length (pts l)) 2); [lia|].
  rewrite (diff_sorted (negn l) (map fst (pts l)) HN (sorted_fst _ (rpoints_sorted l))). cbn [bind]. do 2 f_equal.
  pose proof (trapz_area (negn l) (posn l) HN HP (rpoints l) (0, 0)) as T. rewrite area_rpoints in T. exact T.
Qed.
Lemma roc_list_no_neg l : l <> [] -> negn l = 0 -> exists t, roc_list l = Ok (map (fun _ => NaN) (pts l), t, NaN).
Proof.
  intros H HN. rewrite roc_list_eq by exact H. cbv zeta. unfold roc_curve.
  change ((0, 0) :: drop_intermediate (roc_points (rev (psort l)) 0 0)) with (pts l). cbn [fst snd].
  rewrite (rates_nan (map fst (pts l))) by (rewrite pts_last_fst by exact H; exact HN).
  eexists. unfold auc. rewrite !map_length. pose proof (pts_long l H). destruct (Nat.ltb_spec (length (pts l)) 2); [lia|].
  rewrite diff_nan. cbn [bind]. rewrite trapz_nan_x; [rewrite map_map; reflexivity|rewrite map_length; exact H0|rewrite rates_length, !map_length; reflexivity].
Qed.
Lemma roc_list_no_pos l : l <> [] -> posn l = 0 -> exists t, roc_list l = Ok (t, map (fun _ => NaN) (pts l), NaN).
Proof.
  intros H HP. destruct (Nat.eq_dec (negn l) 0) as [Z|Z].
  { exfalso. destruct l as [|[s e] l]; [congruence|]. unfold posn, negn in *. cbn in *. destruct e; cbn in *; lia. }
  rewrite roc_list_eq by exact H. cbv zeta. unfold roc_curve.
  change ((0, 0) :: drop_intermediate (roc_points (rev (psort l)) 0 0)) with (pts l). cbn [fst snd].
  rewrite (rates_nan (map snd (pts l))) by (rewrite pts_last_snd by exact H; exact HP).
  rewrite (rates_fin _ _ (pts_last_fst l H)) by lia.
  eexists. unfold auc. rewrite !map_length. pose proof (pts_long l H). destruct (Nat.ltb_spec (length (pts l)) 2); [lia|].
  rewrite (diff_sorted (negn l) (map fst (pts l)) ltac:(lia) (sorted_fst _ (rpoints_sorted l))). cbn [bind].
  rewrite trapz_nan_y; [rewrite (map_map snd); reflexivity|rewrite map_length; exact H0|rewrite !map_length; reflexivity].
Qed.

(** increasing transformations of the scores *)
Definition on_score (g : Qc -> Qc) (c : scored) : scored := (g (fst c), snd c).
Section Transform.
Variable g : Qc -> Qc.
Hypothesis Hg : forall x y, (x < y)%Qc -> (g x < g y)%Qc.
Lemma g_leb x y : qleb (g x) (g y) = qleb x y.
Proof.
  destruct (qleb_spec x y) as [L|L].
  - destruct (Qcle_lt_or_eq _ _ L) as [M| ->]; [|apply qleb_refl]. apply qleb_le. apply Qclt_le_weak, Hg, M.
  - apply qleb_gt, Hg, L.
Qed.
Lemma g_eqb x y : qeqb (g x) (g y) = qeqb x y.
Proof.
  destruct (qeqb_spec x y) as [->|N]; [apply qeqb_refl|]. apply qeqb_neq. intros E. apply N.
  destruct (Qclt_le_dec x y) as [L|L]; [pose proof (Hg _ _ L) as M; rewrite E in M; exfalso; qlra|].
  destruct (Qcle_lt_or_eq _ _ L) as [M|]; [pose proof (Hg _ _ M) as K; rewrite E in K; exfalso; qlra|auto].
Qed.
Lemma pins_map x l : pins (on_score g x) (map (on_score g) l) = map (on_score g) (pins x l).
Proof. induction l as [|y l IH]; [reflexivity|]. cbn. rewrite g_leb. destruct (qleb (fst x) (fst y)); [reflexivity|]. cbn. rewrite IH. reflexivity. Qed.
Lemma psort_map l : psort (map (on_score g) l) = map (on_score g) (psort l).
Proof. induction l as [|y l IH]; [reflexivity|]. cbn. rewrite IH. apply pins_map. Qed.
Lemma roc_points_map : forall l x y, roc_points (map (on_score g) l) x y = roc_points l x y.
Proof.
  induction l as [|[s e] l IH]; intros x y; [reflexivity|]. destruct l as [|[s2 e2] l]; [reflexivity|].
  change (map (on_score g) ((s, e) :: (s2, e2) :: l)) with ((g s, e) :: map (on_score g) ((s2, e2) :: l)).
  change (roc_points ((g s, e) :: map (on_score g) ((s2, e2) :: l)) x y) with
    (let fp := if e then x else S x in let tp := if e then S y else y in
     if qeqb (g s) (g s2) then roc_points (map (on_score g) ((s2, e2) :: l)) fp tp else (fp, tp) :: roc_points (map (on_score g) ((s2, e2) :: l)) fp tp).
  cbv zeta. rewrite !IH, g_eqb. reflexivity.
Qed.
Lemma roc_list_map l : roc_list (map (on_score g) l) = roc_list l.
Proof.
  destruct l as [|c l]; [reflexivity|]. rewrite !roc_list_eq by (cbn; discriminate). cbv zeta.
  unfold roc_curve. rewrite psort_map, <- map_rev, roc_points_map. reflexivity.
Qed.
End Transform.
