(** Intersection over union: C35. *)
From Coq Require Import ZArith List Bool Arith Lia QArith Qcanon Sorting.Permutation.
From Verif Require Import QcTac QSum Num NdArr Numpy M_common NdAxes M_boot Spec P_boot M_ens M_iou.
Import ListNotations.
Open Scope nat_scope.

(** * Specification *)
(** an event: a condition on the value *)
Definition exceeds (t x : num) : bool := nlt t x.
Definition falls_below (t x : num) : bool := nlt x t.
(** the threshold arguments select the event [ev] *)
Definition selects (over below : option num) (ev : num -> bool) : Prop :=
  (exists t, over = Some t /\ below = None /\ ev = exceeds t) \/ (exists t, over = None /\ below = Some t /\ ev = falls_below t).
(** [r] is the intersection over union of the events A and B on the cells L *)
Definition is_iou {X} (A B : X -> bool) (L : list X) (r : num) : Prop :=
  let both := how_many (fun x => A x && B x) L in let either := how_many (fun x => A x || B x) L in
  (r = NaN /\ either = 0) \/ (0 < either /\ r = Fin (qn both / qn either)%Qc).

Lemma how_many_perm {X} (p : X -> bool) L L' : Permutation L L' -> how_many p L = how_many p L'.
Proof.
  unfold how_many. induction 1 as [|x l l' _ IH|x y l|? ? ? _ IH1 _ IH2]; cbn [filter]; try congruence.
  - destruct (p x); cbn [length]; congruence.
  - destruct (p x), (p y); reflexivity.
Qed.
Lemma count_how_many {X} (p : X -> bool) L : count_true (map p L) = how_many p L.
Proof. unfold count_true, how_many. rewrite filter_map, map_length. reflexivity. Qed.
Lemma ratio_iou {X} (A B : X -> bool) L : is_iou A B L (ratio (how_many (fun x => A x && B x) L) (how_many (fun x => A x || B x) L)).
Proof. unfold is_iou, ratio. destruct (how_many (fun x => A x || B x) L) eqn:E; [left; auto|right; split; [lia|reflexivity]]. Qed.
Lemma is_iou_perm {X} (A B : X -> bool) L L' r : Permutation L L' -> is_iou A B L r -> is_iou A B L' r.
Proof. intros P. unfold is_iou. rewrite !(how_many_perm _ _ _ P). auto. Qed.
Lemma iou_groups (f o : arr bool) l ns : shape f = shape o -> axes_are (length (shape f)) (Some l) ns ->
  exists r, iou f o (Some l) = Ok r /\ shape r = kept (length (shape f)) ns (shape f) /\
  forall k L, Cells (shape f) ns k L -> is_iou (get f) (get o) L (get r k).
Proof.
  intros Hsh Hax. unfold iou. assert (E : np_axes (length (shape f)) (Some l) = Ok (mask_of (length (shape f)) ns)) by (apply np_axes_spec; exists ns; auto).
  rewrite E. cbn [bind]. eexists. split; [reflexivity|]. split; [cbn; symmetry; apply kept_unsel; reflexivity|].
  intros k L HL. cbn [amap2 reduce get shape].
  eapply is_iou_perm; [apply Cells_perm, HL|]. rewrite !count_how_many. apply ratio_iou.
Qed.
Lemma iou_all (f o : arr bool) L : shape f = shape o -> Permutation (indices (shape f)) L ->
  (how_many (fun x => get f x || get o x) L = 0 -> iou f o None = Raise ZeroDivisionError) /\
  (0 < how_many (fun x => get f x || get o x) L -> exists r, iou f o None = Ok r /\ shape r = [] /\ is_iou (get f) (get o) L (get r [])).
Proof.
  intros Hsh P. unfold iou. unfold ravel. cbn [amap2 shape get].
  change (map (get (amap2 orb f o)) (indices (shape f))) with (map (fun x => get f x || get o x) (indices (shape f))).
  rewrite count_how_many, (how_many_perm _ _ _ P). split.
  - intros ->. reflexivity.
  - intros H. destruct (Nat.eqb_spec (how_many (fun x => get f x || get o x) L) 0) as [E|E]; [lia|]. eexists. split; [reflexivity|]. split; [reflexivity|]. cbn [get].
    change (map (get (amap2 andb f o)) (indices (shape f))) with (map (fun x => get f x && get o x) (indices (shape f))).
    rewrite count_how_many, (how_many_perm _ _ _ P). apply ratio_iou.
Qed.
(** what the ratio says *)
Lemma how_many_0 {X} (p : X -> bool) L : how_many p L = 0 <-> forall x, In x L -> p x = false.
Proof.
  unfold how_many. split.
  - intros H x Hx. destruct (p x) eqn:E; [|reflexivity]. assert (I : In x (filter p L)) by (apply filter_In; auto). destruct (filter p L); [destruct I|discriminate H].
  - intros H. induction L as [|y L IH]; [reflexivity|]. cbn [filter]. rewrite (H y (or_introl eq_refl)). apply IH. intros x Hx. apply H. right. exact Hx.
Qed.
Lemma how_many_le {X} (p q : X -> bool) L : (forall x, p x = true -> q x = true) -> how_many p L <= how_many q L.
Proof.
  intros H. unfold how_many. induction L as [|y L IH]; [cbn; lia|]. cbn [filter]. destruct (p y) eqn:E; [rewrite (H y E); cbn; lia|]. destruct (q y); cbn; lia.
Qed.
Lemma how_many_same {X} (p q : X -> bool) L : (forall x, p x = true -> q x = true) -> how_many p L = how_many q L -> forall x, In x L -> q x = true -> p x = true.
Proof.
  intros H. induction L as [|y L IH]; intros E x Hx Qx; [destruct Hx|]. unfold how_many in *. cbn [filter] in E.
  pose proof (how_many_le p q L H) as Le. unfold how_many in Le.
  destruct (p y) eqn:Py; [rewrite (H y Py) in E; cbn [length] in E; destruct Hx as [<-|Hx]; [exact Py|apply IH; auto; lia]|].
  destruct (q y) eqn:Qy; [cbn [length] in E; lia|]. destruct Hx as [<-|Hx]; [congruence|apply IH; auto].
Qed.
Lemma ratio_1 a u : 0 < u -> (qn a / qn u = 1)%Qc -> a = u.
Proof.
  intros Hu H. assert (E : qn a = qn u). { transitivity (qn a / qn u * qn u)%Qc; [field; apply qn_neq0, Hu|]. rewrite H. ring. } apply qn_inj, E.
Qed.
Lemma ratio_0 a u : 0 < u -> (qn a / qn u = 0)%Qc -> a = 0.
Proof.
  intros Hu H. assert (E : qn a = 0%Qc). { transitivity (qn a / qn u * qn u)%Qc; [field; apply qn_neq0, Hu|]. rewrite H. ring. } rewrite <- qn_0 in E. apply qn_inj, E.
Qed.
Lemma iou_meaning {X} (A B : X -> bool) L r : is_iou A B L r ->
  (r = NaN <-> forall x, In x L -> A x = false /\ B x = false) /\
  (forall q, r = Fin q -> (0 <= q)%Qc /\ (q <= 1)%Qc) /\ (r = NaN \/ exists q, r = Fin q) /\
  (r = Fin 1%Qc <-> (forall x, In x L -> A x = B x) /\ exists x, In x L /\ A x = true) /\
  (r = Fin 0%Qc <-> (forall x, In x L -> A x && B x = false) /\ exists x, In x L /\ A x || B x = true) /\
  is_iou B A L r.
Proof.
  intros H. assert (Sym : is_iou B A L r).
  { unfold is_iou in *.
    assert (E1 : how_many (fun x => B x && A x) L = how_many (fun x => A x && B x) L) by (unfold how_many; f_equal; apply filter_ext; intros x; apply andb_comm).
    assert (E2 : how_many (fun x => B x || A x) L = how_many (fun x => A x || B x) L) by (unfold how_many; f_equal; apply filter_ext; intros x; apply orb_comm).
    rewrite E1, E2. exact H. }
  assert (Le : how_many (fun x => A x && B x) L <= how_many (fun x => A x || B x) L).
  { apply how_many_le. intros x Hx. apply andb_prop in Hx as [-> _]. reflexivity. }
  assert (Ex : 0 < how_many (fun x => A x || B x) L -> exists x, In x L /\ A x || B x = true).
  { intros Hp. unfold how_many in Hp. destruct (filter (fun x => A x || B x) L) as [|x l] eqn:E; [cbn in Hp; lia|]. exists x. apply (proj1 (filter_In (fun x => A x || B x) x L)). rewrite E. left. reflexivity. }
  assert (NoEv : how_many (fun x => A x || B x) L = 0 <-> forall x, In x L -> A x = false /\ B x = false).
  { rewrite how_many_0. split; intros Q x Hx; specialize (Q x Hx); [apply orb_false_elim in Q; exact Q|destruct Q as [-> ->]; reflexivity]. }
  destruct H as [[-> E]|[P ->]].
  - pose proof (proj1 NoEv E) as No. split; [tauto|]. split; [discriminate|]. split; [left; reflexivity|]. split; [|split; [|exact Sym]].
    + split; [discriminate|]. intros [_ (x & Hx & Ax)]. destruct (No x Hx). congruence.
    + split; [discriminate|]. intros [_ (x & Hx & Ax)]. destruct (No x Hx) as [E1 E2]. rewrite E1, E2 in Ax. discriminate.
  - pose proof (qn_pos _ P) as Pq. split; [split; [discriminate|intros No; apply NoEv in No; lia]|]. split; [|split; [right; eexists; reflexivity|split; [|split; [|exact Sym]]]].
    + intros q Q. injection Q as <-. assert (N0 : (0 <= qn (how_many (fun x => A x && B x) L))%Qc) by apply qn_nonneg.
split; [apply (Qcle_div_iff _ _ _ Pq); rewrite Qcmult_0_l; exact N0|]. apply (Qcdiv_le_iff _ _ _ Pq). rewrite Qcmult_1_l. apply qn_le, Le.
    + split.
      * intros Q. apply (f_equal val) in Q. cbn [val] in Q. assert (E : how_many (fun x => A x && B x) L = how_many (fun x => A x || B x) L).
        { apply ratio_1; [exact P|exact Q]. }
        assert (Sm : forall x, In x L -> A x || B x = true -> A x && B x = true).
        { apply (how_many_same (fun x => A x && B x) (fun x => A x || B x)); [|exact E]. intros x Hx. apply andb_prop in Hx as [-> _]. reflexivity. }
        split.
        { intros x Hx. specialize (Sm x Hx). destruct (A x), (B x); try reflexivity; discriminate (Sm eq_refl). }
        { destruct (Ex P) as (x & Hx & Ox). exists x. split; [exact Hx|]. specialize (Sm x Hx Ox). apply andb_prop in Sm. tauto. }
      * intros [Same _]. f_equal. assert (E : how_many (fun x => A x && B x) L = how_many (fun x => A x || B x) L).
        { unfold how_many. f_equal. apply filter_ext_in'. intros x Hx. rewrite (Same x Hx). destruct (B x); reflexivity. }
        rewrite E. field. apply qn_neq0, P.
    + split.
      * intros Q. apply (f_equal val) in Q. cbn [val] in Q. assert (E : how_many (fun x => A x && B x) L = 0) by (apply (ratio_0 _ _ P Q)).
        split; [apply (how_many_0 (fun x => A x && B x)), E|apply Ex, P].
      * intros [Dis _]. apply (how_many_0 (fun x => A x && B x)) in Dis. rewrite Dis. f_equal. rewrite qn_0. field. apply qn_neq0, P.
Qed.

(** * C35 *)
(** the five clauses for one group of cells *)
Definition iou_claims {X} (A B : X -> bool) (L : list X) (r : num) : Prop :=
  is_iou A B L r /\
  (r = NaN \/ exists q, r = Fin q /\ (0 <= q)%Qc /\ (q <= 1)%Qc) /\
  (r = NaN <-> forall x, In x L -> A x = false /\ B x = false) /\
  (r = Fin 1%Qc <-> (forall x, In x L -> A x = B x) /\ exists x, In x L /\ A x = true) /\
  (r = Fin 0%Qc <-> (forall x, In x L -> A x && B x = false) /\ exists x, In x L /\ A x || B x = true).
Lemma iou_claims_of {X} (A B : X -> bool) L r : is_iou A B L r -> iou_claims A B L r.
Proof.
  intros H. destruct (iou_meaning A B L r H) as (H1 & H2 & H3 & H4 & H5 & _). split; [exact H|]. split; [|auto]. destruct H3 as [->|(q & ->)]; [left; reflexivity|right].
  exists q. destruct (H2 q eq_refl). auto.
Qed.
Lemma is_iou_fun {X} (A B : X -> bool) L r r' : is_iou A B L r -> is_iou B A L r' -> r = r'.
Proof.
  intros H H'. destruct (iou_meaning B A L r' H') as (_ & _ & _ & _ & _ & H2). destruct H as [[-> E]|[P ->]], H2 as [[-> E']|[P' ->]]; try reflexivity; lia.
Qed.
(** iou_determ on given axes *)
Theorem c35_iou_determ_partial : forall f o l ns over below ev, shape f = shape o -> axes_are (length (shape f)) (Some l) ns -> selects over below ev ->
  exists r, iou_determ f o (Some l) over below = Ok r /\ shape r = kept (length (shape f)) ns (shape f) /\
  (forall k L, Cells (shape f) ns k L -> iou_claims (fun ix => ev (get f ix)) (fun ix => ev (get o ix)) L (get r k)) /\
  exists r', iou_determ o f (Some l) over below = Ok r' /\ forall k L, Cells (shape f) ns k L -> get r' k = get r k.
Proof.
  intros f o l ns over below ev Hsh Hax Hsel.
  assert (E : forall f o, shape f = shape o -> iou_determ f o (Some l) over below = iou (amap ev f) (amap ev o) (Some l)).
  { intros f' o' Hs. unfold iou_determ. rewrite Hs, list_eqb_refl. destruct Hsel as [(t & -> & -> & ->)|(t & -> & -> & ->)]; reflexivity. }
  rewrite (E f o Hsh), (E o f (eq_sym Hsh)).
  destruct (iou_groups (amap ev f) (amap ev o) l ns Hsh Hax) as (r & Er & Sr & Gr). cbn [amap shape] in Sr, Gr.
  destruct (iou_groups (amap ev o) (amap ev f) l ns (eq_sym Hsh)) as (r' & Er' & Sr' & Gr'); [cbn [amap shape]; rewrite <- Hsh; exact Hax|]. cbn [amap shape] in Sr', Gr'. rewrite <- Hsh in Gr'.
  exists r. split; [exact Er|]. split; [exact Sr|]. split; [intros k L HL; apply iou_claims_of, Gr, HL|]. exists r'. split; [exact Er'|].
  intros k L HL. symmetry. apply (is_iou_fun _ _ _ _ _ (Gr k L HL) (Gr' k L HL)).
Qed.
Print Assumptions c35_iou_determ_partial.
(** iou_prob on given axes: the event of the forecast is a condition on its probability *)
Theorem c35_iou_prob_partial : forall f (b : arr bool) l ns over below ev, shape f = shape b -> axes_are (length (shape f)) (Some l) ns -> selects over below ev ->
  (forall t, over = Some t \/ below = Some t -> exists q, t = Fin q /\ (0 <= q)%Qc /\ (q <= 1)%Qc) ->
  exists r, iou_prob f b (Some l) over below = Ok r /\ shape r = kept (length (shape f)) ns (shape f) /\
  forall k L, Cells (shape f) ns k L -> iou_claims (fun ix => ev (get f ix)) (get b) L (get r k).
Proof.
  intros f b l ns over below ev Hsh Hax Hsel Hp.
  assert (U : forall t, over = Some t \/ below = Some t -> unit_prob t = Ok tt).
  { intros t Ht. destruct (Hp t Ht) as (q & -> & H0 & H1). unfold unit_prob. cbn [nle]. apply qleb_le in H0, H1. change (qleb 0 q) with (qleb (Q2Qc 0) q). rewrite H0, H1. reflexivity. }
  assert (E : iou_prob f b (Some l) over below = iou (amap ev f) b (Some l)).
  { unfold iou_prob. rewrite Hsh, list_eqb_refl. destruct Hsel as [(t & -> & -> & ->)|(t & -> & -> & ->)]; cbn [one_threshold is_some negb xorb passert bind];
      rewrite (U t) by auto; reflexivity. }
  rewrite E. destruct (iou_groups (amap ev f) b l ns Hsh Hax) as (r & Er & Sr & Gr). exists r. split; [exact Er|]. split; [exact Sr|].
  intros k L HL. apply iou_claims_of, (Gr k L HL).
Qed.
Print Assumptions c35_iou_prob_partial.
(** Without axes (the default) the value is right when an event occurs ... *)
Theorem c35_no_axis_partial : forall f o over below ev L, shape f = shape o -> selects over below ev ->
  NoDup L -> (forall ix, In ix L <-> Forall2 lt ix (shape f)) -> (exists ix, In ix L /\ (ev (get f ix) || ev (get o ix) = true)) ->
  exists r, iou_determ f o None over below = Ok r /\ shape r = [] /\ iou_claims (fun ix => ev (get f ix)) (fun ix => ev (get o ix)) L (get r []).
Proof.
  intros f o over below ev L Hsh Hsel HN HI (ix & Hix & Ev).
  assert (E : iou_determ f o None over below = iou (amap ev f) (amap ev o) None).
  { unfold iou_determ. rewrite Hsh, list_eqb_refl. destruct Hsel as [(t & -> & -> & ->)|(t & -> & -> & ->)]; reflexivity. }
  rewrite E. destruct (iou_all (amap ev f) (amap ev o) L Hsh) as [_ H].
  { apply NoDup_Permutation; [apply NoDup_indices|exact HN|]. intros x. rewrite in_indices, HI. reflexivity. }
  destruct H as (r & Er & Sr & Gr).
  { destruct (how_many _ L) eqn:Q; [|lia]. rewrite how_many_0 in Q. specialize (Q ix Hix). cbn [amap get] in Q. congruence. }
  exists r. split; [exact Er|]. split; [exact Sr|]. apply iou_claims_of, Gr.
Qed.
Print Assumptions c35_no_axis_partial.
(** ... and otherwise no NaN is returned: ZeroDivisionError is raised, for all data without an event. *)
Theorem c35_no_axis_refuted : (forall f o over below ev, shape f = shape o -> selects over below ev ->
   (forall ix, Forall2 lt ix (shape f) -> ev (get f ix) = false /\ ev (get o ix) = false) ->
   iou_determ f o None over below = Raise ZeroDivisionError) /\
  ~ (forall f o over below ev, shape f = shape o -> selects over below ev -> exists r, iou_determ f o None over below = Ok r).
Proof.
  assert (H : forall f o over below ev, shape f = shape o -> selects over below ev ->
   (forall ix, Forall2 lt ix (shape f) -> ev (get f ix) = false /\ ev (get o ix) = false) ->
   iou_determ f o None over below = Raise ZeroDivisionError).
  { intros f o over below ev Hsh Hsel Hno.
    assert (E : iou_determ f o None over below = iou (amap ev f) (amap ev o) None).
    { unfold iou_determ. rewrite Hsh, list_eqb_refl. destruct Hsel as [(t & -> & -> & ->)|(t & -> & -> & ->)]; reflexivity. }
    rewrite E. destruct (iou_all (amap ev f) (amap ev o) (indices (shape f)) Hsh (Permutation_refl _)) as [H _]. apply H. apply how_many_0.
    intros x Hx. apply in_indices in Hx. destruct (Hno x Hx) as [E1 E2]. cbn [amap get]. rewrite E1, E2. reflexivity. }
  split; [exact H|]. intros G. set (f := afull [2] (Fin 0)).
  assert (S : selects (Some (Fin 1%Qc)) None (exceeds (Fin 1%Qc))) by (left; exists (Fin 1%Qc); auto).
  destruct (G f f _ _ _ eq_refl S) as (r & Er). rewrite (H f f _ _ _ eq_refl S) in Er; [discriminate Er|]. intros ix _. split; reflexivity.
Qed.
Print Assumptions c35_no_axis_refuted.
Example c35_nonvacuous : exists r, iou_determ (of_list NaN [2; 3] [Fin 1%Qc; NaN; Fin 1%Qc; Fin 0; Fin 0; Fin 0]) (of_list NaN [2; 3] [Fin 1%Qc; Fin 1%Qc; Fin 0; Fin 0; NaN; Fin 0]) (Some [(-1)%Z]) (Some (Fin (Q2Qc (1#2)))) None = Ok r /\
  get r [0] = Fin (Q2Qc (1#3)) /\ get r [1] = NaN.
Proof.
  match goal with |- exists r, ?F = _ /\ _ =>
    assert (X : match F with Ok r => (get r [0], get r [1]) | Raise _ => (NaN, Fin 0) end = (Fin (Q2Qc (1#3)), NaN)) by (vm_compute; f_equal; f_equal; apply Qc_is_canon; reflexivity);
    destruct F as [r|]; [|discriminate X] end.
  exists r. split; [reflexivity|]. split; [exact (f_equal fst X)|exact (f_equal snd X)].
Qed.
