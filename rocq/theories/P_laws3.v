(** Facts about the formulas of the scores: which forecast that is the same everywhere gets the best score (C108). *)
From Coq Require Import ZArith List Bool QArith Qcanon Lia Permutation.
From Verif Require Import QcTac QSum Num NdArr Spec Spec_whole P_laws P_laws2.
Import ListNotations.
Open Scope Qc_scope.

Lemma Qcmult_nonneg a b : 0 <= a -> 0 <= b -> 0 <= a * b.
Proof. intros. qnra. Qed.
(** ** Sums of heights times widths over rising points *)
Fixpoint wsum (g : Qc -> Qc) (P : list Qc) : Qc := match P with p :: ((q :: _) as r) => (q - p) * g p + wsum g r | _ => 0 end.
Fixpoint rising (P : list Qc) : Prop := match P with [] => True | p :: r => (forall x, In x r -> p < x) /\ rising r end.
Lemma rising_exists l : exists P, rising P /\ forall x, In x P <-> In x l.
Proof.
  induction l as [|a l (P & R & E)]; [exists []; split; [exact I|tauto]|].
  assert (G : forall P, rising P -> exists P', rising P' /\ forall x, In x P' <-> x = a \/ In x P).
  { clear. induction P as [|p r IH]; intros R; [exists [a]; split; [split; [intros x []|exact I]|cbn; intros x; intuition congruence]|]. destruct R as [R1 R2]. destruct (Qclt_le_dec a p) as [L|L].
    - exists (a :: p :: r). split; [split; [intros x [<-|Hx]; [exact L|eapply Qclt_trans; [exact L|apply R1, Hx]]|split; assumption]|cbn; intros x; intuition congruence].
    - destruct (Qc_eq_dec a p) as [->|N]; [exists (p :: r); split; [split; assumption|cbn; intros x; intuition congruence]|].
      destruct (IH R2) as (P' & R' & E'). exists (p :: P'). split; [split; [|exact R']|intros x; cbn; rewrite E'; intuition congruence].
      intros x Hx. apply E' in Hx as [->|Hx]; [|apply R1, Hx]. apply Qcle_lt_or_eq in L as [L|L]; [exact L|congruence]. }
  destruct (G P R) as (P' & R' & E'). exists P'. split; [exact R'|]. intros x. rewrite E', E. cbn. intuition congruence.
Qed.
Lemma wsum_ext g h P : (forall p, In p P -> g p = h p) -> wsum g P = wsum h P.
Proof.
  induction P as [|p r IH]; intros H; [reflexivity|]. destruct r as [|q r]; [reflexivity|]. change ((q - p) * g p + wsum g (q :: r) = (q - p) * h p + wsum h (q :: r)).
  rewrite (H p (or_introl eq_refl)), IH by (intros; apply H; right; assumption). reflexivity.
Qed.
Lemma wsum_lin a b g h P : wsum (fun t => a * g t + b * h t) P = a * wsum g P + b * wsum h P.
Proof.
  induction P as [|p r IH]; [cbn; ring|]. destruct r as [|q r]; [cbn; ring|].
  change ((q - p) * (a * g p + b * h p) + wsum (fun t => a * g t + b * h t) (q :: r) = a * ((q - p) * g p + wsum g (q :: r)) + b * ((q - p) * h p + wsum h (q :: r))). rewrite IH. ring.
Qed.
Lemma wsum_zero P : wsum (fun _ => 0) P = 0.
Proof. induction P as [|p r IH]; [reflexivity|]. destruct r as [|q r]; [reflexivity|]. change ((q - p) * 0 + wsum (fun _ => 0) (q :: r) = 0). rewrite IH. ring. Qed.
Lemma wsum_sum {A} (g : A -> Qc -> Qc) l P : wsum (fun t => qsumf (fun a => g a t) l) P = qsumf (fun a => wsum (g a) P) l.
Proof.
  induction l as [|a l IH]; [apply wsum_zero|]. rewrite qsumf_cons, <- IH. rewrite <- (Qcmult_1_l (wsum (g a) P)), <- (Qcmult_1_l (wsum (fun t => qsumf (fun a => g a t) l) P)), <- wsum_lin.
  apply wsum_ext. intros p _. rewrite qsumf_cons. ring.
Qed.
Lemma wsum_nonneg g P : rising P -> (forall p, In p P -> 0 <= g p) -> 0 <= wsum g P.
Proof.
  induction P as [|p r IH]; intros R H; [apply Qcle_refl|]. destruct r as [|q r]; [apply Qcle_refl|]. destruct R as [R1 R2]. change (0 <= (q - p) * g p + wsum g (q :: r)).
  assert (0 <= wsum g (q :: r)) by (apply IH; [exact R2|intros; apply H; right; assumption]). pose proof (R1 q (or_introl eq_refl)). pose proof (H p (or_introl eq_refl)). assert (0 <= (q - p) * g p) by (apply Qcmult_nonneg; qlra). qlra.
Qed.
Lemma wsum_null g P : rising P -> (forall p, In p P -> 0 <= g p) -> wsum g P = 0 -> forall p q, In p P -> In q P -> p < q -> g p = 0.
Proof.
  induction P as [|p r IH]; intros R H Z x y Hx Hy L; [destruct Hx|]. destruct r as [|q r]; [destruct Hx as [->|[]], Hy as [->|[]]; exfalso; qlra|].
  destruct R as [R1 R2]. change ((q - p) * g p + wsum g (q :: r) = 0) in Z. pose proof (wsum_nonneg g (q :: r) R2 (fun v Hv => H v (or_intror Hv))) as W. pose proof (R1 q (or_introl eq_refl)) as Lq. pose proof (H p (or_introl eq_refl)) as Hp.
  assert (M : 0 <= (q - p) * g p) by (apply Qcmult_nonneg; qlra).
  assert (Z1 : (q - p) * g p = 0) by (apply Qcle_antisym; qlra). assert (Z2 : wsum g (q :: r) = 0) by (apply Qcle_antisym; qlra).
  destruct Hx as [<-|Hx].
  - destruct (Qcmult_integral _ _ Z1) as [E|E]; [exfalso; qlra|exact E].
  - destruct Hy as [<-|Hy]; [pose proof (R1 x Hx); exfalso; qlra|]. exact (IH R2 (fun v Hv => H v (or_intror Hv)) Z2 x y Hx Hy L).
Qed.
(** 1 where the point is at or above x *)
Definition at_or_below (t x : Qc) : Qc := if qleb x t then 1 else 0.
Lemma wsum_above x P : rising P -> (forall p, In p P -> x <= p) -> wsum (fun t => 1 - at_or_below t x) P = 0.
Proof. intros R H. rewrite <- (wsum_zero P). apply wsum_ext. intros p Hp. unfold at_or_below. rewrite (proj2 (qleb_le _ _) (H p Hp)). ring. Qed.
Lemma wsum_point x p r : rising (p :: r) -> In x (p :: r) -> wsum (fun t => 1 - at_or_below t x) (p :: r) = x - p.
Proof.
  revert p. induction r as [|q r IH]; intros p R H; [destruct H as [->|[]]; cbn; ring|]. destruct H as [<-|H].
  - rewrite wsum_above; [ring|exact R|]. intros y [<-|Hy]; [apply Qcle_refl|apply Qclt_le_weak, R, Hy].
  - destruct R as [R1 R2]. change ((q - p) * (1 - at_or_below p x) + wsum (fun t => 1 - at_or_below t x) (q :: r) = x - p). rewrite IH by assumption. unfold at_or_below. rewrite (proj2 (qleb_gt _ _) (R1 x H)). ring.
Qed.
(** distances are sums of widths *)
Lemma wsum_dist x y P : rising P -> In x P -> In y P -> qdist x y = wsum (fun t => (at_or_below t x - at_or_below t y) * (at_or_below t x - at_or_below t y)) P.
Proof.
  intros R Hx Hy. destruct P as [|p r]; [destruct Hx|]. assert (G : forall x y, x <= y -> In x (p :: r) -> In y (p :: r) -> y - x = wsum (fun t => (at_or_below t x - at_or_below t y) * (at_or_below t x - at_or_below t y)) (p :: r)).
  { intros a b L Ha Hb. replace (b - a) with (1 * (b - p) + (-(1)) * (a - p)) by ring. rewrite <- (wsum_point b p r R Hb), <- (wsum_point a p r R Ha), <- wsum_lin. apply wsum_ext. intros t _. unfold at_or_below.
    destruct (qleb a t) eqn:E1, (qleb b t) eqn:E2; try ring. apply qleb_gt in E1. apply qleb_le in E2. exfalso. qlra. }
  unfold qdist. destruct (qltb_spec x y) as [L|L].
  - apply G; [apply Qclt_le_weak, L|assumption|assumption].
  - rewrite (G y x L Hy Hx). apply wsum_ext. intros t _. ring.
Qed.
(** how many of the values are at or below *)
Definition below_sum (X : list Qc) (t : Qc) : Qc := qsumf (at_or_below t) X.
Lemma pair_sum X Y t : qsumf (fun x => qsumf (fun y => (at_or_below t x - at_or_below t y) * (at_or_below t x - at_or_below t y)) Y) X =
  qn (length Y) * below_sum X t + qn (length X) * below_sum Y t - (1 + 1) * (below_sum X t * below_sum Y t).
Proof.
  assert (Sq : forall v, at_or_below t v * at_or_below t v = at_or_below t v) by (intros v; unfold at_or_below; destruct (qleb v t); ring).
  assert (In1 : forall x, qsumf (fun y => (at_or_below t x - at_or_below t y) * (at_or_below t x - at_or_below t y)) Y = at_or_below t x * (qn (length Y) - (1 + 1) * below_sum Y t) + below_sum Y t).
  { intros x. unfold below_sum. induction Y as [|y Y IH]; [rewrite !qsumf_nil; cbn [length]; rewrite qn_0; ring|]. rewrite !qsumf_cons, IH. cbn [length]. rewrite qn_S.
    replace ((at_or_below t x - at_or_below t y) * (at_or_below t x - at_or_below t y)) with (at_or_below t x * at_or_below t x - (1 + 1) * at_or_below t x * at_or_below t y + at_or_below t y * at_or_below t y) by ring. rewrite !Sq. ring. }
  rewrite (qsumf_ext _ _ X (fun x _ => In1 x)), qsumf_plus, qsumf_scale_r, qsumf_const. fold (below_sum X t). ring.
Qed.
Definition all_pairs (X Y : list Qc) : Qc := qsumf (fun x => qsumf (fun y => qdist x y) Y) X.
Lemma all_pairs_w X Y P : rising P -> (forall x, In x X -> In x P) -> (forall y, In y Y -> In y P) ->
  all_pairs X Y = wsum (fun t => qn (length Y) * below_sum X t + qn (length X) * below_sum Y t - (1 + 1) * (below_sum X t * below_sum Y t)) P.
Proof.
  intros R HX HY. unfold all_pairs. rewrite (wsum_ext _ _ P (fun t _ => eq_sym (pair_sum X Y t))). rewrite wsum_sum. apply qsumf_ext. intros x Hx. rewrite wsum_sum. apply qsumf_ext. intros y Hy. apply wsum_dist; auto.
Qed.
(** the mean score of the members X for the observations Y, and of the observations themselves as members *)
Lemma mean_crps X Y : X <> [] -> Y <> [] -> Spec.mean_of (map (fun y => crps_formula y X) Y) = all_pairs X Y / (qn (length X) * qn (length Y)) - all_pairs X X / (qn (length X) * qn (length X)) / qz 2.
Proof.
  intros NX NY. rewrite mean_q. unfold qmean. rewrite map_length. fold (qsumf (fun y => crps_formula y X) Y). rewrite (qsumf_ext _ (fun y => qsumf (fun m => qdist m y) X * / qn (length X) + - (all_pairs X X / (qn (length X) * qn (length X)) / qz 2)) Y).
  - rewrite qsumf_plus, qsumf_scale_r, qsumf_const. rewrite <- (qsumf_swap (fun m y => qdist m y) X Y). fold (all_pairs X Y). field. repeat split; solve [apply len_neq0; assumption|discriminate].
  - intros y _. rewrite crps_sums, qn_mult. unfold all_pairs, Qcdiv, Qcminus. reflexivity.
Qed.
Lemma crps_excess X Y P : X <> [] -> Y <> [] -> rising P -> (forall x, In x X -> In x P) -> (forall y, In y Y -> In y P) ->
  Spec.mean_of (map (fun y => crps_formula y X) Y) - Spec.mean_of (map (fun y => crps_formula y Y) Y) =
  wsum (fun t => (below_sum X t / qn (length X) - below_sum Y t / qn (length Y)) * (below_sum X t / qn (length X) - below_sum Y t / qn (length Y))) P.
Proof.
  intros NX NY R HX HY. rewrite (mean_crps X Y NX NY), (mean_crps Y Y NY NY), (all_pairs_w X Y P R HX HY), (all_pairs_w X X P R HX HX), (all_pairs_w Y Y P R HY HY).
  set (m := qn (length X)). set (n := qn (length Y)). assert (Nm : m <> 0) by (apply len_neq0, NX). assert (Nn : n <> 0) by (apply len_neq0, NY).
  set (A := wsum _ P). set (B := wsum _ P). set (C := wsum _ P).
  assert (E : A / (m * n) - B / (m * m) / qz 2 - (C / (n * n) - C / (n * n) / qz 2) = / (m * n) * A + 1 * (- / (m * m * qz 2) * B + - / (n * n * qz 2) * C)) by (change (qz 2) with (1 + 1); field; repeat split; solve [assumption|discriminate]).
  rewrite E. unfold A, B, C. rewrite <- wsum_lin, <- wsum_lin. apply wsum_ext. intros t _. change (qz 2) with (1 + 1). field. repeat split; solve [assumption|discriminate].
Qed.
Lemma crps_best X Y : X <> [] -> Y <> [] -> Spec.mean_of (map (fun y => crps_formula y Y) Y) <= Spec.mean_of (map (fun y => crps_formula y X) Y).
Proof.
  intros NX NY. destruct (rising_exists (X ++ Y)) as (P & R & E). pose proof (crps_excess X Y P NX NY R ltac:(intros; apply E, in_or_app; auto) ltac:(intros; apply E, in_or_app; auto)) as Z.
  match type of Z with _ = ?w => assert (W : 0 <= w) by (apply wsum_nonneg; [exact R|intros; apply square_nonneg]) end. rewrite <- Z in W. qlra.
Qed.
Lemma greatest t (P : list Qc) : (forall x, In x P -> t < x) \/ exists p, In p P /\ p <= t /\ forall x, In x P -> x <= t -> x <= p.
Proof.
  induction P as [|a P IH]; [left; intros x []|]. destruct (Qclt_le_dec t a) as [L|L].
  - destruct IH as [H|(p & Hp & Lp & Mx)]; [left; intros x [<-|Hx]; auto|]. right. exists p. split; [right; exact Hp|]. split; [exact Lp|]. intros x [<-|Hx] Lx; [exfalso; qlra|auto].
  - right. destruct IH as [H|(p & Hp & Lp & Mx)].
    + exists a. split; [left; reflexivity|]. split; [exact L|]. intros x [<-|Hx] Lx; [apply Qcle_refl|]. specialize (H x Hx). exfalso. qlra.
    + destruct (Qclt_le_dec p a) as [La|La]; [exists a|exists p]; (split; [auto using in_eq, in_cons|]); (split; [assumption|]); intros x [<-|Hx] Lx; try apply Qcle_refl; try assumption; specialize (Mx x Hx Lx); qlra.
Qed.
Lemma below_share X t : member_share false (Fin t) (map Fin X) = below_sum X t / qn (length X).
Proof.
  unfold member_share. rewrite map_length, how_count, count_sum, qsumf_map. reflexivity.
Qed.
Lemma crps_best_only X Y : X <> [] -> Y <> [] -> (Spec.mean_of (map (fun y => crps_formula y X) Y) = Spec.mean_of (map (fun y => crps_formula y Y) Y) <->
  forall t, member_share false (Fin t) (map Fin X) = member_share false (Fin t) (map Fin Y)).
Proof.
  intros NX NY. destruct (rising_exists (X ++ Y)) as (P & R & E). assert (HX : forall x, In x X -> In x P) by (intros; apply E, in_or_app; auto). assert (HY : forall x, In x Y -> In x P) by (intros; apply E, in_or_app; auto).
  pose proof (crps_excess X Y P NX NY R HX HY) as Z. split.
  - intros Eq t. rewrite !below_share. rewrite Eq in Z. assert (Z0 : wsum (fun t => (below_sum X t / qn (length X) - below_sum Y t / qn (length Y)) * (below_sum X t / qn (length X) - below_sum Y t / qn (length Y))) P = 0) by (rewrite <- Z; ring).
    pose proof (wsum_null _ P R (fun p _ => square_nonneg _) Z0) as W. cbv beta in W.
    assert (Sub : forall a b : Qc, (a - b) * (a - b) = 0 -> a = b) by (intros a b H; apply (proj1 (square_zero _)) in H; replace a with (a - b + b) by ring; rewrite H; ring).
    destruct (greatest t P) as [H|(p & Hp & Lp & Mx)].
    + assert (F : forall L, (forall x, In x L -> In x P) -> below_sum L t = 0). { intros L HL. unfold below_sum. rewrite (qsumf_ext _ (fun _ => 0)); [apply qsumf_zero|]. intros x Hx. unfold at_or_below. rewrite (proj2 (qleb_gt _ _) (H x (HL x Hx))). reflexivity. }
      rewrite (F X HX), (F Y HY). unfold Qcdiv. ring.
    + assert (F : forall L, (forall x, In x L -> In x P) -> below_sum L t = below_sum L p).
      { intros L HL. unfold below_sum. apply qsumf_ext. intros x Hx. unfold at_or_below. destruct (qleb x t) eqn:E1, (qleb x p) eqn:E2; try reflexivity; exfalso.
        - apply qleb_le in E1. apply qleb_gt in E2. pose proof (Mx x (HL x Hx) E1). qlra.
        - apply qleb_gt in E1. apply qleb_le in E2. qlra. }
      rewrite (F X HX), (F Y HY). assert (D : (exists q, In q P /\ p < q) \/ forall q, In q P -> q <= p).
      { clear. induction P as [|a P IH]; [right; intros q []|]. destruct (Qclt_le_dec p a) as [L|L]; [left; exists a; split; [left; reflexivity|exact L]|]. destruct IH as [(q & Hq & Lq)|H]; [left; exists q; split; [right; exact Hq|exact Lq]|right; intros q [<-|Hq]; auto]. }
      destruct D as [(q & Hq & Lq)|H]; [apply Sub, (W p q Hp Hq Lq)|].
      assert (One : forall L, L <> [] -> (forall x, In x L -> In x P) -> below_sum L p / qn (length L) = 1).
      { intros L NL HL. unfold below_sum. rewrite (qsumf_ext _ (fun _ => 1)); [rewrite qsumf_const; field; apply len_neq0, NL|]. intros x Hx. unfold at_or_below. rewrite (proj2 (qleb_le _ _) (H x (HL x Hx))). reflexivity. }
      rewrite (One X NX HX), (One Y NY HY). reflexivity.
  - intros Eq. rewrite <- (Qcplus_0_l (Spec.mean_of (map (fun y => crps_formula y Y) Y))). rewrite <- (wsum_zero P). rewrite (wsum_ext (fun _ => 0) (fun t => (below_sum X t / qn (length X) - below_sum Y t / qn (length Y)) * (below_sum X t / qn (length X) - below_sum Y t / qn (length Y)))); [rewrite <- Z; ring|].
    intros t _. specialize (Eq t). rewrite !below_share in Eq. rewrite Eq. ring.
Qed.
(** ** One number for all observations *)
Lemma square_const {A} (c : Qc) (o : A -> Qc) L : L <> [] -> let b := Spec.mean_of (map o L) in
  Spec.mean_of (map (fun i => (c - o i) * (c - o i)) L) = (c - b) * (c - b) + Spec.mean_of (map (fun i => (b - o i) * (b - o i)) L).
Proof.
  intros N b. assert (Nn : qn (length L) <> 0) by (apply len_neq0, N). assert (Eb : qsumf o L = qn (length L) * b) by (unfold b; rewrite mean_q; unfold qmean; rewrite map_length; fold (qsumf o L); field; exact Nn).
  assert (G : forall d, Spec.mean_of (map (fun i => (d - o i) * (d - o i)) L) = d * d - (1 + 1) * d * b + qsumf (fun i => o i * o i) L / qn (length L)).
  { intros d. rewrite mean_q. unfold qmean. rewrite map_length. fold (qsumf (fun i => (d - o i) * (d - o i)) L). rewrite (qsumf_ext _ (fun i => d * d + (- ((1 + 1) * d) * o i + o i * o i)) L) by (intros; ring). rewrite qsumf_plus, qsumf_plus, qsumf_const, qsumf_scale, Eb. field. exact Nn. }
  rewrite !G. ring.
Qed.
Lemma indicator_spread {A} (e : A -> bool) L : L <> [] -> let b := Spec.mean_of (map (fun i => indicator (e i)) L) in Spec.mean_of (map (fun i => (b - indicator (e i)) * (b - indicator (e i))) L) = b * (1 - b).
Proof.
  intros N b. assert (Nn : qn (length L) <> 0) by (apply len_neq0, N). assert (Eb : qsumf (fun i => indicator (e i)) L = qn (length L) * b) by (unfold b; rewrite mean_q; unfold qmean; rewrite map_length; fold (qsumf (fun i => indicator (e i)) L); field; exact Nn).
  rewrite mean_q. unfold qmean. rewrite map_length. fold (qsumf (fun i => (b - indicator (e i)) * (b - indicator (e i))) L). rewrite (qsumf_ext _ (fun i => b * b + (1 - (1 + 1) * b) * indicator (e i)) L) by (intros i _; unfold indicator; destruct (e i); ring).
  rewrite qsumf_plus, qsumf_const, qsumf_scale, Eb. field. exact Nn.
Qed.
(** [m] is a median: at most half of the values lie below it and at most half above *)
Definition median {A} (o : A -> Qc) (L : list A) (m : Qc) : Prop := (2 * how_many (fun i => qltb (o i) m) L <= length L)%nat /\ (2 * how_many (fun i => qltb m (o i)) L <= length L)%nat.
Lemma distance_const {A} (c m : Qc) (o : A -> Qc) L : L <> [] -> median o L m -> Spec.mean_of (map (fun i => qdist m (o i)) L) <= Spec.mean_of (map (fun i => qdist c (o i)) L).
Proof.
  intros N [M1 M2]. rewrite (mean_q (map (fun i => qdist m (o i)) L)), (mean_q (map (fun i => qdist c (o i)) L)). unfold qmean. rewrite !map_length. fold (qsumf (fun i => qdist m (o i)) L) (qsumf (fun i => qdist c (o i)) L). assert (P : 0 < qn (length L)) by (apply qn_pos, length_pos, N).
  unfold Qcdiv. apply Qcmult_le_compat_r; [|pose proof (Qcdiv_nonneg 1 (qn (length L)) ltac:(discriminate) P) as Q; unfold Qcdiv in Q; rewrite Qcmult_1_l in Q; exact Q].
  assert (H1 : (1 + 1) * qsumf (fun i => if qltb (o i) m then 1 else 0) L <= qn (length L)) by (rewrite <- count_sum; rewrite how_count in M1; change (1 + 1) with (qn 2); rewrite <- qn_mult; apply qn_le, M1).
  assert (H2 : (1 + 1) * qsumf (fun i => if qltb m (o i) then 1 else 0) L <= qn (length L)) by (rewrite <- count_sum; rewrite how_count in M2; change (1 + 1) with (qn 2); rewrite <- qn_mult; apply qn_le, M2).
  destruct (Qclt_le_dec c m) as [L1|L1].
  - assert (Q : qsumf (fun i => qdist m (o i) + (m - c) * (1 - (1 + 1) * (if qltb (o i) m then 1 else 0))) L <= qsumf (fun i => qdist c (o i)) L).
    { apply qsumf_le. intros i _. unfold qdist. destruct (qltb_spec m (o i)), (qltb_spec c (o i)), (qltb_spec (o i) m); replace ((m - c) * (1 - (1 + 1) * 1)) with (c - m) by ring; replace ((m - c) * (1 - (1 + 1) * 0)) with (m - c) by ring; replace ((c - m) * (1 - (1 + 1) * 1)) with (m - c) by ring; replace ((c - m) * (1 - (1 + 1) * 0)) with (c - m) by ring; qlra. }
    rewrite qsumf_plus, qsumf_scale, qsumf_minus, qsumf_const, qsumf_scale in Q. assert (0 <= (m - c) * (qn (length L) * 1 - (1 + 1) * qsumf (fun i => if qltb (o i) m then 1 else 0) L)) by (apply Qcmult_nonneg; [qlra|]; rewrite Qcmult_1_r; set (u := (1 + 1) * _) in *; qlra).
    set (u := (m - c) * _) in *. qlra.
  - assert (Q : qsumf (fun i => qdist m (o i) + (c - m) * (1 - (1 + 1) * (if qltb m (o i) then 1 else 0))) L <= qsumf (fun i => qdist c (o i)) L).
    { apply qsumf_le. intros i _. unfold qdist. destruct (qltb_spec m (o i)), (qltb_spec c (o i)); replace ((m - c) * (1 - (1 + 1) * 1)) with (c - m) by ring; replace ((m - c) * (1 - (1 + 1) * 0)) with (m - c) by ring; replace ((c - m) * (1 - (1 + 1) * 1)) with (m - c) by ring; replace ((c - m) * (1 - (1 + 1) * 0)) with (c - m) by ring; qlra. }
    rewrite qsumf_plus, qsumf_scale, qsumf_minus, qsumf_const, qsumf_scale in Q. assert (0 <= (c - m) * (qn (length L) * 1 - (1 + 1) * qsumf (fun i => if qltb m (o i) then 1 else 0) L)) by (apply Qcmult_nonneg; [qlra|]; rewrite Qcmult_1_r; set (u := (1 + 1) * _) in *; qlra).
    set (u := (c - m) * _) in *. qlra.
Qed.
(** the same probability everywhere *)
Lemma roc_const P N E c : N <> [] -> E <> [] -> (forall a, In a N -> P a = c) -> (forall b, In b E -> P b = c) -> roc_area P N E = 1 / qz 2.
Proof.
  intros NN NE HN HE. unfold roc_area. rewrite higher_sum, same_sum.
  rewrite (qsumf_ext (fun a => qsumf (fun b => if qltb (P a) (P b) then 1 else 0) E) (fun _ => 0) N).
  - rewrite (qsumf_ext (fun a => qsumf (fun b => if qeqb (P a) (P b) then 1 else 0) E) (fun _ => qn (length E)) N).
    + rewrite qsumf_zero, qsumf_const. change (qn 2) with (qz 2). field. repeat split; solve [apply len_neq0; assumption|discriminate].
    + intros a Ha. rewrite (qsumf_ext _ (fun _ => 1) E); [rewrite qsumf_const; ring|]. intros b Hb. rewrite (HN a Ha), (HE b Hb). rewrite (proj2 (qeqb_eq c c) eq_refl). reflexivity.
  - intros a Ha. rewrite (qsumf_ext _ (fun _ => 0) E); [apply qsumf_zero|]. intros b Hb. rewrite (HN a Ha), (HE b Hb). rewrite (proj2 (qltb_ge c c) (Qcle_refl c)). reflexivity.
Qed.
(** ** Shares as a function of the threshold *)
Lemma nle_trans a b c : nle a b = true -> nle b c = true -> nle a c = true.
Proof. destruct a, b, c; cbn; try congruence. rewrite !qleb_le. apply Qcle_trans. Qed.
Lemma share_order t t' ms : ms <> [] -> nle t t' = true -> member_share false t ms <= member_share false t' ms.
Proof.
  intros N L. assert (P : 0 < qn (length ms)) by (apply qn_pos, length_pos, N). unfold member_share. apply Qcdiv_le_iff; [exact P|]. rewrite !how_count, !count_sum.
  replace (qsumf (fun x => if nle x t' then 1 else 0) ms / qn (length ms) * qn (length ms)) with (qsumf (fun x => if nle x t' then 1 else 0) ms) by (field; apply len_neq0, N).
  apply qsumf_le. intros m _. destruct (nle m t) eqn:E; [rewrite (nle_trans _ _ _ E L); apply Qcle_refl|destruct (nle m t'); qlra].
Qed.
Lemma share_range t ms : ms <> [] -> 0 <= member_share false t ms /\ member_share false t ms <= 1.
Proof.
  intros N. assert (P : 0 < qn (length ms)) by (apply qn_pos, length_pos, N). unfold member_share. split.
  - apply Qcdiv_nonneg; [|exact P]. change 0 with (qn 0). apply qn_le. lia.
  - apply Qcdiv_le_iff; [exact P|]. rewrite Qcmult_1_l. apply qn_le. rewrite how_count. apply count_le.
Qed.
Lemma share_none t ms : ms <> [] -> (member_share false t ms = 0 <-> forall y, In y ms -> nle y t = false).
Proof.
  intros N. assert (P : qn (length ms) <> 0) by (apply len_neq0, N). unfold member_share. rewrite how_count, count_sum. split.
  - intros E. assert (Z : qsumf (fun x => if nle x t then 1 else 0) ms = 0) by (transitivity (qsumf (fun x => if nle x t then 1 else 0) ms / qn (length ms) * qn (length ms)); [field; exact P|rewrite E; ring]).
    intros y Hy. pose proof (proj1 (qsumf_zero_iff (fun x => if nle x t then 1 else 0) ms ltac:(intros a _; cbv beta; destruct (nle a t); qlra)) Z y Hy) as Q. cbv beta in Q. destruct (nle y t); [discriminate|reflexivity].
  - intros H. rewrite (qsumf_ext _ (fun _ => 0) ms) by (intros y Hy; rewrite (H y Hy); reflexivity). rewrite qsumf_zero. unfold Qcdiv. ring.
Qed.
Lemma share_all t ms : ms <> [] -> (member_share false t ms = 1 <-> forall y, In y ms -> nle y t = true).
Proof.
  intros N. assert (P : qn (length ms) <> 0) by (apply len_neq0, N). unfold member_share. rewrite how_count, count_sum. split.
  - intros E. assert (Z : qsumf (fun x => 1 - (if nle x t then 1 else 0)) ms = 0).
    { rewrite qsumf_minus, qsumf_const. transitivity (qn (length ms) * (1 - qsumf (fun x => if nle x t then 1 else 0) ms / qn (length ms))); [field; exact P|rewrite E; ring]. }
    intros y Hy. pose proof (proj1 (qsumf_zero_iff (fun x => 1 - (if nle x t then 1 else 0)) ms ltac:(intros a _; cbv beta; destruct (nle a t); qlra)) Z y Hy) as Q. cbv beta in Q. destruct (nle y t); [reflexivity|discriminate].
  - intros H. rewrite (qsumf_ext _ (fun _ => 1) ms) by (intros y Hy; rewrite (H y Hy); reflexivity). rewrite qsumf_const. field. exact P.
Qed.
