(** Facts about the formulas of the scores under changes of the forecasts (C100 to C103). *)
From Coq Require Import ZArith List Bool QArith Qcanon Lia Permutation.
From Verif Require Import QcTac QSum Num NdArr Spec Spec_whole.
Import ListNotations.
Open Scope Qc_scope.

Lemma mean_q l : Spec.mean_of l = qmean l.
Proof. reflexivity. Qed.
Lemma how_count {A} (p : A -> bool) l : Spec.how_many p l = count p l. Proof. reflexivity. Qed.
Lemma len_neq0 {A} (l : list A) : l <> [] -> qn (length l) <> 0.
Proof. intros N. apply qn_neq0, length_pos, N. Qed.

(** an event and its opposite *)
Lemma share_opposite t ms : ms <> [] -> member_share true t ms = 1 - member_share false t ms.
Proof.
  intros N. change (member_share true t ms) with (qn (count (fun m => negb (nle m t)) ms) / qn (length ms)). change (member_share false t ms) with (qn (count (fun m => nle m t) ms) / qn (length ms)). pose proof (count_negb (fun m => nle m t) ms) as H. apply (f_equal qn) in H. rewrite qn_plus in H.
  pose proof (len_neq0 ms N) as P. set (x := qn (count (fun m => nle m t) ms)) in *. replace (qn (count (fun m => negb (nle m t)) ms)) with (qn (length ms) - x) by (rewrite <- H; ring). field. exact P.
Qed.
Definition differ (a b : num) : Prop := a <> NaN /\ b <> NaN /\ a <> b.
Lemma observed_opposite t y : differ t y -> observed true t y = negb (observed false t y).
Proof.
  intros (A & B & C). cbn. destruct t as [p| | |], y as [q| | |]; cbn; try reflexivity; try congruence. destruct (qltb_spec p q), (qltb_spec q p); try reflexivity; exfalso.
  - exact (Qclt_not_le _ _ H (Qclt_le_weak _ _ H0)).
  - apply C. f_equal. apply Qcle_antisym; assumption.
Qed.
Lemma indicator_opposite t y : differ t y -> indicator (observed true t y) = 1 - indicator (observed false t y).
Proof. intros D. rewrite (observed_opposite t y D). destruct (observed false t y); cbn; ring. Qed.

(** the area under the ROC curve *)
Lemma prod_sum {A B} (g : A * B -> Qc) (l1 : list A) (l2 : list B) : qsumf g (list_prod l1 l2) = qsumf (fun a => qsumf (fun b => g (a, b)) l2) l1.
Proof. induction l1 as [|a l1 IH]; [reflexivity|]. cbn [list_prod]. rewrite qsumf_app, qsumf_cons, qsumf_map, IH. reflexivity. Qed.
Lemma higher_sum P N E : qn (higher P N E) = qsumf (fun a => qsumf (fun b => if qltb (P a) (P b) then 1 else 0) E) N.
Proof. unfold higher. change (length (filter ?p ?l)) with (count p l). rewrite count_sum, prod_sum. reflexivity. Qed.
Lemma same_sum P N E : qn (same P N E) = qsumf (fun a => qsumf (fun b => if qeqb (P a) (P b) then 1 else 0) E) N.
Proof. unfold same. change (length (filter ?p ?l)) with (count p l). rewrite count_sum, prod_sum. reflexivity. Qed.
(** it depends on the order of the values only *)
Lemma roc_ordered P Q N E : (forall a b, In a N -> In b E -> qltb (Q a) (Q b) = qltb (P a) (P b) /\ qeqb (Q a) (Q b) = qeqb (P a) (P b)) -> roc_area Q N E = roc_area P N E.
Proof.
  intros H. unfold roc_area. rewrite !higher_sum, !same_sum. do 2 f_equal; [|f_equal]; apply qsumf_ext; intros a Ha; apply qsumf_ext; intros b Hb; destruct (H a b Ha Hb) as [H1 H2]; rewrite ?H1, ?H2; reflexivity.
Qed.
Lemma roc_swap P N E : roc_area (fun ix => 1 - P ix) E N = roc_area P N E.
Proof.
  unfold roc_area. rewrite !higher_sum, !same_sum, (Qcmult_comm (qn (length N))). do 2 f_equal; [|f_equal]; rewrite qsumf_swap; apply qsumf_ext; intros a Ha; apply qsumf_ext; intros b Hb.
  - replace (qltb (1 - P b) (1 - P a)) with (qltb (P a) (P b)); [reflexivity|]. destruct (qltb_spec (P a) (P b)), (qltb_spec (1 - P b) (1 - P a)); try reflexivity; exfalso; qlra.
  - replace (qeqb (1 - P b) (1 - P a)) with (qeqb (P a) (P b)); [reflexivity|]. destruct (qeqb_spec (P a) (P b)) as [X|X], (qeqb_spec (1 - P b) (1 - P a)) as [Y|Y]; try reflexivity; exfalso; [apply Y; rewrite X; reflexivity|apply X; qlra].
Qed.
Lemma roc_separated P N E : N <> [] -> E <> [] -> (forall a b, In a N -> In b E -> P a < P b) -> roc_area P N E = 1.
Proof.
  intros HN HE H. unfold roc_area. rewrite higher_sum, same_sum.
  rewrite (qsumf_ext _ (fun _ => qn (length E)) N), (qsumf_ext (fun a => qsumf (fun b => if qeqb (P a) (P b) then 1 else 0) E) (fun _ => 0) N).
  - rewrite qsumf_const, qsumf_const. change (qn 2) with (qz 2). field. repeat split; solve [apply len_neq0; assumption|discriminate].
  - intros a Ha. transitivity (qsumf (fun _ => 0) E); [|apply qsumf_zero]. apply qsumf_ext. intros b Hb. destruct (qeqb_spec (P a) (P b)) as [X|X]; [|reflexivity]. specialize (H a b Ha Hb). rewrite X in H. elim (Qclt_not_eq _ _ H eq_refl).
  - intros a Ha. rewrite length_qsumf. apply qsumf_ext. intros b Hb. destruct (qltb_spec (P a) (P b)) as [X|X]; [reflexivity|]. elim (Qclt_not_le _ _ (H a b Ha Hb) X).
Qed.

(** other orders of the members *)
Lemma share_perm over t ms ms' : Permutation ms ms' -> member_share over t ms = member_share over t ms'.
Proof. intros H. unfold member_share. rewrite !how_count, (count_perm _ _ _ H), (Permutation_length H). reflexivity. Qed.
Lemma flat_len {A B C} (g : A -> B -> C) l1 l2 : length (flat_map (fun a => map (g a) l2) l1) = (length l1 * length l2)%nat.
Proof. induction l1 as [|a l1 IH]; [reflexivity|]. cbn. rewrite app_length, map_length, IH. reflexivity. Qed.
Lemma crps_sums y ms : crps_formula y ms = qsumf (fun m => qdist m y) ms / qn (length ms) - qsumf (fun a => qsumf (fun b => qdist a b) ms) ms / qn (length ms * length ms) / qz 2.
Proof.
  unfold crps_formula. rewrite (mean_q (flat_map _ _)), (mean_q (map _ _)). unfold qmean. rewrite (flat_len (fun a b => qdist a b) ms ms), map_length. f_equal. do 2 f_equal.
  assert (G : forall l, qsum (flat_map (fun a => map (fun b => qdist a b) ms) l) = qsumf (fun a => qsumf (fun b => qdist a b) ms) l); [|apply G].
  induction l as [|a l IH]; [reflexivity|]. cbn [flat_map]. rewrite qsum_app, qsumf_cons, IH. reflexivity.
Qed.
Lemma crps_perm y ms ms' : Permutation ms ms' -> crps_formula y ms = crps_formula y ms'.
Proof.
  intros H. rewrite !crps_sums, (Permutation_length H), (qsumf_perm _ _ _ H), (qsumf_perm (fun a => qsumf (fun b => qdist a b) ms) _ _ H).
  do 3 f_equal. apply qsumf_ext. intros a _. apply qsumf_perm, H.
Qed.

(** forecasts that are right *)
Lemma qdist_self a : qdist a a = 0.
Proof. unfold qdist. destruct (qltb a a); ring. Qed.
Lemma crps_right y ms : (forall m, In m ms -> m = y) -> crps_formula y ms = 0.
Proof.
  intros H. rewrite crps_sums. rewrite (qsumf_ext (fun m => qdist m y) (fun _ => 0) ms), (qsumf_ext (fun a => qsumf (fun b => qdist a b) ms) (fun _ => 0) ms).
  - rewrite qsumf_zero. unfold Qcdiv. ring.
  - intros a Ha. transitivity (qsumf (fun _ => 0) ms); [|apply qsumf_zero]. apply qsumf_ext. intros b Hb. rewrite (H a Ha), (H b Hb). apply qdist_self.
  - intros a Ha. rewrite (H a Ha). apply qdist_self.
Qed.
Lemma share_right over t y ms : ms <> [] -> (forall m, In m ms -> m = y) -> member_share over t ms = indicator (if over then negb (nle y t) else nle y t).
Proof.
  intros N H. unfold member_share. rewrite how_count. destruct (if over then negb (nle y t) else nle y t) eqn:E; cbn [indicator].
  - rewrite count_all; [field; apply len_neq0, N|]. intros m Hm. rewrite (H m Hm). exact E.
  - rewrite count_none; [change (qn 0) with 0; unfold Qcdiv; ring|]. intros m Hm. rewrite (H m Hm). exact E.
Qed.
Lemma observed_right t y : t <> NaN -> y <> NaN -> observed true t y = negb (nle y t).
Proof. intros A B. destruct t, y; cbn; try congruence; try reflexivity. Qed.
Lemma below_right t y : differ t y -> observed false t y = nle y t.
Proof.
  intros D. pose proof (observed_opposite t y D) as O. destruct D as (A & B & _). rewrite (observed_right t y A B) in O. destruct (nle y t), (observed false t y); try reflexivity; discriminate O.
Qed.
Lemma mean_zero {A} (f : A -> Qc) l : (forall a, In a l -> f a = 0) -> Spec.mean_of (map f l) = 0.
Proof. intros H. rewrite mean_q. unfold qmean. fold (qsumf f l). rewrite (qsumf_ext f (fun _ => 0) l H), qsumf_zero. unfold Qcdiv. ring. Qed.

(** other units: a x + b with a positive *)
Definition convert (a b : Qc) (v : num) : num := match v with Fin x => Fin (a * x + b) | w => w end.
Lemma convert_le a b x y : 0 < a -> (a * x + b <= a * y + b <-> x <= y).
Proof.
  intros H. split; intros L.
  - apply Qcnot_lt_le. intros C. apply (Qclt_not_le (a * y + b) (a * x + b)); [|exact L]. apply (Qcmult_lt_compat_r _ _ _ H) in C. rewrite !(Qcmult_comm a). qlra.
  - pose proof (Qcmult_le_compat_r _ _ _ L (Qclt_le_weak _ _ H)) as M. rewrite !(Qcmult_comm a). qlra.
Qed.
Lemma convert_leb a b x y : 0 < a -> qleb (a * x + b) (a * y + b) = qleb x y.
Proof.
  intros H. pose proof (convert_le a b x y H) as I. destruct (qleb x y) eqn:E.
  - apply qleb_le, I, qleb_le, E.
  - apply qleb_gt. apply qleb_gt in E. apply Qcnot_le_lt. intros L. apply I in L. exact (Qclt_not_le _ _ E L).
Qed.
Lemma convert_nle a b v w : 0 < a -> nle (convert a b v) (convert a b w) = nle v w.
Proof. intros H. destruct v, w; cbn; try reflexivity. apply convert_leb, H. Qed.
Lemma convert_nlt a b v w : 0 < a -> nlt (convert a b v) (convert a b w) = nlt v w.
Proof. intros H. destruct v, w; cbn; try reflexivity. unfold qltb. rewrite convert_leb by exact H. reflexivity. Qed.
Lemma observed_convert a b over t y : 0 < a -> observed over (convert a b t) (convert a b y) = observed over t y.
Proof. intros H. destruct over; cbn; apply convert_nlt, H. Qed.
Lemma share_convert a b over t ms : 0 < a -> member_share over (convert a b t) (map (convert a b) ms) = member_share over t ms.
Proof.
  intros H. unfold member_share. rewrite !how_count, count_map, map_length. do 2 f_equal. apply count_ext. intros m _. destruct over; rewrite convert_nle by exact H; reflexivity.
Qed.
Lemma qdist_convert a b x y : 0 < a -> qdist (a * x + b) (a * y + b) = a * qdist x y.
Proof. intros H. unfold qdist, qltb. rewrite convert_leb by exact H. destruct (negb (qleb y x)); ring. Qed.
Lemma crps_convert a b y ms : 0 < a -> crps_formula (a * y + b) (map (fun m => a * m + b) ms) = a * crps_formula y ms.
Proof.
  intros H. rewrite !crps_sums, !qsumf_map, !map_length. rewrite (qsumf_ext (fun m => qdist (a * m + b) (a * y + b)) (fun m => a * qdist m y) ms), qsumf_scale.
  - rewrite (qsumf_ext (fun x => qsumf (fun c => qdist (a * x + b) c) (map (fun m => a * m + b) ms)) (fun x => a * qsumf (fun c => qdist x c) ms) ms), qsumf_scale; [unfold Qcdiv; ring|].
    intros x _. rewrite qsumf_map, <- qsumf_scale. apply qsumf_ext. intros c _. apply qdist_convert, H.
  - intros m _. apply qdist_convert, H.
Qed.
Lemma mean_scaled {A} (f g : A -> Qc) c l : (forall a, In a l -> g a = c * f a) -> Spec.mean_of (map g l) = c * Spec.mean_of (map f l).
Proof.
  intros H. rewrite (mean_q (map g l)), (mean_q (map f l)). unfold qmean. rewrite !map_length. fold (qsumf g l) (qsumf f l). rewrite (qsumf_ext g (fun x => c * f x) l H), qsumf_scale. unfold Qcdiv. ring.
Qed.
Lemma mean_same {A} (f g : A -> Qc) l : (forall a, In a l -> g a = f a) -> Spec.mean_of (map g l) = Spec.mean_of (map f l).
Proof. intros H. f_equal. apply map_ext_in. exact H. Qed.
