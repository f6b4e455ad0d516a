(** Facts about the formulas of the scores: when they are zero, repeated members, averages of averages (C104 to C107). *)
From Coq Require Import ZArith List Bool QArith Qcanon Lia Permutation.
From Verif Require Import QcTac QSum Num NdArr Spec Spec_whole P_laws.
Import ListNotations.
Open Scope Qc_scope.

Lemma qdist_nonneg a b : 0 <= qdist a b.
Proof. unfold qdist. destruct (qltb_spec a b); qlra. Qed.
Lemma qdist_zero a b : qdist a b = 0 <-> a = b.
Proof.
  unfold qdist. destruct (qltb_spec a b) as [H|H]; split; intros E; try (subst; ring).
  - exfalso. assert (b = a) by (rewrite <- (Qcplus_0_l a), <- E; ring). subst. exact (Qclt_not_eq _ _ H eq_refl).
  - rewrite <- (Qcplus_0_l b), <- E. ring.
Qed.
Lemma qdist_sym a b : qdist a b = qdist b a.
Proof. unfold qdist. destruct (qltb_spec a b), (qltb_spec b a); try reflexivity; try (exfalso; qlra). apply Qcle_antisym; qlra. Qed.
Lemma qdist_triangle a b c : qdist a b <= qdist a c + qdist b c.
Proof. unfold qdist. destruct (qltb_spec a b), (qltb_spec a c), (qltb_spec b c); qlra. Qed.

Lemma mean_pos_zero {A} (f : A -> Qc) l : l <> [] -> (forall a, In a l -> 0 <= f a) -> (Spec.mean_of (map f l) = 0 <-> forall a, In a l -> f a = 0).
Proof. intros N P. rewrite mean_q. change (qmean (map f l)) with (qmeanf f l). apply qmeanf_zero_iff; assumption. Qed.
Lemma mean_nonneg {A} (f : A -> Qc) l : l <> [] -> (forall a, In a l -> 0 <= f a) -> 0 <= Spec.mean_of (map f l).
Proof. intros N P. rewrite mean_q. change (qmean (map f l)) with (qmeanf f l). apply qmeanf_nonneg; assumption. Qed.
Lemma square_zero (x : Qc) : x * x = 0 <-> x = 0.
Proof. split; [|intros ->; ring]. intros H. destruct (Qcmult_integral _ _ H); assumption. Qed.
Lemma square_nonneg (x : Qc) : 0 <= x * x.
Proof. qnra. Qed.

(** the CRPS lies between the mean distance of the members, divided by their number, and the mean distance *)
Lemma crps_lower y ms : ms <> [] -> Spec.mean_of (map (fun m => qdist m y) ms) / qn (length ms) <= crps_formula y ms.
Proof.
  intros N. rewrite crps_sums. rewrite (mean_q (map _ _)). unfold qmean. rewrite map_length. fold (qsumf (fun m => qdist m y) ms). set (n := qn (length ms)). assert (Pn : n <> 0) by (apply len_neq0, N).
  set (D := qsumf (fun m => qdist m y) ms). set (W := qsumf (fun a => qsumf (fun b => qdist a b) ms) ms).
  assert (B : W <= qz 2 * n * D - qz 2 * D).
  { (* off the diagonal the triangle inequality, on it zero *)
    assert (G : forall l1 a, In a l1 -> qsumf (fun b => qdist a b) l1 <= qsumf (fun b => qdist a y + qdist b y) l1 - qz 2 * qdist a y).
    { induction l1 as [|c l1 IH]; intros a H; [destruct H|]. rewrite !qsumf_cons. destruct H as [->|H].
      - rewrite qdist_self. assert (L : qsumf (fun b => qdist a b) l1 <= qsumf (fun b => qdist a y + qdist b y) l1) by (apply qsumf_le; intros b _; apply qdist_triangle). match goal with |- ?u <= ?v => replace v with (qsumf (fun b => qdist a y + qdist b y) l1) by (change (qz 2) with (1 + 1); ring); replace u with (qsumf (fun b => qdist a b) l1) by ring end. exact L.
      - specialize (IH a H). pose proof (qdist_triangle a c y). qlra. }
    assert (E : qz 2 * n * D - qz 2 * D = qsumf (fun a => qsumf (fun b => qdist a y + qdist b y) ms - qz 2 * qdist a y) ms).
    { rewrite qsumf_minus, qsumf_scale. fold D. rewrite (qsumf_ext (fun a => qsumf (fun b => qdist a y + qdist b y) ms) (fun a => n * qdist a y + D) ms).
      - rewrite qsumf_plus, qsumf_scale, qsumf_const. fold D. change (qz 2) with (1 + 1). unfold n. ring.
      - intros a _. rewrite qsumf_plus, qsumf_const. reflexivity. }
    rewrite E. apply qsumf_le. intros a H. apply G, H. }
  rewrite qn_mult. fold n. assert (P0 : 0 < n) by (apply qn_pos, length_pos, N).
  assert (E : D / n - W / (n * n) / qz 2 - D / n / n = (qz 2 * n * D - qz 2 * D - W) / (n * n * qz 2)) by (field; repeat split; solve [exact Pn|discriminate]).
  assert (R : 0 <= (qz 2 * n * D - qz 2 * D - W) / (n * n * qz 2)).
  { apply Qcdiv_nonneg; [qlra|]. assert (0 < n * n) by qnra. assert (0 < qz 2) by reflexivity. qnra. }
  rewrite <- E in R. qlra.
Qed.
Lemma crps_upper y ms : ms <> [] -> crps_formula y ms <= Spec.mean_of (map (fun m => qdist m y) ms).
Proof.
  intros N. unfold crps_formula. set (W := flat_map _ ms). assert (P : 0 <= Spec.mean_of W).
  { destruct W as [|w W'] eqn:E; [apply Qcle_refl|]. rewrite <- E. rewrite <- (map_id W). apply mean_nonneg; [rewrite E; discriminate|]. intros a H. subst W. apply in_flat_map in H as (x & _ & H). apply in_map_iff in H as (z & <- & _). apply qdist_nonneg. }
  assert (0 <= Spec.mean_of W / qz 2); [|qlra]. apply Qcdiv_nonneg; [exact P|reflexivity].
Qed.
Lemma crps_zero y ms : ms <> [] -> (crps_formula y ms = 0 <-> forall m, In m ms -> m = y).
Proof.
  intros N. split; [|apply crps_right]. intros E m H. pose proof (crps_lower y ms N) as L. rewrite E in L.
  assert (P : 0 <= Spec.mean_of (map (fun m => qdist m y) ms)) by (apply mean_nonneg; [exact N|intros; apply qdist_nonneg]).
  assert (Pn : 0 < qn (length ms)) by (apply qn_pos, length_pos, N).
  assert (Z : Spec.mean_of (map (fun m => qdist m y) ms) = 0).
  { apply Qcle_antisym; [|exact P]. set (d := Spec.mean_of _) in *. replace d with (d / qn (length ms) * qn (length ms)) by (field; apply len_neq0, N). replace 0 with (0 * qn (length ms)) by ring. apply Qcmult_le_compat_r; [exact L|apply Qclt_le_weak, Pn]. }
  apply qdist_zero. apply (proj1 (mean_pos_zero _ _ N (fun m _ => qdist_nonneg m y)) Z m H).
Qed.
Lemma crps_one y m : crps_formula y [m] = qdist m y.
Proof. rewrite crps_sums. cbn [length]. rewrite !qsumf_cons, !qsumf_nil, qdist_self. change (qn (1 * 1)) with 1. change (qn 1) with 1. unfold Qcdiv. change (/ 1) with 1. ring. Qed.

(** members repeated the same number of times *)
Lemma sum_repeat {A} (f : A -> Qc) k l : qsumf f (flat_map (fun m => repeat m k) l) = qn k * qsumf f l.
Proof.
  induction l as [|a l IH]; [cbn [flat_map]; rewrite !qsumf_nil; ring|]. cbn [flat_map]. rewrite qsumf_app, qsumf_cons, IH.
  assert (R : qsumf f (repeat a k) = qn k * f a); [|rewrite R; ring]. clear. induction k as [|k IH]; [cbn [repeat]; rewrite qsumf_nil, qn_0; ring|]. cbn [repeat]. rewrite qsumf_cons, IH, (qn_S k). ring.
Qed.
Lemma length_repeat {A} k (l : list A) : length (flat_map (fun m => repeat m k) l) = (k * length l)%nat.
Proof. induction l as [|a l IH]; [cbn; lia|]. cbn [flat_map]. rewrite app_length, repeat_length, IH. cbn [length]. lia. Qed.
Lemma share_repeat over t k ms : (0 < k)%nat -> ms <> [] -> member_share over t (flat_map (fun m => repeat m k) ms) = member_share over t ms.
Proof.
  intros K N. unfold member_share. rewrite !how_count, !count_sum, sum_repeat, length_repeat, qn_mult. field. split; [apply len_neq0, N|apply qn_neq0, K].
Qed.
Lemma crps_repeat y k ms : (0 < k)%nat -> ms <> [] -> crps_formula y (flat_map (fun m => repeat m k) ms) = crps_formula y ms.
Proof.
  intros K N. rewrite !crps_sums, !sum_repeat, length_repeat.
  rewrite (qsumf_ext (fun a => qsumf (fun b => qdist a b) (flat_map (fun m => repeat m k) ms)) (fun a => qn k * qsumf (fun b => qdist a b) ms) ms) by (intros a _; apply sum_repeat). rewrite qsumf_scale, !qn_mult.
  field. repeat split; solve [apply len_neq0, N|apply qn_neq0, K|discriminate].
Qed.

(** averages of averages *)
Lemma mean_means {A} (f : A -> Qc) L Ls r : Ls <> [] -> (0 < r)%nat -> Permutation L (concat Ls) -> (forall l, In l Ls -> length l = r) ->
  Spec.mean_of (map f L) = Spec.mean_of (map (fun l => Spec.mean_of (map f l)) Ls).
Proof.
  intros N R P H. rewrite (mean_q (map f L)), (mean_q (map (fun l => Spec.mean_of (map f l)) Ls)). unfold qmean at 1 2. rewrite !map_length, (Permutation_length P). fold (qsumf f L). rewrite (qsumf_perm f _ _ P).
  assert (Ln : forall ls : list (list A), (forall l, In l ls -> length l = r) -> length (concat ls) = (length ls * r)%nat).
  { induction ls as [|l ls IH]; intros H'; [reflexivity|]. cbn [concat]. rewrite app_length, (H' l (or_introl eq_refl)), IH by (intros; apply H'; right; assumption). reflexivity. }
  assert (Sm : forall ls : list (list A), (forall l, In l ls -> length l = r) -> qsum (map (fun l => Spec.mean_of (map f l)) ls) = qsumf f (concat ls) / qn r).
  { induction ls as [|l ls IH]; intros H'; [cbn; unfold Qcdiv; ring|]. cbn [concat map qsum]. rewrite qsumf_app, IH by (intros; apply H'; right; assumption). rewrite mean_q. unfold qmean. rewrite map_length, (H' l (or_introl eq_refl)). fold (qsumf f l). unfold Qcdiv. ring. }
  rewrite (Ln Ls H), (Sm Ls H), qn_mult. field. split; [apply qn_neq0, R|apply len_neq0, N].
Qed.

(** the area is one only if all pairs are in order *)
Lemma roc_one P N E : N <> [] -> E <> [] -> roc_area P N E = 1 -> forall a b, In a N -> In b E -> P a < P b.
Proof.
  intros HN HE H. unfold roc_area in H. rewrite higher_sum, same_sum in H. pose proof (len_neq0 N HN) as P1. pose proof (len_neq0 E HE) as P2.
  set (x := qsumf (fun a => qsumf (fun b => if qltb (P a) (P b) then 1 else 0) E) N) in *. set (z := qsumf (fun a => qsumf (fun b => if qeqb (P a) (P b) then 1 else 0) E) N) in *.
  assert (T : x + z / qn 2 = qn (length E) * qn (length N)) by (replace (x + z / qn 2) with ((x + z / qn 2) / (qn (length E) * qn (length N)) * (qn (length E) * qn (length N))) by (field; repeat split; solve [exact P1|exact P2|discriminate]); rewrite H; ring).
  set (g := fun a b => 1 - ((if qltb (P a) (P b) then 1 else 0) + (if qeqb (P a) (P b) then 1 else 0) / qn 2)).
  assert (Gp : forall a b, 0 <= g a b).
  { intros a b. unfold g. destruct (qltb_spec (P a) (P b)) as [q|q], (qeqb_spec (P a) (P b)) as [e|e]; try (vm_compute; discriminate). exfalso. apply (Qclt_not_eq _ _ q e). }
  assert (Z : qsumf (fun a => qsumf (g a) E) N = 0).
  { transitivity (qn (length E) * qn (length N) - (x + z / qn 2)); [|rewrite T; ring]. unfold x, z.
    rewrite (qsumf_ext (fun a => qsumf (g a) E) (fun a => qn (length E) - (qsumf (fun b => if qltb (P a) (P b) then 1 else 0) E + qsumf (fun b => if qeqb (P a) (P b) then 1 else 0) E * / qn 2)) N).
    - rewrite qsumf_minus, qsumf_plus, qsumf_scale_r, qsumf_const. unfold Qcdiv. ring.
    - intros a _. unfold g. rewrite qsumf_minus, <- length_qsumf, qsumf_plus. unfold Qcdiv. rewrite qsumf_scale_r. reflexivity. }
  assert (Za : forall a, In a N -> qsumf (g a) E = 0) by (apply qsumf_zero_iff; [intros a _; apply qsumf_nonneg; intros; apply Gp|exact Z]).
  intros a b Ha Hb. assert (Zb : g a b = 0) by (apply (proj1 (qsumf_zero_iff (g a) E (fun b _ => Gp a b)) (Za a Ha) b Hb)).
  unfold g in Zb. destruct (qltb_spec (P a) (P b)) as [Hl|Hl]; [exact Hl|]. exfalso. revert Zb. destruct (qeqb_spec (P a) (P b)); vm_compute; discriminate.
Qed.
