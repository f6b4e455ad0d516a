(** Finite sums and means over lists of exact rationals.  Pure mathematics. *)
From Coq Require Import QArith Qcanon ZArith List Lia Lqa Bool Arith Permutation.
From Verif Require Import QcTac.
Import ListNotations.
Open Scope Qc_scope.

Fixpoint qsum (l : list Qc) : Qc :=
  match l with [] => 0 | x :: r => x + qsum r end.
Definition qsumf {A} (f : A -> Qc) (l : list A) : Qc := qsum (map f l).
(** Arithmetic mean; only meaningful for non-empty lists. *)
Definition qmean (l : list Qc) : Qc := qsum l / qn (length l).
Definition qmeanf {A} (f : A -> Qc) (l : list A) : Qc := qmean (map f l).

Lemma qsum_app l1 l2 : qsum (l1 ++ l2) = qsum l1 + qsum l2.
Proof. induction l1 as [|x r IH]; cbn [qsum app]; [ring|rewrite IH; ring]. Qed.
Lemma qsum_perm l1 l2 : Permutation l1 l2 -> qsum l1 = qsum l2.
Proof. induction 1; cbn [qsum]; try congruence; ring. Qed.
Lemma qsum_rev l : qsum (rev l) = qsum l.
Proof. apply qsum_perm, Permutation_sym, Permutation_rev. Qed.

Lemma qsumf_nil {A} (f : A -> Qc) : qsumf f [] = 0. Proof. reflexivity. Qed.
Lemma qsumf_cons {A} (f : A -> Qc) x l : qsumf f (x :: l) = f x + qsumf f l.
Proof. reflexivity. Qed.
Lemma qsumf_app {A} (f : A -> Qc) l1 l2 : qsumf f (l1 ++ l2) = qsumf f l1 + qsumf f l2.
Proof. unfold qsumf. rewrite map_app. apply qsum_app. Qed.
Lemma qsumf_perm {A} (f : A -> Qc) l1 l2 : Permutation l1 l2 -> qsumf f l1 = qsumf f l2.
Proof. intros H. apply qsum_perm, Permutation_map, H. Qed.
Lemma qsumf_ext {A} (f g : A -> Qc) l :
  (forall x, In x l -> f x = g x) -> qsumf f l = qsumf g l.
Proof. intros H. unfold qsumf. f_equal. apply map_ext_in, H. Qed.
Lemma qsumf_plus {A} (f g : A -> Qc) l :
  qsumf (fun x => f x + g x) l = qsumf f l + qsumf g l.
Proof. induction l as [|x r IH]; [cbn; ring|rewrite !qsumf_cons, IH; ring]. Qed.
Lemma qsumf_minus {A} (f g : A -> Qc) l :
  qsumf (fun x => f x - g x) l = qsumf f l - qsumf g l.
Proof. induction l as [|x r IH]; [cbn; ring|rewrite !qsumf_cons, IH; ring]. Qed.
Lemma qsumf_scale {A} (f : A -> Qc) c l :
  qsumf (fun x => c * f x) l = c * qsumf f l.
Proof. induction l as [|x r IH]; [cbn; ring|rewrite !qsumf_cons, IH; ring]. Qed.
Lemma qsumf_scale_r {A} (f : A -> Qc) c l :
  qsumf (fun x => f x * c) l = qsumf f l * c.
Proof. induction l as [|x r IH]; [cbn; ring|rewrite !qsumf_cons, IH; ring]. Qed.
Lemma qsumf_const {A} c (l : list A) : qsumf (fun _ => c) l = qn (length l) * c.
Proof.
  induction l as [|x r IH]; [cbn; rewrite qn_0; ring|].
  rewrite qsumf_cons, IH. cbn [length]. rewrite qn_S. ring.
Qed.
Lemma qsumf_zero {A} (l : list A) : qsumf (fun _ => 0) l = 0.
Proof. rewrite qsumf_const. ring. Qed.
Lemma qsumf_map {A B} (f : B -> Qc) (g : A -> B) l : qsumf f (map g l) = qsumf (fun x => f (g x)) l.
Proof. unfold qsumf. rewrite map_map. reflexivity. Qed.
Lemma qsumf_id l : qsumf (fun x => x) l = qsum l.
Proof. unfold qsumf. rewrite map_id. reflexivity. Qed.
Lemma qsumf_le {A} (f g : A -> Qc) l :
  (forall x, In x l -> f x <= g x) -> qsumf f l <= qsumf g l.
Proof.
  induction l as [|x r IH]; intros H; [apply Qcle_refl|].
  rewrite !qsumf_cons. apply Qcplus_le_compat; [apply H; left; reflexivity|].
  apply IH. intros y Hy. apply H. right. exact Hy.
Qed.
Lemma qsumf_nonneg {A} (f : A -> Qc) l :
  (forall x, In x l -> 0 <= f x) -> 0 <= qsumf f l.
Proof. intros H. rewrite <- (qsumf_zero l). apply qsumf_le, H. Qed.
Lemma qsumf_zero_iff {A} (f : A -> Qc) l :
  (forall x, In x l -> 0 <= f x) ->
  (qsumf f l = 0 <-> forall x, In x l -> f x = 0).
Proof.
  intros Hn. split.
  - induction l as [|x r IH]; intros H y [].
    + subst y. rewrite qsumf_cons in H.
      assert (0 <= f x) by (apply Hn; left; reflexivity).
      assert (0 <= qsumf f r) by (apply qsumf_nonneg; intros z Hz; apply Hn; right; exact Hz).
      qlra.
    + assert (0 <= f x) by (apply Hn; left; reflexivity).
      assert (0 <= qsumf f r) by (apply qsumf_nonneg; intros z Hz; apply Hn; right; exact Hz).
      apply IH; [intros z Hz; apply Hn; right; exact Hz| |exact H0].
      rewrite qsumf_cons in H. qlra.
  - intros H. rewrite (qsumf_ext f (fun _ => 0) l H). apply qsumf_zero.
Qed.
Lemma qsumf_swap {A B} (f : A -> B -> Qc) (l1 : list A) (l2 : list B) :
  qsumf (fun x => qsumf (fun y => f x y) l2) l1 = qsumf (fun y => qsumf (fun x => f x y) l1) l2.
Proof.
  induction l1 as [|x r IH].
  - unfold qsumf at 1. cbn. symmetry. apply qsumf_zero.
  - rewrite qsumf_cons, IH, <- qsumf_plus. apply qsumf_ext. intros y _. rewrite qsumf_cons. reflexivity.
Qed.
Lemma qsumf_filter {A} (f : A -> Qc) (p : A -> bool) l :
  qsumf f (filter p l) = qsumf (fun x => if p x then f x else 0) l.
Proof.
  induction l as [|x r IH]; [reflexivity|]. cbn [filter].
  rewrite qsumf_cons. destruct (p x); [rewrite qsumf_cons|]; rewrite IH; ring.
Qed.
Lemma length_qsumf {A} (l : list A) : qn (length l) = qsumf (fun _ => 1) l.
Proof. rewrite qsumf_const. ring. Qed.
Lemma qsum_flat_map {A B} (f : B -> Qc) (g : A -> list B) l :
  qsumf f (flat_map g l) = qsumf (fun a => qsumf f (g a)) l.
Proof.
  induction l as [|x r IH]; [reflexivity|]. cbn [flat_map]. rewrite qsumf_app, qsumf_cons, IH. reflexivity.
Qed.
Lemma qsum_concat (ls : list (list Qc)) : qsum (concat ls) = qsum (map qsum ls).
Proof. induction ls as [|x r IH]; [reflexivity|]. cbn [concat map qsum]. rewrite qsum_app, IH. reflexivity. Qed.

(** Splitting a sum according to a key with finitely many values. *)
Lemma qsumf_indicator (k n : nat) c :
  qsumf (fun b => if Nat.eqb k b then c else 0) (seq 0 n) = if (k <? n)%nat then c else 0.
Proof.
  induction n as [|n IH].
  - reflexivity.
  - rewrite seq_S, qsumf_app, IH, qsumf_cons, qsumf_nil. cbn [plus].
    destruct (Nat.eqb_spec k n) as [->|Hne].
    + rewrite Nat.ltb_irrefl. destruct (Nat.ltb_spec n (S n)); [ring|lia].
    + destruct (Nat.ltb_spec k n), (Nat.ltb_spec k (S n)); try lia; ring.
Qed.
Lemma qsumf_partition {A} (f : A -> Qc) (key : A -> nat) n l :
  (forall x, In x l -> (key x < n)%nat) ->
  qsumf (fun b => qsumf f (filter (fun x => Nat.eqb (key x) b) l)) (seq 0 n) = qsumf f l.
Proof.
  intros Hk.
  rewrite (qsumf_ext _ (fun b => qsumf (fun x => if Nat.eqb (key x) b then f x else 0) l)).
  2:{ intros b _. apply qsumf_filter. }
  rewrite (qsumf_swap (fun b x => if Nat.eqb (key x) b then f x else 0)).
  apply qsumf_ext. intros x Hx. rewrite qsumf_indicator.
  specialize (Hk x Hx). destruct (Nat.ltb_spec (key x) n); [reflexivity|lia].
Qed.

(** Means. *)
Lemma qmean_sum l : l <> [] -> qn (length l) * qmean l = qsum l.
Proof.
  intros H. unfold qmean. field. apply qn_neq0. destruct l; [congruence|cbn; lia].
Qed.
Lemma qmean_perm l1 l2 : Permutation l1 l2 -> qmean l1 = qmean l2.
Proof. intros H. unfold qmean. rewrite (qsum_perm _ _ H), (Permutation_length H). reflexivity. Qed.
Lemma qmean_const c l : l <> [] -> (forall x, In x l -> x = c) -> qmean l = c.
Proof.
  intros Hn H. unfold qmean. rewrite <- qsumf_id, (qsumf_ext _ (fun _ => c) l H), qsumf_const.
  field. apply qn_neq0. destruct l; [congruence|cbn; lia].
Qed.
Lemma length_pos {A} (l : list A) : l <> [] -> (0 < length l)%nat.
Proof. destruct l; [congruence|cbn; lia]. Qed.
Lemma qmean_ge a l : l <> [] -> (forall x, In x l -> a <= x) -> a <= qmean l.
Proof.
  intros Hn H. unfold qmean. apply Qcle_div_iff; [apply qn_pos, length_pos, Hn|].
  rewrite Qcmult_comm, <- (qsumf_const a l), <- (qsumf_id l). apply qsumf_le, H.
Qed.
Lemma qmean_le b l : l <> [] -> (forall x, In x l -> x <= b) -> qmean l <= b.
Proof.
  intros Hn H. unfold qmean. apply Qcdiv_le_iff; [apply qn_pos, length_pos, Hn|].
  rewrite Qcmult_comm, <- (qsumf_const b l), <- (qsumf_id l). apply qsumf_le, H.
Qed.
Lemma qmeanf_sum {A} (f : A -> Qc) l : l <> [] -> qn (length l) * qmeanf f l = qsumf f l.
Proof.
  intros H. unfold qmeanf, qsumf. rewrite <- qmean_sum, map_length; [reflexivity|].
  destruct l; [congruence|discriminate].
Qed.
Lemma qmeanf_eq {A} (f : A -> Qc) l : qmeanf f l = qsumf f l / qn (length l).
Proof. unfold qmeanf, qmean, qsumf. rewrite map_length. reflexivity. Qed.
Lemma qmeanf_ext {A} (f g : A -> Qc) l : (forall x, In x l -> f x = g x) -> qmeanf f l = qmeanf g l.
Proof. intros H. rewrite !qmeanf_eq, (qsumf_ext f g l H). reflexivity. Qed.
Lemma qmeanf_nonneg {A} (f : A -> Qc) l : l <> [] -> (forall x, In x l -> 0 <= f x) -> 0 <= qmeanf f l.
Proof.
  intros Hn H. apply qmean_ge; [destruct l; [congruence|discriminate]|].
  intros x Hx. apply in_map_iff in Hx as (y & <- & Hy). apply H, Hy.
Qed.
Lemma qmeanf_le {A} (f g : A -> Qc) l : l <> [] -> (forall x, In x l -> f x <= g x) -> qmeanf f l <= qmeanf g l.
Proof.
  intros Hn H. rewrite !qmeanf_eq. unfold Qcdiv.
  apply Qcmult_le_compat_r; [apply qsumf_le, H|].
  apply Qclt_le_weak, Qcinv_pos, qn_pos, length_pos, Hn.
Qed.
Lemma qmeanf_plus {A} (f g : A -> Qc) l : qmeanf (fun x => f x + g x) l = qmeanf f l + qmeanf g l.
Proof. rewrite !qmeanf_eq, qsumf_plus. unfold Qcdiv. ring. Qed.
Lemma qmeanf_minus {A} (f g : A -> Qc) l : qmeanf (fun x => f x - g x) l = qmeanf f l - qmeanf g l.
Proof. rewrite !qmeanf_eq, qsumf_minus. unfold Qcdiv. ring. Qed.
Lemma qmeanf_scale {A} (f : A -> Qc) c l : qmeanf (fun x => c * f x) l = c * qmeanf f l.
Proof. rewrite !qmeanf_eq, qsumf_scale. unfold Qcdiv. ring. Qed.
Lemma qmeanf_const {A} c (l : list A) : l <> [] -> qmeanf (fun _ => c) l = c.
Proof. intros H. rewrite qmeanf_eq, qsumf_const. field. apply qn_neq0, length_pos, H. Qed.

(** Variance decomposition (mean of squares = square of mean + variance). *)
Lemma mean_sq_decomp {A} (f : A -> Qc) l : l <> [] ->
  let m := qmeanf f l in
  qmeanf (fun x => f x * f x) l = m * m + qmeanf (fun x => (f x - m) * (f x - m)) l.
Proof.
  intros Hn m.
  rewrite (qmeanf_ext (fun x => (f x - m) * (f x - m))
             (fun x => (f x * f x - (m + m) * f x) + m * m)) by (intros; ring).
  rewrite qmeanf_plus, qmeanf_minus, qmeanf_scale, (qmeanf_const (m*m) l Hn).
  fold m. ring.
Qed.
Lemma mean_sq_ge {A} (f : A -> Qc) l : l <> [] ->
  qmeanf f l * qmeanf f l <= qmeanf (fun x => f x * f x) l.
Proof.
  intros Hn. pose proof (mean_sq_decomp f l Hn) as H. cbv zeta in H. rewrite H.
  assert (0 <= qmeanf (fun x => (f x - qmeanf f l) * (f x - qmeanf f l)) l).
  { apply qmeanf_nonneg; [exact Hn|]. intros x _. apply qsq_nonneg. }
  qlra.
Qed.

(** Cauchy-Schwarz. *)
Lemma cauchy_schwarz {A} (f g : A -> Qc) l :
  qsumf (fun x => f x * g x) l * qsumf (fun x => f x * g x) l
  <= qsumf (fun x => f x * f x) l * qsumf (fun x => g x * g x) l.
Proof.
  set (a := qsumf (fun x => f x * f x) l). set (b := qsumf (fun x => f x * g x) l).
  set (c := qsumf (fun x => g x * g x) l).
  assert (Ha : 0 <= a) by (apply qsumf_nonneg; intros; apply qsq_nonneg).
  assert (Hc : 0 <= c) by (apply qsumf_nonneg; intros; apply qsq_nonneg).
  assert (Hq : forall t, 0 <= a * (t * t) - (b + b) * t + c).
  { intros t. assert (E : a * (t * t) - (b + b) * t + c = qsumf (fun x => (t * f x - g x) * (t * f x - g x)) l).
    { rewrite (qsumf_ext (fun x => (t * f x - g x) * (t * f x - g x))
                 (fun x => ((t * t) * (f x * f x) - (t + t) * (f x * g x)) + g x * g x)) by (intros; ring).
      rewrite qsumf_plus, qsumf_minus, !qsumf_scale. unfold a, b, c. ring. }
    rewrite E. apply qsumf_nonneg. intros; apply qsq_nonneg. }
  destruct (qeqb_spec a 0) as [E|E].
  - (* a = 0: then b = 0 *)
    assert (b = 0).
    { assert (Hz := proj1 (qsumf_zero_iff (fun x => f x * f x) l (fun x _ => qsq_nonneg (f x))) E).
      unfold b. rewrite (qsumf_ext _ (fun _ => 0)); [apply qsumf_zero|].
      intros x Hx. specialize (Hz x Hx). apply qsq_zero in Hz. rewrite Hz. ring. }
    rewrite H, E. qlra.
  - specialize (Hq (b / a)).
    assert (Hp : 0 < a) by (destruct (Qcle_lt_or_eq _ _ Ha); [assumption|congruence]).
    assert (E2 : a * (b / a * (b / a)) - (b + b) * (b / a) + c = c - b * b / a) by (field; exact E).
    rewrite E2 in Hq.
    assert (b * b / a <= c) by qlra.
    apply (Qcdiv_le_iff _ _ _ Hp) in H. rewrite (Qcmult_comm a c). exact H.
Qed.

(** Counting. *)
Definition count {A} (p : A -> bool) (l : list A) : nat := length (filter p l).
Lemma count_le {A} (p : A -> bool) l : (count p l <= length l)%nat.
Proof. unfold count. induction l as [|x r IH]; cbn; [lia|destruct (p x); cbn; lia]. Qed.
Lemma count_nil {A} (p : A -> bool) : count p [] = 0%nat. Proof. reflexivity. Qed.
Lemma count_cons {A} (p : A -> bool) x l : count p (x :: l) = ((if p x then 1 else 0) + count p l)%nat.
Proof. unfold count. cbn. destruct (p x); reflexivity. Qed.
Lemma count_app {A} (p : A -> bool) l1 l2 : count p (l1 ++ l2) = (count p l1 + count p l2)%nat.
Proof. unfold count. rewrite filter_app, app_length. reflexivity. Qed.
Lemma count_ext {A} (p q : A -> bool) l : (forall x, In x l -> p x = q x) -> count p l = count q l.
Proof.
  induction l as [|x r IH]; intros H; [reflexivity|].
  rewrite !count_cons, (H x (or_introl eq_refl)), IH; [reflexivity|].
  intros y Hy. apply H. right. exact Hy.
Qed.
Lemma count_mono {A} (p q : A -> bool) l :
  (forall x, In x l -> p x = true -> q x = true) -> (count p l <= count q l)%nat.
Proof.
  induction l as [|x r IH]; intros H; [apply Nat.le_refl|].
  rewrite !count_cons. pose proof (H x (or_introl eq_refl)) as Hx.
  assert (IH' : (count p r <= count q r)%nat) by (apply IH; intros y Hy; apply H; right; exact Hy).
  destruct (p x); [rewrite Hx by reflexivity; lia|destruct (q x); lia].
Qed.
Lemma count_perm {A} (p : A -> bool) l1 l2 : Permutation l1 l2 -> count p l1 = count p l2.
Proof. induction 1; rewrite ?count_cons; lia. Qed.
Lemma count_negb {A} (p : A -> bool) l : (count p l + count (fun x => negb (p x)) l)%nat = length l.
Proof. induction l as [|x r IH]; [reflexivity|]. rewrite !count_cons. cbn [length]. destruct (p x); cbn [negb]; lia. Qed.
Lemma count_all {A} (p : A -> bool) l : (forall x, In x l -> p x = true) -> count p l = length l.
Proof.
  induction l as [|x r IH]; intros H; [reflexivity|].
  rewrite count_cons, (H x (or_introl eq_refl)), IH; [reflexivity|]. intros y Hy; apply H; right; exact Hy.
Qed.
Lemma count_none {A} (p : A -> bool) l : (forall x, In x l -> p x = false) -> count p l = 0%nat.
Proof.
  induction l as [|x r IH]; intros H; [reflexivity|].
  rewrite count_cons, (H x (or_introl eq_refl)), IH; [reflexivity|]. intros y Hy; apply H; right; exact Hy.
Qed.
Lemma count_pos {A} (p : A -> bool) l : (0 < count p l)%nat <-> exists x, In x l /\ p x = true.
Proof.
  induction l as [|x r IH].
  - rewrite count_nil. split; [lia|intros (y & [] & _)].
  - rewrite count_cons. cbn [In]. destruct (p x) eqn:E.
    + split; [intros _; exists x; split; [left; reflexivity|exact E]|lia].
    + rewrite Nat.add_0_l, IH. split.
      * intros (y & Hy & Hp). exists y; split; [right; exact Hy|exact Hp].
      * intros (y & [->|Hy] & Hp); [congruence|]. exists y; split; assumption.
Qed.
Lemma count_full {A} (p : A -> bool) l : count p l = length l <-> (forall x, In x l -> p x = true).
Proof.
  split; [|apply count_all]. intros H x Hx.
  pose proof (count_negb p l) as E. destruct (p x) eqn:Ep; [reflexivity|].
  assert (0 < count (fun x => negb (p x)) l)%nat.
  { apply count_pos. exists x. split; [exact Hx|rewrite Ep; reflexivity]. }
  lia.
Qed.
Lemma count_orb_andb {A} (p q : A -> bool) l :
  (count (fun x => p x || q x) l + count (fun x => p x && q x) l = count p l + count q l)%nat.
Proof. induction l as [|x r IH]; [reflexivity|]. rewrite !count_cons. destruct (p x), (q x); cbn [orb andb]; lia. Qed.
Lemma count_map {A B} (p : B -> bool) (f : A -> B) l : count p (map f l) = count (fun x => p (f x)) l.
Proof. induction l as [|x r IH]; [reflexivity|]. cbn [map]. rewrite !count_cons, IH. reflexivity. Qed.
Lemma count_sum {A} (p : A -> bool) l : qn (count p l) = qsumf (fun x => if p x then 1 else 0) l.
Proof.
  induction l as [|x r IH]; [reflexivity|]. rewrite count_cons, qsumf_cons, <- IH, qn_plus.
  destruct (p x); [rewrite qn_1|rewrite qn_0]; reflexivity.
Qed.
Lemma qmeanf_zero_iff {A} (f : A -> Qc) l : l <> [] -> (forall x, In x l -> 0 <= f x) ->
  (qmeanf f l = 0 <-> forall x, In x l -> f x = 0).
Proof.
  intros Hl Hn. rewrite <- (qsumf_zero_iff f l Hn). rewrite <- (qmeanf_sum f l Hl).
  pose proof (qn_neq0 _ (length_pos l Hl)) as P. split.
  - intros ->. ring.
  - intros H. destruct (Qcmult_integral _ _ H) as [C|C]; [contradiction|exact C].
Qed.
