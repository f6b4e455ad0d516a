(** Exact rationals with Leibniz equality ([Qc]) and a linear/nonlinear
    arithmetic tactic for them.  Pure infrastructure: no PyAnEn code here. *)
From Coq Require Import QArith Qcanon ZArith List Lia Lqa Bool Arith.
Import ListNotations.
Open Scope Qc_scope.

(** Injections. *)
Definition qz (z : Z) : Qc := Q2Qc (inject_Z z).
Definition qn (n : nat) : Qc := qz (Z.of_nat n).

(** Boolean comparisons (executable). *)
Definition qleb (a b : Qc) : bool := Qle_bool (this a) (this b).
Definition qltb (a b : Qc) : bool := negb (qleb b a).
Definition qeqb (a b : Qc) : bool := Qeq_bool (this a) (this b).

Definition qabs (a : Qc) : Qc := if qltb a 0 then - a else a.
Definition qmin (a b : Qc) : Qc := if qleb a b then a else b.
Definition qmax (a b : Qc) : Qc := if qleb a b then b else a.

(** [this] is a morphism up to [==]. *)
Lemma this_Q2Qc q : (this (Q2Qc q) == q)%Q.
Proof. apply Qred_correct. Qed.
Lemma this_plus a b : (this (a + b)%Qc == this a + this b)%Q.
Proof. apply Qred_correct. Qed.
Lemma this_mult a b : (this (a * b)%Qc == this a * this b)%Q.
Proof. apply Qred_correct. Qed.
Lemma this_opp a : (this (- a)%Qc == - this a)%Q.
Proof. apply Qred_correct. Qed.
Lemma this_minus a b : (this (a - b)%Qc == this a - this b)%Q.
Proof. unfold Qcminus. rewrite this_plus, this_opp. reflexivity. Qed.
Lemma this_inv a : (this (/ a)%Qc == / this a)%Q.
Proof. apply Qred_correct. Qed.
Lemma this_0 : (this 0%Qc == 0)%Q. Proof. reflexivity. Qed.
Lemma this_1 : (this 1%Qc == 1)%Q. Proof. reflexivity. Qed.
Lemma this_eq a b : a = b -> (this a == this b)%Q.
Proof. intros ->. reflexivity. Qed.
Lemma this_neq a b : a <> b -> ~ (this a == this b)%Q.
Proof. intros H E. apply H, Qc_is_canon, E. Qed.
Lemma eq_this a b : (this a == this b)%Q -> a = b.
Proof. apply Qc_is_canon. Qed.

Lemma qleb_le a b : qleb a b = true <-> a <= b.
Proof. unfold qleb, Qcle. apply Qle_bool_iff. Qed.
Lemma qleb_gt a b : qleb a b = false <-> b < a.
Proof.
  unfold qleb, Qclt. split.
  - intros H. apply Qnot_le_lt. intros C. apply Qle_bool_iff in C. congruence.
  - intros H. destruct (Qle_bool (this a) (this b)) eqn:E; [|reflexivity].
    apply Qle_bool_iff in E. apply Qle_not_lt in E. contradiction.
Qed.
Lemma qltb_lt a b : qltb a b = true <-> a < b.
Proof. unfold qltb. rewrite negb_true_iff. apply qleb_gt. Qed.
Lemma qltb_ge a b : qltb a b = false <-> b <= a.
Proof. unfold qltb. rewrite negb_false_iff. apply qleb_le. Qed.
Lemma qeqb_eq a b : qeqb a b = true <-> a = b.
Proof.
  unfold qeqb. rewrite Qeq_bool_iff. split; [apply eq_this|apply this_eq].
Qed.
Lemma qeqb_neq a b : qeqb a b = false <-> a <> b.
Proof.
  split.
  - intros H E. apply qeqb_eq in E. congruence.
  - intros H. destruct (qeqb a b) eqn:E; [|reflexivity]. apply qeqb_eq in E. contradiction.
Qed.
Lemma qeqb_refl a : qeqb a a = true. Proof. apply qeqb_eq. reflexivity. Qed.
Lemma qleb_refl a : qleb a a = true. Proof. apply qleb_le, Qcle_refl. Qed.

Lemma qleb_spec a b : BoolSpec (a <= b) (b < a) (qleb a b).
Proof. destruct (qleb a b) eqn:E; constructor; [apply qleb_le|apply qleb_gt]; exact E. Qed.
Lemma qltb_spec a b : BoolSpec (a < b) (b <= a) (qltb a b).
Proof. destruct (qltb a b) eqn:E; constructor; [apply qltb_lt|apply qltb_ge]; exact E. Qed.
Lemma qeqb_spec a b : BoolSpec (a = b) (a <> b) (qeqb a b).
Proof. destruct (qeqb a b) eqn:E; constructor; [apply qeqb_eq|apply qeqb_neq]; exact E. Qed.

Ltac qc_fact pf :=
  let T := type of pf in
  lazymatch goal with
  | H : T |- _ => fail
  | _ => pose proof pf
  end.

(** Saturate with the morphism equations for every arithmetic subterm. *)
Ltac qc_term e :=
  lazymatch e with
  | Qcplus ?a ?b => qc_term a; qc_term b; try qc_fact (this_plus a b)
  | Qcminus ?a ?b => qc_term a; qc_term b; try qc_fact (this_minus a b)
  | Qcmult ?a ?b => qc_term a; qc_term b; try qc_fact (this_mult a b)
  | Qcopp ?a => qc_term a; try qc_fact (this_opp a)
  | Qcdiv ?a ?b => qc_term a; qc_term (Qcinv b); try qc_fact (this_mult a (Qcinv b))
  | Qcpower ?a 2%nat => idtac
  | Q2Qc ?q => try qc_fact (this_Q2Qc q)
  | _ => idtac
  end.

Ltac qc_unify_hyps :=
  repeat match goal with
  | H : @eq Qc ?a ?b |- _ => apply this_eq in H; qc_term a; qc_term b
  | H : Qcle ?a ?b |- _ => change (Qle (this a) (this b)) in H; qc_term a; qc_term b
  | H : Qclt ?a ?b |- _ => change (Qlt (this a) (this b)) in H; qc_term a; qc_term b
  | H : ~ (@eq Qc ?a ?b) |- _ => apply this_neq in H; qc_term a; qc_term b
  end.

Ltac qc_goal :=
  match goal with
  | |- @eq Qc ?a ?b => apply eq_this; qc_term a; qc_term b
  | |- Qcle ?a ?b => change (Qle (this a) (this b)); qc_term a; qc_term b
  | |- Qclt ?a ?b => change (Qlt (this a) (this b)); qc_term a; qc_term b
  | |- _ => idtac
  end.

Ltac qc_bools :=
  repeat match goal with
  | H : qleb _ _ = true |- _ => apply qleb_le in H
  | H : qleb _ _ = false |- _ => apply qleb_gt in H
  | H : qltb _ _ = true |- _ => apply qltb_lt in H
  | H : qltb _ _ = false |- _ => apply qltb_ge in H
  | H : qeqb _ _ = true |- _ => apply qeqb_eq in H
  | H : qeqb _ _ = false |- _ => apply qeqb_neq in H
  end.

Ltac qc_prep :=
  repeat match goal with H : _ /\ _ |- _ => destruct H end;
  unfold Qcdiv in *; qc_bools; qc_unify_hyps; qc_goal;
  change (this (Q2Qc 0)) with 0%Q in *; change (this (Q2Qc 1)) with 1%Q in *.
(** Linear arithmetic over [Qc]. *)
Ltac qlra := intros; qc_prep; lra.
Ltac qnra := intros; qc_prep; nra.

Example qlra_test (a b c : Qc) : a <= b -> b < c -> a + 1 < c + 1 + 0.
Proof. qlra. Qed.
Example qlra_test2 (a b c : Qc) : a = b -> b + b = c -> c - a = b.
Proof. qlra. Qed.
Example qnra_test (a : Qc) : 0 <= a * a.
Proof. qnra. Qed.

(** Facts about injections. *)
Lemma qz_plus a b : qz (a + b) = qz a + qz b.
Proof. apply eq_this. unfold qz. rewrite this_plus, !this_Q2Qc, inject_Z_plus. reflexivity. Qed.
Lemma qz_mult a b : qz (a * b) = qz a * qz b.
Proof. apply eq_this. unfold qz. rewrite this_mult, !this_Q2Qc, inject_Z_mult. reflexivity. Qed.
Lemma qz_opp a : qz (- a) = - qz a.
Proof. apply eq_this. unfold qz. rewrite this_opp, !this_Q2Qc, inject_Z_opp. reflexivity. Qed.
Lemma qz_le a b : (a <= b)%Z <-> qz a <= qz b.
Proof. unfold qz, Qcle. rewrite !this_Q2Qc. rewrite Zle_Qle. reflexivity. Qed.
Lemma qz_lt a b : (a < b)%Z <-> qz a < qz b.
Proof. unfold qz, Qclt. rewrite !this_Q2Qc. rewrite Zlt_Qlt. reflexivity. Qed.
Lemma qz_inj a b : qz a = qz b -> a = b.
Proof.
  intros H. apply this_eq in H. unfold qz in H. rewrite !this_Q2Qc in H.
  unfold Qeq, inject_Z in H. simpl in H. lia.
Qed.
Lemma qn_0 : qn 0 = 0. Proof. reflexivity. Qed.
Lemma qn_1 : qn 1 = 1. Proof. reflexivity. Qed.
Lemma qn_S n : qn (S n) = 1 + qn n.
Proof. unfold qn. rewrite Nat2Z.inj_succ. unfold Z.succ. rewrite Z.add_comm, qz_plus. reflexivity. Qed.
Lemma qn_plus a b : qn (a + b) = qn a + qn b.
Proof. unfold qn. rewrite Nat2Z.inj_add, qz_plus. reflexivity. Qed.
Lemma qn_mult a b : qn (a * b) = qn a * qn b.
Proof. unfold qn. rewrite Nat2Z.inj_mul, qz_mult. reflexivity. Qed.
Lemma qn_le a b : (a <= b)%nat <-> qn a <= qn b.
Proof. unfold qn. rewrite <- qz_le. lia. Qed.
Lemma qn_lt a b : (a < b)%nat <-> qn a < qn b.
Proof. unfold qn. rewrite <- qz_lt. lia. Qed.
Lemma qn_inj a b : qn a = qn b -> a = b.
Proof. intros H. apply qz_inj in H. lia. Qed.
Lemma qn_nonneg n : 0 <= qn n.
Proof. rewrite <- qn_0. apply qn_le. lia. Qed.
Lemma qn_pos n : (0 < n)%nat -> 0 < qn n.
Proof. intros H. rewrite <- qn_0. apply qn_lt. lia. Qed.
Lemma qn_neq0 n : (0 < n)%nat -> qn n <> 0.
Proof. intros H E. apply qn_pos in H. rewrite E in H. revert H. apply Qcle_not_lt, Qcle_refl. Qed.

(** Order facts used as lemmas. *)
Lemma Qcinv_pos a : 0 < a -> 0 < / a.
Proof. unfold Qclt. intros H. rewrite this_inv. change (this 0) with 0%Q in *. apply Qinv_lt_0_compat, H. Qed.
Lemma Qcmult_inv_r_pos a : 0 < a -> a * / a = 1.
Proof. intros H. apply Qcmult_inv_r. intros E. rewrite E in H. revert H. apply Qcle_not_lt, Qcle_refl. Qed.
Lemma Qcdiv_le_iff a b c : 0 < b -> (a / b <= c <-> a <= c * b).
Proof.
  intros Hb. pose proof (Qcinv_pos b Hb) as Hi. pose proof (Qcmult_inv_r_pos b Hb) as Hm.
  unfold Qcdiv. split; intros H.
  - assert (E : a = a * / b * b) by (rewrite <- Qcmult_assoc, (Qcmult_comm (/ b)), Hm; ring).
    rewrite E. apply Qcmult_le_compat_r; [exact H|apply Qclt_le_weak, Hb].
  - assert (E : c = c * b * / b) by (rewrite <- Qcmult_assoc, Hm; ring).
    rewrite E. apply Qcmult_le_compat_r; [exact H|apply Qclt_le_weak, Hi].
Qed.
Lemma Qcle_div_iff a b c : 0 < b -> (c <= a / b <-> c * b <= a).
Proof.
  intros Hb. pose proof (Qcinv_pos b Hb) as Hi. pose proof (Qcmult_inv_r_pos b Hb) as Hm.
  unfold Qcdiv. split; intros H.
  - assert (E : a = a * / b * b) by (rewrite <- Qcmult_assoc, (Qcmult_comm (/ b)), Hm; ring).
    rewrite E. apply Qcmult_le_compat_r; [exact H|apply Qclt_le_weak, Hb].
  - assert (E : c = c * b * / b) by (rewrite <- Qcmult_assoc, Hm; ring).
    rewrite E. apply Qcmult_le_compat_r; [exact H|apply Qclt_le_weak, Hi].
Qed.
Lemma Qclt_div_iff a b c : 0 < b -> (c < a / b <-> c * b < a).
Proof.
  intros Hb. split; intros H; apply Qcnot_le_lt; intros C.
  - apply (Qcdiv_le_iff a b c Hb) in C. apply Qcle_not_lt in C. contradiction.
  - apply (Qcdiv_le_iff a b c Hb) in C. apply Qcle_not_lt in C. contradiction.
Qed.
Lemma Qcdiv_lt_iff a b c : 0 < b -> (a / b < c <-> a < c * b).
Proof.
  intros Hb. split; intros H; apply Qcnot_le_lt; intros C.
  - apply (Qcle_div_iff a b c Hb) in C. apply Qcle_not_lt in C. contradiction.
  - apply (Qcle_div_iff a b c Hb) in C. apply Qcle_not_lt in C. contradiction.
Qed.
Lemma Qcdiv_nonneg a b : 0 <= a -> 0 < b -> 0 <= a / b.
Proof. intros Ha Hb. apply Qcle_div_iff; [exact Hb|]. rewrite Qcmult_0_l. exact Ha. Qed.
Lemma qsq_nonneg a : 0 <= a * a. Proof. qnra. Qed.
Lemma qsq_zero a : a * a = 0 -> a = 0.
Proof. intros H. destruct (Qcmult_integral _ _ H); assumption. Qed.

Lemma qabs_nonneg a : 0 <= qabs a.
Proof. unfold qabs. destruct (qltb_spec a 0); qlra. Qed.
Lemma qabs_ge a : a <= qabs a.
Proof. unfold qabs. destruct (qltb_spec a 0); qlra. Qed.
Lemma qabs_ge_neg a : - a <= qabs a.
Proof. unfold qabs. destruct (qltb_spec a 0); qlra. Qed.
Lemma qabs_triangle a b : qabs (a + b) <= qabs a + qabs b.
Proof. unfold qabs. destruct (qltb_spec (a+b) 0), (qltb_spec a 0), (qltb_spec b 0); qlra. Qed.
Lemma qabs_sq a : qabs a * qabs a = a * a.
Proof. unfold qabs. destruct (qltb_spec a 0); ring. Qed.
Lemma qabs_zero a : qabs a = 0 <-> a = 0.
Proof. unfold qabs. destruct (qltb_spec a 0); split; qlra. Qed.
Lemma qabs_opp a : qabs (- a) = qabs a.
Proof. unfold qabs. destruct (qltb_spec (-a) 0), (qltb_spec a 0); qlra. Qed.
Lemma qabs_mult a b : qabs (a * b) = qabs a * qabs b.
Proof.
  unfold qabs. destruct (qltb_spec (a*b) 0), (qltb_spec a 0), (qltb_spec b 0); try ring.
  all: try qnra.
Qed.
Lemma qabs_pos_id a : 0 <= a -> qabs a = a.
Proof. unfold qabs. destruct (qltb_spec a 0); qlra. Qed.
Lemma qabs_le a b : qabs a <= b <-> (- b <= a /\ a <= b).
Proof. unfold qabs. destruct (qltb_spec a 0); split; intros; try split; qlra. Qed.

(** Closed equations between structures of rationals. *)
Ltac qcomp := vm_compute; repeat (first [reflexivity | match goal with |- @eq Qc _ _ => apply Qc_is_canon; reflexivity end | f_equal]).
