(** Rationals inside the reals; used where the code takes square roots. *)
From Coq Require Import QArith Qcanon Qreals Reals Lra.
From Verif Require Import QcTac.
Open Scope R_scope.

Definition q2r (q : Qc) : R := Q2R (this q).
Lemma q2r_le a b : (a <= b)%Qc <-> q2r a <= q2r b.
Proof. unfold q2r, Qcle. split; [apply Qle_Rle|apply Rle_Qle]. Qed.
Lemma q2r_lt a b : (a < b)%Qc <-> q2r a < q2r b.
Proof. unfold q2r, Qclt. split; [apply Qlt_Rlt|apply Rlt_Qlt]. Qed.
Lemma q2r_plus a b : q2r (a + b)%Qc = q2r a + q2r b.
Proof. unfold q2r. rewrite (Qeq_eqR _ _ (this_plus a b)). apply Q2R_plus. Qed.
Lemma q2r_minus a b : q2r (a - b)%Qc = q2r a - q2r b.
Proof. unfold q2r. rewrite (Qeq_eqR _ _ (this_minus a b)). apply Q2R_minus. Qed.
Lemma q2r_mult a b : q2r (a * b)%Qc = q2r a * q2r b.
Proof. unfold q2r. rewrite (Qeq_eqR _ _ (this_mult a b)). apply Q2R_mult. Qed.
Lemma q2r_opp a : q2r (- a)%Qc = - q2r a.
Proof. unfold q2r. rewrite (Qeq_eqR _ _ (this_opp a)). apply Q2R_opp. Qed.
Lemma q2r_0 : q2r 0%Qc = 0. Proof. unfold q2r. apply RMicromega.Q2R_0. Qed.
Lemma q2r_1 : q2r 1%Qc = 1. Proof. unfold q2r. apply RMicromega.Q2R_1. Qed.
Lemma q2r_inj a b : q2r a = q2r b -> a = b.
Proof. intros H. apply eq_this, eqR_Qeq, H. Qed.
Lemma q2r_neq0 a : a <> 0%Qc <-> q2r a <> 0.
Proof. split; intros H E; apply H; [apply q2r_inj; rewrite E, q2r_0; reflexivity|rewrite E; apply q2r_0]. Qed.
Lemma q2r_div a b : b <> 0%Qc -> q2r (a / b)%Qc = q2r a / q2r b.
Proof.
  intros H. unfold Qcdiv, Rdiv. rewrite q2r_mult. f_equal. unfold q2r.
  rewrite (Qeq_eqR _ _ (this_inv b)). apply Q2R_inv. intros E. apply H, eq_this. exact E.
Qed.

(** np.sqrt on the model's numbers: real result, +inf, or NaN. *)
From Verif Require Import Num.
Inductive rnum := RFin (r : R) | RInf | RNaN.
Definition nsqrt (x : num) : rnum :=
  match x with
  | Fin q => if qltb q 0%Qc then RNaN else RFin (sqrt (q2r q))
  | PInf => RInf
  | NInf | NaN => RNaN
  end.
