(** Property C84: which arguments and settings are accepted. *)
From Coq Require Import String Ascii QArith Qcanon ZArith Lia List Bool.
From Verif Require Import Num M_state Spec_state P_state Spec_accept P_accept Props_state.
Import ListNotations.
Open Scope string_scope.
Open Scope list_scope.
Open Scope nat_scope.

Section Oracles.
Variable lib : string -> list val -> res val.
Variable libr : string -> list val -> nat -> res val.
Variable str_of : val -> string.
Variable dumps : val -> string.
Variable loads : string -> res val.
Variable expanduser : string -> string.
Variable resolve : string -> path.
Variable points : val -> val -> val -> res (list num).
Variable less_memory : bool.
Variable integrate_wdir : option path.
Variable cwd : path.
Variable rng : nat -> nat.

Notation step := (step lib libr str_of dumps loads expanduser resolve points less_memory integrate_wdir cwd rng).
Notation construct := (construct lib expanduser resolve).
Notation acceptable := (acceptable expanduser resolve).
Notation settled := (settled expanduser).

(** A constructor returns an object exactly for acceptable arguments (and, for ensembles, if the collapse function
    works on the members along the axis found).  The object keeps every argument, with avg_axis as a tuple, "~"
    expanded, the member axis found and the collapsed ensemble. *)
Theorem c84_constructor : forall x k, disk_wf k ->
  match construct x k with
  | (Ok y, _) => acceptable x k /\ settled (put_fc (a_fc y) x) y /\
      (cl x = CEnsemble -> lib "collapse" [a_collapse x; a_f x; a_eaxis y] = Ok (a_fc y)) /\
      (cl x <> CEnsemble -> a_fc y = VNone)
  | (Raise e, _) => ~ acceptable x k \/
      (cl x = CEnsemble /\ exists ax, member_axis (arr_shape (a_f x)) (arr_shape (a_o x)) (a_eaxis x) ax /\
         lib "collapse" [a_collapse x; a_f x; ax] = Raise e)
  end.
Proof.
  intros x k WF. unfold M_state.construct.
  pose proof (validate_iff expanduser resolve (put_fc VNone x) k WF) as V.
  destruct (validate expanduser resolve (put_fc VNone x) k) as [[[u|e] y] k1]; [|left; exact V].
  destruct V as [A S].
  assert (FC : a_fc y = VNone) by (destruct S as (ax & _ & _ & _ & ->); reflexivity).
  assert (CP : a_collapse y = a_collapse x /\ a_f y = a_f x) by (destruct S as (ax & _ & _ & _ & ->); split; reflexivity).
  destruct CP as [CP1 CP2].
  assert (NE : cl x <> CEnsemble -> acceptable x k /\ settled (put_fc (a_fc y) x) y /\
      (cl x = CEnsemble -> lib "collapse" [a_collapse x; a_f x; a_eaxis y] = Ok (a_fc y)) /\
      (cl x <> CEnsemble -> a_fc y = VNone)).
  { intro N. split; [exact A|]. rewrite FC. split; [exact S|]. split; [contradiction|reflexivity]. }
  destruct (cl x) eqn:C; try (apply NE; discriminate).
  rewrite CP1, CP2. destruct (lib "collapse" [a_collapse x; a_f x; a_eaxis y]) as [v|e] eqn:L.
  - split; [exact A|]. cbn [a_fc put_fc a_eaxis]. split; [|split; [intros _; exact L|congruence]].
    destruct S as (ax & S1 & S2 & S3 & S4). exists ax. split; [exact S1|]. split; [exact S2|]. split; [exact S3|].
    rewrite S4. reflexivity.
  - right. split; [reflexivity|]. destruct S as (ax & S1 & S2 & S3 & S4). exists ax. split; [apply S2, C|].
    rewrite S4 in L. exact L.
Qed.

(** A setter the class has returns exactly when the object with the new value is acceptable, and then changes only
    the setting (normalised as by the constructor); f_collapsed stays. *)
Theorem c84_setters : forall o s x', disk_wf (dk s) -> assigned o (ob s) = Some x' ->
  match step o s with
  | (Ok v, s') => v = VNone /\ acceptable x' (dk s) /\ settled x' (ob s')
  | (Raise e, _) => ~ acceptable x' (dk s)
  end.
Proof.
  intros o s x' WF H.
  assert (E : step o s = set_and_validate expanduser resolve x' s).
  { destruct o; cbn [assigned] in H; try discriminate H; unfold M_state.step; cbv zeta;
      try (injection H as <-; reflexivity).
    all: destruct (cl (ob s)); try discriminate H; injection H as <-; reflexivity. }
  rewrite E. unfold set_and_validate.
  pose proof (validate_iff expanduser resolve x' (dk s) WF) as V.
  destruct (validate expanduser resolve x' (dk s)) as [[[u|e] y] k1]; cbn [rmap ob].
  - split; [reflexivity|exact V].
  - exact V.
Qed.
End Oracles.
Print Assumptions c84_constructor.
Print Assumptions c84_setters.

(** Witnesses: an ensemble with members first is accepted, axis 0 found; a list of axes becomes a tuple; text for
    avg_axis and a truncated hurdle forecast are refused. *)
Definition w_first : obj :=
  put_avg (VList [VInt 0; VInt 1])
  (mkObj CEnsemble (VArr [4; 2; 3] 0) (VArr [2; 3] 1) VNone VNone (VStr "w") (VBool true)
    VNone VNone (VFun 0) VNone VNone VNone VNone VNone VNone VNone).
Example c84_accepts : exists y k1, w_construct w_first w_used = (Ok y, k1) /\
  a_avg y = VTuple [VInt 0; VInt 1] /\ a_eaxis y = VInt 0 /\
  a_fc y = VTuple [VStr "collapse"; VFun 0; VArr [4; 2; 3] 0; VInt 0].
Proof. do 2 eexists. repeat split; reflexivity. Qed.
Example c84_refuses :
  (exists e k1, w_construct (put_avg (VStr "time") w_first) w_used = (Raise e, k1)) /\
  (exists e k1, w_construct (put_trunc (VBool true) w_hurdle) w_used = (Raise e, k1)) /\
  (exists e k1, w_construct (put_trunc (VInt 0) (w_gauss true)) w_used = (Raise e, k1)) /\
  (exists y k1, w_construct (w_gauss true) w_used = (Ok y, k1)) /\
  (exists y k1, w_construct w_hurdle w_used = (Ok y, k1)) /\
  disk_wf w_used.
Proof. repeat split; try (do 2 eexists; reflexivity); apply w_used_wf. Qed.
Example c84_setter_witness : exists y k1, w_construct w_first w_used = (Ok y, k1) /\
  fst (w_step (OAvg (VInt 1)) (start y k1)) = Ok VNone /\
  a_avg (ob (snd (w_step (OAvg (VInt 1)) (start y k1)))) = VTuple [VInt 1] /\
  fst (w_step (OEAxis (VInt (-1))) (start y k1)) = Raise AssertionError.
Proof. do 2 eexists. repeat split; reflexivity. Qed.
