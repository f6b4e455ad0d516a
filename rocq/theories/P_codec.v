(** A concrete codec for Python values: shows that the assumptions made about
    pickle and [str] in Spec_state.v can be met.  A value is numbered by a
    positive number and written bit by bit, closed by "e". *)
From Coq Require Import String Ascii QArith Qcanon ZArith List.
From stdpp Require Import base decidable countable strings numbers.
From Verif Require Import Num M_state Spec_state.

Global Instance num_eq_dec : EqDecision num.
Proof. solve_decision. Defined.
Definition num_code (x : num) : Qc + nat :=
  match x with Fin q => inl q | PInf => inr 0%nat | NInf => inr 1%nat | NaN => inr 2%nat end.
Definition num_decode (c : Qc + nat) : num :=
  match c with inl q => Fin q | inr 0%nat => PInf | inr 1%nat => NInf | inr _ => NaN end.
Global Instance num_countable : Countable num.
Proof. refine (inj_countable' num_code num_decode _). intros []; reflexivity. Defined.

Definition leaf := (bool + Z + num + string + list nat + nat)%type.
Definition lb (b : bool) : leaf := inl (inl (inl (inl (inl b)))).
Definition lz (z : Z) : leaf := inl (inl (inl (inl (inr z)))).
Definition lf (x : num) : leaf := inl (inl (inl (inr x))).
Definition ls (s : string) : leaf := inl (inl (inr s)).
Definition ll (l : list nat) : leaf := inl (inr l).
Definition ln (n : nat) : leaf := inr n.

Fixpoint to_tree (v : val) : gen_tree leaf :=
  match v with
  | VNone => GenNode 0 []
  | VBool b => GenNode 1 [GenLeaf (lb b)]
  | VInt z => GenNode 2 [GenLeaf (lz z)]
  | VFloat x => GenNode 3 [GenLeaf (lf x)]
  | VStr s => GenNode 4 [GenLeaf (ls s)]
  | VTuple l => GenNode 5 (List.map to_tree l)
  | VList l => GenNode 6 (List.map to_tree l)
  | VArr sh d => GenNode 7 [GenLeaf (ll sh); GenLeaf (ln d)]
  | VDict l => GenNode 8 (List.map (fun p => GenNode 0 [GenLeaf (ls (fst p)); to_tree (snd p)]) l)
  | VFun f => GenNode 9 [GenLeaf (ln f)]
  | VOther n => GenNode 10 [GenLeaf (ln n)]
  end.
Fixpoint of_tree (t : gen_tree leaf) : val :=
  match t with
  | GenNode 0 _ => VNone
  | GenNode 1 [GenLeaf (inl (inl (inl (inl (inl b)))))] => VBool b
  | GenNode 2 [GenLeaf (inl (inl (inl (inl (inr z)))))] => VInt z
  | GenNode 3 [GenLeaf (inl (inl (inl (inr x))))] => VFloat x
  | GenNode 4 [GenLeaf (inl (inl (inr s)))] => VStr s
  | GenNode 5 l => VTuple (List.map of_tree l)
  | GenNode 6 l => VList (List.map of_tree l)
  | GenNode 7 [GenLeaf (inl (inr sh)); GenLeaf (inr d)] => VArr sh d
  | GenNode 8 l => VDict (List.map (fun t =>
      match t with GenNode _ [GenLeaf (inl (inl (inr s))); u] => (s, of_tree u) | _ => (EmptyString, VNone) end) l)
  | GenNode 9 [GenLeaf (inr f)] => VFun f
  | GenNode 10 [GenLeaf (inr n)] => VOther n
  | _ => VNone
  end.
Lemma of_to_tree : forall v, of_tree (to_tree v) = v.
Proof.
  fix IH 1. intros []; simpl; try reflexivity.
  - f_equal. induction l as [|a l IHl]; simpl; [reflexivity|]. f_equal; [apply IH|exact IHl].
  - f_equal. induction l as [|a l IHl]; simpl; [reflexivity|]. f_equal; [apply IH|exact IHl].
  - f_equal. induction l as [|[s a] l IHl]; simpl; [reflexivity|]. f_equal; [|exact IHl].
    f_equal. apply IH.
Qed.
Global Instance val_eq_dec : EqDecision val.
Proof.
  intros v w. destruct (decide (to_tree v = to_tree w)) as [E|E].
  - left. rewrite <- (of_to_tree v), <- (of_to_tree w), E. reflexivity.
  - right. congruence.
Defined.
Global Instance val_countable : Countable val.
Proof. exact (inj_countable' to_tree of_tree of_to_tree). Defined.

Local Open Scope string_scope.
Fixpoint bits (p : positive) : string :=
  match p with
  | xH => "e"
  | xO p => String "0" (bits p)
  | xI p => String "1" (bits p)
  end.
Fixpoint unbits (s : string) : option positive :=
  match s with
  | EmptyString => None
  | String c r =>
      if Ascii.eqb c "e" then match r with EmptyString => Some xH | _ => None end
      else if Ascii.eqb c "0" then option_map xO (unbits r)
      else if Ascii.eqb c "1" then option_map xI (unbits r)
      else None
  end.
Lemma unbits_bits p : unbits (bits p) = Some p.
Proof. induction p; simpl; rewrite ?IHp; reflexivity. Qed.
Lemma unbits_cut p : forall s, cut_short s (bits p) -> unbits s = None.
Proof.
  induction p; intros s (c & r & E); simpl in E.
  - destruct s as [|a s]; [reflexivity|]. simpl in E. injection E as <- E. simpl.
    rewrite (IHp s); [reflexivity|]. exists c, r. exact E.
  - destruct s as [|a s]; [reflexivity|]. simpl in E. injection E as <- E. simpl.
    rewrite (IHp s); [reflexivity|]. exists c, r. exact E.
  - destruct s as [|a s]; [reflexivity|]. simpl in E. injection E as <- E. destruct s; discriminate.
Qed.

Definition w_dumps (v : val) : string := bits (encode v).
Definition w_loads (s : string) : res val :=
  match unbits s with
  | Some p => match decode p with Some v => Ok v | None => Raise UnpicklingError end
  | None => Raise UnpicklingError
  end.
Lemma w_pickle : pickle_faithful w_dumps w_loads.
Proof.
  split.
  - intro v. unfold w_loads, w_dumps. rewrite unbits_bits, decode_encode. reflexivity.
  - intros v b H. exists UnpicklingError. unfold w_loads. rewrite (unbits_cut _ _ H). reflexivity.
Qed.

(** The same text as [str], except that arrays are printed without their
    content (numpy rounds the printed digits and elides long arrays). *)
Definition w_str (v : val) : string :=
  match v with
  | VArr sh _ => "[]"
  | _ => bits (encode v)
  end.
Lemma us_bits p : us (bits p) = bits p.
Proof. induction p; simpl; rewrite ?IHp; reflexivity. Qed.
Lemma w_text : text_faithful w_str.
Proof.
  split.
  - intros v G. assert (B : forall p, number_text (bits p)).
    { induction p; simpl; unfold number_text in *; simpl; (constructor; [|try exact IHp; constructor]).
      - right. left. reflexivity.
      - left. reflexivity.
      - vm_compute. tauto. }
    destruct v; try contradiction; apply B.
  - intros v w Gv Gw E.
    assert (V : us (w_str v) = bits (encode v)) by (destruct v; try contradiction; apply us_bits).
    assert (W : us (w_str w) = bits (encode w)) by (destruct w; try contradiction; apply us_bits).
    rewrite V, W in E. apply (f_equal unbits) in E. rewrite !unbits_bits in E. injection E as E.
    apply (f_equal (decode (A:=val))) in E. rewrite !decode_encode in E. congruence.
Qed.
Print Assumptions w_text.
Print Assumptions w_pickle.
