(** Model of float64 scalars: exact rationals extended with infinities and NaN.
    Rounding and signed zeros are not modelled (see DESIGN.md section 3).
    Also the exception monad used for Python exceptions. *)
From Coq Require Import QArith Qcanon ZArith List Lia Lqa Bool Arith Permutation.
From Verif Require Import QcTac QSum.
Import ListNotations.
Open Scope Qc_scope.

(** Python exceptions that the modelled code can raise. *)
Inductive exn :=
| AssertionError | ValueError | IndexError | AxisError | TypeError | KeyError
| AttributeError | RuntimeError | NotImplementedError | ZeroDivisionError
| EOFError | UnpicklingError | FileNotFoundError | NotADirectoryError
| IsADirectoryError | PlainException.

Inductive res (A : Type) := Ok (a : A) | Raise (e : exn).
Arguments Ok {A} _. Arguments Raise {A} _.
Definition bind {A B} (r : res A) (f : A -> res B) : res B :=
  match r with Ok a => f a | Raise e => Raise e end.
Definition rmap {A B} (f : A -> B) (r : res A) : res B :=
  match r with Ok a => Ok (f a) | Raise e => Raise e end.
Definition passert (b : bool) : res unit := if b then Ok tt else Raise AssertionError.
Notation "x <- r ;; k" := (bind r (fun x => k)) (at level 63, r at next level, right associativity).
Notation "r ;;; k" := (bind r (fun _ => k)) (at level 63, right associativity).
Fixpoint mapM {A B} (f : A -> res B) (l : list A) : res (list B) :=
  match l with
  | [] => Ok []
  | x :: r => y <- f x ;; ys <- mapM f r ;; Ok (y :: ys)
  end.

Inductive num := Fin (q : Qc) | PInf | NInf | NaN.

Definition is_nan (x : num) : bool := match x with NaN => true | _ => false end.

(** Sign of a rational as used for multiplication by an infinity. *)
Definition inf_sign (neg : bool) : num := if neg then NInf else PInf.
Definition qneg (a : Qc) : bool := qltb a 0.

Definition nopp (a : num) : num :=
  match a with Fin x => Fin (- x) | PInf => NInf | NInf => PInf | NaN => NaN end.
Definition nadd (a b : num) : num :=
  match a, b with
  | NaN, _ | _, NaN => NaN
  | Fin x, Fin y => Fin (x + y)
  | PInf, NInf | NInf, PInf => NaN
  | PInf, _ | _, PInf => PInf
  | NInf, _ | _, NInf => NInf
  end.
Definition nsub (a b : num) : num := nadd a (nopp b).
Definition nmul (a b : num) : num :=
  match a, b with
  | NaN, _ | _, NaN => NaN
  | Fin x, Fin y => Fin (x * y)
  | Fin x, PInf | PInf, Fin x => if qeqb x 0 then NaN else inf_sign (qneg x)
  | Fin x, NInf | NInf, Fin x => if qeqb x 0 then NaN else inf_sign (negb (qneg x))
  | PInf, PInf | NInf, NInf => PInf
  | PInf, NInf | NInf, PInf => NInf
  end.
(** IEEE division with an unsigned zero. *)
Definition ndiv (a b : num) : num :=
  match a, b with
  | NaN, _ | _, NaN => NaN
  | Fin x, Fin y => if qeqb y 0 then (if qeqb x 0 then NaN else inf_sign (qneg x)) else Fin (x / y)
  | Fin _, _ => Fin 0
  | PInf, Fin y => inf_sign (qneg y)
  | NInf, Fin y => inf_sign (negb (qneg y))
  | _, _ => NaN
  end.
Definition nabs (a : num) : num :=
  match a with Fin x => Fin (qabs x) | NaN => NaN | _ => PInf end.
Definition nsq (a : num) : num := nmul a a.

(** Comparisons: every comparison with NaN is false. *)
Definition nle (a b : num) : bool :=
  match a, b with
  | NaN, _ | _, NaN => false
  | Fin x, Fin y => qleb x y
  | NInf, _ | _, PInf => true
  | _, _ => false
  end.
Definition nlt (a b : num) : bool :=
  match a, b with
  | NaN, _ | _, NaN => false
  | Fin x, Fin y => qltb x y
  | PInf, _ | _, NInf => false
  | _, _ => true
  end.
Definition neqb (a b : num) : bool :=
  match a, b with
  | Fin x, Fin y => qeqb x y
  | PInf, PInf | NInf, NInf => true
  | _, _ => false
  end.

Definition b2n (b : bool) : num := if b then Fin 1 else Fin 0.
Definition nnat (n : nat) : num := Fin (qn n).

(** np.sum / np.mean / np.nanmean of a flat list of values. *)
Fixpoint nsum (l : list num) : num := match l with [] => Fin 0 | x :: r => nadd x (nsum r) end.
Definition nmean (l : list num) : num := ndiv (nsum l) (nnat (length l)).
Definition nanmean (l : list num) : num := nmean (filter (fun x => negb (is_nan x)) l).

(** np.max / np.min (NaN propagates) and np.nanmax / np.nanmin of a non-empty list. *)
Definition nmax2 (a b : num) : num :=
  if is_nan a || is_nan b then NaN else if nle a b then b else a.
Definition nmin2 (a b : num) : num :=
  if is_nan a || is_nan b then NaN else if nle a b then a else b.
Definition nmaximum (l : list num) : res num :=
  match l with [] => Raise ValueError | x :: r => Ok (fold_left nmax2 r x) end.
Definition nminimum (l : list num) : res num :=
  match l with [] => Raise ValueError | x :: r => Ok (fold_left nmin2 r x) end.
Definition nannmax (l : list num) : res num :=
  match l with
  | [] => Raise ValueError
  | _ => match filter (fun x => negb (is_nan x)) l with [] => Ok NaN | l' => nmaximum l' end
  end.
Definition nannmin (l : list num) : res num :=
  match l with
  | [] => Raise ValueError
  | _ => match filter (fun x => negb (is_nan x)) l with [] => Ok NaN | l' => nminimum l' end
  end.

(** ** Facts *)
Lemma nsum_fin xs : nsum (map Fin xs) = Fin (qsum xs).
Proof. induction xs as [|x r IH]; [reflexivity|]. cbn [map nsum qsum]. rewrite IH. reflexivity. Qed.
Lemma nmean_fin xs : xs <> [] -> nmean (map Fin xs) = Fin (qmean xs).
Proof.
  intros H. unfold nmean. rewrite nsum_fin, map_length. unfold nnat, ndiv.
  destruct (qeqb_spec (qn (length xs)) 0) as [E|E].
  - exfalso. revert E. apply qn_neq0, length_pos, H.
  - reflexivity.
Qed.
Lemma nmean_nil : nmean [] = NaN. Proof. reflexivity. Qed.
Lemma nadd_nan_r a : nadd a NaN = NaN. Proof. destruct a; reflexivity. Qed.
Lemma nsum_nan l : In NaN l -> nsum l = NaN.
Proof.
  induction l as [|x r IH]; intros []; cbn [nsum].
  - subst x. reflexivity.
  - rewrite IH by assumption. apply nadd_nan_r.
Qed.
Lemma nmean_nan l : In NaN l -> nmean l = NaN.
Proof. intros H. unfold nmean. rewrite (nsum_nan l H). reflexivity. Qed.
Lemma filter_nan_fin xs : filter (fun x => negb (is_nan x)) (map Fin xs) = map Fin xs.
Proof. induction xs as [|x r IH]; [reflexivity|]. cbn. rewrite IH. reflexivity. Qed.
Lemma nanmean_fin xs : xs <> [] -> nanmean (map Fin xs) = Fin (qmean xs).
Proof. intros H. unfold nanmean. rewrite filter_nan_fin. apply nmean_fin, H. Qed.
Lemma nadd_comm a b : nadd a b = nadd b a.
Proof. destruct a, b; try reflexivity. cbn. f_equal. ring. Qed.
Lemma nadd_assoc a b c : nadd a (nadd b c) = nadd (nadd a b) c.
Proof. destruct a, b, c; try reflexivity. cbn. f_equal. ring. Qed.
Lemma nsum_perm l1 l2 : Permutation l1 l2 -> nsum l1 = nsum l2.
Proof.
  induction 1 as [|x a b _ IH|x y a|a b c _ IH1 _ IH2]; cbn [nsum]; try congruence.
  rewrite !nadd_assoc, (nadd_comm x y). reflexivity.
Qed.
Lemma nmean_perm l1 l2 : Permutation l1 l2 -> nmean l1 = nmean l2.
Proof. intros H. unfold nmean. rewrite (nsum_perm _ _ H), (Permutation_length H). reflexivity. Qed.
Lemma nlt_fin a b : nlt (Fin a) (Fin b) = qltb a b. Proof. reflexivity. Qed.
Lemma nle_fin a b : nle (Fin a) (Fin b) = qleb a b. Proof. reflexivity. Qed.
Lemma nlt_nle a b : is_nan a = false -> is_nan b = false -> nlt a b = negb (nle b a).
Proof. destruct a, b; intros; try discriminate; reflexivity. Qed.
Lemma nle_refl a : is_nan a = false -> nle a a = true.
Proof. destruct a; intros; try discriminate; try reflexivity. cbn. apply qleb_refl. Qed.

Lemma mapM_ok {A B} (f : A -> res B) (g : A -> B) l :
  (forall x, In x l -> f x = Ok (g x)) -> mapM f l = Ok (map g l).
Proof.
  induction l as [|x r IH]; intros H; [reflexivity|]. cbn [mapM map].
  rewrite (H x (or_introl eq_refl)). cbn [bind]. rewrite IH; [reflexivity|].
  intros y Hy. apply H. right. exact Hy.
Qed.
Lemma mapM_inv {A B} (f : A -> res B) l ys :
  mapM f l = Ok ys -> Forall2 (fun x y => f x = Ok y) l ys.
Proof.
  revert ys. induction l as [|x r IH]; cbn [mapM]; intros ys H.
  - injection H as <-. constructor.
  - destruct (f x) eqn:E; [|discriminate]. cbn [bind] in H.
    destruct (mapM f r) eqn:E2; [|discriminate]. cbn [bind] in H. injection H as <-.
    constructor; [exact E|apply IH; reflexivity].
Qed.
