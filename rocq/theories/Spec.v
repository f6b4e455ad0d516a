(** Independent specification vocabulary.  Nothing here refers to a model definition except the
    number and array types. *)
From Coq Require Import ZArith List Bool Arith QArith Qcanon.
From Verif Require Import QcTac QSum Num NdArr.
Import ListNotations.
Open Scope nat_scope.

(** ** Groups of cells *)
(** Python axis number [z] denotes axis [n] of an array of rank [nd]. *)
Definition axis_is (nd : nat) (z : Z) (n : nat) : Prop :=
  n < nd /\ (z = Z.of_nat n \/ z = Z.of_nat n - Z.of_nat nd)%Z.
(** the averaging argument denotes the set of axes [ns] *)
Definition axes_are (nd : nat) (ax : option (list Z)) (ns : list nat) : Prop :=
  match ax with
  | None => ns = seq 0 nd
  | Some l => Forall2 (axis_is nd) l ns /\ NoDup ns
  end.
(** coordinates of an index on the axes that are not averaged *)
Definition kept (nd : nat) (ns : list nat) (ix : list nat) : list nat :=
  map (fun j => nth j ix 0) (filter (fun j => negb (existsb (Nat.eqb j) ns)) (seq 0 nd)).
(** [L] lists, once each, the cells of an array of shape [sh] that agree with [k] on the kept axes *)
Definition Cells (sh ns k : list nat) (L : list (list nat)) : Prop :=
  NoDup L /\ forall ix, In ix L <-> (Forall2 lt ix sh /\ kept (length sh) ns ix = k).
(** mean of a list of finite numbers *)
Definition mean_of (xs : list Qc) : Qc := (fold_right Qcplus 0 xs / qn (length xs))%Qc.

(** ** Bootstrap triples *)
(** [v] is the triple (lower, mean, upper) obtained from the statistics [stats] of the resamples at the
    two quantile levels; q is the quantile function of the library. *)
Definition triple_of (quant : list num -> Qc -> res num) (lo_level hi_level : Qc) (stats v : list num) : Prop :=
  exists lo hi, quant stats lo_level = Ok lo /\ quant stats hi_level = Ok hi /\ v = [lo; nmean stats; hi].
(** the resamples: [reps] lists of [n] elements, every one taken from the population *)
Definition resamples_of {A} (pop : list A) (n reps : nat) (rs : list (list A)) : Prop :=
  length rs = reps /\ forall s, In s rs -> length s = n /\ forall x, In x s -> In x pop.

(** ** Finite values *)
Definition is_fin (x : num) : Prop := exists q, x = Fin q.
Definition val (x : num) : Qc := match x with Fin q => q | _ => 0%Qc end.

(** ** Ensembles *)
(** the members of cell [ix] of an ensemble whose member axis is axis [n] *)
Definition members_at {A} (n : nat) (f : arr A) (ix : list nat) : list A :=
  map (fun m => get f (firstn n ix ++ m :: skipn n ix)) (seq 0 (nth n (shape f) 0)).
(** shape without axis [n] *)
Definition drop_axis (n : nat) (sh : list nat) : list nat := firstn n sh ++ skipn (S n) sh.
(** number of list elements satisfying a test *)
Definition how_many {A} (p : A -> bool) (l : list A) : nat := length (filter p l).
