(** Model: axis handling shared by several modules, NumPy reductions over axes. *)
From Coq Require Import ZArith List Bool Arith QArith Qcanon.
From Verif Require Import QcTac QSum Num NdArr Numpy.
Import ListNotations.
Open Scope nat_scope.

(** The loop that moves the sample axes to the front:
      to_axis = 0
      for from_axis in np.sort(sample_axis):
          if from_axis != to_axis: metric = np.moveaxis(metric, from_axis, to_axis)
          to_axis += 1
    utils_verify.py 261-267 (boot_arr), 304-311 (reliability); utils_ss.py 55-63.
    [axes] is the already sorted list. *)
Fixpoint move_loop {A} (axes : list Z) (to : nat) (a : arr A) : res (arr A * nat) :=
  match axes with
  | [] => Ok (a, to)
  | ax :: r =>
      a' <- (if Z.eqb ax (Z.of_nat to) then Ok a else moveaxis ax (Z.of_nat to) a) ;;
      move_loop r (S to) a'
  end.

(** list(range(len(shape))) as axis list *)
Definition all_axes (nd : nat) : list Z := map Z.of_nat (seq 0 nd).

Fixpoint nodupb (l : list nat) : bool :=
  match l with [] => true | x :: r => negb (existsb (Nat.eqb x) r) && nodupb r end.

(** NumPy's treatment of a reduction's [axis] argument: None = all axes; every entry
    normalised (AxisError when out of range); duplicates rejected. Result: mask of reduced axes. *)
Definition np_axes (nd : nat) (ax : option (list Z)) : res (list bool) :=
  match ax with
  | None => Ok (repeat true nd)
  | Some l => ns <- mapM (norm_axis nd) l ;;
              if nodupb ns then Ok (mask_of nd ns) else Raise ValueError
  end.

(** metric.mean(axis=...) and np.nanmean(metric, axis=...) *)
Definition np_mean (ax : option (list Z)) (a : arr num) : res (arr num) :=
  m <- np_axes (length (shape a)) ax ;; Ok (reduce nmean m a).
Definition np_nanmean (ax : option (list Z)) (a : arr num) : res (arr num) :=
  m <- np_axes (length (shape a)) ax ;; Ok (reduce nanmean m a).
