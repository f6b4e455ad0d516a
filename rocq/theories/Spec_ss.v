(** Specification vocabulary for the spread-skill diagram. *)
From Coq Require Import ZArith List Bool Arith QArith Qcanon Sorting.Permutation Sorting.Sorted.
From Verif Require Import QcTac QSum Num NdArr Spec.
Import ListNotations.
Open Scope nat_scope.

(** NumPy's sorting order: NaN last *)
Definition np_le (x y : num) : Prop := y = NaN \/ nle x y = true.
(** [idx] is a correct answer of np.argsort on [l]; ties may come in any order *)
Definition argsorts (l : list num) (idx : list nat) : Prop :=
  Permutation idx (seq 0 (length l)) /\ StronglySorted np_le (map (fun i => nth i l NaN) idx).
(** [Bs] are [nb] non-empty bins, together the elements of [L], in increasing order, of sizes that differ by at
    most one, the larger ones first *)
Definition ordered_bins {A} (le : A -> A -> Prop) (L : list A) (nb : nat) (Bs : list (list A)) : Prop :=
  length Bs = nb /\ Permutation (concat Bs) L /\ (forall B, In B Bs -> B <> []) /\
  (forall i j, i < j < nb -> length (nth j Bs []) <= length (nth i Bs []) <= S (length (nth j Bs []))) /\
  (forall i j x y, i < j < nb -> In x (nth i Bs []) -> In y (nth j Bs []) -> le x y).
(** the (variance, squared error) pairs in column [c] of a bin array *)
Definition bin_pairs (b : arr num) (c : nat) : list (num * num) :=
  map (fun r => (get b [r; 0; c], get b [r; 1; c])) (seq 0 (nth 0 (shape b) 0)).
