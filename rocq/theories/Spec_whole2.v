(** Words for C91 and C93: reading the curves of a reliability diagram off the returned Python value. *)
From Coq Require Import String ZArith List QArith Qcanon.
From Verif Require Import QcTac Num NdArr M_state M_whole P_whole.
Import ListNotations.
Open Scope string_scope.
Open Scope list_scope.
Open Scope nat_scope.

(** a vector with these entries *)
Definition vector_is (v : val) (l : list num) : Prop :=
  arr_shape v = [length l] /\ forall j, j < length l -> reads v [j] = nth j l NaN.
(** the entries belonging to the slice [k] of the kept axes [ks]: the last axis of an array, or, if the slices have
    different numbers of points, one of the vectors in an array of vectors (given by its shape and its entries) *)
Definition curve_at (ks : list nat) (v : val) (k : list nat) (l : list num) : Prop :=
  (arr_shape v = ks ++ [length l] /\ forall j, j < length l -> reads v (k ++ [j]) = nth j l NaN) \/
  (ks <> [] /\ exists rows r, v = VTuple [VTuple (map (fun n => VInt (Z.of_nat n)) (ks ++ [1])); VList rows] /\
     length rows = prod ks /\ nth_error rows (flat ks k) = Some r /\ vector_is r l).
(** counts: a labelled series when there is only one slice, otherwise as above *)
Definition counts_at (ks : list nat) (v : val) (k : list nat) (labels : list Z) (l : list nat) : Prop :=
  match ks with
  | [] => exists i w, v = VDict [("index", i); ("values", w)] /\ vector_is i (map (fun z => Fin (qz z)) labels) /\ vector_is w (map nnat l)
  | _ => curve_at ks v k (map nnat l)
  end.
