(** Which arguments a verification object accepts, and the object one gets. *)
From Coq Require Import String ZArith List Bool.
From Verif Require Import Num M_state.
Import ListNotations.
Open Scope string_scope.
Open Scope list_scope.

(** isinstance *)
Inductive int_like : val -> Prop :=
| an_int z : int_like (VInt z)
| a_bool b : int_like (VBool b).            (* bool is a subclass of int *)
Inductive bool_like : val -> Prop := only_bool b : bool_like (VBool b).
Definition optional (P : val -> Prop) (v : val) : Prop := v = VNone \/ P v.

(** avg_axis: None, an int, a list or a tuple; kept as a tuple. *)
Inductive axis_arg : val -> val -> Prop :=
| axis_none : axis_arg VNone VNone
| axis_int v : int_like v -> axis_arg v (VTuple [v])
| axis_list l : axis_arg (VList l) (VTuple l)
| axis_tuple l : axis_arg (VTuple l) (VTuple l).

(** The directory can be used: it is there, or nothing is there and no part of the path is a file.  With
    start_from_scratch=False even a file is let through. *)
Definition usable (k : disk) (d : path) (scratch : bool) : Prop :=
  isdir k d = true \/
  (file k d <> None /\ scratch = false) \/
  (isdir k d = false /\ file k d = None /\ forall a b, d = a ++ b -> b <> [] -> file k a = None).

(** The shape without one axis. *)
Definition without (i : nat) (sh : list nat) : list nat := firstn i sh ++ skipn (S i) sh.
(** An axis number, possibly negative, of an array with [n] axes. *)
Definition names_axis (z : Z) (n i : nat) : Prop :=
  i < n /\ (z = Z.of_nat i \/ z = Z.of_nat i - Z.of_nat n)%Z.
(** The member axis: the first or the last one, and the other axes are those of the observations. *)
Inductive member_axis (fs os : list nat) : val -> val -> Prop :=
| axis_given v i : int_like v -> names_axis (int_of v) (length fs) i -> i = 0 \/ S i = length fs ->
    os = without i fs -> member_axis fs os v v
| axis_last n : fs = os ++ [n] -> member_axis fs os VNone (VInt (-1))
| axis_first n : fs = n :: os -> (forall m, fs <> os ++ [m]) -> member_axis fs os VNone (VInt 0).

(** The forecasts. *)
Definition arrays_of_shape (l : list (string * val)) (sh : list nat) : Prop :=
  forall k v, In (k, v) l -> exists i, v = VArr sh i.
Definition has_fields (l : list (string * val)) (ks : list string) : Prop :=
  forall k, In k ks -> exists v, In (k, v) l.
Definition forecasts_ok (x : obj) : Prop :=
  exists sh i, a_o x = VArr sh i /\
  match cl x with
  | CDeterm => exists j, a_f x = VArr sh j
  | CEnsemble => exists fs j ax g, a_f x = VArr fs j /\ member_axis fs sh (a_eaxis x) ax /\ a_collapse x = VFun g
  | CGamma => exists l, a_f x = VDict l /\ arrays_of_shape l sh /\ has_fields l ["mu"; "sigma"; "shift"; "unshifted_mu"]
  | CGaussian => exists l, a_f x = VDict l /\ arrays_of_shape l sh /\ has_fields l ["mu"; "sigma"]
  | CHurdle => exists l, a_f x = VDict l /\ has_fields l ["pop"; "mu"; "sigma"]
  end.
(** The settings of the probabilistic classes. *)
Definition prob_ok (x : obj) : Prop :=
  int_like (a_move x) /\ bool_like (a_pitr x) /\ optional int_like (a_members x) /\
  optional (fun v => exists q, v = VFloat q) (a_clip x) /\ bool_like (a_trunc x) /\
  (cl x = CHurdle -> a_trunc x = VBool false /\ int_like (a_bins x) /\
     optional (fun v => exists a b, v = VTuple [a; b] \/ v = VList [a; b]) (a_range x)).

Section Dirs.
Variable expanduser : string -> string.
Variable resolve : string -> path.

Definition directory_ok (x : obj) (k : disk) : Prop :=
  truthy (a_wd x) = true ->
  exists s b, a_wd x = VStr s /\ a_scratch x = VBool b /\ usable k (resolve (expanduser s)) b.

(** Everything that is required. *)
Definition acceptable (x : obj) (k : disk) : Prop :=
  (exists v, axis_arg (a_avg x) v) /\ optional int_like (a_boot x) /\ bool_like (a_scratch x) /\
  directory_ok x k /\ forecasts_ok x /\ (is_prob (cl x) = true -> prob_ok x).

(** The object after the checks: avg_axis as a tuple, "~" expanded, the member axis found; nothing else changes. *)
Definition settled (x y : obj) : Prop :=
  exists ax, axis_arg (a_avg x) (a_avg y) /\
  (cl x = CEnsemble -> member_axis (arr_shape (a_f x)) (arr_shape (a_o x)) (a_eaxis x) ax) /\
  (cl x <> CEnsemble -> ax = a_eaxis x) /\
  y = mkObj (cl x) (a_f x) (a_o x) (a_avg y) (a_boot x)
        match a_wd x with VStr s => if String.eqb s "" then VStr s else VStr (expanduser s) | v => v end
        (a_scratch x) (a_fc x) ax (a_collapse x) (a_trunc x) (a_members x) (a_clip x) (a_move x) (a_pitr x)
        (a_bins x) (a_range x).
End Dirs.

(** What a setter assigns; None if the class has no such setter. *)
Definition assigned (o : op) (x : obj) : option obj :=
  let when (b : bool) y := if b then Some y else None in
  match o with
  | OMetric _ _ | ORmse _ | ONoBoot | ONoSave => None
  | OAvg v => Some (put_avg v x)
  | OBoot v => Some (put_boot v x)
  | OSave wd sc => Some (put_wd wd (put_scratch sc x))
  | OEAxis v => when (match cl x with CEnsemble => true | _ => false end) (put_eaxis v x)
  | OCollapse v => when (match cl x with CEnsemble => true | _ => false end) (put_collapse v x)
  | OMove v => when (is_prob (cl x)) (put_move v x)
  | OMembers v => when (is_prob (cl x)) (put_members v x)
  | OClip v => when (is_prob (cl x)) (put_clip v x)
  | OTrunc v => when (is_prob (cl x)) (put_trunc v x)
  | OBins v => when (match cl x with CHurdle => true | _ => false end) (put_bins v x)
  | ORange a b => when (match cl x with CHurdle => true | _ => false end) (put_range (VTuple [a; b]) x)
  end.
