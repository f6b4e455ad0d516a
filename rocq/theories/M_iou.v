(** Model of the intersection over union: utils_verify.py 501-538. *)
From Coq Require Import ZArith List Bool Arith QArith Qcanon.
From Verif Require Import QcTac QSum Num NdArr Numpy M_common M_ens.
Import ListNotations.
Open Scope nat_scope.

(** utils_verify.py 501-510.  The arrays are boolean, so the assertion on NaN holds.  np.count_nonzero over all
    axes returns a Python int, whose division by zero raises; over given axes it returns an array (or a NumPy
    scalar), where 0/0 is NaN. *)
Definition count_true (l : list bool) : nat := length (filter (fun b => b) l).
Definition ratio (i u : nat) : num := match u with 0 => NaN | _ => Fin (qn i / qn u)%Qc end.
Definition iou (f_binary o_binary : arr bool) (axis : option (list Z)) : res (arr num) :=
  let inter := amap2 andb f_binary o_binary in
  let union := amap2 orb f_binary o_binary in
  match axis with
  | None => let u := count_true (ravel union) in
            if Nat.eqb u 0 then Raise ZeroDivisionError else Ok (Arr [] (fun _ => ratio (count_true (ravel inter)) u))
  | Some _ =>
      m <- np_axes (length (shape f_binary)) axis ;;
      Ok (amap2 ratio (reduce count_true m inter) (reduce count_true m union))
  end.

(** utils_verify.py 513-524; scalar thresholds *)
Definition iou_determ (f o : arr num) (axis : option (list Z)) (over below : option num) : res (arr num) :=
  passert (list_eqb (shape f) (shape o)) ;;;
  one_threshold over below ;;;
  match over, below with
  | None, Some b => iou (amap (fun x => nlt x b) f) (amap (fun x => nlt x b) o) axis
  | Some t, _ => iou (amap (fun x => nlt t x) f) (amap (fun x => nlt t x) o) axis
  | None, None => Raise AssertionError
  end.

(** utils_verify.py 527-538 *)
Definition unit_prob (p : num) : res unit := passert (nle (Fin 0) p && nle p (Fin 1%Qc)).
Definition iou_prob (f_prob : arr num) (o_binary : arr bool) (axis : option (list Z)) (over below : option num) : res (arr num) :=
  passert (list_eqb (shape f_prob) (shape o_binary)) ;;;
  one_threshold over below ;;;
  match over, below with
  | None, Some b => unit_prob b ;;; iou (amap (fun x => nlt x b) f_prob) o_binary axis
  | Some t, _ => unit_prob t ;;; iou (amap (fun x => nlt t x) f_prob) o_binary axis
  | None, None => Raise AssertionError
  end.
