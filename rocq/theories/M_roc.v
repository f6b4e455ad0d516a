(** Model of the ROC curve: utils_verify.py 202-217 (calculate_roc) with sklearn.metrics.roc_curve and auc
    (sklearn 1.0-1.2, drop_intermediate=True, no weights), as called by VerifyEnsemble.py 146-152 and
    VerifyProb.py 142-148.
    Simplified: exact arithmetic (stable_cumsum adds zeros and ones); arrays with the same number of elements; the returned
    thresholds are left out (calculate_roc drops them). *)
From Coq Require Import ZArith List Bool Arith QArith Qcanon.
From Verif Require Import QcTac QSum Num NdArr M_common M_ens.
Import ListNotations.
Open Scope nat_scope.

(** (y_score, y_true) *)
Notation scored := (Qc * bool)%type.
(** np.argsort(y_score, kind="mergesort") *)
Fixpoint pins (x : scored) (l : list scored) : list scored :=
  match l with [] => [x] | y :: r => if qleb (fst x) (fst y) then x :: l else y :: pins x r end.
Fixpoint psort (l : list scored) : list scored := match l with [] => [] | x :: r => pins x (psort r) end.

(** _binary_clf_curve: cumulated false and true positives at the last sample of each distinct score *)
Fixpoint roc_points (l : list scored) (fp tp : nat) : list (nat * nat) :=
  match l with
  | [] => []
  | (s, e) :: r =>
    let fp := if e then fp else S fp in
    let tp := if e then S tp else tp in
    match r with
    | [] => [(fp, tp)]
    | (s', _) :: _ => if qeqb s s' then roc_points r fp tp else (fp, tp) :: roc_points r fp tp
    end
  end.
(** np.logical_or(np.diff(fps, 2), np.diff(tps, 2)) at the middle one of three points *)
Definition bend (a b c : nat * nat) : bool :=
  negb (Nat.eqb (fst a + fst c) (2 * fst b) && Nat.eqb (snd a + snd c) (2 * snd b)).
Fixpoint drop_inner (prev : nat * nat) (l : list (nat * nat)) : list (nat * nat) :=
  match l with
  | b :: (c :: _) as r => if bend prev b c then b :: drop_inner b r else drop_inner b r
  | _ => l
  end.
Definition drop_intermediate (l : list (nat * nat)) : list (nat * nat) :=
  match l with a :: r => if Nat.ltb 2 (length l) then a :: drop_inner a r else l | [] => [] end.
(** division by the last count; NaN when it is zero *)
Definition rates (l : list nat) : list num :=
  let total := last l 0 in
  if Nat.leb total 0 then map (fun _ => NaN) l else map (fun x => ndiv (nnat x) (nnat total)) l.
(** sklearn.metrics.roc_curve *)
Definition roc_curve (l : list scored) : list num * list num :=
  let pts := (0, 0) :: drop_intermediate (roc_points (rev (psort l)) 0 0) in
  (rates (map fst pts), rates (map snd pts)).
(** np.diff, np.trapz *)
Fixpoint diff (l : list num) : list num :=
  match l with a :: (b :: _) as r => nsub b a :: diff r | _ => [] end.
Fixpoint trapz (y x : list num) : num :=
  match y, x with
  | y0 :: (y1 :: _) as yr, x0 :: (x1 :: _) as xr =>
      nadd (ndiv (nmul (nsub x1 x0) (nadd y1 y0)) (Fin (qz 2))) (trapz yr xr)
  | _, _ => Fin 0
  end.
(** sklearn.metrics.auc *)
Definition auc (x y : list num) : res num :=
  if Nat.ltb (length x) 2 then Raise ValueError
  else
    let dx := diff x in
    if existsb (fun d => nlt d (Fin 0)) dx
    then if forallb (fun d => nle d (Fin 0)) dx then Ok (nmul (Fin (qz (-1))) (trapz y x)) else Raise ValueError
    else Ok (trapz y x).

(** utils_verify.py 202-217; np.isnan of a boolean array is False everywhere *)
Definition calculate_roc (skip_nan : bool) (f_prob : arr num) (o_binary : arr bool) : res (list num * list num * num) :=
  let f := ravel f_prob in
  let o := ravel o_binary in
  if negb (Nat.eqb (length f) (length o)) then Raise ValueError
  else
    let cells := combine f o in
    let cells := if skip_nan then filter (fun c => negb (is_nan (fst c))) cells else cells in
    l <- mapM (fun c => match fst c with Fin q => Ok (q, snd c) | _ => Raise ValueError end) cells ;;   (* assert_all_finite *)
    match l with
    | [] => Raise IndexError
    | _ =>
      let c := roc_curve l in
      a <- auc (fst c) (snd c) ;;
      Ok (fst c, snd c, a)
    end.
(** VerifyEnsemble.py 146-152, VerifyProb.py 142-148; [p] is the result of self.cdf(over, below) *)
Definition roc (skip_nan : bool) (p : res (arr num)) (o : arr num) (over below : option thr) : res (list num * list num * num) :=
  p <- p ;; b <- binarize_obs o over below ;; calculate_roc skip_nan p b.
