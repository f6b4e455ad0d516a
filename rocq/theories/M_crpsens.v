(** Model of VerifyEnsemble._crps, VerifyEnsemble.py 86-105.
    Simplified: properscoring scores one observation against its members by a function of these alone ([cell]);
    progress bars are not modelled; the setting has been parsed. *)
From Coq Require Import ZArith List Bool Arith.
From Verif Require Import Num NdArr.
Import ListNotations.
Open Scope nat_scope.

Section Crps.
Variable cell : num -> list num -> num.
(** the members behind one observation, along the last axis *)
Definition members_last (f : arr num) (ix : list nat) : list num := map (fun m => get f (ix ++ [m])) (seq 0 (last (shape f) 0)).
(** properscoring.crps_ensemble without weights: the member axis is moved to the end (np.rollaxis), the shapes are
    compared, equal shapes give absolute differences *)
Definition crps_ensemble (o f : arr num) (axis : Z) : res (arr num) :=
  fm <- (if Z.eqb axis (-1) then Ok f else moveaxis axis (-1) f) ;;
  if list_eqb (shape o) (shape fm) then Ok (amap2 (fun a b => nabs (nsub a b)) o fm)
  else if list_eqb (shape o) (removelast (shape fm)) then Ok (Arr (shape o) (fun ix => cell (get o ix) (members_last fm ix)))
  else Raise ValueError.
(** a[i] *)
Definition item0 (a : arr num) (i : nat) : res (arr num) :=
  match shape a with
  | [] => Raise IndexError
  | n :: s => if i <? n then Ok (Arr s (fun ix => get a (i :: ix))) else Raise IndexError
  end.
(** np.stack(l, axis=0) *)
Definition stack0 (l : list (arr num)) : res (arr num) :=
  match l with
  | [] => Raise ValueError
  | a :: r => if forallb (fun b => list_eqb (shape b) (shape a)) r
              then Ok (Arr (length l :: shape a) (fun ix => get (nth (hd 0 ix) l a) (tl ix)))
              else Raise ValueError
  end.
(** lines 87-102 *)
Definition crps_split (o f : arr num) (ensemble_axis : Z) : res (arr num) :=
  fm <- (if (Z.eqb ensemble_axis (-1) || Z.eqb ensemble_axis (Z.of_nat (length (shape f)) - 1))%bool then Ok f
         else moveaxis ensemble_axis (-1) f) ;;
  match shape o with
  | [] => Raise IndexError
  | n :: _ => l <- mapM (fun i => a <- item0 o i ;; b <- item0 fm i ;; crps_ensemble a b (-1)) (seq 0 n) ;; stack0 l
  end.
(** lines 86-105 *)
Definition crps (split_along_0 : bool) (o f : arr num) (ensemble_axis : Z) : res (arr num) :=
  if split_along_0 then crps_split o f ensemble_axis else crps_ensemble o f ensemble_axis.
End Crps.
