(** Binary64 arithmetic (rounding to nearest even as in M_float; no overflow) of the steps on which probabilities, their
    bins and averages depend.  Sums of NumPy are sums along some tree, whatever order NumPy chooses. *)
From Coq Require Import ZArith Reals List Bool.
From Flocq Require Import Core.
From Verif Require Import M_float.
Import ListNotations.
Open Scope R_scope.

(** ** Probabilities *)
(** ens_to_prob_moments, utils_verify.py 122-124: [k] of [n] members do not exceed the threshold *)
Definition fl_below (k n : nat) : R := rn (INR k / INR n).
(** utils_verify.py 129: 1 - ens_to_prob(below=over) *)
Definition fl_over (k n : nat) : R := rn (1 - fl_below k n).

(** ** Bins *)
(** np.linspace(start=0, stop, num): the product of position and step, the last one replaced by stop *)
Definition fl_linspace0 (stop : R) (num : nat) : list R :=
  let step := rn (stop / INR (num - 1)) in
  map (fun j => if Nat.eqb j (num - 1) then stop else rn (INR j * step)) (seq 0 num).
(** np.digitize with increasing bins *)
Definition fl_digitize (x : R) (bins : list R) : nat := length (filter (fun b => Rle_bool b x) bins).
(** 1.0 + 1e-8 *)
Definition fl_top : R := rn (1 + rn (1 / IZR (10 ^ 8))).
(** utils_verify.py 320-321, for one probability *)
Definition fl_rel_bin (nbins : nat) (p : R) : Z := (Z.of_nat (fl_digitize p (fl_linspace0 fl_top (nbins + 1))) - 1)%Z.
(** utils_special_boot.py 52-53 with n_bins = 19, for one probability *)
Definition fl_decomp_bin (p : R) : nat := fl_digitize p (firstn 19 (tl (fl_linspace0 1 21))).

(** ** Averages *)
Inductive tree (A : Type) := Leaf (x : A) | Node (l r : tree A).
Arguments Leaf {A} x.
Arguments Node {A} l r.
Fixpoint leaves {A} (t : tree A) : list A := match t with Leaf x => [x] | Node l r => leaves l ++ leaves r end.
Fixpoint tmap {A B} (f : A -> B) (t : tree A) : tree B := match t with Leaf x => Leaf (f x) | Node l r => Node (tmap f l) (tmap f r) end.
Fixpoint fl_sum (t : tree R) : R := match t with Leaf x => x | Node l r => rn (fl_sum l + fl_sum r) end.
(** np.mean *)
Definition fl_mean (t : tree R) : R := rn (fl_sum t / INR (length (leaves t))).
(** VerifyDeterm.py 39-46: forecast and observation of a cell *)
Definition fl_error (c : R * R) : R := rn (fst c - snd c).
Definition fl_ab_error (c : R * R) : R := Rabs (fl_error c).
(** np.square, x ** 2 *)
Definition fl_sq_error (c : R * R) : R := rn (fl_error c * fl_error c).
(** Verify.py 85 *)
Definition fl_rmse (t : tree (R * R)) : R := rn (sqrt (fl_mean (tmap fl_sq_error t))).
(** np.var, VerifyEnsemble.py 104-108 *)
Definition fl_var (t : tree R) : R := let m := fl_mean t in fl_mean (tmap (fun x => rn (rn (x - m) * rn (x - m))) t).
