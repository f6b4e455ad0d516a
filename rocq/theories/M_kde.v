(** Model of the kernel density estimate of an ensemble probability: utils_verify.py 93-119, with the Gaussian kernel
    (the default, __init__.py 18-21).
    Simplified: real numbers without rounding or underflow, finite members and threshold; the progress bar is left out. *)
From Coq Require Import Reals List Bool Arith ZArith.
From Verif Require Import Num R_gauss.
Import ListNotations.
Open Scope R_scope.

Fixpoint rsum (l : list R) : R := match l with [] => 0 | x :: l => x + rsum l end.
(** np.exp(kde.score_samples(x)) of a KernelDensity with bandwidth [h] fitted to [ens] *)
Definition kde_density (h : R) (ens : list R) (x : R) : R :=
  rsum (map (fun e => npdf ((x - e) / h) / h) ens) / INR (length ens).
(** ens.min(), ens.max() of a non-empty array *)
Definition lmin (e : R) (l : list R) : R := fold_left Rmin l e.
Definition lmax (e : R) (l : list R) : R := fold_left Rmax l e.
(** np.linspace(a, b, n), n >= 2 *)
Definition linspace (a b : R) (n : nat) : list R := map (fun j => a + INR j * ((b - a) / INR (n - 1))) (seq 0 n).

(** utils_verify.py 93-119; [col] is the threshold followed by the members *)
Definition ens_to_prob_kde (h : R) (samples : nat) (mult : Z) (col : list R) : res R :=
  match col with
  | [] => Raise IndexError
  | below :: ens =>
    match ens with
    | [] => Raise ValueError                                            (* KernelDensity.fit of an empty array *)
    | e :: l =>
      if Rle_dec h 0 then Raise ValueError                              (* KernelDensity.fit *)
      else
        let vmin := lmin e l in
        let vmax := lmax e l in
        let spread := vmax - vmin in
        let x := linspace (vmin - spread * IZR mult) below samples in
        match x with
        | x0 :: x1 :: _ =>
          let interval := x1 - x0 in
          Ok (rsum (map (kde_density h ens) x) * interval)
        | _ => Raise IndexError                                         (* x[1] - x[0] *)
        end
    end
  end.
