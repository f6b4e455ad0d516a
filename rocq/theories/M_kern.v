(** Model of the kernel density estimate with any kernel of scikit-learn: utils_verify.py 93-119, kernel=os.environ['pyanen_kde_kernel'].
    Simplified: real numbers without rounding or underflow (the tolerance of score_samples, rtol=1E-8, is neglected), finite members and
    threshold; the progress bar is left out. *)
From Coq Require Import String Reals List Bool Arith ZArith.
From Verif Require Import Num R_gauss M_kde.
Import ListNotations.
Open Scope R_scope.

(** sklearn.neighbors._kde.VALID_KERNELS *)
Inductive kernel := Gaussian | Tophat | Epanechnikov | Exponential | Linear | Cosine.
Definition kernel_of (name : string) : option kernel :=
  (if String.eqb name "gaussian" then Some Gaussian
   else if String.eqb name "tophat" then Some Tophat
   else if String.eqb name "epanechnikov" then Some Epanechnikov
   else if String.eqb name "exponential" then Some Exponential
   else if String.eqb name "linear" then Some Linear
   else if String.eqb name "cosine" then Some Cosine
   else None)%string.
(** exp of the log-kernels and norms of sklearn.neighbors._binary_tree in one dimension, at distance/bandwidth [u] *)
Definition kernel_at (k : kernel) (u : R) : R :=
  match k with
  | Gaussian => npdf u
  | Tophat => if Rlt_dec u 1 then / 2 else 0
  | Epanechnikov => if Rlt_dec u 1 then 3 / 4 * (1 - u * u) else 0
  | Exponential => exp (- u) / 2
  | Linear => if Rlt_dec u 1 then 1 - u else 0
  | Cosine => if Rlt_dec u 1 then PI / 4 * cos (PI / 2 * u) else 0
  end.
(** np.exp(kde.score_samples(x)) *)
Definition kern_density (k : kernel) (h : R) (ens : list R) (x : R) : R :=
  rsum (map (fun e => kernel_at k (Rabs (x - e) / h) / h) ens) / INR (length ens).

(** utils_verify.py 93-119; [col] is the threshold followed by the members *)
Definition ens_to_prob_kern (name : string) (h : R) (samples : nat) (mult : Z) (col : list R) : res R :=
  match col with
  | [] => Raise IndexError
  | below :: ens =>
    match kernel_of name, ens with
    | None, _ => Raise ValueError                                       (* KernelDensity.fit: invalid kernel *)
    | _, [] => Raise ValueError                                         (* KernelDensity.fit of an empty array *)
    | Some k, e :: l =>
      if Rle_dec h 0 then Raise ValueError                              (* KernelDensity.fit: bandwidth *)
      else
        let vmin := lmin e l in
        let vmax := lmax e l in
        let spread := vmax - vmin in
        let x := linspace (vmin - spread * IZR mult) below samples in
        match x with
        | x0 :: x1 :: _ => Ok (rsum (map (kern_density k h ens) x) * (x1 - x0))
        | _ => Raise IndexError                                         (* x[1] - x[0] *)
        end
    end
  end.
