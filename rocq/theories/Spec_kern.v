(** Specification for C124: the distribution functions that belong to the kernels. *)
From Coq Require Import Reals List ZArith.
From Coquelicot Require Import Coquelicot.
From Verif Require Import R_gauss M_kde M_kern.
Import ListNotations.
Open Scope R_scope.

(** the probability of lying at most [u] above the centre, u >= 0 *)
Definition upper_half (k : kernel) (u : R) : R :=
  match k with
  | Gaussian => ncdf u
  | Tophat => if Rlt_dec u 1 then (1 + u) / 2 else 1
  | Epanechnikov => if Rlt_dec u 1 then (2 + 3 * u - u * u * u) / 4 else 1
  | Exponential => 1 - exp (- u) / 2
  | Linear => if Rlt_dec u 1 then 1 - (1 - u) * (1 - u) / 2 else 1
  | Cosine => if Rlt_dec u 1 then (1 + sin (PI / 2 * u)) / 2 else 1
  end.
Definition kernel_cdf (k : kernel) (u : R) : R := if Rle_dec 0 u then upper_half k u else 1 - upper_half k (- u).
(** [F] is an integral of [f]: whatever bounds f has between two places bound the growth of F there *)
Definition integral_of (f F : R -> R) : Prop :=
  forall u v lo hi, u <= v -> (forall x, u <= x <= v -> lo <= f x <= hi) -> lo * (v - u) <= F v - F u <= hi * (v - u).
(** the estimated distribution: a copy of the kernel around every member *)
Definition kern_mixture (k : kernel) (h : R) (ens : list R) (x : R) : R := rsum (map (fun e => kernel_cdf k ((x - e) / h)) ens) / INR (length ens).
(** kernels that vanish outside of [-1, 1] *)
Definition bounded_kernel (k : kernel) : Prop := match k with Gaussian | Exponential => False | _ => True end.
