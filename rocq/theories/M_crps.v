(** Model of the closed forms of the CRPS in utils_crps.py, and of the _crps methods which call them.
    Simplified: the arrays of one call hold real numbers without rounding and have one common shape
    (the verifiers pass arrays of one shape); [stats.norm()] is the normal distribution of R_gauss.v. *)
From Coq Require Import Reals List Bool Arith Lra.
From Verif Require Import Num NdArr R_gauss.
Open Scope R_scope.

(** element-wise arithmetic of real arrays of one shape *)
Definition rmap1 (f : R -> R) (a : arr R) : arr R := Arr (shape a) (fun ix => f (get a ix)).
Definition rmap2 (f : R -> R -> R) (a b : arr R) : arr R := Arr (shape a) (fun ix => f (get a ix) (get b ix)).
(** [a < b], a boolean array *)
Definition rltb (x y : R) : bool := if Rlt_dec x y then true else false.
Definition rless (a b : arr R) : arr bool := Arr (shape a) (fun ix => rltb (get a ix) (get b ix)).
(** [z[mask] = l[mask]] on a copy of z *)
Definition masked_set (z : arr R) (mask : arr bool) (l : arr R) : arr R :=
  Arr (shape z) (fun ix => if get mask ix then get l ix else get z ix).

(** crps_truncated_gaussian, utils_crps.py 83-121 (a scalar [l], as its caller passes) *)
Definition crps_truncated_gaussian (y mu scale : arr R) (l : R) : arr R :=
  let y := rmap2 Rminus y mu in
  let l := rmap1 (fun m => l - m) mu in
  let l := rmap2 Rdiv l scale in
  let y := rmap2 Rdiv y scale in
  let z := y in
  let mask := rless z l in
  let z := masked_set z mask l in
  let f_z := rmap1 npdf z in
  let F_z := rmap1 ncdf z in
  let F_l := rmap1 ncdf l in
  let F_u := 1 in
  let F_usqrt2 := 1 in
  let F_lsqrt2 := rmap1 ncdf (rmap1 (fun a => a * sqrt 2) l) in
  let frac1 := rmap1 (fun a => 1 / (F_u - a)) F_l in
  let term1 := rmap1 Rabs (rmap2 Rminus y z) in
  let term2 := rmap2 Rmult (rmap2 Rmult frac1 z) (rmap2 Rminus (rmap1 (fun a => 2 * a - F_u) F_z) F_l) in
  let term3 := rmap2 Rmult (rmap1 (fun a => a * 2) frac1) f_z in
  let term4 := rmap2 Rmult (rmap1 (fun a => a ^ 2 * 1 / sqrt PI) frac1) (rmap1 (fun a => F_usqrt2 - a) F_lsqrt2) in
  let crps := rmap2 Rminus (rmap2 Rplus (rmap2 Rplus term1 term2) term3) term4 in
  rmap2 Rmult crps scale.

(** properscoring.crps_gaussian (library) *)
Definition ps_crps_gaussian (x mu sig : arr R) : arr R :=
  let sx := rmap2 Rdiv (rmap2 Rminus x mu) sig in
  let pdf := rmap1 npdf sx in
  let cdf := rmap1 ncdf sx in
  let pi_inv := 1 / sqrt PI in
  rmap2 Rmult sig (rmap1 (fun a => a - pi_inv) (rmap2 Rplus (rmap2 Rmult sx (rmap1 (fun a => 2 * a - 1) cdf)) (rmap1 (fun a => 2 * a) pdf))).

(** VerifyProbGaussian._crps, VerifyProbGaussian.py 76-81 *)
Definition gaussian_crps (truncated : bool) (o mu sigma : arr R) : arr R :=
  if truncated then crps_truncated_gaussian o mu sigma 0 else ps_crps_gaussian o mu sigma.

(** _lbeta, utils_crps.py 25-28, over the library's gamma function *)
Definition lbeta (G : R -> R) (x1 x2 : R) : R :=
  let log_prod_gamma_x := ln (G x1) + ln (G x2) in
  let log_gamma_sum_x := ln (G (x1 + x2)) in
  log_prod_gamma_x - log_gamma_sum_x.

(** crps_gamma with reduce_sum=False and TensorFlow's functions not asked for, utils_crps.py 31-80:
    [G] is special.gamma and [cdf k x] is stats.gamma.cdf(x, k) *)
Definition crps_gamma (G : R -> R) (cdf : R -> R -> R) (mu sigma shift obs : arr R) : arr R :=
  let shape_ := rmap1 Rsqr (rmap2 Rdiv mu sigma) in
  let scale := rmap2 Rdiv (rmap1 Rsqr sigma) mu in
  let y_bar := rmap2 Rdiv (rmap2 Rminus obs shift) scale in
  let F_k_y := rmap2 cdf shape_ (rmap1 (fun a => 1 * a) y_bar) in
  let c_bar := rmap2 Rdiv (rmap1 (fun a => -1 * a) shift) scale in
  let lbeta_ret := rmap1 (fun k => lbeta G (1 / 2) (k + 1 / 2)) shape_ in
  let F_2k_2c := rmap2 cdf (rmap1 (fun k => 2 * k) shape_) (rmap1 (fun a => 1 * 2 * a) c_bar) in
  let F_k_c := rmap2 cdf shape_ (rmap1 (fun a => 1 * a) c_bar) in
  let F_kp1_y := rmap2 cdf (rmap1 (fun k => k + 1) shape_) (rmap1 (fun a => 1 * a) y_bar) in
  let F_kp1_c := rmap2 cdf (rmap1 (fun k => k + 1) shape_) (rmap1 (fun a => 1 * a) c_bar) in
  let B_05_kp05 := rmap1 exp lbeta_ret in
  let c1 := rmap2 Rmult y_bar (rmap1 (fun a => 2 * a - 1) F_k_y) in
  let c2 := rmap2 Rmult shape_
              (rmap2 Rminus (rmap2 Rplus (rmap1 (fun a => 2 * a - 1) F_kp1_y) (rmap1 Rsqr F_k_c))
                            (rmap2 Rmult (rmap1 (fun a => 2 * a) F_kp1_c) F_k_c)) in
  let c3 := rmap2 Rmult c_bar (rmap1 Rsqr F_k_c) in
  let c4 := rmap2 Rmult (rmap2 Rmult (rmap1 (fun k => k / PI) shape_) B_05_kp05) (rmap1 (fun a => 1 - a) F_2k_2c) in
  let crps := rmap2 Rminus (rmap2 Rminus (rmap2 Rminus c1 c2) c3) c4 in
  rmap2 Rmult crps scale.
(** crps_gamma with the default reduce_sum=True, utils_crps.py 74-78.  Without NaN among the scores nanmean and mean are one function;
    [None] is the NaN of an empty array. *)
Definition mean_all (a : arr R) : option R :=
  let l := map (get a) (indices (shape a)) in
  match l with nil => None | _ => Some (fold_right Rplus 0 l / INR (length l)) end.
Definition crps_gamma_reduced (skip_nan : bool) (G : R -> R) (cdf : R -> R -> R) (mu sigma shift obs : arr R) : option R :=
  let CRPS := crps_gamma G cdf mu sigma shift obs in
  if skip_nan then mean_all CRPS else mean_all CRPS.
(** VerifyProbGamma._crps, VerifyProbGamma.py 78-83 *)
Definition gamma_crps (G : R -> R) (cdf : R -> R -> R) (truncated : bool) (o unshifted_mu sigma shift : arr R) : res (arr R) :=
  if truncated then Raise NotImplementedError else Ok (crps_gamma G cdf unshifted_mu sigma shift o).

(** VerifyProbGaussian._f_determ and _variance, VerifyProbGaussian.py 55-59: the truncation setting is not looked at *)
Definition gaussian_f_determ (truncated : bool) (mu sigma : arr R) : arr R := mu.
Definition gaussian_variance (truncated : bool) (mu sigma : arr R) : arr R := rmap1 (fun s => s ^ 2) sigma.
