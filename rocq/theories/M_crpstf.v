(** Model of crps_gamma with both settings of pyanen_use_tensorflow_math, utils_crps.py 31-80, reduce_sum=False.
    Simplified as in [M_crps]: real arrays of one shape and of one type; [None] is NaN.  TensorFlow is installed.
    [lgam] is the logarithm of the absolute value of the gamma function (tf.math.lbeta adds and subtracts it),
    [ig a x] is tf.math.igamma(a, x). *)
From Coq Require Import Reals String List Bool Arith Lra.
From Verif Require Import Num NdArr M_crps M_integ.
Open Scope R_scope.

(** element-wise operations in which a NaN gives NaN *)
Definition omap1 (f : R -> R) (a : arr (option R)) : arr (option R) := Arr (shape a) (fun ix => option_map f (get a ix)).
Definition omap2 (f : R -> R -> R) (a b : arr (option R)) : arr (option R) :=
  Arr (shape a) (fun ix => match get a ix, get b ix with Some x, Some y => Some (f x y) | _, _ => None end).
Definition ofin (a : arr R) : arr (option R) := Arr (shape a) (fun ix => Some (get a ix)).
Definition oapp2 (f : R -> R -> option R) (a b : arr R) : arr (option R) := Arr (shape a) (fun ix => f (get a ix) (get b ix)).

(** tf.math.lbeta of the stacked pair, utils_crps.py 51 *)
Definition tf_lbeta (lgam : R -> R) (x1 x2 : R) : R := lgam x1 + lgam x2 - lgam (x1 + x2).

(** utils_crps.py 31-80 with the branch 49-55 *)
Definition crps_gamma_tf (lgam : R -> R) (ig : R -> R -> option R) (cdf : R -> R -> R) (mu sigma shift obs : arr R) : arr (option R) :=
  let shape_ := rmap1 Rsqr (rmap2 Rdiv mu sigma) in
  let scale := rmap2 Rdiv (rmap1 Rsqr sigma) mu in
  let y_bar := rmap2 Rdiv (rmap2 Rminus obs shift) scale in
  let F_k_y := rmap2 cdf shape_ (rmap1 (fun a => 1 * a) y_bar) in
  let c_bar := rmap2 Rdiv (rmap1 (fun a => -1 * a) shift) scale in
  let lbeta_ret := rmap1 (fun k => tf_lbeta lgam (1 / 2) (k + 1 / 2)) shape_ in
  let F_2k_2c := oapp2 ig (rmap1 (fun k => 2 * k) shape_) (rmap1 (fun a => 1 * 2 * a) c_bar) in
  let F_k_c := oapp2 ig shape_ (rmap1 (fun a => 1 * a) c_bar) in
  let F_kp1_y := oapp2 ig (rmap1 (fun k => k + 1) shape_) (rmap1 (fun a => 1 * a) y_bar) in
  let F_kp1_c := oapp2 ig (rmap1 (fun k => k + 1) shape_) (rmap1 (fun a => 1 * a) c_bar) in
  let B_05_kp05 := rmap1 exp lbeta_ret in
  let c1 := ofin (rmap2 Rmult y_bar (rmap1 (fun a => 2 * a - 1) F_k_y)) in
  let c2 := omap2 Rmult (ofin shape_)
              (omap2 Rminus (omap2 Rplus (omap1 (fun a => 2 * a - 1) F_kp1_y) (omap1 Rsqr F_k_c))
                            (omap2 Rmult (omap1 (fun a => 2 * a) F_kp1_c) F_k_c)) in
  let c3 := omap2 Rmult (ofin c_bar) (omap1 Rsqr F_k_c) in
  let c4 := omap2 Rmult (ofin (rmap2 Rmult (rmap1 (fun k => k / PI) shape_) B_05_kp05)) (omap1 (fun a => 1 - a) F_2k_2c) in
  let crps := omap2 Rminus (omap2 Rminus (omap2 Rminus c1 c2) c3) c4 in
  omap2 Rmult crps (ofin scale).
(** utils_crps.py 31-80: [flag] is the text of the setting *)
Definition crps_gamma_any (flag : string) (G lgam : R -> R) (ig : R -> R -> option R) (cdf : R -> R -> R) (mu sigma shift obs : arr R) : res (arr (option R)) :=
  tf <- strtobool flag ;;
  Ok (if tf then crps_gamma_tf lgam ig cdf mu sigma shift obs else ofin (crps_gamma G cdf mu sigma shift obs)).
