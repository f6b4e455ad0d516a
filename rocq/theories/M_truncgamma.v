(** Model of the truncated gamma distribution: dist_truncgamma.py 25-65, as used by cdf_gamma and sample_dist_gamma with
    truncated=True and one worker (utils_dist.py 137, 224, 244-245).
    Simplified: real numbers without rounding; arrays of one common shape; a positive scale.  rv_continuous.cdf and .rvs
    follow scipy < 1.10: the support used for "above the support" is read before _argcheck stores the bounds (a new
    object is made for every call, so it is the whole line), the support used for "inside" is read afterwards. *)
From Coq Require Import Reals List Bool Arith.
From Verif Require Import Num NdArr RTier.
Import ListNotations.
Open Scope R_scope.

Definition rle (x y : R) : bool := if Rle_dec x y then true else false.
Definition rlt (x y : R) : bool := if Rlt_dec x y then true else false.

Section TruncGamma.
(** scipy.special: gammainc(s, x) and gammaincinv(s, p) *)
Variable gammainc : R -> R -> R.
Variable gammaincinv : R -> R -> R.

(** _argcheck, dist_truncgamma.py 31-35 *)
Definition tg_argcheck (a b s : R) : bool := rle 0 a && rlt a b.
(** _cdf, dist_truncgamma.py 47-56 *)
Definition tg_cdf0 (x a b s : R) : R :=
  let P_x := gammainc s x in
  let P_a := gammainc s a in
  let P_b := gammainc s b in
  let result := (P_x - P_a) / (P_b - P_a) in
  if rlt x a || rlt b x then 0 else result.
(** _ppf, dist_truncgamma.py 58-61 *)
Definition tg_ppf0 (q a b s : R) : R :=
  let P_a := gammainc s a in
  let P_b := gammainc s b in
  gammaincinv s (q * (P_b - P_a) + P_a).
(** rv_continuous.cdf *)
Definition tg_cdf (x a b s loc scale : R) : rnum :=
  let z := (x - loc) / scale in
  let cond0 := tg_argcheck a b s && rlt 0 scale in
  let cond1 := rlt a z && rlt z b && rlt 0 scale in
  if negb cond0 then RNaN else if cond1 then RFin (tg_cdf0 z a b s) else RFin 0.
(** scipy.special: gammaln(s) *)
Variable gammaln : R -> R.
(** _logpdf, dist_truncgamma.py 37-38, on x >= 0: the value before np.exp; [None] is minus infinity and [Some RInf] plus infinity
    (scipy.special.xlogy(y, 0) is 0 for y = 0 and y times minus infinity otherwise) *)
Definition tg_logpdf0 (x a : R) : option rnum :=
  if rlt 0 x then Some (RFin ((a - 1) * ln x - x - gammaln a))
  else if rlt a 1 then Some RInf else if rlt 1 a then None else Some (RFin (0 - x - gammaln a)).
Definition np_exp (y : option rnum) : rnum :=
  match y with None => RFin 0 | Some (RFin v) => RFin (exp v) | Some RInf => RInf | Some RNaN => RNaN end.
Definition over (p : rnum) (d : R) : rnum := match p with RFin v => RFin (v / d) | y => y end.
(** _pdf, dist_truncgamma.py 40-45, for a < b (the divisor is positive) *)
Definition tg_pdf0 (x a b s : R) : rnum :=
  let result := over (np_exp (tg_logpdf0 x s)) (gammainc s b - gammainc s a) in
  if rlt x a || rlt b x then RFin 0 else result.
(** rv_continuous.pdf: the bounds belong to the support *)
Definition tg_pdf (x a b s loc scale : R) : rnum :=
  let z := (x - loc) / scale in
  let cond0 := tg_argcheck a b s && rlt 0 scale in
  let cond1 := rle a z && rle z b && rlt 0 scale in
  if negb cond0 then RNaN else if cond1 then over (tg_pdf0 z a b s) scale else RFin 0.
(** rv_continuous.logpdf of one cell: _logpdf is called with the three shape parameters, and takes one (dist_truncgamma.py 37).
    [None] is minus infinity. *)
Definition tg_logpdf (x a b s loc scale : R) : res (option rnum) :=
  let z := (x - loc) / scale in
  let cond0 := tg_argcheck a b s && rlt 0 scale in
  let cond1 := rle a z && rle z b && rlt 0 scale in
  if cond0 && cond1 then Raise TypeError else if negb cond0 then Ok (Some RNaN) else Ok None.
(** rv_continuous.rvs of one cell for the uniform number [q] drawn by _rvs, dist_truncgamma.py 63-65 *)
Definition tg_rv (q a b s loc scale : R) : R := tg_ppf0 q a b s * scale + loc.

(** utils_dist.py 27 *)
Definition LARGE : R := 10000.
(** utils_dist.py 129-130, 212-213 *)
Definition tg_shape (mu sigma : R) : R := (mu / sigma) ^ 2.
Definition tg_scale (mu sigma : R) : R := sigma ^ 2 / mu.
Definition tg_clip (p : rnum) : rnum :=
  match p with RFin x => let y := if rlt x 0 then 0 else x in RFin (if rlt 1 y then 1 else y) | y => y end.
(** utils_dist.py 224, 244-245: one cell of cdf_gamma(..., truncated=True) *)
Definition tg_below (mu sigma shift t : R) : rnum :=
  tg_clip (tg_cdf t (- shift / tg_scale mu sigma) LARGE (tg_shape mu sigma) shift (tg_scale mu sigma)).
(** VerifyProbGamma._cdf, VerifyProbGamma.py 73-76 *)
Definition tg_below_arr (mu sigma shift t : arr R) : arr rnum :=
  Arr (shape mu) (fun ix => tg_below (get mu ix) (get sigma ix) (get shift ix) (get t ix)).
Definition one_minus (p : rnum) : rnum := match p with RFin x => RFin (1 - x) | RInf => RNaN | RNaN => RNaN end.
Definition tg_over_arr (mu sigma shift t : arr R) : arr rnum :=
  let p := tg_below_arr mu sigma shift t in Arr (shape p) (fun ix => one_minus (get p ix)).
(** utils_dist.py 137: sample_dist_gamma(..., truncated=True) before the axis is moved; [q] are the uniform numbers *)
Definition tg_sample (mu sigma shift : arr R) (n : nat) (q : nat -> list nat -> R) : res (arr R) :=
  if forallb (fun ix => tg_argcheck (- get shift ix / tg_scale (get mu ix) (get sigma ix)) LARGE (tg_shape (get mu ix) (get sigma ix))
                        && rle 0 (tg_scale (get mu ix) (get sigma ix))) (indices (shape mu))
  then Ok (Arr (n :: shape mu) (fun mix => match mix with
         | m :: ix => tg_rv (q m ix) (- get shift ix / tg_scale (get mu ix) (get sigma ix)) LARGE (tg_shape (get mu ix) (get sigma ix)) (get shift ix) (tg_scale (get mu ix) (get sigma ix))
         | [] => 0 end))
  else Raise ValueError.
End TruncGamma.
