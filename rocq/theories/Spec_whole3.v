(** Words for C93: the forecast distribution of one cell of a parametric verifier. *)
From Coq Require Import String ZArith List Bool QArith Qcanon.
From Verif Require Import QcTac Num NdArr M_dist M_state M_whole.
Import ListNotations.
Open Scope string_scope.

(** the parameters of a verifier *)
Definition forecast_of (x : obj) : option forecast :=
  let part k := option_map arr_of (field (a_f x) k) in
  match cl x with
  | CGaussian => match part "mu", part "sigma" with Some m, Some s => Some (Gaussian m s (truthy (a_trunc x))) | _, _ => None end
  | CGamma => match part "unshifted_mu", part "sigma", part "shift" with Some m, Some s, Some h => Some (Gamma m s h (truthy (a_trunc x))) | _, _, _ => None end
  | CHurdle => match part "pop", part "mu", part "sigma" with Some p, Some m, Some s => Some (Hurdle p m s) | _, _, _ => None end
  | _ => None
  end.
(** probability of a value up to [t] in cell [ix]: shape (mu/sigma)^2 and scale sigma^2/mu for the gamma distributions,
    truncation between zero and ten thousand scales above the mean; the hurdle distribution keeps the probability
    1 - pop at zero *)
Definition cell_cdf (S : scipy) (f : forecast) (ix : list nat) (t : num) : num :=
  let sq x := nmul x x in
  match f with
  | Gaussian mu sg tr => let m := get mu ix in let s := get sg ix in
      if tr then truncnorm_cdf S t (ndiv (nopp m) s) (Fin (qz 10000)) m s else norm_cdf S t m s
  | Gamma mu sg sh tr => let k := sq (ndiv (get mu ix) (get sg ix)) in let c := ndiv (sq (get sg ix)) (get mu ix) in let h := get sh ix in
      if tr then truncgamma_cdf S t (ndiv (nopp h) c) (Fin (qz 10000)) k h c else gamma_cdf S t k h c
  | Hurdle pop mu sg => let p := get pop ix in let k := sq (ndiv (get mu ix) (get sg ix)) in let c := ndiv (sq (get sg ix)) (get mu ix) in
      if nlt (Fin 0%Qc) t then nadd (nsub (Fin 1%Qc) p) (nmul p (gamma_cdf S t k (Fin 0%Qc) c)) else nsub (Fin 1%Qc) p
  end.
(** the event is "over" or "below" *)
Definition event_share (over : bool) (q : Qc) : Qc := if over then (1 - q)%Qc else q.
(** a member below the clipping level is replaced by zero *)
Definition clipped (c : option num) (v : num) : num :=
  match c with Some l => if nlt v l then Fin 0%Qc else v | None => v end.
