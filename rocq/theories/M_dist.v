(** Model of the parametric distributions: utils_dist.py 27-289, VerifyProb.py 99-113 and 167-177, and
    the _prob_to_ens / _cdf methods of VerifyProbGaussian.py, VerifyProbGamma.py and
    VerifyProbGammaHurdle.py.
    Simplified: the parameter arrays have one common shape (the Gaussian and Gamma verifiers check it,
    the hurdle verifier does not; broadcasting between them is not modelled); scipy's distribution
    functions are arbitrary elementwise functions on numbers; n_sample_members is a natural number. *)
From Coq Require Import ZArith List Bool Arith QArith Qcanon.
From Verif Require Import QcTac Num NdArr M_common M_ens.
Import ListNotations.
Open Scope nat_scope.

(** scipy.stats.norm.cdf(x, loc, scale), truncnorm.cdf(x, a, b, loc, scale), gamma.cdf(x, a, loc, scale)
    and truncgamma_gen().cdf(x, a, b, s, loc, scale), elementwise *)
Record scipy := Scipy {
  norm_cdf : num -> num -> num -> num;
  truncnorm_cdf : num -> num -> num -> num -> num -> num;
  gamma_cdf : num -> num -> num -> num -> num;
  truncgamma_cdf : num -> num -> num -> num -> num -> num -> num }.

(** utils_dist.py 27 *)
Definition large : num := Fin (qz 10000).

(** an elementwise function of several arrays of one shape *)
Definition none : arr num := Arr [] (fun _ => NaN).
Definition cells (f : list num -> num) (l : list (arr num)) : arr num :=
  Arr (shape (hd none l)) (fun ix => f (map (fun a => get a ix) l)).
Definition par (k : nat) (l : list num) : num := nth k l NaN.

(** ** Parallel maps: utils_dist.py 30-44 and the np.split calls before it *)
(** [wrapper i] handles the i-th unit slice; process_map returns the results in order.  The arguments
    are split before _parallel_process checks the number of workers and the sign of the axis. *)
Definition parallel {A} (d : arr A) (workers : nat) (map_axis : Z)
    (wrapper : nat -> list (arr num) -> res (arr A)) (l : list (arr num)) : res (arr A) :=
  let sh := shape (hd none l) in
  match norm_axis (length sh) map_axis with
  | Raise _ => Raise IndexError                                   (* mu.shape[parallelize_axis] *)
  | Ok ax =>
    if Nat.eqb (nth ax sh 0) 0 then Raise ZeroDivisionError       (* np.split into 0 sections *)
    else
      passert (Nat.ltb 1 workers) ;;;
      passert (Z.ltb map_axis 0) ;;;
      parts <- mapM (fun i => wrapper i (map (unit_slice ax i) l)) (seq 0 (nth ax sh 0)) ;;
      oax <- norm_axis (length (shape (hd d parts))) map_axis ;;
      Ok (concat_units d oax parts)
  end.

(** ** CDFs *)
(** utils_dist.py 174-179, 215-220, 263-268 *)
Definition full_threshold (sh : list nat) (below : thr) : res (arr num) :=
  match below with
  | TArray a => passert (list_eqb (shape a) sh) ;;; Ok a
  | TScalar x => Ok (afull sh x)
  | TSeq => Raise RuntimeError
  end.
(** probs[probs < 0] = 0; probs[probs > 1] = 1 (utils_dist.py 201-202, 244-245, 286-287); a 0-d result is
    a NumPy scalar, which does not support item assignment *)
Definition clip1 (x : num) : num :=
  let y := if nlt x (Fin 0) then Fin 0 else x in if nlt (Fin 1) y then Fin 1 else y.
Definition clip_probs (a : arr num) : res (arr num) :=
  match shape a with [] => Raise TypeError | _ => Ok (amap clip1 a) end.
(** serial when workers = 1, otherwise over unit slices; [f] is the serial formula, [wrapper] the function
    given to the workers *)
Definition run_cdf (workers : nat) (map_axis : Z) (f wrapper : list num -> num) (l : list (arr num)) : res (arr num) :=
  probs <- (if Nat.eqb workers 1 then Ok (cells f l)
            else parallel none workers map_axis (fun _ x => Ok (cells wrapper x)) l) ;;
  clip_probs probs.

Section CDF.
Variable S : scipy.

(** utils_dist.py 65-66 and 185; parameters mu, sigma, below *)
Definition norm_at (x : list num) : num := norm_cdf S (par 2 x) (par 0 x) (par 1 x).
(** utils_dist.py 70-71 and 183 *)
Definition truncnorm_at (x : list num) : num :=
  truncnorm_cdf S (par 2 x) (ndiv (nopp (par 0 x)) (par 1 x)) large (par 0 x) (par 1 x).
(** utils_dist.py 49-50 and 226; parameters shape, scale, shift, below *)
Definition gamma_at (x : list num) : num := gamma_cdf S (par 3 x) (par 0 x) (par 2 x) (par 1 x).
(** utils_dist.py 224 *)
Definition truncgamma_at (x : list num) : num :=
  truncgamma_cdf S (par 3 x) (ndiv (nopp (par 2 x)) (par 1 x)) large (par 0 x) (par 2 x) (par 1 x).
(** utils_dist.py 54-55: the worker passes x=[3], not x=x[3] *)
Definition wrapper_truncgamma_cdf (x : list num) : num :=
  truncgamma_cdf S (Fin (qz 3)) (ndiv (nopp (par 2 x)) (par 1 x)) large (par 0 x) (par 2 x) (par 1 x).
(** utils_dist.py 57-61; parameters pop, shape, scale, below *)
Definition hurdle_at (x : list num) : num :=
  let prob := nsub (Fin 1) (par 0 x) in
  if nlt (Fin 0) (par 3 x) then nadd prob (nmul (par 0 x) (gamma_cdf S (par 3 x) (par 1 x) (Fin 0) (par 2 x))) else prob.

(** shape = (mu / sigma) ** 2, scale = sigma ** 2 / mu: utils_dist.py 129-130, 212-213, 258-259 *)
Definition gamma_shape (mu sigma : arr num) : arr num := amap2 (fun m s => nsq (ndiv m s)) mu sigma.
Definition gamma_scale (mu sigma : arr num) : arr num := amap2 (fun m s => ndiv (nsq s) m) mu sigma.

(** utils_dist.py 168-204 *)
Definition cdf_gaussian (workers : nat) (map_axis : Z) (mu sigma : arr num) (below : thr) (truncated : bool) : res (arr num) :=
  b <- full_threshold (shape mu) below ;;
  let f := if truncated then truncnorm_at else norm_at in
  run_cdf workers map_axis f f [mu; sigma; b].

(** utils_dist.py 207-247 *)
Definition cdf_gamma (workers : nat) (map_axis : Z) (unshifted_mu sigma shift : arr num) (below : thr) (truncated : bool) : res (arr num) :=
  b <- full_threshold (shape unshifted_mu) below ;;
  run_cdf workers map_axis
    (if truncated then truncgamma_at else gamma_at)
    (if truncated then wrapper_truncgamma_cdf else gamma_at)
    [gamma_shape unshifted_mu sigma; gamma_scale unshifted_mu sigma; shift; b].

(** utils_dist.py 250-289 *)
Definition cdf_gamma_hurdle (workers : nat) (map_axis : Z) (pop mu sigma : arr num) (below : thr) : res (arr num) :=
  b <- full_threshold (shape mu) below ;;
  run_cdf workers map_axis hurdle_at hurdle_at [pop; gamma_shape mu sigma; gamma_scale mu sigma; b].

(** The three verifier classes with their forecast dictionary. *)
Inductive forecast :=
| Gaussian (mu sigma : arr num) (truncated : bool)
| Gamma (unshifted_mu sigma shift : arr num) (truncated : bool)
| Hurdle (pop mu sigma : arr num).
Definition cdf_below (workers : nat) (map_axis : Z) (f : forecast) (below : thr) : res (arr num) :=
  match f with
  | Gaussian mu sigma t => cdf_gaussian workers map_axis mu sigma below t
  | Gamma mu sigma shift t => cdf_gamma workers map_axis mu sigma shift below t
  | Hurdle pop mu sigma => cdf_gamma_hurdle workers map_axis pop mu sigma below
  end.
(** _cdf: VerifyProbGaussian.py 71-74, VerifyProbGamma.py 73-76, VerifyProbGammaHurdle.py 73-76.
    self.cdf(below=over) is the same computation when nothing is saved (the saving layer is M_state). *)
Definition prob_cdf (workers : nat) (map_axis : Z) (f : forecast) (over below : option thr) : res (arr num) :=
  one_threshold over below ;;;
  match below, over with
  | Some b, _ => cdf_below workers map_axis f b
  | None, Some t => rmap (amap (nsub (Fin 1))) (cdf_below workers map_axis f t)
  | None, None => Raise AssertionError
  end.

(** ** Probability integral transform: VerifyProb.py 167-177 *)
(** [unif ix] in [0, 1): the standard uniform number drawn for cell ix.
    stats.uniform(loc=0, scale=s).rvs() draws one value per element of s, and raises ValueError when some
    element is negative or NaN. *)
Definition pit (workers : nat) (map_axis : Z) (f : forecast) (o : arr num) (randomize : bool) (unif : list nat -> Qc) : res (arr num) :=
  ranks <- prob_cdf workers map_axis f None (Some (TArray o)) ;;
  if randomize then
    if forallb (fun ix => negb (neqb (get o ix) (Fin 0)) || nle (Fin 0) (get ranks ix)) (indices (shape o))
    then Ok (Arr (shape ranks) (fun ix => if neqb (get o ix) (Fin 0) then nmul (Fin (unif ix)) (get ranks ix) else get ranks ix))
    else Raise ValueError
  else Ok ranks.
End CDF.

(** ** Sampling *)
(** A scipy distribution as a sampler: which parameters are in its domain, the value of member-and-cell
    [ix] when the generator is in state [s], and the generator state after the call.  Values may depend on
    every parameter and on the whole request. *)
Record sampler (G : Type) := Sampler {
  dom : list num -> bool;
  draw : G -> list (arr num) -> nat -> list nat -> num;
  after : G -> list (arr num) -> nat -> G }.
Arguments Sampler {G} _ _ _. Arguments dom {G} _ _. Arguments draw {G} _ _ _ _ _. Arguments after {G} _ _ _ _.

Section Sampling.
Variable G : Type.
Variable L : sampler G.

(** dist(params).rvs([n] + shape): wrapper_*_rvs, utils_dist.py 47-48, 52-53, 63-64, 68-69 *)
Definition rvs (s : G) (l : list (arr num)) (n : nat) : res (arr num) :=
  if forallb (fun ix => dom L (map (fun a => get a ix) l)) (indices (shape (hd none l)))
  then Ok (Arr (n :: shape (hd none l)) (draw L s l n)) else Raise ValueError.

(** Generator state with which task [i] starts.  Worker processes are forked while the parent's generator is
    in state [s0]; every worker advances its own copy through the tasks it is given ([who] maps a task to
    its worker), in increasing order. *)
Definition task_state (s0 : G) (who : nat -> nat) (task : nat -> list (arr num)) (n i : nat) : G :=
  fold_left (fun s j => if Nat.eqb (who j) (who i) then after L s (task j) n else s) (seq 0 i) s0.

(** the common body of sample_dist_gaussian and sample_dist_gamma: utils_dist.py 85-117, 132-161 *)
Definition sample (workers : nat) (map_axis : Z) (s0 : G) (who : nat -> nat) (l : list (arr num)) (n : nat) (move_axis : Z) : res (arr num) :=
  ens <- (if Nat.eqb workers 1 then rvs s0 l n
          else parallel none workers map_axis
                 (fun i x => rvs (task_state s0 who (fun j => map (unit_slice (match norm_axis (length (shape (hd none l))) map_axis with Ok ax => ax | _ => 0 end) j) l) n i) x n) l) ;;
  if Z.eqb move_axis 0 then Ok ens else moveaxis 0 move_axis ens.

(** generator state of the calling process afterwards *)
Definition parent_after (workers : nat) (s0 : G) (l : list (arr num)) (n : nat) : G :=
  if Nat.eqb workers 1 then after L s0 l n else s0.

(** sample_dist_gaussian: utils_dist.py 78-117; [L] is stats.truncnorm or stats.norm with these parameters *)
Definition sample_dist_gaussian (workers : nat) (map_axis : Z) (s0 : G) (who : nat -> nat) (mu sigma : arr num) (n : nat) (move_axis : Z) : res (arr num) :=
  passert (list_eqb (shape mu) (shape sigma)) ;;;
  sample workers map_axis s0 who [mu; sigma] n move_axis.
(** sample_dist_gamma: utils_dist.py 120-161; [L] is truncgamma_gen() or stats.gamma *)
Definition sample_dist_gamma (workers : nat) (map_axis : Z) (s0 : G) (who : nat -> nat) (unshifted_mu sigma shift : arr num) (n : nat) (move_axis : Z) : res (arr num) :=
  passert (list_eqb (shape shift) (shape sigma)) ;;;
  passert (list_eqb (shape shift) (shape unshifted_mu)) ;;;
  sample workers map_axis s0 who [gamma_shape unshifted_mu sigma; gamma_scale unshifted_mu sigma; shift] n move_axis.

(** _prob_to_ens: VerifyProbGaussian.py 61-69, VerifyProbGamma.py 63-71; VerifyProb.py 56 for the hurdle
    verifier, which does not define it *)
Definition clip_members (clip : option num) (ens : arr num) : arr num :=
  match clip with None => ens | Some v => amap (fun x => if nlt x v then Fin 0 else x) ens end.
Definition prob_to_ens (workers : nat) (map_axis : Z) (s0 : G) (who : nat -> nat) (f : forecast)
    (members : option nat) (move_axis : Z) (clip : option num) : res (arr num) :=
  match f, members with
  | Hurdle _ _ _, _ => Raise NotImplementedError
  | _, None => Raise AssertionError
  | Gaussian mu sigma _, Some n => rmap (clip_members clip) (sample_dist_gaussian workers map_axis s0 who mu sigma n move_axis)
  | Gamma mu sigma shift _, Some n => rmap (clip_members clip) (sample_dist_gamma workers map_axis s0 who mu sigma shift n move_axis)
  end.
End Sampling.
Arguments rvs {G} _ _ _ _. Arguments task_state {G} _ _ _ _ _ _. Arguments sample {G} _ _ _ _ _ _ _ _.
Arguments parent_after {G} _ _ _ _ _. Arguments prob_to_ens {G} _ _ _ _ _ _ _ _ _.

(** np.max(a, axis) - np.min(a, axis), or the nan-ignoring versions: VerifyProb.py 108-113 (axis=-1) and
    VerifyEnsemble.py 110-114 (axis=ensemble_axis) *)
Definition spread_along (skip_nan : bool) (axis : Z) (ens : arr num) : res (arr num) :=
  ax <- norm_axis (length (shape ens)) axis ;;
  let sh := remove_at ax (shape ens) in
  vals <- mapM (fun ix => let ms := map (fun m => get ens (insert_at ax m ix)) (seq 0 (nth ax (shape ens) 0)) in
                 hi <- (if skip_nan then nannmax ms else nmaximum ms) ;;
                 lo <- (if skip_nan then nannmin ms else nminimum ms) ;;
                 Ok (nsub hi lo)) (indices sh) ;;
  Ok (of_list NaN sh vals).
Definition prob_spread (skip_nan : bool) (ens : arr num) : res (arr num) := spread_along skip_nan (-1) ens.
(** VerifyProb.py 99-106 *)
Definition prob_rank_hist (skip_nan : bool) (workers : nat) (map_axis : Z) (rng : nat -> list nat -> nat)
    (members : option nat) (pit_ranks : res (arr num)) (ens : res (arr num)) (o : arr num) : res (arr num) :=
  match members with
  | None => pit_ranks
  | Some _ => e <- ens ;; rank_histogram skip_nan workers map_axis rng e o (-1)
  end.
