(** Model of averaging and bootstrapping:
    utils_verify.py 223-285 (boot_vec, boot_arr); Verify.py 103-115 (boot_or_avg). *)
From Coq Require Import ZArith List Bool Arith QArith Qcanon.
From Verif Require Import QcTac QSum Num NdArr Numpy M_common.
Import ListNotations.
Open Scope nat_scope.

(** The environment settings read by the bootstrap (PyAnEn/__init__.py 22-31):
    pyanen_skip_nan, pyanen_boot_repeats, pyanen_boot_confidence. *)
Record boot_env := { skip_nan : bool; repeats : nat; confidence : Qc }.

(** utils_verify.py 231-236: the means of the resamples.  [rng r j] is the j-th number drawn for
    the r-th resample.  pbar only drives a progress bar. *)
Definition boot_means (e : boot_env) (rng : nat -> nat -> nat) (pop : list num) (n_samples : nat) : res (list num) :=
  mapM (fun r => s <- choice (rng r) pop n_samples ;;
                 Ok (if skip_nan e then nanmean s else nmean s))
       (seq 0 (repeats e)).

(** utils_verify.py 223-249: [ci[0], sample_mean, ci[1]] with delta = (1-confidence)/2.
    n_samples is a natural number (a negative one makes np.random.choice raise ValueError). *)
Definition boot_vec (e : boot_env) (rng : nat -> nat -> nat) (pop : list num) (n_samples : nat) : res (list num) :=
  means <- boot_means e rng pop n_samples ;;
  let sample_mean := nmean means in
  let delta := ((1 - confidence e) / qz 2)%Qc in
  lo <- np_quantile means delta ;;
  hi <- np_quantile means (1 - delta)%Qc ;;
  Ok [lo; sample_mean; hi].

(** utils_verify.py 252-285.  [rng c] serves the c-th column (np.apply_along_axis runs through
    the columns in order; the theorems hold for every rng).  reshape(-1, K) is rejected for K = 0. *)
Definition boot_arr (e : boot_env) (rng : nat -> nat -> nat -> nat)
    (metric : arr num) (sample_axis : option (list Z)) (n_samples : nat) : res (arr num) :=
  let axes := match sample_axis with None => all_axes (length (shape metric)) | Some l => l end in
  mt <- move_loop (zsort axes) 0 metric ;;
  let (m, to_axis) := mt : arr num * nat in
  let shape_to_keep := skipn to_axis (shape m) in
  let K := prod shape_to_keep in
  match K with
  | 0 => Raise ValueError
  | _ =>
    let N := prod (shape m) / K in
    let m2 := reshape [N; K] m in
    cols <- mapM (fun c => boot_vec e (rng c) (map (fun r => get m2 [r; c]) (seq 0 N)) n_samples) (seq 0 K) ;;
    let intervals := Arr [3; K] (fun ix => match ix with [i; c] => nth i (nth c cols []) NaN | _ => NaN end) in
    Ok (reshape (3 :: shape_to_keep) intervals)
  end.

(** Verify.py 103-115 *)
Definition boot_or_avg (e : boot_env) (rng : nat -> nat -> nat -> nat)
    (avg_axis : option (list Z)) (boot_samples : option nat) (metric : arr num) : res (arr num) :=
  match boot_samples with
  | None => if skip_nan e then np_nanmean avg_axis metric else np_mean avg_axis metric
  | Some n => boot_arr e rng metric avg_axis n
  end.
