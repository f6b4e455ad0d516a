(** What every metric of every class is: written as a formula over the library
    functions, without files, names or nested calls. *)
From Coq Require Import String QArith Qcanon ZArith List Bool.
From Verif Require Import Num M_state.
Import ListNotations.
Open Scope string_scope.
Open Scope list_scope.

Section Results.
Variable lib : string -> list val -> res val.
Variable libr : string -> list val -> nat -> res val.
Variable points : val -> val -> val -> res (list num).

(** A field of the forecast dictionary. *)
Definition part (x : obj) (k : string) : res val :=
  match field (a_f x) k with Some v => Ok v | None => Raise KeyError end.

(** A statistic with or without bootstrap samples. *)
Definition with_boot (x : obj) (n : string) (args : list val) (d : nat) : res val :=
  if is_none (a_boot x) then lib n args else libr n (args ++ [a_boot x]) d.

(** P(forecast below t). *)
Definition cdf_of (x : obj) (t : val) : res val :=
  match cl x with
  | CDeterm => Raise NotImplementedError
  | CEnsemble => lib "ens_to_prob" [a_f x; a_eaxis x; VNone; t]
  | CGamma =>
      mu <- part x "unshifted_mu" ;; sg <- part x "sigma" ;; sh <- part x "shift" ;;
      lib "cdf_gamma" [mu; sg; sh; t; a_trunc x]
  | CHurdle =>
      pop <- part x "pop" ;; mu <- part x "mu" ;; sg <- part x "sigma" ;;
      lib "cdf_gamma_hurdle" [pop; mu; sg; t]
  | CGaussian =>
      mu <- part x "mu" ;; sg <- part x "sigma" ;; lib "cdf_gaussian" [mu; sg; t; a_trunc x]
  end.
(** P(event), the event being "below a threshold" or "over a threshold". *)
Definition event_prob (x : obj) (over below : val) : res val :=
  match cl x, over, below with
  | CDeterm, _, _ => Raise NotImplementedError
  | _, VNone, VNone => Raise AssertionError
  | _, VNone, t => cdf_of x t
  | _, t, VNone => p <- cdf_of x t ;; lib "one_minus" [p]
  | _, _, _ => Raise AssertionError
  end.
(** Forecast probability and observed outcome of an event. *)
Definition event_pair (x : obj) (over below : val) (k : val -> val -> res val) : res val :=
  p <- event_prob x over below ;;
  b <- lib "binarize_obs" [a_o x; over; below] ;; k p b.
Definition brier_of (x : obj) (over below : val) : res val :=
  event_pair x over below (fun p b => lib "sub_sq" [p; b]).

(** Integrals over the abscissae, of the hurdle class. *)
Definition integral (x : obj) (what : string) (F : num -> res val) : res val :=
  xs <- points (a_o x) (a_range x) (a_bins x) ;;
  vs <- mapM F xs ;;
  lib what [VTuple (map VFloat xs); VTuple vs; a_o x; a_bins x].

(** The deterministic forecast. *)
Definition mean_of (x : obj) : res val :=
  match cl x with
  | CDeterm => lib "copy" [a_f x]
  | CEnsemble => lib "copy" [a_fc x]
  | CGamma | CGaussian => mu <- part x "mu" ;; lib "copy" [mu]
  | CHurdle => integral x "integrate_mean" (fun q => cdf_of x (VFloat q))
  end.
Definition point_forecast (x : obj) : res val :=
  match cl x with CDeterm => Ok (a_f x) | CEnsemble => Ok (a_fc x) | _ => mean_of x end.
Definition error_of (x : obj) (n : string) : res val :=
  f <- point_forecast x ;; lib n [f; a_o x].

Definition variance_of (x : obj) : res val :=
  match cl x with
  | CDeterm => Raise NotImplementedError
  | CEnsemble => lib "var" [a_f x; a_eaxis x]
  | CGamma | CGaussian => s <- part x "sigma" ;; lib "square" [s]
  | CHurdle => integral x "integrate_variance" (fun q => cdf_of x (VFloat q))
  end.
Definition crps_of (x : obj) : res val :=
  match cl x with
  | CDeterm => Raise NotImplementedError
  | CEnsemble => lib "crps_ensemble" [a_o x; a_f x; a_eaxis x]
  | CGamma =>
      if truthy (a_trunc x) then Raise NotImplementedError
      else mu <- part x "unshifted_mu" ;; sg <- part x "sigma" ;; sh <- part x "shift" ;;
           lib "crps_gamma" [mu; sg; sh; a_o x]
  | CGaussian =>
      mu <- part x "mu" ;; sg <- part x "sigma" ;;
      lib (if truthy (a_trunc x) then "crps_truncated_gaussian" else "crps_gaussian") [a_o x; mu; sg]
  | CHurdle => integral x "integrate_crps" (fun q => brier_of x VNone (VFloat q))
  end.

(** Sampled members, PIT values. *)
Definition members_of (x : obj) (d : nat) : res val :=
  let sampled n args :=
    if is_none (a_members x) then Raise AssertionError
    else e <- libr n (args ++ [a_members x; a_move x; a_trunc x]) d ;;
         if is_none (a_clip x) then Ok e else lib "clip_members" [e; a_clip x] in
  match cl x with
  | CDeterm | CEnsemble => Raise AttributeError
  | CHurdle => Raise NotImplementedError
  | CGamma =>
      mu <- part x "unshifted_mu" ;; sg <- part x "sigma" ;; sh <- part x "shift" ;;
      sampled "sample_dist_gamma" [mu; sg; sh]
  | CGaussian => mu <- part x "mu" ;; sg <- part x "sigma" ;; sampled "sample_dist_gaussian" [mu; sg]
  end.
Definition pit_of (x : obj) (d : nat) : res val :=
  match cl x with
  | CDeterm | CEnsemble => Raise AttributeError
  | _ => r <- event_prob x VNone (a_o x) ;;
         if is_true (a_pitr x) then libr "randomize_zero_ranks" [r; a_o x] d else Ok r
  end.

(** Average over the requested axes. *)
Definition averaged_over (x : obj) (v : res val) (d : nat) : res val :=
  v <- v ;; with_boot x "boot_or_avg" [v; a_avg x] d.

(** The metrics; [d 0], [d 1] are the next random draws. *)
Definition result (x : obj) (m : meth) (d : nat -> nat) : res val :=
  match m with
  | MDeterm => mean_of x
  | MVariance => variance_of x
  | MCdf over below => event_prob x over below
  | MSharp over below => event_prob x over below
  | MEns => members_of x (d 0)
  | MPit => pit_of x (d 0)
  | MCorr => f <- mean_of x ;; with_boot x "corr" [f; a_o x; a_avg x] (d 0)
  | MDecomp over below => event_pair x over below (fun p b => with_boot x "brier_decomp" [p; b; a_avg x] (d 0))
  | MRoc over below => event_pair x over below (fun p b => lib "calculate_roc" [p; b])
  | MRank =>
      match cl x with
      | CDeterm => Raise NotImplementedError
      | CEnsemble => libr "rank_histogram" [a_f x; a_o x; a_eaxis x] (d 0)
      | _ => if is_none (a_members x) then pit_of x (d 0)
             else e <- members_of x (d 0) ;; libr "rank_histogram" [e; a_o x; VInt (-1)] (d 1)
      end
  | MIouD over below => f <- point_forecast x ;; lib "iou_determ" [f; a_o x; a_avg x; over; below]
  | MIouP over below =>
      match cl x with
      | CDeterm => Raise NotImplementedError
      | _ =>
          if is_seq over && is_seq below then
            match items over, items below with
            | o0 :: o1 :: l, b0 :: b1 :: l' =>
                match l, l' with
                | _ :: _, _ :: _ => Raise AssertionError
                | _, _ => event_pair x o0 b0 (fun p b => lib "iou_prob" [p; b; a_avg x; o1; b1])
                end
            | [_; _], [] | [], [_; _] => Raise IndexError
            | [o0], [b0; _] | [o0; _], [b0] => event_pair x o0 b0 (fun _ _ => Raise IndexError)
            | _, _ => Raise AssertionError
            end
          else Raise AssertionError
      end
  | MCrps => averaged_over x (crps_of x) (d 0)
  | MError => averaged_over x (error_of x "sub") (d 0)
  | MSqErr => averaged_over x (error_of x "sub_sq") (d 0)
  | MAbErr => averaged_over x (error_of x "sub_abs") (d 0)
  | MBrier over below => averaged_over x (brier_of x over below) (d 0)
  | MSpread =>
      match cl x with
      | CDeterm => Raise NotImplementedError
      | CEnsemble => averaged_over x (lib "spread" [a_f x; a_eaxis x]) (d 0)
      | _ => averaged_over x (e <- members_of x (d 0) ;; lib "spread" [e; VInt (-1)]) (d 1)
      end
  | MRel nbins over below =>
      v <- event_pair x over below (fun p b => lib "reliability_split" [p; b; nbins; a_avg x]) ;;
      with_boot x "post_reliability" [v] (d 0)
  | MSS nbins =>
      v <- variance_of x ;; e <- error_of x "sub_sq" ;;
      s <- lib "spread_skill_split" [v; e; nbins; a_avg x] ;;
      with_boot x "post_binned_spread_skill" [s] (d 0)
  end.
End Results.
