(** The library of the whole program (M_whole, M_whole2), continued: the parametric distributions of the classes
    VerifyProbGaussian, VerifyProbGamma and VerifyProbGammaHurdle. *)
From Coq Require Import String ZArith List Bool QArith Qcanon.
From Verif Require Import QcTac Num NdArr Numpy M_common M_boot M_ens M_dist Store M_state M_whole.
Import ListNotations.
Open Scope string_scope.
Open Scope list_scope.

(** SciPy's distribution functions and samplers; the generator of one draw is a number *)
Record laws := {
  w_scipy : scipy;
  w_normal : bool -> sampler nat;             (* stats.norm, stats.truncnorm *)
  w_gamma : bool -> sampler nat;              (* stats.gamma, truncgamma_gen() *)
  w_who : nat -> nat -> nat;                  (* which worker is given a task, utils_dist.py 30-44 *)
  w_unif : nat -> list nat -> Qc              (* stats.uniform *)
}.
(** VerifyProb.py 171-175: the ranks of the observations that are zero times a uniform number *)
Definition randomize_zero_ranks (unif : list nat -> Qc) (ranks o : arr num) : res (arr num) :=
  if forallb (fun ix => negb (neqb (get o ix) (Fin 0%Qc)) || nle (Fin 0%Qc) (get ranks ix)) (indices (shape o))
  then Ok (Arr (shape ranks) (fun ix => if neqb (get o ix) (Fin 0%Qc) then nmul (Fin (unif ix)) (get ranks ix) else get ranks ix))
  else Raise ValueError.

Section Laws.
Variable S : settings.
Variable W : laws.
Variable other : string -> list val -> res val.
Variable otherr : string -> list val -> nat -> res val.

Definition prob_lib (n : string) (args : list val) : res val :=
  let oth := other n args in
  match args with
  | [a] => if String.eqb n "square" then Ok (val_of (amap nsq (arr_of a))) else oth
  | [a; b] =>
      if String.eqb n "clip_members" then
        match scalar_of b with Some v => Ok (val_of (clip_members (Some v) (arr_of a))) | None => oth end
      else oth
  | [a; b; c; d] =>
      if String.eqb n "cdf_gaussian" then
        match thr_of c with
        | Some (Some t) => rmap val_of (cdf_gaussian (w_scipy W) (w_workers S) (w_map_axis S) (arr_of a) (arr_of b) t (truthy d))
        | _ => oth
        end
      else if String.eqb n "cdf_gamma_hurdle" then
        match thr_of d with
        | Some (Some t) => rmap val_of (cdf_gamma_hurdle (w_scipy W) (w_workers S) (w_map_axis S) (arr_of a) (arr_of b) (arr_of c) t)
        | _ => oth
        end
      else oth
  | [a; b; c; d; e] =>
      if String.eqb n "cdf_gamma" then
        match thr_of d with
        | Some (Some t) => rmap val_of (cdf_gamma (w_scipy W) (w_workers S) (w_map_axis S) (arr_of a) (arr_of b) (arr_of c) t (truthy e))
        | _ => oth
        end
      else oth
  | _ => oth
  end.
(** The functions that draw random numbers; [d] stands for the state of the generator *)
Definition prob_libr (n : string) (args : list val) (d : nat) : res val :=
  let oth := otherr n args d in
  match args with
  | [a; b] => if String.eqb n "randomize_zero_ranks" then rmap val_of (randomize_zero_ranks (w_unif W d) (arr_of a) (arr_of b)) else oth
  | [a; b; m; mv; tr] =>
      if String.eqb n "sample_dist_gaussian" then
        match count_of m with
        | Some k => rmap val_of (sample_dist_gaussian nat (w_normal W (truthy tr)) (w_workers S) (w_map_axis S) d (w_who W d) (arr_of a) (arr_of b) k (int_of mv))
        | None => oth
        end
      else oth
  | [a; b; c; m; mv; tr] =>
      if String.eqb n "sample_dist_gamma" then
        match count_of m with
        | Some k => rmap val_of (sample_dist_gamma nat (w_gamma W (truthy tr)) (w_workers S) (w_map_axis S) d (w_who W d) (arr_of a) (arr_of b) (arr_of c) k (int_of mv))
        | None => oth
        end
      else oth
  | _ => oth
  end.
End Laws.
