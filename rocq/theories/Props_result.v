(** Property C83: what every metric of every class returns. *)
From Coq Require Import String Ascii QArith Qcanon ZArith Lia List Bool.
From Verif Require Import Num M_state Spec_state P_state Spec_result P_result Props_state.
Import ListNotations.
Open Scope string_scope.
Open Scope list_scope.
Open Scope nat_scope.

Section Oracles.
Variable lib : string -> list val -> res val.
Variable libr : string -> list val -> nat -> res val.
Variable str_of : val -> string.
Variable dumps : val -> string.
Variable loads : string -> res val.
Variable expanduser : string -> string.
Variable resolve : string -> path.
Variable points : val -> val -> val -> res (list num).
Variable less_memory : bool.
Variable integrate_wdir : option path.
Variable cwd : path.
Variable rng : nat -> nat.

Notation step := (step lib libr str_of dumps loads expanduser resolve points less_memory integrate_wdir cwd rng).
Notation steps := (steps lib libr str_of dumps loads expanduser resolve points less_memory integrate_wdir cwd rng).
Notation construct := (construct lib expanduser resolve).
Notation result := (result lib libr points).

(** With saving off, a metric of any class with any settings returns its formula on the object's forecasts,
    observations and settings, with the next random numbers; it changes neither the object nor the disk.  A
    save_name does not matter (prob_to_ens and pit take none). *)
Theorem c83_saving_off : forall m sn s,
  mem_off less_memory (ob s) -> truthy (a_wd (ob s)) = false -> key_ok m ->
  (sn = None \/ (m <> MEns /\ m <> MPit)) ->
  let d i := rng (pos s + i) in
  fst (step (OMetric m sn) s) = result (ob s) m d /\
  ob (snd (step (OMetric m sn) s)) = ob s /\ dk (snd (step (OMetric m sn) s)) = dk s.
Proof.
  intros m sn s M T K NS d.
  assert (E : exists v, step (OMetric m sn) s =
    metric lib libr str_of dumps loads resolve points less_memory integrate_wdir cwd rng m v s).
  { destruct sn as [v|]; [|exists (default_save m); unfold M_state.step; destruct m; reflexivity]. destruct NS as [NS|[N1 N2]]; [discriminate|].
    exists v. destruct m; congruence || reflexivity. }
  destruct E as [v ->].
  destruct (key_to_name str_of m v K) as [nm N].
  destruct (metric_result lib libr str_of dumps loads expanduser resolve points less_memory integrate_wdir cwd rng m v nm s M T K N)
    as [j ->]. repeat split.
Qed.

(** rmse is the square root of the mean squared error. *)
Theorem c83_rmse : forall sn s,
  mem_off less_memory (ob s) -> truthy (a_wd (ob s)) = false ->
  fst (step (ORmse sn) s) = (v <- result (ob s) MSqErr (fun i => rng (pos s + i)) ;; lib "sqrt" [v]).
Proof.
  intros sn s M T.
  assert (E : exists v, step (ORmse sn) s =
    rmse lib libr str_of dumps loads resolve points less_memory integrate_wdir cwd rng v s)
    by (destruct sn; eexists; reflexivity).
  destruct E as [v ->]. destruct (key_to_name str_of MSqErr v ltac:(constructor)) as [nm N].
  destruct (rmse_result lib libr str_of dumps loads expanduser resolve points less_memory integrate_wdir cwd rng v nm s M T N)
    as [j ->]. reflexivity.
Qed.

(** With saving on: after any history of calls and accepted settings from a constructor with
    start_from_scratch=True, a call that draws no random number returns the formula on the settings the object
    has then, whatever was saved on the way. *)
Theorem c83_history : forall x k x1 k1 os m n d,
  text_faithful str_of -> pickle_faithful dumps loads ->
  (forall s, expanduser (expanduser s) = expanduser s) ->
  mem_off less_memory x -> disk_wf k -> a_scratch x = VBool true ->
  construct x k = (Ok x1, k1) -> Forall calm os -> key_ok m ->
  let s := snd (steps os (mkSt x1 k1 n [])) in
  random_call (ob s) m = false ->
  fst (step (OMetric m None) s) = result (ob s) m d /\
  (m = MSqErr -> fst (step (ORmse None) s) = (v <- result (ob s) m d ;; lib "sqrt" [v])).
Proof.
  intros x k x1 k1 os m n d TX PK EX M WF S H F K s R.
  destruct (construct_inv lib libr str_of dumps expanduser resolve points less_memory x k x1 k1 k EX M WF S H) as [IN _].
  destruct (calm_steps lib libr str_of dumps loads expanduser resolve points less_memory integrate_wdir cwd rng TX PK os
    (mkSt x1 k1 n []) (mkSt (put_wd VNone x1) k n []) F IN eq_refl) as [I1 O1].
  fold s in I1, O1. set (t := snd (steps os (mkSt (put_wd VNone x1) k n []))) in *.
  assert (Mt : mem_off less_memory (ob t)) by (rewrite O1; exact (i_mem _ _ _ _ _ _ _ _ _ _ I1)).
  assert (Tt : truthy (a_wd (ob t)) = false) by (rewrite O1; reflexivity).
  assert (D : forall d', result (ob t) m d' = result (ob s) m d).
  { intro d'. rewrite O1, result_wd. apply result_det, R. }
  split.
  - destruct (calm_step lib libr str_of dumps loads expanduser resolve points less_memory integrate_wdir cwd rng TX PK
      (OMetric m None) s t K I1 O1) as (_ & _ & E). rewrite (E R).
    destruct (c83_saving_off m None t Mt Tt K (or_introl eq_refl)) as [-> _]. apply D.
  - intros ->.
    destruct (calm_step lib libr str_of dumps loads expanduser resolve points less_memory integrate_wdir cwd rng TX PK
      (ORmse None) s t I I1 O1) as (_ & _ & E). rewrite (E R).
    rewrite (c83_rmse None t Mt Tt), D. reflexivity.
Qed.
End Oracles.
Print Assumptions c83_saving_off.
Print Assumptions c83_rmse.
Print Assumptions c83_history.

(** Witnesses with the free library: the spread of a Gaussian verifier with bootstrapping, without saving; its two
    draws. *)
Definition w_gauss_off : obj := put_boot (VInt 50) (put_wd VNone (w_gauss true)).
Example c83_saving_off_witness :
  fst (w_step (OMetric MSpread None) (start w_gauss_off w_root)) =
    Ok (VTuple [VStr "boot_or_avg"; VInt 1;
      VTuple [VStr "spread"; VTuple [VStr "sample_dist_gaussian"; VInt 0; VArr [2; 3] 0; VArr [2; 3] 2; VInt 10; VInt (-1); VBool false];
              VInt (-1)]; VNone; VInt 50]) /\
  fst (w_step (OMetric MSpread None) (start w_gauss_off w_root)) =
    result w_lib w_libr w_points w_gauss_off MSpread (fun i => i).
Proof. split; reflexivity. Qed.
(** the CRPS of a hurdle verifier integrates Brier scores *)
Example c83_integral_witness :
  fst (w_step (OMetric MCrps None) (start w_hurdle w_root)) =
    result w_lib w_libr w_points w_hurdle MCrps (fun i => i) /\
  (exists a b, result w_lib w_libr w_points w_hurdle MCrps (fun i => i) =
    Ok (VTuple [VStr "boot_or_avg"; VTuple [VStr "integrate_crps"; VTuple [VFloat NInf; VFloat PInf]; VTuple [a; b];
        VArr [2; 3] 1; VInt 20]; VNone]) /\ a <> b).
Proof. split; [reflexivity|]. do 2 eexists. split; [reflexivity|discriminate]. Qed.
(** a history that saves: the squared error is not an old one *)
Example c83_history_witness :
  let os := [OMetric MSqErr None; OAvg (VInt 0); OMetric MCrps None] in
  exists x1 k1, w_construct (w_ens true) w_used = (Ok x1, k1) /\ Forall calm os /\
    fst (w_step (OMetric MSqErr None) (snd (w_steps os (start x1 k1)))) =
      Ok (VTuple [VStr "boot_or_avg"; VTuple [VStr "sub_sq"; VTuple [VStr "collapse"; VFun 0; VArr [2; 3; 4] 0; VInt (-1)];
                  VArr [2; 3] 1]; VTuple [VInt 0]]).
Proof. do 2 eexists. split; [reflexivity|]. split; [repeat constructor|vm_compute; reflexivity]. Qed.
