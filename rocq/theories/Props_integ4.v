(** Properties C45 and C66, continued: how far the integrated values are from the integrals. *)
From Coq Require Import ZArith String Ascii List Lia Bool Arith QArith Qcanon Permutation Reals Lra.
From Coquelicot Require Import Coquelicot.
From Verif Require Import QcTac QSum Num NdArr Numpy RTier M_ens M_integ P_integ P_integ2 Props_integ P_integ3 Props_integ2 P_integ4.
Import ListNotations.
Open Scope nat_scope.

(** ** C66 *)
(** For every random variable [X], inside the range or not: the integrated mean is the expectation of the part of [X] in ( lo, hi ],
    up to half a bin times the probability of that part.  Mass at the lower end or outside adds nothing.  Missing from the full
    statement: exactly that mass, see c66_lower_end_refuted. *)
Theorem c66_inside_partial : forall pyint expanduser isdir wait v lo hi n w l dir s f a ix F (X : law),
  let x := run (integrate pyint expanduser isdir wait KMean v (Some (Fin lo, Fin hi)) n w l dir) s f in
  settings_ok pyint s -> (lo <= hi)%Qc -> 2 <= n -> valid (shape (v_o v)) ix -> cell_cdf v ix F ->
  (forall y, q2r (F y) = mean_of X (fun t => if Rle_dec t (q2r y) then 1 else 0)%R) -> result x = Ok a ->
  exists m, returned x ix m /\
    (Rabs (q2r m - mean_of X (fun t => if Rle_dec t (q2r lo) then 0 else if Rle_dec t (q2r hi) then t else 0))
     <= (q2r hi - q2r lo) / INR (n - 1) / 2 * (q2r (F hi) - q2r (F lo)))%R.
Proof.
  intros pyint expanduser isdir wait v lo hi n w l dir s f a ix F X x O Hlh Hn V HF HX R.
  pose proof (integrate_value pyint expanduser isdir wait _ v (Some (Fin lo, Fin hi)) lo hi n w l dir s f a ix F O eq_refl R Hn HF V) as E. cbv zeta in E.
  eexists. split; [exists a; split; [exact R|exact E]|].
  rewrite <- (lsum_mean X) by (intros k _; apply HX).
  pose proof (cut_sum X (fun k => q2r (grid lo hi n k)) ((q2r hi - q2r lo) / INR (n - 1))%R) as C. cbv beta in C.
  specialize (C ltac:(intros k; rewrite grid_step_r by assumption; pose proof (step_nonneg lo hi n Hlh Hn); lra) (n - 1)).
  rewrite grid_first, grid_last in C by exact Hn. rewrite !HX. exact C.
Qed.
Print Assumptions c66_inside_partial.

(** ** C45 *)
(** [FR] extends the distribution function to the reals; [I] is the integral that defines the CRPS, over the range *)
Theorem c45_crps_error : forall pyint expanduser isdir wait v lo hi n w l dir s f a ix F FR o I,
  let x := run (integrate pyint expanduser isdir wait KCrps v (Some (Fin lo, Fin hi)) n w l dir) s f in
  settings_ok pyint s -> (lo <= hi)%Qc -> 2 <= n -> valid (shape (v_o v)) ix -> cell_cdf v ix F -> get (v_o v) ix = Fin o -> result x = Ok a ->
  (forall y, FR (q2r y) = q2r (F y)) -> (forall y z, y <= z -> FR y <= FR z)%R -> (forall y, 0 <= FR y <= 1)%R ->
  is_RInt (fun t => (FR t - (if Rlt_dec (q2r o) t then 1 else 0)) * (FR t - (if Rlt_dec (q2r o) t then 1 else 0)))%R (q2r lo) (q2r hi) I ->
  exists q, returned x ix q /\ (Rabs (q2r q - I) <= 3 / 2 * ((q2r hi - q2r lo) / INR (n - 1)))%R.
Proof.
  intros pyint expanduser isdir wait v lo hi n w l dir s f a ix F FR o I x O Hlh Hn V HF Ho R EF Mono Unit HI.
  pose proof (integrate_value pyint expanduser isdir wait _ v (Some (Fin lo, Fin hi)) lo hi n w l dir s f a ix F O eq_refl R Hn HF V) as E. cbv zeta in E.
  eexists. split; [exists a; split; [exact R|exact E]|]. rewrite Ho.
  set (h := ((q2r hi - q2r lo) / INR (n - 1))%R).
  assert (Hstep : forall k, (q2r (grid lo hi n (S k)) - q2r (grid lo hi n k) = h)%R) by (intros k; apply grid_step_r; assumption).
  assert (T : forall N, q2r (trapezium (grid lo hi n) (fun j => brier_of (Fin o) F (grid lo hi n j)) N) = trap FR (q2r o) (fun k => q2r (grid lo hi n k)) h N).
  { assert (Eb : forall y, q2r (brier_of (Fin o) F y) = bs FR (q2r o) (q2r y)).
    { intros y. unfold brier_of, bs, passed. rewrite q2r_mult, q2r_minus, EF. cbn [nlt]. destruct (qltb_spec o y) as [L|L], (Rlt_dec (q2r o) (q2r y)) as [L'|L'].
      - rewrite q2r_1. reflexivity.
      - apply q2r_lt in L. contradiction.
      - apply q2r_lt in L'. exfalso. qlra.
      - rewrite q2r_0. reflexivity. }
    unfold trapezium. induction N as [|N IH]; [cbn [seq trap]; rewrite qsumf_nil, Qcmult_0_r; apply q2r_0|].
    rewrite seq_snoc, qsumf_app, qsumf_cons, qsumf_nil, q2r_mult, !q2r_plus, q2r_mult, q2r_plus, q2r_minus, q2r_0, q2r_half, !Eb, Hstep. rewrite q2r_mult, q2r_half in IH. cbn [trap]. rewrite <- IH. field. }
  rewrite T. apply trap_error_total; try assumption; [apply step_nonneg; assumption|]. rewrite grid_first, grid_last by exact Hn. exact HI.
Qed.
Print Assumptions c45_crps_error.

(** ** Concrete cases *)
(** C66: half of the mass at 0, half at 3, integrated from 0 to 4 in four bins: the part inside has expectation 3/2, the result is 5/4 *)
Definition two_points (p q : R) : law.
Proof.
  refine {| ldom := fun _ => True; mean_of := fun f => ((f p + f q) / 2)%R |}; try (intros; exact Logic.I); intros; try lra.
  specialize (H0 p) as A. specialize (H0 q) as B. lra.
Defined.
Definition w_jumps (y : Qc) : Qc := ((if qleb 0 y then 1 / qz 2 else 0) + (if qleb (qz 3) y then 1 / qz 2 else 0))%Qc.
Definition w_edge : verifier := Verifier (of_list NaN [1] [Fin 1]) (fun x => match x with Fin q => Ok (Arr [1] (fun _ => Fin (w_jumps q))) | _ => Raise ValueError end) None.
Example c66_inside_inhabited : (forall y, q2r (w_jumps y) = mean_of (two_points (q2r 0%Qc) (q2r (qz 3))) (fun t => if Rle_dec t (q2r y) then 1 else 0)%R) /\ cell_cdf w_edge [0] w_jumps /\
  shown (run (integrate w_pyint w_home w_isdir last_ KMean w_edge (Some (Fin 0, Fin (qz 4))) 5 None None None) (w_proc "1" "False") w_files) = Ok [Fin (qz 5 / qz 4)%Qc] /\
  mean_of (two_points (q2r 0%Qc) (q2r (qz 3))) (fun t => if Rle_dec t (q2r 0%Qc) then 0 else if Rle_dec t (q2r (qz 4)) then t else 0)%R = (3 / 2)%R.
Proof.
  split; [|split; [|split]].
  - intros y. cbn [two_points mean_of]. unfold w_jumps. rewrite q2r_plus.
    assert (H : forall c, q2r (if qleb c y then 1 / qz 2 else 0)%Qc = ((if Rle_dec (q2r c) (q2r y) then 1 else 0) / 2)%R).
    { intros c. destruct (qleb_spec c y) as [L|L], (Rle_dec (q2r c) (q2r y)) as [L'|L'].
      - replace (1 / qz 2)%Qc with (/ qz 2)%Qc by (apply Qc_is_canon; reflexivity). rewrite q2r_half. lra.
      - apply q2r_le in L. contradiction.
      - apply q2r_le in L'. exfalso. qlra.
      - rewrite q2r_0. lra. }
    rewrite !H. lra.
  - intros x b E. unfold w_edge in E. cbn [v_cdf] in E. apply (f_equal (fun r => match r with Ok y => get y [0] | _ => NaN end)) in E. cbn [get] in E. symmetry. exact E.
  - ncomp.
  - cbn [two_points mean_of]. rewrite q2r_0. assert (E3 : q2r (qz 3) = 3%R) by (unfold q2r, Q2R; cbn; lra). assert (E4 : q2r (qz 4) = 4%R) by (unfold q2r, Q2R; cbn; lra). rewrite E3, E4.
    destruct (Rle_dec 0 0), (Rle_dec 3 0), (Rle_dec 3 4); lra.
Qed.
(** C45: the uniform distribution on [0, 4] and the observation 1: the CRPS is 7/12, with four bins the result is 3/8 *)
Definition uniform (t : R) : R := Rmax 0 (Rmin 1 (t / 4)).
Lemma w_uniform y : uniform (q2r y) = q2r (qmax 0 (qmin 1 (y / qz 4)))%Qc.
Proof.
  assert (E4 : q2r (qz 4) = 4%R) by (unfold q2r, Q2R; cbn; lra). assert (E : q2r (y / qz 4)%Qc = (q2r y / 4)%R) by (rewrite q2r_div by discriminate; rewrite E4; reflexivity).
  unfold uniform, qmax, qmin. rewrite <- E. set (z := (y / qz 4)%Qc). clearbody z.
  assert (M : q2r (if qleb 1 z then 1 else z)%Qc = Rmin 1 (q2r z)).
  { destruct (qleb_spec 1 z) as [L|L]; [apply q2r_le in L; rewrite q2r_1 in *; rewrite Rmin_left by exact L; reflexivity|]. assert (L' : (z < 1)%Qc) by qlra. apply q2r_lt in L'. rewrite q2r_1 in L'. rewrite Rmin_right by lra. reflexivity. }
  rewrite <- M. set (u := (if qleb 1 z then 1 else z)%Qc). clearbody u.
  destruct (qleb_spec 0 u) as [L|L]; [apply q2r_le in L; rewrite q2r_0 in L; rewrite Rmax_right by exact L; reflexivity|]. assert (L' : (u < 0)%Qc) by qlra. apply q2r_lt in L'. rewrite q2r_0 in *. rewrite Rmax_left by lra. reflexivity.
Qed.
Lemma w_integral : is_RInt (fun t => (uniform t - (if Rlt_dec 1 t then 1 else 0)) * (uniform t - (if Rlt_dec 1 t then 1 else 0)))%R 0 4 (7 / 12)%R.
Proof.
  set (g := fun t => ((uniform t - (if Rlt_dec 1 t then 1 else 0)) * (uniform t - (if Rlt_dec 1 t then 1 else 0)))%R).
  assert (A : is_RInt g 0 1 (1 / 48)%R).
  { apply (is_RInt_ext (fun t => t / 4 * (t / 4))%R).
    - intros t. rewrite Rmin_left, Rmax_right by lra. intros Ht. unfold g, uniform. rewrite Rmin_right, Rmax_right by lra. destruct (Rlt_dec 1 t); lra.
    - replace (1 / 48)%R with (1 ^ 3 / 48 - 0 ^ 3 / 48)%R by lra. apply (is_RInt_derive (fun t => t ^ 3 / 48)%R (fun t => t / 4 * (t / 4))%R).
      + intros t _. auto_derive; [exact Logic.I|]. field.
      + intros t _. apply continuity_pt_filterlim. reg. }
  assert (B : is_RInt g 1 4 (9 / 16)%R).
  { apply (is_RInt_ext (fun t => (t / 4 - 1) * (t / 4 - 1))%R).
    - intros t. rewrite Rmin_left, Rmax_right by lra. intros Ht. unfold g, uniform. rewrite Rmin_right, Rmax_right by lra. destruct (Rlt_dec 1 t); lra.
    - replace (9 / 16)%R with (4 / 3 * (4 / 4 - 1) ^ 3 - 4 / 3 * (1 / 4 - 1) ^ 3)%R by lra. apply (is_RInt_derive (fun t => 4 / 3 * (t / 4 - 1) ^ 3)%R (fun t => (t / 4 - 1) * (t / 4 - 1))%R).
      + intros t _. auto_derive; [exact Logic.I|]. field.
      + intros t _. apply continuity_pt_filterlim. reg. }
  pose proof (is_RInt_Chasles g _ _ _ _ _ A B) as C. replace (7 / 12)%R with (1 / 48 + 9 / 16)%R by lra. exact C.
Qed.
Example c45_crps_error_inhabited : settings_ok w_pyint (w_proc "1" "False") /\ cell_cdf w_ver [0] (fun q => qmax 0 (qmin 1 (q / qz 4)))%Qc /\ get (v_o w_ver) [0] = Fin 1 /\
  (forall y z, y <= z -> uniform y <= uniform z)%R /\ (forall y, 0 <= uniform y <= 1)%R /\
  is_RInt (fun t => (uniform t - (if Rlt_dec (q2r 1%Qc) t then 1 else 0)) * (uniform t - (if Rlt_dec (q2r 1%Qc) t then 1 else 0)))%R (q2r 0%Qc) (q2r (qz 4)) (7 / 12)%R /\
  shown (run (integrate w_pyint w_home w_isdir last_ KCrps w_ver (Some (Fin 0, Fin (qz 4))) 5 None None None) (w_proc "1" "False") w_files) = Ok [Fin (qz 3 / qz 8)%Qc; Fin (qz 11 / qz 32)%Qc].
Proof.
  split; [eapply w_settings; reflexivity|]. split; [exact w_cell|]. split; [reflexivity|]. split.
  { intros y z H. unfold uniform. apply Rmax_le_compat; [lra|]. apply Rmin_glb; [apply Rmin_l|]. apply Rle_trans with (y / 4)%R; [apply Rmin_r|lra]. }
  split. { intros y. unfold uniform. split; [apply Rmax_l|]. apply Rmax_lub; [lra|apply Rmin_l]. }
  split; [|ncomp]. assert (E4 : q2r (qz 4) = 4%R) by (unfold q2r, Q2R; cbn; lra). rewrite q2r_0, q2r_1, E4. exact w_integral.
Qed.
