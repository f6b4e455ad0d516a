(** Values of the whole program, continued: parametric distributions, metrics of an event with a known probability. *)
From Coq Require Import String ZArith List Lia Bool Arith QArith Qcanon.
From Verif Require Import QcTac QSum Num NdArr Numpy M_common NdAxes M_boot M_determ M_ens M_dist M_roc
  Spec P_boot P_prob P_dist Store M_state Spec_result M_whole M_whole2 M_whole3 Spec_whole Spec_whole3 P_whole.
Import ListNotations.
Open Scope string_scope.
Open Scope list_scope.
Open Scope nat_scope.

(** ** The forecast of a cell *)
Definition truncated_gamma (f : forecast) : Prop := match f with Gamma _ _ _ true => True | _ => False end.
Lemma serial_cell S f t ix : serial_at S f (at_cell f t ix) = cell_cdf S f ix t.
Proof. destruct f as [mu sg [|]|mu sg sh [|]|p mu sg]; reflexivity. Qed.
Lemma worker_cell S f t ix : ~ truncated_gamma f -> worker_at S f (at_cell f t ix) = cell_cdf S f ix t.
Proof. intros H. rewrite <- serial_cell. destruct f as [mu sg [|]|mu sg sh [|]|p mu sg]; try reflexivity. elim H. exact I. Qed.

Section Whole.
Variable S : settings.
Variable W : laws.
Variable other : string -> list M_state.val -> res M_state.val.
Notation plib := (prob_lib S W other).
Notation mlib := (more_lib S plib).
Notation lib := (whole_lib S mlib).

Lemma cdf_of_forecast x f t b : forecast_of x = Some f -> thr_of t = Some (Some b) ->
  cdf_of lib x t = rmap val_of (M_dist.cdf_below (w_scipy W) (w_workers S) (w_map_axis S) f b).
Proof.
  intros F T. unfold forecast_of in F. unfold cdf_of, part. destruct (cl x); try discriminate F.
  - destruct (field (a_f x) "unshifted_mu") as [mu|]; [|discriminate F]. destruct (field (a_f x) "sigma") as [sg|]; [|discriminate F]. destruct (field (a_f x) "shift") as [sh|]; [|discriminate F].
    cbn [option_map] in F. injection F as <-. cbn [bind].
    assert (E : lib "cdf_gamma" [mu; sg; sh; t; a_trunc x] = plib "cdf_gamma" [mu; sg; sh; t; a_trunc x]) by (cbn [whole_lib]; destruct (axes_of sh), (num_of t), (num_of (a_trunc x)); reflexivity).
    rewrite E. cbn [prob_lib]. rewrite T. reflexivity.
  - destruct (field (a_f x) "pop") as [pp|]; [|discriminate F]. destruct (field (a_f x) "mu") as [mu|]; [|discriminate F]. destruct (field (a_f x) "sigma") as [sg|]; [|discriminate F].
    cbn [option_map] in F. injection F as <-. cbn [bind].
    change (lib "cdf_gamma_hurdle" [pp; mu; sg; t]) with (plib "cdf_gamma_hurdle" [pp; mu; sg; t]). cbn [prob_lib]. rewrite T. reflexivity.
  - destruct (field (a_f x) "mu") as [mu|]; [|discriminate F]. destruct (field (a_f x) "sigma") as [sg|]; [|discriminate F].
    cbn [option_map] in F. injection F as <-. cbn [bind].
    change (lib "cdf_gaussian" [mu; sg; t; a_trunc x]) with (plib "cdf_gaussian" [mu; sg; t; a_trunc x]). cbn [prob_lib]. rewrite T. reflexivity.
Qed.

(** parameters, settings and a threshold that the functions accept *)
Definition forecast_ready (x : obj) (f : forecast) (t : M_state.val) (b : thr) : Prop :=
  forecast_of x = Some f /\ params_shape (arr_shape (a_o x)) f /\ arr_shape (a_o x) <> [] /\ run_ok (arr_shape (a_o x)) (w_workers S) (w_map_axis S) /\
  (truncated_gamma f -> w_workers S = 1) /\ thr_of t = Some (Some b) /\ thr_fits b (arr_shape (a_o x)).
Definition in_unit (q : Qc) : Prop := (0 <= q)%Qc /\ (q <= 1)%Qc.

Lemma forecast_cdf x f t b : forecast_ready x f t b ->
  exists p, cdf_of lib x t = Ok (val_of p) /\ shape p = arr_shape (a_o x) /\
    forall ix, valid (arr_shape (a_o x)) ix -> get p ix = clip1 (cell_cdf (w_scipy W) f ix (P_prob.thr_at b ix)).
Proof.
  intros (F & P & Ne & R & TG & T & TF). rewrite (cdf_of_forecast x f t b F T).
  destruct (cdf_below_ok (w_scipy W) (w_workers S) (w_map_axis S) f _ b P Ne ltac:(destruct b; exact TF) R) as (p & E). exists p.
  destruct (cdf_below_inv _ _ _ _ _ _ _ P E) as (_ & Sp & Gp). rewrite E. split; [reflexivity|]. split; [exact Sp|]. intros ix V. rewrite (Gp ix V).
  assert (Z : P_dist.thr_at b ix = P_prob.thr_at b ix) by (destruct b; reflexivity). rewrite Z.
  destruct (Nat.eqb_spec (w_workers S) 1) as [_|N]; [rewrite serial_cell; reflexivity|]. rewrite worker_cell; [reflexivity|]. intros H. apply N, TG, H.
Qed.
Lemma event_prob_not_determ x (over : bool) t b : cl x <> CDeterm -> thr_of t = Some (Some b) ->
  event_prob lib x (fst (args over t)) (snd (args over t)) = if over then (p <- cdf_of lib x t ;; lib "one_minus" [p]) else cdf_of lib x t.
Proof. intros C T. unfold event_prob. destruct (cl x); try (elim C; reflexivity); destruct over, t; try discriminate T; reflexivity. Qed.
Lemma forecast_class x f : forecast_of x = Some f -> cl x <> CDeterm /\ cl x <> CEnsemble /\ is_prob (cl x) = true.
Proof. unfold forecast_of. destruct (cl x); try discriminate; intros _; (split; [discriminate|split; [discriminate|reflexivity]]). Qed.
Lemma forecast_event x f t b (over : bool) : forecast_ready x f t b ->
  exists v, event_prob lib x (fst (args over t)) (snd (args over t)) = Ok v /\ arr_shape v = arr_shape (a_o x) /\
    forall ix, valid (arr_shape (a_o x)) ix ->
      (forall q, cell_cdf (w_scipy W) f ix (P_prob.thr_at b ix) = Fin q -> in_unit q -> reads v ix = Fin (event_share over q)) /\
      (cell_cdf (w_scipy W) f ix (P_prob.thr_at b ix) = NaN -> reads v ix = NaN).
Proof.
  intros H. destruct (forecast_cdf x f t b H) as (p & E & Sp & Gp). destruct H as (F & _ & _ & _ & _ & T & _).
  destruct (forecast_class x f F) as (C & _). rewrite (event_prob_not_determ x over t b C T), E. destruct over; cbn [bind].
  - exists (val_of (amap (nsub (Fin 1%Qc)) (arr_of (val_of p)))). split; [reflexivity|]. split; [exact Sp|]. intros ix V.
    rewrite reads_val by (cbn [amap shape]; rewrite shape_of_val, Sp; exact V). cbn [amap get]. change (get (arr_of (val_of p)) ix) with (reads (val_of p) ix).
    rewrite reads_val by (rewrite Sp; exact V). rewrite (Gp ix V). split; [intros q -> U; rewrite clip1_id by exact U; reflexivity|intros ->; reflexivity].
  - exists (val_of p). split; [reflexivity|]. split; [exact Sp|]. intros ix V. rewrite reads_val by (rewrite Sp; exact V). rewrite (Gp ix V).
    split; [intros q -> U; rewrite clip1_id by exact U; reflexivity|intros ->; reflexivity].
Qed.
Lemma event_share_unit over q : in_unit q -> in_unit (event_share over q).
Proof. intros [A B]. destruct over; [|split; assumption]. unfold event_share. split; qlra. Qed.
End Whole.
