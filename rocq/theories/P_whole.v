(** Values of the whole program: arrays behind Python values, averages, probabilities of events. *)
From Coq Require Import String ZArith List Lia Bool Arith QArith Qcanon.
From Verif Require Import QcTac QSum Num NdArr Numpy M_common NdAxes M_boot M_determ M_ens M_crpsens M_iou M_roc M_dist M_ps M_common Spec_roc Props_roc
  Spec P_boot P_rank P_prob P_ps Props_avg Props_prob Props_ps Store M_state Spec_result M_whole Spec_whole.
Import ListNotations.
Open Scope string_scope.
Open Scope list_scope.
Open Scope nat_scope.

(** ** Arrays behind values *)
Definition reads (v : M_state.val) (ix : list nat) : num := get (arr_of v) ix.
Lemma arr_of_val (a : arr num) : arr_eq (arr_of (val_of a)) a.
Proof.
  split; [reflexivity|]. intros ix V. cbn [arr_of val_of of_list get shape] in *. rewrite content_store. apply nth_ravel, V.
Qed.
Lemma reads_val a ix : valid (shape a) ix -> reads (val_of a) ix = get a ix.
Proof. intros V. apply (arr_of_val a), V. Qed.
Lemma shape_of_val a : shape (arr_of (val_of a)) = shape a. Proof. reflexivity. Qed.
Lemma arr_shape_of v : shape (arr_of v) = arr_shape v. Proof. destruct v; reflexivity. Qed.
Lemma ravel_of_val (a : arr num) : ravel (arr_of (val_of a)) = ravel a.
Proof. apply ravel_eq, arr_of_val. Qed.

Lemma kept_valid sh ns ix : valid sh ix -> valid (kept (length sh) ns sh) (kept (length sh) ns ix).
Proof.
  intros V. rewrite (kept_unsel (length sh) ns sh eq_refl), (kept_unsel (length sh) ns ix (valid_length _ _ V)). apply valid_unsel, V.
Qed.
Lemma Cells_valid sh ns k L : Cells sh ns k L -> L <> [] -> valid (kept (length sh) ns sh) k.
Proof.
  intros [_ H] N. destruct L as [|ix L]; [contradiction|]. destruct (proj1 (H ix) (or_introl eq_refl)) as [V <-]. apply kept_valid, V.
Qed.

Section Whole.
Variable S : settings.
Variable other : string -> list M_state.val -> res M_state.val.
Variable otherr : string -> list M_state.val -> nat -> res M_state.val.
Notation lib := (whole_lib S other).
Notation libr := (whole_libr S otherr).

(** ** Averages *)
Lemma lib_avg w avg ax : axes_of avg = Some ax -> lib "boot_or_avg" [w; avg] = rmap val_of (boot_or_avg (w_boot S) (fun _ _ _ => O) ax None (arr_of w)).
Proof. intros H. unfold whole_lib. rewrite H. reflexivity. Qed.
Lemma averaged_value w avg ax ns : axes_of avg = Some ax -> axes_are (length (shape (arr_of w))) ax ns ->
  exists v, lib "boot_or_avg" [w; avg] = Ok v /\ is_arr v = true /\ arr_shape v = kept (length (shape (arr_of w))) ns (shape (arr_of w)) /\
    forall k L G, Cells (shape (arr_of w)) ns k L -> L <> [] -> (forall ix, In ix L -> reads w ix = Fin (G ix)) ->
      reads v k = Fin (Spec.mean_of (map G L)).
Proof.
  intros A X. destruct (proj2 (avg_accepts (w_boot S) (fun _ _ _ => O) ax (arr_of w)) (ex_intro _ ns X)) as [r E].
  destruct (c11_average_over_exact_axes (w_boot S) (fun _ _ _ => O) ax (arr_of w)) as [_ H]. destruct (H r ns E X) as [Sr G].
  exists (val_of r). split; [rewrite (lib_avg _ _ _ A), E; reflexivity|]. split; [reflexivity|]. split; [exact Sr|].
  intros k L g C N F. rewrite reads_val by (rewrite Sr; exact (Cells_valid _ _ _ _ C N)).
  destruct (G k L C) as [_ G2]. rewrite (G2 N).
  - f_equal. f_equal. apply map_ext_in. intros ix I. unfold reads in F. rewrite (F ix I). reflexivity.
  - intros ix I. exists (g ix). apply F, I.
Qed.

(** ** Probability and outcome of an event *)
Definition args (over : bool) (t : M_state.val) : M_state.val * M_state.val := if over then (t, VNone) else (VNone, t).
Lemma event_prob_value x n t b (over : bool) :
  cl x = CEnsemble -> w_method S = Moments ->
  let f := arr_of (a_f x) in let o := arr_of (a_o x) in
  fits o f (int_of (a_eaxis x)) n -> 0 < nth n (shape f) 0 -> enough_workers (w_workers S) (shape o) ->
  thr_of t = Some (Some b) -> thr_fits b (shape o) ->
  exists v, event_prob lib x (fst (args over t)) (snd (args over t)) = Ok v /\ is_arr v = true /\ arr_shape v = shape o /\
    forall ix, valid (shape o) ix -> reads v ix = Fin (member_share over (thr_at b ix) (members_at n f ix)).
Proof.
  intros C M f o [Ax D] Pos W T Fit.
  assert (Fit' : thr_fits b (drop_axis n (shape f))) by (rewrite D; exact Fit).
  assert (W' : prob_par_ok (drop_axis n (shape f)) (w_workers S)) by (rewrite D; exact W).
  destruct (c22_fraction (w_workers S) f (int_of (a_eaxis x)) n b Ax Fit' Pos W') as (lo & hi & El & Eh & Sl & Sh & G).
  rewrite <- c22_function in El, Eh. rewrite D in Sl, Sh, G.
  assert (E0 : cdf_of lib x t = Ok (val_of lo)).
  { unfold cdf_of. rewrite C. cbn [whole_lib]. change ("ens_to_prob" =? "ens_to_prob")%string with true. cbn [thr_of]. rewrite T, M. cbv iota. fold f. rewrite El. reflexivity. }
  destruct over; cbn [args fst snd].
  - exists (val_of (amap (nsub (Fin 1%Qc)) (arr_of (val_of lo)))). split; [|split; [reflexivity|split; [exact Sl|]]].
    + assert (X : event_prob lib x t VNone = (p <- cdf_of lib x t ;; lib "one_minus" [p])) by (unfold event_prob; rewrite C; destruct t; try discriminate T; reflexivity).
      rewrite X, E0. reflexivity.
    + intros ix V. rewrite reads_val by (cbn [amap shape]; rewrite shape_of_val, Sl; exact V). cbn [amap get].
      change (get (arr_of (val_of lo)) ix) with (reads (val_of lo) ix). rewrite reads_val by (rewrite Sl; exact V).
      destruct (G ix V) as (p & q & -> & _ & Ep & Eq & _ & _ & _ & _ & _ & Sum). unfold member_share. rewrite <- Eq. cbn [nsub nadd nopp]. f_equal. rewrite <- Sum. ring.
  - exists (val_of lo). split; [|split; [reflexivity|split; [exact Sl|]]].
    + assert (X : event_prob lib x VNone t = cdf_of lib x t) by (unfold event_prob; rewrite C; destruct t; try discriminate T; reflexivity).
      rewrite X. exact E0.
    + intros ix V. rewrite reads_val by (rewrite Sl; exact V). destruct (G ix V) as (p & q & -> & _ & Ep & _). rewrite Ep. reflexivity.
Qed.
Lemma outcome_value x t b (over : bool) :
  let o := arr_of (a_o x) in thr_of t = Some (Some b) -> thr_fits b (shape o) ->
  exists v, lib "binarize_obs" [a_o x; fst (args over t); snd (args over t)] = Ok v /\ is_arr v = true /\ arr_shape v = shape o /\
    forall ix, valid (shape o) ix -> reads v ix = Fin (indicator (observed over (thr_at b ix) (get o ix))).
Proof.
  intros o T Fit.
  assert (E : exists r, binarize_obs o (if over then Some b else None) (if over then None else Some b) = Ok r /\ shape r = shape o /\
    forall ix, get r ix = observed over (thr_at b ix) (get o ix)).
  { unfold binarize_obs. destruct b as [y|a|]; cbn [thr_fits] in Fit; [| |contradiction]; destruct over; cbn; try (eexists; split; [reflexivity|split; reflexivity]);
    rewrite Fit; rewrite (proj2 (list_eqb_spec (shape o) (shape o)) eq_refl); eexists; (split; [reflexivity|split; reflexivity]). }
  destruct E as (r & E & Sr & Gr). exists (val_of (amap b2n r)). split; [|split; [reflexivity|split; [exact Sr|]]].
  - assert (TN : thr_of VNone = Some None) by reflexivity. destruct over; cbn [args fst snd]; cbn [whole_lib]; change ("binarize_obs" =? "binarize_obs")%string with true; cbv iota; rewrite T, TN; fold o; rewrite E; reflexivity.
  - intros ix V. rewrite reads_val by (cbn [amap shape]; rewrite Sr; exact V). cbn [amap get]. rewrite Gr. destruct (observed _ _ _); reflexivity.
Qed.

(** ** ROC area *)
Lemma roc_value (p : arr num) (b : arr num) (P : list nat -> Qc) (ev : list nat -> bool) :
  shape b = shape p -> (forall ix, valid (shape p) ix -> get p ix = Fin (P ix)) -> (forall ix, valid (shape p) ix -> get b ix = Fin (indicator (ev ix))) ->
  let E := filter ev (indices (shape p)) in let N := filter (fun ix => negb (ev ix)) (indices (shape p)) in
  E <> [] -> N <> [] -> exists fpr tpr, calculate_roc (skip_nan (w_boot S)) p (bools b) = Ok (fpr, tpr, Fin (roc_area P N E)).
Proof.
  intros Sb Gp Gb E N HE HN.
  assert (K : known p = indices (shape p)).
  { unfold known. rewrite (filter_ext_in _ (fun _ => true)); [clear; induction (indices (shape p)) as [|x l IH]; [reflexivity|cbn; rewrite IH; reflexivity]|].
    intros ix I. apply in_indices in I. rewrite (Gp ix I). reflexivity. }
  assert (Gv : forall ix, In ix (indices (shape p)) -> get (bools b) ix = ev ix).
  { intros ix I. apply in_indices in I. cbn [bools amap get]. rewrite (Gb ix I). destruct (ev ix); reflexivity. }
  assert (EE : Spec_roc.events p (bools b) = E) by (unfold Spec_roc.events; rewrite K; apply filter_ext_in; exact Gv).
  assert (NN : nonevents p (bools b) = N) by (unfold nonevents; rewrite K; apply filter_ext_in; intros ix I; rewrite (Gv ix I); reflexivity).
  destruct (c75_area (skip_nan (w_boot S)) p (bools b)) as (fpr & tpr & X).
  - intros ix I. apply in_indices in I. left. exists (P ix). apply Gp, I.
  - exact Sb.
  - rewrite EE. exact HE.
  - rewrite NN. exact HN.
  - exists fpr, tpr. rewrite X. do 3 f_equal. unfold roc_area, Spec_roc.wins, Spec_roc.ties, higher, same. rewrite EE, NN.
    assert (Q : forall q, In q (list_prod N E) -> get p (fst q) = Fin (P (fst q)) /\ get p (snd q) = Fin (P (snd q))).
    { intros [u v] I. apply in_prod_iff in I. destruct I as [I1 I2]. apply filter_In in I1, I2. split; apply Gp, in_indices; [apply I1|apply I2]. }
    rewrite (filter_ext_in (fun p0 => nlt (get p (fst p0)) (get p (snd p0))) (fun p0 => qltb (P (fst p0)) (P (snd p0)))).
    2:{ intros q I. destruct (Q q I) as [-> ->]. reflexivity. }
    rewrite (filter_ext_in (fun p0 => nle (get p (fst p0)) (get p (snd p0)) && nle (get p (snd p0)) (get p (fst p0)))%bool (fun p0 => qeqb (P (fst p0)) (P (snd p0)))).
    2:{ intros q I. destruct (Q q I) as [-> ->]. cbn [nle]. destruct (qleb_spec (P (fst q)) (P (snd q))) as [A|A], (qleb_spec (P (snd q)) (P (fst q))) as [B|B], (qeqb_spec (P (fst q)) (P (snd q))) as [C|C]; cbn; try reflexivity; exfalso.
        - apply C, Qcle_antisym; assumption.
        - rewrite C in B. apply (Qclt_not_eq _ _ B eq_refl).
        - rewrite C in A. apply (Qclt_not_eq _ _ A eq_refl).
        - rewrite C in A. apply (Qclt_not_eq _ _ A eq_refl). }
    reflexivity.
Qed.
End Whole.

(** ** CRPS *)
Lemma qdist_abs a b : qdist a b = qabs (a - b).
Proof. unfold qdist, qabs. destruct (qltb_spec a b) as [A|A], (qltb_spec (a - b) 0) as [B|B]; try ring; exfalso; clear - A B; qlra. Qed.
Lemma crps_formula_of y ms : ms <> [] -> P_ps.crps_of y ms = crps_formula y ms.
Proof.
  intros N. pose proof (qn_neq0 (length ms) (length_pos _ N)) as Z. unfold P_ps.crps_of, crps_formula, Spec.mean_of.
  rewrite (map_ext (fun m => qdist m y) (fun m => qabs (m - y))) by (intros; apply qdist_abs).
  replace (flat_map (fun a => map (fun b => qdist a b) ms) ms) with (flat_map (fun a => map (fun b => qabs (a - b)) ms) ms).
  2:{ apply flat_map_ext. intros a. apply map_ext. intros b. symmetry. apply qdist_abs. }
  rewrite (pairs_length (fun a b => qabs (a - b))), (pairs_qsum (fun a b => qabs (a - b))), map_length, qn_mult.
  rewrite (pairs_ext (overlap y) (fun a b => / qz 2 * (qabs (a - y) + (qabs (b - y) + - (1) * qabs (a - b))))%Qc).
  2:{ intros a b _ _. unfold overlap. field. discriminate. }
  rewrite pairs_scale, pairs_plus, pairs_plus, pairs_scale, pairs_fst, pairs_snd.
  change (fold_right Qcplus 0%Qc (map (fun m => qabs (m - y)) ms)) with (qsumf (fun x => qabs (x - y)) ms).
  set (s := qsumf _ ms). set (P := pairs _ ms ms). clearbody s P. rewrite qz2. field. split; first [exact Z | discriminate].
Qed.
