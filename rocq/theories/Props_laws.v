(** Properties C100 to C103: laws of the scores of a verifier.  Each compares what two calls return, or calls of two verifiers,
    and rests on what C85 proves of a single call after any history. *)
From Coq Require Import String Ascii ZArith List Bool Arith QArith Qcanon Lia Permutation.
From Verif Require Import QcTac QSum Num NdArr Numpy NdAxes M_common M_boot M_determ M_ens M_crpsens M_iou M_roc M_dist M_ps
  Spec P_boot P_rank P_prob P_ps Props_avg Props_prob Props_ps Props_iou Store M_state Spec_state P_state P_codec Spec_result P_result Props_state Props_result
  M_whole Spec_whole P_whole Props_whole P_laws.
From Verif Require P_dist.
Import ListNotations.
Open Scope string_scope.
Open Scope list_scope.
Open Scope nat_scope.

Section Laws.
Variable S : settings.
Variable other : string -> list M_state.val -> res M_state.val.
Variable otherr : string -> list M_state.val -> nat -> res M_state.val.
Variable str_of : M_state.val -> string.
Variable dumps : M_state.val -> string.
Variable loads : string -> res M_state.val.
Variable expanduser : string -> string.
Variable resolve : string -> path.
Variable points : M_state.val -> M_state.val -> M_state.val -> res (list num).
Variable less_memory : bool.
Variable integrate_wdir : option path.
Variable cwd : path.
Variable rng : nat -> nat.
Notation faithful := (faithful str_of dumps loads expanduser).
Notation reached := (reached S other otherr str_of dumps loads expanduser resolve points less_memory integrate_wdir cwd rng).
Notation answers := (answers S other otherr str_of dumps loads expanduser resolve points less_memory integrate_wdir cwd rng).
Notation step := (M_state.step (whole_lib S other) (whole_libr S otherr) str_of dumps loads expanduser resolve points less_memory integrate_wdir cwd rng).
Notation ensemble_ready := (ensemble_ready S).
Notation thr_at := P_dist.thr_at.
Notation errors := (c85_errors S other otherr str_of dumps loads expanduser resolve points less_memory integrate_wdir cwd rng).
Notation probability := (c85_probability S other otherr str_of dumps loads expanduser resolve points less_memory integrate_wdir cwd rng).
Notation brier := (c85_brier S other otherr str_of dumps loads expanduser resolve points less_memory integrate_wdir cwd rng).
Notation roc := (c85_roc S other otherr str_of dumps loads expanduser resolve points less_memory integrate_wdir cwd rng).
Notation crps := (c85_crps S other otherr str_of dumps loads expanduser resolve points less_memory integrate_wdir cwd rng).
Notation spread := (c85_spread S other otherr str_of dumps loads expanduser resolve points less_memory integrate_wdir cwd rng).
Notation iou := (c85_iou S other otherr str_of dumps loads expanduser resolve points less_memory integrate_wdir cwd rng).

(** the calls metric(over=t) and metric(below=t) *)
Definition over_or_below (f : M_state.val -> M_state.val -> meth) (over : bool) (t : M_state.val) : meth := f (over_of over t) (below_of over t).
(** the members of the ensemble for a cell *)
Definition members (x : obj) (n : nat) (ix : list nat) : list num := members_at n (arr_of (a_f x)) ix.
(** averaging is set up so that the cells [L] make the entry [k] of the result; no bootstrap *)
Definition averages (x : obj) (k : list nat) (L : list (list nat)) : Prop :=
  a_boot x = VNone /\ L <> [] /\ exists ax ns, axes_of (a_avg x) = Some ax /\ axes_are (length (arr_shape (a_o x))) ax ns /\ Cells (arr_shape (a_o x)) ns k L.

Lemma members_some x n t b ix : ensemble_ready x n t b -> members x n ix <> [].
Proof. intros (_ & _ & _ & Pos & _) E. apply (f_equal (@length num)) in E. unfold members, members_at in E. rewrite map_length, seq_length, arr_shape_of in E. cbn in E. lia. Qed.

(** ** C100: an event and its opposite *)
(** The probabilities of over=t and of below=t add up to one, in every cell. *)
Theorem c100_probabilities : forall s t b n, faithful -> reached s -> ensemble_ready (ob s) n t b -> threshold_ok t ->
  exists v v', answers s (over_or_below MCdf true t) v /\ answers s (over_or_below MCdf false t) v' /\ arr_shape v = arr_shape (a_o (ob s)) /\ arr_shape v' = arr_shape v /\
    forall ix, Forall2 lt ix (arr_shape v) -> exists p, reads v ix = Fin p /\ reads v' ix = Fin (1 - p)%Qc.
Proof.
  intros s t b n FA RE H T. destruct (probability s true t b n FA RE H T) as (v & A & _ & Sv & Gv). destruct (probability s false t b n FA RE H T) as (v' & A' & _ & Sv' & Gv').
  exists v, v'. split; [exact A|]. split; [exact A'|]. split; [exact Sv|]. split; [congruence|]. intros ix I. rewrite Sv in I. eexists. split; [apply (Gv ix I)|]. rewrite (Gv' ix I). f_equal.
  rewrite share_opposite by (apply (members_some (ob s) n t b ix H)). ring.
Qed.
(** If no observation in the cells that are averaged is equal to the threshold, both events have the same Brier score. *)
Theorem c100_brier_partial : forall s t b n k L, faithful -> reached s -> ensemble_ready (ob s) n t b -> threshold_ok t -> averages (ob s) k L ->
  (forall ix, In ix L -> differ (thr_at b ix) (reads (a_o (ob s)) ix)) ->
  exists v v', answers s (over_or_below MBrier true t) v /\ answers s (over_or_below MBrier false t) v' /\ arr_shape v' = arr_shape v /\ reads v' k = reads v k.
Proof.
  intros s t b n k L FA RE H T (B & N & ax & ns & A & X & HC) D.
  destruct (brier s true t b n ax ns k L FA RE H T B A X HC N) as (v & A1 & S1 & G1). destruct (brier s false t b n ax ns k L FA RE H T B A X HC N) as (v' & A2 & S2 & G2).
  exists v, v'. split; [exact A1|]. split; [exact A2|]. split; [congruence|]. rewrite G1, G2. f_equal. apply mean_same. intros ix I. cbv beta zeta.
  rewrite (share_opposite _ _ (members_some (ob s) n t b ix H)), (indicator_opposite _ _ (D ix I)). unfold members. ring.
Qed.
(** If no observation is equal to the threshold and both kinds of cases occur, both events have the same area under the ROC curve. *)
Theorem c100_roc_partial : forall s t b n, faithful -> reached s -> ensemble_ready (ob s) n t b -> threshold_ok t ->
  (forall ix, Forall2 lt ix (arr_shape (a_o (ob s))) -> differ (thr_at b ix) (reads (a_o (ob s)) ix)) ->
  (exists ix, Forall2 lt ix (arr_shape (a_o (ob s))) /\ observed true (thr_at b ix) (reads (a_o (ob s)) ix) = true) ->
  (exists ix, Forall2 lt ix (arr_shape (a_o (ob s))) /\ observed false (thr_at b ix) (reads (a_o (ob s)) ix) = true) ->
  exists fpr tpr fpr' tpr' a, answers s (over_or_below MRoc true t) (VTuple [fpr; tpr; VFloat (Fin a)]) /\ answers s (over_or_below MRoc false t) (VTuple [fpr'; tpr'; VFloat (Fin a)]).
Proof.
  intros s t b n FA RE H T D (i1 & V1 & O1) (i2 & V2 & O2).
  set (ev (o : bool) ix := observed o (thr_at b ix) (reads (a_o (ob s)) ix)). set (I := indices (arr_shape (a_o (ob s)))).
  assert (Op : forall ix, In ix I -> ev true ix = negb (ev false ix)) by (intros ix Hx; apply observed_opposite, D, in_indices, Hx).
  assert (F1 : filter (ev true) I = filter (fun ix => negb (ev false ix)) I) by (apply filter_ext_in; exact Op).
  assert (F2 : filter (fun ix => negb (ev true ix)) I = filter (ev false) I) by (apply filter_ext_in; intros ix Hx; rewrite (Op ix Hx), negb_involutive; reflexivity).
  assert (N1 : filter (ev true) I <> []) by (intros Z; assert (Y : In i1 (filter (ev true) I)) by (apply filter_In; split; [apply in_indices, V1|exact O1]); rewrite Z in Y; exact Y).
  assert (N2 : filter (ev false) I <> []) by (intros Z; assert (Y : In i2 (filter (ev false) I)) by (apply filter_In; split; [apply in_indices, V2|exact O2]); rewrite Z in Y; exact Y).
  destruct (roc s true t b n FA RE H T) as (fpr & tpr & R1); [exact N1|change (filter (fun ix => negb (ev true ix)) I <> []); rewrite F2; exact N2|].
  destruct (roc s false t b n FA RE H T) as (fpr' & tpr' & R2); [exact N2|change (filter (fun ix => negb (ev false ix)) I <> []); rewrite <- F1; exact N1|].
  exists fpr, tpr, fpr', tpr'. eexists. split; [exact R1|].
  match type of R2 with Props_whole.answers _ _ _ _ _ _ _ _ _ _ _ _ _ _ _ (VTuple [_; _; VFloat (Fin ?a)]) => match type of R1 with Props_whole.answers _ _ _ _ _ _ _ _ _ _ _ _ _ _ _ (VTuple [_; _; VFloat (Fin ?c)]) => assert (Eq : a = c); [|rewrite <- Eq; exact R2] end end.
  change (roc_area (fun ix => member_share false (thr_at b ix) (members (ob s) n ix)) (filter (fun ix => negb (ev false ix)) I) (filter (ev false) I) =
          roc_area (fun ix => member_share true (thr_at b ix) (members (ob s) n ix)) (filter (fun ix => negb (ev true ix)) I) (filter (ev true) I)).
  rewrite <- F1, F2. rewrite <- (roc_swap (fun ix => member_share true (thr_at b ix) (members (ob s) n ix))). apply roc_ordered. intros a c _ _.
  assert (Sh : forall ix, member_share false (thr_at b ix) (members (ob s) n ix) = (1 - member_share true (thr_at b ix) (members (ob s) n ix))%Qc) by (intros ix; rewrite (share_opposite _ _ (members_some (ob s) n t b ix H)); ring).
  rewrite !Sh. split; reflexivity.
Qed.

(** ** C101: forecasts that are right *)
(** A deterministic forecast, or an ensemble whose collapsed forecast, is equal to the observations where it is averaged: all errors are zero,
    and so is what rmse takes the root of. *)
Theorem c101_errors : forall s k L O, faithful -> reached s -> cl (ob s) = CDeterm \/ cl (ob s) = CEnsemble -> arr_shape (point (ob s)) = arr_shape (a_o (ob s)) -> averages (ob s) k L ->
  (forall ix, In ix L -> reads (a_o (ob s)) ix = Fin (O ix) /\ reads (point (ob s)) ix = Fin (O ix)) ->
  exists e sq ab, answers s MError e /\ answers s MSqErr sq /\ answers s MAbErr ab /\ fst (step (ORmse None) s) = other "sqrt" [sq] /\
    reads e k = Fin 0%Qc /\ reads sq k = Fin 0%Qc /\ reads ab k = Fin 0%Qc.
Proof.
  intros s k L O FA RE C Sh (B & N & ax & ns & A & X & HC) V.
  destruct (errors s ax ns k L O O FA RE C B A Sh X HC N) as (e & sq & ab & A1 & A2 & A3 & _ & _ & _ & G1 & G2 & G3 & G4); [intros ix I; destruct (V ix I); auto|].
  exists e, sq, ab. split; [exact A1|]. split; [exact A2|]. split; [exact A3|]. split; [exact G4|]. rewrite G1, G2, G3. rewrite !mean_zero; auto; intros ix _; [apply qdist_self|ring|ring].
Qed.
(** Every member is equal to the observation: CRPS and spread are zero. *)
Theorem c101_ensemble : forall s n k L O M, faithful -> reached s -> cl (ob s) = CEnsemble -> properscoring (w_cell S) ->
  fits (arr_of (a_o (ob s))) (arr_of (a_f (ob s))) (int_of (a_eaxis (ob s))) n -> 0 < nth n (arr_shape (a_f (ob s))) 0 -> w_split S = false \/ arr_shape (a_o (ob s)) <> [] -> averages (ob s) k L ->
  (forall ix, In ix L -> reads (a_o (ob s)) ix = Fin (O ix) /\ members (ob s) n ix = map Fin (M ix) /\ forall m, In m (M ix) -> m = O ix) ->
  exists c d, answers s MCrps c /\ answers s MSpread d /\ reads c k = Fin 0%Qc /\ reads d k = Fin 0%Qc.
Proof.
  intros s n k L O M FA RE C PS Fi Pos Sp (B & N & ax & ns & A & X & HC) V.
  destruct (crps s n ax ns k L O M FA RE C PS Fi Pos Sp B A X HC N) as (c & Ac & _ & Gc); [intros ix I; destruct (V ix I) as (V1 & V2 & _); auto|].
  destruct (spread s n ax ns k L O O M FA RE C Fi Pos B A X HC N) as (d & Ad & _ & Gd).
  { intros ix I. destruct (V ix I) as (_ & V2 & V3). split; [exact V2|].
    assert (J : In (O ix) (M ix)). { destruct (M ix) as [|m ms] eqn:E; [|left; apply V3; left; reflexivity]. apply (f_equal (@length num)) in V2. unfold members, members_at in V2. rewrite map_length, seq_length, arr_shape_of in V2. cbn in V2. lia. }
    split; [exact J|]. split; [exact J|]. intros m Hm. rewrite (V3 m Hm). split; apply Qcle_refl. }
  exists c, d. split; [exact Ac|]. split; [exact Ad|]. rewrite Gc, Gd, !mean_zero; auto; intros ix I; [ring|]. apply crps_right. apply (V ix I).
Qed.
(** The Brier score of over=t is then zero; that of below=t if no observation is equal to the threshold. *)
Theorem c101_brier_partial : forall s (over : bool) t b n k L, faithful -> reached s -> ensemble_ready (ob s) n t b -> threshold_ok t -> averages (ob s) k L ->
  (forall ix, In ix L -> thr_at b ix <> NaN /\ reads (a_o (ob s)) ix <> NaN /\ (forall m, In m (members (ob s) n ix) -> m = reads (a_o (ob s)) ix) /\
     (over = false -> thr_at b ix <> reads (a_o (ob s)) ix)) ->
  exists v, answers s (over_or_below MBrier over t) v /\ reads v k = Fin 0%Qc.
Proof.
  intros s over t b n k L FA RE H T (B & N & ax & ns & A & X & HC) V.
  destruct (brier s over t b n ax ns k L FA RE H T B A X HC N) as (v & A1 & _ & G1). exists v. split; [exact A1|]. rewrite G1. f_equal. apply mean_zero. intros ix I. cbv beta zeta.
  destruct (V ix I) as (V1 & V2 & V3 & V4). change (members_at n (arr_of (a_f (ob s))) ix) with (members (ob s) n ix). rewrite (share_right over (thr_at b ix) (reads (a_o (ob s)) ix) _ (members_some (ob s) n t b ix H) V3).
  destruct over; [rewrite (observed_right _ _ V1 V2)|rewrite (below_right _ _ (conj V1 (conj V2 (V4 eq_refl))))]; ring.
Qed.
(** And the area under the ROC curve is one, if both kinds of cases occur. *)
Theorem c101_roc_partial : forall s (over : bool) t b n, faithful -> reached s -> ensemble_ready (ob s) n t b -> threshold_ok t ->
  (forall ix, Forall2 lt ix (arr_shape (a_o (ob s))) -> thr_at b ix <> NaN /\ reads (a_o (ob s)) ix <> NaN /\ (forall m, In m (members (ob s) n ix) -> m = reads (a_o (ob s)) ix) /\
     (over = false -> thr_at b ix <> reads (a_o (ob s)) ix)) ->
  (exists ix, Forall2 lt ix (arr_shape (a_o (ob s))) /\ observed over (thr_at b ix) (reads (a_o (ob s)) ix) = true) ->
  (exists ix, Forall2 lt ix (arr_shape (a_o (ob s))) /\ observed over (thr_at b ix) (reads (a_o (ob s)) ix) = false) ->
  exists fpr tpr, answers s (over_or_below MRoc over t) (VTuple [fpr; tpr; VFloat (Fin 1%Qc)]).
Proof.
  intros s over t b n FA RE H T V (i1 & V1 & O1) (i2 & V2 & O2).
  set (ev ix := observed over (thr_at b ix) (reads (a_o (ob s)) ix)). set (I := indices (arr_shape (a_o (ob s)))).
  assert (N1 : filter ev I <> []) by (intros Z; assert (Y : In i1 (filter ev I)) by (apply filter_In; split; [apply in_indices, V1|exact O1]); rewrite Z in Y; exact Y).
  assert (N2 : filter (fun ix => negb (ev ix)) I <> []) by (intros Z; assert (Y : In i2 (filter (fun ix => negb (ev ix)) I)) by (apply filter_In; split; [apply in_indices, V2|unfold ev; rewrite O2; reflexivity]); rewrite Z in Y; exact Y).
  destruct (roc s over t b n FA RE H T N1 N2) as (fpr & tpr & R). exists fpr, tpr. unfold over_or_below.
  assert (Sh : forall ix, In ix I -> member_share over (thr_at b ix) (members (ob s) n ix) = indicator (ev ix)).
  { intros ix Hx. apply in_indices in Hx. destruct (V ix Hx) as (W1 & W2 & W3 & W4). rewrite (share_right over (thr_at b ix) (reads (a_o (ob s)) ix) _ (members_some (ob s) n t b ix H) W3). unfold ev.
    destruct over; [rewrite (observed_right _ _ W1 W2)|rewrite (below_right _ _ (conj W1 (conj W2 (W4 eq_refl))))]; reflexivity. }
  replace (Fin 1%Qc) with (Fin (roc_area (fun ix => member_share over (thr_at b ix) (members (ob s) n ix)) (filter (fun ix => negb (ev ix)) I) (filter ev I))); [exact R|].
  f_equal. apply roc_separated; [exact N2|exact N1|]. intros a c Ha Hc. apply filter_In in Ha as [Ha Ea]. apply filter_In in Hc as [Hc Ec]. rewrite (Sh a Ha), (Sh c Hc), Ec. destruct (ev a); [discriminate Ea|]. reflexivity.
Qed.
(** The intersection over union of a right deterministic forecast is one wherever the event occurs. *)
Theorem c101_iou : forall s (over : bool) t q l ns k L, faithful -> reached s -> cl (ob s) = CDeterm \/ cl (ob s) = CEnsemble -> axes_of (a_avg (ob s)) = Some (Some l) -> scalar_of t = Some q -> threshold_ok t ->
  arr_shape (point (ob s)) = arr_shape (a_o (ob s)) -> axes_are (length (arr_shape (a_o (ob s)))) (Some l) ns -> Cells (arr_shape (a_o (ob s))) ns k L ->
  (forall ix, In ix L -> reads (point (ob s)) ix = reads (a_o (ob s)) ix) -> (exists ix, In ix L /\ observed over q (reads (a_o (ob s)) ix) = true) ->
  exists v, answers s (over_or_below MIouD over t) v /\ reads v k = Fin 1%Qc.
Proof.
  intros s over t q l ns k L FA RE C A Q T Sh X HC V (i & I & Oi). assert (N : L <> []) by (intros ->; exact I).
  destruct (iou s over t q l ns k L FA RE C A Q T Sh X HC N) as (v & Av & _ & G). exists v. split; [exact Av|].
  set (ev ix := observed over q (reads (a_o (ob s)) ix)) in *.
  assert (E1 : how_many (fun ix => observed over q (reads (point (ob s)) ix) && ev ix) L = how_many ev L) by (unfold how_many; f_equal; apply filter_ext_in; intros ix Hx; rewrite (V ix Hx); fold (ev ix); apply andb_diag).
  assert (E2 : how_many (fun ix => observed over q (reads (point (ob s)) ix) || ev ix) L = how_many ev L) by (unfold how_many; f_equal; apply filter_ext_in; intros ix Hx; rewrite (V ix Hx); fold (ev ix); apply orb_diag).
  assert (P : 0 < how_many ev L) by (apply count_pos; exists i; auto).
  unfold is_iou in G. fold ev in G. cbv zeta in G. change (fun x : list nat => ev x) with ev in G. rewrite E1, E2 in G. destruct G as [[_ Z]|[_ G]]; [lia|]. rewrite G. f_equal. field. apply qn_neq0, P.
Qed.

(** ** C102: the order of the members *)
(** Two verifiers of the same observations, with the same members for every cell, in another order or along another axis. *)
Definition reordered (x y : obj) (n m : nat) : Prop :=
  arr_shape (a_o y) = arr_shape (a_o x) /\ forall ix, Forall2 lt ix (arr_shape (a_o x)) -> reads (a_o y) ix = reads (a_o x) ix /\ Permutation (members x n ix) (members y m ix).
Theorem c102_events : forall s s' (over : bool) t b n m, faithful -> reached s -> reached s' -> ensemble_ready (ob s) n t b -> ensemble_ready (ob s') m t b -> threshold_ok t -> reordered (ob s) (ob s') n m ->
  (exists v v', answers s (over_or_below MCdf over t) v /\ answers s' (over_or_below MCdf over t) v' /\ arr_shape v' = arr_shape v /\ forall ix, Forall2 lt ix (arr_shape v) -> reads v' ix = reads v ix) /\
  (forall k L, averages (ob s) k L -> averages (ob s') k L -> exists v v', answers s (over_or_below MBrier over t) v /\ answers s' (over_or_below MBrier over t) v' /\ reads v' k = reads v k) /\
  ((exists ix, Forall2 lt ix (arr_shape (a_o (ob s))) /\ observed over (thr_at b ix) (reads (a_o (ob s)) ix) = true) ->
   (exists ix, Forall2 lt ix (arr_shape (a_o (ob s))) /\ observed over (thr_at b ix) (reads (a_o (ob s)) ix) = false) ->
   exists fpr tpr fpr' tpr' a, answers s (over_or_below MRoc over t) (VTuple [fpr; tpr; VFloat (Fin a)]) /\ answers s' (over_or_below MRoc over t) (VTuple [fpr'; tpr'; VFloat (Fin a)])).
Proof.
  intros s s' over t b n m FA RE RE' H H' T [Sh R].
  assert (Ms : forall ix, Forall2 lt ix (arr_shape (a_o (ob s))) -> member_share over (thr_at b ix) (members (ob s') m ix) = member_share over (thr_at b ix) (members (ob s) n ix)) by (intros ix V; symmetry; apply share_perm, R, V).
  split; [|split].
  - destruct (probability s over t b n FA RE H T) as (v & A & _ & Sv & Gv). destruct (probability s' over t b m FA RE' H' T) as (v' & A' & _ & Sv' & Gv').
    exists v, v'. split; [exact A|]. split; [exact A'|]. split; [congruence|]. intros ix V. rewrite Sv in V. rewrite (Gv ix V), (Gv' ix ltac:(rewrite Sh; exact V)). f_equal. apply (Ms ix V).
  - intros k L (B & N & ax & ns & A & X & HC) (B' & _ & ax' & ns' & A' & X' & HC').
    destruct (brier s over t b n ax ns k L FA RE H T B A X HC N) as (v & A1 & _ & G1). destruct (brier s' over t b m ax' ns' k L FA RE' H' T B' A' X' HC' N) as (v' & A2 & _ & G2).
    exists v, v'. split; [exact A1|]. split; [exact A2|]. rewrite G1, G2. f_equal. apply mean_same. intros ix I. cbv beta zeta. assert (V : valid (arr_shape (a_o (ob s))) ix) by apply (proj2 HC), I.
    destruct (R ix V) as [R1 _]. rewrite R1. unfold members in Ms. rewrite (Ms ix V). reflexivity.
  - intros (i1 & V1 & O1) (i2 & V2 & O2).
    set (ev ix := observed over (thr_at b ix) (reads (a_o (ob s)) ix)). set (I := indices (arr_shape (a_o (ob s)))). set (ev' ix := observed over (thr_at b ix) (reads (a_o (ob s')) ix)).
    assert (Ee : forall ix, In ix I -> ev' ix = ev ix) by (intros ix Hx; unfold ev', ev; rewrite (proj1 (R ix (proj1 (in_indices _ _) Hx))); reflexivity).
    assert (F1 : filter ev' I = filter ev I) by (apply filter_ext_in; exact Ee).
    assert (F2 : filter (fun ix => negb (ev' ix)) I = filter (fun ix => negb (ev ix)) I) by (apply filter_ext_in; intros ix Hx; rewrite (Ee ix Hx); reflexivity).
    assert (N1 : filter ev I <> []) by (intros Z; assert (Y : In i1 (filter ev I)) by (apply filter_In; split; [apply in_indices, V1|exact O1]); rewrite Z in Y; exact Y).
    assert (N2 : filter (fun ix => negb (ev ix)) I <> []) by (intros Z; assert (Y : In i2 (filter (fun ix => negb (ev ix)) I)) by (apply filter_In; split; [apply in_indices, V2|unfold ev; rewrite O2; reflexivity]); rewrite Z in Y; exact Y).
    destruct (roc s over t b n FA RE H T N1 N2) as (fpr & tpr & R1).
    pose proof (roc s' over t b m FA RE' H' T) as Q. cbv zeta in Q. rewrite Sh in Q. destruct Q as (fpr' & tpr' & R2); [change (filter ev' I <> []); rewrite F1; exact N1|change (filter (fun ix => negb (ev' ix)) I <> []); rewrite F2; exact N2|].
    exists fpr, tpr, fpr', tpr'. eexists. split; [exact R1|].
    change (answers s' (over_or_below MRoc over t) (VTuple [fpr'; tpr'; VFloat (Fin (roc_area (fun ix => member_share over (thr_at b ix) (members (ob s') m ix)) (filter (fun ix => negb (ev' ix)) I) (filter ev' I)))])) in R2. rewrite F1, F2 in R2.
    match goal with |- Props_whole.answers _ _ _ _ _ _ _ _ _ _ _ _ _ _ _ (VTuple [_; _; VFloat (Fin ?c)]) => assert (Eq : roc_area (fun ix => member_share over (thr_at b ix) (members (ob s') m ix)) (filter (fun ix => negb (ev ix)) I) (filter ev I) = c); [|rewrite <- Eq; exact R2] end.
    apply roc_ordered. intros a c Ha Hc. apply filter_In in Ha as [Ha _]. apply filter_In in Hc as [Hc _]. rewrite (Ms a (proj1 (in_indices _ _) Ha)), (Ms c (proj1 (in_indices _ _) Hc)). auto.
Qed.
Theorem c102_crps_spread : forall s s' n m k L O M M', faithful -> reached s -> reached s' -> cl (ob s) = CEnsemble -> cl (ob s') = CEnsemble -> properscoring (w_cell S) ->
  fits (arr_of (a_o (ob s))) (arr_of (a_f (ob s))) (int_of (a_eaxis (ob s))) n -> 0 < nth n (arr_shape (a_f (ob s))) 0 -> w_split S = false \/ arr_shape (a_o (ob s)) <> [] ->
  fits (arr_of (a_o (ob s'))) (arr_of (a_f (ob s'))) (int_of (a_eaxis (ob s'))) m -> 0 < nth m (arr_shape (a_f (ob s'))) 0 -> w_split S = false \/ arr_shape (a_o (ob s')) <> [] ->
  averages (ob s) k L -> averages (ob s') k L ->
  (forall ix, In ix L -> reads (a_o (ob s)) ix = Fin (O ix) /\ reads (a_o (ob s')) ix = Fin (O ix) /\ members (ob s) n ix = map Fin (M ix) /\ members (ob s') m ix = map Fin (M' ix) /\ Permutation (M ix) (M' ix)) ->
  exists c c' d d', answers s MCrps c /\ answers s' MCrps c' /\ reads c' k = reads c k /\ answers s MSpread d /\ answers s' MSpread d' /\ reads d' k = reads d k.
Proof.
  intros s s' n m k L O M M' FA RE RE' C C' PS Fi Pos Sp Fi' Pos' Sp' (B & N & ax & ns & A & X & HC) (B' & _ & ax' & ns' & A' & X' & HC') V.
  destruct (crps s n ax ns k L O M FA RE C PS Fi Pos Sp B A X HC N) as (c & Ac & _ & Gc); [intros ix I; destruct (V ix I) as (V1 & V2 & V3 & _); auto|].
  destruct (crps s' m ax' ns' k L O M' FA RE' C' PS Fi' Pos' Sp' B' A' X' HC' N) as (c' & Ac' & _ & Gc'); [intros ix I; destruct (V ix I) as (V1 & V2 & V3 & V4 & _); auto|].
  assert (Ne : forall ix, In ix L -> M ix <> []). { intros ix I Z. destruct (V ix I) as (_ & _ & V3 & _). rewrite Z in V3. apply (f_equal (@length num)) in V3. unfold members, members_at in V3. rewrite map_length, seq_length, arr_shape_of in V3. cbn in V3. lia. }
  set (hi ix := match M ix with [] => 0%Qc | a :: r => fold_right qmax a r end). set (lo ix := match M ix with [] => 0%Qc | a :: r => fold_right qmin a r end).
  assert (Ext : forall ix, In ix L -> In (hi ix) (M ix) /\ In (lo ix) (M ix) /\ forall z, In z (M ix) -> (lo ix <= z)%Qc /\ (z <= hi ix)%Qc).
  { intros ix I. specialize (Ne ix I). unfold hi, lo. destruct (M ix) as [|a r]; [elim Ne; reflexivity|]. clear. split; [|split].
    - induction r as [|y r IH]; [left; reflexivity|]. cbn [fold_right]. unfold qmax at 1. destruct (qleb y _); [destruct IH as [IH|IH]; [left; exact IH|right; right; exact IH]|right; left; reflexivity].
    - induction r as [|y r IH]; [left; reflexivity|]. cbn [fold_right]. unfold qmin at 1. destruct (qleb y _); [right; left; reflexivity|destruct IH as [IH|IH]; [left; exact IH|right; right; exact IH]].
    - induction r as [|y r IH]; intros z [->|Hz]; [split; apply Qcle_refl|destruct Hz| |].
      + destruct (IH z (or_introl eq_refl)) as [I1 I2]. cbn [fold_right]. unfold qmin at 1, qmax at 1. destruct (qleb_spec y (fold_right qmin z r)), (qleb_spec y (fold_right qmax z r)); split; qlra.
      + cbn [fold_right]. destruct Hz as [->|Hz].
        * unfold qmin at 1, qmax at 1. destruct (qleb_spec z (fold_right qmin a r)), (qleb_spec z (fold_right qmax a r)); split; qlra.
        * destruct (IH z (or_intror Hz)) as [I1 I2]. unfold qmin at 1, qmax at 1. destruct (qleb_spec y (fold_right qmin a r)), (qleb_spec y (fold_right qmax a r)); split; qlra. }
  destruct (spread s n ax ns k L hi lo M FA RE C Fi Pos B A X HC N) as (d & Ad & _ & Gd); [intros ix I; destruct (V ix I) as (_ & _ & V3 & _); split; [exact V3|apply Ext, I]|].
  destruct (spread s' m ax' ns' k L hi lo M' FA RE' C' Fi' Pos' B' A' X' HC' N) as (d' & Ad' & _ & Gd').
  { intros ix I. destruct (V ix I) as (_ & _ & _ & V4 & P). split; [exact V4|]. destruct (Ext ix I) as (E1 & E2 & E3). split; [eapply Permutation_in; eassumption|]. split; [eapply Permutation_in; eassumption|]. intros z Hz. apply E3. eapply Permutation_in; [apply Permutation_sym, P|exact Hz]. }
  exists c, c', d, d'. split; [exact Ac|]. split; [exact Ac'|]. split; [|split; [exact Ad|split; [exact Ad'|congruence]]]. rewrite Gc, Gc'. f_equal. apply mean_same. intros ix I. symmetry. apply crps_perm. apply (V ix I).
Qed.

(** ** C103: other units *)
(** Forecasts and observations of the second verifier are those of the first in other units: a x + b with a > 0. *)
Theorem c103_errors : forall s s' k L F O (a b : Qc), (0 < a)%Qc -> faithful -> reached s -> reached s' -> cl (ob s) = CDeterm \/ cl (ob s) = CEnsemble -> cl (ob s') = CDeterm \/ cl (ob s') = CEnsemble ->
  arr_shape (point (ob s)) = arr_shape (a_o (ob s)) -> arr_shape (point (ob s')) = arr_shape (a_o (ob s')) -> averages (ob s) k L -> averages (ob s') k L ->
  (forall ix, In ix L -> reads (point (ob s)) ix = Fin (F ix) /\ reads (a_o (ob s)) ix = Fin (O ix) /\ reads (point (ob s')) ix = Fin (a * F ix + b)%Qc /\ reads (a_o (ob s')) ix = Fin (a * O ix + b)%Qc) ->
  exists e sq ab e' sq' ab' x y z, answers s MError e /\ answers s MSqErr sq /\ answers s MAbErr ab /\ answers s' MError e' /\ answers s' MSqErr sq' /\ answers s' MAbErr ab' /\
    reads e k = Fin x /\ reads e' k = Fin (a * x)%Qc /\ reads sq k = Fin y /\ reads sq' k = Fin (a * a * y)%Qc /\ reads ab k = Fin z /\ reads ab' k = Fin (a * z)%Qc.
Proof.
  intros s s' k L F O a b Pa FA RE RE' C C' Sh Sh' (B & N & ax & ns & A & X & HC) (B' & _ & ax' & ns' & A' & X' & HC') V.
  destruct (errors s ax ns k L F O FA RE C B A Sh X HC N) as (e & sq & ab & A1 & A2 & A3 & _ & _ & _ & G1 & G2 & G3 & _); [intros ix I; destruct (V ix I) as (V1 & V2 & _); auto|].
  destruct (errors s' ax' ns' k L (fun ix => a * F ix + b)%Qc (fun ix => a * O ix + b)%Qc FA RE' C' B' A' Sh' X' HC' N) as (e' & sq' & ab' & A4 & A5 & A6 & _ & _ & _ & G4 & G5 & G6 & _); [intros ix I; destruct (V ix I) as (_ & _ & V3 & V4); auto|].
  exists e, sq, ab, e', sq', ab'. do 3 eexists. split; [exact A1|]. split; [exact A2|]. split; [exact A3|]. split; [exact A4|]. split; [exact A5|]. split; [exact A6|].
  split; [exact G1|]. split; [rewrite G4; f_equal; apply mean_scaled; intros; ring|]. split; [exact G2|]. split; [rewrite G5; f_equal; apply mean_scaled; intros; ring|]. split; [exact G3|]. rewrite G6; f_equal; apply mean_scaled; intros ix I; apply qdist_convert, Pa.
Qed.
Theorem c103_crps_spread : forall s s' n m k L O M hi lo (a b : Qc), (0 < a)%Qc -> faithful -> reached s -> reached s' -> cl (ob s) = CEnsemble -> cl (ob s') = CEnsemble -> properscoring (w_cell S) ->
  fits (arr_of (a_o (ob s))) (arr_of (a_f (ob s))) (int_of (a_eaxis (ob s))) n -> 0 < nth n (arr_shape (a_f (ob s))) 0 -> w_split S = false \/ arr_shape (a_o (ob s)) <> [] ->
  fits (arr_of (a_o (ob s'))) (arr_of (a_f (ob s'))) (int_of (a_eaxis (ob s'))) m -> 0 < nth m (arr_shape (a_f (ob s'))) 0 -> w_split S = false \/ arr_shape (a_o (ob s')) <> [] ->
  averages (ob s) k L -> averages (ob s') k L ->
  (forall ix, In ix L -> reads (a_o (ob s)) ix = Fin (O ix) /\ reads (a_o (ob s')) ix = Fin (a * O ix + b)%Qc /\ members (ob s) n ix = map Fin (M ix) /\ members (ob s') m ix = map Fin (map (fun y => a * y + b)%Qc (M ix)) /\
     In (hi ix) (M ix) /\ In (lo ix) (M ix) /\ forall y, In y (M ix) -> (lo ix <= y)%Qc /\ (y <= hi ix)%Qc) ->
  exists c c' d d' x y, answers s MCrps c /\ answers s' MCrps c' /\ reads c k = Fin x /\ reads c' k = Fin (a * x)%Qc /\ answers s MSpread d /\ answers s' MSpread d' /\ reads d k = Fin y /\ reads d' k = Fin (a * y)%Qc.
Proof.
  intros s s' n m k L O M hi lo a b Pa FA RE RE' C C' PS Fi Pos Sp Fi' Pos' Sp' (B & N & ax & ns & A & X & HC) (B' & _ & ax' & ns' & A' & X' & HC') V.
  destruct (crps s n ax ns k L O M FA RE C PS Fi Pos Sp B A X HC N) as (c & Ac & _ & Gc); [intros ix I; destruct (V ix I) as (V1 & V2 & V3 & _); auto|].
  destruct (crps s' m ax' ns' k L (fun ix => a * O ix + b)%Qc (fun ix => map (fun y => a * y + b)%Qc (M ix)) FA RE' C' PS Fi' Pos' Sp' B' A' X' HC' N) as (c' & Ac' & _ & Gc'); [intros ix I; destruct (V ix I) as (V1 & V2 & V3 & V4 & _); auto|].
  destruct (spread s n ax ns k L hi lo M FA RE C Fi Pos B A X HC N) as (d & Ad & _ & Gd); [intros ix I; destruct (V ix I) as (_ & _ & V3 & _ & V5); auto|].
  destruct (spread s' m ax' ns' k L (fun ix => a * hi ix + b)%Qc (fun ix => a * lo ix + b)%Qc (fun ix => map (fun y => a * y + b)%Qc (M ix)) FA RE' C' Fi' Pos' B' A' X' HC' N) as (d' & Ad' & _ & Gd').
  { intros ix I. destruct (V ix I) as (_ & _ & _ & V4 & V5 & V6 & V7). split; [exact V4|]. split; [apply in_map_iff; eauto|]. split; [apply in_map_iff; eauto|]. intros z Hz. apply in_map_iff in Hz as (y & <- & Hy). destruct (V7 y Hy). split; apply convert_le; assumption. }
  exists c, c', d, d'. do 2 eexists. split; [exact Ac|]. split; [exact Ac'|]. split; [exact Gc|]. split; [rewrite Gc'; f_equal; apply mean_scaled; intros ix I; apply crps_convert, Pa|]. split; [exact Ad|]. split; [exact Ad'|]. split; [exact Gd|]. rewrite Gd'; f_equal; apply mean_scaled; intros; ring.
Qed.
(** With the threshold in the same units, probabilities, Brier scores and ROC areas stay the same. *)
Theorem c103_events : forall s s' (over : bool) t t' th th' n m (a b : Qc), (0 < a)%Qc -> faithful -> reached s -> reached s' -> ensemble_ready (ob s) n t th -> ensemble_ready (ob s') m t' th' -> threshold_ok t -> threshold_ok t' ->
  arr_shape (a_o (ob s')) = arr_shape (a_o (ob s)) ->
  (forall ix, Forall2 lt ix (arr_shape (a_o (ob s))) -> thr_at th' ix = convert a b (thr_at th ix) /\ reads (a_o (ob s')) ix = convert a b (reads (a_o (ob s)) ix) /\ members (ob s') m ix = map (convert a b) (members (ob s) n ix)) ->
  (exists v v', answers s (over_or_below MCdf over t) v /\ answers s' (over_or_below MCdf over t') v' /\ arr_shape v' = arr_shape v /\ forall ix, Forall2 lt ix (arr_shape v) -> reads v' ix = reads v ix) /\
  (forall k L, averages (ob s) k L -> averages (ob s') k L -> exists v v', answers s (over_or_below MBrier over t) v /\ answers s' (over_or_below MBrier over t') v' /\ reads v' k = reads v k) /\
  ((exists ix, Forall2 lt ix (arr_shape (a_o (ob s))) /\ observed over (thr_at th ix) (reads (a_o (ob s)) ix) = true) ->
   (exists ix, Forall2 lt ix (arr_shape (a_o (ob s))) /\ observed over (thr_at th ix) (reads (a_o (ob s)) ix) = false) ->
   exists fpr tpr fpr' tpr' z, answers s (over_or_below MRoc over t) (VTuple [fpr; tpr; VFloat (Fin z)]) /\ answers s' (over_or_below MRoc over t') (VTuple [fpr'; tpr'; VFloat (Fin z)])).
Proof.
  intros s s' over t t' th th' n m a b Pa FA RE RE' H H' T T' Sh R.
  assert (Ms : forall ix, Forall2 lt ix (arr_shape (a_o (ob s))) -> member_share over (thr_at th' ix) (members (ob s') m ix) = member_share over (thr_at th ix) (members (ob s) n ix)) by (intros ix V; destruct (R ix V) as (-> & _ & ->); apply share_convert, Pa).
  assert (Os : forall ix, Forall2 lt ix (arr_shape (a_o (ob s))) -> observed over (thr_at th' ix) (reads (a_o (ob s')) ix) = observed over (thr_at th ix) (reads (a_o (ob s)) ix)) by (intros ix V; destruct (R ix V) as (-> & -> & _); apply observed_convert, Pa).
  split; [|split].
  - destruct (probability s over t th n FA RE H T) as (v & A & _ & Sv & Gv). destruct (probability s' over t' th' m FA RE' H' T') as (v' & A' & _ & Sv' & Gv').
    exists v, v'. split; [exact A|]. split; [exact A'|]. split; [congruence|]. intros ix V. rewrite Sv in V. rewrite (Gv ix V), (Gv' ix ltac:(rewrite Sh; exact V)). f_equal. apply (Ms ix V).
  - intros k L (B & N & ax & ns & A & X & HC) (B' & _ & ax' & ns' & A' & X' & HC').
    destruct (brier s over t th n ax ns k L FA RE H T B A X HC N) as (v & A1 & _ & G1). destruct (brier s' over t' th' m ax' ns' k L FA RE' H' T' B' A' X' HC' N) as (v' & A2 & _ & G2).
    exists v, v'. split; [exact A1|]. split; [exact A2|]. rewrite G1, G2. f_equal. apply mean_same. intros ix I. cbv beta zeta. assert (V : valid (arr_shape (a_o (ob s))) ix) by apply (proj2 HC), I.
    rewrite (Os ix V). unfold members in Ms. rewrite (Ms ix V). reflexivity.
  - intros (i1 & V1 & O1) (i2 & V2 & O2).
    set (ev ix := observed over (thr_at th ix) (reads (a_o (ob s)) ix)). set (I := indices (arr_shape (a_o (ob s)))). set (ev' ix := observed over (thr_at th' ix) (reads (a_o (ob s')) ix)).
    assert (Ee : forall ix, In ix I -> ev' ix = ev ix) by (intros ix Hx; apply Os, in_indices, Hx).
    assert (F1 : filter ev' I = filter ev I) by (apply filter_ext_in; exact Ee).
    assert (F2 : filter (fun ix => negb (ev' ix)) I = filter (fun ix => negb (ev ix)) I) by (apply filter_ext_in; intros ix Hx; rewrite (Ee ix Hx); reflexivity).
    assert (N1 : filter ev I <> []) by (intros Z; assert (Y : In i1 (filter ev I)) by (apply filter_In; split; [apply in_indices, V1|exact O1]); rewrite Z in Y; exact Y).
    assert (N2 : filter (fun ix => negb (ev ix)) I <> []) by (intros Z; assert (Y : In i2 (filter (fun ix => negb (ev ix)) I)) by (apply filter_In; split; [apply in_indices, V2|unfold ev; rewrite O2; reflexivity]); rewrite Z in Y; exact Y).
    destruct (roc s over t th n FA RE H T N1 N2) as (fpr & tpr & R1).
    pose proof (roc s' over t' th' m FA RE' H' T') as Q. cbv zeta in Q. rewrite Sh in Q. destruct Q as (fpr' & tpr' & R2); [change (filter ev' I <> []); rewrite F1; exact N1|change (filter (fun ix => negb (ev' ix)) I <> []); rewrite F2; exact N2|].
    exists fpr, tpr, fpr', tpr'. eexists. split; [exact R1|].
    change (answers s' (over_or_below MRoc over t') (VTuple [fpr'; tpr'; VFloat (Fin (roc_area (fun ix => member_share over (thr_at th' ix) (members (ob s') m ix)) (filter (fun ix => negb (ev' ix)) I) (filter ev' I)))])) in R2. rewrite F1, F2 in R2.
    match goal with |- Props_whole.answers _ _ _ _ _ _ _ _ _ _ _ _ _ _ _ (VTuple [_; _; VFloat (Fin ?c)]) => assert (Eq : roc_area (fun ix => member_share over (thr_at th' ix) (members (ob s') m ix)) (filter (fun ix => negb (ev ix)) I) (filter ev I) = c); [|rewrite <- Eq; exact R2] end.
    apply roc_ordered. intros c d Hc Hd. apply filter_In in Hc as [Hc _]. apply filter_In in Hd as [Hd _]. rewrite (Ms c (proj1 (in_indices _ _) Hc)), (Ms d (proj1 (in_indices _ _) Hd)). auto.
Qed.
End Laws.
Print Assumptions c100_probabilities.
Print Assumptions c100_brier_partial.
Print Assumptions c100_roc_partial.
Print Assumptions c101_errors.
Print Assumptions c101_ensemble.
Print Assumptions c101_brier_partial.
Print Assumptions c101_roc_partial.
Print Assumptions c101_iou.
Print Assumptions c102_events.
Print Assumptions c102_crps_spread.
Print Assumptions c103_errors.
Print Assumptions c103_crps_spread.
Print Assumptions c103_events.

(** ** Concrete verifiers: three cells with two members *)
Definition l_obj (sh : list nat) (f o c : nat) (z : Z) : obj := mkObj CEnsemble (VArr sh f) (VArr [3] o) (VTuple [VInt 0]) VNone VNone (VBool true)
    (VArr [3] c) (VInt z) (VFun 0) VNone VNone VNone VNone VNone VNone VNone.
Definition l_state (sh : list nat) (f o c : list Z) (z : Z) : st :=
  mkSt (l_obj sh (store (map (fun i => Fin (qz i)) f)) (store (map (fun i => Fin (qz i)) o)) (store (map (fun i => Fin (qz i)) c)) z) w_used 0 [].
Notation l_reached := (Props_whole.reached e_set w_lib w_libr w_str w_dumps w_loads (fun s => s) w_resolve w_points false None [] (fun n => n)).
Notation l_num := (fun i => Fin (qz i)).
Lemma l_facts sh f o c z : let x := ob (l_state sh f o c z) in
  l_reached (l_state sh f o c z) /\ cl x = CEnsemble /\ arr_shape (a_f x) = sh /\ arr_shape (a_o x) = [3] /\ arr_shape (point x) = [3] /\ a_boot x = VNone /\ int_of (a_eaxis x) = z /\
  arr_of (a_f x) = of_list NaN sh (map l_num f) /\ arr_of (a_o x) = of_list NaN [3] (map l_num o) /\ arr_of (point x) = of_list NaN [3] (map l_num c) /\ axes_of (a_avg x) = Some (Some [0%Z]).
Proof.
  cbv zeta. unfold l_state. generalize (content_store (map l_num f)) (content_store (map l_num o)) (content_store (map l_num c)).
  generalize (store (map l_num f)) (store (map l_num o)) (store (map l_num c)). intros cf co cc Hf Ho Hc.
  split; [right; split; [left; reflexivity|reflexivity]|]. cbn [ob l_obj cl a_f a_o a_boot a_eaxis a_avg point arr_shape int_of arr_of a_fc]. rewrite Hf, Ho, Hc. repeat split.
Qed.
Lemma three_cells (P : list nat -> Prop) : P [0] -> P [1] -> P [2] -> forall ix, Forall2 lt ix [3] -> P ix.
Proof. intros P0 P1 P2 ix V. inversion V as [|i a r q H1 H2]; subst. inversion H2; subst. destruct i as [|[|[|i]]]; [exact P0|exact P1|exact P2|lia]. Qed.
Definition cells3 : list (list nat) := [[0]; [1]; [2]].
Lemma l_averages sh f o c z : averages (ob (l_state sh f o c z)) [] cells3.
Proof.
  destruct (l_facts sh f o c z) as (_ & _ & _ & So & _ & B & _ & _ & _ & _ & A). split; [exact B|]. split; [discriminate|]. exists (Some [0%Z]), [0]. split; [exact A|]. rewrite So. split; [split; [constructor; [split; [cbn; lia|left; reflexivity]|constructor]|constructor; [intros []|constructor]]|].
  split; [repeat constructor; cbn; intuition discriminate|]. intros ix. cbn. split.
  - intros [<-|[<-|[<-|[]]]]; (split; [repeat constructor|reflexivity]).
  - intros [V _]. revert ix V. apply three_cells; auto.
Qed.
Lemma l_ready f o c t : ensemble_ready e_set (ob (l_state [3; 2] f o c (-1))) 1 (VInt t) (TScalar (Fin (qz t))).
Proof.
  destruct (l_facts [3; 2] f o c (-1)) as (_ & C & Sf & So & _ & _ & Ez & Ef & Eo & _ & _). split; [exact C|]. split; [reflexivity|]. split; [rewrite Ez, Ef, Eo; split; [split; [cbn; lia|right; reflexivity]|reflexivity]|].
  rewrite Sf, So. split; [cbn; lia|]. split; [left; reflexivity|]. split; [reflexivity|exact I].
Qed.
Lemma l_ready' f o c t : ensemble_ready e_set (ob (l_state [2; 3] f o c 0)) 0 (VInt t) (TScalar (Fin (qz t))).
Proof.
  destruct (l_facts [2; 3] f o c 0) as (_ & C & Sf & So & _ & _ & Ez & Ef & Eo & _ & _). split; [exact C|]. split; [reflexivity|]. split; [rewrite Ez, Ef, Eo; split; [split; [cbn; lia|left; reflexivity]|reflexivity]|].
  rewrite Sf, So. split; [cbn; lia|]. split; [left; reflexivity|]. split; [reflexivity|exact I].
Qed.
Lemma l_reads sh f o c z ix : reads (a_o (ob (l_state sh f o c z))) ix = get (of_list NaN [3] (map l_num o)) ix /\ reads (point (ob (l_state sh f o c z))) ix = get (of_list NaN [3] (map l_num c)) ix /\
  forall n, members (ob (l_state sh f o c z)) n ix = members_at n (of_list NaN sh (map l_num f)) ix.
Proof. destruct (l_facts sh f o c z) as (_ & _ & _ & _ & _ & _ & _ & Ef & Eo & Ec & _). unfold reads, members. rewrite Ef, Eo, Ec. auto. Qed.
Ltac l_read := repeat match goal with
  | |- context [reads (a_o (ob (l_state ?sh ?f ?o ?c ?z))) ?ix] => rewrite (proj1 (l_reads sh f o c z ix))
  | |- context [reads (point (ob (l_state ?sh ?f ?o ?c ?z))) ?ix] => rewrite (proj1 (proj2 (l_reads sh f o c z ix)))
  | |- context [members (ob (l_state ?sh ?f ?o ?c ?z)) ?n ?ix] => rewrite (proj2 (proj2 (l_reads sh f o c z ix)) n) end.
Lemma l_values f o c (over : bool) t q a : 
  (Spec.mean_of (map (fun ix => let d := (member_share over (Fin (qz t)) (members_at 1 (of_list NaN [3; 2] (map l_num f)) ix) - indicator (observed over (Fin (qz t)) (get (of_list NaN [3] (map l_num o)) ix)))%Qc in (d * d)%Qc) cells3) = q) ->
  (let ev ix := observed over (Fin (qz t)) (get (of_list NaN [3] (map l_num o)) ix) in
   filter ev cells3 <> [] /\ filter (fun ix => negb (ev ix)) cells3 <> [] /\
   roc_area (fun ix => member_share over (Fin (qz t)) (members_at 1 (of_list NaN [3; 2] (map l_num f)) ix)) (filter (fun ix => negb (ev ix)) cells3) (filter ev cells3) = a) ->
  (exists v, e_answers (l_state [3; 2] f o c (-1)) (over_or_below MBrier over (VInt t)) v /\ reads v [] = Fin q) /\
  exists x y, e_answers (l_state [3; 2] f o c (-1)) (over_or_below MRoc over (VInt t)) (VTuple [x; y; VFloat (Fin a)]).
Proof.
  intros Q (N1 & N2 & A). pose proof (l_ready f o c t) as RD. pose proof (l_averages [3; 2] f o c (-1)) as (B & N & ax & ns & Ax & X & HC).
  destruct (l_facts [3; 2] f o c (-1)) as (RE & C & Sf & So & _ & _ & Ez & Ef & Eo & _ & _). set (s := l_state [3; 2] f o c (-1)) in *. clearbody s.
  assert (T : threshold_ok (VInt t)) by (left; exact I). split.
  - destruct (c85_brier e_set w_lib w_libr w_str w_dumps w_loads (fun s => s) w_resolve w_points false None [] (fun n => n) s over (VInt t) _ 1 ax ns [] cells3 e_faithful RE RD T B Ax X HC N) as (v & A1 & _ & G1).
    exists v. split; [exact A1|]. rewrite G1. f_equal. rewrite <- Q. unfold reads. rewrite Ef, Eo. reflexivity.
  - pose proof (c85_roc e_set w_lib w_libr w_str w_dumps w_loads (fun s => s) w_resolve w_points false None [] (fun n => n) s over (VInt t) _ 1 e_faithful RE RD T) as H. cbv zeta in H. unfold reads in H. rewrite So, Ef, Eo in H.
    destruct (H N1 N2) as (x & y & R). exists x, y. rewrite <- A. exact R.
Qed.
Ltac lval := apply l_values; [apply Qc_is_canon; vm_compute; reflexivity|split; [vm_compute; discriminate|split; [vm_compute; discriminate|apply Qc_is_canon; vm_compute; reflexivity]]].

(** The members (2, 3), (0, 0), (2, 2), the observations 2, 0, 1 and the threshold 1: an observation is equal to the threshold.  It is neither
    over nor below, and the two events are not opposite. *)
Theorem c100_refuted : exists s t b n L v v' x y x' y' a a' q q',
  faithful w_str w_dumps w_loads (fun s => s) /\ l_reached s /\ ensemble_ready e_set (ob s) n t b /\ threshold_ok t /\ averages (ob s) [] L /\
  e_answers s (over_or_below MBrier true t) v /\ e_answers s (over_or_below MBrier false t) v' /\ reads v [] = Fin q /\ reads v' [] = Fin q' /\ q <> q' /\
  e_answers s (over_or_below MRoc true t) (VTuple [x; y; VFloat (Fin a)]) /\ e_answers s (over_or_below MRoc false t) (VTuple [x'; y'; VFloat (Fin a')]) /\ a <> a'.
Proof.
  set (f := [2; 3; 0; 0; 2; 2]%Z). set (o := [2; 0; 1]%Z). set (c := [2; 0; 2]%Z).
  assert (H1 : (exists v, e_answers (l_state [3; 2] f o c (-1)) (over_or_below MBrier true (VInt 1)) v /\ reads v [] = Fin (1 / qz 3)%Qc) /\ exists x y, e_answers (l_state [3; 2] f o c (-1)) (over_or_below MRoc true (VInt 1)) (VTuple [x; y; VFloat (Fin (qz 3 / qz 4)%Qc)])) by lval.
  assert (H2 : (exists v, e_answers (l_state [3; 2] f o c (-1)) (over_or_below MBrier false (VInt 1)) v /\ reads v [] = Fin 0%Qc) /\ exists x y, e_answers (l_state [3; 2] f o c (-1)) (over_or_below MRoc false (VInt 1)) (VTuple [x; y; VFloat (Fin 1%Qc)])) by lval.
  destruct H1 as [(v & A1 & G1) (x & y & R1)]. destruct H2 as [(v' & A2 & G2) (x' & y' & R2)]. exists (l_state [3; 2] f o c (-1)), (VInt 1), (TScalar (Fin (qz 1))), 1, cells3, v, v', x, y, x', y', (qz 3 / qz 4)%Qc, 1%Qc, (1 / qz 3)%Qc, 0%Qc.
  split; [exact e_faithful|]. split; [apply l_facts|]. split; [apply l_ready|]. split; [left; exact I|]. split; [apply l_averages|]. split; [exact A1|]. split; [exact A2|]. split; [exact G1|]. split; [exact G2|].
  split; [vm_compute; discriminate|]. split; [exact R1|]. split; [exact R2|]. vm_compute. discriminate.
Qed.
Print Assumptions c100_refuted.
(** With the observation 0 instead of 1 the theorems apply, and the scores are not trivial. *)
Example c100_nonvacuous : let s := l_state [3; 2] [2; 3; 0; 0; 2; 2]%Z [2; 0; 0]%Z [2; 0; 2]%Z (-1) in
  l_reached s /\ ensemble_ready e_set (ob s) 1 (VInt 1) (TScalar (Fin (qz 1))) /\ averages (ob s) [] cells3 /\
  (forall ix, Forall2 lt ix (arr_shape (a_o (ob s))) -> differ (Fin (qz 1)) (reads (a_o (ob s)) ix)) /\
  (forall over, exists ix, Forall2 lt ix (arr_shape (a_o (ob s))) /\ observed over (Fin (qz 1)) (reads (a_o (ob s)) ix) = true) /\
  (exists v v', e_answers s (over_or_below MBrier true (VInt 1)) v /\ e_answers s (over_or_below MBrier false (VInt 1)) v' /\ reads v [] = Fin (1 / qz 3)%Qc /\ reads v' [] = Fin (1 / qz 3)%Qc) /\
  exists x y x' y', e_answers s (over_or_below MRoc true (VInt 1)) (VTuple [x; y; VFloat (Fin (qz 3 / qz 4)%Qc)]) /\ e_answers s (over_or_below MRoc false (VInt 1)) (VTuple [x'; y'; VFloat (Fin (qz 3 / qz 4)%Qc)]).
Proof.
  cbv zeta. set (f := [2; 3; 0; 0; 2; 2]%Z). set (o := [2; 0; 0]%Z). set (c := [2; 0; 2]%Z).
  assert (H1 : (exists v, e_answers (l_state [3; 2] f o c (-1)) (over_or_below MBrier true (VInt 1)) v /\ reads v [] = Fin (1 / qz 3)%Qc) /\ exists x y, e_answers (l_state [3; 2] f o c (-1)) (over_or_below MRoc true (VInt 1)) (VTuple [x; y; VFloat (Fin (qz 3 / qz 4)%Qc)])) by lval.
  assert (H2 : (exists v, e_answers (l_state [3; 2] f o c (-1)) (over_or_below MBrier false (VInt 1)) v /\ reads v [] = Fin (1 / qz 3)%Qc) /\ exists x y, e_answers (l_state [3; 2] f o c (-1)) (over_or_below MRoc false (VInt 1)) (VTuple [x; y; VFloat (Fin (qz 3 / qz 4)%Qc)])) by lval.
  destruct H1 as [(v & A1 & G1) (x & y & R1)]. destruct H2 as [(v' & A2 & G2) (x' & y' & R2)].
  destruct (l_facts [3; 2] f o c (-1)) as (RE & _ & _ & So & _). split; [exact RE|]. split; [apply l_ready|]. split; [apply l_averages|]. rewrite So.
  split; [apply three_cells; l_read; (split; [|split]); vm_compute; discriminate|].
  split; [intros [|]; [exists [0]|exists [1]]; (split; [repeat constructor|l_read; vm_compute; reflexivity])|].
  split; [exists v, v'; auto|]. exists x, y, x', y'. auto.
Qed.

(** Members, forecast and observations are 2, 0 and 1, the threshold 1: below=1 has the Brier score 1/3 and the area 3/4. *)
Theorem c101_refuted : exists s t b n L v x y a q,
  faithful w_str w_dumps w_loads (fun s => s) /\ l_reached s /\ ensemble_ready e_set (ob s) n t b /\ threshold_ok t /\ averages (ob s) [] L /\
  (forall ix, Forall2 lt ix (arr_shape (a_o (ob s))) -> is_fin (reads (a_o (ob s)) ix) /\ forall m, In m (members (ob s) n ix) -> m = reads (a_o (ob s)) ix) /\
  e_answers s (over_or_below MBrier false t) v /\ reads v [] = Fin q /\ q <> 0%Qc /\ e_answers s (over_or_below MRoc false t) (VTuple [x; y; VFloat (Fin a)]) /\ a <> 1%Qc.
Proof.
  set (f := [2; 2; 0; 0; 1; 1]%Z). set (o := [2; 0; 1]%Z).
  assert (H : (exists v, e_answers (l_state [3; 2] f o o (-1)) (over_or_below MBrier false (VInt 1)) v /\ reads v [] = Fin (1 / qz 3)%Qc) /\ exists x y, e_answers (l_state [3; 2] f o o (-1)) (over_or_below MRoc false (VInt 1)) (VTuple [x; y; VFloat (Fin (qz 3 / qz 4)%Qc)])) by lval.
  destruct H as [(v & A1 & G1) (x & y & R1)]. exists (l_state [3; 2] f o o (-1)), (VInt 1), (TScalar (Fin (qz 1))), 1, cells3, v, x, y, (qz 3 / qz 4)%Qc, (1 / qz 3)%Qc.
  split; [exact e_faithful|]. split; [apply l_facts|]. split; [apply l_ready|]. split; [left; exact I|]. split; [apply l_averages|].
  split; [|split; [exact A1|]; split; [exact G1|]; split; [vm_compute; discriminate|]; split; [exact R1|]; vm_compute; discriminate].
  destruct (l_facts [3; 2] f o o (-1)) as (_ & _ & _ & So & _). rewrite So. apply three_cells; l_read; (split; [eexists; vm_compute; reflexivity|]); intros m Hm; vm_compute in Hm; vm_compute; intuition congruence.
Qed.
Print Assumptions c101_refuted.
(** The hypotheses of the theorems on right forecasts hold for it: those of over=1 with the threshold 1, those of below=t with a threshold of -1. *)
Example c101_nonvacuous : let s := l_state [3; 2] [2; 2; 0; 0; 1; 1]%Z [2; 0; 1]%Z [2; 0; 1]%Z (-1) in
  (exists e sq ab, e_answers s MError e /\ e_answers s MSqErr sq /\ e_answers s MAbErr ab /\ reads e [] = Fin 0%Qc /\ reads sq [] = Fin 0%Qc /\ reads ab [] = Fin 0%Qc) /\
  (exists c d, e_answers s MCrps c /\ e_answers s MSpread d /\ reads c [] = Fin 0%Qc /\ reads d [] = Fin 0%Qc) /\
  (exists v, e_answers s (over_or_below MBrier true (VInt 1)) v /\ reads v [] = Fin 0%Qc) /\
  (exists v, e_answers s (over_or_below MBrier false (VInt (-1))) v /\ reads v [] = Fin 0%Qc) /\
  (exists x y, e_answers s (over_or_below MRoc true (VInt 1)) (VTuple [x; y; VFloat (Fin 1%Qc)])) /\
  exists v, e_answers s (over_or_below MIouD true (VInt 1)) v /\ reads v [] = Fin 1%Qc.
Proof.
  cbv zeta. set (f := [2; 2; 0; 0; 1; 1]%Z). set (o := [2; 0; 1]%Z). set (s := l_state [3; 2] f o o (-1)).
  set (O := fun ix : list nat => qz (nth (hd 0 ix) o 0%Z)). set (M := fun ix : list nat => [O ix; O ix]).
  destruct (l_facts [3; 2] f o o (-1)) as (RE & C & Sf & So & Sp & B & Ez & Ef & Eo & Ec & Ax). fold s in RE, C, Sf, So, Sp, B, Ez, Ef, Eo, Ec, Ax.
  pose proof (l_averages [3; 2] f o o (-1)) as AV. fold s in AV. pose proof (fun t => l_ready f o o t) as RD. fold s in RD.
  assert (V : forall ix, Forall2 lt ix [3] -> reads (a_o (ob s)) ix = Fin (O ix) /\ reads (point (ob s)) ix = Fin (O ix) /\ members (ob s) 1 ix = map Fin (M ix)).
  { apply three_cells; unfold s; l_read; repeat split; vm_compute; reflexivity. }
  assert (W : forall ix, In ix cells3 -> Forall2 lt ix [3]) by (intros ix [<-|[<-|[<-|[]]]]; repeat constructor).
  assert (E : forall ix, Forall2 lt ix [3] -> reads (a_o (ob s)) ix <> NaN /\ forall m, In m (members (ob s) 1 ix) -> m = reads (a_o (ob s)) ix).
  { intros ix H. destruct (V ix H) as (V1 & _ & V2). rewrite V1, V2. split; [discriminate|]. intros m [<-|[<-|[]]]; reflexivity. }
  clearbody s. split; [|split; [|split; [|split; [|split]]]].
  - destruct (c101_errors e_set w_lib w_libr w_str w_dumps w_loads (fun s => s) w_resolve w_points false None [] (fun n => n) s [] cells3 O e_faithful RE (or_intror C) ltac:(congruence) AV) as (e & sq & ab & H1 & H2 & H3 & _ & H4); [intros ix H; destruct (V ix (W ix H)) as (V1 & V2 & _); auto|]. exists e, sq, ab. auto.
  - apply (c101_ensemble e_set w_lib w_libr w_str w_dumps w_loads (fun s => s) w_resolve w_points false None [] (fun n => n) s 1 [] cells3 O M e_faithful RE C (or_intror eq_refl)).
    + apply (RD 1%Z).
    + rewrite Sf. cbn. lia.
    + right. rewrite So. discriminate.
    + exact AV.
    + intros ix H. destruct (V ix (W ix H)) as (V1 & _ & V2). split; [exact V1|]. split; [exact V2|]. intros m [<-|[<-|[]]]; reflexivity.
  - apply (c101_brier_partial e_set w_lib w_libr w_str w_dumps w_loads (fun s => s) w_resolve w_points false None [] (fun n => n) s true (VInt 1) _ 1 [] cells3 e_faithful RE (RD 1%Z) ltac:(left; exact I) AV).
    intros ix H. destruct (E ix (W ix H)) as [E1 E2]. split; [discriminate|]. split; [exact E1|]. split; [exact E2|discriminate].
  - apply (c101_brier_partial e_set w_lib w_libr w_str w_dumps w_loads (fun s => s) w_resolve w_points false None [] (fun n => n) s false (VInt (-1)) _ 1 [] cells3 e_faithful RE (RD (-1)%Z) ltac:(left; exact I) AV).
    intros ix H. destruct (E ix (W ix H)) as [E1 E2]. split; [discriminate|]. split; [exact E1|]. split; [exact E2|]. intros _. destruct (V ix (W ix H)) as (-> & _). clear E1 E2. destruct H as [<-|[<-|[<-|[]]]]; vm_compute; discriminate.
  - apply (c101_roc_partial e_set w_lib w_libr w_str w_dumps w_loads (fun s => s) w_resolve w_points false None [] (fun n => n) s true (VInt 1) _ 1 e_faithful RE (RD 1%Z) ltac:(left; exact I)); rewrite So.
    + intros ix H. destruct (E ix H) as [E1 E2]. split; [discriminate|]. split; [exact E1|]. split; [exact E2|discriminate].
    + exists [0]. split; [repeat constructor|]. rewrite (proj1 (V [0] ltac:(repeat constructor))). reflexivity.
    + exists [2]. split; [repeat constructor|]. rewrite (proj1 (V [2] ltac:(repeat constructor))). reflexivity.
  - destruct AV as (_ & _ & ax & ns & Ax' & X & HC). rewrite Ax in Ax'. injection Ax' as <-.
    apply (c101_iou e_set w_lib w_libr w_str w_dumps w_loads (fun s => s) w_resolve w_points false None [] (fun n => n) s true (VInt 1) (Fin (qz 1)) [0%Z] ns [] cells3 e_faithful RE (or_intror C) Ax eq_refl ltac:(left; exact I) ltac:(congruence) X HC).
    + intros ix H. destruct (V ix (W ix H)) as (-> & -> & _). reflexivity.
    + exists [0]. split; [left; reflexivity|]. rewrite (proj1 (V [0] ltac:(repeat constructor))). reflexivity.
Qed.

(** The members (2, 3), (0, 4), (2, 2) along the last axis, and (3, 2), (4, 0), (2, 2) along the first; converted by 2 x + 1. *)
Example c102_nonvacuous : let s := l_state [3; 2] [2; 3; 0; 4; 2; 2]%Z [2; 0; 1]%Z [2; 0; 2]%Z (-1) in let s' := l_state [2; 3] [3; 4; 2; 2; 0; 2]%Z [2; 0; 1]%Z [2; 0; 2]%Z 0 in
  l_reached s /\ l_reached s' /\ ensemble_ready e_set (ob s) 1 (VInt 1) (TScalar (Fin (qz 1))) /\ ensemble_ready e_set (ob s') 0 (VInt 1) (TScalar (Fin (qz 1))) /\
  averages (ob s) [] cells3 /\ averages (ob s') [] cells3 /\ reordered (ob s) (ob s') 1 0 /\ members (ob s) 1 [1] <> members (ob s') 0 [1] /\
  (forall over, exists ix, Forall2 lt ix (arr_shape (a_o (ob s))) /\ observed over (Fin (qz 1)) (reads (a_o (ob s)) ix) = true) /\ (forall over, exists ix, Forall2 lt ix (arr_shape (a_o (ob s))) /\ observed over (Fin (qz 1)) (reads (a_o (ob s)) ix) = false).
Proof.
  cbv zeta. split; [apply l_facts|]. split; [apply l_facts|]. split; [apply l_ready|]. split; [apply l_ready'|]. split; [apply l_averages|]. split; [apply l_averages|].
  assert (So : forall sh f o c z, arr_shape (a_o (ob (l_state sh f o c z))) = [3]) by (intros; apply l_facts). split; [|split; [|split]].
  - split; [rewrite !So; reflexivity|]. rewrite So. apply three_cells; (split; [l_read; reflexivity|]);
      l_read; vm_compute; (apply perm_swap || apply Permutation_refl).
  - l_read. vm_compute. discriminate.
  - intros [|]; rewrite So; [exists [0]|exists [1]]; (split; [repeat constructor|]); l_read; vm_compute; reflexivity.
  - intros over; rewrite So; exists [2]; (split; [repeat constructor|]); l_read; destruct over; vm_compute; reflexivity.
Qed.
Example c103_nonvacuous : let s := l_state [3; 2] [2; 3; 0; 4; 2; 2]%Z [2; 0; 1]%Z [2; 0; 2]%Z (-1) in let s' := l_state [3; 2] [5; 7; 1; 9; 5; 5]%Z [5; 1; 3]%Z [5; 1; 5]%Z (-1) in
  let F ix := qz (nth (hd 0 ix) [2; 0; 2]%Z 0%Z) in let O ix := qz (nth (hd 0 ix) [2; 0; 1]%Z 0%Z) in
  let M ix := map qz (nth (hd 0 ix) [[2; 3]; [0; 4]; [2; 2]]%Z []) in let hi ix := qz (nth (hd 0 ix) [3; 4; 2]%Z 0%Z) in let lo ix := qz (nth (hd 0 ix) [2; 0; 2]%Z 0%Z) in
  let u y := (qz 2 * y + qz 1)%Qc in
  (0 < qz 2)%Qc /\ l_reached s /\ l_reached s' /\ ensemble_ready e_set (ob s) 1 (VInt 1) (TScalar (Fin (qz 1))) /\ ensemble_ready e_set (ob s') 1 (VInt 3) (TScalar (Fin (qz 3))) /\ averages (ob s) [] cells3 /\ averages (ob s') [] cells3 /\
  arr_shape (a_o (ob s')) = arr_shape (a_o (ob s)) /\ Fin (qz 3) = convert (qz 2) (qz 1) (Fin (qz 1)) /\
  (forall ix, In ix cells3 -> reads (point (ob s)) ix = Fin (F ix) /\ reads (a_o (ob s)) ix = Fin (O ix) /\ reads (point (ob s')) ix = Fin (u (F ix)) /\ reads (a_o (ob s')) ix = Fin (u (O ix)) /\
     members (ob s) 1 ix = map Fin (M ix) /\ members (ob s') 1 ix = map Fin (map u (M ix)) /\ In (hi ix) (M ix) /\ In (lo ix) (M ix) /\ forall y, In y (M ix) -> (lo ix <= y)%Qc /\ (y <= hi ix)%Qc) /\
  (forall ix, Forall2 lt ix (arr_shape (a_o (ob s))) -> reads (a_o (ob s')) ix = convert (qz 2) (qz 1) (reads (a_o (ob s)) ix) /\ members (ob s') 1 ix = map (convert (qz 2) (qz 1)) (members (ob s) 1 ix)).
Proof.
  cbv zeta. split; [vm_compute; reflexivity|]. split; [apply l_facts|]. split; [apply l_facts|]. split; [apply l_ready|]. split; [apply l_ready|]. split; [apply l_averages|]. split; [apply l_averages|].
  assert (So : forall sh f o c z, arr_shape (a_o (ob (l_state sh f o c z))) = [3]) by (intros; apply l_facts). split; [rewrite !So; reflexivity|]. split; [vm_compute; reflexivity|]. split.
  - intros ix I.
    l_read.
    destruct I as [<-|[<-|[<-|[]]]]; (split; [vm_compute; reflexivity|]); (split; [vm_compute; reflexivity|]); (split; [vm_compute; reflexivity|]); (split; [vm_compute; reflexivity|]); (split; [vm_compute; reflexivity|]); (split; [vm_compute; reflexivity|]);
      (split; [cbn; tauto|]); (split; [cbn; tauto|]); intros y H; cbn in H; repeat (destruct H as [<-|H]; [split; vm_compute; discriminate|]); destruct H.
  - rewrite So. intros ix I.
    l_read. revert ix I.
    apply three_cells; split; vm_compute; reflexivity.
Qed.
