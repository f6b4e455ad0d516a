(** Property C119: mirrored data.  Forecasts and observations of the second verifier are a x + b of the first with a < 0:
    large becomes small, and an event over a threshold becomes one below the mirrored threshold. *)
From Coq Require Import String Ascii ZArith List Bool Arith QArith Qcanon Lia Permutation.
From Verif Require Import QcTac QSum Num NdArr Numpy NdAxes M_common M_boot M_determ M_ens M_crpsens M_iou M_roc M_dist M_ps
  Spec P_boot P_rank P_prob P_ps Props_avg Props_prob Props_ps Props_iou Store M_state Spec_state P_state P_codec Spec_result P_result Props_state Props_result
  M_whole Spec_whole P_whole Props_whole P_laws Props_laws.
From Verif Require P_dist.
Import ListNotations.
Open Scope string_scope.
Open Scope list_scope.
Open Scope nat_scope.

Lemma mirror_le (a b x y : Qc) : (a < 0)%Qc -> ((a * x + b <= a * y + b)%Qc <-> (y <= x)%Qc).
Proof.
  intros H. assert (P : (0 < - a)%Qc) by qlra. pose proof (convert_le (- a) (- b)%Qc y x P) as I. rewrite <- I.
  replace (- a * y + - b)%Qc with (- (a * y + b))%Qc by ring. replace (- a * x + - b)%Qc with (- (a * x + b))%Qc by ring. split; intros L; qlra.
Qed.
Lemma mirror_leb (a b x y : Qc) : (a < 0)%Qc -> qleb (a * x + b) (a * y + b) = qleb y x.
Proof.
  intros H. pose proof (mirror_le a b x y H) as I. destruct (qleb y x) eqn:E.
  - apply qleb_le, I, qleb_le, E.
  - apply qleb_gt. apply qleb_gt in E. apply Qcnot_le_lt. intros L. apply I in L. exact (Qclt_not_le _ _ E L).
Qed.
Lemma mirror_dist (a b x y : Qc) : (a < 0)%Qc -> qdist (a * x + b) (a * y + b) = (- a * qdist x y)%Qc.
Proof.
  intros H. unfold qdist, qltb. rewrite mirror_leb by exact H. destruct (qleb_spec x y) as [L|L], (qleb_spec y x) as [M|M]; cbn [negb]; try ring.
  - assert (E : x = y) by (apply Qcle_antisym; assumption). rewrite E. ring.
  - exfalso. exact (Qclt_not_le _ _ L (Qclt_le_weak _ _ M)).
Qed.
Lemma mirror_crps (a b y : Qc) ms : (a < 0)%Qc -> crps_formula (a * y + b) (map (fun m => a * m + b)%Qc ms) = (- a * crps_formula y ms)%Qc.
Proof.
  intros H. rewrite !crps_sums, !qsumf_map, !map_length. rewrite (qsumf_ext (fun m => qdist (a * m + b) (a * y + b)) (fun m => - a * qdist m y)%Qc ms), qsumf_scale.
  - rewrite (qsumf_ext (fun x => qsumf (fun c => qdist (a * x + b) c) (map (fun m => a * m + b)%Qc ms)) (fun x => - a * qsumf (fun c => qdist x c) ms)%Qc ms), qsumf_scale; [unfold Qcdiv; ring|].
    intros x _. rewrite qsumf_map, <- qsumf_scale. apply qsumf_ext. intros c _. apply mirror_dist, H.
  - intros m _. apply mirror_dist, H.
Qed.
Lemma mirror_observed (a b t y : Qc) over : (a < 0)%Qc -> observed (negb over) (Fin (a * t + b)%Qc) (Fin (a * y + b)%Qc) = observed over (Fin t) (Fin y).
Proof. intros H. destruct over; cbn [observed negb nlt]; unfold qltb; rewrite mirror_leb by exact H; reflexivity. Qed.
(** the shares agree when no member is equal to the threshold *)
Lemma mirror_share (a b t : Qc) over ms : (a < 0)%Qc -> ~ In t ms -> member_share (negb over) (Fin (a * t + b)%Qc) (map Fin (map (fun m => a * m + b)%Qc ms)) = member_share over (Fin t) (map Fin ms).
Proof.
  intros H N. unfold member_share. rewrite !how_count, !count_map, !map_length. do 2 f_equal. apply count_ext. intros m Hm.
  assert (D : m <> t) by (intros ->; exact (N Hm)). destruct over; cbn [negb nle]; rewrite mirror_leb by exact H; destruct (qleb_spec m t) as [L|L], (qleb_spec t m) as [K|K]; cbn [negb]; try reflexivity; exfalso.
  1, 3: apply D, Qcle_antisym; assumption.
  all: exact (Qclt_not_le _ _ L (Qclt_le_weak _ _ K)).
Qed.

Section Laws.
Variable S : settings.
Variable other : string -> list M_state.val -> res M_state.val.
Variable otherr : string -> list M_state.val -> nat -> res M_state.val.
Variable str_of : M_state.val -> string.
Variable dumps : M_state.val -> string.
Variable loads : string -> res M_state.val.
Variable expanduser : string -> string.
Variable resolve : string -> path.
Variable points : M_state.val -> M_state.val -> M_state.val -> res (list num).
Variable less_memory : bool.
Variable integrate_wdir : option path.
Variable cwd : path.
Variable rng : nat -> nat.
Notation faithful := (faithful str_of dumps loads expanduser).
Notation reached := (reached S other otherr str_of dumps loads expanduser resolve points less_memory integrate_wdir cwd rng).
Notation answers := (answers S other otherr str_of dumps loads expanduser resolve points less_memory integrate_wdir cwd rng).
Notation ensemble_ready := (ensemble_ready S).
Notation thr_at := P_dist.thr_at.
Notation errors := (c85_errors S other otherr str_of dumps loads expanduser resolve points less_memory integrate_wdir cwd rng).
Notation probability := (c85_probability S other otherr str_of dumps loads expanduser resolve points less_memory integrate_wdir cwd rng).
Notation brier := (c85_brier S other otherr str_of dumps loads expanduser resolve points less_memory integrate_wdir cwd rng).
Notation roc := (c85_roc S other otherr str_of dumps loads expanduser resolve points less_memory integrate_wdir cwd rng).
Notation crps := (c85_crps S other otherr str_of dumps loads expanduser resolve points less_memory integrate_wdir cwd rng).
Notation spread := (c85_spread S other otherr str_of dumps loads expanduser resolve points less_memory integrate_wdir cwd rng).
Notation iou := (c85_iou S other otherr str_of dumps loads expanduser resolve points less_memory integrate_wdir cwd rng).

(** ** Errors change sign and size, squared and absolute errors only size *)
Theorem c119_errors : forall s s' k L F O (a b : Qc), (a < 0)%Qc -> faithful -> reached s -> reached s' -> cl (ob s) = CDeterm \/ cl (ob s) = CEnsemble -> cl (ob s') = CDeterm \/ cl (ob s') = CEnsemble ->
  arr_shape (point (ob s)) = arr_shape (a_o (ob s)) -> arr_shape (point (ob s')) = arr_shape (a_o (ob s')) -> averages (ob s) k L -> averages (ob s') k L ->
  (forall ix, In ix L -> reads (point (ob s)) ix = Fin (F ix) /\ reads (a_o (ob s)) ix = Fin (O ix) /\ reads (point (ob s')) ix = Fin (a * F ix + b)%Qc /\ reads (a_o (ob s')) ix = Fin (a * O ix + b)%Qc) ->
  exists e sq ab e' sq' ab' x y z, answers s MError e /\ answers s MSqErr sq /\ answers s MAbErr ab /\ answers s' MError e' /\ answers s' MSqErr sq' /\ answers s' MAbErr ab' /\
    reads e k = Fin x /\ reads e' k = Fin (a * x)%Qc /\ reads sq k = Fin y /\ reads sq' k = Fin (a * a * y)%Qc /\ reads ab k = Fin z /\ reads ab' k = Fin (- a * z)%Qc.
Proof.
  intros s s' k L F O a b Pa FA RE RE' C C' Sh Sh' (B & N & ax & ns & A & X & HC) (B' & _ & ax' & ns' & A' & X' & HC') V.
  destruct (errors s ax ns k L F O FA RE C B A Sh X HC N) as (e & sq & ab & A1 & A2 & A3 & _ & _ & _ & G1 & G2 & G3 & _); [intros ix I; destruct (V ix I) as (V1 & V2 & _); auto|].
  destruct (errors s' ax' ns' k L (fun ix => a * F ix + b)%Qc (fun ix => a * O ix + b)%Qc FA RE' C' B' A' Sh' X' HC' N) as (e' & sq' & ab' & A4 & A5 & A6 & _ & _ & _ & G4 & G5 & G6 & _); [intros ix I; destruct (V ix I) as (_ & _ & V3 & V4); auto|].
  exists e, sq, ab, e', sq', ab'. do 3 eexists. split; [exact A1|]. split; [exact A2|]. split; [exact A3|]. split; [exact A4|]. split; [exact A5|]. split; [exact A6|].
  split; [exact G1|]. split; [rewrite G4; f_equal; apply mean_scaled; intros; ring|]. split; [exact G2|]. split; [rewrite G5; f_equal; apply mean_scaled; intros; ring|]. split; [exact G3|]. rewrite G6; f_equal; apply mean_scaled; intros ix I; apply mirror_dist, Pa.
Qed.
(** ** CRPS and spread only change their size: largest and smallest member change places *)
Theorem c119_crps_spread : forall s s' n m k L O M hi lo (a b : Qc), (a < 0)%Qc -> faithful -> reached s -> reached s' -> cl (ob s) = CEnsemble -> cl (ob s') = CEnsemble -> properscoring (w_cell S) ->
  fits (arr_of (a_o (ob s))) (arr_of (a_f (ob s))) (int_of (a_eaxis (ob s))) n -> 0 < nth n (arr_shape (a_f (ob s))) 0 -> w_split S = false \/ arr_shape (a_o (ob s)) <> [] ->
  fits (arr_of (a_o (ob s'))) (arr_of (a_f (ob s'))) (int_of (a_eaxis (ob s'))) m -> 0 < nth m (arr_shape (a_f (ob s'))) 0 -> w_split S = false \/ arr_shape (a_o (ob s')) <> [] ->
  averages (ob s) k L -> averages (ob s') k L ->
  (forall ix, In ix L -> reads (a_o (ob s)) ix = Fin (O ix) /\ reads (a_o (ob s')) ix = Fin (a * O ix + b)%Qc /\ members (ob s) n ix = map Fin (M ix) /\ members (ob s') m ix = map Fin (map (fun y => a * y + b)%Qc (M ix)) /\
     In (hi ix) (M ix) /\ In (lo ix) (M ix) /\ forall y, In y (M ix) -> (lo ix <= y)%Qc /\ (y <= hi ix)%Qc) ->
  exists c c' d d' x y, answers s MCrps c /\ answers s' MCrps c' /\ reads c k = Fin x /\ reads c' k = Fin (- a * x)%Qc /\ answers s MSpread d /\ answers s' MSpread d' /\ reads d k = Fin y /\ reads d' k = Fin (- a * y)%Qc.
Proof.
  intros s s' n m k L O M hi lo a b Pa FA RE RE' C C' PS Fi Pos Sp Fi' Pos' Sp' (B & N & ax & ns & A & X & HC) (B' & _ & ax' & ns' & A' & X' & HC') V.
  destruct (crps s n ax ns k L O M FA RE C PS Fi Pos Sp B A X HC N) as (c & Ac & _ & Gc); [intros ix I; destruct (V ix I) as (V1 & V2 & V3 & _); auto|].
  destruct (crps s' m ax' ns' k L (fun ix => a * O ix + b)%Qc (fun ix => map (fun y => a * y + b)%Qc (M ix)) FA RE' C' PS Fi' Pos' Sp' B' A' X' HC' N) as (c' & Ac' & _ & Gc'); [intros ix I; destruct (V ix I) as (V1 & V2 & V3 & V4 & _); auto|].
  destruct (spread s n ax ns k L hi lo M FA RE C Fi Pos B A X HC N) as (d & Ad & _ & Gd); [intros ix I; destruct (V ix I) as (_ & _ & V3 & _ & V5); auto|].
  destruct (spread s' m ax' ns' k L (fun ix => a * lo ix + b)%Qc (fun ix => a * hi ix + b)%Qc (fun ix => map (fun y => a * y + b)%Qc (M ix)) FA RE' C' Fi' Pos' B' A' X' HC' N) as (d' & Ad' & _ & Gd').
  { intros ix I. destruct (V ix I) as (_ & _ & _ & V4 & V5 & V6 & V7). split; [exact V4|]. split; [apply in_map_iff; eauto|]. split; [apply in_map_iff; eauto|]. intros z Hz. apply in_map_iff in Hz as (y & <- & Hy). destruct (V7 y Hy). split; apply mirror_le; assumption. }
  exists c, c', d, d'. do 2 eexists. split; [exact Ac|]. split; [exact Ac'|]. split; [exact Gc|]. split; [rewrite Gc'; f_equal; apply mean_scaled; intros ix I; apply mirror_crps, Pa|]. split; [exact Ad|]. split; [exact Ad'|]. split; [exact Gd|]. rewrite Gd'; f_equal; apply mean_scaled; intros; ring.
Qed.
(** ** The intersection over union of the deterministic forecast is that of the mirrored event *)
Theorem c119_iou : forall s s' (over : bool) t t' l l' ns ns' k L F O (q a b : Qc), (a < 0)%Qc -> faithful -> reached s -> reached s' -> cl (ob s) = CDeterm \/ cl (ob s) = CEnsemble -> cl (ob s') = CDeterm \/ cl (ob s') = CEnsemble ->
  scalar_of t = Some (Fin q) -> scalar_of t' = Some (Fin (a * q + b)%Qc) -> threshold_ok t -> threshold_ok t' ->
  axes_of (a_avg (ob s)) = Some (Some l) -> axes_of (a_avg (ob s')) = Some (Some l') -> arr_shape (point (ob s)) = arr_shape (a_o (ob s)) -> arr_shape (point (ob s')) = arr_shape (a_o (ob s')) ->
  axes_are (length (arr_shape (a_o (ob s)))) (Some l) ns -> axes_are (length (arr_shape (a_o (ob s')))) (Some l') ns' -> Cells (arr_shape (a_o (ob s))) ns k L -> Cells (arr_shape (a_o (ob s'))) ns' k L -> L <> [] ->
  (forall ix, In ix L -> reads (point (ob s)) ix = Fin (F ix) /\ reads (a_o (ob s)) ix = Fin (O ix) /\ reads (point (ob s')) ix = Fin (a * F ix + b)%Qc /\ reads (a_o (ob s')) ix = Fin (a * O ix + b)%Qc) ->
  exists v v', answers s (over_or_below MIouD over t) v /\ answers s' (over_or_below MIouD (negb over) t') v' /\ reads v' k = reads v k.
Proof.
  intros s s' over t t' l l' ns ns' k L F O q a b Pa FA RE RE' C C' Q Q' T T' A A' Sh Sh' X X' HC HC' N V.
  destruct (iou s over t (Fin q) l ns k L FA RE C A Q T Sh X HC N) as (v & Av & _ & G). destruct (iou s' (negb over) t' (Fin (a * q + b)%Qc) l' ns' k L FA RE' C' A' Q' T' Sh' X' HC' N) as (v' & Av' & _ & G').
  exists v, v'. split; [exact Av|]. split; [exact Av'|].
  assert (E : forall ix, In ix L -> observed (negb over) (Fin (a * q + b)%Qc) (reads (point (ob s')) ix) = observed over (Fin q) (reads (point (ob s)) ix) /\ observed (negb over) (Fin (a * q + b)%Qc) (reads (a_o (ob s')) ix) = observed over (Fin q) (reads (a_o (ob s)) ix)).
  { intros ix I. destruct (V ix I) as (-> & -> & -> & ->). split; apply mirror_observed, Pa. }
  unfold is_iou in G, G'. cbv zeta in G, G'.
  assert (E1 : how_many (fun ix => observed (negb over) (Fin (a * q + b)%Qc) (reads (point (ob s')) ix) && observed (negb over) (Fin (a * q + b)%Qc) (reads (a_o (ob s')) ix)) L = how_many (fun ix => observed over (Fin q) (reads (point (ob s)) ix) && observed over (Fin q) (reads (a_o (ob s)) ix)) L)
    by (unfold how_many; f_equal; apply filter_ext_in; intros ix I; destruct (E ix I) as [-> ->]; reflexivity).
  assert (E2 : how_many (fun ix => observed (negb over) (Fin (a * q + b)%Qc) (reads (point (ob s')) ix) || observed (negb over) (Fin (a * q + b)%Qc) (reads (a_o (ob s')) ix)) L = how_many (fun ix => observed over (Fin q) (reads (point (ob s)) ix) || observed over (Fin q) (reads (a_o (ob s)) ix)) L)
    by (unfold how_many; f_equal; apply filter_ext_in; intros ix I; destruct (E ix I) as [-> ->]; reflexivity).
  rewrite E1, E2 in G'. destruct G as [[G1 G2]|[G1 G2]], G' as [[G3 G4]|[G3 G4]]; try lia; congruence.
Qed.
(** ** Probabilities, Brier scores and ROC areas are those of the mirrored event when no member is equal to the threshold *)
Theorem c119_events_partial : forall s s' (over : bool) t t' th th' n m (a b : Qc), (a < 0)%Qc -> faithful -> reached s -> reached s' -> ensemble_ready (ob s) n t th -> ensemble_ready (ob s') m t' th' -> threshold_ok t -> threshold_ok t' ->
  arr_shape (a_o (ob s')) = arr_shape (a_o (ob s)) ->
  (forall ix, Forall2 lt ix (arr_shape (a_o (ob s))) -> exists q y ms, thr_at th ix = Fin q /\ thr_at th' ix = Fin (a * q + b)%Qc /\ reads (a_o (ob s)) ix = Fin y /\ reads (a_o (ob s')) ix = Fin (a * y + b)%Qc /\
     members (ob s) n ix = map Fin ms /\ members (ob s') m ix = map Fin (map (fun z => a * z + b)%Qc ms) /\ ~ In q ms) ->
  (exists v v', answers s (over_or_below MCdf over t) v /\ answers s' (over_or_below MCdf (negb over) t') v' /\ arr_shape v' = arr_shape v /\ forall ix, Forall2 lt ix (arr_shape v) -> reads v' ix = reads v ix) /\
  (forall k L, averages (ob s) k L -> averages (ob s') k L -> exists v v', answers s (over_or_below MBrier over t) v /\ answers s' (over_or_below MBrier (negb over) t') v' /\ reads v' k = reads v k) /\
  ((exists ix, Forall2 lt ix (arr_shape (a_o (ob s))) /\ observed over (thr_at th ix) (reads (a_o (ob s)) ix) = true) ->
   (exists ix, Forall2 lt ix (arr_shape (a_o (ob s))) /\ observed over (thr_at th ix) (reads (a_o (ob s)) ix) = false) ->
   exists fpr tpr fpr' tpr' z, answers s (over_or_below MRoc over t) (VTuple [fpr; tpr; VFloat (Fin z)]) /\ answers s' (over_or_below MRoc (negb over) t') (VTuple [fpr'; tpr'; VFloat (Fin z)])).
Proof.
  intros s s' over t t' th th' n m a b Pa FA RE RE' H H' T T' Sh R.
  assert (Ms : forall ix, Forall2 lt ix (arr_shape (a_o (ob s))) -> member_share (negb over) (thr_at th' ix) (members (ob s') m ix) = member_share over (thr_at th ix) (members (ob s) n ix)) by (intros ix V; destruct (R ix V) as (q & y & ms & -> & -> & _ & _ & -> & -> & NI); apply mirror_share; assumption).
  assert (Os : forall ix, Forall2 lt ix (arr_shape (a_o (ob s))) -> observed (negb over) (thr_at th' ix) (reads (a_o (ob s')) ix) = observed over (thr_at th ix) (reads (a_o (ob s)) ix)) by (intros ix V; destruct (R ix V) as (q & y & ms & -> & -> & -> & -> & _); apply mirror_observed, Pa).
  split; [|split].
  - destruct (probability s over t th n FA RE H T) as (v & A & _ & Sv & Gv). destruct (probability s' (negb over) t' th' m FA RE' H' T') as (v' & A' & _ & Sv' & Gv').
    exists v, v'. split; [exact A|]. split; [exact A'|]. split; [congruence|]. intros ix V. rewrite Sv in V. rewrite (Gv ix V), (Gv' ix ltac:(rewrite Sh; exact V)). f_equal. apply (Ms ix V).
  - intros k L (B & N & ax & ns & A & X & HC) (B' & _ & ax' & ns' & A' & X' & HC').
    destruct (brier s over t th n ax ns k L FA RE H T B A X HC N) as (v & A1 & _ & G1). destruct (brier s' (negb over) t' th' m ax' ns' k L FA RE' H' T' B' A' X' HC' N) as (v' & A2 & _ & G2).
    exists v, v'. split; [exact A1|]. split; [exact A2|]. rewrite G1, G2. f_equal. apply mean_same. intros ix I. cbv beta zeta. assert (V : valid (arr_shape (a_o (ob s))) ix) by apply (proj2 HC), I.
    rewrite (Os ix V). unfold members in Ms. rewrite (Ms ix V). reflexivity.
  - intros (i1 & V1 & O1) (i2 & V2 & O2).
    set (ev ix := observed over (thr_at th ix) (reads (a_o (ob s)) ix)). set (I := indices (arr_shape (a_o (ob s)))). set (ev' ix := observed (negb over) (thr_at th' ix) (reads (a_o (ob s')) ix)).
    assert (Ee : forall ix, In ix I -> ev' ix = ev ix) by (intros ix Hx; apply Os, in_indices, Hx).
    assert (F1 : filter ev' I = filter ev I) by (apply filter_ext_in; exact Ee).
    assert (F2 : filter (fun ix => negb (ev' ix)) I = filter (fun ix => negb (ev ix)) I) by (apply filter_ext_in; intros ix Hx; rewrite (Ee ix Hx); reflexivity).
    assert (N1 : filter ev I <> []) by (intros Z; assert (Y : In i1 (filter ev I)) by (apply filter_In; split; [apply in_indices, V1|exact O1]); rewrite Z in Y; exact Y).
    assert (N2 : filter (fun ix => negb (ev ix)) I <> []) by (intros Z; assert (Y : In i2 (filter (fun ix => negb (ev ix)) I)) by (apply filter_In; split; [apply in_indices, V2|unfold ev; rewrite O2; reflexivity]); rewrite Z in Y; exact Y).
    destruct (roc s over t th n FA RE H T N1 N2) as (fpr & tpr & R1).
    pose proof (roc s' (negb over) t' th' m FA RE' H' T') as Q. cbv zeta in Q. rewrite Sh in Q. destruct Q as (fpr' & tpr' & R2); [change (filter ev' I <> []); rewrite F1; exact N1|change (filter (fun ix => negb (ev' ix)) I <> []); rewrite F2; exact N2|].
    exists fpr, tpr, fpr', tpr'. eexists. split; [exact R1|].
    change (answers s' (over_or_below MRoc (negb over) t') (VTuple [fpr'; tpr'; VFloat (Fin (roc_area (fun ix => member_share (negb over) (thr_at th' ix) (members (ob s') m ix)) (filter (fun ix => negb (ev' ix)) I) (filter ev' I)))])) in R2. rewrite F1, F2 in R2.
    match goal with |- Props_whole.answers _ _ _ _ _ _ _ _ _ _ _ _ _ _ _ (VTuple [_; _; VFloat (Fin ?c)]) => assert (Eq : roc_area (fun ix => member_share (negb over) (thr_at th' ix) (members (ob s') m ix)) (filter (fun ix => negb (ev ix)) I) (filter ev I) = c); [|rewrite <- Eq; exact R2] end.
    apply roc_ordered. intros c d Hc Hd. apply filter_In in Hc as [Hc _]. apply filter_In in Hd as [Hd _]. rewrite (Ms c (proj1 (in_indices _ _) Hc)), (Ms d (proj1 (in_indices _ _) Hd)). auto.
Qed.
End Laws.
Print Assumptions c119_errors.
Print Assumptions c119_crps_spread.
Print Assumptions c119_iou.
Print Assumptions c119_events_partial.

(** Members (1, 3), (0, 4), (2, 2), observations 2, 0, 1, threshold 1, and all of them mirrored by 3 - x: a member is equal
    to the threshold.  It counts as not over 1, and its mirror image as below 2. *)
Theorem c119_refuted : exists s s' t t' th th' n L v v' q q' x y x' y' z z',
  faithful w_str w_dumps w_loads (fun s => s) /\ l_reached s /\ l_reached s' /\ ensemble_ready e_set (ob s) n t th /\ ensemble_ready e_set (ob s') n t' th' /\ threshold_ok t /\ threshold_ok t' /\ averages (ob s) [] L /\ averages (ob s') [] L /\
  arr_shape (a_o (ob s')) = arr_shape (a_o (ob s)) /\
  (forall ix, Forall2 lt ix (arr_shape (a_o (ob s))) -> P_dist.thr_at th' ix = convert (qz (-1)) (qz 3) (P_dist.thr_at th ix) /\ reads (a_o (ob s')) ix = convert (qz (-1)) (qz 3) (reads (a_o (ob s)) ix) /\ members (ob s') n ix = map (convert (qz (-1)) (qz 3)) (members (ob s) n ix)) /\
  e_answers s (over_or_below MBrier true t) v /\ e_answers s' (over_or_below MBrier false t') v' /\ reads v [] = Fin q /\ reads v' [] = Fin q' /\ q <> q' /\
  e_answers s (over_or_below MRoc true t) (VTuple [x; y; VFloat (Fin z)]) /\ e_answers s' (over_or_below MRoc false t') (VTuple [x'; y'; VFloat (Fin z')]) /\ z <> z'.
Proof.
  set (f := [1; 3; 0; 4; 2; 2]%Z). set (o := [2; 0; 1]%Z). set (c := [2; 2; 2]%Z). set (f' := [2; 0; 3; -1; 1; 1]%Z). set (o' := [1; 3; 2]%Z). set (c' := [1; 1; 1]%Z).
  assert (H1 : (exists v, e_answers (l_state [3; 2] f o c (-1)) (over_or_below MBrier true (VInt 1)) v /\ reads v [] = Fin (1 / qz 2)%Qc) /\ exists x y, e_answers (l_state [3; 2] f o c (-1)) (over_or_below MRoc true (VInt 1)) (VTuple [x; y; VFloat (Fin (1 / qz 4)%Qc)])) by lval.
  assert (H2 : (exists v, e_answers (l_state [3; 2] f' o' c' (-1)) (over_or_below MBrier false (VInt 2)) v /\ reads v [] = Fin (qz 5 / qz 12)%Qc) /\ exists x y, e_answers (l_state [3; 2] f' o' c' (-1)) (over_or_below MRoc false (VInt 2)) (VTuple [x; y; VFloat (Fin (qz 3 / qz 4)%Qc)])) by lval.
  destruct H1 as [(v & A1 & G1) (x & y & R1)]. destruct H2 as [(v' & A2 & G2) (x' & y' & R2)].
  exists (l_state [3; 2] f o c (-1)), (l_state [3; 2] f' o' c' (-1)), (VInt 1), (VInt 2), (TScalar (Fin (qz 1))), (TScalar (Fin (qz 2))), 1, cells3, v, v', (1 / qz 2)%Qc, (qz 5 / qz 12)%Qc, x, y, x', y', (1 / qz 4)%Qc, (qz 3 / qz 4)%Qc.
  split; [exact e_faithful|]. split; [apply l_facts|]. split; [apply l_facts|]. split; [apply l_ready|]. split; [apply l_ready|]. split; [left; exact I|]. split; [left; exact I|]. split; [apply l_averages|]. split; [apply l_averages|].
  assert (So : forall sh f o c z, arr_shape (a_o (ob (l_state sh f o c z))) = [3]) by (intros; apply l_facts). split; [rewrite !So; reflexivity|].
  split; [rewrite So; intros ix I; l_read; revert ix I; apply three_cells; (split; [vm_compute; reflexivity|]); split; vm_compute; reflexivity|].
  split; [exact A1|]. split; [exact A2|]. split; [exact G1|]. split; [exact G2|]. split; [vm_compute; discriminate|]. split; [exact R1|]. split; [exact R2|]. vm_compute. discriminate.
Qed.
Print Assumptions c119_refuted.
(** With the member 2 instead of 1 all theorems apply. *)
Example c119_nonvacuous : let s := l_state [3; 2] [2; 3; 0; 4; 2; 2]%Z [2; 0; 1]%Z [2; 2; 2]%Z (-1) in let s' := l_state [3; 2] [1; 0; 3; -1; 1; 1]%Z [1; 3; 2]%Z [1; 1; 1]%Z (-1) in
  let F ix := qz (nth (hd 0 ix) [2; 2; 2]%Z 0%Z) in let O ix := qz (nth (hd 0 ix) [2; 0; 1]%Z 0%Z) in
  let M ix := map qz (nth (hd 0 ix) [[2; 3]; [0; 4]; [2; 2]]%Z []) in let hi ix := qz (nth (hd 0 ix) [3; 4; 2]%Z 0%Z) in let lo ix := qz (nth (hd 0 ix) [2; 0; 2]%Z 0%Z) in
  let u y := (qz (-1) * y + qz 3)%Qc in
  (qz (-1) < 0)%Qc /\ l_reached s /\ l_reached s' /\ ensemble_ready e_set (ob s) 1 (VInt 1) (TScalar (Fin (qz 1))) /\ ensemble_ready e_set (ob s') 1 (VInt 2) (TScalar (Fin (qz 2))) /\ averages (ob s) [] cells3 /\ averages (ob s') [] cells3 /\
  arr_shape (a_o (ob s')) = arr_shape (a_o (ob s)) /\ qz 2 = u (qz 1) /\
  (forall ix, In ix cells3 -> reads (point (ob s)) ix = Fin (F ix) /\ reads (a_o (ob s)) ix = Fin (O ix) /\ reads (point (ob s')) ix = Fin (u (F ix)) /\ reads (a_o (ob s')) ix = Fin (u (O ix)) /\
     members (ob s) 1 ix = map Fin (M ix) /\ members (ob s') 1 ix = map Fin (map u (M ix)) /\ ~ In (qz 1) (M ix) /\ In (hi ix) (M ix) /\ In (lo ix) (M ix) /\ forall y, In y (M ix) -> (lo ix <= y)%Qc /\ (y <= hi ix)%Qc) /\
  (exists v v', e_answers s (over_or_below MBrier true (VInt 1)) v /\ e_answers s' (over_or_below MBrier false (VInt 2)) v' /\ reads v [] = Fin (qz 5 / qz 12)%Qc /\ reads v' [] = Fin (qz 5 / qz 12)%Qc).
Proof.
  cbv zeta. split; [vm_compute; reflexivity|]. split; [apply l_facts|]. split; [apply l_facts|]. split; [apply l_ready|]. split; [apply l_ready|]. split; [apply l_averages|]. split; [apply l_averages|].
  assert (So : forall sh f o c z, arr_shape (a_o (ob (l_state sh f o c z))) = [3]) by (intros; apply l_facts). split; [rewrite !So; reflexivity|]. split; [apply Qc_is_canon; vm_compute; reflexivity|]. split.
  - intros ix I.
    l_read.
    destruct I as [<-|[<-|[<-|[]]]]; (split; [vm_compute; reflexivity|]); (split; [vm_compute; reflexivity|]); (split; [vm_compute; reflexivity|]); (split; [vm_compute; reflexivity|]); (split; [vm_compute; reflexivity|]); (split; [vm_compute; reflexivity|]);
      (split; [vm_compute; intuition discriminate|]); (split; [cbn; tauto|]); (split; [cbn; tauto|]); intros y H; cbn in H; repeat (destruct H as [<-|H]; [split; vm_compute; discriminate|]); destruct H.
  - assert (H1 : (exists v, e_answers (l_state [3; 2] [2; 3; 0; 4; 2; 2]%Z [2; 0; 1]%Z [2; 2; 2]%Z (-1)) (over_or_below MBrier true (VInt 1)) v /\ reads v [] = Fin (qz 5 / qz 12)%Qc) /\ exists x y, e_answers (l_state [3; 2] [2; 3; 0; 4; 2; 2]%Z [2; 0; 1]%Z [2; 2; 2]%Z (-1)) (over_or_below MRoc true (VInt 1)) (VTuple [x; y; VFloat (Fin (qz 3 / qz 4)%Qc)])) by lval.
    assert (H2 : (exists v, e_answers (l_state [3; 2] [1; 0; 3; -1; 1; 1]%Z [1; 3; 2]%Z [1; 1; 1]%Z (-1)) (over_or_below MBrier false (VInt 2)) v /\ reads v [] = Fin (qz 5 / qz 12)%Qc) /\ exists x y, e_answers (l_state [3; 2] [1; 0; 3; -1; 1; 1]%Z [1; 3; 2]%Z [1; 1; 1]%Z (-1)) (over_or_below MRoc false (VInt 2)) (VTuple [x; y; VFloat (Fin (qz 3 / qz 4)%Qc)])) by lval.
    destruct H1 as [(v & A1 & G1) _]. destruct H2 as [(v' & A2 & G2) _]. exists v, v'. auto.
Qed.
