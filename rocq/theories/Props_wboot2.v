(** Property C116: the reliability diagram with bootstrap of the whole program, also of a verifier that saves its results. *)
From Coq Require Import String ZArith List Lia Bool Arith QArith Qcanon Sorted.
From Verif Require Import QcTac QSum Num NdArr Numpy NdAxes M_common M_boot M_determ M_ens M_special M_rel M_dist M_iou M_roc
  Spec Spec_prob Spec_rel P_boot P_boot2 P_prob P_dist P_brier P_rel Props_rel Spec_relboot Props_relboot
  Store M_state Spec_state P_state P_codec Spec_result P_result Props_state Props_result
  M_whole Spec_whole P_whole Props_whole M_whole2 P_whole2 Spec_whole2 P_layout M_whole3 Spec_whole3 P_whole3 Spec_wboot2 P_wboot2.
From Verif Require Props_special P_special Props_avg Props_ps Props_wboot Props_whole2 Props_whole3.
Import ListNotations.
Open Scope string_scope.
Open Scope list_scope.
Open Scope nat_scope.
Notation reads := P_whole.reads.

(** The points never leave their bins, lie in order, and the observed frequencies are probabilities. *)
Lemma stats_inside (g : list nat -> Qc) rs lo hi : (forall s, In s rs -> s <> [] /\ forall ix, In ix s -> (lo <= g ix)%Qc /\ (g ix <= hi)%Qc) ->
  forall x, In x (map (fun s => Fin (Spec.mean_of (map g s))) rs) -> inside lo hi x.
Proof.
  intros H x I. apply in_map_iff in I as (s & <- & Hs). destruct (H s Hs) as [N B]. eexists. split; [reflexivity|].
  split; [apply mean_ge_all|apply mean_le_all]; try exact N; intros ix Hi; apply (B ix Hi).
Qed.
Lemma diagram_bounds e n M sh ns bin p y fp op pc oc nb : boot_diagram e n M sh ns bin p y fp op pc oc -> 0 < n -> 0 < repeats e ->
  (1 <= confidence e + confidence e)%Qc -> (confidence e <= 1)%Qc ->
  (forall ix, Forall2 lt ix sh -> rel_bin nb (p ix) (bin ix) /\ (y ix = 0%Qc \/ y ix = 1%Qc)) ->
  in_their_bins nb sh ns bin fp op.
Proof.
  intros D Pn Pr C0 C1 HB. unfold in_their_bins. intros k L Hk HL. set (ks := kept (length sh) ns sh) in *. destruct (D k L Hk HL) as (bs & fl & ol & B & Lb & Lf & Lo & T1 & T2 & P & _).
  exists bs, fl, ol. split; [exact B|]. split; [congruence|]. split; [congruence|]. split; [exact T1|]. split; [exact T2|]. intros j Hj. rewrite Lb in Hj.
  destruct (P j Hj) as (rs & [Lr R] & Q1 & Q2).
  assert (NE : forall s, In s rs -> s <> []) by (intros s Hs E; destruct (R s Hs) as [Z _]; rewrite E in Z; cbn in Z; lia).
  assert (Nr : forall g : list (list nat) -> num, map g rs <> []) by (intros g E; apply map_eq_nil in E; rewrite E in Lr; cbn in Lr; lia).
  assert (W : forall s ix, In s rs -> In ix s -> Forall2 lt ix sh /\ bin ix = nth j bs 0).
  { intros s ix Hs Hi. destruct (R s Hs) as [_ Z]. apply Z in Hi. apply filter_In in Hi as [Hi E]. apply Nat.eqb_eq in E. split; [apply (proj2 HL), Hi|exact E]. }
  assert (Y1 : (0 <= 1 - confidence e)%Qc) by (clear - C1; qlra). assert (Y2 : (1 - confidence e <= confidence e)%Qc) by (clear - C0; qlra).
  destruct (triple_bounds (rel_edge nb (nth j bs 0)) (rel_edge nb (Datatypes.S (nth j bs 0))) _ _ _ _ Y1 Y2 C1 (Nr _)
    (stats_inside p rs (rel_edge nb (nth j bs 0)) (rel_edge nb (Datatypes.S (nth j bs 0))) ltac:(intros s Hs; split; [exact (NE s Hs)|]; intros ix Hi; destruct (W s ix Hs Hi) as [V <-]; destruct (HB ix V) as [(_ & Z1 & Z2) _]; split; [exact Z1|apply Qclt_le_weak, Z2])) Q1) as (a & m & b & -> & A1 & A2 & A3 & A4 & A5).
  destruct (triple_bounds 0%Qc 1%Qc _ _ _ _ Y1 Y2 C1 (Nr _)
    (stats_inside y rs 0%Qc 1%Qc ltac:(intros s Hs; split; [exact (NE s Hs)|]; intros ix Hi; destruct (W s ix Hs Hi) as [V _]; destruct (HB ix V) as [_ [-> | ->]]; split; discriminate)) Q2) as (a' & m' & b' & -> & A6 & A7 & A8 & A9 & A10).
  exists a, m, b, a', m', b'. repeat (split; [first [reflexivity|assumption]|]). assumption.
Qed.

Lemma with_bins sh (pv ov : M_state.val) p y nb bin :
  (forall ix, Forall2 lt ix sh -> reads pv ix = Fin (p ix) /\ in_unit (p ix) /\ reads ov ix = Fin (y ix) /\ (y ix = 0%Qc \/ y ix = 1%Qc)) ->
  (forall ix, Forall2 lt ix sh -> rel_bin nb (p ix) (bin ix)) ->
  forall ix, Forall2 lt ix sh -> reads pv ix = Fin (p ix) /\ in_unit (p ix) /\ reads ov ix = Fin (y ix) /\ (y ix = 0%Qc \/ y ix = 1%Qc) /\ rel_bin nb (p ix) (bin ix).
Proof. intros G HB ix V. destruct (G ix V) as (G1 & G2 & G3 & G4). exact (conj G1 (conj G2 (conj G3 (conj G4 (HB ix V))))). Qed.

Section Program.
Variable S : settings.
Variable gen_decomp : nat -> nat -> nat -> nat -> nat.
Variable gen_rel : nat -> nat -> nat -> nat -> nat -> nat.
Variable other : string -> list M_state.val -> res M_state.val.
Variable otherr : string -> list M_state.val -> nat -> res M_state.val.
Variable str_of : M_state.val -> string.
Variable dumps : M_state.val -> string.
Variable loads : string -> res M_state.val.
Variable expanduser : string -> string.
Variable resolve : string -> path.
Variable points : M_state.val -> M_state.val -> M_state.val -> res (list num).
Variable less_memory : bool.
Variable integrate_wdir : option path.
Variable cwd : path.
Variable rng : nat -> nat.
Notation mlib := (more_lib S other).
Notation mlibr := (more_libr S gen_decomp gen_rel otherr).
Notation lib := (whole_lib S mlib).
Notation libr := (whole_libr S mlibr).
Notation step := (M_state.step lib libr str_of dumps loads expanduser resolve points less_memory integrate_wdir cwd rng).
Notation result := (Spec_result.result lib libr points).
Notation faithful := (Props_whole.faithful str_of dumps loads expanduser).
Notation reached := (Props_whole.reached S mlib mlibr str_of dumps loads expanduser resolve points less_memory integrate_wdir cwd rng).
Notation answers := (Props_whole.answers S mlib mlibr str_of dumps loads expanduser resolve points less_memory integrate_wdir cwd rng).
Notation reached_boot := (Props_wboot.reached_boot S mlib mlibr str_of dumps loads expanduser resolve points less_memory integrate_wdir cwd rng).
Notation ready := (ensemble_ready S).
Notation thr_at := P_prob.thr_at.

(** what the call computes, once probabilities and outcomes are known *)
Lemma boot_rel_answer s (over : bool) t nb n ax pv ov : faithful -> reached s -> threshold_ok t ->
  event_prob lib (ob s) (over_of over t) (below_of over t) = Ok pv -> lib "binarize_obs" [a_o (ob s); over_of over t; below_of over t] = Ok ov ->
  a_boot (ob s) = VInt (Z.of_nat n) -> axes_of (a_avg (ob s)) = Some ax ->
  fst (step (OMetric (MRel (VInt (Z.of_nat nb)) (over_of over t) (below_of over t)) None) s) =
  rmap rel_boot_val (reliability_boot (w_boot S) (gen_rel (rng (pos s))) n (arr_of pv) (arr_of ov) nb ax).
Proof.
  intros FA RE T Ep Eo B A. rewrite reached_boot; [|exact FA|exact RE| |left; reflexivity].
  2:{ cbn. apply Forall_cons; [left; exact I|]. apply (threshold_key over t (fun o b => MCdf o b) T). reflexivity. }
  set (x := ob s) in *. cbn [Spec_result.result]. unfold event_pair. rewrite Ep. cbn [bind]. rewrite Eo. cbn [bind]. unfold reliability_boot.
  change (lib "reliability_split" [pv; ov; VInt (Z.of_nat nb); a_avg x]) with (mlib "reliability_split" [pv; ov; VInt (Z.of_nat nb); a_avg x]). unfold more_lib at 1.
  change ("reliability_split" =? "reliability_split")%string with true. cbv iota. rewrite A. cbn [count_of]. destruct (Z.leb_spec 0 (Z.of_nat nb)); [|lia]. rewrite Nat2Z.id.
  destruct (rel_split (arr_of pv) (arr_of ov) nb ax) as [sp|] eqn:Es; [|reflexivity]. cbn [rmap bind].
  unfold with_boot. rewrite B. cbn [is_none app]. rewrite Nat.add_0_r.
  change (libr "post_reliability" [split_val sp; VInt (Z.of_nat n)] (rng (pos s))) with (mlibr "post_reliability" [split_val sp; VInt (Z.of_nat n)] (rng (pos s))). unfold more_libr.
  change ("post_reliability" =? "post_reliability")%string with true. cbv iota. cbn [count_of]. destruct (Z.leb_spec 0 (Z.of_nat n)); [|lia]. rewrite Nat2Z.id.
  pose proof (split_round_boot (w_boot S) (gen_rel (rng (pos s))) n sp) as R. destruct sp as [[[ids f2] o2] bins]. destruct (rel_split_shapes _ _ _ _ _ _ _ _ Es) as [Y1 Y2]. cbn [fst snd] in R.
  destruct (split_of _) as [[[[i' f'] o'] b']|]; [|contradiction]. rewrite (R Y1 Y2). reflexivity.
Qed.
Section Event.
Variables (s : st) (over : bool) (t : M_state.val) (nb n : nat) (ax : option (list Z)) (ns : list nat) (bin : list nat -> nat) (p y : list nat -> Qc) (pv ov : M_state.val).
Let x := ob s.
Let sh := arr_shape (a_o x).
Let e := w_boot S.
Hypotheses (FA : faithful) (RE : reached s) (T : threshold_ok t)
  (Ep : event_prob lib x (over_of over t) (below_of over t) = Ok pv) (Eo : lib "binarize_obs" [a_o x; over_of over t; below_of over t] = Ok ov)
  (Sp : arr_shape pv = sh) (So : arr_shape ov = sh)
  (G : forall ix, Forall2 lt ix sh -> reads pv ix = Fin (p ix) /\ in_unit (p ix) /\ reads ov ix = Fin (y ix) /\ (y ix = 0%Qc \/ y ix = 1%Qc) /\ rel_bin nb (p ix) (bin ix))
  (Nb : 0 < nb) (Pn : 0 < n) (B : a_boot x = VInt (Z.of_nat n)) (A : axes_of (a_avg x) = Some ax) (X : axes_are (length sh) ax ns) (SS : same_sign ax)
  (HK : prod (kept (length sh) ns sh) <> 0) (C0 : (0 <= confidence e)%Qc) (C1 : (confidence e <= 1)%Qc) (Rp : 0 < repeats e).
Let m := MRel (VInt (Z.of_nat nb)) (over_of over t) (below_of over t).
Lemma event_diagram M : (forall k L bs, Forall2 lt k (kept (length sh) ns sh) -> Cells sh ns k L -> bins_of bin L bs -> length bs = M) ->
  exists fp op pc oc, answers s m (VTuple [fp; op; pc; oc]) /\ boot_diagram e n M sh ns bin p y fp op pc oc /\
  ((1 <= confidence e + confidence e)%Qc -> in_their_bins nb sh ns bin fp op).
Proof.
  intros HM. assert (Sx : shape (arr_of ov) = sh) by (rewrite arr_shape_of; exact So). assert (Sh : shape (arr_of pv) = shape (arr_of ov)) by (rewrite !arr_shape_of; congruence).
  assert (GD : good_data (arr_of pv) (arr_of ov) p y).
  { intros ix V. rewrite Sx in V. destruct (G ix V) as (G1 & [G2 G3] & G4 & G5 & _). exact (conj G1 (conj G2 (conj G3 (conj G4 G5)))). }
  destruct (c79_values (arr_of pv) (arr_of ov) nb ax ns p y bin e (gen_rel (rng (pos s))) n M Nb Pn Sh) as (out & Er & H); rewrite ?Sx; try assumption.
  { intros ix V. apply (G ix V). }
  rewrite Sx in H. assert (OK : boot_out_ok (kept (length sh) ns sh) out).
  { rewrite <- Sx. apply (rel_boot_ok e (gen_rel (rng (pos s))) n (arr_of pv) (arr_of ov) nb ax ns out Sh); rewrite ?Sx; assumption. }
  destruct (rel_boot_layout _ out OK) as (fp & op & pc & oc & Ev & La). exists fp, op, pc, oc. split.
  - unfold Props_whole.answers, m. rewrite (boot_rel_answer s over t nb n ax pv ov FA RE T Ep Eo B A). fold e. rewrite Er. cbn [rmap bind]. rewrite Ev. reflexivity.
  - enough (BD : boot_diagram e n M sh ns bin p y fp op pc oc).
    { split; [exact BD|]. intros C2. apply (diagram_bounds e n M sh ns bin p y fp op pc oc nb BD Pn Rp C2 C1). intros ix V. destruct (G ix V) as (_ & _ & _ & G5 & G6). split; assumption. }
    unfold boot_diagram. intros k L Hk HL. set (ks := kept (length sh) ns sh) in *. destruct (H k L Hk HL) as (bs & Ib & L1 & L2 & L3 & P & Q1 & Q2). destruct (La k Hk) as (A1 & A2 & A3 & A4). rewrite Q1 in A3. rewrite Q2 in A4.
    exists bs, (boot_forecast_points out k), (boot_observed_points out k). exact (conj Ib (conj L3 (conj L1 (conj L2 (conj A1 (conj A2 (conj P (conj A3 A4)))))))).
Qed.
Lemma event_ragged k1 L1 b1 k2 L2 b2 :
  Forall2 lt k1 (kept (length sh) ns sh) -> Cells sh ns k1 L1 -> bins_of bin L1 b1 -> Forall2 lt k2 (kept (length sh) ns sh) -> Cells sh ns k2 L2 -> bins_of bin L2 b2 -> length b1 <> length b2 ->
  fst (step (OMetric m None) s) = Raise ValueError.
Proof.
  intros V1 H1 B1 V2 H2 B2 Ne. assert (Sx : shape (arr_of ov) = sh) by (rewrite arr_shape_of; exact So). assert (Sh : shape (arr_of pv) = shape (arr_of ov)) by (rewrite !arr_shape_of; congruence).
  unfold m. rewrite (boot_rel_answer s over t nb n ax pv ov FA RE T Ep Eo B A). fold e.
  rewrite (c79_ragged (arr_of pv) (arr_of ov) nb ax ns p y bin e (gen_rel (rng (pos s))) n k1 L1 b1 k2 L2 b2 Nb Pn Sh); rewrite ?Sx; try assumption; [reflexivity|..].
  - intros ix V. rewrite Sx in V. destruct (G ix V) as (G1 & [G2 G3] & G4 & G5 & _). exact (conj G1 (conj G2 (conj G3 (conj G4 G5)))).
  - intros ix V. apply (G ix V).
Qed.
End Event.

(** ** The bootstrapped Brier decomposition; it is not saved itself *)
Section Decomp.
Variables (s : st) (over : bool) (t : M_state.val) (n : nat) (ax : option (list Z)) (ns : list nat) (p y : list nat -> Qc) (pv ov : M_state.val).
Let x := ob s.
Let sh := arr_shape (a_o x).
Let e := w_boot S.
Lemma event_decomp : faithful -> reached s -> threshold_ok t ->
  event_prob lib x (over_of over t) (below_of over t) = Ok pv -> lib "binarize_obs" [a_o x; over_of over t; below_of over t] = Ok ov -> arr_shape pv = sh -> arr_shape ov = sh ->
  (forall ix, Forall2 lt ix sh -> reads pv ix = Fin (p ix) /\ in_unit (p ix) /\ reads ov ix = Fin (y ix) /\ (y ix = 0%Qc \/ y ix = 1%Qc)) ->
  0 < n -> a_boot x = VInt (Z.of_nat n) -> axes_of (a_avg x) = Some ax -> axes_are (length sh) ax ns -> P_special.plain ax -> (forall d, In d sh -> 0 < d) ->
  (0 <= confidence e)%Qc -> (confidence e <= 1)%Qc -> 0 < repeats e ->
  exists rel reso unc, answers s (MDecomp (over_of over t) (below_of over t)) (VTuple [rel; reso; unc]) /\ boot_terms sh ns rel reso unc.
Proof.
  intros FA RE T Ep Eo Sp So G Pn B A X PL Pos C0 C1 Rp.
  assert (Sx : shape (arr_of ov) = sh) by (rewrite arr_shape_of; exact So). assert (Sh : shape (arr_of pv) = shape (arr_of ov)) by (rewrite !arr_shape_of; congruence).
  destruct (decomp_boot_accepts e (gen_decomp (rng (pos s))) (arr_of pv) (arr_of ov) ax ns n p y Sh) as ([[rel reso] unc] & Ed); rewrite ?Sx; try assumption.
  { intros ix V. destruct (G ix V) as (G1 & _ & G2 & _). split; [exact G1|exact G2]. }
  destruct (Props_special.c51_brier_per_slice_partial e (gen_decomp (rng (pos s))) (arr_of pv) (arr_of ov) ax ns (Some n) rel reso unc Sh ltac:(rewrite Sx; exact X) PL Ed) as (S1 & S2 & S3 & _). rewrite Sx in S1, S2, S3.
  exists (val_of rel), (val_of reso), (val_of unc). split.
  - unfold Props_whole.answers. rewrite reached_boot; [|exact FA|exact RE|apply threshold_key; [exact T|reflexivity]|right; exact I].
    cbn [Spec_result.result]. fold x. unfold event_pair. rewrite Ep. cbn [bind]. rewrite Eo. cbn [bind]. unfold with_boot. rewrite B. cbn [is_none app]. rewrite Nat.add_0_r.
    change (libr "brier_decomp" [pv; ov; a_avg x; VInt (Z.of_nat n)] (rng (pos s))) with (mlibr "brier_decomp" [pv; ov; a_avg x; VInt (Z.of_nat n)] (rng (pos s))). unfold more_libr.
    change ("brier_decomp" =? "brier_decomp")%string with true. cbv iota. rewrite A. cbn [count_of]. destruct (Z.leb_spec 0 (Z.of_nat n)); [|lia]. rewrite Nat2Z.id. fold e. rewrite Ed. reflexivity.
  - split; [exact S1|]. split; [exact S2|]. split; [exact S3|]. intros k q Vk Hq.
    destruct (Props_special.c28_bootstrap_bounds e (gen_decomp (rng (pos s))) (arr_of pv) (arr_of ov) ax ns n rel reso unc k q Sh) as (a & b & c & E1 & E2 & E3 & Bd); rewrite ?Sx; try assumption.
    { intros ix V _. destruct (G ix V) as (G1 & _ & G2 & G3). exists (p ix), (y ix). split; [exact G1|]. split; [exact G2|exact G3]. }
    exists a, b, c. assert (V3 : Forall2 lt (q :: k) (3 :: kept (length sh) ns sh)) by (constructor; assumption).
    rewrite !reads_val by (rewrite ?S1, ?S2, ?S3; exact V3). exact (conj E1 (conj E2 (conj E3 Bd))).
Qed.
End Decomp.

Lemma ensemble_event x m t b (over : bool) : ready x m t b -> let sh := arr_shape (a_o x) in
  exists pv ov, event_prob lib x (over_of over t) (below_of over t) = Ok pv /\ lib "binarize_obs" [a_o x; over_of over t; below_of over t] = Ok ov /\
    arr_shape pv = sh /\ arr_shape ov = sh /\
    forall ix, Forall2 lt ix sh -> let p := Props_whole2.given x m over b in let y := Props_whole2.happened x over b in
      reads pv ix = Fin (p ix) /\ in_unit (p ix) /\ reads ov ix = Fin (y ix) /\ (y ix = 0%Qc \/ y ix = 1%Qc).
Proof.
  intros H sh. destruct (ready_prob S mlib x m t b over H) as (pv & Ep & Sp & Gp). destruct (ready_outcome S mlib x m t b over H) as (ov & Eo & So & Go).
  exists pv, ov. split; [exact Ep|]. split; [exact Eo|]. split; [exact Sp|]. split; [exact So|]. intros ix V p y. split; [exact (Gp ix V)|].
  assert (Ms : Spec.members_at m (arr_of (a_f x)) ix <> []).
  { intros Z. apply (f_equal (@length num)) in Z. unfold Spec.members_at in Z. rewrite map_length, seq_length, arr_shape_of in Z. destruct H as (_ & _ & _ & Ps & _). cbn in Z. lia. }
  destruct (share_bounds over (thr_at b ix) _ Ms) as [Z0 Z1]. split; [split; [exact Z0|exact Z1]|]. split; [exact (Go ix V)|].
  unfold y, Props_whole2.happened, indicator. destruct (Spec_whole.observed _ _ _); auto.
Qed.
(** ** Ensemble verifiers *)
Theorem c116_reliability_ensemble : forall s (over : bool) t b m n nb ax ns (bin : list nat -> nat) M, faithful -> reached s ->
  let x := ob s in let sh := arr_shape (a_o x) in let e := w_boot S in
  ready x m t b -> threshold_ok t -> 0 < nb -> 0 < n -> a_boot x = VInt (Z.of_nat n) ->
  axes_of (a_avg x) = Some ax -> axes_are (length sh) ax ns -> same_sign ax -> prod (kept (length sh) ns sh) <> 0 ->
  (0 <= confidence e)%Qc -> (confidence e <= 1)%Qc -> 0 < repeats e ->
  let p := Props_whole2.given x m over b in let y := Props_whole2.happened x over b in
  (forall ix, Forall2 lt ix sh -> rel_bin nb (p ix) (bin ix)) ->
  (forall k L bs, Forall2 lt k (kept (length sh) ns sh) -> Cells sh ns k L -> bins_of bin L bs -> length bs = M) ->
  exists fp op pc oc, answers s (MRel (VInt (Z.of_nat nb)) (over_of over t) (below_of over t)) (VTuple [fp; op; pc; oc]) /\
    boot_diagram e n M sh ns bin p y fp op pc oc /\ ((1 <= confidence e + confidence e)%Qc -> in_their_bins nb sh ns bin fp op).
Proof.
  intros s over t b m n nb ax ns bin M FA RE x sh e H T Nb Pn B A X SS HK C0 C1 Rp p y HB HM.
  destruct (ensemble_event x m t b over H) as (pv & ov & Ep & Eo & Sp & So & G0). assert (G := with_bins _ _ _ _ _ _ _ G0 HB).
  exact (event_diagram s over t nb n ax ns bin p y pv ov FA RE T Ep Eo Sp So G Nb Pn B A X SS HK C0 C1 Rp M HM).
Qed.
(** slices with different numbers of occupied bins *)
Theorem c116_ragged_ensemble : forall s (over : bool) t b m n nb ax ns (bin : list nat -> nat) k1 L1 b1 k2 L2 b2, faithful -> reached s ->
  let x := ob s in let sh := arr_shape (a_o x) in let e := w_boot S in
  ready x m t b -> threshold_ok t -> 0 < nb -> 0 < n -> a_boot x = VInt (Z.of_nat n) ->
  axes_of (a_avg x) = Some ax -> axes_are (length sh) ax ns -> same_sign ax -> prod (kept (length sh) ns sh) <> 0 ->
  (0 <= confidence e)%Qc -> (confidence e <= 1)%Qc -> 0 < repeats e ->
  (forall ix, Forall2 lt ix sh -> rel_bin nb (Props_whole2.given x m over b ix) (bin ix)) ->
  Forall2 lt k1 (kept (length sh) ns sh) -> Cells sh ns k1 L1 -> bins_of bin L1 b1 -> Forall2 lt k2 (kept (length sh) ns sh) -> Cells sh ns k2 L2 -> bins_of bin L2 b2 -> length b1 <> length b2 ->
  fst (step (OMetric (MRel (VInt (Z.of_nat nb)) (over_of over t) (below_of over t)) None) s) = Raise ValueError.
Proof.
  intros s over t b m n nb ax ns bin k1 L1 b1 k2 L2 b2 FA RE x sh e H T Nb Pn B A X SS HK C0 C1 Rp HB.
  destruct (ensemble_event x m t b over H) as (pv & ov & Ep & Eo & Sp & So & G0). assert (G := with_bins _ _ _ _ _ _ _ G0 HB).
  exact (event_ragged s over t nb n ax ns bin _ _ pv ov FA RE T Ep Eo Sp So G Nb Pn B A X SS HK C0 C1 Rp k1 L1 b1 k2 L2 b2).
Qed.
(** the Brier decomposition: nine numbers for each slice *)
Theorem c116_decomposition_ensemble : forall s (over : bool) t b m n ax ns,
  faithful -> reached s -> let x := ob s in let sh := arr_shape (a_o x) in let e := w_boot S in
  ready x m t b -> threshold_ok t -> 0 < n -> a_boot x = VInt (Z.of_nat n) ->
  axes_of (a_avg x) = Some ax -> axes_are (length sh) ax ns -> P_special.plain ax -> (forall d, In d sh -> 0 < d) ->
  (0 <= confidence e)%Qc -> (confidence e <= 1)%Qc -> 0 < repeats e ->
  exists rel reso unc, answers s (MDecomp (over_of over t) (below_of over t)) (VTuple [rel; reso; unc]) /\ boot_terms sh ns rel reso unc.
Proof.
  intros s over t b m n ax ns FA RE x sh e H T Pn B A X PL Pos C0 C1 Rp. destruct (ensemble_event x m t b over H) as (pv & ov & Ep & Eo & Sp & So & G).
  exact (event_decomp s over t n ax ns _ _ pv ov FA RE T Ep Eo Sp So G Pn B A X PL Pos C0 C1 Rp).
Qed.
End Program.
Print Assumptions c116_decomposition_ensemble.
Print Assumptions c116_reliability_ensemble.
Print Assumptions c116_ragged_ensemble.

(** ** Parametric verifiers *)
Section Parametric.
Variable S : settings.
Variable W : laws.
Variable gen_decomp : nat -> nat -> nat -> nat -> nat.
Variable gen_rel : nat -> nat -> nat -> nat -> nat -> nat.
Variable other : string -> list M_state.val -> res M_state.val.
Variable otherr : string -> list M_state.val -> nat -> res M_state.val.
Variable str_of : M_state.val -> string.
Variable dumps : M_state.val -> string.
Variable loads : string -> res M_state.val.
Variable expanduser : string -> string.
Variable resolve : string -> path.
Variable points : M_state.val -> M_state.val -> M_state.val -> res (list num).
Variable less_memory : bool.
Variable integrate_wdir : option path.
Variable cwd : path.
Variable rng : nat -> nat.
Notation mlib := (more_lib S (prob_lib S W other)).
Notation mlibr := (more_libr S gen_decomp gen_rel (prob_libr S W otherr)).
Notation lib := (whole_lib S mlib).
Notation libr := (whole_libr S mlibr).
Notation step := (M_state.step lib libr str_of dumps loads expanduser resolve points less_memory integrate_wdir cwd rng).
Notation faithful := (Props_whole.faithful str_of dumps loads expanduser).
Notation reached := (Props_whole.reached S mlib mlibr str_of dumps loads expanduser resolve points less_memory integrate_wdir cwd rng).
Notation answers := (Props_whole.answers S mlib mlibr str_of dumps loads expanduser resolve points less_memory integrate_wdir cwd rng).
Notation ready := (forecast_ready S).
Notation cdf_known := (Props_whole3.cdf_known W).
Lemma parametric_event x f t b (over : bool) F : ready x f t b -> let sh := arr_shape (a_o x) in (forall ix, Forall2 lt ix sh -> cdf_known f b F ix) ->
  exists pv ov, event_prob lib x (over_of over t) (below_of over t) = Ok pv /\ lib "binarize_obs" [a_o x; over_of over t; below_of over t] = Ok ov /\
    arr_shape pv = sh /\ arr_shape ov = sh /\
    forall ix, Forall2 lt ix sh -> let p := fun ix => event_share over (F ix) in let y := Props_whole3.outcome x over b in
      reads pv ix = Fin (p ix) /\ in_unit (p ix) /\ reads ov ix = Fin (y ix) /\ (y ix = 0%Qc \/ y ix = 1%Qc).
Proof.
  intros H sh HB. destruct (Props_whole3.ready_event S W other x f t b over H) as (pv & Ep & Sp & Gp). destruct (Props_whole3.ready_event_outcome S W other x f t b over H) as (ov & Eo & So & Go).
  exists pv, ov. split; [exact Ep|]. split; [exact Eo|]. split; [exact Sp|]. split; [exact So|]. intros ix V p y. destruct (HB ix V) as [K1 K2].
  split; [exact (proj1 (Gp ix V) _ K1 K2)|]. split; [exact (event_share_unit over _ K2)|]. split; [exact (Go ix V)|].
  unfold y, Props_whole3.outcome, indicator. destruct (Spec_whole.observed _ _ _); auto.
Qed.
Theorem c116_reliability_parametric : forall s (over : bool) t b f F n nb ax ns (bin : list nat -> nat) M, faithful -> reached s ->
  let x := ob s in let sh := arr_shape (a_o x) in let e := w_boot S in
  ready x f t b -> threshold_ok t -> 0 < nb -> 0 < n -> a_boot x = VInt (Z.of_nat n) ->
  axes_of (a_avg x) = Some ax -> axes_are (length sh) ax ns -> same_sign ax -> prod (kept (length sh) ns sh) <> 0 ->
  (0 <= confidence e)%Qc -> (confidence e <= 1)%Qc -> 0 < repeats e ->
  let p ix := event_share over (F ix) in let y := Props_whole3.outcome x over b in
  (forall ix, Forall2 lt ix sh -> cdf_known f b F ix /\ rel_bin nb (p ix) (bin ix)) ->
  (forall k L bs, Forall2 lt k (kept (length sh) ns sh) -> Cells sh ns k L -> bins_of bin L bs -> length bs = M) ->
  exists fp op pc oc, answers s (MRel (VInt (Z.of_nat nb)) (over_of over t) (below_of over t)) (VTuple [fp; op; pc; oc]) /\
    boot_diagram e n M sh ns bin p y fp op pc oc /\ ((1 <= confidence e + confidence e)%Qc -> in_their_bins nb sh ns bin fp op).
Proof.
  intros s over t b f F n nb ax ns bin M FA RE x sh e H T Nb Pn B A X SS HK C0 C1 Rp p y HB HM.
  destruct (parametric_event x f t b over F H (fun ix V => proj1 (HB ix V))) as (pv & ov & Ep & Eo & Sp & So & G0). assert (G := with_bins _ _ _ _ _ _ _ G0 (fun ix V => proj2 (HB ix V))).
  exact (event_diagram S gen_decomp gen_rel (prob_lib S W other) (prob_libr S W otherr) str_of dumps loads expanduser resolve points less_memory integrate_wdir cwd rng
    s over t nb n ax ns bin p y pv ov FA RE T Ep Eo Sp So G Nb Pn B A X SS HK C0 C1 Rp M HM).
Qed.
Theorem c116_ragged_parametric : forall s (over : bool) t b f F n nb ax ns (bin : list nat -> nat) k1 L1 b1 k2 L2 b2, faithful -> reached s ->
  let x := ob s in let sh := arr_shape (a_o x) in let e := w_boot S in
  ready x f t b -> threshold_ok t -> 0 < nb -> 0 < n -> a_boot x = VInt (Z.of_nat n) ->
  axes_of (a_avg x) = Some ax -> axes_are (length sh) ax ns -> same_sign ax -> prod (kept (length sh) ns sh) <> 0 ->
  (0 <= confidence e)%Qc -> (confidence e <= 1)%Qc -> 0 < repeats e ->
  (forall ix, Forall2 lt ix sh -> cdf_known f b F ix /\ rel_bin nb (event_share over (F ix)) (bin ix)) ->
  Forall2 lt k1 (kept (length sh) ns sh) -> Cells sh ns k1 L1 -> bins_of bin L1 b1 -> Forall2 lt k2 (kept (length sh) ns sh) -> Cells sh ns k2 L2 -> bins_of bin L2 b2 -> length b1 <> length b2 ->
  fst (step (OMetric (MRel (VInt (Z.of_nat nb)) (over_of over t) (below_of over t)) None) s) = Raise ValueError.
Proof.
  intros s over t b f F n nb ax ns bin k1 L1 b1 k2 L2 b2 FA RE x sh e H T Nb Pn B A X SS HK C0 C1 Rp HB.
  destruct (parametric_event x f t b over F H (fun ix V => proj1 (HB ix V))) as (pv & ov & Ep & Eo & Sp & So & G0). assert (G := with_bins _ _ _ _ _ _ _ G0 (fun ix V => proj2 (HB ix V))).
  exact (event_ragged S gen_decomp gen_rel (prob_lib S W other) (prob_libr S W otherr) str_of dumps loads expanduser resolve points less_memory integrate_wdir cwd rng
    s over t nb n ax ns bin _ _ pv ov FA RE T Ep Eo Sp So G Nb Pn B A X SS HK C0 C1 Rp k1 L1 b1 k2 L2 b2).
Qed.
Theorem c116_decomposition_parametric : forall s (over : bool) t b f F n ax ns,
  faithful -> reached s -> let x := ob s in let sh := arr_shape (a_o x) in let e := w_boot S in
  ready x f t b -> threshold_ok t -> 0 < n -> a_boot x = VInt (Z.of_nat n) ->
  axes_of (a_avg x) = Some ax -> axes_are (length sh) ax ns -> P_special.plain ax -> (forall d, In d sh -> 0 < d) ->
  (0 <= confidence e)%Qc -> (confidence e <= 1)%Qc -> 0 < repeats e -> (forall ix, Forall2 lt ix sh -> cdf_known f b F ix) ->
  exists rel reso unc, answers s (MDecomp (over_of over t) (below_of over t)) (VTuple [rel; reso; unc]) /\ boot_terms sh ns rel reso unc.
Proof.
  intros s over t b f F n ax ns FA RE x sh e H T Pn B A X PL Pos C0 C1 Rp HF. destruct (parametric_event x f t b over F H HF) as (pv & ov & Ep & Eo & Sp & So & G).
  exact (event_decomp S gen_decomp gen_rel (prob_lib S W other) (prob_libr S W otherr) str_of dumps loads expanduser resolve points less_memory integrate_wdir cwd rng
    s over t n ax ns _ _ pv ov FA RE T Ep Eo Sp So G Pn B A X PL Pos C0 C1 Rp).
Qed.
End Parametric.
Print Assumptions c116_decomposition_parametric.
Print Assumptions c116_reliability_parametric.
Print Assumptions c116_ragged_parametric.

(** Four members (shares 3/4 and 1/2, outcomes 1 and 0) in four bins, a verifier that has saved results before: each of
    the two occupied bins holds one sample, so the three numbers of its point are the same. *)
Notation r_lib := (whole_lib e_set (more_lib e_set w_lib)).
Notation r_libr := (whole_libr e_set (more_libr e_set (fun d i r j => d + i + r + j) (fun d i r j q => d + i + r + j + q) w_libr)).
Notation r_steps := (M_state.steps r_lib r_libr w_str w_dumps w_loads (fun s => s) w_resolve w_points false None [] (fun n => n)).
Notation r_step := (M_state.step r_lib r_libr w_str w_dumps w_loads (fun s => s) w_resolve w_points false None [] (fun n => n)).
Notation r_reached := (Props_whole.reached e_set (more_lib e_set w_lib) (more_libr e_set (fun d i r j => d + i + r + j) (fun d i r j q => d + i + r + j + q) w_libr)
  w_str w_dumps w_loads (fun s => s) w_resolve w_points false None [] (fun n => n)).
Notation r_answers := (Props_whole.answers e_set (more_lib e_set w_lib) (more_libr e_set (fun d i r j => d + i + r + j) (fun d i r j q => d + i + r + j + q) w_libr)
  w_str w_dumps w_loads (fun s => s) w_resolve w_points false None [] (fun n => n)).
Definition r_obj (f o : nat) : obj := mkObj CEnsemble (VArr [2; 4] f) (VArr [2] o) VNone (VInt 2) (VStr "w") (VBool true)
    VNone VNone (VFun 0) VNone VNone VNone VNone VNone VNone VNone.
Definition r_call : meth := MRel (VInt 4) (VInt 0) VNone.
Definition r_shape (x : obj) (f o : nat) : Prop :=
  cl x = CEnsemble /\ a_f x = VArr [2; 4] f /\ a_o x = VArr [2] o /\ a_eaxis x = VInt (-1) /\ a_boot x = VInt 2 /\ a_avg x = VNone.
Lemma r_constructed f o : exists x1 k1, M_state.construct r_lib (fun s => s) w_resolve (r_obj f o) w_used = (Ok x1, k1) /\ truthy (a_wd x1) = true /\ r_shape (put_wd VNone x1) f o.
Proof. do 2 eexists. split; [reflexivity|]. split; [reflexivity|]. repeat split. Qed.
Lemma one_sample (g : list nat -> Qc) ix rs n reps v : 0 < n -> 0 < reps -> resamples_of [ix] n reps rs ->
  triple_of np_quantile (1 - confidence Props_avg.ex_env)%Qc (confidence Props_avg.ex_env) (map (fun s => Fin (Spec.mean_of (map g s))) rs) v -> v = [Fin (g ix); Fin (g ix); Fin (g ix)].
Proof.
  intros Pn Pr [L R] T. set (c := confidence Props_avg.ex_env) in *.
  assert (Y1 : (0 <= 1 - c)%Qc) by (vm_compute; discriminate). assert (Y2 : (1 - c <= c)%Qc) by (vm_compute; discriminate). assert (Y3 : (c <= 1)%Qc) by (vm_compute; discriminate).
  assert (Nr : map (fun s => Fin (Spec.mean_of (map g s))) rs <> []) by (intros E; apply map_eq_nil in E; rewrite E in L; cbn in L; lia).
  destruct (triple_bounds (g ix) (g ix) _ _ _ _ Y1 Y2 Y3 Nr
    (stats_inside g rs (g ix) (g ix) ltac:(intros s Hs; destruct (R s Hs) as [Ls Rs]; split; [intros ->; cbn in Ls; lia|]; intros jx Hj; destruct (Rs jx Hj) as [<-|[]]; split; apply Qcle_refl)) T)
    as (a & m & b & -> & A1 & A2 & A3 & A4 & A5).
  assert (Ea : a = g ix) by (apply Qcle_antisym; [exact (Qcle_trans _ _ _ A2 A3)|exact A1]). assert (Eb : b = g ix) by (apply Qcle_antisym; [exact A3|exact (Qcle_trans _ _ _ A1 A2)]).
  assert (Em : m = g ix) by (apply Qcle_antisym; assumption). rewrite Ea, Eb, Em. reflexivity.
Qed.
Lemma r_case f o : content f = Props_whole2.d_F4 -> content o = Props_whole2.d_O ->
  exists x1 k1, M_state.construct r_lib (fun s => s) w_resolve (r_obj f o) w_used = (Ok x1, k1) /\ truthy (a_wd x1) = true /\
  let s := snd (r_steps [OMetric r_call None] (mkSt x1 k1 0 [])) in
  r_reached s /\ exists fp op pc oc vs i w, r_answers s r_call (VTuple [fp; op; pc; oc]) /\ fp = VList vs /\
    Forall2 vector_is vs [map Fin [Q2Qc (1 # 2); Q2Qc (1 # 2); Q2Qc (1 # 2)]; map Fin [Q2Qc (3 # 4); Q2Qc (3 # 4); Q2Qc (3 # 4)]] /\
    pc = VDict [("index", i); ("values", w)] /\ vector_is w [nnat 1; nnat 1].
Proof.
  intros Hf Ho. destruct (r_constructed f o) as (x1 & k1 & E & Tx & Sx1). exists x1, k1. split; [exact E|]. split; [exact Tx|]. intros s.
  assert (K : key_ok r_call) by (repeat (apply Forall_cons; [left; constructor|]); apply Forall_nil).
  assert (F : Forall calm [OMetric r_call None]) by (constructor; [exact K|constructor]).
  assert (RE : r_reached s) by (left; exists (r_obj f o), w_used, x1, k1, [OMetric r_call None], 0; exact (conj (or_introl eq_refl) (conj w_used_wf (conj eq_refl (conj E (conj F eq_refl)))))).
  split; [exact RE|].
  assert (OS : put_wd VNone (ob s) = put_wd VNone x1).
  { destruct (construct_inv r_lib r_libr w_str w_dumps (fun s => s) w_resolve w_points false (r_obj f o) w_used x1 k1 w_used ltac:(reflexivity) ltac:(left; reflexivity) w_used_wf eq_refl E) as [IN _].
    destruct (calm_steps r_lib r_libr w_str w_dumps w_loads (fun s => s) w_resolve w_points false None [] (fun n => n) w_text w_pickle [OMetric r_call None]
      (mkSt x1 k1 0 []) (mkSt (put_wd VNone x1) w_used 0 []) F IN eq_refl) as [_ O1]. fold s in O1. rewrite <- O1. set (t := mkSt (put_wd VNone x1) w_used 0 []).
    assert (Q : ob (snd (r_step (OMetric r_call None) t)) = ob t) by (apply (c83_saving_off r_lib r_libr w_str w_dumps w_loads (fun s => s) w_resolve w_points false None [] (fun n => n) r_call None t (or_introl eq_refl) eq_refl K (or_introl eq_refl))).
    cbn [M_state.steps]. destruct (r_step (OMetric r_call None) t) as [r t1] eqn:Et. cbn [snd] in Q |- *. exact Q. }
  rewrite <- OS in Sx1. change (r_shape (ob s) f o) in Sx1. clear OS. clearbody s. destruct Sx1 as (C & Ef & Eo & Ee & Eb & Ea).
  assert (Af : arr_of (a_f (ob s)) = of_list NaN [2; 4] Props_whole2.d_F4) by (rewrite Ef; cbn [arr_of]; rewrite Hf; reflexivity).
  assert (Ao : arr_of (a_o (ob s)) = of_list NaN [2] Props_whole2.d_O) by (rewrite Eo; cbn [arr_of]; rewrite Ho; reflexivity).
  assert (So : arr_shape (a_o (ob s)) = [2]) by (rewrite Eo; reflexivity). assert (Sf : arr_shape (a_f (ob s)) = [2; 4]) by (rewrite Ef; reflexivity).
  assert (Rd : ensemble_ready e_set (ob s) 1 (VInt 0) (TScalar (Fin (qz 0)))).
  { split; [exact C|]. split; [reflexivity|]. split; [rewrite Af, Ao, Ee; split; [split; [cbn; lia|right; reflexivity]|reflexivity]|]. rewrite Sf, So. split; [cbn; lia|]. split; [left; reflexivity|]. split; [reflexivity|exact I]. }
  set (bin := fun ix : list nat => if Nat.eqb (hd 0 ix) 0 then 2 else 1).
  assert (Bs : forall L bs, Cells [2] [0] [] L -> bins_of bin L bs -> bs = [1; 2]).
  { intros L bs HC [Sd Ib]. apply sorted_nat_unique; [exact Sd|repeat constructor|]. intros j. rewrite Ib. split.
    - intros (ix & _ & <-). unfold bin. destruct (Nat.eqb _ _); cbn; auto.
    - intros [<-|[<-|[]]]; [exists [1]|exists [0]]; (split; [apply (proj2 HC); split; [repeat constructor|reflexivity]|reflexivity]). }
  destruct (c116_reliability_ensemble e_set (fun d i r j => d + i + r + j) (fun d i r j q => d + i + r + j + q) w_lib w_libr w_str w_dumps w_loads (fun s => s) w_resolve w_points false None [] (fun n => n)
    s true (VInt 0) (TScalar (Fin (qz 0))) 1 2 4 None [0] bin 2 e_faithful RE Rd) as (fp & op & pc & oc & An & D & _).
  - left. exact I.
  - lia.
  - lia.
  - exact Eb.
  - rewrite Ea. reflexivity.
  - rewrite So. reflexivity.
  - exact I.
  - rewrite So. discriminate.
  - vm_compute. discriminate.
  - vm_compute. discriminate.
  - cbn. lia.
  - unfold Props_whole2.given. rewrite Af, So. intros ix V. inversion V as [|i a r q H1 H2]; subst. inversion H2; subst.
    destruct i as [|[|i]]; [| |lia]; (split; [cbn; lia|]); (split; [vm_compute; discriminate|vm_compute; reflexivity]).
  - rewrite So. intros k L bs Vk HC HB. inversion Vk; subst. rewrite (Bs L bs HC HB). reflexivity.
  - rewrite So in D. destruct (D [] [[0]; [1]] ltac:(constructor) cells_2) as (bs & fl & ol & B & _ & Lf & _ & T1 & _ & P & N1 & _).
    rewrite (Bs _ _ cells_2 B) in P, N1. destruct T1 as (vs & Ev & Fv). destruct N1 as (i & w & Ew & Fw).
    exists fp, op, pc, oc, vs, i, w. split; [exact An|]. split; [exact Ev|]. split; [|split; [exact Ew|exact Fw]].
    destruct fl as [|v0 [|v1 [|v2 fl]]]; try discriminate Lf. clear D Lf An Ev Ew.
    destruct (P 0 ltac:(lia)) as (r0 & R0 & Q0 & _). destruct (P 1 ltac:(lia)) as (r1 & R1 & Q1 & _). cbn [nth] in Q0, Q1, R0, R1.
    apply (one_sample _ [1] r0 2 3) in Q0; [|lia|lia|exact R0]. apply (one_sample _ [0] r1 2 3) in Q1; [|lia|lia|exact R1].
    unfold Props_whole2.given in Q0, Q1. rewrite Af in Q0, Q1. subst v0 v1.
    eassert (El : [map Fin [Q2Qc (1 # 2); Q2Qc (1 # 2); Q2Qc (1 # 2)]; map Fin [Q2Qc (3 # 4); Q2Qc (3 # 4); Q2Qc (3 # 4)]] = _); [|rewrite El; exact Fv].
    cbn [map]. repeat f_equal; apply Qc_is_canon; vm_compute; reflexivity.
Qed.
Example c116_nonvacuous : exists x1 k1, M_state.construct r_lib (fun s => s) w_resolve (r_obj (store Props_whole2.d_F4) (store Props_whole2.d_O)) w_used = (Ok x1, k1) /\ truthy (a_wd x1) = true /\
  let s := snd (r_steps [OMetric r_call None] (mkSt x1 k1 0 [])) in
  r_reached s /\ exists fp op pc oc vs i w, r_answers s r_call (VTuple [fp; op; pc; oc]) /\ fp = VList vs /\
    Forall2 vector_is vs [map Fin [Q2Qc (1 # 2); Q2Qc (1 # 2); Q2Qc (1 # 2)]; map Fin [Q2Qc (3 # 4); Q2Qc (3 # 4); Q2Qc (3 # 4)]] /\
    pc = VDict [("index", i); ("values", w)] /\ vector_is w [nnat 1; nnat 1].
Proof. apply r_case; apply content_store. Qed.
(** the bootstrapped Brier decomposition of the same verifier after the probabilities it uses were saved *)
Definition r_cdf : meth := MCdf (VInt 0) VNone.
Lemma r_decomp f o : content f = Props_whole2.d_F4 -> content o = Props_whole2.d_O ->
  exists x1 k1, M_state.construct r_lib (fun s => s) w_resolve (r_obj f o) w_used = (Ok x1, k1) /\ truthy (a_wd x1) = true /\
  let s := snd (r_steps [OMetric r_cdf None] (mkSt x1 k1 0 [])) in
  r_reached s /\ exists rel reso unc, r_answers s (MDecomp (VInt 0) VNone) (VTuple [rel; reso; unc]) /\ boot_terms [2] [0] rel reso unc.
Proof.
  intros Hf Ho. destruct (r_constructed f o) as (x1 & k1 & E & Tx & Sx1). exists x1, k1. split; [exact E|]. split; [exact Tx|]. intros s.
  assert (K : key_ok r_cdf) by (repeat (apply Forall_cons; [left; constructor|]); apply Forall_nil).
  assert (F : Forall calm [OMetric r_cdf None]) by (constructor; [exact K|constructor]).
  assert (RE : r_reached s) by (left; exists (r_obj f o), w_used, x1, k1, [OMetric r_cdf None], 0; exact (conj (or_introl eq_refl) (conj w_used_wf (conj eq_refl (conj E (conj F eq_refl)))))).
  split; [exact RE|].
  assert (OS : put_wd VNone (ob s) = put_wd VNone x1).
  { destruct (construct_inv r_lib r_libr w_str w_dumps (fun s => s) w_resolve w_points false (r_obj f o) w_used x1 k1 w_used ltac:(reflexivity) ltac:(left; reflexivity) w_used_wf eq_refl E) as [IN _].
    destruct (calm_steps r_lib r_libr w_str w_dumps w_loads (fun s => s) w_resolve w_points false None [] (fun n => n) w_text w_pickle [OMetric r_cdf None]
      (mkSt x1 k1 0 []) (mkSt (put_wd VNone x1) w_used 0 []) F IN eq_refl) as [_ O1]. fold s in O1. rewrite <- O1. set (t := mkSt (put_wd VNone x1) w_used 0 []).
    assert (Q : ob (snd (r_step (OMetric r_cdf None) t)) = ob t) by (apply (c83_saving_off r_lib r_libr w_str w_dumps w_loads (fun s => s) w_resolve w_points false None [] (fun n => n) r_cdf None t (or_introl eq_refl) eq_refl K (or_introl eq_refl))).
    cbn [M_state.steps]. destruct (r_step (OMetric r_cdf None) t) as [r t1] eqn:Et. cbn [snd] in Q |- *. exact Q. }
  rewrite <- OS in Sx1. change (r_shape (ob s) f o) in Sx1. clear OS. clearbody s. destruct Sx1 as (C & Ef & Eo & Ee & Eb & Ea).
  assert (Af : arr_of (a_f (ob s)) = of_list NaN [2; 4] Props_whole2.d_F4) by (rewrite Ef; cbn [arr_of]; rewrite Hf; reflexivity).
  assert (Ao : arr_of (a_o (ob s)) = of_list NaN [2] Props_whole2.d_O) by (rewrite Eo; cbn [arr_of]; rewrite Ho; reflexivity).
  assert (So : arr_shape (a_o (ob s)) = [2]) by (rewrite Eo; reflexivity). assert (Sf : arr_shape (a_f (ob s)) = [2; 4]) by (rewrite Ef; reflexivity).
  assert (Rd : ensemble_ready e_set (ob s) 1 (VInt 0) (TScalar (Fin (qz 0)))).
  { split; [exact C|]. split; [reflexivity|]. split; [rewrite Af, Ao, Ee; split; [split; [cbn; lia|right; reflexivity]|reflexivity]|]. rewrite Sf, So. split; [cbn; lia|]. split; [left; reflexivity|]. split; [reflexivity|exact I]. }
  rewrite <- So. apply (c116_decomposition_ensemble e_set (fun d i r j => d + i + r + j) (fun d i r j q => d + i + r + j + q) w_lib w_libr w_str w_dumps w_loads (fun s => s) w_resolve w_points false None [] (fun n => n)
    s true (VInt 0) (TScalar (Fin (qz 0))) 1 2 None [0] e_faithful RE Rd).
  - left. exact I.
  - lia.
  - exact Eb.
  - rewrite Ea. reflexivity.
  - rewrite So. reflexivity.
  - exact I.
  - rewrite So. intros d [<-|[]]. lia.
  - vm_compute. discriminate.
  - vm_compute. discriminate.
  - cbn. lia.
Qed.
Example c116_decomposition_nonvacuous : exists x1 k1, M_state.construct r_lib (fun s => s) w_resolve (r_obj (store Props_whole2.d_F4) (store Props_whole2.d_O)) w_used = (Ok x1, k1) /\ truthy (a_wd x1) = true /\
  let s := snd (r_steps [OMetric r_cdf None] (mkSt x1 k1 0 [])) in
  r_reached s /\ exists rel reso unc, r_answers s (MDecomp (VInt 0) VNone) (VTuple [rel; reso; unc]) /\ boot_terms [2] [0] rel reso unc.
Proof. apply r_decomp; apply content_store. Qed.
(** two slices of two samples with one member each: shares 1, 1 in the first and 1, 0 in the second *)
Definition g_obj (f o : nat) : obj := mkObj CEnsemble (VArr [2; 2; 1] f) (VArr [2; 2] o) (VInt 1) (VInt 2) VNone (VBool true)
    VNone VNone (VFun 0) VNone VNone VNone VNone VNone VNone VNone.
Definition g_F : list num := map (fun z => Fin (qz z)) [1; 1; 1; -1]%Z.
Definition g_O : list num := map (fun z => Fin (qz z)) [1; -1; 1; -1]%Z.
Lemma g_constructed f o : exists x1 k1, M_state.construct r_lib (fun s => s) w_resolve (g_obj f o) w_used = (Ok x1, k1) /\ truthy (a_wd x1) = false /\
  cl x1 = CEnsemble /\ a_f x1 = VArr [2; 2; 1] f /\ a_o x1 = VArr [2; 2] o /\ a_eaxis x1 = VInt (-1) /\ a_boot x1 = VInt 2 /\ a_avg x1 = VTuple [VInt 1].
Proof. do 2 eexists. split; [reflexivity|]. repeat split. Qed.
Lemma g_cells i : i < 2 -> Cells [2; 2] [1] [i] [[i; 0]; [i; 1]].
Proof.
  intros Hi. split; [repeat constructor; [intros [Z|[]]; discriminate|intros []]|]. intros ix. split.
  - intros [<-|[<-|[]]]; (split; [constructor; [exact Hi|]; constructor; [lia|constructor]|reflexivity]).
  - intros [V E]. inversion V as [|a d r q H1 H2]; subst. inversion H2 as [|j d' r' q' H3 H4]; subst. inversion H4; subst. cbn in E. injection E as ->.
    destruct j as [|[|j]]; [left; reflexivity|right; left; reflexivity|lia].
Qed.
Lemma g_case f o : content f = g_F -> content o = g_O ->
  exists x1 k1, M_state.construct r_lib (fun s => s) w_resolve (g_obj f o) w_used = (Ok x1, k1) /\
  fst (r_step (OMetric r_call None) (mkSt x1 k1 0 [])) = Raise ValueError.
Proof.
  intros Hf Ho. destruct (g_constructed f o) as (x1 & k1 & E & Wd & C & Ef & Eo & Ee & Eb & Ea). exists x1, k1. split; [exact E|]. set (s := mkSt x1 k1 0 []).
  change x1 with (ob s) in C, Ef, Eo, Ee, Eb, Ea.
  assert (Af : arr_of (a_f (ob s)) = of_list NaN [2; 2; 1] g_F) by (rewrite Ef; cbn [arr_of]; rewrite Hf; reflexivity).
  assert (Ao : arr_of (a_o (ob s)) = of_list NaN [2; 2] g_O) by (rewrite Eo; cbn [arr_of]; rewrite Ho; reflexivity).
  assert (So : arr_shape (a_o (ob s)) = [2; 2]) by (rewrite Eo; reflexivity). assert (Sf : arr_shape (a_f (ob s)) = [2; 2; 1]) by (rewrite Ef; reflexivity).
  assert (Rd : ensemble_ready e_set (ob s) 2 (VInt 0) (TScalar (Fin (qz 0)))).
  { split; [exact C|]. split; [reflexivity|]. split; [rewrite Af, Ao, Ee; split; [split; [cbn; lia|right; reflexivity]|reflexivity]|]. rewrite Sf, So. split; [cbn; lia|]. split; [left; reflexivity|]. split; [reflexivity|exact I]. }
  set (bin := fun ix : list nat => if (Nat.eqb (hd 0 ix) 1 && Nat.eqb (nth 1 ix 0) 1)%bool then 0 else 3).
  assert (RE : r_reached s) by (right; split; [left; reflexivity|exact Wd]).
  apply (c116_ragged_ensemble e_set (fun d i r j => d + i + r + j) (fun d i r j q => d + i + r + j + q) w_lib w_libr w_str w_dumps w_loads (fun s => s) w_resolve w_points false None [] (fun n => n)
    s true (VInt 0) (TScalar (Fin (qz 0))) 2 2 4 (Some [1%Z]) [1] bin [0] [[0; 0]; [0; 1]] [3] [1] [[1; 0]; [1; 1]] [0; 3] e_faithful RE Rd).
  - left. exact I.
  - lia.
  - lia.
  - exact Eb.
  - rewrite Ea. reflexivity.
  - rewrite So. split; [|repeat constructor; intros []]. constructor; [|constructor]. split; [cbn; lia|left; reflexivity].
  - left. repeat constructor; lia.
  - rewrite So. discriminate.
  - vm_compute. discriminate.
  - vm_compute. discriminate.
  - cbn. lia.
  - unfold Props_whole2.given. rewrite Af, So. intros ix V. inversion V as [|i a r q H1 H2]; subst. inversion H2 as [|j a' r' q' H3 H4]; subst. inversion H4; subst.
    destruct i as [|[|i]]; [| |lia]; (destruct j as [|[|j]]; [| |lia]); (split; [cbn; lia|]); (split; [vm_compute; discriminate|vm_compute; reflexivity]).
  - rewrite So. repeat constructor.
  - rewrite So. apply g_cells. lia.
  - split; [repeat constructor|]. intros b. split; [intros [<-|[]]; exists [0; 0]; split; [left; reflexivity|reflexivity]|]. intros (ix & [<-|[<-|[]]] & <-); left; reflexivity.
  - rewrite So. repeat constructor.
  - rewrite So. apply g_cells. lia.
  - split; [repeat constructor|]. intros b. split; [intros [<-|[<-|[]]]; [exists [1; 1]|exists [1; 0]]; split; [right; left; reflexivity|reflexivity|left; reflexivity|reflexivity]|].
    intros (ix & [<-|[<-|[]]] & <-); [right; left; reflexivity|left; reflexivity].
  - discriminate.
Qed.
Example c116_ragged_nonvacuous : exists x1 k1, M_state.construct r_lib (fun s => s) w_resolve (g_obj (store g_F) (store g_O)) w_used = (Ok x1, k1) /\
  fst (r_step (OMetric r_call None) (mkSt x1 k1 0 [])) = Raise ValueError.
Proof. apply g_case; apply content_store. Qed.
