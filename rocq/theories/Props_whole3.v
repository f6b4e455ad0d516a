(** Property C93: the parametric verifiers (Gaussian, Gamma, GammaHurdle) from constructor to numbers: what the public
    metrics return after any history of calls and settings, in terms of the distribution functions, the observations
    and the sampled members. *)
From Coq Require Import String ZArith List Lia Bool Arith QArith Qcanon Sorted.
From Verif Require Import QcTac QSum Num NdArr Numpy NdAxes NdMove M_common M_boot M_determ M_ens M_special M_rel M_dist M_iou M_roc
  Spec Spec_prob Spec_rel P_boot P_rank P_prob P_dist P_brier P_special P_rel Props_avg Props_special Props_rel Props_rank Props_iou
  Store M_state Spec_state P_state P_codec Spec_result P_result Props_state Props_result M_whole Spec_whole P_whole Props_whole M_whole2 P_whole2 Spec_whole2 P_layout
  M_whole3 Spec_whole3 P_whole3.
From Verif Require Props_ps P_ss.
Import ListNotations.
Open Scope string_scope.
Open Scope list_scope.
Open Scope nat_scope.

Section Program.
Variable S : settings.
Variable W : laws.
Variable gen_decomp : nat -> nat -> nat -> nat -> nat.
Variable gen_rel : nat -> nat -> nat -> nat -> nat -> nat.
Variable other : string -> list M_state.val -> res M_state.val.
Variable otherr : string -> list M_state.val -> nat -> res M_state.val.
Variable str_of : M_state.val -> string.
Variable dumps : M_state.val -> string.
Variable loads : string -> res M_state.val.
Variable expanduser : string -> string.
Variable resolve : string -> path.
Variable points : M_state.val -> M_state.val -> M_state.val -> res (list num).
Variable less_memory : bool.
Variable integrate_wdir : option path.
Variable cwd : path.
Variable rng : nat -> nat.

Notation plib := (prob_lib S W other).
Notation plibr := (prob_libr S W otherr).
Notation mlib := (more_lib S plib).
Notation mlibr := (more_libr S gen_decomp gen_rel plibr).
Notation lib := (whole_lib S mlib).
Notation libr := (whole_libr S mlibr).
Notation step := (M_state.step lib libr str_of dumps loads expanduser resolve points less_memory integrate_wdir cwd rng).
Notation result := (Spec_result.result lib libr points).
Notation faithful := (Props_whole.faithful str_of dumps loads expanduser).
Notation reached := (Props_whole.reached S mlib mlibr str_of dumps loads expanduser resolve points less_memory integrate_wdir cwd rng).
Notation answers := (Props_whole.answers S mlib mlibr str_of dumps loads expanduser resolve points less_memory integrate_wdir cwd rng).
Notation reached_result := (Props_whole.reached_result S mlib mlibr str_of dumps loads expanduser resolve points less_memory integrate_wdir cwd rng).
Notation saving_off := (c83_saving_off lib libr str_of dumps loads expanduser resolve points less_memory integrate_wdir cwd rng).
Notation ready := (forecast_ready S).
Notation thr_at := P_prob.thr_at.
(** the distribution function of a cell at the threshold is a number [F ix] between zero and one *)
Definition cdf_known (f : forecast) (b : thr) (F : list nat -> Qc) (ix : list nat) : Prop :=
  cell_cdf (w_scipy W) f ix (thr_at b ix) = Fin (F ix) /\ in_unit (F ix).
Definition outcome (x : obj) (over : bool) (b : thr) (ix : list nat) : Qc := indicator (Spec_whole.observed over (thr_at b ix) (reads (a_o x) ix)).

Lemma valid_remove n sh ix : valid sh ix -> valid (remove_at n sh) (remove_at n ix).
Proof.
  revert sh ix. induction n as [|n IH]; intros sh ix H; inversion H as [|i d r q Hi Hr]; subst; cbn; try constructor; try assumption. apply IH, Hr.
Qed.
Lemma fin_inj p q : Fin p = Fin q -> p = q. Proof. congruence. Qed.
Lemma ready_event x f t b (over : bool) : ready x f t b ->
  exists v, event_prob lib x (over_of over t) (below_of over t) = Ok v /\ arr_shape v = arr_shape (a_o x) /\
    forall ix, valid (arr_shape (a_o x)) ix ->
      (forall q, cell_cdf (w_scipy W) f ix (thr_at b ix) = Fin q -> in_unit q -> reads v ix = Fin (event_share over q)) /\
      (cell_cdf (w_scipy W) f ix (thr_at b ix) = NaN -> reads v ix = NaN).
Proof. intros H. destruct (forecast_event S W other x f t b over H) as (v & E). exists v. destruct over; exact E. Qed.
Lemma ready_event_outcome x f t b (over : bool) : ready x f t b ->
  exists v, lib "binarize_obs" [a_o x; over_of over t; below_of over t] = Ok v /\ arr_shape v = arr_shape (a_o x) /\
    forall ix, valid (arr_shape (a_o x)) ix -> reads v ix = Fin (outcome x over b ix).
Proof.
  intros (_ & _ & _ & _ & _ & T & TF). rewrite <- (arr_shape_of (a_o x)) in *.
  destruct (outcome_value S mlib x t b over T TF) as (v & E & _ & Sv & Gv). exists v. destruct over; auto.
Qed.

(** ** Probability of an event *)
Theorem c93_probability : forall s (over : bool) t b f, faithful -> reached s ->
  let x := ob s in ready x f t b -> threshold_ok t ->
  exists v, answers s (MCdf (over_of over t) (below_of over t)) v /\ answers s (MSharp (over_of over t) (below_of over t)) v /\
    arr_shape v = arr_shape (a_o x) /\
    forall ix, Forall2 lt ix (arr_shape (a_o x)) ->
      (forall q, cell_cdf (w_scipy W) f ix (thr_at b ix) = Fin q -> in_unit q -> reads v ix = Fin (event_share over q)) /\
      (cell_cdf (w_scipy W) f ix (thr_at b ix) = NaN -> reads v ix = NaN).
Proof.
  intros s over t b f FA RE x H T. destruct (ready_event x f t b over H) as (v & E & Sv & Gv). exists v.
  split; [|split; [|split; [exact Sv|exact Gv]]]; unfold Props_whole.answers; (edestruct (reached_result s) as [-> _]; [exact FA|exact RE|apply threshold_key; [exact T|reflexivity]|reflexivity|exact E]).
Qed.

(** ** Brier score *)
Theorem c93_brier : forall s (over : bool) t b f F ax ns k L, faithful -> reached s ->
  let x := ob s in ready x f t b -> threshold_ok t ->
  a_boot x = VNone -> axes_of (a_avg x) = Some ax -> axes_are (length (arr_shape (a_o x))) ax ns ->
  Cells (arr_shape (a_o x)) ns k L -> L <> [] -> (forall ix, In ix L -> cdf_known f b F ix) ->
  exists v, answers s (MBrier (over_of over t) (below_of over t)) v /\
    arr_shape v = kept (length (arr_shape (a_o x))) ns (arr_shape (a_o x)) /\
    reads v k = Fin (Spec.mean_of (map (fun ix => let d := (event_share over (F ix) - outcome x over b ix)%Qc in (d * d)%Qc) L)).
Proof.
  intros s over t b f F ax ns k L FA RE x H T B A X HC N Kn.
  destruct (ready_event x f t b over H) as (p & Ep & Sp & Gp). destruct (ready_event_outcome x f t b over H) as (o & Eo & So & Go).
  set (w := val_of (cell_sq_error (arr_of p) (arr_of o))). assert (Sw : arr_shape w = arr_shape (a_o x)) by (rewrite <- Sp, <- (arr_shape_of p); reflexivity).
  destruct (averaged_result S mlib mlibr x w ax ns 0 B A) as (v & Ev & _ & Sv & Gv); [rewrite Sw; exact X|]. rewrite Sw in Sv, Gv. exists v.
  split; [|split; [exact Sv|]].
  - unfold Props_whole.answers. edestruct (reached_result s) as [-> _]; [exact FA|exact RE|apply threshold_key; [exact T|reflexivity]|fold x; unfold random_call; rewrite B; reflexivity|].
    cbn [Spec_result.result]. fold x. unfold brier_of, event_pair. rewrite Ep. cbn [bind]. rewrite Eo. exact Ev.
  - apply Gv; [exact HC|exact N|]. intros ix I. assert (V : valid (arr_shape (a_o x)) ix) by apply (proj2 HC), I. destruct (Kn ix I) as [K1 K2].
    unfold w. rewrite reads_val by (cbn [cell_sq_error amap2 shape]; rewrite arr_shape_of, Sp; exact V). cbn [cell_sq_error amap2 get].
    change (get (arr_of p) ix) with (reads p ix). change (get (arr_of o) ix) with (reads o ix). rewrite (proj1 (Gp ix V) _ K1 K2), (Go ix V). reflexivity.
Qed.

(** ** ROC area *)
Theorem c93_roc : forall s (over : bool) t b f F, faithful -> reached s ->
  let x := ob s in ready x f t b -> threshold_ok t -> (forall ix, Forall2 lt ix (arr_shape (a_o x)) -> cdf_known f b F ix) ->
  let ev ix := Spec_whole.observed over (thr_at b ix) (reads (a_o x) ix) in
  let E := filter ev (indices (arr_shape (a_o x))) in let N := filter (fun ix => negb (ev ix)) (indices (arr_shape (a_o x))) in
  E <> [] -> N <> [] ->
  exists fpr tpr, answers s (MRoc (over_of over t) (below_of over t)) (VTuple [fpr; tpr; VFloat (Fin (roc_area (fun ix => event_share over (F ix)) N E))]).
Proof.
  intros s over t b f F FA RE x H T Kn ev E N HE HN.
  destruct (ready_event x f t b over H) as (p & Ep & Sp & Gp). destruct (ready_event_outcome x f t b over H) as (o & Eo & So & Go).
  destruct (roc_value S (arr_of p) (arr_of o) (fun ix => event_share over (F ix)) ev) as (fpr & tpr & Er);
    rewrite ?arr_shape_of, ?Sp, ?So; try assumption; [reflexivity| |].
  { intros ix V. destruct (Kn ix V) as [K1 K2]. exact (proj1 (Gp ix V) _ K1 K2). }
  rewrite arr_shape_of, Sp in Er. exists (vec_of fpr), (vec_of tpr).
  unfold Props_whole.answers. edestruct (reached_result s) as [-> _]; [exact FA|exact RE|apply threshold_key; [exact T|reflexivity]|reflexivity|].
  cbn [Spec_result.result]. fold x. unfold event_pair. rewrite Ep. cbn [bind]. rewrite Eo. cbn [bind].
  change (lib "calculate_roc" [p; o]) with (rmap (fun r => VTuple [vec_of (fst (fst r)); vec_of (snd (fst r)); VFloat (snd r)]) (calculate_roc (skip_nan (w_boot S)) (arr_of p) (bools (arr_of o)))).
  rewrite Er. reflexivity.
Qed.

(** ** Brier decomposition; the three terms add up to the Brier score when cells in one bin have one probability *)
Theorem c93_decomposition : forall s (over : bool) t b f F ax ns k L (bin : list nat -> nat), faithful -> reached s ->
  let x := ob s in ready x f t b -> threshold_ok t ->
  a_boot x = VNone -> axes_of (a_avg x) = Some ax -> axes_are (length (arr_shape (a_o x))) ax ns -> P_special.plain ax ->
  (forall d, In d (arr_shape (a_o x)) -> 0 < d) -> Cells (arr_shape (a_o x)) ns k L -> L <> [] ->
  let p ix := event_share over (F ix) in let y := outcome x over b in
  (forall ix, In ix L -> cdf_known f b F ix /\ in_bin 20 (p ix) (bin ix)) ->
  exists rel reso unc q r u, answers s (MDecomp (over_of over t) (below_of over t)) (VTuple [rel; reso; unc]) /\
    let sh := kept (length (arr_shape (a_o x))) ns (arr_shape (a_o x)) in arr_shape rel = sh /\ arr_shape reso = sh /\ arr_shape unc = sh /\
    reads rel k = Fin q /\ reads reso k = Fin r /\ reads unc k = Fin u /\
    q = avg_over (fun ix => (bin_mean bin p L ix - bin_mean bin y L ix) * (bin_mean bin p L ix - bin_mean bin y L ix))%Qc L /\
    r = avg_over (fun ix => (bin_mean bin y L ix - avg_over y L) * (bin_mean bin y L ix - avg_over y L))%Qc L /\
    u = (avg_over y L * (1 - avg_over y L))%Qc /\
    ((forall ix jx, In ix L -> In jx L -> bin ix = bin jx -> F ix = F jx) ->
     exists v, answers s (MBrier (over_of over t) (below_of over t)) v /\ reads v k = Fin (q - r + u)%Qc).
Proof.
  intros s over t b f F ax ns k L bin FA RE x H T B A X PL Pos HC N p y HB.
  destruct (ready_event x f t b over H) as (pv & Ep & Sp & Gp). destruct (ready_event_outcome x f t b over H) as (ov & Eo & So & Go).
  set (e := w_boot S). set (z := fun _ _ _ : nat => 0).
  assert (Sh : shape (arr_of pv) = shape (arr_of ov)) by (rewrite !arr_shape_of; congruence).
  assert (Sx : shape (arr_of ov) = arr_shape (a_o x)) by (rewrite arr_shape_of; exact So).
  pose proof (Cells_valid _ _ _ _ HC N) as Vk.
  destruct (proj2 (c51_accepts_partial e z (arr_of pv) (arr_of ov) ax ns Sh ltac:(rewrite Sx; exact X) PL ltac:(rewrite Sx; exact (valid_prod_pos _ _ Vk))) ltac:(rewrite Sx; exact Pos)) as [[[rel reso] unc] Ed].
  destruct (c51_brier_per_slice_partial e z (arr_of pv) (arr_of ov) ax ns None rel reso unc Sh ltac:(rewrite Sx; exact X) PL Ed) as (S1 & S2 & S3 & _). rewrite Sx in S1, S2, S3.
  assert (Dt : forall ix, In ix L -> get (arr_of pv) ix = Fin (p ix) /\ get (arr_of ov) ix = Fin (y ix) /\ in_bin 20 (p ix) (bin ix)).
  { intros ix I. assert (V : valid (arr_shape (a_o x)) ix) by apply (proj2 HC), I. destruct (HB ix I) as [[K1 K2] Hb].
    split; [exact (proj1 (Gp ix V) _ K1 K2)|]. split; [exact (Go ix V)|exact Hb]. }
  destruct (c27_terms e z (arr_of pv) (arr_of ov) ax ns rel reso unc k L p y bin Sh) as (G1 & G2 & G3); rewrite ?Sx; try assumption.
  destruct (c27_brier_decomposition e z (arr_of pv) (arr_of ov) ax ns rel reso unc k L p y bin Sh) as (q & r & u & E1 & E2 & E3 & _ & Sum); rewrite ?Sx; try assumption.
  { intros ix I. destruct (Dt ix I) as (D1 & D2 & D3). split; [exact D1|]. split; [exact D2|]. split; [|exact D3]. unfold y, outcome, indicator. destruct (Spec_whole.observed _ _ _); auto. }
  exists (val_of rel), (val_of reso), (val_of unc), q, r, u. split; [|split; [exact S1|split; [exact S2|split; [exact S3|]]]].
  - unfold Props_whole.answers. edestruct (reached_result s) as [-> _];
      [exact FA|exact RE|apply threshold_key; [exact T|reflexivity]|fold x; unfold random_call, random_value; rewrite B; reflexivity|].
    cbn [Spec_result.result]. fold x. unfold event_pair. rewrite Ep. cbn [bind]. rewrite Eo. cbn [bind]. unfold with_boot. rewrite B. cbn [is_none].
    change (lib "brier_decomp" [pv; ov; a_avg x]) with (mlib "brier_decomp" [pv; ov; a_avg x]). unfold more_lib.
    change ("brier_decomp" =? "brier_decomp")%string with true. cbv iota. rewrite A. fold e z. rewrite Ed. reflexivity.
  - rewrite !reads_val by (rewrite ?S1, ?S2, ?S3; exact Vk). split; [exact E1|split; [exact E2|split; [exact E3|]]].
    rewrite G1 in E1. rewrite G2 in E2. rewrite G3 in E3. apply fin_inj in E1, E2, E3. split; [symmetry; exact E1|]. split; [symmetry; exact E2|]. split; [symmetry; exact E3|].
    intros One. destruct (c93_brier s over t b f F ax ns k L FA RE H T B A X HC N (fun ix I => proj1 (HB ix I))) as (v & Av & _ & Gv). exists v. split; [exact Av|].
    fold x in Gv. rewrite Gv. f_equal. rewrite <- Sum; [reflexivity|]. intros ix jx I J Eb. unfold p. rewrite (One ix jx I J Eb). reflexivity.
Qed.

(** ** Reliability diagram *)
Theorem c93_reliability : forall s (over : bool) t b f F nb ax ns (bin : list nat -> nat), faithful -> reached s ->
  let x := ob s in ready x f t b -> threshold_ok t -> 0 < nb ->
  a_boot x = VNone -> axes_of (a_avg x) = Some ax -> axes_are (length (arr_shape (a_o x))) ax ns -> same_sign ax ->
  prod (kept (length (arr_shape (a_o x))) ns (arr_shape (a_o x))) <> 0 ->
  let p ix := event_share over (F ix) in let y := outcome x over b in
  (forall ix, Forall2 lt ix (arr_shape (a_o x)) -> cdf_known f b F ix /\ rel_bin nb (p ix) (bin ix)) ->
  let ks := kept (length (arr_shape (a_o x))) ns (arr_shape (a_o x)) in
  exists fp op pc oc, answers s (MRel (VInt (Z.of_nat nb)) (over_of over t) (below_of over t)) (VTuple [fp; op; pc; oc]) /\
  forall k L, Forall2 lt k ks -> Cells (arr_shape (a_o x)) ns k L ->
  exists bs, StronglySorted lt bs /\ (forall j, In j bs <-> exists ix, In ix L /\ bin ix = j) /\
    curve_at ks fp k (map (fun j => Fin (Spec.mean_of (map p (filter (fun ix => Nat.eqb (bin ix) j) L)))) bs) /\
    curve_at ks op k (map (fun j => Fin (Spec.mean_of (map y (filter (fun ix => Nat.eqb (bin ix) j) L)))) bs) /\
    counts_at ks pc k (map Z.of_nat bs) (map (fun j => how_many (fun ix => Nat.eqb (bin ix) j) L) bs) /\
    counts_at ks oc k (filter (fun e => existsb (fun ix => qeqb (y ix) (qz e)) L) [0; 1]%Z)
      (filter (fun c => negb (Nat.eqb c 0)) [how_many (fun ix => qeqb (y ix) 0%Qc) L; how_many (fun ix => qeqb (y ix) 1%Qc) L]).
Proof.
  intros s over t b f F nb ax ns bin FA RE x H T Nb B A X SS HK p y HB.
  destruct (ready_event x f t b over H) as (pv & Ep & Sp & Gp). destruct (ready_event_outcome x f t b over H) as (ov & Eo & So & Go).
  assert (Sh : shape (arr_of pv) = shape (arr_of ov)) by (rewrite !arr_shape_of; congruence).
  assert (Sx : shape (arr_of ov) = arr_shape (a_o x)) by (rewrite arr_shape_of; exact So).
  destruct (c30_values (arr_of pv) (arr_of ov) nb ax ns p y bin Nb Sh) as (out & Er & G); rewrite ?Sx; try assumption.
  { intros ix V. rewrite Sx in V. destruct (HB ix V) as [[K1 K2] _]. split; [exact (proj1 (Gp ix V) _ K1 K2)|].
    destruct (event_share_unit over _ K2) as [Z0 Z1]. split; [exact Z0|]. split; [exact Z1|]. split; [exact (Go ix V)|]. unfold y, outcome, indicator. destruct (Spec_whole.observed _ _ _); auto. }
  { intros ix V. apply HB, V. }
  rewrite Sx in G. intros ks. assert (OK : out_ok ks out).
  { unfold ks. rewrite <- Sx. apply (rel_diagram_ok (arr_of pv) (arr_of ov) nb ax ns out Sh); rewrite ?Sx; assumption. }
  destruct (rel_layout ks out OK) as (fp & op & pc & oc & Ev & La). exists fp, op, pc, oc. split.
  2:{ intros k L Hk HL. destruct (G k L Hk HL) as (bs & Sd & Ib & F1 & F2 & F3 & F4 & F5). destruct (La k Hk) as (A1 & A2 & A3 & A4). rewrite F1 in A1. rewrite F2 in A2. rewrite F3 in A3. rewrite F4 in A4.
    exists bs. split; [exact Sd|]. split; [exact Ib|]. split; [exact A1|]. split; [exact A2|]. fold ks in F5. clear - A3 A4 F5. unfold counts_at in *. destruct ks as [|n0 ks0]; [|split; assumption].
    destruct (F5 eq_refl) as [F6 F7]. rewrite F6 in A3. rewrite F7 in A4. split; assumption. }
  rewrite <- Ev.
  unfold Props_whole.answers. edestruct (reached_result s) as [-> _];
    [exact FA|exact RE| |fold x; unfold random_call, random_value; rewrite B; reflexivity|].
  { cbn. apply Forall_cons; [left; exact I|]. apply (threshold_key over t (fun o b => MCdf o b) T). reflexivity. }
  cbn [Spec_result.result]. fold x. unfold event_pair. rewrite Ep. cbn [bind]. rewrite Eo. cbn [bind].
  unfold reliability_diagram in Er. destruct (rel_split (arr_of pv) (arr_of ov) nb ax) as [sp|] eqn:Es; [|discriminate Er]. cbn [bind] in Er.
  change (lib "reliability_split" [pv; ov; VInt (Z.of_nat nb); a_avg x]) with (mlib "reliability_split" [pv; ov; VInt (Z.of_nat nb); a_avg x]). unfold more_lib at 1.
  change ("reliability_split" =? "reliability_split")%string with true. cbv iota. rewrite A. cbn [count_of]. destruct (Z.leb_spec 0 (Z.of_nat nb)); [|lia]. rewrite Nat2Z.id, Es. cbn [rmap bind].
  unfold with_boot. rewrite B. cbn [is_none]. change (lib "post_reliability" [split_val sp]) with (mlib "post_reliability" [split_val sp]). unfold more_lib.
  change ("post_reliability" =? "post_reliability")%string with true. cbv iota.
  pose proof (split_round sp) as R. destruct sp as [[[ids f2] o2] bins]. destruct (rel_split_shapes _ _ _ _ _ _ _ _ Es) as [Y1 Y2]. cbn [fst snd] in R.
  destruct (split_of _) as [[[[i' f'] o'] b']|]; [|contradiction]. rewrite (R Y1 Y2), Er. reflexivity.
Qed.

(** ** Intersection over union of a probability and the outcome *)
Theorem c93_iou_prob : forall s (over pover : bool) t b pt q f F l ns k L, faithful -> reached s ->
  let x := ob s in ready x f t b -> scalar t -> scalar pt -> scalar_of pt = Some (Fin q) -> in_unit q ->
  axes_of (a_avg x) = Some (Some l) -> axes_are (length (arr_shape (a_o x))) (Some l) ns ->
  Cells (arr_shape (a_o x)) ns k L -> L <> [] -> (forall ix, In ix L -> cdf_known f b F ix) ->
  exists v, answers s (MIouP (VTuple [over_of over t; over_of pover pt]) (VTuple [below_of over t; below_of pover pt])) v /\
    arr_shape v = kept (length (arr_shape (a_o x))) ns (arr_shape (a_o x)) /\
    is_iou (fun ix => Spec_whole.observed pover (Fin q) (Fin (event_share over (F ix))))
           (fun ix => Spec_whole.observed over (thr_at b ix) (reads (a_o x) ix)) L (reads v k).
Proof.
  intros s over pover t b pt q f F l ns k L FA RE x H St Sp Q [Q0 Q1] A X HC N Kn.
  destruct (ready_event x f t b over H) as (p & Ep & Sh & Gp). destruct (ready_event_outcome x f t b over H) as (o & Eo & So & Go).
  destruct (c35_iou_prob_partial (arr_of p) (bools (arr_of o)) l ns (if pover then Some (Fin q) else None) (if pover then None else Some (Fin q)) (Spec_whole.observed pover (Fin q))) as (r & Er & Sr & Gr).
  - cbn [bools amap shape]. rewrite !arr_shape_of. congruence.
  - rewrite arr_shape_of, Sh. exact X.
  - destruct pover; [left|right]; exists (Fin q); auto.
  - intros t' Ht. exists q. split; [|split; assumption]. destruct pover, Ht as [Ht|Ht]; congruence.
  - rewrite arr_shape_of, Sh in Sr, Gr. exists (val_of r). split; [|split; [exact Sr|]].
    + assert (K : key_ok (MIouP (VTuple [over_of over t; over_of pover pt]) (VTuple [below_of over t; below_of pover pt]))).
      { split; cbn; (apply Forall_cons; [|apply Forall_cons; [|apply Forall_nil]]); destruct over, pover; cbn; first [assumption|exact I]. }
      assert (NR : random_call (ob s) (MIouP (VTuple [over_of over t; over_of pover pt]) (VTuple [below_of over t; below_of pover pt])) = false) by reflexivity.
      unfold Props_whole.answers. destruct (reached_result s _ FA RE K NR) as [-> _].
      cbn [Spec_result.result]. fold x. destruct (forecast_class x f (proj1 H)) as (C & _ & _).
      assert (Y : event_pair lib x (over_of over t) (below_of over t) (fun p0 b0 => lib "iou_prob" [p0; b0; a_avg x; over_of pover pt; below_of pover pt]) = Ok (val_of r)).
      { unfold event_pair. rewrite Ep. cbn [bind]. rewrite Eo. cbn [bind]. unfold whole_lib. rewrite A.
        assert (Nt : num_of pt = Some (Some (Fin q))) by (destruct pt; try discriminate Q; cbn [num_of]; rewrite Q; reflexivity).
        destruct pover; cbn [over_of below_of]; rewrite Nt; cbn [num_of]; change ("iou_prob" =? "iou_determ")%string with false; change ("iou_prob" =? "iou_prob")%string with true; cbv iota; rewrite Er; reflexivity. }
      destruct (cl x); try (elim C; reflexivity); exact Y.
    + rewrite reads_val by (rewrite Sr; exact (Cells_valid _ _ _ _ HC N)). destruct (Gr k L HC) as (G & _).
      assert (Ext : forall (A1 B1 A2 B2 : list nat -> bool) r0, (forall ix, In ix L -> A1 ix = A2 ix /\ B1 ix = B2 ix) -> is_iou A1 B1 L r0 -> is_iou A2 B2 L r0).
      { intros A1 B1 A2 B2 r0 Eq. assert (E2 : how_many (fun x => A1 x && B1 x)%bool L = how_many (fun x => A2 x && B2 x)%bool L /\ how_many (fun x => A1 x || B1 x)%bool L = how_many (fun x => A2 x || B2 x)%bool L).
        { clear - Eq. unfold how_many. split; f_equal; apply filter_ext_in; intros ix I; destruct (Eq ix I) as [-> ->]; reflexivity. }
        unfold is_iou. destruct E2 as [-> ->]. auto. }
      revert G. apply Ext. intros ix I. assert (V : valid (arr_shape (a_o x)) ix) by apply (proj2 HC), I. destruct (Kn ix I) as [K1 K2].
      change (get (arr_of p) ix) with (reads p ix). cbn [bools amap get]. change (get (arr_of o) ix) with (reads o ix). rewrite (proj1 (Gp ix V) _ K1 K2), (Go ix V). split; [reflexivity|].
      unfold outcome. destruct (Spec_whole.observed over _ _); reflexivity.
Qed.

(** ** Errors of the means of the Gaussian and the Gamma verifier; their variance *)
Theorem c93_errors : forall s mu ax ns k L F O, faithful -> reached s ->
  let x := ob s in
  cl x = CGaussian \/ cl x = CGamma -> field (a_f x) "mu" = Some mu -> a_boot x = VNone -> axes_of (a_avg x) = Some ax ->
  arr_shape mu = arr_shape (a_o x) -> axes_are (length (arr_shape (a_o x))) ax ns ->
  Cells (arr_shape (a_o x)) ns k L -> L <> [] ->
  (forall ix, In ix L -> reads mu ix = Fin (F ix) /\ reads (a_o x) ix = Fin (O ix)) ->
  answers s MDeterm mu /\
  exists e sq ab, answers s MError e /\ answers s MSqErr sq /\ answers s MAbErr ab /\
    arr_shape e = kept (length (arr_shape (a_o x))) ns (arr_shape (a_o x)) /\ arr_shape sq = arr_shape e /\ arr_shape ab = arr_shape e /\
    reads e k = Fin (Spec.mean_of (map (fun ix => F ix - O ix)%Qc L)) /\
    reads sq k = Fin (Spec.mean_of (map (fun ix => (F ix - O ix) * (F ix - O ix))%Qc L)) /\
    reads ab k = Fin (Spec.mean_of (map (fun ix => qdist (F ix) (O ix)) L)).
Proof.
  intros s mu ax ns k L F O FA RE x C Fm B A Sh X HC N V.
  assert (Mo : Spec_result.mean_of lib points x = Ok mu) by (unfold Spec_result.mean_of, part; rewrite Fm; destruct C as [-> | ->]; reflexivity).
  assert (Pf : point_forecast lib points x = Ok mu) by (unfold point_forecast; destruct C as [C | C]; rewrite C; exact Mo).
  assert (Vf : forall ix, In ix L -> valid (shape (arr_of mu)) ix) by (intros ix I; rewrite arr_shape_of, Sh; apply (proj2 HC), I).
  split. { unfold Props_whole.answers. destruct (reached_result s MDeterm FA RE ltac:(constructor) ltac:(reflexivity)) as [-> _]. exact Mo. }
  assert (Q : forall (m : meth) (n : string) (g : arr num -> arr num -> arr num) (h : Qc -> Qc -> Qc), key_ok m -> random_call x m = false ->
    (forall d, result x m d = averaged_over lib libr x (error_of lib points x n) (d 0)) ->
    lib n [mu; a_o x] = Ok (val_of (g (arr_of mu) (arr_of (a_o x)))) ->
    (forall a b, shape (g a b) = shape a) -> (forall a b ix y z, get a ix = Fin y -> get b ix = Fin z -> get (g a b) ix = Fin (h y z)) ->
    exists v, answers s m v /\ arr_shape v = kept (length (arr_shape (a_o x))) ns (arr_shape (a_o x)) /\
      reads v k = Fin (Spec.mean_of (map (fun ix => h (F ix) (O ix)) L))).
  { intros m n g h K R Rm Ln Sg Gg. set (w := val_of (g (arr_of mu) (arr_of (a_o x)))) in *.
    assert (Sw : arr_shape w = arr_shape (a_o x)) by (rewrite <- Sh, <- (arr_shape_of mu); exact (Sg _ _)).
    destruct (averaged_result S mlib mlibr x w ax ns 0 B A) as (v & Ev & Av & Sv & Gv); [rewrite Sw; exact X|]. rewrite Sw in Sv, Gv.
    assert (Er : result x m (fun _ => 0) = Ok v) by (rewrite Rm; unfold error_of; rewrite Pf; cbn [bind]; rewrite Ln; exact Ev).
    exists v. split; [unfold Props_whole.answers; rewrite (proj1 (reached_result s m FA RE K R)); exact Er|]. split; [exact Sv|].
    apply Gv; [exact HC|exact N|]. intros ix I. unfold w. rewrite reads_val by (rewrite Sg; apply Vf, I). destruct (V ix I). apply Gg; assumption. }
  assert (R : forall m, m = MError \/ m = MSqErr \/ m = MAbErr -> random_call x m = false) by (intros m [-> |[-> | ->]]; unfold random_call; rewrite B; reflexivity).
  destruct (Q MError "sub" cell_error (fun y z => y - z)%Qc ltac:(constructor) ltac:(apply R; auto) ltac:(reflexivity) ltac:(reflexivity) ltac:(reflexivity)) as (e & E1 & E3 & E4).
  { intros a b ix y z Ea Eb. cbn [cell_error amap2 get]. rewrite Ea, Eb. reflexivity. }
  destruct (Q MSqErr "sub_sq" cell_sq_error (fun y z => (y - z) * (y - z))%Qc ltac:(constructor) ltac:(apply R; auto) ltac:(reflexivity) ltac:(reflexivity) ltac:(reflexivity)) as (sq & S1 & S3 & S4).
  { intros a b ix y z Ea Eb. cbn [cell_sq_error amap2 get]. rewrite Ea, Eb. reflexivity. }
  destruct (Q MAbErr "sub_abs" cell_ab_error qdist ltac:(constructor) ltac:(apply R; auto) ltac:(reflexivity) ltac:(reflexivity) ltac:(reflexivity)) as (ab & A1 & A3 & A4).
  { intros a b ix y z Ea Eb. cbn [cell_ab_error amap2 get]. rewrite Ea, Eb, qdist_abs. reflexivity. }
  exists e, sq, ab. repeat (split; [solve [assumption|congruence]|]). exact A4.
Qed.
Theorem c93_variance : forall s sg, faithful -> reached s ->
  let x := ob s in cl x = CGaussian \/ cl x = CGamma -> field (a_f x) "sigma" = Some sg ->
  exists v, answers s MVariance v /\ arr_shape v = arr_shape sg /\
    forall ix q, Forall2 lt ix (arr_shape sg) -> reads sg ix = Fin q -> reads v ix = Fin (q * q)%Qc.
Proof.
  intros s sg FA RE x C Fs. exists (val_of (amap nsq (arr_of sg))). split; [|split; [exact (arr_shape_of sg)|]].
  - unfold Props_whole.answers. destruct (reached_result s MVariance FA RE ltac:(constructor) ltac:(reflexivity)) as [-> _].
    cbn [Spec_result.result]. fold x. unfold variance_of, part. rewrite Fs. destruct C as [-> | ->]; reflexivity.
  - intros ix q V R. rewrite reads_val by (cbn [amap shape]; rewrite arr_shape_of; exact V). cbn [amap get]. change (get (arr_of sg) ix) with (reads sg ix). rewrite R. reflexivity.
Qed.

(** ** Probability integral transform: the distribution function at the observation; with randomisation the value of an
    observation of zero is multiplied by a uniform number *)
Lemma pit_event x f F : ready x f (a_o x) (TArray (arr_of (a_o x))) -> (forall ix, Forall2 lt ix (arr_shape (a_o x)) -> cdf_known f (TArray (arr_of (a_o x))) F ix) ->
  exists v, event_prob lib x VNone (a_o x) = Ok v /\ arr_shape v = arr_shape (a_o x) /\ forall ix, valid (arr_shape (a_o x)) ix -> reads v ix = Fin (F ix).
Proof.
  intros H Kn. destruct (ready_event x f (a_o x) (TArray (arr_of (a_o x))) false H) as (v & E & Sv & Gv). exists v. split; [exact E|]. split; [exact Sv|].
  intros ix V. destruct (Kn ix V) as [K1 K2]. exact (proj1 (Gv ix V) _ K1 K2).
Qed.
Theorem c93_pit : forall s f F, faithful -> reached s ->
  let x := ob s in ready x f (a_o x) (TArray (arr_of (a_o x))) -> a_members x = VNone -> is_true (a_pitr x) = false ->
  (forall ix, Forall2 lt ix (arr_shape (a_o x)) -> cdf_known f (TArray (arr_of (a_o x))) F ix) ->
  exists v, answers s MPit v /\ answers s MRank v /\ arr_shape v = arr_shape (a_o x) /\
    forall ix, Forall2 lt ix (arr_shape (a_o x)) -> reads v ix = Fin (F ix).
Proof.
  intros s f F FA RE x H Me Pr Kn. destruct (pit_event x f F H Kn) as (v & E & Sv & Gv). exists v.
  destruct (forecast_class x f (proj1 H)) as (C1 & C2 & _).
  assert (Y : forall d, pit_of lib libr x d = Ok v).
  { intros d. unfold pit_of. rewrite E, Pr. cbn [bind]. destruct (cl x); try reflexivity; [elim C1|elim C2]; reflexivity. }
  assert (NR : random_call x MPit = false /\ random_call x MRank = false).
  { unfold random_call, random_value. rewrite Me, Pr. cbn [is_none averaged andb orb]. split; [reflexivity|]. destruct (cl x); try reflexivity; [elim C2; reflexivity]. }
  split; [|split; [|split; [exact Sv|exact Gv]]]; unfold Props_whole.answers.
  - destruct (reached_result s MPit FA RE ltac:(constructor) (proj1 NR)) as [-> _]. exact (Y _).
  - destruct (reached_result s MRank FA RE ltac:(constructor) (proj2 NR)) as [-> _]. cbn [Spec_result.result]. fold x. rewrite Me. cbn [is_none]. rewrite Y. destruct (cl x); try reflexivity; [elim C1|elim C2]; reflexivity.
Qed.
Theorem c93_pit_randomized : forall s f F,
  let x := ob s in mem_off less_memory x -> truthy (a_wd x) = false ->
  ready x f (a_o x) (TArray (arr_of (a_o x))) -> a_members x = VNone -> is_true (a_pitr x) = true ->
  (forall ix, Forall2 lt ix (arr_shape (a_o x)) -> cdf_known f (TArray (arr_of (a_o x))) F ix) ->
  exists v, answers s MPit v /\ answers s MRank v /\ arr_shape v = arr_shape (a_o x) /\
    forall ix, Forall2 lt ix (arr_shape (a_o x)) ->
      (reads (a_o x) ix = Fin 0%Qc -> reads v ix = Fin (w_unif W (rng (pos s + 0)) ix * F ix)%Qc) /\
      (reads (a_o x) ix <> Fin 0%Qc -> reads v ix = Fin (F ix)).
Proof.
  intros s f F x M Wd H Me Pr Kn. destruct (pit_event x f F H Kn) as (v & E & Sv & Gv).
  destruct (forecast_class x f (proj1 H)) as (C1 & C2 & _). set (u := w_unif W (rng (pos s + 0))).
  assert (Ok1 : exists r, randomize_zero_ranks u (arr_of v) (arr_of (a_o x)) = Ok r /\ shape r = arr_shape (a_o x) /\
    forall ix, get r ix = if neqb (get (arr_of (a_o x)) ix) (Fin 0%Qc) then nmul (Fin (u ix)) (get (arr_of v) ix) else get (arr_of v) ix).
  { unfold randomize_zero_ranks. rewrite arr_shape_of.
    assert (Z : forallb (fun ix => negb (neqb (get (arr_of (a_o x)) ix) (Fin 0%Qc)) || nle (Fin 0%Qc) (get (arr_of v) ix)) (indices (arr_shape (a_o x))) = true).
    { apply forallb_forall. intros ix I. apply in_indices in I. change (get (arr_of v) ix) with (reads v ix). rewrite (Gv ix I). destruct (Kn ix I) as [_ [K _]]. cbn [nle].
      destruct (qleb_spec 0%Qc (F ix)) as [_|G]; [apply orb_true_r|]. exfalso. qlra. }
    rewrite Z. eexists. split; [reflexivity|]. split; [cbn [shape]; rewrite arr_shape_of; exact Sv|reflexivity]. }
  destruct Ok1 as (r & Er & Sr & Gr). exists (val_of r).
  assert (Y : pit_of lib libr x (rng (pos s + 0)) = Ok (val_of r)).
  { unfold pit_of. rewrite E, Pr. cbn [bind]. change (libr "randomize_zero_ranks" [v; a_o x] (rng (pos s + 0))) with (rmap val_of (randomize_zero_ranks u (arr_of v) (arr_of (a_o x)))). rewrite Er.
    destruct (cl x); try reflexivity; [elim C1|elim C2]; reflexivity. }
  split; [|split; [|split; [exact Sr|]]].
  - unfold Props_whole.answers. destruct (saving_off MPit None s M Wd ltac:(constructor) (or_introl eq_refl)) as [-> _]. exact Y.
  - unfold Props_whole.answers. destruct (saving_off MRank None s M Wd ltac:(constructor) (or_introl eq_refl)) as [-> _]. cbn [Spec_result.result]. fold x. rewrite Me. cbn [is_none]. rewrite Y. destruct (cl x); try reflexivity; [elim C1|elim C2]; reflexivity.
  - intros ix V. rewrite reads_val by (rewrite Sr; exact V). rewrite Gr. change (get (arr_of v) ix) with (reads v ix). rewrite (Gv ix V). change (get (arr_of (a_o x)) ix) with (reads (a_o x) ix). split.
    + intros ->. reflexivity.
    + intros Nz. destruct (neqb (reads (a_o x) ix) (Fin 0%Qc)) eqn:En; [|reflexivity]. elim Nz. destruct (reads (a_o x) ix) as [q| | |]; try discriminate En. cbn in En. destruct (qeqb_spec q 0%Qc) as [-> |]; [reflexivity|discriminate En].
Qed.

(** ** Sampled ensembles: one worker, saving off *)
Definition law (f : forecast) : sampler nat := match f with Gaussian _ _ t => w_normal W t | Gamma _ _ _ t => w_gamma W t | Hurdle _ _ _ => w_normal W false end.
(** what the members are drawn from, and the members drawn in a cell *)
Definition sampling (x : obj) (f : forecast) (n : nat) (c : option num) : Prop :=
  forecast_of x = Some f /\ (cl x = CGaussian \/ cl x = CGamma) /\ params_shape (arr_shape (a_o x)) f /\ w_workers S = 1 /\
  a_members x = VInt (Z.of_nat n) /\ num_of (a_clip x) = Some c /\
  (forall ix, Forall2 lt ix (arr_shape (a_o x)) -> dom (law f) (map (fun a => get a ix) (params_of f)) = true).
Definition drawn (f : forecast) (n : nat) (c : option num) (d : nat) (ix : list nat) : list num :=
  map (fun m => clipped c (M_dist.draw (law f) d (params_of f) n (m :: ix))) (seq 0 n).

Lemma sampled_value x f n c z a d : sampling x f n c -> a_move x = VInt z -> axis_is (1 + length (arr_shape (a_o x))) z a ->
  exists e, members_of lib libr x d = Ok (val_of e) /\ shape e = insert_at a n (arr_shape (a_o x)) /\
    forall ix, Forall2 lt ix (arr_shape (a_o x)) -> map (fun m => get e (insert_at a m ix)) (seq 0 n) = drawn f n c d ix.
Proof.
  intros (F & C & P & Wk & Me & Cl & D) Mv [Ha Hz]. set (sh := arr_shape (a_o x)) in *.
  assert (Hs : same_shape sh (params_of f)).
  { destruct f; cbn in P; decompose [and] P; (split; [discriminate|]); repeat constructor; assumption. }
  assert (Q : exists e, sample (law f) (w_workers S) (w_map_axis S) d (w_who W d) (params_of f) n z = Ok e /\ shape e = insert_at a n sh /\
    forall m k, length k = length sh -> get e (insert_at a m k) = M_dist.draw (law f) d (params_of f) n (m :: k)).
  { unfold sample. rewrite Wk. cbn [Nat.eqb]. unfold rvs. rewrite (same_shape_hd _ _ Hs).
    assert (Z : forallb (fun ix => dom (law f) (map (fun a0 => get a0 ix) (params_of f))) (indices sh) = true) by (apply forallb_forall; intros ix I; apply D, in_indices, I).
    rewrite Z. cbn [bind]. destruct (Z.eqb_spec z 0) as [Ez|Nz].
    - assert (a = 0) as -> by lia. eexists. split; [reflexivity|]. split; reflexivity.
    - destruct (P_ss.moveaxis_to (Arr (n :: sh) (M_dist.draw (law f) d (params_of f) n)) n sh z a eq_refl (norm_axis_fun _ _ _ Ha Hz) ltac:(lia)) as (e & Ee & Se & Ge).
      exists e. split; [exact Ee|]. split; [exact Se|]. intros m k Hk. rewrite (Ge m k Hk). reflexivity. }
  destruct Q as (e & Ee & Se & Ge). set (e' := clip_members c (arr_of (val_of e))).
  assert (Mn : is_none (a_members x) = false) by (rewrite Me; reflexivity).
  assert (K : forall r, r = Ok (val_of e) -> (e0 <- r ;; if is_none (a_clip x) then Ok e0 else lib "clip_members" [e0; a_clip x]) = match c with Some _ => Ok (val_of e') | None => Ok (val_of e) end).
  { intros r ->. cbn [bind]. unfold e'. destruct c as [v|].
    - assert (Sc : is_none (a_clip x) = false /\ scalar_of (a_clip x) = Some v).
      { destruct (a_clip x) eqn:Ex; cbn [num_of] in Cl; try discriminate Cl; (split; [reflexivity|]); destruct (scalar_of _) eqn:Ey; cbn in Cl; congruence. }
      destruct Sc as [-> Sc]. change (lib "clip_members" [val_of e; a_clip x]) with (plib "clip_members" [val_of e; a_clip x]). unfold prob_lib.
      change ("clip_members" =? "clip_members")%string with true. cbv iota. rewrite Sc. reflexivity.
    - assert (Sc : is_none (a_clip x) = true).
      { destruct (a_clip x) eqn:Ex; try reflexivity; cbn [num_of] in Cl; destruct (scalar_of _); discriminate Cl. }
      rewrite Sc. reflexivity. }
  assert (R : members_of lib libr x d = match c with Some _ => Ok (val_of e') | None => Ok (val_of e) end).
  { unfold forecast_of in F. unfold members_of, part. destruct C as [C|C]; rewrite C in *.
    - destruct (field (a_f x) "mu") as [mu|]; [|discriminate F]. destruct (field (a_f x) "sigma") as [sg|]; [|discriminate F]. cbn [option_map] in F. injection F as <-. cbn [bind]. rewrite Mn. apply K. cbn [app]. rewrite Me, Mv.
      change (libr "sample_dist_gaussian" [mu; sg; VInt (Z.of_nat n); VInt z; a_trunc x] d) with (plibr "sample_dist_gaussian" [mu; sg; VInt (Z.of_nat n); VInt z; a_trunc x] d).
      unfold prob_libr. change ("sample_dist_gaussian" =? "sample_dist_gaussian")%string with true. cbv iota. cbn [count_of]. destruct (Z.leb_spec 0 (Z.of_nat n)); [|lia]. rewrite Nat2Z.id.
      unfold sample_dist_gaussian. cbn in P. destruct P as [P1 P2]. rewrite P1, P2, list_eqb_refl. cbn [passert bind int_of]. cbn [law params_of] in Ee. rewrite Ee. reflexivity.
    - destruct (field (a_f x) "unshifted_mu") as [mu|]; [|discriminate F]. destruct (field (a_f x) "sigma") as [sg|]; [|discriminate F]. destruct (field (a_f x) "shift") as [sf|]; [|discriminate F].
      cbn [option_map] in F. injection F as <-. cbn [bind]. rewrite Mn. apply K. cbn [app]. rewrite Me, Mv.
      change (libr "sample_dist_gamma" [mu; sg; sf; VInt (Z.of_nat n); VInt z; a_trunc x] d) with (plibr "sample_dist_gamma" [mu; sg; sf; VInt (Z.of_nat n); VInt z; a_trunc x] d).
      unfold prob_libr. change ("sample_dist_gamma" =? "sample_dist_gamma")%string with true. cbv iota. cbn [count_of]. destruct (Z.leb_spec 0 (Z.of_nat n)); [|lia]. rewrite Nat2Z.id.
      unfold sample_dist_gamma. cbn in P. destruct P as (P1 & P2 & P3). rewrite P1, P2, P3, list_eqb_refl. cbn [passert bind int_of]. cbn [law params_of] in Ee. rewrite Ee. reflexivity. }
  exists (match c with Some _ => e' | None => e end). split; [rewrite R; destruct c; reflexivity|]. split; [unfold e'; destruct c; exact Se|].
  intros ix V. unfold drawn. apply map_ext_in. intros m Hm. apply in_seq in Hm.
  assert (Vm : valid (shape e) (insert_at a m ix)).
  { rewrite Se. apply valid_insert; [rewrite insert_at_length; exact Ha|rewrite nth_insert_at by lia; lia|rewrite remove_insert_at by lia; exact V]. }
  pose proof (Ge m ix (valid_length _ _ V)) as G. unfold e'. destruct c as [v|]; cbn [clip_members clipped amap get]; [|exact G].
  change (get (arr_of (val_of e)) (insert_at a m ix)) with (reads (val_of e) (insert_at a m ix)). rewrite reads_val by exact Vm. rewrite G. reflexivity.
Qed.

(** The sampled ensemble has the axis of the members at move_sampled_ens_axis. *)
Theorem c93_members : forall s f n c z a,
  let x := ob s in mem_off less_memory x -> truthy (a_wd x) = false -> sampling x f n c ->
  a_move x = VInt z -> axis_is (1 + length (arr_shape (a_o x))) z a ->
  exists e, answers s MEns e /\ arr_shape e = insert_at a n (arr_shape (a_o x)) /\
    forall ix, Forall2 lt ix (arr_shape (a_o x)) -> map (fun m => reads e (insert_at a m ix)) (seq 0 n) = drawn f n c (rng (pos s + 0)) ix.
Proof.
  intros s f n c z a x M Wd Sm Mv Ha. destruct (sampled_value x f n c z a (rng (pos s + 0)) Sm Mv Ha) as (e & E & Se & Ge). exists (val_of e). split; [|split; [exact Se|]].
  - unfold Props_whole.answers. destruct (saving_off MEns None s M Wd ltac:(constructor) (or_introl eq_refl)) as [-> _]. exact E.
  - intros ix V. rewrite <- (Ge ix V). apply map_ext_in. intros m Hm. apply in_seq in Hm. apply reads_val. rewrite Se. destruct Ha as [Ha _].
    apply valid_insert; [rewrite insert_at_length; exact Ha|rewrite nth_insert_at by lia; lia|rewrite remove_insert_at by lia; exact V].
Qed.
(** Spread and ranks of the members drawn, which the code takes from the last axis. *)
Theorem c93_spread : forall s f n c ax ns k L hi lo M,
  let x := ob s in mem_off less_memory x -> truthy (a_wd x) = false -> sampling x f n c -> a_move x = VInt (-1) -> 0 < n ->
  a_boot x = VNone -> axes_of (a_avg x) = Some ax -> axes_are (length (arr_shape (a_o x))) ax ns ->
  Cells (arr_shape (a_o x)) ns k L -> L <> [] ->
  (forall ix, In ix L -> drawn f n c (rng (pos s + 0)) ix = map Fin (M ix) /\
     In (hi ix) (M ix) /\ In (lo ix) (M ix) /\ forall m, In m (M ix) -> (lo ix <= m)%Qc /\ (m <= hi ix)%Qc) ->
  exists v, answers s MSpread v /\ arr_shape v = kept (length (arr_shape (a_o x))) ns (arr_shape (a_o x)) /\
    reads v k = Fin (Spec.mean_of (map (fun ix => hi ix - lo ix)%Qc L)).
Proof.
  intros s f n c ax ns k L hi lo M x Mo Wd Sm Mv Pn B A X HC N V. set (sh := arr_shape (a_o x)) in *.
  assert (Ha : axis_is (1 + length sh) (-1) (length sh)) by (split; lia).
  destruct (sampled_value x f n c (-1) (length sh) (rng (pos s + 0)) Sm Mv Ha) as (e & E & Se & Ge). fold sh in Se, Ge.
  set (fe := arr_of (val_of e)). assert (Sf : shape fe = insert_at (length sh) n sh) by exact Se.
  assert (Ax : axis_is (length (shape fe)) (-1) (length sh)) by (rewrite Sf, insert_at_length; exact Ha).
  assert (Dr : drop_axis (length sh) (shape fe) = sh) by (rewrite Sf, drop_axis_remove, remove_insert_at by lia; reflexivity).
  assert (Nn : nth (length sh) (shape fe) 0 = n) by (rewrite Sf, nth_insert_at by lia; reflexivity).
  assert (Ms : forall ix, valid sh ix -> Spec.members_at (length sh) fe ix = drawn f n c (rng (pos s + 0)) ix).
  { intros ix Vx. rewrite <- (Ge ix Vx). unfold Spec.members_at. rewrite Nn. apply map_ext_in. intros m Hm. apply in_seq in Hm. pose proof (valid_length _ _ Vx) as Lx.
    rewrite <- insert_at_split by lia. apply (reads_val e). rewrite Se. apply valid_insert; [rewrite insert_at_length; lia|rewrite nth_insert_at by lia; lia|rewrite remove_insert_at by lia; exact Vx]. }
  destruct (spread_along_ok (skip_nan (w_boot S)) (-1) fe (length sh) Ax ltac:(rewrite Nn; exact Pn)) as (r & Er).
  destruct (spread_along_inv _ _ _ _ _ Ax Er) as (Sr & Gr). rewrite Dr in Sr, Gr.
  set (w := val_of r). assert (Sw : arr_shape w = sh) by exact Sr.
  destruct (averaged_result S mlib mlibr x w ax ns (rng (pos s + 1)) B A) as (v & Ev & _ & Sv & Gv); [rewrite Sw; exact X|]. rewrite Sw in Sv, Gv. exists v.
  split; [|split; [exact Sv|]].
  - unfold Props_whole.answers. destruct (saving_off MSpread None s Mo Wd ltac:(constructor) (or_introl eq_refl)) as [-> _].
    cbn [Spec_result.result]. fold x. destruct Sm as (_ & C & _).
    assert (Y : averaged_over lib libr x (e0 <- members_of lib libr x (rng (pos s + 0)) ;; lib "spread" [e0; VInt (-1)]) (rng (pos s + 1)) = Ok v).
    { rewrite E. cbn [bind]. change (lib "spread" [val_of e; VInt (-1)]) with (rmap val_of (spread_along (skip_nan (w_boot S)) (-1) fe)). rewrite Er. exact Ev. }
    destruct C as [-> | ->]; exact Y.
  - apply Gv; [exact HC|exact N|]. intros ix I. assert (Vx : valid sh ix) by apply (proj2 HC), I. destruct (V ix I) as (Vm & Ih & Il & Bd).
    unfold w. rewrite reads_val by (rewrite Sr; exact Vx). destruct (Gr ix Vx) as (h & l & E1 & E2 & ->). rewrite (Ms ix Vx), Vm in E1, E2.
    assert (Mn : M ix <> []) by (intros Z; rewrite Z in Ih; exact Ih).
    destruct (spread_cell (skip_nan (w_boot S)) (M ix) Mn) as (h' & l' & F1 & F2 & Ih' & Il' & B'). rewrite F1 in E1. rewrite F2 in E2. injection E1 as <-. injection E2 as <-.
    assert (h' = hi ix) by (apply Qcle_antisym; [apply Bd|apply B']; assumption). assert (l' = lo ix) by (apply Qcle_antisym; [apply B'|apply Bd]; assumption). subst. reflexivity.
Qed.
Theorem c93_ranks : forall s f n c,
  let x := ob s in mem_off less_memory x -> truthy (a_wd x) = false -> sampling x f n c -> a_move x = VInt (-1) -> arr_shape (a_o x) <> [] ->
  (forall ix, Forall2 lt ix (arr_shape (a_o x)) -> is_fin (reads (a_o x) ix) /\ Forall is_fin (drawn f n c (rng (pos s + 0)) ix)) ->
  exists r, answers s MRank r /\ arr_shape r = arr_shape (a_o x) /\
  forall ix, Forall2 lt ix (arr_shape (a_o x)) -> let ms := drawn f n c (rng (pos s + 0)) ix in
    exists k, reads r ix = nnat k /\ 1 <= k <= n + 1 /\
      how_many (fun m => nlt m (reads (a_o x) ix)) ms < k <= 1 + how_many (fun m => nle m (reads (a_o x) ix)) ms /\
      (~ In (reads (a_o x) ix) ms -> k = 1 + how_many (fun m => nlt m (reads (a_o x) ix)) ms).
Proof.
  intros s f n c x Mo Wd Sm Mv Ne Fi. set (sh := arr_shape (a_o x)) in *.
  assert (Ha : axis_is (1 + length sh) (-1) (length sh)) by (split; lia).
  destruct (sampled_value x f n c (-1) (length sh) (rng (pos s + 0)) Sm Mv Ha) as (e & E & Se & Ge). fold sh in Se, Ge.
  set (fe := arr_of (val_of e)). assert (Sf : shape fe = insert_at (length sh) n sh) by exact Se.
  assert (Ax : axis_is (length (shape fe)) (-1) (length sh)) by (rewrite Sf, insert_at_length; exact Ha).
  assert (Dr : drop_axis (length sh) (shape fe) = sh) by (rewrite Sf, drop_axis_remove, remove_insert_at by lia; reflexivity).
  assert (Nn : nth (length sh) (shape fe) 0 = n) by (rewrite Sf, nth_insert_at by lia; reflexivity).
  assert (Ms : forall ix, valid sh ix -> Spec.members_at (length sh) fe ix = drawn f n c (rng (pos s + 0)) ix).
  { intros ix Vx. rewrite <- (Ge ix Vx). unfold Spec.members_at. rewrite Nn. apply map_ext_in. intros m Hm. apply in_seq in Hm. pose proof (valid_length _ _ Vx) as Lx.
    rewrite <- insert_at_split by lia. apply (reads_val e). rewrite Se. apply valid_insert; [rewrite insert_at_length; lia|rewrite nth_insert_at by lia; lia|rewrite remove_insert_at by lia; exact Vx]. }
  assert (NN : forall a, (forall ix, valid (shape a) ix -> is_fin (get a ix)) -> any_nan a = false).
  { intros a H. unfold any_nan. destruct (existsb is_nan (ravel a)) eqn:Ex; [|reflexivity]. apply existsb_exists in Ex as (v & I & Ex). unfold ravel in I. apply in_map_iff in I as (ix & <- & I).
    apply in_indices in I. destruct (H ix I) as [q Hq]. rewrite Hq in Ex. discriminate Ex. }
  set (g := w_gen_rank S (rng (pos s + 1))).
  destruct (rank_histogram_accepts (skip_nan (w_boot S)) (w_workers S) (w_map_axis S) g fe (arr_of (a_o x)) (-1) (length sh)) as [h Eh]; rewrite ?arr_shape_of; try assumption.
  { intros _. split; apply NN.
    - intros ix Vx. assert (Lx : length sh < length ix) by (rewrite (valid_length _ _ Vx), Sf, insert_at_length; lia).
      rewrite <- (insert_remove_at (length sh) ix 0 Lx). assert (Vr : valid sh (remove_at (length sh) ix)).
      { pose proof (valid_remove (length sh) _ _ Vx) as Y. rewrite <- drop_axis_remove, Dr in Y. exact Y. }
      destruct (Fi _ Vr) as [_ Fm]. rewrite <- (Ms _ Vr) in Fm. rewrite Forall_forall in Fm. apply Fm. unfold Spec.members_at. apply in_map_iff.
      exists (nth (length sh) ix 0). rewrite <- insert_at_split by (rewrite (valid_length _ _ Vr); lia). split; [reflexivity|]. apply in_seq.
      assert (nth (length sh) ix 0 < nth (length sh) (shape fe) 0) by (apply valid_nth; [exact Vx|rewrite Sf, insert_at_length; lia]). lia.
    - rewrite arr_shape_of. intros ix Vx. apply Fi, Vx. }
  { left. apply Sm. }
  exists (val_of h). split.
  - unfold Props_whole.answers. destruct (saving_off MRank None s Mo Wd ltac:(constructor) (or_introl eq_refl)) as [-> _].
    cbn [Spec_result.result]. fold x. destruct Sm as (_ & C & _ & _ & Me & _).
    assert (Y : (e0 <- members_of lib libr x (rng (pos s + 0)) ;; libr "rank_histogram" [e0; a_o x; VInt (-1)] (rng (pos s + 1))) = Ok (val_of h)).
    { rewrite E. cbn [bind]. change (libr "rank_histogram" [val_of e; a_o x; VInt (-1)] (rng (pos s + 1))) with (rmap val_of (rank_histogram (skip_nan (w_boot S)) (w_workers S) (w_map_axis S) g fe (arr_of (a_o x)) (-1))). rewrite Eh. reflexivity. }
    rewrite Me. destruct C as [-> | ->]; exact Y.
  - destruct (c18_rank_range _ _ _ _ _ _ _ (length sh) h Eh Ax) as (Sh & _ & G). rewrite arr_shape_of in Sh, G. split; [exact Sh|]. intros ix V ms.
    destruct (G ix V) as (k & G1 & G2).
    { intros _. destruct (Fi ix V) as [Fo Fm]. split; [exact Fo|]. rewrite (Ms ix V). rewrite Forall_forall in Fm. exact Fm. }
    rewrite (Ms ix V) in G2. fold ms in G2. assert (Lm : length ms = n) by (unfold ms, drawn; rewrite map_length, seq_length; reflexivity). rewrite Lm in G2.
    exists k. split; [rewrite reads_val by (rewrite Sh; exact V); exact G1|exact G2].
Qed.
End Program.
Print Assumptions c93_probability.
Print Assumptions c93_brier.
Print Assumptions c93_roc.
Print Assumptions c93_decomposition.
Print Assumptions c93_reliability.
Print Assumptions c93_iou_prob.
Print Assumptions c93_errors.
Print Assumptions c93_variance.
Print Assumptions c93_pit.
Print Assumptions c93_pit_randomized.
Print Assumptions c93_members.
Print Assumptions c93_spread.
Print Assumptions c93_ranks.

(** ** Concrete programs: two cells with the means 1 and 3, the deviations 1 and 2 and the observations 2 and 0, for a
    distribution function that is linear around the mean; members drawn one apart around the mean *)
Definition g_laws : laws := {|
  w_scipy := Scipy (fun t m s => clip1 (nadd (ndiv (nsub t m) (nmul (Fin (qz 4)) s)) (Fin (Q2Qc (1 # 2)))))
                   (fun t a b m s => Fin 1%Qc)
                   (fun t k h c => ndiv t (nadd t (nmul k c)))
                   (fun t a b k h c => Fin 1%Qc);
  w_normal := fun _ => Sampler (fun l => nlt (Fin 0%Qc) (par 1 l)) (fun s l n ix => nadd (get (hd none l) (tl ix)) (nsub (nnat (hd 0 ix)) (Fin 1%Qc))) (fun s _ _ => S s);
  w_gamma := fun _ => Sampler (fun l => true) (fun s l n ix => nnat (hd 0 ix)) (fun s _ _ => S s);
  w_who := fun _ i => i;
  w_unif := fun d ix => Q2Qc (1 # 3) |}.
Notation g_other := (more_lib e_set (prob_lib e_set g_laws w_lib)).
Notation g_otherr := (more_libr e_set (fun d i r j => d + i + r + j) (fun d i r j q => d + i + r + j + q) (prob_libr e_set g_laws w_libr)).
Notation g_answers := (Props_whole.answers e_set g_other g_otherr w_str w_dumps w_loads (fun s => s) w_resolve w_points false None [] (fun n => n)).
Notation g_reached := (Props_whole.reached e_set g_other g_otherr w_str w_dumps w_loads (fun s => s) w_resolve w_points false None [] (fun n => n)).
Definition g_obj (c : cls) (f : M_state.val) (o : nat) (members clip : M_state.val) (pitr : bool) : obj := mkObj c f (VArr [2] o) VNone VNone VNone (VBool true)
    VNone VNone VNone (VBool false) members clip (VInt (-1)) (VBool pitr) (VInt 10) VNone.
Definition g_dict (m s : nat) : M_state.val := VDict [("mu", VArr [2] m); ("sigma", VArr [2] s)].
Definition h_dict (p m s : nat) : M_state.val := VDict [("pop", VArr [2] p); ("mu", VArr [2] m); ("sigma", VArr [2] s)].
Lemma g_constructed m s o ms cl pr : (ms = VNone /\ cl = VNone \/ ms = VInt 3 /\ exists v, cl = VFloat v) ->
  let x := g_obj CGaussian (g_dict m s) o ms cl pr in M_state.construct (whole_lib e_set g_other) (fun s => s) w_resolve x w_used = (Ok x, w_used).
Proof. intros [[-> ->]|[-> [v ->]]]; reflexivity. Qed.
Lemma h_constructed p m s o : let x := g_obj CHurdle (h_dict p m s) o VNone VNone false in M_state.construct (whole_lib e_set g_other) (fun s => s) w_resolve x w_used = (Ok x, w_used).
Proof. reflexivity. Qed.
Definition g_state (x : obj) : st := mkSt x w_used 0 [].
Lemma g_is_reached x : truthy (a_wd x) = false -> g_reached (g_state x).
Proof. intros H. right. split; [left; reflexivity|exact H]. Qed.
Definition nums (l : list Z) : list num := map (fun z => Fin (qz z)) l.
Lemma two_cells (P : list nat -> Prop) : P [0] -> P [1] -> forall ix, Forall2 lt ix [2] -> P ix.
Proof. intros P0 P1 ix V. inversion V as [|i a r q H1 H2]; subst. inversion H2; subst. destruct i as [|[|i]]; [exact P0|exact P1|lia]. Qed.

Section Gaussian.
Variables m s o : nat.
Hypothesis Hm : content m = nums [1; 3]%Z.
Hypothesis Hs : content s = nums [1; 2]%Z.
Hypothesis Ho : content o = nums [2; 0]%Z.
Let x := g_obj CGaussian (g_dict m s) o VNone VNone false.
Let f := Gaussian (of_list NaN [2] (nums [1; 3]%Z)) (of_list NaN [2] (nums [1; 2]%Z)) false.
Let Ao : arr_of (VArr [2] o) = of_list NaN [2] (nums [2; 0]%Z). Proof. cbn [arr_of]. rewrite Ho. reflexivity. Qed.
Lemma g_forecast ms c pr : forecast_of (g_obj CGaussian (g_dict m s) o ms c pr) = Some f.
Proof. unfold forecast_of. cbn. rewrite Hm, Hs. reflexivity. Qed.
Lemma g_ready : forecast_ready e_set x f (VInt 1) (TScalar (Fin (qz 1))).
Proof. split; [apply g_forecast|]. split; [split; reflexivity|]. split; [discriminate|]. split; [left; reflexivity|]. split; [intros []|]. split; [reflexivity|exact I]. Qed.
Definition g_F (ix : list nat) : Qc := if Nat.eqb (hd 0 ix) 0 then Q2Qc (1 # 2) else Q2Qc (1 # 4).
Lemma g_known : forall ix, Forall2 lt ix [2] -> cdf_known g_laws f (TScalar (Fin (qz 1))) g_F ix.
Proof. apply two_cells; (split; [vm_compute; f_equal; apply Qc_is_canon; reflexivity|split; vm_compute; discriminate]). Qed.
Lemma g_known_in ix : In ix [[0]; [1]] -> cdf_known g_laws f (TScalar (Fin (qz 1))) g_F ix.
Proof. intros [<-|[<-|[]]]; apply g_known; repeat constructor. Qed.
Lemma g_values :
  (exists v, g_answers (g_state x) (MCdf (VInt 1) VNone) v /\ reads v [0] = Fin (Q2Qc (1 # 2)) /\ reads v [1] = Fin (Q2Qc (3 # 4))) /\
  (exists v, g_answers (g_state x) (MBrier (VInt 1) VNone) v /\ reads v [] = Fin (Q2Qc (13 # 32))) /\
  (exists a b, g_answers (g_state x) (MRoc (VInt 1) VNone) (VTuple [a; b; VFloat (Fin 0%Qc)])) /\
  (exists rel reso unc, g_answers (g_state x) (MDecomp (VInt 1) VNone) (VTuple [rel; reso; unc]) /\
     reads rel [] = Fin (Q2Qc (13 # 32)) /\ reads reso [] = Fin (Q2Qc (1 # 4)) /\ reads unc [] = Fin (Q2Qc (1 # 4))) /\
  (exists e, g_answers (g_state x) MError e /\ reads e [] = Fin (qz 1)) /\
  (exists v, g_answers (g_state x) MVariance v /\ reads v [1] = Fin (qz 4)) /\
  (exists v, g_answers (g_state x) MPit v /\ reads v [0] = Fin (Q2Qc (3 # 4)) /\ reads v [1] = Fin (Q2Qc (1 # 8))).
Proof.
  pose proof (g_is_reached x eq_refl) as RE. pose proof e_faithful as FA. assert (T : threshold_ok (VInt 1)) by (left; exact I).
  assert (Nl : [[0]; [1]] <> []) by discriminate. repeat match goal with |- _ /\ _ => split end.
  - destruct (c93_probability e_set g_laws _ _ _ _ _ _ _ _ _ _ _ _ _ _ (g_state x) true (VInt 1) _ f FA RE g_ready T) as (v & A & _ & _ & G). exists v. split; [exact A|].
    destruct (g_known [0] ltac:(repeat constructor)) as [K0 U0], (g_known [1] ltac:(repeat constructor)) as [K1 U1].
    rewrite (proj1 (G [0] ltac:(repeat constructor)) _ K0 U0), (proj1 (G [1] ltac:(repeat constructor)) _ K1 U1). split; qnum.
  - destruct (c93_brier e_set g_laws _ _ _ _ _ _ _ _ _ _ _ _ _ _ (g_state x) true (VInt 1) _ f g_F None [0] [] [[0]; [1]] FA RE g_ready T eq_refl eq_refl eq_refl cells_2 Nl g_known_in) as (v & A & _ & G).
    exists v. split; [exact A|]. rewrite G. unfold outcome, reads. cbn [ob g_state x g_obj a_o]. rewrite Ao. qnum.
  - destruct (c93_roc e_set g_laws (fun d i r j => d + i + r + j) (fun d i r j q => d + i + r + j + q) w_lib w_libr w_str w_dumps w_loads (fun s => s) w_resolve w_points false None [] (fun n => n) (g_state x) true (VInt 1) _ f g_F FA RE g_ready T g_known) as (a & b & A);
      unfold reads in *; cbn [ob g_state x g_obj a_o arr_shape] in *; rewrite Ao in *; [vm_compute; discriminate|vm_compute; discriminate|].
    exists a, b. match type of A with g_answers _ _ (VTuple [_; _; VFloat (Fin ?q)]) => replace q with 0%Qc in A by (apply Qc_is_canon; vm_compute; reflexivity) end. exact A.
  - destruct (c93_decomposition e_set g_laws _ _ _ _ _ _ _ _ _ _ _ _ _ _ (g_state x) true (VInt 1) _ f g_F None [0] [] [[0]; [1]] (fun ix => if Nat.eqb (hd 0 ix) 0 then 10 else 15) FA RE g_ready T eq_refl eq_refl eq_refl I
      ltac:(intros d [<-|[]]; lia) cells_2 Nl) as (rel & reso & unc & q & r & u & A & _ & _ & _ & G1 & G2 & G3 & Q1 & Q2 & Q3 & _).
    { intros ix I. split; [apply g_known_in, I|]. destruct I as [<-|[<-|[]]]; (split; [cbn; lia|]); (split; [vm_compute; discriminate|left; vm_compute; reflexivity]). }
    exists rel, reso, unc. split; [exact A|]. rewrite G1, G2, G3, Q1, Q2, Q3. unfold outcome, reads. cbn [ob g_state x g_obj a_o]. rewrite Ao. repeat split; qnum.
  - destruct (c93_errors e_set g_laws _ _ _ _ _ _ _ _ _ _ _ _ _ _ (g_state x) (VArr [2] m) None [0] [] [[0]; [1]] (fun ix => if Nat.eqb (hd 0 ix) 0 then qz 1 else qz 3) (fun ix => if Nat.eqb (hd 0 ix) 0 then qz 2 else qz 0) FA RE
      (or_introl eq_refl) eq_refl eq_refl eq_refl eq_refl eq_refl cells_2 Nl) as (_ & e & sq & ab & A & _ & _ & _ & _ & _ & G & _).
    { unfold reads. cbn [ob g_state x g_obj a_o arr_of]. rewrite Hm, Ho. intros ix [<-|[<-|[]]]; split; reflexivity. }
    exists e. split; [exact A|]. rewrite G. qnum.
  - destruct (c93_variance e_set g_laws _ _ _ _ _ _ _ _ _ _ _ _ _ _ (g_state x) (VArr [2] s) FA RE (or_introl eq_refl) eq_refl) as (v & A & _ & G). exists v. split; [exact A|].
    rewrite (G [1] (qz 2)); [qnum|repeat constructor|]. unfold reads. cbn [arr_of]. rewrite Hs. reflexivity.
  - destruct (c93_pit e_set g_laws (fun d i r j => d + i + r + j) (fun d i r j q => d + i + r + j + q) w_lib w_libr w_str w_dumps w_loads (fun s => s) w_resolve w_points false None [] (fun n => n) (g_state x) f (fun ix => if Nat.eqb (hd 0 ix) 0 then Q2Qc (3 # 4) else Q2Qc (1 # 8)) FA RE) as (v & A & _ & _ & G).
    + destruct g_ready as (R1 & R2 & R3 & R4 & R5 & _). repeat (split; [assumption|]). split; reflexivity.
    + reflexivity.
    + reflexivity.
    + cbn [ob g_state x g_obj a_o]. rewrite Ao. apply two_cells; (split; [vm_compute; f_equal; apply Qc_is_canon; reflexivity|split; vm_compute; discriminate]).
    + exists v. split; [exact A|]. rewrite !G by repeat constructor. split; reflexivity.
Qed.
(** randomised: the observation of zero *)
Let xr := g_obj CGaussian (g_dict m s) o VNone VNone true.
Lemma g_random : exists v, g_answers (g_state xr) MPit v /\ reads v [0] = Fin (Q2Qc (3 # 4)) /\ reads v [1] = Fin (Q2Qc (1 # 24)).
Proof.
  destruct (c93_pit_randomized e_set g_laws (fun d i r j => d + i + r + j) (fun d i r j q => d + i + r + j + q) w_lib w_libr w_str w_dumps w_loads (fun s => s) w_resolve w_points false None [] (fun n => n) (g_state xr) f (fun ix => if Nat.eqb (hd 0 ix) 0 then Q2Qc (3 # 4) else Q2Qc (1 # 8))
    (or_introl eq_refl) eq_refl) as (v & A & _ & _ & G).
  - destruct g_ready as (_ & R2 & R3 & R4 & R5 & _). split; [apply g_forecast|]. repeat (split; [assumption|]). split; reflexivity.
  - reflexivity.
  - reflexivity.
  - cbn [ob g_state xr g_obj a_o]. rewrite Ao. apply two_cells; (split; [vm_compute; f_equal; apply Qc_is_canon; reflexivity|split; vm_compute; discriminate]).
  - exists v. split; [exact A|]. unfold reads in G |- *. cbn [ob g_state xr g_obj a_o] in G. rewrite Ao in G.
    rewrite (proj2 (G [0] ltac:(repeat constructor))) by (vm_compute; discriminate). rewrite (proj1 (G [1] ltac:(repeat constructor))) by reflexivity. split; qnum.
Qed.
(** three members, those below 5/2 replaced by zero: 0, 0, 0 and 0, 3, 4 *)
Let xs := g_obj CGaussian (g_dict m s) o (VInt 3) (VFloat (Fin (Q2Qc (5 # 2)))) false.
Lemma g_sampling : sampling e_set g_laws xs f 3 (Some (Fin (Q2Qc (5 # 2)))).
Proof.
  split; [apply g_forecast|]. split; [left; reflexivity|]. split; [split; reflexivity|]. split; [reflexivity|]. split; [reflexivity|]. split; [reflexivity|]. apply two_cells; vm_compute; reflexivity.
Qed.
Lemma g_drawn : drawn g_laws f 3 (Some (Fin (Q2Qc (5 # 2)))) 0 [0] = map Fin [0%Qc; 0%Qc; 0%Qc] /\ drawn g_laws f 3 (Some (Fin (Q2Qc (5 # 2)))) 0 [1] = map Fin [0%Qc; qz 3; qz 4].
Proof. split; vm_compute; repeat f_equal; apply Qc_is_canon; reflexivity. Qed.
Lemma g_samples :
  (exists e, g_answers (g_state xs) MEns e /\ arr_shape e = [2; 3] /\ map (fun i => reads e [1; i]) [0; 1; 2] = map Fin [0%Qc; qz 3; qz 4]) /\
  (exists v, g_answers (g_state xs) MSpread v /\ reads v [] = Fin (qz 2)) /\
  (exists r, g_answers (g_state xs) MRank r /\ reads r [0] = nnat 4 /\ (reads r [1] = nnat 1 \/ reads r [1] = nnat 2)).
Proof.
  destruct g_drawn as [D0 D1]. split; [|split].
  - destruct (c93_members e_set g_laws (fun d i r j => d + i + r + j) (fun d i r j q => d + i + r + j + q) w_lib w_libr w_str w_dumps w_loads (fun s => s) w_resolve w_points false None [] (fun n => n) (g_state xs) f 3 _ (-1)%Z 1 (or_introl eq_refl) eq_refl g_sampling eq_refl ltac:(split; [cbn; lia|right; reflexivity])) as (e & A & Sh & G).
    exists e. split; [exact A|]. split; [exact Sh|]. rewrite <- D1. exact (G [1] ltac:(repeat constructor)).
  - destruct (c93_spread e_set g_laws (fun d i r j => d + i + r + j) (fun d i r j q => d + i + r + j + q) w_lib w_libr w_str w_dumps w_loads (fun s => s) w_resolve w_points false None [] (fun n => n) (g_state xs) f 3 _ None [0] [] [[0]; [1]] (fun ix => if Nat.eqb (hd 0 ix) 0 then 0%Qc else qz 4) (fun _ => 0%Qc) (fun ix => if Nat.eqb (hd 0 ix) 0 then [0%Qc; 0%Qc; 0%Qc] else [0%Qc; qz 3; qz 4])
      (or_introl eq_refl) eq_refl g_sampling eq_refl ltac:(lia) eq_refl eq_refl eq_refl cells_2 ltac:(discriminate)) as (v & A & _ & G).
    + intros ix [<-|[<-|[]]]; (split; [first [exact D0|exact D1]|]); cbn; (split; [tauto|split; [tauto|]]); intros q H; repeat (destruct H as [<-|H]; [split; vm_compute; discriminate|]); destruct H.
    + exists v. split; [exact A|]. rewrite G. qnum.
  - destruct (c93_ranks e_set g_laws (fun d i r j => d + i + r + j) (fun d i r j q => d + i + r + j + q) w_lib w_libr w_str w_dumps w_loads (fun s => s) w_resolve w_points false None [] (fun n => n) (g_state xs) f 3 _ (or_introl eq_refl) eq_refl g_sampling eq_refl ltac:(discriminate)) as (r & A & _ & G).
    + unfold reads. cbn [ob g_state xs g_obj a_o]. rewrite Ao. change (pos (g_state xs) + 0) with 0. apply two_cells; (split; [eexists; reflexivity|]); [rewrite D0|rewrite D1]; repeat constructor; eexists; reflexivity.
    + exists r. split; [exact A|]. destruct (G [0] ltac:(repeat constructor)) as (k0 & E0 & _ & R0 & _). destruct (G [1] ltac:(repeat constructor)) as (k1 & E1 & _ & R1 & _). rewrite E0, E1.
      unfold reads in R0, R1. cbn [ob g_state xs g_obj a_o] in R0, R1. change (pos (mkSt xs w_used 0 []) + 0) with 0 in R0, R1. change (pos (g_state xs) + 0) with 0 in R0, R1. rewrite Ao in R0, R1. rewrite D0 in R0. rewrite D1 in R1. vm_compute in R0, R1.
      split; [f_equal; lia|]. assert (X : k1 = 1 \/ k1 = 2) by lia. destruct X as [-> | ->]; auto.
Qed.
End Gaussian.
Example c93_values_witness : let m := store (nums [1; 3]%Z) in let s := store (nums [1; 2]%Z) in let o := store (nums [2; 0]%Z) in
  let x := g_obj CGaussian (g_dict m s) o VNone VNone false in let y := g_obj CGaussian (g_dict m s) o (VInt 3) (VFloat (Fin (Q2Qc (5 # 2)))) false in
  (exists v, g_answers (g_state x) (MBrier (VInt 1) VNone) v /\ reads v [] = Fin (Q2Qc (13 # 32))) /\
  (exists v, g_answers (g_state x) MPit v /\ reads v [0] = Fin (Q2Qc (3 # 4)) /\ reads v [1] = Fin (Q2Qc (1 # 8))) /\
  (exists e, g_answers (g_state y) MEns e /\ arr_shape e = [2; 3] /\ map (fun i => reads e [1; i]) [0; 1; 2] = map Fin [0%Qc; qz 3; qz 4]).
Proof.
  intros m s o x y. pose proof (content_store (nums [1; 3]%Z)) as Hm. pose proof (content_store (nums [1; 2]%Z)) as Hs. pose proof (content_store (nums [2; 0]%Z)) as Ho.
  destruct (g_values m s o Hm Hs Ho) as (_ & B & _ & _ & _ & _ & P). destruct (g_samples m s o Hm Hs Ho) as (E & _). auto.
Qed.
(** the hurdle distribution: 1/2 stays at zero, the rest has mean and deviation 2; threshold 2 resp. 0 *)
Lemma h_values p m s o : content p = [Fin (Q2Qc (1 # 2)); Fin (Q2Qc (1 # 2))] -> content m = nums [2; 2]%Z -> content s = nums [2; 2]%Z -> content o = nums [2; 0]%Z ->
  let x := g_obj CHurdle (h_dict p m s) o VNone VNone false in
  (exists v, g_answers (g_state x) (MCdf VNone (VInt 2)) v /\ reads v [0] = Fin (Q2Qc (3 # 4))) /\
  (exists v, g_answers (g_state x) (MCdf VNone (VInt 0)) v /\ reads v [1] = Fin (Q2Qc (1 # 2))).
Proof.
  intros Hp Hm Hs Ho x. set (f := Hurdle (of_list NaN [2] [Fin (Q2Qc (1 # 2)); Fin (Q2Qc (1 # 2))]) (of_list NaN [2] (nums [2; 2]%Z)) (of_list NaN [2] (nums [2; 2]%Z))).
  assert (R : forall z, forecast_ready e_set x f (VInt z) (TScalar (Fin (qz z)))).
  { intros z. split; [unfold forecast_of; cbn; rewrite Hm, Hs, Hp; reflexivity|]. split; [repeat split; reflexivity|]. split; [discriminate|]. split; [left; reflexivity|]. split; [intros []|]. split; [reflexivity|exact I]. }
  split.
  - destruct (c93_probability e_set g_laws _ _ _ _ _ _ _ _ _ _ _ _ _ _ (g_state x) false (VInt 2) _ f e_faithful (g_is_reached x eq_refl) (R 2%Z) (or_introl I)) as (v & A & _ & _ & G). exists v. split; [exact A|].
    apply (proj1 (G [0] ltac:(repeat constructor))); [vm_compute; f_equal; apply Qc_is_canon; reflexivity|split; vm_compute; discriminate].
  - destruct (c93_probability e_set g_laws _ _ _ _ _ _ _ _ _ _ _ _ _ _ (g_state x) false (VInt 0) _ f e_faithful (g_is_reached x eq_refl) (R 0%Z) (or_introl I)) as (v & A & _ & _ & G). exists v. split; [exact A|].
    apply (proj1 (G [1] ltac:(repeat constructor))); [vm_compute; f_equal; apply Qc_is_canon; reflexivity|split; vm_compute; discriminate].
Qed.
