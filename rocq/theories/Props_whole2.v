(** Property C91: Brier decomposition, reliability diagram and ranks of an ensemble verifier, from constructor to
    numbers; for at most nineteen members the three terms of the decomposition add up to the Brier score. *)
From Coq Require Import String ZArith List Lia Bool Arith QArith Qcanon Sorted.
From Verif Require Import QcTac QSum Num NdArr Numpy NdAxes M_common M_boot M_ens M_special M_rel M_dist
  Spec Spec_prob Spec_rel P_boot P_rank P_prob P_dist P_brier P_special P_rel Props_avg Props_special Props_rel Props_rank
  Store M_state Spec_state P_state P_codec Spec_result P_result Props_state Props_result M_whole Spec_whole P_whole Props_whole M_whole2 P_whole2 Spec_whole2 P_layout.
From Verif Require Props_ps NdMove.
Import ListNotations.
Open Scope string_scope.
Open Scope list_scope.
Open Scope nat_scope.

Section Program.
Variable S : settings.
Variable gen_decomp : nat -> nat -> nat -> nat -> nat.
Variable gen_rel : nat -> nat -> nat -> nat -> nat -> nat.
Variable other : string -> list M_state.val -> res M_state.val.
Variable otherr : string -> list M_state.val -> nat -> res M_state.val.
Variable str_of : M_state.val -> string.
Variable dumps : M_state.val -> string.
Variable loads : string -> res M_state.val.
Variable expanduser : string -> string.
Variable resolve : string -> path.
Variable points : M_state.val -> M_state.val -> M_state.val -> res (list num).
Variable less_memory : bool.
Variable integrate_wdir : option path.
Variable cwd : path.
Variable rng : nat -> nat.

Notation mlib := (more_lib S other).
Notation mlibr := (more_libr S gen_decomp gen_rel otherr).
Notation lib := (whole_lib S mlib).
Notation libr := (whole_libr S mlibr).
Notation step := (M_state.step lib libr str_of dumps loads expanduser resolve points less_memory integrate_wdir cwd rng).
Notation result := (Spec_result.result lib libr points).
Notation faithful := (Props_whole.faithful str_of dumps loads expanduser).
Notation reached := (Props_whole.reached S mlib mlibr str_of dumps loads expanduser resolve points less_memory integrate_wdir cwd rng).
Notation answers := (Props_whole.answers S mlib mlibr str_of dumps loads expanduser resolve points less_memory integrate_wdir cwd rng).
Notation ready := (ensemble_ready S).
(** the probability given to the event in a cell, and whether it happened *)
Definition given (x : obj) (n : nat) (over : bool) (b : thr) (ix : list nat) : Qc := member_share over (thr_at b ix) (Spec.members_at n (arr_of (a_f x)) ix).
Definition happened (x : obj) (over : bool) (b : thr) (ix : list nat) : Qc := indicator (Spec_whole.observed over (thr_at b ix) (reads (a_o x) ix)).

Lemma bin_exists (p : list nat -> Qc) : (forall ix, 0 <= p ix)%Qc -> exists bin, forall ix, in_bin 20 (p ix) (bin ix).
Proof.
  intros H. exists (fun ix => digitize brier_bins (Fin (p ix))). intros ix. destruct (in_bin_exists 20 (p ix) ltac:(lia) (H ix)) as (j & Hj). rewrite (brier_digitize _ _ Hj). exact Hj.
Qed.
Lemma given_nonneg x n over b ix : (0 <= given x n over b ix)%Qc.
Proof.
  unfold given. destruct (Spec.members_at n (arr_of (a_f x)) ix) as [|m l] eqn:E; [|apply share_bounds; discriminate].
  unfold member_share. cbn. discriminate.
Qed.

(** ** Brier decomposition *)
Theorem c91_decomposition : forall s (over : bool) t b n ax ns k L (bin : list nat -> nat), faithful -> reached s ->
  let x := ob s in ready x n t b -> threshold_ok t ->
  a_boot x = VNone -> axes_of (a_avg x) = Some ax -> axes_are (length (arr_shape (a_o x))) ax ns -> P_special.plain ax ->
  (forall d, In d (arr_shape (a_o x)) -> 0 < d) -> Cells (arr_shape (a_o x)) ns k L -> L <> [] ->
  let p := given x n over b in let y := happened x over b in (forall ix, In ix L -> in_bin 20 (p ix) (bin ix)) ->
  exists rel reso unc, answers s (MDecomp (over_of over t) (below_of over t)) (VTuple [rel; reso; unc]) /\
    let sh := kept (length (arr_shape (a_o x))) ns (arr_shape (a_o x)) in arr_shape rel = sh /\ arr_shape reso = sh /\ arr_shape unc = sh /\
    reads rel k = Fin (avg_over (fun ix => (bin_mean bin p L ix - bin_mean bin y L ix) * (bin_mean bin p L ix - bin_mean bin y L ix)) L)%Qc /\
    reads reso k = Fin (avg_over (fun ix => (bin_mean bin y L ix - avg_over y L) * (bin_mean bin y L ix - avg_over y L)) L)%Qc /\
    reads unc k = Fin (avg_over y L * (1 - avg_over y L))%Qc.
Proof.
  intros s over t b n ax ns k L bin FA RE x H T B A X PL Pos HC N p y HB.
  destruct (ready_prob S mlib x n t b over H) as (pv & Ep & Sp & Gp). destruct (ready_outcome S mlib x n t b over H) as (ov & Eo & So & Go).
  set (e := w_boot S). set (z := fun _ _ _ : nat => 0).
  assert (Sh : shape (arr_of pv) = shape (arr_of ov)) by (rewrite !arr_shape_of; congruence).
  assert (Sx : shape (arr_of ov) = arr_shape (a_o x)) by (rewrite arr_shape_of; exact So).
  pose proof (Cells_valid _ _ _ _ HC N) as Vk.
  destruct (proj2 (c51_accepts_partial e z (arr_of pv) (arr_of ov) ax ns Sh ltac:(rewrite Sx; exact X) PL ltac:(rewrite Sx; exact (valid_prod_pos _ _ Vk))) ltac:(rewrite Sx; exact Pos)) as [[[rel reso] unc] Ed].
  destruct (c51_brier_per_slice_partial e z (arr_of pv) (arr_of ov) ax ns None rel reso unc Sh ltac:(rewrite Sx; exact X) PL Ed) as (S1 & S2 & S3 & _). rewrite Sx in S1, S2, S3.
  destruct (c27_terms e z (arr_of pv) (arr_of ov) ax ns rel reso unc k L p y bin Sh) as (G1 & G2 & G3); rewrite ?Sx; try assumption.
  { intros ix I. assert (V : valid (arr_shape (a_o x)) ix) by apply (proj2 HC), I.
    split; [exact (Gp ix V)|]. split; [exact (Go ix V)|apply HB, I]. }
  exists (val_of rel), (val_of reso), (val_of unc). split.
  - unfold Props_whole.answers. edestruct (reached_result S mlib mlibr str_of dumps loads expanduser resolve points less_memory integrate_wdir cwd rng s) as [-> _];
      [exact FA|exact RE|apply threshold_key; [exact T|reflexivity]|fold x; unfold random_call, random_value; rewrite B; reflexivity|].
    cbn [Spec_result.result]. fold x. unfold event_pair. rewrite Ep. cbn [bind]. rewrite Eo. cbn [bind]. unfold with_boot. rewrite B. cbn [is_none].
    change (lib "brier_decomp" [pv; ov; a_avg x]) with (mlib "brier_decomp" [pv; ov; a_avg x]). unfold more_lib.
    change ("brier_decomp" =? "brier_decomp")%string with true. cbv iota. rewrite A. fold e z. rewrite Ed. reflexivity.
  - split; [exact S1|]. split; [exact S2|]. split; [exact S3|]. rewrite !reads_val by (rewrite ?S1, ?S2, ?S3; exact Vk). split; [exact G1|split; [exact G2|exact G3]].
Qed.

(** The three terms add up to the Brier score of the same verifier when it has at most nineteen members. *)
Theorem c91_sum : forall s (over : bool) t b n ax ns k L, faithful -> reached s ->
  let x := ob s in ready x n t b -> threshold_ok t -> nth n (arr_shape (a_f x)) 0 <= 19 ->
  a_boot x = VNone -> axes_of (a_avg x) = Some ax -> axes_are (length (arr_shape (a_o x))) ax ns -> P_special.plain ax ->
  (forall d, In d (arr_shape (a_o x)) -> 0 < d) -> Cells (arr_shape (a_o x)) ns k L -> L <> [] ->
  exists v rel reso unc q r u, answers s (MBrier (over_of over t) (below_of over t)) v /\
    answers s (MDecomp (over_of over t) (below_of over t)) (VTuple [rel; reso; unc]) /\
    reads rel k = Fin q /\ reads reso k = Fin r /\ reads unc k = Fin u /\ reads v k = Fin (q - r + u)%Qc.
Proof.
  intros s over t b n ax ns k L FA RE x H T Few B A X PL Pos HC N.
  destruct (c85_brier S mlib mlibr str_of dumps loads expanduser resolve points less_memory integrate_wdir cwd rng s over t b n ax ns k L FA RE H T B A X HC N) as (v & Av & _ & Gv).
  fold x in Gv. set (p := given x n over b) in *. set (y := happened x over b) in *.
  destruct (bin_exists p (given_nonneg x n over b)) as (bin & HB).
  destruct (ready_prob S mlib x n t b over H) as (pv & Ep & Sp & Gp). destruct (ready_outcome S mlib x n t b over H) as (ov & Eo & So & Go).
  set (e := w_boot S). set (z := fun _ _ _ : nat => 0).
  assert (Sh : shape (arr_of pv) = shape (arr_of ov)) by (rewrite !arr_shape_of; congruence).
  assert (Sx : shape (arr_of ov) = arr_shape (a_o x)) by (rewrite arr_shape_of; exact So).
  pose proof (Cells_valid _ _ _ _ HC N) as Vk.
  destruct (c91_decomposition s over t b n ax ns k L bin FA RE H T B A X PL Pos HC N (fun ix _ => HB ix)) as (rv & sv & uv & Ad & _ & _ & _ & G1 & G2 & G3). fold x p y in G1, G2, G3.
  destruct (proj2 (c51_accepts_partial e z (arr_of pv) (arr_of ov) ax ns Sh ltac:(rewrite Sx; exact X) PL ltac:(rewrite Sx; exact (valid_prod_pos _ _ Vk))) ltac:(rewrite Sx; exact Pos)) as [[[rel reso] unc] Ed].
  assert (Dt : forall ix, In ix L -> get (arr_of pv) ix = Fin (p ix) /\ get (arr_of ov) ix = Fin (y ix) /\ in_bin 20 (p ix) (bin ix)).
  { intros ix I. assert (V : valid (arr_shape (a_o x)) ix) by apply (proj2 HC), I. split; [exact (Gp ix V)|]. split; [exact (Go ix V)|apply HB]. }
  destruct (c27_terms e z (arr_of pv) (arr_of ov) ax ns rel reso unc k L p y bin Sh) as (F1 & F2 & F3); rewrite ?Sx; try assumption.
  destruct (c27_brier_decomposition e z (arr_of pv) (arr_of ov) ax ns rel reso unc k L p y bin Sh) as (q & r & u & E1 & E2 & E3 & _ & Sum); rewrite ?Sx; try assumption.
  { intros ix I. destruct (Dt ix I) as (D1 & D2 & D3). split; [exact D1|]. split; [exact D2|]. split; [|exact D3]. unfold y, happened, indicator. destruct (Spec_whole.observed _ _ _); auto. }
  rewrite F1 in E1. rewrite F2 in E2. rewrite F3 in E3.
  exists v, rv, sv, uv, q, r, u. split; [exact Av|]. split; [exact Ad|]. split; [rewrite G1; exact E1|]. split; [rewrite G2; exact E2|]. split; [rewrite G3; exact E3|].
  rewrite Gv. f_equal. rewrite <- Sum.
  - unfold avg_over. reflexivity.
  - intros ix jx _ _ Eb. unfold p, given, member_share in *. pose proof (HB ix) as Bi. pose proof (HB jx) as Bj. rewrite <- Eb in Bj.
    assert (Len : forall ix, length (Spec.members_at n (arr_of (a_f x)) ix) = nth n (arr_shape (a_f x)) 0) by (intros i; unfold Spec.members_at; rewrite map_length, seq_length, arr_shape_of; reflexivity).
    destruct H as (_ & _ & _ & Ps & _). rewrite !Len in *. f_equal. f_equal.
    eapply share_bins; [exact Ps|exact Few| | |exact Bi|exact Bj]; eapply Nat.le_trans; [apply how_many_le|rewrite Len; lia|apply how_many_le|rewrite Len; lia].
Qed.

(** ** Reliability diagram *)
Theorem c91_reliability : forall s (over : bool) t b n nb ax ns (bin : list nat -> nat), faithful -> reached s ->
  let x := ob s in ready x n t b -> threshold_ok t -> 0 < nb ->
  a_boot x = VNone -> axes_of (a_avg x) = Some ax -> axes_are (length (arr_shape (a_o x))) ax ns -> same_sign ax ->
  prod (kept (length (arr_shape (a_o x))) ns (arr_shape (a_o x))) <> 0 ->
  let p := given x n over b in let y := happened x over b in
  (forall ix, Forall2 lt ix (arr_shape (a_o x)) -> rel_bin nb (p ix) (bin ix)) ->
  let ks := kept (length (arr_shape (a_o x))) ns (arr_shape (a_o x)) in
  exists fp op pc oc, answers s (MRel (VInt (Z.of_nat nb)) (over_of over t) (below_of over t)) (VTuple [fp; op; pc; oc]) /\
  forall k L, Forall2 lt k ks -> Cells (arr_shape (a_o x)) ns k L ->
  exists bs, StronglySorted lt bs /\ (forall j, In j bs <-> exists ix, In ix L /\ bin ix = j) /\
    curve_at ks fp k (map (fun j => Fin (Spec.mean_of (map p (filter (fun ix => Nat.eqb (bin ix) j) L)))) bs) /\
    curve_at ks op k (map (fun j => Fin (Spec.mean_of (map y (filter (fun ix => Nat.eqb (bin ix) j) L)))) bs) /\
    counts_at ks pc k (map Z.of_nat bs) (map (fun j => how_many (fun ix => Nat.eqb (bin ix) j) L) bs) /\
    counts_at ks oc k (filter (fun e => existsb (fun ix => qeqb (y ix) (qz e)) L) [0; 1]%Z)
      (filter (fun c => negb (Nat.eqb c 0)) [how_many (fun ix => qeqb (y ix) 0%Qc) L; how_many (fun ix => qeqb (y ix) 1%Qc) L]).
Proof.
  intros s over t b n nb ax ns bin FA RE x H T Nb B A X SS HK p y HB.
  destruct (ready_prob S mlib x n t b over H) as (pv & Ep & Sp & Gp). destruct (ready_outcome S mlib x n t b over H) as (ov & Eo & So & Go).
  assert (Sh : shape (arr_of pv) = shape (arr_of ov)) by (rewrite !arr_shape_of; congruence).
  assert (Sx : shape (arr_of ov) = arr_shape (a_o x)) by (rewrite arr_shape_of; exact So).
  destruct (c30_values (arr_of pv) (arr_of ov) nb ax ns p y bin Nb Sh) as (out & Er & G); rewrite ?Sx; try assumption.
  { intros ix V. rewrite Sx in V. split; [exact (Gp ix V)|]. assert (Ms : Spec.members_at n (arr_of (a_f x)) ix <> []).
    { intros Z. apply (f_equal (@length num)) in Z. unfold Spec.members_at in Z. rewrite map_length, seq_length, arr_shape_of in Z. destruct H as (_ & _ & _ & Ps & _). cbn in Z. lia. }
    destruct (share_bounds over (thr_at b ix) _ Ms) as [Z0 Z1]. split; [exact Z0|]. split; [exact Z1|]. split; [exact (Go ix V)|]. unfold y, happened, indicator. destruct (Spec_whole.observed _ _ _); auto. }
  rewrite Sx in G. intros ks. assert (OK : out_ok ks out).
  { unfold ks. rewrite <- Sx. apply (rel_diagram_ok (arr_of pv) (arr_of ov) nb ax ns out Sh); rewrite ?Sx; assumption. }
  destruct (rel_layout ks out OK) as (fp & op & pc & oc & Ev & La). exists fp, op, pc, oc. split.
  2:{ intros k L Hk HL. destruct (G k L Hk HL) as (bs & Sd & Ib & F1 & F2 & F3 & F4 & F5). destruct (La k Hk) as (A1 & A2 & A3 & A4). rewrite F1 in A1. rewrite F2 in A2. rewrite F3 in A3. rewrite F4 in A4.
    exists bs. split; [exact Sd|]. split; [exact Ib|]. split; [exact A1|]. split; [exact A2|]. fold ks in F5. clear - A3 A4 F5. unfold counts_at in *. destruct ks as [|n0 ks0]; [|split; assumption].
    destruct (F5 eq_refl) as [F6 F7]. rewrite F6 in A3. rewrite F7 in A4. split; assumption. }
  rewrite <- Ev.
  unfold Props_whole.answers. edestruct (reached_result S mlib mlibr str_of dumps loads expanduser resolve points less_memory integrate_wdir cwd rng s) as [-> _];
    [exact FA|exact RE| |fold x; unfold random_call, random_value; rewrite B; reflexivity|].
  { cbn. apply Forall_cons; [left; exact I|]. apply (threshold_key over t (fun o b => MCdf o b) T). reflexivity. }
  cbn [Spec_result.result]. fold x. unfold event_pair. rewrite Ep. cbn [bind]. rewrite Eo. cbn [bind].
  unfold reliability_diagram in Er. destruct (rel_split (arr_of pv) (arr_of ov) nb ax) as [sp|] eqn:Es; [|discriminate Er]. cbn [bind] in Er.
  change (lib "reliability_split" [pv; ov; VInt (Z.of_nat nb); a_avg x]) with (mlib "reliability_split" [pv; ov; VInt (Z.of_nat nb); a_avg x]). unfold more_lib at 1.
  change ("reliability_split" =? "reliability_split")%string with true. cbv iota. rewrite A. cbn [count_of]. destruct (Z.leb_spec 0 (Z.of_nat nb)); [|lia]. rewrite Nat2Z.id, Es. cbn [rmap bind].
  unfold with_boot. rewrite B. cbn [is_none]. change (lib "post_reliability" [split_val sp]) with (mlib "post_reliability" [split_val sp]). unfold more_lib.
  change ("post_reliability" =? "post_reliability")%string with true. cbv iota.
  pose proof (split_round sp) as R. destruct sp as [[[ids f2] o2] bins]. destruct (rel_split_shapes _ _ _ _ _ _ _ _ Es) as [Y1 Y2]. cbn [fst snd] in R.
  destruct (split_of _) as [[[[i' f'] o'] b']|]; [|contradiction]. rewrite (R Y1 Y2), Er. reflexivity.
Qed.

(** ** Ranks: saving off, no missing values *)
Theorem c91_ranks : forall s n, let x := ob s in mem_off less_memory x -> truthy (a_wd x) = false ->
  cl x = CEnsemble -> Props_ps.fits (arr_of (a_o x)) (arr_of (a_f x)) (int_of (a_eaxis x)) n -> arr_shape (a_o x) <> [] ->
  P_rank.par_ok (length (arr_shape (a_o x))) (arr_shape (a_o x)) (w_workers S) (w_map_axis S) ->
  (forall ix, Forall2 lt ix (arr_shape (a_f x)) -> is_fin (reads (a_f x) ix)) -> (forall ix, Forall2 lt ix (arr_shape (a_o x)) -> is_fin (reads (a_o x) ix)) ->
  exists r, answers s MRank r /\ arr_shape r = arr_shape (a_o x) /\
  forall ix, Forall2 lt ix (arr_shape (a_o x)) -> let ms := Spec.members_at n (arr_of (a_f x)) ix in
    exists k, reads r ix = nnat k /\ 1 <= k <= length ms + 1 /\
      how_many (fun m => nlt m (reads (a_o x) ix)) ms < k <= 1 + how_many (fun m => nle m (reads (a_o x) ix)) ms /\
      (~ In (reads (a_o x) ix) ms -> k = 1 + how_many (fun m => nlt m (reads (a_o x) ix)) ms).
Proof.
  intros s n x M W C [Ax D] Ne Pk Ff Fo. rewrite (arr_shape_of (a_o x)) in D.
  assert (NN : forall a, (forall ix, Forall2 lt ix (shape a) -> is_fin (get a ix)) -> any_nan a = false).
  { intros a H. unfold any_nan. destruct (existsb is_nan (ravel a)) eqn:E; [|reflexivity]. apply existsb_exists in E as (v & I & E). unfold ravel in I. apply in_map_iff in I as (ix & <- & I).
    apply in_indices in I. destruct (H ix I) as [q Hq]. rewrite Hq in E. discriminate E. }
  set (g := w_gen_rank S (rng (pos s + 0))).
  destruct (rank_histogram_accepts (skip_nan (w_boot S)) (w_workers S) (w_map_axis S) g (arr_of (a_f x)) (arr_of (a_o x)) (int_of (a_eaxis x)) n) as [h Eh]; rewrite ?arr_shape_of; try assumption; [rewrite <- (arr_shape_of (a_f x)); exact Ax|rewrite <- (arr_shape_of (a_f x)); exact D| |].
  { intros _. split; apply NN; rewrite arr_shape_of; assumption. }
  exists (val_of h). split.
  - unfold Props_whole.answers.
    destruct (c83_saving_off lib libr str_of dumps loads expanduser resolve points less_memory integrate_wdir cwd rng MRank None s M W ltac:(constructor) (or_introl eq_refl)) as [-> _].
    cbn [Spec_result.result]. fold x. rewrite C. unfold whole_libr. change ("rank_histogram" =? "boot_or_avg")%string with false. change ("rank_histogram" =? "rank_histogram")%string with true. cbv iota. fold g. rewrite Eh. reflexivity.
  - destruct (c18_rank_range _ _ _ _ _ _ _ n h Eh Ax) as (Sh & _ & G). rewrite arr_shape_of in Sh, G. split; [exact Sh|]. intros ix V ms.
    destruct (G ix V) as (k & G1 & G2).
    { intros _. split; [apply Fo, V|]. intros m Hm. unfold Spec.members_at in Hm. apply in_map_iff in Hm as (j & <- & Hj). apply in_seq in Hj. apply Ff. rewrite <- (arr_shape_of (a_f x)).
      assert (Ln : n <= length ix) by (rewrite (valid_length _ _ V), <- D, NdMove.drop_axis_remove, NdMove.remove_at_length by apply Ax; destruct Ax; lia).
      rewrite <- (NdMove.insert_at_split n j ix Ln). apply NdMove.valid_insert; [apply Ax|lia|]. rewrite <- NdMove.drop_axis_remove, D. exact V. }
    exists k. split; [rewrite reads_val by (rewrite Sh; exact V); exact G1|exact G2].
Qed.
End Program.
Print Assumptions c91_decomposition.
Print Assumptions c91_sum.
Print Assumptions c91_reliability.
Print Assumptions c91_ranks.

(** ** Concrete programs: two cells, four resp. twenty members, no working directory *)
Notation d_lib := (whole_lib e_set (more_lib e_set w_lib)).
Notation d_answers := (Props_whole.answers e_set (more_lib e_set w_lib) (more_libr e_set (fun d i r j => d + i + r + j) (fun d i r j q => d + i + r + j + q) w_libr)
  w_str w_dumps w_loads (fun s => s) w_resolve w_points false None [] (fun n => n)).
Notation d_reached := (Props_whole.reached e_set (more_lib e_set w_lib) (more_libr e_set (fun d i r j => d + i + r + j) (fun d i r j q => d + i + r + j + q) w_libr)
  w_str w_dumps w_loads (fun s => s) w_resolve w_points false None [] (fun n => n)).
Definition d_obj (m f o : nat) : obj := mkObj CEnsemble (VArr [2; m] f) (VArr [2] o) VNone VNone VNone (VBool true)
    VNone VNone (VFun 0) VNone VNone VNone VNone VNone VNone VNone.
Definition d_made (m f o : nat) : res obj := fst (M_state.construct d_lib (fun s => s) w_resolve (d_obj m f o) w_used).
Lemma d_constructed m f o : m = 4 \/ m = 20 -> exists x1, d_made m f o = Ok x1 /\ truthy (a_wd x1) = false /\
  cl x1 = CEnsemble /\ a_f x1 = VArr [2; m] f /\ a_o x1 = VArr [2] o /\ a_eaxis x1 = VInt (-1) /\ a_boot x1 = VNone /\ a_avg x1 = VNone.
Proof. intros [-> | ->]; eexists; (split; [reflexivity|]); repeat split. Qed.
Section Made.
Variable m : nat.
Variables F O : list num.
Variable x1 : obj.
Hypothesis Hm : m = 4 \/ m = 20.
Hypothesis HX : d_made m (store F) (store O) = Ok x1.
Definition d_state : st := mkSt x1 w_used 0 [].
Definition d_f : arr num := of_list NaN [2; m] F.
Definition d_o : arr num := of_list NaN [2] O.
Lemma d_all : d_reached d_state /\ ensemble_ready e_set x1 1 (VInt 0) (TScalar (Fin (qz 0))) /\ threshold_ok (VInt 0) /\ nth 1 (arr_shape (a_f x1)) 0 = m /\ a_boot x1 = VNone /\
  axes_of (a_avg x1) = Some None /\ axes_are (length (arr_shape (a_o x1))) None [0] /\ P_special.plain None /\ (forall d, In d (arr_shape (a_o x1)) -> 0 < d) /\
  Cells (arr_shape (a_o x1)) [0] [] [[0]; [1]] /\ arr_of (a_f x1) = d_f /\ arr_of (a_o x1) = d_o /\ arr_shape (a_o x1) = [2] /\ truthy (a_wd x1) = false /\ cl x1 = CEnsemble /\
  a_eaxis x1 = VInt (-1) /\ arr_shape (a_f x1) = [2; m].
Proof.
  destruct (d_constructed m (store F) (store O) Hm) as (x2 & E & W & C & Ef & Eo & Ee & Eb & Ea). rewrite HX in E. injection E as <-.
  assert (Af : arr_of (a_f x1) = d_f) by (rewrite Ef; cbn [arr_of]; rewrite content_store; reflexivity).
  assert (Ao : arr_of (a_o x1) = d_o) by (rewrite Eo; cbn [arr_of]; rewrite content_store; reflexivity).
  assert (So : arr_shape (a_o x1) = [2]) by (rewrite Eo; reflexivity). assert (Sf : arr_shape (a_f x1) = [2; m]) by (rewrite Ef; reflexivity).
  split; [right; split; [left; reflexivity|exact W]|]. split.
  { split; [exact C|]. split; [reflexivity|]. split; [rewrite Af, Ao, Ee; split; [split; [cbn; lia|right; reflexivity]|reflexivity]|]. rewrite Sf, So. split; [cbn; lia|]. split; [left; reflexivity|]. split; [reflexivity|exact I]. }
  split; [left; exact I|]. rewrite Sf, So. split; [reflexivity|]. split; [exact Eb|]. split; [rewrite Ea; reflexivity|]. split; [reflexivity|]. split; [exact I|]. split; [intros d [<-|[]]; lia|].
  split; [exact cells_2|]. repeat (split; [assumption||reflexivity|]). reflexivity.
Qed.
End Made.
(** twenty members: shares 19/20 and 20/20 lie in the same (last) bin *)
Definition d_F : list num := Fin 0%Qc :: repeat (Fin 1%Qc) 39.
Definition d_O : list num := [Fin 1%Qc; Fin 0%Qc].
Lemma Fin_inj a b : Fin a = Fin b -> a = b. Proof. congruence. Qed.
Theorem c91_sum_refuted : exists x1, d_made 20 (store d_F) (store d_O) = Ok x1 /\ let s := d_state x1 in
  d_reached s /\ ensemble_ready e_set x1 1 (VInt 0) (TScalar (Fin (qz 0))) /\ nth 1 (arr_shape (a_f x1)) 0 = 20 /\ a_boot x1 = VNone /\ axes_of (a_avg x1) = Some None /\
  exists v rel reso unc q r u, d_answers s (MBrier (VInt 0) VNone) v /\ d_answers s (MDecomp (VInt 0) VNone) (VTuple [rel; reso; unc]) /\
    reads rel [] = Fin q /\ reads reso [] = Fin r /\ reads unc [] = Fin u /\ reads v [] <> Fin (q - r + u)%Qc.
Proof.
  destruct (d_constructed 20 (store d_F) (store d_O) (or_intror eq_refl)) as (x1 & E & _). exists x1. split; [exact E|]. intros s.
  destruct (d_all 20 d_F d_O x1 (or_intror eq_refl) E) as (RE & Rd & T & Nm & Eb & Ea & X & PL & Pos & HC & Af & Ao & So & _).
  split; [exact RE|]. split; [exact Rd|]. split; [exact Nm|]. split; [exact Eb|]. split; [exact Ea|].
  destruct (c85_brier _ _ _ _ _ _ _ _ _ _ _ _ _ s true (VInt 0) _ 1 None [0] [] [[0]; [1]] e_faithful RE Rd T Eb Ea X HC ltac:(discriminate)) as (v & Av & _ & Gv).
  destruct (c91_decomposition _ _ _ _ _ _ _ _ _ _ _ _ _ _ _ s true (VInt 0) _ 1 None [0] [] [[0]; [1]] (fun _ => 19) e_faithful RE Rd T Eb Ea X PL Pos HC ltac:(discriminate)) as (rel & reso & unc & Ad & _ & _ & _ & G1 & G2 & G3).
  { unfold given. cbn [ob s d_state]. rewrite Af. intros ix [<-|[<-|[]]]; (split; [lia|]); (split; [vm_compute; discriminate|right; reflexivity]). }
  exists v, rel, reso, unc. do 3 eexists. split; [exact Av|]. split; [exact Ad|]. split; [exact G1|]. split; [exact G2|]. split; [exact G3|].
  rewrite Gv. unfold given, happened, reads. cbn [ob s d_state]. rewrite Af, Ao. intros Z. apply Fin_inj in Z. revert Z.
  match goal with |- ?a = ?b -> False => assert (Va : a = Q2Qc (401 # 800)) by (apply Qc_is_canon; vm_compute; reflexivity); assert (Vb : b = Q2Qc (761 # 1600)) by (apply Qc_is_canon; vm_compute; reflexivity) end.
  rewrite Va, Vb. discriminate.
Qed.
Print Assumptions c91_sum_refuted.

Definition d_F4 : list num := map (fun z => Fin (qz z)) [1; 2; 3; -1; -1; -2; 3; 4]%Z.
Lemma d_cells4 : forall ix, Forall2 lt ix [2; 4] -> is_fin (get (d_f 4 d_F4) ix).
Proof.
  intros ix V. inversion V as [|i a r q H1 H2]; subst. inversion H2 as [|j a' r' q' H3 H4]; subst. inversion H4; subst.
  destruct i as [|[|i]]; [| |lia]; (destruct j as [|[|[|[|j]]]]; [..|lia]); eexists; reflexivity.
Qed.
(** four members: probabilities 3/4 and 1/2, outcomes 1 and 0; Brier score 5/32 = 5/32 - 1/4 + 1/4; one point for
    each of the two occupied bins; ranks 2 or 3 (a tie) and 3 *)
Example c91_nonvacuous : exists x1, d_made 4 (store d_F4) (store d_O) = Ok x1 /\ let s := d_state x1 in
  (exists v rel reso unc, d_answers s (MBrier (VInt 0) VNone) v /\ d_answers s (MDecomp (VInt 0) VNone) (VTuple [rel; reso; unc]) /\
     reads v [] = Fin (Q2Qc (5 # 32)) /\ reads rel [] = Fin (Q2Qc (5 # 32)) /\ reads reso [] = Fin (Q2Qc (1 # 4)) /\ reads unc [] = Fin (Q2Qc (1 # 4))) /\
  (exists fp op i w oc, d_answers s (MRel (VInt 4) (VInt 0) VNone) (VTuple [fp; op; VDict [("index", i); ("values", w)]; oc]) /\
     vector_is fp (map Fin [Q2Qc (1 # 2); Q2Qc (3 # 4)]) /\ vector_is op (map Fin [0%Qc; 1%Qc]) /\ vector_is i [Fin (qz 1); Fin (qz 2)] /\ vector_is w [nnat 1; nnat 1]) /\
  (exists r, d_answers s MRank r /\ (reads r [0] = nnat 2 \/ reads r [0] = nnat 3) /\ reads r [1] = nnat 3).
Proof.
  destruct (d_constructed 4 (store d_F4) (store d_O) (or_introl eq_refl)) as (x1 & E & _). exists x1. split; [exact E|]. intros s.
  destruct (d_all 4 d_F4 d_O x1 (or_introl eq_refl) E) as (RE & Rd & T & Nm & Eb & Ea & X & PL & Pos & HC & Af & Ao & So & W & C & Ee & Sf).
  split; [|split].
  - destruct (c85_brier _ _ _ _ _ _ _ _ _ _ _ _ _ s true (VInt 0) _ 1 None [0] [] [[0]; [1]] e_faithful RE Rd T Eb Ea X HC ltac:(discriminate)) as (v & Av & _ & Gv).
    destruct (c91_decomposition _ _ _ _ _ _ _ _ _ _ _ _ _ _ _ s true (VInt 0) _ 1 None [0] [] [[0]; [1]] (fun ix => if Nat.eqb (hd 0 ix) 0 then 15 else 10) e_faithful RE Rd T Eb Ea X PL Pos HC ltac:(discriminate)) as (rel & reso & unc & Ad & _ & _ & _ & G1 & G2 & G3).
    { unfold given. cbn [ob s d_state]. rewrite Af. intros ix [<-|[<-|[]]]; (split; [cbn; lia|]); (split; [vm_compute; discriminate|left; vm_compute; reflexivity]). }
    exists v, rel, reso, unc. split; [exact Av|]. split; [exact Ad|]. rewrite Gv, G1, G2, G3. unfold given, happened, reads. cbn [ob s d_state]. rewrite Af, Ao. repeat split; qnum.
  - set (bin := fun ix : list nat => if Nat.eqb (hd 0 ix) 0 then 2 else 1).
    destruct (c91_reliability _ _ _ _ _ _ _ _ _ _ _ _ _ _ _ s true (VInt 0) _ 1 4 None [0] bin e_faithful RE Rd T ltac:(lia) Eb Ea X I) as (fp & op & pc & oc & Ao' & G).
    { cbn [ob s d_state]. rewrite So. discriminate. }
    { unfold given. cbn [ob s d_state]. rewrite Af, So. intros ix V. inversion V as [|i a r q H1 H2]; subst. inversion H2; subst.
      destruct i as [|[|i]]; [| |lia]; (split; [cbn; lia|]); (split; [vm_compute; discriminate|vm_compute; reflexivity]). }
    destruct (G [] [[0]; [1]]) as (bs & Sd & Ib & F1 & F2 & F3 & F4).
    { cbn [ob s d_state]. rewrite So. constructor. } { exact HC. }
    assert (B : bs = [1; 2]).
    { assert (I1 : In 1 bs) by (apply Ib; exists [1]; split; [right; left; reflexivity|reflexivity]). assert (I2 : In 2 bs) by (apply Ib; exists [0]; split; [left; reflexivity|reflexivity]).
      assert (All : forall j, In j bs -> j = 1 \/ j = 2) by (intros j Hj; apply Ib in Hj as (ix & [<-|[<-|[]]] & <-); auto).
      clear - Sd I1 I2 All. destruct bs as [|a bs]; [destruct I1|]. inversion Sd as [|a' l' S1 F1]; subst. destruct (All a (or_introl eq_refl)) as [-> | ->].
      - destruct I2 as [I2|I2]; [discriminate|]. f_equal. destruct bs as [|c bs]; [destruct I2|]. inversion F1 as [|z1 z2 L1 L2]; subst. destruct (All c (or_intror (or_introl eq_refl))) as [-> | ->]; [lia|].
        inversion S1 as [|a' l' S2 F2]; subst. f_equal. destruct bs as [|d bs]; [reflexivity|]. inversion F2 as [|z1 z2 L3 L4]; subst. destruct (All d (or_intror (or_intror (or_introl eq_refl)))) as [-> | ->]; lia.
      - destruct I1 as [I1|I1]; [discriminate|]. rewrite Forall_forall in F1. specialize (F1 1 I1). lia. }
    subst bs. clear G F4. cbn [ob s d_state] in F1, F2, F3. rewrite So in F1, F2, F3. unfold given, happened in F1, F2. cbn [ob s d_state] in F1, F2. rewrite Af in F1.
    change (kept (Datatypes.length [2]) [0] [2]) with (@nil nat) in F1, F2, F3. cbn [map filter bin hd Nat.eqb counts_at] in F1, F2, F3. destruct F3 as (i & w & -> & Fi & Fw).
    exists fp, op, i, w, oc. split; [exact Ao'|].
    assert (Cv : forall v l, curve_at [] v [] l -> vector_is v l) by (intros v l [[V1 V2]|[Z _]]; [split; assumption|contradiction]). apply Cv in F1, F2.
    split; [|split; [|split; [exact Fi|exact Fw]]].
    + eassert (El : map Fin [Q2Qc (1 # 2); Q2Qc (3 # 4)] = _); [|rewrite El; exact F1]. cbn [map]. repeat f_equal; apply Qc_is_canon; vm_compute; reflexivity.
    + eassert (El : map Fin [0%Qc; 1%Qc] = _); [|rewrite El; exact F2]. cbn [map]. repeat f_equal; unfold reads; rewrite ?Ao; apply Qc_is_canon; vm_compute; reflexivity.
  - destruct (c91_ranks e_set (fun d i r j => d + i + r + j) (fun d i r j q => d + i + r + j + q) w_lib w_libr w_str w_dumps w_loads (fun s => s) w_resolve w_points false None [] (fun n => n) s 1) as (r & Ar & _ & G);
      cbn [ob s d_state]; try assumption.
    + left. reflexivity.
    + apply Rd.
    + rewrite So. discriminate.
    + left. reflexivity.
    + unfold reads. rewrite Af, Sf. apply d_cells4.
    + unfold reads. rewrite Ao, So. intros ix V. inversion V as [|i a r' q H1 H2]; subst. inversion H2; subst. destruct i as [|[|i]]; [| |lia]; eexists; reflexivity.
    + exists r. split; [exact Ar|]. cbn [ob s d_state] in G. rewrite So in G.
      destruct (G [0] ltac:(repeat constructor)) as (k0 & E0 & _ & R0 & _). destruct (G [1] ltac:(repeat constructor)) as (k1 & E1 & _ & R1 & _). rewrite E0, E1.
      unfold reads in R0, R1. rewrite Af, Ao in R0, R1. vm_compute in R0, R1. split; [assert (D0 : k0 = 2 \/ k0 = 3) by lia; destruct D0 as [-> | ->]; auto|f_equal; lia].
Qed.
