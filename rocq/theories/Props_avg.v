(** Properties C11-C16: averages, error metrics, bootstrap. *)
From Coq Require Import ZArith List Lia Bool Arith Permutation Sorted QArith Qcanon Reals Lra.
From Verif Require Import QcTac QSum Num NdArr Numpy M_common NdAxes M_boot RTier M_determ Spec P_boot P_boot2 P_bracket P_err.
Import ListNotations.
Open Scope Qc_scope.

(** Example data: shapes (2,3), values 0..5 and ones. *)
Definition ex_f : arr num := of_list NaN [2; 3]%nat (map nnat [0; 1; 2; 3; 4; 5]%nat).
Definition ex_o : arr num := of_list NaN [2; 3]%nat (map nnat [1; 1; 1; 1; 1; 1]%nat).
Definition ex_env : boot_env := {| skip_nan := false; repeats := 3; confidence := Q2Qc (95 # 100) |}.

(** ** C11 *)
(** For arrays of any rank, averaging succeeds exactly when every axis number is in range
    and no axis is named twice; the result has the kept shape; the entry at a kept index is the mean
    over exactly the cells that agree with it there (NaN when there is no cell). *)
Theorem c11_average_over_exact_axes : forall e rng ax (a : arr num),
  ((exists r, boot_or_avg e rng ax None a = Ok r) <-> exists ns, axes_are (length (shape a)) ax ns) /\
  forall r ns, boot_or_avg e rng ax None a = Ok r -> axes_are (length (shape a)) ax ns ->
    shape r = kept (length (shape a)) ns (shape a) /\
    forall k L, Cells (shape a) ns k L ->
      (L = [] -> get r k = NaN) /\
      (L <> [] -> (forall ix, In ix L -> is_fin (get a ix)) ->
        get r k = Fin (mean_of (map (fun ix => val (get a ix)) L))).
Proof.
  intros e rng ax a. split; [apply avg_accepts|]. intros r ns H Hax.
  destruct (avg_spec _ _ _ _ _ _ H Hax) as [Hs G]. split; [exact Hs|]. intros k L HL. split.
  - intros ->. rewrite (G k [] HL). destruct (skip_nan e); reflexivity.
  - intros Hne Hfin. eapply avg_fin; eassumption.
Qed.
Print Assumptions c11_average_over_exact_axes.
(** The same through the public calls: forecast minus observation, its square, its absolute value. *)
Theorem c11_error_metrics : forall e rng ax f o ns k L,
  axes_are (length (shape f)) ax ns -> Cells (shape f) ns k L -> L <> [] ->
  (forall ix, In ix L -> is_fin (get f ix) /\ is_fin (get o ix)) ->
  let d := fun ix => val (get f ix) - val (get o ix) in
  exists re rs ra,
    pub_error e rng ax None f o = Ok re /\ pub_sq_error e rng ax None f o = Ok rs /\ pub_ab_error e rng ax None f o = Ok ra /\
    get re k = Fin (mean_of (map d L)) /\
    get rs k = Fin (mean_of (map (fun ix => d ix * d ix) L)) /\
    get ra k = Fin (mean_of (map (fun ix => if qltb (d ix) 0 then - d ix else d ix) L)).
Proof.
  intros e rng ax f o ns k L Hax HL Hne Hfin d.
  assert (A : forall g, exists r, boot_or_avg e rng ax None (amap2 g f o) = Ok r).
  { intros g. apply avg_accepts. exists ns. exact Hax. }
  destruct (A nsub) as (re & Ee), (A (fun a b => nsq (nsub a b))) as (rs & Es), (A (fun a b => nabs (nsub a b))) as (ra & Ea).
  exists re, rs, ra. repeat (split; [assumption|]). split; [|split].
  - apply (pub_fin nsub (fun x y => x - y) e rng ax f o re ns k L); auto.
  - apply (pub_fin (fun a b => nsq (nsub a b)) (fun x y => (x - y) * (x - y)) e rng ax f o rs ns k L); auto.
  - apply (pub_fin (fun a b => nabs (nsub a b)) (fun x y => qabs (x - y)) e rng ax f o ra ns k L); auto.
Qed.
Print Assumptions c11_error_metrics.
(** averaging axis -1 of the (2,3) example: row means of f - o are 0 and 3 *)
Example c11_nonvacuous :
  axes_are 2 (Some [(-1)%Z]) [1%nat] /\ Cells [2; 3]%nat [1%nat] [1%nat] [[1; 0]; [1; 1]; [1; 2]]%nat /\
  exists r, pub_error ex_env (fun _ _ _ => O) (Some [(-1)%Z]) None ex_f ex_o = Ok r /\ shape r = [2%nat] /\
    get r [0%nat] = Fin (qz 0) /\ get r [1%nat] = Fin (qz 3).
Proof.
  split; [|split].
  - split; [constructor; [split; [lia|right; reflexivity]|constructor]|constructor; [intros []|constructor]].
  - change [[1; 0]; [1; 1]; [1; 2]]%nat with (group [2; 3]%nat (mask_of 2 [1%nat]) [1%nat]). apply group_Cells.
  - eexists. split; [vm_compute; reflexivity|]. vm_compute. repeat split; first [reflexivity | f_equal; apply Qc_is_canon; reflexivity].
Qed.

(** ** C12 *)
Theorem c12_missing_values : forall e rng ax (a r : arr num) ns k L,
  boot_or_avg e rng ax None a = Ok r -> axes_are (length (shape a)) ax ns -> Cells (shape a) ns k L ->
  (forall ix, In ix L -> get a ix = NaN \/ is_fin (get a ix)) ->
  (skip_nan e = true ->
     let L' := filter (fun ix => negb (is_nan (get a ix))) L in
     (L' = [] -> get r k = NaN) /\ (L' <> [] -> get r k = Fin (mean_of (map (fun ix => val (get a ix)) L')))) /\
  (skip_nan e = false -> (get r k = NaN <-> (L = [] \/ exists ix, In ix L /\ get a ix = NaN))).
Proof.
  intros e rng ax a r ns k L H Hax HL Hd. destruct (avg_spec _ _ _ _ _ _ H Hax) as [_ G]. rewrite (G k L HL). clear G H. split.
  - intros -> L'. unfold nanmean. rewrite filter_map. fold L'. split; [intros ->; reflexivity|]. intros Hne.
    rewrite (map_fin_ext (get a) (fun ix => val (get a ix)) L').
    + rewrite nmean_fin; [reflexivity|]. destruct L'; [contradiction|discriminate].
    + intros ix Hix. apply filter_In in Hix as [Hix Hn]. apply is_fin_val. destruct (Hd ix Hix) as [E|E]; [rewrite E in Hn; discriminate|exact E].
  - intros ->. split.
    + intros E. destruct L as [|x L]; [left; reflexivity|]. right.
      destruct (existsb (fun ix => is_nan (get a ix)) (x :: L)) eqn:Ex.
      * apply existsb_exists in Ex as (ix & Hix & Hn). exists ix. split; [exact Hix|]. destruct (get a ix); try discriminate. reflexivity.
      * exfalso. rewrite (map_fin_ext (get a) (fun ix => val (get a ix)) (x :: L)) in E.
        -- rewrite nmean_fin in E by discriminate. discriminate.
        -- intros ix Hix. apply is_fin_val. destruct (Hd ix Hix) as [E2|E2]; [|exact E2]. exfalso.
           assert (C : existsb (fun ix => is_nan (get a ix)) (x :: L) = true) by (apply existsb_exists; exists ix; rewrite E2; split; [exact Hix|reflexivity]).
           congruence.
    + intros [->|(ix & Hix & E)]; [reflexivity|]. apply nmean_nan. rewrite <- E. apply in_map, Hix.
Qed.
Print Assumptions c12_missing_values.
Example c12_nonvacuous :
  let a := of_list NaN [2; 2]%nat [Fin 1; NaN; Fin (qz 3); Fin (qz 5)] in
  (exists r, boot_or_avg {| skip_nan := true; repeats := 1; confidence := 1 |} (fun _ _ _ => O) (Some [1%Z]) None a = Ok r /\
     get r [0%nat] = Fin 1 /\ get r [1%nat] = Fin (qz 4)) /\
  (exists r, boot_or_avg {| skip_nan := false; repeats := 1; confidence := 1 |} (fun _ _ _ => O) (Some [1%Z]) None a = Ok r /\
     get r [0%nat] = NaN /\ get r [1%nat] = Fin (qz 4)).
Proof.
  split; eexists; (split; [vm_compute; reflexivity|]); vm_compute; repeat split; first [reflexivity | f_equal; apply Qc_is_canon; reflexivity].
Qed.

(** ** C13 *)
Theorem c13_error_relations : forall e rng ax f o ns k L,
  axes_are (length (shape f)) ax ns -> Cells (shape f) ns k L -> L <> [] ->
  (forall ix, In ix L -> is_fin (get f ix) /\ is_fin (get o ix)) ->
  exists re rs ra rr me ms ma,
    pub_error e rng ax None f o = Ok re /\ pub_sq_error e rng ax None f o = Ok rs /\ pub_ab_error e rng ax None f o = Ok ra /\
    pub_rmse e rng ax None f o = Ok rr /\
    get re k = Fin me /\ get rs k = Fin ms /\ get ra k = Fin ma /\ get rr k = RFin (sqrt (q2r ms)) /\
    (if qltb me 0 then - me else me) <= ma /\
    (q2r ma <= sqrt (q2r ms))%R /\ (0 <= sqrt (q2r ms))%R /\
    ms = me * me + mean_of (map (fun ix => (val (get f ix) - val (get o ix) - me) * (val (get f ix) - val (get o ix) - me)) L) /\
    (ms = 0 <-> forall ix, In ix L -> get f ix = get o ix) /\
    (ma = 0 <-> forall ix, In ix L -> get f ix = get o ix).
Proof.
  intros e rng ax f o ns k L Hax HL Hne Hfin.
  destruct (c11_error_metrics e rng ax f o ns k L Hax HL Hne Hfin) as (re & rs & ra & Ee & Es & Ea & Ge & Gs & Ga).
  pose (d := fun ix => val (get f ix) - val (get o ix)).
  destruct (error_relations d L Hne) as (R1 & R2 & R3 & R4 & R5 & R6).
  assert (Z : (forall ix, In ix L -> d ix = 0) <-> (forall ix, In ix L -> get f ix = get o ix)).
  { split; intros H ix Hix; destruct (Hfin ix Hix) as [F O].
    - rewrite (is_fin_val _ F), (is_fin_val _ O). f_equal. specialize (H ix Hix). unfold d in H. qlra.
    - unfold d. rewrite (H ix Hix). ring. }
  exists re, rs, ra, (amap nsqrt rs), (qmeanf d L), (qmeanf (fun x => d x * d x) L), (qmeanf (fun x => qabs (d x)) L).
  do 3 (split; [assumption|]). split; [unfold pub_rmse; rewrite Es; reflexivity|].
  do 3 (split; [assumption|]). split.
  { cbn [amap get]. rewrite Gs. unfold nsqrt. change (mean_of _) with (qmeanf (fun x => d x * d x) L).
    destruct (qltb_spec (qmeanf (fun x => d x * d x) L) 0) as [C|_]; [exfalso; qlra|reflexivity]. }
  split; [exact R1|]. split; [apply sqrt_ge_of_sq; [|exact R2]|].
  { apply qmeanf_nonneg; [exact Hne|]. intros; apply qabs_nonneg. }
  split; [apply sqrt_pos|]. split; [exact R4|]. rewrite R5, R6. split; exact Z.
Qed.
Print Assumptions c13_error_relations.
Example c13_nonvacuous : exists rs, pub_sq_error ex_env (fun _ _ _ => O) None None ex_f ex_o = Ok rs /\
  get rs [] = Fin (Q2Qc (31 # 6)).
Proof. eexists. split; [vm_compute; reflexivity|]. vm_compute. first [reflexivity | f_equal; apply Qc_is_canon; reflexivity]. Qed.

(** ** C14 *)
(** When the axis numbers are all non-negative or all negative (or None), the array of intervals has
    shape (3, kept shape) and the interval at a kept index comes from a population that consists of
    exactly the cells that plain averaging averages there.  Missing part: mixed signs, see c14_mixed_signs_refuted. *)
Theorem c14_bootstrap_groups_partial : forall e rng (a r : arr num) ax ns n,
  let nd := length (shape a) in
  axes_are nd ax ns ->
  match ax with None => True | Some l => Forall (fun z => 0 <= z)%Z l \/ Forall (fun z => z < 0)%Z l end ->
  prod (kept nd ns (shape a)) <> 0%nat ->
  boot_or_avg e rng ax (Some n) a = Ok r ->
  shape r = (3 :: kept nd ns (shape a))%nat /\
  forall k L, Forall2 lt k (kept nd ns (shape a)) -> Cells (shape a) ns k L ->
    exists rs stats,
      resamples_of (map (get a) L) n (repeats e) rs /\
      stats = map (fun s => if skip_nan e then nanmean s else nmean s) rs /\
      triple_of np_quantile ((1 - confidence e) / qz 2) (1 - (1 - confidence e) / qz 2) stats
        [get r (0 :: k)%nat; get r (1 :: k)%nat; get r (2 :: k)%nat].
Proof.
  intros e rng a r ax ns n nd Hax Hs HK H.
  destruct (boot_groups e rng a ax ns n r Hax Hs HK H) as [Hsh G]. split; [exact Hsh|].
  intros k L Hk HL. destruct (G k L Hk HL) as (pop & v & c & P & Ev & G0 & G1 & G2).
  destruct (boot_vec_resamples _ _ _ _ _ Ev) as (rs & [Hlen Hrs] & lo & hi & E1 & E2 & Ev2).
  exists rs, (map (stat_of e) rs). split; [|split].
  - split; [exact Hlen|]. intros s Hs'. destruct (Hrs s Hs') as [A B]. split; [exact A|].
    intros x Hx. eapply Permutation_in; [exact P|]. apply B, Hx.
  - reflexivity.
  - exists lo, hi. split; [exact E1|]. split; [exact E2|]. subst v. cbn [nth] in *. rewrite G0, G1, G2. reflexivity.
Qed.
Print Assumptions c14_bootstrap_groups_partial.
(** Conversely every resampling of the cells of a group can be drawn: no cell is left out. *)
Theorem c14_every_resample_possible : forall e (pop : list num) n rs,
  pop <> [] -> resamples_of pop n (repeats e) rs ->
  0 <= confidence e -> confidence e <= 1 -> (0 < repeats e)%nat ->
  exists rng v, boot_vec e rng pop n = Ok v /\
    triple_of np_quantile ((1 - confidence e) / qz 2) (1 - (1 - confidence e) / qz 2)
      (map (fun s => if skip_nan e then nanmean s else nmean s) rs) v.
Proof.
  intros e pop n rs Hp Hrs H0 H1 Hr. destruct (boot_means_complete e pop n rs Hrs Hp) as (rng & Hm).
  destruct (boot_vec_defined e rng pop n H0 H1 Hr Hp) as (v & Hv). exists rng, v. split; [exact Hv|].
  unfold boot_vec in Hv. rewrite Hm in Hv. cbn [bind] in Hv.
  destruct (np_quantile (map (stat_of e) rs) ((1 - confidence e) / qz 2)) as [lo|] eqn:El; [|discriminate]. cbn [bind] in Hv.
  destruct (np_quantile (map (stat_of e) rs) (1 - (1 - confidence e) / qz 2)) as [hi|] eqn:Eh; [|discriminate]. cbn [bind] in Hv.
  injection Hv as <-. exists lo, hi. repeat split; assumption.
Qed.
Print Assumptions c14_every_resample_possible.
Example c14_nonvacuous : exists r, boot_or_avg ex_env (fun c r j => (c + r + j)%nat) (Some [(-2)%Z]) (Some 2%nat) ex_f = Ok r /\
  shape r = [3; 3]%nat /\ get r [1; 0]%nat = Fin (Q2Qc (3 # 2)).
Proof. eexists. split; [vm_compute; reflexivity|]. split; [reflexivity|]. vm_compute. first [reflexivity | f_equal; apply Qc_is_canon; reflexivity]. Qed.

(** Mixed signs, axes (1, -1) of a (2,2,2) array whose value is its first coordinate: averaging over
    axes 1 and 2 gives 0 at kept index 0, but the bootstrap resamples axes 2 and 0 there and returns 1. *)
Definition mixed_a : arr num := Arr [2; 2; 2]%nat (fun ix => nnat (nth 0 ix 0%nat)).
Theorem c14_mixed_signs_refuted :
  let ax := Some [1; -1]%Z in
  axes_are 3 ax [1; 2]%nat /\
  (exists ra, boot_or_avg ex_env (fun _ _ _ => 1%nat) ax None mixed_a = Ok ra /\ get ra [0%nat] = Fin 0) /\
  (forall L ix, Cells [2; 2; 2]%nat [1; 2]%nat [0%nat] L -> In ix L -> get mixed_a ix = Fin 0) /\
  (exists rb, boot_or_avg ex_env (fun _ _ _ => 1%nat) ax (Some 1%nat) mixed_a = Ok rb /\ get rb [1; 0]%nat = Fin 1).
Proof.
  split; [|split; [|split]].
  - split; [constructor; [split; [lia|left; reflexivity]|constructor; [split; [lia|right; reflexivity]|constructor]]|].
    constructor; [intros [C|[]]; discriminate|constructor; [intros []|constructor]].
  - eexists. split; [vm_compute; reflexivity|]. vm_compute. first [reflexivity | f_equal; apply Qc_is_canon; reflexivity].
  - intros L ix [_ HL] Hix. apply HL in Hix as [_ Hk]. cbn in Hk. injection Hk as Hk. cbn [mixed_a get].
    destruct ix as [|i ix]; [reflexivity|]. cbn in Hk. subst i. reflexivity.
  - eexists. split; [vm_compute; reflexivity|]. vm_compute. first [reflexivity | f_equal; apply Qc_is_canon; reflexivity].
Qed.
Print Assumptions c14_mixed_signs_refuted.

(** ** C15 *)
(** Missing part: mixed-sign axis lists, for which the claim is false (c14_mixed_signs_refuted shows a
    bootstrap mean of 1 for a group of zeros). *)
Theorem c15_bootstrap_within_data_partial : forall e rng ax (a : arr num) ns n k L lo_v hi_v,
  let nd := length (shape a) in
  axes_are nd ax ns ->
  match ax with None => True | Some l => Forall (fun z => 0 <= z)%Z l \/ Forall (fun z => z < 0)%Z l end ->
  (forall x, In x (shape a) -> 0 < x)%nat ->
  0 <= confidence e -> confidence e <= 1 -> (0 < repeats e)%nat -> (0 < n)%nat ->
  Forall2 lt k (kept nd ns (shape a)) -> Cells (shape a) ns k L ->
  (forall ix, In ix L -> is_fin (get a ix) /\ lo_v <= val (get a ix) /\ val (get a ix) <= hi_v) ->
  exists r lo m hi,
    boot_or_avg e rng ax (Some n) a = Ok r /\
    get r (0 :: k)%nat = Fin lo /\ get r (1 :: k)%nat = Fin m /\ get r (2 :: k)%nat = Fin hi /\
    lo_v <= lo /\ lo <= hi /\ hi <= hi_v /\ lo_v <= m /\ m <= hi_v /\
    (lo_v = hi_v -> lo = lo_v /\ m = lo_v /\ hi = lo_v).
Proof.
  intros e rng ax a ns n k L lo_v hi_v nd Hax Hs Hpos H0 H1 Hr Hn Hk HL Hb.
  destruct (boot_accepts e rng a ax ns n Hax Hs Hpos H0 H1 Hr) as (r & Er).
  assert (HK : prod (kept nd ns (shape a)) <> 0%nat).
  { assert (P : (0 < prod (kept nd ns (shape a)))%nat) by (eapply valid_prod_pos; exact Hk). lia. }
  destruct (boot_groups e rng a ax ns n r Hax Hs HK Er) as [_ G].
  destruct (G k L Hk HL) as (pop & v & c & P & Ev & G0 & G1 & G2).
  destruct (boot_vec_bounds e (rng c) pop n v lo_v hi_v H0 H1 Hn Hr) as (lo & m & hi & -> & B1 & B2 & B3 & B4 & B5); [|exact Ev|].
  { intros x Hx. apply (Permutation_in _ P) in Hx. apply in_map_iff in Hx as (ix & <- & Hix).
    destruct (Hb ix Hix) as [F B]. exists (val (get a ix)). split; [apply is_fin_val, F|exact B]. }
  exists r, lo, m, hi. cbn [nth] in *. repeat (split; [assumption|]). intros E. subst hi_v. repeat split; qlra.
Qed.
Print Assumptions c15_bootstrap_within_data_partial.
(** With missing values, every returned number is NaN or within the range of the non-missing ones. *)
Theorem c15_mixed_signs_refuted : ~ (forall e rng ax (a : arr num) ns n k L lo_v hi_v,
  let nd := length (shape a) in
  axes_are nd ax ns ->
  (forall x, In x (shape a) -> 0 < x)%nat ->
  0 <= confidence e -> confidence e <= 1 -> (0 < repeats e)%nat -> (0 < n)%nat ->
  Forall2 lt k (kept nd ns (shape a)) -> Cells (shape a) ns k L ->
  (forall ix, In ix L -> is_fin (get a ix) /\ lo_v <= val (get a ix) /\ val (get a ix) <= hi_v) ->
  exists r m, boot_or_avg e rng ax (Some n) a = Ok r /\ get r (1 :: k)%nat = Fin m /\ lo_v <= m /\ m <= hi_v).
Proof.
  intros H. destruct c14_mixed_signs_refuted as (A & _ & Z & rb & E & V).
  destruct (H ex_env (fun _ _ _ => 1%nat) (Some [1; -1]%Z) mixed_a [1; 2]%nat 1%nat [0%nat] (group (shape mixed_a) (mask_of 3 [1; 2]%nat) [0%nat]) 0 0) as (r & m & E' & V' & _ & U).
  - exact A.
  - intros x [<-|[<-|[<-|[]]]]; lia.
  - discriminate.
  - discriminate.
  - cbn; lia.
  - lia.
  - repeat constructor.
  - apply (group_Cells (shape mixed_a) [1; 2]%nat [0%nat]).
  - intros ix Hi. rewrite (Z _ _ (group_Cells (shape mixed_a) [1; 2]%nat [0%nat]) Hi). split; [exists 0; reflexivity|split; apply Qcle_refl].
  - rewrite E in E'. injection E' as <-. rewrite V in V'. injection V' as <-. apply U. reflexivity.
Qed.
Print Assumptions c15_mixed_signs_refuted.
Theorem c15_bootstrap_with_nan : forall e rng pop n v lo_v hi_v,
  (forall x, In x pop -> x = NaN \/ (is_fin x /\ lo_v <= val x /\ val x <= hi_v)) ->
  boot_vec e rng pop n = Ok v ->
  length v = 3%nat /\ forall x, In x v -> x = NaN \/ (is_fin x /\ lo_v <= val x /\ val x <= hi_v).
Proof.
  intros e rng pop n v a b Hp Hv.
  destruct (boot_vec_within e rng pop n v a b) as (lo & m & hi & -> & W1 & W2 & W3); [|exact Hv|].
  - intros x Hx. destruct (Hp x Hx) as [->|[F B]]; [left; reflexivity|right]. exists (val x). split; [apply is_fin_val, F|exact B].
  - split; [reflexivity|]. intros x Hx. assert (W : within a b x) by (destruct Hx as [<-|[<-|[<-|[]]]]; assumption).
    destruct W as [->|(q & -> & B)]; [left; reflexivity|right]. split; [exists q; reflexivity|exact B].
Qed.
Print Assumptions c15_bootstrap_with_nan.
Example c15_nonvacuous : exists r, boot_or_avg ex_env (fun c r j => (c + r * r + j)%nat) (Some [0%Z]) (Some 3%nat) ex_f = Ok r /\
  get r [0; 0]%nat = Fin 1 /\ get r [2; 0]%nat = Fin (Q2Qc (39 # 20)).
Proof. eexists. split; [vm_compute; reflexivity|]. split; vm_compute; first [reflexivity | f_equal; apply Qc_is_canon; reflexivity]. Qed.

(** ** C16: the mean can lie outside the interval: 50 resamples of one value out of {0,1}, one of them 1. *)
Theorem c16_refuted : exists e rng pop n lo m hi,
  confidence e = Q2Qc (95 # 100) /\ (0 < n)%nat /\
  boot_vec e rng pop n = Ok [Fin lo; Fin m; Fin hi] /\ hi < m.
Proof.
  exists {| skip_nan := false; repeats := 50; confidence := Q2Qc (95 # 100) |}, (fun r _ => match r with O => 1%nat | _ => 0%nat end),
    [Fin 0; Fin 1], 1%nat, 0, (Q2Qc (1 # 50)), 0.
  split; [reflexivity|]. split; [lia|]. split.
  - vm_compute. repeat first [reflexivity | f_equal; apply Qc_is_canon; reflexivity].
  - reflexivity.
Qed.
Print Assumptions c16_refuted.
(** Exactly when it cannot happen: the mean of the resample means lies between the bounds for all data and all draws
    if and only if repeats * (1 - confidence) is at most 2 (with the default 1000 repeats and 0.95 it is 50).
    Missing part: the settings on the other side, where the claim is false. *)
Theorem c16_bracket_partial : forall e, 0 <= confidence e -> confidence e <= 1 ->
  ((forall rng pop n lo m hi, boot_vec e rng pop n = Ok [Fin lo; Fin m; Fin hi] -> lo <= m /\ m <= hi) <->
   qn (repeats e) * (1 - confidence e) <= qz 2).
Proof.
  intros e H0 H1. split.
  - intros B. apply Qcnot_lt_le. intros C. destruct (boot_not_brackets e H0 H1 C) as (lo & m & hi & E & L).
    destruct (B _ _ _ _ _ _ E) as [_ L2]. exact (Qclt_not_le _ _ L L2).
  - intros C. exact (boot_brackets e H0 H1 C).
Qed.
Print Assumptions c16_bracket_partial.
Example c16_nonvacuous : let e := {| skip_nan := false; repeats := 3; confidence := Q2Qc (1 # 2) |} in
  qn (repeats e) * (1 - confidence e) <= qz 2 /\
  boot_vec e (fun r j => (r * r + j)%nat) [Fin 0; Fin 1; Fin (qz 5)] 2 = Ok [Fin (Q2Qc (7 # 4)); Fin (Q2Qc (13 # 6)); Fin (qz 3)].
Proof. split; [discriminate|]. vm_compute. repeat first [reflexivity | apply Qc_is_canon; reflexivity | f_equal]. Qed.
