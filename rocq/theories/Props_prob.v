(** Properties C22, C23, C25, C26: probabilities of an ensemble and the Brier score. *)
From Coq Require Import ZArith List Lia Bool Arith Permutation QArith Qcanon.
From Verif Require Import QcTac QSum Num NdArr Numpy M_common NdAxes M_boot Spec M_ens NdMove P_boot P_boot2 P_rank P_prob P_range.
Import ListNotations.
Open Scope nat_scope.

(** Example data: two cells, four members on the last axis / on the first axis. *)
Definition pr_f : arr num := of_list NaN [2; 4] (map nnat [1; 2; 3; 4; 5; 5; 7; 9]).
Definition pr_g : arr num := of_list NaN [4; 2] (map nnat [1; 5; 2; 5; 3; 7; 4; 9]).
Definition pr_o : arr num := of_list NaN [2] (map nnat [2; 6]).

(** In the statements [thr_at b ix] is the threshold that applies to cell [ix] (the scalar, or the
    array entry) and [thr_fits b sh] says that an array threshold has shape [sh]. *)

(** ** C22 *)
Theorem c22_fraction : forall w f z n b,
  axis_is (length (shape f)) z n -> thr_fits b (drop_axis n (shape f)) -> 0 < nth n (shape f) 0 ->
  w = 1 \/ (1 < w /\ 0 < prod (drop_axis n (shape f))) ->
  exists lo hi, ens_cdf Moments w f z None (Some b) = Ok lo /\ ens_cdf Moments w f z (Some b) None = Ok hi /\
    shape lo = drop_axis n (shape f) /\ shape hi = drop_axis n (shape f) /\
    forall ix, Forall2 lt ix (drop_axis n (shape f)) ->
      let ms := members_at n f ix in let t := thr_at b ix in
      exists p q, get lo ix = Fin p /\ get hi ix = Fin q /\
        (p = qn (how_many (fun m => nle m t) ms) / qn (length ms) /\
         (* a NaN member (or threshold) counts as lying above *)
         q = qn (how_many (fun m => negb (nle m t)) ms) / qn (length ms) /\
         ((forall m, In m (t :: ms) -> m <> NaN) -> q = qn (how_many (fun m => nlt t m) ms) / qn (length ms)) /\
         0 <= p /\ p <= 1 /\ 0 <= q /\ q <= 1 /\ p + q = 1)%Qc.
Proof.
  intros w f z n b Hz Hb HM Hw.
  destruct (ens_cdf_below w f z n b Hz Hb HM Hw) as (lo & Elo & Slo & Glo).
  destruct (ens_cdf_over w f z n b Hz Hb HM Hw) as (hi & Ehi & Shi & Ghi).
  exists lo, hi. split; [exact Elo|]. split; [exact Ehi|]. split; [exact Slo|]. split; [exact Shi|].
  intros ix Hv ms t. pose proof (members_at_nonempty n f ix HM) as Hne. fold ms in Hne.
  exists (frac_le t ms), (1 - frac_le t ms)%Qc. split; [apply Glo, Hv|]. split; [apply Ghi, Hv|].
  pose proof (frac_bounds t ms Hne) as [B0 B1]. pose proof (frac_compl t ms Hne) as C.
  split; [reflexivity|]. split; [exact C|]. split.
  - intros Hnan. rewrite C. f_equal. f_equal. apply count_ext. intros m Hm.
    pose proof (Hnan t (or_introl eq_refl)) as Ht. specialize (Hnan m (or_intror Hm)).
    destruct m as [x| | |], t as [y| | |]; try contradiction; cbn [nle nlt negb]; try reflexivity.
  - repeat split; try assumption; qlra.
Qed.
Print Assumptions c22_fraction.
(** the library function and the method of the class agree for every method, threshold and number of workers, so the
    statements of C22 hold of ens_to_prob itself, with [over] as well as with [below] *)
Theorem c22_function : forall m w f z over below, ens_to_prob m w f z over below = ens_cdf m w f z over below.
Proof.
  intros m w f z over below. unfold ens_cdf, one_threshold. destruct over as [a|], below as [b|]; reflexivity.
Qed.
Print Assumptions c22_function.
Example c22_function_nonvacuous : rmap ravel (ens_to_prob Moments 1 pr_f (-1) (Some (TScalar (nnat 3))) None) = Ok (map Fin [Q2Qc (1 # 4); 1%Qc]).
Proof. vm_compute. repeat first [reflexivity | apply Qc_is_canon; reflexivity | f_equal]. Qed.
Theorem c22_monotone : forall w f z n b1 b2 r1 r2 s1 s2 ix,
  axis_is (length (shape f)) z n -> thr_fits b1 (drop_axis n (shape f)) -> thr_fits b2 (drop_axis n (shape f)) ->
  0 < nth n (shape f) 0 -> w = 1 \/ (1 < w /\ 0 < prod (drop_axis n (shape f))) ->
  ens_cdf Moments w f z None (Some b1) = Ok r1 -> ens_cdf Moments w f z None (Some b2) = Ok r2 ->
  ens_cdf Moments w f z (Some b1) None = Ok s1 -> ens_cdf Moments w f z (Some b2) None = Ok s2 ->
  Forall2 lt ix (drop_axis n (shape f)) -> nle (thr_at b1 ix) (thr_at b2 ix) = true ->
  nle (get r1 ix) (get r2 ix) = true /\ nle (get s2 ix) (get s1 ix) = true.
Proof.
  intros w f z n b1 b2 r1 r2 s1 s2 ix Hz H1 H2 HM Hw E1 E2 F1 F2 Hv Ht.
  destruct (ens_cdf_below w f z n b1 Hz H1 HM Hw) as (x & Ex & _ & Gx). rewrite E1 in Ex. injection Ex as <-.
  destruct (ens_cdf_below w f z n b2 Hz H2 HM Hw) as (x & Ex & _ & Gy). rewrite E2 in Ex. injection Ex as <-.
  destruct (ens_cdf_over w f z n b1 Hz H1 HM Hw) as (x & Ex & _ & Hx). rewrite F1 in Ex. injection Ex as <-.
  destruct (ens_cdf_over w f z n b2 Hz H2 HM Hw) as (x & Ex & _ & Hy). rewrite F2 in Ex. injection Ex as <-.
  rewrite Gx, Gy, Hx, Hy by exact Hv. cbn [nle].
  pose proof (frac_mono _ _ _ (members_at_nonempty n f ix HM) Ht) as M.
  split; apply qleb_le; [exact M|qlra].
Qed.
Print Assumptions c22_monotone.
Theorem c22_extremes : forall w f z n b r ix,
  axis_is (length (shape f)) z n -> thr_fits b (drop_axis n (shape f)) ->
  0 < nth n (shape f) 0 -> w = 1 \/ (1 < w /\ 0 < prod (drop_axis n (shape f))) ->
  ens_cdf Moments w f z None (Some b) = Ok r -> Forall2 lt ix (drop_axis n (shape f)) ->
  ((forall m, In m (members_at n f ix) -> nlt (thr_at b ix) m = true) -> get r ix = Fin 0%Qc) /\
  ((forall m, In m (members_at n f ix) -> nle m (thr_at b ix) = true) -> get r ix = Fin 1%Qc).
Proof.
  intros w f z n b r ix Hz Hb HM Hw E Hv.
  destruct (ens_cdf_below w f z n b Hz Hb HM Hw) as (x & Ex & _ & G). rewrite E in Ex. injection Ex as <-.
  rewrite G by exact Hv. split; intros H; f_equal; [apply frac_zero, H|apply frac_one; [apply members_at_nonempty, HM|exact H]].
Qed.
Print Assumptions c22_extremes.
(** Two ensembles with the same members per cell, in any order, and the member axis at any place. *)
Theorem c22_reorder : forall w f z n f' z' n' b over r r',
  axis_is (length (shape f)) z n -> axis_is (length (shape f')) z' n' ->
  drop_axis n (shape f) = drop_axis n' (shape f') -> thr_fits b (drop_axis n (shape f)) ->
  0 < nth n (shape f) 0 -> 0 < nth n' (shape f') 0 -> w = 1 \/ (1 < w /\ 0 < prod (drop_axis n (shape f))) ->
  (forall ix, Forall2 lt ix (drop_axis n (shape f)) -> Permutation (members_at n f ix) (members_at n' f' ix)) ->
  let ov := if over : bool then Some b else None in let be := if over then None else Some b in
  ens_cdf Moments w f z ov be = Ok r -> ens_cdf Moments w f' z' ov be = Ok r' ->
  shape r = shape r' /\ forall ix, Forall2 lt ix (shape r) -> get r ix = get r' ix.
Proof.
  intros w f z n f' z' n' b over r r' Hz Hz' Hd Hb HM HM' Hw Hp ov be E E'.
  assert (Hb' := Hb). assert (Hw' := Hw). rewrite Hd in Hb', Hw'. destruct over; subst ov be; cbn iota in E, E'.
  - destruct (ens_cdf_over w f z n b Hz Hb HM Hw) as (x & Ex & S1 & G1). rewrite E in Ex. injection Ex as <-.
    destruct (ens_cdf_over w f' z' n' b Hz' Hb' HM' Hw') as (x & Ex & S2 & G2). rewrite E' in Ex. injection Ex as <-.
    split; [congruence|]. intros ix Hv. rewrite S1 in Hv. rewrite G1 by exact Hv. rewrite (frac_perm _ _ _ (Hp ix Hv)). symmetry. apply G2. rewrite <- Hd. exact Hv.
  - destruct (ens_cdf_below w f z n b Hz Hb HM Hw) as (x & Ex & S1 & G1). rewrite E in Ex. injection Ex as <-.
    destruct (ens_cdf_below w f' z' n' b Hz' Hb' HM' Hw') as (x & Ex & S2 & G2). rewrite E' in Ex. injection Ex as <-.
    split; [congruence|]. intros ix Hv. rewrite S1 in Hv. rewrite G1 by exact Hv. rewrite (frac_perm _ _ _ (Hp ix Hv)). symmetry. apply G2. rewrite <- Hd. exact Hv.
Qed.
Print Assumptions c22_reorder.
Theorem c22_scalar_is_constant_array : forall w f z n x a over r r',
  axis_is (length (shape f)) z n -> 0 < nth n (shape f) 0 -> w = 1 \/ (1 < w /\ 0 < prod (drop_axis n (shape f))) ->
  shape a = drop_axis n (shape f) -> (forall ix, Forall2 lt ix (shape a) -> get a ix = x) ->
  let args t := if over : bool then (Some t, None) else (None, Some t) in
  ens_cdf Moments w f z (fst (args (TScalar x))) (snd (args (TScalar x))) = Ok r ->
  ens_cdf Moments w f z (fst (args (TArray a))) (snd (args (TArray a))) = Ok r' ->
  shape r = shape r' /\ forall ix, Forall2 lt ix (shape r) -> get r ix = get r' ix.
Proof.
  intros w f z n x a over r r' Hz HM Hw Ha Hc args E E'.
  assert (H1 : thr_fits (TScalar x) (drop_axis n (shape f))) by exact I.
  assert (H2 : thr_fits (TArray a) (drop_axis n (shape f))) by exact Ha.
  destruct over; cbn [args fst snd] in E, E'.
  - destruct (ens_cdf_over w f z n _ Hz H1 HM Hw) as (y & Ex & S1 & G1). rewrite E in Ex. injection Ex as <-.
    destruct (ens_cdf_over w f z n _ Hz H2 HM Hw) as (y & Ex & S2 & G2). rewrite E' in Ex. injection Ex as <-.
    split; [congruence|]. intros ix Hv. rewrite S1 in Hv. rewrite G1, G2 by exact Hv. cbn [thr_at]. rewrite Hc by (rewrite Ha; exact Hv). reflexivity.
  - destruct (ens_cdf_below w f z n _ Hz H1 HM Hw) as (y & Ex & S1 & G1). rewrite E in Ex. injection Ex as <-.
    destruct (ens_cdf_below w f z n _ Hz H2 HM Hw) as (y & Ex & S2 & G2). rewrite E' in Ex. injection Ex as <-.
    split; [congruence|]. intros ix Hv. rewrite S1 in Hv. rewrite G1, G2 by exact Hv. cbn [thr_at]. rewrite Hc by (rewrite Ha; exact Hv). reflexivity.
Qed.
Print Assumptions c22_scalar_is_constant_array.
(** an array threshold of another shape, or a list, is rejected *)
Theorem c22_bad_threshold_rejected : forall m w f z n b over,
  axis_is (length (shape f)) z n -> ~ thr_fits b (drop_axis n (shape f)) ->
  let ov := if over : bool then Some b else None in let be := if over then None else Some b in
  ens_cdf m w f z ov be = Raise AssertionError.
Proof.
  intros m w f z n b over [Hn Hz] Hb.
  assert (P : prob_stack f z b = Raise AssertionError).
  { unfold prob_stack. rewrite (norm_axis_fun _ _ _ Hn Hz). rewrite <- drop_axis_remove. destruct b as [x|a|]; cbn [thr_fits] in Hb; [tauto| |reflexivity].
    destruct (list_eqb (shape a) (drop_axis n (shape f))) eqn:E; [|reflexivity].
    exfalso. apply Hb. apply list_eqb_spec, E. }
  destruct over; cbn; unfold ens_cdf, ens_to_prob, one_threshold; cbn [is_some negb xorb passert bind]; rewrite P; reflexivity.
Qed.
Print Assumptions c22_bad_threshold_rejected.
Example c22_nonvacuous :
  axis_is 2 (-1) 1 /\ axis_is 2 0 0 /\ drop_axis 1 [2; 4] = [2] /\ drop_axis 0 [4; 2] = [2] /\
  members_at 1 pr_f [0] = map nnat [1; 2; 3; 4] /\ members_at 0 pr_g [0] = map nnat [1; 2; 3; 4] /\
  rmap ravel (ens_cdf Moments 3 pr_f (-1) None (Some (TScalar (nnat 3)))) = Ok [Fin (Q2Qc (3 # 4)); Fin 0%Qc] /\
  rmap ravel (ens_cdf Moments 1 pr_g 0 (Some (TArray (of_list NaN [2] (map nnat [3; 5])))) None) = Ok [Fin (Q2Qc (1 # 4)); Fin (Q2Qc (1 # 2))].
Proof.
  split; [split; [lia|right; reflexivity]|]. split; [split; [lia|left; reflexivity]|].
  repeat split; qcomp.
Qed.

(** ** C23 *)
(** Same array, or same exception, for every method (member fractions, or any kernel density estimator),
    every number of workers, every threshold argument. *)
Theorem c23_parallel_equals_serial : forall m w f z n over below,
  axis_is (length (shape f)) z n -> 0 < prod (drop_axis n (shape f)) -> 1 < w ->
  match ens_to_prob m w f z over below, ens_to_prob m 1 f z over below with
  | Ok a, Ok b => shape a = shape b /\ forall ix, Forall2 lt ix (shape a) -> get a ix = get b ix
  | Raise e1, Raise e2 => e1 = e2
  | _, _ => False
  end.
Proof.
  intros m w f z n over below Hz Hp Hw.
  assert (R : forall b, match (c <- prob_stack f z b ;; prob_of_stack m w c), (c <- prob_stack f z b ;; prob_of_stack m 1 c) with
     | Ok a, Ok b => arr_eq a b | Raise e1, Raise e2 => e1 = e2 | _, _ => False end).
  { intros b. destruct (prob_stack f z b) as [c|] eqn:Ec; cbn [bind]; [|reflexivity].
    assert (Hb : thr_fits b (drop_axis n (shape f))).
    { unfold prob_stack in Ec. destruct Hz as [Hn Hz]. rewrite (norm_axis_fun _ _ _ Hn Hz) in Ec. rewrite <- drop_axis_remove in Ec.
      destruct b as [x|a|]; cbn in Ec |- *; [exact I| |discriminate].
      destruct (list_eqb (shape a) (drop_axis n (shape f))) eqn:E; [apply list_eqb_spec, E|discriminate]. }
    destruct (prob_stack_spec f z n b Hz Hb) as (c' & Ec' & Hs & _). rewrite Ec in Ec'. injection Ec' as <-.
    apply par_serial; [rewrite Hs; discriminate|exact Hw|rewrite Hs; exact Hp]. }
  unfold ens_to_prob. destruct (one_threshold over below); cbn [bind]; [|reflexivity].
  destruct below as [b|]; [apply R|]. destruct over as [b|]; [|reflexivity]. specialize (R b).
  destruct (c <- prob_stack f z b ;; prob_of_stack m w c) as [x|], (c <- prob_stack f z b ;; prob_of_stack m 1 c) as [y|]; cbn [rmap]; try contradiction; [|exact R].
  destruct R as [S G]. split; [exact S|]. intros ix Hv. cbn [amap get]. f_equal. apply G, Hv.
Qed.
Print Assumptions c23_parallel_equals_serial.
Example c23_nonvacuous : axis_is 2 (-1) 1 /\ 0 < prod (drop_axis 1 (shape pr_f)) /\
  rmap ravel (ens_to_prob (Kde (fun col => Ok (nth 2 col NaN))) 5 pr_f (-1) None (Some (TScalar (nnat 3)))) = Ok (map nnat [2; 5]).
Proof. split; [split; [lia|right; reflexivity]|]. split; [cbn; lia|]. vm_compute. reflexivity. Qed.
(** without any cell the parallel run fails where the serial one returns the empty array *)
Example c23_no_cells : let f := of_list NaN [0; 4] [] in
  (exists a, ens_to_prob Moments 1 f (-1) None (Some (TScalar (nnat 3))) = Ok a) /\
  ens_to_prob Moments 5 f (-1) None (Some (TScalar (nnat 3))) = Raise ZeroDivisionError.
Proof. split; [eexists; reflexivity|reflexivity]. Qed.

(** ** C25 *)
(** As stated the claim is false for below-thresholds: the forecast event is [x <= t], the observed
    event [x < t].  One cell, two members, everything equal to the threshold: Brier score 1. *)
Theorem c25_event_refuted : forall q w, w = 1 \/ 1 < w ->
  let f := Arr [1; 2] (fun _ => Fin q) in let o := Arr [1] (fun _ => Fin q) in let t := Some (TScalar (Fin q)) in
  exists r, cell_brier (ens_cdf Moments w f (-1) None t) o None t = Ok r /\ shape r = [1] /\ get r [0] = Fin 1%Qc.
Proof.
  intros q w Hw f o t.
  assert (Hz : axis_is (length (shape f)) (-1) 1) by (split; [cbn; lia|right; reflexivity]).
  destruct (ens_cdf_below w f (-1) 1 (TScalar (Fin q)) Hz I) as (p & Ep & Sp & Gp); [cbn; lia|destruct Hw; [left|right; split; [|cbn; lia]]; assumption|].
  unfold t. rewrite Ep. unfold cell_brier. cbn [bind binarize_obs one_threshold is_some negb xorb passert].
  eexists. split; [reflexivity|]. split; [exact Sp|]. cbn [amap2 amap get].
  rewrite Gp by (repeat constructor). cbn [thr_at]. rewrite frac_one.
  - cbn [o nlt get]. replace (qltb q q) with false; [|symmetry; destruct (qltb q q) eqn:E; [apply qltb_lt in E; qlra|reflexivity]].
    qcomp.
  - discriminate.
  - intros m [<-|[<-|[]]]; cbn; apply qleb_le; qlra.
Qed.
Print Assumptions c25_event_refuted.
(** What holds: over-thresholds always, below-thresholds that differ from the observation. *)
Theorem c25_event_partial : forall w f o z n b (over : bool) r,
  axis_is (length (shape f)) z n -> drop_axis n (shape f) = shape o -> thr_fits b (shape o) ->
  0 < nth n (shape f) 0 -> w = 1 \/ (1 < w /\ 0 < prod (shape o)) ->
  let ov := if over then Some b else None in let be := if over then None else Some b in
  cell_brier (ens_cdf Moments w f z ov be) o ov be = Ok r ->
  forall ix, Forall2 lt ix (shape o) -> get o ix <> NaN -> thr_at b ix <> NaN ->
    (forall m, In m (members_at n f ix) -> m = get o ix) ->
    over = true \/ get o ix <> thr_at b ix ->
    get r ix = Fin 0%Qc.
Proof.
  intros w f o z n b over r Hz Hd Hb HM Hw ov be E ix Hv Hon Htn Hall Hov. rewrite <- Hd in Hb, Hw, Hv.
  destruct (brier_cells _ _ _ _ _ E) as (pa & ob & Ep & Eb & _ & G). rewrite G.
  pose proof (members_at_nonempty n f ix HM) as Hne. set (ms := members_at n f ix) in *. set (t := thr_at b ix) in *.
  assert (Hob : get ob ix = if over then nlt t (get o ix) else nlt (get o ix) t).
  { subst ov be. unfold binarize_obs, one_threshold in Eb.
    destruct over; cbn [is_some negb xorb passert bind] in Eb; destruct b as [x|a|]; try discriminate; try (injection Eb as <-; reflexivity);
      destruct (list_eqb (shape a) (shape o)); try discriminate; injection Eb as <-; reflexivity. }
  assert (F : frac_le t ms = if nle (get o ix) t then 1%Qc else 0%Qc).
  { destruct (nle (get o ix) t) eqn:El.
    - apply frac_one; [exact Hne|]. intros m Hm. rewrite (Hall m Hm). exact El.
    - unfold frac_le. replace (how_many (fun m => nle m t) ms) with 0; [unfold Qcdiv; apply Qcmult_0_l|].
      symmetry. apply count_none. intros m Hm. rewrite (Hall m Hm). exact El. }
  assert (Gp : get pa ix = Fin (if over then 1 - frac_le t ms else frac_le t ms)%Qc).
  { subst ov be. destruct over.
    - destruct (ens_cdf_over w f z n b Hz Hb HM Hw) as (x & Ex & _ & Gx). rewrite Ep in Ex. injection Ex as <-. apply Gx, Hv.
    - destruct (ens_cdf_below w f z n b Hz Hb HM Hw) as (x & Ex & _ & Gx). rewrite Ep in Ex. injection Ex as <-. apply Gx, Hv. }
  rewrite Gp, Hob, F. clear - Hon Htn Hov.
  assert (T : over = true \/ get o ix <> t -> (if over then nlt t (get o ix) else nlt (get o ix) t) = if over then negb (nle (get o ix) t) else nle (get o ix) t).
  { intros _. revert Hon Htn Hov. destruct (get o ix) as [x| | |], t as [y| | |]; intros Hon Htn Hov; try contradiction; destruct over; cbn; try reflexivity;
      try (destruct Hov as [?|Hov]; [discriminate|contradiction (Hov eq_refl)]).
    destruct Hov as [?|Hov]; [discriminate|]. destruct (qltb_spec x y) as [E1|E1], (qleb_spec x y) as [E2|E2]; try reflexivity; exfalso.
    + qlra.
    + apply Hov. f_equal. apply Qcle_antisym; assumption. }
  rewrite (T Hov). destruct over, (nle (get o ix) t); cbn; f_equal; ring.
Qed.
Print Assumptions c25_event_partial.
Example c25_nonvacuous : let f := of_list NaN [2; 2] (map nnat [3; 3; 4; 4]) in let o := of_list NaN [2] (map nnat [3; 4]) in
  rmap ravel (cell_brier (ens_cdf Moments 1 f (-1) (Some (TScalar (nnat 3))) None) o (Some (TScalar (nnat 3))) None) = Ok [Fin 0%Qc; Fin 0%Qc] /\
  rmap ravel (cell_brier (ens_cdf Moments 1 f (-1) None (Some (TScalar (nnat 3)))) o None (Some (TScalar (nnat 3)))) = Ok [Fin 1%Qc; Fin 0%Qc].
Proof. split; qcomp. Qed.

(** ** C26 *)
(** For any verifier: cells first.  [p] is what cdf returned. *)
Theorem c26_brier_cells : forall p o over below r,
  cell_brier p o over below = Ok r ->
  (forall pa ix, p = Ok pa -> Forall2 lt ix (shape pa) -> exists q, get pa ix = Fin q /\ (0 <= q /\ q <= 1)%Qc) ->
  forall ix, Forall2 lt ix (shape r) -> exists q, get r ix = Fin q /\ (0 <= q /\ q <= 1)%Qc.
Proof.
  intros p o over below r E Hp ix Hv. destruct (brier_cells _ _ _ _ _ E) as (pa & ob & Ep & _ & S & G). rewrite S in Hv.
  destruct (Hp pa ix Ep Hv) as (q & Eq & H0 & H1). rewrite G, Eq. apply brier_unit; assumption.
Qed.
Print Assumptions c26_brier_cells.
(** Averages and bootstrap bounds, for every accepted spelling of the axes, with at least one cell per dimension. *)
Theorem c26_brier_averages : forall e rng ax bs p o over below r avg,
  cell_brier p o over below = Ok r ->
  (forall pa ix, p = Ok pa -> Forall2 lt ix (shape pa) -> exists q, get pa ix = Fin q /\ (0 <= q /\ q <= 1)%Qc) ->
  (forall d, In d (shape r) -> 0 < d) -> (forall k, bs = Some k -> 0 < k) ->
  boot_or_avg e rng ax bs r = Ok avg ->
  forall ix, Forall2 lt ix (shape avg) -> exists q, get avg ix = Fin q /\ (0 <= q /\ q <= 1)%Qc.
Proof.
  intros e rng ax bs p o over below r avg E Hp Hd Hk Ha. eapply boot_or_avg_inside; [exact Ha|exact Hd|exact Hk|].
  intros ix Hv. eapply c26_brier_cells; eassumption.
Qed.
Print Assumptions c26_brier_averages.
(** Probabilities that may be missing (parametric forecasts with NaN parameters): the score is in [0,1] or missing. *)
Theorem c26_brier_missing : forall e rng ax bs p o over below r avg,
  cell_brier p o over below = Ok r ->
  (forall pa ix, p = Ok pa -> Forall2 lt ix (shape pa) -> get pa ix = NaN \/ exists q, get pa ix = Fin q /\ (0 <= q /\ q <= 1)%Qc) ->
  boot_or_avg e rng ax bs r = Ok avg ->
  forall ix, Forall2 lt ix (shape avg) -> get avg ix = NaN \/ exists q, get avg ix = Fin q /\ (0 <= q /\ q <= 1)%Qc.
Proof.
  intros e rng ax bs p o over below r avg E Hp Ha. eapply boot_or_avg_within; [exact Ha|]. intros ix Hv.
  destruct (brier_cells _ _ _ _ _ E) as (pa & ob & Ep & _ & S & G). rewrite S in Hv.
  destruct (Hp pa ix Ep Hv) as [Eq|(q & Eq & H0 & H1)]; rewrite G, Eq; [left; destruct (get ob ix); reflexivity|right; apply brier_unit; assumption].
Qed.
Print Assumptions c26_brier_missing.
(** The ensemble verifier meets the hypothesis. *)
Theorem c26_ensemble_brier : forall e rng ax bs w f z n o b (over : bool) r avg,
  axis_is (length (shape f)) z n -> thr_fits b (drop_axis n (shape f)) ->
  0 < nth n (shape f) 0 -> w = 1 \/ (1 < w /\ 0 < prod (drop_axis n (shape f))) ->
  let ov := if over then Some b else None in let be := if over then None else Some b in
  cell_brier (ens_cdf Moments w f z ov be) o ov be = Ok r ->
  (forall d, In d (shape r) -> 0 < d) -> (forall k, bs = Some k -> 0 < k) ->
  boot_or_avg e rng ax bs r = Ok avg ->
  forall ix, Forall2 lt ix (shape avg) -> exists q, get avg ix = Fin q /\ (0 <= q /\ q <= 1)%Qc.
Proof.
  intros e rng ax bs w f z n o b over r avg Hz Hb HM Hw ov be E. eapply c26_brier_averages; [exact E|].
  intros pa ix Ep Hv. destruct (c22_fraction w f z n b Hz Hb HM Hw) as (lo & hi & El & Eh & Sl & Sh & G).
  destruct over; subst ov be.
  - rewrite Ep in Eh. injection Eh as <-. rewrite Sh in Hv. destruct (G ix Hv) as (p & q & _ & Eq & H). exists q. split; [exact Eq|]. destruct H as (_ & _ & _ & _ & _ & H0 & H1 & _). split; assumption.
  - rewrite Ep in El. injection El as <-. rewrite Sl in Hv. destruct (G ix Hv) as (p & q & Eq & _ & H). exists p. split; [exact Eq|]. destruct H as (_ & _ & _ & H0 & H1 & _). split; assumption.
Qed.
Print Assumptions c26_ensemble_brier.
Example c26_nonvacuous : exists r, cell_brier (ens_cdf Moments 1 pr_f (-1) (Some (TScalar (nnat 3))) None) pr_o (Some (TScalar (nnat 3))) None = Ok r /\
  shape r = [2] /\ get r [0] = Fin (Q2Qc (1 # 16)) /\
  rmap ravel (boot_or_avg {| skip_nan := true; repeats := 2; confidence := Q2Qc (1 # 2) |} (fun _ _ j => j) (Some [0%Z]) (Some 2) r) = Ok (repeat (Fin (Q2Qc (1 # 32))) 3).
Proof. eexists. split; [reflexivity|]. split; [reflexivity|]. split; qcomp. Qed.
