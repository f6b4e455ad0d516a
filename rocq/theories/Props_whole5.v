(** Property C114: the gamma hurdle verifier and the CRPS of the parametric verifiers from constructor to numbers. *)
From Coq Require Import String ZArith List Lia Lqa Bool Arith QArith Qcanon Sorting.Permutation.
From Verif Require Import QcTac QSum Num NdArr Numpy NdAxes M_common M_boot M_determ M_ens M_special M_ss M_dist M_integ P_integ3
  Spec Spec_ss P_boot P_dist P_special Props_avg Props_ss
  Store M_state Spec_state P_state P_codec Spec_result P_result Props_state Props_result M_whole Spec_whole P_whole Props_whole M_whole2 M_whole3 Spec_whole3 P_whole3
  M_whole4 P_whole4 M_whole5 Spec_whole5 P_whole5.
From Verif Require P_integ P_integ2 Props_integ P_rel Props_ps Props_whole2 Props_whole3 Props_whole4.
Import ListNotations.
Open Scope string_scope.
Open Scope list_scope.
Open Scope nat_scope.
Notation reads := P_whole.reads.

Section Program.
Variable S : settings.
Variable W : laws.
Variable T : stats.
Variable C : scores.
Variable multiplier : Z.
Variable gen_decomp : nat -> nat -> nat -> nat -> nat.
Variable gen_rel : nat -> nat -> nat -> nat -> nat -> nat.
Variable other : string -> list M_state.val -> res M_state.val.
Variable otherr : string -> list M_state.val -> nat -> res M_state.val.
Variable str_of : M_state.val -> string.
Variable dumps : M_state.val -> string.
Variable loads : string -> res M_state.val.
Variable expanduser : string -> string.
Variable resolve : string -> path.
Variable otherp : M_state.val -> M_state.val -> M_state.val -> res (list num).
Variable less_memory : bool.
Variable integrate_wdir : option path.
Variable cwd : path.
Variable rng : nat -> nat.

Notation points := (points_with multiplier otherp).
Notation ilib := (integ_lib C other).
Notation slib := (stat_lib S T ilib).
Notation mlib := (more_lib S (prob_lib S W slib)).
Notation mlibr := (more_libr S gen_decomp gen_rel (prob_libr S W otherr)).
Notation lib := (whole_lib S mlib).
Notation libr := (whole_libr S mlibr).
Notation step := (M_state.step lib libr str_of dumps loads expanduser resolve points less_memory integrate_wdir cwd rng).
Notation result := (Spec_result.result lib libr points).
Notation faithful := (Props_whole.faithful str_of dumps loads expanduser).
Notation reached := (Props_whole.reached S mlib mlibr str_of dumps loads expanduser resolve points less_memory integrate_wdir cwd rng).
Notation answers := (Props_whole.answers S mlib mlibr str_of dumps loads expanduser resolve points less_memory integrate_wdir cwd rng).
Notation reached_result := (Props_whole.reached_result S mlib mlibr str_of dumps loads expanduser resolve points less_memory integrate_wdir cwd rng).

(** a hurdle verifier whose distribution functions are the [F ix], integrated over [n] points from [lo] to [hi] *)
Record hurdle (x : obj) (F : list nat -> Qc -> Qc) (lo hi : Qc) (n : nat) : Prop := {
  h_class : cl x = CHurdle;
  h_params : exists f, forecast_of x = Some f /\ params_shape (arr_shape (a_o x)) f /\
    forall ix t, Forall2 lt ix (arr_shape (a_o x)) -> Spec_whole3.cell_cdf (w_scipy W) f ix (Fin t) = Fin (F ix t) /\ (0 <= F ix t)%Qc /\ (F ix t <= 1)%Qc;
  h_axes : arr_shape (a_o x) <> [] /\ run_ok (arr_shape (a_o x)) (w_workers S) (w_map_axis S);
  h_ends : ends multiplier x lo hi;
  h_points : count_of (a_bins x) = Some n /\ 2 <= n
}.
Lemma hurdle_ready x F lo hi n f q : hurdle x F lo hi n -> forecast_of x = Some f -> params_shape (arr_shape (a_o x)) f -> forecast_ready S x f (VFloat (Fin q)) (TScalar (Fin q)).
Proof.
  intros H Ef P. destruct (h_axes _ _ _ _ _ H) as [A1 A2]. split; [exact Ef|]. split; [exact P|]. split; [exact A1|]. split; [exact A2|]. split; [|split; [reflexivity|exact I]].
  unfold forecast_of in Ef. rewrite (h_class _ _ _ _ _ H) in Ef. destruct (field (a_f x) "pop"), (field (a_f x) "mu"), (field (a_f x) "sigma"); cbn [option_map] in Ef; try discriminate Ef. injection Ef as <-. intros [].
Qed.
Lemma hurdle_cdf x F lo hi n : hurdle x F lo hi n -> forall q, exists v, cdf_of lib x (VFloat (Fin q)) = Ok v /\ arr_shape v = arr_shape (a_o x) /\
  forall ix, valid (arr_shape (a_o x)) ix -> reads v ix = Fin (F ix q).
Proof.
  intros H q. destruct (h_params _ _ _ _ _ H) as (f & Ef & P & Fc). pose proof (hurdle_ready x F lo hi n f q H Ef P) as R.
  destruct (forecast_cdf S W slib x f _ _ R) as (p & E & Sp & Gp). exists (val_of p). split; [exact E|]. split; [exact Sp|]. intros ix V. rewrite reads_val by (rewrite Sp; exact V). rewrite (Gp ix V).
  cbn [P_prob.thr_at]. destruct (Fc ix q V) as (-> & U). apply clip1_id, U.
Qed.
Lemma hurdle_brier x F lo hi n : hurdle x F lo hi n -> forall q, exists v, brier_of lib x VNone (VFloat (Fin q)) = Ok v /\ arr_shape v = arr_shape (a_o x) /\
  forall ix, valid (arr_shape (a_o x)) ix -> reads v ix = Fin (step_distance (F ix) (reads (a_o x) ix) q).
Proof.
  intros H q. destruct (h_params _ _ _ _ _ H) as (f & Ef & P & Fc). pose proof (hurdle_ready x F lo hi n f q H Ef P) as R.
  destruct (Props_whole3.ready_event S W slib x f _ _ false R) as (p & Ep & Sp & Gp). destruct (Props_whole3.ready_event_outcome S W slib x f _ _ false R) as (o & Eo & So & Go). cbn [over_of below_of] in Ep, Eo.
  exists (val_of (cell_sq_error (arr_of p) (arr_of o))). split; [|split].
  - unfold brier_of, event_pair. rewrite Ep. cbn [bind]. rewrite Eo. reflexivity.
  - rewrite <- Sp, <- (arr_shape_of p). reflexivity.
  - intros ix V. rewrite reads_val by (cbn [cell_sq_error amap2 shape]; rewrite arr_shape_of, Sp; exact V). cbn [cell_sq_error amap2 get].
    change (get (arr_of p) ix) with (reads p ix). change (get (arr_of o) ix) with (reads o ix). destruct (Fc ix q V) as (Fq & U). rewrite (proj1 (Gp ix V) _ Fq U), (Go ix V). reflexivity.
Qed.
Lemma lib_integral k x n : count_of (a_bins x) = Some n -> forall xs vs, lib (name_of k) [VTuple xs; VTuple vs; a_o x; a_bins x] = rmap val_of (rows_value k n (map (fun x => get (arr_of x) []) xs) (arr_of (a_o x)) (map arr_of vs)).
Proof.
  intros N xs vs. assert (E : lib (name_of k) [VTuple xs; VTuple vs; a_o x; a_bins x] = ilib (name_of k) [VTuple xs; VTuple vs; a_o x; a_bins x]) by (destruct k; reflexivity).
  rewrite E. unfold integ_lib. destruct k; cbn [name_of integral_of]; rewrite N; reflexivity.
Qed.
Lemma hurdle_mean x F lo hi n : hurdle x F lo hi n -> exists v, Spec_result.mean_of lib points x = Ok v /\ arr_shape v = arr_shape (a_o x) /\
  forall ix, valid (arr_shape (a_o x)) ix -> reads v ix = Fin (stepwise_mean (knot lo hi n) n (F ix)).
Proof.
  intros H. destruct (h_points _ _ _ _ _ H) as [N Hn].
  destruct (integral_value lib points KMean x lo hi n (fun q => cdf_of lib x (VFloat q)) F (lib_integral KMean x n N) Hn (points_ready _ _ _ _ _ _ (h_ends _ _ _ _ _ H) N) (hurdle_cdf x F lo hi n H)) as (v & E & Sv & Gv).
  exists v. split; [|split; [exact Sv|]].
  - unfold Spec_result.mean_of. rewrite (h_class _ _ _ _ _ H). exact E.
  - intros ix V. rewrite (Gv ix V). apply (f_equal Fin). exact (mean_sum_words (knot lo hi n) n (F ix)).
Qed.
Lemma hurdle_variance x F lo hi n : hurdle x F lo hi n -> exists v, variance_of lib points x = Ok v /\ arr_shape v = arr_shape (a_o x) /\
  forall ix, valid (arr_shape (a_o x)) ix -> reads v ix = Fin (stepwise_variance (knot lo hi n) n (F ix)).
Proof.
  intros H. destruct (h_points _ _ _ _ _ H) as [N Hn].
  destruct (integral_value lib points KVariance x lo hi n (fun q => cdf_of lib x (VFloat q)) F (lib_integral KVariance x n N) Hn (points_ready _ _ _ _ _ _ (h_ends _ _ _ _ _ H) N) (hurdle_cdf x F lo hi n H)) as (v & E & Sv & Gv).
  exists v. split; [|split; [exact Sv|]].
  - unfold variance_of. rewrite (h_class _ _ _ _ _ H). exact E.
  - intros ix V. rewrite (Gv ix V). apply (f_equal Fin). exact (variance_words (knot lo hi n) n (F ix)).
Qed.
Lemma hurdle_crps x F lo hi n : hurdle x F lo hi n -> exists v, crps_of lib points x = Ok v /\ arr_shape v = arr_shape (a_o x) /\
  forall ix, valid (arr_shape (a_o x)) ix -> reads v ix = Fin (stepwise_crps (knot lo hi n) n (F ix) (reads (a_o x) ix)).
Proof.
  intros H. destruct (h_points _ _ _ _ _ H) as [N Hn].
  destruct (integral_value lib points KCrps x lo hi n (fun q => brier_of lib x VNone (VFloat q)) (fun ix => step_distance (F ix) (reads (a_o x) ix)) (lib_integral KCrps x n N) Hn (points_ready _ _ _ _ _ _ (h_ends _ _ _ _ _ H) N) (hurdle_brier x F lo hi n H)) as (v & E & Sv & Gv).
  exists v. split; [|split; [exact Sv|]].
  - unfold crps_of. rewrite (h_class _ _ _ _ _ H). exact E.
  - intros ix V. rewrite (Gv ix V). apply (f_equal Fin). exact (crps_words (knot lo hi n) n (F ix) (reads (a_o x) ix)).
Qed.

(** ** Mean, variance and CRPS of the hurdle verifier *)
Theorem c114_integrals : forall s F lo hi n ax ns, faithful -> reached s ->
  let x := ob s in let sh := arr_shape (a_o x) in let knots := knot lo hi n in
  hurdle x F lo hi n -> a_boot x = VNone -> axes_of (a_avg x) = Some ax -> axes_are (length sh) ax ns ->
  exists m v c, answers s MDeterm m /\ answers s MVariance v /\ answers s MCrps c /\
    arr_shape m = sh /\ arr_shape v = sh /\ arr_shape c = kept (length sh) ns sh /\
    (forall ix, Forall2 lt ix sh -> reads m ix = Fin (stepwise_mean knots n (F ix)) /\ reads v ix = Fin (stepwise_variance knots n (F ix))) /\
    forall k L, Cells sh ns k L -> L <> [] -> reads c k = Fin (Spec.mean_of (map (fun ix => stepwise_crps knots n (F ix) (reads (a_o x) ix)) L)).
Proof.
  intros s F lo hi n ax ns FA RE x sh knots H B A X.
  destruct (hurdle_mean x F lo hi n H) as (m & Em & Sm & Gm). destruct (hurdle_variance x F lo hi n H) as (v & Ev & Sv & Gv). destruct (hurdle_crps x F lo hi n H) as (w & Ew & Sw & Gw).
  destruct (averaged_result S mlib mlibr x w ax ns 0 B A) as (c & Ec & _ & Sc & Gc); [rewrite Sw; exact X|]. rewrite Sw in Sc, Gc.
  exists m, v, c. split; [|split; [|split; [|split; [exact Sm|split; [exact Sv|split; [exact Sc|split]]]]]].
  - unfold Props_whole.answers. destruct (reached_result s MDeterm FA RE ltac:(constructor) ltac:(reflexivity)) as [-> _]. exact Em.
  - unfold Props_whole.answers. destruct (reached_result s MVariance FA RE ltac:(constructor) ltac:(reflexivity)) as [-> _]. exact Ev.
  - unfold Props_whole.answers. destruct (reached_result s MCrps FA RE ltac:(constructor)) as [-> _]; [fold x; unfold random_call; rewrite B; reflexivity|]. cbn [Spec_result.result]. fold x. rewrite Ew. exact Ec.
  - intros ix V. split; [apply Gm, V|apply Gv, V].
  - intros k L HC N. apply Gc; [exact HC|exact N|]. intros ix I. apply Gw. apply (proj2 HC), I.
Qed.
(** sound: the mean lies within the range of the integration, the variance is not negative and the CRPS is at most the
    length of the range *)
Theorem c114_sound : forall s F lo hi n ax ns, faithful -> reached s ->
  let x := ob s in let sh := arr_shape (a_o x) in
  hurdle x F lo hi n -> a_boot x = VNone -> axes_of (a_avg x) = Some ax -> axes_are (length sh) ax ns ->
  (lo <= hi)%Qc -> (forall ix t u, Forall2 lt ix sh -> (t <= u)%Qc -> (F ix t <= F ix u)%Qc) ->
  exists m v c, answers s MDeterm m /\ answers s MVariance v /\ answers s MCrps c /\
    (forall ix, Forall2 lt ix sh -> exists p q, reads m ix = Fin p /\ (lo * (F ix hi - F ix lo) <= p)%Qc /\ (p <= hi * (F ix hi - F ix lo))%Qc /\ reads v ix = Fin q /\ (0 <= q)%Qc) /\
    forall k L, Cells sh ns k L -> L <> [] -> exists r, reads c k = Fin r /\ (0 <= r)%Qc /\ (r <= hi - lo)%Qc.
Proof.
  intros s F lo hi n ax ns FA RE x sh H B A X Hlh Mono. destruct (h_points _ _ _ _ _ H) as [_ Hn]. destruct (h_params _ _ _ _ _ H) as (f & _ & _ & Fc).
  destruct (c114_integrals s F lo hi n ax ns FA RE H B A X) as (m & v & c & Am & Av & Ac & _ & _ & _ & G & Gc). fold x sh in G, Gc, Fc. exists m, v, c. split; [exact Am|]. split; [exact Av|]. split; [exact Ac|]. split.
  - intros ix V. destruct (G ix V) as [G1 G2]. eexists _, _. split; [exact G1|]. rewrite <- mean_sum_words. rewrite <- variance_words in G2. change (knot lo hi n) with (grid lo hi n) in *.
    pose proof (mean_sum_between (grid lo hi n) (fun j => F ix (grid lo hi n j)) (n - 1) lo hi) as Bd. cbv beta in Bd. rewrite grid_last, grid_first in Bd by exact Hn.
    destruct Bd as [B1 B2].
    + intros k _. rewrite <- (grid_first lo hi n) at 1. apply grid_le; try assumption. lia.
    + intros k Hk. rewrite <- (grid_last lo hi n Hn) at 2. apply grid_le; assumption.
    + intros k _. apply Mono; [exact V|apply grid_mono; assumption].
    + split; [exact B1|]. split; [exact B2|]. split; [exact G2|]. apply (variance_nonneg (grid lo hi n) (fun j => F ix (grid lo hi n j))).
      * intros k _. apply Mono; [exact V|apply grid_mono; assumption].
      * destruct (Fc ix (grid lo hi n (n - 1)) V) as (_ & U0 & U1), (Fc ix (grid lo hi n 0) V) as (_ & U2 & U3). qlra.
  - intros k L HC NE. eexists. split; [apply (Gc k L HC NE)|].
    assert (Bc : forall ix, In ix L -> (0 <= stepwise_crps (knot lo hi n) n (F ix) (reads (a_o x) ix))%Qc /\ (stepwise_crps (knot lo hi n) n (F ix) (reads (a_o x) ix) <= hi - lo)%Qc).
    { intros ix I. assert (V : valid sh ix) by apply (proj2 HC), I. rewrite <- crps_words. change (knot lo hi n) with (grid lo hi n).
      pose proof (trapezium_between (grid lo hi n) (fun j => step_distance (F ix) (reads (a_o x) ix) (grid lo hi n j)) (n - 1)) as Bd. rewrite grid_last, grid_first in Bd by exact Hn. apply Bd.
      - intros j _. apply grid_mono; assumption.
      - intros j _. unfold step_distance. apply qsq_nonneg.
      - intros j _. unfold step_distance. destruct (Fc ix (grid lo hi n j) V) as (_ & U0 & U1). clear - U0 U1. generalize dependent (F ix (grid lo hi n j)). intros u U0 U1. unfold indicator; match goal with |- context [if ?b then _ else _] => destruct b end; qnra. }
    assert (Pl : (0 < qn (length L))%Qc) by (apply qn_pos; destruct L; [contradiction|cbn; lia]).
    unfold Spec.mean_of. rewrite map_length. set (g := fun ix => stepwise_crps (knot lo hi n) n (F ix) (reads (a_o x) ix)) in *.
    assert (Sb : (0 <= fold_right Qcplus 0%Qc (map g L))%Qc /\ (fold_right Qcplus 0%Qc (map g L) <= qn (length L) * (hi - lo))%Qc).
    { assert (Bg : forall ix, In ix L -> (0 <= g ix)%Qc /\ (g ix <= hi - lo)%Qc) by exact Bc. clearbody g. clear - Bg Hlh. induction L as [|a L IH]; [cbn; rewrite qn_0; split; [apply Qcle_refl|rewrite Qcmult_0_l; apply Qcle_refl]|].
      destruct IH as [I1 I2]; [intros ix I; apply Bg; right; exact I|]. destruct (Bg a (or_introl eq_refl)) as [B1 B2]. cbn [map fold_right length]. rewrite qn_S. split; [qlra|]. set (t := (qn (length L) * (hi - lo))%Qc) in *.
      replace ((1 + qn (length L)) * (hi - lo))%Qc with (t + (hi - lo))%Qc by (unfold t; ring). qlra. }
    destruct Sb as [S1 S2]. split; [apply Qcdiv_nonneg; assumption|]. apply Qcdiv_le_iff; [exact Pl|]. rewrite Qcmult_comm. exact S2.
Qed.
(** ** Errors, spread-skill diagram and correlation of the hurdle verifier are those of its means *)
Theorem c114_errors : forall s F lo hi n ax ns k L O, faithful -> reached s ->
  let x := ob s in let sh := arr_shape (a_o x) in let M ix := stepwise_mean (knot lo hi n) n (F ix) in
  hurdle x F lo hi n -> a_boot x = VNone -> axes_of (a_avg x) = Some ax -> axes_are (length sh) ax ns ->
  Cells sh ns k L -> L <> [] -> (forall ix, In ix L -> reads (a_o x) ix = Fin (O ix)) ->
  exists e sq ab, answers s MError e /\ answers s MSqErr sq /\ answers s MAbErr ab /\
    arr_shape e = kept (length sh) ns sh /\ arr_shape sq = arr_shape e /\ arr_shape ab = arr_shape e /\
    reads e k = Fin (Spec.mean_of (map (fun ix => M ix - O ix)%Qc L)) /\
    reads sq k = Fin (Spec.mean_of (map (fun ix => (M ix - O ix) * (M ix - O ix))%Qc L)) /\
    reads ab k = Fin (Spec.mean_of (map (fun ix => qdist (M ix) (O ix)) L)).
Proof.
  intros s F lo hi n ax ns k L O FA RE x sh M H B A X HC N V. destruct (hurdle_mean x F lo hi n H) as (mu & Mo & Sh & Gm). fold sh in Sh, Gm.
  assert (Pf : point_forecast lib points x = Ok mu) by (unfold point_forecast; rewrite (h_class _ _ _ _ _ H); exact Mo).
  assert (Vf : forall ix, In ix L -> valid (shape (arr_of mu)) ix) by (intros ix I; rewrite arr_shape_of, Sh; apply (proj2 HC), I).
  assert (Q : forall (m : meth) (name : string) (g : arr num -> arr num -> arr num) (h : Qc -> Qc -> Qc), key_ok m -> random_call x m = false ->
    (forall d, result x m d = averaged_over lib libr x (error_of lib points x name) (d 0)) ->
    lib name [mu; a_o x] = Ok (val_of (g (arr_of mu) (arr_of (a_o x)))) ->
    (forall a b, shape (g a b) = shape a) -> (forall a b ix y z, get a ix = Fin y -> get b ix = Fin z -> get (g a b) ix = Fin (h y z)) ->
    exists v, answers s m v /\ arr_shape v = kept (length sh) ns sh /\ reads v k = Fin (Spec.mean_of (map (fun ix => h (M ix) (O ix)) L))).
  { intros m name g h K R Rm Ln Sg Gg. set (w := val_of (g (arr_of mu) (arr_of (a_o x)))) in *.
    assert (Sw : arr_shape w = sh) by (rewrite <- Sh, <- (arr_shape_of mu); exact (Sg _ _)).
    destruct (averaged_result S mlib mlibr x w ax ns 0 B A) as (v & Ev & Av & Sv & Gv); [rewrite Sw; exact X|]. rewrite Sw in Sv, Gv.
    assert (Er : result x m (fun _ => 0) = Ok v) by (rewrite Rm; unfold error_of; rewrite Pf; cbn [bind]; rewrite Ln; exact Ev).
    exists v. split; [unfold Props_whole.answers; rewrite (proj1 (reached_result s m FA RE K R)); exact Er|]. split; [exact Sv|].
    apply Gv; [exact HC|exact N|]. intros ix I. unfold w. rewrite reads_val by (rewrite Sg; apply Vf, I). apply Gg; [apply Gm; apply (proj2 HC), I|apply V, I]. }
  assert (R : forall m, m = MError \/ m = MSqErr \/ m = MAbErr -> random_call x m = false) by (intros m [-> |[-> | ->]]; unfold random_call; rewrite B; reflexivity).
  destruct (Q MError "sub" cell_error (fun y z => y - z)%Qc ltac:(constructor) ltac:(apply R; auto) ltac:(reflexivity) ltac:(reflexivity) ltac:(reflexivity)) as (e & E1 & E3 & E4).
  { intros a b ix y z Ea Eb. cbn [cell_error amap2 get]. rewrite Ea, Eb. reflexivity. }
  destruct (Q MSqErr "sub_sq" cell_sq_error (fun y z => (y - z) * (y - z))%Qc ltac:(constructor) ltac:(apply R; auto) ltac:(reflexivity) ltac:(reflexivity) ltac:(reflexivity)) as (sq & S1 & S3 & S4).
  { intros a b ix y z Ea Eb. cbn [cell_sq_error amap2 get]. rewrite Ea, Eb. reflexivity. }
  destruct (Q MAbErr "sub_abs" cell_ab_error qdist ltac:(constructor) ltac:(apply R; auto) ltac:(reflexivity) ltac:(reflexivity) ltac:(reflexivity)) as (ab & A1 & A3 & A4).
  { intros a b ix y z Ea Eb. cbn [cell_ab_error amap2 get]. rewrite Ea, Eb, qdist_abs. reflexivity. }
  exists e, sq, ab. repeat (split; [solve [assumption|congruence]|]). exact A4.
Qed.
Theorem c114_spread_skill : forall s F lo hi n nb ax ns N (O : list nat -> Qc), faithful -> reached s -> (forall l, argsorts l (w_argsort T l)) ->
  let x := ob s in let sh := arr_shape (a_o x) in let ks := kept (length sh) ns sh in
  hurdle x F lo hi n -> (forall ix, Forall2 lt ix sh -> reads (a_o x) ix = Fin (O ix)) ->
  a_boot x = VNone -> axes_of (a_avg x) = Some ax -> axes_are (length sh) ax ns -> same_sign ax ->
  prod ks <> 0 -> prod sh = N * prod ks -> 1 <= nb <= N ->
  let p := fun ix => stepwise_variance (knot lo hi n) n (F ix) in
  let y := fun ix => ((stepwise_mean (knot lo hi n) n (F ix) - O ix) * (stepwise_mean (knot lo hi n) n (F ix) - O ix))%Qc in
  exists sp rm, answers s (MSS (VInt (Z.of_nat nb))) (VTuple [sp; rm]) /\ arr_shape sp = ks ++ [nb] /\ arr_shape rm = ks ++ [nb] /\
  forall k L, Forall2 lt k ks -> Cells sh ns k L ->
  exists Bs, ordered_bins (fun i j => (p i <= p j)%Qc) L nb Bs /\ forall b, b < nb ->
    reads sp (k ++ [b]) = w_sqrt T (Fin (Spec.mean_of (map p (nth b Bs [])))) /\ reads rm (k ++ [b]) = w_sqrt T (Fin (Spec.mean_of (map y (nth b Bs [])))).
Proof.
  intros s F lo hi n nb ax ns N O FA RE Harg x sh ks H V B A X SS HK HN Hnb p y.
  destruct (hurdle_mean x F lo hi n H) as (mu & Mo & Sm & Gm). destruct (hurdle_variance x F lo hi n H) as (v & Ev & Sv & Gv). fold sh in Sm, Gm, Sv, Gv.
  set (e := val_of (cell_sq_error (arr_of mu) (arr_of (a_o x)))).
  assert (Ee : error_of lib points x "sub_sq" = Ok e) by (unfold error_of, point_forecast; rewrite (h_class _ _ _ _ _ H), Mo; reflexivity).
  assert (Se : arr_shape e = sh) by (rewrite <- Sm; exact (arr_shape_of mu)).
  refine (Props_whole4.diagram S W T gen_decomp gen_rel ilib otherr str_of dumps loads expanduser resolve points less_memory integrate_wdir cwd rng s nb v e ax ns N p y FA RE Harg Ev Ee Sv Se _ B A X SS HK HN Hnb).
  intros ix Vi. split; [apply Gv, Vi|]. unfold e. rewrite reads_val by (change (valid (shape (arr_of mu)) ix); rewrite arr_shape_of, Sm; exact Vi). cbn [cell_sq_error amap2 get].
  change (get (arr_of mu) ix) with (reads mu ix). change (get (arr_of (a_o x)) ix) with (reads (a_o x) ix). rewrite (Gm ix Vi), (V ix Vi). reflexivity.
Qed.
Theorem c114_correlation : forall s F lo hi n ax ns, faithful -> reached s ->
  let x := ob s in let sh := arr_shape (a_o x) in let ks := kept (length sh) ns sh in let M ix := Fin (stepwise_mean (knot lo hi n) n (F ix)) in
  hurdle x F lo hi n -> a_boot x = VNone -> axes_of (a_avg x) = Some ax -> axes_are (length sh) ax ns -> P_special.plain ax -> 0 < prod ks ->
  exists r, answers s MCorr r /\ arr_shape r = ks /\
  forall k L, Forall2 lt k ks -> Cells sh ns k L ->
  exists U, Permutation U (if skip_nan (w_boot S) then filter (fun ix => negb (is_nan (reads (a_o x) ix)))%bool L else L) /\
    reads r k = w_corrcoef T (map M U) (map (reads (a_o x)) U).
Proof.
  intros s F lo hi n ax ns FA RE x sh ks M H B A X PL Pos. destruct (hurdle_mean x F lo hi n H) as (f & Mo & Sf & Gm). fold sh in Sf, Gm.
  assert (So : shape (arr_of (a_o x)) = sh) by apply arr_shape_of. assert (Sf' : shape (arr_of f) = sh) by (rewrite arr_shape_of; exact Sf).
  destruct (corr_with_value S T (arr_of f) (arr_of (a_o x)) ax ns) as (r & Er & Sr & G); rewrite ?So; [exact Sf'|apply plain_of; assumption|exact Pos|]. rewrite So in Sr, G. fold ks in Sr, G.
  exists (val_of r). split; [|split; [exact Sr|]].
  - unfold Props_whole.answers. destruct (reached_result s MCorr FA RE ltac:(constructor)) as [-> _]; [fold x; unfold random_call, random_value; rewrite B; reflexivity|].
    cbn [Spec_result.result]. fold x. rewrite Mo. cbn [bind]. unfold with_boot. rewrite B. cbn [is_none].
    change (lib "corr" [f; a_o x; a_avg x]) with (slib "corr" [f; a_o x; a_avg x]). unfold stat_lib. change ("corr" =? "corr")%string with true. cbv iota. rewrite A, Er. reflexivity.
  - intros k L Vk HL. destruct (G k L HL Vk) as (L' & P & E). cbv zeta in E.
    assert (VL : forall ix, In ix L' -> reads f ix = M ix) by (intros ix I; apply Gm; apply (proj2 HL); eapply Permutation_in; [exact P|exact I]).
    exists (usable (skip_nan (w_boot S)) (reads f) (reads (a_o x)) L'). split.
    + unfold usable. destruct (skip_nan (w_boot S)); [|exact P]. rewrite (filter_ext_in _ (fun ix => negb (is_nan (reads (a_o x) ix)))); [apply perm_filter, P|]. intros ix I. rewrite (VL ix I). reflexivity.
    + rewrite reads_val by (rewrite Sr; exact Vk). rewrite E. f_equal. apply map_ext_in. intros ix I. apply VL. unfold usable in I. destruct (skip_nan (w_boot S)); [apply filter_In in I; exact (proj1 I)|exact I].
Qed.
(** ** CRPS of the Gaussian and the Gamma verifier: the mean of the scores of the cells *)
Inductive cell_scores (x : obj) : (list nat -> num) -> Prop :=
  | s_normal mu sg : cl x = CGaussian -> field (a_f x) "mu" = Some mu -> field (a_f x) "sigma" = Some sg -> arr_shape mu = arr_shape (a_o x) -> arr_shape sg = arr_shape (a_o x) ->
      cell_scores x (fun ix => w_crps_normal C (truthy (a_trunc x)) (reads (a_o x) ix) (reads mu ix) (reads sg ix))
  | s_gamma mu sg h : cl x = CGamma -> truthy (a_trunc x) = false -> field (a_f x) "unshifted_mu" = Some mu -> field (a_f x) "sigma" = Some sg -> field (a_f x) "shift" = Some h ->
      arr_shape mu = arr_shape (a_o x) -> arr_shape sg = arr_shape (a_o x) -> arr_shape h = arr_shape (a_o x) ->
      cell_scores x (fun ix => w_crps_gamma C (reads mu ix) (reads sg ix) (reads h ix) (reads (a_o x) ix)).
Theorem c114_crps : forall s c ax ns, faithful -> reached s ->
  let x := ob s in let sh := arr_shape (a_o x) in
  cell_scores x c -> a_boot x = VNone -> axes_of (a_avg x) = Some ax -> axes_are (length sh) ax ns ->
  exists v, answers s MCrps v /\ arr_shape v = kept (length sh) ns sh /\
    forall k L G, Cells sh ns k L -> L <> [] -> (forall ix, In ix L -> c ix = Fin (G ix)) -> reads v k = Fin (Spec.mean_of (map G L)).
Proof.
  intros s c ax ns FA RE x sh Hc B A X.
  assert (E : exists w, crps_of lib points x = Ok w /\ arr_shape w = sh /\ forall ix, valid sh ix -> reads w ix = c ix).
  { assert (Sh : forall v, arr_shape v = arr_shape (a_o x) -> list_eqb (shape (arr_of v)) (shape (arr_of (a_o x))) = true) by (intros v E; rewrite !arr_shape_of, E; apply list_eqb_refl).
    destruct Hc as [mu sg Cl Fm Fs Sm Ss|mu sg h Cl Tr Fm Fs Fh Sm Ss Sd].
    - exists (val_of (Arr (shape (arr_of (a_o x))) (fun ix => w_crps_normal C (truthy (a_trunc x)) (reads (a_o x) ix) (reads mu ix) (reads sg ix)))).
      split; [|split; [exact (arr_shape_of (a_o x))|intros ix V; rewrite reads_val by (cbn [shape]; rewrite arr_shape_of; exact V); reflexivity]].
      unfold crps_of, part. rewrite Cl, Fm, Fs. cbn [bind].
      assert (El : forall tr : bool, lib (if tr then "crps_truncated_gaussian" else "crps_gaussian") [a_o x; mu; sg] = ilib (if tr then "crps_truncated_gaussian" else "crps_gaussian") [a_o x; mu; sg]) by (intros []; reflexivity).
      rewrite El. unfold integ_lib, same_shape. cbn [forallb]. rewrite (Sh mu Sm), (Sh sg Ss). destruct (truthy (a_trunc x)); reflexivity.
    - exists (val_of (Arr (shape (arr_of (a_o x))) (fun ix => w_crps_gamma C (reads mu ix) (reads sg ix) (reads h ix) (reads (a_o x) ix)))).
      split; [|split; [exact (arr_shape_of (a_o x))|intros ix V; rewrite reads_val by (cbn [shape]; rewrite arr_shape_of; exact V); reflexivity]].
      unfold crps_of, part. rewrite Cl, Tr, Fm, Fs, Fh. cbn [bind].
      change (lib "crps_gamma" [mu; sg; h; a_o x]) with (ilib "crps_gamma" [mu; sg; h; a_o x]).
      unfold integ_lib, same_shape. cbn [forallb]. rewrite (Sh mu Sm), (Sh sg Ss), (Sh h Sd). reflexivity. }
  destruct E as (w & Ew & Sw & Gw). destruct (averaged_result S mlib mlibr x w ax ns 0 B A) as (v & Ec & _ & Sc & Gc); [rewrite Sw; exact X|]. rewrite Sw in Sc, Gc.
  exists v. split; [|split; [exact Sc|]].
  - unfold Props_whole.answers. destruct (reached_result s MCrps FA RE ltac:(constructor)) as [-> _]; [fold x; unfold random_call; rewrite B; reflexivity|]. cbn [Spec_result.result]. fold x. rewrite Ew. exact Ec.
  - intros k L G HC N Hg. apply Gc; [exact HC|exact N|]. intros ix I. rewrite Gw by (apply (proj2 HC), I). apply Hg, I.
Qed.
(** ** The integration of the hurdle verifier in another way: with any number of workers, in any order of completion,
    in memory or with a scratch file (its directory must exist, and Ray must not be running already when there are
    several workers), the numbers are the same *)
Theorem c114_any_way : forall x F lo hi n pyint expand isdir wait k range wd w less dir s f c b d, hurdle x F lo hi n ->
  let v := Verifier (arr_of (a_o x)) (fun q => rmap arr_of (cdf_of lib x (VFloat q))) wd in
  range_of (a_range x) = Some range -> P_integ2.settings_ok pyint s ->
  (exists t, p_env s "pyanen_integrate_range_multiplier" = Some t /\ pyint t = Ok multiplier) ->
  P_integ2.cores_are pyint w s c -> P_integ2.less_is less s b -> P_integ2.dir_is expand dir v s d ->
  (c <> 1%Z -> p_ray s = false) -> (b = true -> isdir d = true /\ prod (arr_shape (a_o x)) <> 0) ->
  exists a, fst (fst (run (M_integ.integrate pyint expand isdir wait k v range n w less dir) s f)) = Ok a /\ shape a = arr_shape (a_o x) /\
  forall ix, Forall2 lt ix (arr_shape (a_o x)) ->
  get a ix = Fin (match k with
                  | KMean => stepwise_mean (knot lo hi n) n (F ix)
                  | KVariance => stepwise_variance (knot lo hi n) n (F ix)
                  | KCrps => stepwise_crps (knot lo hi n) n (F ix) (reads (a_o x) ix) end).
Proof.
  intros x F lo hi n pyint expand isdir wait k range wd w less dir s f c b d H v R O (t & Et & Pt) Co Le Di Ry Rm.
  destruct (h_points _ _ _ _ _ H) as [N Hn]. pose proof (points_ready multiplier otherp x lo hi n (h_ends _ _ _ _ _ H) N) as Px.
  assert (Py : P_integ2.points pyint v range n s = Ok (nlinspace (Fin lo) (Fin hi) n)).
  { rewrite <- Px. unfold points_with. rewrite R, N. unfold P_integ2.points, seq_x. destruct range as [r|]; [reflexivity|]. rewrite Et, Pt. reflexivity. }
  assert (Rows : forall q, exists u, P_integ2.what_of k v (Fin q) = Ok u /\ shape u = shape (v_o v)).
  { intros q. destruct (hurdle_cdf x F lo hi n H q) as (u & Eu & Su & Gu). assert (Ev : v_cdf v (Fin q) = Ok (arr_of u)) by (cbn [v v_cdf]; rewrite Eu; reflexivity).
    assert (Sv : shape (arr_of u) = shape (v_o v)) by (cbn [v v_o]; rewrite !arr_shape_of; exact Su).
    destruct k; [|eexists; split; [exact Ev|exact Sv]|eexists; split; [exact Ev|exact Sv]].
    cbn [P_integ2.what_of]. unfold v_brier. rewrite Ev. cbn [bind]. eexists. split; [reflexivity|]. exact Sv. }
  set (i := Integ v n (nlinspace (Fin lo) (Fin hi) n) c b d).
  assert (G : exists vals, forall j, j < i_nbins i -> P_integ.good i (P_integ2.what_of k (i_v i)) j (vals j)).
  { exists (fun j => match P_integ2.what_of k v (Fin (grid lo hi n j)) with Ok u => u | Raise _ => v_o v end). intros j Hj. unfold P_integ.good. replace (xat i j) with (Fin (grid lo hi n j)) by (symmetry; apply linspace_grid; assumption).
    destruct (Rows (grid lo hi n j)) as (u & E & Su). cbn [i i_v]. rewrite E. split; [reflexivity|exact Su]. }
  destruct G as [vals G]. destruct (Props_integ.settings_reads pyint s O) as (d0 & w0 & Rd).
  destruct (P_integ2.workflow_ok pyint isdir wait i (P_integ2.nlinspace_length _ _ _) k vals s f d0 w0 Rd Ry) as (a & s' & f' & Ra & [Sa _] & _).
  { intros Eb. destruct (Rm Eb) as [I P]. split; [exact I|]. cbn [i i_nbins]. unfold cells. cbn [i i_v v v_o]. rewrite indices_length, arr_shape_of. apply Nat.neq_mul_0. split; [lia|exact P]. }
  { exact G. }
  assert (Rn : fst (fst (run (M_integ.integrate pyint expand isdir wait k v range n w less dir) s f)) = Ok a).
  { unfold M_integ.integrate. rewrite P_integ.run_bind, (P_integ2.new_run pyint expand v _ n w less dir s f c b d O Co Le Di), Py. cbn [rmap]. fold i. rewrite Ra. reflexivity. }
  exists a. split; [exact Rn|]. split; [rewrite Sa; exact (arr_shape_of (a_o x))|]. intros ix V.
  assert (Vo : valid (shape (v_o v)) ix) by (cbn [v v_o]; rewrite arr_shape_of; exact V).
  assert (HF : P_integ3.cell_cdf v ix (F ix)).
  { intros q e E. cbn [v v_cdf] in E. destruct (hurdle_cdf x F lo hi n H q) as (u & Eu & Su & Gu). rewrite Eu in E. cbn [rmap] in E. injection E as <-. exact (Gu ix V). }
  rewrite (integrate_value pyint expand isdir wait k v range lo hi n w less dir s f a ix (F ix) O Py Rn Hn HF Vo). apply (f_equal Fin). cbv zeta.
  change (get (v_o v) ix) with (reads (a_o x) ix). change (grid lo hi n) with (knot lo hi n). destruct k; [|apply mean_sum_words|apply variance_words].
  rewrite <- crps_words. reflexivity.
Qed.
End Program.
Print Assumptions c114_integrals.
Print Assumptions c114_sound.
Print Assumptions c114_errors.
Print Assumptions c114_spread_skill.
Print Assumptions c114_correlation.
Print Assumptions c114_crps.
Print Assumptions c114_any_way.

(** ** Concrete programs: a hurdle verifier with two cells, probability of precipitation 1/2, amounts uniform between 0
    and 4, observations 2 and 0; four points -2, 0, 2, 4 *)
Definition i_laws : laws := {|
  w_scipy := Scipy (fun t m s => Fin 0%Qc) (fun t a b m s => Fin 1%Qc)
                   (fun t k h c => let y := nmul t (ndiv (Fin 1%Qc) (nmul (Fin (qz 2)) (nmul k c))) in if nlt (Fin 1%Qc) y then Fin 1%Qc else y)
                   (fun t a b k h c => Fin 1%Qc);
  w_normal := w_normal Props_whole3.g_laws; w_gamma := w_gamma Props_whole3.g_laws; w_who := w_who Props_whole3.g_laws; w_unif := w_unif Props_whole3.g_laws |}.
Definition i_scores : scores := {| w_crps_normal := fun tr o m s => if tr then NaN else nsq (nsub o m); w_crps_gamma := fun m s h o => nsub m h |}.
Notation i_other := (more_lib e_set (prob_lib e_set i_laws (stat_lib e_set Props_whole4.s_stats (integ_lib i_scores w_lib)))).
Notation i_otherr := (more_libr e_set (fun d i r j => d + i + r + j) (fun d i r j q => d + i + r + j + q) (prob_libr e_set i_laws w_libr)).
Notation i_answers := (Props_whole.answers e_set i_other i_otherr w_str w_dumps w_loads (fun s => s) w_resolve (points_with 1 w_points) false None [] (fun n => n)).
Notation i_reached := (Props_whole.reached e_set i_other i_otherr w_str w_dumps w_loads (fun s => s) w_resolve (points_with 1 w_points) false None [] (fun n => n)).
Definition i_obj (p m s o : nat) : obj := mkObj CHurdle (Props_whole3.h_dict p m s) (VArr [2] o) VNone VNone VNone (VBool true)
    VNone VNone VNone (VBool false) VNone VNone (VInt (-1)) (VBool false) (VInt 4) VNone.
Definition i_state (x : obj) : st := mkSt x w_used 0 [].
Lemma i_constructed p m s o : M_state.construct (whole_lib e_set i_other) (fun s => s) w_resolve (i_obj p m s o) w_used = (Ok (i_obj p m s o), w_used).
Proof. reflexivity. Qed.
Lemma i_is_reached x : truthy (a_wd x) = false -> i_reached (i_state x).
Proof. intros H. right. split; [left; reflexivity|exact H]. Qed.
Ltac qfrac := qc_prep; change (this (Q2Qc (1 # 2))) with (1 # 2)%Q in *; change (this (Q2Qc (1 # 4))) with (1 # 4)%Q in *; lra.
Lemma nlt_true a b : nlt (Fin a) (Fin b) = true -> (a < b)%Qc.
Proof. apply qltb_lt. Qed.
Lemma nlt_false a b : nlt (Fin a) (Fin b) = false -> (b <= a)%Qc.
Proof. apply qltb_ge. Qed.
Definition i_F (ix : list nat) (t : Qc) : Qc :=
  if nlt (Fin 0%Qc) (Fin t) then (Q2Qc (1 # 2) + Q2Qc (1 # 2) * if nlt (Fin 1%Qc) (Fin (t * Q2Qc (1 # 4))) then 1 else t * Q2Qc (1 # 4))%Qc else Q2Qc (1 # 2).
Definition i_O (ix : list nat) : Qc := if Nat.eqb (hd 0 ix) 0 then qz 2 else qz 0.
Lemma i_F_ok ix t : (0 <= i_F ix t)%Qc /\ (i_F ix t <= 1)%Qc.
Proof.
  unfold i_F. destruct (nlt (Fin 0%Qc) (Fin t)) eqn:E; [|split; vm_compute; discriminate]. apply nlt_true in E. destruct (nlt (Fin 1%Qc) _) eqn:E1; [split; vm_compute; discriminate|]. apply nlt_false in E1. split; qfrac.
Qed.
Lemma i_F_mono ix t u : (t <= u)%Qc -> (i_F ix t <= i_F ix u)%Qc.
Proof.
  intros H. unfold i_F. destruct (nlt (Fin 0%Qc) (Fin t)) eqn:E, (nlt (Fin 0%Qc) (Fin u)) eqn:E'; repeat match goal with |- context [nlt ?a ?b] => destruct (nlt a b) eqn:? end;
    repeat match goal with H : nlt (Fin _) (Fin _) = true |- _ => apply nlt_true in H | H : nlt (Fin _) (Fin _) = false |- _ => apply nlt_false in H end; qfrac.
Qed.
Section Hurdle.
Variables p m s o : nat.
Hypothesis Hp : content p = [Fin (Q2Qc (1 # 2)); Fin (Q2Qc (1 # 2))].
Hypothesis Hm : content m = Props_whole3.nums [2; 2]%Z.
Hypothesis Hs : content s = Props_whole3.nums [2; 2]%Z.
Hypothesis Ho : content o = Props_whole3.nums [2; 0]%Z.
Let x := i_obj p m s o.
Let V : forall ix, Forall2 lt ix [2] -> reads (VArr [2] o) ix = Fin (i_O ix).
Proof. unfold reads. cbn [arr_of]. rewrite Ho. apply Props_whole3.two_cells; reflexivity. Qed.
Lemma i_hurdle : hurdle e_set i_laws 1 x i_F (qz (-2)) (qz 4) 4.
Proof.
  constructor.
  - reflexivity.
  - set (f := Hurdle (of_list NaN [2] [Fin (Q2Qc (1 # 2)); Fin (Q2Qc (1 # 2))]) (of_list NaN [2] (Props_whole3.nums [2; 2]%Z)) (of_list NaN [2] (Props_whole3.nums [2; 2]%Z))).
    exists f. split; [unfold forecast_of; cbn; rewrite Hm, Hs, Hp; reflexivity|]. split; [repeat split; reflexivity|]. intros ix t Vi. split; [|apply i_F_ok].
    revert ix Vi. enough (Q : forall i, i < 2 -> Spec_whole3.cell_cdf (w_scipy i_laws) f [i] (Fin t) = Fin (i_F [i] t)) by (apply Props_whole3.two_cells; apply Q; lia).
    intros i Hi. unfold f, Spec_whole3.cell_cdf, i_F. cbn [w_scipy i_laws gamma_cdf].
    assert (E1 : get (of_list NaN [2] [Fin (Q2Qc (1 # 2)); Fin (Q2Qc (1 # 2))]) [i] = Fin (Q2Qc (1 # 2))) by (destruct i as [|[|]]; [reflexivity|reflexivity|lia]).
    assert (E2 : get (of_list NaN [2] (Props_whole3.nums [2; 2]%Z)) [i] = Fin (qz 2)) by (destruct i as [|[|]]; [reflexivity|reflexivity|lia]).
    rewrite E1, E2. match goal with |- context [nmul (Fin t) ?z] => replace z with (Fin (Q2Qc (1 # 4))) by (vm_compute; f_equal; apply Qc_is_canon; reflexivity) end.
    cbn [nmul]. destruct (nlt (Fin 0%Qc) (Fin t)); [|vm_compute; f_equal; apply Qc_is_canon; reflexivity].
    destruct (nlt (Fin 1%Qc) (Fin (t * Q2Qc (1 # 4)))); cbn [nmul nadd nsub nopp]; f_equal; qfrac.
  - split; [discriminate|left; reflexivity].
  - apply (from_observations 1 x (qz (-2)) (qz 4) (qz 0) (qz 2) [1] [0]); try reflexivity; try (repeat constructor; fail).
    + apply V. repeat constructor.
    + apply V. repeat constructor.
    + intros ix Vi. exists (i_O ix). split; [apply V, Vi|]. unfold i_O. destruct (Nat.eqb _ _); split; vm_compute; discriminate.
  - split; [reflexivity|lia].
Qed.
Lemma i_values :
  (exists v w c, i_answers (i_state x) MDeterm v /\ i_answers (i_state x) MVariance w /\ i_answers (i_state x) MCrps c /\
     reads v [0] = Fin (qz 1) /\ reads v [1] = Fin (qz 1) /\ reads w [0] = Fin (qz 2) /\ reads c [] = Fin (Q2Qc (11 # 8))) /\
  (exists e, i_answers (i_state x) MError e /\ reads e [] = Fin (qz 0)) /\
  (exists r, i_answers (i_state x) MCorr r /\ reads r [] = NaN).
Proof.
  pose proof i_hurdle as H. pose proof (i_is_reached x eq_refl) as RE. pose proof e_faithful as FA. assert (Nl : [[0]; [1]] <> []) by discriminate. split; [|split].
  - destruct (c114_integrals e_set i_laws Props_whole4.s_stats i_scores 1 (fun d i r j => d + i + r + j) (fun d i r j q => d + i + r + j + q) w_lib w_libr w_str w_dumps w_loads (fun s => s) w_resolve w_points false None [] (fun n => n)
      (i_state x) i_F (qz (-2)) (qz 4) 4 None [0] FA RE H eq_refl eq_refl eq_refl) as (v & w & c & A1 & A2 & A3 & _ & _ & _ & G & Gc).
    exists v, w, c. split; [exact A1|]. split; [exact A2|]. split; [exact A3|]. destruct (G [0] ltac:(repeat constructor)) as [G1 G2], (G [1] ltac:(repeat constructor)) as [G3 _]. rewrite G1, G2, G3, (Gc [] [[0]; [1]] cells_2 Nl).
    cbn [ob i_state x i_obj a_o map]. rewrite !V by repeat constructor. repeat split; qnum.
  - destruct (c114_errors e_set i_laws Props_whole4.s_stats i_scores 1 (fun d i r j => d + i + r + j) (fun d i r j q => d + i + r + j + q) w_lib w_libr w_str w_dumps w_loads (fun s => s) w_resolve w_points false None [] (fun n => n)
      (i_state x) i_F (qz (-2)) (qz 4) 4 None [0] [] [[0]; [1]] i_O FA RE H eq_refl eq_refl eq_refl cells_2 Nl) as (e & sq & ab & A & _ & _ & _ & _ & _ & G & _).
    { intros ix I. apply V. destruct I as [<-|[<-|[]]]; repeat constructor. }
    exists e. split; [exact A|]. rewrite G. qnum.
  - destruct (c114_correlation e_set i_laws Props_whole4.s_stats i_scores 1 (fun d i r j => d + i + r + j) (fun d i r j q => d + i + r + j + q) w_lib w_libr w_str w_dumps w_loads (fun s => s) w_resolve w_points false None [] (fun n => n)
      (i_state x) i_F (qz (-2)) (qz 4) 4 None [0] FA RE H eq_refl eq_refl eq_refl I ltac:(cbn; lia)) as (r & A & _ & G).
    exists r. split; [exact A|]. destruct (G [] [[0]; [1]] ltac:(constructor) cells_2) as (U & P & ->).
    assert (E : U = [[0]; [1]] \/ U = [[1]; [0]]).
    { apply Permutation_sym in P. cbn [skip_nan w_boot e_set ex_env filter] in P. exact (Permutation_length_2_inv P). }
    cbn [ob i_state x i_obj a_o]. destruct E as [-> | ->]; cbn [map]; rewrite !V by repeat constructor; vm_compute; reflexivity.
Qed.
(** one bin: the root of the mean variance 2 is not a number of the example; the squared errors are 1 and 1 *)
Lemma i_spread_skill : exists sp rm, i_answers (i_state x) (MSS (VInt 1)) (VTuple [sp; rm]) /\ reads rm [0] = Fin (qz 1).
Proof.
  destruct (c114_spread_skill e_set i_laws Props_whole4.s_stats i_scores 1 (fun d i r j => d + i + r + j) (fun d i r j q => d + i + r + j + q) w_lib w_libr w_str w_dumps w_loads (fun s => s) w_resolve w_points false None [] (fun n => n)
      (i_state x) i_F (qz (-2)) (qz 4) 4 1 None [0] 2 i_O e_faithful (i_is_reached x eq_refl) argsort_ex_ok i_hurdle V eq_refl eq_refl eq_refl I ltac:(discriminate) eq_refl ltac:(lia)) as (sp & rm & A & _ & _ & G).
  exists sp, rm. split; [exact A|]. destruct (G [] [[0]; [1]] ltac:(constructor) cells_2) as (Bs & (L & P & _) & Gb). destruct Bs as [|B [|]]; try discriminate L. cbn [concat] in P. rewrite app_nil_r in P.
  change (reads rm [0]) with (reads rm ([] ++ [0])). rewrite (proj2 (Gb 0 ltac:(lia))). cbn [nth]. apply Permutation_sym in P. apply Permutation_length_2_inv in P. destruct P as [-> | ->]; vm_compute; f_equal; apply Qc_is_canon; reflexivity.
Qed.
End Hurdle.
(** the Gaussian verifier with the means 1 and 3, the observations 2 and 0 and, as the score of a cell, the squared
    distance of the two *)
Lemma i_gaussian m s o : content m = Props_whole3.nums [1; 3]%Z -> content s = Props_whole3.nums [1; 2]%Z -> content o = Props_whole3.nums [2; 0]%Z ->
  let x := Props_whole3.g_obj CGaussian (Props_whole3.g_dict m s) o VNone VNone false in
  exists v, i_answers (i_state x) MCrps v /\ reads v [] = Fin (qz 5).
Proof.
  intros Hm Hs Ho x.
  destruct (c114_crps e_set i_laws Props_whole4.s_stats i_scores 1 (fun d i r j => d + i + r + j) (fun d i r j q => d + i + r + j + q) w_lib w_libr w_str w_dumps w_loads (fun s => s) w_resolve w_points false None [] (fun n => n)
      (i_state x) _ None [0] e_faithful (i_is_reached x eq_refl) (s_normal i_scores x (VArr [2] m) (VArr [2] s) eq_refl eq_refl eq_refl eq_refl eq_refl) eq_refl eq_refl eq_refl) as (v & A & _ & G).
  exists v. split; [exact A|]. rewrite (G [] [[0]; [1]] (fun ix => if Nat.eqb (hd 0 ix) 0 then qz 1 else qz 9) cells_2 ltac:(discriminate)); [qnum|].
  unfold reads. cbn [ob i_state x Props_whole3.g_obj a_o a_trunc arr_of]. rewrite Hm, Hs, Ho. intros ix [<-|[<-|[]]]; vm_compute; f_equal; apply Qc_is_canon; reflexivity.
Qed.
Definition i_proc (workers less : string) : proc :=
  Proc (fun x => if String.eqb x "pyanen_integrate_range_multiplier" then Some "1" else p_env (Props_integ.w_proc workers less) x) false.
(** the same variances from four workers with a scratch file *)
Lemma i_any_way p m s o : content p = [Fin (Q2Qc (1 # 2)); Fin (Q2Qc (1 # 2))] -> content m = Props_whole3.nums [2; 2]%Z -> content s = Props_whole3.nums [2; 2]%Z -> content o = Props_whole3.nums [2; 0]%Z ->
  let x := i_obj p m s o in let v := Verifier (arr_of (a_o x)) (fun q => rmap arr_of (cdf_of (whole_lib e_set i_other) x (VFloat q))) None in
  exists a, fst (fst (run (M_integ.integrate Props_integ.w_pyint Props_integ.w_home Props_integ.w_isdir Props_integ.last_ KVariance v None 4 None None None) (i_proc "4" "True") Props_integ.w_files)) = Ok a /\ get a [1] = Fin (qz 2).
Proof.
  intros Hp Hm Hs Ho x v.
  destruct (c114_any_way e_set i_laws Props_whole4.s_stats i_scores 1 w_lib w_points x i_F (qz (-2)) (qz 4) 4 Props_integ.w_pyint Props_integ.w_home Props_integ.w_isdir Props_integ.last_ KVariance None None None None None (i_proc "4" "True") Props_integ.w_files 4 true "/tmp") as (a & E & _ & G).
  - apply i_hurdle; assumption.
  - reflexivity.
  - unfold P_integ2.settings_ok. repeat split; repeat eexists; reflexivity.
  - exists "1". split; reflexivity.
  - exists "4". split; reflexivity.
  - exists "True". split; reflexivity.
  - reflexivity.
  - reflexivity.
  - intros _. split; [reflexivity|discriminate].
  - exists a. split; [exact E|]. rewrite (G [1] ltac:(repeat constructor)). qnum.
Qed.
Example c114_nonvacuous :
  let half := [Fin (Q2Qc (1 # 2)); Fin (Q2Qc (1 # 2))] in let two := Props_whole3.nums [2; 2]%Z in let obs := Props_whole3.nums [2; 0]%Z in let x := i_obj (store half) (store two) (store two) (store obs) in
  (exists v w c, i_answers (i_state x) MDeterm v /\ i_answers (i_state x) MVariance w /\ i_answers (i_state x) MCrps c /\
     reads v [0] = Fin (qz 1) /\ reads v [1] = Fin (qz 1) /\ reads w [0] = Fin (qz 2) /\ reads c [] = Fin (Q2Qc (11 # 8))) /\
  (exists e, i_answers (i_state x) MError e /\ reads e [] = Fin (qz 0)) /\
  (exists r, i_answers (i_state x) MCorr r /\ reads r [] = NaN) /\
  (exists v, i_answers (i_state (Props_whole3.g_obj CGaussian (Props_whole3.g_dict (store (Props_whole3.nums [1; 3]%Z)) (store (Props_whole3.nums [1; 2]%Z))) (store obs) VNone VNone false)) MCrps v /\ reads v [] = Fin (qz 5)).
Proof.
  intros half two obs x. destruct (i_values _ _ _ _ (content_store half) (content_store two) (content_store two) (content_store obs)) as (A & B & D). split; [exact A|]. split; [exact B|]. split; [exact D|].
  exact (i_gaussian _ _ _ (content_store _) (content_store _) (content_store _)).
Qed.
