(** Property C85: the public metrics of the whole program, from constructor to numbers: what a call returns after any
    history of calls and settings, with or without saved files, in terms of the forecasts and the observations. *)
From Coq Require Import String ZArith List Lia Bool Arith QArith Qcanon.
From Verif Require Import QcTac QSum Num NdArr Numpy NdAxes M_common M_boot M_determ M_ens M_crpsens M_iou M_roc M_dist M_ps
  Spec P_boot P_rank P_prob P_dist P_ps Props_avg Props_prob Props_ps Props_iou Store M_state Spec_state P_state P_codec Spec_result P_result Props_state Props_result
  M_whole Spec_whole P_whole.
From Verif Require Props_crpsens Props_ens.
Import ListNotations.
Open Scope string_scope.
Open Scope list_scope.
Open Scope nat_scope.

(** ** How arguments are read *)
Definition is_number (t : M_state.val) (q : num) : Prop := t = VFloat q \/ exists z, t = VInt z /\ q = Fin (qz z).
Theorem c85_encoding :
  (forall sh d, length (content d) = prod sh -> shape (arr_of (VArr sh d)) = sh /\ ravel (arr_of (VArr sh d)) = content d) /\
  (forall a, shape (arr_of (val_of a)) = shape a /\ forall ix, Forall2 lt ix (shape a) -> reads (val_of a) ix = get a ix) /\
  (forall t q, is_number t q -> shape (arr_of t) = [] /\ reads t [] = q /\ thr_of t = Some (Some (TScalar q)) /\ scalar_of t = Some q /\ num_of t = Some (Some q)) /\
  (forall sh d, thr_of (VArr sh d) = Some (Some (TArray (arr_of (VArr sh d))))) /\
  (forall l, thr_of (VTuple l) = Some (Some TSeq) /\ thr_of (VList l) = Some (Some TSeq)) /\
  (thr_of VNone = Some None /\ num_of VNone = Some None /\ axes_of VNone = Some None) /\
  (forall l, axes_of (VTuple (map VInt l)) = Some (Some l)) /\
  (forall n, count_of (VInt (Z.of_nat n)) = Some n /\ forall z, (z < 0)%Z -> count_of (VInt z) = None).
Proof.
  split; [|split; [|split; [|split; [|split; [|split; [|split]]]]]].
  - intros sh d L. split; [reflexivity|]. apply ravel_of_list, L.
  - intros a. destruct (arr_of_val a) as [A B]. split; [exact A|exact B].
  - intros t q [->|(z & -> & ->)]; repeat split.
  - reflexivity.
  - intros l. split; reflexivity.
  - repeat split.
  - intros l. cbn [axes_of]. assert (I : forallb is_int (map VInt l) = true) by (apply forallb_forall; intros v Hv; apply in_map_iff in Hv; destruct Hv as (z & <- & _); reflexivity).
    rewrite I, map_map. cbn [int_of]. rewrite map_id. reflexivity.
  - intros n. cbn [count_of]. split; [destruct (Z.leb_spec 0 (Z.of_nat n)); [rewrite Nat2Z.id; reflexivity|lia]|]. intros z H. destruct (Z.leb_spec 0 z); [lia|reflexivity].
Qed.
Print Assumptions c85_encoding.
Example c85_encoding_case : is_number (VInt 5) (Fin (qz 5)) /\ arr_shape (val_of (of_list NaN [2] [Fin (qz 1); Fin (qz 2)])) = [2] /\ reads (val_of (of_list NaN [2] [Fin (qz 1); Fin (qz 2)])) [1] = Fin (qz 2).
Proof. split; [right; exists 5%Z; split; reflexivity|]. split; [reflexivity|]. rewrite (proj2 (proj1 (proj2 c85_encoding) _)) by (repeat constructor). reflexivity. Qed.

Section Program.
Variable S : settings.
Variable other : string -> list M_state.val -> res M_state.val.
Variable otherr : string -> list M_state.val -> nat -> res M_state.val.
Variable str_of : M_state.val -> string.
Variable dumps : M_state.val -> string.
Variable loads : string -> res M_state.val.
Variable expanduser : string -> string.
Variable resolve : string -> path.
Variable points : M_state.val -> M_state.val -> M_state.val -> res (list num).
Variable less_memory : bool.
Variable integrate_wdir : option path.
Variable cwd : path.
Variable rng : nat -> nat.

Notation lib := (whole_lib S other).
Notation libr := (whole_libr S otherr).
Notation step := (M_state.step lib libr str_of dumps loads expanduser resolve points less_memory integrate_wdir cwd rng).
Notation steps := (M_state.steps lib libr str_of dumps loads expanduser resolve points less_memory integrate_wdir cwd rng).
Notation construct := (M_state.construct lib expanduser resolve).
Notation result := (Spec_result.result lib libr points).

(** names and files work *)
Definition faithful : Prop :=
  text_faithful str_of /\ pickle_faithful dumps loads /\ (forall s, expanduser (expanduser s) = expanduser s).
(** a verifier constructed with start_from_scratch=True and used in any way (without enable_saving); or any verifier
    that does not save *)
Definition reached (s : st) : Prop :=
  (exists x k x1 k1 os n, mem_off less_memory x /\ disk_wf k /\ a_scratch x = VBool true /\ construct x k = (Ok x1, k1) /\
     Forall calm os /\ s = snd (steps os (mkSt x1 k1 n []))) \/
  (mem_off less_memory (ob s) /\ truthy (a_wd (ob s)) = false).
Definition answers (s : st) (m : meth) (v : M_state.val) : Prop := fst (step (OMetric m None) s) = Ok v.

Lemma reached_result s m : faithful -> reached s -> key_ok m -> random_call (ob s) m = false ->
  fst (step (OMetric m None) s) = result (ob s) m (fun _ => 0) /\
  (m = MSqErr -> fst (step (ORmse None) s) = (v <- result (ob s) m (fun _ => 0) ;; lib "sqrt" [v])).
Proof.
  intros (TX & PK & EX) [(x & k & x1 & k1 & os & n & M & WF & SC & C & F & ->)|[M T]] K R.
  - exact (c83_history lib libr str_of dumps loads expanduser resolve points less_memory integrate_wdir cwd rng x k x1 k1 os m n (fun _ => 0) TX PK EX M WF SC C F K R).
  - pose proof (fun d d' => result_det lib libr points (ob s) m d d' R) as D. split.
    + destruct (c83_saving_off lib libr str_of dumps loads expanduser resolve points less_memory integrate_wdir cwd rng m None s M T K (or_introl eq_refl)) as [-> _]. apply D.
    + intros ->. rewrite (c83_rmse lib libr str_of dumps loads expanduser resolve points less_memory integrate_wdir cwd rng None s M T). rewrite (D _ (fun _ => 0)). reflexivity.
Qed.

(** The forecast of the errors: that of a VerifyDeterm, the collapsed one of a VerifyEnsemble. *)
Definition point (x : obj) : M_state.val := match cl x with CDeterm => a_f x | _ => a_fc x end.

Lemma averaged_result x w ax ns d : a_boot x = VNone -> axes_of (a_avg x) = Some ax -> axes_are (length (arr_shape w)) ax ns ->
  exists v, averaged_over lib libr x (Ok w) d = Ok v /\ is_arr v = true /\ arr_shape v = kept (length (arr_shape w)) ns (arr_shape w) /\
    forall k L G, Cells (arr_shape w) ns k L -> L <> [] -> (forall ix, In ix L -> reads w ix = Fin (G ix)) -> reads v k = Fin (Spec.mean_of (map G L)).
Proof.
  intros B A X. unfold averaged_over, with_boot. rewrite B. cbn [is_none bind]. pose proof (averaged_value S other w (a_avg x) ax ns A) as H. rewrite arr_shape_of in H. exact (H X).
Qed.

(** ** Errors: the means over the cells that are averaged, rmse the root of the mean square *)
Theorem c85_errors : forall s ax ns k L F O, faithful -> reached s ->
  let x := ob s in
  cl x = CDeterm \/ cl x = CEnsemble -> a_boot x = VNone -> axes_of (a_avg x) = Some ax ->
  arr_shape (point x) = arr_shape (a_o x) -> axes_are (length (arr_shape (a_o x))) ax ns ->
  Cells (arr_shape (a_o x)) ns k L -> L <> [] ->
  (forall ix, In ix L -> reads (point x) ix = Fin (F ix) /\ reads (a_o x) ix = Fin (O ix)) ->
  exists e sq ab, answers s MError e /\ answers s MSqErr sq /\ answers s MAbErr ab /\
    arr_shape e = kept (length (arr_shape (a_o x))) ns (arr_shape (a_o x)) /\ arr_shape sq = arr_shape e /\ arr_shape ab = arr_shape e /\
    reads e k = Fin (Spec.mean_of (map (fun ix => F ix - O ix)%Qc L)) /\
    reads sq k = Fin (Spec.mean_of (map (fun ix => (F ix - O ix) * (F ix - O ix))%Qc L)) /\
    reads ab k = Fin (Spec.mean_of (map (fun ix => qdist (F ix) (O ix)) L)) /\
    fst (step (ORmse None) s) = other "sqrt" [sq].
Proof.
  intros s ax ns k L F O FA RE x C B A Sh X HC N V.
  assert (Pf : point_forecast lib points x = Ok (point x)) by (unfold point_forecast, point; destruct C as [-> | ->]; reflexivity).
  assert (Vf : forall ix, In ix L -> valid (shape (arr_of (point x))) ix) by (intros ix I; rewrite arr_shape_of, Sh; apply (proj2 HC), I).
  assert (Q : forall (m : meth) (n : string) (g : arr num -> arr num -> arr num) (h : Qc -> Qc -> Qc), key_ok m -> random_call x m = false ->
    (forall d, result x m d = averaged_over lib libr x (error_of lib points x n) (d 0)) ->
    lib n [point x; a_o x] = Ok (val_of (g (arr_of (point x)) (arr_of (a_o x)))) ->
    (forall a b, shape (g a b) = shape a) -> (forall a b ix y z, get a ix = Fin y -> get b ix = Fin z -> get (g a b) ix = Fin (h y z)) ->
    exists v, answers s m v /\ result x m (fun _ => 0) = Ok v /\ arr_shape v = kept (length (arr_shape (a_o x))) ns (arr_shape (a_o x)) /\
      reads v k = Fin (Spec.mean_of (map (fun ix => h (F ix) (O ix)) L))).
  { intros m n g h K R Rm Ln Sg Gg. set (w := val_of (g (arr_of (point x)) (arr_of (a_o x)))) in *.
    assert (Sw : arr_shape w = arr_shape (a_o x)) by (rewrite <- Sh, <- (arr_shape_of (point x)); exact (Sg _ _)).
    destruct (averaged_result x w ax ns 0 B A) as (v & Ev & Av & Sv & Gv); [rewrite Sw; exact X|]. rewrite Sw in Sv, Gv.
    assert (Er : result x m (fun _ => 0) = Ok v) by (rewrite Rm; unfold error_of; rewrite Pf; cbn [bind]; rewrite Ln; exact Ev).
    exists v. split; [unfold answers; rewrite (proj1 (reached_result s m FA RE K R)); exact Er|]. split; [exact Er|]. split; [exact Sv|].
    apply Gv; [exact HC|exact N|]. intros ix I. unfold w. rewrite reads_val by (rewrite Sg; apply Vf, I). destruct (V ix I). apply Gg; assumption. }
  assert (R : forall m, m = MError \/ m = MSqErr \/ m = MAbErr -> random_call x m = false) by (intros m [-> |[-> | ->]]; unfold random_call; rewrite B; reflexivity).
  destruct (Q MError "sub" cell_error (fun y z => y - z)%Qc ltac:(constructor) ltac:(apply R; auto) ltac:(reflexivity) ltac:(reflexivity) ltac:(reflexivity)) as (e & E1 & _ & E3 & E4).
  { intros a b ix y z Ea Eb. cbn [cell_error amap2 get]. rewrite Ea, Eb. reflexivity. }
  destruct (Q MSqErr "sub_sq" cell_sq_error (fun y z => (y - z) * (y - z))%Qc ltac:(constructor) ltac:(apply R; auto) ltac:(reflexivity) ltac:(reflexivity) ltac:(reflexivity)) as (sq & S1 & S2 & S3 & S4).
  { intros a b ix y z Ea Eb. cbn [cell_sq_error amap2 get]. rewrite Ea, Eb. reflexivity. }
  destruct (Q MAbErr "sub_abs" cell_ab_error qdist ltac:(constructor) ltac:(apply R; auto) ltac:(reflexivity) ltac:(reflexivity) ltac:(reflexivity)) as (ab & A1 & _ & A3 & A4).
  { intros a b ix y z Ea Eb. cbn [cell_ab_error amap2 get]. rewrite Ea, Eb, qdist_abs. reflexivity. }
  exists e, sq, ab. repeat (split; [solve [assumption|congruence]|]).
  destruct (reached_result s MSqErr FA RE ltac:(constructor) ltac:(apply R; auto)) as [_ Rs]. fold x in Rs. rewrite (Rs eq_refl), S2. reflexivity.
Qed.

(** ** Probability of an event: the share of the members *)
Definition over_of (over : bool) (t : M_state.val) : M_state.val := if over then t else VNone.
Definition below_of (over : bool) (t : M_state.val) : M_state.val := if over then VNone else t.
Definition threshold_ok (t : M_state.val) : Prop := Spec_state.good t \/ long_array t.
(** an ensemble verifier, settings and a threshold that the functions accept *)
Definition ensemble_ready (x : obj) (n : nat) (t : M_state.val) (b : thr) : Prop :=
  cl x = CEnsemble /\ w_method S = Moments /\ fits (arr_of (a_o x)) (arr_of (a_f x)) (int_of (a_eaxis x)) n /\ 0 < nth n (arr_shape (a_f x)) 0 /\
  enough_workers (w_workers S) (arr_shape (a_o x)) /\ thr_of t = Some (Some b) /\ thr_fits b (arr_shape (a_o x)).

Lemma none_good : Spec_state.good VNone. Proof. constructor. Qed.
Lemma ready_prob x n t b (over : bool) : ensemble_ready x n t b ->
  exists v, event_prob lib x (over_of over t) (below_of over t) = Ok v /\ arr_shape v = arr_shape (a_o x) /\
    forall ix, valid (arr_shape (a_o x)) ix -> reads v ix = Fin (member_share over (thr_at b ix) (members_at n (arr_of (a_f x)) ix)).
Proof.
  intros (C & M & Fi & Pos & W & T & TF). rewrite <- (arr_shape_of (a_o x)) in *. rewrite <- (arr_shape_of (a_f x)) in *.
  destruct (event_prob_value S other x n t b over C M Fi Pos W T TF) as (v & E & _ & Sv & Gv). exists v. destruct over; auto.
Qed.
Lemma ready_outcome x n t b (over : bool) : ensemble_ready x n t b ->
  exists v, lib "binarize_obs" [a_o x; over_of over t; below_of over t] = Ok v /\ arr_shape v = arr_shape (a_o x) /\
    forall ix, valid (arr_shape (a_o x)) ix -> reads v ix = Fin (indicator (observed over (thr_at b ix) (reads (a_o x) ix))).
Proof.
  intros (_ & _ & _ & _ & _ & T & TF). rewrite <- (arr_shape_of (a_o x)) in *.
  destruct (outcome_value S other x t b over T TF) as (v & E & _ & Sv & Gv). exists v. destruct over; auto.
Qed.
Lemma threshold_key (over : bool) t (f : M_state.val -> M_state.val -> meth) :
  threshold_ok t -> (forall o b, key_ok (f o b) = Forall (fun p => Spec_state.good (snd p) \/ long_array (snd p)) [("over", o); ("below", b)]) -> key_ok (f (over_of over t) (below_of over t)).
Proof. intros H ->. destruct over; (apply Forall_cons; [|apply Forall_cons; [|apply Forall_nil]]); cbn [snd over_of below_of]; try exact H; left; exact none_good. Qed.

Theorem c85_probability : forall s (over : bool) t b n, faithful -> reached s ->
  let x := ob s in ensemble_ready x n t b -> threshold_ok t ->
  exists v, answers s (MCdf (over_of over t) (below_of over t)) v /\ answers s (MSharp (over_of over t) (below_of over t)) v /\
    arr_shape v = arr_shape (a_o x) /\
    forall ix, Forall2 lt ix (arr_shape (a_o x)) -> reads v ix = Fin (member_share over (thr_at b ix) (members_at n (arr_of (a_f x)) ix)).
Proof.
  intros s over t b n FA RE x H T. destruct (ready_prob x n t b over H) as (v & E & Sv & Gv). exists v.
  split; [|split; [|split; [exact Sv|exact Gv]]]; unfold answers; (edestruct (reached_result s) as [-> _]; [exact FA|exact RE|apply threshold_key; [exact T|reflexivity]|reflexivity|exact E]).
Qed.

(** ** Brier score: the mean squared distance of the probability to the outcome *)
Theorem c85_brier : forall s (over : bool) t b n ax ns k L, faithful -> reached s ->
  let x := ob s in ensemble_ready x n t b -> threshold_ok t ->
  a_boot x = VNone -> axes_of (a_avg x) = Some ax -> axes_are (length (arr_shape (a_o x))) ax ns ->
  Cells (arr_shape (a_o x)) ns k L -> L <> [] ->
  exists v, answers s (MBrier (over_of over t) (below_of over t)) v /\
    arr_shape v = kept (length (arr_shape (a_o x))) ns (arr_shape (a_o x)) /\
    reads v k = Fin (Spec.mean_of (map (fun ix =>
      let d := (member_share over (thr_at b ix) (members_at n (arr_of (a_f x)) ix) - indicator (observed over (thr_at b ix) (reads (a_o x) ix)))%Qc in (d * d)%Qc) L)).
Proof.
  intros s over t b n ax ns k L FA RE x H T B A X HC N.
  destruct (ready_prob x n t b over H) as (p & Ep & Sp & Gp). destruct (ready_outcome x n t b over H) as (o & Eo & So & Go).
  set (w := val_of (cell_sq_error (arr_of p) (arr_of o))). assert (Sw : arr_shape w = arr_shape (a_o x)) by (rewrite <- Sp, <- (arr_shape_of p); reflexivity).
  destruct (averaged_result x w ax ns 0 B A) as (v & Ev & _ & Sv & Gv); [rewrite Sw; exact X|]. rewrite Sw in Sv, Gv. exists v.
  split; [|split; [exact Sv|]].
  - unfold answers. edestruct (reached_result s) as [-> _]; [exact FA|exact RE|apply threshold_key; [exact T|reflexivity]|fold x; unfold random_call; rewrite B; reflexivity|].
    cbn [Spec_result.result]. fold x. unfold brier_of, event_pair. rewrite Ep. cbn [bind]. rewrite Eo. exact Ev.
  - apply Gv; [exact HC|exact N|]. intros ix I. assert (V : valid (arr_shape (a_o x)) ix) by apply (proj2 HC), I.
    unfold w. rewrite reads_val by (cbn [cell_sq_error amap2 shape]; rewrite arr_shape_of, Sp; exact V). cbn [cell_sq_error amap2 get].
    change (get (arr_of p) ix) with (reads p ix). change (get (arr_of o) ix) with (reads o ix). rewrite (Gp ix V), (Go ix V). reflexivity.
Qed.

(** ** ROC area: the share of the pairs of a case without and a case with the event whose probabilities are ordered
    that way, ties counting one half *)
Theorem c85_roc : forall s (over : bool) t b n, faithful -> reached s ->
  let x := ob s in ensemble_ready x n t b -> threshold_ok t ->
  let ev ix := observed over (thr_at b ix) (reads (a_o x) ix) in
  let E := filter ev (indices (arr_shape (a_o x))) in let N := filter (fun ix => negb (ev ix)) (indices (arr_shape (a_o x))) in
  E <> [] -> N <> [] ->
  exists fpr tpr, answers s (MRoc (over_of over t) (below_of over t)) (VTuple [fpr; tpr;
    VFloat (Fin (roc_area (fun ix => member_share over (thr_at b ix) (members_at n (arr_of (a_f x)) ix)) N E))]).
Proof.
  intros s over t b n FA RE x H T ev E N HE HN.
  destruct (ready_prob x n t b over H) as (p & Ep & Sp & Gp). destruct (ready_outcome x n t b over H) as (o & Eo & So & Go).
  destruct (roc_value S (arr_of p) (arr_of o) (fun ix => member_share over (thr_at b ix) (members_at n (arr_of (a_f x)) ix)) ev) as (fpr & tpr & Er);
    rewrite ?arr_shape_of, ?Sp, ?So; try assumption; [reflexivity|].
  rewrite arr_shape_of, Sp in Er. exists (vec_of fpr), (vec_of tpr).
  unfold answers. edestruct (reached_result s) as [-> _]; [exact FA|exact RE|apply threshold_key; [exact T|reflexivity]|reflexivity|].
  cbn [Spec_result.result]. fold x. unfold event_pair. rewrite Ep. cbn [bind]. rewrite Eo. cbn [bind].
  change (lib "calculate_roc" [p; o]) with (rmap (fun r => VTuple [vec_of (fst (fst r)); vec_of (snd (fst r)); VFloat (snd r)]) (calculate_roc (skip_nan (w_boot S)) (arr_of p) (bools (arr_of o)))).
  rewrite Er. reflexivity.
Qed.

(** ** CRPS: the mean of mean distance to the observation minus half of the mean distance of two members *)
Theorem c85_crps : forall s n ax ns k L O M, faithful -> reached s ->
  let x := ob s in
  cl x = CEnsemble -> properscoring (w_cell S) -> fits (arr_of (a_o x)) (arr_of (a_f x)) (int_of (a_eaxis x)) n -> 0 < nth n (arr_shape (a_f x)) 0 ->
  w_split S = false \/ arr_shape (a_o x) <> [] ->
  a_boot x = VNone -> axes_of (a_avg x) = Some ax -> axes_are (length (arr_shape (a_o x))) ax ns ->
  Cells (arr_shape (a_o x)) ns k L -> L <> [] ->
  (forall ix, In ix L -> reads (a_o x) ix = Fin (O ix) /\ members_at n (arr_of (a_f x)) ix = map Fin (M ix)) ->
  exists v, answers s MCrps v /\ arr_shape v = kept (length (arr_shape (a_o x))) ns (arr_shape (a_o x)) /\
    reads v k = Fin (Spec.mean_of (map (fun ix => crps_formula (O ix) (M ix)) L)).
Proof.
  intros s n ax ns k L O M FA RE x C PS Fi Pos Sp B A X HC N V.
  assert (Q : exists c, crps (w_cell S) (w_split S) (arr_of (a_o x)) (arr_of (a_f x)) (int_of (a_eaxis x)) = Ok c /\ shape c = arr_shape (a_o x) /\
    forall ix, valid (arr_shape (a_o x)) ix -> get c ix = w_cell S (reads (a_o x) ix) (members_at n (arr_of (a_f x)) ix)).
  { destruct (crps_cells (w_cell S) _ _ _ _ Fi) as (c & Ec & Sc & Gc). rewrite arr_shape_of in Sc, Gc. destruct (w_split S); [|exists c; auto]. destruct Sp as [Sp|Sp]; [discriminate|].
    destruct (Props_crpsens.c54_split_partial (w_cell S) (arr_of (a_o x)) (arr_of (a_f x)) (int_of (a_eaxis x)) n (fits_old _ _ _ _ Fi)) as (c1 & c2 & E1 & E2 & [S12 G12] & _).
    - rewrite arr_shape_of. exact Sp.
    - rewrite arr_shape_of. intros Z. destruct L as [|ix L]; [elim N; reflexivity|]. pose proof (proj1 (proj1 (proj2 HC ix) (or_introl eq_refl))) as Vx. destruct (arr_shape (a_o x)) as [|d r]; [elim Sp; reflexivity|]. cbn in Z. subst d. inversion Vx. lia.
    - rewrite Ec in E2. injection E2 as <-. exists c1. split; [exact E1|]. rewrite <- Sc. split; [exact S12|]. intros ix Vx. rewrite <- S12 in Vx. rewrite (G12 ix Vx). apply Gc. rewrite <- Sc, <- S12. exact Vx. }
  destruct Q as (c & Ec & Sc & Gc). set (w := val_of c). assert (Sw : arr_shape w = arr_shape (a_o x)) by exact Sc.
  destruct (averaged_result x w ax ns 0 B A) as (v & Ev & _ & Sv & Gv); [rewrite Sw; exact X|]. rewrite Sw in Sv, Gv. exists v.
  split; [|split; [exact Sv|]].
  - unfold answers. edestruct (reached_result s) as [-> _]; [exact FA|exact RE|constructor|fold x; unfold random_call; rewrite B; reflexivity|].
    cbn [Spec_result.result]. fold x. unfold Spec_result.crps_of. rewrite C.
    change (lib "crps_ensemble" [a_o x; a_f x; a_eaxis x]) with (rmap val_of (crps (w_cell S) (w_split S) (arr_of (a_o x)) (arr_of (a_f x)) (int_of (a_eaxis x)))).
    rewrite Ec. exact Ev.
  - apply Gv; [exact HC|exact N|]. intros ix I. assert (Vx : valid (arr_shape (a_o x)) ix) by apply (proj2 HC), I. destruct (V ix I) as [Vo Vm].
    unfold w. rewrite reads_val by (rewrite Sc; exact Vx). rewrite (Gc ix Vx), Vo.
    assert (Mn : M ix <> []). { intros Z. rewrite Z in Vm. apply (f_equal (@length num)) in Vm. unfold members_at in Vm. rewrite map_length, seq_length, arr_shape_of in Vm. cbn in Vm. lia. }
    rewrite (cell_value (w_cell S) (O ix) (members_at n (arr_of (a_f x)) ix) (M ix) PS ltac:(rewrite Vm; apply good_all) Mn), crps_formula_of by exact Mn. reflexivity.
Qed.
(** ** Spread: the mean of the differences between largest and smallest member *)
Theorem c85_spread : forall s n ax ns k L hi lo M, faithful -> reached s ->
  let x := ob s in
  cl x = CEnsemble -> fits (arr_of (a_o x)) (arr_of (a_f x)) (int_of (a_eaxis x)) n -> 0 < nth n (arr_shape (a_f x)) 0 ->
  a_boot x = VNone -> axes_of (a_avg x) = Some ax -> axes_are (length (arr_shape (a_o x))) ax ns ->
  Cells (arr_shape (a_o x)) ns k L -> L <> [] ->
  (forall ix, In ix L -> members_at n (arr_of (a_f x)) ix = map Fin (M ix) /\
     In (hi ix) (M ix) /\ In (lo ix) (M ix) /\ forall m, In m (M ix) -> (lo ix <= m)%Qc /\ (m <= hi ix)%Qc) ->
  exists v, answers s MSpread v /\ arr_shape v = kept (length (arr_shape (a_o x))) ns (arr_shape (a_o x)) /\
    reads v k = Fin (Spec.mean_of (map (fun ix => hi ix - lo ix)%Qc L)).
Proof.
  intros s n ax ns k L hi lo M FA RE x C [Ax D] Pos B A X HC N V.
  rewrite <- (arr_shape_of (a_f x)) in Pos. rewrite (arr_shape_of (a_o x)) in D.
  destruct (spread_along_ok (skip_nan (w_boot S)) (int_of (a_eaxis x)) (arr_of (a_f x)) n Ax Pos) as (c & Ec).
  destruct (spread_along_inv _ _ _ _ _ Ax Ec) as (Sc & Gc). rewrite D in Sc, Gc.
  set (w := val_of c). assert (Sw : arr_shape w = arr_shape (a_o x)) by exact Sc.
  destruct (averaged_result x w ax ns 0 B A) as (v & Ev & _ & Sv & Gv); [rewrite Sw; exact X|]. rewrite Sw in Sv, Gv. exists v.
  split; [|split; [exact Sv|]].
  - unfold answers. edestruct (reached_result s) as [-> _]; [exact FA|exact RE|constructor|fold x; unfold random_call, random_value; rewrite B, C; reflexivity|].
    cbn [Spec_result.result]. fold x. rewrite C.
    change (lib "spread" [a_f x; a_eaxis x]) with (rmap val_of (spread_along (skip_nan (w_boot S)) (int_of (a_eaxis x)) (arr_of (a_f x)))).
    rewrite Ec. exact Ev.
  - apply Gv; [exact HC|exact N|]. intros ix I. assert (Vx : valid (arr_shape (a_o x)) ix) by apply (proj2 HC), I. destruct (V ix I) as (Vm & Ih & Il & Bd).
    unfold w. rewrite reads_val by (rewrite Sc; exact Vx). destruct (Gc ix Vx) as (h & l & E1 & E2 & ->). rewrite Vm in E1, E2.
    assert (Mn : M ix <> []) by (intros Z; rewrite Z in Ih; exact Ih).
    destruct (spread_cell (skip_nan (w_boot S)) (M ix) Mn) as (h' & l' & F1 & F2 & Ih' & Il' & B'). rewrite F1 in E1. rewrite F2 in E2. injection E1 as <-. injection E2 as <-.
    assert (h' = hi ix) by (apply Qcle_antisym; [apply Bd|apply B']; assumption). assert (l' = lo ix) by (apply Qcle_antisym; [apply B'|apply Bd]; assumption). subst. reflexivity.
Qed.

(** ** Intersection over union of the events of forecasts and observations *)
Theorem c85_iou : forall s (over : bool) t q l ns k L, faithful -> reached s ->
  let x := ob s in
  cl x = CDeterm \/ cl x = CEnsemble -> axes_of (a_avg x) = Some (Some l) -> scalar_of t = Some q -> threshold_ok t ->
  arr_shape (point x) = arr_shape (a_o x) -> axes_are (length (arr_shape (a_o x))) (Some l) ns ->
  Cells (arr_shape (a_o x)) ns k L -> L <> [] ->
  exists v, answers s (MIouD (over_of over t) (below_of over t)) v /\
    arr_shape v = kept (length (arr_shape (a_o x))) ns (arr_shape (a_o x)) /\
    is_iou (fun ix => observed over q (reads (point x) ix)) (fun ix => observed over q (reads (a_o x) ix)) L (reads v k).
Proof.
  intros s over t q l ns k L FA RE x C A Q T Sh X HC N.
  assert (Pf : point_forecast lib points x = Ok (point x)) by (unfold point_forecast, point; destruct C as [-> | ->]; reflexivity).
  destruct (c35_iou_determ_partial (arr_of (point x)) (arr_of (a_o x)) l ns (if over then Some q else None) (if over then None else Some q) (observed over q)) as (r & Er & Sr & Gr & _);
    rewrite ?arr_shape_of, ?Sh; try reflexivity; try assumption.
  { destruct over; [left|right]; exists q; auto. }
  rewrite arr_shape_of, Sh in Sr, Gr. exists (val_of r). split; [|split; [exact Sr|]].
  - unfold answers. edestruct (reached_result s) as [-> _]; [exact FA|exact RE|apply threshold_key; [exact T|reflexivity]|reflexivity|].
    cbn [Spec_result.result]. fold x. rewrite Pf. cbn [bind]. unfold whole_lib. rewrite A.
    assert (Nt : num_of t = Some (Some q)) by (destruct t; try discriminate Q; cbn [num_of]; rewrite Q; reflexivity).
    destruct over; cbn [over_of below_of]; rewrite Nt; cbn [num_of]; change ("iou_determ" =? "iou_determ")%string with true; cbv iota; rewrite Er; reflexivity.
  - rewrite reads_val by (rewrite Sr; exact (Cells_valid _ _ _ _ HC N)). apply Gr, HC.
Qed.

(** ** Right after construction an ensemble verifier with a mean as collapse function has the ensemble means as its
    deterministic forecasts, and its errors are theirs *)
Definition takes_mean (f : arr num -> Z -> res (arr num)) : Prop := forall a z n, axis_is (length (shape a)) z n -> 0 < nth n (shape a) 0 ->
  exists r, f a z = Ok r /\ shape r = drop_axis n (shape a) /\
    forall ix ms, valid (drop_axis n (shape a)) ix -> members_at n a ix = map Fin ms -> get r ix = Fin (Spec.mean_of ms).
Theorem c85_ensemble_mean : forall x k y k1 i n j, faithful -> cl x = CEnsemble -> construct x k = (Ok y, k1) ->
  (mem_off less_memory x /\ disk_wf k /\ a_scratch x = VBool true) \/ truthy (a_wd y) = false ->
  a_collapse x = VFun i -> takes_mean (w_fun S i) -> fits (arr_of (a_o y)) (arr_of (a_f y)) (int_of (a_eaxis y)) n -> 0 < nth n (arr_shape (a_f y)) 0 ->
  let s := mkSt y k1 j [] in
  (exists v, answers s MDeterm v /\ arr_shape v = arr_shape (a_o y) /\
    forall ix ms, valid (arr_shape (a_o y)) ix -> members_at n (arr_of (a_f y)) ix = map Fin ms -> reads v ix = Fin (Spec.mean_of ms)) /\
  forall ax ns c L O M, a_boot y = VNone -> axes_of (a_avg y) = Some ax -> axes_are (length (arr_shape (a_o y))) ax ns ->
    Cells (arr_shape (a_o y)) ns c L -> L <> [] ->
    (forall ix, In ix L -> members_at n (arr_of (a_f y)) ix = map Fin (M ix) /\ reads (a_o y) ix = Fin (O ix)) ->
    exists e sq ab, answers s MError e /\ answers s MSqErr sq /\ answers s MAbErr ab /\
      reads e c = Fin (Spec.mean_of (map (fun ix => Spec.mean_of (M ix) - O ix)%Qc L)) /\
      reads sq c = Fin (Spec.mean_of (map (fun ix => (Spec.mean_of (M ix) - O ix) * (Spec.mean_of (M ix) - O ix))%Qc L)) /\
      reads ab c = Fin (Spec.mean_of (map (fun ix => qdist (Spec.mean_of (M ix)) (O ix)) L)).
Proof.
  intros x k y k1 i n j FA C H W Cf TM Fi Pos s.
  destruct (Props_ens.c59_constructed lib libr str_of dumps loads expanduser resolve points rng x k y k1 C H) as (Fy & _ & _).
  assert (Cy : cl y = CEnsemble) by (destruct (construct_disk lib expanduser resolve x k y k1 H) as (x2 & _ & _ & Z); rewrite Z; exact C).
  destruct (Props_ens.c60_constructed_partial lib libr str_of dumps loads expanduser resolve points less_memory integrate_wdir cwd rng x k y k1 C H) as [E _].
  destruct Fi as [Ax D]. rewrite <- (arr_shape_of (a_f y)) in Pos. rewrite <- Fy in E.
  destruct (TM (arr_of (a_f y)) (int_of (a_eaxis y)) n Ax Pos) as (r & Er & Sr & Gr). rewrite (arr_shape_of (a_o y)) in D. rewrite D in Sr, Gr.
  rewrite Cf in E. change (lib "collapse" [VFun i; a_f y; a_eaxis y]) with (rmap val_of (w_fun S i (arr_of (a_f y)) (int_of (a_eaxis y)))) in E. rewrite Er in E. injection E as E.
  assert (RE : reached s).
  { destruct W as [(W1 & W2 & W3)|W]; [left; exists x, k, y, k1, [], j; exact (conj W1 (conj W2 (conj W3 (conj H (conj (Forall_nil _) eq_refl)))))|right; split; [right; cbn [ob s]; rewrite Cy; discriminate|exact W]]. }
  assert (P : point y = a_fc y) by (unfold point; rewrite Cy; reflexivity).
  assert (G : forall ix ms, valid (arr_shape (a_o y)) ix -> members_at n (arr_of (a_f y)) ix = map Fin ms -> reads (a_fc y) ix = Fin (Spec.mean_of ms)).
  { intros ix ms V Hm. rewrite <- E, reads_val by (rewrite Sr; exact V). apply Gr; assumption. }
  assert (Sf : arr_shape (a_fc y) = arr_shape (a_o y)) by (rewrite <- E; exact Sr).
  split.
  - exists (a_fc y). split; [|split; [exact Sf|exact G]]. unfold answers. destruct (reached_result s MDeterm FA RE ltac:(constructor) ltac:(reflexivity)) as [-> _].
    cbn [Spec_result.result ob s]. unfold Spec_result.mean_of. rewrite Cy. reflexivity.
  - intros ax ns c L O M B A X HC N V.
    destruct (c85_errors s ax ns c L (fun ix => Spec.mean_of (M ix)) O FA RE) as (e & sq & ab & H1 & H2 & H3 & _ & _ & _ & H4 & H5 & H6 & _); cbn [ob s]; try assumption.
    + right. exact Cy.
    + rewrite P. exact Sf.
    + intros ix I. rewrite P. destruct (V ix I) as [V1 V2]. split; [apply G; [apply (proj2 HC), I|exact V1]|exact V2].
    + exists e, sq, ab. auto 10.
Qed.
(** ** Intersection over union of a probability and the outcome *)
Theorem c85_iou_prob : forall s (over pover : bool) t b pt q n l ns k L, faithful -> reached s ->
  let x := ob s in ensemble_ready x n t b -> scalar t -> scalar pt -> scalar_of pt = Some (Fin q) -> (0 <= q)%Qc -> (q <= 1)%Qc ->
  axes_of (a_avg x) = Some (Some l) -> axes_are (length (arr_shape (a_o x))) (Some l) ns ->
  Cells (arr_shape (a_o x)) ns k L -> L <> [] ->
  exists v, answers s (MIouP (VTuple [over_of over t; over_of pover pt]) (VTuple [below_of over t; below_of pover pt])) v /\
    arr_shape v = kept (length (arr_shape (a_o x))) ns (arr_shape (a_o x)) /\
    is_iou (fun ix => observed pover (Fin q) (Fin (member_share over (thr_at b ix) (members_at n (arr_of (a_f x)) ix))))
           (fun ix => observed over (thr_at b ix) (reads (a_o x) ix)) L (reads v k).
Proof.
  intros s over pover t b pt q n l ns k L FA RE x H St Sp Q Q0 Q1 A X HC N.
  destruct (ready_prob x n t b over H) as (p & Ep & Sh & Gp). destruct (ready_outcome x n t b over H) as (o & Eo & So & Go).
  destruct (c35_iou_prob_partial (arr_of p) (bools (arr_of o)) l ns (if pover then Some (Fin q) else None) (if pover then None else Some (Fin q)) (observed pover (Fin q))) as (r & Er & Sr & Gr).
  - cbn [bools amap shape]. rewrite !arr_shape_of. congruence.
  - rewrite arr_shape_of, Sh. exact X.
  - destruct pover; [left|right]; exists (Fin q); auto.
  - intros t' Ht. exists q. split; [|split; assumption]. destruct pover, Ht as [Ht|Ht]; congruence.
  - rewrite arr_shape_of, Sh in Sr, Gr. exists (val_of r). split; [|split; [exact Sr|]].
    + assert (K : key_ok (MIouP (VTuple [over_of over t; over_of pover pt]) (VTuple [below_of over t; below_of pover pt]))).
      { split; cbn; (apply Forall_cons; [|apply Forall_cons; [|apply Forall_nil]]); destruct over, pover; cbn; first [assumption|exact I]. }
      assert (NR : random_call (ob s) (MIouP (VTuple [over_of over t; over_of pover pt]) (VTuple [below_of over t; below_of pover pt])) = false) by reflexivity.
      unfold answers. destruct (reached_result s _ FA RE K NR) as [-> _].
      cbn [Spec_result.result]. fold x. rewrite (proj1 H). cbn [is_seq items andb].
      unfold event_pair. rewrite Ep. cbn [bind]. rewrite Eo. cbn [bind]. unfold whole_lib. rewrite A.
      assert (Nt : num_of pt = Some (Some (Fin q))) by (destruct pt; try discriminate Q; cbn [num_of]; rewrite Q; reflexivity).
      destruct pover; cbn [over_of below_of]; rewrite Nt; cbn [num_of]; change ("iou_prob" =? "iou_determ")%string with false; change ("iou_prob" =? "iou_prob")%string with true; cbv iota; rewrite Er; reflexivity.
    + rewrite reads_val by (rewrite Sr; exact (Cells_valid _ _ _ _ HC N)). destruct (Gr k L HC) as (G & _).
      assert (Ext : forall (A1 B1 A2 B2 : list nat -> bool) r0, (forall ix, In ix L -> A1 ix = A2 ix /\ B1 ix = B2 ix) -> is_iou A1 B1 L r0 -> is_iou A2 B2 L r0).
      { intros A1 B1 A2 B2 r0 Eq. assert (E2 : how_many (fun x => A1 x && B1 x)%bool L = how_many (fun x => A2 x && B2 x)%bool L /\ how_many (fun x => A1 x || B1 x)%bool L = how_many (fun x => A2 x || B2 x)%bool L).
        { clear - Eq. unfold how_many. split; f_equal; apply filter_ext_in; intros ix I; destruct (Eq ix I) as [-> ->]; reflexivity. }
        unfold is_iou. destruct E2 as [-> ->]. auto. }
      revert G. apply Ext. intros ix I. assert (V : valid (arr_shape (a_o x)) ix) by apply (proj2 HC), I.
      change (get (arr_of p) ix) with (reads p ix). cbn [bools amap get]. change (get (arr_of o) ix) with (reads o ix). rewrite (Gp ix V), (Go ix V). split; [reflexivity|]. destruct (observed over _ _); reflexivity.
Qed.

(** ** Bootstrap: mean and interval lie between the least and the largest error of the cells (all axes counted from
    the front, or all from the back; saving off) *)
Theorem c85_bootstrap : forall s n ax ns k L F O (m : meth) (h : Qc -> Qc -> Qc) lo hi,
  let x := ob s in
  mem_off less_memory x -> truthy (a_wd x) = false ->
  cl x = CDeterm \/ cl x = CEnsemble -> a_boot x = VInt (Z.of_nat n) -> 0 < n -> axes_of (a_avg x) = Some ax ->
  match ax with None => True | Some l => Forall (fun z => 0 <= z)%Z l \/ Forall (fun z => z < 0)%Z l end ->
  (0 <= confidence (w_boot S))%Qc -> (confidence (w_boot S) <= 1)%Qc -> 0 < repeats (w_boot S) ->
  arr_shape (point x) = arr_shape (a_o x) -> (forall d, In d (arr_shape (a_o x)) -> 0 < d) -> axes_are (length (arr_shape (a_o x))) ax ns ->
  Cells (arr_shape (a_o x)) ns k L -> L <> [] ->
  (m = MError /\ h = (fun f o => f - o)%Qc) \/ (m = MSqErr /\ h = (fun f o => (f - o) * (f - o))%Qc) \/ (m = MAbErr /\ h = qdist) ->
  (forall ix, In ix L -> reads (point x) ix = Fin (F ix) /\ reads (a_o x) ix = Fin (O ix) /\ (lo <= h (F ix) (O ix))%Qc /\ (h (F ix) (O ix) <= hi)%Qc) ->
  exists v a b c, answers s m v /\ arr_shape v = 3 :: kept (length (arr_shape (a_o x))) ns (arr_shape (a_o x)) /\
    reads v (0 :: k) = Fin a /\ reads v (1 :: k) = Fin b /\ reads v (2 :: k) = Fin c /\
    (lo <= a)%Qc /\ (a <= c)%Qc /\ (c <= hi)%Qc /\ (lo <= b)%Qc /\ (b <= hi)%Qc.
Proof.
  intros s n ax ns k L F O m h lo hi x M W C B Pn A Sg C0 C1 Rp Sh Pos X HC N Hm V.
  assert (Pf : point_forecast lib points x = Ok (point x)) by (unfold point_forecast, point; destruct C as [-> | ->]; reflexivity).
  assert (Q : exists name (g : arr num -> arr num -> arr num), (forall d, result x m d = averaged_over lib libr x (error_of lib points x name) (d 0)) /\ key_ok m /\
    lib name [point x; a_o x] = Ok (val_of (g (arr_of (point x)) (arr_of (a_o x)))) /\
    (forall a b, shape (g a b) = shape a) /\ (forall a b ix y z, get a ix = Fin y -> get b ix = Fin z -> get (g a b) ix = Fin (h y z))).
  { destruct Hm as [[-> ->]|[[-> ->]|[-> ->]]]; [exists "sub", cell_error|exists "sub_sq", cell_sq_error|exists "sub_abs", cell_ab_error];
      (split; [reflexivity|split; [constructor|split; [reflexivity|split; [reflexivity|]]]]); intros a b ix y z Ea Eb; cbn [cell_error cell_sq_error cell_ab_error amap2 get]; rewrite Ea, Eb; rewrite ?qdist_abs; reflexivity. }
  destruct Q as (name & g & Rm & K & Ln & Shg & Gg). set (w := arr_of (val_of (g (arr_of (point x)) (arr_of (a_o x))))).
  assert (Sw : shape w = arr_shape (a_o x)) by (rewrite <- Sh, <- (arr_shape_of (point x)); exact (Shg _ _)).
  assert (Gw : forall ix, In ix L -> get w ix = Fin (h (F ix) (O ix))).
  { intros ix I. change (get w ix) with (reads (val_of (g (arr_of (point x)) (arr_of (a_o x)))) ix). destruct (V ix I) as (V1 & V2 & _).
    rewrite reads_val; [apply Gg; assumption|]. rewrite Shg, arr_shape_of, Sh. apply (proj2 HC), I. }
  pose proof (Cells_valid _ _ _ _ HC N) as Vk.
  destruct (c15_bootstrap_within_data_partial (w_boot S) (w_gen_boot S (rng (pos s + 0))) ax w ns n k L lo hi) as (r & a & b & c & Er & G0 & G1 & G2 & B1 & B2 & B3 & B4 & B5 & _); rewrite ?Sw; try assumption.
  { intros ix I. rewrite (Gw ix I). destruct (V ix I) as (_ & _ & V3 & V4). cbn. split; [eexists; reflexivity|auto]. }
  assert (Sr : shape r = 3 :: kept (length (arr_shape (a_o x))) ns (arr_shape (a_o x))).
  { destruct (c14_bootstrap_groups_partial (w_boot S) (w_gen_boot S (rng (pos s + 0))) w r ax ns n) as [Z _]; rewrite ?Sw in *; try assumption. pose proof (valid_prod_pos _ _ Vk). lia. }
  exists (val_of r), a, b, c. split; [|split; [exact Sr|]].
  - unfold answers. destruct (c83_saving_off lib libr str_of dumps loads expanduser resolve points less_memory integrate_wdir cwd rng m None s M W K (or_introl eq_refl)) as [-> _].
    fold x. rewrite Rm. unfold averaged_over, error_of. rewrite Pf. cbn [bind]. rewrite Ln. cbn [bind]. unfold with_boot. rewrite B. cbn [is_none app].
    unfold whole_libr. rewrite A. cbn [count_of]. destruct (Z.leb_spec 0 (Z.of_nat n)); [|lia]. rewrite Nat2Z.id. change ("boot_or_avg" =? "boot_or_avg")%string with true. cbv iota. fold w. rewrite Er. reflexivity.
  - assert (R3 : forall i, i < 3 -> reads (val_of r) (i :: k) = get r (i :: k)) by (intros i Hi; apply reads_val; rewrite Sr; constructor; assumption).
    rewrite !R3 by lia. auto 10.
Qed.
End Program.
Print Assumptions c85_errors.
Print Assumptions c85_probability.
Print Assumptions c85_brier.
Print Assumptions c85_roc.
Print Assumptions c85_crps.
Print Assumptions c85_spread.
Print Assumptions c85_iou.
Print Assumptions c85_ensemble_mean.
Print Assumptions c85_iou_prob.
Print Assumptions c85_bootstrap.

(** ** A concrete program: two cells with the members 1, 2, 3, 4 and 5, 5, 7, 9 and the observations 2 and 6, saved
    results in a used directory, and a history in which the averaging axis changes. *)
Definition mean_along (a : arr num) (z : Z) : res (arr num) :=
  n <- norm_axis (length (shape a)) z ;;
  Ok (Arr (drop_axis n (shape a)) (fun ix => nmean (members_at n a ix))).
Lemma mean_along_means : takes_mean mean_along.
Proof.
  intros a z n [Ha Hz] Pos. unfold mean_along. rewrite (norm_axis_fun _ _ _ Ha Hz). eexists. split; [reflexivity|]. split; [reflexivity|].
  intros ix ms _ E. cbn [get]. rewrite E, nmean_fin; [reflexivity|]. intros ->. apply (f_equal (@length num)) in E. unfold members_at in E. rewrite map_length, seq_length in E. cbn in E. lia.
Qed.
Definition e_set : settings := {| w_boot := ex_env; w_method := Moments; w_workers := 1; w_map_axis := (-1)%Z; w_split := true; w_cell := ps_gufunc;
  w_fun := fun _ => mean_along; w_gen_boot := fun d i r j => d + i * r + j; w_gen_rank := fun d i ix => d + i |}.
Definition e_obj (f o : nat) : obj := mkObj CEnsemble (VArr [2; 4] f) (VArr [2] o) VNone VNone (VStr "w") (VBool true)
    VNone VNone (VFun 0) VNone VNone VNone VNone VNone VNone VNone.
Notation e_lib := (whole_lib e_set w_lib).
Notation e_libr := (whole_libr e_set w_libr).
Notation e_steps := (M_state.steps e_lib e_libr w_str w_dumps w_loads (fun s => s) w_resolve w_points false None [] (fun n => n)).
Notation e_step := (M_state.step e_lib e_libr w_str w_dumps w_loads (fun s => s) w_resolve w_points false None [] (fun n => n)).
Definition e_ops : list op := [OMetric MCrps None; OMetric MError None; OAvg (VInt 0); OMetric MSqErr None].
Lemma e_constructed f o : exists x1 k1, M_state.construct e_lib (fun s => s) w_resolve (e_obj f o) w_used = (Ok x1, k1) /\
  cl x1 = CEnsemble /\ a_f x1 = VArr [2; 4] f /\ a_o x1 = VArr [2] o /\ a_eaxis x1 = VInt (-1) /\ a_boot x1 = VNone /\ a_avg x1 = VNone /\ a_collapse x1 = VFun 0 /\ a_scratch x1 = VBool true.
Proof. do 2 eexists. split; [reflexivity|]. repeat split. Qed.
Definition e_state : st := snd (e_steps e_ops (mkSt (fst (match M_state.construct e_lib (fun s => s) w_resolve (e_obj (store (ravel ps_f)) (store (ravel ps_o))) w_used with (Ok x, k) => (x, k) | (Raise _, k) => (e_obj 0 0, k) end)) 
  (snd (M_state.construct e_lib (fun s => s) w_resolve (e_obj (store (ravel ps_f)) (store (ravel ps_o))) w_used)) 0 [])).
Lemma e_faithful : faithful w_str w_dumps w_loads (fun s => s).
Proof. split; [exact w_text|split; [exact w_pickle|reflexivity]]. Qed.
Lemma e_calm : Forall calm e_ops. Proof. repeat constructor. Qed.
Lemma e_reached : reached e_set w_lib w_libr w_str w_dumps w_loads (fun s => s) w_resolve w_points false None [] (fun n => n) e_state.
Proof.
  destruct (e_constructed (store (ravel ps_f)) (store (ravel ps_o))) as (x1 & k1 & E & _). left. do 5 eexists. exists 0.
  split; [left; reflexivity|]. split; [exact w_used_wf|]. split; [|split; [exact E|split; [exact e_calm|]]]; [reflexivity|]. unfold e_state. rewrite E. reflexivity.
Qed.
Lemma e_object : let x := ob e_state in cl x = CEnsemble /\ a_f x = VArr [2; 4] (store (ravel ps_f)) /\ a_o x = VArr [2] (store (ravel ps_o)) /\
  a_eaxis x = VInt (-1) /\ a_boot x = VNone /\ axes_of (a_avg x) = Some (Some [0%Z]).
Proof.
  unfold e_state. generalize (store (ravel ps_f)) (store (ravel ps_o)). intros f o.
  destruct (e_constructed f o) as (x1 & k1 & E & C & Ef & Eo & Ee & Eb & Ea & Ec & Es). rewrite E. cbn [fst snd].
  destruct (construct_inv e_lib e_libr w_str w_dumps (fun s => s) w_resolve w_points false (e_obj f o) w_used x1 k1 w_used ltac:(reflexivity) ltac:(left; reflexivity) w_used_wf eq_refl E) as [IN _].
  destruct (calm_steps e_lib e_libr w_str w_dumps w_loads (fun s => s) w_resolve w_points false None [] (fun n => n) w_text w_pickle e_ops
    (mkSt x1 k1 0 []) (mkSt (put_wd VNone x1) w_used 0 []) e_calm IN eq_refl) as [_ O1].
  set (s := snd (e_steps e_ops (mkSt x1 k1 0 []))) in *. set (t := mkSt (put_wd VNone x1) w_used 0 []) in *.
  assert (K : forall m u, truthy (a_wd (ob u)) = false -> cl (ob u) = CEnsemble -> key_ok m -> ob (snd (e_step (OMetric m None) u)) = ob u).
  { intros m u T Cu K. apply (c83_saving_off e_lib e_libr w_str w_dumps w_loads (fun s => s) w_resolve w_points false None [] (fun n => n) m None u (or_introl eq_refl) T K (or_introl eq_refl)). }
  assert (ST : forall o u l, snd (e_steps (o :: l) u) = snd (e_steps l (snd (e_step o u)))).
  { intros o' u l. cbn [M_state.steps]. destruct (e_step o' u) as [r u']. cbn [fst snd]. destruct (e_steps l u'). reflexivity. }
  set (u1 := snd (e_step (OMetric MCrps None) t)). assert (U1 : ob u1 = put_wd VNone x1) by (apply K; [reflexivity|exact C|constructor]).
  set (u2 := snd (e_step (OMetric MError None) u1)). assert (U2 : ob u2 = put_wd VNone x1) by (rewrite <- U1; apply K; [rewrite U1; reflexivity|rewrite U1; exact C|constructor]).
  set (u3 := snd (e_step (OAvg (VInt 0)) u2)). assert (U3 : ob u3 = put_avg (VInt 0) (put_wd VNone x1) \/ ob u3 = put_avg (VTuple [VInt 0]) (put_wd VNone x1)).
  { unfold u3. cbn [M_state.step]. rewrite U2. unfold set_and_validate. generalize (dk u2) (pos u2) (M_state.events u2). intros kk p ev.
    destruct x1. cbn in C, Ef, Eo, Ee, Eb, Ea, Ec, Es. subst. right. reflexivity. }
  assert (Z : ob (snd (e_steps e_ops t)) = ob u3).
  { unfold e_ops. rewrite !ST. fold u1 u2 u3. cbn [M_state.steps snd]. apply K; [|destruct U3 as [-> | ->]; exact C|constructor].
    destruct U3 as [-> | ->]; reflexivity. }
  rewrite O1 in Z. assert (P : forall (g : obj -> M_state.val) (h : obj -> cls), g (put_wd VNone (ob s)) = g (ob u3) /\ h (put_wd VNone (ob s)) = h (ob u3)) by (intros g h; rewrite Z; auto).
  pose proof (proj2 (P a_f cl)) as P0. pose proof (proj1 (P a_f cl)) as P1. pose proof (proj1 (P a_o cl)) as P2. pose proof (proj1 (P a_eaxis cl)) as P3. pose proof (proj1 (P a_boot cl)) as P4. pose proof (proj1 (P a_avg cl)) as P5.
  cbn [put_wd cl a_f a_o a_eaxis a_boot a_avg] in P0, P1, P2, P3, P4, P5. cbn zeta. rewrite P0, P1, P2, P3, P4, P5.
  destruct U3 as [-> | ->]; cbn [put_wd put_avg cl a_f a_o a_eaxis a_boot a_avg]; repeat split; assumption.
Qed.
Ltac qnum := match goal with |- Fin ?a = Fin ?b => apply (f_equal Fin); apply Qc_is_canon; vm_compute; reflexivity end.
Lemma stored sh (a : arr num) : arr_of (VArr sh (store (ravel a))) = of_list NaN sh (ravel a).
Proof. cbn [arr_of]. rewrite content_store. reflexivity. Qed.
Lemma cells_2 : Cells [2] [0] [] [[0]; [1]].
Proof.
  split; [repeat constructor; cbn; intuition discriminate|]. intros ix. cbn. split.
  - intros [<-|[<-|[]]]; (split; [repeat constructor|reflexivity]).
  - intros [V _]. inversion V as [|i d r q H1 H2]; subst. inversion H2; subst. destruct i as [|[|i]]; [auto|auto|lia].
Qed.
Lemma axes_2 : axes_are 1 (Some [0%Z]) [0].
Proof. split; [constructor; [split; [lia|left; reflexivity]|constructor]|]. constructor; [intros []|constructor]. Qed.
Notation e_answers := (answers e_set w_lib w_libr w_str w_dumps w_loads (fun s => s) w_resolve w_points false None [] (fun n => n)).
Section Witness.
Variable s : st.
Hypothesis RE : reached e_set w_lib w_libr w_str w_dumps w_loads (fun s => s) w_resolve w_points false None [] (fun n => n) s.
Hypothesis OB : cl (ob s) = CEnsemble /\ a_f (ob s) = VArr [2; 4] (store (ravel ps_f)) /\ a_o (ob s) = VArr [2] (store (ravel ps_o)) /\
  a_eaxis (ob s) = VInt (-1) /\ a_boot (ob s) = VNone /\ axes_of (a_avg (ob s)) = Some (Some [0%Z]).
Ltac facts :=
  destruct OB as (C & Ef & Eo & Ee & Eb & Ea); pose proof e_faithful as FA;
  assert (Af : arr_of (a_f (ob s)) = of_list NaN [2; 4] (ravel ps_f)) by (rewrite Ef; apply stored);
  assert (Ao : arr_of (a_o (ob s)) = of_list NaN [2] (ravel ps_o)) by (rewrite Eo; apply stored);
  assert (So : arr_shape (a_o (ob s)) = [2]) by (rewrite Eo; reflexivity); assert (Sf : arr_shape (a_f (ob s)) = [2; 4]) by (rewrite Ef; reflexivity);
  assert (Fi : fits (arr_of (a_o (ob s))) (arr_of (a_f (ob s))) (int_of (a_eaxis (ob s))) 1) by (rewrite Af, Ao, Ee; split; [split; [cbn; lia|right; reflexivity]|reflexivity]);
  assert (Rd : ensemble_ready e_set (ob s) 1 (VInt 5) (TScalar (Fin (qz 5)))) by (split; [exact C|]; split; [reflexivity|]; split; [exact Fi|]; rewrite Sf, So; split; [cbn; lia|]; split; [left; reflexivity|]; split; [reflexivity|exact I]);
  assert (T : threshold_ok (VInt 5)) by (left; exact I);
  assert (X : axes_are (length (arr_shape (a_o (ob s)))) (Some [0%Z]) [0]) by (rewrite So; exact axes_2);
  assert (HC : Cells (arr_shape (a_o (ob s))) [0] [] [[0]; [1]]) by (rewrite So; exact cells_2);
  assert (Nl : [[0]; [1]] <> []) by discriminate.
Definition e_M (ix : list nat) : list Qc := if Nat.eqb (hd 0 ix) 0 then [qn 1; qn 2; qn 3; qn 4] else [qn 5; qn 5; qn 7; qn 9].
Definition e_O (ix : list nat) : Qc := if Nat.eqb (hd 0 ix) 0 then qn 2 else qn 6.
Lemma e_values ix : In ix [[0]; [1]] -> reads (a_o (ob s)) ix = Fin (e_O ix) /\ members_at 1 (arr_of (a_f (ob s))) ix = map Fin (e_M ix).
Proof. facts. unfold reads. rewrite Af, Ao. intros [<-|[<-|[]]]; split; vm_compute; reflexivity. Qed.
Lemma e_value1 : (exists v, e_answers s MCrps v /\ reads v [] = Fin (1 / qz 2)%Qc).
Proof.
  facts. destruct (c85_crps e_set w_lib w_libr w_str w_dumps w_loads (fun s => s) w_resolve w_points false None [] (fun n => n) s 1 (Some [0%Z]) [0] [] [[0]; [1]] e_O e_M FA RE C (or_intror eq_refl) Fi ltac:(rewrite Sf; cbn; lia) ltac:(right; rewrite So; discriminate) Eb Ea X HC Nl e_values) as (v & A & _ & R).
    exists v. split; [exact A|]. rewrite R. qnum.
Qed.
Lemma e_value2 : (exists v, e_answers s (MCdf (VInt 5) VNone) v /\ reads v [0] = Fin 0%Qc /\ reads v [1] = Fin (1 / qz 2)%Qc).
Proof.
  facts. destruct (c85_probability e_set w_lib w_libr w_str w_dumps w_loads (fun s => s) w_resolve w_points false None [] (fun n => n) s true (VInt 5) _ 1 FA RE Rd T) as (v & A & _ & _ & R).
    exists v. split; [exact A|]. rewrite !R by (rewrite So; repeat constructor). rewrite (proj2 (e_values [0] (or_introl eq_refl))), (proj2 (e_values [1] (or_intror (or_introl eq_refl)))). split; qnum.
Qed.
Lemma e_value3 : (exists v, e_answers s (MBrier (VInt 5) VNone) v /\ reads v [] = Fin (1 / qz 8)%Qc).
Proof.
  facts. destruct (c85_brier e_set w_lib w_libr w_str w_dumps w_loads (fun s => s) w_resolve w_points false None [] (fun n => n) s true (VInt 5) _ 1 _ _ _ _ FA RE Rd T Eb Ea X HC Nl) as (v & A & _ & R).
    exists v. split; [exact A|]. rewrite R. cbn [map]. rewrite (proj2 (e_values [0] (or_introl eq_refl))), (proj2 (e_values [1] (or_intror (or_introl eq_refl)))), (proj1 (e_values [0] (or_introl eq_refl))), (proj1 (e_values [1] (or_intror (or_introl eq_refl)))).
    qnum.
Qed.
Lemma e_value4 : (exists f t, e_answers s (MRoc (VInt 5) VNone) (VTuple [f; t; VFloat (Fin 1%Qc)])).
Proof.
  facts. destruct (c85_roc e_set w_lib w_libr w_str w_dumps w_loads (fun s => s) w_resolve w_points false None [] (fun n => n) s true (VInt 5) _ 1 FA RE Rd T) as (f & t & A).
    + rewrite So. unfold reads. rewrite Ao. vm_compute. discriminate.
    + rewrite So. unfold reads. rewrite Ao. vm_compute. discriminate.
    + exists f, t. rewrite So in A. unfold reads in A. rewrite Ao, Af in A. match type of A with e_answers _ _ (VTuple [_; _; VFloat (Fin ?q)]) => replace q with 1%Qc in A by (apply Qc_is_canon; vm_compute; reflexivity) end. exact A.
Qed.
Lemma e_value5 : (exists v, e_answers s MSpread v /\ reads v [] = Fin (qz 7 / qz 2)%Qc).
Proof.
  facts. destruct (c85_spread e_set w_lib w_libr w_str w_dumps w_loads (fun s => s) w_resolve w_points false None [] (fun n => n) s 1 (Some [0%Z]) [0] [] [[0]; [1]]
      (fun ix => if Nat.eqb (hd 0 ix) 0 then qn 4 else qn 9) (fun ix => if Nat.eqb (hd 0 ix) 0 then qn 1 else qn 5) e_M FA RE C Fi ltac:(rewrite Sf; cbn; lia) Eb Ea X HC Nl) as (v & A & _ & R).
    + intros ix I. split; [apply e_values, I|]. destruct I as [<-|[<-|[]]]; cbn; (split; [tauto|split; [tauto|]]); intros m H; repeat (destruct H as [<-|H]; [split; vm_compute; discriminate|]); destruct H.
    + exists v. split; [exact A|]. rewrite R. qnum.
Qed.
Lemma e_value6 : (exists v, e_answers s (MIouP (VTuple [VInt 5; VFloat (Fin (1 / qz 4)%Qc)]) (VTuple [VNone; VNone])) v /\ reads v [] = Fin 1%Qc).
Proof.
  facts. destruct (c85_iou_prob e_set w_lib w_libr w_str w_dumps w_loads (fun s => s) w_resolve w_points false None [] (fun n => n) s true true (VInt 5) _ (VFloat (Fin (1 / qz 4)%Qc)) (1 / qz 4)%Qc 1 _ _ _ _ FA RE Rd I I eq_refl ltac:(vm_compute; discriminate) ltac:(vm_compute; discriminate) Ea X HC Nl) as (v & A & _ & R).
    exists v. split; [exact A|]. set (z := reads v []) in *. clearbody z. unfold is_iou, reads in R. rewrite Ao, Af in R. destruct R as [[_ Z]|[_ R]].
    + exfalso. revert Z. vm_compute. discriminate.
    + rewrite R. qnum.
Qed.
End Witness.
Example c85_values_witness :
  (exists v, e_answers e_state MCrps v /\ reads v [] = Fin (1 / qz 2)%Qc) /\
  (exists v, e_answers e_state (MCdf (VInt 5) VNone) v /\ reads v [0] = Fin 0%Qc /\ reads v [1] = Fin (1 / qz 2)%Qc) /\
  (exists v, e_answers e_state (MBrier (VInt 5) VNone) v /\ reads v [] = Fin (1 / qz 8)%Qc) /\
  (exists f t, e_answers e_state (MRoc (VInt 5) VNone) (VTuple [f; t; VFloat (Fin 1%Qc)])) /\
  (exists v, e_answers e_state MSpread v /\ reads v [] = Fin (qz 7 / qz 2)%Qc) /\
  (exists v, e_answers e_state (MIouP (VTuple [VInt 5; VFloat (Fin (1 / qz 4)%Qc)]) (VTuple [VNone; VNone])) v /\ reads v [] = Fin 1%Qc).
Proof. pose proof e_reached as RE. pose proof e_object as OB. repeat split; [apply e_value1|apply e_value2|apply e_value3|apply e_value4|apply e_value5|apply e_value6]; assumption. Qed.
(** Right after construction: the errors of the ensemble means 5/2 and 13/2. *)
Example c85_mean_witness : exists x k, M_state.construct e_lib (fun s => s) w_resolve (e_obj (store (ravel ps_f)) (store (ravel ps_o))) w_used = (Ok x, k) /\
  (exists v, e_answers (mkSt x k 0 []) MDeterm v /\ reads v [1] = Fin (qz 13 / qz 2)%Qc) /\
  exists e sq, e_answers (mkSt x k 0 []) MError e /\ e_answers (mkSt x k 0 []) MSqErr sq /\ reads e [] = Fin (1 / qz 2)%Qc /\ reads sq [] = Fin (1 / qz 4)%Qc.
Proof.
  destruct (e_constructed (store (ravel ps_f)) (store (ravel ps_o))) as (y & k1 & E & C & Ef & Eo & Ee & Eb & Ea & _). exists y, k1. split; [exact E|].
  assert (Af : arr_of (a_f y) = of_list NaN [2; 4] (ravel ps_f)) by (rewrite Ef; apply stored).
  assert (Ao : arr_of (a_o y) = of_list NaN [2] (ravel ps_o)) by (rewrite Eo; apply stored).
  assert (So : arr_shape (a_o y) = [2]) by (rewrite Eo; reflexivity). assert (Sf : arr_shape (a_f y) = [2; 4]) by (rewrite Ef; reflexivity).
  assert (Fi : fits (arr_of (a_o y)) (arr_of (a_f y)) (int_of (a_eaxis y)) 1) by (rewrite Af, Ao, Ee; split; [split; [cbn; lia|right; reflexivity]|reflexivity]).
  destruct (c85_ensemble_mean e_set w_lib w_libr w_str w_dumps w_loads (fun s => s) w_resolve w_points false None [] (fun n => n) (e_obj (store (ravel ps_f)) (store (ravel ps_o))) w_used y k1 0 1 0 e_faithful eq_refl E
    (or_introl (conj (or_introl eq_refl) (conj w_used_wf eq_refl))) eq_refl mean_along_means Fi ltac:(rewrite Sf; cbn; lia)) as [(v & Av & _ & Rv) H].
  split.
  - exists v. split; [exact Av|]. rewrite (Rv [1] [qn 5; qn 5; qn 7; qn 9]); [qnum|rewrite So; repeat constructor|rewrite Af; vm_compute; reflexivity].
  - set (M := fun ix : list nat => if Nat.eqb (hd 0 ix) 0 then [qn 1; qn 2; qn 3; qn 4] else [qn 5; qn 5; qn 7; qn 9]).
    set (O := fun ix : list nat => if Nat.eqb (hd 0 ix) 0 then qn 2 else qn 6).
    destruct (H None [0] [] [[0]; [1]] O M Eb ltac:(rewrite Ea; reflexivity) ltac:(rewrite So; reflexivity) ltac:(rewrite So; exact cells_2) ltac:(discriminate)) as (e & sq & ab & A1 & A2 & _ & R1 & R2 & _).
    + unfold reads. rewrite Af, Ao. intros ix [<-|[<-|[]]]; split; vm_compute; reflexivity.
    + exists e, sq. split; [exact A1|]. split; [exact A2|]. rewrite R1, R2. split; qnum.
Qed.
(** With bootstrapping: errors 2 and 3. *)
Definition b_obj (f o : nat) : obj := mkObj CDeterm (VArr [2] f) (VArr [2] o) VNone (VInt 2) VNone (VBool true)
    VNone VNone VNone VNone VNone VNone VNone VNone VNone VNone.
Lemma b_values f o : content f = map nnat [3; 5] -> content o = map nnat [1; 2] ->
  exists v a b c, e_answers (mkSt (b_obj f o) w_used 0 []) MError v /\ reads v [0] = Fin a /\ reads v [1] = Fin b /\ reads v [2] = Fin c /\
  (qn 2 <= a)%Qc /\ (a <= c)%Qc /\ (c <= qn 3)%Qc /\ (qn 2 <= b)%Qc /\ (b <= qn 3)%Qc.
Proof.
  intros Hf Ho. destruct (c85_bootstrap e_set w_lib w_libr w_str w_dumps w_loads (fun s => s) w_resolve w_points false None [] (fun n => n) (mkSt (b_obj f o) w_used 0 []) 2 None [0] [] [[0]; [1]]
    (fun ix => qn (nth (hd 0 ix) [3; 5] 0)) (fun ix => qn (nth (hd 0 ix) [1; 2] 0)) MError (fun f o => f - o)%Qc (qn 2) (qn 3)) as (v & a & b & c & A & _ & H).
  - left; reflexivity.
  - reflexivity.
  - left; reflexivity.
  - reflexivity.
  - lia.
  - reflexivity.
  - exact I.
  - vm_compute. discriminate.
  - vm_compute. discriminate.
  - cbn. lia.
  - reflexivity.
  - intros d [<-|[]]. lia.
  - reflexivity.
  - exact cells_2.
  - discriminate.
  - left. split; reflexivity.
  - unfold reads, point. cbn [ob b_obj cl a_f a_o arr_of]. rewrite Hf, Ho. intros ix [<-|[<-|[]]]; (split; [reflexivity|split; [reflexivity|split; vm_compute; discriminate]]).
  - exists v, a, b, c. split; [exact A|exact H].
Qed.
Example c85_bootstrap_witness : exists v a b c, e_answers (mkSt (b_obj (store (map nnat [3; 5])) (store (map nnat [1; 2]))) w_used 0 []) MError v /\
  reads v [0] = Fin a /\ reads v [1] = Fin b /\ reads v [2] = Fin c /\
  (qn 2 <= a)%Qc /\ (a <= c)%Qc /\ (c <= qn 3)%Qc /\ (qn 2 <= b)%Qc /\ (b <= qn 3)%Qc.
Proof. apply b_values; apply content_store. Qed.
