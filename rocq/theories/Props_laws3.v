(** Properties C108 and C109: forecasts that are the same everywhere, and probabilities as a function of the threshold. *)
From Coq Require Import String Ascii ZArith List Bool Arith QArith Qcanon Lia Permutation.
From Verif Require Import QcTac QSum Num NdArr Numpy NdAxes M_common M_boot M_determ M_ens M_crpsens M_iou M_roc M_dist M_ps
  Spec P_boot P_rank P_prob P_ps Props_avg Props_prob Props_ps Props_iou Store M_state Spec_state P_state P_codec Spec_result P_result Props_state Props_result
  M_whole Spec_whole P_whole Props_whole P_laws P_laws2 P_laws3 Props_laws Props_laws2.
From Verif Require Import P_work.
From Verif Require P_dist.
Import ListNotations.
Open Scope string_scope.
Open Scope list_scope.
Open Scope nat_scope.

Section Laws.
Variable S : settings.
Variable other : string -> list M_state.val -> res M_state.val.
Variable otherr : string -> list M_state.val -> nat -> res M_state.val.
Variable str_of : M_state.val -> string.
Variable dumps : M_state.val -> string.
Variable loads : string -> res M_state.val.
Variable expanduser : string -> string.
Variable resolve : string -> path.
Variable points : M_state.val -> M_state.val -> M_state.val -> res (list num).
Variable less_memory : bool.
Variable integrate_wdir : option path.
Variable cwd : path.
Variable rng : nat -> nat.
Notation faithful := (faithful str_of dumps loads expanduser).
Notation reached := (reached S other otherr str_of dumps loads expanduser resolve points less_memory integrate_wdir cwd rng).
Notation answers := (answers S other otherr str_of dumps loads expanduser resolve points less_memory integrate_wdir cwd rng).
Notation step := (M_state.step (whole_lib S other) (whole_libr S otherr) str_of dumps loads expanduser resolve points less_memory integrate_wdir cwd rng).
Notation ensemble_ready := (ensemble_ready S).
Notation thr_at := P_dist.thr_at.
Notation errors := (c85_errors S other otherr str_of dumps loads expanduser resolve points less_memory integrate_wdir cwd rng).
Notation probability := (c85_probability S other otherr str_of dumps loads expanduser resolve points less_memory integrate_wdir cwd rng).
Notation brier := (c85_brier S other otherr str_of dumps loads expanduser resolve points less_memory integrate_wdir cwd rng).
Notation roc := (c85_roc S other otherr str_of dumps loads expanduser resolve points less_memory integrate_wdir cwd rng).
Notation crps := (c85_crps S other otherr str_of dumps loads expanduser resolve points less_memory integrate_wdir cwd rng).
Notation spread := (c85_spread S other otherr str_of dumps loads expanduser resolve points less_memory integrate_wdir cwd rng).
Notation iou := (c85_iou S other otherr str_of dumps loads expanduser resolve points less_memory integrate_wdir cwd rng).

(** ** C108: forecasts that are the same everywhere *)
(** A point forecast that is the number c in every averaged cell: its mean squared error is that of the mean of the observations plus the square
    of the distance to this mean; its mean absolute error is at least that of a median of the observations. *)
Theorem c108_errors : forall s k L c O, faithful -> reached s -> cl (ob s) = CDeterm \/ cl (ob s) = CEnsemble -> arr_shape (point (ob s)) = arr_shape (a_o (ob s)) -> averages (ob s) k L ->
  (forall ix, In ix L -> reads (point (ob s)) ix = Fin c /\ reads (a_o (ob s)) ix = Fin (O ix)) ->
  let b := Spec.mean_of (map O L) in let best := Spec.mean_of (map (fun ix => (b - O ix) * (b - O ix))%Qc L) in
  exists sq ab x y, answers s MSqErr sq /\ answers s MAbErr ab /\ reads sq k = Fin x /\ reads ab k = Fin y /\
    x = ((c - b) * (c - b) + best)%Qc /\ (best <= x)%Qc /\ (x = best <-> c = b) /\ (forall m, median O L m -> (Spec.mean_of (map (fun ix => qdist m (O ix)) L) <= y)%Qc /\ (c = m -> y = Spec.mean_of (map (fun ix => qdist m (O ix)) L))).
Proof.
  intros s k L c O FA RE C Sh (B & N & ax & ns & A & X & HC) V b best.
  destruct (errors s ax ns k L (fun _ => c) O FA RE C B A Sh X HC N V) as (e & sq & ab & _ & A2 & A3 & _ & _ & _ & _ & G2 & G3 & _).
  exists sq, ab. do 2 eexists. split; [exact A2|]. split; [exact A3|]. split; [exact G2|]. split; [exact G3|]. rewrite (square_const c O L N). fold b best. split; [reflexivity|]. split; [|split].
  - pose proof (square_nonneg (c - b)) as Q. set (u := ((c - b) * (c - b))%Qc) in *. qlra.
  - split.
    + intros E. apply sub_zero, square_zero. transitivity (((c - b) * (c - b) + best) - best)%Qc; [ring|]. rewrite E. ring.
    + intros ->. ring.
  - intros m M. split; [apply distance_const; assumption|]. intros ->. reflexivity.
Qed.
(** The same probability p in every averaged cell; b is the share of cells with the event. *)
Theorem c108_brier : forall s (over : bool) t b n k L p, faithful -> reached s -> ensemble_ready (ob s) n t b -> threshold_ok t -> averages (ob s) k L ->
  (forall ix, In ix L -> member_share over (thr_at b ix) (members (ob s) n ix) = p) ->
  let r := Spec.mean_of (map (fun ix => indicator (observed over (thr_at b ix) (reads (a_o (ob s)) ix))) L) in
  exists v x, answers s (over_or_below MBrier over t) v /\ reads v k = Fin x /\ x = ((p - r) * (p - r) + r * (1 - r))%Qc /\ (r * (1 - r) <= x)%Qc /\ (x = r * (1 - r) <-> p = r)%Qc.
Proof.
  intros s over t b n k L p FA RE H T (B & N & ax & ns & A & X & HC) V r.
  destruct (brier s over t b n ax ns k L FA RE H T B A X HC N) as (v & A1 & _ & G1). exists v. eexists. split; [exact A1|]. split; [exact G1|].
  assert (E : forall z, Spec.mean_of (map (fun ix => let d := (member_share over (thr_at b ix) (members_at n (arr_of (a_f (ob s))) ix) - indicator (observed over (thr_at b ix) (reads (a_o (ob s)) ix)))%Qc in (d * d)%Qc) L) = z <-> ((p - r) * (p - r) + r * (1 - r))%Qc = z).
  { intros z. rewrite (mean_same (fun ix => (p - indicator (observed over (thr_at b ix) (reads (a_o (ob s)) ix))) * (p - indicator (observed over (thr_at b ix) (reads (a_o (ob s)) ix))))%Qc).
    - rewrite (square_const p (fun ix => indicator (observed over (thr_at b ix) (reads (a_o (ob s)) ix))) L N). rewrite (indicator_spread (fun ix => observed over (thr_at b ix) (reads (a_o (ob s)) ix)) L N). fold r. reflexivity.
    - intros ix I. cbv zeta. change (members_at n (arr_of (a_f (ob s))) ix) with (members (ob s) n ix). rewrite (V ix I). reflexivity. }
  split; [apply E; reflexivity|]. rewrite (proj2 (E _) eq_refl). split.
  - pose proof (square_nonneg (p - r)) as Q. set (u := ((p - r) * (p - r))%Qc) in *. set (w := (r * (1 - r))%Qc). qlra.
  - split.
    + intros Z. apply sub_zero, square_zero. transitivity (((p - r) * (p - r) + r * (1 - r)) - r * (1 - r))%Qc; [ring|]. rewrite Z. ring.
    + intros ->. ring.
Qed.
(** The same probability in every cell has the area 1/2. *)
Theorem c108_roc : forall s (over : bool) t b n p, faithful -> reached s -> ensemble_ready (ob s) n t b -> threshold_ok t ->
  (forall ix, Forall2 lt ix (arr_shape (a_o (ob s))) -> member_share over (thr_at b ix) (members (ob s) n ix) = p) ->
  (exists ix, Forall2 lt ix (arr_shape (a_o (ob s))) /\ observed over (thr_at b ix) (reads (a_o (ob s)) ix) = true) ->
  (exists ix, Forall2 lt ix (arr_shape (a_o (ob s))) /\ observed over (thr_at b ix) (reads (a_o (ob s)) ix) = false) ->
  exists fpr tpr, answers s (over_or_below MRoc over t) (VTuple [fpr; tpr; VFloat (Fin (1 / qz 2)%Qc)]).
Proof.
  intros s over t b n p FA RE H T V (i1 & V1 & O1) (i2 & V2 & O2). set (I := indices (arr_shape (a_o (ob s)))). set (ev ix := observed over (thr_at b ix) (reads (a_o (ob s)) ix)).
  assert (N1 : filter ev I <> []) by (intros Z; assert (Y : In i1 (filter ev I)) by (apply filter_In; split; [apply in_indices, V1|exact O1]); rewrite Z in Y; exact Y).
  assert (N2 : filter (fun ix => negb (ev ix)) I <> []) by (intros Z; assert (Y : In i2 (filter (fun ix => negb (ev ix)) I)) by (apply filter_In; split; [apply in_indices, V2|unfold ev; rewrite O2; reflexivity]); rewrite Z in Y; exact Y).
  destruct (roc s over t b n FA RE H T N1 N2) as (fpr & tpr & R). exists fpr, tpr. rewrite <- (roc_const (fun ix => member_share over (thr_at b ix) (members (ob s) n ix)) _ _ p N2 N1); [exact R| |]; intros ix Hx; apply filter_In in Hx as [Hx _]; apply V, in_indices, Hx.
Qed.
(** The same members in every averaged cell.  The least CRPS is that of the observations of these cells, taken as members, and only ensembles
    with the same share at or below every number reach it. *)
Theorem c108_crps : forall s s' n m k L O M M', faithful -> reached s -> reached s' -> cl (ob s) = CEnsemble -> cl (ob s') = CEnsemble -> properscoring (w_cell S) ->
  fits (arr_of (a_o (ob s))) (arr_of (a_f (ob s))) (int_of (a_eaxis (ob s))) n -> 0 < nth n (arr_shape (a_f (ob s))) 0 -> w_split S = false \/ arr_shape (a_o (ob s)) <> [] ->
  fits (arr_of (a_o (ob s'))) (arr_of (a_f (ob s'))) (int_of (a_eaxis (ob s'))) m -> 0 < nth m (arr_shape (a_f (ob s'))) 0 -> w_split S = false \/ arr_shape (a_o (ob s')) <> [] ->
  averages (ob s) k L -> averages (ob s') k L ->
  (forall ix, In ix L -> reads (a_o (ob s)) ix = Fin (O ix) /\ reads (a_o (ob s')) ix = Fin (O ix) /\ members (ob s) n ix = map Fin M /\ members (ob s') m ix = map Fin (M' ix) /\ Permutation (M' ix) (map O L)) ->
  exists c c' x x', answers s MCrps c /\ answers s' MCrps c' /\ reads c k = Fin x /\ reads c' k = Fin x' /\ (x' <= x)%Qc /\
    (x = x' <-> forall t, member_share false (Fin t) (map Fin M) = member_share false (Fin t) (map Fin (map O L))).
Proof.
  intros s s' n m k L O M M' FA RE RE' C C' PS Fi Pos Sp Fi' Pos' Sp' (B & N & ax & ns & A & X & HC) (B' & _ & ax' & ns' & A' & X' & HC') V.
  destruct (crps s n ax ns k L O (fun _ => M) FA RE C PS Fi Pos Sp B A X HC N) as (c & A1 & _ & G1); [intros ix I; destruct (V ix I) as (V1 & _ & V3 & _); auto|].
  destruct (crps s' m ax' ns' k L O M' FA RE' C' PS Fi' Pos' Sp' B' A' X' HC' N) as (c' & A2 & _ & G2); [intros ix I; destruct (V ix I) as (_ & V2 & _ & V4 & _); auto|].
  exists c, c'. do 2 eexists. split; [exact A1|]. split; [exact A2|]. split; [exact G1|]. split; [exact G2|].
  assert (NM : M <> []). { destruct L as [|i0 L0]; [contradiction|]. destruct (V i0 (or_introl eq_refl)) as (_ & _ & V3 & _). exact (made_members (ob s) n i0 M Pos V3). }
  assert (NO : map O L <> []) by (intros Z; apply map_eq_nil in Z; contradiction).
  assert (E : Spec.mean_of (map (fun ix => crps_formula (O ix) (M' ix)) L) = Spec.mean_of (map (fun y => crps_formula y (map O L)) (map O L))).
  { rewrite map_map. apply mean_same. intros ix I. apply crps_perm, (V ix I). }
  assert (E' : Spec.mean_of (map (fun ix => crps_formula (O ix) M) L) = Spec.mean_of (map (fun y => crps_formula y M) (map O L))) by (rewrite map_map; reflexivity).
  rewrite E, E'. split; [apply crps_best; assumption|apply crps_best_only; assumption].
Qed.

(** ** C109: probabilities as a function of the threshold *)
(** Two thresholds, the first not above the second in any cell: the probability of lying below grows.  It is a number of members divided by
    their number; it is 0 if all members are above the threshold and 1 if none is. *)
Theorem c109_order : forall s t t' b b' n, faithful -> reached s -> ensemble_ready (ob s) n t b -> ensemble_ready (ob s) n t' b' -> threshold_ok t -> threshold_ok t' ->
  (forall ix, Forall2 lt ix (arr_shape (a_o (ob s))) -> nle (thr_at b ix) (thr_at b' ix) = true) ->
  exists v v', answers s (over_or_below MCdf false t) v /\ answers s (over_or_below MCdf false t') v' /\ arr_shape v = arr_shape (a_o (ob s)) /\ arr_shape v' = arr_shape v /\
    forall ix, Forall2 lt ix (arr_shape v) -> exists p p', reads v ix = Fin p /\ reads v' ix = Fin p' /\ (0 <= p)%Qc /\ (p <= p')%Qc /\ (p' <= 1)%Qc.
Proof.
  intros s t t' b b' n FA RE H H' T T' Le. destruct (probability s false t b n FA RE H T) as (v & A & _ & Sv & Gv). destruct (probability s false t' b' n FA RE H' T') as (v' & A' & _ & Sv' & Gv').
  exists v, v'. split; [exact A|]. split; [exact A'|]. split; [exact Sv|]. split; [congruence|]. intros ix I. rewrite Sv in I. do 2 eexists. split; [apply (Gv ix I)|]. split; [apply (Gv' ix I)|].
  change (members_at n (arr_of (a_f (ob s))) ix) with (members (ob s) n ix). pose proof (members_some S (ob s) n t b ix H) as N. set (ms := members (ob s) n ix) in *.
  assert (P : (0 < qn (length ms))%Qc) by (apply qn_pos, length_pos, N).
  destruct (share_range (thr_at b ix) ms N) as [R1 _]. destruct (share_range (thr_at b' ix) ms N) as [_ R2]. split; [exact R1|]. split; [|exact R2]. apply share_order, Le; [exact N|exact I].
Qed.
Theorem c109_ends : forall s t b n, faithful -> reached s -> ensemble_ready (ob s) n t b -> threshold_ok t ->
  exists v, answers s (over_or_below MCdf false t) v /\ arr_shape v = arr_shape (a_o (ob s)) /\ forall ix, Forall2 lt ix (arr_shape v) ->
    (exists j, j <= nth n (arr_shape (a_f (ob s))) 0 /\ reads v ix = Fin (qn j / qn (nth n (arr_shape (a_f (ob s))) 0%nat))%Qc) /\
    (reads v ix = Fin 0%Qc <-> forall y, In y (members (ob s) n ix) -> nle y (thr_at b ix) = false) /\ (reads v ix = Fin 1%Qc <-> forall y, In y (members (ob s) n ix) -> nle y (thr_at b ix) = true).
Proof.
  intros s t b n FA RE H T. destruct (probability s false t b n FA RE H T) as (v & A & _ & Sv & Gv). exists v. split; [exact A|]. split; [exact Sv|]. intros ix I. rewrite Sv in I. rewrite (Gv ix I).
  change (members_at n (arr_of (a_f (ob s))) ix) with (members (ob s) n ix). pose proof (members_some S (ob s) n t b ix H) as N.
  assert (Ln : length (members (ob s) n ix) = nth n (arr_shape (a_f (ob s))) 0) by (unfold members, members_at; rewrite map_length, seq_length, arr_shape_of; reflexivity). rewrite <- Ln. set (ms := members (ob s) n ix) in *. split; [|split].
  - exists (Spec.how_many (fun m => nle m (thr_at b ix)) ms). split; [rewrite how_count; apply count_le|reflexivity].
  - rewrite <- (share_none (thr_at b ix) ms N). split; [congruence|intros ->; reflexivity].
  - rewrite <- (share_all (thr_at b ix) ms N). split; [congruence|intros ->; reflexivity].
Qed.
End Laws.
Print Assumptions c108_errors.
Print Assumptions c108_brier.
Print Assumptions c108_roc.
Print Assumptions c108_crps.
Print Assumptions c109_order.
Print Assumptions c109_ends.

(** *** Concrete cases: the members 1 and 3 and the point forecast 2 everywhere; observations 2, 0, 1; threshold 1 *)
Notation c_state := (l_state [3; 2] [1; 3; 1; 3; 1; 3]%Z [2; 0; 1]%Z [2; 2; 2]%Z (-1)).
(** the observations as members, in another order for every cell *)
Notation o_state := (l_state [3; 3] [2; 0; 1; 0; 2; 1; 1; 0; 2]%Z [2; 0; 1]%Z [1; 1; 1]%Z (-1)).
Theorem c108_nonvacuous : l_reached c_state /\ averages (ob c_state) [] cells3 /\ ensemble_ready e_set (ob c_state) 1 (VInt 1) (TScalar (Fin (qz 1))) /\
  (exists sq ab y, e_answers c_state MSqErr sq /\ reads sq [] = Fin (qz 5 / qz 3)%Qc /\ e_answers c_state MAbErr ab /\ reads ab [] = Fin y /\ (qz 2 / qz 3 <= y)%Qc) /\
  (exists v, e_answers c_state (over_or_below MBrier true (VInt 1)) v /\ reads v [] = Fin (1 / qz 4)%Qc) /\
  (exists fpr tpr, e_answers c_state (over_or_below MRoc true (VInt 1)) (VTuple [fpr; tpr; VFloat (Fin (1 / qz 2)%Qc)])).
Proof.
  set (f := [1; 3; 1; 3; 1; 3]%Z). set (o := [2; 0; 1]%Z). set (c := [2; 2; 2]%Z).
  destruct (l_facts [3; 2] f o c (-1)) as (RE & C & Sf & So & Sp & B & Ez & Ef & Eo & Ec & A). pose proof (l_averages [3; 2] f o c (-1)) as AV. pose proof (l_ready f o c 1) as RD.
  assert (T : threshold_ok (VInt 1)) by (left; exact I). split; [exact RE|]. split; [exact AV|]. split; [exact RD|].
  split; [|split].
  - destruct (c108_errors e_set w_lib w_libr w_str w_dumps w_loads (fun s => s) w_resolve w_points false None [] (fun n => n) (l_state [3; 2] f o c (-1)) [] cells3 (qz 2) (fun ix => unfin (get (of_list NaN [3] (map l_num o)) ix)) e_faithful RE (or_intror C)) as (sq & ab & x & y & A1 & A2 & G1 & G2 & Ex & _ & _ & My).
    + congruence.
    + exact AV.
    + intros ix I. l_read. destruct I as [<-|[<-|[<-|[]]]]; split; vm_compute; reflexivity.
    + exists sq, ab, y. split; [exact A1|]. split; [rewrite G1, Ex; f_equal; apply Qc_is_canon; vm_compute; reflexivity|]. split; [exact A2|]. split; [exact G2|].
      destruct (My (qz 1)) as [Q _]; [split; vm_compute; lia|]. eapply Qcle_trans; [|exact Q]. unfold Qcle. vm_compute. discriminate.
  - destruct (c108_brier e_set w_lib w_libr w_str w_dumps w_loads (fun s => s) w_resolve w_points false None [] (fun n => n) (l_state [3; 2] f o c (-1)) true (VInt 1) _ 1 [] cells3 (1 / qz 2)%Qc e_faithful RE RD T AV) as (v & x & A1 & G1 & Ex & _).
    + intros ix I. l_read. destruct I as [<-|[<-|[<-|[]]]]; apply Qc_is_canon; vm_compute; reflexivity.
    + assert (Er : Spec.mean_of (map (fun ix => indicator (observed true (P_dist.thr_at (TScalar (Fin (qz 1))) ix) (reads (a_o (ob (l_state [3; 2] f o c (-1)))) ix))) cells3) = (1 / qz 3)%Qc).
      { transitivity (Spec.mean_of (map (fun ix => indicator (observed true (Fin (qz 1)) (get (of_list NaN [3] (map l_num o)) ix))) cells3)).
        - apply mean_same. intros ix _. rewrite (proj1 (l_reads [3; 2] f o c (-1) ix)). exact eq_refl.
        - apply Qc_is_canon. vm_compute. reflexivity. }
      rewrite Er in Ex. exists v. split; [exact A1|]. rewrite G1, Ex. apply (f_equal Fin). apply Qc_is_canon. vm_compute. reflexivity.
  - refine (c108_roc e_set w_lib w_libr w_str w_dumps w_loads (fun s => s) w_resolve w_points false None [] (fun n => n) (l_state [3; 2] f o c (-1)) true (VInt 1) _ 1 (1 / qz 2)%Qc e_faithful RE RD T _ _ _).
    + rewrite So. apply three_cells; l_read; apply Qc_is_canon; vm_compute; reflexivity.
    + exists [0]. rewrite So. split; [repeat constructor|]. l_read. vm_compute. reflexivity.
    + exists [1]. rewrite So. split; [repeat constructor|]. l_read. vm_compute. reflexivity.
Qed.
(** The observations as members score less than the members 1 and 3. *)
Theorem c108_crps_nonvacuous : exists c c' x x', l_reached c_state /\ l_reached o_state /\ e_answers c_state MCrps c /\ e_answers o_state MCrps c' /\ reads c [] = Fin x /\ reads c' [] = Fin x' /\ (x' < x)%Qc.
Proof.
  set (f := [1; 3; 1; 3; 1; 3]%Z). set (f' := [2; 0; 1; 0; 2; 1; 1; 0; 2]%Z). set (o := [2; 0; 1]%Z). set (c := [2; 2; 2]%Z). set (c1 := [1; 1; 1]%Z).
  destruct (l_facts [3; 2] f o c (-1)) as (RE & C & Sf & So & Sp & B & Ez & Ef & Eo & Ec & A). destruct (l_facts [3; 3] f' o c1 (-1)) as (RE' & C' & Sf' & So' & Sp' & B' & Ez' & Ef' & Eo' & Ec' & A').
  destruct (c108_crps e_set w_lib w_libr w_str w_dumps w_loads (fun s => s) w_resolve w_points false None [] (fun n => n) (l_state [3; 2] f o c (-1)) (l_state [3; 3] f' o c1 (-1)) 1 1 [] cells3
    (fun ix => unfin (get (of_list NaN [3] (map l_num o)) ix)) [qz 1; qz 3] (fun ix => map unfin (members_at 1 (of_list NaN [3; 3] (map l_num f')) ix)) e_faithful RE RE' C C' (or_intror eq_refl)) as (v & v' & x & x' & A1 & A2 & G1 & G2 & Le & Eq).
  - rewrite Ez, Ef, Eo. split; [split; [cbn; lia|right; reflexivity]|reflexivity].
  - rewrite Sf. cbn. lia.
  - right. rewrite So. discriminate.
  - rewrite Ez', Ef', Eo'. split; [split; [cbn; lia|right; reflexivity]|reflexivity].
  - rewrite Sf'. cbn. lia.
  - right. rewrite So'. discriminate.
  - apply l_averages.
  - apply l_averages.
  - intros ix I. l_read. clear - I. destruct I as [<-|[<-|[<-|[]]]]; (split; [vm_compute; reflexivity|]); (split; [vm_compute; reflexivity|]); (split; [vm_compute; reflexivity|]); (split; [vm_compute; reflexivity|]).
    + apply Permutation_refl.
    + change (Permutation [qz 0; qz 2; qz 1] [qz 2; qz 0; qz 1]). apply perm_swap.
    + change (Permutation [qz 1; qz 0; qz 2] [qz 2; qz 0; qz 1]). apply (Permutation_trans (perm_swap _ _ _)). apply (Permutation_trans (perm_skip _ (perm_swap _ _ _))). apply perm_swap.
  - exists v, v', x, x'. split; [exact RE|]. split; [exact RE'|]. split; [exact A1|]. split; [exact A2|]. split; [exact G1|]. split; [exact G2|]. destruct (Qcle_lt_or_eq _ _ Le) as [L|L]; [exact L|]. exfalso.
    pose proof (proj1 Eq (eq_sym L) (qz 0)) as Q. apply (f_equal this) in Q. vm_compute in Q. discriminate Q.
Qed.
(** The thresholds 1 and 2. *)
Theorem c109_nonvacuous : exists v v', l_reached o_state /\ e_answers o_state (over_or_below MCdf false (VInt 0)) v /\ e_answers o_state (over_or_below MCdf false (VInt 1)) v' /\ arr_shape v = [3] /\
  reads v [0] <> reads v' [0] /\ forall ix, Forall2 lt ix [3] -> exists p p', reads v ix = Fin p /\ reads v' ix = Fin p' /\ (0 <= p)%Qc /\ (p <= p')%Qc /\ (p' <= 1)%Qc.
Proof.
  set (f' := [2; 0; 1; 0; 2; 1; 1; 0; 2]%Z). set (o := [2; 0; 1]%Z). set (c1 := [1; 1; 1]%Z).
  destruct (l_facts [3; 3] f' o c1 (-1)) as (RE & C & Sf & So & Sp & B & Ez & Ef & Eo & Ec & A).
  assert (RD : forall t, ensemble_ready e_set (ob (l_state [3; 3] f' o c1 (-1))) 1 (VInt t) (TScalar (Fin (qz t)))).
  { intros t. split; [exact C|]. split; [reflexivity|]. split; [rewrite Ez, Ef, Eo; split; [split; [cbn; lia|right; reflexivity]|reflexivity]|]. rewrite Sf, So. split; [cbn; lia|]. split; [left; reflexivity|]. split; [reflexivity|exact I]. }
  destruct (c109_order e_set w_lib w_libr w_str w_dumps w_loads (fun s => s) w_resolve w_points false None [] (fun n => n) (l_state [3; 3] f' o c1 (-1)) (VInt 0) (VInt 1) _ _ 1 e_faithful RE (RD 0%Z) (RD 1%Z) (or_introl I) (or_introl I)) as (v & v' & A1 & A2 & Sv & Sv' & G); [intros ix _; reflexivity|].
  exists v, v'. split; [exact RE|]. split; [exact A1|]. split; [exact A2|]. split; [congruence|]. rewrite Sv, So in G. split; [|exact G].
  destruct (c85_probability e_set w_lib w_libr w_str w_dumps w_loads (fun s => s) w_resolve w_points false None [] (fun n => n) (l_state [3; 3] f' o c1 (-1)) false (VInt 0) _ 1 e_faithful RE (RD 0%Z) (or_introl I)) as (w & B1 & _ & _ & H1).
  destruct (c85_probability e_set w_lib w_libr w_str w_dumps w_loads (fun s => s) w_resolve w_points false None [] (fun n => n) (l_state [3; 3] f' o c1 (-1)) false (VInt 1) _ 1 e_faithful RE (RD 1%Z) (or_introl I)) as (w' & B2 & _ & _ & H2).
  assert (Ev : w = v) by (clear - A1 B1; pose proof (eq_trans (eq_sym B1) A1) as Q; injection Q; auto). assert (Ev' : w' = v') by (clear - A2 B2; pose proof (eq_trans (eq_sym B2) A2) as Q; injection Q; auto). rewrite Ev in H1. rewrite Ev' in H2.
  rewrite So in H1, H2. rewrite (H1 [0]), (H2 [0]) by (repeat constructor). rewrite Ef. intros Z. apply (f_equal (fun x => this (unfin x))) in Z. vm_compute in Z. discriminate Z.
Qed.
Print Assumptions c108_nonvacuous.
Print Assumptions c108_crps_nonvacuous.
Print Assumptions c109_nonvacuous.
