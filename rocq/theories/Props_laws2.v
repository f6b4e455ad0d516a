(** Properties C104 to C106: when scores are zero or one, averages of averages, one member and repeated members.  They rest on what
    C85 proves of a single call after any history. *)
From Coq Require Import String Ascii ZArith List Bool Arith QArith Qcanon Lia Permutation.
From Verif Require Import QcTac QSum Num NdArr Numpy NdAxes M_common M_boot M_determ M_ens M_crpsens M_iou M_roc M_dist M_ps
  Spec P_boot P_rank P_prob P_ps Props_avg Props_prob Props_ps Props_iou Store M_state Spec_state P_state P_codec Spec_result P_result Props_state Props_result
  M_whole Spec_whole P_whole Props_whole P_laws P_laws2 Props_laws.
From Verif Require Import P_work.
From Verif Require P_dist.
Import ListNotations.
Open Scope string_scope.
Open Scope list_scope.
Open Scope nat_scope.

Definition unfin (x : num) : Qc := match x with Fin q => q | _ => 0%Qc end.
Lemma sub_zero (a b : Qc) : (a - b = 0)%Qc -> a = b.
Proof. intros H. replace a with (a - b + b)%Qc by ring. rewrite H. ring. Qed.
(** ** Entries of a result averaged over fewer axes *)
Lemma Cells_length sh ns k L : NoDup ns -> (forall j, In j ns -> j < length sh) -> Cells sh ns k L -> L <> [] -> length L = prod (pick ns sh).
Proof.
  intros N I C E. pose proof (Cells_valid _ _ _ _ C E) as V. pose proof (Cells_perm _ _ _ _ C) as P1. pose proof (Cells_perm _ _ _ _ (group_list_Cells sh ns k N I V)) as P2.
  rewrite <- (Permutation_length P1), (Permutation_length P2). unfold group_list. rewrite map_length. apply indices_length.
Qed.
Lemma axes_in nd ax ns j : axes_are nd ax ns -> In j ns -> j < nd.
Proof.
  destruct ax as [l|]; cbn [axes_are]; [|intros -> H; apply in_seq in H; lia]. intros [F _]. revert F. generalize l. clear l. induction ns as [|i ns IH]; intros l F H; [destruct H|]. inversion F as [|z i' zs is A B]; subst. destruct H as [<-|H]; [apply A|apply (IH zs B H)].
Qed.
Lemma kept_finer nd ns ns' a b : (forall j, In j ns' -> In j ns) -> kept nd ns' a = kept nd ns' b -> kept nd ns a = kept nd ns b.
Proof.
  intros Sub E. unfold kept in *. assert (G : forall j, In j (seq 0 nd) -> ~ In j ns' -> nth j a 0 = nth j b 0).
  { intros j Hj Nj. assert (Hf : In j (filter (fun j => negb (existsb (Nat.eqb j) ns')) (seq 0 nd))).
    { apply filter_In. split; [exact Hj|]. apply negb_true_iff, not_true_iff_false. intros X. apply existsb_exists in X as (i & Hi & Ei). apply Nat.eqb_eq in Ei. subst. exact (Nj Hi). }
    revert E Hf. generalize (filter (fun j => negb (existsb (Nat.eqb j) ns')) (seq 0 nd)). induction l as [|i l IH]; intros E [].
    - subst. cbn in E. injection E as E1 _. exact E1.
    - cbn in E. injection E as _ E2. apply (IH E2 H). }
  apply map_ext_in. intros j Hj. apply filter_In in Hj as [Hj Nj]. apply G; [exact Hj|]. intros Hn. apply negb_true_iff in Nj. assert (X : existsb (Nat.eqb j) ns = true) by (apply existsb_exists; exists j; split; [apply Sub, Hn|apply Nat.eqb_refl]). congruence.
Qed.
Lemma split_cells sh ns ns' k L ks : NoDup ns' -> (forall j, In j ns' -> j < length sh) -> (forall j, In j ns' -> In j ns) -> Cells sh ns k L -> L <> [] ->
  NoDup ks -> (forall q, In q ks <-> exists ix, In ix L /\ kept (length sh) ns' ix = q) ->
  ks <> [] /\ 0 < prod (pick ns' sh) /\ Permutation L (concat (map (fun q => group sh (mask_of (length sh) ns') q) ks)) /\
  forall q, In q ks -> Cells sh ns' q (group sh (mask_of (length sh) ns') q) /\ group sh (mask_of (length sh) ns') q <> [] /\ length (group sh (mask_of (length sh) ns') q) = prod (pick ns' sh).
Proof.
  intros N' I' Sub C E Nk K. set (g q := group sh (mask_of (length sh) ns') q). pose proof (fun q => group_Cells sh ns' q) as G. fold g in G. change (forall q, Cells sh ns' q (g q)) in G.
  assert (Gq : forall q, In q ks -> Cells sh ns' q (g q) /\ g q <> [] /\ length (g q) = prod (pick ns' sh)).
  { intros q Hq. destruct (proj1 (K q) Hq) as (ix & Hix & Eq). assert (Hg : In ix (g q)) by (apply (G q); split; [apply (proj2 C), Hix|exact Eq]).
    assert (Ng : g q <> []) by (intros Z; rewrite Z in Hg; exact Hg). split; [apply G|]. split; [exact Ng|]. apply (Cells_length sh ns' q (g q) N' I' (G q) Ng). }
  destruct L as [|i0 L0] eqn:EL; [contradiction|]. rewrite <- EL in *. assert (H0 : In (kept (length sh) ns' i0) ks) by (apply K; exists i0; split; [rewrite EL; left; reflexivity|reflexivity]).
  split; [intros Z; rewrite Z in H0; exact H0|]. split; [destruct (Gq _ H0) as (_ & Ng & <-); apply length_pos, Ng|]. split; [|exact Gq].
  apply NoDup_Permutation.
  - apply C.
  - clear - Nk G. induction ks as [|q ks IH]; [constructor|]. inversion Nk as [|q' ks' Hq Nk']; subst. cbn [map concat]. apply NoDup_app_intro; [apply G|apply IH, Nk'|].
    intros ix H1 H2. apply (G q) in H1 as [_ H1]. apply in_concat in H2 as (l & Hl & Hi). apply in_map_iff in Hl as (p & <- & Hp). apply (G p) in Hi as [_ Hi]. rewrite H1 in Hi. subst p. exact (Hq Hp).
  - intros ix. rewrite in_concat. split.
    + intros Hi. exists (g (kept (length sh) ns' ix)). split; [apply in_map, K; exists ix; auto|]. apply G. split; [apply (proj2 C), Hi|reflexivity].
    + intros (l & Hl & Hi). apply in_map_iff in Hl as (q & <- & Hq). apply (G q) in Hi as [V Eq]. destruct (proj1 (K q) Hq) as (i1 & Hi1 & E1). apply (proj2 C). split; [exact V|].
      rewrite <- (proj2 (proj1 (proj2 C i1) Hi1)). apply (kept_finer _ ns ns'); [exact Sub|]. congruence.
Qed.

Section Laws.
Variable S : settings.
Variable other : string -> list M_state.val -> res M_state.val.
Variable otherr : string -> list M_state.val -> nat -> res M_state.val.
Variable str_of : M_state.val -> string.
Variable dumps : M_state.val -> string.
Variable loads : string -> res M_state.val.
Variable expanduser : string -> string.
Variable resolve : string -> path.
Variable points : M_state.val -> M_state.val -> M_state.val -> res (list num).
Variable less_memory : bool.
Variable integrate_wdir : option path.
Variable cwd : path.
Variable rng : nat -> nat.
Notation faithful := (faithful str_of dumps loads expanduser).
Notation reached := (reached S other otherr str_of dumps loads expanduser resolve points less_memory integrate_wdir cwd rng).
Notation answers := (answers S other otherr str_of dumps loads expanduser resolve points less_memory integrate_wdir cwd rng).
Notation step := (M_state.step (whole_lib S other) (whole_libr S otherr) str_of dumps loads expanduser resolve points less_memory integrate_wdir cwd rng).
Notation ensemble_ready := (ensemble_ready S).
Notation thr_at := P_dist.thr_at.
Notation errors := (c85_errors S other otherr str_of dumps loads expanduser resolve points less_memory integrate_wdir cwd rng).
Notation probability := (c85_probability S other otherr str_of dumps loads expanduser resolve points less_memory integrate_wdir cwd rng).
Notation brier := (c85_brier S other otherr str_of dumps loads expanduser resolve points less_memory integrate_wdir cwd rng).
Notation roc := (c85_roc S other otherr str_of dumps loads expanduser resolve points less_memory integrate_wdir cwd rng).
Notation crps := (c85_crps S other otherr str_of dumps loads expanduser resolve points less_memory integrate_wdir cwd rng).
Notation spread := (c85_spread S other otherr str_of dumps loads expanduser resolve points less_memory integrate_wdir cwd rng).
Notation iou := (c85_iou S other otherr str_of dumps loads expanduser resolve points less_memory integrate_wdir cwd rng).


Lemma made_members x n ix M : 0 < nth n (arr_shape (a_f x)) 0 -> members x n ix = map Fin M -> M <> [].
Proof. intros P E ->. apply (f_equal (@length num)) in E. unfold members, members_at in E. rewrite map_length, seq_length, arr_shape_of in E. cbn in E. lia. Qed.

(** ** C104: only right forecasts get the best scores *)
Theorem c104_errors : forall s k L F O, faithful -> reached s -> cl (ob s) = CDeterm \/ cl (ob s) = CEnsemble -> arr_shape (point (ob s)) = arr_shape (a_o (ob s)) -> averages (ob s) k L ->
  (forall ix, In ix L -> reads (point (ob s)) ix = Fin (F ix) /\ reads (a_o (ob s)) ix = Fin (O ix)) ->
  exists sq ab x y, answers s MSqErr sq /\ answers s MAbErr ab /\ reads sq k = Fin x /\ reads ab k = Fin y /\ (0 <= x)%Qc /\ (0 <= y)%Qc /\
    (x = 0%Qc <-> forall ix, In ix L -> F ix = O ix) /\ (y = 0%Qc <-> forall ix, In ix L -> F ix = O ix).
Proof.
  intros s k L F O FA RE C Sh (B & N & ax & ns & A & X & HC) V.
  destruct (errors s ax ns k L F O FA RE C B A Sh X HC N V) as (e & sq & ab & _ & A2 & A3 & _ & _ & _ & _ & G2 & G3 & _).
  exists sq, ab. do 2 eexists. split; [exact A2|]. split; [exact A3|]. split; [exact G2|]. split; [exact G3|]. split; [apply mean_nonneg; [exact N|intros; apply square_nonneg]|]. split; [apply mean_nonneg; [exact N|intros; apply qdist_nonneg]|].
  rewrite !mean_pos_zero by (try exact N; intros; try apply square_nonneg; apply qdist_nonneg). split; split; intros H ix I; specialize (H ix I).
  - apply sub_zero, square_zero, H.
  - rewrite H. ring.
  - apply qdist_zero, H.
  - apply qdist_zero, H.
Qed.
(** The CRPS lies between the mean distance of the members to the observation and that distance divided by the number of members. *)
Theorem c104_crps : forall s n k L O M r, faithful -> reached s -> cl (ob s) = CEnsemble -> properscoring (w_cell S) ->
  fits (arr_of (a_o (ob s))) (arr_of (a_f (ob s))) (int_of (a_eaxis (ob s))) n -> nth n (arr_shape (a_f (ob s))) 0 = r -> 0 < r -> w_split S = false \/ arr_shape (a_o (ob s)) <> [] -> averages (ob s) k L ->
  (forall ix, In ix L -> reads (a_o (ob s)) ix = Fin (O ix) /\ members (ob s) n ix = map Fin (M ix)) ->
  let D := Spec.mean_of (map (fun ix => Spec.mean_of (map (fun m => qdist m (O ix)) (M ix))) L) in
  exists c x, answers s MCrps c /\ reads c k = Fin x /\ (D / qn r <= x)%Qc /\ (x <= D)%Qc /\ (0 <= x)%Qc /\ (x = 0%Qc <-> forall ix m, In ix L -> In m (M ix) -> m = O ix).
Proof.
  intros s n k L O M r FA RE C PS Fi Er Pos Sp (B & N & ax & ns & A & X & HC) V D. rewrite <- Er in Pos.
  destruct (crps s n ax ns k L O M FA RE C PS Fi Pos Sp B A X HC N V) as (c & Ac & _ & Gc). exists c. eexists. split; [exact Ac|]. split; [exact Gc|].
  assert (Ne : forall ix, In ix L -> M ix <> []) by (intros ix I; apply (made_members (ob s) n ix (M ix) Pos), V, I).
  assert (Lr : forall ix, In ix L -> length (M ix) = r) by (intros ix I; destruct (V ix I) as [_ E]; apply (f_equal (@length num)) in E; unfold members, members_at in E; rewrite map_length, map_length, seq_length, arr_shape_of in E; congruence).
  assert (Dn : forall ix, In ix L -> (0 <= Spec.mean_of (map (fun m => qdist m (O ix)) (M ix)))%Qc) by (intros ix I; apply mean_nonneg; [apply Ne, I|intros; apply qdist_nonneg]).
  assert (Rp : (0 < qn r)%Qc) by (apply qn_pos; rewrite <- Er; exact Pos).
  assert (Lo : (D / qn r <= Spec.mean_of (map (fun ix => crps_formula (O ix) (M ix)) L))%Qc).
  { replace (D / qn r)%Qc with (Spec.mean_of (map (fun ix => / qn r * Spec.mean_of (map (fun m => qdist m (O ix)) (M ix)))%Qc L)) by (unfold D; rewrite (mean_scaled (fun ix => Spec.mean_of (map (fun m => qdist m (O ix)) (M ix))) _ (/ qn r)%Qc L ltac:(reflexivity)); unfold Qcdiv; ring).
    rewrite (mean_q (map (fun ix => crps_formula (O ix) (M ix)) L)), (mean_q (map (fun ix => / qn r * Spec.mean_of (map (fun m => qdist m (O ix)) (M ix)))%Qc L)). apply (qmeanf_le _ _ L N). intros ix I. rewrite <- (Lr ix I). pose proof (crps_lower (O ix) (M ix) (Ne ix I)) as H. unfold Qcdiv in H. rewrite Qcmult_comm. exact H. }
  assert (D0 : (0 <= D)%Qc) by (apply mean_nonneg; assumption).
  split; [exact Lo|]. split.
  { unfold D. rewrite (mean_q (map (fun ix => crps_formula (O ix) (M ix)) L)), (mean_q (map (fun ix => Spec.mean_of (map (fun m => qdist m (O ix)) (M ix))) L)). apply (qmeanf_le _ _ L N). intros ix I. apply crps_upper, Ne, I. }
  assert (Cn : forall ix, In ix L -> (0 <= crps_formula (O ix) (M ix))%Qc).
  { intros ix I. eapply Qcle_trans; [|apply crps_lower, Ne, I]. apply Qcdiv_nonneg; [apply Dn, I|]. rewrite (Lr ix I). exact Rp. }
  split; [apply mean_nonneg; assumption|]. rewrite mean_pos_zero by assumption. split.
  - intros H ix m I J. apply (proj1 (crps_zero (O ix) (M ix) (Ne ix I)) (H ix I) m J).
  - intros H ix I. apply crps_zero; [apply Ne, I|]. intros m J. apply H; assumption.
Qed.
Theorem c104_brier : forall s (over : bool) t b n k L, faithful -> reached s -> ensemble_ready (ob s) n t b -> threshold_ok t -> averages (ob s) k L ->
  exists v x, answers s (over_or_below MBrier over t) v /\ reads v k = Fin x /\ (0 <= x)%Qc /\
    (x = 0%Qc <-> forall ix, In ix L -> member_share over (thr_at b ix) (members (ob s) n ix) = indicator (observed over (thr_at b ix) (reads (a_o (ob s)) ix))).
Proof.
  intros s over t b n k L FA RE H T (B & N & ax & ns & A & X & HC).
  destruct (brier s over t b n ax ns k L FA RE H T B A X HC N) as (v & A1 & _ & G1). exists v. eexists. split; [exact A1|]. split; [exact G1|].
  split; [apply mean_nonneg; [exact N|intros; apply square_nonneg]|]. rewrite mean_pos_zero by (try exact N; intros; apply square_nonneg). unfold members. split; intros Z ix I; specialize (Z ix I).
  - cbv beta zeta in Z. apply sub_zero, square_zero, Z.
  - cbv zeta. rewrite Z. ring.
Qed.
Theorem c104_roc : forall s (over : bool) t b n, faithful -> reached s -> ensemble_ready (ob s) n t b -> threshold_ok t ->
  let happened ix := observed over (thr_at b ix) (reads (a_o (ob s)) ix) in let given ix := member_share over (thr_at b ix) (members (ob s) n ix) in
  (exists ix, Forall2 lt ix (arr_shape (a_o (ob s))) /\ happened ix = true) -> (exists ix, Forall2 lt ix (arr_shape (a_o (ob s))) /\ happened ix = false) ->
  exists fpr tpr a, answers s (over_or_below MRoc over t) (VTuple [fpr; tpr; VFloat (Fin a)]) /\
    (a = 1%Qc <-> forall ix jx, Forall2 lt ix (arr_shape (a_o (ob s))) -> Forall2 lt jx (arr_shape (a_o (ob s))) -> happened ix = false -> happened jx = true -> (given ix < given jx)%Qc).
Proof.
  intros s over t b n FA RE H T ev P (i1 & V1 & O1) (i2 & V2 & O2). set (I := indices (arr_shape (a_o (ob s)))).
  assert (N1 : filter ev I <> []) by (intros Z; assert (Y : In i1 (filter ev I)) by (apply filter_In; split; [apply in_indices, V1|exact O1]); rewrite Z in Y; exact Y).
  assert (N2 : filter (fun ix => negb (ev ix)) I <> []) by (intros Z; assert (Y : In i2 (filter (fun ix => negb (ev ix)) I)) by (apply filter_In; split; [apply in_indices, V2|rewrite O2; reflexivity]); rewrite Z in Y; exact Y).
  destruct (roc s over t b n FA RE H T N1 N2) as (fpr & tpr & R). exists fpr, tpr. eexists. split; [exact R|].
  change (roc_area P (filter (fun ix => negb (ev ix)) I) (filter ev I) = 1%Qc <-> forall ix jx, Forall2 lt ix (arr_shape (a_o (ob s))) -> Forall2 lt jx (arr_shape (a_o (ob s))) -> ev ix = false -> ev jx = true -> (P ix < P jx)%Qc). split.
  - intros Z ix jx Vi Vj Ei Ej. apply (roc_one P _ _ N2 N1 Z); apply filter_In; (split; [apply in_indices; assumption|]); [rewrite Ei; reflexivity|exact Ej].
  - intros Z. apply roc_separated; [exact N2|exact N1|]. intros a c Ha Hc. apply filter_In in Ha as [Ha Ea]. apply filter_In in Hc as [Hc Ec]. apply Z; try (apply in_indices; assumption); [apply negb_true_iff, Ea|exact Ec].
Qed.

(** ** C105: averages over more axes are averages of averages over fewer *)
(** Two verifiers of the same data; the second averages over some of the axes over which the first does.  The entry [k] of the first averages
    the cells [L]; [ks] lists the entries of the second that average some of them. *)
Definition finer (x y : obj) (k : list nat) (L : list (list nat)) (ks : list (list nat)) : Prop :=
  a_boot x = VNone /\ a_boot y = VNone /\ cl y = cl x /\ a_f y = a_f x /\ a_o y = a_o x /\ a_fc y = a_fc x /\ a_eaxis y = a_eaxis x /\ L <> [] /\
  exists ax ns ax' ns', axes_of (a_avg x) = Some ax /\ axes_are (length (arr_shape (a_o x))) ax ns /\ axes_of (a_avg y) = Some ax' /\ axes_are (length (arr_shape (a_o x))) ax' ns' /\
    (forall j, In j ns' -> In j ns) /\ Cells (arr_shape (a_o x)) ns k L /\ NoDup ks /\ forall q, In q ks <-> exists ix, In ix L /\ kept (length (arr_shape (a_o x))) ns' ix = q.
(** the metric of the first is the mean of those of the second *)
Definition combined (s s' : st) (m : meth) (k : list nat) (ks : list (list nat)) : Prop :=
  exists v v' g, answers s m v /\ answers s' m v' /\ (forall q, In q ks -> reads v' q = Fin (g q)) /\ reads v k = Fin (Spec.mean_of (map g ks)).
Lemma combine s s' m k ks L (g : list nat -> Qc) v v' ns' : let sh := arr_shape (a_o (ob s)) in let G q := group sh (mask_of (length sh) ns') q in
  answers s m v -> answers s' m v' -> ks <> [] -> 0 < prod (pick ns' sh) -> Permutation L (concat (map G ks)) -> (forall q, In q ks -> length (G q) = prod (pick ns' sh)) ->
  reads v k = Fin (Spec.mean_of (map g L)) -> (forall q, In q ks -> reads v' q = Fin (Spec.mean_of (map g (G q)))) -> combined s s' m k ks.
Proof.
  intros sh G A A' N P Pm Ln R R'. exists v, v', (fun q => Spec.mean_of (map g (G q))). split; [exact A|]. split; [exact A'|]. split; [exact R'|]. rewrite R. f_equal.
  rewrite (mean_means g L (map G ks) (prod (pick ns' sh))); [rewrite map_map; reflexivity|intros Z; apply map_eq_nil in Z; contradiction|exact P|exact Pm|]. intros l Hl. apply in_map_iff in Hl as (q & <- & Hq). apply Ln, Hq.
Qed.
Ltac open_finer := match goal with H : finer _ _ _ _ _ |- _ => destruct H as (B & B' & Ec & Ef & Eo & Efc & Ee & N & ax & ns & ax' & ns' & A & X & A' & X' & Sub & HC & Nk & K) end.
Theorem c105_errors : forall s s' k L ks F O, faithful -> reached s -> reached s' -> cl (ob s) = CDeterm \/ cl (ob s) = CEnsemble -> arr_shape (point (ob s)) = arr_shape (a_o (ob s)) -> finer (ob s) (ob s') k L ks ->
  (forall ix, In ix L -> reads (point (ob s)) ix = Fin (F ix) /\ reads (a_o (ob s)) ix = Fin (O ix)) ->
  combined s s' MError k ks /\ combined s s' MSqErr k ks /\ combined s s' MAbErr k ks.
Proof.
  intros s s' k L ks F O FA RE RE' C Sh FI V. open_finer. destruct (split_cells _ ns ns' k L ks (axes_are_nodup _ _ _ X') (fun j => axes_in _ _ _ j X') Sub HC N Nk K) as (Nks & Pp & Pm & Gq).
  set (sh := arr_shape (a_o (ob s))) in *. set (G q := group sh (mask_of (length sh) ns') q) in *.
  assert (Ep : point (ob s') = point (ob s)) by (unfold point; rewrite Ec, Ef, Efc; reflexivity).
  assert (Eo' : arr_shape (a_o (ob s')) = sh) by (rewrite Eo; reflexivity).
  destruct (errors s ax ns k L F O FA RE C B A Sh X HC N V) as (e & sq & ab & A1 & A2 & A3 & _ & _ & _ & G1 & G2 & G3 & _).
  assert (H : exists e' sq' ab', answers s' MError e' /\ answers s' MSqErr sq' /\ answers s' MAbErr ab' /\ forall q, In q ks -> reads e' q = Fin (Spec.mean_of (map (fun ix => F ix - O ix)%Qc (G q))) /\
    reads sq' q = Fin (Spec.mean_of (map (fun ix => (F ix - O ix) * (F ix - O ix))%Qc (G q))) /\ reads ab' q = Fin (Spec.mean_of (map (fun ix => qdist (F ix) (O ix)) (G q)))).
  { assert (Q : forall q, In q ks -> exists e' sq' ab', answers s' MError e' /\ answers s' MSqErr sq' /\ answers s' MAbErr ab' /\ reads e' q = Fin (Spec.mean_of (map (fun ix => F ix - O ix)%Qc (G q))) /\
      reads sq' q = Fin (Spec.mean_of (map (fun ix => (F ix - O ix) * (F ix - O ix))%Qc (G q))) /\ reads ab' q = Fin (Spec.mean_of (map (fun ix => qdist (F ix) (O ix)) (G q)))).
    { intros q Hq. destruct (Gq q Hq) as (Cq & Nq & _).
      destruct (errors s' ax' ns' q (G q) F O FA RE' ltac:(rewrite Ec; exact C) B' A' ltac:(rewrite Ep, Eo; exact Sh) ltac:(rewrite Eo'; exact X') ltac:(rewrite Eo'; exact Cq) Nq) as (e' & sq' & ab' & D1 & D2 & D3 & _ & _ & _ & H1 & H2 & H3 & _).
      - intros ix I. rewrite Ep, Eo. apply V. apply (Permutation_in _ (Permutation_sym Pm)), in_concat. exists (G q). split; [apply in_map, Hq|exact I].
      - exists e', sq', ab'. auto 10. }
    destruct ks as [|q0 ks'] eqn:Ek; [contradiction|]. rewrite <- Ek in *. destruct (Q q0) as (e' & sq' & ab' & D1 & D2 & D3 & _); [rewrite Ek; left; reflexivity|]. exists e', sq', ab'. split; [exact D1|]. split; [exact D2|]. split; [exact D3|].
    intros q Hq. destruct (Q q Hq) as (e2 & sq2 & ab2 & W1 & W2 & W3 & W4). unfold Props_whole.answers in *. rewrite D1 in W1. rewrite D2 in W2. rewrite D3 in W3. injection W1 as <-. injection W2 as <-. injection W3 as <-. exact W4. }
  destruct H as (e' & sq' & ab' & D1 & D2 & D3 & H).
  split; [|split]; eapply combine; try eassumption; try (intros q Hq; apply (Gq q Hq)); intros q Hq; apply (H q Hq).
Qed.
Theorem c105_ensemble : forall s s' n k L ks O M hi lo, faithful -> reached s -> reached s' -> cl (ob s) = CEnsemble -> properscoring (w_cell S) ->
  fits (arr_of (a_o (ob s))) (arr_of (a_f (ob s))) (int_of (a_eaxis (ob s))) n -> 0 < nth n (arr_shape (a_f (ob s))) 0 -> w_split S = false \/ arr_shape (a_o (ob s)) <> [] -> finer (ob s) (ob s') k L ks ->
  (forall ix, In ix L -> reads (a_o (ob s)) ix = Fin (O ix) /\ members (ob s) n ix = map Fin (M ix) /\ In (hi ix) (M ix) /\ In (lo ix) (M ix) /\ forall y, In y (M ix) -> (lo ix <= y)%Qc /\ (y <= hi ix)%Qc) ->
  combined s s' MCrps k ks /\ combined s s' MSpread k ks.
Proof.
  intros s s' n k L ks O M hi lo FA RE RE' C PS Fi Pos Sp FI V. open_finer. destruct (split_cells _ ns ns' k L ks (axes_are_nodup _ _ _ X') (fun j => axes_in _ _ _ j X') Sub HC N Nk K) as (Nks & Pp & Pm & Gq).
  set (sh := arr_shape (a_o (ob s))) in *. set (G q := group sh (mask_of (length sh) ns') q) in *.
  assert (Eo' : arr_shape (a_o (ob s')) = sh) by (rewrite Eo; reflexivity).
  destruct (crps s n ax ns k L O M FA RE C PS Fi Pos Sp B A X HC N) as (c & A1 & _ & G1); [intros ix I; destruct (V ix I) as (V1 & V2 & _); auto|].
  destruct (spread s n ax ns k L hi lo M FA RE C Fi Pos B A X HC N) as (d & A2 & _ & G2); [intros ix I; destruct (V ix I) as (_ & V2); exact V2|].
  assert (Vq : forall q ix, In q ks -> In ix (G q) -> In ix L) by (intros q ix Hq I; apply (Permutation_in _ (Permutation_sym Pm)), in_concat; exists (G q); split; [apply in_map, Hq|exact I]).
  assert (H : exists c' d', answers s' MCrps c' /\ answers s' MSpread d' /\ forall q, In q ks -> reads c' q = Fin (Spec.mean_of (map (fun ix => crps_formula (O ix) (M ix)) (G q))) /\ reads d' q = Fin (Spec.mean_of (map (fun ix => hi ix - lo ix)%Qc (G q)))).
  { assert (Q : forall q, In q ks -> exists c' d', answers s' MCrps c' /\ answers s' MSpread d' /\ reads c' q = Fin (Spec.mean_of (map (fun ix => crps_formula (O ix) (M ix)) (G q))) /\ reads d' q = Fin (Spec.mean_of (map (fun ix => hi ix - lo ix)%Qc (G q)))).
    { intros q Hq. destruct (Gq q Hq) as (Cq & Nq & _).
      destruct (crps s' n ax' ns' q (G q) O M FA RE' ltac:(rewrite Ec; exact C) PS ltac:(rewrite Eo, Ef, Ee; exact Fi) ltac:(rewrite Ef; exact Pos) ltac:(rewrite Eo'; exact Sp) B' A' ltac:(rewrite Eo'; exact X') ltac:(rewrite Eo'; exact Cq) Nq) as (c' & D1 & _ & H1); [intros ix I; rewrite Eo, Ef; destruct (V ix (Vq q ix Hq I)) as (V1 & V2 & _); auto|].
      destruct (spread s' n ax' ns' q (G q) hi lo M FA RE' ltac:(rewrite Ec; exact C) ltac:(rewrite Eo, Ef, Ee; exact Fi) ltac:(rewrite Ef; exact Pos) B' A' ltac:(rewrite Eo'; exact X') ltac:(rewrite Eo'; exact Cq) Nq) as (d' & D2 & _ & H2); [intros ix I; rewrite Ef; destruct (V ix (Vq q ix Hq I)) as (_ & V2); exact V2|].
      exists c', d'. auto. }
    destruct ks as [|q0 ks'] eqn:Ek; [contradiction|]. rewrite <- Ek in *. destruct (Q q0) as (c' & d' & D1 & D2 & _); [rewrite Ek; left; reflexivity|]. exists c', d'. split; [exact D1|]. split; [exact D2|].
    intros q Hq. destruct (Q q Hq) as (c2 & d2 & W1 & W2 & W3). unfold Props_whole.answers in *. rewrite D1 in W1. rewrite D2 in W2. injection W1 as <-. injection W2 as <-. exact W3. }
  destruct H as (c' & d' & D1 & D2 & H). split; eapply combine; try eassumption; try (intros q Hq; apply (Gq q Hq)); intros q Hq; apply (H q Hq).
Qed.
Theorem c105_brier : forall s s' (over : bool) t b n k L ks, faithful -> reached s -> reached s' -> ensemble_ready (ob s) n t b -> threshold_ok t -> finer (ob s) (ob s') k L ks -> combined s s' (over_or_below MBrier over t) k ks.
Proof.
  intros s s' over t b n k L ks FA RE RE' H T FI. open_finer. destruct (split_cells _ ns ns' k L ks (axes_are_nodup _ _ _ X') (fun j => axes_in _ _ _ j X') Sub HC N Nk K) as (Nks & Pp & Pm & Gq).
  set (sh := arr_shape (a_o (ob s))) in *. set (G q := group sh (mask_of (length sh) ns') q) in *.
  assert (Eo' : arr_shape (a_o (ob s')) = sh) by (rewrite Eo; reflexivity).
  assert (H' : ensemble_ready (ob s') n t b) by (unfold Props_whole.ensemble_ready in *; rewrite Ec, Ef, Eo, Ee; exact H).
  destruct (brier s over t b n ax ns k L FA RE H T B A X HC N) as (v & A1 & _ & G1).
  set (g ix := let d := (member_share over (thr_at b ix) (members_at n (arr_of (a_f (ob s))) ix) - indicator (observed over (thr_at b ix) (reads (a_o (ob s)) ix)))%Qc in (d * d)%Qc) in *.
  assert (Q : forall q, In q ks -> exists v', answers s' (over_or_below MBrier over t) v' /\ reads v' q = Fin (Spec.mean_of (map g (G q)))).
  { intros q Hq. destruct (Gq q Hq) as (Cq & Nq & _). destruct (brier s' over t b n ax' ns' q (G q) FA RE' H' T B' A' ltac:(rewrite Eo'; exact X') ltac:(rewrite Eo'; exact Cq) Nq) as (v' & D1 & _ & H1).
    exists v'. split; [exact D1|]. rewrite H1, Eo, Ef. reflexivity. }
  destruct ks as [|q0 ks'] eqn:Ek; [contradiction|]. rewrite <- Ek in *. destruct (Q q0) as (v' & D1 & _); [rewrite Ek; left; reflexivity|].
  eapply combine; try eassumption; try (intros q Hq; apply (Gq q Hq)). intros q Hq. destruct (Q q Hq) as (v2 & W1 & W2). unfold Props_whole.answers in *. rewrite D1 in W1. injection W1 as <-. exact W2.
Qed.

(** Missing values: with pyanen_skip_nan a metric averages the cells that are there; without, one missing cell makes it missing. *)
Theorem c105_missing : forall s ax ns k L (m : meth) (h : Qc -> Qc -> Qc), faithful -> reached s -> cl (ob s) = CDeterm \/ cl (ob s) = CEnsemble -> a_boot (ob s) = VNone -> axes_of (a_avg (ob s)) = Some ax ->
  arr_shape (point (ob s)) = arr_shape (a_o (ob s)) -> axes_are (length (arr_shape (a_o (ob s)))) ax ns -> Cells (arr_shape (a_o (ob s))) ns k L -> L <> [] ->
  (m = MError /\ h = (fun f o => f - o)%Qc) \/ (m = MSqErr /\ h = (fun f o => (f - o) * (f - o))%Qc) \/ (m = MAbErr /\ h = qdist) ->
  (forall ix, In ix L -> (reads (point (ob s)) ix = NaN \/ is_fin (reads (point (ob s)) ix)) /\ (reads (a_o (ob s)) ix = NaN \/ is_fin (reads (a_o (ob s)) ix))) ->
  let there ix := negb (is_nan (reads (point (ob s)) ix) || is_nan (reads (a_o (ob s)) ix)) in
  exists v, answers s m v /\
    (skip_nan (w_boot S) = true -> (filter there L = [] -> reads v k = NaN) /\
       (filter there L <> [] -> reads v k = Fin (Spec.mean_of (map (fun ix => h (unfin (reads (point (ob s)) ix)) (unfin (reads (a_o (ob s)) ix))) (filter there L))))) /\
    (skip_nan (w_boot S) = false -> (reads v k = NaN <-> exists ix, In ix L /\ there ix = false)).
Proof.
  intros s ax ns k L m h FA RE C B A Sh X HC N Hm V there. set (x := ob s) in *.
  assert (Pf : point_forecast (whole_lib S other) points x = Ok (point x)) by (unfold point_forecast, point; destruct C as [-> | ->]; reflexivity).
  assert (Q : exists name (g : arr num -> arr num -> arr num), (forall d, result (whole_lib S other) (whole_libr S otherr) points x m d = averaged_over (whole_lib S other) (whole_libr S otherr) x (error_of (whole_lib S other) points x name) (d 0)) /\ key_ok m /\ random_call x m = false /\
    whole_lib S other name [point x; a_o x] = Ok (val_of (g (arr_of (point x)) (arr_of (a_o x)))) /\
    (forall a b, shape (g a b) = shape a) /\ (forall a b ix, (get a ix = NaN \/ is_fin (get a ix)) -> (get b ix = NaN \/ is_fin (get b ix)) ->
       get (g a b) ix = if is_nan (get a ix) || is_nan (get b ix) then NaN else Fin (h (unfin (get a ix)) (unfin (get b ix))))).
  { destruct Hm as [[-> ->]|[[-> ->]|[-> ->]]]; [exists "sub", cell_error|exists "sub_sq", cell_sq_error|exists "sub_abs", cell_ab_error];
      (split; [reflexivity|split; [constructor|split; [unfold random_call; rewrite B; reflexivity|split; [reflexivity|split; [reflexivity|]]]]]); intros a b ix [Ea|[y Ea]] [Eb|[z Eb]]; cbn [cell_error cell_sq_error cell_ab_error amap2 get]; rewrite Ea, Eb; try reflexivity. cbn [unfin is_nan orb]. rewrite qdist_abs. reflexivity. }
  destruct Q as (name & g & Rm & K & R & Ln & Shg & Gg). set (w := val_of (g (arr_of (point x)) (arr_of (a_o x)))) in *.
  assert (Sw : shape (arr_of w) = arr_shape (a_o x)) by (rewrite <- Sh, <- (arr_shape_of (point x)); exact (Shg _ _)).
  assert (Xw : axes_are (length (shape (arr_of w))) ax ns) by (rewrite Sw; exact X).
  destruct (proj2 (avg_accepts (w_boot S) (fun _ _ _ => 0) ax (arr_of w)) (ex_intro _ ns Xw)) as [r Er].
  assert (Gw : forall ix, In ix L -> get (arr_of w) ix = if there ix then Fin (h (unfin (reads (point x) ix)) (unfin (reads (a_o x) ix))) else NaN).
  { intros ix I. change (get (arr_of w) ix) with (reads w ix). unfold w. rewrite reads_val by (rewrite Shg, arr_shape_of, Sh; apply (proj2 HC), I). destruct (V ix I) as [V1 V2]. rewrite (Gg _ _ _ V1 V2). unfold there, reads. destruct (_ || _); reflexivity. }
  assert (Nw : forall ix, In ix L -> negb (is_nan (get (arr_of w) ix)) = there ix) by (intros ix I; rewrite (Gw ix I); destruct (there ix); reflexivity).
  destruct (c12_missing_values (w_boot S) (fun _ _ _ => 0) ax (arr_of w) r ns k L Er) as [M1 M2]; [rewrite Sw; exact X|rewrite Sw; exact HC| |].
  { intros ix I. rewrite (Gw ix I). destruct (there ix); [right; eexists; reflexivity|left; reflexivity]. }
  assert (Sr : shape r = kept (length (arr_shape (a_o x))) ns (arr_shape (a_o x))).
  { destruct (c11_average_over_exact_axes (w_boot S) (fun _ _ _ => 0) ax (arr_of w)) as [_ H]. destruct (H r ns Er ltac:(rewrite Sw; exact X)) as [Z _]. rewrite Sw in Z. exact Z. }
  assert (Rk : reads (val_of r) k = get r k) by (apply reads_val; rewrite Sr; exact (Cells_valid _ _ _ _ HC N)).
  assert (Fl : filter (fun ix => negb (is_nan (get (arr_of w) ix))) L = filter there L) by (apply filter_ext_in; exact Nw).
  exists (val_of r). split; [|split].
  - unfold Props_whole.answers. rewrite (proj1 (reached_result S other otherr str_of dumps loads expanduser resolve points less_memory integrate_wdir cwd rng s m FA RE K R)). fold x. rewrite Rm. unfold averaged_over, error_of. rewrite Pf. cbn [bind]. rewrite Ln. cbn [bind]. unfold with_boot. rewrite B. cbn [is_none app].
    rewrite (lib_avg S other _ _ _ A), Er. reflexivity.
  - intros Sk. specialize (M1 Sk). cbv zeta in M1. rewrite Fl in M1. destruct M1 as [M1 M3]. rewrite Rk. split; [exact M1|]. intros Ne. rewrite (M3 Ne). f_equal. f_equal. apply map_ext_in. intros ix I. apply filter_In in I as [I T]. rewrite (Gw ix I), T. reflexivity.
  - intros Sk. rewrite Rk, (M2 Sk). split.
    + intros [E|(ix & I & E)]; [contradiction|]. exists ix. split; [exact I|]. rewrite (Gw ix I) in E. destruct (there ix); [discriminate|reflexivity].
    + intros (ix & I & E). right. exists ix. split; [exact I|]. rewrite (Gw ix I), E. reflexivity.
Qed.

(** ** C106: one member, and repeated members *)
(** A one-member ensemble is scored like the deterministic forecast it holds: the CRPS is the absolute error, the spread zero. *)
Theorem c106_one_member : forall s s' n k L F O, faithful -> reached s -> reached s' -> cl (ob s) = CEnsemble -> cl (ob s') = CDeterm -> properscoring (w_cell S) ->
  fits (arr_of (a_o (ob s))) (arr_of (a_f (ob s))) (int_of (a_eaxis (ob s))) n -> nth n (arr_shape (a_f (ob s))) 0 = 1 -> w_split S = false \/ arr_shape (a_o (ob s)) <> [] ->
  arr_shape (a_f (ob s')) = arr_shape (a_o (ob s')) -> averages (ob s) k L -> averages (ob s') k L ->
  (forall ix, In ix L -> reads (a_o (ob s)) ix = Fin (O ix) /\ reads (a_o (ob s')) ix = Fin (O ix) /\ reads (a_f (ob s')) ix = Fin (F ix) /\ members (ob s) n ix = [Fin (F ix)]) ->
  exists c d ab, answers s MCrps c /\ answers s MSpread d /\ answers s' MAbErr ab /\ reads c k = reads ab k /\ reads d k = Fin 0%Qc.
Proof.
  intros s s' n k L F O FA RE RE' C C' PS Fi One Sp Sh' (B & N & ax & ns & A & X & HC) (B' & _ & ax' & ns' & A' & X' & HC') V.
  destruct (crps s n ax ns k L O (fun ix => [F ix]) FA RE C PS Fi ltac:(lia) Sp B A X HC N) as (c & A1 & _ & G1); [intros ix I; destruct (V ix I) as (V1 & _ & _ & V4); auto|].
  destruct (spread s n ax ns k L F F (fun ix => [F ix]) FA RE C Fi ltac:(lia) B A X HC N) as (d & A2 & _ & G2).
  { intros ix I. destruct (V ix I) as (_ & _ & _ & V4). split; [exact V4|]. split; [left; reflexivity|]. split; [left; reflexivity|]. intros m [<-|[]]. split; apply Qcle_refl. }
  assert (Ep : point (ob s') = a_f (ob s')) by (unfold point; rewrite C'; reflexivity).
  destruct (errors s' ax' ns' k L F O FA RE' (or_introl C') B' A' ltac:(rewrite Ep; exact Sh') X' HC' N) as (e & sq & ab & _ & _ & A3 & _ & _ & _ & _ & _ & G3 & _); [rewrite Ep; intros ix I; destruct (V ix I) as (_ & V2 & V3 & _); auto|].
  exists c, d, ab. split; [exact A1|]. split; [exact A2|]. split; [exact A3|]. rewrite G1, G2, G3. split; [f_equal; apply mean_same; intros ix I; apply crps_one|]. f_equal. apply mean_zero. intros; ring.
Qed.
(** If every member is repeated the same number of times, in whatever order, the scores stay the same. *)
Definition repeated (x y : obj) (n m r : nat) : Prop := 0 < r /\ arr_shape (a_o y) = arr_shape (a_o x) /\
  forall ix, Forall2 lt ix (arr_shape (a_o x)) -> reads (a_o y) ix = reads (a_o x) ix /\ Permutation (members y m ix) (flat_map (fun v => repeat v r) (members x n ix)).
Theorem c106_repeated_events : forall s s' (over : bool) t b n m r, faithful -> reached s -> reached s' -> ensemble_ready (ob s) n t b -> ensemble_ready (ob s') m t b -> threshold_ok t -> repeated (ob s) (ob s') n m r ->
  (exists v v', answers s (over_or_below MCdf over t) v /\ answers s' (over_or_below MCdf over t) v' /\ arr_shape v' = arr_shape v /\ forall ix, Forall2 lt ix (arr_shape v) -> reads v' ix = reads v ix) /\
  (forall k L, averages (ob s) k L -> averages (ob s') k L -> exists v v', answers s (over_or_below MBrier over t) v /\ answers s' (over_or_below MBrier over t) v' /\ reads v' k = reads v k) /\
  ((exists ix, Forall2 lt ix (arr_shape (a_o (ob s))) /\ observed over (thr_at b ix) (reads (a_o (ob s)) ix) = true) ->
   (exists ix, Forall2 lt ix (arr_shape (a_o (ob s))) /\ observed over (thr_at b ix) (reads (a_o (ob s)) ix) = false) ->
   exists fpr tpr fpr' tpr' a, answers s (over_or_below MRoc over t) (VTuple [fpr; tpr; VFloat (Fin a)]) /\ answers s' (over_or_below MRoc over t) (VTuple [fpr'; tpr'; VFloat (Fin a)])).
Proof.
  intros s s' over t b n m r FA RE RE' H H' T (Pr & Sh & R).
  assert (Ms : forall ix, Forall2 lt ix (arr_shape (a_o (ob s))) -> member_share over (thr_at b ix) (members (ob s') m ix) = member_share over (thr_at b ix) (members (ob s) n ix)).
  { intros ix V. destruct (R ix V) as [_ P]. rewrite (share_perm _ _ _ _ P). apply share_repeat; [exact Pr|]. apply (members_some S (ob s) n t b ix H). }
  split; [|split].
  - destruct (probability s over t b n FA RE H T) as (v & A & _ & Sv & Gv). destruct (probability s' over t b m FA RE' H' T) as (v' & A' & _ & Sv' & Gv').
    exists v, v'. split; [exact A|]. split; [exact A'|]. split; [congruence|]. intros ix V. rewrite Sv in V. rewrite (Gv ix V), (Gv' ix ltac:(rewrite Sh; exact V)). f_equal. apply (Ms ix V).
  - intros k L (B & N & ax & ns & A & X & HC) (B' & _ & ax' & ns' & A' & X' & HC').
    destruct (brier s over t b n ax ns k L FA RE H T B A X HC N) as (v & A1 & _ & G1). destruct (brier s' over t b m ax' ns' k L FA RE' H' T B' A' X' HC' N) as (v' & A2 & _ & G2).
    exists v, v'. split; [exact A1|]. split; [exact A2|]. rewrite G1, G2. f_equal. apply mean_same. intros ix I. cbv beta zeta. assert (V : valid (arr_shape (a_o (ob s))) ix) by apply (proj2 HC), I.
    destruct (R ix V) as [R1 _]. rewrite R1. unfold members in Ms. rewrite (Ms ix V). reflexivity.
  - intros (i1 & V1 & O1) (i2 & V2 & O2).
    set (ev ix := observed over (thr_at b ix) (reads (a_o (ob s)) ix)). set (I := indices (arr_shape (a_o (ob s)))). set (ev' ix := observed over (thr_at b ix) (reads (a_o (ob s')) ix)).
    assert (Ee : forall ix, In ix I -> ev' ix = ev ix) by (intros ix Hx; unfold ev', ev; rewrite (proj1 (R ix (proj1 (in_indices _ _) Hx))); reflexivity).
    assert (F1 : filter ev' I = filter ev I) by (apply filter_ext_in; exact Ee).
    assert (F2 : filter (fun ix => negb (ev' ix)) I = filter (fun ix => negb (ev ix)) I) by (apply filter_ext_in; intros ix Hx; rewrite (Ee ix Hx); reflexivity).
    assert (N1 : filter ev I <> []) by (intros Z; assert (Y : In i1 (filter ev I)) by (apply filter_In; split; [apply in_indices, V1|exact O1]); rewrite Z in Y; exact Y).
    assert (N2 : filter (fun ix => negb (ev ix)) I <> []) by (intros Z; assert (Y : In i2 (filter (fun ix => negb (ev ix)) I)) by (apply filter_In; split; [apply in_indices, V2|unfold ev; rewrite O2; reflexivity]); rewrite Z in Y; exact Y).
    destruct (roc s over t b n FA RE H T N1 N2) as (fpr & tpr & R1).
    pose proof (roc s' over t b m FA RE' H' T) as Q. cbv zeta in Q. rewrite Sh in Q. destruct Q as (fpr' & tpr' & R2); [change (filter ev' I <> []); rewrite F1; exact N1|change (filter (fun ix => negb (ev' ix)) I <> []); rewrite F2; exact N2|].
    exists fpr, tpr, fpr', tpr'. eexists. split; [exact R1|].
    change (answers s' (over_or_below MRoc over t) (VTuple [fpr'; tpr'; VFloat (Fin (roc_area (fun ix => member_share over (thr_at b ix) (members (ob s') m ix)) (filter (fun ix => negb (ev' ix)) I) (filter ev' I)))])) in R2. rewrite F1, F2 in R2.
    match goal with |- Props_whole.answers _ _ _ _ _ _ _ _ _ _ _ _ _ _ _ (VTuple [_; _; VFloat (Fin ?c)]) => assert (Eq : roc_area (fun ix => member_share over (thr_at b ix) (members (ob s') m ix)) (filter (fun ix => negb (ev ix)) I) (filter ev I) = c); [|rewrite <- Eq; exact R2] end.
    apply roc_ordered. intros a c Ha Hc. apply filter_In in Ha as [Ha _]. apply filter_In in Hc as [Hc _]. rewrite (Ms a (proj1 (in_indices _ _) Ha)), (Ms c (proj1 (in_indices _ _) Hc)). auto.
Qed.
Theorem c106_repeated_crps_spread : forall s s' n m r k L O M hi lo, faithful -> reached s -> reached s' -> cl (ob s) = CEnsemble -> cl (ob s') = CEnsemble -> properscoring (w_cell S) ->
  fits (arr_of (a_o (ob s))) (arr_of (a_f (ob s))) (int_of (a_eaxis (ob s))) n -> 0 < nth n (arr_shape (a_f (ob s))) 0 ->
  fits (arr_of (a_o (ob s'))) (arr_of (a_f (ob s'))) (int_of (a_eaxis (ob s'))) m -> 0 < nth m (arr_shape (a_f (ob s'))) 0 ->
  w_split S = false \/ arr_shape (a_o (ob s)) <> [] -> repeated (ob s) (ob s') n m r -> averages (ob s) k L -> averages (ob s') k L ->
  (forall ix, In ix L -> reads (a_o (ob s)) ix = Fin (O ix) /\ members (ob s) n ix = map Fin (M ix) /\ In (hi ix) (M ix) /\ In (lo ix) (M ix) /\ forall y, In y (M ix) -> (lo ix <= y)%Qc /\ (y <= hi ix)%Qc) ->
  exists c c' d d', answers s MCrps c /\ answers s' MCrps c' /\ answers s MSpread d /\ answers s' MSpread d' /\ reads c' k = reads c k /\ reads d' k = reads d k.
Proof.
  intros s s' n m r k L O M hi lo FA RE RE' C C' PS Fi Pos Fi' Pos' Sp (Pr & Sh & R) (B & N & ax & ns & A & X & HC) (B' & _ & ax' & ns' & A' & X' & HC') V.
  destruct (crps s n ax ns k L O M FA RE C PS Fi Pos Sp B A X HC N) as (c & A1 & _ & G1); [intros ix I; destruct (V ix I) as (V1 & V2 & _); auto|].
  destruct (spread s n ax ns k L hi lo M FA RE C Fi Pos B A X HC N) as (d & A3 & _ & G3); [intros ix I; apply (V ix I)|].
  assert (VI : forall ix, In ix L -> valid (arr_shape (a_o (ob s))) ix) by (intros ix I; apply (proj2 HC), I).
  set (M' ix := map unfin (members (ob s') m ix)).
  assert (E : forall ix, In ix L -> members (ob s') m ix = map Fin (M' ix) /\ Permutation (M' ix) (flat_map (fun y => repeat y r) (M ix))).
  { intros ix I. destruct (R ix (VI ix I)) as [_ P]. destruct (V ix I) as (_ & E & _). rewrite E in P.
    assert (Fm : flat_map (fun y => repeat y r) (map Fin (M ix)) = map Fin (flat_map (fun y => repeat y r) (M ix))).
    { generalize (M ix). induction l as [|a l IH]; [reflexivity|]. cbn [map flat_map]. rewrite map_app, IH. f_equal. clear. induction r as [|r IH]; [reflexivity|]. cbn. rewrite IH. reflexivity. }
    rewrite Fm in P. split.
    - unfold M'. rewrite map_map. symmetry. transitivity (map (fun y => y) (members (ob s') m ix)); [|apply map_id]. apply map_ext_in. intros y Hy. apply (Permutation_in _ P) in Hy. apply in_map_iff in Hy as (z & <- & _). reflexivity.
    - unfold M'. apply (Permutation_map unfin) in P. rewrite map_map in P. cbn [unfin] in P. rewrite map_id in P. exact P. }
  destruct (crps s' m ax' ns' k L O M' FA RE' C' PS Fi' Pos' ltac:(rewrite Sh; exact Sp) B' A' X' HC' N) as (c' & A2 & _ & G2).
  { intros ix I. split; [rewrite (proj1 (R ix (VI ix I))); apply (V ix I)|apply (E ix I)]. }
  assert (Im : forall ix y, In ix L -> (In y (M' ix) <-> In y (M ix))).
  { intros ix y I. destruct (E ix I) as [_ P]. split; intros H.
    - apply (Permutation_in _ P) in H. apply in_flat_map in H as (z & Hz & H). apply repeat_spec in H. subst. exact Hz.
    - apply (Permutation_in _ (Permutation_sym P)), in_flat_map. exists y. split; [exact H|]. destruct r as [|r]; [lia|]. left. reflexivity. }
  destruct (spread s' m ax' ns' k L hi lo M' FA RE' C' Fi' Pos' B' A' X' HC' N) as (d' & A4 & _ & G4).
  { intros ix I. destruct (V ix I) as (_ & _ & V3 & V4 & V5). split; [apply (E ix I)|]. split; [apply Im; assumption|]. split; [apply Im; assumption|]. intros y Hy. apply V5, Im; assumption. }
  exists c, c', d, d'. split; [exact A1|]. split; [exact A2|]. split; [exact A3|]. split; [exact A4|]. rewrite G1, G2, G3, G4. split; [|reflexivity].
  f_equal. apply mean_same. intros ix I. rewrite (crps_perm _ _ _ (proj2 (E ix I))). apply crps_repeat; [exact Pr|]. apply (made_members (ob s) n ix (M ix) Pos), V, I.
Qed.
End Laws.
Print Assumptions c104_errors.
Print Assumptions c104_crps.
Print Assumptions c104_brier.
Print Assumptions c104_roc.
Print Assumptions c105_errors.
Print Assumptions c105_ensemble.
Print Assumptions c105_brier.
Print Assumptions c105_missing.
Print Assumptions c106_one_member.
Print Assumptions c106_repeated_events.
Print Assumptions c106_repeated_crps_spread.

(** ** Concrete verifiers: observations of shape (2, 2), averaged over both axes or the second one *)
Definition g_obj (c : cls) (shf : list nat) (f o : nat) (avg : M_state.val) : obj := mkObj c (VArr shf f) (VArr [2; 2] o) avg VNone VNone (VBool true)
    VNone (VInt (-1)) (VFun 0) VNone VNone VNone VNone VNone VNone VNone.
Definition g_state (c : cls) (shf : list nat) (f o : list num) (avg : M_state.val) : st := mkSt (g_obj c shf (store f) (store o) avg) w_used 0 [].
Definition both : M_state.val := VTuple [VInt 0; VInt 1].
Definition second : M_state.val := VTuple [VInt 1].
Definition cells4 : list (list nat) := [[0; 0]; [0; 1]; [1; 0]; [1; 1]].
(** the settings of the examples, and the same with pyanen_skip_nan *)
Definition k_set : settings := {| w_boot := {| skip_nan := true; repeats := 3; confidence := Q2Qc (95 # 100) |}; w_method := Moments; w_workers := 1; w_map_axis := (-1)%Z; w_split := true; w_cell := ps_gufunc;
  w_fun := fun _ => mean_along; w_gen_boot := fun d i r j => d + i * r + j; w_gen_rank := fun d i ix => d + i |}.
Notation g_reached S := (Props_whole.reached S w_lib w_libr w_str w_dumps w_loads (fun s => s) w_resolve w_points false None [] (fun n => n)).
Notation g_answers S := (Props_whole.answers S w_lib w_libr w_str w_dumps w_loads (fun s => s) w_resolve w_points false None [] (fun n => n)).
Lemma g_facts c shf f o avg : let x := ob (g_state c shf f o avg) in
  (forall S, g_reached S (g_state c shf f o avg)) /\ cl x = c /\ arr_shape (a_f x) = shf /\ arr_shape (a_o x) = [2; 2] /\ a_boot x = VNone /\ int_of (a_eaxis x) = (-1)%Z /\ a_avg x = avg /\
  arr_of (a_f x) = of_list NaN shf f /\ arr_of (a_o x) = of_list NaN [2; 2] o.
Proof.
  cbv zeta. unfold g_state. generalize (content_store f) (content_store o). generalize (store f) (store o). intros cf co Hf Ho.
  split; [intros S; right; split; [left; reflexivity|reflexivity]|]. cbn [ob g_obj cl a_f a_o a_boot a_eaxis a_avg arr_shape int_of arr_of]. rewrite Hf, Ho. repeat split.
Qed.
Lemma g_finer c shf f o : finer (ob (g_state c shf f o both)) (ob (g_state c shf f o second)) [] cells4 [[0]; [1]].
Proof.
  destruct (g_facts c shf f o both) as (_ & C & _ & So & B & _ & A & _). destruct (g_facts c shf f o second) as (_ & C' & _ & _ & B' & _ & A' & _).
  assert (Eq : a_f (ob (g_state c shf f o second)) = a_f (ob (g_state c shf f o both)) /\ a_o (ob (g_state c shf f o second)) = a_o (ob (g_state c shf f o both)) /\ a_fc (ob (g_state c shf f o second)) = a_fc (ob (g_state c shf f o both)) /\ a_eaxis (ob (g_state c shf f o second)) = a_eaxis (ob (g_state c shf f o both))).
  { unfold g_state. generalize (store f) (store o). intros. repeat split. }
  destruct Eq as (E1 & E2 & E3 & E4). unfold finer. rewrite So, A, A'. split; [exact B|]. split; [exact B'|]. split; [congruence|]. split; [exact E1|]. split; [exact E2|]. split; [exact E3|]. split; [exact E4|]. split; [discriminate|].
  exists (Some [0; 1]%Z), [0; 1], (Some [1]%Z), [1]. split; [reflexivity|]. split; [split; [repeat constructor; cbn; lia|repeat constructor; cbn; intuition discriminate]|]. split; [reflexivity|].
  split; [split; [repeat constructor; cbn; lia|repeat constructor; cbn; intuition discriminate]|]. split; [intros j [<-|[]]; cbn; auto|].
  assert (In4 : forall ix, In ix cells4 <-> Forall2 lt ix [2; 2]) by (intros ix; rewrite <- (in_indices [2; 2] ix); reflexivity).
  split; [split; [repeat constructor; cbn; intuition discriminate|]; intros ix; rewrite In4; cbn; tauto|]. split; [repeat constructor; cbn; intuition discriminate|].
  intros q. split.
  - intros [<-|[<-|[]]]; [exists [0; 0]|exists [1; 0]]; (split; [cbn; tauto|reflexivity]).
  - intros (ix & [<-|[<-|[<-|[<-|[]]]]] & <-); cbn; auto.
Qed.
Lemma g_reads c shf f o avg ix : reads (a_f (ob (g_state c shf f o avg))) ix = get (of_list NaN shf f) ix /\ reads (a_o (ob (g_state c shf f o avg))) ix = get (of_list NaN [2; 2] o) ix /\
  forall n, members (ob (g_state c shf f o avg)) n ix = members_at n (of_list NaN shf f) ix.
Proof. destruct (g_facts c shf f o avg) as (_ & _ & _ & _ & _ & _ & _ & Ef & Eo). unfold reads, members. rewrite Ef, Eo. auto. Qed.
Lemma g_point shf f o avg : point (ob (g_state CDeterm shf f o avg)) = a_f (ob (g_state CDeterm shf f o avg)).
Proof. unfold g_state. generalize (store f) (store o). reflexivity. Qed.
Ltac g_read := repeat match goal with
  | |- context [reads (a_f (ob (g_state ?c ?sh ?f ?o ?v))) ?ix] => rewrite (proj1 (g_reads c sh f o v ix))
  | |- context [reads (a_o (ob (g_state ?c ?sh ?f ?o ?v))) ?ix] => rewrite (proj1 (proj2 (g_reads c sh f o v ix)))
  | |- context [members (ob (g_state ?c ?sh ?f ?o ?v)) ?n ?ix] => rewrite (proj2 (proj2 (g_reads c sh f o v ix)) n) end.

(** Forecasts 1 and a missing one, 3 and 5; observations 0; with pyanen_skip_nan.  The mean error over both axes is 3, the means over the second
    are 1 and 4: their mean is 5/2. *)
Theorem c105_missing_differs : exists s s' k L ks v v' g, faithful w_str w_dumps w_loads (fun s => s) /\ g_reached k_set s /\ g_reached k_set s' /\ cl (ob s) = CDeterm /\ finer (ob s) (ob s') k L ks /\
  (forall ix, In ix L -> (reads (a_f (ob s)) ix = NaN \/ is_fin (reads (a_f (ob s)) ix)) /\ is_fin (reads (a_o (ob s)) ix)) /\
  g_answers k_set s MError v /\ g_answers k_set s' MError v' /\ (forall q, In q ks -> reads v' q = Fin (g q)) /\ reads v k <> Fin (Spec.mean_of (map g ks)).
Proof.
  set (f := [Fin (qz 1); NaN; Fin (qz 3); Fin (qz 5)]). set (o := [Fin (qz 0); Fin (qz 0); Fin (qz 0); Fin (qz 0)]).
  pose proof (g_finer CDeterm [2; 2] f o) as FI. pose proof FI as (B & B' & _ & _ & _ & _ & _ & N & ax & ns & ax' & ns' & A & X & A' & X' & Sub & HC & Nk & Kk).
  assert (Hax : ax = Some [0; 1]%Z /\ ax' = Some [1]%Z). { destruct (g_facts CDeterm [2; 2] f o both) as (_ & _ & _ & _ & _ & _ & Av & _). destruct (g_facts CDeterm [2; 2] f o second) as (_ & _ & _ & _ & _ & _ & Av' & _). rewrite Av in A. rewrite Av' in A'. cbn in A, A'. split; congruence. }
  destruct (g_facts CDeterm [2; 2] f o both) as (RE & C & Sf & So & _). destruct (g_facts CDeterm [2; 2] f o second) as (RE' & C' & Sf' & So' & _).
  assert (V : forall avg ix, In ix cells4 -> (reads (point (ob (g_state CDeterm [2; 2] f o avg))) ix = NaN \/ is_fin (reads (point (ob (g_state CDeterm [2; 2] f o avg))) ix)) /\ is_fin (reads (a_o (ob (g_state CDeterm [2; 2] f o avg))) ix)).
  { intros avg ix I. rewrite g_point. g_read. destruct I as [<-|[<-|[<-|[<-|[]]]]]; (split; [|eexists; vm_compute; reflexivity]); (right; eexists; vm_compute; reflexivity) || (left; vm_compute; reflexivity). }
  assert (Th : forall avg l, filter (fun ix => negb (is_nan (reads (point (ob (g_state CDeterm [2; 2] f o avg))) ix) || is_nan (reads (a_o (ob (g_state CDeterm [2; 2] f o avg))) ix))) l
     = filter (fun ix => negb (is_nan (get (of_list NaN [2; 2] f) ix) || is_nan (get (of_list NaN [2; 2] o) ix))) l).
  { intros avg l. apply filter_ext. intros ix. rewrite g_point. g_read. reflexivity. }
  assert (Mp : forall avg l, map (fun ix => (unfin (reads (point (ob (g_state CDeterm [2; 2] f o avg))) ix) - unfin (reads (a_o (ob (g_state CDeterm [2; 2] f o avg))) ix))%Qc) l
     = map (fun ix => (unfin (get (of_list NaN [2; 2] f) ix) - unfin (get (of_list NaN [2; 2] o) ix))%Qc) l).
  { intros avg l. apply map_ext. intros ix. rewrite g_point. g_read. reflexivity. }
  assert (Hm : (MError = MError /\ (fun a b : Qc => a - b)%Qc = (fun f o => f - o)%Qc) \/ (MError = MSqErr /\ (fun a b : Qc => a - b)%Qc = (fun f o => (f - o) * (f - o))%Qc) \/ (MError = MAbErr /\ (fun a b : Qc => a - b)%Qc = qdist)) by (left; auto).
  destruct (c105_missing k_set w_lib w_libr w_str w_dumps w_loads (fun s => s) w_resolve w_points false None [] (fun n => n) (g_state CDeterm [2; 2] f o both) ax ns [] cells4 MError _ e_faithful (RE _) (or_introl C) B A ltac:(rewrite g_point; congruence) X HC N Hm) as (v & Av & Gv & _).
  { intros ix I. pose proof (V both ix I) as [V1 V2]. split; [exact V1|right; exact V2]. }
  specialize (Gv eq_refl). rewrite Th, Mp in Gv. destruct Gv as [_ Gv]. specialize (Gv ltac:(vm_compute; discriminate)).
  rewrite So in X'. rewrite <- So' in X'.
  assert (Q : forall i, i < 2 -> let l := filter (fun ix => negb (is_nan (get (of_list NaN [2; 2] f) ix) || is_nan (get (of_list NaN [2; 2] o) ix))) [[i; 0]; [i; 1]] in l <> [] ->
    exists v', g_answers k_set (g_state CDeterm [2; 2] f o second) MError v' /\ reads v' [i] = Fin (Spec.mean_of (map (fun ix => (unfin (get (of_list NaN [2; 2] f) ix) - unfin (get (of_list NaN [2; 2] o) ix))%Qc) l))).
  { intros i Hi l Ne. assert (Ci : Cells (arr_shape (a_o (ob (g_state CDeterm [2; 2] f o second)))) ns' [i] [[i; 0]; [i; 1]]).
    { assert (Ns : ns' = [1]). { destruct Hax as [_ Ha]. clear - Ha X' So'. rewrite Ha, So' in X'. refine (axes_are_fun _ _ _ _ X' _). split; [repeat constructor; cbn; lia|repeat constructor; cbn; intuition discriminate]. }
      rewrite So', Ns. split; [repeat constructor; cbn; intuition discriminate|]. intros ix. split.
      - intros [<-|[<-|[]]]; (split; [apply Forall2_cons; [lia|apply Forall2_cons; [lia|apply Forall2_nil]]|reflexivity]).
      - intros [F E]. apply (in_indices [2; 2]) in F. destruct F as [<-|[<-|[<-|[<-|[]]]]]; cbn in E; injection E as <-; cbn; auto. }
    destruct (c105_missing k_set w_lib w_libr w_str w_dumps w_loads (fun s => s) w_resolve w_points false None [] (fun n => n) (g_state CDeterm [2; 2] f o second) ax' ns' [i] [[i; 0]; [i; 1]] MError _ e_faithful (RE' _) (or_introl C') B' A' ltac:(rewrite g_point; congruence) X' Ci ltac:(discriminate) Hm) as (v' & Av' & Gv' & _).
    { intros ix I. assert (I4 : In ix cells4) by (destruct I as [<-|[<-|[]]]; (destruct i as [|[|i]]; [| |lia]); cbn; auto). pose proof (V second ix I4) as [V1 V2]. split; [exact V1|right; exact V2]. }
    specialize (Gv' eq_refl). rewrite Th, Mp in Gv'. exists v'. split; [exact Av'|]. apply Gv', Ne. }
  destruct (Q 0 ltac:(lia) ltac:(vm_compute; discriminate)) as (v0 & A0 & G0). destruct (Q 1 ltac:(lia) ltac:(vm_compute; discriminate)) as (v1 & A1 & G1).
  assert (E : v1 = v0) by (unfold Props_whole.answers in A0, A1; rewrite A0 in A1; injection A1; auto). subst v1.
  exists (g_state CDeterm [2; 2] f o both), (g_state CDeterm [2; 2] f o second), [], cells4, [[0]; [1]], v, v0, (fun q => match q with [0] => qz 1 | _ => qz 4 end).
  split; [exact e_faithful|]. split; [apply RE|]. split; [apply RE'|]. split; [exact C|]. split; [exact FI|]. split; [intros ix I; pose proof (V both ix I) as VV; rewrite g_point in VV; exact VV|]. split; [exact Av|]. split; [exact A0|]. split.
  - intros q [<-|[<-|[]]]; [rewrite G0|rewrite G1]; f_equal; apply Qc_is_canon; vm_compute; reflexivity.
  - rewrite Gv. intros Z. apply (f_equal (fun x => this (unfin x))) in Z. vm_compute in Z. discriminate Z.
Qed.
Print Assumptions c105_missing_differs.

(** *** Cases of C104 *)
(** The members (2, 3), (0, 4), (2, 2), the observations 2, 0, 1: the mean distance is 7/6, so the CRPS of two members is from 7/12 to 7/6. *)
Theorem c104_nonvacuous : let s := l_state [3; 2] [2; 3; 0; 4; 2; 2]%Z [2; 0; 1]%Z [2; 0; 2]%Z (-1) in
  exists c x, l_reached s /\ averages (ob s) [] cells3 /\ e_answers s MCrps c /\ reads c [] = Fin x /\ (qz 7 / qz 12 <= x)%Qc /\ (x <= qz 7 / qz 6)%Qc /\ x <> 0%Qc.
Proof.
  cbv zeta. set (f := [2; 3; 0; 4; 2; 2]%Z). set (o := [2; 0; 1]%Z). set (c0 := [2; 0; 2]%Z).
  destruct (l_facts [3; 2] f o c0 (-1)) as (RE & C & Sf & So & _ & _ & Ez & Ef & Eo & _ & _).
  destruct (c104_crps e_set w_lib w_libr w_str w_dumps w_loads (fun s => s) w_resolve w_points false None [] (fun n => n) (l_state [3; 2] f o c0 (-1)) 1 [] cells3
    (fun ix => unfin (get (of_list NaN [3] (map l_num o)) ix)) (fun ix => map unfin (members_at 1 (of_list NaN [3; 2] (map l_num f)) ix)) 2 e_faithful RE C) as (c & x & A & G & L1 & L2 & _ & Z).
  - right; reflexivity.
  - rewrite Ez, Ef, Eo. split; [split; [cbn; lia|right; reflexivity]|reflexivity].
  - rewrite Sf. reflexivity.
  - lia.
  - right. rewrite So. discriminate.
  - apply l_averages.
  - intros ix I. l_read. destruct I as [<-|[<-|[<-|[]]]]; split; vm_compute; reflexivity.
  - exists c, x. split; [exact RE|]. split; [apply l_averages|]. split; [exact A|]. split; [exact G|]. split; [|split].
    + eapply Qcle_trans; [|exact L1]. unfold Qcle. vm_compute. discriminate.
    + eapply Qcle_trans; [exact L2|]. unfold Qcle. vm_compute. discriminate.
    + intros E. apply Z with (ix := [0]) (m := qz 3) in E; [apply (f_equal this) in E; vm_compute in E; discriminate E|left; reflexivity|right; left; apply Qc_is_canon; reflexivity].
Qed.
(** *** Cases of C105: errors 1, 2, 3 and 5, and an ensemble of two members at each cell *)
Theorem c105_nonvacuous : let f := [Fin (qz 1); Fin (qz 2); Fin (qz 3); Fin (qz 5)] in let o := [Fin (qz 0); Fin (qz 0); Fin (qz 0); Fin (qz 0)] in
  exists v v', g_answers e_set (g_state CDeterm [2; 2] f o both) MError v /\ g_answers e_set (g_state CDeterm [2; 2] f o second) MError v' /\
   reads v [] = Fin (Spec.mean_of (map (fun q => unfin (reads v' q)) [[0]; [1]])) /\ forall q, In q [[0]; [1]] -> is_fin (reads v' q).
Proof.
  intros f o. destruct (g_facts CDeterm [2; 2] f o both) as (RE & C & Sf & So & _). destruct (g_facts CDeterm [2; 2] f o second) as (RE' & _).
  destruct (c105_errors e_set w_lib w_libr w_str w_dumps w_loads (fun s => s) w_resolve w_points false None [] (fun n => n) (g_state CDeterm [2; 2] f o both) (g_state CDeterm [2; 2] f o second) [] cells4 [[0]; [1]]
    (fun ix => unfin (get (of_list NaN [2; 2] f) ix)) (fun ix => unfin (get (of_list NaN [2; 2] o) ix)) e_faithful (RE _) (RE' _) (or_introl C)) as ((v & v' & g & A & A' & G' & G) & _).
  - rewrite g_point. congruence.
  - apply g_finer.
  - intros ix I. rewrite g_point. g_read. destruct I as [<-|[<-|[<-|[<-|[]]]]]; split; vm_compute; reflexivity.
  - exists v, v'. split; [exact A|]. split; [exact A'|]. split.
    + rewrite G. f_equal. f_equal. apply map_ext_in. intros q I. rewrite (G' q I). reflexivity.
    + intros q I. eexists. exact (G' q I).
Qed.
Theorem c105_ensemble_nonvacuous : let f := map l_num [1; 2; 4; 4; 0; 3; 5; 2]%Z in let o := map l_num [2; 3; 0; 4]%Z in let s := g_state CEnsemble [2; 2; 2] f o both in let s' := g_state CEnsemble [2; 2; 2] f o second in
  g_reached e_set s /\ g_reached e_set s' /\ finer (ob s) (ob s') [] cells4 [[0]; [1]] /\ ensemble_ready e_set (ob s) 2 (VInt 2) (TScalar (Fin (qz 2))) /\
  (forall over, combined e_set w_lib w_libr w_str w_dumps w_loads (fun s => s) w_resolve w_points false None [] (fun n => n) s s' (over_or_below MBrier over (VInt 2)) [] [[0]; [1]]) /\
  combined e_set w_lib w_libr w_str w_dumps w_loads (fun s => s) w_resolve w_points false None [] (fun n => n) s s' MCrps [] [[0]; [1]] /\
  combined e_set w_lib w_libr w_str w_dumps w_loads (fun s => s) w_resolve w_points false None [] (fun n => n) s s' MSpread [] [[0]; [1]].
Proof.
  intros f o s s'. destruct (g_facts CEnsemble [2; 2; 2] f o both) as (RE & C & Sf & So & _ & Ez & _ & Ef & Eo). destruct (g_facts CEnsemble [2; 2; 2] f o second) as (RE' & _).
  fold s in RE, C, Sf, So, Ez, Ef, Eo. fold s' in RE'.
  assert (Fi : fits (arr_of (a_o (ob s))) (arr_of (a_f (ob s))) (int_of (a_eaxis (ob s))) 2) by (rewrite Ez, Ef, Eo; split; [split; [cbn; lia|right; reflexivity]|reflexivity]).
  assert (FI : finer (ob s) (ob s') [] cells4 [[0]; [1]]) by apply g_finer.
  assert (RD : ensemble_ready e_set (ob s) 2 (VInt 2) (TScalar (Fin (qz 2)))).
  { split; [exact C|]. split; [reflexivity|]. split; [exact Fi|]. rewrite Sf, So. split; [cbn; lia|]. split; [left; reflexivity|]. split; [reflexivity|exact I]. }
  split; [apply RE|]. split; [apply RE'|]. split; [exact FI|]. split; [exact RD|]. split.
  - intros over. refine (c105_brier e_set w_lib w_libr w_str w_dumps w_loads (fun s => s) w_resolve w_points false None [] (fun n => n) s s' over (VInt 2) _ 2 [] cells4 [[0]; [1]] e_faithful (RE _) (RE' _) RD _ FI). left; exact I.
  - refine (c105_ensemble e_set w_lib w_libr w_str w_dumps w_loads (fun s => s) w_resolve w_points false None [] (fun n => n) s s' 2 [] cells4 [[0]; [1]]
      (fun ix => unfin (get (of_list NaN [2; 2] o) ix)) (fun ix => map unfin (members_at 2 (of_list NaN [2; 2; 2] f) ix))
      (fun ix => match ix with [0; 0] => qz 2 | [0; _] => qz 4 | [_; 0] => qz 3 | _ => qz 5 end) (fun ix => match ix with [0; 0] => qz 1 | [0; _] => qz 4 | [_; 0] => qz 0 | _ => qz 2 end) e_faithful (RE _) (RE' _) C (or_intror eq_refl) Fi _ _ FI _).
    + rewrite Sf. cbn. lia.
    + right. rewrite So. discriminate.
    + intros ix I. unfold s. g_read. clear - I. destruct I as [<-|[<-|[<-|[<-|[]]]]]; (split; [vm_compute; reflexivity|split; [vm_compute; reflexivity|]]);
      (split; [cbn; (left; apply Qc_is_canon; vm_compute; reflexivity) || (right; left; apply Qc_is_canon; vm_compute; reflexivity)|]); (split; [cbn; (left; apply Qc_is_canon; vm_compute; reflexivity) || (right; left; apply Qc_is_canon; vm_compute; reflexivity)|]);
      intros y Hy; cbn in Hy; destruct Hy as [<-|[<-|[]]]; split; unfold Qcle; vm_compute; discriminate.
Qed.
(** *** Cases of C106 *)
(** One member 1, 2, 3 and 5, against the deterministic verifier of these numbers. *)
Theorem c106_nonvacuous : let f := map l_num [1; 2; 3; 5]%Z in let o := map l_num [2; 0; 0; 4]%Z in let s := g_state CEnsemble [2; 2; 1] f o both in let s' := g_state CDeterm [2; 2] f o both in
  exists c d ab, g_answers e_set s MCrps c /\ g_answers e_set s MSpread d /\ g_answers e_set s' MAbErr ab /\ reads c [] = reads ab [] /\ reads d [] = Fin 0%Qc.
Proof.
  intros f o s s'. destruct (g_facts CEnsemble [2; 2; 1] f o both) as (RE & C & Sf & So & _ & Ez & _ & Ef & Eo). destruct (g_facts CDeterm [2; 2] f o both) as (RE' & C' & Sf' & So' & _).
  fold s in RE, C, Sf, So, Ez, Ef, Eo. fold s' in RE', C', Sf', So'.
  assert (Av : forall c shf, averages (ob (g_state c shf f o both)) [] cells4).
  { intros c shf. destruct (g_finer c shf f o) as (B & _ & _ & _ & _ & _ & _ & N & ax & ns & _ & _ & A & X & _ & _ & _ & HC & _). split; [exact B|]. split; [exact N|]. exists ax, ns. auto. }
  refine (c106_one_member e_set w_lib w_libr w_str w_dumps w_loads (fun s => s) w_resolve w_points false None [] (fun n => n) s s' 2 [] cells4
    (fun ix => unfin (get (of_list NaN [2; 2] f) ix)) (fun ix => unfin (get (of_list NaN [2; 2] o) ix)) e_faithful (RE _) (RE' _) C C' (or_intror eq_refl) _ _ _ _ (Av _ _) (Av _ _) _).
  - rewrite Ez, Ef, Eo; split; [split; [cbn; lia|right; reflexivity]|reflexivity].
  - rewrite Sf. reflexivity.
  - right. rewrite So. discriminate.
  - congruence.
  - intros ix I. unfold s, s'. g_read. destruct I as [<-|[<-|[<-|[<-|[]]]]]; repeat split; vm_compute; reflexivity.
Qed.
(** The members (2, 3), (0, 4), (2, 2), each taken twice. *)
Theorem c106_repeated_nonvacuous : let s := l_state [3; 2] [2; 3; 0; 4; 2; 2]%Z [2; 0; 1]%Z [2; 0; 2]%Z (-1) in let s' := l_state [3; 4] [2; 3; 2; 3; 4; 0; 0; 4; 2; 2; 2; 2]%Z [2; 0; 1]%Z [2; 0; 2]%Z (-1) in
  l_reached s /\ l_reached s' /\ repeated (ob s) (ob s') 1 1 2 /\ averages (ob s) [] cells3 /\ averages (ob s') [] cells3 /\
  (exists c c' d d', e_answers s MCrps c /\ e_answers s' MCrps c' /\ e_answers s MSpread d /\ e_answers s' MSpread d' /\ reads c' [] = reads c [] /\ reads d' [] = reads d []) /\
  (forall over, exists v v', e_answers s (over_or_below MBrier over (VInt 1)) v /\ e_answers s' (over_or_below MBrier over (VInt 1)) v' /\ reads v' [] = reads v []).
Proof.
  cbv zeta. set (f := [2; 3; 0; 4; 2; 2]%Z). set (f' := [2; 3; 2; 3; 4; 0; 0; 4; 2; 2; 2; 2]%Z). set (o := [2; 0; 1]%Z). set (c0 := [2; 0; 2]%Z).
  destruct (l_facts [3; 2] f o c0 (-1)) as (RE & C & Sf & So & _ & _ & Ez & Ef & Eo & _ & _). destruct (l_facts [3; 4] f' o c0 (-1)) as (RE' & C' & Sf' & So' & _ & _ & Ez' & Ef' & Eo' & _ & _).
  pose proof (l_averages [3; 2] f o c0 (-1)) as Av. pose proof (l_averages [3; 4] f' o c0 (-1)) as Av'.
  assert (Rp : repeated (ob (l_state [3; 2] f o c0 (-1))) (ob (l_state [3; 4] f' o c0 (-1))) 1 1 2).
  { split; [lia|]. split; [congruence|]. rewrite So. apply three_cells; l_read; (split; [reflexivity|]).
    - change (Permutation [Fin (qz 2); Fin (qz 3); Fin (qz 2); Fin (qz 3)] [Fin (qz 2); Fin (qz 2); Fin (qz 3); Fin (qz 3)]). constructor. apply perm_swap.
    - change (Permutation [Fin (qz 4); Fin (qz 0); Fin (qz 0); Fin (qz 4)] ([Fin (qz 0); Fin (qz 0); Fin (qz 4)] ++ [Fin (qz 4)])). apply (Permutation_cons_app [Fin (qz 0); Fin (qz 0)]). apply Permutation_refl.
    - apply Permutation_refl. }
  assert (Fi : fits (arr_of (a_o (ob (l_state [3; 2] f o c0 (-1))))) (arr_of (a_f (ob (l_state [3; 2] f o c0 (-1))))) (int_of (a_eaxis (ob (l_state [3; 2] f o c0 (-1))))) 1) by (rewrite Ez, Ef, Eo; split; [split; [cbn; lia|right; reflexivity]|reflexivity]).
  assert (Fi' : fits (arr_of (a_o (ob (l_state [3; 4] f' o c0 (-1))))) (arr_of (a_f (ob (l_state [3; 4] f' o c0 (-1))))) (int_of (a_eaxis (ob (l_state [3; 4] f' o c0 (-1))))) 1) by (rewrite Ez', Ef', Eo'; split; [split; [cbn; lia|right; reflexivity]|reflexivity]).
  split; [exact RE|]. split; [exact RE'|]. split; [exact Rp|]. split; [exact Av|]. split; [exact Av'|]. split.
  - refine (c106_repeated_crps_spread e_set w_lib w_libr w_str w_dumps w_loads (fun s => s) w_resolve w_points false None [] (fun n => n) _ _ 1 1 2 [] cells3
      (fun ix => unfin (get (of_list NaN [3] (map l_num o)) ix)) (fun ix => map unfin (members_at 1 (of_list NaN [3; 2] (map l_num f)) ix)) (fun ix => match ix with [0] => qz 3 | [1] => qz 4 | _ => qz 2 end) (fun ix => match ix with [0] => qz 2 | [1] => qz 0 | _ => qz 2 end) e_faithful RE RE' C C' (or_intror eq_refl) Fi _ Fi' _ _ Rp Av Av' _).
    + rewrite Sf. cbn. lia.
    + rewrite Sf'. cbn. lia.
    + right. rewrite So. discriminate.
    + intros ix I. l_read. clear - I. destruct I as [<-|[<-|[<-|[]]]]; (split; [vm_compute; reflexivity|split; [vm_compute; reflexivity|]]);
      (split; [cbn; (left; apply Qc_is_canon; vm_compute; reflexivity) || (right; left; apply Qc_is_canon; vm_compute; reflexivity)|]); (split; [cbn; (left; apply Qc_is_canon; vm_compute; reflexivity) || (right; left; apply Qc_is_canon; vm_compute; reflexivity)|]);
      intros y Hy; cbn in Hy; destruct Hy as [<-|[<-|[]]]; split; unfold Qcle; vm_compute; discriminate.
  - intros over. assert (RD' : ensemble_ready e_set (ob (l_state [3; 4] f' o c0 (-1))) 1 (VInt 1) (TScalar (Fin (qz 1)))).
    { split; [exact C'|]. split; [reflexivity|]. split; [exact Fi'|]. rewrite Sf', So'. split; [cbn; lia|]. split; [left; reflexivity|]. split; [reflexivity|exact I]. }
    destruct (c106_repeated_events e_set w_lib w_libr w_str w_dumps w_loads (fun s => s) w_resolve w_points false None [] (fun n => n) _ _ over (VInt 1) (TScalar (Fin (qz 1))) 1 1 2 e_faithful RE RE' (l_ready f o c0 1) RD' (or_introl I) Rp) as (_ & H & _).
    exact (H [] cells3 Av Av').
Qed.
Print Assumptions c104_nonvacuous.
Print Assumptions c105_nonvacuous.
Print Assumptions c105_ensemble_nonvacuous.
Print Assumptions c106_nonvacuous.
Print Assumptions c106_repeated_nonvacuous.
