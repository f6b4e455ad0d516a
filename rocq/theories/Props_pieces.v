(** Property C120: a data set and its pieces.  The cells a score is averaged over are those of two other verifiers put
    together, in any order and at any place: the score is the mean of their scores, weighted with the numbers of cells. *)
From Coq Require Import String Ascii ZArith List Bool Arith QArith Qcanon Lia Permutation.
From Verif Require Import QcTac QSum Num NdArr Numpy NdAxes M_common M_boot M_determ M_ens M_crpsens M_iou M_roc M_dist M_ps
  Spec P_boot P_rank P_prob P_ps Props_avg Props_prob Props_ps Props_iou Store M_state Spec_state P_state P_codec Spec_result P_result Props_state Props_result
  M_whole Spec_whole P_whole Props_whole P_laws Props_laws.
From Verif Require P_dist.
Import ListNotations.
Open Scope string_scope.
Open Scope list_scope.
Open Scope nat_scope.

(** the place in the whole of a cell of the first and of the second piece *)
Definition pieces (p q : list nat -> list nat) (L1 L2 L : list (list nat)) : Prop := Permutation (map p L1 ++ map q L2) L.
(** mean of two scores with the numbers of cells as weights *)
Definition weighted (n1 n2 : nat) (a b : Qc) : Qc := ((qn n1 * a + qn n2 * b) / (qn n1 + qn n2))%Qc.

Lemma mean_pieces (f g h : list nat -> Qc) p q L1 L2 L : pieces p q L1 L2 L -> L1 <> [] -> L2 <> [] ->
  (forall ix, In ix L1 -> h (p ix) = f ix) -> (forall ix, In ix L2 -> h (q ix) = g ix) ->
  Spec.mean_of (map h L) = weighted (length L1) (length L2) (Spec.mean_of (map f L1)) (Spec.mean_of (map g L2)).
Proof.
  intros P N1 N2 H1 H2. unfold weighted. rewrite (mean_q (map h L)), (mean_q (map f L1)), (mean_q (map g L2)). unfold qmean. rewrite !map_length.
  assert (EL : length L = length L1 + length L2) by (rewrite <- (Permutation_length P), app_length, !map_length; reflexivity).
  fold (qsumf h L) (qsumf f L1) (qsumf g L2).
  assert (ES : qsumf h L = (qsumf f L1 + qsumf g L2)%Qc).
  { transitivity (qsumf h (map p L1 ++ map q L2)); [symmetry; apply qsumf_perm, P|]. rewrite qsumf_app, !qsumf_map. f_equal; apply qsumf_ext; assumption. }
  rewrite ES, EL, qn_plus. assert (Z1 : qn (length L1) <> 0%Qc) by (apply qn_neq0; destruct L1; [congruence|cbn; lia]). assert (Z2 : qn (length L2) <> 0%Qc) by (apply qn_neq0; destruct L2; [congruence|cbn; lia]).
  assert (Z3 : (qn (length L1) + qn (length L2))%Qc <> 0%Qc) by (rewrite <- qn_plus; apply qn_neq0; destruct L1; [congruence|cbn; lia]). field. repeat split; assumption.
Qed.
Lemma piece_in p q L1 L2 L : pieces p q L1 L2 L -> forall ix, In ix L -> (exists i, In i L1 /\ ix = p i) \/ exists i, In i L2 /\ ix = q i.
Proof.
  intros P ix I. apply (Permutation_in _ (Permutation_sym P)) in I. apply in_app_or in I as [I|I]; apply in_map_iff in I as (i & <- & I); [left|right]; exists i; auto.
Qed.

Section Laws.
Variable S : settings.
Variable other : string -> list M_state.val -> res M_state.val.
Variable otherr : string -> list M_state.val -> nat -> res M_state.val.
Variable str_of : M_state.val -> string.
Variable dumps : M_state.val -> string.
Variable loads : string -> res M_state.val.
Variable expanduser : string -> string.
Variable resolve : string -> path.
Variable points : M_state.val -> M_state.val -> M_state.val -> res (list num).
Variable less_memory : bool.
Variable integrate_wdir : option path.
Variable cwd : path.
Variable rng : nat -> nat.
Notation faithful := (faithful str_of dumps loads expanduser).
Notation reached := (reached S other otherr str_of dumps loads expanduser resolve points less_memory integrate_wdir cwd rng).
Notation answers := (answers S other otherr str_of dumps loads expanduser resolve points less_memory integrate_wdir cwd rng).
Notation ensemble_ready := (ensemble_ready S).
Notation thr_at := P_dist.thr_at.
Notation errors := (c85_errors S other otherr str_of dumps loads expanduser resolve points less_memory integrate_wdir cwd rng).
Notation brier := (c85_brier S other otherr str_of dumps loads expanduser resolve points less_memory integrate_wdir cwd rng).
Notation crps := (c85_crps S other otherr str_of dumps loads expanduser resolve points less_memory integrate_wdir cwd rng).
Notation spread := (c85_spread S other otherr str_of dumps loads expanduser resolve points less_memory integrate_wdir cwd rng).

(** in the whole verifier a metric returns the weighted mean of what it returns in the pieces *)
Definition weighted_answers (m : meth) (s1 s2 s : st) (k1 k2 k : list nat) (n1 n2 : nat) : Prop :=
  exists v1 v2 v a b, answers s1 m v1 /\ answers s2 m v2 /\ answers s m v /\ reads v1 k1 = Fin a /\ reads v2 k2 = Fin b /\ reads v k = Fin (weighted n1 n2 a b).

(** ** Errors *)
Theorem c120_errors : forall s1 s2 s k1 k2 k L1 L2 L p q F O, faithful -> reached s1 -> reached s2 -> reached s ->
  (forall x, In x [ob s1; ob s2; ob s] -> (cl x = CDeterm \/ cl x = CEnsemble) /\ arr_shape (point x) = arr_shape (a_o x)) ->
  averages (ob s1) k1 L1 -> averages (ob s2) k2 L2 -> averages (ob s) k L -> pieces p q L1 L2 L ->
  (forall ix, In ix L -> reads (point (ob s)) ix = Fin (F ix) /\ reads (a_o (ob s)) ix = Fin (O ix)) ->
  (forall ix, In ix L1 -> reads (point (ob s1)) ix = reads (point (ob s)) (p ix) /\ reads (a_o (ob s1)) ix = reads (a_o (ob s)) (p ix)) ->
  (forall ix, In ix L2 -> reads (point (ob s2)) ix = reads (point (ob s)) (q ix) /\ reads (a_o (ob s2)) ix = reads (a_o (ob s)) (q ix)) ->
  forall m, In m [MError; MSqErr; MAbErr] -> weighted_answers m s1 s2 s k1 k2 k (length L1) (length L2).
Proof.
  intros s1 s2 s k1 k2 k L1 L2 L p q F O FA R1 R2 R C (B1 & N1 & ax1 & ns1 & A1 & X1 & H1) (B2 & N2 & ax2 & ns2 & A2 & X2 & H2) (B & N & ax & ns & A & X & H) P V V1 V2 m Hm.
  assert (I1 : forall ix, In ix L1 -> In (p ix) L) by (intros ix I; apply (Permutation_in _ P), in_or_app; left; apply in_map, I).
  assert (I2 : forall ix, In ix L2 -> In (q ix) L) by (intros ix I; apply (Permutation_in _ P), in_or_app; right; apply in_map, I).
  destruct (C (ob s1) ltac:(cbn; auto)) as [C1 S1]. destruct (C (ob s2) ltac:(cbn; auto)) as [C2 S2]. destruct (C (ob s) ltac:(cbn; auto)) as [C3 S3].
  destruct (errors s1 ax1 ns1 k1 L1 (fun ix => F (p ix)) (fun ix => O (p ix)) FA R1 C1 B1 A1 S1 X1 H1 N1) as (e1 & q1 & b1 & Ae1 & Aq1 & Ab1 & _ & _ & _ & G1 & G2 & G3 & _);
    [intros ix I; destruct (V1 ix I) as [-> ->]; apply V, I1, I|].
  destruct (errors s2 ax2 ns2 k2 L2 (fun ix => F (q ix)) (fun ix => O (q ix)) FA R2 C2 B2 A2 S2 X2 H2 N2) as (e2 & q2 & b2 & Ae2 & Aq2 & Ab2 & _ & _ & _ & K1 & K2 & K3 & _);
    [intros ix I; destruct (V2 ix I) as [-> ->]; apply V, I2, I|].
  destruct (errors s ax ns k L F O FA R C3 B A S3 X H N V) as (e & sq & ab & Ae & Aq & Ab & _ & _ & _ & M1 & M2 & M3 & _).
  destruct Hm as [<-|[<-|[<-|[]]]].
  - exists e1, e2, e. do 2 eexists. split; [exact Ae1|]. split; [exact Ae2|]. split; [exact Ae|]. split; [exact G1|]. split; [exact K1|]. rewrite M1. f_equal. apply (mean_pieces _ _ _ p q); auto.
  - exists q1, q2, sq. do 2 eexists. split; [exact Aq1|]. split; [exact Aq2|]. split; [exact Aq|]. split; [exact G2|]. split; [exact K2|]. rewrite M2. f_equal. apply (mean_pieces _ _ _ p q); auto.
  - exists b1, b2, ab. do 2 eexists. split; [exact Ab1|]. split; [exact Ab2|]. split; [exact Ab|]. split; [exact G3|]. split; [exact K3|]. rewrite M3. f_equal. apply (mean_pieces _ _ _ p q); auto.
Qed.

(** an ensemble verifier whose ensemble axis is [n] *)
Definition of_members (x : obj) (n : nat) : Prop :=
  cl x = CEnsemble /\ fits (arr_of (a_o x)) (arr_of (a_f x)) (int_of (a_eaxis x)) n /\ 0 < nth n (arr_shape (a_f x)) 0 /\ (w_split S = false \/ arr_shape (a_o x) <> []).
(** ** CRPS and spread; the ensemble axes may differ *)
Theorem c120_crps_spread : forall s1 s2 s i1 i2 i k1 k2 k L1 L2 L p q O M, faithful -> reached s1 -> reached s2 -> reached s -> properscoring (w_cell S) ->
  of_members (ob s1) i1 -> of_members (ob s2) i2 -> of_members (ob s) i ->
  averages (ob s1) k1 L1 -> averages (ob s2) k2 L2 -> averages (ob s) k L -> pieces p q L1 L2 L ->
  (forall ix, In ix L -> reads (a_o (ob s)) ix = Fin (O ix) /\ members (ob s) i ix = map Fin (M ix)) ->
  (forall ix, In ix L1 -> reads (a_o (ob s1)) ix = reads (a_o (ob s)) (p ix) /\ members (ob s1) i1 ix = members (ob s) i (p ix)) ->
  (forall ix, In ix L2 -> reads (a_o (ob s2)) ix = reads (a_o (ob s)) (q ix) /\ members (ob s2) i2 ix = members (ob s) i (q ix)) ->
  forall m, In m [MCrps; MSpread] -> weighted_answers m s1 s2 s k1 k2 k (length L1) (length L2).
Proof.
  intros s1 s2 s i1 i2 i k1 k2 k L1 L2 L p q O M FA R1 R2 R PS (C1 & Fi1 & Po1 & Sp1) (C2 & Fi2 & Po2 & Sp2) (C & Fi & Po & Sp)
    (B1 & N1 & ax1 & ns1 & A1 & X1 & H1) (B2 & N2 & ax2 & ns2 & A2 & X2 & H2) (B & N & ax & ns & A & X & H) P V V1 V2 m Hm.
  assert (I1 : forall ix, In ix L1 -> In (p ix) L) by (intros ix I; apply (Permutation_in _ P), in_or_app; left; apply in_map, I).
  assert (I2 : forall ix, In ix L2 -> In (q ix) L) by (intros ix I; apply (Permutation_in _ P), in_or_app; right; apply in_map, I).
  assert (Ne : forall ix, In ix L -> M ix <> []). { intros ix I Z. destruct (V ix I) as [_ V3]. rewrite Z in V3. apply (f_equal (@length num)) in V3. unfold members, members_at in V3. rewrite map_length, seq_length, arr_shape_of in V3. cbn in V3. lia. }
  destruct Hm as [<-|[<-|[]]].
  - destruct (crps s1 i1 ax1 ns1 k1 L1 (fun ix => O (p ix)) (fun ix => M (p ix)) FA R1 C1 PS Fi1 Po1 Sp1 B1 A1 X1 H1 N1) as (v1 & Av1 & _ & G1); [intros ix I; destruct (V1 ix I) as [-> E]; unfold members in E at 1; rewrite E; apply V, I1, I|].
    destruct (crps s2 i2 ax2 ns2 k2 L2 (fun ix => O (q ix)) (fun ix => M (q ix)) FA R2 C2 PS Fi2 Po2 Sp2 B2 A2 X2 H2 N2) as (v2 & Av2 & _ & G2); [intros ix I; destruct (V2 ix I) as [-> E]; unfold members in E at 1; rewrite E; apply V, I2, I|].
    destruct (crps s i ax ns k L O M FA R C PS Fi Po Sp B A X H N) as (v & Av & _ & G); [intros ix I; apply V, I|].
    exists v1, v2, v. do 2 eexists. split; [exact Av1|]. split; [exact Av2|]. split; [exact Av|]. split; [exact G1|]. split; [exact G2|]. rewrite G. f_equal. apply (mean_pieces _ _ _ p q); auto.
  - set (hi ix := match M ix with [] => 0%Qc | a :: r => fold_right qmax a r end). set (lo ix := match M ix with [] => 0%Qc | a :: r => fold_right qmin a r end).
    assert (Ext : forall ix, In ix L -> In (hi ix) (M ix) /\ In (lo ix) (M ix) /\ forall z, In z (M ix) -> (lo ix <= z)%Qc /\ (z <= hi ix)%Qc).
    { intros ix I. specialize (Ne ix I). unfold hi, lo. destruct (M ix) as [|a r]; [elim Ne; reflexivity|]. clear. split; [|split].
      - induction r as [|y r IH]; [left; reflexivity|]. cbn [fold_right]. unfold qmax at 1. destruct (qleb y _); [destruct IH as [IH|IH]; [left; exact IH|right; right; exact IH]|right; left; reflexivity].
      - induction r as [|y r IH]; [left; reflexivity|]. cbn [fold_right]. unfold qmin at 1. destruct (qleb y _); [right; left; reflexivity|destruct IH as [IH|IH]; [left; exact IH|right; right; exact IH]].
      - induction r as [|y r IH]; intros z [->|Hz]; [split; apply Qcle_refl|destruct Hz| |].
        + destruct (IH z (or_introl eq_refl)) as [J1 J2]. cbn [fold_right]. unfold qmin at 1, qmax at 1. destruct (qleb_spec y (fold_right qmin z r)), (qleb_spec y (fold_right qmax z r)); split; qlra.
        + cbn [fold_right]. destruct Hz as [->|Hz].
          * unfold qmin at 1, qmax at 1. destruct (qleb_spec z (fold_right qmin a r)), (qleb_spec z (fold_right qmax a r)); split; qlra.
          * destruct (IH z (or_intror Hz)) as [J1 J2]. unfold qmin at 1, qmax at 1. destruct (qleb_spec y (fold_right qmin a r)), (qleb_spec y (fold_right qmax a r)); split; qlra. }
    destruct (spread s1 i1 ax1 ns1 k1 L1 (fun ix => hi (p ix)) (fun ix => lo (p ix)) (fun ix => M (p ix)) FA R1 C1 Fi1 Po1 B1 A1 X1 H1 N1) as (v1 & Av1 & _ & G1); [intros ix I; destruct (V1 ix I) as [_ E]; unfold members in E at 1; rewrite E; split; [apply V, I1, I|apply Ext, I1, I]|].
    destruct (spread s2 i2 ax2 ns2 k2 L2 (fun ix => hi (q ix)) (fun ix => lo (q ix)) (fun ix => M (q ix)) FA R2 C2 Fi2 Po2 B2 A2 X2 H2 N2) as (v2 & Av2 & _ & G2); [intros ix I; destruct (V2 ix I) as [_ E]; unfold members in E at 1; rewrite E; split; [apply V, I2, I|apply Ext, I2, I]|].
    destruct (spread s i ax ns k L hi lo M FA R C Fi Po B A X H N) as (v & Av & _ & G); [intros ix I; split; [apply V, I|apply Ext, I]|].
    exists v1, v2, v. do 2 eexists. split; [exact Av1|]. split; [exact Av2|]. split; [exact Av|]. split; [exact G1|]. split; [exact G2|]. rewrite G. f_equal. apply (mean_pieces _ _ _ p q); auto.
Qed.

(** ** Brier score; the threshold may depend on the cell *)
Theorem c120_brier : forall s1 s2 s (over : bool) t1 t2 t b1 b2 b i1 i2 i k1 k2 k L1 L2 L p q, faithful -> reached s1 -> reached s2 -> reached s ->
  ensemble_ready (ob s1) i1 t1 b1 -> ensemble_ready (ob s2) i2 t2 b2 -> ensemble_ready (ob s) i t b -> threshold_ok t1 -> threshold_ok t2 -> threshold_ok t ->
  averages (ob s1) k1 L1 -> averages (ob s2) k2 L2 -> averages (ob s) k L -> pieces p q L1 L2 L ->
  (forall ix, In ix L1 -> thr_at b1 ix = thr_at b (p ix) /\ reads (a_o (ob s1)) ix = reads (a_o (ob s)) (p ix) /\ members (ob s1) i1 ix = members (ob s) i (p ix)) ->
  (forall ix, In ix L2 -> thr_at b2 ix = thr_at b (q ix) /\ reads (a_o (ob s2)) ix = reads (a_o (ob s)) (q ix) /\ members (ob s2) i2 ix = members (ob s) i (q ix)) ->
  exists v1 v2 v x y, answers s1 (over_or_below MBrier over t1) v1 /\ answers s2 (over_or_below MBrier over t2) v2 /\ answers s (over_or_below MBrier over t) v /\
    reads v1 k1 = Fin x /\ reads v2 k2 = Fin y /\ reads v k = Fin (weighted (length L1) (length L2) x y).
Proof.
  intros s1 s2 s over t1 t2 t b1 b2 b i1 i2 i k1 k2 k L1 L2 L p q FA R1 R2 R E1 E2 E T1 T2 T
    (B1 & N1 & ax1 & ns1 & A1 & X1 & H1) (B2 & N2 & ax2 & ns2 & A2 & X2 & H2) (B & N & ax & ns & A & X & H) P V1 V2.
  destruct (brier s1 over t1 b1 i1 ax1 ns1 k1 L1 FA R1 E1 T1 B1 A1 X1 H1 N1) as (v1 & Av1 & _ & G1).
  destruct (brier s2 over t2 b2 i2 ax2 ns2 k2 L2 FA R2 E2 T2 B2 A2 X2 H2 N2) as (v2 & Av2 & _ & G2).
  destruct (brier s over t b i ax ns k L FA R E T B A X H N) as (v & Av & _ & G).
  exists v1, v2, v. do 2 eexists. split; [exact Av1|]. split; [exact Av2|]. split; [exact Av|]. split; [exact G1|]. split; [exact G2|]. rewrite G. f_equal. unfold members in V1, V2.
  apply (mean_pieces _ _ _ p q); auto; intros ix I; [destruct (V1 ix I) as (-> & -> & ->)|destruct (V2 ix I) as (-> & -> & ->)]; reflexivity.
Qed.
End Laws.
Print Assumptions c120_errors.
Print Assumptions c120_crps_spread.
Print Assumptions c120_brier.

(** ** Data sets appended along an averaged first axis are pieces of that kind *)
Definition shift (n : nat) (ix : list nat) : list nat := match ix with i :: r => n + i :: r | [] => [] end.
Lemma kept_head nd ns i j r : In 0 ns -> kept nd ns (i :: r) = kept nd ns (j :: r).
Proof.
  intros I. unfold kept. apply map_ext_in. intros d Hd. apply filter_In in Hd as [_ Hd]. destruct d as [|d]; [|reflexivity].
  exfalso. apply negb_true_iff in Hd. rewrite <- not_true_iff_false in Hd. apply Hd, existsb_exists. exists 0. auto.
Qed.
Theorem c120_appended : forall n1 n2 r ns k L1 L2 L, In 0 ns -> Cells (n1 :: r) ns k L1 -> Cells (n2 :: r) ns k L2 -> Cells (n1 + n2 :: r) ns k L ->
  pieces (fun ix => ix) (shift n1) L1 L2 L.
Proof.
  intros n1 n2 r ns k L1 L2 L I0 [D1 H1] [D2 H2] [D H]. unfold pieces. rewrite map_id.
  assert (Z : forall ix, In ix L2 -> exists i q, ix = i :: q /\ i < n2 /\ Forall2 lt q r /\ kept (length (n2 :: r)) ns ix = k).
  { intros ix I. apply H2 in I as [V K]. inversion V as [|i a q b J1 J2 J3 J4]; subst. exists i, q. repeat split; auto. }
  apply NoDup_Permutation; [|exact D|].
  - assert (D2' : NoDup (map (shift n1) L2)).
    { clear H2. induction D2 as [|x l N D2 IH]; [constructor|]. cbn [map]. constructor; [|apply IH; intros ix I; apply Z; right; exact I].
      intros I. apply in_map_iff in I as (y & E & I). destruct (Z x (or_introl eq_refl)) as (i & q & -> & _). destruct (Z y (or_intror I)) as (j & q' & -> & _).
      cbn [shift] in E. injection E as E1 E2. apply N. replace i with j by lia. subst. exact I. }
    assert (Dis : forall ix, In ix L1 -> ~ In ix (map (shift n1) L2)).
    { intros ix I J. apply in_map_iff in J as (y & <- & J). destruct (Z y J) as (j & q' & -> & _). cbn [shift] in I. apply H1 in I as [V _]. inversion V; subst. lia. }
    clear H1 H. induction D1 as [|x l N D1 IH]; [exact D2'|]. cbn [app]. constructor; [|apply IH; intros ix I; apply Dis; right; exact I].
    intros I. apply in_app_or in I as [I|I]; [exact (N I)|exact (Dis x (or_introl eq_refl) I)].
  - intros ix. rewrite in_app_iff, H. split.
    + intros [I|I].
      * apply H1 in I as [V K]. inversion V as [|i a q b J1 J2 J3 J4]; subst. split; [constructor; [lia|assumption]|reflexivity].
      * apply in_map_iff in I as (y & <- & I). destruct (Z y I) as (i & q & -> & Hi & V & K). cbn [shift]. split; [constructor; [lia|exact V]|]. rewrite <- K. apply kept_head, I0.
    + intros [V K]. inversion V as [|i a q b J1 J2 J3 J4]; subst. destruct (Nat.lt_ge_cases i n1) as [Hi|Hi].
      * left. apply H1. split; [constructor; assumption|reflexivity].
      * right. apply in_map_iff. exists (i - n1 :: q). split; [cbn [shift]; f_equal; lia|]. apply H2. split; [constructor; [lia|assumption]|]. apply kept_head, I0.
Qed.
Print Assumptions c120_appended.

(** ** Three cells: the middle one is a data set, the outer ones are another *)
Definition j_obj (n : nat) (f o c : nat) : obj := mkObj CEnsemble (VArr [n; 2] f) (VArr [n] o) (VTuple [VInt 0]) VNone VNone (VBool true)
    (VArr [n] c) (VInt (-1)) (VFun 0) VNone VNone VNone VNone VNone VNone VNone.
Definition j_state (n : nat) (f o c : list Z) : st :=
  mkSt (j_obj n (store (map (fun i => Fin (qz i)) f)) (store (map (fun i => Fin (qz i)) o)) (store (map (fun i => Fin (qz i)) c))) w_used 0 [].
Lemma j_facts n f o c : let x := ob (j_state n f o c) in
  l_reached (j_state n f o c) /\ cl x = CEnsemble /\ arr_shape (a_f x) = [n; 2] /\ arr_shape (a_o x) = [n] /\ arr_shape (point x) = [n] /\ a_boot x = VNone /\ int_of (a_eaxis x) = (-1)%Z /\
  arr_of (a_f x) = of_list NaN [n; 2] (map l_num f) /\ arr_of (a_o x) = of_list NaN [n] (map l_num o) /\ arr_of (point x) = of_list NaN [n] (map l_num c) /\ axes_of (a_avg x) = Some (Some [0%Z]).
Proof.
  cbv zeta. unfold j_state. generalize (content_store (map l_num f)) (content_store (map l_num o)) (content_store (map l_num c)).
  generalize (store (map l_num f)) (store (map l_num o)) (store (map l_num c)). intros cf co cc Hf Ho Hc.
  split; [right; split; [left; reflexivity|reflexivity]|]. cbn [ob j_obj cl a_f a_o a_boot a_eaxis a_avg point arr_shape int_of arr_of a_fc]. rewrite Hf, Ho, Hc. repeat split.
Qed.
Definition firsts (n : nat) : list (list nat) := map (fun i => [i]) (seq 0 n).
Lemma j_averages n f o c : 0 < n -> averages (ob (j_state n f o c)) [] (firsts n).
Proof.
  intros Pos. destruct (j_facts n f o c) as (_ & _ & _ & So & _ & B & _ & _ & _ & _ & A). split; [exact B|]. split; [destruct n; [lia|discriminate]|]. exists (Some [0%Z]), [0]. split; [exact A|]. rewrite So.
  split; [split; [constructor; [split; [cbn; lia|left; reflexivity]|constructor]|constructor; [intros []|constructor]]|]. split.
  - apply FinFun.Injective_map_NoDup; [intros i j E; injection E; auto|apply seq_NoDup].
  - intros ix. unfold firsts. rewrite in_map_iff. split.
    + intros (i & <- & I). apply in_seq in I. split; [repeat constructor; lia|reflexivity].
    + intros [V _]. inversion V as [|i a r q H1 H2]; subst. inversion H2; subst. exists i. split; [reflexivity|]. apply in_seq. lia.
Qed.
Lemma j_ready n f o c t : 0 < n -> ensemble_ready e_set (ob (j_state n f o c)) 1 (VInt t) (TScalar (Fin (qz t))).
Proof.
  intros Pos. destruct (j_facts n f o c) as (_ & C & Sf & So & _ & _ & Ez & Ef & Eo & _ & _). split; [exact C|]. split; [reflexivity|]. split; [rewrite Ez, Ef, Eo; split; [split; [cbn; lia|right; reflexivity]|reflexivity]|].
  rewrite Sf, So. split; [cbn; lia|]. split; [left; reflexivity|]. split; [reflexivity|exact I].
Qed.
Lemma j_reads n f o c ix : reads (a_o (ob (j_state n f o c))) ix = get (of_list NaN [n] (map l_num o)) ix /\ reads (point (ob (j_state n f o c))) ix = get (of_list NaN [n] (map l_num c)) ix /\
  forall m, members (ob (j_state n f o c)) m ix = members_at m (of_list NaN [n; 2] (map l_num f)) ix.
Proof. destruct (j_facts n f o c) as (_ & _ & _ & _ & _ & _ & _ & Ef & Eo & Ec & _). unfold reads, members. rewrite Ef, Eo, Ec. auto. Qed.
Ltac j_read := repeat match goal with
  | |- context [reads (a_o (ob (j_state ?n ?f ?o ?c))) ?ix] => rewrite (proj1 (j_reads n f o c ix))
  | |- context [reads (point (ob (j_state ?n ?f ?o ?c))) ?ix] => rewrite (proj1 (proj2 (j_reads n f o c ix)))
  | |- context [members (ob (j_state ?n ?f ?o ?c)) ?m ?ix] => rewrite (proj2 (proj2 (j_reads n f o c ix)) m) end.
Example c120_nonvacuous : let s1 := j_state 1 [0; 4]%Z [0]%Z [2]%Z in let s2 := j_state 2 [2; 3; 2; 2]%Z [2; 1]%Z [2; 2]%Z in
  let s := j_state 3 [2; 3; 0; 4; 2; 2]%Z [2; 0; 1]%Z [2; 2; 2]%Z in
  let F ix := qz (nth (hd 0 ix) [2; 2; 2]%Z 0%Z) in let O ix := qz (nth (hd 0 ix) [2; 0; 1]%Z 0%Z) in let M ix := map qz (nth (hd 0 ix) [[2; 3]; [0; 4]; [2; 2]]%Z []) in
  let p (ix : list nat) := [1] in let q ix := [2 * hd 0 ix] in
  l_reached s1 /\ l_reached s2 /\ l_reached s /\ of_members e_set (ob s1) 1 /\ of_members e_set (ob s2) 1 /\ of_members e_set (ob s) 1 /\
  ensemble_ready e_set (ob s1) 1 (VInt 1) (TScalar (Fin (qz 1))) /\ ensemble_ready e_set (ob s2) 1 (VInt 1) (TScalar (Fin (qz 1))) /\ ensemble_ready e_set (ob s) 1 (VInt 1) (TScalar (Fin (qz 1))) /\
  averages (ob s1) [] (firsts 1) /\ averages (ob s2) [] (firsts 2) /\ averages (ob s) [] (firsts 3) /\ pieces p q (firsts 1) (firsts 2) (firsts 3) /\
  (forall ix, In ix (firsts 3) -> reads (point (ob s)) ix = Fin (F ix) /\ reads (a_o (ob s)) ix = Fin (O ix) /\ members (ob s) 1 ix = map Fin (M ix)) /\
  (forall ix, In ix (firsts 1) -> reads (point (ob s1)) ix = reads (point (ob s)) (p ix) /\ reads (a_o (ob s1)) ix = reads (a_o (ob s)) (p ix) /\ members (ob s1) 1 ix = members (ob s) 1 (p ix)) /\
  (forall ix, In ix (firsts 2) -> reads (point (ob s2)) ix = reads (point (ob s)) (q ix) /\ reads (a_o (ob s2)) ix = reads (a_o (ob s)) (q ix) /\ members (ob s2) 1 ix = members (ob s) 1 (q ix)) /\
  weighted (length (firsts 1)) (length (firsts 2)) (qz 4) (qz 1 / qz 2) = (qz 5 / qz 3)%Qc.
Proof.
  cbv zeta. split; [apply j_facts|]. split; [apply j_facts|]. split; [apply j_facts|].
  assert (OM : forall n f o c, of_members e_set (ob (j_state n f o c)) 1).
  { intros n f o c. destruct (j_facts n f o c) as (_ & C & Sf & So & _ & _ & Ez & Ef & Eo & _ & _). split; [exact C|]. split; [rewrite Ez, Ef, Eo; split; [split; [cbn; lia|right; reflexivity]|reflexivity]|]. rewrite Sf, So. split; [cbn; lia|]. right. discriminate. }
  split; [apply OM|]. split; [apply OM|]. split; [apply OM|]. split; [apply j_ready; lia|]. split; [apply j_ready; lia|]. split; [apply j_ready; lia|].
  split; [apply j_averages; lia|]. split; [apply j_averages; lia|]. split; [apply j_averages; lia|].
  split; [apply perm_swap|].
  split; [|split; [|split]].
  - intros ix I. j_read. destruct I as [<-|[<-|[<-|[]]]]; repeat split; vm_compute; reflexivity.
  - intros ix I. j_read. destruct I as [<-|[]]; repeat split; vm_compute; reflexivity.
  - intros ix I. j_read. destruct I as [<-|[<-|[]]]; repeat split; vm_compute; reflexivity.
  - apply Qc_is_canon. vm_compute. reflexivity.
Qed.
