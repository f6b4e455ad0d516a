(** Property C111: what the three terms of the Brier decomposition of an ensemble verifier say, and the decomposition for the opposite event. *)
From Coq Require Import String ZArith List Lia Bool Arith QArith Qcanon.
From Verif Require Import QcTac QSum Num NdArr Numpy NdAxes M_common M_boot M_ens M_special M_rel M_dist
  Spec Spec_prob Spec_rel P_boot P_rank P_prob P_dist P_brier P_special P_rel Props_avg Props_special Props_rel Props_rank
  Store M_state Spec_state P_state P_codec Spec_result P_result Props_state Props_result M_whole Spec_whole P_whole Props_whole M_whole2 P_whole2 Spec_whole2 P_layout Props_whole2 P_laws P_laws2.
From Verif Require Props_ps NdMove.
Import ListNotations.
Open Scope string_scope.
Open Scope list_scope.
Open Scope nat_scope.

(** ** Averages *)
Lemma avg_zero_iff {A} (g : A -> Qc) L : L <> [] -> (forall a, In a L -> (0 <= g a)%Qc) -> (avg_over g L = 0%Qc <-> forall a, In a L -> g a = 0%Qc).
Proof. intros N P. unfold avg_over. apply mean_pos_zero; assumption. Qed.
Lemma diff_zero (a b : Qc) : (a - b)%Qc = 0%Qc <-> a = b.
Proof. split; intros H; [|rewrite H; ring]. replace a with ((a - b) + b)%Qc by ring. rewrite H. ring. Qed.
Lemma avg_opposite {A} (g h : A -> Qc) L : L <> [] -> (forall a, In a L -> h a = (1 - g a)%Qc) -> avg_over h L = (1 - avg_over g L)%Qc.
Proof.
  intros N E. rewrite (avg_over_ext h (fun a => 1 - g a)%Qc) by exact E. rewrite !avg_sum. rewrite qsumf_minus. rewrite qsumf_const.
  assert (Hl : qn (length L) <> 0%Qc) by (apply len_neq0, N). field. exact Hl.
Qed.
Definition in_bin_of {A} (bin : A -> nat) (j : nat) (L : list A) : list A := filter (fun a => Nat.eqb (bin a) j) L.
Lemma bin_mean_at {A} (bin : A -> nat) (g : A -> Qc) L a : bin_mean bin g L a = Spec.mean_of (map g (in_bin_of bin (bin a) L)).
Proof. reflexivity. Qed.
Lemma bin_some {A} (bin : A -> nat) L a : In a L -> in_bin_of bin (bin a) L <> [].
Proof. intros I Z. assert (Y : In a (in_bin_of bin (bin a) L)) by (apply filter_In; split; [exact I|apply Nat.eqb_refl]). rewrite Z in Y. exact Y. Qed.
Lemma bin_mean_opposite {A} (bin bin' : A -> nat) (g h : A -> Qc) L a : In a L -> (forall b, In b L -> Nat.eqb (bin' b) (bin' a) = Nat.eqb (bin b) (bin a)) -> (forall b, In b L -> h b = (1 - g b)%Qc) ->
  bin_mean bin' h L a = (1 - bin_mean bin g L a)%Qc.
Proof.
  intros I E H. rewrite !bin_mean_at. replace (in_bin_of bin' (bin' a) L) with (in_bin_of bin (bin a) L) by (apply filter_ext_in; intros b Hb; symmetry; apply E, Hb).
  apply (avg_opposite g h); [apply bin_some, I|]. intros b Hb. apply filter_In in Hb as [Hb _]. apply H, Hb.
Qed.

(** ** The three terms of given probabilities [p] and outcomes [y] *)
Section Terms.
Context {A : Type}.
Variables (L : list A) (bin : A -> nat) (p y : A -> Qc).
Hypothesis N : L <> [].
Hypothesis Y01 : forall a, In a L -> y a = 0%Qc \/ y a = 1%Qc.
Let rel := avg_over (fun a => (bin_mean bin p L a - bin_mean bin y L a) * (bin_mean bin p L a - bin_mean bin y L a))%Qc L.
Let reso := avg_over (fun a => (bin_mean bin y L a - avg_over y L) * (bin_mean bin y L a - avg_over y L))%Qc L.
Let unc := (avg_over y L * (1 - avg_over y L))%Qc.
Lemma terms_meaning :
  (unc = 0%Qc <-> (forall a, In a L -> y a = 1%Qc) \/ (forall a, In a L -> y a = 0%Qc)) /\
  (rel = 0%Qc <-> forall a, In a L -> Spec.mean_of (map p (in_bin_of bin (bin a) L)) = Spec.mean_of (map y (in_bin_of bin (bin a) L))) /\
  (reso = 0%Qc <-> forall a, In a L -> Spec.mean_of (map y (in_bin_of bin (bin a) L)) = Spec.mean_of (map y L)) /\
  (reso = unc <-> forall a b, In a L -> In b L -> bin a = bin b -> y a = y b).
Proof.
  assert (Y0 : avg_over y L = 0%Qc <-> forall a, In a L -> y a = 0%Qc) by (apply avg_zero_iff; [exact N|]; intros a I; destruct (Y01 a I) as [-> | ->]; discriminate).
  assert (Y1 : (1 - avg_over y L)%Qc = 0%Qc <-> forall a, In a L -> y a = 1%Qc).
  { rewrite <- (avg_opposite y (fun a => 1 - y a)%Qc L N) by reflexivity. rewrite avg_zero_iff; [|exact N|intros a I; destruct (Y01 a I) as [-> | ->]; discriminate]. split; intros Z a I; specialize (Z a I); [symmetry; apply diff_zero, Z|rewrite Z; ring]. }
  split.
  { unfold unc. split.
    - intros Z. apply Qcmult_integral in Z as [Z|Z]; [right; apply Y0, Z|left; apply Y1, Z].
    - intros [Z|Z]; [apply Y1 in Z; rewrite Z|apply Y0 in Z; rewrite Z]; ring. }
  split.
  { unfold rel. rewrite avg_zero_iff; [|exact N|intros; apply square_nonneg]. split; intros Z a I; specialize (Z a I); cbv beta in *.
    - exact (proj1 (diff_zero _ _) (proj1 (square_zero _) Z)).
    - exact (proj2 (square_zero _) (proj2 (diff_zero _ _) Z)). }
  split.
  { unfold reso. rewrite avg_zero_iff; [|exact N|intros; apply square_nonneg]. split; intros Z a I; specialize (Z a I); cbv beta in *.
    - exact (proj1 (diff_zero _ _) (proj1 (square_zero _) Z)).
    - exact (proj2 (square_zero _) (proj2 (diff_zero _ _) Z)). }
  destruct (avg_split L bin p y N Y01) as [U _]. cbv zeta in U. unfold sq in U. fold reso unc in U.
  transitivity (avg_over (fun a => (y a - bin_mean bin y L a) * (y a - bin_mean bin y L a))%Qc L = 0%Qc).
  { rewrite <- U. split; intros Z; [rewrite Z; ring|symmetry; apply diff_zero, Z]. }
  rewrite avg_zero_iff; [|exact N|intros; apply square_nonneg]. split.
  - intros Z a b Ii Ij E. pose proof (proj1 (diff_zero _ _) (proj1 (square_zero _) (Z a Ii))) as Zi. pose proof (proj1 (diff_zero _ _) (proj1 (square_zero _) (Z b Ij))) as Zj.
    rewrite Zi, Zj. rewrite !bin_mean_at, E. reflexivity.
  - intros Z a Ii. cbv beta. rewrite (bin_mean_const bin y L a Ii) by (intros b Ij E; apply Z; assumption). ring.
Qed.
(** the opposite event, with the cells divided in the same way *)
Variables (bin' : A -> nat) (p' y' : A -> Qc).
Hypothesis Ep : forall a, In a L -> p' a = (1 - p a)%Qc.
Hypothesis Ey : forall a, In a L -> y' a = (1 - y a)%Qc.
Hypothesis Eb : forall a b, In a L -> In b L -> Nat.eqb (bin' b) (bin' a) = Nat.eqb (bin b) (bin a).
Lemma terms_opposite :
  avg_over (fun a => (bin_mean bin' p' L a - bin_mean bin' y' L a) * (bin_mean bin' p' L a - bin_mean bin' y' L a))%Qc L = rel /\
  avg_over (fun a => (bin_mean bin' y' L a - avg_over y' L) * (bin_mean bin' y' L a - avg_over y' L))%Qc L = reso /\
  (avg_over y' L * (1 - avg_over y' L))%Qc = unc.
Proof.
  unfold rel, reso, unc. rewrite (avg_opposite y y' L N Ey). split; [|split; [|ring]]; apply avg_over_ext; intros a I; cbv beta;
    rewrite (bin_mean_opposite bin bin' y y' L a I (fun b Ib => Eb a b I Ib) Ey), ?(bin_mean_opposite bin bin' p p' L a I (fun b Ib => Eb a b I Ib) Ep); ring.
Qed.
End Terms.
(** not on an edge between two bins *)
Definition off_edges (p : Qc) : Prop := forall j, 0 < j < 20 -> p <> (qn j / qn 20)%Qc.
Lemma in_bin_reflect p k : off_edges p -> (0 <= p)%Qc -> (p <= 1)%Qc -> in_bin 20 p k -> in_bin 20 (1 - p) (19 - k).
Proof.
  intros Off P0 P1 (K & Lo & Up).
  assert (N20 : qn 20 <> 0%Qc) by (apply qn_neq0; lia). set (c := (/ qn 20)%Qc). assert (C1 : (qn 20 * c = 1)%Qc) by (unfold c; apply Qcmult_inv_r, N20).
  assert (C19 : (qn 19 * c = 1 - c)%Qc) by (rewrite <- C1; change 20 with (1 + 19); rewrite qn_plus, qn_1; ring).
  assert (Sm : (qn (19 - k) * c = 1 - c - qn k * c)%Qc) by (rewrite <- C19; replace (qn 19) with (qn (19 - k) + qn k)%Qc by (rewrite <- qn_plus; f_equal; lia); ring).
  assert (Sk : forall j, (qn (S j) * c = qn j * c + c)%Qc) by (intros j; change (S j) with (1 + j); rewrite qn_plus, qn_1; ring).
  unfold in_bin, off_edges, Qcdiv in *. fold c in Lo, Up. split; [lia|]. split.
  - fold c. rewrite Sm. destruct Up as [Up|Up]; [rewrite Sk in Up; qlra|]. replace k with 19 by lia. rewrite C19. qlra.
  - fold c. destruct k as [|k]; [right; reflexivity|]. left. rewrite Sk, Sm. assert (Ne : p <> (qn (S k) * c)%Qc) by (apply Off; lia).
    destruct (Qcle_lt_or_eq _ _ Lo) as [L|L]; [qlra|congruence].
Qed.
Lemma reflect_bins {A} (L : list A) (p p' : A -> Qc) (bin bin' : A -> nat) : (forall a, In a L -> in_bin 20 (p a) (bin a)) -> (forall a, In a L -> in_bin 20 (p' a) (bin' a)) -> (forall a, In a L -> p' a = (1 - p a)%Qc) ->
  (forall a, In a L -> (0 <= p a)%Qc /\ (p a <= 1)%Qc /\ off_edges (p a)) -> forall a b, In a L -> In b L -> Nat.eqb (bin' b) (bin' a) = Nat.eqb (bin b) (bin a).
Proof.
  intros H H' E Off. assert (R : forall a, In a L -> bin' a = 19 - bin a /\ bin a < 20).
  { intros a I. destruct (Off a I) as (P0 & P1 & O). split; [|apply (H a I)]. pose proof (H' a I) as Z. rewrite (E a I) in Z. exact (in_bin_fun _ _ _ _ Z (in_bin_reflect _ _ O P0 P1 (H a I))). }
  intros a b Ia Ib. destruct (R a Ia) as [-> ?], (R b Ib) as [-> ?]. apply eq_true_iff_eq. rewrite !Nat.eqb_eq. lia.
Qed.

Section Program.
Variable S : settings.
Variable gen_decomp : nat -> nat -> nat -> nat -> nat.
Variable gen_rel : nat -> nat -> nat -> nat -> nat -> nat.
Variable other : string -> list M_state.val -> res M_state.val.
Variable otherr : string -> list M_state.val -> nat -> res M_state.val.
Variable str_of : M_state.val -> string.
Variable dumps : M_state.val -> string.
Variable loads : string -> res M_state.val.
Variable expanduser : string -> string.
Variable resolve : string -> path.
Variable points : M_state.val -> M_state.val -> M_state.val -> res (list num).
Variable less_memory : bool.
Variable integrate_wdir : option path.
Variable cwd : path.
Variable rng : nat -> nat.
Notation mlib := (more_lib S other).
Notation mlibr := (more_libr S gen_decomp gen_rel otherr).
Notation faithful := (Props_whole.faithful str_of dumps loads expanduser).
Notation reached := (Props_whole.reached S mlib mlibr str_of dumps loads expanduser resolve points less_memory integrate_wdir cwd rng).
Notation answers := (Props_whole.answers S mlib mlibr str_of dumps loads expanduser resolve points less_memory integrate_wdir cwd rng).
Notation ready := (ensemble_ready S).
Notation decomposition := (c91_decomposition S gen_decomp gen_rel other otherr str_of dumps loads expanduser resolve points less_memory integrate_wdir cwd rng).
(** the cells [L] are decomposed into entry [k] of the three results *)
Definition decomposes (x : obj) (k : list nat) (L : list (list nat)) : Prop :=
  a_boot x = VNone /\ L <> [] /\ (forall d, In d (arr_shape (a_o x)) -> 0 < d) /\
  exists ax ns, axes_of (a_avg x) = Some ax /\ axes_are (length (arr_shape (a_o x))) ax ns /\ P_special.plain ax /\ Cells (arr_shape (a_o x)) ns k L.

Theorem c111_terms : forall s (over : bool) t b n k L (bin : list nat -> nat), faithful -> reached s -> let x := ob s in ready x n t b -> threshold_ok t -> decomposes x k L ->
  let p := given x n over b in let y := happened x over b in (forall ix, In ix L -> in_bin 20 (p ix) (bin ix)) ->
  exists rel reso unc q r u, answers s (MDecomp (over_of over t) (below_of over t)) (VTuple [rel; reso; unc]) /\ reads rel k = Fin q /\ reads reso k = Fin r /\ reads unc k = Fin u /\
    (* uncertainty is 0 exactly if the event happened always or never *)
    (u = 0%Qc <-> (forall ix, In ix L -> y ix = 1%Qc) \/ (forall ix, In ix L -> y ix = 0%Qc)) /\
    (* reliability is 0 exactly if the event happened in each bin as often as it was given on average *)
    (q = 0%Qc <-> forall ix, In ix L -> Spec.mean_of (map p (in_bin_of bin (bin ix) L)) = Spec.mean_of (map y (in_bin_of bin (bin ix) L))) /\
    (* resolution is 0 exactly if it happened in each bin as often as in all *)
    (r = 0%Qc <-> forall ix, In ix L -> Spec.mean_of (map y (in_bin_of bin (bin ix) L)) = Spec.mean_of (map y L)) /\
    (* and equal to the uncertainty exactly if it happened in each bin always or never *)
    (r = u <-> forall ix jx, In ix L -> In jx L -> bin ix = bin jx -> y ix = y jx).
Proof.
  intros s over t b n k L bin FA RE x H T (B & N & Pos & ax & ns & A & X & PL & HC) p y HB.
  destruct (decomposition s over t b n ax ns k L bin FA RE H T B A X PL Pos HC N HB) as (rel & reso & unc & Ad & _ & _ & _ & G1 & G2 & G3). fold x in G1, G2, G3. fold p y in G1, G2, G3.
  exists rel, reso, unc. do 3 eexists. split; [exact Ad|]. split; [exact G1|]. split; [exact G2|]. split; [exact G3|].
  apply (terms_meaning L bin p y N). intros ix _. unfold y, happened, indicator. destruct (Spec_whole.observed _ _ _); auto.
Qed.

(** No observation equal to the threshold, and no given probability on an edge between two bins: the same three terms for the opposite event. *)
Theorem c111_opposite_off_edges_partial : forall s t b n k L, faithful -> reached s -> let x := ob s in ready x n t b -> threshold_ok t -> decomposes x k L ->
  (forall ix, In ix L -> differ (thr_at b ix) (reads (a_o x) ix) /\ off_edges (given x n true b ix)) ->
  exists rel reso unc rel' reso' unc', answers s (MDecomp (over_of true t) (below_of true t)) (VTuple [rel; reso; unc]) /\ answers s (MDecomp (over_of false t) (below_of false t)) (VTuple [rel'; reso'; unc']) /\
    reads rel' k = reads rel k /\ reads reso' k = reads reso k /\ reads unc' k = reads unc k.
Proof.
  intros s t b n k L FA RE x H T (B & N & Pos & ax & ns & A & X & PL & HC) D.
  destruct (bin_exists (given x n true b) (given_nonneg x n true b)) as (bin & HB). destruct (bin_exists (given x n false b) (given_nonneg x n false b)) as (bin' & HB').
  destruct (decomposition s true t b n ax ns k L bin FA RE H T B A X PL Pos HC N (fun ix _ => HB ix)) as (rel & reso & unc & Ad & _ & _ & _ & G1 & G2 & G3).
  destruct (decomposition s false t b n ax ns k L bin' FA RE H T B A X PL Pos HC N (fun ix _ => HB' ix)) as (rel' & reso' & unc' & Ad' & _ & _ & _ & G1' & G2' & G3').
  fold x in G1, G2, G3, G1', G2', G3'. set (p := given x n true b) in *. set (y := happened x true b) in *. set (p' := given x n false b) in *. set (y' := happened x false b) in *.
  assert (Ms : forall ix, Spec.members_at n (arr_of (a_f x)) ix <> []).
  { intros ix Z. apply (f_equal (@length num)) in Z. unfold Spec.members_at in Z. rewrite map_length, seq_length, arr_shape_of in Z. destruct H as (_ & _ & _ & Ps & _). cbn in Z. lia. }
  assert (Ep : forall ix, In ix L -> p' ix = (1 - p ix)%Qc). { intros ix _. unfold p, p', given. rewrite (share_opposite (thr_at b ix) _ (Ms ix)). ring. }
  assert (Ey : forall ix, In ix L -> y' ix = (1 - y ix)%Qc). { intros ix I. unfold y, y', happened. rewrite (indicator_opposite _ _ (proj1 (D ix I))). ring. }
  destruct (terms_opposite L bin p y N bin' p' y' Ep Ey) as (T1 & T2 & T3).
  { apply (reflect_bins L p p' bin bin' (fun ix _ => HB ix) (fun ix _ => HB' ix) Ep). intros ix I. destruct (share_bounds true (thr_at b ix) _ (Ms ix)) as [Z0 Z1]. split; [exact Z0|]. split; [exact Z1|apply (D ix I)]. }
  exists rel, reso, unc, rel', reso', unc'. split; [exact Ad|]. split; [exact Ad'|]. rewrite G1, G2, G3, G1', G2', G3', T1, T2, T3. auto.
Qed.
(** At most nineteen members and no observation equal to the threshold: the same, also on the edges. *)
Theorem c111_opposite_partial : forall s t b n k L, faithful -> reached s -> let x := ob s in ready x n t b -> threshold_ok t -> decomposes x k L -> nth n (arr_shape (a_f x)) 0 <= 19 ->
  (forall ix, In ix L -> differ (thr_at b ix) (reads (a_o x) ix)) ->
  exists rel reso unc rel' reso' unc', answers s (MDecomp (over_of true t) (below_of true t)) (VTuple [rel; reso; unc]) /\ answers s (MDecomp (over_of false t) (below_of false t)) (VTuple [rel'; reso'; unc']) /\
    reads rel' k = reads rel k /\ reads reso' k = reads reso k /\ reads unc' k = reads unc k.
Proof.
  intros s t b n k L FA RE x H T (B & N & Pos & ax & ns & A & X & PL & HC) Few D.
  destruct (bin_exists (given x n true b) (given_nonneg x n true b)) as (bin & HB). destruct (bin_exists (given x n false b) (given_nonneg x n false b)) as (bin' & HB').
  destruct (decomposition s true t b n ax ns k L bin FA RE H T B A X PL Pos HC N (fun ix _ => HB ix)) as (rel & reso & unc & Ad & _ & _ & _ & G1 & G2 & G3).
  destruct (decomposition s false t b n ax ns k L bin' FA RE H T B A X PL Pos HC N (fun ix _ => HB' ix)) as (rel' & reso' & unc' & Ad' & _ & _ & _ & G1' & G2' & G3').
  fold x in G1, G2, G3, G1', G2', G3'. set (p := given x n true b) in *. set (y := happened x true b) in *. set (p' := given x n false b) in *. set (y' := happened x false b) in *.
  assert (Ms : forall ix, Spec.members_at n (arr_of (a_f x)) ix <> []).
  { intros ix Z. apply (f_equal (@length num)) in Z. unfold Spec.members_at in Z. rewrite map_length, seq_length, arr_shape_of in Z. destruct H as (_ & _ & _ & Ps & _). cbn in Z. lia. }
  assert (Ep : forall ix, p' ix = (1 - p ix)%Qc). { intros ix. unfold p, p', given. rewrite (share_opposite (thr_at b ix) _ (Ms ix)). ring. }
  assert (Ey : forall ix, In ix L -> y' ix = (1 - y ix)%Qc). { intros ix I. unfold y, y', happened. rewrite (indicator_opposite _ _ (D ix I)). ring. }
  assert (Len : forall ix, length (Spec.members_at n (arr_of (a_f x)) ix) = nth n (arr_shape (a_f x)) 0) by (intros i; unfold Spec.members_at; rewrite map_length, seq_length, arr_shape_of; reflexivity).
  assert (Inj : forall over bn, (forall ix, in_bin 20 (given x n over b ix) (bn ix)) -> forall ix jx, bn ix = bn jx -> given x n over b ix = given x n over b jx).
  { intros over bn Hb ix jx E. pose proof (Hb ix) as Bi. pose proof (Hb jx) as Bj. rewrite <- E in Bj. unfold given, member_share in *. destruct H as (_ & _ & _ & Ps & _). rewrite !Len in *. f_equal. f_equal.
    eapply share_bins; [exact Ps|exact Few| | |exact Bi|exact Bj]; eapply Nat.le_trans; [apply how_many_le|rewrite Len; lia|apply how_many_le|rewrite Len; lia]. }
  assert (Eb : forall ix jx, Nat.eqb (bin' jx) (bin' ix) = Nat.eqb (bin jx) (bin ix)).
  { intros ix jx. apply eq_true_iff_eq. rewrite !Nat.eqb_eq. split; intros E.
    - apply (Inj false bin' HB') in E. fold p' in E. rewrite !Ep in E. assert (E' : p jx = p ix) by (replace (p jx) with (1 - (1 - p jx))%Qc by ring; rewrite E; ring).
      pose proof (HB jx) as Z. fold p in Z. rewrite E' in Z. exact (in_bin_fun _ _ _ _ Z (HB ix)).
    - apply (Inj true bin HB) in E. fold p in E. pose proof (HB' jx) as Z. fold p' in Z. rewrite Ep, E, <- Ep in Z. exact (in_bin_fun _ _ _ _ Z (HB' ix)). }
  destruct (terms_opposite L bin p y N bin' p' y' (fun ix _ => Ep ix) Ey (fun ix jx _ _ => Eb ix jx)) as (T1 & T2 & T3).
  exists rel, reso, unc, rel', reso', unc'. split; [exact Ad|]. split; [exact Ad'|]. rewrite G1, G2, G3, G1', G2', G3', T1, T2, T3. auto.
Qed.
End Program.
Print Assumptions c111_terms.
Print Assumptions c111_opposite_off_edges_partial.
Print Assumptions c111_opposite_partial.

(** Twenty members: 19/20 and 20/20 share a bin, 1/20 and 0/20 do not. *)
Definition u_O : list num := [Fin 1%Qc; Fin (qz (-1))].
Theorem c111_opposite_refuted : exists x1, d_made 20 (store d_F) (store u_O) = Ok x1 /\ let s := d_state x1 in
  d_reached s /\ ensemble_ready e_set x1 1 (VInt 0) (TScalar (Fin (qz 0))) /\ decomposes x1 [] [[0]; [1]] /\ nth 1 (arr_shape (a_f x1)) 0 = 20 /\ (forall ix, In ix [[0]; [1]] -> differ (Fin (qz 0)) (reads (a_o x1) ix)) /\
  exists rel reso unc rel' reso' unc', d_answers s (MDecomp (VInt 0) VNone) (VTuple [rel; reso; unc]) /\ d_answers s (MDecomp VNone (VInt 0)) (VTuple [rel'; reso'; unc']) /\
    reads rel [] = Fin (Q2Qc (361 # 1600)) /\ reads rel' [] = Fin (Q2Qc (401 # 800)) /\ reads reso [] = Fin 0%Qc /\ reads reso' [] = Fin (Q2Qc (1 # 4)).
Proof.
  destruct (d_constructed 20 (store d_F) (store u_O) (or_intror eq_refl)) as (x1 & E & _). exists x1. split; [exact E|]. intros s.
  destruct (d_all 20 d_F u_O x1 (or_intror eq_refl) E) as (RE & Rd & T & Nm & Eb & Ea & X & PL & Pos & HC & Af & Ao & So & _).
  split; [exact RE|]. split; [exact Rd|]. split; [split; [exact Eb|split; [discriminate|split; [exact Pos|exists None, [0]; auto]]]|]. split; [exact Nm|].
  split; [intros ix [<-|[<-|[]]]; unfold reads; rewrite Ao; vm_compute; (split; [discriminate|split; discriminate])|].
  destruct (c91_decomposition _ _ _ _ _ _ _ _ _ _ _ _ _ _ _ s true (VInt 0) _ 1 None [0] [] [[0]; [1]] (fun _ => 19) e_faithful RE Rd T Eb Ea X PL Pos HC ltac:(discriminate)) as (rel & reso & unc & Ad & _ & _ & _ & G1 & G2 & G3).
  { unfold given. cbn [ob s d_state]. rewrite Af. intros ix [<-|[<-|[]]]; (split; [lia|]); (split; [vm_compute; discriminate|right; reflexivity]). }
  destruct (c91_decomposition _ _ _ _ _ _ _ _ _ _ _ _ _ _ _ s false (VInt 0) _ 1 None [0] [] [[0]; [1]] (fun ix => if Nat.eqb (hd 0 ix) 0 then 1 else 0) e_faithful RE Rd T Eb Ea X PL Pos HC ltac:(discriminate)) as (rel' & reso' & unc' & Ad' & _ & _ & _ & G1' & G2' & G3').
  { unfold given. cbn [ob s d_state]. rewrite Af. intros ix [<-|[<-|[]]]; (split; [cbn; lia|]); (split; [vm_compute; discriminate|left; vm_compute; reflexivity]). }
  exists rel, reso, unc, rel', reso', unc'. split; [exact Ad|]. split; [exact Ad'|]. rewrite G1, G2, G1', G2'. unfold given, happened, reads. cbn [ob s d_state]. rewrite Af, Ao. repeat split; qnum.
Qed.
Print Assumptions c111_opposite_refuted.
(** Four members: 3/4 and 1/2, the event in the first cell; reliability 5/32 and resolution = uncertainty = 1/4, for both events. *)
Example c111_nonvacuous : exists x1, d_made 4 (store d_F4) (store u_O) = Ok x1 /\ let s := d_state x1 in
  d_reached s /\ ensemble_ready e_set x1 1 (VInt 0) (TScalar (Fin (qz 0))) /\ decomposes x1 [] [[0]; [1]] /\ nth 1 (arr_shape (a_f x1)) 0 = 4 /\ (forall ix, In ix [[0]; [1]] -> differ (Fin (qz 0)) (reads (a_o x1) ix)) /\
  (exists rel reso unc rel' reso' unc', d_answers s (MDecomp (VInt 0) VNone) (VTuple [rel; reso; unc]) /\ d_answers s (MDecomp VNone (VInt 0)) (VTuple [rel'; reso'; unc']) /\ reads rel' [] = reads rel [] /\ reads reso' [] = reads reso [] /\ reads unc' [] = reads unc []) /\
  exists rel reso unc q r u, d_answers s (MDecomp (VInt 0) VNone) (VTuple [rel; reso; unc]) /\ reads rel [] = Fin q /\ reads reso [] = Fin r /\ reads unc [] = Fin u /\ q <> 0%Qc /\ r = u /\ u <> 0%Qc.
Proof.
  destruct (d_constructed 4 (store d_F4) (store u_O) (or_introl eq_refl)) as (x1 & E & _). exists x1. split; [exact E|]. intros s.
  destruct (d_all 4 d_F4 u_O x1 (or_introl eq_refl) E) as (RE & Rd & T & Nm & Eb & Ea & X & PL & Pos & HC & Af & Ao & So & W & C & Ee & Sf).
  assert (De : decomposes x1 [] [[0]; [1]]) by (split; [exact Eb|split; [discriminate|split; [exact Pos|exists None, [0]; auto]]]).
  assert (Di : forall ix, In ix [[0]; [1]] -> differ (Fin (qz 0)) (reads (a_o x1) ix)) by (intros ix [<-|[<-|[]]]; unfold reads; rewrite Ao; vm_compute; (split; [discriminate|split; discriminate])).
  split; [exact RE|]. split; [exact Rd|]. split; [exact De|]. split; [exact Nm|]. split; [exact Di|]. split.
  - exact (c111_opposite_partial _ _ _ _ _ _ _ _ _ _ _ _ _ _ _ s (VInt 0) _ 1 [] [[0]; [1]] e_faithful RE Rd T De ltac:(cbn [ob s d_state]; rewrite Nm; lia) Di).
  - destruct (c111_terms _ _ _ _ _ _ _ _ _ _ _ _ _ _ _ s true (VInt 0) _ 1 [] [[0]; [1]] (fun ix => if Nat.eqb (hd 0 ix) 0 then 15 else 10) e_faithful RE Rd T De) as (rel & reso & unc & q & r & u & Ad & G1 & G2 & G3 & U & Q & R & RU).
    { unfold given. cbn [ob s d_state]. rewrite Af. intros ix [<-|[<-|[]]]; (split; [cbn; lia|]); (split; [vm_compute; discriminate|left; vm_compute; reflexivity]). }
    exists rel, reso, unc, q, r, u. split; [exact Ad|]. split; [exact G1|]. split; [exact G2|]. split; [exact G3|].
    unfold given, happened, reads in U, Q, RU. cbn [ob s d_state] in U, Q, RU. rewrite Af in Q. rewrite Ao in U, Q, RU.
    split; [|split].
    + intros Z. apply Q with (ix := [0]) in Z; [|left; reflexivity]. vm_compute in Z. discriminate Z.
    + apply RU. intros ix jx [<-|[<-|[]]] [<-|[<-|[]]] Z; try reflexivity; vm_compute in Z; discriminate Z.
    + intros Z. apply U in Z as [Z|Z]; [specialize (Z [1] (or_intror (or_introl eq_refl)))|specialize (Z [0] (or_introl eq_refl))]; vm_compute in Z; discriminate Z.
Qed.
