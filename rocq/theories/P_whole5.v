(** Values of the integrals of the whole program. *)
From Coq Require Import String ZArith List Lia Bool Arith QArith Qcanon.
From Verif Require Import QcTac QSum Num NdArr Numpy M_common M_integ P_integ P_integ2 P_integ3 M_ens Spec P_boot Store M_state Spec_result M_whole M_whole5 P_whole.
From Verif Require P_rel.
Import ListNotations.
Open Scope string_scope.
Open Scope list_scope.
Open Scope nat_scope.

(** ** Sums *)
Lemma rows_ok k n xs o (vals : nat -> arr num) : (forall j, j < n -> shape (vals j) = shape o) ->
  exists a, rows_value k n xs o (map vals (seq 0 n)) = Ok a /\ shape a = shape o /\
  forall ix, valid (shape o) ix -> get a ix = cell_value false k (Integ (Verifier o (fun _ => Raise NotImplementedError) None) n xs 1 false "") (fun j => get (vals j) ix).
Proof.
  intros Sh. set (i := Integ _ n xs 1 false ""). assert (St : np_stack (shape o) (map vals (seq 0 n)) = Ok (map vals (seq 0 n))).
  { unfold np_stack. replace (forallb _ _) with true; [reflexivity|]. symmetry. apply forallb_forall. intros a I. apply in_map_iff in I. destruct I as (j & <- & I). apply in_seq in I. rewrite Sh by lia. apply list_eqb_refl. }
  unfold rows_value. rewrite St. cbn [bind]. eexists. split; [reflexivity|]. split; [reflexivity|]. intros ix _. cbn [get]. fold i.
  assert (D : forall m, sum_diff i m (map vals (seq 0 n)) ix = diffs n m (fun j => get (vals j) ix)).
  { intros m. unfold sum_diff, diffs. f_equal. apply map_ext_in. intros j Hj. apply in_seq in Hj. change (i_nbins i) with n in *. rewrite !(at_vals i vals) by (change (i_nbins i) with n; lia). reflexivity. }
  destruct k; cbn [cell_value]; rewrite ?D; try reflexivity.
  f_equal. f_equal. apply map_ext_in. intros j Hj. apply in_seq in Hj. change (i_nbins i) with n in *. rewrite !(at_vals i vals) by (change (i_nbins i) with n; lia). reflexivity.
Qed.
(** what the integrals are: sums over a grid *)
Definition grid_value (k : kind) (x g : nat -> Qc) (n : nat) : Qc :=
  (match k with
   | KCrps => trapezium x g (n - 1)
   | KMean => mean_sum x g (n - 1)
   | KVariance => sq_sum x g (n - 1) - mean_sum x g (n - 1) * mean_sum x g (n - 1)
   end)%Qc.
Lemma cell_value_grid k i n (x g : nat -> Qc) c : i_nbins i = n -> (forall j, j < n -> xat i j = Fin (x j)) -> (forall j, j < n -> c j = Fin (g j)) ->
  cell_value false k i c = Fin (grid_value k x g n).
Proof.
  intros En X Hv.
  assert (SUM : forall (p : nat -> num) (q : nat -> Qc), (forall j, j < n - 1 -> p j = Fin (q j)) -> nsum (map p (seq 0 (n - 1))) = Fin (qsumf q (seq 0 (n - 1)))).
  { intros p q H. unfold qsumf. rewrite <- nsum_fin, map_map. f_equal. apply map_ext_in. intros j Hj. apply in_seq in Hj. apply H. lia. }
  unfold grid_value. destruct k; unfold cell_value, diffs; rewrite En.
  - rewrite (SUM _ (fun j => (g (S j) + g j) * (x (S j) - x j))%Qc); [reflexivity|].
    intros j Hj. rewrite !Hv by lia. unfold dx. rewrite !X by lia. reflexivity.
  - rewrite (SUM _ (fun j => (x (S j) + x j) * (g (S j) - g j))%Qc); [reflexivity|].
    intros j Hj. rewrite !Hv by lia. unfold x2. rewrite !X by lia. reflexivity.
  - rewrite (SUM (fun k => nmul (x2 i k) _) (fun j => (x (S j) + x j) * (g (S j) - g j))%Qc); [|intros j Hj; rewrite !Hv by lia; unfold x2; rewrite (X (S j)), (X j) by lia; reflexivity].
    rewrite (SUM _ (fun j => (x (S j) * x (S j) + x j * x j) * (g (S j) - g j))%Qc); [reflexivity|].
    intros j Hj. rewrite !Hv by lia. unfold xsq2. rewrite !X by lia. reflexivity.
Qed.
Lemma linspace_map lo hi n : 2 <= n -> nlinspace (Fin lo) (Fin hi) n = map (fun j => Fin (grid lo hi n j)) (seq 0 n).
Proof.
  intros Hn. apply nth_ext with (d := NaN) (d' := NaN); [rewrite nlinspace_length, map_length, seq_length; reflexivity|]. rewrite nlinspace_length. intros j Hj.
  rewrite linspace_grid by assumption. set (f := fun j => Fin (grid lo hi n j)). rewrite (nth_indep _ NaN (f 0)) by (rewrite map_length, seq_length; exact Hj). rewrite map_nth, seq_nth by exact Hj. reflexivity.
Qed.
Lemma mapM_ok {A B} (F : A -> res B) (P : A -> B -> Prop) l : (forall a, In a l -> exists b, F a = Ok b /\ P a b) -> exists bs, mapM F l = Ok bs /\ Forall2 P l bs.
Proof.
  induction l as [|a l IH]; intros H; [exists []; split; [reflexivity|constructor]|].
  destruct (H a (or_introl eq_refl)) as (b & E & Hb). destruct IH as (bs & Es & Hs); [intros c I; apply H; right; exact I|].
  exists (b :: bs). cbn [mapM]. rewrite E. cbn [bind]. rewrite Es. split; [reflexivity|constructor; assumption].
Qed.

Lemma f2_length {A B} (P : A -> B -> Prop) l r : Forall2 P l r -> length l = length r.
Proof. induction 1; cbn; congruence. Qed.
Lemma Forall2_nth {A B} (P : A -> B -> Prop) l r a b j : Forall2 P l r -> j < length l -> P (nth j l a) (nth j r b).
Proof. intros H. revert j. induction H as [|x y l r Hx Hr IH]; intros j Hj; [cbn in Hj; lia|]. destruct j; [exact Hx|]. apply IH. cbn in Hj. lia. Qed.

Section Whole.
Variable lib : string -> list M_state.val -> res M_state.val.
Variable points : M_state.val -> M_state.val -> M_state.val -> res (list num).
(** the name of the integral of a kind *)
Definition name_of (k : kind) : string := match k with KMean => "integrate_mean" | KVariance => "integrate_variance" | KCrps => "integrate_crps" end.
Lemma integral_value k x lo hi n (F : num -> res M_state.val) (g : list nat -> Qc -> Qc) :
  (forall xs vs, lib (name_of k) [VTuple xs; VTuple vs; a_o x; a_bins x] = rmap val_of (rows_value k n (map (fun x => get (arr_of x) []) xs) (arr_of (a_o x)) (map arr_of vs))) ->
  2 <= n -> points (a_o x) (a_range x) (a_bins x) = Ok (nlinspace (Fin lo) (Fin hi) n) ->
  (forall q, exists v, F (Fin q) = Ok v /\ arr_shape v = arr_shape (a_o x) /\ forall ix, valid (arr_shape (a_o x)) ix -> reads v ix = Fin (g ix q)) ->
  exists v, integral lib points x (name_of k) F = Ok v /\ arr_shape v = arr_shape (a_o x) /\
    forall ix, valid (arr_shape (a_o x)) ix -> reads v ix = Fin (grid_value k (grid lo hi n) (fun j => g ix (grid lo hi n j)) n).
Proof.
  intros L Hn Px HF. set (sh := arr_shape (a_o x)) in *.
  destruct (mapM_ok F (fun a v => arr_shape v = sh /\ forall q, a = Fin q -> forall ix, valid sh ix -> reads v ix = Fin (g ix q)) (nlinspace (Fin lo) (Fin hi) n)) as (vs & Es & Hs).
  { intros a I. rewrite linspace_map in I by exact Hn. apply in_map_iff in I. destruct I as (j & <- & _). destruct (HF (grid lo hi n j)) as (v & E & Sv & Gv). exists v. split; [exact E|]. split; [exact Sv|].
    intros q Q. injection Q as <-. exact Gv. }
  assert (Ls : length vs = n) by (rewrite <- (f2_length _ _ _ Hs); apply nlinspace_length).
  set (vals := fun j => arr_of (nth j vs VNone)).
  assert (Ev : map arr_of vs = map vals (seq 0 n)).
  { apply nth_ext with (d := arr_of VNone) (d' := vals 0); [rewrite !map_length, seq_length; exact Ls|]. rewrite map_length, Ls. intros j Hj. rewrite map_nth. rewrite map_nth, seq_nth by exact Hj. reflexivity. }
  assert (Hv : forall j, j < n -> shape (vals j) = shape (arr_of (a_o x)) /\ forall ix, valid sh ix -> get (vals j) ix = Fin (g ix (grid lo hi n j))).
  { intros j Hj. pose proof (Forall2_nth _ _ _ NaN VNone j Hs ltac:(rewrite nlinspace_length; exact Hj)) as [S1 G1]. rewrite linspace_grid in G1 by assumption.
    split; [unfold vals; rewrite !arr_shape_of; exact S1|]. exact (G1 _ eq_refl). }
  destruct (rows_ok k n (nlinspace (Fin lo) (Fin hi) n) (arr_of (a_o x)) vals) as (a & Ea & Sa & Ga); [intros j Hj; apply Hv, Hj|]. rewrite arr_shape_of in Sa, Ga.
  exists (val_of a). split; [|split; [exact Sa|]].
  - unfold integral. rewrite Px. cbn [bind]. rewrite Es. cbn [bind]. rewrite L, Ev. rewrite map_map. cbn [arr_of afull get]. rewrite map_id, Ea. reflexivity.
  - intros ix V. rewrite reads_val by (rewrite Sa; exact V). rewrite (Ga ix V). apply cell_value_grid; [reflexivity| |].
    + intros j Hj. unfold xat. cbn [i_x]. apply linspace_grid; assumption.
    + intros j Hj. apply (proj2 (Hv j Hj)), V.
Qed.
End Whole.

(** ** The sums in words *)
From Verif Require Import Spec_whole5 Spec_whole P_dist.
Lemma total_qsum l : total l = qsum l.
Proof. induction l as [|x l IH]; [reflexivity|]. cbn [total fold_right qsum]. fold (total l). rewrite IH. reflexivity. Qed.
Lemma knot_grid lo hi n j : knot lo hi n j = grid lo hi n j.
Proof. reflexivity. Qed.
Lemma two_neq : qz 2 <> 0%Qc. Proof. intros H. apply (f_equal this) in H. vm_compute in H. discriminate H. Qed.
Lemma mean_sum_words x n F : mean_sum x (fun j => F (x j)) (n - 1) = stepwise_mean x n F.
Proof.
  unfold stepwise_mean, weighted, over_intervals, mean_sum. rewrite total_qsum. rewrite <- qsumf_scale. apply qsumf_ext. intros j _. field. exact two_neq.
Qed.
Lemma variance_words x n F : (sq_sum x (fun j => F (x j)) (n - 1) - mean_sum x (fun j => F (x j)) (n - 1) * mean_sum x (fun j => F (x j)) (n - 1))%Qc = stepwise_variance x n F.
Proof.
  unfold stepwise_variance. rewrite mean_sum_words. f_equal. unfold weighted, over_intervals, sq_sum. rewrite total_qsum. rewrite <- qsumf_scale. apply qsumf_ext. intros j _. field. exact two_neq.
Qed.
Lemma crps_words x n F y : trapezium x (fun j => step_distance F y (x j)) (n - 1) = stepwise_crps x n F y.
Proof.
  unfold stepwise_crps, over_intervals, trapezium. rewrite total_qsum. rewrite <- qsumf_scale. apply qsumf_ext. intros j _. field. exact two_neq.
Qed.
Lemma points_ready m other x lo hi n : ends m x lo hi -> count_of (a_bins x) = Some n ->
  points_with m other (a_o x) (a_range x) (a_bins x) = Ok (nlinspace (Fin lo) (Fin hi) n).
Proof.
  intros H N. unfold points_with. rewrite N. destruct H as [a b R Ra Rb|least most jl jm R Hm Vl El Vm Em All -> ->].
  - assert (E : range_of (a_range x) = Some (Some (Fin lo, Fin hi))) by (destruct R as [-> | ->]; cbn [range_of]; rewrite Ra, Rb; reflexivity). rewrite E. reflexivity.
  - rewrite R. cbn [range_of seq_x]. assert (Z.ltb 0 m = true) as -> by (apply Z.ltb_lt, Hm). cbn [passert bind].
    set (l := map (fun ix => match reads (a_o x) ix with Fin q => q | _ => 0%Qc end) (indices (arr_shape (a_o x)))).
    assert (Er : ravel (arr_of (a_o x)) = map Fin l).
    { unfold ravel, l. rewrite map_map, arr_shape_of. apply map_ext_in. intros ix I. apply in_indices in I. destruct (All ix I) as (y & E & _). change (get (arr_of (a_o x)) ix) with (reads (a_o x) ix). rewrite E. reflexivity. }
    assert (In1 : forall ix y, valid (arr_shape (a_o x)) ix -> reads (a_o x) ix = Fin y -> In y l).
    { intros ix y V E. unfold l. apply in_map_iff. exists ix. rewrite E. split; [reflexivity|]. apply in_indices, V. }
    assert (In2 : forall y, In y l -> (least <= y)%Qc /\ (y <= most)%Qc).
    { intros y I. unfold l in I. apply in_map_iff in I. destruct I as (ix & <- & I). apply in_indices in I. destruct (All ix I) as (z & -> & B). exact B. }
    pose proof (In1 _ _ Vl El) as Il. pose proof (In1 _ _ Vm Em) as Im.
    destruct (spread_cell false l) as (hi & lo & E1 & E2 & I1 & I2 & B); [intros Z; rewrite Z in Il; destruct Il|].
    rewrite Er, E1, E2. cbn [bind]. assert (lo = least) as -> by (apply Qcle_antisym; [apply B, Il|apply In2, I2]). assert (hi = most) as -> by (apply Qcle_antisym; [apply In2, I1|apply B, Im]).
    cbn [nsub nopp nadd nmul]. unfold Qcminus. reflexivity.
Qed.
