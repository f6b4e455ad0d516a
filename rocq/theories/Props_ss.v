(** Spread-skill diagram: C32, C33, C34. *)
From Coq Require Import ZArith List Bool Arith Lia QArith Qcanon Reals Lra Sorting.Permutation Sorting.Sorted.
From Verif Require Import QcTac QSum Num NdArr Numpy M_common NdAxes NdMove M_boot Spec RTier P_boot M_rel Spec_rel P_rel M_ss Spec_ss P_ss.
Import ListNotations.
Open Scope nat_scope.

Lemma pos_shape (v : arr num) nd ns N : nd = length (shape v) -> prod (shape v) = N * prod (kept nd ns (shape v)) -> prod (kept nd ns (shape v)) <> 0 ->
  N = prod (sel (mask_of nd ns) (shape v)).
Proof.
  intros -> HN HK. rewrite kept_unsel in * by reflexivity. rewrite (prod_sel_unsel (mask_of (length (shape v)) ns)) in HN by apply mask_of_length. nia.
Qed.
(** * C32.  N is the number of samples of each group. *)
Theorem c32_pairs_in_ordered_bins : forall argsort v e nb ax ns N, (forall l, argsorts l (argsort l)) -> shape e = shape v ->
  axes_are (length (shape v)) ax ns -> same_sign ax ->
  prod (kept (length (shape v)) ns (shape v)) <> 0 -> prod (shape v) = N * prod (kept (length (shape v)) ns (shape v)) -> 1 <= nb <= N ->
  exists s, ss_create_split argsort v e nb ax = Ok s /\ ss_keep s = kept (length (shape v)) ns (shape v) /\
  forall k c L, nth_error (indices (ss_keep s)) c = Some k -> Cells (shape v) ns k L ->
  exists Bs, ordered_bins (fun x y => np_le (get v x) (get v y)) L nb Bs /\
    map (fun b => bin_pairs b c) (ss_bins s) = map (map (fun ix => (get v ix, get e ix))) Bs.
Proof.
  intros argsort v e nb ax ns N Harg Hsh Hax Hss HK HN Hnb. set (nd := length (shape v)) in *.
  destruct (same_sign_spelling _ _ _ Hax Hss) as (ns' & P & Hsp).
  pose proof (pos_shape v nd ns N eq_refl HN HK) as EN. rewrite (mask_of_perm nd ns ns' P) in EN.
  rewrite (kept_perm nd ns ns' _ P) in *. assert (EK : kept nd ns' (shape v) = unsel (mask_of nd ns') (shape v)) by (apply kept_unsel; reflexivity). rewrite EK in *.
  destruct (ss_split_ok argsort v e nb ax ns' Harg Hsh Hsp HK) as (s & Es & Ks & Ls & Ts & H); [fold nd; rewrite <- EN; lia|].
  exists s. split; [exact Es|]. split; [exact Ks|]. intros k c L Hk HL. rewrite Ks in Hk. fold nd in Hk.
  assert (Hv : valid (unsel (mask_of nd ns') (shape v)) k) by (apply in_indices; eapply nth_error_In; exact Hk).
  assert (Hc : flat (unsel (mask_of nd ns') (shape v)) k = c).
  { pose proof (nth_indices _ k [] Hv) as E1. apply nth_error_nth with (d := []) in Hk as E2. rewrite <- E2 in E1 at 2.
    apply (proj1 (NoDup_nth _ []) (NoDup_indices (unsel (mask_of nd ns') (shape v)))); [rewrite indices_length; apply flat_lt, Hv| |].
    - apply nth_error_Some. rewrite Hk. discriminate.
    - exact E1. }
  destruct (H k Hv) as (SL & PS & SS & E & LS). fold nd in PS, E, LS. rewrite Hc in E. exists (chunks (split_sizes N nb) SL). rewrite <- EN in E, LS.
  split; [|exact E]. rewrite <- LS at 1. apply chunks_ordered; [lia| |exact SS]. rewrite PS. unfold nd.
  rewrite <- (mask_of_perm _ _ _ P). apply Cells_perm, HL.
Qed.
Print Assumptions c32_pairs_in_ordered_bins.
(** Other numbers of bins, and arrays of different shapes, are refused: with the theorem above, the call succeeds
    exactly for 1 <= nbins <= N and equal shapes. *)
Theorem c32_refuses : forall argsort v e nb ax ns N,
  axes_are (length (shape v)) ax ns -> same_sign ax ->
  prod (kept (length (shape v)) ns (shape v)) <> 0 -> prod (shape v) = N * prod (kept (length (shape v)) ns (shape v)) ->
  match ss_create_split argsort v e nb ax with
  | Ok _ => shape e = shape v /\ 1 <= nb <= N
  | Raise x => (x = AssertionError /\ (shape e <> shape v \/ N < nb)) \/ (x = ValueError /\ nb = 0)
  end.
Proof.
  intros argsort v e nb ax ns N Hax Hss HK HN. set (nd := length (shape v)) in *.
  destruct (same_sign_spelling _ _ _ Hax Hss) as (ns' & P & Hsp).
  pose proof (pos_shape v nd ns N eq_refl HN HK) as EN. rewrite (mask_of_perm nd ns ns' P) in EN.
  rewrite (kept_perm nd ns ns' _ P) in *. assert (EK : kept nd ns' (shape v) = unsel (mask_of nd ns') (shape v)) by (apply kept_unsel; reflexivity). rewrite EK in *.
  unfold ss_create_split. fold nd. fold (loop_axes nd ax).
  destruct (list_eqb (shape v) (shape e)) eqn:Q; cbn [passert bind].
  2: { left. split; [reflexivity|]. left. intro E. rewrite E, list_eqb_refl in Q. discriminate. }
  apply list_eqb_spec in Q. assert (Hsp' : sorted_spelling (length (shape e)) ax ns') by (rewrite <- Q; exact Hsp).
  destruct (moved_columns v ax ns' Hsp) as (b & Eb & Sb & Kb & _). destruct (moved_columns e ax ns' Hsp') as (c & Ec & _).
  rewrite <- Q in Ec. fold nd in Eb, Sb, Kb, Ec. rewrite Eb, Ec. cbn [bind fst]. rewrite Kb.
  assert (HD : prod (shape b) / prod (unsel (mask_of nd ns') (shape v)) = N) by (rewrite Sb, prod_app, EN; apply Nat.div_mul, HK).
  destruct (prod (unsel (mask_of nd ns') (shape v))) as [|K] eqn:PK; [contradiction|]. rewrite HD.
  destruct (Nat.leb_spec nb N) as [L|L]; cbn [passert bind]; [|left; auto].
  unfold array_split. destruct nb as [|nb']; cbn [bind]; [right; auto|]. split; [auto|lia].
Qed.
Print Assumptions c32_refuses.

(** a correct argsort, for the examples *)
Fixpoint ins_by (l : list num) (i : nat) (r : list nat) : list nat :=
  match r with
  | [] => [i]
  | j :: r' => if is_nan (nth j l NaN) || nle (nth i l NaN) (nth j l NaN) then i :: j :: r' else j :: ins_by l i r'
  end.
Definition argsort_ex (l : list num) : list nat := fold_right (ins_by l) [] (seq 0 (length l)).
Lemma nle_total a b : is_nan b = false -> nle a b = false -> np_le b a.
Proof.
  intros Hb H. destruct (is_nan a) eqn:Ea; [left; destruct a; try discriminate Ea; reflexivity|].
  right. destruct a, b; cbn in *; try discriminate; try reflexivity. apply qleb_le. apply Qclt_le_weak. destruct (Qclt_le_dec q0 q) as [L|L]; [exact L|]. apply qleb_le in L. congruence.
Qed.
Lemma np_le_trans a b c : np_le a b -> np_le b c -> np_le a c.
Proof.
  intros [->|H1] [->|H2]; unfold np_le; auto.
  - destruct c; cbn in H2; try discriminate.
  - right. destruct a, b, c; cbn in *; try discriminate; try reflexivity. apply qleb_le in H1, H2. apply qleb_le. eapply Qcle_trans; eassumption.
Qed.
Lemma ins_by_perm l i r : Permutation (ins_by l i r) (i :: r).
Proof. induction r as [|j r IH]; [reflexivity|]. cbn [ins_by]. destruct (_ || _); [reflexivity|]. rewrite IH. apply perm_swap. Qed.
Lemma ins_by_sorted l i r : StronglySorted np_le (map (fun i => nth i l NaN) r) -> StronglySorted np_le (map (fun i => nth i l NaN) (ins_by l i r)).
Proof.
  induction r as [|j r IH]; intros H; [constructor; constructor|]. cbn [ins_by map] in *. apply StronglySorted_inv in H as [H1 H2].
  destruct (is_nan (nth j l NaN) || nle (nth i l NaN) (nth j l NaN)) eqn:E.
  - assert (N : np_le (nth i l NaN) (nth j l NaN)).
    { apply orb_prop in E as [E|E]; [left; destruct (nth j l NaN); try discriminate E; reflexivity|right; exact E]. }
    cbn [map]. constructor; [constructor; assumption|]. constructor; [exact N|]. revert H2. apply Forall_impl. intros x. apply np_le_trans, N.
  - cbn [map]. apply orb_false_elim in E as [E1 E2]. constructor; [apply IH, H1|].
    assert (X : forall y, In y (map (fun i => nth i l NaN) (ins_by l i r)) -> y = nth i l NaN \/ In y (map (fun i => nth i l NaN) r)).
    { intros y Hy. eapply Permutation_in in Hy; [|apply Permutation_map, ins_by_perm]. destruct Hy as [<-|Hy]; auto. }
    apply Forall_forall. intros y Hy. apply X in Hy as [->|Hy]; [apply nle_total; assumption|rewrite Forall_forall in H2; apply H2, Hy].
Qed.
Lemma argsort_ex_ok l : argsorts l (argsort_ex l).
Proof.
  unfold argsort_ex, argsorts. generalize (seq 0 (length l)). intros q. induction q as [|i q [IH1 IH2]]; [split; constructor|]. cbn [fold_right]. split.
  - rewrite ins_by_perm. constructor. exact IH1.
  - apply ins_by_sorted, IH2.
Qed.
Definition iv (z : Z) : num := Fin (qz z).
Arguments iv _%Z.
(** an array with two columns of five samples, ties, an infinite and a missing variance *)
Definition v_ex : arr num := of_list NaN [5; 2] [iv 3; iv 1; iv 1; NaN; iv 2; PInf; iv 1; iv 7; iv 0; iv 1].
Definition e_ex : arr num := of_list NaN [5; 2] [iv 30; iv 11; iv 10; iv 4; iv 20; iv 5; iv 12; iv 70; iv 1; NaN].
Example c32_nonvacuous : exists s, ss_create_split argsort_ex v_ex e_ex 3 (Some [0%Z]) = Ok s /\
  map (fun b => bin_pairs b 0) (ss_bins s) = [[(iv 0, iv 1); (iv 1, iv 10)]; [(iv 1, iv 12); (iv 2, iv 20)]; [(iv 3, iv 30)]].
Proof.
  assert (X : match ss_create_split argsort_ex v_ex e_ex 3 (Some [0%Z]) with Ok s => map (fun b => bin_pairs b 0) (ss_bins s) | Raise _ => [] end =
    [[(iv 0, iv 1); (iv 1, iv 10)]; [(iv 1, iv 12); (iv 2, iv 20)]; [(iv 3, iv 30)]]) by (vm_compute; reflexivity).
  destruct (ss_create_split argsort_ex v_ex e_ex 3 (Some [0%Z])) as [s|]; [|discriminate X]. exists s. split; [reflexivity|exact X].
Qed.

(** Axis lists mixing signs regroup the data: not the samples of the requested group are binned. *)
Theorem c32_mixed_signs_refuted : ~ (forall argsort v e nb ax ns N, (forall l, argsorts l (argsort l)) -> shape e = shape v ->
  axes_are (length (shape v)) ax ns ->
  prod (kept (length (shape v)) ns (shape v)) <> 0 -> prod (shape v) = N * prod (kept (length (shape v)) ns (shape v)) -> 1 <= nb <= N ->
  exists s, ss_create_split argsort v e nb ax = Ok s /\
  forall k c L, nth_error (indices (kept (length (shape v)) ns (shape v))) c = Some k -> Cells (shape v) ns k L ->
  exists Bs, ordered_bins (fun x y => np_le (get v x) (get v y)) L nb Bs /\
    map (fun b => bin_pairs b c) (ss_bins s) = map (map (fun ix => (get v ix, get e ix))) Bs).
Proof.
  intros H. set (v := of_list NaN [2; 2; 2] [iv 0; iv 0; iv 0; iv 0; iv 1; iv 1; iv 1; iv 1]).
  destruct (H argsort_ex v v 1 (Some [1%Z; (-1)%Z]) [1; 2] 4 argsort_ex_ok eq_refl) as (s & Es & Hs).
  { split; [|repeat constructor; cbn; intuition discriminate]. constructor; [split; [cbn; lia|left; reflexivity]|]. constructor; [split; [cbn; lia|right; reflexivity]|constructor]. }
  { discriminate. } { reflexivity. } { lia. }
  specialize (Hs [0] 0 (group (shape v) (mask_of 3 [1; 2]) [0]) eq_refl (group_Cells (shape v) [1; 2] [0])). destruct Hs as (Bs & (L1 & PB & _) & E).
  assert (X : match ss_create_split argsort_ex v v 1 (Some [1%Z; (-1)%Z]) with Ok s => map (fun b => bin_pairs b 0) (ss_bins s) | Raise _ => [] end =
    [[(iv 0, iv 0); (iv 0, iv 0); (iv 1, iv 1); (iv 1, iv 1)]]) by (vm_compute; reflexivity).
  rewrite Es in X. rewrite E in X. destruct Bs as [|B [|B' Bs]]; try discriminate L1. apply (f_equal (hd [])) in X. cbn [map hd] in X.
  assert (I : In (iv 1, iv 1) (map (fun ix => (get v ix, get v ix)) B)) by (rewrite X; right; right; left; reflexivity).
  apply in_map_iff in I as (ix & Eix & Hix). cbn [concat] in PB. rewrite app_nil_r in PB. apply (Permutation_in _ PB) in Hix.
  vm_compute in Hix. repeat (destruct Hix as [<-|Hix]; [vm_compute in Eix; discriminate Eix|]). destruct Hix.
Qed.
Print Assumptions c32_mixed_signs_refuted.

(** * C33 *)
Lemma q2r_qn n : q2r (qn n) = INR n.
Proof.
  induction n as [|n IH]; [rewrite qn_0; apply q2r_0|]. rewrite qn_S, q2r_plus, q2r_1, S_INR, IH. lra.
Qed.
Lemma q2r_sum l : q2r (fold_right Qcplus 0%Qc l) = fold_right Rplus 0%R (map q2r l).
Proof. induction l as [|x l IH]; [apply q2r_0|]. cbn [fold_right map]. rewrite q2r_plus, IH. reflexivity. Qed.
Lemma mean_sum l : l <> [] -> (qn (length l) * mean_of l)%Qc = fold_right Qcplus 0%Qc l.
Proof. exact (qmean_sum l). Qed.
Lemma sum_app l1 l2 : fold_right Qcplus 0%Qc (l1 ++ l2) = (fold_right Qcplus 0 l1 + fold_right Qcplus 0 l2)%Qc.
Proof. induction l1 as [|x l1 IH]; cbn [app fold_right]; [ring|]. rewrite IH. ring. Qed.
Lemma sum_perm l1 l2 : Permutation l1 l2 -> fold_right Qcplus 0%Qc l1 = fold_right Qcplus 0%Qc l2.
Proof. induction 1; cbn [fold_right]; try congruence. ring. Qed.
(** weighting the squared roots of the bin means by the bin sizes gives back the overall sum *)
Lemma weighted_roots {A} (p : A -> Qc) (Bs : list (list A)) L (x : nat -> R) : Permutation (concat Bs) L -> (forall B, In B Bs -> B <> []) -> L <> [] ->
  (forall B, In B Bs -> (0 <= mean_of (map p B))%Qc) -> (forall b, b < length Bs -> x b = sqrt (q2r (mean_of (map p (nth b Bs []))))) ->
  fold_right Rplus 0%R (map (fun b => (INR (length (nth b Bs [])) * (x b * x b))%R) (seq 0 (length Bs))) = (INR (length L) * q2r (mean_of (map p L)))%R.
Proof.
  intros HP Hne HL H0 Hx.
  transitivity (fold_right Rplus 0%R (map q2r (map (fun B => (qn (length B) * mean_of (map p B))%Qc) Bs))).
  - f_equal. rewrite map_map. transitivity (map (fun B => q2r (qn (length B) * mean_of (map p B))) (map (fun i => nth i Bs []) (seq 0 (length Bs)))); [|rewrite map_seq_nth; reflexivity].
    rewrite map_map. apply map_ext_in. intros b Hb. apply in_seq in Hb. cbn in Hb.
    rewrite q2r_mult, q2r_qn. f_equal. rewrite Hx by lia. apply sqrt_sqrt. rewrite <- q2r_0. apply q2r_le, H0, nth_In. lia.
  - rewrite <- q2r_sum. rewrite <- q2r_qn, <- q2r_mult. f_equal. rewrite <- (map_length p L), mean_sum by (destruct L; [contradiction|discriminate]).
    rewrite <- (sum_perm _ _ (Permutation_map p HP)). clear -Hne. induction Bs as [|B Bs IH]; [reflexivity|]. cbn [map fold_right concat].
    rewrite IH by (intros B' HB'; apply Hne; right; exact HB'). rewrite map_app, sum_app. f_equal. rewrite <- (map_length p B). apply mean_sum.
    specialize (Hne B (or_introl eq_refl)). destruct B; [contradiction|discriminate].
Qed.
Lemma bin_means_mono {A} (p : A -> Qc) B B' : B <> [] -> B' <> [] -> (forall x y, In x B -> In y B' -> (p x <= p y)%Qc) -> (mean_of (map p B) <= mean_of (map p B'))%Qc.
Proof.
  intros N N' H. rewrite <- !qmean_mean_of. apply qmean_ge; [destruct B'; [contradiction|discriminate]|]. intros y Hy. apply in_map_iff in Hy as (b & <- & Hb).
  apply qmean_le; [destruct B; [contradiction|discriminate]|]. intros x Hx. apply in_map_iff in Hx as (a & <- & Ha). apply H; assumption.
Qed.
Lemma nth_bins (bins : list (arr num)) c (g h : list nat -> num) (Bs : list (list (list nat))) j :
  map (fun b => bin_pairs b c) bins = map (map (fun ix => (g ix, h ix))) Bs -> j < length bins ->
  bin_pairs (nth j bins some_bin) c = map (fun ix => (g ix, h ix)) (nth j Bs []).
Proof.
  intros E Hj. assert (Hl : length Bs = length bins) by (apply (f_equal (@length _)) in E; rewrite !map_length in E; auto).
  apply (f_equal (fun l => nth j l (bin_pairs some_bin c))) in E. rewrite (map_nth (fun b => bin_pairs b c)) in E. rewrite E.
  rewrite (nth_indep _ _ (map (fun ix => (g ix, h ix)) [])) by (rewrite map_length; lia). apply (map_nth (map (fun ix => (g ix, h ix)))).
Qed.
(** p and y are the variances and squared errors, finite and not negative *)
Theorem c33_curve : forall argsort skip v e nb ax ns N (p y : list nat -> Qc), (forall l, argsorts l (argsort l)) -> shape e = shape v ->
  axes_are (length (shape v)) ax ns -> same_sign ax ->
  prod (kept (length (shape v)) ns (shape v)) <> 0 -> prod (shape v) = N * prod (kept (length (shape v)) ns (shape v)) -> 1 <= nb <= N ->
  (forall ix, Forall2 lt ix (shape v) -> get v ix = Fin (p ix) /\ (0 <= p ix)%Qc /\ get e ix = Fin (y ix) /\ (0 <= y ix)%Qc) ->
  exists sp rm, binned_spread_skill argsort skip v e nb ax = Ok (sp, rm) /\
  shape sp = kept (length (shape v)) ns (shape v) ++ [nb] /\ shape rm = kept (length (shape v)) ns (shape v) ++ [nb] /\
  forall k L, Forall2 lt k (kept (length (shape v)) ns (shape v)) -> Cells (shape v) ns k L ->
  exists Bs s r, ordered_bins (fun x y => (p x <= p y)%Qc) L nb Bs /\
    (forall b, b < nb -> get sp (k ++ [b]) = RFin (s b) /\ get rm (k ++ [b]) = RFin (r b) /\
       s b = sqrt (q2r (mean_of (map p (nth b Bs [])))) /\ r b = sqrt (q2r (mean_of (map y (nth b Bs []))))) /\
    (forall b b', b <= b' < nb -> (s b <= s b')%R) /\
    fold_right Rplus 0%R (map (fun b => INR (length (nth b Bs [])) * (s b * s b))%R (seq 0 nb)) = (INR (length L) * q2r (mean_of (map p L)))%R /\
    fold_right Rplus 0%R (map (fun b => INR (length (nth b Bs [])) * (r b * r b))%R (seq 0 nb)) = (INR (length L) * q2r (mean_of (map y L)))%R.
Proof.
  intros argsort skip v e nb ax ns N p y Harg Hsh Hax Hss HK HN Hnb Hd.
  destruct (c32_pairs_in_ordered_bins argsort v e nb ax ns N Harg Hsh Hax Hss HK HN Hnb) as (s & Es & Ks & H).
  set (keep := kept (length (shape v)) ns (shape v)) in *.
  assert (Hshapes : (forall b, In b (ss_bins s) -> nth 2 (shape b) 0 = prod keep) /\ length (ss_bins s) = nb).
  { destruct (same_sign_spelling _ _ _ Hax Hss) as (ns' & P & Hsp). pose proof (pos_shape v _ ns N eq_refl HN HK) as EN. rewrite (mask_of_perm _ ns ns' P) in EN.
    unfold keep in HK |- *. rewrite (kept_perm _ ns ns' _ P) in HK |- *. rewrite kept_unsel in HK |- * by reflexivity.
    destruct (ss_split_ok argsort v e nb ax ns' Harg Hsh Hsp HK) as (s' & Es' & _ & L' & T' & _); [rewrite <- EN; lia|]. rewrite Es in Es'. injection Es' as <-. auto. }
  destruct Hshapes as [H2 Hlb].
  destruct (ss_no_boot_ok skip (ss_bins s) keep) as (sp & rm & Eo & Ssp & Srm & G); [intros E; rewrite E in Hlb; cbn in Hlb; lia|exact H2|].
  exists sp, rm. unfold binned_spread_skill. rewrite Es. cbn [bind]. rewrite Ks. split; [exact Eo|]. rewrite Hlb in *. split; [exact Ssp|]. split; [exact Srm|].
  intros k L Hk HL. destruct (H k (flat keep k) L) as (Bs & HB & EB).
  { rewrite Ks. rewrite (nth_error_nth' _ []) by (rewrite indices_length; apply flat_lt, Hk). rewrite nth_indices by exact Hk. reflexivity. }
  { exact HL. }
  destruct HB as (LB & PB & NB & SB & OB).
  assert (InL : forall b x, In x (nth b Bs []) -> In x L).
  { intros b x Hx. apply (Permutation_in _ PB). apply in_concat. exists (nth b Bs []). split; [|exact Hx]. destruct (Nat.lt_ge_cases b (length Bs)) as [Hl|Hg]; [apply nth_In, Hl|].
    rewrite nth_overflow in Hx by exact Hg. destruct Hx. }
  assert (InD : forall b x, In x (nth b Bs []) -> get v x = Fin (p x) /\ (0 <= p x)%Qc /\ get e x = Fin (y x) /\ (0 <= y x)%Qc) by (intros b x Hx; apply Hd; apply (proj2 HL), (InL b), Hx).
  assert (Hne : L <> []).
  { intros ->. destruct Bs as [|B Bs]; [cbn in LB; lia|]. specialize (NB B (or_introl eq_refl)). cbn [concat] in PB. apply Permutation_sym, Permutation_nil, app_eq_nil in PB. tauto. }
  assert (Nn : forall b, b < nb -> nth b Bs [] <> []) by (intros b Hb; apply NB, nth_In; lia).
  assert (M0 : forall (f : list nat -> Qc) b, b < nb -> (forall x, In x (nth b Bs []) -> (0 <= f x)%Qc) -> (0 <= mean_of (map f (nth b Bs [])))%Qc).
  { intros f b Hb Hf. rewrite <- qmean_mean_of. apply qmean_ge; [specialize (Nn b Hb); destruct (nth b Bs []); [contradiction|discriminate]|].
    intros z Hz. apply in_map_iff in Hz as (x & <- & Hx). apply Hf, Hx. }
  assert (Root : forall (f : list nat -> Qc) (g : list nat -> num) b, b < nb -> (forall x, In x (nth b Bs []) -> g x = Fin (f x) /\ (0 <= f x)%Qc) ->
     nsqrt ((if skip then nanmean else nmean) (map g (nth b Bs []))) = RFin (sqrt (q2r (mean_of (map f (nth b Bs [])))))).
  { intros f g b Hb Hf. rewrite (map_ext_in g (fun x => Fin (f x))) by (intros x Hx; apply Hf, Hx). rewrite <- (map_map f Fin).
    assert (Nf : map f (nth b Bs []) <> []) by (specialize (Nn b Hb); destruct (nth b Bs []); [contradiction|discriminate]).
    assert (Em : (if skip then nanmean else nmean) (map Fin (map f (nth b Bs []))) = Fin (mean_of (map f (nth b Bs [])))).
    { rewrite <- qmean_mean_of. destruct skip; [apply nanmean_fin|apply nmean_fin]; exact Nf. }
    rewrite Em. cbn [nsqrt]. destruct (qltb (mean_of (map f (nth b Bs []))) 0) eqn:Q; [|reflexivity]. apply qltb_lt in Q.
    pose proof (M0 f b Hb (fun x Hx => proj2 (Hf x Hx))) as Hz. exfalso. revert Hz. apply Qclt_not_le. exact Q. }
  exists Bs, (fun b => sqrt (q2r (mean_of (map p (nth b Bs []))))), (fun b => sqrt (q2r (mean_of (map y (nth b Bs []))))).
  assert (OB' : forall i j x0 y0, i < j < nb -> In x0 (nth i Bs []) -> In y0 (nth j Bs []) -> (p x0 <= p y0)%Qc).
  { intros i j x0 y0 Hij Hx Hy. pose proof (OB i j x0 y0 Hij Hx Hy) as O. destruct (InD i x0 Hx) as (Ex & _). destruct (InD j y0 Hy) as (Ey & _). rewrite Ex, Ey in O.
    destruct O as [O|O]; [discriminate|apply qleb_le, O]. }
  split; [|split; [|split; [|split]]].
  - split; [exact LB|]. split; [exact PB|]. split; [exact NB|]. split; [exact SB|exact OB'].
  - intros b Hb. destruct (G k b Hk Hb) as [G1 G2]. pose proof (nth_bins _ _ _ _ _ b EB ltac:(lia)) as Pb. destruct (bin_cols _ _ _ _ _ Pb) as (C0 & C1 & _).
    rewrite G1, G2, C0, C1. split; [|split; [|auto]]; apply Root; auto; intros x Hx; destruct (InD b x Hx) as (? & ? & ? & ?); auto.
  - intros b b' Hb. apply sqrt_le_1_alt, q2r_le. destruct (Nat.eq_dec b b') as [->|Hn]; [apply Qcle_refl|].
    apply bin_means_mono; [apply Nn; lia|apply Nn; lia|]. intros x z Hx Hz. apply (OB' b b'); auto. lia.
  - rewrite <- LB. apply weighted_roots; auto. intros B HB. apply (In_nth _ _ []) in HB as (b & Hb & <-). apply M0; [lia|]. intros x Hx. apply (InD b x Hx).
  - rewrite <- LB. apply weighted_roots; auto. intros B HB. apply (In_nth _ _ []) in HB as (b & Hb & <-). apply M0; [lia|]. intros x Hx. apply (InD b x Hx).
Qed.
Print Assumptions c33_curve.
Definition w_ex : arr num := of_list NaN [5] [iv 3; iv 1; iv 4; iv 1; iv 5].
Definition f_ex : arr num := of_list NaN [5] [iv 9; iv 2; iv 6; iv 5; iv 0].
(** two bins: variances 1, 1, 3 and 4, 5 *)
Example c33_nonvacuous : exists sp rm, binned_spread_skill argsort_ex false w_ex f_ex 2 None = Ok (sp, rm) /\ shape sp = [2] /\
  get sp [0] = RFin (sqrt (q2r (qz 5 / qz 3)%Qc)) /\ get sp [1] = RFin (sqrt (q2r (qz 9 / qz 2)%Qc)).
Proof.
  destruct (c33_curve argsort_ex false w_ex f_ex 2 None [0] 5 (fun ix => val (get w_ex ix)) (fun ix => val (get f_ex ix)) argsort_ex_ok eq_refl eq_refl I) as (sp & rm & E & S & _ & H).
  { discriminate. } { reflexivity. } { lia. }
  { intros ix Hv. inversion Hv as [|i ? r ? Hi Hr]; subst. inversion Hr; subst. do 5 (destruct i as [|i]; [repeat split; vm_compute; discriminate|]). lia. }
  exists sp, rm. split; [exact E|]. split; [exact S|].
  assert (X : match ss_create_split argsort_ex w_ex f_ex 2 None with Ok s => map (fun b => bin_col b 0 0) (ss_bins s) | Raise _ => [] end = [[iv 1; iv 1; iv 3]; [iv 4; iv 5]]) by (vm_compute; reflexivity).
  unfold binned_spread_skill in E. destruct (ss_create_split argsort_ex w_ex f_ex 2 None) as [s|] eqn:Es; [|discriminate E]. cbn [bind] in E.
  destruct (c32_pairs_in_ordered_bins argsort_ex w_ex f_ex 2 None [0] 5 argsort_ex_ok eq_refl eq_refl I ltac:(discriminate) eq_refl ltac:(lia)) as (s' & Es' & Ks & _).
  rewrite Es in Es'. injection Es' as <-. rewrite Ks in E.
  assert (L2 : length (ss_bins s) = 2) by (apply (f_equal (@length _)) in X; rewrite map_length in X; exact X).
  destruct (ss_no_boot_ok false (ss_bins s) []) as (sp' & rm' & E' & _ & _ & G).
  { intros Q. rewrite Q in L2. discriminate. }
  { destruct (ss_split_ok argsort_ex w_ex f_ex 2 None [0] argsort_ex_ok eq_refl) as (s2 & Es2 & _ & _ & T & _).
    - split; [vm_compute; repeat constructor|repeat constructor].
    - discriminate.
    - vm_compute. lia.
    - rewrite Es in Es2. injection Es2 as <-. exact T. }
  change (kept (length (shape w_ex)) [0] (shape w_ex)) with (@nil nat) in E. rewrite E in E'. injection E' as <- <-. rewrite L2 in G.
  destruct (ss_bins s) as [|b0 [|b1 [|? ?]]]; try discriminate L2. cbn [map] in X. injection X as X0 X1.
  destruct (G [] 0) as [G0 _]; [constructor|lia|]. destruct (G [] 1) as [G1 _]; [constructor|lia|]. cbn [nth app flat] in G0, G1. rewrite X0 in G0. rewrite X1 in G1.
  rewrite G0, G1. unfold iv. split.
  - replace (nmean [Fin (qz 1); Fin (qz 1); Fin (qz 3)]) with (Fin (qz 5 / qz 3)) by qcomp. reflexivity.
  - replace (nmean [Fin (qz 4); Fin (qz 5)]) with (Fin (qz 9 / qz 2)) by qcomp. reflexivity.
Qed.
(** for any root *)
Lemma boot_curves {RT} (root : num -> RT) argsort env rng n v e nb ax ns N : (forall l, argsorts l (argsort l)) -> shape e = shape v ->
  axes_are (length (shape v)) ax ns -> same_sign ax ->
  prod (kept (length (shape v)) ns (shape v)) <> 0 -> prod (shape v) = N * prod (kept (length (shape v)) ns (shape v)) -> 1 <= nb <= N ->
  (0 <= confidence env)%Qc -> (confidence env <= 1)%Qc -> 0 < repeats env ->
  exists s sp rm, ss_create_split argsort v e nb ax = Ok s /\ ss_boot_with root env rng n (ss_bins s) (ss_keep s) = Ok (sp, rm) /\
  shape sp = kept (length (shape v)) ns (shape v) ++ [nb; 3] /\ shape rm = kept (length (shape v)) ns (shape v) ++ [nb; 3] /\
  forall k L, Forall2 lt k (kept (length (shape v)) ns (shape v)) -> Cells (shape v) ns k L ->
  exists Bs, ordered_bins (fun x y => np_le (get v x) (get v y)) L nb Bs /\
  forall b, b < nb -> exists rs tv te, let mean := if skip_nan env then nanmean else nmean in
    resamples_of (nth b Bs []) n (repeats env) rs /\
    triple_of np_quantile (1 - confidence env)%Qc (confidence env) (map (fun s => mean (map (get v) s)) rs) tv /\
    triple_of np_quantile (1 - confidence env)%Qc (confidence env) (map (fun s => mean (map (get e) s)) rs) te /\
    forall t, t < 3 -> get sp (k ++ [b; t]) = root (nth t tv NaN) /\ get rm (k ++ [b; t]) = root (nth t te NaN).
Proof.
  intros Harg Hsh Hax Hss HK HN Hnb C0 C1 Hr.
  destruct (same_sign_spelling _ _ _ Hax Hss) as (ns' & P & Hsp). pose proof (pos_shape v _ ns N eq_refl HN HK) as EN.
  set (nd := length (shape v)) in *. rewrite (mask_of_perm nd ns ns' P) in EN. rewrite (kept_perm nd ns ns' _ P) in *.
  assert (EK : kept nd ns' (shape v) = unsel (mask_of nd ns') (shape v)) by (apply kept_unsel; reflexivity). rewrite EK in *. set (keep := unsel (mask_of nd ns') (shape v)) in *.
  destruct (ss_split_ok argsort v e nb ax ns' Harg Hsh Hsp HK) as (s & Es & Ks & Lb & T & H); [fold nd; rewrite <- EN; lia|]. fold nd keep in Ks, T, H. rewrite <- EN in H.
  (* the bins of each column, as a function *)
  assert (Fn : exists F : nat -> list (list nat), forall c, c < prod keep -> Permutation (F c) (group (shape v) (mask_of nd ns') (unflat keep c)) /\
     StronglySorted (fun x y => np_le (get v x) (get v y)) (F c) /\
     map (fun b => bin_pairs b c) (ss_bins s) = map (map (fun ix => (get v ix, get e ix))) (chunks (split_sizes N nb) (F c)) /\ length (F c) = N).
  { assert (X : forall K, K <= prod keep -> exists F : nat -> list (list nat), forall c, c < K -> Permutation (F c) (group (shape v) (mask_of nd ns') (unflat keep c)) /\
     StronglySorted (fun x y => np_le (get v x) (get v y)) (F c) /\
     map (fun b => bin_pairs b c) (ss_bins s) = map (map (fun ix => (get v ix, get e ix))) (chunks (split_sizes N nb) (F c)) /\ length (F c) = N).
    { induction K as [|K IH]; intros HKK; [exists (fun _ => []); intros c Hc; lia|]. destruct IH as (F & HF); [lia|].
      destruct (H (unflat keep K)) as (SL & P1 & P2 & P3 & P4); [apply unflat_valid; lia|]. rewrite flat_unflat in P3 by lia.
      exists (fun c => if Nat.eqb c K then SL else F c). intros c Hc. destruct (Nat.eqb_spec c K) as [->|Hn]; [auto|]. apply HF. lia. }
    apply (X (prod keep)). lia. }
  destruct Fn as (F & HF).
  assert (OB : forall c, c < prod keep -> ordered_bins (fun x y => np_le (get v x) (get v y)) (group (shape v) (mask_of nd ns') (unflat keep c)) nb (chunks (split_sizes N nb) (F c))).
  { intros c Hc. destruct (HF c Hc) as (P1 & P2 & _ & P4). rewrite <- P4 at 1. apply chunks_ordered; [lia|exact P1|exact P2]. }
  destruct (ss_boot_with_ok root env rng n (ss_bins s) keep (get v) (get e) (fun j c => nth j (chunks (split_sizes N nb) (F c)) []) C0 C1 Hr T) as (sp & rm & E & S1 & S2 & G).
  { intros j c Hj Hc. destruct (HF c Hc) as (_ & _ & P3 & _). split; [apply nth_bins; assumption|]. destruct (OB c Hc) as (L1 & _ & Nn & _). apply Nn, nth_In. lia. }
  exists s, sp, rm. split; [exact Es|]. rewrite Ks. split; [exact E|]. rewrite Lb in *. split; [exact S1|]. split; [exact S2|].
  intros k L Hk HL. pose proof (flat_lt keep k Hk) as Hf. exists (chunks (split_sizes N nb) (F (flat keep k))). split.
  - eapply ordered_bins_perm; [|apply OB, Hf]. rewrite unflat_flat by exact Hk. rewrite <- (mask_of_perm nd ns ns' P). apply Cells_perm, HL.
  - intros b Hb. destruct (G k b Hk Hb) as (tv & te & (rs & R1 & R2 & R3) & Gt). exists rs, tv, te. cbv zeta. auto.
Qed.
(** With bootstrap: each entry of the spread (rmse) is the root of the corresponding entry of the triple
    (quantile 1-c, mean, quantile c) of the mean variances (squared errors) of the same resamples of the bin. *)
Theorem c33_bootstrap : forall argsort env rng n v e nb ax ns N, (forall l, argsorts l (argsort l)) -> shape e = shape v ->
  axes_are (length (shape v)) ax ns -> same_sign ax ->
  prod (kept (length (shape v)) ns (shape v)) <> 0 -> prod (shape v) = N * prod (kept (length (shape v)) ns (shape v)) -> 1 <= nb <= N ->
  (0 <= confidence env)%Qc -> (confidence env <= 1)%Qc -> 0 < repeats env ->
  exists sp rm, binned_spread_skill_boot argsort env rng n v e nb ax = Ok (sp, rm) /\
  shape sp = kept (length (shape v)) ns (shape v) ++ [nb; 3] /\ shape rm = kept (length (shape v)) ns (shape v) ++ [nb; 3] /\
  forall k L, Forall2 lt k (kept (length (shape v)) ns (shape v)) -> Cells (shape v) ns k L ->
  exists Bs, ordered_bins (fun x y => np_le (get v x) (get v y)) L nb Bs /\
  forall b, b < nb -> exists rs tv te, let mean := if skip_nan env then nanmean else nmean in
    resamples_of (nth b Bs []) n (repeats env) rs /\
    triple_of np_quantile (1 - confidence env)%Qc (confidence env) (map (fun s => mean (map (get v) s)) rs) tv /\
    triple_of np_quantile (1 - confidence env)%Qc (confidence env) (map (fun s => mean (map (get e) s)) rs) te /\
    forall t, t < 3 -> get sp (k ++ [b; t]) = nsqrt (nth t tv NaN) /\ get rm (k ++ [b; t]) = nsqrt (nth t te NaN).
Proof.
  intros argsort env rng n v e nb ax ns N Harg Hsh Hax Hss HK HN Hnb C0 C1 Hr.
  destruct (boot_curves nsqrt argsort env rng n v e nb ax ns N Harg Hsh Hax Hss HK HN Hnb C0 C1 Hr) as (s & sp & rm & Es & E & R).
  exists sp, rm. unfold binned_spread_skill_boot, ss_boot. rewrite Es. cbn [bind]. split; [exact E|exact R].
Qed.
Print Assumptions c33_bootstrap.
Definition env_ex : boot_env := {| repeats := 4; confidence := Q2Qc (9 # 10); skip_nan := true |}.
Example c33_bootstrap_nonvacuous : exists sp rm, binned_spread_skill_boot argsort_ex env_ex (fun b c r i => b + r * i) 3 v_ex e_ex 2 (Some [0%Z]) = Ok (sp, rm) /\
  shape sp = [2; 2; 3].
Proof.
  destruct (c33_bootstrap argsort_ex env_ex (fun b c r i => b + r * i) 3 v_ex e_ex 2 (Some [0%Z]) [0] 5 argsort_ex_ok eq_refl) as (sp & rm & E & S & _).
  - split; [constructor; [split; [cbn; lia|left; reflexivity]|constructor]|repeat constructor; intros []].
  - left. repeat constructor; lia.
  - discriminate.
  - reflexivity.
  - lia.
  - vm_compute. discriminate.
  - vm_compute. discriminate.
  - cbn. lia.
  - exists sp, rm. split; [exact E|exact S].
Qed.

(** * C34 *)
(** The caller's array is modified: with all axes as sample axes the variances come back sorted. *)
Theorem c34_inputs_unchanged_refuted : ~ (forall argsort v e nb ax s, (forall l, argsorts l (argsort l)) -> ss_create_split argsort v e nb ax = Ok s ->
  arr_eq (ss_variance s) v /\ arr_eq (ss_sq_error s) e).
Proof.
  intros H. set (v := of_list NaN [2] [iv 2; iv 1]). set (e := of_list NaN [2] [iv 5; iv 7]).
  assert (X : match ss_create_split argsort_ex v e 1 None with Ok s => (get (ss_variance s) [0], get (ss_sq_error s) [0]) | Raise _ => (NaN, NaN) end = (iv 1, iv 7)) by (vm_compute; reflexivity).
  destruct (ss_create_split argsort_ex v e 1 None) as [s|] eqn:E; [|discriminate X]. injection X as X1 X2.
  destruct (H argsort_ex v e 1 None s argsort_ex_ok E) as [[_ A] _]. specialize (A [0]). rewrite X1 in A.
  assert (B : iv 1 = get v [0]). { apply A. unfold ss_create_split in E. cbn in E. injection E as <-. constructor; [cbn; lia|constructor]. }
  vm_compute in B. discriminate B.
Qed.
Print Assumptions c34_inputs_unchanged_refuted.
(** What holds: the inputs are left alone when the sample and kept axes interleave (an axis of one kind, of length
    above one, lies between two such axes of the other kind), because the flattened arrays are then copies. *)
Theorem c34_inputs_unchanged_partial : forall argsort v e nb ax ns s i m j, ss_create_split argsort v e nb ax = Ok s ->
  axes_are (length (shape v)) ax ns -> same_sign ax -> prod (shape v) <> 0 ->
  i < m < j -> j < length (shape v) -> (In i ns <-> In j ns) -> (In i ns <-> ~ In m ns) ->
  1 < nth i (shape v) 0 -> 1 < nth m (shape v) 0 -> 1 < nth j (shape v) 0 ->
  ss_variance s = v /\ ss_sq_error s = e.
Proof.
  intros argsort v e nb ax ns s i m j E Hax Hss Hp Hij Hj Iij Iim Di Dm Dj.
  destruct (same_sign_spelling _ _ _ Hax Hss) as (ns' & P & [Hsp Hs]).
  assert (PI : forall x, In x ns <-> In x ns') by (intros x; split; apply Permutation_in; [exact P|symmetry; exact P]).
  pose proof (copies (shape v) (zsort (loop_axes (length (shape v)) ax)) ns' i m j Hp Hs Hsp Hij Hj) as V. rewrite !PI in Iij, Iim. specialize (V Iij Iim Di Dm Dj).
  unfold ss_create_split in E. fold (loop_axes (length (shape v)) ax) in E. destruct (list_eqb (shape v) (shape e)) eqn:Q; [|discriminate E]. apply list_eqb_spec in Q. cbn [passert bind] in E.
  destruct (moved_columns v ax ns' (conj Hsp Hs)) as (b & Eb & _). rewrite Eb in E. cbn [bind] in E. destruct (move_loop _ _ e) as [[c c']|]; [|discriminate E]. cbn [bind fst] in E.
  destruct (prod (skipn (length ns') (shape b))); [discriminate E|]. destruct (nb <=? _); [|discriminate E]. cbn [passert bind] in E. destruct (array_split _ nb); [|discriminate E]. cbn [bind] in E.
  injection E as <-. cbn [ss_variance ss_sq_error]. rewrite <- Q, V. auto.
Qed.
Print Assumptions c34_inputs_unchanged_partial.
Definition v3_ex : arr num := of_list NaN [2; 2; 2] [iv 8; iv 7; iv 6; iv 5; iv 4; iv 3; iv 2; iv 1].
Example c34_nonvacuous : exists s, ss_create_split argsort_ex v3_ex v3_ex 2 (Some [0%Z; 2%Z]) = Ok s /\ ss_variance s = v3_ex /\ ss_sq_error s = v3_ex.
Proof.
  assert (X : match ss_create_split argsort_ex v3_ex v3_ex 2 (Some [0%Z; 2%Z]) with Ok _ => true | Raise _ => false end = true) by (vm_compute; reflexivity).
  destruct (ss_create_split argsort_ex v3_ex v3_ex 2 (Some [0%Z; 2%Z])) as [s|] eqn:E; [|discriminate X]. exists s. split; [reflexivity|].
  apply (c34_inputs_unchanged_partial _ _ _ _ _ [0; 2] s 0 1 2 E); try (cbn; lia).
  - split; [constructor; [split; [cbn; lia|left; reflexivity]|constructor; [split; [cbn; lia|left; reflexivity]|constructor]]|repeat constructor; cbn; intuition discriminate].
  - left. repeat constructor; lia.
Qed.
