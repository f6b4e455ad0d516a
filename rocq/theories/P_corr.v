(** Proofs about the correlation of one slice, and congruence of the work flow. *)
From Coq Require Import ZArith List Lia Bool Arith Permutation Sorted QArith Qcanon Reals Lra.
From Verif Require Import QcTac QSum Num NdArr Numpy M_common Spec M_boot RTier M_special P_boot P_work.
Import ListNotations.
Open Scope Qc_scope.

Lemma all_fin_map xs : all_fin (map Fin xs) = Some xs.
Proof. induction xs as [|x xs IH]; [reflexivity|]. cbn. rewrite IH. reflexivity. Qed.
Lemma all_fin_some l xs : all_fin l = Some xs -> l = map Fin xs.
Proof.
  revert xs. induction l as [|[q| | |] l IH]; intros xs H; cbn in H; try discriminate; [injection H as <-; reflexivity|].
  destruct (all_fin l) as [s|]; [|discriminate]. injection H as <-. cbn. rewrite (IH s eq_refl). reflexivity.
Qed.
(** covariance as in np.cov, over a list of pairs *)
Definition covq (l : list (Qc * Qc)) : Qc :=
  qsumf (fun p => (fst p - qmeanf fst l) * (snd p - qmeanf snd l)) l / qn (length l - 1).
Definition swap (p : Qc * Qc) := (snd p, fst p).
Lemma combine_fst {A B} (x : list A) (y : list B) : length x = length y -> map fst (combine x y) = x.
Proof. revert y. induction x as [|a x IH]; intros [|b y] H; cbn in *; try discriminate; [reflexivity|]. f_equal. apply IH. lia. Qed.
Lemma combine_snd {A B} (x : list A) (y : list B) : length x = length y -> map snd (combine x y) = y.
Proof. revert y. induction x as [|a x IH]; intros [|b y] H; cbn in *; try discriminate; [reflexivity|]. f_equal. apply IH. lia. Qed.
Lemma combine_map2 {A B C} (g : A -> B) (h : A -> C) l : combine (map g l) (map h l) = map (fun x => (g x, h x)) l.
Proof. induction l as [|x l IH]; [reflexivity|]. cbn. rewrite IH. reflexivity. Qed.

(** corrcoef of finite samples given by two functions on a list *)
Section Samples.
  Context {A : Type}.
  Definition covf (g h : A -> Qc) (l : list A) : Qc := qsumf (fun x => (g x - qmeanf g l) * (h x - qmeanf h l)) l / qn (length l - 1).
  Lemma corrcoef_fin (g h : A -> Qc) l : corrcoef (map (fun x => Fin (g x)) l) (map (fun x => Fin (h x)) l) =
    if Nat.ltb (length l) 2 then RNaN
    else if (qeqb (covf g g l) 0 || qeqb (covf h h l) 0)%bool then RNaN
    else RFin (q2r (covf g h l) / sqrt (q2r (covf g g l)) / sqrt (q2r (covf h h l)))%R.
  Proof.
    unfold corrcoef. rewrite <- (map_map g Fin), <- (map_map h Fin), !all_fin_map. rewrite !map_length.
    destruct (Nat.ltb (length l) 2); [reflexivity|].
    assert (C : forall g h : A -> Qc, (qsum (map (fun p => (fst p - qmean (map g l)) * (snd p - qmean (map h l))) (combine (map g l) (map h l))) / qn (length l - 1)) = covf g h l).
    { intros g' h'. rewrite combine_map2, map_map. reflexivity. }
    rewrite !C. reflexivity.
  Qed.
  Lemma covf_sym g h l : covf g h l = covf h g l.
  Proof. unfold covf. f_equal. apply qsumf_ext. intros x _. ring. Qed.
  Lemma covf_nonneg g l : (2 <= length l)%nat -> 0 <= covf g g l.
  Proof. intros H. apply Qcdiv_nonneg; [apply qsumf_nonneg; intros; apply qsq_nonneg|apply qn_pos; lia]. Qed.
  Lemma covf_zero g l : (2 <= length l)%nat -> covf g g l = 0 -> forall x y, In x l -> In y l -> g x = g y.
  Proof.
    intros H E. assert (Hs : qsumf (fun x => (g x - qmeanf g l) * (g x - qmeanf g l)) l = 0).
    { unfold covf in E. assert (Hn : qn (length l - 1) <> 0) by (apply qn_neq0; lia).
      rewrite <- (Qcmult_1_r (qsumf _ l)), <- (Qcmult_inv_l (qn (length l - 1)) Hn), Qcmult_assoc. unfold Qcdiv in E. rewrite E. ring. }
    assert (G : forall x, In x l -> g x = qmeanf g l).
    { intros x Hx. assert (Z := proj1 (qsumf_zero_iff _ l (fun y _ => qsq_nonneg (g y - qmeanf g l))) Hs x Hx). cbn in Z. apply qsq_zero in Z. qlra. }
    intros x y Hx Hy. rewrite (G x Hx), (G y Hy). reflexivity.
  Qed.
  Lemma covf_cs g h l : (2 <= length l)%nat -> covf g h l * covf g h l <= covf g g l * covf h h l.
  Proof.
    intros H. pose proof (cauchy_schwarz (fun x => g x - qmeanf g l) (fun x => h x - qmeanf h l) l) as C. unfold covf.
    assert (P : 0 < qn (length l - 1)) by (apply qn_pos; lia). set (i := / qn (length l - 1)).
    assert (0 <= i * i) by apply qsq_nonneg. unfold Qcdiv. fold i.
    replace (qsumf (fun x => (g x - qmeanf g l) * (h x - qmeanf h l)) l * i * (qsumf (fun x => (g x - qmeanf g l) * (h x - qmeanf h l)) l * i))
      with (qsumf (fun x => (g x - qmeanf g l) * (h x - qmeanf h l)) l * qsumf (fun x => (g x - qmeanf g l) * (h x - qmeanf h l)) l * (i * i)) by ring.
    replace (qsumf (fun x => (g x - qmeanf g l) * (g x - qmeanf g l)) l * i * (qsumf (fun x => (h x - qmeanf h l) * (h x - qmeanf h l)) l * i))
      with (qsumf (fun x => (g x - qmeanf g l) * (g x - qmeanf g l)) l * qsumf (fun x => (h x - qmeanf h l) * (h x - qmeanf h l)) l * (i * i)) by ring.
    apply Qcmult_le_compat_r; assumption.
  Qed.
  Lemma covf_affine a b g h l : l <> [] -> covf (fun x => a * g x + b) h l = a * covf g h l.
  Proof.
    intros H. unfold covf. assert (M : qmeanf (fun x => a * g x + b) l = a * qmeanf g l + b) by (rewrite qmeanf_plus, qmeanf_scale, qmeanf_const by exact H; reflexivity).
    rewrite M. rewrite (qsumf_ext _ (fun x => a * ((g x - qmeanf g l) * (h x - qmeanf h l)))) by (intros; ring). rewrite qsumf_scale. unfold Qcdiv. ring.
  Qed.
End Samples.
Lemma corr_range c v w : 0 <= v -> 0 <= w -> v <> 0 -> w <> 0 -> c * c <= v * w ->
  (-1 <= q2r c / sqrt (q2r v) / sqrt (q2r w) <= 1)%R.
Proof.
  intros Hv Hw Hv0 Hw0 H. apply q2r_le in H, Hv, Hw. rewrite !q2r_mult in H. rewrite q2r_0 in Hv, Hw. apply q2r_neq0 in Hv0, Hw0.
  set (a := q2r v) in *. set (b := q2r w) in *. set (x := q2r c) in *.
  assert (Ha : (0 < sqrt a)%R) by (apply sqrt_lt_R0; lra). assert (Hb : (0 < sqrt b)%R) by (apply sqrt_lt_R0; lra).
  assert (Ea : (sqrt a * sqrt a = a)%R) by (apply sqrt_def; lra). assert (Eb : (sqrt b * sqrt b = b)%R) by (apply sqrt_def; lra).
  set (s := (sqrt a * sqrt b)%R). assert (Hs : (0 < s)%R) by (apply Rmult_lt_0_compat; assumption).
  assert (Es : (s * s = a * b)%R) by (unfold s; transitivity ((sqrt a * sqrt a) * (sqrt b * sqrt b))%R; [ring|rewrite Ea, Eb; reflexivity]).
  replace (x / sqrt a / sqrt b)%R with (x / s)%R by (unfold s; field; lra).
  assert (B : (- s <= x <= s)%R) by (split; [apply Rnot_lt_le; intros X; assert (s * s < x * x)%R by nra; lra|apply Rnot_lt_le; intros X; assert (s * s < x * x)%R by nra; lra]). split.
  - apply (Rmult_le_reg_r s); [exact Hs|]. unfold Rdiv. rewrite Rmult_assoc, Rinv_l by lra. lra.
  - apply (Rmult_le_reg_r s); [exact Hs|]. unfold Rdiv. rewrite Rmult_assoc, Rinv_l by lra. lra.
Qed.
Lemma finite_pair (f o : list num) x y : all_fin f = Some x -> all_fin o = Some y -> length f = length o ->
  exists l : list (Qc * Qc), f = map (fun p => Fin (fst p)) l /\ o = map (fun p => Fin (snd p)) l.
Proof.
  intros Ef Eo Hl. apply all_fin_some in Ef, Eo. subst f o. rewrite !map_length in Hl. exists (combine x y).
  rewrite <- (map_map fst Fin), <- (map_map snd Fin), combine_fst, combine_snd by exact Hl. auto.
Qed.
Definition unit_rnum (x : rnum) : Prop := x = RNaN \/ exists r, x = RFin r /\ (-1 <= r <= 1)%R.
Lemma corrcoef_unit f o : length f = length o -> unit_rnum (corrcoef f o).
Proof.
  intros Hl. destruct (all_fin f) as [x|] eqn:Ef; [|left; unfold corrcoef; rewrite Ef; reflexivity].
  destruct (all_fin o) as [y|] eqn:Eo; [|left; unfold corrcoef; rewrite Ef, Eo; reflexivity].
  destruct (finite_pair f o x y Ef Eo Hl) as (l & -> & ->). rewrite (corrcoef_fin fst snd l).
  destruct (Nat.ltb_spec (length l) 2); [left; reflexivity|].
  destruct (qeqb_spec (covf fst fst l) 0) as [|Nv]; [left; reflexivity|]. destruct (qeqb_spec (covf snd snd l) 0) as [|Nw]; [left; reflexivity|].
  right. eexists. split; [reflexivity|]. apply corr_range; try assumption; try (apply covf_nonneg; lia). apply covf_cs. lia.
Qed.
Lemma corrcoef_sym f o : length f = length o -> corrcoef f o = corrcoef o f.
Proof.
  intros Hl. destruct (all_fin f) as [x|] eqn:Ef; [|unfold corrcoef; rewrite Ef; destruct (all_fin o); reflexivity].
  destruct (all_fin o) as [y|] eqn:Eo; [|unfold corrcoef; rewrite Ef, Eo; reflexivity].
  destruct (finite_pair f o x y Ef Eo Hl) as (l & -> & ->). rewrite (corrcoef_fin fst snd l), (corrcoef_fin snd fst l).
  destruct (Nat.ltb (length l) 2); [reflexivity|]. rewrite orb_comm. destruct (qeqb (covf snd snd l) 0 || qeqb (covf fst fst l) 0)%bool eqn:E; [reflexivity|].
  apply orb_false_iff in E as [E1 E2]. apply qeqb_neq, q2r_neq0 in E1, E2.
  rewrite (covf_sym snd fst). f_equal. unfold Rdiv. rewrite !Rmult_assoc. f_equal. apply Rmult_comm.
Qed.
Definition affine (a b : Qc) (x : num) : num := nadd (nmul (Fin a) x) (Fin b).
Lemma affine_fin a b q : affine a b (Fin q) = Fin (a * q + b). Proof. reflexivity. Qed.
Lemma all_fin_affine a b l : 0 < a -> all_fin (map (affine a b) l) = match all_fin l with Some x => Some (map (fun q => a * q + b) x) | None => None end.
Proof.
  intros Ha. induction l as [|x l IH]; [reflexivity|]. cbn [map all_fin]. destruct x as [q| | |].
  - rewrite affine_fin, IH. destruct (all_fin l); reflexivity.
  - unfold affine, nmul. destruct (qeqb_spec a 0) as [E|E]; [exfalso; qlra|]. unfold inf_sign. destruct (qneg a); reflexivity.
  - unfold affine, nmul. destruct (qeqb_spec a 0) as [E|E]; [exfalso; qlra|]. unfold inf_sign. destruct (negb (qneg a)); reflexivity.
  - reflexivity.
Qed.
Lemma affine_nan a b x : 0 < a -> is_nan (affine a b x) = is_nan x.
Proof.
  intros Ha. destruct x as [q| | |]; try reflexivity; unfold affine, nmul; destruct (qeqb_spec a 0) as [E|E]; try (exfalso; qlra); unfold inf_sign; destruct (qneg a); reflexivity.
Qed.
Lemma corrcoef_affine a b f o : 0 < a -> length f = length o -> corrcoef (map (affine a b) f) o = corrcoef f o.
Proof.
  intros Ha Hl. destruct (all_fin f) as [x|] eqn:Ef; [|unfold corrcoef; rewrite all_fin_affine, Ef by exact Ha; reflexivity].
  destruct (all_fin o) as [y|] eqn:Eo; [|unfold corrcoef; rewrite all_fin_affine, Ef, Eo by exact Ha; reflexivity].
  destruct (finite_pair f o x y Ef Eo Hl) as (l & -> & ->). rewrite map_map.
  rewrite (corrcoef_fin fst snd l), (map_ext _ (fun p => Fin ((fun p => a * fst p + b) p))) by reflexivity. rewrite (corrcoef_fin (fun p => a * fst p + b) snd l).
  destruct (Nat.ltb_spec (length l) 2) as [|H2]; [reflexivity|].
  assert (Hne : l <> []) by (intros ->; cbn in H2; lia).
  rewrite !(covf_affine a b fst) by exact Hne. rewrite (covf_sym fst (fun p => a * fst p + b)), (covf_affine a b fst) by exact Hne.
  assert (A0 : a <> 0) by (intros ->; revert Ha; apply Qclt_not_eq || idtac; intros X; qlra).
  replace (qeqb (a * (a * covf fst fst l)) 0) with (qeqb (covf fst fst l) 0).
  2:{ destruct (qeqb_spec (covf fst fst l) 0) as [->|N]; symmetry; [apply qeqb_eq; ring|apply qeqb_neq]. intros E. apply Qcmult_integral in E as [E|E]; [contradiction|]. apply Qcmult_integral in E as [E|E]; contradiction. }
  destruct (qeqb_spec (covf fst fst l) 0) as [|Nv]; [reflexivity|]. destruct (qeqb_spec (covf snd snd l) 0) as [|Nw]; [reflexivity|]. cbn [orb].
  f_equal. f_equal. rewrite !q2r_mult. pose proof (covf_nonneg fst l H2) as Hv. apply q2r_le in Hv. rewrite q2r_0 in Hv. apply q2r_neq0 in Nv.
  apply q2r_lt in Ha. rewrite q2r_0 in Ha. set (r := q2r a) in *. set (v := q2r (covf fst fst l)) in *.
  replace (r * (r * v))%R with ((r * r) * v)%R by ring. rewrite sqrt_mult by nra. rewrite sqrt_square by lra.
  assert (0 < sqrt v)%R by (apply sqrt_lt_R0; lra). field. lra.
Qed.
Lemma corrcoef_self (l : list Qc) : (exists x y, In x l /\ In y l /\ x <> y) ->
  corrcoef (map Fin l) (map Fin l) = RFin 1 /\ corrcoef (map Fin l) (map (fun q => Fin (- q)) l) = RFin (-1).
Proof.
  intros (x & y & Hx & Hy & Hxy).
  assert (H2 : (2 <= length l)%nat) by (destruct l as [|p [|q l]]; cbn in *; [tauto| |lia]; exfalso; destruct Hx as [<-|[]], Hy as [<-|[]]; contradiction).
  assert (Nv : covf (fun q => q) (fun q => q) l <> 0) by (intros E; apply Hxy, (covf_zero (fun q => q) l H2 E x y Hx Hy)).
  pose proof (covf_nonneg (fun q => q) l H2) as Hv. set (c := covf (fun q : Qc => q) (fun q => q) l) in *.
  assert (R : (0 < q2r c)%R) by (apply q2r_le in Hv; rewrite q2r_0 in Hv; apply q2r_neq0 in Nv; lra).
  assert (Sq : (sqrt (q2r c) * sqrt (q2r c) = q2r c)%R) by (apply sqrt_def; lra).
  assert (Sp : (0 < sqrt (q2r c))%R) by (apply sqrt_lt_R0, R).
  assert (Hlt : Nat.ltb (length l) 2 = false) by (apply Nat.ltb_ge; lia).
  assert (Hne : l <> []) by (intros ->; cbn in H2; lia).
  assert (Cn : forall h, covf (fun q => - q) h l = - covf (fun q => q) h l).
  { intros h. transitivity (covf (fun q => (- (1)) * (fun q => q) q + 0) h l).
    - unfold covf. assert (M : qmeanf (fun q => - q) l = qmeanf (fun q => - (1) * q + 0) l) by (apply qmeanf_ext; intros; ring). rewrite M. f_equal. apply qsumf_ext. intros; ring.
    - rewrite covf_affine by exact Hne. ring. }
  split.
  - etransitivity; [exact (corrcoef_fin (fun q => q) (fun q => q) l)|]. rewrite Hlt. fold c. rewrite (proj2 (qeqb_neq c 0) Nv). cbn [orb]. f_equal.
    rewrite <- Sq at 1. field. lra.
  - etransitivity; [exact (corrcoef_fin (fun q => q) (fun q => - q) l)|]. rewrite Hlt.
    rewrite (covf_sym (fun q => q) (fun q => - q)), !Cn, (covf_sym (fun q => q) (fun q => - q)), Cn. fold c. replace (- - c) with c by ring.
    rewrite (proj2 (qeqb_neq c 0) Nv). cbn [orb]. f_equal. rewrite q2r_opp. rewrite <- Sq at 1. field. lra.
Qed.

(** ** Quantiles and means of correlations *)
Lemma rins_in x y l : In y (rins x l) <-> y = x \/ In y l.
Proof.
  induction l as [|z l IH]; cbn [rins]; [cbn; intuition|]. destruct (Rle_dec x z); cbn; [intuition|]. rewrite IH. intuition.
Qed.
Lemma rsort_in y l : In y (rsort l) <-> In y l.
Proof. induction l as [|x l IH]; [reflexivity|]. cbn [rsort]. rewrite rins_in, IH. cbn. intuition. Qed.
Lemma rins_length x l : length (rins x l) = S (length l).
Proof. induction l as [|z l IH]; [reflexivity|]. cbn [rins]. destruct (Rle_dec x z); cbn; [reflexivity|]. rewrite IH. reflexivity. Qed.
Lemma rsort_length l : length (rsort l) = length l.
Proof. induction l as [|x l IH]; [reflexivity|]. cbn [rsort]. rewrite rins_length, IH. reflexivity. Qed.
Definition rsorted := StronglySorted Rle.
Lemma rins_sorted x l : rsorted l -> rsorted (rins x l).
Proof.
  induction 1 as [|y l Hl IH Hy]; cbn [rins]; [repeat constructor|]. destruct (Rle_dec x y) as [H|H].
  - constructor; [constructor; assumption|]. constructor; [exact H|]. eapply Forall_impl; [|exact Hy]. intros; lra.
  - constructor; [exact IH|]. apply Forall_forall. intros z Hz. apply rins_in in Hz as [->|Hz]; [lra|]. rewrite Forall_forall in Hy. apply Hy, Hz.
Qed.
Lemma rsort_sorted l : rsorted (rsort l).
Proof. induction l as [|x l IH]; [constructor|]. apply rins_sorted, IH. Qed.
Lemma rsorted_nth s i j : rsorted s -> (i <= j)%nat -> (j < length s)%nat -> (nth i s 0 <= nth j s 0)%R.
Proof.
  intros H. revert i j. induction H as [|x l Hl IH Hx]; intros i j Hij Hj; [cbn in Hj; lia|].
  destruct j as [|j]; [replace i with 0%nat by lia; lra|]. destruct i as [|i]; cbn [nth].
  - rewrite Forall_forall in Hx. apply Hx, nth_In. cbn in Hj. lia.
  - apply IH; [lia|cbn in Hj; lia].
Qed.
(** position of the interpolation: the rational lemma about a list of the same length *)
Lemma level_bounds n p : (0 < n)%nat -> 0 <= p -> p <= 1 ->
  let h := p * qn (n - 1) in let lo := qfloor_nat h in (lo <= n - 1)%nat /\ 0 <= h - qn lo /\ h - qn lo < 1.
Proof.
  intros Hn H0 H1 h lo. destruct (interp_bounds (repeat 0 n) p H0 H1) as (A & B & C & _). rewrite repeat_length in A, B, C. auto.
Qed.
Lemma rinterp_between s p : rsorted s -> (0 < length s)%nat -> 0 <= p -> p <= 1 ->
  let lo := qfloor_nat (p * qn (length s - 1)) in
  (nth lo s 0 <= rinterp s p <= nth (Nat.min (lo + 1) (length s - 1)) s 0)%R.
Proof.
  intros Hs Hn H0 H1 lo. destruct (level_bounds (length s) p Hn H0 H1) as (A & B & C). fold lo in A, B, C. unfold rinterp. fold lo.
  assert (M : (nth lo s 0 <= nth (Nat.min (lo + 1) (length s - 1)) s 0)%R) by (apply rsorted_nth; [exact Hs|lia|lia]).
  apply q2r_le in B. apply q2r_lt in C. rewrite q2r_0 in B. rewrite q2r_1 in C. revert B C. generalize (q2r (p * qn (length s - 1) - qn lo)). intros t B C. split; nra.
Qed.
Lemma rinterp_bounds s p a b : rsorted s -> (0 < length s)%nat -> 0 <= p -> p <= 1 -> (forall x, In x s -> a <= x <= b)%R -> (a <= rinterp s p <= b)%R.
Proof.
  intros Hs Hn H0 H1 H. destruct (rinterp_between s p Hs Hn H0 H1) as [X Y]. destruct (level_bounds (length s) p Hn H0 H1) as (A & _). cbv zeta in A.
  set (lo := qfloor_nat (p * qn (length s - 1))) in *.
  assert (In (nth lo s 0%R) s) by (apply nth_In; lia). assert (In (nth (Nat.min (lo + 1) (length s - 1)) s 0%R) s) by (apply nth_In; lia).
  split; [eapply Rle_trans; [apply (H _ H2)|exact X]|eapply Rle_trans; [exact Y|apply (H _ H3)]].
Qed.
Lemma rinterp_mono s p1 p2 : rsorted s -> (0 < length s)%nat -> 0 <= p1 -> p1 <= p2 -> p2 <= 1 -> (rinterp s p1 <= rinterp s p2)%R.
Proof.
  intros Hs Hn H0 H12 H1. set (n := length s) in *. pose proof (qn_nonneg (n - 1)) as Hq.
  assert (Hl : (qfloor_nat (p1 * qn (n - 1)) <= qfloor_nat (p2 * qn (n - 1)))%nat) by (apply qfloor_nat_mono; qnra).
  destruct (level_bounds n p2 Hn) as (A2 & _); [qlra|exact H1|]. cbv zeta in A2.
  apply Nat.lt_eq_cases in Hl. destruct Hl as [Hl|Hl].
  - destruct (rinterp_between s p1 Hs Hn H0) as [_ A]; [qlra|]. destruct (rinterp_between s p2 Hs Hn) as [B _]; [qlra|exact H1|]. fold n in A, B.
    eapply Rle_trans; [exact A|]. eapply Rle_trans; [|exact B]. apply rsorted_nth; [exact Hs|lia|fold n; lia].
  - unfold rinterp. fold n. rewrite Hl. set (lo := qfloor_nat (p2 * qn (n - 1))) in *.
    assert (M : (nth lo s 0 <= nth (Nat.min (lo + 1) (n - 1)) s 0)%R) by (apply rsorted_nth; [exact Hs|lia|fold n; lia]).
    assert (T : p1 * qn (n - 1) - qn lo <= p2 * qn (n - 1) - qn lo) by qnra. apply q2r_le in T.
    revert T. generalize (q2r (p1 * qn (n - 1) - qn lo)), (q2r (p2 * qn (n - 1) - qn lo)). intros t1 t2 T. nra.
Qed.
Lemma rvals_in r l : In r (rvals l) <-> In (RFin r) l.
Proof.
  unfold rvals. rewrite in_flat_map. split.
  - intros (x & Hx & Hr). destruct x; cbn in Hr; try tauto. destruct Hr as [->|[]]. exact Hx.
  - intros H. exists (RFin r). split; [exact H|left; reflexivity].
Qed.
Lemma rlist_mean_unit l : (forall x, In x l -> -1 <= x <= 1)%R -> unit_rnum (rlist_mean l).
Proof.
  intros H. destruct l as [|x l]; [left; reflexivity|]. right. eexists. split; [reflexivity|]. set (m := x :: l) in *.
  assert (P : (0 < INR (length m))%R) by (apply lt_0_INR; cbn; lia).
  assert (B : (- INR (length m) <= fold_right Rplus 0 m <= INR (length m))%R).
  { clear P. induction m as [|y m IH]; [cbn; lra|]. cbn [fold_right length]. rewrite S_INR. pose proof (H y (or_introl eq_refl)).
    assert (IH' : (- INR (length m) <= fold_right Rplus 0 m <= INR (length m))%R) by (apply IH; intros z Hz; apply H; right; exact Hz). lra. }
  split; apply (Rmult_le_reg_r (INR (length m))); try exact P; unfold Rdiv; rewrite Rmult_assoc, Rinv_l by lra; lra.
Qed.
Lemma rvals_unit l : (forall x, In x l -> unit_rnum x) -> forall r, In r (rvals l) -> (-1 <= r <= 1)%R.
Proof. intros H r Hr. apply rvals_in in Hr. destruct (H _ Hr) as [E|(s & E & B)]; [discriminate|]. injection E as ->. exact B. Qed.
Lemma r_mean_unit skip l : (forall x, In x l -> unit_rnum x) -> unit_rnum (r_mean skip l).
Proof.
  intros H. pose proof (rlist_mean_unit _ (rvals_unit l H)) as U. unfold r_mean. destruct skip; [exact U|]. destruct (forallb r_is_fin l); [exact U|left; reflexivity].
Qed.
Lemma rinterp_unit v p : v <> [] -> (forall r, In r v -> (-1 <= r <= 1)%R) -> 0 <= p -> p <= 1 -> unit_rnum (RFin (rinterp (rsort v) p)).
Proof.
  intros Hv H H0 H1. right. eexists. split; [reflexivity|]. apply rinterp_bounds; try assumption; [apply rsort_sorted|rewrite rsort_length; apply length_pos, Hv|].
  intros x Hx. apply H, rsort_in, Hx.
Qed.
Lemma forallb_rvals l : forallb r_is_fin l = true -> l <> [] -> rvals l <> [].
Proof. destruct l as [|[r| |] l]; cbn; intros; try discriminate; contradiction. Qed.
Lemma level_checked p : negb (qleb 0 p && qleb p 1)%bool = false -> 0 <= p /\ p <= 1.
Proof. intros H. apply negb_false_iff, andb_true_iff in H as [H1 H2]. split; apply qleb_le; assumption. Qed.
Lemma r_quantile_unit skip l p v : (forall x, In x l -> unit_rnum x) -> r_quantile skip l p = Ok v -> unit_rnum v.
Proof.
  intros H E. unfold r_quantile in E. destruct (negb _) eqn:El; [discriminate|]. destruct (level_checked _ El) as [H0 H1].
  pose proof (rvals_unit l H) as U. destruct skip.
  - destruct (rvals l) as [|r rs] eqn:Ev; injection E as <-; [left; reflexivity|]. apply (rinterp_unit (r :: rs)); try assumption. discriminate.
  - destruct l as [|x l]; [discriminate|]. destruct (forallb r_is_fin (x :: l)) eqn:Ef; injection E as <-; [|left; reflexivity].
    apply (rinterp_unit (rvals (x :: l))); try assumption. apply forallb_rvals; [exact Ef|discriminate].
Qed.
(** levels in order give bounds in order *)
Definition rle (x y : rnum) : Prop := x = RNaN \/ y = RNaN \/ exists a b, x = RFin a /\ y = RFin b /\ (a <= b)%R.
Lemma r_quantile_mono skip l p1 p2 v1 v2 : p1 <= p2 -> r_quantile skip l p1 = Ok v1 -> r_quantile skip l p2 = Ok v2 -> rle v1 v2.
Proof.
  intros H12 E1 E2. unfold r_quantile in E1, E2. destruct (negb (qleb 0 p1 && qleb p1 1)) eqn:L1; [discriminate|]. destruct (negb (qleb 0 p2 && qleb p2 1)) eqn:L2; [discriminate|].
  destruct (level_checked _ L1), (level_checked _ L2).
  assert (G : forall v, v <> [] -> rle (RFin (rinterp (rsort v) p1)) (RFin (rinterp (rsort v) p2))).
  { intros v Hv. right. right. do 2 eexists. split; [reflexivity|]. split; [reflexivity|]. apply rinterp_mono; try assumption; [apply rsort_sorted|rewrite rsort_length; apply length_pos, Hv]. }
  destruct skip.
  - destruct (rvals l) as [|r rs] eqn:Ev; injection E1 as <-; injection E2 as <-; [left; reflexivity|]. apply (G (r :: rs)). discriminate.
  - destruct l as [|x l]; [discriminate|]. destruct (forallb r_is_fin (x :: l)) eqn:Ef; injection E1 as <-; injection E2 as <-; [|left; reflexivity].
    apply (G (rvals (x :: l))), forallb_rvals; [exact Ef|discriminate].
Qed.

(** ** The slice function *)
Lemma func_corr_length e n rng x y v : func_corr e n rng x y = Ok v -> length v = match n with None => 1 | Some _ => 3 end%nat.
Proof.
  unfold func_corr. destruct n as [n|]; [|intros H; injection H as <-; reflexivity].
  destruct (mapM _ _) as [cs|]; [|discriminate]. cbn [bind]. destruct (r_quantile _ _ _); [|discriminate]. cbn [bind].
  destruct (r_quantile _ _ _); [|discriminate]. cbn [bind]. intros H; injection H as <-; reflexivity.
Qed.
Lemma take_length {A} (d : A) l idx : length (take d l idx) = length idx. Proof. apply map_length. Qed.
Lemma corr_point_unit skip x y : length x = length y -> unit_rnum (corr_point skip x y).
Proof.
  intros H. unfold corr_point, corr_masked. destruct skip; [|apply corrcoef_unit, H]. apply corrcoef_unit. rewrite !map_length. reflexivity.
Qed.
Lemma func_corr_unit e n rng x y v : length x = length y -> func_corr e n rng x y = Ok v -> forall c, In c v -> unit_rnum c.
Proof.
  intros Hl. unfold func_corr. destruct n as [n|]; [|intros H; injection H as <-; intros c [<-|[]]; apply corr_point_unit, Hl].
  destruct (mapM _ _) as [cs|] eqn:Ec; [|discriminate]. cbn [bind].
  assert (U : forall c, In c cs -> unit_rnum c).
  { intros c Hc. destruct (In_nth _ _ RNaN Hc) as (i & Hi & <-). rewrite (mapM_length _ _ _ Ec) in Hi.
    pose proof (mapM_nth _ _ _ i 0%nat RNaN Ec Hi) as G. cbn beta in G. destruct (choice _ _ _) as [idx|]; [|discriminate]. cbn [bind] in G. injection G as <-.
    apply corrcoef_unit. rewrite !take_length. reflexivity. }
  destruct (r_quantile _ cs _) as [lo|] eqn:Elo; [|discriminate]. cbn [bind].
  destruct (r_quantile _ cs (confidence e)) as [hi|] eqn:Ehi; [|discriminate]. cbn [bind]. intros H; injection H as <-.
  intros c [<-|[<-|[<-|[]]]]; [eapply r_quantile_unit; eassumption|apply r_mean_unit, U|eapply r_quantile_unit; eassumption].
Qed.
Lemma combine_swap {A B} (x : list A) (y : list B) : combine y x = map (fun p => (snd p, fst p)) (combine x y).
Proof. revert y. induction x as [|a x IH]; intros [|b y]; try reflexivity. cbn. rewrite IH. reflexivity. Qed.
Lemma corr_point_sym skip x y : length x = length y -> corr_point skip x y = corr_point skip y x.
Proof.
  intros H. unfold corr_point, corr_masked. destruct skip; [|apply corrcoef_sym, H].
  rewrite (combine_swap x y), filter_map, !map_map. cbn [fst snd].
  rewrite (filter_ext (fun p : num * num => negb (is_nan (snd p)) && negb (is_nan (fst p)))%bool (fun p => negb (is_nan (fst p)) && negb (is_nan (snd p)))%bool) by (intros; apply andb_comm).
  apply corrcoef_sym. rewrite !map_length. reflexivity.
Qed.
Lemma func_corr_sym e n rng x y : length x = length y -> func_corr e n rng x y = func_corr e n rng y x.
Proof.
  intros H. unfold func_corr. destruct n as [n|]; [|rewrite corr_point_sym by exact H; reflexivity]. rewrite H.
  rewrite (mapM_ext _ (fun r => idx <- choice (rng r) (seq 0 (length y)) n;; Ok (corrcoef (take NaN y idx) (take NaN x idx)))); [reflexivity|].
  intros r _. destruct (choice _ _ _) as [idx|]; cbn [bind]; [|reflexivity]. rewrite corrcoef_sym by (rewrite !take_length; reflexivity). reflexivity.
Qed.
Lemma take_map (g : num -> num) l idx : g NaN = NaN -> take NaN (map g l) idx = map g (take NaN l idx).
Proof. intros H. unfold take. rewrite map_map. apply map_ext. intros i. rewrite <- H at 1. apply map_nth. Qed.
Lemma combine_map_l {A B C} (g : A -> C) (x : list A) (y : list B) : combine (map g x) y = map (fun p => (g (fst p), snd p)) (combine x y).
Proof. revert y. induction x as [|a x IH]; intros [|b y]; try reflexivity. cbn. rewrite IH. reflexivity. Qed.
Lemma corr_point_affine skip a b x y : 0 < a -> length x = length y -> corr_point skip (map (affine a b) x) y = corr_point skip x y.
Proof.
  intros Ha H. unfold corr_point, corr_masked. destruct skip; [|apply corrcoef_affine; assumption].
  rewrite combine_map_l, filter_map, !map_map. cbn [fst snd].
  rewrite (filter_ext (fun p : num * num => negb (is_nan (affine a b (fst p))) && negb (is_nan (snd p)))%bool (fun p => negb (is_nan (fst p)) && negb (is_nan (snd p)))%bool) by (intros; rewrite affine_nan by exact Ha; reflexivity).
  set (s := filter _ _). rewrite <- (map_map fst (affine a b)). rewrite corrcoef_affine; [|exact Ha|rewrite !map_length; reflexivity].
  f_equal.
Qed.
Lemma func_corr_affine e n rng a b x y : 0 < a -> length x = length y -> func_corr e n rng (map (affine a b) x) y = func_corr e n rng x y.
Proof.
  intros Ha H. unfold func_corr. destruct n as [n|]; [|rewrite corr_point_affine by assumption; reflexivity]. rewrite map_length.
  rewrite (mapM_ext _ (fun r => idx <- choice (rng r) (seq 0 (length x)) n;; Ok (corrcoef (take NaN x idx) (take NaN y idx)))); [reflexivity|].
  intros r _. destruct (choice _ _ _) as [idx|]; cbn [bind]; [|reflexivity]. rewrite take_map by reflexivity. rewrite corrcoef_affine; [reflexivity|exact Ha|rewrite !take_length; reflexivity].
Qed.

(** ** Congruence of the work flow: only the pairs of cells matter *)
Lemma workflow_cong {B} (d : B) (F G : nat -> list num -> list num -> res (list B)) f o f' o' ax :
  shape f = shape f' -> shape o = shape o' ->
  (forall i (L : list (list nat)), F i (map (get f) L) (map (get o) L) = G i (map (get f') L) (map (get o') L)) ->
  workflow d F f o ax = workflow d G f' o' ax.
Proof.
  destruct f as [sf gf], o as [so go], f' as [sf' gf'], o' as [so' go']. cbn [shape get]. intros <- <- H. unfold workflow. cbn [shape].
  destruct (list_eqb sf so) eqn:Eq; [|reflexivity]. apply list_eqb_spec in Eq. subst sf. cbn [passert bind].
  set (avg := match ax with None => _ | Some l => l end). set (out := filter _ _). destruct (negb (Nat.eqb (length out + length avg) _)); [reflexivity|].
  set (p := out ++ map Z.to_nat avg). change (shape (transpose p (Arr so gf'))) with (shape (transpose p (Arr so gf))).
  set (osh := firstn (length out) (shape (transpose p (Arr so gf)))). set (fsh := match avg with [] => _ | _ => _ end).
  destruct (negb _); [reflexivity|].
  set (ixs := fun i j => get (reshape [prod osh; prod fsh] (transpose p (Arr so (fun ix => ix)))) [i; j]).
  rewrite (mapM_ext _ (fun i => G i (map (fun j => get (reshape [prod osh; prod fsh] (transpose p (Arr so gf'))) [i; j]) (seq 0 (prod fsh)))
     (map (fun j => get (reshape [prod osh; prod fsh] (transpose p (Arr so go'))) [i; j]) (seq 0 (prod fsh))))); [reflexivity|].
  intros i _. pose proof (H i (map (ixs i) (seq 0 (prod fsh)))) as E. rewrite !map_map in E. exact E.
Qed.
(** every value in the result comes from one of the slices *)
Lemma workflow_in {B} (d : B) (F : nat -> list num -> list num -> res (list B)) (P : B -> Prop) f o ax r : P d ->
  (forall i x y v, length x = length y -> F i x y = Ok v -> forall b, In b v -> P b) ->
  workflow d F f o ax = Ok r -> forall ix, P (get r ix).
Proof.
  intros Hd H E ix. unfold workflow in E. destruct (passert _); [|discriminate]. cbn [bind] in E.
  set (avg := match ax with None => _ | Some l => l end) in E. set (out := filter _ _) in E. destruct (negb (Nat.eqb (length out + length avg) _)); [discriminate|].
  set (p := out ++ map Z.to_nat avg) in E. set (osh := firstn (length out) (shape (transpose p f))) in E. set (fsh := match avg with [] => _ | _ => _ end) in E.
  destruct (negb _); [discriminate|]. destruct (mapM _ _) as [ret|] eqn:Er; [|discriminate]. cbn [bind] in E.
  assert (A : forall b, In b (concat ret) -> P b).
  { intros b Hb. apply in_concat in Hb as (v & Hv & Hb). destruct (In_nth _ _ [] Hv) as (i & Hi & <-). rewrite (mapM_length _ _ _ Er) in Hi.
    pose proof (mapM_nth _ _ _ i 0%nat [] Er Hi) as Q. cbn beta in Q. eapply H; [|exact Q|exact Hb]. rewrite !map_length. reflexivity. }
  destruct ret as [|r0 ret]; [discriminate|]. set (cc := concat (r0 :: ret)) in *.
  assert (N : forall i, P (nth i cc d)).
  { intros i. destruct (Nat.lt_ge_cases i (length cc)) as [Hi|Hi]; [apply A, nth_In, Hi|rewrite nth_overflow by exact Hi; exact Hd]. }
  destruct (moveaxis _ _ _) as [m|] eqn:Em; [|discriminate]. cbn [bind] in E.
  assert (M : forall jx, P (get m jx)).
  { intros jx. unfold moveaxis in Em. destruct (norm_axis _ (-1)); [|discriminate]. cbn [bind] in Em. destruct (norm_axis _ 0); [|discriminate]. cbn [bind] in Em. injection Em as <-. apply N. }
  injection E as <-. destruct (Nat.eqb _ 1); cbn [get]; apply M.
Qed.
