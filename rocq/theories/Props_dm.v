(** Properties C48, C49 (Diebold-Mariano test) and C61 (reliability index). *)
From Coq Require Import ZArith String List Lia Bool Arith QArith Qcanon Reals Lra.
From Verif Require Import QcTac QSum Num RTier Spec M_dm P_dm.
Import ListNotations.
Open Scope nat_scope.

(** ** C48 *)
Theorem c48_swap : forall tcdf pw y p1 p2 h crit,
  match diebold_mariano_test tcdf pw y p1 p2 h crit, diebold_mariano_test tcdf pw y p2 p1 h crit with
  | Ok (dm, p), Ok (dm', p') => dm' = eopp dm /\ p' = p
  | Raise e1, Raise e2 => e1 = e2
  | _, _ => False
  end.
Proof.
  intros tcdf pw y p1 p2 h crit. unfold diebold_mariano_test.
  rewrite (differential_swap pw crit y p1 p2), dm_stat_opp, eabs_opp.
  replace (Nat.eqb (length y) (length p2) && Nat.eqb (length p2) (length p1))%bool with (Nat.eqb (length y) (length p1) && Nat.eqb (length p1) (length p2))%bool.
  2:{ apply eq_true_iff_eq. rewrite !andb_true_iff, !Nat.eqb_eq. split; intros [E1 E2]; split; congruence. }
  destruct (_ && _)%bool; [|reflexivity]. cbn [passert bind]. destruct (Z.leb 1 h); [|reflexivity]. cbn [passert bind].
  destruct (Z.ltb h _); [|reflexivity]. cbn [passert bind]. destruct (existsb _ _); [|reflexivity]. cbn [passert bind]. split; reflexivity.
Qed.
Print Assumptions c48_swap.
(** adding a finite constant to all three series: squared, absolute and power loss *)
Theorem c48_shift : forall tcdf pw y p1 p2 h crit c,
  crit <> "MAPE"%string ->
  diebold_mariano_test tcdf pw (map (nadd (Fin c)) y) (map (nadd (Fin c)) p1) (map (nadd (Fin c)) p2) h crit =
  diebold_mariano_test tcdf pw y p1 p2 h crit.
Proof.
  intros tcdf pw y p1 p2 h crit c Hc. unfold diebold_mariano_test. rewrite !map_length.
  assert (E : forall a b, nsub (nadd (Fin c) a) (nadd (Fin c) b) = nsub a b) by (intros [| | |] [| | |]; try reflexivity; cbn; f_equal; ring).
  rewrite (differential_map pw crit (nadd (Fin c)) (fun x => x)); [reflexivity|].
  intros a b. unfold loss. rewrite !E. destruct (String.eqb_spec crit "MAPE"); [contradiction|].
  destruct (String.eqb crit "MSE"), (String.eqb crit "MAD"); reflexivity.
Qed.
Print Assumptions c48_shift.
(** multiplying all three series by a positive factor: squared, absolute and percentage loss *)
Theorem c48_scale : forall tcdf pw y p1 p2 h crit c,
  (0 < c)%Qc -> crit <> "poly"%string ->
  diebold_mariano_test tcdf pw (map (nmul (Fin c)) y) (map (nmul (Fin c)) p1) (map (nmul (Fin c)) p2) h crit =
  diebold_mariano_test tcdf pw y p1 p2 h crit.
Proof.
  intros tcdf pw y p1 p2 h crit c H Hc. unfold diebold_mariano_test. rewrite !map_length.
  rewrite !(map_ext _ _ (fun x => nmul_nsc c x H)).
  destruct (_ && _)%bool; [|reflexivity]. cbn [passert bind]. destruct (Z.leb 1 h); [|reflexivity]. cbn [passert bind].
  destruct (Z.ltb h _); [|reflexivity]. cbn [passert bind]. destruct (existsb _ _) eqn:Ex; [|reflexivity]. cbn [passert bind].
  assert (S : dm_stat (differential pw crit (map (nsc c) y) (map (nsc c) p1) (map (nsc c) p2)) (Z.to_nat h) = dm_stat (differential pw crit y p1 p2) (Z.to_nat h)).
  { destruct (String.eqb_spec crit "MSE") as [->|N1]; [|destruct (String.eqb_spec crit "MAD") as [->|N2]; [|destruct (String.eqb_spec crit "MAPE") as [->|N3]]].
    - rewrite (differential_map pw "MSE" (nsc c) (nsc (c * c))) by (intros a b; unfold loss; cbn [String.eqb Ascii.eqb Bool.eqb]; rewrite <- nsc_sub; apply nmul_nsc2, H).
      transitivity (dm_stat (map (nsc (c * c)) (differential pw "MSE" y p1 p2)) (Z.to_nat h)); [|apply dm_stat_nsc, qsq_pos, H].
      unfold differential. rewrite map_map. f_equal. apply map_ext. intros t. symmetry. apply nsc_sub.
    - rewrite (differential_map pw "MAD" (nsc c) (nsc c)) by (intros a b; unfold loss; cbn [String.eqb Ascii.eqb Bool.eqb]; rewrite <- nsc_sub; apply nabs_nsc, H).
      transitivity (dm_stat (map (nsc c) (differential pw "MAD" y p1 p2)) (Z.to_nat h)); [|apply dm_stat_nsc, H].
      unfold differential. rewrite map_map. f_equal. apply map_ext. intros t. symmetry. apply nsc_sub.
    - rewrite (differential_map pw "MAPE" (nsc c) (fun x => x)); [reflexivity|].
      intros a b. unfold loss; cbn [String.eqb Ascii.eqb Bool.eqb]. rewrite <- nsc_sub. f_equal.
      destruct (nsub a b) as [q| | |], a as [r| | |]; try reflexivity; cbn [nsc ndiv].
      + rewrite !qmul_zero, qneg_mul by exact H. destruct (qeqb_spec r 0); [reflexivity|]. f_equal. field. split; [assumption|apply qpos_nz, H].
      + rewrite qneg_mul by exact H. reflexivity.
      + rewrite qneg_mul by exact H. reflexivity.
    - exfalso. cbn [existsb] in Ex. apply orb_true_iff in Ex as [Ex|Ex]; [apply String.eqb_eq in Ex; congruence|].
      apply orb_true_iff in Ex as [Ex|Ex]; [apply String.eqb_eq in Ex; congruence|].
      apply orb_true_iff in Ex as [Ex|Ex]; [apply String.eqb_eq in Ex; congruence|].
      apply orb_true_iff in Ex as [Ex|Ex]; [apply String.eqb_eq in Ex; congruence|discriminate]. }
  rewrite S. reflexivity.
Qed.
Print Assumptions c48_scale.
(** the statistic of the example is 2 *)
Definition dm_y : list num := map nnat [0; 0].
Definition dm_p1 : list num := map nnat [1; 2].
Definition dm_p2 : list num := map nnat [0; 1].
Ltac ncomp := vm_compute; repeat first [reflexivity | apply Qc_is_canon; reflexivity | f_equal].
Example c48_nonvacuous : forall tcdf, diebold_mariano_test tcdf nsq dm_y dm_p1 dm_p2 1 "MSE" = Ok (EFin 2, edouble (tcdf (EFin (-2)) 1)).
Proof.
  intros tcdf.
  assert (D : differential nsq "MSE" dm_y dm_p1 dm_p2 = map Fin [qz 1; qz 3]) by ncomp.
  assert (S : dm_stat (map Fin [qz 1; qz 3]) 1 = EFin 2).
  { unfold dm_stat. assert (M : nmean (map Fin [qz 1; qz 3]) = Fin (1 + 1)%Qc) by ncomp.
    assert (V : dm_variance (map Fin [qz 1; qz 3]) 1 = Fin (Q2Qc (1 # 2))) by ncomp. rewrite M, V. cbn [map length].
    assert (A : harvey 2 1 = Q2Qc (1 # 2)) by (apply Qc_is_canon; vm_compute; reflexivity). rewrite A.
    cbn [nsqrt]. assert (N : qltb (Q2Qc (1 # 2)) 0 = false) by reflexivity. rewrite N.
    assert (P : (0 < sqrt (q2r (Q2Qc (1 # 2))))%R) by (apply sqrt_lt_R0; rewrite <- q2r_0; apply q2r_lt; reflexivity).
    cbn [ediv]. destruct (Req_EM_T _ 0) as [E|E]; [exfalso; lra|]. cbn [rmul]. f_equal. rewrite q2r_plus, q2r_1. field. lra. }
  unfold diebold_mariano_test. rewrite D.
  assert (C : (Nat.eqb (length dm_y) (length dm_p1) && Nat.eqb (length dm_p1) (length dm_p2))%bool = true) by reflexivity. rewrite C.
  assert (C2 : Z.ltb 1 (Z.of_nat (length dm_y)) = true) by reflexivity. rewrite C2.
  assert (C3 : existsb (String.eqb "MSE") ["MSE"; "MAPE"; "MAD"; "poly"]%string = true) by reflexivity. rewrite C3.
  cbn [passert bind Z.leb Z.compare Pos.compare Pos.compare_cont]. change (Z.to_nat 1) with 1. rewrite S. cbn [eabs eopp].
  rewrite (Rabs_right 2) by lra. reflexivity.
Qed.

(** ** C49 *)
(** The factor under the square root of the small-sample adjustment. *)
Theorem c49_factor : forall n h, 1 <= h -> h < n ->
  (0 < harvey n h)%Qc /\ harvey n h = (qn (n - h) * qn (n - h + 1) / (qn n * qn n))%Qc.
Proof.
  intros n h H1 H2.
  assert (E : harvey n h = (qn (n - h) * qn (n - h + 1) / (qn n * qn n))%Qc).
  { unfold harvey. assert (Hn : qn n <> 0%Qc) by (apply qpos_nz, qn_pos; lia).
    assert (En : qn n = (qn h + qn (n - h))%Qc) by (rewrite <- qn_plus; f_equal; lia). rewrite qn_plus, qn_1.
    assert (E2 : qz 2 = (1 + 1)%Qc) by (apply Qc_is_canon; reflexivity). rewrite E2.
    set (x := qn (n - h)) in *. rewrite En in *. field. exact Hn. }
  split; [|exact E]. rewrite E. assert (P : (0 < qn n)%Qc) by (apply qn_pos; lia). assert (P1 : (0 < qn (n - h))%Qc) by (apply qn_pos; lia).
  assert (P2 : (0 < qn (n - h + 1))%Qc) by (apply qn_pos; lia).
  unfold Qcdiv. assert (P3 : (0 < qn n * qn n)%Qc) by qnra. assert (P4 : (0 < / (qn n * qn n))%Qc).
  { destruct (Qclt_le_dec 0 (/ (qn n * qn n))) as [|C]; [assumption|]. exfalso. assert (X : (qn n * qn n * / (qn n * qn n) = 1)%Qc) by (apply Qcmult_inv_r, qpos_nz, P3). qnra. }
  set (iv := (/ (qn n * qn n))%Qc) in *. assert (P5 : (0 < qn (n - h) * qn (n - h + 1))%Qc) by qnra. qnra.
Qed.
Print Assumptions c49_factor.
Theorem c49_variance_one_step : forall qs, qs <> [] ->
  exists v, dm_variance (map Fin qs) 1 = Fin v /\ (0 <= v)%Qc.
Proof.
  intros qs Hq. assert (L : length qs <> 0) by (destruct qs; [contradiction|discriminate]).
  unfold dm_variance. cbn [seq map nth tl nsum]. unfold autocovariance. cbn [skipn]. rewrite Nat.sub_0_r, firstn_all, !map_length.
  assert (M : exists m, nmean (map Fin qs) = Fin m) by (eexists; apply nmean_fin; exact Hq). destruct M as (m & Em). rewrite Em.
  assert (C : map (fun p => nmul (nsub (fst p) (Fin m)) (nsub (snd p) (Fin m))) (combine (map Fin qs) (map Fin qs)) = map Fin (map (fun q => (q - m) * (q - m))%Qc qs)).
  { clear. induction qs as [|q r IH]; [reflexivity|]. cbn [map combine]. rewrite IH. reflexivity. }
  rewrite C, nmean_fin by (destruct qs; [contradiction|discriminate]).
  assert (P : (0 < qn (length qs))%Qc) by (apply qn_pos; lia).
  cbn [nadd nmul]. unfold nnat, ndiv. destruct (qeqb_spec (qn (length qs)) 0) as [E|E]; [exfalso; apply (qpos_nz _ P E)|].
  eexists. split; [reflexivity|]. apply Qcle_div_iff; [exact P|].
  assert (S : (0 <= qsum (map (fun q => (q - m) * (q - m))%Qc qs))%Qc).
  { clear. induction qs as [|q r IH]; [cbn; qlra|]. cbn [map qsum]. pose proof (qsq_nonneg (q - m)). qlra. }
  match goal with |- (0 * _ <= ?x + _)%Qc => assert (0 <= x)%Qc end.
  { unfold qmean. rewrite map_length. apply Qcle_div_iff; [exact P|]. qlra. }
  qlra.
Qed.
Print Assumptions c49_variance_one_step.
Theorem c49_rejects : forall tcdf pw y p1 p2 h crit,
  let accepted := length y = length p1 /\ length p1 = length p2 /\ (1 <= h < Z.of_nat (length y))%Z /\ In crit ["MSE"; "MAD"; "MAPE"; "poly"]%string in
  (accepted -> exists r, diebold_mariano_test tcdf pw y p1 p2 h crit = Ok r) /\
  (~ accepted -> diebold_mariano_test tcdf pw y p1 p2 h crit = Raise AssertionError).
Proof.
  intros tcdf pw y p1 p2 h crit accepted. unfold diebold_mariano_test.
  destruct (Nat.eqb_spec (length y) (length p1)) as [E1|E1]; cbn [andb]; [|split; [intros (X & _); contradiction|reflexivity]].
  destruct (Nat.eqb_spec (length p1) (length p2)) as [E2|E2]; cbn [passert bind]; [|split; [intros (_ & X & _); contradiction|reflexivity]].
  destruct (Z.leb_spec 1 h) as [H1|H1]; cbn [passert bind]; [|split; [intros (_ & _ & X & _); lia|reflexivity]].
  destruct (Z.ltb_spec h (Z.of_nat (length y))) as [H2|H2]; cbn [passert bind]; [|split; [intros (_ & _ & X & _); lia|reflexivity]].
  destruct (existsb _ _) eqn:Ex; cbn [passert bind].
  - split; [intros _; eexists; reflexivity|]. intros N. exfalso. apply N. repeat split; try assumption.
    apply existsb_exists in Ex as (c & Hc & Ec). apply String.eqb_eq in Ec. subst c. cbn in Hc |- *. tauto.
  - split; [|reflexivity]. intros (_ & _ & _ & X). exfalso.
    assert (T : existsb (String.eqb crit) ["MSE"; "MAPE"; "MAD"; "poly"]%string = true).
    { apply existsb_exists. exists crit. split; [cbn in X |- *; tauto|apply String.eqb_refl]. }
    rewrite T in Ex. discriminate.
Qed.
Print Assumptions c49_rejects.
(** A constant loss differential gives an undefined statistic, at every horizon. *)
Theorem c49_constant : forall tcdf pw y p1 p2 h crit c dm p,
  diebold_mariano_test tcdf pw y p1 p2 h crit = Ok (dm, p) ->
  (forall i, i < length y -> nsub (loss pw crit (nth i y NaN) (nth i p1 NaN)) (loss pw crit (nth i y NaN) (nth i p2 NaN)) = Fin c) ->
  (c = 0%Qc -> dm = ENaN) /\ ((0 < c)%Qc -> dm = EPos) /\ ((c < 0)%Qc -> dm = ENeg).
Proof.
  intros tcdf pw y p1 p2 h crit c dm p H Hc. unfold diebold_mariano_test in H.
  destruct (Nat.eqb_spec (length y) (length p1)) as [E1|E1]; cbn [andb] in H; [|discriminate].
  destruct (Nat.eqb_spec (length p1) (length p2)) as [E2|E2]; cbn [passert bind] in H; [|discriminate].
  destruct (Z.leb_spec 1 h) as [H1|H1]; cbn [passert bind] in H; [|discriminate].
  destruct (Z.ltb_spec h (Z.of_nat (length y))) as [H2|H2]; cbn [passert bind] in H; [|discriminate].
  destruct (existsb _ _); cbn [passert bind] in H; [|discriminate].
  apply (f_equal (fun r => match r with Ok x => fst x | _ => ENaN end)) in H. cbn [fst] in H. subst dm.
  assert (D : differential pw crit y p1 p2 = map Fin (repeat c (length y))).
  { apply (nth_ext _ _ NaN NaN).
    - rewrite (differential_length pw crit y p1 p2 E1 E2), map_length, repeat_length. reflexivity.
    - intros i Hi. rewrite (differential_length pw crit y p1 p2 E1 E2) in Hi.
      rewrite (nth_indep (map Fin _) NaN (Fin c)) by (rewrite map_length, repeat_length; exact Hi). rewrite (map_nth Fin), nth_repeat_c by exact Hi.
      rewrite <- (Hc i Hi). unfold differential.
      rewrite (nth_indep _ NaN ((fun t => nsub (loss pw crit (fst t) (fst (snd t))) (loss pw crit (fst t) (snd (snd t)))) (NaN, (NaN, NaN)))) by (rewrite map_length, !combine_length; lia).
      rewrite (map_nth (fun t => nsub (loss pw crit (fst t) (fst (snd t))) (loss pw crit (fst t) (snd (snd t))))).
      rewrite (combine_nth y (combine p1 p2) i NaN (NaN, NaN)) by (rewrite combine_length; lia). rewrite (combine_nth p1 p2) by lia. reflexivity. }
  rewrite D, dm_stat_constant by lia. destruct (c49_factor (length y) (Z.to_nat h)) as [P _]; [lia|lia|].
  cbn [nsqrt]. destruct (qltb_spec (harvey (length y) (Z.to_nat h)) 0) as [X|X]; [exfalso; qlra|].
  assert (PR : (0 < sqrt (q2r (harvey (length y) (Z.to_nat h))))%R) by (apply sqrt_lt_R0, q2r_pos, P).
  set (s := sqrt _) in *.
  split; [intros ->|split; intros Hs]; unfold einf.
  - rewrite q2r_0. destruct (Rlt_dec 0 0); [exfalso; lra|]. reflexivity.
  - apply q2r_pos in Hs. destruct (Rlt_dec 0 (q2r c)); [|exfalso; lra]. cbn [rmul]. unfold einf. destruct (Rlt_dec 0 s); [reflexivity|contradiction].
  - apply q2r_lt in Hs. rewrite q2r_0 in Hs. destruct (Rlt_dec 0 (q2r c)); [exfalso; lra|]. destruct (Rlt_dec (q2r c) 0); [|contradiction].
    cbn [rmul]. unfold einf. destruct (Rlt_dec 0 s); [reflexivity|contradiction].
Qed.
Print Assumptions c49_constant.
Example c49_nonvacuous : forall tcdf, exists p, diebold_mariano_test tcdf nsq (map nnat [0; 5; 7]) (map nnat [1; 6; 8]) (map nnat [0; 5; 7]) 2 "MAD" = Ok (EPos, p).
Proof.
  intros tcdf. set (y := map nnat [0; 5; 7]). set (p1 := map nnat [1; 6; 8]).
  destruct (proj1 (c49_rejects tcdf nsq y p1 y 2 "MAD")) as ((dm & p) & E); [repeat split; cbn; try lia; tauto|].
  exists p. rewrite E. destruct (c49_constant _ _ _ _ _ _ _ 1%Qc _ _ E) as (_ & K & _).
  - intros [|[|[|i]]] Hi; try (cbn in Hi; lia); ncomp.
  - rewrite K; [reflexivity|reflexivity].
Qed.
(** C49/C64: a negative variance estimate, hence an undefined statistic, is possible for h = 2 *)
Example c49_negative_variance : exists v, dm_variance (map nnat [1; 0; 1; 0]) 2 = Fin v /\ (v < 0)%Qc.
Proof. eexists. split; [vm_compute; reflexivity|reflexivity]. Qed.

(** ** C64: the value of the statistic *)
(** the three losses of finite values *)
Inductive loss_is (a p : Qc) : string -> Qc -> Prop :=
| loss_squared : loss_is a p "MSE" ((a - p) * (a - p))
| loss_absolute v : (0 <= v)%Qc -> (v = a - p \/ v = p - a)%Qc -> loss_is a p "MAD" v
| loss_percent v : a <> 0%Qc -> (0 <= v)%Qc -> (v * a = a - p \/ v * a = p - a)%Qc -> loss_is a p "MAPE" v.
(** mean product of deviations [k] steps apart *)
Definition lagged (d : nat -> Qc) (n k : nat) : Qc :=
  let m := (qsum (map d (seq 0 n)) / qn n)%Qc in
  (qsum (map (fun i => (d (i + k)%nat - m) * (d i - m)) (seq 0 (n - k)%nat)) / qn (n - k)%nat)%Qc.
Lemma autocov_lagged d n k : k < n -> nmean (map Fin (map d (seq 0 n))) = Fin (qsum (map d (seq 0 n)) / qn n)%Qc ->
  autocovariance (map Fin (map d (seq 0 n))) k = Fin (lagged d n k).
Proof. intros Hk M. apply autocov_lagged_at; assumption. Qed.
Lemma loss_is_value pw a p crit v : loss_is a p crit v -> loss pw crit (Fin a) (Fin p) = Fin v.
Proof.
  intros [|w P [E|E]|w Ha P E]; unfold loss; cbn [String.eqb Ascii.eqb Bool.eqb].
  - cbn. f_equal.
  - subst w. cbn. f_equal. change (a + - p)%Qc with (a - p)%Qc. unfold qabs. destruct (qltb_spec (a - p) 0); [exfalso; qlra|reflexivity].
  - subst w. cbn. f_equal. change (a + - p)%Qc with (a - p)%Qc. unfold qabs. destruct (qltb_spec (a - p) 0); qlra.
  - cbn [nsub nadd nopp]. unfold ndiv. destruct (qeqb_spec a 0); [contradiction|]. cbn [nabs]. f_equal.
    destruct E as [E|E].
    + assert (Q : ((a - p) / a = w)%Qc) by (rewrite <- E; field; assumption).
      cbn. unfold Qcminus in Q. rewrite Q. unfold qabs. destruct (qltb_spec w 0); [exfalso; qlra|reflexivity].
    + assert (Q : ((a - p) / a = - w)%Qc) by (replace (a - p)%Qc with (- (w * a))%Qc by (rewrite E; ring); field; assumption).
      unfold Qcminus in Q. rewrite Q. unfold qabs. destruct (qltb_spec (- w) 0); qlra.
Qed.
Theorem c64_value : forall tcdf pw y p1 p2 h crit (l1 l2 : nat -> Qc) dm p,
  let n := length y in
  let d i := (l1 i - l2 i)%Qc in
  let m := (qsum (map d (seq 0 n)) / qn n)%Qc in
  let v := ((lagged d n 0 + (1 + 1) * qsum (map (lagged d n) (seq 1 (Z.to_nat h - 1)))) / qn n)%Qc in
  diebold_mariano_test tcdf pw (map Fin y) (map Fin p1) (map Fin p2) h crit = Ok (dm, p) ->
  (forall i, i < n -> loss_is (nth i y 0%Qc) (nth i p1 0%Qc) crit (l1 i) /\ loss_is (nth i y 0%Qc) (nth i p2 0%Qc) crit (l2 i)) ->
  ((0 < v)%Qc -> dm = EFin (sqrt (INR ((n - Z.to_nat h) * (n - Z.to_nat h + 1))) / INR n * (q2r m / sqrt (q2r v)))) /\
  ((v < 0)%Qc -> dm = ENaN) /\
  (forall x r, dm = EFin x -> tcdf (EFin (- Rabs x)) (n - 1) = EFin r -> p = EFin (r + r)) /\
  (forall r, dm = EPos \/ dm = ENeg -> tcdf ENeg (n - 1) = EFin r -> p = EFin (r + r)) /\
  (dm = ENaN -> tcdf ENaN (n - 1) = ENaN -> p = ENaN).
Proof.
  intros tcdf pw y p1 p2 h crit l1 l2 dm p n d m v H HL. unfold diebold_mariano_test in H. rewrite !map_length in H. fold n in H.
  destruct (Nat.eqb_spec n (length p1)) as [E1|E1]; cbn [andb] in H; [|discriminate].
  destruct (Nat.eqb_spec (length p1) (length p2)) as [E2|E2]; cbn [passert bind] in H; [|discriminate].
  destruct (Z.leb_spec 1 h) as [H1|H1]; cbn [passert bind] in H; [|discriminate].
  destruct (Z.ltb_spec h (Z.of_nat n)) as [H2|H2]; cbn [passert bind] in H; [|discriminate].
  destruct (existsb _ _); cbn [passert bind] in H; [|discriminate].
  pose proof (f_equal (fun r => match r with Ok x => fst x | _ => ENaN end) H) as Hd. cbn [fst] in Hd.
  pose proof (f_equal (fun r => match r with Ok x => snd x | _ => ENaN end) H) as Hp. cbn [snd] in Hp. clear H.
  rewrite Hd in Hp.
  assert (D : differential pw crit (map Fin y) (map Fin p1) (map Fin p2) = map Fin (map d (seq 0 n))).
  { apply (nth_ext _ _ NaN NaN).
    - rewrite differential_length, !map_length, seq_length by (rewrite !map_length; first [exact E1|exact E2|exact Hi]). reflexivity.
    - intros i Hi. rewrite differential_length, map_length in Hi by (rewrite !map_length; first [exact E1|exact E2|exact Hi]). fold n in Hi.
      rewrite differential_nth by (rewrite !map_length; first [exact E1|exact E2|exact Hi]).
      rewrite !(nth_indep (map Fin _) NaN (Fin 0)) by (rewrite !map_length, ?seq_length; unfold n in *; lia).
      rewrite !(map_nth Fin). rewrite (nth_indep (map d _) 0%Qc (d 0)) by (rewrite map_length, seq_length; exact Hi).
      rewrite map_nth, seq_nth by exact Hi. cbn [plus]. unfold d. destruct (HL i Hi) as [A B].
      rewrite (loss_is_value pw _ _ _ _ A), (loss_is_value pw _ _ _ _ B). cbn. f_equal. }
  rewrite D in Hd. set (hh := Z.to_nat h) in *. assert (Hh : 1 <= hh < n) by (unfold hh; lia).
  set (qs := map d (seq 0 n)) in *. assert (Lq : length qs = n) by (unfold qs; rewrite map_length, seq_length; reflexivity).
  assert (Nq : qs <> []) by (intros E; rewrite E in Lq; cbn in Lq; lia).
  assert (Mq : nmean (map Fin qs) = Fin m) by (rewrite nmean_fin by exact Nq; unfold qmean, m; rewrite Lq; reflexivity).
  assert (V : dm_variance (map Fin qs) hh = Fin v).
  { unfold dm_variance. assert (A : forall k, k < n -> autocovariance (map Fin qs) k = Fin (lagged d n k)).
    { intros k Hk. apply autocov_lagged; [exact Hk|]. exact Mq. }
    destruct hh as [|h0] eqn:Eh; [lia|]. cbn [seq map nth tl]. rewrite (A 0) by lia.
    rewrite (map_ext_in (autocovariance (map Fin qs)) (fun k => Fin (lagged d n k)) (seq 1 h0)) by (intros k Hk; apply in_seq in Hk; apply A; lia).
    rewrite <- (map_map (lagged d n) Fin), nsum_fin, map_length, Lq. cbn [nmul nadd]. unfold nnat, ndiv.
    destruct (qeqb_spec (qn n) 0) as [X|X]; [exfalso; revert X; apply qpos_nz, qn_pos; lia|]. f_equal. unfold v.
    replace (S h0 - 1) with h0 by lia. assert (E2' : qz 2 = (1 + 1)%Qc) by (apply Qc_is_canon; reflexivity). rewrite E2'. reflexivity. }
  unfold dm_stat in Hd. rewrite map_length, Lq, Mq, V in Hd.
  destruct (c49_factor n hh) as [PH EH]; [lia|lia|].
  assert (SH : nsqrt (Fin (harvey n hh)) = RFin (sqrt (INR ((n - hh) * (n - hh + 1))) / INR n)).
  { cbn [nsqrt]. destruct (qltb_spec (harvey n hh) 0) as [X|X]; [exfalso; qlra|]. f_equal. rewrite EH.
    assert (Pn : (0 < qn n)%Qc) by (apply qn_pos; lia). assert (Nn : (qn n * qn n)%Qc <> 0%Qc) by (apply qpos_nz, qsq_pos, Pn).
    rewrite q2r_div by exact Nn. rewrite <- qn_mult, q2r_mult, !q2r_qn.
    assert (Pr : (0 < INR n)%R) by (apply lt_0_INR; lia).
    rewrite sqrt_div_alt by nra. rewrite sqrt_square by lra. reflexivity. }
  rewrite SH in Hd. split; [|split].
  - intros Pv. cbn [nsqrt] in Hd. destruct (qltb_spec v 0) as [X|X]; [exfalso; qlra|].
    cbn [ediv] in Hd. assert (Ps : (0 < sqrt (q2r v))%R) by (apply sqrt_lt_R0, q2r_pos, Pv).
    destruct (Req_EM_T (sqrt (q2r v)) 0) as [X0|X0]; [exfalso; lra|]. cbn [rmul] in Hd. symmetry. exact Hd.
  - intros Nv. cbn [nsqrt] in Hd. destruct (qltb_spec v 0) as [X|X]; [|exfalso; qlra]. cbn [ediv rmul] in Hd. symmetry. exact Hd.
  - rewrite <- Hp. split; [|split].
    + intros x r -> T. cbn [eabs eopp]. rewrite T. cbn [edouble]. f_equal. ring.
    + intros r [-> | ->] T; cbn [eabs eopp]; rewrite T; cbn [edouble]; f_equal; ring.
    + intros -> T. cbn [eabs eopp]. rewrite T. reflexivity.
Qed.
Print Assumptions c64_value.
(** the losses of the example are 1, 4 and 0, 1: mean 2, variance estimate 1/2, statistic 2 *)
Example c64_nonvacuous : forall tcdf r, tcdf (EFin (-2)) 1 = EFin r -> diebold_mariano_test tcdf nsq (map Fin [qz 0; qz 0]) (map Fin [qz 1; qz 2]) (map Fin [qz 0; qz 1]) 1 "MSE" = Ok (EFin 2, EFin (2 * r)) /\
  (forall i, i < 2 -> loss_is (nth i [qz 0; qz 0] 0%Qc) (nth i [qz 1; qz 2] 0%Qc) "MSE" (nth i [qz 1; qz 4] 0%Qc)).
Proof.
  intros tcdf r T. split; [etransitivity; [apply c48_nonvacuous|]; rewrite T; reflexivity|].
  intros [|[|i]] Hi; try lia; cbn [nth]; match goal with |- loss_is ?a ?b _ ?v => replace v with ((a - b) * (a - b))%Qc by (apply Qc_is_canon; reflexivity) end; apply loss_squared.
Qed.
(** ** C61 *)
(** The index does not depend on the normalisation: multiplying all frequencies by a positive number keeps it.
    Missing: it is not 0 for a flat histogram. *)
Theorem c61_normalisation_partial : forall qs c,
  (forall q, In q qs -> (0 <= q)%Qc) -> (0 < c)%Qc ->
  reliability_index (map Fin (map (Qcmult c) qs)) = reliability_index (map Fin qs).
Proof.
  intros qs c Hq Hc. unfold reliability_index. rewrite !nsum_fin, qsum_scale.
  assert (N : forall s l, (forall q, In q l -> (0 <= q)%Qc) -> s = qsum l -> s <> 0%Qc ->
     (if neqb (Fin s) (Fin 1) then map Fin l else map (fun x => ndiv x (Fin s)) (map Fin l)) = map Fin (map (fun q => q / s)%Qc l)).
  { intros s l _ _ Hs. unfold neqb. destruct (qeqb_spec s 1) as [->|_].
    - rewrite map_map. apply map_ext. intros q. f_equal. field. discriminate.
    - rewrite !map_map. apply map_ext. intros q. cbn [ndiv]. destruct (qeqb_spec s 0); [contradiction|reflexivity]. }
  destruct (Qc_eq_dec (qsum qs) 0) as [Z|Z].
  - assert (A : map (Qcmult c) qs = qs).
    { assert (Zs : forall q, In q qs -> q = 0%Qc) by (apply qsum_zero_all; assumption).
      rewrite <- (map_id qs) at 2. apply map_ext_in. intros q Hin. rewrite (Zs q Hin). ring. }
    rewrite A, Z. replace (c * 0)%Qc with 0%Qc by ring. reflexivity.
  - assert (Zc : (c * qsum qs)%Qc <> 0%Qc) by (intros E; apply Qcmult_integral in E as [E|E]; [apply (qpos_nz c Hc E)|contradiction]).
    rewrite (N (c * qsum qs)%Qc (map (Qcmult c) qs)).
    + rewrite (N (qsum qs) qs Hq eq_refl Z). rewrite !map_map.
      replace (map (fun x => Fin (c * x / (c * qsum qs))%Qc) qs) with (map (fun x => Fin (x / qsum qs)%Qc) qs); [reflexivity|].
      apply map_ext. intros q. f_equal. field. split; [exact Z|apply qpos_nz, Hc].
    + intros q Hin. apply in_map_iff in Hin as (x & <- & Hx). specialize (Hq x Hx). qnra.
    + symmetry. apply qsum_scale.
    + exact Zc.
Qed.
Print Assumptions c61_normalisation_partial.
(** Every flat histogram has a positive index: the k-th frequency is compared with 1/(k+2) instead of 1/n. *)
Theorem c61_flat_refuted : forall n x, 0 < n -> (0 < x)%Qc ->
  exists v, reliability_index (map Fin (repeat x n)) = Fin v /\ (0 < v)%Qc.
Proof.
  intros n x Hn Hx. assert (Pn : (0 < qn n)%Qc) by (apply qn_pos, Hn).
  assert (S : qsum (repeat x n) = (qn n * x)%Qc) by apply qsum_repeat.
  assert (Z : (qn n * x)%Qc <> 0%Qc) by (apply qpos_nz; qnra).
  unfold reliability_index. rewrite nsum_fin, S.
  assert (E : (if neqb (Fin (qn n * x)) (Fin 1) then map Fin (repeat x n) else map (fun y => ndiv y (Fin (qn n * x))) (map Fin (repeat x n))) = repeat (Fin (/ qn n)%Qc) n).
  { unfold neqb. destruct (qeqb_spec (qn n * x) 1) as [E|_].
    - assert (X : x = (/ qn n)%Qc) by (rewrite <- (Qcmult_1_l (/ qn n)), <- E; field; apply qpos_nz, Pn). rewrite X. apply map_repeat_c.
    - rewrite map_map, map_repeat_c. f_equal. cbn [ndiv]. destruct (qeqb_spec (qn n * x) 0); [contradiction|]. f_equal. field. split; apply qpos_nz; assumption. }
  rewrite E, repeat_length, combine_repeat_c, map_map. cbn [fst snd].
  assert (T : map (fun k => nabs (nsub (Fin (/ qn n)) (ndiv (Fin 1) (nnat k)))) (seq 2 n) = map Fin (map (fun k => qabs (/ qn n - / qn k))%Qc (seq 2 n))).
  { rewrite map_map. apply map_ext_in. intros k Hk. apply in_seq in Hk. unfold nnat, ndiv.
    destruct (qeqb_spec (qn k) 0) as [E0|E0]; [exfalso; revert E0; apply qpos_nz, qn_pos; lia|]. cbn. f_equal. f_equal. unfold Qcdiv. ring. }
  rewrite T, nsum_fin. eexists. split; [reflexivity|]. apply qsum_pos_one.
  - intros y Hy. apply in_map_iff in Hy as (k & <- & _). apply qabs_nonneg.
  - (* the last bin is compared with 1/(n+1) *)
    exists (qabs (/ qn n - / qn (n + 1)))%Qc. split; [apply in_map_iff; exists (n + 1); split; [reflexivity|apply in_seq; lia]|].
    assert (Q : (0 < qn (n + 1))%Qc) by (apply qn_pos; lia).
    assert (D : (/ qn n - / qn (n + 1) = 1 / (qn n * qn (n + 1)))%Qc) by (rewrite qn_plus, qn_1 in *; field; split; apply qpos_nz; assumption).
    assert (PP : (0 < qn n * qn (n + 1))%Qc) by qnra.
    assert (P1 : (0 < 1 / (qn n * qn (n + 1)))%Qc).
    { destruct (Qclt_le_dec 0 (1 / (qn n * qn (n + 1)))) as [|C]; [assumption|]. apply Qcdiv_le_iff in C; [|exact PP]. exfalso. qlra. }
    rewrite D. unfold qabs. destruct (qltb_spec (1 / (qn n * qn (n + 1))) 0); [exfalso; qlra|exact P1].
Qed.
Print Assumptions c61_flat_refuted.
Example c61_nonvacuous : reliability_index (map nnat [3; 3]) = Fin (Q2Qc (1 # 6)) /\ reliability_index (map nnat [1; 3; 0]) = reliability_index (map nnat [2; 6; 0]).
Proof. split; ncomp. Qed.
