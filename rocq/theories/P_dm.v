(** Proofs about the Diebold-Mariano test. *)
From Coq Require Import ZArith String List Lia Bool Arith QArith Qcanon Reals Lra.
From Verif Require Import QcTac QSum Num RTier M_dm.
Import ListNotations.
Open Scope nat_scope.

(** ** Sign and scale on the model's numbers *)
Lemma nopp_nsub a b : nopp (nsub a b) = nsub b a.
Proof. destruct a, b; try reflexivity. cbn. f_equal. ring. Qed.
Lemma nopp_nadd a b : nopp (nadd a b) = nadd (nopp a) (nopp b).
Proof. destruct a, b; try reflexivity. cbn. f_equal. ring. Qed.
Lemma nopp_nopp a : nopp (nopp a) = a.
Proof. destruct a; try reflexivity. cbn. f_equal. ring. Qed.
Lemma nsum_opp l : nsum (map nopp l) = nopp (nsum l).
Proof. induction l as [|x r IH]; [cbn; f_equal; ring|]. cbn [map nsum]. rewrite IH, nopp_nadd. reflexivity. Qed.
Lemma qeqb_refl q : qeqb q q = true.
Proof. destruct (qeqb_spec q q); congruence. Qed.
Lemma qneg_spec q : qneg q = true <-> (q < 0)%Qc.
Proof. unfold qneg. destruct (qltb_spec q 0); split; intros; try congruence; qlra. Qed.
Lemma qneg_opp q : q <> 0%Qc -> qneg (- q)%Qc = negb (qneg q).
Proof.
  intros H. unfold qneg. destruct (qltb_spec q 0), (qltb_spec (- q) 0); cbn; try reflexivity; exfalso; [qlra|].
  apply H. qlra.
Qed.
Lemma ndiv_opp_nat a n : ndiv (nopp a) (nnat n) = nopp (ndiv a (nnat n)).
Proof.
  destruct a as [q| | |]; cbn; try reflexivity.
  - destruct (qeqb_spec (qn n) 0) as [E|E].
    + destruct (qeqb_spec q 0) as [->|Hq]; [destruct (qeqb_spec (-0) 0) as [|X]; [reflexivity|exfalso; apply X; ring]|].
      destruct (qeqb_spec (- q) 0) as [X|X]; [exfalso; apply Hq; qlra|]. cbn. rewrite qneg_opp by exact Hq. destruct (qneg q); reflexivity.
    + cbn. f_equal. unfold Qcdiv. ring.
  - destruct (qneg (qn n)); reflexivity.
  - destruct (qneg (qn n)); reflexivity.
Qed.
Lemma nmean_opp l : nmean (map nopp l) = nopp (nmean l).
Proof. unfold nmean. rewrite nsum_opp, map_length, ndiv_opp_nat. reflexivity. Qed.
Lemma nmul_opp_opp a b : nmul (nopp a) (nopp b) = nmul a b.
Proof.
  destruct a as [p| | |], b as [q| | |]; cbn; try reflexivity.
  - f_equal. ring.
  - destruct (qeqb_spec p 0) as [->|Hp]; [destruct (qeqb_spec (-0) 0) as [|X]; [reflexivity|exfalso; apply X; ring]|].
    destruct (qeqb_spec (- p) 0) as [X|X]; [exfalso; apply Hp; qlra|]. rewrite qneg_opp by exact Hp. destruct (qneg p); reflexivity.
  - destruct (qeqb_spec p 0) as [->|Hp]; [destruct (qeqb_spec (-0) 0) as [|X]; [reflexivity|exfalso; apply X; ring]|].
    destruct (qeqb_spec (- p) 0) as [X|X]; [exfalso; apply Hp; qlra|]. rewrite qneg_opp by exact Hp. destruct (qneg p); reflexivity.
  - destruct (qeqb_spec q 0) as [->|Hp]; [destruct (qeqb_spec (-0) 0) as [|X]; [reflexivity|exfalso; apply X; ring]|].
    destruct (qeqb_spec (- q) 0) as [X|X]; [exfalso; apply Hp; qlra|]. rewrite qneg_opp by exact Hp. destruct (qneg q); reflexivity.
  - destruct (qeqb_spec q 0) as [->|Hp]; [destruct (qeqb_spec (-0) 0) as [|X]; [reflexivity|exfalso; apply X; ring]|].
    destruct (qeqb_spec (- q) 0) as [X|X]; [exfalso; apply Hp; qlra|]. rewrite qneg_opp by exact Hp. destruct (qneg q); reflexivity.
Qed.
Lemma nsub_opp_opp a b : nsub (nopp a) (nopp b) = nopp (nsub a b).
Proof. unfold nsub. rewrite nopp_nadd. reflexivity. Qed.

(** ** Scaling by a positive factor *)
Definition nsc (k : Qc) (x : num) : num := match x with Fin q => Fin (k * q)%Qc | y => y end.
Lemma qpos_nz k : (0 < k)%Qc -> k <> 0%Qc. Proof. intros H E. rewrite E in H. revert H. apply Qlt_irrefl. Qed.
Lemma qneg_pos k : (0 < k)%Qc -> qneg k = false.
Proof. intros H. unfold qneg. destruct (qltb_spec k 0); [exfalso; qlra|reflexivity]. Qed.
Lemma qneg_mul k q : (0 < k)%Qc -> qneg (k * q)%Qc = qneg q.
Proof. intros H. unfold qneg. destruct (qltb_spec q 0), (qltb_spec (k * q) 0); try reflexivity; exfalso; qnra. Qed.
Lemma qmul_zero k q : (0 < k)%Qc -> qeqb (k * q)%Qc 0 = qeqb q 0.
Proof.
  intros H. destruct (qeqb_spec q 0) as [Hq|Hq], (qeqb_spec (k * q) 0) as [E|E]; try reflexivity; exfalso.
  - apply E. rewrite Hq. ring.
  - apply Qcmult_integral in E as [E|E]; [apply (qpos_nz k H E)|contradiction].
Qed.
Lemma nmul_nsc k x : (0 < k)%Qc -> nmul (Fin k) x = nsc k x.
Proof.
  intros H. destruct x; cbn; try reflexivity; (destruct (qeqb_spec k 0) as [E|E]; [exfalso; apply (qpos_nz k H E)|]); rewrite (qneg_pos k H); reflexivity.
Qed.
Lemma nsc_add k a b : nsc k (nadd a b) = nadd (nsc k a) (nsc k b).
Proof. destruct a, b; try reflexivity. cbn. f_equal. ring. Qed.
Lemma nsc_opp k a : nsc k (nopp a) = nopp (nsc k a).
Proof. destruct a; try reflexivity. cbn. f_equal. ring. Qed.
Lemma nsc_sub k a b : nsc k (nsub a b) = nsub (nsc k a) (nsc k b).
Proof. unfold nsub. rewrite nsc_add, nsc_opp. reflexivity. Qed.
Lemma nsum_nsc k l : nsum (map (nsc k) l) = nsc k (nsum l).
Proof. induction l as [|x r IH]; [cbn; f_equal; ring|]. cbn [map nsum]. rewrite IH, nsc_add. reflexivity. Qed.
Lemma ndiv_nsc_nat k a n : (0 < k)%Qc -> ndiv (nsc k a) (nnat n) = nsc k (ndiv a (nnat n)).
Proof.
  intros H. destruct a as [q| | |]; cbn; try reflexivity.
  - destruct (qeqb_spec (qn n) 0) as [E|E].
    + rewrite qmul_zero, qneg_mul by exact H. destruct (qeqb q 0); [reflexivity|]. destruct (qneg q); reflexivity.
    + cbn. f_equal. unfold Qcdiv. ring.
  - destruct (qneg (qn n)); reflexivity.
  - destruct (qneg (qn n)); reflexivity.
Qed.
Lemma nmean_nsc k l : (0 < k)%Qc -> nmean (map (nsc k) l) = nsc k (nmean l).
Proof. intros H. unfold nmean. rewrite nsum_nsc, map_length, ndiv_nsc_nat by exact H. reflexivity. Qed.
Lemma nmul_nsc2 k a b : (0 < k)%Qc -> nmul (nsc k a) (nsc k b) = nsc (k * k) (nmul a b).
Proof.
  intros H. destruct a as [p| | |], b as [q| | |]; cbn; try reflexivity.
  - f_equal. ring.
  - rewrite qmul_zero, qneg_mul by exact H. destruct (qeqb p 0); [reflexivity|]. destruct (qneg p); reflexivity.
  - rewrite qmul_zero, qneg_mul by exact H. destruct (qeqb p 0); [reflexivity|]. destruct (qneg p); reflexivity.
  - rewrite qmul_zero, qneg_mul by exact H. destruct (qeqb q 0); [reflexivity|]. destruct (qneg q); reflexivity.
  - rewrite qmul_zero, qneg_mul by exact H. destruct (qeqb q 0); [reflexivity|]. destruct (qneg q); reflexivity.
Qed.
Lemma nabs_nsc k a : (0 < k)%Qc -> nabs (nsc k a) = nsc k (nabs a).
Proof.
  intros H. destruct a as [q| | |]; cbn; try reflexivity. f_equal. unfold qabs.
  repeat match goal with |- context [qleb ?a ?b] => destruct (qleb_spec a b) | |- context [qltb ?a ?b] => destruct (qltb_spec a b) end; try ring; exfalso; qnra.
Qed.

(** ** The statistic *)
Lemma combine_map_both {A B} (f : A -> B) l m : combine (map f l) (map f m) = map (fun p => (f (fst p), f (snd p))) (combine l m).
Proof. revert m. induction l as [|x l IH]; intros [|y m]; cbn; try reflexivity. rewrite IH. reflexivity. Qed.
Lemma skipn_map {A B} (f : A -> B) k l : skipn k (map f l) = map f (skipn k l).
Proof. revert l. induction k as [|k IH]; intros [|x l]; cbn; try reflexivity. apply IH. Qed.
Lemma autocov_opp d k : autocovariance (map nopp d) k = autocovariance d k.
Proof.
  unfold autocovariance. rewrite skipn_map, map_length, firstn_map, nmean_opp, combine_map_both, map_map. f_equal.
  apply map_ext. intros [a b]. cbn [fst snd]. rewrite !nsub_opp_opp, nmul_opp_opp. reflexivity.
Qed.
Lemma qsq_pos k : (0 < k)%Qc -> (0 < k * k)%Qc. Proof. intros. qnra. Qed.
Lemma autocov_nsc c d k : (0 < c)%Qc -> autocovariance (map (nsc c) d) k = nsc (c * c) (autocovariance d k).
Proof.
  intros H. unfold autocovariance. rewrite skipn_map, map_length, firstn_map, nmean_nsc, combine_map_both, map_map by exact H.
  rewrite <- (nmean_nsc (c * c)) by (apply qsq_pos, H). rewrite map_map. f_equal.
  apply map_ext. intros [a b]. cbn [fst snd]. rewrite <- !nsc_sub, nmul_nsc2 by exact H. reflexivity.
Qed.
Lemma variance_opp d h : dm_variance (map nopp d) h = dm_variance d h.
Proof.
  unfold dm_variance. rewrite map_length. replace (map (autocovariance (map nopp d)) (seq 0 h)) with (map (autocovariance d) (seq 0 h)); [reflexivity|].
  apply map_ext. intros k. symmetry. apply autocov_opp.
Qed.
Lemma variance_nsc c d h : (0 < c)%Qc -> dm_variance (map (nsc c) d) h = nsc (c * c) (dm_variance d h).
Proof.
  intros H. pose proof (qsq_pos c H) as H2. unfold dm_variance. rewrite map_length.
  assert (E : map (autocovariance (map (nsc c) d)) (seq 0 h) = map (nsc (c * c)) (map (autocovariance d) (seq 0 h))).
  { rewrite map_map. apply map_ext. intros k. apply autocov_nsc, H. }
  rewrite E. set (g := map (autocovariance d) (seq 0 h)).
  rewrite <- (ndiv_nsc_nat (c * c)) by exact H2. f_equal. rewrite nsc_add. f_equal.
  - destruct g; reflexivity.
  - replace (tl (map (nsc (c * c)) g)) with (map (nsc (c * c)) (tl g)) by (destruct g; reflexivity). rewrite nsum_nsc.
    assert (P2 : (0 < qz 2)%Qc) by reflexivity. rewrite !(nmul_nsc (qz 2)) by exact P2. destruct (nsum (tl g)); try reflexivity. cbn. f_equal. ring.
Qed.
Lemma ediv_opp a s : ediv (nopp a) s = eopp (ediv a s).
Proof.
  destruct a as [q| | |], s as [r| |]; cbn; try reflexivity.
  - rewrite q2r_opp. destruct (Req_EM_T r 0) as [->|Hr].
    + unfold einf. destruct (Rlt_dec 0 (- q2r q)), (Rlt_dec (- q2r q) 0), (Rlt_dec 0 (q2r q)), (Rlt_dec (q2r q) 0); try reflexivity; exfalso; lra.
    + cbn. f_equal. unfold Rdiv. ring.
  - f_equal. ring.
Qed.
Lemma rmul_opp a x : rmul a (eopp x) = eopp (rmul a x).
Proof.
  destruct a as [r| |], x as [s| | |]; cbn; try reflexivity.
  - f_equal. ring.
  - unfold einf. destruct (Rlt_dec 0 r), (Rlt_dec r 0); reflexivity.
  - unfold einf. destruct (Rlt_dec 0 (- s)), (Rlt_dec (- s) 0), (Rlt_dec 0 s), (Rlt_dec s 0); try reflexivity; exfalso; lra.
Qed.
Lemma eabs_opp x : eabs (eopp x) = eabs x.
Proof. destruct x; cbn; try reflexivity. rewrite Rabs_Ropp. reflexivity. Qed.
Lemma dm_stat_opp d h : dm_stat (map nopp d) h = eopp (dm_stat d h).
Proof. unfold dm_stat. rewrite map_length, nmean_opp, variance_opp, ediv_opp, rmul_opp. reflexivity. Qed.
Lemma q2r_pos c : (0 < c)%Qc -> (0 < q2r c)%R. Proof. intros H. apply q2r_lt in H. rewrite q2r_0 in H. exact H. Qed.
Lemma ediv_nsc c a v : (0 < c)%Qc -> ediv (nsc c a) (nsqrt (nsc (c * c) v)) = ediv a (nsqrt v).
Proof.
  intros H. pose proof (q2r_pos c H) as Hr.
  assert (S : forall q, qltb (c * c * q) 0 = qltb q 0).
  { intros q. destruct (qltb_spec q 0), (qltb_spec (c * c * q) 0); try reflexivity; exfalso; pose proof (qsq_pos c H); qnra. }
  destruct v as [q| | |]; cbn [nsc nsqrt]; try (destruct a; reflexivity).
  rewrite S. destruct (qltb_spec q 0) as [Hq|Hq]; [destruct a; reflexivity|].
  assert (Hq' : (0 <= q2r q)%R) by (rewrite <- q2r_0; apply q2r_le; qlra).
  assert (E : sqrt (q2r (c * c * q)) = (q2r c * sqrt (q2r q))%R).
  { rewrite !q2r_mult, sqrt_mult by (try assumption; nra). rewrite sqrt_square by lra. reflexivity. }
  rewrite E. destruct a as [p| | |]; cbn [nsc ediv]; try reflexivity.
  destruct (Req_EM_T (sqrt (q2r q)) 0) as [E0|E0].
  - rewrite E0, Rmult_0_r. destruct (Req_EM_T 0 0); [|congruence]. rewrite q2r_mult. unfold einf.
    destruct (Rlt_dec 0 (q2r c * q2r p)), (Rlt_dec (q2r c * q2r p) 0), (Rlt_dec 0 (q2r p)), (Rlt_dec (q2r p) 0); try reflexivity; exfalso; nra.
  - destruct (Req_EM_T (q2r c * sqrt (q2r q)) 0) as [E1|E1]; [exfalso; apply Rmult_integral in E1 as [E1|E1]; [lra|contradiction]|].
    f_equal. rewrite q2r_mult. field. split; [exact E0|lra].
Qed.
Lemma dm_stat_nsc c d h : (0 < c)%Qc -> dm_stat (map (nsc c) d) h = dm_stat d h.
Proof. intros H. unfold dm_stat. rewrite map_length, nmean_nsc, variance_nsc by exact H. rewrite ediv_nsc by exact H. reflexivity. Qed.

(** ** The loss differential *)
Lemma combine_swap {A B} (l : list A) (m : list B) : combine m l = map (fun p => (snd p, fst p)) (combine l m).
Proof. revert m. induction l as [|x l IH]; intros [|y m]; cbn; try reflexivity. rewrite IH. reflexivity. Qed.
Lemma combine_map_r {A B C} (f : B -> C) (l : list A) m : combine l (map f m) = map (fun p => (fst p, f (snd p))) (combine l m).
Proof. revert m. induction l as [|x l IH]; intros [|y m]; cbn; try reflexivity. rewrite IH. reflexivity. Qed.
Lemma combine_map_l {A B C} (f : A -> C) l (m : list B) : combine (map f l) m = map (fun p => (f (fst p), snd p)) (combine l m).
Proof. revert m. induction l as [|x l IH]; intros [|y m]; cbn; try reflexivity. rewrite IH. reflexivity. Qed.
Lemma differential_swap pw crit a p1 p2 : differential pw crit a p2 p1 = map nopp (differential pw crit a p1 p2).
Proof.
  unfold differential. rewrite (combine_swap p1 p2), combine_map_r, !map_map. apply map_ext. intros [x [y z]]. cbn [fst snd].
  symmetry. apply nopp_nsub.
Qed.
Lemma differential_map pw crit f g a p1 p2 : (forall x y, loss pw crit (f x) (f y) = g (loss pw crit x y)) ->
  differential pw crit (map f a) (map f p1) (map f p2) =
  map (fun t => nsub (g (loss pw crit (fst t) (fst (snd t)))) (g (loss pw crit (fst t) (snd (snd t))))) (combine a (combine p1 p2)).
Proof.
  intros H. unfold differential. rewrite combine_map_both, combine_map_l, combine_map_r, !map_map.
  apply map_ext. intros [x [y z]]. cbn [fst snd]. rewrite !H. reflexivity.
Qed.
Lemma differential_length pw crit a p1 p2 : length a = length p1 -> length p1 = length p2 -> length (differential pw crit a p1 p2) = length a.
Proof. intros H1 H2. unfold differential. rewrite map_length, combine_length, combine_length. lia. Qed.

(** ** Constant differentials *)
Lemma nth_repeat_c {A} (c d : A) n i : i < n -> nth i (repeat c n) d = c.
Proof. revert i. induction n as [|n IH]; intros [|i] H; cbn; try lia; [reflexivity|]. apply IH. lia. Qed.
Lemma map_repeat_c {A B} (f : A -> B) c n : map f (repeat c n) = repeat (f c) n.
Proof. induction n as [|n IH]; cbn; [reflexivity|]. rewrite IH. reflexivity. Qed.
Lemma combine_repeat_c {A} (c : A) n s : combine (repeat c n) (seq s n) = map (fun k => (c, k)) (seq s n).
Proof. revert s. induction n as [|n IH]; intros s; cbn; [reflexivity|]. rewrite IH. reflexivity. Qed.
Lemma qsum_repeat c n : qsum (repeat c n) = (qn n * c)%Qc.
Proof. induction n as [|n IH]; [cbn [repeat qsum]; rewrite qn_0; ring|]. cbn [repeat qsum]. rewrite IH, qn_S. ring. Qed.
Lemma nmean_repeat c n : 0 < n -> nmean (repeat (Fin c) n) = Fin c.
Proof.
  intros H. rewrite <- (map_repeat_c Fin), nmean_fin by (destruct n; [lia|discriminate]). unfold qmean.
  rewrite qsum_repeat, repeat_length. f_equal. field. apply qpos_nz, qn_pos, H.
Qed.
Lemma combine_repeat2 {A} (c : A) n m : combine (repeat c n) (repeat c m) = repeat (c, c) (min n m).
Proof. revert m. induction n as [|n IH]; intros [|m]; cbn; try reflexivity. rewrite IH. reflexivity. Qed.
Lemma skipn_repeat {A} (c : A) n k : skipn k (repeat c n) = repeat c (n - k).
Proof. revert n. induction k as [|k IH]; intros [|n]; cbn; try reflexivity. apply IH. Qed.
Lemma firstn_repeat {A} (c : A) n k : firstn k (repeat c n) = repeat c (min k n).
Proof. revert n. induction k as [|k IH]; intros [|n]; cbn; try reflexivity. rewrite IH. reflexivity. Qed.
Lemma autocov_repeat c n k : k < n -> autocovariance (repeat (Fin c) n) k = Fin 0.
Proof.
  intros H. unfold autocovariance. rewrite nmean_repeat, skipn_repeat, repeat_length, firstn_repeat, combine_repeat2, map_repeat_c by lia. cbn [fst snd].
  replace (nmul (nsub (Fin c) (Fin c)) (nsub (Fin c) (Fin c))) with (Fin 0) by (cbn; f_equal; ring). apply nmean_repeat. lia.
Qed.
Lemma variance_repeat c n h : 1 <= h -> h < n -> dm_variance (repeat (Fin c) n) h = Fin 0.
Proof.
  intros H1 H2. unfold dm_variance. rewrite repeat_length.
  assert (E : map (autocovariance (repeat (Fin c) n)) (seq 0 h) = repeat (Fin 0) h).
  { assert (G : forall s m, s + m <= n -> map (autocovariance (repeat (Fin c) n)) (seq s m) = repeat (Fin 0) m).
    { intros s m. revert s. induction m as [|m IH]; intros s Hs; [reflexivity|]. cbn [seq map repeat]. rewrite autocov_repeat by lia. rewrite IH by lia. reflexivity. }
    apply G. lia. }
  rewrite E. destruct h as [|h]; [lia|]. cbn [repeat nth tl]. rewrite <- (map_repeat_c Fin), nsum_fin, qsum_repeat. cbn [nmul nadd].
  unfold nnat, ndiv. destruct (qeqb_spec (qn n) 0) as [X|X]; [exfalso; revert X; apply qpos_nz, qn_pos; lia|]. f_equal. unfold Qcdiv. ring.
Qed.
Lemma dm_stat_constant c n h : 1 <= h -> h < n -> dm_stat (map Fin (repeat c n)) h = rmul (nsqrt (Fin (harvey n h))) (einf (q2r c)).
Proof.
  intros H1 H2. unfold dm_stat. rewrite map_repeat_c, repeat_length, nmean_repeat, variance_repeat by lia.
  assert (E : nsqrt (Fin 0) = RFin 0) by (cbn; rewrite q2r_0, sqrt_0; reflexivity). rewrite E. cbn [ediv]. destruct (Req_EM_T 0 0); [reflexivity|congruence].
Qed.

(** ** Sums *)
Lemma qsum_scale c l : qsum (map (Qcmult c) l) = (c * qsum l)%Qc.
Proof. induction l as [|x r IH]; [cbn; ring|]. cbn [map qsum]. rewrite IH. ring. Qed.
Lemma qsum_nonneg0 l : (forall q, In q l -> (0 <= q)%Qc) -> (0 <= qsum l)%Qc.
Proof. induction l as [|x r IH]; intros H; [cbn; qlra|]. cbn [qsum]. pose proof (H x (or_introl eq_refl)). specialize (IH (fun q Hq => H q (or_intror Hq))). qlra. Qed.
Lemma qsum_zero_all l : (forall q, In q l -> (0 <= q)%Qc) -> qsum l = 0%Qc -> forall q, In q l -> q = 0%Qc.
Proof.
  induction l as [|x r IH]; intros H E q Hq; [contradiction|]. cbn [qsum] in E.
  pose proof (H x (or_introl eq_refl)). pose proof (qsum_nonneg0 r (fun q Hq => H q (or_intror Hq))).
  destruct Hq as [<-|Hq]; [qlra|]. apply IH; [intros; apply H; right; assumption|qlra|exact Hq].
Qed.
Lemma qsum_pos_one l : (forall q, In q l -> (0 <= q)%Qc) -> (exists q, In q l /\ (0 < q)%Qc) -> (0 < qsum l)%Qc.
Proof.
  intros H (q & Hin & Hq). destruct (Qclt_le_dec 0 (qsum l)) as [|C]; [assumption|]. exfalso.
  pose proof (qsum_nonneg0 l H). assert (E : qsum l = 0%Qc) by qlra. pose proof (qsum_zero_all l H E q Hin). subst q. qlra.
Qed.
Lemma qabs_nonneg q : (0 <= qabs q)%Qc.
Proof. unfold qabs. destruct (qltb_spec q 0); qlra. Qed.

(** ** The statistic of finite series *)
Lemma differential_nth pw crit y p1 p2 i : length y = length p1 -> length p1 = length p2 ->
  i < length y ->
  nth i (differential pw crit y p1 p2) NaN = nsub (loss pw crit (nth i y NaN) (nth i p1 NaN)) (loss pw crit (nth i y NaN) (nth i p2 NaN)).
Proof.
  intros E1 E2 Hi. unfold differential.
  rewrite (nth_indep _ NaN ((fun t => nsub (loss pw crit (fst t) (fst (snd t))) (loss pw crit (fst t) (snd (snd t)))) (NaN, (NaN, NaN)))) by (rewrite map_length, !combine_length; lia).
  rewrite (map_nth (fun t => nsub (loss pw crit (fst t) (fst (snd t))) (loss pw crit (fst t) (snd (snd t))))).
  rewrite (combine_nth y (combine p1 p2) i NaN (NaN, NaN)) by (rewrite combine_length; lia). rewrite (combine_nth p1 p2) by lia. reflexivity.
Qed.
Lemma q2r_qn n : q2r (qn n) = INR n.
Proof. induction n as [|n IH]; [rewrite qn_0; apply q2r_0|]. rewrite qn_S, q2r_plus, q2r_1, IH, S_INR. ring. Qed.
Lemma combine_lagged {A} (d : nat -> A) n k : k <= n ->
  combine (skipn k (map d (seq 0 n))) (firstn (n - k) (map d (seq 0 n))) = map (fun i => (d (i + k), d i)) (seq 0 (n - k)).
Proof.
  intros Hk. apply (nth_ext _ _ (d 0, d 0) (d 0, d 0)).
  - rewrite combine_length, skipn_length, firstn_length, !map_length, !seq_length. lia.
  - intros i Hi. rewrite combine_length, skipn_length, firstn_length, !map_length, !seq_length in Hi.
    assert (Hi' : i < n - k) by lia. clear Hi.
    rewrite combine_nth by (rewrite skipn_length, firstn_length, !map_length, !seq_length; lia).
    rewrite (nth_indep (map (fun i => (d (i + k), d i)) _) (d 0, d 0) (d (0 + k), d 0)) by (rewrite map_length, seq_length; exact Hi').
    rewrite (map_nth (fun i => (d (i + k), d i))), seq_nth by exact Hi'. cbn [plus].
    assert (N : forall j, j < n -> nth j (map d (seq 0 n)) (d 0) = d j) by (intros j Hj; rewrite map_nth, seq_nth by exact Hj; reflexivity).
    f_equal.
    + rewrite <- (firstn_skipn k (map d (seq 0 n))) in N. specialize (N (k + i)). rewrite app_nth2 in N by (rewrite firstn_length, map_length, seq_length; lia).
      rewrite firstn_length, map_length, seq_length in N. replace (k + i - Nat.min k n) with i in N by lia. rewrite N by lia. f_equal. lia.
    + specialize (N i). rewrite <- (firstn_skipn (n - k) (map d (seq 0 n))) in N. rewrite app_nth1 in N by (rewrite firstn_length, map_length, seq_length; lia). apply N. lia.
Qed.
Lemma autocov_lagged_at (d : nat -> Qc) n k m : k < n -> nmean (map Fin (map d (seq 0 n))) = Fin m ->
  autocovariance (map Fin (map d (seq 0 n))) k = Fin (qsum (map (fun i => (d (i + k)%nat - m) * (d i - m)) (seq 0 (n - k)%nat)) / qn (n - k)%nat)%Qc.
Proof.
  intros Hk M. unfold autocovariance. rewrite M, !map_length, seq_length, map_map, combine_lagged, map_map by lia. cbn [fst snd].
  replace (map (fun x => nmul (nsub (Fin (d (x + k))) (Fin m)) (nsub (Fin (d x)) (Fin m))) (seq 0 (n - k)))
     with (map Fin (map (fun i => (d (i + k)%nat - m) * (d i - m))%Qc (seq 0 (n - k)))) by (rewrite map_map; apply map_ext; intros i; reflexivity).
  rewrite nmean_fin. - unfold qmean. rewrite map_length, seq_length. reflexivity.
  - destruct (n - k) eqn:E; [lia|discriminate].
Qed.
