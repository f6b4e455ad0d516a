(** Properties C45, C46, C66: integrated mean, variance and CRPS. *)
From Coq Require Import ZArith String Ascii List Lia Bool Arith QArith Qcanon Permutation Reals Lra.
From Verif Require Import QcTac QSum Num NdArr Numpy RTier M_ens M_integ P_integ P_integ2 Props_integ P_integ3.
Import ListNotations.
Open Scope nat_scope.

(** ** C45 *)
(** [F] is a distribution function as far as the sums can tell *)
Definition distribution (F : Qc -> Qc) : Prop := (forall x y, (x <= y)%Qc -> (F x <= F y)%Qc) /\ forall x, (0 <= F x)%Qc /\ (F x <= 1)%Qc.
(** the call returned [q] at cell [ix] *)
Definition returned (x : res (arr num) * proc * fs) (ix : list nat) (q : Qc) : Prop := exists a, result x = Ok a /\ get a ix = Fin q.
Theorem c45_mean_range : forall pyint expanduser isdir wait v lo hi n w l dir s f a ix F,
  let x := run (integrate pyint expanduser isdir wait KMean v (Some (Fin lo, Fin hi)) n w l dir) s f in
  settings_ok pyint s -> (lo <= hi)%Qc -> 2 <= n -> valid (shape (v_o v)) ix -> cell_cdf v ix F -> distribution F -> result x = Ok a ->
  exists m, returned x ix m /\ (lo * (F hi - F lo) <= m)%Qc /\ (m <= hi * (F hi - F lo))%Qc.
Proof.
  intros pyint expanduser isdir wait v lo hi n w l dir s f a ix F x O Hlh Hn V HF [Mono _] R.
  pose proof (integrate_value pyint expanduser isdir wait _ v (Some (Fin lo, Fin hi)) lo hi n w l dir s f a ix F O eq_refl R Hn HF V) as E. cbv zeta in E.
  eexists. split; [exists a; split; [exact R|exact E]|].
  pose proof (mean_sum_between (grid lo hi n) (fun j => F (grid lo hi n j)) (n - 1) lo hi) as B. cbv beta in B.
  rewrite grid_last, grid_first in B by exact Hn. apply B.
  - intros k _. rewrite <- (grid_first lo hi n) at 1. apply grid_le; try assumption. lia.
  - intros k Hk. rewrite <- (grid_last lo hi n Hn) at 2. apply grid_le; assumption.
  - intros k _. apply Mono, grid_mono; assumption.
Qed.
Print Assumptions c45_mean_range.
Theorem c45_variance : forall pyint expanduser isdir wait v lo hi n w l dir s f a ix F,
  let x := run (integrate pyint expanduser isdir wait KVariance v (Some (Fin lo, Fin hi)) n w l dir) s f in
  settings_ok pyint s -> (lo <= hi)%Qc -> 2 <= n -> valid (shape (v_o v)) ix -> cell_cdf v ix F -> distribution F -> result x = Ok a ->
  exists q, returned x ix q /\ (0 <= q)%Qc.
Proof.
  intros pyint expanduser isdir wait v lo hi n w l dir s f a ix F x O Hlh Hn V HF [Mono Unit] R.
  pose proof (integrate_value pyint expanduser isdir wait _ v (Some (Fin lo, Fin hi)) lo hi n w l dir s f a ix F O eq_refl R Hn HF V) as E. cbv zeta in E.
  eexists. split; [exists a; split; [exact R|exact E]|]. apply (variance_nonneg (grid lo hi n) (fun j => F (grid lo hi n j))).
  - intros k _. apply Mono, grid_mono; assumption.
  - destruct (Unit (grid lo hi n (n - 1))), (Unit (grid lo hi n 0)). qlra.
Qed.
Print Assumptions c45_variance.
(** whatever the observation is, NaN and infinities included *)
Theorem c45_crps : forall pyint expanduser isdir wait v lo hi n w l dir s f a ix F,
  let x := run (integrate pyint expanduser isdir wait KCrps v (Some (Fin lo, Fin hi)) n w l dir) s f in
  settings_ok pyint s -> (lo <= hi)%Qc -> 2 <= n -> valid (shape (v_o v)) ix -> cell_cdf v ix F -> distribution F -> result x = Ok a ->
  exists q, returned x ix q /\ (0 <= q)%Qc /\ (q <= hi - lo)%Qc.
Proof.
  intros pyint expanduser isdir wait v lo hi n w l dir s f a ix F x O Hlh Hn V HF [Mono Unit] R.
  pose proof (integrate_value pyint expanduser isdir wait _ v (Some (Fin lo, Fin hi)) lo hi n w l dir s f a ix F O eq_refl R Hn HF V) as E. cbv zeta in E.
  eexists. split; [exists a; split; [exact R|exact E]|].
  pose proof (trapezium_between (grid lo hi n) (fun j => brier_of (get (v_o v) ix) F (grid lo hi n j)) (n - 1)) as B.
  rewrite grid_last, grid_first in B by exact Hn. apply B.
  - intros k _. apply grid_mono; assumption.
  - intros k _. unfold brier_of. apply qsq_nonneg.
  - intros k _. unfold brier_of. destruct (Unit (grid lo hi n k)) as [U0 U1]. destruct (nlt _ _); qnra.
Qed.
Print Assumptions c45_crps.
(** [X] is any random variable with values in ( lo, hi ] whose distribution function is the one the verifier evaluates *)
Theorem c45_half_bin : forall pyint expanduser isdir wait v lo hi n w l dir s f a ix F (X : expectation (q2r lo) (q2r hi)),
  let x := run (integrate pyint expanduser isdir wait KMean v (Some (Fin lo, Fin hi)) n w l dir) s f in
  settings_ok pyint s -> (lo <= hi)%Qc -> 2 <= n -> valid (shape (v_o v)) ix -> cell_cdf v ix F ->
  (forall y, q2r (F y) = expect X (fun t => if Rle_dec t (q2r y) then 1 else 0)%R) -> result x = Ok a ->
  exists m, returned x ix m /\ (Rabs (q2r m - expect X (fun t => t)) <= (q2r hi - q2r lo) / INR (n - 1) / 2)%R.
Proof.
  intros pyint expanduser isdir wait v lo hi n w l dir s f a ix F X x O Hlh Hn V HF HX R.
  pose proof (integrate_value pyint expanduser isdir wait _ v (Some (Fin lo, Fin hi)) lo hi n w l dir s f a ix F O eq_refl R Hn HF V) as E. cbv zeta in E.
  eexists. split; [exists a; split; [exact R|exact E]|].
  rewrite <- (steps_mean _ _ X) by (intros k _; apply HX).
  assert (N : qn (n - 1) <> 0%Qc) by (apply qn_neq0; lia).
  assert (Q : q2r (qn (n - 1)) = INR (n - 1)).
  { unfold q2r, qn. clear. induction (n - 1) as [|k IH]; [cbn; unfold Q2R; cbn; lra|]. rewrite S_INR, <- IH. fold (qn k). fold (qn (S k)). change (q2r (qn (S k)) = q2r (qn k) + 1)%R. rewrite qn_S, q2r_plus, q2r_1. ring. }
  apply half_a_bin.
  - intros k. rewrite <- q2r_minus, grid_step, q2r_div, q2r_minus, Q by exact N. split; [|lra].
    apply Rmult_le_pos; [apply q2r_le in Hlh; lra|]. apply Rlt_le, Rinv_0_lt_compat, lt_0_INR. lia.
  - rewrite grid_first. reflexivity.
  - rewrite grid_last by exact Hn. reflexivity.
Qed.
Print Assumptions c45_half_bin.

(** ** C66 *)
(** All the mass at the lower end of the range, wherever that is: the integrated mean is 0, and so is the mean square. *)
Theorem c66_lower_end_refuted : forall pyint expanduser isdir wait v lo hi n w l dir s f a ix F,
  let x := run (integrate pyint expanduser isdir wait KMean v (Some (Fin lo, Fin hi)) n w l dir) s f in
  settings_ok pyint s -> (lo <= hi)%Qc -> 2 <= n -> valid (shape (v_o v)) ix -> cell_cdf v ix F -> (forall y, (lo <= y)%Qc -> F y = 1%Qc) -> result x = Ok a ->
  returned x ix 0%Qc.
Proof.
  intros pyint expanduser isdir wait v lo hi n w l dir s f a ix F x O Hlh Hn V HF H1 R.
  pose proof (integrate_value pyint expanduser isdir wait _ v (Some (Fin lo, Fin hi)) lo hi n w l dir s f a ix F O eq_refl R Hn HF V) as E. cbv zeta in E.
  exists a. split; [exact R|]. rewrite E. f_equal. unfold mean_sum. rewrite (qsumf_ext _ (fun _ => 0%Qc)); [rewrite qsumf_zero; ring|].
  intros k _. rewrite !H1; [ring| |]; rewrite <- (grid_first lo hi n) at 1; apply grid_le; try assumption; lia.
Qed.
Print Assumptions c66_lower_end_refuted.

(** ** C46 *)
Lemma fold_const (pick : num -> num -> num) c l : pick c c = c -> (forall y, In y l -> y = c) -> fold_left pick l c = c.
Proof. intros P. induction l as [|y r IH]; intros H; [reflexivity|]. cbn [fold_left]. rewrite (H y (or_introl eq_refl)), P. apply IH. intros z Hz. apply H. right. exact Hz. Qed.
Lemma fold_nan (pick : num -> num -> num) l : (forall y, pick NaN y = NaN) -> fold_left pick l NaN = NaN.
Proof. intros P. induction l as [|y r IH]; [reflexivity|]. cbn [fold_left]. rewrite P. exact IH. Qed.
Lemma fold_nan_in (pick : num -> num -> num) l x : (forall y, pick NaN y = NaN) -> (forall y, pick y NaN = NaN) -> In NaN (x :: l) -> fold_left pick l x = NaN.
Proof.
  intros P Q. revert x. induction l as [|y r IH]; intros x H; [destruct H as [<-|[]]; reflexivity|]. cbn [fold_left].
  destruct H as [->|[->|H]]; [rewrite P; apply fold_nan, P|rewrite Q; apply fold_nan, P|apply IH; right; exact H].
Qed.
Lemma default_points pyint v n s m : (exists t, p_env s "pyanen_integrate_range_multiplier" = Some t /\ pyint t = Ok m) -> (0 < m)%Z ->
  forall a b, nminimum (ravel (v_o v)) = Ok a -> nmaximum (ravel (v_o v)) = Ok b ->
  points pyint v None n s = Ok (nlinspace (nsub a (nmul (Fin (qz m)) (nsub b a))) (nadd b (nmul (Fin (qz m)) (nsub b a))) n).
Proof. intros (t & E & P) Hm a b E1 E2. unfold points. rewrite E, P. cbn [bind]. assert (Z.ltb 0 m = true) as -> by (apply Z.ltb_lt, Hm). cbn [passert bind]. rewrite E1, E2. reflexivity. Qed.
Definition multiplier_is (pyint : string -> res Z) (s : proc) (m : Z) : Prop := (exists t, p_env s "pyanen_integrate_range_multiplier" = Some t /\ pyint t = Ok m) /\ (0 < m)%Z.
(** Equal observations: mean, variance and CRPS are all 0 whatever the forecast is. *)
Theorem c46_constant_refuted : forall pyint expanduser isdir wait k v n w l dir s f a ix F m c,
  let x := run (integrate pyint expanduser isdir wait k v None n w l dir) s f in
  settings_ok pyint s -> multiplier_is pyint s m -> 2 <= n -> valid (shape (v_o v)) ix -> cell_cdf v ix F ->
  (forall y, In y (ravel (v_o v)) -> y = Fin c) -> result x = Ok a ->
  returned x ix 0%Qc.
Proof.
  intros pyint expanduser isdir wait k v n w l dir s f a ix F m c x O [M Hm] Hn V HF Hc R.
  assert (E1 : nminimum (ravel (v_o v)) = Ok (Fin c) /\ nmaximum (ravel (v_o v)) = Ok (Fin c)).
  { unfold nminimum, nmaximum. destruct (ravel (v_o v)) as [|y r] eqn:Er.
    - exfalso. unfold ravel in Er. apply map_eq_nil in Er. apply in_indices in V. rewrite Er in V. destruct V.
    - rewrite (Hc y (or_introl eq_refl)). split; f_equal; apply fold_const; try (intros z Hz; apply Hc; right; exact Hz); unfold nmin2, nmax2; cbn; destruct (qleb _ _); reflexivity. }
  destruct E1 as [E1 E2]. pose proof (default_points pyint v n s m M Hm _ _ E1 E2) as Px.
  assert (Px' : points pyint v None n s = Ok (nlinspace (Fin c) (Fin c) n)) by (rewrite Px; cbn [nsub nopp nadd nmul]; do 3 f_equal; ring).
  pose proof (integrate_value _ _ _ _ _ _ _ _ _ _ _ _ _ _ _ _ ix F O Px' R Hn HF V) as E. cbv zeta in E.
  assert (G : forall j, grid c c n j = c) by (intros j; unfold grid; rewrite Qcplus_comm; replace (c - c)%Qc with 0%Qc by ring; unfold Qcdiv; ring).
  exists a. split; [exact R|]. rewrite E. f_equal.
  assert (Z : forall h : nat -> Qc, (forall j, h j = 0%Qc) -> (/ qz 2 * qsumf h (seq 0 (n - 1)))%Qc = 0%Qc) by (intros h H; rewrite (qsumf_ext h (fun _ => 0%Qc)), qsumf_zero by (intros; apply H); ring).
  destruct k; unfold mean_sum, sq_sum, trapezium; rewrite !Z; try ring; intros j; rewrite !G; ring.
Qed.
Print Assumptions c46_constant_refuted.
(** One NaN among the observations, at whatever cell: NaN at every cell. *)
Theorem c46_nan_refuted : forall pyint expanduser isdir wait k v n w l dir s f a ix m,
  let x := run (integrate pyint expanduser isdir wait k v None n w l dir) s f in
  settings_ok pyint s -> multiplier_is pyint s m -> 2 <= n -> valid (shape (v_o v)) ix ->
  In NaN (ravel (v_o v)) -> result x = Ok a -> get a ix = NaN.
Proof.
  intros pyint expanduser isdir wait k v n w l dir s f a ix m x O [M Hm] Hn V Hc R.
  assert (E1 : nminimum (ravel (v_o v)) = Ok NaN /\ nmaximum (ravel (v_o v)) = Ok NaN).
  { unfold nminimum, nmaximum. destruct (ravel (v_o v)) as [|y r]; [destruct Hc|]. split; f_equal; apply fold_nan_in; try exact Hc; try reflexivity; intros z; destruct z; reflexivity. }
  destruct E1 as [E1 E2]. pose proof (default_points pyint v n s m M Hm _ _ E1 E2) as Px. cbn [nsub nopp nadd nmul] in Px.
  destruct (integrate_cell _ _ _ _ _ _ _ _ _ _ _ _ _ _ O R) as (i & vals & Ev & En & Ex & G & [_ Va]). rewrite Ev in Va. rewrite Va by exact V.
  assert (X : forall j, j < n -> xat i j = NaN).
  { intros j Hj. unfold xat. rewrite Px in Ex. apply (f_equal (fun r => match r with Ok y => y | _ => [] end)) in Ex. rewrite <- Ex. clear - Hj. destruct n as [|[|n]]; [lia|destruct j as [|[]]; reflexivity|].
    unfold nlinspace. set (g := fun i => if i =? S (S n) - 1 then _ else _). destruct (nth_in_or_default j (map g (seq 0 (S (S n)))) NaN) as [I|D]; [|exact D].
    apply in_map_iff in I as (i' & E & _). rewrite <- E. unfold g. destruct (_ =? _); [reflexivity|]. destruct (nmul _ _); reflexivity. }
  assert (NS : forall l : list num, In NaN l -> nsum l = NaN).
  { clear. induction l as [|y r IH]; intros H; [destruct H|]. cbn [nsum]. destruct H as [->|H]; [reflexivity|]. rewrite (IH H). destruct y; reflexivity. }
  assert (I0 : In 0 (seq 0 (n - 1))) by (apply in_seq; lia).
  assert (W : forall mul c', mul 0 = NaN -> wsum n mul c' = NaN) by (intros mul c' E; apply NS, in_map_iff; exists 0; rewrite E; split; [destruct (c' 0); reflexivity|exact I0]).
  assert (Df : forall mul c', mul 0 = NaN -> diffs n mul c' = NaN) by (intros mul c' E; apply NS, in_map_iff; exists 0; rewrite E; split; [reflexivity|exact I0]).
  assert (D0 : dx i 0 = NaN /\ x2 i 0 = NaN /\ xsq2 i 0 = NaN) by (unfold dx, x2, xsq2; rewrite !X by lia; repeat split; reflexivity). destruct D0 as (D0 & D1 & D2).
  unfold cell_value. rewrite En. destruct k; destruct (i_less i).
  - rewrite !W by exact D0. reflexivity.
  - rewrite NS; [reflexivity|]. apply in_map_iff. exists 0. rewrite D0. split; [destruct (nadd _ _); reflexivity|exact I0].
  - rewrite !W by exact D1. reflexivity.
  - rewrite Df by exact D1. reflexivity.
  - rewrite !W by assumption. reflexivity.
  - rewrite !Df by assumption. reflexivity.
Qed.
Print Assumptions c46_nan_refuted.
(** Finite observations of which two differ: the default range is finite, reaches beyond every observation by at least the
    distance of any two observations, and the points of integration run over it.  Missing: the cases above. *)
Theorem c46_spread_partial : forall pyint v n s m p q,
  multiplier_is pyint s m -> (forall y, In y (ravel (v_o v)) -> exists z, y = Fin z) ->
  In (Fin p) (ravel (v_o v)) -> In (Fin q) (ravel (v_o v)) -> (p < q)%Qc ->
  exists lo hi, points pyint v None n s = Ok (nlinspace (Fin lo) (Fin hi) n) /\
    forall z, In (Fin z) (ravel (v_o v)) -> (lo <= z - (q - p))%Qc /\ (z + (q - p) <= hi)%Qc.
Proof.
  intros pyint v n s m p q [M Hm] Hfin Hp Hq Hpq.
  assert (Ex : exists l, ravel (v_o v) = map Fin l).
  { clear - Hfin. induction (ravel (v_o v)) as [|y r IH]; [exists []; reflexivity|]. destruct IH as (l & ->); [intros z Hz; apply Hfin; right; exact Hz|]. destruct (Hfin y (or_introl eq_refl)) as (z & ->). exists (z :: l). reflexivity. }
  destruct Ex as (l & El). rewrite El in *.
  assert (Mn : exists a, nminimum (map Fin l) = Ok (Fin a) /\ forall z, In (Fin z) (map Fin l) -> (a <= z)%Qc).
  { unfold nminimum. destruct l as [|y r]; [destruct Hp|]. cbn [map]. clear. revert y. induction r as [|z r IH]; intros y.
    - exists y. split; [reflexivity|]. intros z [E|[]]. injection E as ->. apply Qcle_refl.
    - cbn [map fold_left]. change (nmin2 (Fin y) (Fin z)) with (if qleb y z then Fin y else Fin z). destruct (qleb_spec y z) as [L|L].
      + destruct (IH y) as (a & E & H). exists a. split; [exact E|]. intros u [Eu|[Eu|Hu]]; [apply H; left; exact Eu|injection Eu as <-; pose proof (H y (or_introl eq_refl)); qlra|apply H; right; exact Hu].
      + destruct (IH z) as (a & E & H). exists a. split; [exact E|]. intros u [Eu|[Eu|Hu]]; [injection Eu as <-; pose proof (H z (or_introl eq_refl)); qlra|apply H; left; exact Eu|apply H; right; exact Hu]. }
  assert (Mx : exists a, nmaximum (map Fin l) = Ok (Fin a) /\ forall z, In (Fin z) (map Fin l) -> (z <= a)%Qc).
  { unfold nmaximum. destruct l as [|y r]; [destruct Hp|]. cbn [map]. clear. revert y. induction r as [|z r IH]; intros y.
    - exists y. split; [reflexivity|]. intros z [E|[]]. injection E as ->. apply Qcle_refl.
    - cbn [map fold_left]. change (nmax2 (Fin y) (Fin z)) with (if qleb y z then Fin z else Fin y). destruct (qleb_spec y z) as [L|L].
      + destruct (IH z) as (a & E & H). exists a. split; [exact E|]. intros u [Eu|[Eu|Hu]]; [injection Eu as <-; pose proof (H z (or_introl eq_refl)); qlra|apply H; left; exact Eu|apply H; right; exact Hu].
      + destruct (IH y) as (a & E & H). exists a. split; [exact E|]. intros u [Eu|[Eu|Hu]]; [apply H; left; exact Eu|injection Eu as <-; pose proof (H y (or_introl eq_refl)); qlra|apply H; right; exact Hu]. }
  destruct Mn as (a & Ea & Ha), Mx as (b & Eb & Hb). rewrite <- El in Ea, Eb. rewrite (default_points pyint v n s m M Hm _ _ Ea Eb). cbn [nsub nopp nadd nmul].
  do 2 eexists. split; [reflexivity|]. intros z Hz. pose proof (Ha p Hp). pose proof (Ha z Hz). pose proof (Hb z Hz). pose proof (Hb q Hq).
  assert (Q1 : (1 <= qz m)%Qc). { clear - Hm. unfold qz, Qcle. cbn [this Q2Qc]. rewrite !Qred_correct. unfold Qle. cbn. lia. }
  assert (Q2 : (b - a <= qz m * (b - a))%Qc) by (set (r := (b - a)%Qc) in *; assert (0 <= r)%Qc by (unfold r; qlra); qnra).
  change (b + - a)%Qc with (b - a)%Qc. set (r := (qz m * (b - a))%Qc) in *. split; qlra.
Qed.
Print Assumptions c46_spread_partial.

(** ** Concrete cases *)
Lemma w_cell : cell_cdf w_ver [0] (fun q => qmax 0 (qmin 1 (q / qz 4)))%Qc.
Proof. intros x b E. apply (f_equal (fun r => match r with Ok z => get z [0] | _ => NaN end)) in E. symmetry. exact E. Qed.
Lemma w_distribution : distribution (fun q => qmax 0 (qmin 1 (q / qz 4)))%Qc.
Proof.
  assert (M : forall x y, (x <= y)%Qc -> (x / qz 4 <= y / qz 4)%Qc) by (intros x y H; unfold Qcdiv; apply Qcmult_le_compat_r; [exact H|discriminate]).
  split.
  - intros x y H. specialize (M x y H). revert M. generalize (x / qz 4)%Qc (y / qz 4)%Qc. intros u v M. unfold qmax, qmin.
    destruct (qleb_spec 1 u), (qleb_spec 1 v); repeat match goal with |- context [qleb ?a ?b] => destruct (qleb_spec a b) end; qlra.
  - intros x. generalize (x / qz 4)%Qc. intros u. unfold qmax, qmin. destruct (qleb_spec 1 u); repeat match goal with |- context [qleb ?a ?b] => destruct (qleb_spec a b) end; split; qlra.
Qed.
(** C45: the uniform distribution on [0, 4] integrated over [-2, 6] in four bins; the values are right *)
Definition w_call (k : kind) := run (integrate w_pyint w_home w_isdir last_ k w_ver (Some (Fin (- qz 2)%Qc, Fin (qz 6))) 5 None None None) (w_proc "2" "True") w_files.
Example c45_inhabited : settings_ok w_pyint (w_proc "2" "True") /\ valid (shape (v_o w_ver)) [0] /\ cell_cdf w_ver [0] (fun q => qmax 0 (qmin 1 (q / qz 4)))%Qc /\ distribution (fun q => qmax 0 (qmin 1 (q / qz 4)))%Qc /\
  shown (w_call KMean) = Ok [Fin (qz 2); Fin (qz 3)] /\ shown (w_call KVariance) = Ok [Fin (qz 2); Fin (qz 3)] /\ shown (w_call KCrps) = Ok [Fin (1 / qz 2)%Qc; Fin (1 / qz 4)%Qc].
Proof.
  split; [eapply w_settings; reflexivity|]. split; [repeat constructor|]. split; [exact w_cell|]. split; [exact w_distribution|]. repeat split; ncomp.
Qed.
(** half of the mass at 1 and half at 3, integrated over [0, 4] in three bins *)
Definition w_steps (q : Qc) : Qc := ((if qleb 1 q then 1 / qz 2 else 0) + (if qleb (qz 3) q then 1 / qz 2 else 0))%Qc.
Definition w_two : verifier := Verifier (of_list NaN [1] [Fin 1]) (fun x => match x with Fin q => Ok (Arr [1] (fun _ => Fin (w_steps q))) | _ => Raise ValueError end) None.
Definition atoms : expectation (q2r 0%Qc) (q2r (qz 4)).
Proof.
  refine {| dom := fun _ => True; expect := fun f => ((f (q2r 1%Qc) + f (q2r (qz 3))) / 2)%R |}; try (intros; exact I); try (intros; lra).
  intros f _ P. assert (0 <= f (q2r 1%Qc))%R by (apply P; split; [apply q2r_lt; reflexivity|apply q2r_le; discriminate]).
  assert (0 <= f (q2r (qz 3)))%R by (apply P; split; [apply q2r_lt; reflexivity|apply q2r_le; discriminate]). lra.
Defined.
Example c45_half_bin_inhabited : (forall y, q2r (w_steps y) = expect atoms (fun t => if Rle_dec t (q2r y) then 1 else 0)%R) /\ cell_cdf w_two [0] w_steps /\
  shown (run (integrate w_pyint w_home w_isdir last_ KMean w_two (Some (Fin 0, Fin (qz 4))) 4 None None None) (w_proc "1" "False") w_files) = Ok [Fin (qz 2)].
Proof.
  split; [|split].
  - intros y. cbn [atoms expect]. unfold w_steps. rewrite q2r_plus.
    assert (H : forall c, q2r (if qleb c y then 1 / qz 2 else 0)%Qc = ((if Rle_dec (q2r c) (q2r y) then 1 else 0) / 2)%R).
    { intros c. destruct (qleb_spec c y) as [L|L], (Rle_dec (q2r c) (q2r y)) as [L'|L'].
      - replace (1 / qz 2)%Qc with (/ qz 2)%Qc by (apply Qc_is_canon; reflexivity). rewrite q2r_half. lra.
      - apply q2r_le in L. contradiction.
      - apply q2r_le in L'. exfalso. qlra.
      - rewrite q2r_0. lra. }
    rewrite !H. lra.
  - intros x b E. apply (f_equal (fun r => match r with Ok z => get z [0] | _ => NaN end)) in E. symmetry. exact E.
  - ncomp.
Qed.
(** all the mass at 5, integrated over [5, 9] *)
Definition w_point : verifier := Verifier (of_list NaN [1] [Fin 1]) (fun x => match x with Fin q => Ok (Arr [1] (fun _ => Fin (if qleb (qz 5) q then 1 else 0)%Qc)) | _ => Raise ValueError end) None.
Example c66_inhabited : (forall y, (qz 5 <= y)%Qc -> (if qleb (qz 5) y then 1 else 0)%Qc = 1%Qc) /\
  shown (run (integrate w_pyint w_home w_isdir last_ KMean w_point (Some (Fin (qz 5), Fin (qz 9))) 4 None None None) (w_proc "1" "False") w_files) = Ok [Fin 0] /\
  shown (run (integrate w_pyint w_home w_isdir last_ KMean w_point (Some (Fin (qz 4), Fin (qz 10))) 4 None None None) (w_proc "1" "False") w_files) = Ok [Fin (qz 5)].
Proof. split; [intros y H; destruct (qleb_spec (qz 5) y); [reflexivity|exfalso; qlra]|]. split; ncomp. Qed.
(** C46: the forecasts of [w_ver], whose means are 2 and 3 *)
Definition w_obs (p q : num) : verifier := Verifier (of_list NaN [2] [p; q]) (fun x => match x with NaN => Ok (afull [2] NaN) | _ => w_cdf x end) None.
Definition w_default (k : kind) (p q : num) := shown (run (integrate w_pyint w_home w_isdir last_ k (w_obs p q) None 5 None None None) (w_proc "1" "False") w_files).
Example c46_inhabited : multiplier_is w_pyint (w_proc "1" "False") 2 /\
  w_default KMean (Fin (qz 2)) (Fin (qz 2)) = Ok [Fin 0; Fin 0] /\ w_default KCrps (Fin (qz 2)) (Fin (qz 2)) = Ok [Fin 0; Fin 0] /\ w_default KVariance (Fin (qz 2)) (Fin (qz 2)) = Ok [Fin 0; Fin 0] /\
  w_default KMean (Fin (qz 2)) NaN = Ok [NaN; NaN] /\ w_default KMean (Fin 1) (Fin (qz 3)) = Ok [Fin (qz 2); Fin (qz 47 / qz 16)%Qc].
Proof. split; [split; [exists "2"%string; split; reflexivity|lia]|]. repeat split; ncomp. Qed.
