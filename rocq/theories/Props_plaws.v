(** Property C112: laws of the parametric verifiers (Gaussian, Gamma, GammaHurdle): opposite events, larger thresholds, other units. *)
From Coq Require Import String ZArith List Lia Bool Arith QArith Qcanon.
From Verif Require Import QcTac QSum Num NdArr Numpy NdAxes NdMove M_common M_boot M_determ M_ens M_special M_rel M_dist M_iou M_roc
  Spec Spec_prob Spec_rel P_boot P_rank P_prob P_dist P_brier P_special P_rel Props_avg Props_special Props_rel Props_rank Props_iou
  Store M_state Spec_state P_state P_codec Spec_result P_result Props_state Props_result M_whole Spec_whole P_whole Props_whole M_whole2 P_whole2 Spec_whole2 P_layout
  M_whole3 Spec_whole3 P_whole3 Props_whole3 P_laws P_laws2.
From Verif Require Import Props_terms.
Import ListNotations.
Open Scope string_scope.
Open Scope list_scope.
Open Scope nat_scope.

(** what is assumed of the distribution functions of scipy where a theorem says so: where they are numbers they do not decrease
    (and the gamma one is not negative) ... *)
Definition not_above (u v : num) : Prop := forall p q, u = Fin p -> v = Fin q -> (p <= q)%Qc.
Definition nondecreasing (P : scipy) : Prop :=
  (forall t t' m s, nle t t' = true -> not_above (norm_cdf P t m s) (norm_cdf P t' m s)) /\
  (forall t t' a b m s, nle t t' = true -> not_above (truncnorm_cdf P t a b m s) (truncnorm_cdf P t' a b m s)) /\
  (forall t t' k h c, nle t t' = true -> not_above (gamma_cdf P t k h c) (gamma_cdf P t' k h c)) /\
  (forall t t' a b k h c, nle t t' = true -> not_above (truncgamma_cdf P t a b k h c) (truncgamma_cdf P t' a b k h c)) /\
  (forall t k h c, not_above (Fin 0%Qc) (gamma_cdf P t k h c)).
(** ... and depend on the value, location and scale only through (value - location) / scale *)
Definition location_scale (P : scipy) : Prop := forall a b, (0 < a)%Qc ->
  (forall t m s, norm_cdf P (convert a b t) (Fin (a * m + b)) (Fin (a * s)) = norm_cdf P t (Fin m) (Fin s)) /\
  (forall t u v m s, truncnorm_cdf P (convert a b t) u v (Fin (a * m + b)) (Fin (a * s)) = truncnorm_cdf P t u v (Fin m) (Fin s)) /\
  (forall t k h c, gamma_cdf P (convert a b t) k (Fin (a * h + b)) (Fin (a * c)) = gamma_cdf P t k (Fin h) (Fin c)) /\
  (forall t u v k h c, truncgamma_cdf P (convert a b t) u v k (Fin (a * h + b)) (Fin (a * c)) = truncgamma_cdf P t u v k (Fin h) (Fin c)).
(** the distribution of cell [ix] of [f'] is that of [f] in other units: new value = [a] times old value plus [b]; the truncated distributions
    and the hurdle distribution end at zero, so that zero must stay zero *)
Definition in_other_units (a b : Qc) (f f' : forecast) (ix : list nat) : Prop :=
  match f, f' with
  | Gaussian mu sg tr, Gaussian mu' sg' tr' => tr' = tr /\ (tr = true -> b = 0%Qc) /\
      exists m s, (0 < s)%Qc /\ get mu ix = Fin m /\ get sg ix = Fin s /\ get mu' ix = Fin (a * m + b) /\ get sg' ix = Fin (a * s)
  | Gamma mu sg sh tr, Gamma mu' sg' sh' tr' => tr' = tr /\ (tr = true -> b = 0%Qc) /\
      exists m s h, (0 < m)%Qc /\ (0 < s)%Qc /\ get mu ix = Fin m /\ get sg ix = Fin s /\ get sh ix = Fin h /\ get mu' ix = Fin (a * m) /\ get sg' ix = Fin (a * s) /\ get sh' ix = Fin (a * h + b)
  | Hurdle pop mu sg, Hurdle pop' mu' sg' => b = 0%Qc /\ get pop' ix = get pop ix /\
      exists m s, (0 < m)%Qc /\ (0 < s)%Qc /\ get mu ix = Fin m /\ get sg ix = Fin s /\ get mu' ix = Fin (a * m) /\ get sg' ix = Fin (a * s)
  | _, _ => False
  end.

Lemma ndiv_fin a b : b <> 0%Qc -> ndiv (Fin a) (Fin b) = Fin (a / b).
Proof. intros H. unfold ndiv. destruct (qeqb_spec b 0%Qc); [contradiction|reflexivity]. Qed.
Lemma cdf_units P a b f f' ix t : location_scale P -> (0 < a)%Qc -> in_other_units a b f f' ix -> cell_cdf P f' ix (convert a b t) = cell_cdf P f ix t.
Proof.
  intros LS A U. destruct (LS a b A) as (L1 & L2 & L3 & L4).
  assert (Na : a <> 0%Qc) by (intros Z; rewrite Z in A; discriminate A).
  assert (Pos : forall z, (0 < z)%Qc -> z <> 0%Qc) by (intros z Hz Z; rewrite Z in Hz; discriminate Hz).
  assert (Am : forall z, z <> 0%Qc -> (a * z)%Qc <> 0%Qc) by (intros z Hz Z; apply Qcmult_integral in Z as [Z|Z]; contradiction).
  destruct f as [mu sg tr|mu sg sh tr|pop mu sg], f' as [mu' sg' tr'|mu' sg' sh' tr'|pop' mu' sg']; try contradiction U; cbn [cell_cdf].
  - destruct U as (-> & B & m & s & Ps & -> & -> & -> & ->). specialize (Pos s Ps). destruct tr; [|apply L1].
    rewrite (B eq_refl) in *. cbn [nopp]. rewrite !ndiv_fin by auto. rewrite L2. f_equal. f_equal. field. auto.
  - destruct U as (-> & B & m & s & h & Pm & Ps & -> & -> & -> & -> & -> & ->). pose proof (Pos m Pm). pose proof (Pos s Ps). cbn [nmul nopp]. rewrite (ndiv_fin (a * m) (a * s)), (ndiv_fin m s), (ndiv_fin (a * s * (a * s)) (a * m)), (ndiv_fin (s * s) m) by auto. cbn [nmul].
    replace (a * m / (a * s))%Qc with (m / s)%Qc by (field; auto). replace (a * s * (a * s) / (a * m))%Qc with (a * (s * s / m))%Qc by (field; auto). destruct tr; [|apply L3].
    rewrite L4. rewrite (B eq_refl) in *. assert (Nc : (s * s / m)%Qc <> 0%Qc). { intros Z. assert (Z' : (s * s)%Qc = 0%Qc) by (replace (s * s)%Qc with ((s * s / m) * m)%Qc by (field; auto); rewrite Z; ring). apply Qcmult_integral in Z' as [Z'|Z']; contradiction. }
    rewrite !ndiv_fin by auto. f_equal. f_equal. field. repeat split; auto.
  - destruct U as (-> & Ep & m & s & Pm & Ps & -> & -> & -> & ->). rewrite Ep. pose proof (Pos m Pm). pose proof (Pos s Ps). cbn [nmul]. rewrite (ndiv_fin (a * m) (a * s)), (ndiv_fin m s), (ndiv_fin (a * s * (a * s)) (a * m)), (ndiv_fin (s * s) m) by auto. cbn [nmul].
    replace (a * m / (a * s))%Qc with (m / s)%Qc by (field; auto). replace (a * s * (a * s) / (a * m))%Qc with (a * (s * s / m))%Qc by (field; auto).
    pose proof (convert_nlt a 0 (Fin 0%Qc) t A) as Z. cbn [convert] in Z. replace (a * 0 + 0)%Qc with 0%Qc in Z by ring. rewrite Z. specialize (L3 t (Fin (m / s * (m / s))) 0%Qc (s * s / m)%Qc). replace (a * 0 + 0)%Qc with 0%Qc in L3 by ring. rewrite L3. reflexivity.
Qed.

Section Program.
Variable S : settings.
Variable W : laws.
Variable gen_decomp : nat -> nat -> nat -> nat -> nat.
Variable gen_rel : nat -> nat -> nat -> nat -> nat -> nat.
Variable other : string -> list M_state.val -> res M_state.val.
Variable otherr : string -> list M_state.val -> nat -> res M_state.val.
Variable str_of : M_state.val -> string.
Variable dumps : M_state.val -> string.
Variable loads : string -> res M_state.val.
Variable expanduser : string -> string.
Variable resolve : string -> path.
Variable points : M_state.val -> M_state.val -> M_state.val -> res (list num).
Variable less_memory : bool.
Variable integrate_wdir : option path.
Variable cwd : path.
Variable rng : nat -> nat.
Notation plib := (prob_lib S W other).
Notation plibr := (prob_libr S W otherr).
Notation mlib := (more_lib S plib).
Notation mlibr := (more_libr S gen_decomp gen_rel plibr).
Notation faithful := (Props_whole.faithful str_of dumps loads expanduser).
Notation reached := (Props_whole.reached S mlib mlibr str_of dumps loads expanduser resolve points less_memory integrate_wdir cwd rng).
Notation answers := (Props_whole.answers S mlib mlibr str_of dumps loads expanduser resolve points less_memory integrate_wdir cwd rng).
Notation ready := (forecast_ready S).
Notation thr_at := P_prob.thr_at.
Notation known := (cdf_known W).
Notation probability := (c93_probability S W gen_decomp gen_rel other otherr str_of dumps loads expanduser resolve points less_memory integrate_wdir cwd rng).
Notation brier := (c93_brier S W gen_decomp gen_rel other otherr str_of dumps loads expanduser resolve points less_memory integrate_wdir cwd rng).
Notation roc := (c93_roc S W gen_decomp gen_rel other otherr str_of dumps loads expanduser resolve points less_memory integrate_wdir cwd rng).
Notation decomposition := (c93_decomposition S W gen_decomp gen_rel other otherr str_of dumps loads expanduser resolve points less_memory integrate_wdir cwd rng).
Notation pit := (c93_pit S W gen_decomp gen_rel other otherr str_of dumps loads expanduser resolve points less_memory integrate_wdir cwd rng).

(** ** Opposite events *)
Theorem c112_probabilities : forall s t b f F, faithful -> reached s -> let x := ob s in ready x f t b -> threshold_ok t -> (forall ix, Forall2 lt ix (arr_shape (a_o x)) -> known f b F ix) ->
  exists v v', answers s (MCdf (over_of true t) (below_of true t)) v /\ answers s (MCdf (over_of false t) (below_of false t)) v' /\ arr_shape v = arr_shape (a_o x) /\ arr_shape v' = arr_shape v /\
    forall ix, Forall2 lt ix (arr_shape v) -> reads v ix = Fin (1 - F ix)%Qc /\ reads v' ix = Fin (F ix).
Proof.
  intros s t b f F FA RE x H T Kn. destruct (probability s true t b f FA RE H T) as (v & A & _ & Sv & Gv). destruct (probability s false t b f FA RE H T) as (v' & A' & _ & Sv' & Gv').
  exists v, v'. split; [exact A|]. split; [exact A'|]. split; [exact Sv|]. split; [congruence|]. intros ix I. rewrite Sv in I. destruct (Kn ix I) as [K U]. split; [exact (proj1 (Gv ix I) _ K U)|exact (proj1 (Gv' ix I) _ K U)].
Qed.
(** The same Brier score, decomposition and ROC area for both events, if no observation is equal to the threshold; for the decomposition no probability on an edge between two bins. *)
Theorem c112_opposite : forall s t b f F k L, faithful -> reached s -> let x := ob s in ready x f t b -> threshold_ok t -> decomposes x k L -> (forall ix, In ix L -> known f b F ix /\ differ (thr_at b ix) (reads (a_o x) ix)) ->
  (exists v v', answers s (MBrier (over_of true t) (below_of true t)) v /\ answers s (MBrier (over_of false t) (below_of false t)) v' /\ reads v' k = reads v k) /\
  ((forall ix, In ix L -> off_edges (F ix)) ->
   exists rel reso unc rel' reso' unc', answers s (MDecomp (over_of true t) (below_of true t)) (VTuple [rel; reso; unc]) /\ answers s (MDecomp (over_of false t) (below_of false t)) (VTuple [rel'; reso'; unc']) /\
    reads rel' k = reads rel k /\ reads reso' k = reads reso k /\ reads unc' k = reads unc k).
Proof.
  intros s t b f F k L FA RE x H T (B & N & Pos & ax & ns & A & X & PL & HC) D.
  assert (Ey : forall ix, In ix L -> outcome x false b ix = (1 - outcome x true b ix)%Qc). { intros ix I. unfold outcome. rewrite (indicator_opposite _ _ (proj2 (D ix I))). ring. }
  split.
  - destruct (brier s true t b f F ax ns k L FA RE H T B A X HC N (fun ix I => proj1 (D ix I))) as (v & A1 & _ & G1). destruct (brier s false t b f F ax ns k L FA RE H T B A X HC N (fun ix I => proj1 (D ix I))) as (v' & A2 & _ & G2).
    exists v, v'. split; [exact A1|]. split; [exact A2|]. rewrite G1, G2. fold x. apply (f_equal Fin). apply mean_same. intros ix I. cbv beta zeta. rewrite (Ey ix I). unfold event_share. ring.
  - intros Off. set (p o ix := event_share o (F ix)).
    assert (P01 : forall o ix, In ix L -> (0 <= p o ix)%Qc /\ (p o ix <= 1)%Qc). { intros o ix I. destruct (D ix I) as [[_ [U0 U1]] _]. unfold p, event_share. destruct o; split; qlra. }
    assert (Bn : forall o, exists bin : list nat -> nat, forall ix, In ix L -> in_bin 20 (p o ix) (bin ix)).
    { intros o. exists (fun ix => digitize brier_bins (Fin (p o ix))). intros ix I. destruct (in_bin_exists 20 (p o ix) ltac:(lia) (proj1 (P01 o ix I))) as (j & Hj). rewrite (brier_digitize _ _ Hj). exact Hj. }
    destruct (Bn true) as (bin & HB), (Bn false) as (bin' & HB').
    destruct (decomposition s true t b f F ax ns k L bin FA RE H T B A X PL Pos HC N (fun ix I => conj (proj1 (D ix I)) (HB ix I))) as (rel & reso & unc & q & r & u & Ad & _ & _ & _ & R1 & R2 & R3 & G1 & G2 & G3 & _).
    destruct (decomposition s false t b f F ax ns k L bin' FA RE H T B A X PL Pos HC N (fun ix I => conj (proj1 (D ix I)) (HB' ix I))) as (rel' & reso' & unc' & q' & r' & u' & Ad' & _ & _ & _ & R1' & R2' & R3' & G1' & G2' & G3' & _).
    assert (Eb : forall ix jx, In ix L -> In jx L -> Nat.eqb (bin jx) (bin ix) = Nat.eqb (bin' jx) (bin' ix)).
    { apply (reflect_bins L (p false) (p true) bin' bin HB' HB); [intros ix I; unfold p, event_share; reflexivity|]. intros ix I. split; [apply P01, I|]. split; [apply P01, I|exact (Off ix I)]. }
    destruct (terms_opposite L bin (p true) (outcome x true b) N bin' (p false) (outcome x false b)) as (T1 & T2 & T3); [intros ix I; unfold p, event_share; ring|exact Ey|intros ix jx Ii Ij; symmetry; apply Eb; assumption|].
    exists rel, reso, unc, rel', reso', unc'. split; [exact Ad|]. split; [exact Ad'|]. rewrite R1, R2, R3, R1', R2', R3'. fold x in G1, G2, G3, G1', G2', G3'. rewrite G1, G2, G3, G1', G2', G3'. split; [|split]; apply (f_equal Fin); [exact T1|exact T2|exact T3].
Qed.
Theorem c112_roc : forall s t b f F, faithful -> reached s -> let x := ob s in ready x f t b -> threshold_ok t -> (forall ix, Forall2 lt ix (arr_shape (a_o x)) -> known f b F ix /\ differ (thr_at b ix) (reads (a_o x) ix)) ->
  (exists ix, Forall2 lt ix (arr_shape (a_o x)) /\ observed true (thr_at b ix) (reads (a_o x) ix) = true) -> (exists ix, Forall2 lt ix (arr_shape (a_o x)) /\ observed false (thr_at b ix) (reads (a_o x) ix) = true) ->
  exists fpr tpr fpr' tpr' a, answers s (MRoc (over_of true t) (below_of true t)) (VTuple [fpr; tpr; VFloat (Fin a)]) /\ answers s (MRoc (over_of false t) (below_of false t)) (VTuple [fpr'; tpr'; VFloat (Fin a)]).
Proof.
  intros s t b f F FA RE x H T D (i1 & V1 & O1) (i2 & V2 & O2).
  set (ev (o : bool) ix := observed o (thr_at b ix) (reads (a_o x) ix)). set (I := indices (arr_shape (a_o x))).
  assert (Op : forall ix, In ix I -> ev true ix = negb (ev false ix)) by (intros ix Hx; apply observed_opposite, D, in_indices, Hx).
  assert (F1 : filter (ev true) I = filter (fun ix => negb (ev false ix)) I) by (apply filter_ext_in; exact Op).
  assert (F2 : filter (fun ix => negb (ev true ix)) I = filter (ev false) I) by (apply filter_ext_in; intros ix Hx; rewrite (Op ix Hx), negb_involutive; reflexivity).
  assert (N1 : filter (ev true) I <> []) by (intros Z; assert (Y : In i1 (filter (ev true) I)) by (apply filter_In; split; [apply in_indices, V1|exact O1]); rewrite Z in Y; exact Y).
  assert (N2 : filter (ev false) I <> []) by (intros Z; assert (Y : In i2 (filter (ev false) I)) by (apply filter_In; split; [apply in_indices, V2|exact O2]); rewrite Z in Y; exact Y).
  destruct (roc s true t b f F FA RE H T (fun ix V => proj1 (D ix V))) as (fpr & tpr & R1); [exact N1|change (filter (fun ix => negb (ev true ix)) I <> []); rewrite F2; exact N2|].
  destruct (roc s false t b f F FA RE H T (fun ix V => proj1 (D ix V))) as (fpr' & tpr' & R2); [exact N2|change (filter (fun ix => negb (ev false ix)) I <> []); rewrite <- F1; exact N1|].
  fold x in R1, R2. change (fun ix => Spec_whole.observed true (thr_at b ix) (reads (a_o x) ix)) with (ev true) in R1. change (fun ix => Spec_whole.observed false (thr_at b ix) (reads (a_o x) ix)) with (ev false) in R2.
  fold I in R1, R2. change (fun ix => negb (Spec_whole.observed true (thr_at b ix) (reads (a_o x) ix))) with (fun ix => negb (ev true ix)) in R1. change (fun ix => negb (Spec_whole.observed false (thr_at b ix) (reads (a_o x) ix))) with (fun ix => negb (ev false ix)) in R2.
  rewrite F2 in R1. rewrite <- F1 in R2. do 5 eexists. split; [exact R1|].
  replace (roc_area (fun ix => event_share true (F ix)) (filter (ev false) I) (filter (ev true) I)) with (roc_area (fun ix => event_share false (F ix)) (filter (ev true) I) (filter (ev false) I)); [exact R2|].
  symmetry. unfold event_share. apply (roc_swap F).
Qed.

(** ** Larger thresholds: the probability of values up to the threshold does not decrease. *)
Theorem c112_thresholds : forall s t b t' b' f F F', faithful -> reached s -> let x := ob s in ready x f t b -> threshold_ok t -> ready x f t' b' -> threshold_ok t' ->
  (forall ix, Forall2 lt ix (arr_shape (a_o x)) -> known f b F ix /\ known f b' F' ix /\ nle (thr_at b ix) (thr_at b' ix) = true) ->
  nondecreasing (w_scipy W) -> (forall ix, Forall2 lt ix (arr_shape (a_o x)) -> match f with Hurdle pop _ _ => exists p, get pop ix = Fin p /\ (0 <= p)%Qc | _ => True end) ->
  exists v v', answers s (MCdf VNone t) v /\ answers s (MCdf VNone t') v' /\ arr_shape v = arr_shape (a_o x) /\ arr_shape v' = arr_shape v /\
    forall ix, Forall2 lt ix (arr_shape v) -> reads v ix = Fin (F ix) /\ reads v' ix = Fin (F' ix) /\ (F ix <= F' ix)%Qc.
Proof.
  intros s t b t' b' f F F' FA RE x H T H' T' Kn (M1 & M2 & M3 & M4 & M5) Hu.
  destruct (probability s false t b f FA RE H T) as (v & A & _ & Sv & Gv). destruct (probability s false t' b' f FA RE H' T') as (v' & A' & _ & Sv' & Gv').
  exists v, v'. split; [exact A|]. split; [exact A'|]. split; [exact Sv|]. split; [congruence|]. intros ix I. rewrite Sv in I. destruct (Kn ix I) as ([K U] & [K' U'] & Le).
  split; [exact (proj1 (Gv ix I) _ K U)|]. split; [exact (proj1 (Gv' ix I) _ K' U')|].
  assert (Z : not_above (cell_cdf (w_scipy W) f ix (thr_at b ix)) (cell_cdf (w_scipy W) f ix (thr_at b' ix))); [|exact (Z _ _ K K')]. clear K K' U U'.
  specialize (Hu ix I). destruct f as [mu sg tr|mu sg sh tr|pop mu sg]; cbn [cell_cdf]; [destruct tr; auto|destruct tr; auto|].
  destruct Hu as (p & Ep & P0). rewrite Ep. set (kk := nmul (ndiv (get mu ix) (get sg ix)) (ndiv (get mu ix) (get sg ix))). set (cc := ndiv (nmul (get sg ix) (get sg ix)) (get mu ix)).
  assert (Gm : forall t q, nadd (nsub (Fin 1%Qc) (Fin p)) (nmul (Fin p) (gamma_cdf (w_scipy W) t kk (Fin 0%Qc) cc)) = Fin q -> exists g, gamma_cdf (w_scipy W) t kk (Fin 0%Qc) cc = Fin g /\ q = (1 - p + p * g)%Qc).
  { intros u q. destruct (gamma_cdf (w_scipy W) u kk (Fin 0%Qc) cc) as [g| | |]; cbn; intros Z; [exists g; split; [reflexivity|injection Z as <-; ring]|..]; exfalso; revert Z; unfold inf_sign; destruct (qeqb p 0); try discriminate; destruct (qneg p); discriminate. }
  destruct (nlt (Fin 0%Qc) (thr_at b ix)) eqn:E1, (nlt (Fin 0%Qc) (thr_at b' ix)) eqn:E2; intros u w Eu Ev.
  - apply Gm in Eu as (g & Eg & ->). apply Gm in Ev as (g' & Eg' & ->).
    pose proof (M3 _ _ kk (Fin 0%Qc) cc Le g g' Eg Eg') as Z. apply Qcplus_le_compat; [apply Qcle_refl|]. rewrite (Qcmult_comm p g), (Qcmult_comm p g'). apply Qcmult_le_compat_r; assumption.
  - exfalso. clear - Le E1 E2. destruct (thr_at b ix) as [q| | |], (thr_at b' ix) as [q'| | |]; cbn in *; try discriminate. apply qltb_lt in E1. apply qleb_le in Le. destruct (qltb_spec 0%Qc q') as [L|L]; [discriminate E2|]. qlra.
  - cbn in Eu. injection Eu as <-. apply Gm in Ev as (g & Eg & ->). pose proof (M5 _ _ _ _ 0%Qc g eq_refl Eg) as G0. assert (Pq : (0 <= p * g)%Qc) by qnra. set (pq := (p * g)%Qc) in *. qlra.
  - assert (E : Fin u = Fin w) by congruence. injection E as ->. apply Qcle_refl.
Qed.

(** ** Other units: the same probabilities and Brier scores at the converted threshold, and the same PIT *)
Theorem c112_units : forall s s' a c f f' F t b t' b' k L, faithful -> reached s -> reached s' -> let x := ob s in let y := ob s' in (0 < a)%Qc -> location_scale (w_scipy W) ->
  ready x f t b -> ready y f' t' b' -> threshold_ok t -> threshold_ok t' -> arr_shape (a_o y) = arr_shape (a_o x) -> a_avg y = a_avg x -> decomposes x k L -> decomposes y k L ->
  (forall ix, Forall2 lt ix (arr_shape (a_o x)) -> in_other_units a c f f' ix /\ thr_at b' ix = convert a c (thr_at b ix) /\ reads (a_o y) ix = convert a c (reads (a_o x) ix) /\ known f b F ix) ->
  (forall over, exists v v', answers s (MCdf (over_of over t) (below_of over t)) v /\ answers s' (MCdf (over_of over t') (below_of over t')) v' /\ arr_shape v = arr_shape (a_o x) /\ arr_shape v' = arr_shape v /\ forall ix, Forall2 lt ix (arr_shape v) -> reads v' ix = reads v ix) /\
  (forall over, exists v v', answers s (MBrier (over_of over t) (below_of over t)) v /\ answers s' (MBrier (over_of over t') (below_of over t')) v' /\ reads v' k = reads v k).
Proof.
  intros s s' a c f f' F t b t' b' k L FA RE RE' x y Pa LS H H' T T' Sh Av De De' U.
  assert (Kn : forall ix, Forall2 lt ix (arr_shape (a_o x)) -> known f' b' F ix).
  { intros ix V. destruct (U ix V) as (U1 & U2 & _ & [K In]). split; [|exact In]. rewrite U2, (cdf_units _ a c f f' ix _ LS Pa U1). exact K. }
  split; intros over.
  - destruct (probability s over t b f FA RE H T) as (v & A & _ & Sv & Gv). destruct (probability s' over t' b' f' FA RE' H' T') as (v' & A' & _ & Sv' & Gv').
    exists v, v'. split; [exact A|]. split; [exact A'|]. split; [exact Sv|]. split; [rewrite Sv, Sv'; exact Sh|]. intros ix V. rewrite Sv in V. fold x in V. destruct (U ix V) as (_ & _ & _ & [K In]). destruct (Kn ix V) as [K' In'].
    fold y in Gv', Sv'. rewrite (proj1 (Gv ix V) _ K In). rewrite <- Sh in V. rewrite (proj1 (Gv' ix V) _ K' In'). reflexivity.
  - destruct De as (B & N & _ & ax & ns & A & X & _ & HC). destruct De' as (B' & _ & _ & ax' & ns' & A' & X' & _ & HC').
    assert (VL : forall ix, In ix L -> Forall2 lt ix (arr_shape (a_o x))) by (intros ix I; apply (proj2 HC), I).
    destruct (brier s over t b f F ax ns k L FA RE H T B A X HC N (fun ix I => proj2 (proj2 (proj2 (U ix (VL ix I)))))) as (v & A1 & _ & G1).
    destruct (brier s' over t' b' f' F ax' ns' k L FA RE' H' T' B' A' X' HC' N (fun ix I => Kn ix (VL ix I))) as (v' & A2 & _ & G2).
    exists v, v'. split; [exact A1|]. split; [exact A2|]. rewrite G1, G2. apply (f_equal Fin). apply mean_same. intros ix I. cbv beta zeta. destruct (U ix (VL ix I)) as (_ & U2 & U3 & _). fold x y.
    unfold outcome. rewrite U2, U3, (observed_convert a c over _ _ Pa). reflexivity.
Qed.
Theorem c112_units_pit : forall s s' a c f f' F, faithful -> reached s -> reached s' -> let x := ob s in let y := ob s' in (0 < a)%Qc -> location_scale (w_scipy W) ->
  ready x f (a_o x) (TArray (arr_of (a_o x))) -> ready y f' (a_o y) (TArray (arr_of (a_o y))) -> a_members x = VNone -> is_true (a_pitr x) = false -> a_members y = VNone -> is_true (a_pitr y) = false -> arr_shape (a_o y) = arr_shape (a_o x) ->
  (forall ix, Forall2 lt ix (arr_shape (a_o x)) -> in_other_units a c f f' ix /\ reads (a_o y) ix = convert a c (reads (a_o x) ix) /\ known f (TArray (arr_of (a_o x))) F ix) ->
  exists v v', answers s MPit v /\ answers s' MPit v' /\ arr_shape v = arr_shape (a_o x) /\ arr_shape v' = arr_shape v /\ forall ix, Forall2 lt ix (arr_shape v) -> reads v' ix = reads v ix.
Proof.
  intros s s' a c f f' F FA RE RE' x y Pa LS H H' M P M' P' Sh U.
  destruct (pit s f F FA RE H M P (fun ix V => proj2 (proj2 (U ix V)))) as (v & A & _ & Sv & Gv).
  destruct (pit s' f' F FA RE' H' M' P') as (v' & A' & _ & Sv' & Gv').
  { fold y. rewrite Sh. intros ix V. destruct (U ix V) as (U1 & U2 & [K In]). split; [|exact In]. change (thr_at (TArray (arr_of (a_o y))) ix) with (reads (a_o y) ix). rewrite U2, (cdf_units _ a c f f' ix _ LS Pa U1). exact K. }
  exists v, v'. split; [exact A|]. split; [exact A'|]. split; [exact Sv|]. split; [rewrite Sv, Sv'; exact Sh|]. intros ix V. rewrite Sv in V. fold x in V, Gv. rewrite (Gv ix V). fold y in Gv'. rewrite <- Sh in V. rewrite (Gv' ix V). reflexivity.
Qed.
End Program.
Print Assumptions c112_probabilities.
Print Assumptions c112_opposite.
Print Assumptions c112_roc.
Print Assumptions c112_thresholds.
Print Assumptions c112_units.
Print Assumptions c112_units_pit.

(** Two cells, a distribution function that is linear around the mean: means 1 and 3, deviations 3, observations 4 and 0, thresholds 2 and 3; and the same in
    units in which 3 v + 5 stands for v: means 8 and 14, deviations 9, observations 17 and 5, threshold 11. *)
Definition u_clip (q : Qc) : Qc := if qltb q 0 then 0%Qc else if qltb 1 q then 1%Qc else q.
Definition u_cdf (t m s : num) : num := match t, m, s with Fin t, Fin m, Fin s => if qltb 0 s then Fin (u_clip ((t - m) / (qz 4 * s) + 1 / qz 2)) else NaN | _, _, _ => NaN end.
Definition u_laws : laws := {| w_scipy := Scipy u_cdf (fun t a b m s => Fin 1%Qc) (fun t k h c => Fin 1%Qc) (fun t a b k h c => Fin 1%Qc);
  w_normal := w_normal g_laws; w_gamma := w_gamma g_laws; w_who := w_who g_laws; w_unif := w_unif g_laws |}.
Lemma u_nondecreasing : nondecreasing (w_scipy u_laws).
Proof.
  split; [|repeat split; try (intros; intros p q Ep Eq; injection Ep as <-; injection Eq as <-; discriminate)].
  intros t t' m s L p q Ep Eq. cbn in Ep, Eq. destruct t as [t| | |], t' as [t'| | |], m as [m| | |], s as [s| | |]; try discriminate. cbn in Ep, Eq, L. destruct (qltb_spec 0%Qc s) as [Ps|]; [|discriminate]. injection Ep as <-. injection Eq as <-. apply qleb_le in L.
  assert (Z : ((t - m) / (qz 4 * s) + 1 / qz 2 <= (t' - m) / (qz 4 * s) + 1 / qz 2)%Qc).
  { apply Qcplus_le_compat; [|apply Qcle_refl]. unfold Qcdiv. apply Qcmult_le_compat_r; [qlra|]. apply Qclt_le_weak, Qcinv_pos. assert (H4 : (0 < qz 4)%Qc) by reflexivity. qnra. }
  unfold u_clip. destruct (qltb_spec ((t - m) / (qz 4 * s) + 1 / qz 2)%Qc 0%Qc), (qltb_spec ((t' - m) / (qz 4 * s) + 1 / qz 2)%Qc 0%Qc), (qltb_spec 1%Qc ((t - m) / (qz 4 * s) + 1 / qz 2)%Qc), (qltb_spec 1%Qc ((t' - m) / (qz 4 * s) + 1 / qz 2)%Qc); try assumption; try apply Qcle_refl; try (exfalso; qlra); qlra.
Qed.
Lemma u_location_scale : location_scale (w_scipy u_laws).
Proof.
  intros a b A. repeat split. intros t m s. destruct t as [t| | |]; try reflexivity. cbn.
  assert (E : qltb 0 (a * s) = qltb 0 s).
  { destruct (qltb_spec 0%Qc s) as [P|P]; [apply qltb_lt; qnra|apply qltb_ge; qnra]. }
  rewrite E. destruct (qltb_spec 0%Qc s) as [P|P]; [|reflexivity]. f_equal. f_equal. f_equal. field. repeat split; [intros Z; rewrite Z in P; discriminate P|discriminate|intros Z; rewrite Z in A; discriminate A].
Qed.
Notation u_other := (more_lib e_set (prob_lib e_set u_laws w_lib)).
Notation u_otherr := (more_libr e_set (fun d i r j => d + i + r + j) (fun d i r j q => d + i + r + j + q) (prob_libr e_set u_laws w_libr)).
Notation u_answers := (Props_whole.answers e_set u_other u_otherr w_str w_dumps w_loads (fun s => s) w_resolve w_points false None [] (fun n => n)).
Notation u_reached := (Props_whole.reached e_set u_other u_otherr w_str w_dumps w_loads (fun s => s) w_resolve w_points false None [] (fun n => n)).
Definition u_state (m s o : list Z) : st := mkSt (g_obj CGaussian (g_dict (store (nums m)) (store (nums s))) (store (nums o)) VNone VNone false) w_used 0 [].
Definition u_f (m s : list Z) : forecast := Gaussian (of_list NaN [2] (nums m)) (of_list NaN [2] (nums s)) false.
Lemma u_facts m s o : let x := ob (u_state m s o) in u_reached (u_state m s o) /\ (forall z, forecast_ready e_set x (u_f m s) (VInt z) (TScalar (Fin (qz z)))) /\
  forecast_ready e_set x (u_f m s) (a_o x) (TArray (arr_of (a_o x))) /\ decomposes x [] [[0]; [1]] /\ arr_shape (a_o x) = [2] /\ arr_of (a_o x) = of_list NaN [2] (nums o) /\ a_avg x = VNone /\ a_members x = VNone /\ is_true (a_pitr x) = false.
Proof.
  cbv zeta. unfold u_state. generalize (content_store (nums m)) (content_store (nums s)) (content_store (nums o)). generalize (store (nums m)) (store (nums s)) (store (nums o)). intros cm cs co Hm Hs Ho. cbn [ob].
  assert (Fo : forecast_of (g_obj CGaussian (g_dict cm cs) co VNone VNone false) = Some (u_f m s)) by (unfold forecast_of; cbn; rewrite Hm, Hs; reflexivity).
  split; [right; split; [left; reflexivity|reflexivity]|].
  assert (R : forall t b, thr_of t = Some (Some b) -> thr_fits b [2] -> forecast_ready e_set (g_obj CGaussian (g_dict cm cs) co VNone VNone false) (u_f m s) t b).
  { intros t b Et Eb. split; [exact Fo|]. split; [split; reflexivity|]. split; [discriminate|]. split; [left; reflexivity|]. split; [intros []|]. split; [exact Et|exact Eb]. }
  split; [intros z; apply R; [reflexivity|exact I]|]. split; [apply R; reflexivity|].
  split; [split; [reflexivity|]; split; [discriminate|]; split; [intros d [<-|[]]; lia|]; exists None, [0]; split; [reflexivity|]; split; [reflexivity|]; split; [exact I|exact cells_2]|].
  split; [reflexivity|]. split; [cbn [g_obj a_o arr_of]; rewrite Ho; reflexivity|]. repeat split.
Qed.
Definition pair2 (a b : Qc) (ix : list nat) : Qc := if Nat.eqb (hd 0 ix) 0 then a else b.
Lemma u_known m s t a b : u_cdf (Fin (qz t)) (Fin (qz (hd 0%Z m))) (Fin (qz (hd 0%Z s))) = Fin a -> u_cdf (Fin (qz t)) (Fin (qz (nth 1 m 0%Z))) (Fin (qz (nth 1 s 0%Z))) = Fin b -> length m = 2 -> length s = 2 -> in_unit a -> in_unit b ->
  forall ix, Forall2 lt ix [2] -> cdf_known u_laws (u_f m s) (TScalar (Fin (qz t))) (pair2 a b) ix.
Proof.
  intros A B Lm Ls Ua Ub. destruct m as [|m0 [|m1 [|]]]; try discriminate Lm. destruct s as [|s0 [|s1 [|]]]; try discriminate Ls. apply two_cells; (split; [assumption|assumption]).
Qed.
Ltac u_num := vm_compute; apply (f_equal Fin); apply Qc_is_canon; reflexivity.
Ltac u_unit := split; vm_compute; discriminate.
Definition u_one := u_state [1; 3]%Z [3; 3]%Z [4; 0]%Z.
Definition u_two := u_state [8; 14]%Z [9; 9]%Z [17; 5]%Z.
Lemma u_off : off_edges (Q2Qc (7 # 12)) /\ off_edges (Q2Qc (5 # 12)).
Proof.
  split; intros j Hj; do 20 (destruct j as [|j]; [first [exfalso; lia|intros Z; apply (f_equal this) in Z; vm_compute in Z; discriminate Z]|]); exfalso; lia.
Qed.
Example c112_nonvacuous :
  (exists v v', u_answers u_one (MCdf (VInt 2) VNone) v /\ u_answers u_one (MCdf VNone (VInt 2)) v' /\ reads v [0] = Fin (1 - Q2Qc (7 # 12))%Qc /\ reads v' [0] = Fin (Q2Qc (7 # 12))) /\
  (exists rel reso unc rel' reso' unc', u_answers u_one (MDecomp (VInt 2) VNone) (VTuple [rel; reso; unc]) /\ u_answers u_one (MDecomp VNone (VInt 2)) (VTuple [rel'; reso'; unc']) /\ reads rel' [] = reads rel [] /\ reads reso' [] = reads reso [] /\ reads unc' [] = reads unc []) /\
  (exists x y x' y' a, u_answers u_one (MRoc (VInt 2) VNone) (VTuple [x; y; VFloat (Fin a)]) /\ u_answers u_one (MRoc VNone (VInt 2)) (VTuple [x'; y'; VFloat (Fin a)])) /\
  (exists v v', u_answers u_one (MCdf VNone (VInt 2)) v /\ u_answers u_one (MCdf VNone (VInt 3)) v' /\ reads v [1] = Fin (Q2Qc (5 # 12)) /\ reads v' [1] = Fin (Q2Qc (1 # 2))) /\
  (exists v v', u_answers u_one (MBrier (VInt 2) VNone) v /\ u_answers u_two (MBrier (VInt 11) VNone) v' /\ reads v' [] = reads v []) /\
  (exists v v', u_answers u_one MPit v /\ u_answers u_two MPit v' /\ forall ix, Forall2 lt ix [2] -> reads v' ix = reads v ix).
Proof.
  destruct (u_facts [1; 3]%Z [3; 3]%Z [4; 0]%Z) as (RE & Rd & Rp & De & So & Ao & Av & Me & Pi). destruct (u_facts [8; 14]%Z [9; 9]%Z [17; 5]%Z) as (RE' & Rd' & Rp' & De' & So' & Ao' & Av' & Me' & Pi'). fold u_one in *. fold u_two in *.
  pose proof (u_known [1; 3]%Z [3; 3]%Z 2%Z (Q2Qc (7 # 12)) (Q2Qc (5 # 12)) ltac:(u_num) ltac:(u_num) eq_refl eq_refl ltac:(u_unit) ltac:(u_unit)) as K2.
  pose proof (u_known [1; 3]%Z [3; 3]%Z 3%Z (Q2Qc (2 # 3)) (Q2Qc (1 # 2)) ltac:(u_num) ltac:(u_num) eq_refl eq_refl ltac:(u_unit) ltac:(u_unit)) as K3.
  assert (T : forall z, threshold_ok (VInt z)) by (intros z; left; exact I).
  assert (V2 : forall ix, In ix [[0]; [1]] -> Forall2 lt ix [2]) by (intros ix [<-|[<-|[]]]; repeat constructor).
  assert (Di : forall ix, Forall2 lt ix [2] -> differ (P_prob.thr_at (TScalar (Fin (qz 2))) ix) (reads (a_o (ob u_one)) ix)) by (unfold reads; rewrite Ao; apply two_cells; (split; [discriminate|]); (split; [discriminate|]); intros Z; vm_compute in Z; discriminate Z).
  repeat match goal with |- _ /\ _ => split end.
  - destruct (c112_probabilities e_set u_laws _ _ _ _ _ _ _ _ _ _ _ _ _ _ u_one (VInt 2) _ _ _ e_faithful RE (Rd 2%Z) (T 2%Z) ltac:(rewrite So; exact K2)) as (v & v' & A & A' & Sv & Sv' & G). exists v, v'. split; [exact A|]. split; [exact A'|].
    rewrite Sv, So in G. exact (G [0] ltac:(repeat constructor)).
  - exact (proj2 (c112_opposite e_set u_laws _ _ _ _ _ _ _ _ _ _ _ _ _ _ u_one (VInt 2) _ _ _ [] [[0]; [1]] e_faithful RE (Rd 2%Z) (T 2%Z) De (fun ix J => conj (K2 ix (V2 ix J)) (Di ix (V2 ix J)))) ltac:(intros ix [<-|[<-|[]]]; apply u_off)).
  - apply (c112_roc e_set u_laws (fun d i r j => d + i + r + j) (fun d i r j q => d + i + r + j + q) w_lib w_libr w_str w_dumps w_loads (fun s => s) w_resolve w_points false None [] (fun n => n) u_one (VInt 2) (TScalar (Fin (qz 2))) (u_f [1; 3]%Z [3; 3]%Z) (pair2 (Q2Qc (7 # 12)) (Q2Qc (5 # 12))) e_faithful RE (Rd 2%Z) (T 2%Z)).
    + rewrite So. intros ix V. split; [apply K2, V|apply Di, V].
    + exists [0]. rewrite So. split; [repeat constructor|]. unfold reads. rewrite Ao. vm_compute. reflexivity.
    + exists [1]. rewrite So. split; [repeat constructor|]. unfold reads. rewrite Ao. vm_compute. reflexivity.
  - destruct (c112_thresholds e_set u_laws _ _ _ _ _ _ _ _ _ _ _ _ _ _ u_one (VInt 2) _ (VInt 3) _ _ _ _ e_faithful RE (Rd 2%Z) (T 2%Z) (Rd 3%Z) (T 3%Z) ltac:(rewrite So; intros ix V; split; [apply K2, V|split; [apply K3, V|reflexivity]]) u_nondecreasing ltac:(intros; exact I)) as (v & v' & A & A' & Sv & Sv' & G).
    exists v, v'. split; [exact A|]. split; [exact A'|]. rewrite Sv, So in G. destruct (G [1] ltac:(repeat constructor)) as (G1 & G2 & _). auto.
  - destruct (c112_units e_set u_laws (fun d i r j => d + i + r + j) (fun d i r j q => d + i + r + j + q) w_lib w_libr w_str w_dumps w_loads (fun s => s) w_resolve w_points false None [] (fun n => n) u_one u_two (qz 3) (qz 5) (u_f [1; 3]%Z [3; 3]%Z) (u_f [8; 14]%Z [9; 9]%Z) (pair2 (Q2Qc (7 # 12)) (Q2Qc (5 # 12))) (VInt 2) (TScalar (Fin (qz 2))) (VInt 11) (TScalar (Fin (qz 11))) [] [[0]; [1]]
      e_faithful RE RE' eq_refl u_location_scale (Rd 2%Z) (Rd' 11%Z) (T 2%Z) (T 11%Z) ltac:(rewrite So, So'; reflexivity) ltac:(rewrite Av, Av'; reflexivity) De De') as [_ G].
    + rewrite So. intros ix V. split; [|split; [u_num|split; [|apply K2, V]]].
      * revert ix V. apply two_cells; (split; [reflexivity|]); (split; [discriminate|]); do 2 eexists; (split; [|split; [reflexivity|split; [reflexivity|split; u_num]]]); reflexivity.
      * unfold reads. rewrite Ao, Ao'. revert ix V. apply two_cells; u_num.
    + exact (G true).
  - destruct (c112_units_pit e_set u_laws (fun d i r j => d + i + r + j) (fun d i r j q => d + i + r + j + q) w_lib w_libr w_str w_dumps w_loads (fun s => s) w_resolve w_points false None [] (fun n => n) u_one u_two (qz 3) (qz 5) (u_f [1; 3]%Z [3; 3]%Z) (u_f [8; 14]%Z [9; 9]%Z) (pair2 (Q2Qc (3 # 4)) (Q2Qc (1 # 4)))
      e_faithful RE RE' eq_refl u_location_scale Rp Rp' Me Pi Me' Pi' ltac:(rewrite So, So'; reflexivity)) as (v & v' & A & A' & Sv & _ & G).
    + rewrite So. intros ix V. split; [|split].
      * revert ix V. apply two_cells; (split; [reflexivity|]); (split; [discriminate|]); do 2 eexists; (split; [|split; [reflexivity|split; [reflexivity|split; u_num]]]); reflexivity.
      * unfold reads. rewrite Ao, Ao'. revert ix V. apply two_cells; u_num.
      * rewrite Ao. revert ix V. apply two_cells; (split; [u_num|u_unit]).
    + exists v, v'. split; [exact A|]. split; [exact A'|]. rewrite Sv, So in G. exact G.
Qed.
