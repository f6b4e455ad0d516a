(** C73: the parametric CDFs belong to the distribution with the forecast's mean and standard deviation. *)
From Coq Require Import ZArith List Lia Bool Arith QArith Qcanon.
From Verif Require Import QcTac Num NdArr M_common NdAxes Spec M_ens M_dist P_dist.
Import ListNotations.
Open Scope nat_scope.

(** scipy's distributions are location-scale families; the standard members are
    [phi] (normal), [tn a b] (normal between a and b), [gam k] (gamma of shape k and scale 1), [tg a b k] (that between a and b);
    truncated ones need a < b, the gamma one also 0 <= a (see C71). *)
Record families (S : scipy) (phi : Qc -> Qc) (tn : Qc -> Qc -> Qc -> Qc) (gam : Qc -> Qc -> Qc) (tg : Qc -> Qc -> Qc -> Qc -> Qc) : Prop := Families {
  fam_norm : forall x m s, (0 < s)%Qc -> norm_cdf S (Fin x) (Fin m) (Fin s) = Fin (phi ((x - m) / s))%Qc;
  fam_truncnorm : forall x a b m s, (a < b)%Qc -> (0 < s)%Qc -> truncnorm_cdf S (Fin x) (Fin a) (Fin b) (Fin m) (Fin s) = Fin (tn a b ((x - m) / s))%Qc;
  fam_gamma : forall x k l t, (0 < k)%Qc -> (0 < t)%Qc -> gamma_cdf S (Fin x) (Fin k) (Fin l) (Fin t) = Fin (gam k ((x - l) / t))%Qc;
  fam_truncgamma : forall x a b k l t, (0 <= a)%Qc -> (a < b)%Qc -> (0 < k)%Qc -> (0 < t)%Qc -> truncgamma_cdf S (Fin x) (Fin a) (Fin b) (Fin k) (Fin l) (Fin t) = Fin (tg a b k ((x - l) / t))%Qc;
  fam_phi : forall x, (0 <= phi x <= 1)%Qc;
  fam_tn : forall a b x, (0 <= tn a b x <= 1)%Qc;
  fam_gam : forall k x, (0 <= gam k x <= 1)%Qc;
  fam_tg : forall a b k x, (0 <= tg a b k x <= 1)%Qc }.
(** a gamma distribution of shape [k] and scale [t] has mean k t and variance k t^2 *)
Definition mean_and_deviation (k t m s : Qc) : Prop := (0 < k)%Qc /\ (0 < t)%Qc /\ (k * t = m)%Qc /\ (k * (t * t) = s * s)%Qc.
(** the threshold of cell [ix] *)
Definition at_threshold (b : thr) (ix : list nat) (t : Qc) : Prop :=
  match b with TScalar x => x = Fin t | TArray a => get a ix = Fin t | TSeq => False end.

Lemma gamma_pars m s : (0 < m)%Qc -> (0 < s)%Qc -> exists k t, nsq (ndiv (Fin m) (Fin s)) = Fin k /\ ndiv (nsq (Fin s)) (Fin m) = Fin t /\ mean_and_deviation k t m s.
Proof.
  intros M D. exists ((m / s) * (m / s))%Qc, ((s * s) / m)%Qc.
  assert (Nm : m <> 0%Qc) by (intros ->; qlra). assert (Ns : s <> 0%Qc) by (intros ->; qlra).
  assert (Q : forall x y, (0 < x)%Qc -> (0 < y)%Qc -> (0 < x / y)%Qc).
  { intros x y X Y. apply Qclt_div_iff; [exact Y|qlra]. }
  split; [unfold nsq; cbn; destruct (qeqb_spec s 0); [contradiction|reflexivity]|].
  split; [unfold nsq; cbn; destruct (qeqb_spec m 0); [contradiction|reflexivity]|].
  split; [pose proof (Q _ _ M D); qnra|]. split; [apply Q; [qnra|exact M]|]. split; field; auto.
Qed.
Lemma at_thr b ix t : at_threshold b ix t -> thr_at b ix = Fin t.
Proof. destruct b; cbn; [auto|auto|contradiction]. Qed.

Section C73.
Variables (S : scipy) (phi : Qc -> Qc) (tn : Qc -> Qc -> Qc -> Qc) (gam : Qc -> Qc -> Qc) (tg : Qc -> Qc -> Qc -> Qc -> Qc).
Hypothesis HS : families S phi tn gam tg.

(** Gaussian: the standard distribution at the standardised threshold; truncated, with the lower bound at zero. *)
Theorem c73_gaussian : forall w z mu sigma sh below r ix m s t, shape mu = sh -> shape sigma = sh ->
  Forall2 lt ix sh -> get mu ix = Fin m -> get sigma ix = Fin s -> (0 < s)%Qc -> at_threshold below ix t ->
  (prob_cdf S w z (Gaussian mu sigma false) None (Some below) = Ok r -> get r ix = Fin (phi ((t - m) / s))%Qc) /\
  ((0 < m + qz 10000 * s)%Qc -> prob_cdf S w z (Gaussian mu sigma true) None (Some below) = Ok r ->
     exists a, (m + a * s = 0)%Qc /\ get r ix = Fin (tn a (qz 10000) ((t - m) / s))%Qc).
Proof.
  intros w z mu sigma sh below r ix m s t S1 S2 V Em Es Ps T. apply at_thr in T.
  assert (Ns : s <> 0%Qc) by (intros ->; qlra).
  split; [intros E|intros Pb E].
  - destruct (cdf_below_inv S w z (Gaussian mu sigma false) sh below r (conj S1 S2) E) as (_ & _ & G); rewrite (G ix V).
    replace (if Nat.eqb w 1 then _ else _) with (norm_at S) by (destruct (Nat.eqb w 1); reflexivity).
    cbn [at_cell params_of map app]. unfold norm_at, par. cbn [nth]. rewrite T, Em, Es, (fam_norm _ _ _ _ _ HS) by exact Ps.
    apply clip1_id, (fam_phi _ _ _ _ _ HS).
  - destruct (cdf_below_inv S w z (Gaussian mu sigma true) sh below r (conj S1 S2) E) as (_ & _ & G); rewrite (G ix V).
    replace (if Nat.eqb w 1 then _ else _) with (truncnorm_at S) by (destruct (Nat.eqb w 1); reflexivity).
    cbn [at_cell params_of map app]. unfold truncnorm_at, par. cbn [nth]. rewrite T, Em, Es. unfold large.
    exists (- m / s)%Qc. split; [field; exact Ns|].
    replace (ndiv (nopp (Fin m)) (Fin s)) with (Fin (- m / s)%Qc) by (cbn; destruct (qeqb_spec s 0); [contradiction|reflexivity]).
    rewrite (fam_truncnorm _ _ _ _ _ HS); [|apply Qcdiv_lt_iff; [exact Ps|qlra]|exact Ps]. apply clip1_id, (fam_tn _ _ _ _ _ HS).
Qed.
(** Gamma: mean and standard deviation are the forecast's, and the shift moves the distribution. *)
Theorem c73_gamma : forall w z mu sigma shift sh below r ix m s l t, shape mu = sh -> shape sigma = sh -> shape shift = sh ->
  Forall2 lt ix sh -> get mu ix = Fin m -> get sigma ix = Fin s -> get shift ix = Fin l -> (0 < m)%Qc -> (0 < s)%Qc -> at_threshold below ix t ->
  exists k c, mean_and_deviation k c m s /\
  (prob_cdf S w z (Gamma mu sigma shift false) None (Some below) = Ok r -> get r ix = Fin (gam k ((t - l) / c))%Qc) /\
  ((l <= 0)%Qc -> (0 < l + qz 10000 * c)%Qc -> w = 1 -> prob_cdf S w z (Gamma mu sigma shift true) None (Some below) = Ok r ->
     exists a, (l + a * c = 0)%Qc /\ get r ix = Fin (tg a (qz 10000) k ((t - l) / c))%Qc).
Proof.
  intros w z mu sigma shift sh below r ix m s l t S1 S2 S3 V Em Es El Pm Ps T. apply at_thr in T.
  destruct (gamma_pars m s Pm Ps) as (k & c & Ek & Ec & K). exists k, c. split; [exact K|]. destruct K as (Pk & Pc & _).
  assert (Nc : c <> 0%Qc) by (intros ->; qlra).
  split.
  - intros E. destruct (cdf_below_inv S w z (Gamma mu sigma shift false) sh below r (conj S1 (conj S2 S3)) E) as (_ & _ & G). rewrite (G ix V).
    replace (if Nat.eqb w 1 then _ else _) with (gamma_at S) by (destruct (Nat.eqb w 1); reflexivity).
    cbn [at_cell params_of map app]. unfold gamma_at, par. cbn [nth gamma_shape gamma_scale amap2 get]. rewrite T, Em, Es, El, Ek, Ec.
    rewrite (fam_gamma _ _ _ _ _ HS) by assumption. apply clip1_id, (fam_gam _ _ _ _ _ HS).
  - intros Pl Pb -> E. destruct (cdf_below_inv S 1 z (Gamma mu sigma shift true) sh below r (conj S1 (conj S2 S3)) E) as (_ & _ & G). rewrite (G ix V).
    cbn [Nat.eqb serial_at at_cell params_of map app]. unfold truncgamma_at, par. cbn [nth gamma_shape gamma_scale amap2 get]. rewrite T, Em, Es, El, Ek, Ec. unfold large.
    exists (- l / c)%Qc. split; [field; exact Nc|].
    replace (ndiv (nopp (Fin l)) (Fin c)) with (Fin (- l / c)%Qc) by (cbn; destruct (qeqb_spec c 0); [contradiction|reflexivity]).
    rewrite (fam_truncgamma _ _ _ _ _ HS); [|apply Qcle_div_iff; [exact Pc|qlra]|apply Qcdiv_lt_iff; [exact Pc|qlra]|exact Pk|exact Pc]. apply clip1_id, (fam_tg _ _ _ _ _ HS).
Qed.
(** Hurdle: dry with probability 1 - pop, otherwise gamma without a shift. *)
Theorem c73_hurdle : forall w z pop mu sigma sh below r ix p m s t, shape pop = sh -> shape mu = sh -> shape sigma = sh ->
  Forall2 lt ix sh -> get pop ix = Fin p -> (0 <= p <= 1)%Qc -> get mu ix = Fin m -> get sigma ix = Fin s -> (0 < m)%Qc -> (0 < s)%Qc -> at_threshold below ix t -> (0 < t)%Qc ->
  prob_cdf S w z (Hurdle pop mu sigma) None (Some below) = Ok r ->
  exists k c, mean_and_deviation k c m s /\ get r ix = Fin (1 - p + p * gam k (t / c))%Qc.
Proof.
  intros w z pop mu sigma sh below r ix p m s t S1 S2 S3 V Ep Pp Em Es Pm Ps T Pt E. apply at_thr in T.
  destruct (gamma_pars m s Pm Ps) as (k & c & Ek & Ec & K). exists k, c. split; [exact K|]. destruct K as (Pk & Pc & _).
  destruct (cdf_below_inv S w z (Hurdle pop mu sigma) sh below r (conj S1 (conj S2 S3)) E) as (_ & _ & G). rewrite (G ix V).
  replace (if Nat.eqb w 1 then _ else _) with (hurdle_at S) by (destruct (Nat.eqb w 1); reflexivity).
  cbn [at_cell params_of map app]. unfold hurdle_at, par. cbn [nth gamma_shape gamma_scale amap2 get]. rewrite T, Em, Es, Ep, Ek, Ec.
  change (nlt (Fin 0) (Fin t)) with (qltb 0 t). destruct (qltb_spec 0 t) as [_|N]; [|exfalso; qlra].
  rewrite (fam_gamma _ _ _ _ _ HS) by assumption. replace (t - 0)%Qc with t by ring.
  cbn [nsub nopp nadd nmul]. change (1 + - p)%Qc with (1 - p)%Qc. apply clip1_id.
  pose proof (fam_gam _ _ _ _ _ HS k (t / c)%Qc) as [A B]. split; qnra.
Qed.
End C73.

(** A library whose standard functions all ramp from 0 to 1 on [0, 1]. *)
Definition ramp (x : Qc) : Qc := if qleb x 0 then 0%Qc else if qleb x 1 then x else 1%Qc.
Definition std (x l s : num) : num := match x, l, s with Fin x, Fin l, Fin s => Fin (ramp ((x - l) / s))%Qc | _, _, _ => NaN end.
Definition ramp_S : scipy := Scipy std (fun x _ _ l s => std x l s) (fun x _ l s => std x l s) (fun x _ _ _ l s => std x l s).
Example c73_families : families ramp_S ramp (fun _ _ => ramp) (fun _ => ramp) (fun _ _ _ => ramp).
Proof.
  assert (R : forall x, (0 <= ramp x <= 1)%Qc).
  { intros x. unfold ramp. destruct (qleb_spec x 0); [split; qlra|]. destruct (qleb_spec x 1); split; qlra. }
  constructor; intros; try reflexivity; apply R.
Qed.
Example c73_nonvacuous :
  let two := afull [2] (nnat 2) in let half := afull [2] (Fin (Q2Qc (1 # 2))) in
  (exists r, prob_cdf ramp_S 2 (-1) (Gaussian two two false) None (Some (TScalar (nnat 3))) = Ok r /\ get r [1] = Fin (Q2Qc (1 # 2))) /\
  (exists r, prob_cdf ramp_S 1 (-1) (Gamma two two (afull [2] (Fin (Q2Qc (- 1 # 2)))) true) None (Some (TScalar (nnat 1))) = Ok r /\ get r [1] = Fin (Q2Qc (3 # 4))) /\
  (exists r, prob_cdf ramp_S 1 (-1) (Hurdle half two two) None (Some (TScalar (nnat 1))) = Ok r /\ get r [1] = Fin (Q2Qc (3 # 4))).
Proof. cbv zeta. split; [|split]; eexists; (split; [reflexivity|vm_compute; repeat first [reflexivity | apply Qc_is_canon; reflexivity | f_equal]]). Qed.
Print Assumptions c73_gaussian.
Print Assumptions c73_gamma.
Print Assumptions c73_hurdle.
