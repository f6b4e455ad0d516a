(** C53, C69: closed form of the CRPS of the shifted gamma distribution. *)
From Coq Require Import Reals List Bool Arith Lra Psatz.
From Coquelicot Require Import Coquelicot.
From Verif Require Import Num NdArr R_gauss M_crps Spec_crps P_crps P_crpsgamma.
Import ListNotations.
Open Scope R_scope.

(** What is assumed of special.gamma ([G]) and stats.gamma.cdf ([cdf]) is [gamma_lib] of Spec_crps.v at the shape
    parameters which occur. *)
Section C53.
Variables (G : R -> R) (cdf : R -> R -> R).
Definition one (x : R) : arr R := Arr [] (fun _ => x).
Definition gscore (mu sigma shift y : R) : R := get (crps_gamma G cdf (one mu) (one sigma) (one shift) (one y)) [].
Lemma cell_gscore mu sigma shift obs ix :
  get (crps_gamma G cdf mu sigma shift obs) ix = gscore (get mu ix) (get sigma ix) (get shift ix) (get obs ix).
Proof. reflexivity. Qed.
Lemma gscore_own mu sigma shift y : 0 < mu -> 0 < sigma ->
  gscore mu sigma shift y = own_value G cdf ((mu / sigma) ^ 2) (sigma ^ 2 / mu) shift y - sigma ^ 2 / mu * A1 G cdf ((mu / sigma) ^ 2) ((0 - shift) / (sigma ^ 2 / mu)).
Proof.
  intros M S. unfold gscore, crps_gamma, rmap1, rmap2, one. cbn [get shape]. rewrite <- !Rsqr_pow2.
  set (k := Rsqr (mu / sigma)). set (t := Rsqr sigma / mu).
  replace (-1 * shift / t) with ((0 - shift) / t) by (unfold Rdiv; ring).
  set (c := (0 - shift) / t). unfold own_value, A2, A0, A1. set (u := (y - shift) / t). rewrite !Rmult_1_l.
  unfold beta, Rsqr. ring.
Qed.
Lemma pars mu sigma : 0 < mu -> 0 < sigma -> 0 < (mu / sigma) ^ 2 /\ 0 < sigma ^ 2 / mu.
Proof.
  intros M S. split.
  - apply pow_lt, Rdiv_lt_0_compat; assumption.
  - apply Rdiv_lt_0_compat; [apply pow_lt, S|exact M].
Qed.

(** The score of an observation that is not negative is the CRPS of the distribution with everything below zero put on zero. *)
Theorem c53_censored : forall mu sigma shift obs ix, 0 < get mu ix -> 0 < get sigma ix -> 0 <= get obs ix ->
  gamma_lib G cdf ((get mu ix / get sigma ix) ^ 2) ->
  is_crps (censored_gamma cdf (get mu ix) (get sigma ix) (get shift ix)) (get obs ix) (get (crps_gamma G cdf mu sigma shift obs) ix).
Proof.
  intros mu sigma shift obs ix M S Y L. rewrite cell_gscore, gscore_own by assumption. destruct (pars _ _ M S) as [K T].
  exact (cens_crps G cdf _ _ _ K T L _ Y).
Qed.
(** Left at its default, reduce_sum gives the mean (not the sum) of these scores, one for every cell. *)
Theorem c53_reduced : forall skip mu sigma shift obs, shape obs = shape mu ->
  (forall ix, In ix (indices (shape mu)) -> 0 < get mu ix /\ 0 < get sigma ix /\ 0 <= get obs ix /\ gamma_lib G cdf ((get mu ix / get sigma ix) ^ 2)) ->
  indices (shape mu) <> [] ->
  exists vs, Forall2 (fun ix v => is_crps (censored_gamma cdf (get mu ix) (get sigma ix) (get shift ix)) (get obs ix) v) (indices (shape mu)) vs /\
    crps_gamma_reduced skip G cdf mu sigma shift obs = Some (fold_right Rplus 0 vs / INR (length vs)).
Proof.
  intros skip mu sigma shift obs Sh H N. exists (map (get (crps_gamma G cdf mu sigma shift obs)) (indices (shape mu))). split.
  - revert H. generalize (indices (shape mu)). induction l as [|ix l IH]; intros H; cbn [map]; constructor.
    + destruct (H ix (or_introl eq_refl)) as (M & S & Y & L). exact (c53_censored mu sigma shift obs ix M S Y L).
    + apply IH. intros jx J. apply H. right. exact J.
  - unfold crps_gamma_reduced, mean_all. change (shape (crps_gamma G cdf mu sigma shift obs)) with (shape obs). rewrite Sh.
    destruct (indices (shape mu)) as [|ix l]; [contradiction|]. destruct skip; reflexivity.
Qed.
(** As a function of the observation its slope is 2F-1, F the forecast CDF, *)
Theorem c53_slope : forall mu sigma shift, 0 < mu -> 0 < sigma -> gamma_lib G cdf ((mu / sigma) ^ 2) ->
  forall y, is_derive (gscore mu sigma shift) y (2 * shifted_gamma cdf mu sigma shift y - 1).
Proof.
  intros mu sigma shift M S L y. destruct (pars _ _ M S) as [K T].
  apply (is_derive_ext (fun y => own_value G cdf ((mu / sigma) ^ 2) (sigma ^ 2 / mu) shift y - sigma ^ 2 / mu * A1 G cdf ((mu / sigma) ^ 2) ((0 - shift) / (sigma ^ 2 / mu)))).
  - intros z. symmetry. apply gscore_own; assumption.
  - eapply d_eq; [apply d_minus; [apply (own_slope G cdf _ _ shift K T L)|apply d_const]|]. toR. unfold shifted_gamma. ring.
Qed.
(** so that it is smallest exactly at the median of the forecast, which exists. *)
Theorem c53_median : forall mu sigma shift, 0 < mu -> 0 < sigma -> gamma_lib G cdf ((mu / sigma) ^ 2) ->
  exists q, shifted_gamma cdf mu sigma shift q = 1 / 2 /\ forall y, y <> q -> gscore mu sigma shift q < gscore mu sigma shift y.
Proof.
  intros mu sigma shift M S L. destruct (pars _ _ M S) as [K T]. destruct (own_median G cdf _ _ shift T L) as [q Q]. exists q. split; [exact Q|].
  intros y Y. rewrite !gscore_own by assumption. pose proof (own_min G cdf _ _ shift K T L q Q y Y). lra.
Qed.
(** C69.  Without a negative shift the score is the CRPS of the CDF which the verifier reports. *)
Theorem c69_own_partial : forall mu sigma shift obs ix, 0 < get mu ix -> 0 < get sigma ix -> 0 <= get shift ix ->
  gamma_lib G cdf ((get mu ix / get sigma ix) ^ 2) ->
  is_crps (shifted_gamma cdf (get mu ix) (get sigma ix) (get shift ix)) (get obs ix) (get (crps_gamma G cdf mu sigma shift obs) ix).
Proof.
  intros mu sigma shift obs ix M S H L. rewrite cell_gscore, gscore_own by assumption. destruct (pars _ _ M S) as [K T].
  assert (N : (0 - get shift ix) / (get sigma ix ^ 2 / get mu ix) <= 0). { unfold Rdiv. assert (0 < / (get sigma ix ^ 2 / get mu ix)) by (apply Rinv_0_lt_compat, T). unfold Rdiv in *. nra. }
  rewrite (proj1 (A_neg G cdf _ L _ N)), Rmult_0_r, Rminus_0_r. exact (own_crps G cdf _ _ _ K T L _).
Qed.
(** The crps of the verifier: with truncated=True, where the reported CDF is another one, it gives no score. *)
Theorem c69_verifier_partial : forall truncated mu sigma shift obs,
  match gamma_crps G cdf truncated obs mu sigma shift with
  | Ok a => truncated = false /\ forall ix, 0 < get mu ix -> 0 < get sigma ix -> 0 <= get shift ix ->
      gamma_lib G cdf ((get mu ix / get sigma ix) ^ 2) ->
      is_crps (shifted_gamma cdf (get mu ix) (get sigma ix) (get shift ix)) (get obs ix) (get a ix)
  | Raise e => truncated = true /\ e = NotImplementedError
  end.
Proof.
  intros [|] mu sigma shift obs; cbn [gamma_crps]; [split; reflexivity|]. split; [reflexivity|].
  intros ix M S H L. apply c69_own_partial; assumption.
Qed.
(** With a negative shift it is always smaller than this, for every observation. *)
Theorem c69_own_refuted : forall mu sigma shift obs ix v, 0 < get mu ix -> 0 < get sigma ix -> get shift ix < 0 ->
  gamma_lib G cdf ((get mu ix / get sigma ix) ^ 2) ->
  is_crps (shifted_gamma cdf (get mu ix) (get sigma ix) (get shift ix)) (get obs ix) v ->
  get (crps_gamma G cdf mu sigma shift obs) ix < v.
Proof.
  intros mu sigma shift obs ix v M S H L V. rewrite cell_gscore, gscore_own by assumption. destruct (pars _ _ M S) as [K T].
  assert (E : v = own_value G cdf ((get mu ix / get sigma ix) ^ 2) (get sigma ix ^ 2 / get mu ix) (get shift ix) (get obs ix)) by (apply (gen_unique _ _ _ V), (own_crps G cdf _ _ _ K T L)).
  assert (P : 0 < (0 - get shift ix) / (get sigma ix ^ 2 / get mu ix)) by (apply Rdiv_lt_0_compat; [lra|exact T]).
  pose proof (A1_pos G cdf _ K L _ P). rewrite E. assert (0 < get sigma ix ^ 2 / get mu ix * A1 G cdf ((get mu ix / get sigma ix) ^ 2) ((0 - get shift ix) / (get sigma ix ^ 2 / get mu ix))) by (apply Rmult_lt_0_compat; assumption). lra.
Qed.
(** That CRPS exists for every shift and observation, so the score is never it. *)
Theorem c69_exists : forall mu sigma shift y, 0 < mu -> 0 < sigma -> gamma_lib G cdf ((mu / sigma) ^ 2) ->
  exists v, is_crps (shifted_gamma cdf mu sigma shift) y v.
Proof. intros mu sigma shift y M S L. destruct (pars _ _ M S) as [K T]. eexists. exact (own_crps G cdf _ _ _ K T L y). Qed.
End C53.
Print Assumptions c53_censored.
Print Assumptions c53_reduced.
Print Assumptions c53_slope.
Print Assumptions c53_median.
Print Assumptions c69_own_partial.
Print Assumptions c69_verifier_partial.
Print Assumptions c69_own_refuted.
Print Assumptions c69_exists.

(** A concrete case: mean = standard deviation, the exponential distribution. *)
Definition w_G (x : R) : R := if Req_EM_T x (1 / 2) then sqrt PI else if Req_EM_T x (1 + 1 / 2) then sqrt PI / 2 else 1.
Definition w_cdf (j x : R) : R := if Rle_dec x 0 then 0 else if Req_EM_T j 1 then 1 - exp (- x) else 1 - (1 + x) * exp (- x).
Lemma w_exp_lim : is_lim (fun x => exp (- x)) p_infty 0.
Proof.
  apply (is_lim_comp exp Ropp p_infty 0 m_infty); [apply is_lim_exp_m| |exists 0; intros y _; discriminate].
  replace m_infty with (Rbar_opp p_infty) by reflexivity. apply is_lim_opp, is_lim_id.
Qed.
Lemma w_tail_lim : is_lim (fun x => (1 + x) * exp (- x)) p_infty 0.
Proof.
  apply (is_lim_ext_loc (fun x => exp (- x) + / (exp x / x))).
  - exists 0. intros x X. rewrite exp_Ropp. pose proof (exp_pos x). field. lra.
  - replace 0 with (0 + 0) by ring. apply is_lim_plus'; [apply w_exp_lim|]. replace (Finite 0) with (Rbar_inv p_infty) by reflexivity. apply is_lim_inv; [apply is_lim_div_exp_p|discriminate].
Qed.
Lemma w_cont0 (f : R -> R) : f 0 = 0 -> continuous f 0 -> continuous (fun x => if Rle_dec x 0 then 0 else f x) 0.
Proof.
  intros Z C P HP0. assert (HP : locally 0 P) by (revert HP0; cbv beta; destruct (Rle_dec 0 0) as [?|N]; [auto|exfalso; apply N; lra]).
  specialize (C P). rewrite Z in C. specialize (C HP). unfold filtermap in *. generalize C. apply filter_imp. intros x Hx. destruct (Rle_dec x 0); [apply locally_singleton, HP|exact Hx].
Qed.
Lemma w_pos_derive (f : R -> R) x d : 0 < x -> is_derive f x d -> is_derive (fun x => if Rle_dec x 0 then 0 else f x) x d.
Proof.
  intros X D. apply (is_derive_ext_loc f); [|exact D]. exists (mkposreal _ X). intros t Ht. unfold ball in Ht; cbn in Ht. unfold AbsRing_ball, abs, minus, plus, opp in Ht; cbn in Ht. apply Rabs_def2 in Ht. destruct (Rle_dec t 0); [lra|reflexivity].
Qed.
Lemma w_pos_lim (f : R -> R) l : is_lim f p_infty l -> is_lim (fun x => if Rle_dec x 0 then 0 else f x) p_infty l.
Proof. intros L. apply (is_lim_ext_loc f); [|exact L]. exists 0. intros x X. destruct (Rle_dec x 0); [lra|reflexivity]. Qed.
Example c53_lib : gamma_lib w_G w_cdf ((2 / 2) ^ 2).
Proof.
  replace ((2 / 2) ^ 2) with 1 by field. assert (SP : 0 < sqrt PI) by (apply sqrt_lt_R0, PI_RGT_0).
  assert (G1 : w_G 1 = 1). { unfold w_G. destruct (Req_EM_T 1 (1 / 2)); [lra|]. destruct (Req_EM_T 1 (1 + 1 / 2)); [lra|reflexivity]. }
  assert (G2 : w_G 2 = 1). { unfold w_G. destruct (Req_EM_T 2 (1 / 2)); [lra|]. destruct (Req_EM_T 2 (1 + 1 / 2)); [lra|reflexivity]. }
  assert (Gh : w_G (1 / 2) = sqrt PI). { unfold w_G. destruct (Req_EM_T (1 / 2) (1 / 2)); [reflexivity|lra]. }
  assert (Gt : w_G (1 + 1 / 2) = sqrt PI / 2). { unfold w_G. destruct (Req_EM_T (1 + 1 / 2) (1 / 2)); [lra|]. destruct (Req_EM_T (1 + 1 / 2) (1 + 1 / 2)); [reflexivity|lra]. }
  assert (DE : forall x, is_derive (fun x => exp (- x)) x (- exp (- x))).
  { intros x. eapply d_eq; [apply (d_comp Ropp exp); [apply is_derive_Reals, derivable_pt_lim_opp, derivable_pt_lim_id|apply is_derive_Reals, derivable_pt_lim_exp]|toR; ring]. }
  assert (D1 : forall x, is_derive (fun x => 1 - exp (- x)) x (exp (- x))).
  { intros x. eapply d_eq; [apply d_minus; [apply d_const|apply DE]|toR; ring]. }
  assert (D2 : forall x, is_derive (fun x => 1 - (1 + x) * exp (- x)) x (x * exp (- x))).
  { intros x. eapply d_eq; [apply d_minus; [apply d_const|apply d_mult; [apply d_plus; [apply d_const|apply d_id]|apply DE]]|toR; ring]. }
  assert (C1 : is_gamma_cdf w_G w_cdf 1).
  { assert (E : forall x, (if Rle_dec x 0 then 0 else 1 - exp (- x)) = w_cdf 1 x) by (intros x; unfold w_cdf; destruct (Rle_dec x 0); [reflexivity|]; destruct (Req_EM_T 1 1); [reflexivity|lra]).
    split; [|split; [|split]].
    - intros x X. unfold w_cdf. destruct (Rle_dec x 0); [reflexivity|lra].
    - intros x X. apply (is_derive_ext _ _ _ _ E). apply w_pos_derive; [exact X|]. eapply d_eq; [apply D1|]. rewrite G1. replace (1 - 1) with 0 by ring. rewrite Rpower_O by exact X. toR. field.
    - apply (continuous_ext _ _ _ E), (w_cont0 (fun x => 1 - exp (- x))); [rewrite Ropp_0, exp_0; ring|]. apply (dcont (fun x => 1 - exp (- x))). eexists. apply D1.
    - apply (is_lim_ext _ _ _ _ E). apply w_pos_lim. replace (Finite 1) with (Finite (1 - 0)) by (f_equal; ring). apply is_lim_minus'; [apply is_lim_const|apply w_exp_lim]. }
  assert (C2 : is_gamma_cdf w_G w_cdf 2).
  { assert (E : forall x, (if Rle_dec x 0 then 0 else 1 - (1 + x) * exp (- x)) = w_cdf 2 x) by (intros x; unfold w_cdf; destruct (Rle_dec x 0); [reflexivity|]; destruct (Req_EM_T 2 1); [lra|reflexivity]).
    split; [|split; [|split]].
    - intros x X. unfold w_cdf. destruct (Rle_dec x 0); [reflexivity|lra].
    - intros x X. apply (is_derive_ext _ _ _ _ E). apply w_pos_derive; [exact X|]. eapply d_eq; [apply D2|]. rewrite G2. replace (2 - 1) with 1 by ring. rewrite Rpower_1 by exact X. toR. field.
    - apply (continuous_ext _ _ _ E), (w_cont0 (fun x => 1 - (1 + x) * exp (- x))); [rewrite Ropp_0, exp_0; ring|]. apply (dcont (fun x => 1 - (1 + x) * exp (- x))). eexists. apply D2.
    - apply (is_lim_ext _ _ _ _ E). apply w_pos_lim. replace (Finite 1) with (Finite (1 - 0)) by (f_equal; ring). apply is_lim_minus'; [apply is_lim_const|apply w_tail_lim]. }
  split.
  - exact Gh.
  - rewrite G1, Gt. replace (2 * 1) with 2 by ring. rewrite G2. lra.
  - replace (1 + 1) with 2 by ring. rewrite G1, G2. ring.
  - rewrite G1, Gt. replace (2 * 1) with 2 by ring. rewrite G2. replace (1 - 2) with (- (1)) by ring. rewrite Rpower_Ropp, Rpower_1 by lra. field.
  - replace (1 + 1) with 2 by ring. replace (2 * 1) with 2 by ring. exact (conj C1 (conj C2 C2)).
Qed.
(** the exponential distribution of mean 2 moved down by 1, observation 3: the hypotheses hold, and the score is wrong *)
Example c69_nonvacuous : 0 < get (one 2) [] /\ 0 <= get (one 3) [] /\ get (one (-1)) [] < 0 /\
  (exists v, is_crps (shifted_gamma w_cdf 2 2 (-1)) 3 v /\ gscore w_G w_cdf 2 2 (-1) 3 < v) /\
  is_crps (shifted_gamma w_cdf 2 2 1) 3 (gscore w_G w_cdf 2 2 1 3).
Proof.
  split; [cbn; lra|]. split; [cbn; lra|]. split; [cbn; lra|]. split.
  - destruct (c69_exists w_G w_cdf 2 2 (-1) 3 ltac:(lra) ltac:(lra) c53_lib) as [v V]. exists v. split; [exact V|].
    apply (c69_own_refuted w_G w_cdf (one 2) (one 2) (one (-1)) (one 3) [] v); cbn [one get]; [lra|lra|lra|apply c53_lib|exact V].
  - apply (c69_own_partial w_G w_cdf (one 2) (one 2) (one 1) (one 3) []); cbn [one get]; [lra|lra|lra|apply c53_lib].
Qed.
Lemma F2_len A B (Q : A -> B -> Prop) l m : Forall2 Q l m -> length l = length m.
Proof. induction 1; cbn; congruence. Qed.
Lemma F2_cons A B (Q : A -> B -> Prop) a l b m : Forall2 Q (a :: l) (b :: m) -> Q a b /\ Forall2 Q l m.
Proof. intros H. inversion H; subst. split; assumption. Qed.
(** two cells of the exponential distribution of mean 2, observations 3 *)
Example c53_reduced_case : exists v w, is_crps (censored_gamma w_cdf 2 2 (-1)) 3 v /\ is_crps (censored_gamma w_cdf 2 2 (-1)) 3 w /\
  crps_gamma_reduced true w_G w_cdf (Arr [2%nat] (fun _ => 2)) (Arr [2%nat] (fun _ => 2)) (Arr [2%nat] (fun _ => -1)) (Arr [2%nat] (fun _ => 3)) = Some ((v + (w + 0)) / 2).
Proof.
  destruct (c53_reduced w_G w_cdf true (Arr [2%nat] (fun _ => 2)) (Arr [2%nat] (fun _ => 2)) (Arr [2%nat] (fun _ => -1)) (Arr [2%nat] (fun _ => 3))) as (vs & F & E).
  - reflexivity.
  - intros ix _. cbn [get]. split; [lra|split; [lra|split; [lra|exact c53_lib]]].
  - intros Z. apply (f_equal (@length _)) in Z. discriminate Z.
  - cbn [shape] in F. assert (I : indices [2%nat] = [[0%nat]; [1%nat]]) by reflexivity. rewrite I in F.
    destruct vs as [|v [|w [|z vs]]]; try (exfalso; apply F2_len in F; discriminate F).
    apply F2_cons in F as [Hv F]. apply F2_cons in F as [Hw _].
    exists v, w. split; [exact Hv|split; [exact Hw|]]. rewrite E. cbn [fold_right length]. f_equal.
Qed.
