(** Property C92: the CRPS of the shifted gamma distribution with the two mathematics libraries. *)
From Coq Require Import Reals String List Bool Arith Lra.
From Verif Require Import Num NdArr R_gauss M_crps M_integ M_crpstf Spec_crps P_crps P_crpsgamma Props_crpsgamma.
Import ListNotations.
Open Scope R_scope.

(** The two libraries at a shape parameter: the functions of TensorFlow are those of SciPy where they are defined, and
    the incomplete gamma function of TensorFlow is NaN for a negative argument (where the CDF of SciPy is 0). *)
Record tf_lib (G lgam : R -> R) (ig : R -> R -> option R) (cdf : R -> R -> R) : Prop := {
  tl_gamma : forall x, 0 < x -> 0 < G x /\ lgam x = ln (G x);
  tl_nan : forall a x, x < 0 -> ig a x = None;
  tl_same : forall a x, 0 < a -> 0 <= x -> ig a x = Some (cdf a x) }.

(** With a shift that is not positive and an observation not below it both settings give the same score. *)
Theorem c92_same_partial : forall flag flag' G lgam ig cdf mu sigma shift obs a b, tf_lib G lgam ig cdf ->
  crps_gamma_any flag G lgam ig cdf mu sigma shift obs = Ok a -> crps_gamma_any flag' G lgam ig cdf mu sigma shift obs = Ok b ->
  shape a = shape b /\ forall ix, 0 < get mu ix -> 0 < get sigma ix -> get shift ix <= 0 -> get shift ix <= get obs ix ->
    get a ix = get b ix /\ get a ix = Some (get (crps_gamma G cdf mu sigma shift obs) ix).
Proof.
  intros flag flag' G lgam ig cdf mu sigma shift obs a b L.
  assert (K : forall f r, crps_gamma_any f G lgam ig cdf mu sigma shift obs = Ok r -> shape r = shape obs /\
    forall ix, 0 < get mu ix -> 0 < get sigma ix -> get shift ix <= 0 -> get shift ix <= get obs ix -> get r ix = Some (get (crps_gamma G cdf mu sigma shift obs) ix)).
  { intros f r. unfold crps_gamma_any. destruct (strtobool f) as [[|]|]; cbn [bind]; [| |discriminate]; intros E; assert (X : forall u v : arr (option R), Ok u = Ok v -> u = v) by congruence; apply X in E; subst r; (split; [reflexivity|]); intros ix M S Sh O; [|reflexivity].
    destruct (pars _ _ M S) as [Kp T]. unfold crps_gamma_tf, crps_gamma, omap2, omap1, ofin, oapp2, rmap1, rmap2. cbn [get shape]. rewrite <- Rsqr_pow2 in Kp, T.
    set (k := Rsqr (get mu ix / get sigma ix)) in *. set (t := Rsqr (get sigma ix) / get mu ix) in *.
    assert (Hy : 0 <= (get obs ix - get shift ix) / t) by (apply Rmult_le_pos; [lra|left; apply Rinv_0_lt_compat, T]).
    assert (Hc : 0 <= -1 * get shift ix / t) by (apply Rmult_le_pos; [lra|left; apply Rinv_0_lt_compat, T]).
    rewrite !(tl_same _ _ _ _ L) by (try lra; apply Rmult_le_pos; lra). cbn [option_map].
    unfold tf_lbeta, lbeta. rewrite (proj2 (tl_gamma _ _ _ _ L (1 / 2) ltac:(lra))), (proj2 (tl_gamma _ _ _ _ L (k + 1 / 2) ltac:(lra))), (proj2 (tl_gamma _ _ _ _ L (1 / 2 + (k + 1 / 2)) ltac:(lra))). reflexivity. }
  intros Ha Hb. destruct (K _ _ Ha) as [Sa Va]. destruct (K _ _ Hb) as [Sb Vb]. split; [congruence|]. intros ix M S Sh O. rewrite (Va ix), (Vb ix) by assumption. auto.
Qed.
Print Assumptions c92_same_partial.
(** Otherwise the setting turns the score into NaN. *)
Theorem c92_nan_refuted : forall G lgam ig cdf mu sigma shift obs ix, tf_lib G lgam ig cdf -> 0 < get mu ix -> 0 < get sigma ix ->
  0 < get shift ix \/ get obs ix < get shift ix ->
  exists a b, crps_gamma_any "True" G lgam ig cdf mu sigma shift obs = Ok a /\ crps_gamma_any "False" G lgam ig cdf mu sigma shift obs = Ok b /\
    get a ix = None /\ exists v, get b ix = Some v.
Proof.
  intros G lgam ig cdf mu sigma shift obs ix L M S H. do 2 eexists. split; [reflexivity|]. split; [reflexivity|]. split; [|eexists; reflexivity].
  destruct (pars _ _ M S) as [Kp T]. unfold crps_gamma_tf, omap2, omap1, ofin, oapp2, rmap1, rmap2. cbn [get shape]. rewrite <- Rsqr_pow2 in Kp, T.
  set (k := Rsqr (get mu ix / get sigma ix)) in *. set (t := Rsqr (get sigma ix) / get mu ix) in *. pose proof (Rinv_0_lt_compat _ T) as I.
  destruct H as [H|H].
  - assert (Hc : -1 * get shift ix / t < 0) by (unfold Rdiv; nra). rewrite (tl_nan _ _ _ _ L k) by lra. cbn [option_map].
    repeat match goal with |- context [ig ?a ?b] => destruct (ig a b); cbn [option_map] end; reflexivity.
  - assert (Hc : (get obs ix - get shift ix) / t < 0) by (unfold Rdiv; nra). rewrite (tl_nan _ _ _ _ L (k + 1) (1 * ((get obs ix - get shift ix) / t))) by lra. reflexivity.
Qed.
Print Assumptions c92_nan_refuted.
(** For amounts (observations not negative, shift not positive) the score is the CRPS of the censored distribution under either setting. *)
Theorem c92_crps_partial : forall flag G lgam ig cdf mu sigma shift obs a ix, tf_lib G lgam ig cdf -> crps_gamma_any flag G lgam ig cdf mu sigma shift obs = Ok a ->
  0 < get mu ix -> 0 < get sigma ix -> get shift ix <= 0 <= get obs ix -> gamma_lib G cdf ((get mu ix / get sigma ix) ^ 2) ->
  exists v, get a ix = Some v /\ is_crps (censored_gamma cdf (get mu ix) (get sigma ix) (get shift ix)) (get obs ix) v.
Proof.
  intros flag G lgam ig cdf mu sigma shift obs a ix L E M S H Lib. destruct (c92_same_partial flag flag G lgam ig cdf mu sigma shift obs a a L E E) as [_ K].
  destruct (K ix M S ltac:(lra) ltac:(lra)) as [_ V]. eexists. split; [exact V|]. apply c53_censored; [exact M|exact S|lra|exact Lib].
Qed.
Print Assumptions c92_crps_partial.

(** the exponential distribution of mean 2 moved down by 1, observation 3, with both settings; moved up the score is lost *)
Definition w_ig (a x : R) : option R := if Rlt_dec x 0 then None else Some (w_cdf a x).
Lemma w_tf : tf_lib w_G (fun x => ln (w_G x)) w_ig w_cdf.
Proof.
  split.
  - intros x _. split; [|reflexivity]. assert (0 < sqrt PI) by (apply sqrt_lt_R0, PI_RGT_0). unfold w_G. destruct (Req_EM_T x (1 / 2)); [lra|]. destruct (Req_EM_T x (1 + 1 / 2)); lra.
  - intros a x H. unfold w_ig. destruct (Rlt_dec x 0); [reflexivity|contradiction].
  - intros a x _ H. unfold w_ig. destruct (Rlt_dec x 0); [lra|reflexivity].
Qed.
Example c92_nonvacuous : exists a b v, crps_gamma_any "True" w_G (fun x => ln (w_G x)) w_ig w_cdf (one 2) (one 2) (one (-1)) (one 3) = Ok a /\
  crps_gamma_any "False" w_G (fun x => ln (w_G x)) w_ig w_cdf (one 2) (one 2) (one (-1)) (one 3) = Ok b /\ get a [] = Some v /\ get b [] = Some v /\
  is_crps (censored_gamma w_cdf 2 2 (-1)) 3 v /\
  exists c, crps_gamma_any "1" w_G (fun x => ln (w_G x)) w_ig w_cdf (one 2) (one 2) (one 1) (one 3) = Ok c /\ get c [] = None.
Proof.
  destruct (c92_crps_partial "True" w_G (fun x => ln (w_G x)) w_ig w_cdf (one 2) (one 2) (one (-1)) (one 3) _ [] w_tf eq_refl) as (v & V & C); cbn [one get]; [lra|lra|lra|apply c53_lib|].
  destruct (c92_same_partial "True" "False" w_G (fun x => ln (w_G x)) w_ig w_cdf (one 2) (one 2) (one (-1)) (one 3) _ _ w_tf eq_refl eq_refl) as [_ K].
  destruct (K []) as [K1 K2]; cbn [one get]; try lra.
  do 2 eexists. exists v. split; [reflexivity|]. split; [reflexivity|]. split; [exact V|]. split; [etransitivity; [symmetry; exact K1|exact V]|]. split; [exact C|].
  destruct (c92_nan_refuted w_G (fun x => ln (w_G x)) w_ig w_cdf (one 2) (one 2) (one 1) (one 3) [] w_tf) as (c & d & Hc & _ & N & _); cbn [one get]; [lra|lra|lra|]. exists c. split; [exact Hc|exact N].
Qed.
