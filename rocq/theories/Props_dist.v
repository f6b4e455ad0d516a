(** Properties C37-C41, C62, C63: parametric distributions. *)
From Coq Require Import ZArith List Lia Bool Arith QArith Qcanon.
From Verif Require Import QcTac QSum Num NdArr Numpy M_common NdAxes Spec M_ens NdMove P_boot P_rank P_ss M_dist P_dist.
Import ListNotations.
Open Scope nat_scope.

(** ** Vocabulary *)
(** a probability: missing, or a number in [0, 1] *)
Definition is_prob (x : num) : Prop := x = NaN \/ exists q, x = Fin q /\ (0 <= q <= 1)%Qc.
(** same array, or same exception *)
Definition same_outcome (a b : res (arr num)) : Prop :=
  match a, b with
  | Ok x, Ok y => shape x = shape y /\ forall ix, Forall2 lt ix (shape x) -> get x ix = get y ix
  | Raise e1, Raise e2 => e1 = e2
  | _, _ => False
  end.
(** the forecast is a truncated Gamma distribution *)
Definition truncated_gamma (f : forecast) : Prop := match f with Gamma _ _ _ true => True | _ => False end.

(** Example library: every distribution function is x / (x + 1) for x >= 0, else 0, shifted by nothing *)
Definition ex_F (x : num) : num := match x with Fin q => if qleb 0 q then Fin (q / (q + 1))%Qc else Fin 0%Qc | NaN => NaN | PInf => Fin 1%Qc | NInf => Fin 0%Qc end.
Definition ex_S : scipy := Scipy (fun x _ _ => ex_F x) (fun x _ _ _ _ => ex_F x) (fun x _ _ _ => ex_F x) (fun x _ _ _ _ _ => ex_F x).
Definition ex_a : arr num := of_list NaN [2; 2] (map nnat [1; 2; 3; 4]).
Definition ex_pop : arr num := afull [2; 2] (Fin (Q2Qc (1 # 4))).

(** ** C37 *)
Theorem c37_range : forall S w z f sh over below r,
  params_shape sh f -> prob_cdf S w z f over below = Ok r ->
  shape r = sh /\ forall ix, Forall2 lt ix sh -> is_prob (get r ix).
Proof.
  intros S w z f sh over below r Hp. unfold prob_cdf. destruct (one_threshold over below); [|discriminate]. cbn [bind].
  assert (R : forall t c, cdf_below S w z f t = Ok c -> shape c = sh /\ forall ix, Forall2 lt ix sh -> is_prob (get c ix)).
  { intros t c H. destruct (cdf_below_inv _ _ _ _ _ _ _ Hp H) as (_ & Hs & G). split; [exact Hs|]. intros ix Hv. rewrite (G ix Hv).
    match goal with |- is_prob (clip1 ?x) => destruct x as [q| | |] eqn:E end; try (right; apply clip1_range; discriminate). left. reflexivity. }
  destruct below as [b|]; [apply R|]. destruct over as [t|]; [|discriminate].
  destruct (cdf_below S w z f t) as [c|] eqn:Ec; [|discriminate]. cbn [rmap]. intros E. injection E as <-.
  destruct (R _ _ Ec) as [Hs G]. split; [exact Hs|]. intros ix Hv. cbn [amap get]. destruct (G ix Hv) as [->|(q & -> & Hq)]; [left; reflexivity|].
  right. exists (1 - q)%Qc. split; [reflexivity|]. split; qlra.
Qed.
Print Assumptions c37_range.
Theorem c37_complement : forall S w z f t,
  match prob_cdf S w z f (Some t) None, prob_cdf S w z f None (Some t) with
  | Ok a, Ok b => shape a = shape b /\ forall ix, get a ix = nsub (Fin 1) (get b ix)
  | Raise e1, Raise e2 => e1 = e2
  | _, _ => False
  end.
Proof.
  intros S w z f t. unfold prob_cdf. cbn [one_threshold is_some negb xorb passert bind].
  destruct (cdf_below S w z f t) as [c|]; cbn [rmap]; [|reflexivity]. split; reflexivity.
Qed.
Print Assumptions c37_complement.
Theorem c37_scalar_is_constant_array : forall S w z f sh x a,
  params_shape sh f -> shape a = sh -> (forall ix, Forall2 lt ix sh -> get a ix = x) ->
  same_outcome (prob_cdf S w z f None (Some (TScalar x))) (prob_cdf S w z f None (Some (TArray a))) /\
  same_outcome (prob_cdf S w z f (Some (TScalar x)) None) (prob_cdf S w z f (Some (TArray a)) None).
Proof.
  intros S w z f sh x a Hp Ha Hx.
  assert (R : same_outcome (cdf_below S w z f (TScalar x)) (cdf_below S w z f (TArray a))).
  { assert (D : (sh = [] \/ ~ run_ok sh w z) \/ sh <> [] /\ run_ok sh w z).
    { destruct (list_eq_dec Nat.eq_dec sh []); [left; left; assumption|]. destruct (run_ok_dec sh w z); [right; split; assumption|left; right; assumption]. }
    destruct D as [D|[Hne Hr]].
    - destruct (run_cdf_fail w z sh D) as (e & He). rewrite !cdf_below_run, (params_fshape _ _ Hp). cbn [full_threshold].
      rewrite (proj2 (list_eqb_spec _ _) Ha). cbn [passert bind].
      rewrite !He by (apply params_same_shape; [exact Hp|first [exact Ha|reflexivity]]). reflexivity.
    - destruct (cdf_below_ok S w z f sh (TScalar x) Hp Hne I Hr) as (r1 & E1).
      destruct (cdf_below_ok S w z f sh (TArray a) Hp Hne Ha Hr) as (r2 & E2). rewrite E1, E2.
      destruct (cdf_below_inv _ _ _ _ _ _ _ Hp E1) as (_ & S1 & G1). destruct (cdf_below_inv _ _ _ _ _ _ _ Hp E2) as (_ & S2 & G2).
      split; [congruence|]. intros ix Hv. rewrite S1 in Hv. rewrite G1, G2 by exact Hv. cbn [thr_at]. rewrite Hx by exact Hv. reflexivity. }
  unfold prob_cdf. cbn [one_threshold is_some negb xorb passert bind]. split; [exact R|].
  destruct (cdf_below S w z f (TScalar x)), (cdf_below S w z f (TArray a)); cbn [rmap]; try exact R.
  destruct R as [Rs Rg]. split; [exact Rs|]. intros ix Hv. cbn [amap get]. rewrite Rg by exact Hv. reflexivity.
Qed.
Print Assumptions c37_scalar_is_constant_array.
Theorem c37_rejects : forall S w z f sh,
  params_shape sh f ->
  (forall a, shape a <> sh -> prob_cdf S w z f None (Some (TArray a)) = Raise AssertionError /\ prob_cdf S w z f (Some (TArray a)) None = Raise AssertionError) /\
  (prob_cdf S w z f None (Some TSeq) = Raise RuntimeError /\ prob_cdf S w z f (Some TSeq) None = Raise RuntimeError) /\
  (prob_cdf S w z f None None = Raise AssertionError /\ forall t u, prob_cdf S w z f (Some t) (Some u) = Raise AssertionError).
Proof.
  intros S w z f sh Hp. pose proof (params_fshape _ _ Hp) as Hf. split; [|split].
  - intros a Ha. assert (E : cdf_below S w z f (TArray a) = Raise AssertionError).
    { rewrite cdf_below_run, Hf. cbn [full_threshold]. destruct (list_eqb (shape a) sh) eqn:E; [apply list_eqb_spec in E; contradiction|]. reflexivity. }
    unfold prob_cdf. cbn [one_threshold is_some negb xorb passert bind]. rewrite E. split; reflexivity.
  - assert (E : cdf_below S w z f TSeq = Raise RuntimeError) by (rewrite cdf_below_run; reflexivity).
    unfold prob_cdf. cbn [one_threshold is_some negb xorb passert bind]. rewrite E. split; reflexivity.
  - split; reflexivity.
Qed.
Print Assumptions c37_rejects.
(** Every forecast with at least one dimension, every usable worker setting and every scalar or well-shaped
    threshold is accepted. *)
Theorem c37_accepts : forall S w z f sh t,
  params_shape sh f -> sh <> [] -> run_ok sh w z -> (match t with TScalar _ => True | TArray a => shape a = sh | TSeq => False end) ->
  (exists r, prob_cdf S w z f None (Some t) = Ok r) /\ (exists r, prob_cdf S w z f (Some t) None = Ok r).
Proof.
  intros S w z f sh t Hp Hne Hr Ht. destruct (cdf_below_ok S w z f sh t Hp Hne Ht Hr) as (r & E).
  unfold prob_cdf. cbn [one_threshold is_some negb xorb passert bind]. rewrite E. cbn [rmap]. split; eexists; reflexivity.
Qed.
Print Assumptions c37_accepts.
Example c37_nonvacuous :
  let f := Gamma ex_a ex_a ex_a true in params_shape [2; 2] f /\ run_ok [2; 2] 3 (-2) /\
  (exists r, prob_cdf ex_S 1 (-2) f None (Some (TArray ex_a)) = Ok r /\ map (fun x => match x with Fin q => this q | _ => 0%Q end) (ravel r) = [1 # 2; 2 # 3; 3 # 4; 4 # 5]%Q).
Proof.
  cbv zeta. split; [repeat split|]. split; [right; split; [lia|]; exists 0; repeat split; cbn; lia|].
  eexists. split; [reflexivity|]. vm_compute. reflexivity.
Qed.

(** ** C38 *)
(** Missing: the truncated Gamma distribution, for which the claim is false. *)
Theorem c38_parallel_partial : forall S f sh w z over below,
  params_shape sh f -> ~ truncated_gamma f -> run_ok sh w z ->
  same_outcome (prob_cdf S w z f over below) (prob_cdf S 1 z f over below).
Proof.
  intros S f sh w z over below Hp Hn Hr.
  assert (Hw : worker_at S f = serial_at S f) by (destruct f as [mu sigma t|mu sigma shift [|]|pop mu sigma]; try reflexivity; exfalso; apply Hn; exact I).
  assert (R : forall t, same_outcome (cdf_below S w z f t) (cdf_below S 1 z f t)).
  { intros t. destruct Hr as [->|Hr].
    - destruct (cdf_below S 1 z f t); [split; [reflexivity|intros; reflexivity]|reflexivity].
    - assert (Hne : sh <> []) by (destruct Hr as (_ & ax & Hax & _); intros ->; cbn in Hax; lia).
      destruct (full_threshold sh t) as [b|e] eqn:Et.
      + assert (Ht : thr_ok sh t).
        { destruct t as [x|a|]; cbn in Et |- *; [exact I| |discriminate]. destruct (list_eqb (shape a) sh) eqn:E; [apply list_eqb_spec, E|discriminate]. }
        destruct (cdf_below_ok S w z f sh t Hp Hne Ht (or_intror Hr)) as (r1 & E1).
        destruct (cdf_below_ok S 1 z f sh t Hp Hne Ht (or_introl eq_refl)) as (r2 & E2). rewrite E1, E2.
        destruct (cdf_below_inv _ _ _ _ _ _ _ Hp E1) as (_ & S1 & G1). destruct (cdf_below_inv _ _ _ _ _ _ _ Hp E2) as (_ & S2 & G2).
        split; [congruence|]. intros ix Hv. rewrite S1 in Hv. rewrite G1, G2 by exact Hv. rewrite Hw. cbn [Nat.eqb]. destruct (Nat.eqb w 1); reflexivity.
      + rewrite !cdf_below_run, (params_fshape _ _ Hp), Et. reflexivity. }
  unfold prob_cdf. destruct (one_threshold over below); cbn [bind]; [|reflexivity].
  destruct below as [b|]; [apply R|]. destruct over as [t|]; [|reflexivity]. specialize (R t).
  destruct (cdf_below S w z f t), (cdf_below S 1 z f t); cbn [rmap]; try exact R.
  destruct R as [Rs Rg]. split; [exact Rs|]. intros ix Hv. cbn [amap get]. rewrite Rg by exact Hv. reflexivity.
Qed.
Print Assumptions c38_parallel_partial.
Example c38_nonvacuous : let f := Hurdle ex_pop ex_a ex_a in
  params_shape [2; 2] f /\ ~ truncated_gamma f /\ run_ok [2; 2] 5 (-1) /\
  rmap (fun r => map (fun x => match x with Fin q => this q | _ => 0%Q end) (ravel r)) (prob_cdf ex_S 5 (-1) f None (Some (TArray ex_a))) = Ok [7 # 8; 11 # 12; 15 # 16; 19 # 20]%Q.
Proof.
  cbv zeta. split; [repeat split|]. split; [exact (fun x => x)|]. split; [right; split; [lia|]; exists 1; repeat split; cbn; lia|]. vm_compute. reflexivity.
Qed.
(** With two or more workers the truncated Gamma CDF ignores the threshold: every threshold gives the
    serial CDF at 3. *)
Theorem c38_truncgamma_refuted : forall S mu sigma shift sh w z below,
  let f := Gamma mu sigma shift true in
  params_shape sh f -> run_ok sh w z -> w <> 1 ->
  (match below with TScalar _ => True | TArray a => shape a = sh | TSeq => False end) ->
  same_outcome (prob_cdf S w z f None (Some below)) (prob_cdf S 1 z f None (Some (TScalar (Fin (qz 3))))).
Proof.
  intros S mu sigma shift sh w z below f Hp Hr Hw Ht. unfold prob_cdf. cbn [one_threshold is_some negb xorb passert bind].
  assert (Hne : sh <> []) by (destruct Hr as [|(_ & ax & Hax & _)]; [contradiction|]; intros ->; cbn in Hax; lia).
  destruct (cdf_below_ok S w z f sh below Hp Hne Ht Hr) as (r1 & E1).
  destruct (cdf_below_ok S 1 z f sh (TScalar (Fin (qz 3))) Hp Hne I (or_introl eq_refl)) as (r2 & E2). rewrite E1, E2.
  destruct (cdf_below_inv _ _ _ _ _ _ _ Hp E1) as (_ & S1 & G1). destruct (cdf_below_inv _ _ _ _ _ _ _ Hp E2) as (_ & S2 & G2).
  split; [congruence|]. intros ix Hv. rewrite S1 in Hv. rewrite G1, G2 by exact Hv. cbn [Nat.eqb].
  rewrite (proj2 (Nat.eqb_neq w 1)) by exact Hw. f_equal.
Qed.
Print Assumptions c38_truncgamma_refuted.
(** so the two settings differ, here at threshold 1 with two workers *)
Theorem c38_truncgamma_witness_refuted : let f := Gamma ex_a ex_a ex_a true in
  params_shape [2; 2] f /\ run_ok [2; 2] 2 (-1) /\
  ~ same_outcome (prob_cdf ex_S 2 (-1) f None (Some (TScalar (nnat 1)))) (prob_cdf ex_S 1 (-1) f None (Some (TScalar (nnat 1)))).
Proof.
  cbv zeta. split; [repeat split|]. split; [right; split; [lia|]; exists 1; repeat split; cbn; lia|].
  intros [_ H]. specialize (H [0; 0]). cbn [shape] in H.
  assert (V : Forall2 lt [0; 0] [2; 2]) by (repeat constructor). specialize (H V). apply (f_equal val) in H. vm_compute in H. discriminate.
Qed.
Print Assumptions c38_truncgamma_witness_refuted.

(** ** C39 *)
(** [H t] is the hurdle CDF of cell [ix] at the finite threshold [t] *)
Definition hurdle_value (S : scipy) w z pop mu sigma ix (t v : Qc) : Prop :=
  exists r, prob_cdf S w z (Hurdle pop mu sigma) None (Some (TScalar (Fin t))) = Ok r /\ get r ix = Fin v.
(** [F] is the gamma CDF of cell [ix] (shape (mu/sigma)^2, location 0, scale sigma^2/mu): a distribution
    function on the positive thresholds *)
Definition gamma_law (S : scipy) (mu sigma : arr num) (ix : list nat) (F : Qc -> Qc) : Prop :=
  (forall t, (0 < t)%Qc -> gamma_cdf S (Fin t) (nsq (ndiv (get mu ix) (get sigma ix))) (Fin 0) (ndiv (nsq (get sigma ix)) (get mu ix)) = Fin (F t)) /\
  (forall t, (0 < t)%Qc -> (0 <= F t <= 1)%Qc) /\
  (forall t u, (0 < t)%Qc -> (t <= u)%Qc -> (F t <= F u)%Qc).
(** Missing: the value at negative thresholds, which is not 0. *)
Theorem c39_hurdle_partial : forall S w z pop mu sigma sh ix p F,
  params_shape sh (Hurdle pop mu sigma) -> sh <> [] -> run_ok sh w z -> Forall2 lt ix sh ->
  get pop ix = Fin p -> (0 <= p <= 1)%Qc -> gamma_law S mu sigma ix F ->
  exists H : Qc -> Qc,
    (forall t, hurdle_value S w z pop mu sigma ix t (H t)) /\
    (forall t, (0 <= H t <= 1)%Qc) /\
    (forall t u, (t <= u)%Qc -> (H t <= H u)%Qc) /\
    H 0%Qc = (1 - p)%Qc /\
    (forall t, (0 < t)%Qc -> H t = (1 - p + p * F t)%Qc) /\
    ((forall e, (0 < e)%Qc -> exists T, forall t, (T <= t)%Qc -> (1 - e <= F t)%Qc) ->
      forall e, (0 < e)%Qc -> exists T, forall t, (T <= t)%Qc -> (1 - e <= H t)%Qc).
Proof.
  intros S w z pop mu sigma sh ix p F Hp Hne Hr Hv Epop Hpr (HF & HF01 & Hmono).
  exists (fun t => if qltb 0 t then 1 - p + p * F t else 1 - p)%Qc.
  assert (B : forall t, (0 < t)%Qc -> (0 <= 1 - p + p * F t <= 1)%Qc) by (intros t Ht; pose proof (HF01 t Ht); split; qnra).
  split; [|split; [|split; [|split; [|split]]]].
  - intros t. destruct (cdf_below_ok S w z (Hurdle pop mu sigma) sh (TScalar (Fin t)) Hp Hne I Hr) as (r & E).
    exists r. split; [exact E|]. destruct (cdf_below_inv _ _ _ _ _ _ _ Hp E) as (_ & _ & G). rewrite (G ix Hv).
    replace (if Nat.eqb w 1 then serial_at S (Hurdle pop mu sigma) else worker_at S (Hurdle pop mu sigma)) with (hurdle_at S) by (destruct (Nat.eqb w 1); reflexivity).
    cbn [at_cell params_of map app thr_at]. unfold hurdle_at, par. cbn [nth gamma_shape gamma_scale amap2 get]. rewrite Epop.
    change (nlt (Fin 0) (Fin t)) with (qltb 0 t). destruct (qltb_spec 0 t) as [Ht|Ht].
    + rewrite (HF t Ht). cbn [nsub nopp nadd nmul]. change (1 + - p)%Qc with (1 - p)%Qc. apply clip1_id, B, Ht.
    + cbn [nsub nopp nadd]. change (1 + - p)%Qc with (1 - p)%Qc. apply clip1_id. split; qlra.
  - intros t. destruct (qltb_spec 0 t) as [Ht|Ht]; [apply B, Ht|split; qlra].
  - intros t u Htu. destruct (qltb_spec 0 t) as [Ht|Ht], (qltb_spec 0 u) as [Hu|Hu].
    + pose proof (Hmono t u Ht Htu). qnra.
    + exfalso. qlra.
    + pose proof (HF01 u Hu). qnra.
    + qlra.
  - destruct (qltb_spec 0 0); [exfalso; qlra|reflexivity].
  - intros t Ht. destruct (qltb_spec 0 t); [reflexivity|exfalso; qlra].
  - intros Hlim e He. destruct (Hlim e He) as (T & HT). exists (if qltb 0 T then T else 1)%Qc. intros t Ht.
    destruct (qltb_spec 0 T) as [HT0|HT0].
    + destruct (qltb_spec 0 t) as [Ht0|Ht0]; [|exfalso; qlra]. pose proof (HT t Ht). pose proof (HF01 t Ht0). qnra.
    + destruct (qltb_spec 0 t) as [Ht0|Ht0]; [|exfalso; qlra].
      assert (Tt : (T <= t)%Qc) by qlra. pose proof (HT t Tt). pose proof (HF01 t Ht0). qnra.
Qed.
Print Assumptions c39_hurdle_partial.
Example c39_nonvacuous : params_shape [2; 2] (Hurdle ex_pop ex_a ex_a) /\
  gamma_law ex_S ex_a ex_a [1; 0] (fun t => t / (t + 1))%Qc /\
  hurdle_value ex_S 2 (-1) ex_pop ex_a ex_a [1; 0] (qz 3) (Q2Qc (15 # 16)).
Proof.
  split; [repeat split|]. split.
  - assert (P : forall t, (0 < t)%Qc -> (0 < t + 1)%Qc) by (intros; qlra).
    split; [|split].
    + intros t Ht. cbn [ex_S gamma_cdf ex_F]. destruct (qleb_spec 0 t); [reflexivity|exfalso; qlra].
    + intros t Ht. specialize (P t Ht). cbv beta. split; [apply Qcle_div_iff; [exact P|qlra]|apply Qcdiv_le_iff; [exact P|qlra]].
    + intros t u Ht Htu. cbv beta. pose proof (P t Ht). assert (P2 : (0 < u + 1)%Qc) by qlra.
      apply Qcdiv_le_iff; [assumption|]. replace (u / (u + 1) * (t + 1))%Qc with ((u * (t + 1)) / (u + 1))%Qc by (unfold Qcdiv; ring).
      apply Qcle_div_iff; [exact P2|]. qnra.
  - eexists. split; [reflexivity|]. vm_compute. repeat first [reflexivity | apply Qc_is_canon; reflexivity | f_equal].
Qed.
(** The value at every negative threshold is 1 - pop, so it is positive whenever pop < 1. *)
Theorem c39_negative_refuted : forall S w z pop mu sigma sh ix p t,
  params_shape sh (Hurdle pop mu sigma) -> sh <> [] -> run_ok sh w z -> Forall2 lt ix sh ->
  get pop ix = Fin p -> (0 <= p)%Qc -> (p < 1)%Qc -> (t < 0)%Qc ->
  exists v, hurdle_value S w z pop mu sigma ix t v /\ v = (1 - p)%Qc /\ (0 < v)%Qc.
Proof.
  intros S w z pop mu sigma sh ix p t Hp Hne Hr Hv Epop Hp0 Hp1 Ht. exists (1 - p)%Qc. split; [|split; [reflexivity|qlra]].
  destruct (cdf_below_ok S w z (Hurdle pop mu sigma) sh (TScalar (Fin t)) Hp Hne I Hr) as (r & E).
  exists r. split; [exact E|]. destruct (cdf_below_inv _ _ _ _ _ _ _ Hp E) as (_ & _ & G). rewrite (G ix Hv).
  replace (if Nat.eqb w 1 then serial_at S (Hurdle pop mu sigma) else worker_at S (Hurdle pop mu sigma)) with (hurdle_at S) by (destruct (Nat.eqb w 1); reflexivity).
  cbn [at_cell params_of map app thr_at]. unfold hurdle_at, par. cbn [nth gamma_shape gamma_scale amap2 get]. rewrite Epop.
  change (nlt (Fin 0) (Fin t)) with (qltb 0 t). destruct (qltb_spec 0 t) as [Ht'|Ht']; [exfalso; qlra|].
  cbn [nsub nopp nadd]. change (1 + - p)%Qc with (1 - p)%Qc. apply clip1_id. split; qlra.
Qed.
Print Assumptions c39_negative_refuted.
Example c39_negative_nonvacuous : hurdle_value ex_S 1 (-1) ex_pop ex_a ex_a [0; 0] (- qz 1) (Q2Qc (3 # 4)).
Proof. eexists. split; [reflexivity|]. vm_compute. repeat first [reflexivity | apply Qc_is_canon; reflexivity | f_equal]. Qed.

(** ** C40 *)
(** [v] is the spread of the finite members [qs] *)
Definition spread_of (qs : list Qc) (v : Qc) : Prop :=
  exists hi lo, In hi qs /\ In lo qs /\ (forall y, In y qs -> (lo <= y <= hi)%Qc) /\ v = (hi - lo)%Qc.
(** Missing: every position of the member axis but the last one. *)
Theorem c40_spread_partial : forall G (L : sampler G) w z s0 who f members mv clip ens skip n,
  prob_to_ens L w z s0 who f (Some members) mv clip = Ok ens -> 0 < members ->
  axis_is (S (length (fshape f))) mv n -> n = length (fshape f) ->
  exists r, prob_spread skip ens = Ok r /\ shape r = fshape f /\
    forall ix qs, Forall2 lt ix (fshape f) -> members_at n ens ix = map Fin qs -> exists v, get r ix = Fin v /\ spread_of qs v.
Proof.
  intros G L w z s0 who f members mv clip ens skip n He Hm Hn En.
  destruct (sample_params _ _ _ _ _ _ _ _ _ _ He) as (raw & Er & -> & Hs).
  destruct (sample_raw _ _ _ _ _ _ _ _ _ _ Hs Er) as (t & raw0 & Ht & Hsh & _).
  assert (t = n) by (eapply axis_is_fun; eassumption). subst t.
  set (sh := fshape f) in *.
  assert (Hse : shape (clip_members clip raw) = insert_at n members sh) by (destruct clip; exact Hsh).
  assert (Hax : axis_is (length (shape (clip_members clip raw))) (-1) n).
  { rewrite Hse, insert_at_length. split; [lia|right; lia]. }
  assert (Hnth : nth n (shape (clip_members clip raw)) 0 = members) by (rewrite Hse; apply nth_insert_at; lia).
  assert (Hdrop : drop_axis n (shape (clip_members clip raw)) = sh) by (rewrite Hse, drop_axis_remove; apply remove_insert_at; lia).
  destruct (spread_along_ok skip (-1) _ n Hax) as (r & E); [lia|]. exists r. split; [exact E|].
  destruct (spread_along_inv _ _ _ _ _ Hax E) as (Hr & G'). rewrite Hdrop in Hr, G'. split; [exact Hr|].
  intros ix qs Hv Hq. destruct (G' ix Hv) as (hi & lo & E1 & E2 & E3). rewrite Hq in E1, E2.
  assert (Hne : qs <> []).
  { intros ->. apply (f_equal (@length num)) in Hq. unfold members_at in Hq. rewrite map_length, seq_length, Hnth in Hq. cbn in Hq. lia. }
  destruct (spread_cell skip qs Hne) as (h & l & F1 & F2 & Ih & Il & B). rewrite F1 in E1. rewrite F2 in E2. injection E1 as <-. injection E2 as <-.
  exists (h - l)%Qc. split; [exact E3|]. exists h, l. repeat split; try assumption; apply B; assumption.
Qed.
Print Assumptions c40_spread_partial.
Theorem c40_rank_hist_partial : forall G (L : sampler G) w z s0 who f members mv clip ens skip w2 z2 rng pit_ranks o n r,
  prob_to_ens L w z s0 who f (Some members) mv clip = Ok ens ->
  axis_is (S (length (fshape f))) mv n -> n = length (fshape f) ->
  prob_rank_hist skip w2 z2 rng (Some members) pit_ranks (Ok ens) o = Ok r ->
  shape o = fshape f /\ shape r = fshape f /\
  forall ix, Forall2 lt ix (fshape f) ->
    let ms := members_at n ens ix in
    is_fin (get o ix) -> (forall m, In m ms -> is_fin m) ->
    length ms = members /\
    exists k, get r ix = nnat k /\ how_many (fun m => nlt m (get o ix)) ms < k <= 1 + how_many (fun m => nle m (get o ix)) ms.
Proof.
  intros G L w z s0 who f members mv clip ens skip w2 z2 rng pr o n r He Hn En H.
  destruct (sample_params _ _ _ _ _ _ _ _ _ _ He) as (raw & Er & -> & Hs).
  destruct (sample_raw _ _ _ _ _ _ _ _ _ _ Hs Er) as (t & raw0 & Ht & Hsh & _).
  assert (t = n) by (eapply axis_is_fun; eassumption). subst t.
  set (sh := fshape f) in *.
  assert (Hse : shape (clip_members clip raw) = insert_at n members sh) by (destruct clip; exact Hsh).
  assert (Hax : axis_is (length (shape (clip_members clip raw))) (-1) n).
  { rewrite Hse, insert_at_length. split; [lia|right; lia]. }
  assert (Hnth : nth n (shape (clip_members clip raw)) 0 = members) by (rewrite Hse; apply nth_insert_at; lia).
  assert (Hdrop : drop_axis n (shape (clip_members clip raw)) = sh) by (rewrite Hse, drop_axis_remove; apply remove_insert_at; lia).
  cbn [prob_rank_hist bind] in H.
  destruct (rank_histogram_cells _ _ _ _ _ _ _ _ _ H Hax) as (_ & Hd & Hrs & Hnan & C). rewrite Hdrop in Hd.
  split; [symmetry; exact Hd|]. split; [congruence|]. intros ix Hv. rewrite Hd in Hv. cbv zeta. set (ms := members_at n (clip_members clip raw) ix). intros Ho Hm.
  split; [unfold ms, members_at; rewrite map_length, seq_length; exact Hnth|].
  destruct (C ix Hv) as [_ C2]. destruct C2 as (k & Ek & Hk).
  - destruct Ho as [q ->]. reflexivity.
  - intros _. fold ms. destruct (is_nan (nsum ms)) eqn:En2; [|reflexivity]. exfalso.
    apply nsum_nan_iff in En2; [|intros m Hin; right; apply Hm, Hin]. destruct (Hm _ En2) as [q Hq]. discriminate.
  - exists k. split; [exact Ek|exact Hk].
Qed.
Print Assumptions c40_rank_hist_partial.
(** Example sampler: the members are the integers in C order. *)
Definition ex_L : sampler nat := Sampler (fun _ => true)
  (fun s l n ix => nnat (s + flat (n :: shape (hd none l)) ix)) (fun s l n => s + n * prod (shape (hd none l))).
Definition ex_f2 : forecast := Gaussian ex_a ex_a false.
Example c40_nonvacuous : exists e r k, prob_to_ens ex_L 1 (-1) 0 (fun _ => 0) ex_f2 (Some 2) (-1) None = Ok e /\ axis_is 3 (-1) 2 /\
  members_at 2 e [1; 0] = map Fin [qn 2; qn 6] /\ prob_spread true e = Ok r /\ get r [1; 0] = Fin (qn 4) /\
  prob_rank_hist false 1 (-1) (fun _ _ => 0) (Some 2) (Raise ValueError) (Ok e) ex_a = Ok k /\ map val (ravel k) = map val (map nnat [2; 2; 2; 2]).
Proof.
  eexists. eexists. eexists. split; [reflexivity|]. split; [split; [lia|right; reflexivity]|].
  split; [vm_compute; repeat first [reflexivity | apply Qc_is_canon; reflexivity | f_equal]|]. split; [reflexivity|].
  split; [vm_compute; repeat first [reflexivity | apply Qc_is_canon; reflexivity | f_equal]|]. split; [reflexivity|].
  vm_compute. repeat first [reflexivity | apply Qc_is_canon; reflexivity | f_equal].
Qed.
(** With the member axis anywhere else, both metrics reduce over the last axis of the data and keep the
    members: the spread has the shape of the ensemble without that data axis. *)
Theorem c40_spread_refuted : forall G (L : sampler G) w z s0 who f members mv clip ens skip n r,
  prob_to_ens L w z s0 who f (Some members) mv clip = Ok ens ->
  axis_is (S (length (fshape f))) mv n -> n < length (fshape f) ->
  prob_spread skip ens = Ok r ->
  (* the member axis survives at position n, the last data axis is gone *)
  shape r = firstn n (fshape f) ++ members :: skipn n (firstn (length (fshape f) - 1) (fshape f)) /\
  nth n (shape r) 0 = members.
Proof.
  intros G L w z s0 who f members mv clip ens skip n r He Hn Hlt Hr.
  destruct (sample_params _ _ _ _ _ _ _ _ _ _ He) as (raw & Er & -> & Hs).
  destruct (sample_raw _ _ _ _ _ _ _ _ _ _ Hs Er) as (t & raw0 & Ht & Hsh & _).
  assert (t = n) by (eapply axis_is_fun; eassumption). subst t.
  set (sh := fshape f) in *.
  assert (Hse : shape (clip_members clip raw) = insert_at n members sh) by (destruct clip; exact Hsh).
  assert (Hax : axis_is (length (shape (clip_members clip raw))) (-1) (length sh)).
  { rewrite Hse, insert_at_length. split; [lia|right; lia]. }
  destruct (spread_along_inv _ _ _ _ _ Hax Hr) as (Hs2 & _).
  assert (E : shape r = insert_at n members (firstn (length sh - 1) sh)).
  { rewrite Hs2, Hse. destruct (@exists_last _ sh) as (pre & x & Esh); [intros E; rewrite E in Hlt; cbn in Hlt; lia|].
    rewrite Esh in *. rewrite app_length in *. cbn [length] in *.
    replace (length pre + 1 - 1) with (length pre) by lia. rewrite firstn_app, Nat.sub_diag, firstn_all, firstn_O, app_nil_r.
    rewrite insert_at_split by (rewrite app_length; cbn; lia).
    rewrite firstn_app, skipn_app. replace (n - length pre) with 0 by lia. cbn [firstn skipn]. rewrite app_nil_r.
    rewrite app_comm_cons, app_assoc. rewrite <- insert_at_split by lia.
    unfold drop_axis. rewrite skipn_all2 by (rewrite app_length, insert_at_length; cbn; lia). rewrite app_nil_r.
    replace (length pre + 1) with (length (insert_at n members pre)) by (rewrite insert_at_length; lia).
    rewrite firstn_app, Nat.sub_diag, firstn_all, firstn_O, app_nil_r. reflexivity. }
  split.
  - rewrite E, insert_at_split by (rewrite firstn_length; lia). rewrite firstn_firstn. replace (min n (length sh - 1)) with n by lia. reflexivity.
  - rewrite E. apply nth_insert_at. rewrite firstn_length. lia.
Qed.
Print Assumptions c40_spread_refuted.
(** Concretely, with the default-valued sampler: two cells, two members on axis 0.  The members of cell 0 are
    0 and 2 (spread 2) but the reported spread is 1; the observation 1 of cell 0 is above one of its members
    (rank 2) but the reported rank is 3.  With another member count the rank histogram fails. *)
Theorem c40_member_axis_refuted :
  let f := Gaussian (of_list NaN [2] (map nnat [1; 2])) (of_list NaN [2] (map nnat [1; 2])) false in
  let o := of_list NaN [2] [Fin (Q2Qc (3 # 2)); nnat 2] in
  exists e r k, prob_to_ens ex_L 1 (-1) 0 (fun _ => 0) f (Some 2) 0 None = Ok e /\
    members_at 0 e [0] = map Fin [qn 0; qn 2] /\
    prob_spread false e = Ok r /\ get r [0] = Fin (qn 1) /\ ~ spread_of [qn 0; qn 2] (qn 1) /\
    prob_rank_hist false 1 (-1) (fun _ _ => 0) (Some 2) (Raise ValueError) (Ok e) o = Ok k /\ get k [0] = nnat 3 /\
    1 + how_many (fun m => nle m (get o [0])) (members_at 0 e [0]) = 2 /\
    (exists e3, prob_to_ens ex_L 1 (-1) 0 (fun _ => 0) f (Some 3) 0 None = Ok e3 /\
       prob_rank_hist false 1 (-1) (fun _ _ => 0) (Some 3) (Raise ValueError) (Ok e3) o = Raise ValueError).
Proof.
  cbv zeta. eexists. eexists. eexists. split; [reflexivity|].
  split; [vm_compute; repeat first [reflexivity | apply Qc_is_canon; reflexivity | f_equal]|]. split; [reflexivity|].
  split; [vm_compute; repeat first [reflexivity | apply Qc_is_canon; reflexivity | f_equal]|].
  split.
  { intros (hi & lo & Hh & Hl & B & E). pose proof (B (qn 0) (or_introl eq_refl)) as B0. pose proof (B (qn 2) (or_intror (or_introl eq_refl))) as B2.
    change (qn 0) with 0%Qc in *. assert (E2 : qn 2 = (1 + 1)%Qc) by (apply Qc_is_canon; reflexivity). assert (E1 : qn 1 = 1%Qc) by (apply Qc_is_canon; reflexivity).
    rewrite E1, E2 in *. qlra. }
  split; [reflexivity|].
  split; [vm_compute; repeat first [reflexivity | apply Qc_is_canon; reflexivity | f_equal]|].
  split; [vm_compute; reflexivity|]. eexists. split; [reflexivity|]. vm_compute. reflexivity.
Qed.
Print Assumptions c40_member_axis_refuted.

(** ** C41 *)
(** Compared with the run that does not clip (same parameters, same random numbers). *)
Theorem c41_clipping : forall G (L : sampler G) w z s0 who f members mv v raw,
  prob_to_ens L w z s0 who f (Some members) mv None = Ok raw ->
  exists n ens, axis_is (S (length (fshape f))) mv n /\
    prob_to_ens L w z s0 who f (Some members) mv (Some (Fin v)) = Ok ens /\
    shape ens = firstn n (fshape f) ++ members :: skipn n (fshape f) /\ shape raw = shape ens /\
    forall ix,
      (* below the clip value: zero *)
      (forall q, get raw ix = Fin q -> (q < v)%Qc -> get ens ix = Fin 0) /\
      (* everything else is unchanged, missing members included *)
      (forall q, get raw ix = Fin q -> (v <= q)%Qc -> get ens ix = Fin q) /\
      (get raw ix = NaN -> get ens ix = NaN) /\ (get raw ix = PInf -> get ens ix = PInf) /\
      (* so every member is zero, at least the clip value, or missing *)
      (get ens ix = Fin 0 \/ (exists q, get ens ix = Fin q /\ (v <= q)%Qc) \/ get ens ix = PInf \/ get ens ix = NaN).
Proof.
  intros G L w z s0 who f members mv v raw H.
  destruct (sample_params _ _ _ _ _ _ _ _ _ _ H) as (r0 & Er & -> & Hs).
  destruct (sample_raw _ _ _ _ _ _ _ _ _ _ Hs Er) as (t & raw0 & Ht & Hsh & _).
  exists t, (clip_members (Some (Fin v)) r0). split; [exact Ht|]. split.
  { destruct f as [mu sigma tr|mu sigma shift tr|pop mu sigma]; cbn [prob_to_ens] in H |- *; [| |discriminate].
    - destruct (sample_dist_gaussian _ _ _ _ _ _ _ _ _) as [a|]; [|discriminate]. cbn [rmap] in *. injection H as ->. reflexivity.
    - destruct (sample_dist_gamma _ _ _ _ _ _ _ _ _ _) as [a|]; [|discriminate]. cbn [rmap] in *. injection H as ->. reflexivity. }
  split; [cbn [clip_members amap shape]; rewrite Hsh; apply insert_at_split; destruct Ht; lia|]. split; [reflexivity|].
  intros ix. cbn [clip_members amap get]. split; [|split; [|split; [|split]]].
  - intros q -> Hq. cbn [nlt]. destruct (qltb_spec q v); [reflexivity|exfalso; qlra].
  - intros q -> Hq. cbn [nlt]. destruct (qltb_spec q v); [exfalso; qlra|reflexivity].
  - intros ->. reflexivity.
  - intros ->. reflexivity.
  - destruct (get r0 ix) as [q| | |]; cbn [nlt].
    + destruct (qltb_spec q v); [left; reflexivity|]. right. left. exists q. split; [reflexivity|qlra].
    + right. right. left. reflexivity.
    + left. reflexivity.
    + right. right. right. reflexivity.
Qed.
Print Assumptions c41_clipping.
(** Such runs exist: whenever the parameters are in the domain, the worker setting is usable and the
    requested axis exists. *)
Theorem c41_accepts : forall G (L : sampler G) w z s0 who f members mv n clip,
  params_shape (fshape f) f -> (match f with Hurdle _ _ _ => False | _ => True end) ->
  (forall x, dom L x = true) -> run_ok (fshape f) w z -> axis_is (S (length (fshape f))) mv n ->
  exists ens, prob_to_ens L w z s0 who f (Some members) mv clip = Ok ens.
Proof.
  intros G L w z s0 who f members mv n clip Hp Hf Hdom Hr Hmv.
  assert (Hs : same_shape (fshape f) (params_of f)).
  { split; [destruct f; discriminate|]. destruct f; cbn in Hp |- *; decompose [and] Hp; repeat constructor; assumption. }
  assert (E : exists a, sample L w z s0 who (params_of f) members mv = Ok a).
  { set (sh := fshape f) in *. unfold sample.
    assert (E1 : exists e0, (if Nat.eqb w 1 then rvs L s0 (params_of f) members
          else parallel none w z (fun i x => rvs L (task_state L s0 who (fun j => map (unit_slice (match norm_axis (length (shape (hd none (params_of f)))) z with Ok ax => ax | _ => 0 end) j) (params_of f)) members i) x members) (params_of f)) = Ok e0 /\ shape e0 = members :: sh).
    { assert (R : forall s l, rvs L s l members = Ok (Arr (members :: shape (hd none l)) (draw L s l members))).
      { intros s l. unfold rvs. replace (forallb _ _) with true; [reflexivity|]. symmetry. apply forallb_forall. intros. apply Hdom. }
      destruct Hr as [->|(Hw & ax & Hax & -> & Hpos)].
      - cbn [Nat.eqb]. rewrite R. eexists. split; [reflexivity|]. cbn [shape]. rewrite (same_shape_hd _ _ Hs). reflexivity.
      - rewrite (proj2 (Nat.eqb_neq w 1)) by lia. rewrite (same_shape_hd _ _ Hs).
        assert (Ea : norm_axis (length sh) (Z.of_nat ax - Z.of_nat (length sh)) = Ok ax) by (apply norm_axis_fun; lia). rewrite Ea.
        assert (Hz0 : (Z.of_nat ax - Z.of_nat (length sh) < 0)%Z) by lia. rewrite (parallel_ok _ _ _ _ _ sh ax Hs Hw Hz0 Ea Hpos).
        destruct (mapM _ _) as [parts|] eqn:Em.
        + cbn [bind]. pose proof (mapM_length _ _ _ Em) as Hl. rewrite seq_length in Hl.
          assert (Hh : shape (hd none parts) = members :: set_nth ax 1 sh).
          { destruct parts as [|p0 parts]; [cbn in Hl; lia|]. cbn [hd].
            pose proof (mapM_nth _ _ _ 0 0 none Em) as Hn0. rewrite seq_length in Hn0. specialize (Hn0 Hpos). cbn [nth] in Hn0. rewrite R in Hn0. injection Hn0 as <-.
            cbn [shape]. f_equal. apply same_shape_hd, same_shape_slices, Hs. }
          rewrite Hh. cbn [length]. rewrite set_nth_length by exact Hax. rewrite (norm_axis_fun _ _ (S ax)) by lia. cbn [bind].
          eexists. split; [reflexivity|]. cbn [concat_units shape]. rewrite Hh, set_nth_cons, Hl, set_nth_set_nth, set_nth_same by exact Hax. reflexivity.
        + exfalso. destruct (P_rank.mapM_all_ok (fun i : nat => rvs L (task_state L s0 who (fun j : nat => map (unit_slice ax j) (params_of f)) members i) (map (unit_slice ax i) (params_of f)) members) (seq 0 (nth ax sh 0))) as (ys & Ey).
          { intros x _. rewrite R. eexists. reflexivity. }
          rewrite Em in Ey. discriminate. }
    destruct E1 as (e0 & -> & He0). cbn [bind]. destruct (Z.eqb mv 0); [eexists; reflexivity|].
    destruct Hmv as [Hn Hz]. destruct (moveaxis_to e0 members sh mv n He0 (norm_axis_fun _ _ _ Hn Hz)) as (b & -> & _); [lia|]. eexists. reflexivity. }
  destruct E as (a & Ea). destruct f as [mu sigma tr|mu sigma shift tr|pop mu sigma]; cbn [prob_to_ens]; [| |contradiction]; cbn in Hp; decompose [and] Hp.
  - unfold sample_dist_gaussian. cbn [params_of] in Ea. rewrite Ea. rewrite (proj2 (list_eqb_spec (shape mu) (shape sigma))) by congruence. cbn [passert bind rmap]. eexists. reflexivity.
  - unfold sample_dist_gamma. cbn [params_of] in Ea. rewrite Ea. rewrite (proj2 (list_eqb_spec (shape shift) (shape sigma))) by congruence.
    rewrite (proj2 (list_eqb_spec (shape shift) (shape mu))) by congruence. cbn [passert bind rmap]. eexists. reflexivity.
Qed.
Print Assumptions c41_accepts.
Example c41_nonvacuous : exists raw ens, prob_to_ens ex_L 2 (-1) 0 (fun i => i) (Gamma ex_a ex_a ex_a true) (Some 2) (-2) None = Ok raw /\
  prob_to_ens ex_L 2 (-1) 0 (fun i => i) (Gamma ex_a ex_a ex_a true) (Some 2) (-2) (Some (nnat 2)) = Ok ens /\ shape ens = [2; 2; 2] /\
  map val (ravel raw) = map val (map nnat [0; 0; 2; 2; 1; 1; 3; 3]) /\ map val (ravel ens) = map val (map nnat [0; 0; 2; 2; 0; 0; 3; 3]).
Proof.
  eexists. eexists. split; [reflexivity|]. split; [reflexivity|]. split; [reflexivity|].
  split; vm_compute; repeat first [reflexivity | apply Qc_is_canon; reflexivity | f_equal].
Qed.

(** ** C62 *)
(** False: whenever the slices are spread over two worker processes, two slices (the first ones of their
    workers) are sampled from the same generator state, so with equal parameters their members are copies
    of each other, whatever the distribution. *)
Theorem c62_duplicate_members_refuted : forall G (L : sampler G) w s0 who ps sh members mv n ax ens,
  ps <> [] -> ax < length sh -> w <> 1 ->
  sample L w (Z.of_nat ax - Z.of_nat (length sh)) s0 who (map (afull sh) ps) members mv = Ok ens ->
  axis_is (S (length sh)) mv n ->
  (exists i j, i < nth ax sh 0 /\ j < nth ax sh 0 /\ who i <> who j) ->
  exists i j, i < nth ax sh 0 /\ j < nth ax sh 0 /\ who i <> who j /\
    forall m k, m < members -> Forall2 lt k sh ->
      (* slice i and slice j along the map axis, member m inserted at the member axis *)
      let cell c := firstn n (set_nth ax c k) ++ m :: skipn n (set_nth ax c k) in
      get ens (cell i) = get ens (cell j).
Proof.
  intros G L w s0 who ps sh members mv n ax ens Hps Hax Hw H Hn (i0 & j0 & Hi0 & Hj0 & Hij0).
  assert (Hs : same_shape sh (map (afull sh) ps)).
  { split; [destruct ps; [contradiction|discriminate]|]. apply Forall_map, Forall_forall. intros x _. reflexivity. }
  destruct (sample_raw _ _ _ _ _ _ _ _ _ _ Hs H) as (t & raw & Ht & Hsh & Hget & _ & Hpar).
  assert (t = n) by (eapply axis_is_fun; eassumption). subst t.
  destruct (Hpar Hw) as (_ & ax' & Hax' & Hz & Hpos & Hraw). assert (ax' = ax) by lia. subst ax'.
  destruct (first_tasks who i0 j0 Hij0) as (i & j & Hi & Hj & Hij & Fi & Fj).
  exists i, j. split; [lia|]. split; [lia|]. split; [exact Hij|]. intros m k Hm Hv. cbv zeta.
  pose proof (Forall2_len _ _ _ Hv) as Hlen. destruct Hn as [Hn _].
  assert (V : forall c, c < nth ax sh 0 -> get ens (firstn n (set_nth ax c k) ++ m :: skipn n (set_nth ax c k)) =
     draw L (task_state L s0 who (fun j => map (unit_slice ax j) (map (afull sh) ps)) members c) (map (unit_slice ax c) (map (afull sh) ps)) members (m :: set_nth ax 0 k)).
  { intros c Hc. rewrite <- insert_at_split by (rewrite set_nth_length; lia). rewrite Hget by (rewrite set_nth_length; lia).
    rewrite Hraw by (apply valid_set_nth; [exact Hv|lia|exact Hc]). rewrite nth_set_nth, set_nth_set_nth by lia. reflexivity. }
  rewrite !V by lia. rewrite (task_state_first L s0 who _ members i Fi), (task_state_first L s0 who _ members j Fj).
  f_equal. rewrite !map_map. apply map_ext. intros x. reflexivity.
Qed.
Print Assumptions c62_duplicate_members_refuted.
Example c62_nonvacuous : exists ens, sample ex_L 2 (-1) 7 (fun i => i mod 2) (map (afull [1; 3]) [nnat 5; nnat 1]) 2 (-1) = Ok ens /\
  map val (ravel ens) = map val (map nnat [7; 8; 7; 8; 9; 10]).
Proof. eexists. split; [reflexivity|]. vm_compute. repeat first [reflexivity | apply Qc_is_canon; reflexivity | f_equal]. Qed.
(** What holds: slices handled by the same worker, in particular every slice when there is one worker, use
    different parts of the stream.  [ex_L] returns the position in the stream.
    Missing: slices handled by different workers. *)
Lemma ex_L_state s0 who ax (l : list (arr num)) sh members i j : same_shape sh l -> i < j -> who i = who j ->
  task_state ex_L s0 who (fun c => map (unit_slice ax c) l) members i + members * prod (set_nth ax 1 sh) <=
  task_state ex_L s0 who (fun c => map (unit_slice ax c) l) members j.
Proof.
  intros Hs Hij Hw. unfold task_state. rewrite <- Hw.
  replace (seq 0 j) with (seq 0 i ++ i :: seq (S i) (j - S i)).
  - rewrite fold_left_app. cbn [fold_left]. rewrite Nat.eqb_refl.
    set (s := fold_left _ (seq 0 i) s0).
    assert (M : forall q a, a <= fold_left (fun s c => if Nat.eqb (who c) (who i) then after ex_L s (map (unit_slice ax c) l) members else s) q a).
    { induction q as [|c q IH]; intros a; [apply le_n|]. cbn [fold_left]. etransitivity; [|apply IH]. destruct (Nat.eqb _ _); cbn [ex_L after]; lia. }
    etransitivity; [|apply M]. cbn [ex_L after]. rewrite (same_shape_hd _ _ (same_shape_slices _ _ ax i Hs)). apply le_n.
  - change (i :: seq (S i) (j - S i)) with (seq i (S (j - S i))). rewrite <- (seq_app i). f_equal. lia.
Qed.
Theorem c62_same_worker_partial : forall w z s0 who l sh members mv n ens,
  same_shape sh l -> sample ex_L w z s0 who l members mv = Ok ens -> axis_is (S (length sh)) mv n ->
  forall m k m' k', m < members -> m' < members -> Forall2 lt k sh -> Forall2 lt k' sh -> (m, k) <> (m', k') ->
    (w <> 1 -> forall ax, ax < length sh -> z = (Z.of_nat ax - Z.of_nat (length sh))%Z -> who (nth ax k 0) = who (nth ax k' 0)) ->
    get ens (firstn n k ++ m :: skipn n k) <> get ens (firstn n k' ++ m' :: skipn n k').
Proof.
  intros w z s0 who l sh members mv n ens Hs H Hn m k m' k' Hm Hm' Hk Hk' Hne Hwho.
  destruct (sample_raw _ _ _ _ _ _ _ _ _ _ Hs H) as (t & raw & Ht & Hsh & Hget & Hser & Hpar).
  assert (t = n) by (eapply axis_is_fun; eassumption). subst t. destruct Hn as [Hn _].
  pose proof (Forall2_len _ _ _ Hk) as L1. pose proof (Forall2_len _ _ _ Hk') as L2.
  rewrite <- !insert_at_split by lia. rewrite !Hget by assumption.
  assert (I : forall a b, nnat a = nnat b -> a = b).
  { intros a b E. apply (f_equal val) in E. cbn [nnat val] in E. apply qn_inj, E. }
  assert (Hflat : forall sh a b, valid sh a -> valid sh b -> flat sh a = flat sh b -> a = b) by (intros; eapply flat_inj; eassumption).
  destruct (Nat.eq_dec w 1) as [Hw|Hw].
  - rewrite !(Hser Hw). cbn [ex_L draw]. rewrite (same_shape_hd _ _ Hs). intros E. apply I in E.
    assert (E2 : m :: k = m' :: k') by (apply (Hflat (members :: sh)); [constructor; assumption|constructor; assumption|lia]). congruence.
  - destruct (Hpar Hw) as (_ & ax & Hax & Hz & Hpos & Hraw). specialize (Hwho Hw ax Hax Hz).
    rewrite !Hraw by assumption. cbn [ex_L draw]. rewrite !(same_shape_hd _ _ (same_shape_slices _ _ ax _ Hs)). intros E. apply I in E.
    assert (V : forall m k, m < members -> Forall2 lt k sh -> valid (members :: set_nth ax 1 sh) (m :: set_nth ax 0 k)).
    { intros a b Ha Hb. constructor; [exact Ha|]. apply valid_set_nth_shape; [exact Hb|exact Hax|lia]. }
    pose proof (flat_lt _ _ (V m k Hm Hk)) as B1. pose proof (flat_lt _ _ (V m' k' Hm' Hk')) as B2. cbn [prod] in B1, B2.
    destruct (lt_eq_lt_dec (nth ax k 0) (nth ax k' 0)) as [[Hlt|Heq]|Hlt].
    + pose proof (ex_L_state s0 who ax l sh members _ _ Hs Hlt Hwho). lia.
    + rewrite Heq in E. assert (E2 : m :: set_nth ax 0 k = m' :: set_nth ax 0 k') by (apply (Hflat (members :: set_nth ax 1 sh)); [auto|auto|lia]).
      injection E2 as -> E2. apply Hne. f_equal. rewrite <- (set_nth_same ax k 0), <- (set_nth_same ax k' 0) by lia. rewrite Heq.
      rewrite <- (set_nth_set_nth ax (nth ax k' 0) 0 k), <- (set_nth_set_nth ax (nth ax k' 0) 0 k') by lia. rewrite E2. reflexivity.
    + symmetry in Hwho. pose proof (ex_L_state s0 who ax l sh members _ _ Hs Hlt Hwho). lia.
Qed.
Print Assumptions c62_same_worker_partial.
Example c62_partial_nonvacuous : exists ens, sample ex_L 4 (-1) 0 (fun _ => 2) [ex_a; ex_a] 2 0 = Ok ens /\
  map val (ravel ens) = map val (map nnat [0; 4; 1; 5; 2; 6; 3; 7]).
Proof. eexists. split; [reflexivity|]. vm_compute. repeat first [reflexivity | apply Qc_is_canon; reflexivity | f_equal]. Qed.

(** A second call: with several workers the generator of the calling process has not moved, and when every slice has
    its own worker in both calls the second ensemble is a copy of the first, whatever the distribution. *)
Theorem c62_second_call_refuted : forall G (L : sampler G) w z s0 who who' l members mv ens, w <> 1 ->
  (forall i j, who i = who j -> i = j) -> (forall i j, who' i = who' j -> i = j) ->
  sample L w z s0 who l members mv = Ok ens -> sample L w z (parent_after L w s0 l members) who' l members mv = Ok ens.
Proof.
  intros G L w z s0 who who' l members mv ens Hw I I' H.
  assert (T : forall wh task i, (forall a b, wh a = wh b -> a = b) -> task_state L s0 wh task members i = s0).
  { intros wh task i Inj. unfold task_state. assert (B : forall j, In j (seq 0 i) -> j <> i) by (intros j Hj; apply in_seq in Hj; lia). revert B. induction (seq 0 i) as [|j q IH]; intros B; [reflexivity|]. cbn [fold_left].
    rewrite (proj2 (Nat.eqb_neq (wh j) (wh i))); [apply IH; intros k Hk; apply B; right; exact Hk|]. intros E. apply (B j (or_introl eq_refl)), Inj, E. }
  rewrite <- H. unfold sample, parent_after. rewrite (proj2 (Nat.eqb_neq w 1) Hw). unfold parallel.
  destruct (norm_axis _ z) as [ax|]; [|reflexivity]. destruct (Nat.eqb _ 0); [reflexivity|]. unfold passert. destruct (Nat.ltb 1 w); [|reflexivity]. destruct (Z.ltb z 0); [|reflexivity]. cbn [bind].
  match goal with |- context [mapM ?f ?q] => match goal with |- context [mapM ?g q] => tryif constr_eq f g then fail else rewrite (P_boot.mapM_ext f g q); [reflexivity|] end end.
  intros i _. rewrite !T by assumption. reflexivity.
Qed.
Print Assumptions c62_second_call_refuted.
(** With one worker the second call uses a later part of the stream. *)
Theorem c62_second_call_partial : forall z s0 who who' l sh members mv ens ens', same_shape sh l ->
  sample ex_L 1 z s0 who l members mv = Ok ens -> sample ex_L 1 z (parent_after ex_L 1 s0 l members) who' l members mv = Ok ens' ->
  forall n m k m' k', axis_is (S (length sh)) mv n -> m < members -> m' < members -> Forall2 lt k sh -> Forall2 lt k' sh ->
    get ens (firstn n k ++ m :: skipn n k) <> get ens' (firstn n k' ++ m' :: skipn n k').
Proof.
  intros z s0 who who' l sh members mv ens ens' Hs H H' n m k m' k' Hn Hm Hm' Hk Hk'.
  destruct (sample_raw _ _ _ _ _ _ _ _ _ _ Hs H) as (t & raw & Ht & _ & Hget & Hser & _). destruct (sample_raw _ _ _ _ _ _ _ _ _ _ Hs H') as (t' & raw' & Ht' & _ & Hget' & Hser' & _).
  assert (t = n) by (eapply axis_is_fun; eassumption). assert (t' = n) by (eapply axis_is_fun; eassumption). subst t t'. destruct Hn as [Hn _].
  pose proof (Forall2_len _ _ _ Hk) as L1. pose proof (Forall2_len _ _ _ Hk') as L2.
  rewrite <- !insert_at_split by lia. rewrite Hget, Hget' by assumption. rewrite (Hser eq_refl), (Hser' eq_refl). cbn [ex_L draw parent_after after Nat.eqb]. rewrite !(same_shape_hd _ _ Hs).
  intros E. apply (f_equal val) in E. cbn [nnat val] in E. apply qn_inj in E.
  assert (V : valid (members :: sh) (m :: k)) by (constructor; assumption). pose proof (flat_lt _ _ V) as B. cbn [prod] in B. lia.
Qed.
Print Assumptions c62_second_call_partial.
Example c62_second_nonvacuous :
  (exists ens, sample ex_L 2 (-1) 7 (fun i => i) (map (afull [1; 3]) [nnat 5; nnat 1]) 2 (-1) = Ok ens) /\
  (exists ens, sample ex_L 1 (-1) 0 (fun i => i) [ex_a; ex_a] 2 0 = Ok ens) /\ (exists ens, sample ex_L 1 (-1) (parent_after ex_L 1 0 [ex_a; ex_a] 2) (fun i => i) [ex_a; ex_a] 2 0 = Ok ens).
Proof. repeat split; eexists; reflexivity. Qed.

(** ** C63 *)
(** Missing: the truncated Gamma distribution with two or more workers (see C38). *)
Theorem c63_pit_partial : forall S w z f sh o randomize unif r,
  params_shape sh f -> ~ (truncated_gamma f /\ w <> 1) -> (forall ix, (0 <= unif ix)%Qc /\ (unif ix < 1)%Qc) ->
  pit S w z f o randomize unif = Ok r ->
  shape o = sh /\ shape r = sh /\
  forall ix, Forall2 lt ix sh ->
    (* the CDF of the cell at its observation, computed serially with a scalar threshold *)
    exists c, prob_cdf S 1 z f None (Some (TScalar (get o ix))) = Ok c /\ is_prob (get r ix) /\
      (randomize = false \/ get o ix <> Fin 0 -> get r ix = get c ix) /\
      (randomize = true -> get o ix = Fin 0 -> exists F v, get c ix = Fin F /\ get r ix = Fin v /\ v = (unif ix * F)%Qc /\ (0 <= v <= F)%Qc).
Proof.
  intros S w z f sh o randomize unif r Hp Hn Hu. unfold pit, prob_cdf. cbn [one_threshold is_some negb xorb passert bind].
  destruct (cdf_below S w z f (TArray o)) as [ranks|] eqn:E; [|discriminate]. cbn [bind].
  destruct (cdf_below_inv _ _ _ _ _ _ _ Hp E) as (Hne & Hs & G).
  assert (Ho : shape o = sh).
  { rewrite cdf_below_run, (params_fshape _ _ Hp) in E. cbn [full_threshold] in E. destruct (list_eqb (shape o) sh) eqn:El; [apply list_eqb_spec, El|discriminate]. }
  assert (Hc : forall ix, valid sh ix -> exists c, cdf_below S 1 z f (TScalar (get o ix)) = Ok c /\ get c ix = get ranks ix /\ is_prob (get ranks ix)).
  { intros ix Hv. destruct (cdf_below_ok S 1 z f sh (TScalar (get o ix)) Hp Hne I (or_introl eq_refl)) as (c & Ec). exists c. split; [exact Ec|].
    destruct (cdf_below_inv _ _ _ _ _ _ _ Hp Ec) as (_ & _ & Gc). rewrite (Gc ix Hv), (G ix Hv). cbn [Nat.eqb thr_at]. split.
    - destruct (Nat.eqb_spec w 1) as [->|Hw]; [reflexivity|]. f_equal. destruct f as [mu sigma t|mu sigma shift [|]|pop mu sigma]; try reflexivity. exfalso. apply Hn. split; [exact I|exact Hw].
    - match goal with |- is_prob (clip1 ?x) => destruct x as [q| | |] eqn:Ex end; try (right; apply clip1_range; discriminate). left. reflexivity. }
  destruct randomize.
  - destruct (forallb _ _) eqn:Ef; [|discriminate]. intros Er. injection Er as <-. split; [exact Ho|]. split; [exact Hs|].
    intros ix Hv. destruct (Hc ix Hv) as (c & Ec & Eg & Hpr). exists c. split; [exact Ec|]. cbn [get].
    rewrite forallb_forall in Ef. specialize (Ef ix). rewrite Ho in Ef. rewrite in_indices in Ef. specialize (Ef Hv).
    destruct (Hu ix) as [Hu0 Hu1].
    destruct (neqb (get o ix) (Fin 0)) eqn:Eo.
    + cbn [negb orb] in Ef. assert (Eo' : get o ix = Fin 0).
      { destruct (get o ix) as [q| | |]; cbn in Eo; try discriminate. destruct (qeqb_spec q 0) as [Eq0|]; [rewrite Eq0; reflexivity|discriminate]. }
      destruct Hpr as [Hpr|(F & HF & HFr)]; [rewrite Hpr in Ef; discriminate|].
      rewrite HF. cbn [nmul]. split; [right; exists (unif ix * F)%Qc; split; [reflexivity|split; qnra]|]. split.
      * intros [?|Hno]; [discriminate|]. congruence.
      * intros _ _. exists F, (unif ix * F)%Qc. split; [congruence|]. split; [reflexivity|]. split; [reflexivity|split; qnra].
    + split; [exact Hpr|]. split; [intros _; symmetry; exact Eg|]. intros _ Ez. rewrite Ez in Eo. cbn in Eo. destruct (qeqb_spec 0 0); [discriminate|congruence].
  - intros Er. injection Er as <-. split; [exact Ho|]. split; [exact Hs|]. intros ix Hv. destruct (Hc ix Hv) as (c & Ec & Eg & Hpr).
    exists c. split; [exact Ec|]. split; [exact Hpr|]. split; [intros _; symmetry; exact Eg|discriminate].
Qed.
Print Assumptions c63_pit_partial.
(** The call succeeds unless some observation is zero where the CDF is missing. *)
Theorem c63_accepts : forall S w z f sh o randomize unif,
  params_shape sh f -> sh <> [] -> shape o = sh -> run_ok sh w z ->
  (forall r ix, prob_cdf S w z f None (Some (TArray o)) = Ok r -> Forall2 lt ix sh -> get o ix = Fin 0 -> get r ix <> NaN) ->
  exists r, pit S w z f o randomize unif = Ok r.
Proof.
  intros S w z f sh o randomize unif Hp Hne Ho Hr Hnan.
  destruct (cdf_below_ok S w z f sh (TArray o) Hp Hne Ho Hr) as (c & E).
  assert (Ec : prob_cdf S w z f None (Some (TArray o)) = Ok c) by exact E.
  destruct (c37_range _ _ _ _ _ _ _ _ Hp Ec) as [_ Hrange].
  unfold pit. rewrite Ec. cbn [bind]. destruct randomize; [|eexists; reflexivity].
  replace (forallb _ _) with true; [eexists; reflexivity|]. symmetry. apply forallb_forall. intros ix Hin. rewrite in_indices, Ho in Hin.
  destruct (neqb (get o ix) (Fin 0)) eqn:Eo; [|reflexivity]. cbn [negb orb].
  assert (Eo' : get o ix = Fin 0).
  { destruct (get o ix) as [q| | |]; cbn in Eo; try discriminate. destruct (qeqb_spec q 0) as [Eq0|]; [rewrite Eq0; reflexivity|discriminate]. }
  destruct (Hrange ix Hin) as [Hx|(q & -> & Hq)]; [exfalso; apply (Hnan c ix Ec Hin Eo' Hx)|]. cbn [nle]. destruct (qleb_spec 0 q); [reflexivity|exfalso; qlra].
Qed.
Print Assumptions c63_accepts.
(** Such an observation raises ValueError when zero ranks are randomized. *)
Theorem c63_rejects : forall S w z f o unif r ix, prob_cdf S w z f None (Some (TArray o)) = Ok r ->
  Forall2 lt ix (shape o) -> get o ix = Fin 0 -> get r ix = NaN -> pit S w z f o true unif = Raise ValueError.
Proof.
  intros S w z f o unif r ix E V Eo Er. unfold pit. rewrite E. cbn [bind]. replace (forallb _ _) with false; [reflexivity|]. symmetry. apply not_true_iff_false. intros H.
  rewrite forallb_forall in H. specialize (H ix (proj2 (in_indices _ _) V)). rewrite Eo, Er in H. discriminate H.
Qed.
Print Assumptions c63_rejects.
(** Without sampled members the rank histogram is this transform: every cell holds the CDF at its observation. *)
Theorem c63_rank_hist_partial : forall skip w2 z2 rng ens S w z f sh o randomize unif,
  params_shape sh f -> sh <> [] -> shape o = sh -> run_ok sh w z -> ~ (truncated_gamma f /\ w <> 1) -> (forall ix, (0 <= unif ix)%Qc /\ (unif ix < 1)%Qc) ->
  (forall r ix, prob_cdf S w z f None (Some (TArray o)) = Ok r -> Forall2 lt ix sh -> get o ix = Fin 0 -> get r ix <> NaN) ->
  exists r, prob_rank_hist skip w2 z2 rng None (pit S w z f o randomize unif) ens o = Ok r /\ shape r = sh /\
  forall ix, Forall2 lt ix sh ->
    exists c, prob_cdf S 1 z f None (Some (TScalar (get o ix))) = Ok c /\ is_prob (get r ix) /\ (randomize = false \/ get o ix <> Fin 0 -> get r ix = get c ix).
Proof.
  intros skip w2 z2 rng ens S w z f sh o randomize unif Hp Hne Ho Hr Hn Hu Hnan.
  destruct (c63_accepts S w z f sh o randomize unif Hp Hne Ho Hr Hnan) as (r & E). exists r. split; [exact E|].
  destruct (c63_pit_partial S w z f sh o randomize unif r Hp Hn Hu E) as (_ & Hs & G). split; [exact Hs|].
  intros ix Hv. destruct (G ix Hv) as (c & Ec & Hpr & Hg & _). exists c. auto.
Qed.
Print Assumptions c63_rank_hist_partial.
Example c63_rejects_case : let o := of_list NaN [2; 2] [nnat 0; nnat 1; nnat 3; NaN] in let pop := of_list NaN [2; 2] [NaN; nnat 1; nnat 1; nnat 1] in
  exists r, prob_cdf ex_S 2 (-1) (Hurdle pop ex_a ex_a) None (Some (TArray o)) = Ok r /\ get o [0; 0] = Fin 0 /\ get r [0; 0] = NaN.
Proof. cbv zeta. eexists. split; [reflexivity|]. split; vm_compute; reflexivity. Qed.
Example c63_nonvacuous : let o := of_list NaN [2; 2] [nnat 0; nnat 1; nnat 3; NaN] in
  exists r, pit ex_S 2 (-1) (Hurdle ex_pop ex_a ex_a) o true (fun _ => Q2Qc (1 # 2)) = Ok r /\
  map (fun x => match x with Fin q => this q | _ => 0%Q end) (ravel r) = [3 # 8; 7 # 8; 15 # 16; 3 # 4]%Q.
Proof. cbv zeta. eexists. split; [reflexivity|]. vm_compute. reflexivity. Qed.
(** With a truncated Gamma forecast and two workers the result is the CDF at 3, not at the observation. *)
Theorem c63_parallel_truncgamma_refuted : let f := Gamma ex_a ex_a ex_a true in
  exists r c, pit ex_S 2 (-1) f ex_a true (fun _ => 0%Qc) = Ok r /\
    prob_cdf ex_S 1 (-1) f None (Some (TScalar (get ex_a [0; 0]))) = Ok c /\ get ex_a [0; 0] <> Fin 0 /\ get r [0; 0] <> get c [0; 0].
Proof.
  cbv zeta. eexists. eexists. split; [reflexivity|]. split; [reflexivity|]. split; intros E; apply (f_equal val) in E; vm_compute in E; discriminate.
Qed.
Print Assumptions c63_parallel_truncgamma_refuted.
