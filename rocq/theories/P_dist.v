(** Proofs about the parametric distributions. *)
From Coq Require Import ZArith List Lia Bool Arith QArith Qcanon.
From Verif Require Import QcTac QSum Num NdArr Numpy M_common NdAxes Spec M_ens NdMove P_boot P_rank P_ss M_dist.
Import ListNotations.
Open Scope nat_scope.

Definition same_shape (sh : list nat) (l : list (arr num)) : Prop := l <> [] /\ Forall (fun a => shape a = sh) l.
Lemma same_shape_hd sh l : same_shape sh l -> shape (hd none l) = sh.
Proof. intros [Hn H]. destruct H; [contradiction|]. assumption. Qed.
Lemma same_shape_slices sh l ax i : same_shape sh l -> same_shape (set_nth ax 1 sh) (map (unit_slice ax i) l).
Proof.
  intros [Hn H]. split; [destruct l; [contradiction|discriminate]|]. apply Forall_map.
  eapply Forall_impl; [|exact H]. intros a <-. reflexivity.
Qed.
Lemma mapM_ok_seq {B} (f : nat -> B) l : mapM (fun i => Ok (f i)) l = Ok (map f l).
Proof. induction l as [|x r IH]; [reflexivity|]. cbn [mapM bind map]. rewrite IH. reflexivity. Qed.
Lemma nth_map_seq {B} (f : nat -> B) n i d : i < n -> nth i (map f (seq 0 n)) d = f i.
Proof. intros H. rewrite (nth_indep _ d (f 0)) by (rewrite map_length, seq_length; exact H). rewrite map_nth, seq_nth by exact H. reflexivity. Qed.

Lemma parallel_ok {A} (d : arr A) w z (wrapper : nat -> list (arr num) -> res (arr A)) l sh ax :
  same_shape sh l -> 1 < w -> (z < 0)%Z -> norm_axis (length sh) z = Ok ax -> 0 < nth ax sh 0 ->
  parallel d w z wrapper l =
    (parts <- mapM (fun i => wrapper i (map (unit_slice ax i) l)) (seq 0 (nth ax sh 0)) ;;
     oax <- norm_axis (length (shape (hd d parts))) z ;; Ok (concat_units d oax parts)).
Proof.
  intros Hs Hw Hz Ha Hp. unfold parallel. rewrite (same_shape_hd _ _ Hs), Ha.
  destruct (Nat.eqb_spec (nth ax sh 0) 0); [lia|]. rewrite (proj2 (Nat.ltb_lt 1 w)) by exact Hw.
  rewrite (proj2 (Z.ltb_lt z 0)) by exact Hz. reflexivity.
Qed.
Lemma parallel_cells w z g l sh ax :
  same_shape sh l -> 1 < w -> (z < 0)%Z -> norm_axis (length sh) z = Ok ax -> 0 < nth ax sh 0 ->
  exists p, parallel none w z (fun _ x => Ok (cells g x)) l = Ok p /\ arr_eq p (cells g l).
Proof.
  intros Hs Hw Hz Ha Hp. rewrite (parallel_ok _ _ _ _ _ _ _ Hs Hw Hz Ha Hp). rewrite mapM_ok_seq. cbn [bind].
  destruct (norm_axis_neg _ _ _ Ha Hz) as [_ Hax].
  set (parts := map _ _). assert (Hl : length parts = nth ax sh 0) by (unfold parts; rewrite map_length, seq_length; reflexivity).
  assert (Hh : shape (hd none parts) = set_nth ax 1 sh).
  { unfold parts. destruct (nth ax sh 0); [lia|]. cbn [seq map hd cells shape]. apply same_shape_hd, same_shape_slices, Hs. }
  rewrite Hh, set_nth_length, Ha by exact Hax. cbn [bind]. eexists. split; [reflexivity|]. split.
  - cbn [concat_units shape cells]. rewrite Hh, Hl, set_nth_set_nth, set_nth_same by exact Hax. symmetry. apply same_shape_hd, Hs.
  - intros ix Hv. cbn [concat_units shape] in Hv. rewrite Hh, Hl, set_nth_set_nth, set_nth_same in Hv by exact Hax.
    cbn [concat_units get]. unfold parts. rewrite nth_map_seq by (apply valid_nth; assumption).
    cbn [cells get]. f_equal. rewrite map_map. apply map_ext. intros a. cbn [unit_slice get].
    pose proof (Forall2_len _ _ _ Hv) as Hlen.
    rewrite set_nth_set_nth, set_nth_same by lia. reflexivity.
Qed.

(** every accepted elementwise run: the clipped cells *)
Lemma run_cdf_inv w z f g l sh r : same_shape sh l -> run_cdf w z f g l = Ok r ->
  sh <> [] /\ shape r = sh /\
  (w = 1 -> forall ix, get r ix = clip1 (f (map (fun a => get a ix) l))) /\
  (w <> 1 -> forall ix, valid sh ix -> get r ix = clip1 (g (map (fun a => get a ix) l))).
Proof.
  intros Hs. unfold run_cdf. destruct (Nat.eqb_spec w 1) as [->|Hw].
  - cbn [bind]. unfold clip_probs. cbn [cells shape]. rewrite (same_shape_hd _ _ Hs). destruct sh as [|s sh]; [discriminate|].
    intros E. injection E as <-. split; [discriminate|]. split; [cbn [amap shape cells]; apply (same_shape_hd _ _ Hs)|].
    split; [|contradiction]. intros _ ix. reflexivity.
  - destruct (parallel none w z _ l) as [p|] eqn:Ep; [|discriminate]. cbn [bind].
    assert (Hfacts : exists ax, norm_axis (length sh) z = Ok ax /\ 0 < nth ax sh 0 /\ 1 < w /\ (z < 0)%Z).
    { unfold parallel in Ep. rewrite (same_shape_hd _ _ Hs) in Ep. destruct (norm_axis (length sh) z) as [ax|]; [|discriminate].
      exists ax. destruct (Nat.eqb_spec (nth ax sh 0) 0); [discriminate|].
      destruct (Nat.ltb_spec 1 w); [|discriminate]. cbn [passert bind] in Ep. destruct (Z.ltb_spec z 0); [|discriminate].
      repeat split; lia. }
    destruct Hfacts as (ax & Ha & Hp & Hw1 & Hz).
    destruct (parallel_cells w z g l sh ax Hs Hw1 Hz Ha Hp) as (p' & Ep' & Hps & Hpg).
    rewrite Ep in Ep'. injection Ep' as <-. cbn [cells shape] in Hps. rewrite (same_shape_hd _ _ Hs) in Hps.
    unfold clip_probs. rewrite Hps. destruct (norm_axis_neg _ _ _ Ha Hz) as [_ Hax].
    destruct sh as [|s sh]; [cbn in Hax; lia|]. intros E. injection E as <-.
    split; [discriminate|]. split; [exact Hps|]. split; [contradiction|]. intros _ ix Hv. cbn [amap get]. f_equal. rewrite Hpg by (rewrite Hps; exact Hv). reflexivity.
Qed.
Lemma run_cdf_serial z f g l sh : same_shape sh l -> sh <> [] -> exists r, run_cdf 1 z f g l = Ok r.
Proof.
  intros Hs Hn. unfold run_cdf. cbn [Nat.eqb bind]. unfold clip_probs. cbn [cells shape]. rewrite (same_shape_hd _ _ Hs).
  destruct sh; [contradiction|]. eexists. reflexivity.
Qed.
Lemma run_cdf_parallel w z f g l sh ax : same_shape sh l -> 1 < w -> (z < 0)%Z -> norm_axis (length sh) z = Ok ax -> 0 < nth ax sh 0 ->
  exists r, run_cdf w z f g l = Ok r.
Proof.
  intros Hs Hw Hz Ha Hp. unfold run_cdf. rewrite (proj2 (Nat.eqb_neq w 1)) by lia.
  destruct (parallel_cells w z g l sh ax Hs Hw Hz Ha Hp) as (p & -> & Hps & _). cbn [bind]. unfold clip_probs. rewrite Hps. cbn [cells shape].
  rewrite (same_shape_hd _ _ Hs). destruct (norm_axis_neg _ _ _ Ha Hz) as [_ Hax]. destruct sh; [cbn in Hax; lia|]. eexists. reflexivity.
Qed.
Lemma clip1_range x : x <> NaN -> exists q, clip1 x = Fin q /\ (0 <= q <= 1)%Qc.
Proof.
  intros Hx. unfold clip1. destruct x as [q| | |].
  - cbn. destruct (qltb_spec q 0); cbn; [exists 0%Qc; split; [reflexivity|split; qlra]|].
    destruct (qltb_spec 1 q); [exists 1%Qc; split; [reflexivity|split; qlra]|]. exists q. split; [reflexivity|]. split; qlra.
  - exists 1%Qc. split; [reflexivity|split; qlra].
  - exists 0%Qc. split; [reflexivity|split; qlra].
  - congruence.
Qed.
Lemma clip1_nan : clip1 NaN = NaN. Proof. reflexivity. Qed.
Lemma clip1_id q : (0 <= q <= 1)%Qc -> clip1 (Fin q) = Fin q.
Proof. intros [H0 H1]. unfold clip1. cbn. destruct (qltb_spec q 0); [exfalso; qlra|]. cbn. destruct (qltb_spec 1 q); [exfalso; qlra|]. reflexivity. Qed.

(** ** A verifier's CDF as one elementwise run *)
Definition fshape (f : forecast) : list nat :=
  match f with Gaussian mu _ _ => shape mu | Gamma mu _ _ _ => shape mu | Hurdle _ mu _ => shape mu end.
(** all parameter arrays have the shape [sh] *)
Definition params_shape (sh : list nat) (f : forecast) : Prop :=
  match f with
  | Gaussian mu sigma _ => shape mu = sh /\ shape sigma = sh
  | Gamma mu sigma shift _ => shape mu = sh /\ shape sigma = sh /\ shape shift = sh
  | Hurdle pop mu sigma => shape pop = sh /\ shape mu = sh /\ shape sigma = sh
  end.
Definition params_of (f : forecast) : list (arr num) :=
  match f with
  | Gaussian mu sigma _ => [mu; sigma]
  | Gamma mu sigma shift _ => [gamma_shape mu sigma; gamma_scale mu sigma; shift]
  | Hurdle pop mu sigma => [pop; gamma_shape mu sigma; gamma_scale mu sigma]
  end.
Definition serial_at (S : scipy) (f : forecast) : list num -> num :=
  match f with
  | Gaussian _ _ t => if t then truncnorm_at S else norm_at S
  | Gamma _ _ _ t => if t then truncgamma_at S else gamma_at S
  | Hurdle _ _ _ => hurdle_at S
  end.
Definition worker_at (S : scipy) (f : forecast) : list num -> num :=
  match f with
  | Gamma _ _ _ true => wrapper_truncgamma_cdf S
  | _ => serial_at S f
  end.
Lemma cdf_below_run S w z f below : cdf_below S w z f below =
  (b <- full_threshold (fshape f) below ;; run_cdf w z (serial_at S f) (worker_at S f) (params_of f ++ [b])).
Proof. destruct f as [mu sigma [|]|mu sigma shift [|]|pop mu sigma]; reflexivity. Qed.
Lemma params_same_shape sh f b : params_shape sh f -> shape b = sh -> same_shape sh (params_of f ++ [b]).
Proof.
  intros H Hb. split; [destruct f; discriminate|].
  destruct f; cbn in H; decompose [and] H; repeat constructor; assumption.
Qed.
Lemma params_fshape sh f : params_shape sh f -> fshape f = sh.
Proof. destruct f; cbn; tauto. Qed.
Lemma full_threshold_inv sh below b : full_threshold sh below = Ok b -> shape b = sh.
Proof.
  destruct below as [x|a|]; cbn; [intros E; injection E as <-; reflexivity| |discriminate].
  destruct (list_eqb (shape a) sh) eqn:E; [|discriminate]. cbn. intros E'. injection E' as <-. apply list_eqb_spec, E.
Qed.
(** the value of the threshold at a cell *)
Definition thr_at (below : thr) (ix : list nat) : num :=
  match below with TScalar x => x | TArray a => get a ix | TSeq => NaN end.
Lemma full_threshold_get sh below b ix : full_threshold sh below = Ok b -> get b ix = thr_at below ix.
Proof.
  destruct below as [x|a|]; cbn; [intros E; injection E as <-; reflexivity| |discriminate].
  destruct (list_eqb (shape a) sh); [|discriminate]. cbn. intros E'. injection E' as <-. reflexivity.
Qed.
Definition at_cell (f : forecast) (t : num) (ix : list nat) : list num := map (fun a => get a ix) (params_of f) ++ [t].

Lemma cdf_below_inv S w z f sh below r : params_shape sh f -> cdf_below S w z f below = Ok r ->
  sh <> [] /\ shape r = sh /\
  forall ix, valid sh ix -> get r ix = clip1 ((if Nat.eqb w 1 then serial_at S f else worker_at S f) (at_cell f (thr_at below ix) ix)).
Proof.
  intros Hp. rewrite cdf_below_run, (params_fshape _ _ Hp). destruct (full_threshold sh below) as [b|] eqn:Eb; [|discriminate]. cbn [bind].
  intros H. pose proof (params_same_shape _ _ _ Hp (full_threshold_inv _ _ _ Eb)) as Hs.
  destruct (run_cdf_inv _ _ _ _ _ _ _ Hs H) as (Hne & Hsr & G1 & G2). split; [exact Hne|]. split; [exact Hsr|].
  intros ix Hv. unfold at_cell. rewrite <- (full_threshold_get _ _ _ ix Eb).
  change [get b ix] with (map (fun a => get a ix) [b]). rewrite <- map_app.
  destruct (Nat.eqb_spec w 1) as [E|E]; [apply G1, E|apply G2; [exact E|exact Hv]].
Qed.
Definition thr_ok (sh : list nat) (below : thr) : Prop :=
  match below with TScalar _ => True | TArray a => shape a = sh | TSeq => False end.
Lemma full_threshold_ok sh below : thr_ok sh below -> exists b, full_threshold sh below = Ok b.
Proof.
  destruct below as [x|a|]; cbn; [eexists; reflexivity| |contradiction]. intros ->. rewrite list_eqb_refl. eexists. reflexivity.
Qed.
(** workers and map axis are usable for shape [sh]: one worker, or at least two and an existing axis counted from the end *)
Definition run_ok (sh : list nat) (w : nat) (z : Z) : Prop :=
  w = 1 \/ 1 < w /\ exists ax, ax < length sh /\ z = (Z.of_nat ax - Z.of_nat (length sh))%Z /\ 0 < nth ax sh 0.
Lemma cdf_below_ok S w z f sh below : params_shape sh f -> sh <> [] -> thr_ok sh below -> run_ok sh w z -> exists r, cdf_below S w z f below = Ok r.
Proof.
  intros Hp Hne Ht Hr. rewrite cdf_below_run, (params_fshape _ _ Hp). destruct (full_threshold_ok _ _ Ht) as (b & Eb). rewrite Eb. cbn [bind].
  pose proof (params_same_shape _ _ _ Hp (full_threshold_inv _ _ _ Eb)) as Hs.
  destruct Hr as [->|(Hw & ax & Hax & -> & Hpos)]; [eapply run_cdf_serial; eassumption|].
  eapply run_cdf_parallel; [exact Hs|exact Hw|lia|apply norm_axis_fun; [exact Hax|lia]|exact Hpos].
Qed.

(** ** Sampled ensembles *)
Lemma rvs_inv {G} (L : sampler G) s l n sh a : same_shape sh l -> rvs L s l n = Ok a -> shape a = n :: sh /\ forall ix, get a ix = draw L s l n ix.
Proof.
  intros Hs. unfold rvs. destruct (forallb _ _); [|discriminate]. intros E. injection E as <-. cbn [shape get].
  rewrite (same_shape_hd _ _ Hs). split; reflexivity.
Qed.
Lemma sample_raw {G} (L : sampler G) w z s0 who l n mv sh ens : same_shape sh l -> sample L w z s0 who l n mv = Ok ens ->
  exists t raw, axis_is (S (length sh)) mv t /\ shape ens = insert_at t n sh /\
    (forall m k, length k = length sh -> get ens (insert_at t m k) = raw (m :: k)) /\
    (w = 1 -> forall ix, raw ix = draw L s0 l n ix) /\
    (w <> 1 -> 1 < w /\ exists ax, ax < length sh /\ z = (Z.of_nat ax - Z.of_nat (length sh))%Z /\ 0 < nth ax sh 0 /\
       forall m k, valid sh k ->
         raw (m :: k) = draw L (task_state L s0 who (fun j => map (unit_slice ax j) l) n (nth ax k 0))
                          (map (unit_slice ax (nth ax k 0)) l) n (m :: set_nth ax 0 k)).
Proof.
  intros Hs. unfold sample.
  set (first := if Nat.eqb w 1 then _ else _). intros H.
  assert (F : exists e0, first = Ok e0 /\ (if Z.eqb mv 0 then Ok e0 else moveaxis 0 mv e0) = Ok ens).
  { destruct first as [e0|]; [|discriminate]. exists e0. split; [reflexivity|exact H]. }
  destruct F as (e0 & Ef & Em). clear H.
  assert (Hraw : shape e0 = n :: sh /\
    (w = 1 -> forall ix, get e0 ix = draw L s0 l n ix) /\
    (w <> 1 -> 1 < w /\ exists ax, ax < length sh /\ z = (Z.of_nat ax - Z.of_nat (length sh))%Z /\ 0 < nth ax sh 0 /\
       forall m k, valid sh k ->
         get e0 (m :: k) = draw L (task_state L s0 who (fun j => map (unit_slice ax j) l) n (nth ax k 0))
                          (map (unit_slice ax (nth ax k 0)) l) n (m :: set_nth ax 0 k))).
  { unfold first in Ef. destruct (Nat.eqb_spec w 1) as [->|Hw].
    - destruct (rvs_inv _ _ _ _ _ _ Hs Ef) as [Es Eg]. split; [exact Es|]. split; [intros _; exact Eg|contradiction].
    - rewrite (same_shape_hd _ _ Hs) in Ef.
      assert (Hfacts : exists ax, norm_axis (length sh) z = Ok ax /\ 0 < nth ax sh 0 /\ 1 < w /\ (z < 0)%Z).
      { unfold parallel in Ef. rewrite (same_shape_hd _ _ Hs) in Ef. destruct (norm_axis (length sh) z) as [ax|]; [|discriminate].
        exists ax. destruct (Nat.eqb_spec (nth ax sh 0) 0); [discriminate|].
        destruct (Nat.ltb_spec 1 w); [|discriminate]. cbn [passert bind] in Ef. destruct (Z.ltb_spec z 0); [|discriminate].
        repeat split; lia. }
      destruct Hfacts as (ax & Ha & Hp & Hw1 & Hz). rewrite Ha in Ef. rewrite (parallel_ok _ _ _ _ _ _ _ Hs Hw1 Hz Ha Hp) in Ef.
      destruct (norm_axis_neg _ _ _ Ha Hz) as [Hzz Hax].
      destruct (mapM _ _) as [parts|] eqn:Eparts; [|discriminate]. cbn [bind] in Ef.
      pose proof (mapM_length _ _ _ Eparts) as Hl. rewrite seq_length in Hl.
      assert (Hpart : forall i, i < nth ax sh 0 -> shape (nth i parts none) = n :: set_nth ax 1 sh /\
         forall ix, get (nth i parts none) ix = draw L (task_state L s0 who (fun j => map (unit_slice ax j) l) n i) (map (unit_slice ax i) l) n ix).
      { intros i Hi. pose proof (mapM_nth _ _ _ i 0 none Eparts) as Hn. rewrite seq_length, seq_nth in Hn by exact Hi.
        specialize (Hn Hi). cbn [Nat.add] in Hn. apply (rvs_inv _ _ _ _ _ _ (same_shape_slices _ _ _ _ Hs) Hn). }
      assert (Hh : shape (hd none parts) = n :: set_nth ax 1 sh).
      { destruct (Hpart 0 Hp) as [E0 _]. destruct parts; [cbn in Hl; lia|]. exact E0. }
      rewrite Hh in Ef. cbn [length] in Ef. rewrite set_nth_length in Ef by exact Hax.
      rewrite (norm_axis_fun (S (length sh)) z (S ax)) in Ef by lia. cbn [bind] in Ef. injection Ef as <-.
      split.
      + cbn [concat_units shape]. rewrite Hh, set_nth_cons, Hl, set_nth_set_nth, set_nth_same by exact Hax. reflexivity.
      + split; [contradiction|]. intros _. split; [exact Hw1|]. exists ax. split; [exact Hax|]. split; [lia|]. split; [exact Hp|].
        intros m k Hv. cbn [concat_units get nth]. rewrite set_nth_cons. apply Hpart. apply valid_nth; assumption. }
  destruct Hraw as (Hsh & H1 & H2).
  destruct (Z.eqb_spec mv 0) as [->|Hmv].
  - injection Em as <-. exists 0, (get e0). split; [split; [lia|left; reflexivity]|]. split; [exact Hsh|]. split; [intros; reflexivity|]. split; assumption.
  - assert (Hm : exists t, norm_axis (S (length sh)) mv = Ok t).
    { unfold moveaxis in Em. rewrite Hsh in Em. cbn [length] in Em. destruct (norm_axis (S (length sh)) 0); [|discriminate]. cbn [bind] in Em.
      destruct (norm_axis (S (length sh)) mv) as [t|]; [exists t; reflexivity|discriminate]. }
    destruct Hm as (t & Ht). pose proof (norm_axis_ok _ _ _ Ht) as Hax.
    destruct (moveaxis_to e0 n sh mv t Hsh Ht) as (b & Eb & Sb & Gb); [destruct Hax; lia|].
    rewrite Eb in Em. injection Em as <-. exists t, (get e0). split; [exact Hax|]. split; [exact Sb|]. split; [exact Gb|]. split; assumption.
Qed.
Lemma sample_params {G} (L : sampler G) w z s0 who f n mv clip e : prob_to_ens L w z s0 who f (Some n) mv clip = Ok e ->
  exists raw, sample L w z s0 who (params_of f) n mv = Ok raw /\ e = clip_members clip raw /\ same_shape (fshape f) (params_of f).
Proof.
  destruct f as [mu sigma t|mu sigma shift t|pop mu sigma]; cbn [prob_to_ens params_of fshape]; [| |discriminate].
  - unfold sample_dist_gaussian. destruct (list_eqb (shape mu) (shape sigma)) eqn:E; [|discriminate]. apply list_eqb_spec in E. cbn [passert bind].
    destruct (sample _ _ _ _ _ _ _ _) as [raw|]; [|discriminate]. cbn [rmap]. intros X. injection X as <-. exists raw.
    split; [reflexivity|]. split; [reflexivity|]. split; [discriminate|]. repeat constructor. symmetry. exact E.
  - unfold sample_dist_gamma. destruct (list_eqb (shape shift) (shape sigma)) eqn:E; [|discriminate]. apply list_eqb_spec in E. cbn [passert bind].
    destruct (list_eqb (shape shift) (shape mu)) eqn:E2; [|discriminate]. apply list_eqb_spec in E2. cbn [passert bind].
    destruct (sample _ _ _ _ _ _ _ _) as [raw|]; [|discriminate]. cbn [rmap]. intros X. injection X as <-. exists raw.
    split; [reflexivity|]. split; [reflexivity|]. split; [discriminate|]. repeat constructor. exact E2.
Qed.

(** ** Largest and smallest of finite members *)
Lemma fold_max r x : exists m, fold_left nmax2 (map Fin r) (Fin x) = Fin m /\ In m (x :: r) /\ forall y, In y (x :: r) -> (y <= m)%Qc.
Proof.
  revert x. induction r as [|a r IH]; intros x; cbn [map fold_left].
  - exists x. split; [reflexivity|]. split; [left; reflexivity|]. intros y [->|[]]. qlra.
  - assert (E : exists b, nmax2 (Fin x) (Fin a) = Fin b /\ (b = x \/ b = a) /\ (x <= b)%Qc /\ (a <= b)%Qc).
    { unfold nmax2. cbn. destruct (qleb_spec x a); eexists; (split; [reflexivity|]); repeat split; auto; qlra. }
    destruct E as (b & -> & Hb & Hx & Ha). destruct (IH b) as (m & -> & Hin & Hm). exists m. split; [reflexivity|].
    pose proof (Hm b (or_introl eq_refl)) as Hbm. split.
    + destruct Hin as [<-|Hin]; [destruct Hb as [->| ->]; [left|right; left]; reflexivity|right; right; exact Hin].
    + intros y [->|[->|Hy]]; [qlra|qlra|apply Hm; right; exact Hy].
Qed.
Lemma fold_min r x : exists m, fold_left nmin2 (map Fin r) (Fin x) = Fin m /\ In m (x :: r) /\ forall y, In y (x :: r) -> (m <= y)%Qc.
Proof.
  revert x. induction r as [|a r IH]; intros x; cbn [map fold_left].
  - exists x. split; [reflexivity|]. split; [left; reflexivity|]. intros y [->|[]]. qlra.
  - assert (E : exists b, nmin2 (Fin x) (Fin a) = Fin b /\ (b = x \/ b = a) /\ (b <= x)%Qc /\ (b <= a)%Qc).
    { unfold nmin2. cbn. destruct (qleb_spec x a); eexists; (split; [reflexivity|]); repeat split; auto; qlra. }
    destruct E as (b & -> & Hb & Hx & Ha). destruct (IH b) as (m & -> & Hin & Hm). exists m. split; [reflexivity|].
    pose proof (Hm b (or_introl eq_refl)) as Hbm. split.
    + destruct Hin as [<-|Hin]; [destruct Hb as [->| ->]; [left|right; left]; reflexivity|right; right; exact Hin].
    + intros y [->|[->|Hy]]; [qlra|qlra|apply Hm; right; exact Hy].
Qed.
Lemma filter_fin qs : filter (fun x => negb (is_nan x)) (map Fin qs) = map Fin qs.
Proof. induction qs as [|q r IH]; [reflexivity|]. cbn. rewrite IH. reflexivity. Qed.
Lemma spread_cell (skip : bool) qs : qs <> [] ->
  exists hi lo, (if skip then nannmax (map Fin qs) else nmaximum (map Fin qs)) = Ok (Fin hi) /\
    (if skip then nannmin (map Fin qs) else nminimum (map Fin qs)) = Ok (Fin lo) /\
    In hi qs /\ In lo qs /\ forall y, In y qs -> (lo <= y <= hi)%Qc.
Proof.
  intros Hq. destruct qs as [|x r]; [contradiction|].
  destruct (fold_max r x) as (hi & Eh & Ih & Bh). destruct (fold_min r x) as (lo & El & Il & Bl). exists hi, lo.
  assert (E1 : nmaximum (map Fin (x :: r)) = Ok (Fin hi)) by (cbn [map nmaximum]; rewrite Eh; reflexivity).
  assert (E2 : nminimum (map Fin (x :: r)) = Ok (Fin lo)) by (cbn [map nminimum]; rewrite El; reflexivity).
  split; [|split; [|auto]].
  - destruct skip; [|exact E1]. unfold nannmax. cbn [map]. change (Fin x :: map Fin r) with (map Fin (x :: r)). rewrite filter_fin. cbn [map]. exact E1.
  - destruct skip; [|exact E2]. unfold nannmin. cbn [map]. change (Fin x :: map Fin r) with (map Fin (x :: r)). rewrite filter_fin. cbn [map]. exact E2.
Qed.
Lemma spread_along_inv skip z ens ax r : axis_is (length (shape ens)) z ax -> spread_along skip z ens = Ok r ->
  shape r = drop_axis ax (shape ens) /\ forall ix, valid (drop_axis ax (shape ens)) ix ->
    let ms := members_at ax ens ix in
    exists hi lo, (if skip then nannmax ms else nmaximum ms) = Ok hi /\ (if skip then nannmin ms else nminimum ms) = Ok lo /\ get r ix = nsub hi lo.
Proof.
  intros [Ha Hz]. unfold spread_along. rewrite (norm_axis_fun _ _ _ Ha Hz). cbn [bind]. rewrite drop_axis_remove.
  destruct (mapM _ _) as [vals|] eqn:E; [|discriminate]. cbn [bind]. intros X. injection X as <-. split; [reflexivity|].
  intros ix Hv. cbv zeta. set (ms := members_at ax ens ix). cbn [of_list get].
  pose proof (flat_lt _ _ Hv) as Hlt.
  pose proof (mapM_nth _ _ _ (flat (remove_at ax (shape ens)) ix) [] NaN E) as Hn. rewrite indices_length, nth_indices in Hn by exact Hv.
  specialize (Hn Hlt). cbv zeta in Hn.
  assert (Em : map (fun m => get ens (insert_at ax m ix)) (seq 0 (nth ax (shape ens) 0)) = ms).
  { unfold ms, members_at. apply map_ext. intros m. rewrite insert_at_split; [reflexivity|].
    pose proof (Forall2_len _ _ _ Hv) as Hl. rewrite remove_at_length in Hl by exact Ha. lia. }
  rewrite Em in Hn. destruct (if skip then nannmax ms else nmaximum ms) as [hi|]; [|discriminate]. cbn [bind] in Hn.
  destruct (if skip then nannmin ms else nminimum ms) as [lo|]; [|discriminate]. cbn [bind] in Hn. injection Hn as Hn.
  exists hi, lo. split; [reflexivity|]. split; [reflexivity|]. symmetry. exact Hn.
Qed.
Lemma nmaximum_ok ms : ms <> [] -> exists v, nmaximum ms = Ok v.
Proof. destruct ms; [contradiction|]. eexists. reflexivity. Qed.
Lemma nminimum_ok ms : ms <> [] -> exists v, nminimum ms = Ok v.
Proof. destruct ms; [contradiction|]. eexists. reflexivity. Qed.
Lemma nannmax_ok ms : ms <> [] -> exists v, nannmax ms = Ok v.
Proof. destruct ms; [contradiction|]. intros _. unfold nannmax. destruct (filter _ _); eexists; reflexivity. Qed.
Lemma nannmin_ok ms : ms <> [] -> exists v, nannmin ms = Ok v.
Proof. destruct ms; [contradiction|]. intros _. unfold nannmin. destruct (filter _ _); eexists; reflexivity. Qed.
Lemma spread_along_ok skip z ens ax : axis_is (length (shape ens)) z ax -> 0 < nth ax (shape ens) 0 -> exists r, spread_along skip z ens = Ok r.
Proof.
  intros [Ha Hz] Hp. unfold spread_along. rewrite (norm_axis_fun _ _ _ Ha Hz). cbn [bind].
  match goal with |- context [mapM ?F ?l] => destruct (P_rank.mapM_all_ok F l) as (ys & ->); [|eexists; reflexivity] end.
  intros ix _. cbv zeta. set (ms := map _ _).
  assert (Hms : ms <> []) by (unfold ms; destruct (nth ax (shape ens) 0); [lia|discriminate]).
  destruct skip.
  - destruct (nannmax_ok ms Hms) as (v & ->), (nannmin_ok ms Hms) as (u & ->). eexists; reflexivity.
  - destruct (nmaximum_ok ms Hms) as (v & ->), (nminimum_ok ms Hms) as (u & ->). eexists; reflexivity.
Qed.

(** ** Generator states of the workers *)
Lemma task_state_first {G} (L : sampler G) s0 who task n i : (forall j, j < i -> who j <> who i) -> task_state L s0 who task n i = s0.
Proof.
  intros H. unfold task_state. assert (K : forall l s, (forall j, In j l -> j < i) -> fold_left (fun s j => if Nat.eqb (who j) (who i) then after L s (task j) n else s) l s = s).
  { induction l as [|j l IH]; intros s Hl; [reflexivity|]. cbn [fold_left]. rewrite (proj2 (Nat.eqb_neq (who j) (who i))) by (apply H, Hl; left; reflexivity).
    apply IH. intros k Hk. apply Hl. right. exact Hk. }
  apply K. intros j Hj. apply in_seq in Hj. lia.
Qed.
Lemma least {P : nat -> Prop} (dec : forall i, {P i} + {~ P i}) i : P i -> exists k, k <= i /\ P k /\ forall j, j < k -> ~ P j.
Proof.
  induction i as [i IH] using lt_wf_ind. intros Hi.
  assert (D : (exists j, j < i /\ P j) \/ forall j, j < i -> ~ P j).
  { clear IH Hi. induction i as [|i IHi]; [right; intros; lia|]. destruct (dec i) as [Hd|Hd]; [left; exists i; auto|].
    destruct IHi as [(j & Hj & Hp)|H]; [left; exists j; split; [lia|exact Hp]|]. right. intros j Hj. destruct (Nat.eq_dec j i) as [->|]; [exact Hd|apply H; lia]. }
  destruct D as [(j & Hj & Hp)|H]; [|exists i; repeat split; auto].
  destruct (IH j Hj Hp) as (k & Hk & R). exists k. split; [lia|exact R].
Qed.
Lemma first_tasks (who : nat -> nat) i j : who i <> who j -> exists i' j', i' <= i /\ j' <= j /\ who i' <> who j' /\
  (forall k, k < i' -> who k <> who i') /\ (forall k, k < j' -> who k <> who j').
Proof.
  intros H.
  destruct (least (P := fun k => who k = who i) (fun k => Nat.eq_dec _ _) i eq_refl) as (i' & Hi & Ei & Fi).
  destruct (least (P := fun k => who k = who j) (fun k => Nat.eq_dec _ _) j eq_refl) as (j' & Hj & Ej & Fj).
  exists i', j'. split; [exact Hi|]. split; [exact Hj|]. split; [congruence|]. split; intros k Hk.
  - rewrite Ei. apply Fi, Hk.
  - rewrite Ej. apply Fj, Hk.
Qed.
(** without usable workers, what is raised depends on the shape only *)
Lemma run_cdf_fail w z sh : sh = [] \/ ~ run_ok sh w z -> exists e, forall f g l, same_shape sh l -> run_cdf w z f g l = Raise e.
Proof.
  intros H. destruct (Nat.eq_dec w 1) as [->|Hw].
  - destruct H as [->|H]; [|exfalso; apply H; left; reflexivity]. exists TypeError. intros f g l Hs.
    unfold run_cdf. cbn [Nat.eqb bind]. unfold clip_probs. cbn [cells shape]. rewrite (same_shape_hd _ _ Hs). reflexivity.
  - destruct (norm_axis (length sh) z) as [ax|e] eqn:Ea.
    + destruct (Nat.eq_dec (nth ax sh 0) 0) as [E0|E0].
      * exists ZeroDivisionError. intros f g l Hs. unfold run_cdf. rewrite (proj2 (Nat.eqb_neq w 1)) by exact Hw.
        unfold parallel. rewrite (same_shape_hd _ _ Hs), Ea. rewrite (proj2 (Nat.eqb_eq _ _) E0). reflexivity.
      * exists AssertionError. intros f g l Hs. unfold run_cdf. rewrite (proj2 (Nat.eqb_neq w 1)) by exact Hw.
        unfold parallel. rewrite (same_shape_hd _ _ Hs), Ea. rewrite (proj2 (Nat.eqb_neq _ _) E0).
        destruct (Nat.ltb_spec 1 w) as [Hw1|]; [|reflexivity]. cbn [passert bind].
        destruct (Z.ltb_spec z 0) as [Hz|]; [|reflexivity]. exfalso. destruct (norm_axis_neg _ _ _ Ea Hz) as [E1 E2].
        destruct H as [->|H]; [cbn in E2; lia|]. apply H. right. split; [exact Hw1|]. exists ax. repeat split; lia.
    + exists IndexError. intros f g l Hs. unfold run_cdf. rewrite (proj2 (Nat.eqb_neq w 1)) by exact Hw.
      unfold parallel. rewrite (same_shape_hd _ _ Hs), Ea. reflexivity.
Qed.
Lemma run_ok_dec sh w z : run_ok sh w z \/ ~ run_ok sh w z.
Proof.
  destruct (Nat.eq_dec w 1) as [->|Hw]; [left; left; reflexivity|].
  destruct (lt_dec 1 w) as [H1|H1]; [|right; intros [E|[E _]]; lia].
  destruct (norm_axis (length sh) z) as [ax|] eqn:Ea.
  - destruct (Z_lt_dec z 0) as [Hz|Hz].
    + destruct (norm_axis_neg _ _ _ Ea Hz) as [E1 E2]. destruct (lt_dec 0 (nth ax sh 0)) as [Hp|Hp].
      * left. right. split; [exact H1|]. exists ax. repeat split; lia.
      * right. intros [E|(_ & ax' & Hax & -> & Hp')]; [lia|]. assert (ax' = ax) by lia. subst. lia.
    + right. intros [E|(_ & ax' & Hax & -> & Hp')]; [lia|]. lia.
  - right. intros [E|(_ & ax' & Hax & -> & Hp')]; [lia|]. rewrite (norm_axis_fun _ _ ax') in Ea by lia. discriminate.
Qed.
