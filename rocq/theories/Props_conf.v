(** Property C17: the confidence level of the bootstrap products. *)
From Coq Require Import ZArith List Lia Bool Arith Permutation QArith Qcanon Reals Lra.
From Verif Require Import QcTac QSum Num NdArr Numpy M_common NdAxes M_boot Spec Spec_prob RTier M_special M_rel M_ss Spec_ss P_boot P_boot2 P_brier P_work P_corr P_special P_ss Props_ss.
Import ListNotations.
Open Scope Qc_scope.

(** ** Specification *)
(** A number or missing (no infinity). *)
Definition observed (x : num) : Prop := x = NaN \/ is_fin x.
(** both missing, or two numbers in order *)
Definition in_order (lo hi : num) : Prop := (lo = NaN /\ hi = NaN) \/ exists a b, lo = Fin a /\ hi = Fin b /\ a <= b.
Definition r_in_order (lo hi : rnum) : Prop := (lo = RNaN /\ hi = RNaN) \/ exists a b, lo = RFin a /\ hi = RFin b /\ (a <= b)%R.
(** The interval of a confidence level c: in order from 1/2 on, and the wrong way round below. *)
Definition ordered_from_half {A} (ord : A -> A -> Prop) (c : Qc) (lo hi : A) : Prop :=
  (Q2Qc (1 # 2) <= c -> ord lo hi) /\ (c <= Q2Qc (1 # 2) -> ord hi lo).
(** three numbers of which the outer ones are the bounds *)
Definition bounds_of {A} (v : list A) (P : A -> A -> Prop) : Prop := exists lo m hi, v = [lo; m; hi] /\ P lo hi.

(** ** Lemmas *)
Lemma observed_fins l : (forall x, In x l -> observed x) -> ~ In NaN l -> exists xs, l = map Fin xs.
Proof.
  intros H N. induction l as [|x l IH]; [exists []; reflexivity|].
  destruct IH as [xs ->]; [intros y Hy; apply H; right; exact Hy|intros Hy; apply N; right; exact Hy|].
  destruct (H x (or_introl eq_refl)) as [->|[q ->]]; [elim N; left; reflexivity|]. exists (q :: xs). reflexivity.
Qed.
Lemma is_nan_in l : existsb is_nan l = true <-> In NaN l.
Proof.
  rewrite existsb_exists. split; [intros (x & Hx & E); destruct x; try discriminate; exact Hx|intros H; exists NaN; split; [exact H|reflexivity]].
Qed.
Lemma np_levels l p v : np_quantile l p = Ok v -> 0 <= p /\ p <= 1.
Proof. unfold np_quantile. destruct (qleb_spec 0 p); destruct (qleb_spec p 1); cbn; try discriminate; auto. Qed.
Lemma nan_levels l p v : np_nanquantile l p = Ok v -> 0 <= p /\ p <= 1.
Proof. unfold np_nanquantile. destruct (qleb_spec 0 p); destruct (qleb_spec p 1); cbn; try discriminate; auto. Qed.
Lemma quant_order l p1 p2 v1 v2 : (forall x, In x l -> observed x) -> p1 <= p2 -> np_quantile l p1 = Ok v1 -> np_quantile l p2 = Ok v2 -> in_order v1 v2.
Proof.
  intros H L E1 E2. destruct (np_levels _ _ _ E1) as [A1 B1]. destruct (np_levels _ _ _ E2) as [A2 B2].
  destruct (existsb is_nan l) eqn:N.
  - apply is_nan_in in N. rewrite np_quantile_nan in E1, E2 by assumption. injection E1 as <-. injection E2 as <-. left. auto.
  - destruct (observed_fins l H) as [xs ->]; [intros C; apply is_nan_in in C; congruence|].
    destruct xs as [|x xs]; [unfold np_quantile in E1; destruct (negb _); discriminate|].
    rewrite np_quantile_fin in E1, E2 by (try assumption; discriminate). injection E1 as <-. injection E2 as <-.
    right. do 2 eexists. split; [reflexivity|]. split; [reflexivity|]. apply qquant_mono; try assumption. discriminate.
Qed.
Lemma nanquant_order l p1 p2 v1 v2 : (forall x, In x l -> observed x) -> p1 <= p2 -> np_nanquantile l p1 = Ok v1 -> np_nanquantile l p2 = Ok v2 -> in_order v1 v2.
Proof.
  intros H L E1 E2. destruct (nan_levels _ _ _ E1) as [A1 B1]. destruct (nan_levels _ _ _ E2) as [A2 B2].
  assert (R : forall p v, np_nanquantile l p = Ok v -> np_nanquantile (filter (fun x => negb (is_nan x)) l) p = Ok v).
  { intros p v. unfold np_nanquantile. replace (filter (fun x => negb (is_nan x)) (filter (fun x => negb (is_nan x)) l)) with (filter (fun x => negb (is_nan x)) l); [auto|].
    symmetry. clear. induction l as [|x l IH]; [reflexivity|]. cbn [filter]. destruct (negb (is_nan x)) eqn:E; [cbn [filter]; rewrite E, IH; reflexivity|exact IH]. }
  apply R in E1. apply R in E2.
  destruct (observed_fins (filter (fun x => negb (is_nan x)) l)) as [xs Ex].
  { intros x Hx. apply filter_In in Hx as [Hx _]. apply H, Hx. }
  { intros Hx. apply filter_In in Hx as [_ Hx]. discriminate. }
  rewrite Ex in E1, E2. destruct xs as [|x xs].
  - unfold np_nanquantile in E1, E2. destruct (negb _); [discriminate|]. destruct (negb _); [discriminate|]. cbn in E1, E2. injection E1 as <-. injection E2 as <-. left. auto.
  - rewrite np_nanquantile_fin in E1, E2 by (try assumption; discriminate). injection E1 as <-. injection E2 as <-.
    right. do 2 eexists. split; [reflexivity|]. split; [reflexivity|]. apply qquant_mono; try assumption. discriminate.
Qed.
Lemma half_flip c : (Q2Qc (1 # 2) <= c -> 1 - c <= c) /\ (c <= Q2Qc (1 # 2) -> c <= 1 - c).
Proof. assert (E : this (Q2Qc (1 # 2)) == 1 # 2) by reflexivity. split; intros H; qlra. Qed.

Lemma obs_within x : observed x -> exists a b, within a b x.
Proof. intros [->|[q ->]]; [exists 0, 0; left; reflexivity|]. exists q, q. right. exists q. split; [reflexivity|split; apply Qcle_refl]. Qed.
Lemma within_obs a b x : within a b x -> observed x.
Proof. intros [->|(q & -> & _)]; [left; reflexivity|right; exists q; reflexivity]. Qed.
Lemma within_all l : (forall x, In x l -> observed x) -> exists a b, forall x, In x l -> within a b x.
Proof.
  induction l as [|x l IH]; intros H; [exists 0, 0; intros x []|].
  destruct IH as (a & b & W); [intros y Hy; apply H; right; exact Hy|].
  destruct (H x (or_introl eq_refl)) as [->|[q ->]].
  - exists a, b. intros y [<-|Hy]; [left; reflexivity|apply W, Hy].
  - exists (if qleb a q then a else q), (if qleb q b then b else q). intros y [<-|Hy].
    + right. exists q. split; [reflexivity|]. destruct (qleb_spec a q), (qleb_spec q b); split; qlra.
    + destruct (W y Hy) as [->|(r & -> & R1 & R2)]; [left; reflexivity|right]. exists r. split; [reflexivity|].
      destruct (qleb_spec a q), (qleb_spec q b); split; qlra.
Qed.
Lemma obs_nmean l : (forall x, In x l -> observed x) -> observed (nmean l).
Proof. intros H. destruct (within_all l H) as (a & b & W). exact (within_obs a b _ (nmean_within a b l W)). Qed.
Lemma obs_nanmean l : (forall x, In x l -> observed x) -> observed (nanmean l).
Proof. intros H. destruct (within_all l H) as (a & b & W). exact (within_obs a b _ (nanmean_within a b l W)). Qed.
Lemma obs_mean (skip : bool) l : (forall x, In x l -> observed x) -> observed ((if skip then nanmean else nmean) l).
Proof. destruct skip; [apply obs_nanmean|apply obs_nmean]. Qed.
Lemma obs_add x y : observed x -> observed y -> observed (nadd x y).
Proof. intros [->|[a ->]] [->|[b ->]]; try (left; reflexivity). right. eexists. reflexivity. Qed.
Lemma obs_sub x y : observed x -> observed y -> observed (nsub x y).
Proof. intros [->|[a ->]] [->|[b ->]]; try (left; reflexivity). right. eexists. reflexivity. Qed.
Lemma obs_mul x y : observed x -> observed y -> observed (nmul x y).
Proof. intros [->|[a ->]] [->|[b ->]]; try (left; reflexivity). right. eexists. reflexivity. Qed.
Lemma obs_div x n : observed x -> (0 < n)%nat -> observed (ndiv x (nnat n)).
Proof.
  intros [->|[a ->]] Hn; [left; reflexivity|]. unfold nnat, ndiv. destruct (qeqb_spec (qn n) 0) as [E|E].
  - exfalso. apply (qn_neq0 n Hn), E.
  - right. eexists. reflexivity.
Qed.
Lemma obs_fin q : observed (Fin q). Proof. right. exists q. reflexivity. Qed.
Lemma obs_nan : observed NaN. Proof. left. reflexivity. Qed.

Lemma plain_triple_order c stats v : (forall x, In x stats -> observed x) -> plain_triple c stats = Ok v ->
  bounds_of v (ordered_from_half in_order c).
Proof.
  intros H E. unfold plain_triple in E. destruct (np_quantile stats (1 - c)) as [lo|] eqn:E1; [|discriminate]. cbn [bind] in E.
  destruct (np_quantile stats c) as [hi|] eqn:E2; [|discriminate]. cbn [bind] in E. injection E as <-.
  exists lo, (nmean stats), hi. split; [reflexivity|]. destruct (half_flip c) as [F1 F2]. split; intros L.
  - exact (quant_order _ _ _ _ _ H (F1 L) E1 E2).
  - exact (quant_order _ _ _ _ _ H (F2 L) E2 E1).
Qed.
Lemma special_triple_order e stats v : (forall x, In x stats -> observed x) -> special_triple e stats = Ok v ->
  bounds_of v (ordered_from_half in_order (confidence e)).
Proof.
  intros H E. unfold special_triple in E. destruct (half_flip (confidence e)) as [F1 F2]. destruct (skip_nan e).
  - destruct (np_nanquantile stats (1 - confidence e)) as [lo|] eqn:E1; [|discriminate]. cbn [bind] in E.
    destruct (np_nanquantile stats (confidence e)) as [hi|] eqn:E2; [|discriminate]. cbn [bind] in E. injection E as <-.
    do 3 eexists. split; [reflexivity|]. split; intros L; [exact (nanquant_order _ _ _ _ _ H (F1 L) E1 E2)|exact (nanquant_order _ _ _ _ _ H (F2 L) E2 E1)].
  - destruct (np_quantile stats (1 - confidence e)) as [lo|] eqn:E1; [|discriminate]. cbn [bind] in E.
    destruct (np_quantile stats (confidence e)) as [hi|] eqn:E2; [|discriminate]. cbn [bind] in E. injection E as <-.
    do 3 eexists. split; [reflexivity|]. split; intros L; [exact (quant_order _ _ _ _ _ H (F1 L) E1 E2)|exact (quant_order _ _ _ _ _ H (F2 L) E2 E1)].
Qed.
Lemma obs_nth l i : (forall x, In x l -> observed x) -> observed (nth i l NaN).
Proof. intros H. destruct (Nat.lt_ge_cases i (length l)) as [L|L]; [apply H, nth_In, L|rewrite nth_overflow by exact L; apply obs_nan]. Qed.
Lemma obs_take l idx x : (forall x, In x l -> observed x) -> In x (take NaN l idx) -> observed x.
Proof. intros H Hx. apply in_map_iff in Hx as (i & <- & _). apply obs_nth, H. Qed.
Lemma obs_brier_point skip f o v : (forall x, In x f -> observed x) -> (forall x, In x o -> observed x) -> brier_point skip f o = Ok v ->
  forall x, In x v -> observed x.
Proof.
  intros Hf Ho E. unfold brier_point in E. destruct f as [|f0 f']; [discriminate|]. remember (f0 :: f') as f eqn:Ef.
  assert (Lf : (0 < length f)%nat) by (subst f; cbn; lia).
  apply (f_equal (fun r => match r with Ok x => x | _ => [] end)) in E. cbv beta zeta iota in E. subst v.
  assert (Hob : observed ((if skip then nanmean else nmean) o)) by (apply obs_mean, Ho).
  assert (M : forall b, observed ((if skip then nanmean else nmean) (map fst (brier_bin b f o))) /\ observed ((if skip then nanmean else nmean) (map snd (brier_bin b f o)))).
  { intros b. split; apply obs_mean; intros x Hx; apply in_map_iff in Hx as ([p q] & <- & Hp); apply filter_In in Hp as [Hp _]; cbn.
    - apply Hf. exact (in_combine_l _ _ _ _ Hp).
    - apply Ho. exact (in_combine_r _ _ _ _ Hp). }
  assert (A : forall g l acc, (forall b, observed (g (brier_bin b f o))) -> observed acc ->
     observed (fold_left (fun acc b => let s := brier_bin b f o in if Nat.eqb (length s) 0 then acc else nadd acc (nmul (nnat (length s)) (nsq (g s)))) l acc)).
  { intros g l. induction l as [|b l IH]; intros acc Hg Ha; [exact Ha|]. cbn [fold_left]. apply IH; [exact Hg|]. cbv zeta.
    destruct (Nat.eqb _ 0); [exact Ha|]. apply obs_add; [exact Ha|]. apply obs_mul; [apply obs_fin|]. unfold nsq. apply obs_mul; apply Hg. }
  intros x [<-|[<-|[<-|[]]]].
  - apply obs_div; [|exact Lf]. refine (A (fun s => nsub ((if skip then nanmean else nmean) (map fst s)) ((if skip then nanmean else nmean) (map snd s))) _ _ _ (obs_fin 0)).
    intros b. apply obs_sub; apply M.
  - apply obs_div; [|exact Lf]. refine (A (fun s => nsub ((if skip then nanmean else nmean) (map snd s)) ((if skip then nanmean else nmean) o)) _ _ _ (obs_fin 0)).
    intros b. apply obs_sub; [apply M|exact Hob].
  - apply obs_mul; [exact Hob|]. apply obs_sub; [apply obs_fin|exact Hob].
Qed.
Lemma r_quantile_order skip l p1 p2 v1 v2 : p1 <= p2 -> r_quantile skip l p1 = Ok v1 -> r_quantile skip l p2 = Ok v2 -> r_in_order v1 v2.
Proof.
  intros H E1 E2. pose proof (r_quantile_mono _ _ _ _ _ _ H E1 E2) as [->|[->|D]]; [..|right; exact D].
  - left. split; [reflexivity|]. unfold r_quantile in E1, E2. destruct (negb _); [discriminate|]. destruct (negb _); [discriminate|].
    destruct skip; [destruct (rvals l); [congruence|discriminate]|]. destruct l; [discriminate|]. destruct (forallb _ _); [discriminate|congruence].
  - left. split; [|reflexivity]. unfold r_quantile in E1, E2. destruct (negb _); [discriminate|]. destruct (negb _); [discriminate|].
    destruct skip; [destruct (rvals l); [congruence|discriminate]|]. destruct l; [discriminate|]. destruct (forallb _ _); [discriminate|congruence].
Qed.

(** ** C17 *)
(** Averages (boot_vec, utils_verify.py 223): for every level in [0,1] and all draws the bounds are in order. *)
Theorem c17_averages_partial : forall e rng pop n v, (forall x, In x pop -> observed x) -> 0 <= confidence e -> confidence e <= 1 ->
  boot_vec e rng pop n = Ok v -> bounds_of v in_order.
Proof.
  intros e rng pop n v H C0 C1 E. destruct (half_levels _ C0 C1) as (_ & L & _).
  destruct (boot_vec_resamples _ _ _ _ _ E) as (rs & [_ R] & (lo & hi & E1 & E2 & ->)). do 3 eexists. split; [reflexivity|].
  refine (quant_order _ _ _ _ _ _ L E1 E2). intros x Hx. apply in_map_iff in Hx as (s & <- & Hs).
  replace (stat_of e s) with ((if skip_nan e then nanmean else nmean) s) by (unfold stat_of; destruct (skip_nan e); reflexivity). apply obs_mean.
  intros y Hy. apply H. apply (R s Hs), Hy.
Qed.
Print Assumptions c17_averages_partial.
(** One bin of the reliability diagram (utils_verify.py 385-438): in order only from confidence 1/2 on, and the
    wrong way round below; an empty bin has no interval. *)
Theorem c17_reliability_partial : forall e rng n ids y_prob y_true b v w, (forall x, In x y_prob -> observed x) -> (forall x, In x y_true -> observed x) ->
  rel_boot_bin e rng n ids y_prob y_true b = Ok (v, w) -> (v = [] /\ w = []) \/
  (bounds_of v (ordered_from_half in_order (confidence e)) /\ bounds_of w (ordered_from_half in_order (confidence e))).
Proof.
  intros e rng n ids p t b v w Hp Ht E. unfold rel_boot_bin in E. destruct (where_eq ids b) as [|i0 ii]; [injection E as <- <-; left; auto|].
  destruct (mapM _ _) as [ps|] eqn:M; [|discriminate]. cbn [bind] in E.
  destruct (plain_triple (confidence e) (map fst ps)) as [a|] eqn:E1; [|discriminate]. cbn [bind] in E.
  destruct (plain_triple (confidence e) (map snd ps)) as [a'|] eqn:E2; [|discriminate]. cbn [bind] in E. injection E as <- <-.
  assert (O : forall q, In q ps -> observed (fst q) /\ observed (snd q)).
  { intros q Hq. destruct (In_nth _ _ (NaN, NaN) Hq) as (i & Hi & <-). rewrite (mapM_length _ _ _ M) in Hi.
    pose proof (mapM_nth _ _ _ i 0%nat (NaN, NaN) M Hi) as G. cbn beta in G. destruct (choice _ _ _) as [idx|]; [|discriminate]. cbn [bind] in G. injection G as <-.
    split; apply obs_mean; intros x Hx; apply in_map_iff in Hx as (j & <- & _); apply obs_nth; assumption. }
  right. split; (eapply plain_triple_order; [|eassumption]); intros x Hx; apply in_map_iff in Hx as (q & <- & Hq); apply O, Hq.
Qed.
Print Assumptions c17_reliability_partial.
(** Brier decomposition of one group (utils_special_boot.py 83-114): the three terms. *)
Theorem c17_brier_partial : forall e rng n f o v, (forall x, In x f -> observed x) -> (forall x, In x o -> observed x) ->
  func_brier e (Some n) rng f o = Ok v -> exists a b c, v = a ++ b ++ c /\
  bounds_of a (ordered_from_half in_order (confidence e)) /\ bounds_of b (ordered_from_half in_order (confidence e)) /\ bounds_of c (ordered_from_half in_order (confidence e)).
Proof.
  intros e rng n f o v Hf Ho E. cbn [func_brier] in E. unfold brier_boot in E.
  destruct (mapM _ _) as [rets|] eqn:M; [|discriminate]. cbn [bind] in E.
  destruct (special_triple e (map (fun t => nth 0 t NaN) rets)) as [a|] eqn:E1; [|discriminate]. cbn [bind] in E.
  destruct (special_triple e (map (fun t => nth 1 t NaN) rets)) as [b|] eqn:E2; [|discriminate]. cbn [bind] in E.
  destruct (special_triple e (map (fun t => nth 2 t NaN) rets)) as [c|] eqn:E3; [|discriminate]. cbn [bind] in E. injection E as <-.
  assert (O : forall j x, In x (map (fun t => nth j t NaN) rets) -> observed x).
  { intros j x Hx. apply in_map_iff in Hx as (t & <- & Ht). destruct (In_nth _ _ [] Ht) as (i & Hi & <-). rewrite (mapM_length _ _ _ M) in Hi.
    pose proof (mapM_nth _ _ _ i 0%nat [] M Hi) as G. cbn beta in G. destruct (choice _ _ _) as [idx|]; [|discriminate]. cbn [bind] in G.
    apply obs_nth. refine (obs_brier_point _ _ _ _ _ _ G); intros y Hy; [exact (obs_take _ _ _ Hf Hy)|exact (obs_take _ _ _ Ho Hy)]. }
  exists a, b, c. split; [reflexivity|].
  split; [|split]; [exact (special_triple_order _ _ _ (O _) E1)|exact (special_triple_order _ _ _ (O _) E2)|exact (special_triple_order _ _ _ (O _) E3)].
Qed.
Print Assumptions c17_brier_partial.
(** Correlation of one group (utils_special_boot.py 117-138), whatever the data. *)
Theorem c17_correlation_partial : forall e rng n f o v, func_corr e (Some n) rng f o = Ok v ->
  bounds_of v (ordered_from_half r_in_order (confidence e)).
Proof.
  intros e rng n f o v E. cbn [func_corr] in E. destruct (mapM _ _) as [cs|]; [|discriminate]. cbn [bind] in E.
  destruct (r_quantile _ cs (1 - confidence e)) as [lo|] eqn:E1; [|discriminate]. cbn [bind] in E.
  destruct (r_quantile _ cs (confidence e)) as [hi|] eqn:E2; [|discriminate]. cbn [bind] in E. injection E as <-.
  do 3 eexists. split; [reflexivity|]. destruct (half_flip (confidence e)) as [F1 F2]. split; intros L.
  - exact (r_quantile_order _ _ _ _ _ _ (F1 L) E1 E2).
  - exact (r_quantile_order _ _ _ _ _ _ (F2 L) E2 E1).
Qed.
Print Assumptions c17_correlation_partial.
(** Spread-skill diagram (utils_ss.py 128-184): every entry, for data of non-negative numbers. *)
Lemma nsqrt_order x y : in_order x y -> (forall q, x = Fin q -> 0 <= q) -> r_in_order (nsqrt x) (nsqrt y).
Proof.
  intros [[-> ->]|(a & b & -> & -> & L)] H; [left; split; reflexivity|]. right. specialize (H a eq_refl).
  cbn [nsqrt]. destruct (qltb_spec a 0) as [C|_]; [exfalso; qlra|]. destruct (qltb_spec b 0) as [C|_]; [exfalso; qlra|].
  do 2 eexists. split; [reflexivity|]. split; [reflexivity|]. apply sqrt_le_1_alt, q2r_le, L.
Qed.
Theorem c17_spread_skill_partial : forall argsort env rng n v e nb ax ns N, (forall l, argsorts l (argsort l)) -> shape e = shape v ->
  axes_are (length (shape v)) ax ns -> same_sign ax ->
  prod (kept (length (shape v)) ns (shape v)) <> 0%nat -> prod (shape v) = (N * prod (kept (length (shape v)) ns (shape v)))%nat -> (1 <= nb <= N)%nat ->
  0 <= confidence env -> confidence env <= 1 -> (0 < repeats env)%nat -> (0 < n)%nat ->
  (forall ix, Forall2 lt ix (shape v) -> exists p y, get v ix = Fin p /\ 0 <= p /\ get e ix = Fin y /\ 0 <= y) ->
  exists sp rm, binned_spread_skill_boot argsort env rng n v e nb ax = Ok (sp, rm) /\
  forall k b, Forall2 lt k (kept (length (shape v)) ns (shape v)) -> (b < nb)%nat ->
    ordered_from_half r_in_order (confidence env) (get sp (k ++ [b; 0%nat])) (get sp (k ++ [b; 2%nat])) /\
    ordered_from_half r_in_order (confidence env) (get rm (k ++ [b; 0%nat])) (get rm (k ++ [b; 2%nat])).
Proof.
  intros argsort env rng n v e nb ax ns N Harg Hsh Hax Hss HK HN Hnb C0 C1 Hr Hn Hd.
  destruct (c33_bootstrap argsort env rng n v e nb ax ns N Harg Hsh Hax Hss HK HN Hnb C0 C1 Hr) as (sp & rm & E & _ & _ & G).
  exists sp, rm. split; [exact E|]. intros k b Hk Hb.
  pose proof (group_Cells (shape v) ns k) as HC. set (L := group (shape v) (mask_of (length (shape v)) ns) k) in HC.
  destruct (G k L Hk HC) as (Bs & (LB & PB & _) & GB). destruct (GB b Hb) as (rs & tv & te & (_ & R) & Tv & Te & V). cbv zeta in *.
  assert (Hrs : forall s ix, In s rs -> In ix s -> exists p y, get v ix = Fin p /\ 0 <= p /\ get e ix = Fin y /\ 0 <= y).
  { intros s ix Hs Hix. apply Hd. apply (proj2 HC ix), (Permutation_in _ PB). apply in_concat. exists (nth b Bs []). split; [apply nth_In; lia|]. apply (proj2 (R s Hs)), Hix. }
  assert (Nn : forall s, In s rs -> s <> []) by (intros s Hs ->; destruct (R [] Hs) as [Hl _]; cbn in Hl; lia).
  assert (Q : forall (h : list nat -> num) t, (forall s ix, In s rs -> In ix s -> exists q, h ix = Fin q /\ 0 <= q) ->
     triple_of np_quantile (1 - confidence env) (confidence env) (map (fun s => (if skip_nan env then nanmean else nmean) (map h s)) rs) t ->
     ordered_from_half r_in_order (confidence env) (nsqrt (nth 0 t NaN)) (nsqrt (nth 2 t NaN))).
  { intros h t Hh (lo & hi & E1 & E2 & ->). cbn [nth].
    assert (I : exists B, forall x, In x (map (fun s => (if skip_nan env then nanmean else nmean) (map h s)) rs) -> inside 0 B x).
    { assert (W : exists B, forall s ix, In s rs -> In ix s -> inside 0 B (h ix)).
      { destruct (within_all (map h (concat rs))) as (a & B & W).
        { intros x Hx. apply in_map_iff in Hx as (ix & <- & Hx). apply in_concat in Hx as (s & Hs & Hix). destruct (Hh s ix Hs Hix) as (q & -> & _). apply obs_fin. }
        exists B. intros s ix Hs Hix. destruct (Hh s ix Hs Hix) as (q & Eq & Hq). exists q. split; [exact Eq|]. split; [exact Hq|].
        destruct (W (h ix)) as [C|(r & Er & _ & Hr2)]; [apply in_map, in_concat; eauto|congruence|]. rewrite Eq in Er. injection Er as ->. exact Hr2. }
      destruct W as [B W]. exists B. intros x Hx. apply in_map_iff in Hx as (s & <- & Hs).
      replace ((if skip_nan env then nanmean else nmean) (map h s)) with (stat_of env (map h s)) by (unfold stat_of; destruct (skip_nan env); reflexivity). apply stat_inside.
      - intros C. apply map_eq_nil in C. exact (Nn s Hs C).
      - intros y Hy. apply in_map_iff in Hy as (ix & <- & Hix). exact (W s ix Hs Hix). }
    destruct I as [B I]. assert (O : forall x, In x (map (fun s => (if skip_nan env then nanmean else nmean) (map h s)) rs) -> observed x) by (intros x Hx; destruct (I x Hx) as (q & -> & _); apply obs_fin).
    destruct (np_levels _ _ _ E1). assert (RN : rs <> []) by (intros ->; cbn in E1; unfold np_quantile in E1; destruct (negb _); discriminate).
    assert (MN : map (fun s => (if skip_nan env then nanmean else nmean) (map h s)) rs <> []) by (intros C; apply map_eq_nil in C; exact (RN C)).
    assert (P1 : forall q, lo = Fin q -> 0 <= q).
    { intros q ->. destruct (quantile_inside 0 B _ _ _ MN I E1) as (q' & Eq & Hq & _). injection Eq as <-. exact Hq. }
    assert (P2 : forall q, hi = Fin q -> 0 <= q).
    { intros q ->. destruct (quantile_inside 0 B _ _ _ MN I E2) as (q' & Eq & Hq & _). injection Eq as <-. exact Hq. }
    destruct (half_flip (confidence env)) as [F1 F2]. split; intros Lv.
    - apply nsqrt_order; [exact (quant_order _ _ _ _ _ O (F1 Lv) E1 E2)|exact P1].
    - apply nsqrt_order; [exact (quant_order _ _ _ _ _ O (F2 Lv) E2 E1)|exact P2]. }
  destruct (V 0%nat ltac:(lia)) as [-> ->]. destruct (V 2%nat ltac:(lia)) as [-> ->]. split; (eapply Q; [|eassumption]).
  - intros s ix Hs Hix. destruct (Hrs s ix Hs Hix) as (p & y & -> & Hp & _). eauto.
  - intros s ix Hs Hix. destruct (Hrs s ix Hs Hix) as (p & y & _ & _ & -> & Hy). eauto.
Qed.
Print Assumptions c17_spread_skill_partial.

(** The levels differ: at confidence 1/2, for the same data, draws and number of resamples, the interval of
    the average and that of the reliability bin are different. *)
Theorem c17_levels_refuted : ~ (forall e rng pop n v w z, (forall x, In x pop -> is_fin x) -> 0 <= confidence e -> confidence e <= 1 ->
  boot_vec e rng pop n = Ok v -> rel_boot_bin e rng n (repeat 0%Z (length pop)) pop pop 0 = Ok (w, z) -> v = w).
Proof.
  intros H. set (e := {| skip_nan := false; repeats := 5; confidence := Q2Qc (1 # 2) |}). set (rng := fun r _ : nat => r).
  set (pop := [Fin (qz 0); Fin (qz 1); Fin (qz 2); Fin (qz 3); Fin (qz 4)]).
  assert (X : boot_vec e rng pop 1 = Ok [Fin (qz 1); Fin (qz 2); Fin (qz 3)]) by (vm_compute; repeat first [reflexivity | apply Qc_is_canon; reflexivity | f_equal]).
  assert (Y : rel_boot_bin e rng 1 (repeat 0%Z 5) pop pop 0 = Ok ([Fin (qz 2); Fin (qz 2); Fin (qz 2)], [Fin (qz 2); Fin (qz 2); Fin (qz 2)])) by (vm_compute; repeat first [reflexivity | apply Qc_is_canon; reflexivity | f_equal]).
  assert (F : forall x, In x pop -> is_fin x) by (intros x [<-|[<-|[<-|[<-|[<-|[]]]]]]; eexists; reflexivity).
  assert (C0 : 0 <= confidence e) by (vm_compute; discriminate). assert (C1 : confidence e <= 1) by (vm_compute; discriminate).
  specialize (H e rng pop 1%nat _ _ _ F C0 C1 X Y).
  apply (f_equal (fun l => val (hd NaN l))) in H. cbn [hd val] in H. vm_compute in H. discriminate H.
Qed.
Print Assumptions c17_levels_refuted.
(** The bounds are not in order: at confidence 1/4 the reliability bin returns lower 3 and upper 1. *)
Theorem c17_order_refuted : ~ (forall e rng n ids p t b lo m hi w, (forall x, In x p -> is_fin x) -> (forall x, In x t -> is_fin x) ->
  0 <= confidence e -> confidence e <= 1 -> rel_boot_bin e rng n ids p t b = Ok ([lo; m; hi], w) -> in_order lo hi).
Proof.
  intros H. set (e := {| skip_nan := false; repeats := 5; confidence := Q2Qc (1 # 4) |}). set (rng := fun r _ : nat => r).
  set (pop := [Fin (qz 0); Fin (qz 1); Fin (qz 2); Fin (qz 3); Fin (qz 4)]).
  assert (Y : rel_boot_bin e rng 1 (repeat 0%Z 5) pop pop 0 = Ok ([Fin (qz 3); Fin (qz 2); Fin (qz 1)], [Fin (qz 3); Fin (qz 2); Fin (qz 1)])) by (vm_compute; repeat first [reflexivity | apply Qc_is_canon; reflexivity | f_equal]).
  assert (F : forall x, In x pop -> is_fin x) by (intros x [<-|[<-|[<-|[<-|[<-|[]]]]]]; eexists; reflexivity).
  assert (C0 : 0 <= confidence e) by (vm_compute; discriminate). assert (C1 : confidence e <= 1) by (vm_compute; discriminate).
  specialize (H e rng 1%nat _ _ _ _ _ _ _ _ F F C0 C1 Y).
  destruct H as [[C _]|(a & b & A & B & L)]; [discriminate C|].
  apply (f_equal val) in A. apply (f_equal val) in B. cbn [val] in A, B. rewrite <- A, <- B in L. vm_compute in L. apply L. reflexivity.
Qed.
Print Assumptions c17_order_refuted.
(** The positive theorems at work on the same data. *)
Example c17_nonvacuous : let e := {| skip_nan := true; repeats := 5; confidence := Q2Qc (9 # 10) |} in
  let pop := [Fin (qz 0); NaN; Fin (qz 2); Fin (qz 3); Fin (qz 4)] in
  (exists v, boot_vec e (fun r i => r * i)%nat pop 3 = Ok v /\ bounds_of v in_order) /\
  (exists v w, rel_boot_bin e (fun r i => r + i)%nat 3 (repeat 0%Z 5) pop pop 0 = Ok (v, w) /\ v <> [] /\ bounds_of v in_order) /\
  (exists v, func_brier e (Some 3%nat) (fun r i => r + i)%nat pop pop = Ok v).
Proof.
  cbv zeta. set (e := {| skip_nan := true; repeats := 5; confidence := Q2Qc (9 # 10) |}).
  set (pop := [Fin (qz 0); NaN; Fin (qz 2); Fin (qz 3); Fin (qz 4)]).
  assert (O : forall x, In x pop -> observed x) by (intros x [<-|[<-|[<-|[<-|[<-|[]]]]]]; first [apply obs_nan|apply obs_fin]).
  split; [|split].
  - destruct (boot_vec e (fun r i => (r * i)%nat) pop 3) as [v|] eqn:E; [|vm_compute in E; discriminate E].
    exists v. split; [reflexivity|]. apply (c17_averages_partial _ _ _ _ _ O) in E; [exact E|vm_compute; discriminate|vm_compute; discriminate].
  - destruct (rel_boot_bin e (fun r i => (r + i)%nat) 3 (repeat 0%Z 5) pop pop 0) as [[v w]|] eqn:E; [|vm_compute in E; discriminate E].
    exists v, w. split; [reflexivity|]. assert (V : v <> []).
    { intros ->. assert (X : match rel_boot_bin e (fun r i => (r + i)%nat) 3 (repeat 0%Z 5) pop pop 0 with Ok (v, _) => length v | _ => 0%nat end = 3%nat) by (vm_compute; reflexivity). rewrite E in X. discriminate X. }
    split; [exact V|]. destruct (c17_reliability_partial _ _ _ _ _ _ _ _ _ O O E) as [[C _]|[(lo & m & hi & -> & [B _]) _]]; [contradiction|].
    exists lo, m, hi. split; [reflexivity|]. apply B. vm_compute. discriminate.
  - destruct (func_brier e (Some 3%nat) (fun r i => (r + i)%nat) pop pop) as [v|] eqn:E; [exists v; reflexivity|vm_compute in E; discriminate E].
Qed.
