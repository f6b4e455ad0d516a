(** Bounds of bootstrap intervals; relations between error metrics. *)
From Coq Require Import ZArith List Lia Bool Arith Permutation Sorted QArith Qcanon.
From Verif Require Import QcTac QSum Num NdArr Numpy M_common NdAxes M_boot M_determ Spec P_boot.
Import ListNotations.
Open Scope Qc_scope.

(** NaN or a finite value in [a,b] *)
Definition within (a b : Qc) (x : num) : Prop := x = NaN \/ exists q, x = Fin q /\ a <= q /\ q <= b.
Definition inside (a b : Qc) (x : num) : Prop := exists q, x = Fin q /\ a <= q /\ q <= b.

Lemma inside_list a b l : (forall x, In x l -> inside a b x) -> exists xs, l = map Fin xs /\ forall q, In q xs -> a <= q /\ q <= b.
Proof.
  induction l as [|x r IH]; intros H.
  - exists []. split; [reflexivity|intros q []].
  - destruct IH as (xs & -> & Hxs); [intros y Hy; apply H; right; exact Hy|].
    destruct (H x (or_introl eq_refl)) as (q & -> & Hq). exists (q :: xs). split; [reflexivity|].
    intros p [<-|Hp]; [exact Hq|apply Hxs, Hp].
Qed.
Lemma within_cases a b l : (forall x, In x l -> within a b x) -> In NaN l \/ (forall x, In x l -> inside a b x).
Proof.
  induction l as [|x r IH]; intros H; [right; intros y []|].
  destruct (H x (or_introl eq_refl)) as [->|Hx]; [left; left; reflexivity|].
  destruct IH as [IH|IH]; [intros y Hy; apply H; right; exact Hy|left; right; exact IH|].
  right. intros y [<-|Hy]; [exact Hx|apply IH, Hy].
Qed.
Lemma nmean_inside a b l : l <> [] -> (forall x, In x l -> inside a b x) -> inside a b (nmean l).
Proof.
  intros Hl H. destruct (inside_list a b l H) as (xs & -> & Hxs).
  assert (Hx : xs <> []) by (intros ->; apply Hl; reflexivity).
  rewrite nmean_fin by exact Hx. eexists. split; [reflexivity|].
  split; [apply qmean_ge|apply qmean_le]; try exact Hx; intros q Hq; apply Hxs, Hq.
Qed.
Lemma nmean_within a b l : (forall x, In x l -> within a b x) -> within a b (nmean l).
Proof.
  intros H. destruct (within_cases a b l H) as [N|I]; [left; apply nmean_nan, N|].
  destruct l as [|x r]; [left; reflexivity|]. right. apply nmean_inside; [discriminate|exact I].
Qed.
Lemma nanmean_within a b l : (forall x, In x l -> within a b x) -> within a b (nanmean l).
Proof. intros H. apply nmean_within. intros x Hx. apply filter_In in Hx as [Hx _]. apply H, Hx. Qed.
Lemma stat_within e a b l : (forall x, In x l -> within a b x) -> within a b (stat_of e l).
Proof. unfold stat_of. destruct (skip_nan e); [apply nanmean_within|apply nmean_within]. Qed.
Lemma stat_inside e a b l : l <> [] -> (forall x, In x l -> inside a b x) -> inside a b (stat_of e l).
Proof.
  intros Hl H. unfold stat_of. destruct (skip_nan e); [|apply nmean_inside; assumption].
  destruct (inside_list a b l H) as (xs & -> & Hxs). unfold nanmean. rewrite filter_nan_fin. apply nmean_inside; assumption.
Qed.
Lemma quantile_inside a b l p v : l <> [] -> (forall x, In x l -> inside a b x) -> np_quantile l p = Ok v -> inside a b v.
Proof.
  intros Hl H Hq. assert (Hp : 0 <= p /\ p <= 1).
  { unfold np_quantile in Hq. destruct (qleb_spec 0 p); destruct (qleb_spec p 1); cbn in Hq; try discriminate. split; assumption. }
  destruct (inside_list a b l H) as (xs & -> & Hxs). assert (Hx : xs <> []) by (intros ->; apply Hl; reflexivity).
  rewrite np_quantile_fin in Hq by tauto. injection Hq as <-. eexists. split; [reflexivity|].
  split; [apply qquant_ge|apply qquant_le]; try tauto; intros q Hq'; apply Hxs, Hq'.
Qed.
Lemma quantile_within a b l p v : (forall x, In x l -> within a b x) -> np_quantile l p = Ok v -> within a b v.
Proof.
  intros H Hq. assert (Hp : 0 <= p /\ p <= 1).
  { unfold np_quantile in Hq. destruct (qleb_spec 0 p); destruct (qleb_spec p 1); cbn in Hq; try discriminate. split; assumption. }
  destruct (within_cases a b l H) as [N|I].
  - rewrite np_quantile_nan in Hq by tauto. injection Hq as <-. left. reflexivity.
  - right. destruct l as [|x r]; [unfold np_quantile in Hq; destruct (negb _); discriminate|].
    eapply quantile_inside; [|exact I|exact Hq]. discriminate.
Qed.
(** a triple whose levels are ordered is ordered, when finite *)
Lemma triple_bounds a b l lv hv v : 0 <= lv -> lv <= hv -> hv <= 1 -> l <> [] ->
  (forall x, In x l -> inside a b x) -> triple_of np_quantile lv hv l v ->
  exists lo m hi, v = [Fin lo; Fin m; Fin hi] /\ a <= lo /\ lo <= hi /\ hi <= b /\ a <= m /\ m <= b.
Proof.
  intros H0 H12 H1 Hl H (lo & hi & Elo & Ehi & ->).
  destruct (nmean_inside a b l Hl H) as (m & Em & Hm1 & Hm2).
  destruct (inside_list a b l H) as (xs & -> & Hxs). assert (Hx : xs <> []) by (intros ->; apply Hl; reflexivity).
  rewrite np_quantile_fin in Elo, Ehi by (try assumption; try qlra). injection Elo as <-. injection Ehi as <-.
  exists (qquant xs lv), m, (qquant xs hv). rewrite Em. split; [reflexivity|].
  repeat split; try assumption.
  - apply qquant_ge; [exact Hx| |exact H0|qlra]. intros q Hq; apply Hxs, Hq.
  - apply qquant_mono; assumption.
  - apply qquant_le; [exact Hx| |qlra|exact H1]. intros q Hq; apply Hxs, Hq.
Qed.
Lemma half_levels c : 0 <= c -> c <= 1 ->
  0 <= (1 - c) / qz 2 /\ (1 - c) / qz 2 <= 1 - (1 - c) / qz 2 /\ 1 - (1 - c) / qz 2 <= 1.
Proof.
  intros H0 H1. assert (E : (1 - c) / qz 2 = (1 - c) * Q2Qc (1 # 2)) by reflexivity. rewrite E.
  assert (E2 : this (Q2Qc (1 # 2)) == 1 # 2) by reflexivity. repeat split; qnra.
Qed.

Lemma boot_vec_bounds e rng pop n v a b :
  0 <= confidence e -> confidence e <= 1 -> (0 < n)%nat -> (0 < repeats e)%nat ->
  (forall x, In x pop -> inside a b x) -> boot_vec e rng pop n = Ok v ->
  exists lo m hi, v = [Fin lo; Fin m; Fin hi] /\ a <= lo /\ lo <= hi /\ hi <= b /\ a <= m /\ m <= b.
Proof.
  intros H0 H1 Hn Hr Hpop Hv. destruct (boot_vec_resamples _ _ _ _ _ Hv) as (rs & [Hlen Hrs] & Ht).
  destruct (half_levels _ H0 H1) as (L0 & L1 & L2).
  eapply triple_bounds; [exact L0|exact L1|exact L2| | |exact Ht].
  - destruct rs; [cbn in Hlen; lia|discriminate].
  - intros x Hx. apply in_map_iff in Hx as (s & <- & Hs). destruct (Hrs s Hs) as [Hsl Hsin].
    apply stat_inside; [intros ->; cbn in Hsl; lia|]. intros y Hy. apply Hpop, Hsin, Hy.
Qed.
Lemma boot_vec_within e rng pop n v a b :
  (forall x, In x pop -> within a b x) -> boot_vec e rng pop n = Ok v ->
  exists lo m hi, v = [lo; m; hi] /\ within a b lo /\ within a b m /\ within a b hi.
Proof.
  intros Hpop Hv. destruct (boot_vec_resamples _ _ _ _ _ Hv) as (rs & [Hlen Hrs] & lo & hi & Elo & Ehi & ->).
  assert (W : forall x, In x (map (stat_of e) rs) -> within a b x).
  { intros x Hx. apply in_map_iff in Hx as (s & <- & Hs). destruct (Hrs s Hs) as [Hsl Hsin].
    apply stat_within. intros y Hy. apply Hpop, Hsin, Hy. }
  exists lo, (nmean (map (stat_of e) rs)), hi. split; [reflexivity|].
  split; [eapply quantile_within; eassumption|]. split; [apply nmean_within, W|eapply quantile_within; eassumption].
Qed.
Lemma boot_vec_defined e rng pop n :
  0 <= confidence e -> confidence e <= 1 -> (0 < repeats e)%nat -> pop <> [] -> exists v, boot_vec e rng pop n = Ok v.
Proof.
  intros H0 H1 Hr Hp. unfold boot_vec.
  assert (M : exists means, boot_means e rng pop n = Ok means /\ length means = repeats e).
  { unfold boot_means. destruct pop as [|d pop]; [contradiction|]. 
    rewrite (mapM_ok _ (fun r => stat_of e (map (fun j => nth (rng r j mod length (d :: pop)) (d :: pop) d) (seq 0 n)))).
    - eexists. split; [reflexivity|]. rewrite map_length. apply seq_length.
    - intros r _. reflexivity. }
  destruct M as (means & -> & Hlen). cbn [bind].
  destruct (half_levels _ H0 H1) as (L0 & L1 & L2).
  assert (Q : forall p, 0 <= p -> p <= 1 -> exists q, np_quantile means p = Ok q).
  { intros p P0 P1. unfold np_quantile. destruct (qleb_spec 0 p); [|exfalso; qlra]. destruct (qleb_spec p 1); [|exfalso; qlra].
    cbn [andb negb]. destruct means; [cbn in Hlen; lia|]. destruct (existsb _ _); eexists; reflexivity. }
  destruct (Q _ L0) as (lo & ->); [qlra|]. cbn [bind]. destruct (Q (1 - (1 - confidence e) / qz 2)) as (hi & ->); [qlra|exact L2|].
  cbn [bind]. eexists. reflexivity.
Qed.

(** *** error metrics *)
Lemma mean_abs_ge_abs_mean xs : qabs (qmean xs) <= qmean (map qabs xs).
Proof.
  unfold qmean. rewrite map_length.
  assert (S : qabs (qsum xs) <= qsum (map qabs xs)).
  { induction xs as [|x r IH]; cbn [map qsum]; [apply Qcle_refl|].
    eapply Qcle_trans; [apply qabs_triangle|]. qlra. }
  destruct xs as [|x r]; [cbn; apply Qcle_refl|].
  assert (P : 0 < qn (length (x :: r))) by (apply qn_pos; cbn; lia).
  apply Qcle_div_iff; [exact P|]. rewrite <- (qabs_pos_id (qn (length (x :: r)))) at 2 by (apply Qclt_le_weak, P).
  rewrite <- qabs_mult. replace (qsum (x :: r) / qn (length (x :: r)) * qn (length (x :: r))) with (qsum (x :: r)); [exact S|].
  field. apply qn_neq0. cbn. lia.
Qed.
