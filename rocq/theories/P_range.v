(** Averages and bootstrap triples stay within any range that contains the data, for every accepted
    spelling of the axes. *)
From Coq Require Import ZArith List Lia Bool Arith QArith Qcanon.
From Verif Require Import QcTac QSum Num NdArr Numpy M_common NdAxes M_boot Spec P_boot P_boot2.
Import ListNotations.
Open Scope nat_scope.

Lemma valid_nth_intro sh ix : length ix = length sh -> (forall j, j < length sh -> nth j ix 0 < nth j sh 0) -> valid sh ix.
Proof.
  revert ix. induction sh as [|s sh IH]; intros [|i ix] Hl H; cbn in Hl; try discriminate; [constructor|].
  constructor; [apply (H 0); cbn; lia|]. apply IH; [lia|]. intros j Hj. apply (H (S j)). cbn. lia.
Qed.
Lemma transpose_cells {A} p (a : arr A) ix : is_perm (length (shape a)) p -> valid (shape (transpose p a)) ix ->
  exists jx, valid (shape a) jx /\ get (transpose p a) ix = get a jx.
Proof.
  intros Hp Hv. exists (map (fun ax => nth (index_of ax p) ix 0) (seq 0 (length (shape a)))). split; [|reflexivity].
  apply valid_nth_intro; [rewrite map_length, seq_length; reflexivity|]. intros j Hj.
  rewrite nth_map_in by (rewrite seq_length; exact Hj). rewrite seq_nth by exact Hj. cbn [Nat.add].
  assert (Hin : In j p) by (apply (is_perm_in _ _ _ Hp); exact Hj).
  pose proof (index_of_lt _ _ Hin) as Hidx.
  assert (Hval : nth (index_of j p) ix 0 < nth (index_of j p) (shape (transpose p a)) 0).
  { clear - Hv Hidx. rewrite shape_transpose in *. rewrite <- (pick_length p (shape a)) in Hidx.
    revert Hidx. generalize (index_of j p). induction Hv as [|i n t r Hi Ht IH]; intros [|q] Hq; cbn in *; try lia. apply IH. lia. }
  rewrite shape_transpose in Hval. unfold pick in Hval. rewrite nth_map_in in Hval by exact Hidx. rewrite nth_index_of in Hval by exact Hin. exact Hval.
Qed.
Lemma moveaxis_cells {A} s d (a b : arr A) ix : moveaxis s d a = Ok b -> valid (shape b) ix -> exists jx, valid (shape a) jx /\ get b ix = get a jx.
Proof.
  unfold moveaxis. destruct (norm_axis (length (shape a)) s) as [s'|] eqn:Es; [|discriminate]. cbn [bind].
  destruct (norm_axis (length (shape a)) d) as [d'|] eqn:Ed; [|discriminate]. cbn [bind]. intros E. injection E as <-.
  apply transpose_cells. apply moveaxis_order_perm. apply norm_axis_ok in Es. apply Es.
Qed.
Lemma move_loop_cells {A} axes to (a b : arr A) t ix : move_loop axes to a = Ok (b, t) -> valid (shape b) ix ->
  exists jx, valid (shape a) jx /\ get b ix = get a jx.
Proof.
  revert to a. induction axes as [|ax axes IH]; intros to a H Hv; cbn [move_loop] in H.
  - injection H as <- <-. exists ix. auto.
  - destruct (if Z.eqb ax (Z.of_nat to) then Ok a else moveaxis ax (Z.of_nat to) a) as [a'|] eqn:E; [|discriminate]. cbn [bind] in H.
    destruct (IH _ _ H Hv) as (jx & Hj & ->). destruct (Z.eqb ax (Z.of_nat to)).
    + injection E as <-. exists jx. auto.
    + destruct (moveaxis_cells _ _ _ _ _ E Hj) as (kx & Hk & ->). exists kx. auto.
Qed.

Section Range.
  Variable P : num -> Prop.
  Variable e : boot_env.
  (** [P] holds of the data; the statistics preserve it. *)
  Lemma boot_arr_range rng a ax n r : boot_arr e rng a ax n = Ok r ->
    (forall rg pop v, (forall x, In x pop -> P x) -> boot_vec e rg pop n = Ok v -> length v = 3 /\ forall x, In x v -> P x) ->
    (forall ix, valid (shape a) ix -> P (get a ix)) ->
    forall ix, valid (shape r) ix -> P (get r ix).
  Proof.
    unfold boot_arr. set (axes := match ax with None => _ | Some l => l end). intros H Hstat Hdata ix Hv.
    destruct (move_loop (zsort axes) 0 a) as [[m t]|] eqn:Em; [|discriminate]. cbn [bind] in H.
    set (keep := skipn t (shape m)) in *. set (K := prod keep) in *. destruct K as [|K'] eqn:EK; [discriminate|].
    destruct (mapM _ _) as [cols|] eqn:Ec; [|discriminate]. cbn [bind] in H. injection H as <-.
    cbn [shape] in Hv. cbn [reshape get shape].
    pose proof (mapM_length _ _ _ Ec) as Hlen. rewrite seq_length in Hlen.
    change (valid (3 :: keep) ix) in Hv. pose proof (flat_lt _ _ Hv) as Hfl. cbn [prod] in Hfl. assert (HK : prod keep = S K') by exact EK. rewrite HK in Hfl.
    assert (Huv : valid [3; S K'] (unflat [3; S K'] (flat (3 :: keep) ix))) by (apply unflat_valid; cbn [prod]; lia).
    destruct (unflat [3; S K'] (flat (3 :: keep) ix)) as [|q [|c [|z u]]]; inversion Huv as [|q0 q3 t1 s1 Hq Ht1]; subst; inversion Ht1 as [|c0 cK t2 s2 Hc Ht2]; subst; [|inversion Ht2].
    pose proof (mapM_nth _ _ _ c 0 [] Ec) as Hn. rewrite seq_length, seq_nth in Hn by exact Hc. specialize (Hn Hc). cbn [Nat.add] in Hn.
    apply Hstat in Hn.
    - destruct Hn as [Hl Hn]. apply Hn. apply nth_In. lia.
    - intros x Hx. apply in_map_iff in Hx as (row & <- & Hrow). apply in_seq in Hrow. cbn [reshape get].
      destruct (move_loop_cells _ _ _ _ _ (unflat (shape m) (flat [prod (shape m) / S K'; S K'] [row; c])) Em) as (jx & Hj & ->); [|apply Hdata, Hj].
      apply unflat_valid. cbn [flat prod]. pose proof (Nat.mul_div_le (prod (shape m)) (S K')). nia.
  Qed.
End Range.
Lemma boot_vec_inside e rng pop n v a b : 0 < n -> (forall x, In x pop -> inside a b x) -> boot_vec e rng pop n = Ok v ->
  length v = 3 /\ forall x, In x v -> inside a b x.
Proof.
  intros Hn Hpop Hv. destruct (boot_vec_resamples _ _ _ _ _ Hv) as (rs & [Hlen Hrs] & lo & hi & Elo & Ehi & ->).
  assert (W : forall x, In x (map (stat_of e) rs) -> inside a b x).
  { intros x Hx. apply in_map_iff in Hx as (s & <- & Hs). destruct (Hrs s Hs) as [Hsl Hsin].
    apply stat_inside; [destruct s; [cbn in Hsl; lia|discriminate]|]. intros y Hy. apply Hpop, Hsin, Hy. }
  assert (Hne : map (stat_of e) rs <> []).
  { intros E. rewrite E in Elo. unfold np_quantile in Elo. destruct (negb _); discriminate. }
  split; [reflexivity|]. intros x [<-|[<-|[<-|[]]]]; [eapply quantile_inside|apply nmean_inside|eapply quantile_inside]; eassumption.
Qed.
Lemma boot_or_avg_within e rng ax bs a r lo hi : boot_or_avg e rng ax bs a = Ok r ->
  (forall ix, valid (shape a) ix -> within lo hi (get a ix)) -> forall ix, valid (shape r) ix -> within lo hi (get r ix).
Proof.
  intros H Hd ix Hv. destruct bs as [n|]; cbn [boot_or_avg] in H.
  - apply (boot_arr_range (within lo hi) e rng a ax n r H); [|exact Hd|exact Hv].
    intros rg pop v Hp Hb. destruct (boot_vec_within _ _ _ _ _ _ _ Hp Hb) as (x & y & z & -> & W1 & W2 & W3).
    split; [reflexivity|]. intros w [<-|[<-|[<-|[]]]]; assumption.
  - assert (G : exists m, r = reduce (if skip_nan e then nanmean else nmean) m a).
    { unfold np_nanmean, np_mean in H. destruct (np_axes (length (shape a)) ax) as [m|]; [|destruct (skip_nan e); discriminate].
      exists m. destruct (skip_nan e); injection H as <-; reflexivity. }
    destruct G as (m & ->). cbn [reduce get].
    assert (W : forall x, In x (map (get a) (group (shape a) m ix)) -> within lo hi x).
    { intros x Hx. apply in_map_iff in Hx as (jx & <- & Hj). apply in_group in Hj as [Hj _]. apply Hd, Hj. }
    destruct (skip_nan e); [apply nanmean_within|apply nmean_within]; exact W.
Qed.
Lemma prod_pos sh : (forall x, In x sh -> 0 < x) -> 0 < prod sh.
Proof. induction sh as [|s sh IH]; intros H; cbn [prod]; [lia|]. pose proof (H s (or_introl eq_refl)). assert (0 < prod sh) by (apply IH; intros x Hx; apply H; right; exact Hx). nia. Qed.
Lemma in_sel {A} m (l : list A) x : In x (sel m l) -> In x l.
Proof. revert l. induction m as [|b m IH]; intros [|y l] H; cbn in *; try tauto. destruct b; [destruct H as [<-|H]; [auto|]|]; right; apply IH, H. Qed.
Lemma boot_or_avg_inside e rng ax bs a r lo hi : boot_or_avg e rng ax bs a = Ok r ->
  (forall x, In x (shape a) -> 0 < x) -> (forall n, bs = Some n -> 0 < n) ->
  (forall ix, valid (shape a) ix -> inside lo hi (get a ix)) -> forall ix, valid (shape r) ix -> inside lo hi (get r ix).
Proof.
  intros H Hpos Hn Hd ix Hv. destruct bs as [n|]; cbn [boot_or_avg] in H.
  - apply (boot_arr_range (inside lo hi) e rng a ax n r H); [|exact Hd|exact Hv].
    intros rg pop v Hp Hb. eapply boot_vec_inside; [apply Hn; reflexivity|exact Hp|exact Hb].
  - assert (G : exists m, length m = length (shape a) /\ r = reduce (if skip_nan e then nanmean else nmean) m a).
    { unfold np_nanmean, np_mean in H. destruct (np_axes (length (shape a)) ax) as [m|] eqn:E; [|destruct (skip_nan e); discriminate].
      exists m. split; [|destruct (skip_nan e); injection H as <-; reflexivity].
      unfold np_axes in E. destruct ax as [l|]; [|injection E as <-; apply repeat_length].
      destruct (mapM _ l) as [ns|]; [|discriminate]. cbn [bind] in E. destruct (nodupb ns); [|discriminate]. injection E as <-. apply mask_of_length. }
    destruct G as (m & Hm & ->). cbn [reduce get shape] in *.

    cut (inside lo hi (stat_of e (map (get a) (group (shape a) m ix)))); [unfold stat_of; destruct (skip_nan e); exact (fun h => h)|].
    apply stat_inside.
    + intros E. apply map_eq_nil in E. revert E. apply group_nonempty; [exact Hm|exact Hv|].
      apply prod_pos. intros x Hx. apply Hpos. eapply in_sel, Hx.
    + intros x Hx. apply in_map_iff in Hx as (jx & <- & Hj). apply in_group in Hj as [Hj _]. apply Hd, Hj.
Qed.
