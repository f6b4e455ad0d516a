(** Property C79: the reliability diagram with bootstrap. *)
From Coq Require Import ZArith List Lia Bool Arith Permutation Sorted QArith Qcanon.
From Verif Require Import QcTac QSum Num NdArr Numpy M_common NdAxes M_boot Spec Spec_prob P_boot M_rel Spec_rel P_rel P_ss Props_rel Spec_relboot P_relboot.
From Verif Require P_special.
Import ListNotations.
Open Scope Qc_scope.

Lemma mean_fin e (g : list nat -> Qc) s : s <> [] -> mean_of_env e (map (fun ix => Fin (g ix)) s) = Fin (mean_of (map g s)).
Proof.
  intros H. rewrite <- (map_map g Fin). assert (N : map g s <> []) by (intros C; apply H; eapply map_eq_nil, C).
  rewrite <- qmean_mean_of. unfold mean_of_env. destruct (skip_nan e); [apply nanmean_fin, N|apply nmean_fin, N].
Qed.
Lemma bins_of_unique bin L b1 b2 : bins_of bin L b1 -> bins_of bin L b2 -> b1 = b2.
Proof. intros [S1 I1] [S2 I2]. apply sorted_nat_unique; [exact S1|exact S2|]. intros x. rewrite I1, I2. reflexivity. Qed.
Section Setting.
  Variables (f o : arr num) (nb : nat) (ax : option (list Z)) (ns : list nat) (p y : list nat -> Qc) (bin : list nat -> nat).
  Variables (e : boot_env) (rng : nat -> nat -> nat -> nat -> nat) (n : nat).
  Let nd := length (shape o).
  Hypotheses (Hnb : (0 < nb)%nat) (Hn : (0 < n)%nat) (Hsh : shape f = shape o) (Hax : axes_are nd ax ns) (Hss : same_sign ax)
    (HK : prod (kept nd ns (shape o)) <> 0%nat) (Hg : good_data f o p y) (Hbin : forall ix, Forall2 lt ix (shape o) -> rel_bin nb (p ix) (bin ix))
    (H0 : 0 <= confidence e) (H1 : confidence e <= 1) (Hr : (0 < repeats e)%nat).
  Definition curve_of (L : list (list nat)) (fp op : list (list num)) (pc oc : list nat) : Prop :=
    exists bs, bins_of bin L bs /\ length fp = length bs /\ length op = length bs /\
    (forall j, (j < length bs)%nat -> exists rs, resamples_of (filter (fun ix => Nat.eqb (bin ix) (nth j bs 0%nat)) L) n (repeats e) rs /\
       triple_of np_quantile (1 - confidence e) (confidence e) (map (fun s => Fin (mean_of (map p s))) rs) (nth j fp []) /\
       triple_of np_quantile (1 - confidence e) (confidence e) (map (fun s => Fin (mean_of (map y s))) rs) (nth j op [])) /\
    pc = map (fun b => how_many (fun ix => Nat.eqb (bin ix) b) L) bs /\
    oc = filter (fun c => negb (Nat.eqb c 0)) [how_many (fun ix => qeqb (y ix) 0) L; how_many (fun ix => qeqb (y ix) 1) L].
  Lemma setting : exists keep sl, kept nd ns (shape o) = keep /\
    (forall k L, valid keep k -> Cells (shape o) ns k L -> curve_of L (fst (fst (fst (sl k)))) (snd (fst (fst (sl k)))) (map snd (snd (fst (sl k)))) (map snd (snd (sl k))) /\
       (forall t, In t (fst (fst (fst (sl k)))) -> length t = 3%nat) /\ (forall t, In t (snd (fst (fst (sl k)))) -> length t = 3%nat)) /\
    reliability_boot e rng n f o nb ax = match keep with
    | [] => let '(p, t, pc, tc) := sl [] in Ok (BSingle p t pc tc)
    | _ => p <- stack3 keep (map (fun k => fst (fst (fst (sl k)))) (indices keep)) ;; t <- stack3 keep (map (fun k => snd (fst (fst (sl k)))) (indices keep)) ;;
           Ok (BMany p t (stack 0%nat keep (map (fun k => map snd (snd (fst (sl k)))) (indices keep))) (stack 0%nat keep (map (fun k => map snd (snd (sl k))) (indices keep))))
    end.
  Proof.
    destruct (same_sign_spelling _ _ _ Hax Hss) as (ns' & P & Hsp). pose proof HK as HK'.
    rewrite (kept_perm nd ns ns' (shape o) P) in HK' |- *. rewrite (kept_unsel nd) in HK' |- * by reflexivity. set (m := mask_of nd ns') in *. set (keep := unsel m (shape o)) in *.
    set (G := fun k => group (shape o) m k).
    assert (HG : forall k ix, In ix (G k) -> Forall2 lt ix (shape o)) by (intros k ix Hi; apply in_group in Hi; apply Hi).
    set (ev := fun ix => if qeqb (y ix) 1 then 1%nat else 0%nat).
    set (sl := fun k => match rel_boot_slice e (rng (flat keep k)) n (map (fun ix => bin_id nb (get f ix)) (G k)) (map (get f) (G k)) (map (get o) (G k)) (rel_bins nb) with
                        | Ok s => s | Raise _ => ([], [], [], []) end).
    assert (S : forall k, rel_boot_slice e (rng (flat keep k)) n (map (fun ix => bin_id nb (get f ix)) (G k)) (map (get f) (G k)) (map (get o) (G k)) (rel_bins nb) = Ok (sl k) /\
                slice_result e n nb (G k) (get f) (get o) (map to_int (map (get o) (G k))) bin (sl k)).
    { intros k. destruct (boot_slice_spec e (rng (flat keep k)) n nb (G k) (get f) (get o) bin H0 H1 Hr) as (r & Er & Sr); [intros ix Hi; apply HG in Hi; apply (Hbin ix Hi)|].
      assert (B : map (fun ix => bin_id nb (get f ix)) (G k) = map (fun ix => Z.of_nat (bin ix)) (G k)).
      { apply map_ext_in. intros ix Hi. apply HG in Hi. destruct (Hg ix Hi) as (-> & _). unfold bin_id. rewrite (rel_bin_digitize nb (p ix) (bin ix)) by apply (Hbin ix Hi). lia. }
      unfold sl. rewrite B, Er. auto. }
    exists keep, sl. split; [reflexivity|]. split.
    - intros k L Hk HL. destruct (S k) as [_ (pts & E1 & E2 & Hp & E3 & E4)].
      assert (HC : Permutation (G k) L).
      { apply Cells_perm. destruct HL as [A B]. split; [exact A|]. intros ix. rewrite B. fold nd. rewrite (kept_perm nd ns ns' ix P). reflexivity. }
      assert (PF : forall g : list nat -> bool, Permutation (filter g (G k)) (filter g L)) by (intros g; apply P_special.perm_filter, HC).
      assert (BO : bins_of bin L (occupied (G k) bin nb)).
      { split; [apply occupied_sorted|]. intros b. rewrite in_occupied. split.
        - intros (_ & Hne). destruct (cells_of (G k) bin b) as [|ix c] eqn:Ec; [contradiction|]. assert (Q : In ix (cells_of (G k) bin b)) by (rewrite Ec; left; reflexivity). apply in_cells in Q as [Q1 Q2].
          exists ix. split; [eapply Permutation_in; eassumption|exact Q2].
        - intros (ix & Hi & Eb). apply (Permutation_in _ (Permutation_sym HC)) in Hi. split; [subst b; apply HG in Hi; apply (Hbin ix Hi)|].
          intros C. assert (Q : In ix (cells_of (G k) bin b)) by (apply in_cells; auto). rewrite C in Q. exact Q. }
      split; [|split].
      + exists (occupied (G k) bin nb). split; [exact BO|]. rewrite E1, E2, !map_length. split; [reflexivity|]. split; [reflexivity|]. split; [|split].
        * intros j Hj. set (b := nth j (occupied (G k) bin nb) 0%nat). assert (Hb : In b (occupied (G k) bin nb)) by (apply nth_In, Hj).
          destruct (Hp b Hb) as (rs & [R1 R2] & T1 & T2 & _). exists rs. split.
          { split; [exact R1|]. intros s Hs. destruct (R2 s Hs) as [R3 R4]. split; [exact R3|]. intros ix Hx. apply R4 in Hx. eapply Permutation_in; [apply PF|exact Hx]. }
          assert (Nt : forall g : nat -> list num, nth j (map g (occupied (G k) bin nb)) [] = g b).
          { intros g. rewrite (nth_indep _ [] (g 0%nat)) by (rewrite map_length; exact Hj). apply map_nth. }
          rewrite !Nt.
          assert (Mf : forall (a : arr num) (g : list nat -> Qc), (forall ix, Forall2 lt ix (shape o) -> get a ix = Fin (g ix)) ->
                  map (fun s => mean_of_env e (map (get a) s)) rs = map (fun s => Fin (mean_of (map g s))) rs).
          { intros a g Ha. apply map_ext_in. intros s Hs. destruct (R2 s Hs) as [R3 R4]. rewrite <- (mean_fin e).
            - f_equal. apply map_ext_in. intros ix Hx. apply Ha. apply R4, in_cells in Hx as [Hx _]. apply (HG k), Hx.
            - intros C. subst s. cbn in R3. lia. }
          rewrite <- (Mf f p), <- (Mf o y) by (intros ix Hi; apply (Hg ix Hi)). split; [exact T1|exact T2].
        * rewrite E3, map_map. apply map_ext. intros b. apply Permutation_length, PF.
        * rewrite E4. assert (EV : map to_int (map (get o) (G k)) = map (fun ix => Z.of_nat (ev ix)) (G k)).
          { rewrite map_map. apply map_ext_in. intros ix Hi. apply HG in Hi. destruct (Hg ix Hi) as (_ & _ & _ & -> & [Ey | Ey]); unfold ev; rewrite Ey; reflexivity. }
          rewrite EV, (value_counts_spec (G k) ev 2) by (intros ix _; unfold ev; destruct (qeqb (y ix) 1); lia). rewrite map_map. unfold occupied. cbn [seq filter].
          assert (C0 : length (cells_of (G k) ev 0) = how_many (fun ix => qeqb (y ix) 0) L).
          { unfold how_many. rewrite <- (Permutation_length (PF _)). unfold cells_of. f_equal. apply filter_ext_in'. intros ix Hi. apply HG in Hi. unfold ev. destruct (Hg ix Hi) as (_ & _ & _ & _ & [-> | ->]); reflexivity. }
          assert (C1 : length (cells_of (G k) ev 1) = how_many (fun ix => qeqb (y ix) 1) L).
          { unfold how_many. rewrite <- (Permutation_length (PF _)). unfold cells_of. f_equal. apply filter_ext_in'. intros ix Hi. apply HG in Hi. unfold ev. destruct (Hg ix Hi) as (_ & _ & _ & _ & [-> | ->]); reflexivity. }
          rewrite C0, C1. destruct (negb (how_many (fun ix => qeqb (y ix) 0) L =? 0)%nat), (negb (how_many (fun ix => qeqb (y ix) 1) L =? 0)%nat); cbn [map snd]; rewrite ?C0, ?C1; reflexivity.
      + intros t Ht. rewrite E1 in Ht. apply in_map_iff in Ht as (b & <- & Hb). destruct (Hp b Hb) as (rs & _ & _ & _ & L1 & _). exact L1.
      + intros t Ht. rewrite E2 in Ht. apply in_map_iff in Ht as (b & <- & Hb). destruct (Hp b Hb) as (rs & _ & _ & _ & _ & L2). exact L2.
    - destruct (boot_slices f o nb ax ns' Hsh Hsp HK' e rng n sl) as (f2 & o2 & E & B); [intros k _; apply S|]. unfold reliability_boot. rewrite E. cbn [bind]. exact B.
  Qed.
End Setting.

(** ** C79 *)
(** When all slices occupy the same number M of bins, the curve of every slice has one point per occupied bin, in the
    order of the bins; every point is the (quantile, mean, quantile) triple of the bin means of [repeats] resamples
    of n samples drawn from that very bin, the same resamples serving the forecast and the observed frequency. *)
Theorem c79_values : forall f o nb ax ns p y (bin : list nat -> nat) e rng n M, (0 < nb)%nat -> (0 < n)%nat -> shape f = shape o ->
  axes_are (length (shape o)) ax ns -> same_sign ax -> prod (kept (length (shape o)) ns (shape o)) <> 0%nat ->
  good_data f o p y -> (forall ix, Forall2 lt ix (shape o) -> rel_bin nb (p ix) (bin ix)) ->
  0 <= confidence e -> confidence e <= 1 -> (0 < repeats e)%nat ->
  (forall k L bs, Forall2 lt k (kept (length (shape o)) ns (shape o)) -> Cells (shape o) ns k L -> bins_of bin L bs -> length bs = M) ->
  exists out, reliability_boot e rng n f o nb ax = Ok out /\
  forall k L, Forall2 lt k (kept (length (shape o)) ns (shape o)) -> Cells (shape o) ns k L ->
  exists bs, bins_of bin L bs /\ length (boot_forecast_points out k) = M /\ length (boot_observed_points out k) = M /\ length bs = M /\
  (forall j, (j < M)%nat -> exists rs, resamples_of (filter (fun ix => Nat.eqb (bin ix) (nth j bs 0%nat)) L) n (repeats e) rs /\
     triple_of np_quantile (1 - confidence e) (confidence e) (map (fun s => Fin (mean_of (map p s))) rs) (nth j (boot_forecast_points out k) []) /\
     triple_of np_quantile (1 - confidence e) (confidence e) (map (fun s => Fin (mean_of (map y s))) rs) (nth j (boot_observed_points out k) [])) /\
  boot_point_counts out k = map (fun b => how_many (fun ix => Nat.eqb (bin ix) b) L) bs /\
  boot_outcome_counts out k = filter (fun c => negb (Nat.eqb c 0)) [how_many (fun ix => qeqb (y ix) 0) L; how_many (fun ix => qeqb (y ix) 1) L].
Proof.
  intros f o nb ax ns p y bin e rng n M Hnb Hn Hsh Hax Hss HK Hg Hbin H0 H1 Hr HM.
  destruct (setting f o nb ax ns p y bin e rng n Hnb Hn Hsh Hax Hss HK Hg Hbin H0 H1 Hr) as (keep & sl & Ek & Hsl & E). rewrite Ek in *. clear Ek.
  assert (Fin0 : forall k L fp op pc oc, valid keep k -> Cells (shape o) ns k L -> curve_of p y bin e n L fp op pc oc ->
    exists bs, bins_of bin L bs /\ length fp = M /\ length op = M /\ length bs = M /\
    (forall j, (j < M)%nat -> exists rs, resamples_of (filter (fun ix => Nat.eqb (bin ix) (nth j bs 0%nat)) L) n (repeats e) rs /\
     triple_of np_quantile (1 - confidence e) (confidence e) (map (fun s => Fin (mean_of (map p s))) rs) (nth j fp []) /\
     triple_of np_quantile (1 - confidence e) (confidence e) (map (fun s => Fin (mean_of (map y s))) rs) (nth j op [])) /\
    pc = map (fun b => how_many (fun ix => Nat.eqb (bin ix) b) L) bs /\
    oc = filter (fun c => negb (Nat.eqb c 0)) [how_many (fun ix => qeqb (y ix) 0) L; how_many (fun ix => qeqb (y ix) 1) L]).
  { intros k L fp op pc oc Hk HL (bs & B & L1 & L2 & T & P1 & P2). pose proof (HM k L bs Hk HL B) as EM. exists bs. rewrite L1, L2, EM. rewrite EM in T. auto 10. }
  assert (LM : forall k, valid keep k -> length (fst (fst (fst (sl k)))) = M /\ length (snd (fst (fst (sl k)))) = M).
  { intros k Hk. pose proof (group_Cells (shape o) ns k) as HC. destruct (Hsl k _ Hk HC) as [C _]. destruct (Fin0 _ _ _ _ _ _ Hk HC C) as (bs & _ & A & B & _). auto. }
  destruct keep as [|K0 keep'] eqn:Ekeep.
  - destruct (sl []) as [[[fp op] pc] oc] eqn:Es. exists (BSingle fp op pc oc). split; [exact E|]. intros k L Hk HL. inversion Hk; subst k. destruct (Hsl [] L Hk HL) as [C _]. rewrite Es in C. cbn [fst snd] in C.
    exact (Fin0 [] L _ _ _ _ Hk HL C).
  - rewrite <- Ekeep in *.
    assert (LL : forall B (g : list nat -> B), length (map g (indices keep)) = prod keep) by (intros B g; rewrite map_length; apply indices_length).
    destruct (stack3_ok keep (map (fun k => fst (fst (fst (sl k)))) (indices keep)) M (LL _ _) HK) as (pa & Ep & Sp & Gp).
    { intros l Hl. apply in_map_iff in Hl as (k & <- & Hk). apply in_indices in Hk. split; [apply LM, Hk|]. apply (Hsl k _ Hk (group_Cells (shape o) ns k)). }
    destruct (stack3_ok keep (map (fun k => snd (fst (fst (sl k)))) (indices keep)) M (LL _ _) HK) as (ta & Et & St & Gt).
    { intros l Hl. apply in_map_iff in Hl as (k & <- & Hk). apply in_indices in Hk. split; [apply LM, Hk|]. apply (Hsl k _ Hk (group_Cells (shape o) ns k)). }
    assert (E' : reliability_boot e rng n f o nb ax = Ok (BMany pa ta (stack 0%nat keep (map (fun k => map snd (snd (fst (sl k)))) (indices keep))) (stack 0%nat keep (map (fun k => map snd (snd (sl k))) (indices keep))))).
    { rewrite E. destruct keep; [discriminate|]. rewrite Ep. cbn [bind]. rewrite Et. reflexivity. }
    eexists. split; [exact E'|]. intros k L Hk HL. destruct (Hsl k L Hk HL) as [C _].
    assert (Nt : forall B (g : list nat -> list B), nth (flat keep k) (map g (indices keep)) [] = g k).
    { intros B g. rewrite (nth_indep _ [] (g [])) by (rewrite LL; apply flat_lt, Hk). rewrite (map_nth g), nth_indices by exact Hk. reflexivity. }
    cbn [boot_forecast_points boot_observed_points boot_point_counts boot_outcome_counts]. unfold triples. rewrite Sp, St.
    assert (Ln : nth (length k) (keep ++ [M; 3%nat]) 0%nat = M) by (rewrite (Forall2_len _ _ _ Hk), app_nth2, Nat.sub_diag by lia; reflexivity). rewrite Ln.
    rewrite (Gp k Hk), (Gt k Hk). rewrite !row_stack by (try exact Hk; apply LL). rewrite !Nt. exact (Fin0 k L _ _ _ _ Hk HL C).
Qed.
Print Assumptions c79_values.
(** with kept axes, slices that occupy different numbers of bins cannot be put into one array: an error *)
Theorem c79_ragged : forall f o nb ax ns p y (bin : list nat -> nat) e rng n k1 L1 b1 k2 L2 b2, (0 < nb)%nat -> (0 < n)%nat -> shape f = shape o ->
  axes_are (length (shape o)) ax ns -> same_sign ax -> prod (kept (length (shape o)) ns (shape o)) <> 0%nat ->
  good_data f o p y -> (forall ix, Forall2 lt ix (shape o) -> rel_bin nb (p ix) (bin ix)) ->
  0 <= confidence e -> confidence e <= 1 -> (0 < repeats e)%nat ->
  Forall2 lt k1 (kept (length (shape o)) ns (shape o)) -> Cells (shape o) ns k1 L1 -> bins_of bin L1 b1 ->
  Forall2 lt k2 (kept (length (shape o)) ns (shape o)) -> Cells (shape o) ns k2 L2 -> bins_of bin L2 b2 -> length b1 <> length b2 ->
  reliability_boot e rng n f o nb ax = Raise ValueError.
Proof.
  intros f o nb ax ns p y bin e rng n k1 L1 b1 k2 L2 b2 Hnb Hn Hsh Hax Hss HK Hg Hbin H0 H1 Hr V1 C1 B1 V2 C2 B2 Hne.
  destruct (setting f o nb ax ns p y bin e rng n Hnb Hn Hsh Hax Hss HK Hg Hbin H0 H1 Hr) as (keep & sl & Ek & Hsl & E). rewrite Ek in *. clear Ek.
  assert (X : forall k L b, valid keep k -> Cells (shape o) ns k L -> bins_of bin L b -> length (fst (fst (fst (sl k)))) = length b).
  { intros k L b Hk HC HB. destruct (Hsl k L Hk HC) as [(bs & B & A & _) _]. rewrite A. f_equal. eapply bins_of_unique; eassumption. }
  pose proof (X _ _ _ V1 C1 B1) as X1. pose proof (X _ _ _ V2 C2 B2) as X2.
  rewrite E. destruct keep as [|K0 keep'] eqn:Ekeep.
  - exfalso. inversion V1; subst. inversion V2; subst. congruence.
  - rewrite <- Ekeep in *. unfold stack3 at 1. destruct (forallb _ _) eqn:Ef; [|reflexivity]. exfalso. rewrite forallb_forall in Ef.
    assert (Y : forall k, valid keep k -> length (fst (fst (fst (sl k)))) = length (hd [] (map (fun k => fst (fst (fst (sl k)))) (indices keep)))).
    { intros k Hk. apply Nat.eqb_eq, Ef. apply in_map_iff. exists k. split; [reflexivity|apply in_indices, Hk]. }
    apply Hne. rewrite <- X1, <- X2, (Y _ V1), (Y _ V2). reflexivity.
Qed.
Print Assumptions c79_ragged.
(** the data of C30 (two slices with two occupied bins each), three resamples of two samples *)
Definition rb_env : boot_env := {| repeats := 3; confidence := Q2Qc (9 # 10); skip_nan := true |}.
Example c79_nonvacuous :
  good_data rl_f rl_o (fun ix => val (get rl_f ix)) (fun ix => val (get rl_o ix)) /\ 0 <= confidence rb_env /\ confidence rb_env <= 1 /\ (0 < repeats rb_env)%nat /\
  (exists out, reliability_boot rb_env (fun i b r j => (i + r * j)%nat) 2 rl_f rl_o 5 (Some [0%Z]) = Ok out /\
    boot_forecast_points out [0%nat] = [map Fin [Q2Qc (1#10); Q2Qc (7#60); Q2Qc (7#50)]; map Fin [1; 1; 1]] /\
    boot_observed_points out [0%nat] = [map Fin [0; 0; 0]; map Fin [1; 1; 1]] /\ boot_point_counts out [0%nat] = [2; 1]%nat) /\
  reliability_boot rb_env (fun i b r j => (i + r * j)%nat) 2 rl_f rl_o 8 (Some [0%Z]) = Raise ValueError.
Proof.
  split; [apply c30_nonvacuous|]. split; [vm_compute; discriminate|]. split; [vm_compute; discriminate|]. split; [cbn; lia|]. split.
  - assert (X : match reliability_boot rb_env (fun i b r j => (i + r * j)%nat) 2 rl_f rl_o 5 (Some [0%Z]) with
                | Ok out => (boot_forecast_points out [0%nat], boot_observed_points out [0%nat], boot_point_counts out [0%nat]) | Raise _ => ([], [], []) end
                = ([map Fin [Q2Qc (1#10); Q2Qc (7#60); Q2Qc (7#50)]; map Fin [1; 1; 1]], [map Fin [0; 0; 0]; map Fin [1; 1; 1]], [2; 1]%nat)).
    { vm_compute. repeat first [reflexivity | apply Qc_is_canon; reflexivity | f_equal]. }
    destruct (reliability_boot _ _ _ _ _ _ _) as [out|]; [|discriminate]. injection X as X1 X2 X3. exists out. auto.
  - vm_compute. reflexivity.
Qed.
