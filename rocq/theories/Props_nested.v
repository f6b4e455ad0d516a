(** Property C107: a higher confidence level widens every bootstrap interval and leaves the middle value alone. *)
From Coq Require Import String Ascii ZArith List Lia Bool Arith Permutation QArith Qcanon Reals Lra.
From Verif Require Import QcTac QSum Num NdArr Numpy M_common NdAxes M_boot Spec Spec_prob RTier M_special M_rel M_ss Spec_ss P_boot P_boot2 P_brier P_work P_corr P_special P_ss Props_ss Props_avg Props_conf P_err.
From Verif Require P_rank.
Import ListNotations.
Open Scope Qc_scope.

(** ** Specification *)
(** the same settings but for a higher confidence level *)
Definition more_confident (e e' : boot_env) : Prop := skip_nan e' = skip_nan e /\ repeats e' = repeats e /\ confidence e <= confidence e'.
(** the second interval holds the first, around the same middle *)
Definition nested {A} (ord : A -> A -> Prop) (v v' : list A) : Prop :=
  exists lo m hi lo' hi', v = [lo; m; hi] /\ v' = [lo'; m; hi'] /\ ord lo' lo /\ ord hi hi'.

(** ** Lemmas *)
Lemma means_same e e' rng pop n : skip_nan e' = skip_nan e -> repeats e' = repeats e -> boot_means e' rng pop n = boot_means e rng pop n.
Proof. intros H1 H2. unfold boot_means. rewrite H1, H2. reflexivity. Qed.
Lemma obs_means e rng pop n means : (forall x, In x pop -> observed x) -> boot_means e rng pop n = Ok means -> forall x, In x means -> observed x.
Proof.
  intros H M x Hx. destruct (In_nth _ _ NaN Hx) as (i & Hi & <-). unfold boot_means in M. rewrite (mapM_length _ _ _ M) in Hi.
  pose proof (mapM_nth _ _ _ i 0%nat NaN M Hi) as G. cbn beta in G. destruct (choice _ _ _) as [s|] eqn:Es; [|discriminate]. cbn [bind] in G. injection G as <-.
  replace (if skip_nan e then nanmean s else nmean s) with ((if skip_nan e then nanmean else nmean) s) by (destruct (skip_nan e); reflexivity). apply obs_mean. intros y Hy. apply H. exact (choice_in _ _ _ _ y Es Hy).
Qed.
Lemma plain_nested c c' stats v v' : (forall x, In x stats -> observed x) -> c <= c' -> plain_triple c stats = Ok v -> plain_triple c' stats = Ok v' -> nested in_order v v'.
Proof.
  intros H L E E'. unfold plain_triple in E, E'. destruct (np_quantile stats (1 - c)) as [lo|] eqn:E1; [|discriminate]. destruct (np_quantile stats (1 - c')) as [lo'|] eqn:E1'; [|discriminate]. cbn [bind] in E, E'.
  destruct (np_quantile stats c) as [hi|] eqn:E2; [|discriminate]. destruct (np_quantile stats c') as [hi'|] eqn:E2'; [|discriminate]. cbn [bind] in E, E'. injection E as <-. injection E' as <-.
  exists lo, (nmean stats), hi, lo', hi'. split; [reflexivity|]. split; [reflexivity|]. split; [refine (quant_order _ _ _ _ _ H _ E1' E1); qlra|exact (quant_order _ _ _ _ _ H L E2 E2')].
Qed.
Lemma special_nested e e' stats v v' : (forall x, In x stats -> observed x) -> more_confident e e' -> special_triple e stats = Ok v -> special_triple e' stats = Ok v' -> nested in_order v v'.
Proof.
  intros H (Sk & _ & L) E E'. unfold special_triple in E, E'. rewrite Sk in E'. destruct (skip_nan e).
  - destruct (np_nanquantile stats (1 - confidence e)) as [lo|] eqn:E1; [|discriminate]. destruct (np_nanquantile stats (1 - confidence e')) as [lo'|] eqn:E1'; [|discriminate]. cbn [bind] in E, E'.
    destruct (np_nanquantile stats (confidence e)) as [hi|] eqn:E2; [|discriminate]. destruct (np_nanquantile stats (confidence e')) as [hi'|] eqn:E2'; [|discriminate]. cbn [bind] in E, E'. injection E as <-. injection E' as <-.
    do 5 eexists. split; [reflexivity|]. split; [reflexivity|]. split; [refine (nanquant_order _ _ _ _ _ H _ E1' E1); qlra|exact (nanquant_order _ _ _ _ _ H L E2 E2')].
  - destruct (np_quantile stats (1 - confidence e)) as [lo|] eqn:E1; [|discriminate]. destruct (np_quantile stats (1 - confidence e')) as [lo'|] eqn:E1'; [|discriminate]. cbn [bind] in E, E'.
    destruct (np_quantile stats (confidence e)) as [hi|] eqn:E2; [|discriminate]. destruct (np_quantile stats (confidence e')) as [hi'|] eqn:E2'; [|discriminate]. cbn [bind] in E, E'. injection E as <-. injection E' as <-.
    do 5 eexists. split; [reflexivity|]. split; [reflexivity|]. split; [refine (quant_order _ _ _ _ _ H _ E1' E1); qlra|exact (quant_order _ _ _ _ _ H L E2 E2')].
Qed.

(** ** C107 *)
(** the average of one group (utils_verify.py 223-249), the same draws *)
Theorem c107_averages : forall e e' rng pop n v v', (forall x, In x pop -> observed x) -> more_confident e e' ->
  boot_vec e rng pop n = Ok v -> boot_vec e' rng pop n = Ok v' -> nested in_order v v'.
Proof.
  intros e e' rng pop n v v' H (Sk & Rp & L) E E'. unfold boot_vec in E, E'. rewrite (means_same e e' rng pop n Sk Rp) in E'. destruct (boot_means e rng pop n) as [means|] eqn:M; [|discriminate]. cbn [bind] in E, E'.
  pose proof (obs_means e rng pop n means H M) as O. cbv zeta in E, E'. assert (T : 0 < / qz 2) by reflexivity.
  assert (D : (1 - confidence e') / qz 2 <= (1 - confidence e) / qz 2) by (unfold Qcdiv; apply Qcmult_le_compat_r; [qlra|apply Qclt_le_weak, T]).
  destruct (np_quantile means ((1 - confidence e) / qz 2)) as [lo|] eqn:E1; [|discriminate]. destruct (np_quantile means ((1 - confidence e') / qz 2)) as [lo'|] eqn:E1'; [|discriminate]. cbn [bind] in E, E'.
  destruct (np_quantile means (1 - (1 - confidence e) / qz 2)) as [hi|] eqn:E2; [|discriminate]. destruct (np_quantile means (1 - (1 - confidence e') / qz 2)) as [hi'|] eqn:E2'; [|discriminate]. cbn [bind] in E, E'. injection E as <-. injection E' as <-.
  exists lo, (nmean means), hi, lo', hi'. split; [reflexivity|]. split; [reflexivity|]. split; [exact (quant_order _ _ _ _ _ O D E1' E1)|refine (quant_order _ _ _ _ _ O _ E2 E2')].
  revert D. generalize ((1 - confidence e') / qz 2) ((1 - confidence e) / qz 2). intros; qlra.
Qed.
Print Assumptions c107_averages.
(** the averages of an array over any axes (utils_verify.py 252-297): at every place of the result *)
Theorem c107_arrays : forall e e' rng ax (a r r' : arr num) ns n k, more_confident e e' -> axes_are (length (shape a)) ax ns ->
  match ax with None => True | Some l => Forall (fun z => 0 <= z)%Z l \/ Forall (fun z => z < 0)%Z l end ->
  Forall2 lt k (kept (length (shape a)) ns (shape a)) -> (forall ix, Forall2 lt ix (shape a) -> observed (get a ix)) ->
  boot_or_avg e rng ax (Some n) a = Ok r -> boot_or_avg e' rng ax (Some n) a = Ok r' ->
  shape r' = shape r /\ in_order (get r' (0 :: k)%nat) (get r (0 :: k)%nat) /\ get r' (1 :: k)%nat = get r (1 :: k)%nat /\ in_order (get r (2 :: k)%nat) (get r' (2 :: k)%nat).
Proof.
  intros e e' rng ax a r r' ns n k MC Hax Hs Hk Ha E E'.
  assert (HK : prod (kept (length (shape a)) ns (shape a)) <> 0%nat) by (pose proof (valid_prod_pos _ _ Hk); lia).
  destruct (same_sign_spelling _ ax ns Hax Hs) as (ns' & P & Hsp). cbn [boot_or_avg] in E, E'.
  assert (Ek : kept (length (shape a)) ns (shape a) = unsel (mask_of (length (shape a)) ns') (shape a)) by (rewrite kept_unsel by reflexivity; rewrite (mask_of_perm _ _ _ P); reflexivity).
  rewrite Ek in HK, Hk. destruct (boot_arr_spec e rng a ax ns' n r Hsp HK E) as [S1 G1]. destruct (boot_arr_spec e' rng a ax ns' n r' Hsp HK E') as [S2 G2].
  split; [congruence|]. destruct (G1 k Hk) as (v & Ev & Gv). destruct (G2 k Hk) as (v' & Ev' & Gv').
  destruct (c107_averages e e' _ _ n v v' ltac:(intros x Hx; apply in_map_iff in Hx as (ix & <- & Hi); apply Ha; apply (proj1 (proj2 (group_Cells (shape a) ns' k) ix) Hi)) MC Ev Ev') as (lo & m & hi & lo' & hi' & -> & -> & L1 & L2).
  rewrite !Gv, !Gv' by lia. cbn [nth]. auto.
Qed.
Print Assumptions c107_arrays.
(** one bin of the reliability diagram (utils_verify.py 385-438) *)
Theorem c107_reliability : forall e e' rng n ids y_prob y_true b v w v' w', (forall x, In x y_prob -> observed x) -> (forall x, In x y_true -> observed x) -> more_confident e e' ->
  rel_boot_bin e rng n ids y_prob y_true b = Ok (v, w) -> rel_boot_bin e' rng n ids y_prob y_true b = Ok (v', w') ->
  (v = [] /\ w = [] /\ v' = [] /\ w' = []) \/ (nested in_order v v' /\ nested in_order w w').
Proof.
  intros e e' rng n ids p t b v w v' w' Hp Ht (Sk & Rp & L) E E'. unfold rel_boot_bin in E, E'. destruct (where_eq ids b) as [|i0 ii]; [injection E as <- <-; injection E' as <- <-; left; auto|]. rewrite Sk, Rp in E'.
  destruct (mapM _ _) as [ps|] eqn:M; [|discriminate]. cbn [bind] in E, E'.
  destruct (plain_triple (confidence e) (map fst ps)) as [a|] eqn:E1; [|discriminate]. destruct (plain_triple (confidence e') (map fst ps)) as [a1|] eqn:E1'; [|discriminate]. cbn [bind] in E, E'.
  destruct (plain_triple (confidence e) (map snd ps)) as [a'|] eqn:E2; [|discriminate]. destruct (plain_triple (confidence e') (map snd ps)) as [a1'|] eqn:E2'; [|discriminate]. cbn [bind] in E, E'. injection E as <- <-. injection E' as <- <-.
  assert (O : forall q, In q ps -> observed (fst q) /\ observed (snd q)).
  { intros q Hq. destruct (In_nth _ _ (NaN, NaN) Hq) as (i & Hi & <-). rewrite (mapM_length _ _ _ M) in Hi.
    pose proof (mapM_nth _ _ _ i 0%nat (NaN, NaN) M Hi) as G. cbn beta in G. destruct (choice _ _ _) as [idx|]; [|discriminate]. cbn [bind] in G. injection G as <-.
    split; apply obs_mean; intros x Hx; apply in_map_iff in Hx as (j & <- & _); apply obs_nth; assumption. }
  right. split; [refine (plain_nested _ _ _ _ _ _ L E1 E1')|refine (plain_nested _ _ _ _ _ _ L E2 E2')]; intros x Hx; apply in_map_iff in Hx as (q & <- & Hq); apply O, Hq.
Qed.
Print Assumptions c107_reliability.
(** the three terms of the Brier decomposition (utils_special_boot.py 83-114) *)
Theorem c107_brier : forall e e' rng n f o v v', (forall x, In x f -> observed x) -> (forall x, In x o -> observed x) -> more_confident e e' ->
  func_brier e (Some n) rng f o = Ok v -> func_brier e' (Some n) rng f o = Ok v' ->
  exists a b c a' b' c', v = a ++ b ++ c /\ v' = a' ++ b' ++ c' /\ nested in_order a a' /\ nested in_order b b' /\ nested in_order c c'.
Proof.
  intros e e' rng n f o v v' Hf Ho MC E E'. pose proof MC as (Sk & Rp & L). cbn [func_brier] in E, E'. unfold brier_boot in E, E'. rewrite Sk, Rp in E'.
  destruct (mapM _ _) as [rets|] eqn:M; [|discriminate]. cbn [bind] in E, E'.
  destruct (special_triple e (map (fun t => nth 0 t NaN) rets)) as [a|] eqn:E1; [|discriminate]. destruct (special_triple e' (map (fun t => nth 0 t NaN) rets)) as [a'|] eqn:E1'; [|discriminate]. cbn [bind] in E, E'.
  destruct (special_triple e (map (fun t => nth 1 t NaN) rets)) as [b|] eqn:E2; [|discriminate]. destruct (special_triple e' (map (fun t => nth 1 t NaN) rets)) as [b'|] eqn:E2'; [|discriminate]. cbn [bind] in E, E'.
  destruct (special_triple e (map (fun t => nth 2 t NaN) rets)) as [c|] eqn:E3; [|discriminate]. destruct (special_triple e' (map (fun t => nth 2 t NaN) rets)) as [c'|] eqn:E3'; [|discriminate]. cbn [bind] in E, E'. injection E as <-. injection E' as <-.
  assert (O : forall j x, In x (map (fun t => nth j t NaN) rets) -> observed x).
  { intros j x Hx. apply in_map_iff in Hx as (t & <- & Ht). destruct (In_nth _ _ [] Ht) as (i & Hi & <-). rewrite (mapM_length _ _ _ M) in Hi.
    pose proof (mapM_nth _ _ _ i 0%nat [] M Hi) as G. cbn beta in G. destruct (choice _ _ _) as [idx|]; [|discriminate]. cbn [bind] in G.
    apply obs_nth. refine (obs_brier_point _ _ _ _ _ _ G); intros y Hy; [exact (obs_take _ _ _ Hf Hy)|exact (obs_take _ _ _ Ho Hy)]. }
  exists a, b, c, a', b', c'. split; [reflexivity|]. split; [reflexivity|].
  split; [|split]; [exact (special_nested _ _ _ _ _ (O _) MC E1 E1')|exact (special_nested _ _ _ _ _ (O _) MC E2 E2')|exact (special_nested _ _ _ _ _ (O _) MC E3 E3')].
Qed.
Print Assumptions c107_brier.
(** the correlation of one group (utils_special_boot.py 117-138), whatever the data *)
Theorem c107_correlation : forall e e' rng n f o v v', more_confident e e' -> func_corr e (Some n) rng f o = Ok v -> func_corr e' (Some n) rng f o = Ok v' -> nested r_in_order v v'.
Proof.
  intros e e' rng n f o v v' (Sk & Rp & L) E E'. cbn [func_corr] in E, E'. rewrite Sk, Rp in E'. destruct (mapM _ _) as [cs|]; [|discriminate]. cbn [bind] in E, E'.
  destruct (r_quantile _ cs (1 - confidence e)) as [lo|] eqn:E1; [|discriminate]. destruct (r_quantile _ cs (1 - confidence e')) as [lo'|] eqn:E1'; [|discriminate]. cbn [bind] in E, E'.
  destruct (r_quantile _ cs (confidence e)) as [hi|] eqn:E2; [|discriminate]. destruct (r_quantile _ cs (confidence e')) as [hi'|] eqn:E2'; [|discriminate]. cbn [bind] in E, E'. injection E as <-. injection E' as <-.
  do 5 eexists. split; [reflexivity|]. split; [reflexivity|]. split; [refine (r_quantile_order _ _ _ _ _ _ _ E1' E1); qlra|exact (r_quantile_order _ _ _ _ _ _ L E2 E2')].
Qed.
Print Assumptions c107_correlation.
Lemma r_quantile_total skip l p : l <> [] -> 0 <= p -> p <= 1 -> exists v, r_quantile skip l p = Ok v.
Proof.
  intros N H0 H1. unfold r_quantile. apply qleb_le in H0, H1. rewrite H0, H1. cbn [andb negb]. destruct skip; [destruct (rvals l); eexists; reflexivity|].
  destruct l; [contradiction|]. destruct (forallb _ _); eexists; reflexivity.
Qed.
Lemma func_corr_total e n rng f o : f <> [] -> 0 <= confidence e -> confidence e <= 1 -> (0 < repeats e)%nat -> exists v, func_corr e (Some n) rng f o = Ok v.
Proof.
  intros N H0 H1 R. cbn [func_corr]. destruct (P_rank.mapM_all_ok (fun r => idx <- choice (rng r) (seq 0 (length f)) n ;; Ok (corrcoef (take NaN f idx) (take NaN o idx))) (seq 0 (repeats e))) as [cs E].
  { intros r _. destruct f as [|a f]; [contradiction|]. cbn [length seq choice bind]. eexists. reflexivity. }
  rewrite E. cbn [bind]. assert (C : cs <> []) by (intros ->; apply mapM_length in E; rewrite seq_length in E; cbn in E; lia).
  destruct (r_quantile_total (skip_nan e) cs (1 - confidence e) C ltac:(qlra) ltac:(qlra)) as [lo ->]. destruct (r_quantile_total (skip_nan e) cs (confidence e) C H0 H1) as [hi ->]. eexists. reflexivity.
Qed.
(** All theorems at work: confidence 1/2 and 9/10 on data with a missing value; the intervals differ. *)
Example c107_nonvacuous : let e := {| skip_nan := true; repeats := 5; confidence := Q2Qc (1 # 2) |} in let e' := {| skip_nan := true; repeats := 5; confidence := Q2Qc (9 # 10) |} in
  let pop := [Fin (qz 0); NaN; Fin (qz 2); Fin (qz 3); Fin (qz 4)] in let bin := [Fin (qz 0); Fin (qz 1); Fin (qz 1); Fin (qz 0); Fin (qz 1)] in
  more_confident e e' /\ (forall x, In x pop -> observed x) /\
  (exists v v', boot_vec e (fun r i => r * i)%nat pop 3 = Ok v /\ boot_vec e' (fun r i => r * i)%nat pop 3 = Ok v' /\ nested in_order v v' /\ v <> v') /\
  (exists v w v' w', rel_boot_bin e (fun r i => r * i)%nat 3 (repeat 0%Z 5) pop pop 0 = Ok (v, w) /\ rel_boot_bin e' (fun r i => r * i)%nat 3 (repeat 0%Z 5) pop pop 0 = Ok (v', w') /\ v <> [] /\ nested in_order v v' /\ v <> v') /\
  (exists v v', func_brier e (Some 3%nat) (fun r i => r * i)%nat bin bin = Ok v /\ func_brier e' (Some 3%nat) (fun r i => r * i)%nat bin bin = Ok v' /\ v <> v') /\
  (exists v v', func_corr e (Some 3%nat) (fun r i => r + i)%nat pop bin = Ok v /\ func_corr e' (Some 3%nat) (fun r i => r + i)%nat pop bin = Ok v' /\ nested r_in_order v v').
Proof.
  intros e e' pop bin. assert (MC : more_confident e e') by (split; [reflexivity|split; [reflexivity|vm_compute; discriminate]]).
  assert (O : forall x, In x pop -> observed x) by (intros x [<-|[<-|[<-|[<-|[<-|[]]]]]]; try (right; eexists; reflexivity); left; reflexivity).
  split; [exact MC|]. split; [exact O|].
  assert (D : forall v v' : list num, val (nth 2 v NaN) <> val (nth 2 v' NaN) -> v <> v') by (intros v v' N ->; apply N; reflexivity).
  split; [|split; [|split]].
  - destruct (boot_vec e (fun r i => r * i)%nat pop 3) as [v|x] eqn:E; [|vm_compute in E; discriminate]. destruct (boot_vec e' (fun r i => r * i)%nat pop 3) as [v'|x] eqn:E'; [|vm_compute in E'; discriminate].
    exists v, v'. split; [reflexivity|]. split; [reflexivity|]. split; [exact (c107_averages e e' _ _ _ _ _ O MC E E')|]. apply D. intros C.
    apply (f_equal (fun r => match r with Ok l => val (nth 2 l NaN) | _ => 0 end)) in E. apply (f_equal (fun r => match r with Ok l => val (nth 2 l NaN) | _ => 0 end)) in E'. rewrite <- E, <- E' in C. vm_compute in C. discriminate C.
  - destruct (rel_boot_bin e (fun r i => r * i)%nat 3 (repeat 0%Z 5) pop pop 0) as [[v w]|x] eqn:E; [|vm_compute in E; discriminate]. destruct (rel_boot_bin e' (fun r i => r * i)%nat 3 (repeat 0%Z 5) pop pop 0) as [[v' w']|x] eqn:E'; [|vm_compute in E'; discriminate].
    exists v, w, v', w'. split; [reflexivity|]. split; [reflexivity|]. assert (N : v <> []) by (intros ->; vm_compute in E; discriminate). split; [exact N|].
    split; [destruct (c107_reliability e e' _ _ _ _ _ _ _ _ _ _ O O MC E E') as [(C & _)|[C _]]; [contradiction|exact C]|]. apply D. intros C.
    apply (f_equal (fun r => match r with Ok l => val (nth 2 (fst l) NaN) | _ => 0 end)) in E. apply (f_equal (fun r => match r with Ok l => val (nth 2 (fst l) NaN) | _ => 0 end)) in E'. cbn [fst] in E, E'. rewrite <- E, <- E' in C. vm_compute in C. discriminate C.
  - destruct (func_brier e (Some 3%nat) (fun r i => r * i)%nat bin bin) as [v|x] eqn:E; [|vm_compute in E; discriminate]. destruct (func_brier e' (Some 3%nat) (fun r i => r * i)%nat bin bin) as [v'|x] eqn:E'; [|vm_compute in E'; discriminate].
    exists v, v'. split; [reflexivity|]. split; [reflexivity|]. intros C. subst v'. rewrite <- E in E'.
    apply (f_equal (fun r => match r with Ok l => val (nth 6 l NaN) | _ => 0 end)) in E'. vm_compute in E'. discriminate E'.
  - destruct (func_corr_total e 3 (fun r i => r + i)%nat pop bin) as [v E]; [discriminate|vm_compute; discriminate|vm_compute; discriminate|cbn; lia|].
    destruct (func_corr_total e' 3 (fun r i => r + i)%nat pop bin) as [v' E']; [discriminate|vm_compute; discriminate|vm_compute; discriminate|cbn; lia|].
    exists v, v'. split; [exact E|]. split; [exact E'|]. exact (c107_correlation e e' _ _ _ _ _ _ MC E E').
Qed.
