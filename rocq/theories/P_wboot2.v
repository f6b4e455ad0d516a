(** Lemmas for C116: the reliability diagram with bootstrap, where its curves are found in the returned value. *)
From Coq Require Import String ZArith List Lia Bool Arith QArith Qcanon.
From Verif Require Import QcTac QSum Num NdArr Numpy NdAxes M_common M_boot M_special M_rel Spec Spec_prob Spec_rel P_boot P_brier P_rel
  Store M_state M_whole Spec_whole P_whole M_whole2 P_whole2 Spec_whole2 P_layout Spec_relboot Spec_wboot2.
From Verif Require P_range NdMove P_ss P_special P_work.
Import ListNotations.
Open Scope string_scope.
Open Scope list_scope.
Open Scope nat_scope.

Lemma rel_agg_boot_eq e g n ids ids' p p' t t' bins : arr_eq ids ids' -> arr_eq p p' -> arr_eq t t' -> shape ids = shape t -> shape p = shape t ->
  rel_agg_boot e g n ids p t bins = rel_agg_boot e g n ids' p' t' bins.
Proof.
  intros I P T Si Sp. unfold rel_agg_boot. rewrite <- (proj1 T). destruct (shape t) as [|m0 keep] eqn:E; cbn [tl hd].
  - rewrite (ravel_eq _ _ I), (ravel_eq _ _ P), (ravel_eq _ _ T). reflexivity.
  - destruct keep as [|m r]; [rewrite (ravel_eq _ _ I), (ravel_eq _ _ P), (ravel_eq _ _ T); reflexivity|]. set (keep := m :: r) in *.
    rewrite (mapM_ext _ (fun i => rel_boot_slice e (g i) n (col (reshape [m0; prod keep] ids') i) (col (reshape [m0; prod keep] p') i) (col (reshape [m0; prod keep] t') i) bins)); [reflexivity|].
    intros i Hi. apply in_seq in Hi. rewrite (col_reshape ids ids'), (col_reshape p p'), (col_reshape t t'); try assumption; try lia; rewrite ?Si, ?Sp, ?E; reflexivity.
Qed.
Lemma split_round_boot e g n s : match split_of (split_val s) with
  | Some (ids, f, o, bins) => shape (fst (fst (fst s))) = shape (snd (fst s)) -> shape (snd (fst (fst s))) = shape (snd (fst s)) ->
      rel_agg_boot e g n ids f o bins = rel_agg_boot e g n (fst (fst (fst s))) (snd (fst (fst s))) (snd (fst s)) (snd s)
  | None => False end.
Proof.
  destruct s as [[[ids f] o] bins]. cbn [split_val split_of fst snd]. intros Si Sf. rewrite ravel_vec_of.
  apply rel_agg_boot_eq; first [apply ints_of_val|apply arr_of_val|assumption].
Qed.

Definition boot_out_ok (ks : list nat) (out : rel_boot_out) : Prop :=
  match out with
  | BSingle _ _ _ _ => ks = []
  | BMany a b c d => ks <> [] /\ (exists m, shape a = ks ++ [m; 3]) /\ (exists m, shape b = ks ++ [m; 3]) /\ stacked_ok ks c /\ stacked_ok ks d
  end.
Lemma rel_agg_boot_ok e g n ids p t bins out : rel_agg_boot e g n ids p t bins = Ok out -> boot_out_ok (tl (shape t)) out.
Proof.
  unfold rel_agg_boot. destruct (tl (shape t)) as [|m ks] eqn:E; intros H.
  - destruct (rel_boot_slice _ _ _ _ _ _ _) as [[[[a b] c] d]|]; [|discriminate]. injection H as <-. reflexivity.
  - destruct (mapM _ _) as [ss|]; [|discriminate]. cbn [bind] in H. unfold stack3 in H. destruct (forallb _ _); [|discriminate]. cbn [bind] in H.
    destruct (forallb _ _); [|discriminate]. injection H as <-. cbn [boot_out_ok]. split; [discriminate|]. split; [eexists; reflexivity|]. split; [eexists; reflexivity|]. split; apply stack_ok.
Qed.
Lemma rel_boot_ok e g n f o nb ax ns out : shape f = shape o -> axes_are (length (shape o)) ax ns -> same_sign ax ->
  prod (kept (length (shape o)) ns (shape o)) <> 0%nat -> reliability_boot e g n f o nb ax = Ok out ->
  boot_out_ok (kept (length (shape o)) ns (shape o)) out.
Proof.
  intros Hsh Hax Hss HK E. destruct (same_sign_spelling _ _ _ Hax Hss) as (ns' & P & Hsp).
  rewrite (kept_perm (length (shape o)) ns ns' (shape o) P) in HK |- *. rewrite (kept_unsel (length (shape o))) in HK |- * by reflexivity.
  destruct (rel_split_ok f o nb ax ns' Hsh Hsp HK) as (f2 & o2 & Es & _ & So & _). unfold reliability_boot in E. rewrite Es in E. cbn [bind] in E.
  apply rel_agg_boot_ok in E. rewrite So in E. exact E.
Qed.
Lemma triples_layout ks (a : arr num) k : ks <> [] -> (exists m, shape a = ks ++ [m; 3]) -> valid ks k -> triples_at ks (val_of a) k (triples a k).
Proof.
  intros N [m E] V. destruct ks as [|k0 ks]; [contradiction|]. unfold triples_at. set (ks' := k0 :: ks) in *. unfold triples.
  assert (Ln : nth (length k) (shape a) 0 = m) by (rewrite E, (valid_length _ _ V), app_nth2, Nat.sub_diag by lia; reflexivity). rewrite Ln, map_length, seq_length.
  split; [exact E|]. intros j t Hj Ht.
  rewrite reads_val by (rewrite E; apply Forall2_app; [exact V|]; constructor; [exact Hj|constructor; [exact Ht|constructor]]).
  set (g := fun j => map (fun t => get a (k ++ [j; t])) (seq 0 3)). rewrite (nth_indep _ [] (g 0)) by (rewrite map_length, seq_length; exact Hj). rewrite (map_nth g), seq_nth by exact Hj.
  unfold g. destruct t as [|[|[|t]]]; [reflexivity..|lia].
Qed.
Lemma rel_boot_layout ks out : boot_out_ok ks out -> exists fp op pc oc, rel_boot_val out = VTuple [fp; op; pc; oc] /\
  forall k, valid ks k -> triples_at ks fp k (boot_forecast_points out k) /\ triples_at ks op k (boot_observed_points out k) /\
    numbers_at ks pc k (boot_point_counts out k) /\ numbers_at ks oc k (boot_outcome_counts out k).
Proof.
  destruct out as [p t pc tc|a b c d]; cbn [boot_out_ok rel_boot_val].
  - intros ->. do 4 eexists. split; [reflexivity|]. intros k V. inversion V; subst. cbn [boot_forecast_points boot_observed_points boot_point_counts boot_outcome_counts triples_at numbers_at].
    assert (H : forall l : list (list num), exists vs, VList (map vec_of l) = VList vs /\ Forall2 vector_is vs l).
    { intros l. eexists. split; [reflexivity|]. induction l as [|x l IH]; constructor; [apply vec_is|exact IH]. }
    split; [apply H|]. split; [apply H|]. unfold series_val. rewrite !map_map. split; do 2 eexists; (split; [reflexivity|]); apply vec_is.
  - intros (N & A & B & C & D). do 4 eexists. split; [reflexivity|]. intros k V. destruct ks as [|n ks]; [contradiction|]. cbn [numbers_at boot_forecast_points boot_observed_points boot_point_counts boot_outcome_counts].
    split; [apply triples_layout; assumption|]. split; [apply triples_layout; assumption|]. split; apply stacked_counts_curve; assumption.
Qed.

(** ** The bootstrapped Brier decomposition succeeds on finite data *)
Lemma special_triple_ok e l : l <> [] -> (0 <= confidence e)%Qc -> (confidence e <= 1)%Qc -> exists v, special_triple e (map Fin l) = Ok v.
Proof.
  intros Hl C0 C1. unfold special_triple. set (q := if skip_nan e then np_nanquantile else np_quantile).
  assert (Q : forall p, (0 <= p)%Qc -> (p <= 1)%Qc -> q (map Fin l) p = Ok (Fin (qquant l p))) by (intros; unfold q; destruct (skip_nan e); [apply P_special.np_nanquantile_fin|apply np_quantile_fin]; assumption).
  rewrite !Q by (clear - C0 C1; qlra). eexists. reflexivity.
Qed.
Lemma brier_boot_ok {A} e rng n (S : list A) (p y : A -> Qc) : S <> [] -> 0 < n -> 0 < repeats e -> (0 <= confidence e)%Qc -> (confidence e <= 1)%Qc ->
  exists v, brier_boot e rng n (map (fun x => Fin (p x)) S) (map (fun x => Fin (y x)) S) = Ok v.
Proof.
  intros HS Pn Pr C0 C1. unfold brier_boot. rewrite map_length.
  destruct (P_ss.mapM_exists (fun r => idx <- choice (rng r) (seq 0 (length S)) n ;; brier_point (skip_nan e) (take NaN (map (fun x => Fin (p x)) S) idx) (take NaN (map (fun x => Fin (y x)) S) idx))
    (fun _ t => exists a b c, t = [Fin a; Fin b; Fin c]) (seq 0 (repeats e))) as (rets & Er & Q).
  - intros r _. destruct (choice (rng r) (seq 0 (length S)) n) as [idx|] eqn:Ec.
    2:{ exfalso. unfold choice in Ec. destruct S as [|a S]; [contradiction|]. destruct n; [lia|]. discriminate Ec. }
    cbn [bind]. assert (Hidx : forall j, In j idx -> j < length S) by (intros j Hj; pose proof (choice_in _ _ _ _ _ Ec Hj) as X; apply in_seq in X; lia).
    assert (Li : length idx = n) by exact (choice_length _ _ _ _ Ec).
    destruct idx as [|i0 idx']; [cbn in Li; lia|]. destruct S as [|d S'] eqn:ES; [contradiction|]. rewrite <- ES in *.
    rewrite (P_special.take_map_cells p d S _ Hidx), (P_special.take_map_cells y d S _ Hidx). set (S1 := map (fun i => nth i S d) (i0 :: idx')).
    assert (HS1 : S1 <> []) by discriminate. rewrite (P_special.brier_point_avg (skip_nan e) S1 p y HS1). cbv zeta. eexists. split; [reflexivity|]. do 3 eexists. reflexivity.
  - rewrite Er. cbn [bind]. assert (Lr : length rets = repeats e) by (rewrite <- (P_ss.Forall2_len _ _ _ Q); apply seq_length).
    assert (T : forall t, In t rets -> exists a b c, t = [Fin a; Fin b; Fin c]).
    { clear - Q. induction Q as [|r t l l' H _ IH]; intros t' I; [destruct I|]; destruct I as [<-|I]; [exact H|apply IH, I]. }
    set (num i := fun t : list num => Spec.val (nth i t NaN)).
    assert (E : forall i, i < 3 -> map (fun t => nth i t NaN) rets = map Fin (map (num i) rets)).
    { intros i Hi. rewrite map_map. apply map_ext_in. intros t Ht. destruct (T t Ht) as (a & b & c & ->). unfold num. destruct i as [|[|[|]]]; [reflexivity|reflexivity|reflexivity|lia]. }
    assert (Hn : forall i, map (num i) rets <> []) by (intros i Z; apply map_eq_nil in Z; rewrite Z in Lr; cbn in Lr; lia).
    rewrite (E 0), (E 1), (E 2) by lia.
    destruct (special_triple_ok e _ (Hn 0) C0 C1) as [a ->]. destruct (special_triple_ok e _ (Hn 1) C0 C1) as [b ->]. destruct (special_triple_ok e _ (Hn 2) C0 C1) as [c ->]. eexists. reflexivity.
Qed.
Lemma decomp_boot_accepts e rng f o ax ns n (p y : list nat -> Qc) : shape f = shape o -> axes_are (length (shape o)) ax ns -> P_special.plain ax ->
  (forall d, In d (shape o) -> 0 < d) -> 0 < n -> 0 < repeats e -> (0 <= confidence e)%Qc -> (confidence e <= 1)%Qc ->
  (forall ix, Forall2 lt ix (shape o) -> get f ix = Fin (p ix) /\ get o ix = Fin (y ix)) ->
  exists t, brier_decomp e rng f o ax (Some n) = Ok t.
Proof.
  intros Hsh Hax Hpl Hs Pn Pr C0 C1 Hd. pose proof (P_special.plain_of _ _ _ Hax Hpl) as Hp. destruct (P_work.plain_axes_facts _ _ _ Hp) as (Hn & Hlt & _ & _). unfold brier_decomp.
  rewrite (P_work.workflow_unfold NaN _ f o ax ns Hsh Hp). set (keep := kept (length (shape o)) ns (shape o)) in *.
  assert (Hpos : 0 < prod keep) by (apply P_range.prod_pos; intros d I; unfold keep, kept in I; apply in_map_iff in I as (j & <- & J); apply Hs, nth_In; apply filter_In in J as [J _]; apply in_seq in J; lia).
  destruct (P_ss.mapM_exists (P_work.slice_run (fun i => func_brier e (Some n) (rng i)) f o ns) (fun _ v => length v = 9) (seq 0 (prod keep))) as (ret & E & Q).
  { intros i Hi. apply in_seq in Hi. unfold P_work.slice_run. fold keep. set (k := unflat keep i). assert (Vk : valid keep k) by (apply unflat_valid; lia).
    pose proof (P_work.group_list_Cells _ _ _ Hn Hlt Vk) as HC. set (g := P_work.group_list (shape o) ns k) in *.
    assert (Hg : g <> []).
    { unfold g, P_work.group_list. intros Z. apply map_eq_nil in Z. pose proof (indices_length (pick ns (shape o))) as Hil. rewrite Z in Hil. cbn in Hil.
      assert (Pp : 0 < prod (pick ns (shape o))) by (apply P_range.prod_pos; intros x Hx; apply in_map_iff in Hx as (j & <- & Hj); apply Hs, nth_In, Hlt, Hj). lia. }
    destruct (brier_boot_ok e (rng i) n g p y Hg Pn Pr C0 C1) as [v Ev]. exists v. cbn [func_brier].
    rewrite (map_ext_in (get f) (fun ix => Fin (p ix))), (map_ext_in (get o) (fun ix => Fin (y ix))) by (intros ix Hi'; apply HC in Hi' as [Hv _]; apply (Hd ix Hv)).
    split; [exact Ev|]. exact (P_special.func_brier_length e (Some n) (rng i) _ _ _ Ev). }
  fold keep. rewrite E. cbn [bind]. pose proof (mapM_length _ _ _ E) as Hl. rewrite seq_length in Hl.
  assert (L9 : forall l, In l ret -> length l = 9) by (clear - Q; induction Q as [|r t l l' H _ IH]; intros t' I; [destruct I|]; destruct I as [<-|I]; [exact H|apply IH, I]).
  destruct ret as [|r0 ret]; [cbn in Hl; lia|]. rewrite (L9 r0 (or_introl eq_refl)).
  destruct (NdMove.moveaxis_front (of_list NaN (keep ++ [9]) (concat (r0 :: ret))) (-1) (length keep)) as (b & -> & Sb & _); [cbn [of_list shape]; rewrite app_length; cbn [length]; split; [lia|right; lia]|].
  cbn [bind]. rewrite Sb. cbn [of_list shape]. rewrite app_nth2, Nat.sub_diag by lia. cbn [nth hd Nat.eqb]. rewrite Sb. cbn [of_list shape]. rewrite app_nth2, Nat.sub_diag by lia. cbn [nth hd Nat.eqb passert bind]. eexists. reflexivity.
Qed.
