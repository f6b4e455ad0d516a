(** Lemmas about the reliability diagram with bootstrap (C79). *)
From Coq Require Import ZArith List Lia Bool Arith Permutation Sorted QArith Qcanon.
From Verif Require Import QcTac QSum Num NdArr Numpy M_common NdAxes M_boot Spec P_boot M_rel Spec_rel P_rel P_ss.
From Verif Require P_work.
Import ListNotations.
Open Scope nat_scope.

Definition mean_of_env (e : boot_env) : list num -> num := if skip_nan e then nanmean else nmean.
Lemma where_eq_cells {A} (S : list A) (d : A) (bin : A -> nat) b i : In i (where_eq (map (fun x => Z.of_nat (bin x)) S) b) <-> i < length S /\ bin (nth i S d) = b.
Proof.
  unfold where_eq. rewrite in_map_iff. rewrite map_length. split.
  - intros ((z & j) & Ej & Hf). cbn [snd] in Ej. subst j. apply filter_In in Hf as [Hi Hz]. cbn [fst] in Hz. apply Z.eqb_eq in Hz.
    destruct (In_nth _ _ (0%Z, 0) Hi) as (m & Hm & En). rewrite combine_length, map_length, seq_length, Nat.min_id in Hm.
    rewrite combine_nth in En by (rewrite map_length, seq_length; reflexivity). injection En as E1 E2. rewrite seq_nth in E2 by exact Hm. cbn in E2. subst m. split; [exact Hm|].
    rewrite (nth_indep _ 0%Z (Z.of_nat (bin d))) in E1 by (rewrite map_length; exact Hm). rewrite (map_nth (fun x => Z.of_nat (bin x))) in E1. lia.
  - intros [Hm Hb]. exists (Z.of_nat b, i). split; [reflexivity|]. apply filter_In. split; [|cbn [fst]; apply Z.eqb_refl].
    replace (Z.of_nat b, i) with (nth i (combine (map (fun x => Z.of_nat (bin x)) S) (seq 0 (length S))) (Z.of_nat (bin d), 0)).
    + apply nth_In. rewrite combine_length, map_length, seq_length, Nat.min_id. exact Hm.
    + rewrite combine_nth by (rewrite map_length, seq_length; reflexivity). rewrite (map_nth (fun x => Z.of_nat (bin x))), seq_nth by exact Hm. rewrite Hb. reflexivity.
Qed.
Definition bin_result {A} (e : boot_env) (n : nat) (S : list A) (gp gt : A -> num) (bin : A -> nat) (b : nat) (r : list num * list num) : Prop :=
  exists rs, resamples_of (cells_of S bin b) n (repeats e) rs /\
    triple_of np_quantile (1 - confidence e)%Qc (confidence e) (map (fun s => mean_of_env e (map gp s)) rs) (fst r) /\
    triple_of np_quantile (1 - confidence e)%Qc (confidence e) (map (fun s => mean_of_env e (map gt s)) rs) (snd r) /\ length (fst r) = 3 /\ length (snd r) = 3.
Lemma boot_bin_spec {A} e rng n (S : list A) (gp gt : A -> num) (bin : A -> nat) b :
  (0 <= confidence e)%Qc -> (confidence e <= 1)%Qc -> 0 < repeats e -> cells_of S bin b <> [] ->
  exists r, rel_boot_bin e rng n (map (fun x => Z.of_nat (bin x)) S) (map gp S) (map gt S) b = Ok r /\ bin_result e n S gp gt bin b r.
Proof.
  intros C0 C1 Hr Hne. destruct (cells_of S bin b) as [|d dd] eqn:Ed; [contradiction|]. assert (Hd : In d S /\ bin d = b) by (apply in_cells; rewrite Ed; left; reflexivity). clear Hne.
  set (ids := map (fun x => Z.of_nat (bin x)) S). unfold rel_boot_bin. fold (mean_of_env e).
  pose proof (where_eq_cells S d bin b) as W. fold ids in W. destruct (where_eq ids b) as [|i0 ii] eqn:Ei.
  { exfalso. destruct Hd as [H1 H2]. destruct (In_nth _ _ d H1) as (m & Hm & En). apply (W m). rewrite En. auto. }
  set (I := i0 :: ii) in *.
  assert (Ch : forall r, exists idx, choice (rng r) I n = Ok idx /\ length idx = n /\ forall i, In i idx -> i < length S /\ bin (nth i S d) = b).
  { intros r. destruct (choice (rng r) I n) as [idx|x] eqn:E; [|unfold choice, I in E; discriminate]. exists idx. split; [reflexivity|]. split; [eapply choice_length, E|]. intros i Hi. apply W. eapply choice_in; eassumption. }
  assert (M : forall l, exists rs, length rs = length l /\ (forall s, In s rs -> length s = n /\ forall x, In x s -> In x (cells_of S bin b)) /\
    mapM (fun r => idx <- choice (rng r) I n ;; Ok (mean_of_env e (map (fun i => nth i (map gp S) NaN) idx), mean_of_env e (map (fun i => nth i (map gt S) NaN) idx))) l
    = Ok (map (fun s => (mean_of_env e (map gp s), mean_of_env e (map gt s))) rs)).
  { induction l as [|r l IH]; [exists []; split; [reflexivity|split; [intros s []|reflexivity]]|]. destruct IH as (rs & Hl & Hrs & E). destruct (Ch r) as (idx & Ec & Hn & Hin).
    exists (map (fun i => nth i S d) idx :: rs). split; [cbn; lia|]. split.
    - intros s [<-|Hs]; [|apply Hrs, Hs]. split; [rewrite map_length; exact Hn|]. intros x Hx. apply in_map_iff in Hx as (i & <- & Hi). apply in_cells. destruct (Hin i Hi) as [Hi1 Hi2]. split; [apply nth_In, Hi1|exact Hi2].
    - cbn [mapM]. rewrite Ec. cbn [bind]. rewrite E. cbn [bind map]. rewrite !map_map.
      assert (G : forall g : A -> num, map (fun i => nth i (map g S) NaN) idx = map (fun i => g (nth i S d)) idx).
      { intros g. apply map_ext_in. intros i Hi. destruct (Hin i Hi) as [Hi1 _]. rewrite (nth_indep _ NaN (g d)) by (rewrite map_length; exact Hi1). apply map_nth. }
      rewrite !G. reflexivity. }
  destruct (M (seq 0 (repeats e))) as (rs & Hl & Hrs & E). rewrite seq_length in Hl. rewrite E. cbn [bind]. rewrite !map_map. cbn [fst snd].
  assert (N : rs <> []) by (intros ->; cbn in Hl; lia).
  assert (Nm : forall g : list A -> num, map g rs <> []) by (intros g Q; apply N; eapply map_eq_nil, Q).
  destruct (plain_triple_ok (confidence e) _ (Nm (fun s => mean_of_env e (map gp s))) C0 C1) as (v & Ev & Tv & Lv).
  destruct (plain_triple_ok (confidence e) _ (Nm (fun s => mean_of_env e (map gt s))) C0 C1) as (w & Ew & Tw & Lw).
  exists (v, w). split; [rewrite Ev; cbn [bind]; rewrite Ew; reflexivity|]. exists rs. split; [split; [exact Hl|exact Hrs]|]. auto.
Qed.
Lemma boot_bin_empty {A} e rng n (S : list A) (gp gt : list num) (bin : A -> nat) b : cells_of S bin b = [] ->
  rel_boot_bin e rng n (map (fun x => Z.of_nat (bin x)) S) gp gt b = Ok ([], []).
Proof.
  intros H. unfold rel_boot_bin. destruct (where_eq _ b) as [|i0 ii] eqn:Ei; [reflexivity|]. exfalso. destruct S as [|d S']; [discriminate Ei|].
  assert (Q : In i0 (where_eq (map (fun x => Z.of_nat (bin x)) (d :: S')) b)) by (rewrite Ei; left; reflexivity). apply (where_eq_cells (d :: S') d) in Q as [Q1 Q2].
  assert (X : In (nth i0 (d :: S') d) (cells_of (d :: S') bin b)) by (apply in_cells; split; [apply nth_In, Q1|exact Q2]). rewrite H in X. exact X.
Qed.
(** the points of one slice, and the counts *)
Definition slice_result {A} (e : boot_env) (n nb : nat) (S : list A) (gp gt : A -> num) (ids_t : list Z) (bin : A -> nat)
    (r : list (list num) * list (list num) * list (Z * nat) * list (Z * nat)) : Prop :=
  exists pts, fst (fst (fst r)) = map (fun b => fst (pts b)) (occupied S bin nb) /\ snd (fst (fst r)) = map (fun b => snd (pts b)) (occupied S bin nb) /\
    (forall b, In b (occupied S bin nb) -> bin_result e n S gp gt bin b (pts b)) /\
    snd (fst r) = map (fun b => (Z.of_nat b, length (cells_of S bin b))) (occupied S bin nb) /\ snd r = value_counts ids_t.
Lemma boot_slice_spec {A} e rng n nb (S : list A) (gp gt : A -> num) (bin : A -> nat) :
  (0 <= confidence e)%Qc -> (confidence e <= 1)%Qc -> 0 < repeats e -> (forall x, In x S -> bin x < nb) ->
  exists r, rel_boot_slice e rng n (map (fun x => Z.of_nat (bin x)) S) (map gp S) (map gt S) (rel_bins nb) = Ok r /\ slice_result e n nb S gp gt (map to_int (map gt S)) bin r.
Proof.
  intros C0 C1 Hr Hb. assert (Hb1 : forall x, In x S -> bin x < nb + 1) by (intros x Hx; specialize (Hb x Hx); lia).
  set (ids := map (fun x => Z.of_nat (bin x)) S). set (pts := fun b => match rel_boot_bin e (rng b) n ids (map gp S) (map gt S) b with Ok v => v | Raise _ => ([], []) end).
  assert (P : forall b, rel_boot_bin e (rng b) n ids (map gp S) (map gt S) b = Ok (pts b) /\ (cells_of S bin b <> [] -> bin_result e n S gp gt bin b (pts b))).
  { intros b. unfold pts. destruct (cells_of S bin b) as [|c cc] eqn:E.
    - unfold ids. rewrite (boot_bin_empty e (rng b) n S _ _ bin b E). split; [reflexivity|intros C; elim C; reflexivity].
    - destruct (boot_bin_spec e (rng b) n S gp gt bin b C0 C1 Hr) as (r & Er & Br); [rewrite E; discriminate|]. unfold ids. rewrite Er. auto. }
  unfold rel_boot_slice. rewrite (mapM_total _ pts) by (intros b _; apply P). cbn [bind]. unfold ids. rewrite rel_bins_length, (bincount_spec S bin _ Hb1). cbn [bind]. rewrite nonzero_spec.
  rewrite (occupied_ext S bin nb (nb + 1)) by (try lia; exact Hb). rewrite (value_counts_spec S bin nb Hb). eexists. split; [reflexivity|].
  exists pts. cbn [fst snd]. rewrite !map_map. split; [reflexivity|]. split; [reflexivity|]. split; [|split; reflexivity]. intros b Hi. apply in_occupied in Hi as [_ Hi]. apply P, Hi.
Qed.

(** ** The whole function *)
Lemma stack3_ok keep (ls : list (list (list num))) M : length ls = prod keep -> prod keep <> 0 -> (forall l, In l ls -> length l = M /\ forall t, In t l -> length t = 3) ->
  exists a, stack3 keep ls = Ok a /\ shape a = keep ++ [M; 3] /\
  forall k, valid keep k -> map (fun j => map (fun t => get a (k ++ [j; t])) (seq 0 3)) (seq 0 M) = nth (flat keep k) ls [].
Proof.
  intros Hl HK H. unfold stack3. assert (Hh : length (hd [] ls) = M) by (destruct ls as [|l ls]; [cbn in Hl; lia|apply (H l); left; reflexivity]). rewrite Hh.
  assert (E : forallb (fun l => length l =? M) ls = true) by (apply forallb_forall; intros l Hi; apply Nat.eqb_eq, (H l Hi)). rewrite E.
  eexists. split; [reflexivity|]. split; [reflexivity|]. intros k Hk. pose proof (flat_lt keep k Hk) as Hf. rewrite <- Hl in Hf.
  pose proof (nth_In ls [] Hf) as Hi. destruct (H _ Hi) as [H1 H2]. cbn [of_list get].
  apply (nth_ext _ _ [] []); [rewrite map_length, seq_length; symmetry; exact H1|]. intros j Hj. rewrite map_length, seq_length in Hj.
  set (g := fun j => map (fun t => nth (flat (keep ++ [M; 3]) (k ++ [j; t])) (concat (concat ls)) NaN) (seq 0 3)).
  rewrite (nth_indep _ [] (g 0)) by (rewrite map_length, seq_length; exact Hj). rewrite (map_nth g), seq_nth by exact Hj. cbn [Nat.add]. unfold g.
  pose proof (nth_In (nth (flat keep k) ls []) [] (eq_ind_r (fun z => j < z) Hj H1)) as Hj'. pose proof (H2 _ Hj') as H3.
  assert (Hc : nth (flat keep k * M + j) (concat ls) [] = nth j (nth (flat keep k) ls []) []) by (apply P_work.concat_nth; [intros l Hl'; apply (H l Hl')|exact Hf|exact Hj]).
  assert (Hcl : length (concat ls) = length ls * M).
  { clear -H. induction ls as [|l ls IH]; [reflexivity|]. cbn [concat length]. rewrite app_length, IH by (intros l' Hl'; apply H; right; exact Hl'). destruct (H l (or_introl eq_refl)) as [-> _]. lia. }
  assert (Ht : forall l, In l (concat ls) -> length l = 3) by (intros l Hl'; apply in_concat in Hl' as (x & Hx & Hlx); apply (H x Hx), Hlx).
  assert (Ent : forall t, t < 3 -> nth (flat (keep ++ [M; 3]) (k ++ [j; t])) (concat (concat ls)) NaN = nth t (nth j (nth (flat keep k) ls []) []) NaN).
  { intros t Ht3. rewrite flat_app by exact Hk. cbn [flat prod]. replace (flat keep k * (M * (3 * 1)) + (j * (3 * 1) + (t * 1 + 0))) with ((flat keep k * M + j) * 3 + t) by lia.
    rewrite (P_work.concat_nth NaN 3); [rewrite Hc; reflexivity|exact Ht| |exact Ht3]. rewrite Hcl. nia. }
  cbn [seq map]. rewrite !Ent by lia. destruct (nth j (nth (flat keep k) ls []) []) as [|a [|b [|c [|]]]]; try discriminate H3. reflexivity.
Qed.
Section Api.
  Variables (f o : arr num) (nb : nat) (ax : option (list Z)) (ns : list nat).
  Let nd := length (shape o).
  Let m := mask_of nd ns.
  Let keep := unsel m (shape o).
  Hypothesis Hsh : shape f = shape o.
  Hypothesis Hsp : sorted_spelling nd ax ns.
  Hypothesis HK : prod keep <> 0%nat.
  Variables (e : boot_env) (rng : nat -> nat -> nat -> nat -> nat) (n : nat).
  Variable sl : list nat -> list (list num) * list (list num) * list (Z * nat) * list (Z * nat).
  Hypothesis Hsl : forall k, valid keep k -> rel_boot_slice e (rng (flat keep k)) n (map (fun ix => bin_id nb (get f ix)) (group (shape o) m k)) (map (get f) (group (shape o) m k)) (map (get o) (group (shape o) m k)) (rel_bins nb) = Ok (sl k).
  Lemma boot_slices : exists f2 o2, rel_split f o nb ax = Ok (amap (bin_id nb) f2, f2, o2, rel_bins nb) /\
    rel_agg_boot e rng n (amap (bin_id nb) f2) f2 o2 (rel_bins nb) =
    match keep with
    | [] => let '(p, t, pc, tc) := sl [] in Ok (BSingle p t pc tc)
    | _ => p <- stack3 keep (map (fun k => fst (fst (fst (sl k)))) (indices keep)) ;; t <- stack3 keep (map (fun k => snd (fst (fst (sl k)))) (indices keep)) ;;
           Ok (BMany p t (stack 0 keep (map (fun k => map snd (snd (fst (sl k)))) (indices keep))) (stack 0 keep (map (fun k => map snd (snd (sl k))) (indices keep))))
    end.
  Proof.
    destruct (rel_split_ok f o nb ax ns Hsh Hsp HK) as (f2 & o2 & E & Sf & So & C). fold nd m keep in Sf, So, C. set (N := prod (sel m (shape o))) in *.
    exists f2, o2. split; [exact E|]. unfold rel_agg_boot. rewrite So. cbn [tl hd].
    assert (X : forall k, valid keep k -> rel_boot_slice e (rng (flat keep k)) n (col (reshape [N; prod keep] (amap (bin_id nb) f2)) (flat keep k)) (col (reshape [N; prod keep] f2) (flat keep k)) (col (reshape [N; prod keep] o2) (flat keep k)) (rel_bins nb) = Ok (sl k)).
    { intros k Hk. rewrite <- (Hsl k Hk). destruct (C k Hk) as [C1 C2]. rewrite col_amap, C1, C2, map_map. reflexivity. }
    destruct keep as [|K0 keep'] eqn:Ekeep.
    - assert (V : valid [] []) by constructor. specialize (X [] V). cbn [prod flat] in X.
      assert (R : forall g : num -> Z, ravel (amap g f2) = map g (ravel f2)) by (intros g; unfold ravel; rewrite map_map; reflexivity).
      rewrite R, (ravel_col f2 N Sf), (ravel_col o2 N So). rewrite col_amap in X. rewrite X. reflexivity.
    - rewrite <- Ekeep in *. fold keep. rewrite <- (map_flat_indices keep), mapM_map.
      rewrite (mapM_total _ sl) by (intros k Hk; apply X, in_indices, Hk). cbn [bind]. rewrite !map_map. reflexivity.
  Qed.
End Api.
