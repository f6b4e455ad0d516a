From Coq Require Import ZArith List Bool Arith Lia QArith Qcanon Reals Sorting.Permutation Sorting.Sorted.
From Verif Require Import QcTac QSum Num NdArr Numpy M_common NdAxes NdMove M_boot Spec RTier P_boot M_rel Spec_rel P_rel M_ss Spec_ss.
Import ListNotations.
Open Scope nat_scope.

(** ** Bins *)
Lemma nth_split_sizes len n i : i < n -> nth i (split_sizes len n) 0 = if i <? len mod n then len / n + 1 else len / n.
Proof.
  intros H. unfold split_sizes. destruct (Nat.ltb_spec i (len mod n)) as [L|L].
  - rewrite app_nth1 by (rewrite repeat_length; exact L). rewrite (nth_indep _ 0 (len / n + 1)) by (rewrite repeat_length; exact L). apply nth_repeat.
  - assert (len mod n < n) by (apply Nat.mod_upper_bound; lia).
    rewrite app_nth2 by (rewrite repeat_length; lia). rewrite repeat_length. rewrite (nth_indep _ 0 (len / n)) by (rewrite repeat_length; lia). apply nth_repeat.
Qed.
Lemma in_chunks {A} sizes (l B : list A) x : In B (chunks sizes l) -> In x B -> In x l.
Proof.
  revert l. induction sizes as [|s sizes IH]; intros l HB Hx; [destruct HB|]. cbn [chunks] in HB. rewrite <- (firstn_skipn s l). apply in_or_app.
  destruct HB as [<-|HB]; [left; exact Hx|right; exact (IH _ HB Hx)].
Qed.
Lemma sorted_app {A} (le : A -> A -> Prop) l1 l2 : StronglySorted le (l1 ++ l2) -> StronglySorted le l2 /\ forall x y, In x l1 -> In y l2 -> le x y.
Proof.
  induction l1 as [|a l1 IH]; intros H; [split; [exact H|intros x y []]|]. cbn in H. apply StronglySorted_inv in H as [H1 H2]. destruct (IH H1) as [I1 I2].
  split; [exact I1|]. intros x y [<-|Hx] Hy; [|apply I2; assumption]. rewrite Forall_forall in H2. apply H2, in_or_app. right. exact Hy.
Qed.
Lemma chunks_sorted {A} (le : A -> A -> Prop) sizes l i j x y : StronglySorted le l -> i < j -> j < length sizes ->
  In x (nth i (chunks sizes l) []) -> In y (nth j (chunks sizes l) []) -> le x y.
Proof.
  revert l i j. induction sizes as [|s sizes IH]; intros l i j Hs Hij Hj Hx Hy; [cbn in Hj; lia|]. cbn [chunks length] in *.
  rewrite <- (firstn_skipn s l) in Hs. destruct (sorted_app _ _ _ Hs) as [H1 H2]. destruct j as [|j]; [lia|].
  destruct i as [|i]; cbn [nth] in Hx, Hy.
  - apply H2; [exact Hx|]. eapply in_chunks; [|exact Hy]. apply nth_In. rewrite chunks_length. lia.
  - apply (IH _ i j H1); auto; lia.
Qed.
Lemma chunks_map {A B} (f : A -> B) sizes l : chunks sizes (map f l) = map (map f) (chunks sizes l).
Proof. revert l. induction sizes as [|s sizes IH]; intros l; [reflexivity|]. cbn [chunks map]. rewrite firstn_map, skipn_map, IH. reflexivity. Qed.
Lemma chunks_ordered {A} (le : A -> A -> Prop) SL L nb : 0 < nb <= length SL -> Permutation SL L -> StronglySorted le SL ->
  ordered_bins le L nb (chunks (split_sizes (length SL) nb) SL).
Proof.
  intros [H0 Hn] HP HS. set (sz := split_sizes (length SL) nb).
  assert (Sz : map (@length A) (chunks sz SL) = sz) by (apply chunks_sizes; unfold sz; rewrite split_sizes_sum by exact H0; lia).
  assert (Ln : length (chunks sz SL) = nb) by (rewrite chunks_length; apply split_sizes_length, H0).
  assert (Nt : forall i, i < nb -> length (nth i (chunks sz SL) []) = if i <? length SL mod nb then length SL / nb + 1 else length SL / nb).
  { intros i Hi. rewrite <- (nth_split_sizes _ _ _ Hi). fold sz. rewrite <- Sz at 2. change 0 with (length (@nil A)) at 1. symmetry. apply map_nth. }
  assert (Q1 : 1 <= length SL / nb) by (apply Nat.div_le_lower_bound; lia).
  split; [exact Ln|]. split; [|split; [|split]].
  - rewrite chunks_concat; [exact HP|]. unfold sz. rewrite split_sizes_sum by exact H0. lia.
  - intros B HB E. apply (In_nth _ _ []) in HB as (i & Hi & EB). rewrite Ln in Hi. specialize (Nt i Hi). rewrite EB, E in Nt. cbn [length] in Nt. destruct (Nat.ltb i (length SL mod nb)); lia.
  - intros i j Hij. rewrite !Nt by lia. destruct (Nat.ltb_spec i (length SL mod nb)), (Nat.ltb_spec j (length SL mod nb)); lia.
  - intros i j x y Hij Hx Hy. apply (chunks_sorted le sz SL i j x y HS); auto; [lia|]. unfold sz. rewrite split_sizes_length; lia.
Qed.
Lemma ordered_bins_perm {A} le (L L' : list A) nb Bs : Permutation L L' -> ordered_bins le L nb Bs -> ordered_bins le L' nb Bs.
Proof. intros P (H1 & H2 & H). split; [exact H1|]. split; [rewrite H2; exact P|exact H]. Qed.
Lemma map_seq_nth {A} (l : list A) d : map (fun i => nth i l d) (seq 0 (length l)) = l.
Proof.
  induction l as [|x l IH]; [reflexivity|]. cbn [length seq map nth]. f_equal. rewrite <- seq_shift, map_map. exact IH.
Qed.
Lemma map_nth_rows {A} (rs : list nat) (f : nat -> A) : map (fun r => f (nth r rs 0)) (seq 0 (length rs)) = map f rs.
Proof. rewrite <- (map_map (fun r => nth r rs 0) f), map_seq_nth. reflexivity. Qed.

(** np.moveaxis(a, 0, z) *)
Lemma moveaxis_to {A} (a : arr A) n s z t : shape a = n :: s -> norm_axis (S (length s)) z = Ok t -> t <= length s ->
  exists b, moveaxis 0 z a = Ok b /\ shape b = insert_at t n s /\ forall j k, length k = length s -> get b (insert_at t j k) = get a (j :: k).
Proof.
  intros Es Ez Ht. unfold moveaxis. rewrite Es. cbn [length].
  assert (E0 : norm_axis (S (length s)) 0 = Ok 0) by (apply (norm_axis_nat _ 0); lia). rewrite E0, Ez. cbn [bind].
  eexists. split; [reflexivity|]. split.
  - rewrite shape_transpose, Es, pick_moveaxis_order by (cbn [length]; lia). reflexivity.
  - intros j k Hk. rewrite <- (get_transpose (moveaxis_order (S (length s)) 0 t) a (j :: k)).
    + rewrite pick_moveaxis_order by (cbn [length]; lia). reflexivity.
    + rewrite Es. apply moveaxis_order_perm. lia.
    + rewrite Es. cbn [length]. lia.
Qed.
Lemma moveaxis_last {A} (a : arr A) n s : shape a = n :: s ->
  exists b, moveaxis 0 (-1) a = Ok b /\ shape b = s ++ [n] /\ forall j k, length k = length s -> get b (k ++ [j]) = get a (j :: k).
Proof.
  intros Es. destruct (moveaxis_to a n s (-1) (length s) Es) as (b & Eb & Sb & Gb); [|lia|].
  - apply norm_axis_fun; lia.
  - assert (I : forall (x : nat) l, length l = length s -> insert_at (length s) x l = l ++ [x]).
    { intros x l <-. rewrite <- (app_nil_r l) at 2. rewrite insert_at_app. reflexivity. }
    exists b. split; [exact Eb|]. split; [rewrite Sb, I; reflexivity|]. intros j k Hk. rewrite <- I by exact Hk. apply Gb, Hk.
Qed.
Lemma moveaxis_last2 {A} (a : arr A) n s m : shape a = n :: s ++ [m] ->
  exists b, moveaxis 0 (-2) a = Ok b /\ shape b = s ++ [n; m] /\ forall j k t, length k = length s -> get b (k ++ [j; t]) = get a (j :: k ++ [t]).
Proof.
  intros Es. destruct (moveaxis_to a n (s ++ [m]) (-2) (length s) Es) as (b & Eb & Sb & Gb); [| |].
  - rewrite app_length. cbn [length]. apply norm_axis_fun; lia.
  - rewrite app_length. lia.
  - assert (I : forall (x : nat) l y, length l = length s -> insert_at (length s) x (l ++ [y]) = l ++ [x; y]) by (intros x l y <-; apply insert_at_app).
    exists b. split; [exact Eb|]. split; [rewrite Sb, I; reflexivity|]. intros j k t Hk. rewrite <- I by exact Hk. apply Gb. rewrite !app_length. cbn. lia.
Qed.

(** ** The split *)
Lemma sorted_map {A B} (f : A -> B) (le : B -> B -> Prop) l : StronglySorted le (map f l) <-> StronglySorted (fun x y => le (f x) (f y)) l.
Proof.
  induction l as [|a l IH]; [split; constructor|]. cbn [map]. split; intros H; apply StronglySorted_inv in H as [H1 H2]; constructor; try (apply IH, H1).
  - rewrite Forall_map in H2. exact H2.
  - rewrite Forall_map. exact H2.
Qed.
Section Split.
  Variables (argsort : list num -> list nat) (v e : arr num) (nb : nat) (ax : option (list Z)) (ns : list nat).
  Let nd := length (shape v).
  Let m := mask_of nd ns.
  Let keep := unsel m (shape v).
  Let N := prod (sel m (shape v)).
  Hypothesis Harg : forall l, argsorts l (argsort l).
  Hypothesis Hsh : shape e = shape v.
  Hypothesis Hsp : sorted_spelling nd ax ns.
  Hypothesis HK : prod keep <> 0.
  Hypothesis Hnb : 0 < nb <= N.
  Lemma ss_split_ok : exists s, ss_create_split argsort v e nb ax = Ok s /\ ss_keep s = keep /\ length (ss_bins s) = nb /\
    (forall b, In b (ss_bins s) -> nth 2 (shape b) 0 = prod keep) /\
    forall k, valid keep k -> exists SL, Permutation SL (group (shape v) m k) /\ StronglySorted (fun x y => np_le (get v x) (get v y)) SL /\
      map (fun b => bin_pairs b (flat keep k)) (ss_bins s) = map (map (fun ix => (get v ix, get e ix))) (chunks (split_sizes N nb) SL) /\
      length SL = N.
  Proof.
    destruct (moved_columns v ax ns Hsp) as (b & Eb & Sb & Kb & Cb). fold nd m keep in Eb, Sb, Kb, Cb.
    assert (Hsp' : sorted_spelling (length (shape e)) ax ns) by (rewrite Hsh; exact Hsp).
    destruct (moved_columns e ax ns Hsp') as (c & Ec & Sc & Kc & Cc). rewrite Hsh in Ec, Sc, Kc, Cc. fold nd m keep in Ec, Sc, Kc, Cc.
    fold N in Cb, Cc.
    assert (HN : prod (shape b) / prod keep = N) by (rewrite Sb, prod_app; apply Nat.div_mul, HK).
    unfold ss_create_split. fold nd. fold (loop_axes nd ax). rewrite Hsh, list_eqb_refl. cbn [passert bind]. rewrite Eb, Ec. cbn [bind fst].
    rewrite Kb. destruct (prod keep) as [|K] eqn:EK; [contradiction|]. rewrite HN. set (K1 := S K) in *.
    destruct (Nat.leb_spec nb N) as [_|?]; [|lia]. cbn [passert bind].
    unfold array_split. destruct nb as [|nb'] eqn:Enb; [lia|]. rewrite <- Enb in *. clear Enb nb'. cbn [bind]. rewrite seq_length.
    eexists. split; [reflexivity|]. cbn [ss_bins ss_keep]. split; [reflexivity|]. split; [|split].
    - rewrite map_length, chunks_length. apply split_sizes_length. lia.
    - intros x Hx. apply in_map_iff in Hx as (rs & <- & _). reflexivity.
    - intros k Hk. specialize (Cb k Hk). specialize (Cc k Hk). set (G := group (shape v) m k) in *. set (cc := flat keep k) in *.
      assert (LG : length G = N) by (apply (f_equal (@length num)) in Cb; rewrite !map_length, seq_length in Cb; auto).
      set (cv := col (reshape [N; K1] b) cc). set (ce := col (reshape [N; K1] c) cc).
      assert (Ev : cv = map (get v) G) by exact Cb. assert (Ee : ce = map (get e) G) by exact Cc.
      destruct (Harg cv) as [P S]. set (idx := argsort cv) in *.
      assert (Lc : length cv = N) by (rewrite Ev, map_length; exact LG). rewrite Lc in P.
      set (SL := map (fun i => nth i G []) idx).
      assert (LI : length idx = N) by (rewrite (Permutation_length P); apply seq_length).
      assert (In_idx : forall i, In i idx -> i < length G) by (intros i Hi; apply (Permutation_in _ P), in_seq in Hi; lia).
      assert (Tk : forall (g : list nat -> num), take_rows (map g G) idx = map g SL).
      { intros g. unfold take_rows, SL. rewrite map_map. apply map_ext_in. intros i Hi.
        rewrite (nth_indep _ NaN (g [])) by (rewrite map_length; auto). apply map_nth. }
      exists SL. split; [|split; [|split]].
      + unfold SL. rewrite (Permutation_map _ P), <- LG, map_seq_nth. reflexivity.
      + apply (sorted_map (get v) np_le). rewrite <- Tk, <- Ev. exact S.
      + assert (LS : length SL = N) by (unfold SL; rewrite map_length; exact LI).
        rewrite <- (map_seq_nth SL []), LS at 1. rewrite chunks_map. rewrite !map_map. apply map_ext_in. intros rs Hrs. unfold bin_pairs. cbn [shape get nth Nat.eqb].
        rewrite map_map. fold cv. fold ce. fold idx. rewrite (map_nth_rows rs (fun r0 => (nth r0 (take_rows cv idx) NaN, nth r0 (take_rows ce idx) NaN))).
        apply map_ext_in. intros r Hr.
        assert (Hr' : r < length SL) by (apply (in_chunks _ _ _ r Hrs) in Hr; apply in_seq in Hr; lia).
        rewrite Ev, Ee, !Tk. f_equal; rewrite (nth_indep _ NaN (get v [])) || rewrite (nth_indep _ NaN (get e [])); try (rewrite map_length; exact Hr').
        * apply map_nth.
        * rewrite (nth_indep _ (get v []) (get e [])) by (rewrite map_length; exact Hr'). apply map_nth.
      + unfold SL. rewrite map_length. exact LI.
  Qed.
End Split.

(** ** The curve without bootstrap *)
Lemma table_get {A} (d : A) n keep (tbl : list (list A)) j k : length tbl = n -> (forall l, In l tbl -> length l = prod keep) -> j < n -> valid keep k ->
  get (of_list d (n :: keep) (concat tbl)) (j :: k) = nth (flat keep k) (nth j tbl []) d.
Proof.
  intros Hn Hl Hj Hk. cbn [of_list get flat]. apply (P_work.concat_nth d (prod keep)); [exact Hl|lia|apply flat_lt, Hk].
Qed.
Lemma bin_cols (b : arr num) c (g h : list nat -> num) B : bin_pairs b c = map (fun ix => (g ix, h ix)) B ->
  bin_col b 0 c = map g B /\ bin_col b 1 c = map h B /\ nth 0 (shape b) 0 = length B.
Proof.
  intros H. unfold bin_pairs in H. split; [|split].
  - apply (f_equal (map fst)) in H. rewrite !map_map in H. exact H.
  - apply (f_equal (map snd)) in H. rewrite !map_map in H. exact H.
  - apply (f_equal (@length _)) in H. rewrite !map_length, seq_length in H. exact H.
Qed.
Definition some_bin : arr num := Arr [] (fun _ => NaN).
Lemma ss_curves_ok {B} (root : num -> B) skip bins keep : bins <> [] -> (forall b, In b bins -> nth 2 (shape b) 0 = prod keep) ->
  exists sp rm, ss_curves root skip bins keep = Ok (sp, rm) /\ shape sp = keep ++ [length bins] /\ shape rm = keep ++ [length bins] /\
  forall k j, valid keep k -> j < length bins ->
    get sp (k ++ [j]) = root ((if skip then nanmean else nmean) (bin_col (nth j bins some_bin) 0 (flat keep k))) /\
    get rm (k ++ [j]) = root ((if skip then nanmean else nmean) (bin_col (nth j bins some_bin) 1 (flat keep k))).
Proof.
  intros Hb H2. unfold ss_curves. destruct bins as [|b0 bins'] eqn:E; [contradiction|]. rewrite (H2 b0) by (left; reflexivity). rewrite Nat.eqb_refl. cbn [passert bind].
  rewrite <- E in *. clear E b0 bins' Hb. set (mean := if skip then nanmean else nmean).
  set (table := fun t => map (fun b => map (fun c => mean (bin_col b t c)) (seq 0 (nth 2 (shape b) 0))) bins).
  assert (X : forall t, exists o, moveaxis 0 (-1) (amap root (of_list NaN (length bins :: keep) (concat (table t)))) = Ok o /\ shape o = keep ++ [length bins] /\
    forall k j, valid keep k -> j < length bins -> get o (k ++ [j]) = root (mean (bin_col (nth j bins some_bin) t (flat keep k)))).
  { intros t. destruct (moveaxis_last (amap root (of_list NaN (length bins :: keep) (concat (table t)))) (length bins) keep eq_refl) as (o & Eo & So & Go).
    exists o. split; [exact Eo|]. split; [exact So|]. intros k j Hk Hj. rewrite Go by (apply valid_length, Hk). cbn [amap get].
    f_equal. change (get (of_list NaN (length bins :: keep) (concat (table t))) (j :: k) = mean (bin_col (nth j bins some_bin) t (flat keep k))). rewrite table_get; [|unfold table; rewrite map_length; reflexivity| |exact Hj|exact Hk].
    - unfold table. rewrite (nth_indep _ [] ((fun b => map (fun c => mean (bin_col b t c)) (seq 0 (nth 2 (shape b) 0))) some_bin)) by (rewrite map_length; exact Hj).
      rewrite (map_nth (fun b => map (fun c => mean (bin_col b t c)) (seq 0 (nth 2 (shape b) 0)))). rewrite (H2 (nth j bins some_bin)) by (apply nth_In, Hj). pose proof (flat_lt keep k Hk) as Hf.
      rewrite (nth_indep _ NaN (mean (bin_col (nth j bins some_bin) t 0))) by (rewrite map_length, seq_length; exact Hf).
      rewrite (map_nth (fun c => mean (bin_col (nth j bins some_bin) t c))), seq_nth by exact Hf. reflexivity.
    - intros l Hl. unfold table in Hl. apply in_map_iff in Hl as (b & <- & Hb). rewrite map_length, seq_length. apply H2, Hb. }
  destruct (X 0) as (sp & Es & Ss & Gs). destruct (X 1) as (rm & Er & Sr & Gr). unfold table in Es, Er. rewrite Es, Er. cbn [bind]. exists sp, rm. split; [reflexivity|]. split; [exact Ss|]. split; [exact Sr|].
  intros k j Hk Hj. split; [apply Gs|apply Gr]; assumption.
Qed.
Lemma ss_no_boot_ok skip bins keep : bins <> [] -> (forall b, In b bins -> nth 2 (shape b) 0 = prod keep) ->
  exists sp rm, ss_no_boot skip bins keep = Ok (sp, rm) /\ shape sp = keep ++ [length bins] /\ shape rm = keep ++ [length bins] /\
  forall k j, valid keep k -> j < length bins ->
    get sp (k ++ [j]) = nsqrt ((if skip then nanmean else nmean) (bin_col (nth j bins some_bin) 0 (flat keep k))) /\
    get rm (k ++ [j]) = nsqrt ((if skip then nanmean else nmean) (bin_col (nth j bins some_bin) 1 (flat keep k))).
Proof. apply ss_curves_ok. Qed.

(** ** The curve with bootstrap *)
Lemma np_quantile_total l p : l <> [] -> (0 <= p)%Qc -> (p <= 1)%Qc -> exists x, np_quantile l p = Ok x.
Proof.
  intros Hl H0 H1. unfold np_quantile. destruct l as [|a l]; [contradiction|].
  assert (E : (qleb 0 p && qleb p 1)%bool = true) by (apply andb_true_intro; split; apply qleb_le; assumption).
  destruct (qleb 0 p); [|discriminate E]. destruct (qleb p 1); [|discriminate E]. cbn. destruct (_ || _)%bool; eexists; reflexivity.
Qed.
Lemma mapM_exists {A B} (f : A -> res B) (Q : A -> B -> Prop) l : (forall x, In x l -> exists y, f x = Ok y /\ Q x y) -> exists ys, mapM f l = Ok ys /\ Forall2 Q l ys.
Proof.
  intros H. induction l as [|x l IH]; [exists []; split; [reflexivity|constructor]|].
  destruct (H x (or_introl eq_refl)) as (y & Ey & Qy). destruct IH as (ys & Eys & Qys); [intros z Hz; apply H; right; exact Hz|].
  exists (y :: ys). cbn [mapM]. rewrite Ey. cbn [bind]. rewrite Eys. split; [reflexivity|constructor; assumption].
Qed.
Lemma Forall2_len {A B} (Q : A -> B -> Prop) l ys : Forall2 Q l ys -> length l = length ys.
Proof. induction 1; cbn; congruence. Qed.
Lemma Forall2_nth {A B} (Q : A -> B -> Prop) l ys i da db : Forall2 Q l ys -> i < length l -> Q (nth i l da) (nth i ys db).
Proof. intros H. revert i. induction H as [|x y l ys Hx _ IH]; intros [|i] Hi; cbn in *; try lia; [exact Hx|apply IH; lia]. Qed.
Lemma plain_triple_ok c stats : stats <> [] -> (0 <= c)%Qc -> (c <= 1)%Qc -> exists v, plain_triple c stats = Ok v /\ triple_of np_quantile (1 - c)%Qc c stats v /\ length v = 3.
Proof.
  intros Hl H0 H1. unfold plain_triple. destruct (np_quantile_total stats (1 - c)%Qc Hl) as (lo & El); [qlra|qlra|]. destruct (np_quantile_total stats c Hl H0 H1) as (hi & Eh).
  rewrite El. cbn [bind]. rewrite Eh. cbn [bind]. exists [lo; nmean stats; hi]. split; [reflexivity|]. split; [|reflexivity]. exists lo, hi. auto.
Qed.
Lemma resample_bin (b : arr num) c (g h : list nat -> num) B r n : bin_pairs b c = map (fun ix => (g ix, h ix)) B -> B <> [] ->
  exists idx s, choice r (seq 0 (nth 0 (shape b) 0)) n = Ok idx /\ length s = n /\ (forall x, In x s -> In x B) /\
    map (fun i => get b [i; 0; c]) idx = map g s /\ map (fun i => get b [i; 1; c]) idx = map h s.
Proof.
  intros H HB. destruct (bin_cols b c g h B H) as (_ & _ & Hl). rewrite Hl.
  assert (Hc : exists idx, choice r (seq 0 (length B)) n = Ok idx).
  { destruct B; [contradiction|]. cbn [length seq choice]. eexists. reflexivity. }
  destruct Hc as (idx & Ei). exists idx, (map (fun i => nth i B []) idx).
  assert (Hi : forall i, In i idx -> i < length B) by (intros i Hi; apply (choice_in _ _ _ _ _ Ei), in_seq in Hi; lia).
  assert (Hp : forall i, i < length B -> (get b [i; 0; c], get b [i; 1; c]) = (g (nth i B []), h (nth i B []))).
  { intros i Hlt. unfold bin_pairs in H. rewrite Hl in H. apply (f_equal (fun l => nth i l (get b [0; 0; c], get b [0; 1; c]))) in H.
    rewrite (map_nth (fun r => (get b [r; 0; c], get b [r; 1; c]))), seq_nth in H by exact Hlt. rewrite Nat.add_0_l in H. rewrite H.
    rewrite (nth_indep _ _ ((fun ix => (g ix, h ix)) [])) by (rewrite map_length; exact Hlt). apply (map_nth (fun ix => (g ix, h ix))). }
  split; [exact Ei|]. split; [rewrite map_length; apply (choice_length _ _ _ _ Ei)|]. split.
  - intros x Hx. apply in_map_iff in Hx as (i & <- & Hx). apply nth_In, Hi, Hx.
  - rewrite !map_map. split; apply map_ext_in; intros i Hin; specialize (Hp i (Hi i Hin)); injection Hp as E1 E2; assumption.
Qed.
Definition boot_cell (e : boot_env) (n : nat) (g h : list nat -> num) (B : list (list nat)) (tv te : list num) : Prop :=
  let mean := if skip_nan e then nanmean else nmean in
  exists rs, resamples_of B n (repeats e) rs /\
    triple_of np_quantile (1 - confidence e)%Qc (confidence e) (map (fun s => mean (map g s)) rs) tv /\
    triple_of np_quantile (1 - confidence e)%Qc (confidence e) (map (fun s => mean (map h s)) rs) te.
Section Boot.
  Context {RT : Type} (root : num -> RT).
  Variables (e : boot_env) (rng : nat -> nat -> nat -> nat -> nat) (n : nat) (bins : list (arr num)) (keep : list nat) (g h : list nat -> num) (B : nat -> nat -> list (list nat)).
  Hypothesis H0 : (0 <= confidence e)%Qc.
  Hypothesis H1 : (confidence e <= 1)%Qc.
  Hypothesis Hr : 0 < repeats e.
  Hypothesis H2 : forall b, In b bins -> nth 2 (shape b) 0 = prod keep.
  Hypothesis HB : forall j c, j < length bins -> c < prod keep -> bin_pairs (nth j bins some_bin) c = map (fun ix => (g ix, h ix)) (B j c) /\ B j c <> [].
  Let mean := if skip_nan e then nanmean else nmean.
  Lemma boot_cell_ok j c a : j < length bins -> c < prod keep -> a = nth j bins some_bin ->
    exists p, (ps <- mapM (fun r => idx <- choice (rng j c r) (seq 0 (nth 0 (shape a) 0)) n ;;
                                  Ok (mean (map (fun i => get a [i; 0; c]) idx), mean (map (fun i => get a [i; 1; c]) idx))) (seq 0 (repeats e)) ;;
             v <- plain_triple (confidence e) (map fst ps) ;;
             m <- plain_triple (confidence e) (map snd ps) ;; Ok (v, m)) = Ok p /\
      boot_cell e n g h (B j c) (fst p) (snd p) /\ length (fst p) = 3 /\ length (snd p) = 3.
  Proof.
    intros Hj Hc ->. destruct (HB j c Hj Hc) as [Hp Hne].
    destruct (mapM_exists (fun r => idx <- choice (rng j c r) (seq 0 (nth 0 (shape (nth j bins some_bin)) 0)) n ;;
      Ok (mean (map (fun i => get (nth j bins some_bin) [i; 0; c]) idx), mean (map (fun i => get (nth j bins some_bin) [i; 1; c]) idx)))
      (fun _ y => exists s, length s = n /\ (forall x, In x s -> In x (B j c)) /\ y = (mean (map g s), mean (map h s))) (seq 0 (repeats e))) as (ps & Eps & Qps).
    { intros r _. destruct (resample_bin (nth j bins some_bin) c g h (B j c) (rng j c r) n Hp Hne) as (idx & s & Ei & Ls & Is & E1 & E2). rewrite Ei. cbn [bind].
      eexists. split; [reflexivity|]. exists s. split; [exact Ls|]. split; [exact Is|]. rewrite E1, E2. reflexivity. }
    assert (Hrs : exists rs, resamples_of (B j c) n (repeats e) rs /\ ps = map (fun s => (mean (map g s), mean (map h s))) rs).
    { clear Eps. assert (X : forall l : list nat, Forall2 (fun _ y => exists s, length s = n /\ (forall x, In x s -> In x (B j c)) /\ y = (mean (map g s), mean (map h s))) l ps ->
        exists rs, length rs = length l /\ (forall s, In s rs -> length s = n /\ forall x, In x s -> In x (B j c)) /\ ps = map (fun s => (mean (map g s), mean (map h s))) rs).
      { clear Qps. induction ps as [|y ps' IH]; intros l HF; inversion HF as [|r ? l' ? Hy Hl]; subst.
        - exists []. split; [reflexivity|]. split; [intros s []|reflexivity].
        - destruct Hy as (s & Ls & Is & ->). destruct (IH l' Hl) as (rs & Lr & Ir & Er). subst ps'. exists (s :: rs). split; [cbn; congruence|]. split; [|reflexivity].
          intros s' [<-|Hs']; [auto|apply Ir, Hs']. }
      destruct (X _ Qps) as (rs & Lr & Ir & Er). rewrite seq_length in Lr. exists rs. split; [split; [exact Lr|exact Ir]|exact Er]. }
    destruct Hrs as (rs & Rrs & ->). rewrite Eps. cbn [bind]. rewrite !map_map. cbn [fst snd].
    assert (Hn : rs <> []) by (intros ->; destruct Rrs as [L _]; cbn in L; lia).
    destruct (plain_triple_ok (confidence e) (map (fun s => mean (map g s)) rs)) as (v & Ev & Tv & Lv); [destruct rs; [contradiction|discriminate]|exact H0|exact H1|].
    destruct (plain_triple_ok (confidence e) (map (fun s => mean (map h s)) rs)) as (w & Ew & Tw & Lw); [destruct rs; [contradiction|discriminate]|exact H0|exact H1|].
    rewrite Ev. cbn [bind]. rewrite Ew. cbn [bind]. exists (v, w). split; [reflexivity|]. split; [|split; [exact Lv|exact Lw]]. exists rs. auto.
  Qed.
  Lemma ss_boot_with_ok : exists sp rm, ss_boot_with root e rng n bins keep = Ok (sp, rm) /\ shape sp = keep ++ [length bins; 3] /\ shape rm = keep ++ [length bins; 3] /\
    forall k j, valid keep k -> j < length bins -> exists tv te, boot_cell e n g h (B j (flat keep k)) tv te /\
      forall t, t < 3 -> get sp (k ++ [j; t]) = root (nth t tv NaN) /\ get rm (k ++ [j; t]) = root (nth t te NaN).
  Proof.
    unfold ss_boot_with. fold mean.
    set (Q := fun j c (p : list num * list num) => boot_cell e n g h (B j c) (fst p) (snd p) /\ length (fst p) = 3 /\ length (snd p) = 3).
    match goal with |- context [mapM ?f (combine _ _)] => set (F := f) end.
    destruct (mapM_exists F (fun x ys => Forall2 (Q (fst x)) (seq 0 (prod keep)) ys) (combine (seq 0 (length bins)) bins)) as (cis & Ecis & Qcis).
    { intros [j a] Hin. apply (In_nth _ _ (0, some_bin)) in Hin as (i & Hi & Ei). rewrite combine_length, seq_length, Nat.min_id in Hi.
      rewrite combine_nth, seq_nth in Ei by (try apply seq_length; exact Hi). injection Ei as <- <-. cbn [Nat.add]. unfold F.
      rewrite (H2 (nth i bins some_bin)) by (apply nth_In, Hi). apply mapM_exists. intros c Hc. apply in_seq in Hc. cbn [fst].
      destruct (boot_cell_ok i c (nth i bins some_bin) Hi) as (p & Ep & Qp); [lia|reflexivity|]. exists p. split; [exact Ep|exact Qp]. }
    rewrite Ecis. cbn [bind].
    assert (Lc : length cis = length bins) by (apply Forall2_len in Qcis; rewrite combine_length, seq_length, Nat.min_id in Qcis; auto).
    assert (Rows : forall j, j < length bins -> Forall2 (Q j) (seq 0 (prod keep)) (nth j cis [])).
    { intros j Hj. pose proof (Forall2_nth _ _ _ j (0, some_bin) [] Qcis) as X. rewrite combine_length, seq_length, Nat.min_id in X. specialize (X Hj).
      rewrite combine_nth, seq_nth in X by (try apply seq_length; exact Hj). exact X. }
    assert (Lrow : forall l, In l cis -> length l = prod keep).
    { intros l Hl. apply (In_nth _ _ []) in Hl as (j & Hj & <-). rewrite Lc in Hj. pose proof (Forall2_len _ _ _ (Rows j Hj)) as X. rewrite seq_length in X. auto. }
    assert (Lcc : length (concat cis) = prod keep * length bins).
    { rewrite <- Lc. clear -Lrow. induction cis as [|l cis IH]; [cbn; lia|]. cbn [concat length]. rewrite app_length, (Lrow l (or_introl eq_refl)), IH; [lia|].
      intros l' Hl'. apply Lrow. right. exact Hl'. }
    rewrite Lcc, Nat.eqb_refl. cbn [passert bind].
    assert (Get : forall j c, j < length bins -> c < prod keep -> Q j c (nth (j * prod keep + c) (concat cis) ([], []))).
    { intros j c Hj Hc. rewrite (P_work.concat_nth ([], []) (prod keep)) by (try exact Lrow; lia).
      pose proof (Forall2_nth _ _ _ c 0 ([], []) (Rows j Hj)) as X. rewrite seq_length, seq_nth in X by exact Hc. apply X, Hc. }
    assert (X : forall pr : list num * list num -> list num, (forall p j c, Q j c p -> length (pr p) = 3) ->
      exists o, moveaxis 0 (-2) (amap root (of_list NaN (length bins :: keep ++ [3]) (concat (map pr (concat cis))))) = Ok o /\ shape o = keep ++ [length bins; 3] /\
      forall k j t, valid keep k -> j < length bins -> t < 3 -> get o (k ++ [j; t]) = root (nth t (pr (nth (j * prod keep + flat keep k) (concat cis) ([], []))) NaN)).
    { intros pr Hpr. destruct (moveaxis_last2 (amap root (of_list NaN (length bins :: keep ++ [3]) (concat (map pr (concat cis))))) (length bins) keep 3 eq_refl) as (o & Eo & So & Go).
      exists o. split; [exact Eo|]. split; [exact So|]. intros k j t Hk Hj Ht. rewrite Go by (apply valid_length, Hk). cbn [amap get of_list]. f_equal.
      pose proof (flat_lt keep k Hk) as Hf.
      assert (Ef : flat (length bins :: keep ++ [3]) (j :: k ++ [t]) = (j * prod keep + flat keep k) * 3 + t).
      { cbn [flat]. rewrite flat_app by exact Hk. rewrite prod_app. cbn [prod flat]. lia. }
      rewrite Ef. assert (Hlt : j * prod keep + flat keep k < length (concat cis)) by (rewrite Lcc; nia).
      rewrite (P_work.concat_nth NaN 3).
      - rewrite (nth_indep _ [] (pr ([], []))) by (rewrite map_length; exact Hlt). rewrite map_nth. reflexivity.
      - intros l Hl. apply in_map_iff in Hl as (p & <- & Hp). apply (In_nth _ _ ([], [])) in Hp as (q & Hq & <-). rewrite Lcc in Hq.
        assert (HK : prod keep <> 0) by nia.
        pose proof (Nat.div_mod q (prod keep) HK) as D. pose proof (Nat.mod_upper_bound q (prod keep) HK) as M.
        apply (Hpr _ (q / prod keep) (q mod prod keep)). rewrite D at 3. rewrite (Nat.mul_comm (prod keep)). apply Get; [|exact M]. apply Nat.div_lt_upper_bound; [exact HK|exact Hq].
      - rewrite map_length. exact Hlt.
      - exact Ht. }
    destruct (X fst) as (sp & Es & Ss & Gs); [intros p j c (_ & L & _); exact L|]. destruct (X snd) as (rm & Er & Sr & Gr); [intros p j c (_ & _ & L); exact L|].
    rewrite Es. cbn [bind]. rewrite Er. cbn [bind]. exists sp, rm. split; [reflexivity|]. split; [exact Ss|]. split; [exact Sr|].
    intros k j Hk Hj. destruct (Get j (flat keep k) Hj (flat_lt _ _ Hk)) as (Qc & _ & _). set (p := nth _ (concat cis) _) in *. exists (fst p), (snd p). split; [exact Qc|].
    intros t Ht. split; [apply Gs|apply Gr]; assumption.
  Qed.
End Boot.

(** ** Memory: when the flattened array must be a copy *)
Lemma move_order_gen nd axes ns P : StronglySorted lt (P ++ ns) -> Forall2 (fun ax n => norm_axis nd ax = Ok n) axes ns ->
  move_order nd axes (length P) (P ++ restof nd P) = (P ++ ns) ++ restof nd (P ++ ns).
Proof.
  intros Hs Hax. revert P Hs. induction Hax as [|ax n axes ns Hn Hax IH]; intros P Hs; cbn [move_order].
  - rewrite app_nil_r. reflexivity.
  - pose proof (norm_axis_ok _ _ _ Hn) as [Hlt Haxn].
    assert (HPx : forall y, In y P -> y < n) by (intros y Hy; apply (sorted_app _ _ _ Hs); [exact Hy|left; reflexivity]).
    assert (HPn : NoDup P).
    { clear -Hs. induction P as [|z P IHP]; [constructor|]. cbn [app] in Hs. inversion Hs as [|? ? Hs' Hf]; subst.
      constructor; [|auto]. intros Hz. rewrite Forall_forall in Hf. specialize (Hf z). rewrite in_app_iff in Hf. assert (z < z) by (apply Hf; left; exact Hz). lia. }
    replace (P ++ n :: ns) with ((P ++ [n]) ++ ns) in * by (rewrite <- app_assoc; reflexivity).
    rewrite <- (IH (P ++ [n]) Hs). rewrite app_length. cbn [length]. replace (length P + 1) with (S (length P)) by lia. f_equal.
    pose proof (restof_length n P HPn HPx) as Hlen.
    assert (Ep : P ++ restof nd P = (P ++ restof n P) ++ n :: seq (S n) (nd - S n)) by (rewrite (restof_split nd P n) by assumption; rewrite <- app_assoc; reflexivity).
    assert (Ep' : (P ++ [n]) ++ restof nd (P ++ [n]) = P ++ n :: restof n P ++ seq (S n) (nd - S n)) by (rewrite restof_snoc by assumption; rewrite <- app_assoc; reflexivity).
    rewrite Ep, Ep'. destruct (Z.eqb_spec ax (Z.of_nat (length P))) as [E|E].
    + assert (n = length P) as En by lia. assert (Hr : restof n P = []) by (apply length_zero_iff_nil; lia). rewrite Hr, app_nil_r. reflexivity.
    + rewrite Hn. assert (Hl2 : length (P ++ restof n P) = n) by (rewrite app_length; exact Hlen).
      pose proof (remove_at_app (P ++ restof n P) (seq (S n) (nd - S n)) n) as Hrm. rewrite Hl2 in Hrm. rewrite Hrm.
      rewrite app_nth2 by lia. rewrite Hl2, Nat.sub_diag. cbn [nth]. rewrite <- app_assoc. apply insert_at_app.
Qed.
Lemma prod_skipn x sh : x < length sh -> prod (skipn x sh) = nth x sh 0 * prod (skipn (S x) sh).
Proof. revert x. induction sh as [|s sh IH]; intros [|x] H; cbn [length] in H; try lia; [reflexivity|]. cbn [skipn nth]. rewrite IH by lia. reflexivity. Qed.
Lemma prod_pos sh : prod sh <> 0 -> forall x, x < length sh -> nth x sh 0 <> 0.
Proof. intros H x Hx E. apply H. rewrite <- (firstn_skipn x sh), prod_app, prod_skipn, E by exact Hx. lia. Qed.
Lemma prod_skipn_le sh x y : prod sh <> 0 -> x <= y -> y <= length sh -> prod (skipn y sh) <= prod (skipn x sh).
Proof.
  intros Hp Hxy Hy. induction Hxy as [|y Hxy IH]; [lia|]. specialize (IH ltac:(lia)). rewrite prod_skipn in IH by lia. pose proof (prod_pos sh Hp y ltac:(lia)). nia.
Qed.
Lemma chained_app l1 x y l2 : chained (l1 ++ x :: y :: l2) = true -> snd x = fst y * snd y.
Proof.
  induction l1 as [|a l1 IH]; intros H.
  - destruct x as [d1 s1], y as [d2 s2]. cbn in H. apply andb_prop in H as [H _]. apply Nat.eqb_eq in H. exact H.
  - apply IH. destruct a as [d s], l1 as [|[d' s'] l1]; cbn [app chained] in *.
    + destruct x. apply andb_prop in H as [_ H]. exact H.
    + apply andb_prop in H as [_ H]. exact H.
Qed.
Lemma straddle q i m j : StronglySorted lt q -> In i q -> In j q -> ~ In m q -> i < m < j -> exists l1 a b l2, q = l1 ++ a :: b :: l2 /\ a < m < b.
Proof.
  intros Hs. revert i. induction Hs as [|a q Hs IH Hf]; intros i Hi Hj Hm Hij; [destruct Hi|].
  assert (Ha : a <= i) by (destruct Hi as [->|Hi]; [lia|rewrite Forall_forall in Hf; apply Hf in Hi; lia]).
  destruct Hj as [->|Hj]; [lia|].
  destruct q as [|b q]; [destruct Hj|]. destruct (Nat.lt_trichotomy m b) as [L|[->|L]].
  - exists [], a, b, q. split; [reflexivity|lia].
  - exfalso. apply Hm. right. left. reflexivity.
  - destruct (IH b) as (l1 & x & y & l2 & E & H); [left; reflexivity|exact Hj|intros Hc; apply Hm; right; exact Hc|lia|]. exists (a :: l1), x, y, l2. rewrite E. split; [reflexivity|exact H].
Qed.
Lemma not_chained sh q i m j : prod sh <> 0 -> StronglySorted lt q -> (forall x, In x q -> x < length sh) -> In i q -> In j q -> ~ In m q -> i < m < j ->
  1 < nth i sh 0 -> 1 < nth m sh 0 -> 1 < nth j sh 0 ->
  chained (filter (fun d : nat * nat => negb (Nat.eqb (fst d) 1)) (map (fun x => (nth x sh 0, nth x (strides sh) 0)) q)) = false.
Proof.
  intros Hp Hs Hlt Hi Hj Hm Hij Di Dm Dj. apply not_true_is_false. intros H. rewrite filter_map in H. cbn [fst] in H.
  set (q' := filter (fun x => negb (nth x sh 0 =? 1)) q) in H.
  assert (In_q : forall x, In x q -> 1 < nth x sh 0 -> In x q') by (intros x Hx Dx; apply filter_In; split; [exact Hx|]; destruct (Nat.eqb_spec (nth x sh 0) 1); [lia|reflexivity]).
  destruct (straddle q' i m j) as (l1 & a & b & l2 & E & Hab); auto.
  { apply filter_sorted, Hs. }
  { intros Hc. apply filter_In in Hc as [Hc _]. apply Hm, Hc. }
  rewrite E, map_app in H. cbn [map] in H. apply chained_app in H. cbn [fst snd] in H.
  assert (Hb : b < length sh) by (apply Hlt; assert (In b q') by (rewrite E; apply in_or_app; right; right; left; reflexivity); apply filter_In in H0; tauto).
  assert (St : forall x, x < length sh -> nth x (strides sh) 0 = prod (skipn (S x) sh)).
  { intros x Hx. unfold strides. rewrite (nth_indep _ 0 ((fun i0 => prod (skipn (S i0) sh)) 0)) by (rewrite map_length, seq_length; exact Hx).
    rewrite (map_nth (fun i0 => prod (skipn (S i0) sh))), seq_nth by exact Hx. reflexivity. }
  rewrite !St in H by lia. rewrite <- prod_skipn in H by exact Hb.
  pose proof (prod_skipn_le sh (S a) m Hp ltac:(lia) ltac:(lia)) as L1. rewrite (prod_skipn m) in L1 by lia.
  pose proof (prod_skipn_le sh (S m) b Hp ltac:(lia) ltac:(lia)) as L2.
  pose proof (prod_skipn_le sh b (length sh) Hp ltac:(lia) ltac:(lia)) as L3. rewrite skipn_all in L3. cbn [prod] in L3. nia.
Qed.
Lemma restof_sorted nd P : StronglySorted lt (restof nd P).
Proof. apply filter_sorted, seq_sorted. Qed.
Lemma in_restof nd P x : In x (restof nd P) <-> x < nd /\ ~ In x P.
Proof.
  unfold restof. rewrite filter_In, in_seq, negb_true_iff. rewrite <- existsb_eqb_in. destruct (existsb (Nat.eqb x) P); split; intros [H1 H2]; split; try lia; auto; try discriminate.
Qed.
Lemma copies sh axes ns i m j : let nd := length sh in prod sh <> 0 -> StronglySorted lt ns -> Forall2 (fun ax n => norm_axis nd ax = Ok n) axes ns ->
  i < m < j -> j < nd -> (In i ns <-> In j ns) -> (In i ns <-> ~ In m ns) -> 1 < nth i sh 0 -> 1 < nth m sh 0 -> 1 < nth j sh 0 ->
  is_view sh (move_order nd axes 0 (seq 0 nd)) (length ns) = false.
Proof.
  intros nd Hp Hs Hax Hij Hj Iij Iim Di Dm Dj. pose proof (move_order_gen nd axes ns [] Hs Hax) as E. cbn [app length] in E. rewrite restof_nil in E. rewrite E.
  unfold is_view. rewrite map_app. rewrite firstn_app, skipn_app, map_length, Nat.sub_diag, firstn_O, app_nil_r, skipn_O.
  rewrite <- (map_length (fun j0 => (nth j0 sh 0, nth j0 (strides sh) 0)) ns), firstn_all, skipn_all. cbn [app].
  assert (Hlt : forall x, In x ns -> x < length sh) by (clear -Hax; induction Hax as [|z n l ns Hz _ IH]; intros x []; [subst; apply norm_axis_ok in Hz; tauto|auto]).
  destruct (in_dec Nat.eq_dec i ns) as [Hi|Hi].
  - rewrite (not_chained sh ns i m j); auto; [apply Iij, Hi|apply Iim, Hi].
  - rewrite (not_chained sh (restof nd ns) i m j); auto; [apply andb_false_r|apply restof_sorted|intros x Hx; apply in_restof in Hx; apply Hx| | |].
    + apply in_restof. split; [lia|exact Hi].
    + apply in_restof. split; [exact Hj|]. rewrite <- Iij. exact Hi.
    + intros Hc. apply in_restof in Hc as [_ Hc]. apply Hi, Iim, Hc.
Qed.
