(** Proofs about numerical integration. *)
From Coq Require Import ZArith String Ascii List Lia Bool Arith QArith Qcanon Permutation.
From Verif Require Import QcTac QSum Num NdArr Numpy M_ens M_integ.
Import ListNotations.
Open Scope nat_scope.

(** ** Programs *)
Lemma run_bind {A B} (p : prog A) (k : A -> prog B) : forall s f,
  run (pbind p k) s f = match run p s f with
                        | (Ok a, s', f') => run (k a) s' f'
                        | (Raise e, s', f') => (Raise e, s', f')
                        end.
Proof.
  induction p as [[a|e]|C op k' IH|path C op k' IH]; intros s f; cbn [pbind run].
  - reflexivity.
  - reflexivity.
  - destruct (op s) as [b s']. apply IH.
  - destruct (op (f path)) as [b ps]. apply IH.
Qed.
Lemma run_lift {A B} (r : res A) (k : A -> prog B) s f :
  run (pbind (lift r) k) s f = match r with Ok a => run (k a) s f | Raise e => (Raise e, s, f) end.
Proof. destruct r; reflexivity. Qed.
Lemma run_environ {B} x (k : string -> prog B) s f :
  run (pbind (environ x) k) s f = match p_env s x with Some v => run (k v) s f | None => (Raise KeyError, s, f) end.
Proof. cbn. destruct (p_env s x); reflexivity. Qed.
Lemma fs_set_same f p ps : fs_set f p ps p = ps.
Proof. unfold fs_set. rewrite String.eqb_refl. reflexivity. Qed.
Lemma fs_set_other f p ps q : q <> p -> fs_set f p ps q = f q.
Proof. intros H. unfold fs_set. destruct (String.eqb_spec q p); [contradiction|reflexivity]. Qed.

(** ** Which state a program touches *)
Inductive keeps_env {A} : prog A -> Prop :=
| ke_done r : keeps_env (Done r)
| ke_env B op k : (forall s, p_env (snd (op s)) = p_env s) -> (forall b, keeps_env (k b)) -> keeps_env (Env B op k)
| ke_file path B op k : (forall b, keeps_env (k b)) -> keeps_env (File path B op k).
Lemma keeps_env_run {A} (p : prog A) : keeps_env p -> forall s f, p_env (snd (fst (run p s f))) = p_env s.
Proof.
  induction 1 as [r|B op k Ho Hk IH|path B op k Hk IH]; intros s f; cbn [run].
  - reflexivity.
  - specialize (Ho s). destruct (op s) as [b s']. cbn in Ho. rewrite IH. exact Ho.
  - destruct (op (f path)) as [b ps]. apply IH.
Qed.
Lemma keeps_env_bind {A B} (p : prog A) (k : A -> prog B) : keeps_env p -> (forall a, keeps_env (k a)) -> keeps_env (pbind p k).
Proof.
  induction 1 as [[a|e]|C op k' Ho Hk IH|path C op k' Hk IH]; intros K; cbn [pbind].
  - apply K. - constructor. - constructor; [assumption|]. intros b. apply IH, K. - constructor. intros b. apply IH, K.
Qed.
Inductive keeps_all {A} : prog A -> Prop :=
| ka_done r : keeps_all (Done r)
| ka_env B op k : (forall s, snd (op s) = s) -> (forall b, keeps_all (k b)) -> keeps_all (Env B op k).
Lemma keeps_all_run {A} (p : prog A) : keeps_all p -> forall s f, snd (fst (run p s f)) = s /\ snd (run p s f) = f.
Proof.
  induction 1 as [r|B op k Ho Hk IH]; intros s f; cbn [run]; [split; reflexivity|].
  specialize (Ho s). destruct (op s) as [b s']. cbn in Ho. subst s'. apply IH.
Qed.
Lemma keeps_all_bind {A B} (p : prog A) (k : A -> prog B) : keeps_all p -> (forall a, keeps_all (k a)) -> keeps_all (pbind p k).
Proof.
  induction 1 as [[a|e]|C op k' Ho Hk IH]; intros K; cbn [pbind].
  - apply K. - constructor. - constructor; [assumption|]. intros b. apply IH, K.
Qed.
(** all file actions are on [path] *)
Inductive only {A} (path : string) : prog A -> Prop :=
| on_done r : only path (Done r)
| on_env B op k : (forall b, only path (k b)) -> only path (Env B op k)
| on_file B op k : (forall b, only path (k b)) -> only path (File path B op k).
Lemma only_bind {A B} path (p : prog A) (k : A -> prog B) : only path p -> (forall a, only path (k a)) -> only path (pbind p k).
Proof.
  induction 1 as [[a|e]|C op k' Hk IH|C op k' Hk IH]; intros K; cbn [pbind].
  - apply K. - constructor. - constructor. intros b. apply IH, K. - constructor. intros b. apply IH, K.
Qed.
Lemma only_run {A} path (p : prog A) : only path p -> forall s f q, q <> path -> snd (run p s f) q = f q.
Proof.
  induction 1 as [r|B op k Hk IH|B op k Hk IH]; intros s f q Hq; cbn [run].
  - reflexivity.
  - destruct (op s) as [b s']. apply IH, Hq.
  - destruct (op (f path)) as [b ps]. rewrite IH by exact Hq. apply fs_set_other, Hq.
Qed.
(** what a program restricted to [path] does depends on the file at [path] alone *)
Lemma only_local {A} path (p : prog A) : only path p -> forall s f g, f path = g path ->
  fst (run p s f) = fst (run p s g) /\ snd (run p s f) path = snd (run p s g) path.
Proof.
  induction 1 as [r|B op k Hk IH|B op k Hk IH]; intros s f g E; cbn [run].
  - split; [reflexivity|exact E].
  - destruct (op s) as [b s']. apply IH, E.
  - rewrite E. destruct (op (g path)) as [b ps]. apply IH. rewrite !fs_set_same. reflexivity.
Qed.

(** ** Interleaving of two programs on different paths *)
Lemma step_only {A} path (p : prog A) s f : only path p ->
  let '(p', s', f') := step p s f in only path p' /\ run p' s' f' = run p s f /\ forall q, q <> path -> f' q = f q.
Proof.
  intros [r|B op k Hk|B op k Hk]; cbn [step run].
  - split; [constructor|split; reflexivity].
  - destruct (op s) as [b s']. split; [apply Hk|split; reflexivity].
  - destruct (op (f path)) as [b ps]. split; [apply Hk|split; [reflexivity|]]. intros q Hq. apply fs_set_other, Hq.
Qed.
Lemma par_distinct {A B} p1 p2 sched : p1 <> p2 -> forall (p : prog A) (q : prog B) s1 s2 f,
  only p1 p -> only p2 q ->
  let '((p', s1'), (q', s2'), f') := par sched p s1 q s2 f in
  fst (run p' s1' f') = fst (run p s1 f) /\ fst (run q' s2' f') = fst (run q s2 f) /\
  snd (run p' s1' f') p1 = snd (run p s1 f) p1 /\ snd (run q' s2' f') p2 = snd (run q s2 f) p2.
Proof.
  intros N. induction sched as [|[|] r IH]; intros p q s1 s2 f Hp Hq; cbn [par].
  - repeat split; reflexivity.
  - pose proof (step_only p1 p s1 f Hp) as S. destruct (step p s1 f) as [[p' s'] f']. destruct S as (O & R & L).
    specialize (IH p' q s' s2 f' O Hq). destruct (par r p' s' q s2 f') as [[[pa sa] [qb sb]] ff]. destruct IH as (I1 & I2 & I3 & I4).
    destruct (only_local p2 q Hq s2 f' f) as [L1 L2]; [apply L; congruence|].
    rewrite I1, I2, I3, I4, R. repeat split; assumption.
  - pose proof (step_only p2 q s2 f Hq) as S. destruct (step q s2 f) as [[q' s'] f']. destruct S as (O & R & L).
    specialize (IH p q' s1 s' f' Hp O). destruct (par r p s1 q' s' f') as [[[pa sa] [qb sb]] ff]. destruct IH as (I1 & I2 & I3 & I4).
    destruct (only_local p1 p Hp s1 f' f) as [L1 L2]; [apply L; congruence|].
    rewrite I1, I2, I3, I4, R. repeat split; assumption.
Qed.

(** ** Overwriting part of a list *)
Lemma overwrite_length a row l : a + length row <= length l -> length (overwrite a row l) = length l.
Proof. intros H. unfold overwrite. rewrite !app_length, firstn_length, skipn_length. lia. Qed.
Lemma overwrite_in a row l d j : a + length row <= length l -> a <= j < a + length row -> nth j (overwrite a row l) d = nth (j - a) row d.
Proof.
  intros H Hj. unfold overwrite. rewrite app_nth2; rewrite firstn_length; [|lia].
  replace (j - Nat.min a (length l)) with (j - a) by lia. apply app_nth1. lia.
Qed.
Lemma skipn_add {A} a b (l : list A) : skipn b (skipn a l) = skipn (a + b) l.
Proof. revert l. induction a as [|a IH]; intros l; [reflexivity|]. destruct l; [destruct b; reflexivity|]. apply IH. Qed.
Lemma overwrite_out a row l d j : a + length row <= length l -> j < a \/ a + length row <= j -> nth j (overwrite a row l) d = nth j l d.
Proof.
  intros H Hj. rewrite <- (firstn_skipn a l) at 2. unfold overwrite. destruct Hj as [Hj|Hj].
  - rewrite !app_nth1 by (rewrite firstn_length; lia). reflexivity.
  - assert (F : length (firstn a l) = a) by (rewrite firstn_length; lia).
    rewrite app_nth2; rewrite F; [|lia]. rewrite app_nth2 by lia. rewrite app_nth2; rewrite F; [|lia].
    replace (skipn (a + length row) l) with (skipn (length row) (skipn a l)) by (rewrite skipn_add; reflexivity).
    rewrite <- (firstn_skipn (length row) (skipn a l)) at 2.
    assert (F2 : length (firstn (length row) (skipn a l)) = length row) by (rewrite firstn_length, skipn_length; lia).
    rewrite (app_nth2 (firstn (length row) (skipn a l))); rewrite F2; [reflexivity|lia].
Qed.
Lemma ravel_length {A} (a : arr A) : length (ravel a) = prod (shape a).
Proof. unfold ravel. rewrite map_length. apply indices_length. Qed.
Lemma ravel_nth (a : arr num) ix : valid (shape a) ix -> nth (flat (shape a) ix) (ravel a) NaN = get a ix.
Proof.
  intros V. unfold ravel. rewrite (nth_indep _ NaN (get a [])) by (rewrite map_length, indices_length; apply flat_lt, V).
  rewrite map_nth, nth_indices by exact V. reflexivity.
Qed.

(** ** Completion orders *)
Lemma remove_at_split {A} j (l : list A) d : j < length l -> Permutation l (nth j l d :: remove_at j l).
Proof.
  revert j. induction l as [|x r IH]; intros j H; [cbn in H; lia|]. destruct j as [|j]; cbn [nth remove_at]; [reflexivity|].
  cbn in H. rewrite (IH j) at 1 by lia. apply perm_swap.
Qed.
Lemma iterator_perm wait fuel ids : length ids = fuel -> Permutation (ray_to_iterator wait fuel ids) ids.
Proof.
  revert ids. induction fuel as [|m IH]; intros ids H; [destruct ids; [constructor|discriminate]|].
  destruct ids as [|x r]; [discriminate|]. cbn [ray_to_iterator]. set (j := wait (x :: r) mod length (x :: r)).
  assert (Hj : j < length (x :: r)) by (apply Nat.mod_upper_bound; discriminate).
  pose proof (remove_at_split j (x :: r) 0 Hj) as P. eapply Permutation_trans; [|apply Permutation_sym; exact P]. constructor. apply IH.
  apply Permutation_length in P. cbn [length] in P, H |- *. lia.
Qed.

(** ** reorder *)
Lemma place_length {A} (d : A) k e l : length (place d k e l) = length l.
Proof. revert k. induction l as [|x r IH]; intros [|k]; cbn; try reflexivity. rewrite IH. reflexivity. Qed.
Lemma place_nth {A} (d : A) k e l j : j < length l -> nth j (place d k e l) d = if j =? k then e else nth j l d.
Proof.
  revert k j. induction l as [|x r IH]; intros k j H; [cbn in H; lia|]. destruct k as [|k], j as [|j]; cbn [place nth Nat.eqb]; try reflexivity.
  cbn in H. apply IH. lia.
Qed.
Lemma reorder_order (vals : nat -> arr num) n ord : Permutation ord (seq 0 n) ->
  reorder (map (fun k => (k, Some (vals k))) ord) = map (fun k => Some (vals k)) (seq 0 n).
Proof.
  intros P. unfold reorder. rewrite map_length. pose proof (Permutation_length P) as L. rewrite seq_length in L. rewrite L.
  assert (G : forall ord acc, length acc = n ->
     let r := fold_left (fun acc p => place None (fst p) (snd p) acc) (map (fun k => (k, Some (vals k))) ord) acc in
     length r = n /\ forall j, j < n -> nth j r None = if existsb (Nat.eqb j) ord then Some (vals j) else nth j acc None).
  { clear. induction ord as [|k r IH]; intros acc H; cbn [map fold_left existsb fst snd]; [split; [exact H|reflexivity]|].
    specialize (IH (place None k (Some (vals k)) acc)). rewrite place_length in IH. destruct (IH H) as [I1 I2]. split; [exact I1|].
    intros j Hj. rewrite I2 by exact Hj. rewrite place_nth by lia. destruct (existsb (Nat.eqb j) r); [rewrite orb_true_r; reflexivity|].
    rewrite orb_false_r. destruct (Nat.eqb_spec j k); [subst; reflexivity|reflexivity]. }
  destruct (G ord (repeat None n) (repeat_length _ _)) as [G1 G2].
  apply (nth_ext _ _ None None); [rewrite G1, map_length, seq_length; reflexivity|].
  intros j Hj. rewrite G1 in Hj. rewrite G2 by exact Hj.
  assert (E : existsb (Nat.eqb j) ord = true).
  { apply existsb_exists. exists j. split; [|apply Nat.eqb_refl]. apply (Permutation_in j (Permutation_sym P)), in_seq. lia. }
  rewrite E. rewrite (nth_indep _ None (Some (vals 0))) by (rewrite map_length, seq_length; exact Hj).
  rewrite (map_nth (fun k => Some (vals k))), seq_nth by exact Hj. reflexivity.
Qed.
Lemma values_some (vals : nat -> arr num) l : values (map (fun k => Some (vals k)) l) = map vals l.
Proof. unfold values. induction l as [|x r IH]; cbn; [reflexivity|]. f_equal. exact IH. Qed.

(** ** The tasks *)
Lemma pmap_cons {A B} (f : A -> prog B) x r s w : run (pmap f (x :: r)) s w =
  match run (f x) s w with
  | (Ok y, s1, w1) => match run (pmap f r) s1 w1 with (Ok ys, s2, w2) => (Ok (y :: ys), s2, w2) | (Raise e, s2, w2) => (Raise e, s2, w2) end
  | (Raise e, s1, w1) => (Raise e, s1, w1)
  end.
Proof.
  cbn [pmap]. rewrite run_bind. destruct (run (f x) s w) as [[[y|e] s1] w1]; [|reflexivity]. rewrite run_bind.
  destruct (run (pmap f r) s1 w1) as [[[ys|e] s2] w2]; reflexivity.
Qed.
Section Tasks.
Variable i : integration.
Variable what : num -> res (arr num).
Notation sh := (shape (v_o (i_v i))).
(** task [k] computes the array [a] of the observations' shape *)
Definition good (k : nat) (a : arr num) : Prop := what (xat i k) = Ok a /\ shape a = sh.
Definition bad (k : nat) : Prop := match what (xat i k) with Ok a => shape a <> sh | Raise _ => True end.
Lemma good_or_bad k : (exists a, good k a) \/ bad k.
Proof.
  unfold good, bad. destruct (what (xat i k)) as [a|e]; [|right; exact I].
  destruct (list_eqb (shape a) sh) eqn:E; [left; exists a; split; [reflexivity|apply list_eqb_spec, E]|].
  right. intros X. apply list_eqb_spec in X. congruence.
Qed.
Lemma all_good_or l : (exists vals, forall k, In k l -> good k (vals k)) \/ exists k, In k l /\ bad k.
Proof.
  induction l as [|k r IH]; [left; exists (fun _ => afull [] NaN); intros k []|].
  destruct (good_or_bad k) as [(a & Ga)|B]; [|right; exists k; split; [left; reflexivity|exact B]].
  destruct IH as [(vals & V)|(j & Hj & B)]; [|right; exists j; split; [right; exact Hj|exact B]].
  left. exists (fun j => if j =? k then a else vals j). intros j [<-|Hj]; [rewrite Nat.eqb_refl; exact Ga|].
  destruct (Nat.eqb_spec j k) as [->|_]; [exact Ga|apply V, Hj].
Qed.
Lemma bad_good k a : good k a -> bad k -> False.
Proof. intros [E S] B. unfold bad in B. rewrite E in B. contradiction. Qed.

(** in memory *)
Lemma tasks_mem_ok vals ord s f : i_less i = false -> (forall k, In k ord -> good k (vals k)) ->
  run (pmap (wrapper i what) ord) s f = (Ok (map (fun k => (k, Some (vals k))) ord), s, f).
Proof.
  intros Hl. induction ord as [|k r IH]; intros H; [reflexivity|]. rewrite pmap_cons. unfold wrapper at 1. rewrite Hl.
  destruct (H k (or_introl eq_refl)) as [E _]. unfold xat in E. rewrite E. cbn [lift pbind run pret]. rewrite IH by (intros j Hj; apply H; right; exact Hj). reflexivity.
Qed.
Lemma tasks_mem_any ord s f : i_less i = false ->
  (exists vals, (forall k, In k ord -> what (xat i k) = Ok (vals k)) /\ run (pmap (wrapper i what) ord) s f = (Ok (map (fun k => (k, Some (vals k))) ord), s, f)) \/
  (exists e, run (pmap (wrapper i what) ord) s f = (Raise e, s, f)).
Proof.
  intros Hl. induction ord as [|k r IH]; [left; exists (fun _ => afull [] NaN); split; [intros k []|reflexivity]|]. rewrite pmap_cons. unfold wrapper at 1 3. rewrite Hl.
  destruct (what (nth k (i_x i) NaN)) as [a|e] eqn:E; [|right; exists e; reflexivity]. cbn [lift pbind run pret].
  destruct IH as [(vals & V & R)|(e & R)]; rewrite R; [|right; exists e; reflexivity]. left.
  exists (fun j => if j =? k then a else vals j). split.
  - intros j [<-|Hj]; [rewrite Nat.eqb_refl; exact E|]. destruct (Nat.eqb_spec j k) as [->|_]; [exact E|apply V, Hj].
  - f_equal. f_equal. f_equal. cbn [map]. rewrite Nat.eqb_refl. f_equal. apply map_ext_in. intros j Hj.
    destruct (Nat.eqb_spec j k) as [->|_]; [|reflexivity]. pose proof (V k Hj) as X. unfold xat in X. rewrite E in X. congruence.
Qed.

(** through the scratch file *)
Definition sized (s : pstate) : Prop := f_live s = true /\ length (f_data s (f_gen s)) = i_nbins i * cells i.
Lemma cells_prod : cells i = prod sh. Proof. apply indices_length. Qed.
Lemma tasks_file_ok vals ord : i_less i = true -> (forall k, In k ord -> k < i_nbins i /\ good k (vals k)) -> forall s f,
  sized (f (scratch i)) ->
  exists f', run (pmap (wrapper i what) ord) s f = (Ok (map (fun k => (k, None)) ord), s, f') /\
    sized (f' (scratch i)) /\ f_gen (f' (scratch i)) = f_gen (f (scratch i)) /\
    forall k ix, k < i_nbins i -> valid sh ix ->
      row_at i (f_data (f' (scratch i)) (f_gen (f' (scratch i)))) k ix =
      if existsb (Nat.eqb k) ord then get (vals k) ix else row_at i (f_data (f (scratch i)) (f_gen (f (scratch i)))) k ix.
Proof.
  intros Hl. induction ord as [|k r IH]; intros H s f Hs.
  - exists f. split; [reflexivity|]. split; [exact Hs|]. split; [reflexivity|]. intros. reflexivity.
  - rewrite pmap_cons. unfold wrapper at 1. rewrite Hl. destruct (H k (or_introl eq_refl)) as [Hk [E Hsh]]. unfold xat in E. rewrite E.
    destruct Hs as [Hlive Hlen]. unfold memmap_write, file_res. cbn [pbind run]. rewrite Hlive.
    apply list_eqb_spec in Hsh as Hb. rewrite Hb. cbn [run pret].
    rewrite Hlen, Nat.sub_diag. cbn [repeat]. rewrite app_nil_r.
    set (old := f_data (f (scratch i)) (f_gen (f (scratch i)))) in *.
    set (row := ravel (vals k)). assert (Hrow : length row = cells i) by (unfold row; rewrite ravel_length, cells_prod; f_equal; exact Hsh).
    assert (Fit : k * cells i + length row <= length old) by (rewrite Hrow, Hlen; nia).
    match goal with |- context [fs_set f _ ?q] => set (ps := q) end.
    destruct (IH (fun j Hj => H j (or_intror Hj)) s (fs_set f (scratch i) ps)) as (f' & R & S & G & D).
    + rewrite fs_set_same. unfold sized, ps. cbn [f_live f_gen f_data]. rewrite Nat.eqb_refl, overwrite_length by exact Fit. split; [reflexivity|exact Hlen].
    + exists f'. rewrite R. split; [reflexivity|]. split; [exact S|]. rewrite fs_set_same in G, D. unfold ps in G, D. cbn [f_gen f_data] in G, D.
      split; [exact G|]. intros j ix Hj V. rewrite D by assumption. rewrite Nat.eqb_refl. cbn [existsb].
      destruct (existsb (Nat.eqb j) r); [rewrite orb_true_r; reflexivity|]. rewrite orb_false_r. unfold row_at.
      pose proof (flat_lt _ _ V) as FL. rewrite <- cells_prod in FL.
      destruct (Nat.eqb_spec j k) as [->|N].
      * rewrite overwrite_in by (try exact Fit; lia). replace (k * cells i + flat sh ix - k * cells i) with (flat sh ix) by lia.
        unfold row. rewrite <- Hsh. apply ravel_nth. rewrite Hsh. exact V.
      * apply overwrite_out; [exact Fit|]. rewrite Hrow. destruct (Nat.lt_gt_cases j k) as [X _]. destruct (X N); [left|right]; nia.
Qed.
Lemma tasks_file_bad ord : i_less i = true -> (exists k, In k ord /\ bad k) -> forall s f, f_live (f (scratch i)) = true ->
  exists e f', run (pmap (wrapper i what) ord) s f = (Raise e, s, f') /\ f_live (f' (scratch i)) = true.
Proof.
  intros Hl. induction ord as [|k r IH]; intros (j & Hj & B) s f Hlive; [destruct Hj|].
  rewrite pmap_cons. unfold wrapper at 1. rewrite Hl. unfold memmap_write, file_res. cbn [pbind run]. rewrite Hlive.
  destruct (good_or_bad k) as [(a & [E Hsh])|Bk].
  - unfold xat in E. rewrite E. apply list_eqb_spec in Hsh as Hb. rewrite Hb. cbn [run pret].
    match goal with |- context [fs_set f _ ?q] => set (ps := q) end.
    destruct (IH ltac:(destruct Hj as [<-|Hj]; [exfalso; apply (bad_good k a); [split; assumption|exact B]|exists j; split; assumption]) s (fs_set f (scratch i) ps)) as (e & f' & R & L).
    + rewrite fs_set_same. reflexivity.
    + exists e, f'. rewrite R. split; [reflexivity|exact L].
  - unfold bad, xat in Bk. destruct (what (nth k (i_x i) NaN)) as [a|e].
    + destruct (list_eqb (shape a) sh) eqn:X; [apply list_eqb_spec in X; contradiction|]. cbn [run]. do 2 eexists. split; [reflexivity|]. rewrite fs_set_same. reflexivity.
    + cbn [run]. do 2 eexists. split; [reflexivity|]. rewrite fs_set_same. reflexivity.
Qed.
Lemma np_stack_ok vals ord : (forall k, In k ord -> good k (vals k)) -> np_stack sh (map vals ord) = Ok (map vals ord).
Proof.
  intros H. unfold np_stack. assert (E : forallb (fun a => list_eqb (shape a) sh) (map vals ord) = true).
  { apply forallb_forall. intros a Ha. apply in_map_iff in Ha as (k & <- & Hk). apply list_eqb_spec. apply (H k Hk). }
  rewrite E. reflexivity.
Qed.
Lemma np_stack_bad vals ord : (forall k, In k ord -> what (xat i k) = Ok (vals k)) -> (exists k, In k ord /\ bad k) -> np_stack sh (map vals ord) = Raise ValueError.
Proof.
  intros H (k & Hk & B). unfold np_stack. destruct (forallb _ _) eqn:E; [|reflexivity]. exfalso. rewrite forallb_forall in E.
  assert (Hin : In (vals k) (map vals ord)) by (apply in_map, Hk). specialize (E (vals k) Hin). apply list_eqb_spec in E.
  unfold bad in B. rewrite (H k Hk) in B. contradiction.
Qed.
End Tasks.

(** ** gather *)
Definition idle (s : proc) : proc := Proc (p_env s) false.
Lemma values_none {A} (l : list A) : values (map (fun _ => None) l) = [].
Proof. unfold values. induction l as [|x r IH]; cbn; [reflexivity|exact IH]. Qed.
Lemma reorder_none ord : reorder (map (fun k => (k, None)) ord) = repeat None (length ord).
Proof.
  unfold reorder. rewrite map_length. generalize (length ord). intros n. induction ord as [|k r IH]; [reflexivity|]. cbn [map fold_left fst snd].
  assert (E : forall m k, place None k None (repeat None m) = repeat (@None (arr num)) m).
  { clear. induction m as [|m IH]; intros [|k]; cbn; try reflexivity. rewrite IH. reflexivity. }
  rewrite E. exact IH.
Qed.
Lemma values_repeat_none n : values (repeat None n) = [].
Proof. induction n; cbn; [reflexivity|assumption]. Qed.
Section Gather.
Variable wait : list nat -> nat.
Variable i : integration.
Variable what : num -> res (arr num).
Notation sh := (shape (v_o (i_v i))).
Hypothesis Hlen : length (i_x i) = i_nbins i.
Definition order : list nat := if Z.eqb (i_cores i) 1 then seq 0 (i_nbins i) else ray_to_iterator wait (i_nbins i) (seq 0 (i_nbins i)).
Lemma order_perm : Permutation order (seq 0 (i_nbins i)).
Proof. unfold order. destruct (Z.eqb _ _); [reflexivity|]. apply iterator_perm, seq_length. Qed.
Lemma order_in k : In k order <-> k < i_nbins i.
Proof.
  split; intros H.
  - apply (Permutation_in k order_perm), in_seq in H. lia.
  - apply (Permutation_in k (Permutation_sym order_perm)), in_seq. lia.
Qed.
(** the process may start tasks: sequentially, or with a Ray that is not running yet *)
Definition ready (s : proc) : Prop := i_cores i <> 1%Z -> p_ray s = false.
Definition after (s : proc) : proc := if Z.eqb (i_cores i) 1 then s else idle s.
Lemma gather_mem_ok vals s f : i_less i = false -> ready s -> (forall k, k < i_nbins i -> good i what k (vals k)) ->
  run (gather wait i what) s f = (Ok (map vals (seq 0 (i_nbins i))), after s, f).
Proof.
  intros Hl R H. unfold gather, after. rewrite Hlen. assert (H' : forall k, In k order -> good i what k (vals k)) by (intros k Hk; apply H, order_in, Hk).
  unfold order in H'. destruct (Z.eqb_spec (i_cores i) 1) as [E|E].
  - rewrite run_bind, (tasks_mem_ok i what vals) by assumption. rewrite map_map. cbn [snd lift run]. rewrite values_some, (np_stack_ok i what) by assumption. reflexivity.
  - unfold ray_init, env_res. cbn [pbind run]. rewrite (R E). rewrite run_bind, (tasks_mem_ok i what vals) by assumption.
    rewrite (reorder_order vals (i_nbins i)) by (apply iterator_perm, seq_length). rewrite values_some.
    rewrite (np_stack_ok i what) by (intros k Hk; apply H; apply in_seq in Hk; lia). reflexivity.
Qed.
Lemma gather_mem_bad s f : i_less i = false -> (exists k, k < i_nbins i /\ bad i what k) ->
  exists e s', run (gather wait i what) s f = (Raise e, s', f).
Proof.
  intros Hl (k & Hk & B). unfold gather. rewrite Hlen. assert (B' : exists k, In k order /\ bad i what k) by (exists k; split; [apply order_in, Hk|exact B]).
  pose proof (fun s => tasks_mem_any i what order s f Hl) as T. unfold order in T, B'. destruct (Z.eqb_spec (i_cores i) 1) as [E|E].
  - rewrite run_bind. destruct (T s) as [(vals & V & Rn)|(e & Rn)]; rewrite Rn; [|do 2 eexists; reflexivity].
    rewrite map_map. cbn [snd lift run]. rewrite values_some, (np_stack_bad i what) by assumption. do 2 eexists; reflexivity.
  - unfold ray_init, env_res. cbn [pbind run]. destruct (p_ray s); [do 2 eexists; reflexivity|]. rewrite run_bind.
    destruct (T (Proc (p_env s) true)) as [(vals & V & Rn)|(e & Rn)]; rewrite Rn; [|do 2 eexists; reflexivity].
    rewrite (reorder_order vals (i_nbins i)) by (apply iterator_perm, seq_length). rewrite values_some, (np_stack_bad i what).
    + do 2 eexists; reflexivity.
    + intros j Hj. apply V. apply (Permutation_in j (Permutation_sym (iterator_perm wait (i_nbins i) _ (seq_length _ _)))), Hj.
    + exists k. split; [apply in_seq; lia|exact B].
Qed.
Lemma gather_file_ok vals s f : i_less i = true -> ready s -> (forall k, k < i_nbins i -> good i what k (vals k)) -> sized i (f (scratch i)) ->
  exists f', run (gather wait i what) s f = (Ok [], after s, f') /\ sized i (f' (scratch i)) /\ f_gen (f' (scratch i)) = f_gen (f (scratch i)) /\
    forall k ix, k < i_nbins i -> valid sh ix -> row_at i (f_data (f' (scratch i)) (f_gen (f' (scratch i)))) k ix = get (vals k) ix.
Proof.
  intros Hl R H S. unfold gather, after. rewrite Hlen.
  assert (H' : forall k, In k order -> k < i_nbins i /\ good i what k (vals k)) by (intros k Hk; apply order_in in Hk; split; [exact Hk|apply H, Hk]).
  assert (X : forall k, k < i_nbins i -> existsb (Nat.eqb k) order = true) by (intros k Hk; apply existsb_exists; exists k; split; [apply order_in, Hk|apply Nat.eqb_refl]).
  pose proof (fun s => tasks_file_ok i what vals order Hl H' s f S) as T. clear H'. unfold order in T, X. destruct (Z.eqb_spec (i_cores i) 1) as [E|E].
  - rewrite run_bind. destruct (T s) as (f' & Rn & S' & G & D). rewrite Rn. exists f'. split; [|split; [exact S'|split; [exact G|]]].
    + rewrite map_map. cbn [snd]. rewrite values_none. reflexivity.
    + intros k ix Hk V. rewrite D, X by assumption. reflexivity.
  - unfold ray_init, env_res. cbn [pbind run]. rewrite (R E). rewrite run_bind. destruct (T (Proc (p_env s) true)) as (f' & Rn & S' & G & D). rewrite Rn.
    exists f'. split; [|split; [exact S'|split; [exact G|]]].
    + rewrite reorder_none, values_repeat_none. reflexivity.
    + intros k ix Hk V. rewrite D, X by assumption. reflexivity.
Qed.
Lemma gather_file_bad s f : i_less i = true -> (exists k, k < i_nbins i /\ bad i what k) -> f_live (f (scratch i)) = true ->
  exists e s' f', run (gather wait i what) s f = (Raise e, s', f') /\ f_live (f' (scratch i)) = true.
Proof.
  intros Hl (k & Hk & B) L. unfold gather. rewrite Hlen. assert (B' : exists k, In k order /\ bad i what k) by (exists k; split; [apply order_in, Hk|exact B]).
  pose proof (fun s => tasks_file_bad i what order Hl B' s f L) as T. unfold order in T. destruct (Z.eqb_spec (i_cores i) 1) as [E|E].
  - rewrite run_bind. destruct (T s) as (e & f' & Rn & L'). rewrite Rn. do 3 eexists. split; [reflexivity|exact L'].
  - unfold ray_init, env_res. cbn [pbind run]. destruct (p_ray s); [do 3 eexists; split; [reflexivity|exact L]|]. rewrite run_bind.
    destruct (T (Proc (p_env s) true)) as (e & f' & Rn & L'). rewrite Rn. do 3 eexists. split; [reflexivity|exact L'].
Qed.
Lemma gather_not_ready s f : ~ ready s -> exists e s' f', run (gather wait i what) s f = (Raise e, s', f').
Proof.
  intros N. unfold gather. destruct (Z.eqb_spec (i_cores i) 1) as [E|E]; [exfalso; apply N; intros X; contradiction|].
  unfold ray_init, env_res. cbn [pbind run]. destruct (p_ray s) eqn:P; [do 3 eexists; reflexivity|]. exfalso. apply N. intros _. exact P.
Qed.
Lemma wrapper_env k : keeps_env (wrapper i what k).
Proof.
  unfold wrapper. destruct (i_less i).
  - unfold memmap_write, file_res. cbn [pbind]. constructor. intros b. destruct b; constructor.
  - destruct (what _); constructor.
Qed.
Lemma pmap_env {A B} (g : A -> prog B) l : (forall x, keeps_env (g x)) -> keeps_env (pmap g l).
Proof. intros H. induction l as [|x r IH]; [constructor|]. cbn [pmap]. apply keeps_env_bind; [apply H|]. intros y. apply keeps_env_bind; [exact IH|]. intros. constructor. Qed.
Lemma gather_env : keeps_env (gather wait i what).
Proof.
  unfold gather. destruct (Z.eqb _ _).
  - apply keeps_env_bind; [apply pmap_env, wrapper_env|]. intros. constructor.
  - apply keeps_env_bind.
    + unfold ray_init, env_res. constructor; [intros s; destruct (p_ray s); reflexivity|]. intros; constructor.
    + intros _. apply keeps_env_bind; [apply pmap_env, wrapper_env|]. intros l. apply keeps_env_bind; [constructor|]. intros a.
      apply keeps_env_bind; [unfold ray_shutdown, env_res; constructor; [reflexivity|intros; constructor]|]. intros; constructor.
Qed.
Lemma wrapper_only k : only (scratch i) (wrapper i what k).
Proof.
  unfold wrapper. destruct (i_less i).
  - unfold memmap_write, file_res. cbn [pbind]. constructor. intros b. destruct b; constructor.
  - destruct (what _); constructor.
Qed.
Lemma pmap_only {A B} path (g : A -> prog B) l : (forall x, only path (g x)) -> only path (pmap g l).
Proof. intros H. induction l as [|x r IH]; [constructor|]. cbn [pmap]. apply only_bind; [apply H|]. intros y. apply only_bind; [exact IH|]. intros. constructor. Qed.
Lemma gather_only : only (scratch i) (gather wait i what).
Proof.
  unfold gather. destruct (Z.eqb _ _).
  - apply only_bind; [apply pmap_only, wrapper_only|]. intros. constructor.
  - apply only_bind; [unfold ray_init, env_res; constructor; intros; constructor|].
    intros _. apply only_bind; [apply pmap_only, wrapper_only|]. intros l. apply only_bind; [constructor|]. intros a.
    apply only_bind; [unfold ray_shutdown, env_res; constructor; intros; constructor|]. intros; constructor.
Qed.
End Gather.
