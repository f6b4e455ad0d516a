(** N-dimensional arrays with NumPy's C-order index semantics, any rank.
    NumPy functions modelled: ndarray.ravel/flatten, reshape, transpose, moveaxis,
    expand_dims, split into unit slices, concatenate, reductions over axes. *)
From Coq Require Import ZArith List Lia Bool Arith Permutation Sorted.
From Verif Require Import Num.
Import ListNotations.
Open Scope nat_scope.

Record arr (A : Type) := Arr { shape : list nat; get : list nat -> A }.
Arguments Arr {A} _ _. Arguments shape {A} _. Arguments get {A} _ _.

Fixpoint prod (l : list nat) : nat := match l with [] => 1 | x :: r => x * prod r end.

(** All valid multi-indices of a shape in C order. *)
Fixpoint indices (sh : list nat) : list (list nat) :=
  match sh with
  | [] => [[]]
  | n :: r => flat_map (fun i => map (cons i) (indices r)) (seq 0 n)
  end.
(** A multi-index is valid for a shape. *)
Definition valid (sh ix : list nat) : Prop := Forall2 lt ix sh.

(** np.ravel_multi_index / np.unravel_index. *)
Fixpoint flat (sh ix : list nat) : nat :=
  match sh, ix with
  | _ :: r, i :: t => i * prod r + flat r t
  | _, _ => 0
  end.
Fixpoint unflat (sh : list nat) (k : nat) : list nat :=
  match sh with
  | [] => []
  | _ :: r => k / prod r :: unflat r (k mod prod r)
  end.

(** ndarray.ravel() *)
Definition ravel {A} (a : arr A) : list A := map (get a) (indices (shape a)).
(** ndarray.reshape(sh) for a shape of the same size *)
Definition reshape {A} (sh : list nat) (a : arr A) : arr A :=
  Arr sh (fun ix => get a (unflat (shape a) (flat sh ix))).
(** np.array(list).reshape(sh) *)
Definition of_list {A} (d : A) (sh : list nat) (l : list A) : arr A :=
  Arr sh (fun ix => nth (flat sh ix) l d).
Definition amap {A B} (f : A -> B) (a : arr A) : arr B := Arr (shape a) (fun ix => f (get a ix)).
Definition amap2 {A B C} (f : A -> B -> C) (a : arr A) (b : arr B) : arr C :=
  Arr (shape a) (fun ix => f (get a ix) (get b ix)).
Definition afull {A} (sh : list nat) (x : A) : arr A := Arr sh (fun _ => x).

(** Pointwise equality on valid indices: the observable content of an array. *)
Definition arr_eq {A} (a b : arr A) : Prop :=
  shape a = shape b /\ forall ix, valid (shape a) ix -> get a ix = get b ix.

(** Axis normalisation: negative axes count from the end; AxisError outside. *)
Definition norm_axis (nd : nat) (ax : Z) : res nat :=
  if (Z.ltb ax (- Z.of_nat nd) || Z.leb (Z.of_nat nd) ax)%bool then Raise AxisError
  else Ok (Z.to_nat (if Z.ltb ax 0 then ax + Z.of_nat nd else ax)%Z).

Fixpoint index_of (x : nat) (l : list nat) : nat :=
  match l with [] => 0 | y :: r => if Nat.eqb x y then 0 else S (index_of x r) end.
(** a.transpose(p): axis k of the result is axis p[k] of [a]. *)
Definition transpose {A} (p : list nat) (a : arr A) : arr A :=
  Arr (map (fun ax => nth ax (shape a) 0) p)
      (fun ix => get a (map (fun ax => nth (index_of ax p) ix 0) (seq 0 (length (shape a))))).

Fixpoint insert_at {A} (k : nat) (x : A) (l : list A) : list A :=
  match k, l with
  | 0, _ => x :: l
  | S k', y :: r => y :: insert_at k' x r
  | S _, [] => [x]
  end.
Fixpoint remove_at {A} (k : nat) (l : list A) : list A :=
  match k, l with
  | _, [] => []
  | 0, _ :: r => r
  | S k', y :: r => y :: remove_at k' r
  end.
(** np.moveaxis(a, src, dst): order = [n for n in range(ndim) if n != src]; order.insert(dst, src);
    a.transpose(order) *)
Definition moveaxis_order (nd src dst : nat) : list nat := insert_at dst src (remove_at src (seq 0 nd)).
Definition moveaxis {A} (src dst : Z) (a : arr A) : res (arr A) :=
  s <- norm_axis (length (shape a)) src ;;
  d <- norm_axis (length (shape a)) dst ;;
  Ok (transpose (moveaxis_order (length (shape a)) s d) a).

(** np.split(a, a.shape[ax], ax) into unit slices: slice i keeps the axis with length 1;
    np.concatenate along the axis of unit slices. *)
Definition set_nth (k : nat) (v : nat) (l : list nat) : list nat :=
  firstn k l ++ v :: skipn (S k) l.
Definition unit_slice {A} (ax i : nat) (a : arr A) : arr A :=
  Arr (set_nth ax 1 (shape a)) (fun ix => get a (set_nth ax i ix)).
Definition split_units {A} (ax : nat) (a : arr A) : list (arr A) :=
  map (fun i => unit_slice ax i a) (seq 0 (nth ax (shape a) 0)).
Definition concat_units {A} (d : arr A) (ax : nat) (l : list (arr A)) : arr A :=
  Arr (set_nth ax (length l) (shape (hd d l)))
      (fun ix => get (nth (nth ax ix 0) l d) (set_nth ax 0 ix)).

(** Masks: which axes are reduced.  [sel m l] keeps the entries where the mask is
    true, [unsel m l] those where it is false, [merge m s k] interleaves them back. *)
Fixpoint sel {A} (m : list bool) (l : list A) : list A :=
  match m, l with
  | b :: m', x :: r => if b then x :: sel m' r else sel m' r
  | _, _ => []
  end.
Definition unsel {A} (m : list bool) (l : list A) : list A := sel (map negb m) l.
Fixpoint merge (m : list bool) (s k : list nat) : list nat :=
  match m with
  | [] => []
  | true :: m' => match s with i :: s' => i :: merge m' s' k | [] => [] end
  | false :: m' => match k with j :: k' => j :: merge m' s k' | [] => [] end
  end.
Definition mask_of (nd : nat) (axes : list nat) : list bool :=
  map (fun i => existsb (Nat.eqb i) axes) (seq 0 nd).

Fixpoint list_eqb (a b : list nat) : bool :=
  match a, b with
  | [], [] => true
  | x :: r, y :: t => Nat.eqb x y && list_eqb r t
  | _, _ => false
  end.
(** The cells of an array of shape [sh] whose coordinates on the kept (unmasked) axes are [k],
    in C order: what NumPy reduces into entry [k]. *)
Definition group (sh : list nat) (m : list bool) (k : list nat) : list (list nat) :=
  filter (fun ix => list_eqb (unsel m ix) k) (indices sh).
(** Reduction over the masked axes with [f]. *)
Definition reduce {A B} (f : list A -> B) (m : list bool) (a : arr A) : arr B :=
  Arr (unsel m (shape a)) (fun k => f (map (get a) (group (shape a) m k))).

(** ** Basic facts *)
Lemma prod_app a b : prod (a ++ b) = prod a * prod b.
Proof. induction a as [|x r IH]; cbn [prod app]; [lia|rewrite IH; lia]. Qed.
Lemma indices_length sh : length (indices sh) = prod sh.
Proof.
  induction sh as [|n r IH]; [reflexivity|]. cbn [indices prod].
  assert (H : forall l, length (flat_map (fun i => map (cons i) (indices r)) l) = length l * prod r).
  { induction l as [|i l IHl]; [reflexivity|]. cbn [flat_map length].
    rewrite app_length, map_length, IH, IHl. lia. }
  rewrite H, seq_length. reflexivity.
Qed.
Lemma in_indices sh ix : In ix (indices sh) <-> valid sh ix.
Proof.
  revert ix. induction sh as [|n r IH]; intros ix; cbn [indices].
  - split.
    + intros [<-|[]]. constructor.
    + intros H. inversion H. left. reflexivity.
  - rewrite in_flat_map. split.
    + intros (i & Hi & H). apply in_map_iff in H as (t & <- & Ht).
      constructor; [apply in_seq in Hi; lia|apply IH, Ht].
    + intros H. inversion H as [|i n' t r' Hi Ht]; subst.
      exists i. split; [apply in_seq; lia|apply in_map, IH, Ht].
Qed.
Lemma valid_length sh ix : valid sh ix -> length ix = length sh.
Proof. induction 1; cbn; congruence. Qed.
Lemma valid_app s1 s2 i1 i2 : valid s1 i1 -> valid s2 i2 -> valid (s1 ++ s2) (i1 ++ i2).
Proof. intros H1 H2. apply Forall2_app; assumption. Qed.
Lemma valid_prod_pos sh ix : valid sh ix -> 0 < prod sh.
Proof. induction 1; cbn [prod]; [lia|nia]. Qed.
Lemma NoDup_app_intro {A} (l1 l2 : list A) :
  NoDup l1 -> NoDup l2 -> (forall x, In x l1 -> ~ In x l2) -> NoDup (l1 ++ l2).
Proof.
  intros H1 H2 Hd. induction H1 as [|x l Hx Hl IH]; cbn [app]; [exact H2|].
  constructor.
  - rewrite in_app_iff. intros [H|H]; [contradiction|]. apply (Hd x); [left; reflexivity|exact H].
  - apply IH. intros y Hy. apply Hd. right. exact Hy.
Qed.
Lemma NoDup_indices sh : NoDup (indices sh).
Proof.
  induction sh as [|n r IH]; cbn [indices]; [constructor; [intros []|constructor]|].
  assert (H : forall l, NoDup l -> NoDup (flat_map (fun i => map (cons i) (indices r)) l)).
  { induction 1 as [|i l Hi Hl IHl]; cbn [flat_map]; [constructor|].
    apply NoDup_app_intro; [|exact IHl|].
    - apply FinFun.Injective_map_NoDup; [intros x y E; congruence|exact IH].
    - intros x Hx Hc. apply in_map_iff in Hx as (t & <- & _).
      apply in_flat_map in Hc as (j & Hj & Hc). apply in_map_iff in Hc as (t' & E & _).
      injection E as -> _. contradiction. }
  apply H, seq_NoDup.
Qed.
Lemma flat_lt sh ix : valid sh ix -> flat sh ix < prod sh.
Proof. induction 1 as [|i n t r Hi Ht IH]; cbn [flat prod]; [lia|nia]. Qed.
Lemma unflat_flat sh ix : valid sh ix -> unflat sh (flat sh ix) = ix.
Proof.
  induction 1 as [|i n t r Hi Ht IH]; cbn [flat unflat]; [reflexivity|].
  pose proof (flat_lt _ _ Ht).
  rewrite Nat.div_add_l by lia. rewrite (Nat.div_small (flat r t)) by lia. rewrite Nat.add_0_r.
  rewrite Nat.add_comm, Nat.mod_add by lia. rewrite Nat.mod_small by lia. rewrite IH. reflexivity.
Qed.
Lemma unflat_valid sh k : k < prod sh -> valid sh (unflat sh k).
Proof.
  revert k. induction sh as [|n r IH]; intros k H; cbn [unflat]; [constructor|]. cbn [prod] in H.
  assert (prod r <> 0) by (intros E; rewrite E in H; lia).
  constructor; [apply Nat.div_lt_upper_bound; lia|].
  apply IH. apply Nat.mod_upper_bound. assumption.
Qed.
Lemma flat_unflat sh k : k < prod sh -> flat sh (unflat sh k) = k.
Proof.
  revert k. induction sh as [|n r IH]; intros k H; cbn [unflat flat prod] in *; [lia|].
  assert (prod r <> 0) by (intros E; rewrite E in H; lia).
  rewrite IH by (apply Nat.mod_upper_bound; assumption).
  pose proof (Nat.div_mod k (prod r)). lia.
Qed.
Lemma flat_inj sh i j : valid sh i -> valid sh j -> flat sh i = flat sh j -> i = j.
Proof. intros Hi Hj E. rewrite <- (unflat_flat sh i Hi), E. apply unflat_flat, Hj. Qed.
Lemma map_add_seq a b n : map (Nat.add a) (seq b n) = seq (a + b) n.
Proof.
  revert b. induction n as [|n IH]; intros b; [reflexivity|]. cbn [seq map]. rewrite IH. f_equal. f_equal. lia.
Qed.
Lemma map_flat_indices sh : map (flat sh) (indices sh) = seq 0 (prod sh).
Proof.
  induction sh as [|n r IH]; [reflexivity|]. cbn [indices prod].
  rewrite flat_map_concat_map, concat_map, map_map.
  rewrite (map_ext _ (fun i => map (Nat.add (i * prod r)) (seq 0 (prod r)))).
  2:{ intros i. rewrite map_map. rewrite <- IH, map_map. reflexivity. }
  rewrite (map_ext _ (fun i => seq (i * prod r) (prod r))).
  2:{ intros i. rewrite map_add_seq. f_equal. lia. }
  assert (H : forall a, concat (map (fun i => seq (i * prod r) (prod r)) (seq a n)) = seq (a * prod r) (n * prod r)).
  { induction n as [|n IHn]; intros a; [reflexivity|]. cbn [seq map concat Nat.mul].
    rewrite IHn, seq_app. f_equal. f_equal. lia. }
  apply H.
Qed.
Lemma indices_unflat sh : indices sh = map (unflat sh) (seq 0 (prod sh)).
Proof.
  rewrite <- map_flat_indices, map_map. rewrite <- (map_id (indices sh)) at 1.
  apply map_ext_in. intros ix H. symmetry. apply unflat_flat, in_indices, H.
Qed.
Lemma nth_indices sh ix d : valid sh ix -> nth (flat sh ix) (indices sh) d = ix.
Proof.
  intros H. pose proof (flat_lt _ _ H) as Hl. rewrite indices_unflat.
  rewrite (nth_indep _ d (unflat sh 0)) by (rewrite map_length, seq_length; exact Hl).
  rewrite map_nth, seq_nth by exact Hl. apply unflat_flat, H.
Qed.
Lemma nth_ravel {A} (a : arr A) ix d : valid (shape a) ix -> nth (flat (shape a) ix) (ravel a) d = get a ix.
Proof.
  intros H. unfold ravel. rewrite (nth_indep _ d (get a ix)).
  - rewrite map_nth. rewrite nth_indices by exact H. reflexivity.
  - rewrite map_length, indices_length. apply flat_lt, H.
Qed.
Lemma ravel_length {A} (a : arr A) : length (ravel a) = prod (shape a).
Proof. unfold ravel. rewrite map_length. apply indices_length. Qed.
Lemma ravel_of_list {A} (d : A) sh l : length l = prod sh -> ravel (of_list d sh l) = l.
Proof.
  intros H. unfold ravel, of_list; cbn [shape get].
  rewrite <- (map_map (flat sh) (fun k => nth k l d)), map_flat_indices, <- H.
  clear H. induction l as [|x r IH]; [reflexivity|]. cbn [length seq map nth]. f_equal.
  rewrite <- seq_shift, map_map. exact IH.
Qed.
Lemma ravel_reshape {A} sh (a : arr A) : prod sh = prod (shape a) -> ravel (reshape sh a) = ravel a.
Proof.
  intros H. unfold ravel, reshape; cbn [shape get].
  rewrite <- (map_map (flat sh) (fun k => get a (unflat (shape a) k))), map_flat_indices, H.
  rewrite (indices_unflat (shape a)), map_map. reflexivity.
Qed.
Lemma ravel_eq {A} (a b : arr A) : arr_eq a b -> ravel a = ravel b.
Proof.
  intros [Hs Hg]. unfold ravel. rewrite <- Hs. apply map_ext_in. intros ix H. apply Hg, in_indices, H.
Qed.
Lemma arr_eq_refl {A} (a : arr A) : arr_eq a a. Proof. split; reflexivity. Qed.
Lemma arr_eq_sym {A} (a b : arr A) : arr_eq a b -> arr_eq b a.
Proof. intros [H1 H2]. split; [congruence|]. intros ix H. symmetry. apply H2. rewrite H1. exact H. Qed.
Lemma arr_eq_trans {A} (a b c : arr A) : arr_eq a b -> arr_eq b c -> arr_eq a c.
Proof.
  intros [H1 H2] [H3 H4]. split; [congruence|]. intros ix H. rewrite H2 by exact H. apply H4. rewrite <- H1. exact H.
Qed.

Lemma valid_app_inv s1 s2 ix :
  valid (s1 ++ s2) ix -> exists i j, ix = i ++ j /\ valid s1 i /\ valid s2 j.
Proof.
  intros H. apply Forall2_app_inv_r in H as (i & j & Hi & Hj & ->). exists i, j. auto.
Qed.
Lemma indices_app a b : indices (a ++ b) = flat_map (fun i => map (app i) (indices b)) (indices a).
Proof.
  induction a as [|n r IH]; cbn [app indices flat_map].
  - rewrite app_nil_r. symmetry. apply (map_id (indices b)).
  - rewrite IH. clear IH. induction (seq 0 n) as [|i l IHl]; [reflexivity|].
    cbn [flat_map]. rewrite flat_map_app, <- IHl. f_equal.
    clear. induction (indices r) as [|t T IH]; [reflexivity|]. cbn [flat_map map].
    rewrite map_app, IH, map_map. reflexivity.
Qed.
Lemma flat_app a b i j : valid a i -> flat (a ++ b) (i ++ j) = flat a i * prod b + flat b j.
Proof.
  induction 1 as [|x n t r Hx Ht IH]; cbn [app flat]; [reflexivity|]. rewrite IH, prod_app. lia.
Qed.

(** *** Masks *)
Lemma sel_length {A} m (l : list A) : length m = length l -> length (sel m l) = count_occ bool_dec m true.
Proof.
  revert l. induction m as [|b m IH]; intros [|x r] H; cbn [sel count_occ length] in *; try discriminate; [reflexivity|].
  destruct b; cbn [length]; destruct (bool_dec _ true); try congruence; rewrite IH by lia; reflexivity.
Qed.
Lemma unsel_cons {A} b m (x : A) l : unsel (b :: m) (x :: l) = if b then unsel m l else x :: unsel m l.
Proof. destruct b; reflexivity. Qed.
Lemma valid_merge m sh s k :
  length m = length sh -> valid (sel m sh) s -> valid (unsel m sh) k -> valid sh (merge m s k).
Proof.
  revert sh s k. induction m as [|b m IH]; intros [|n r] s k Hl Hs Hk; try discriminate; cbn [merge]; [constructor|].
  injection Hl as Hl. rewrite unsel_cons in Hk. destruct b; cbn [sel] in Hs.
  - inversion Hs; subst. constructor; [assumption|apply IH; assumption].
  - inversion Hk; subst. constructor; [assumption|apply IH; assumption].
Qed.
Lemma valid_sel m sh ix : valid sh ix -> valid (sel m sh) (sel m ix).
Proof.
  intros H. revert m. induction H as [|i n t r Hi Ht IH]; intros [|b m]; cbn [sel]; try constructor.
  destruct b; [constructor; [exact Hi|apply IH]|apply IH].
Qed.
Lemma valid_unsel m sh ix : valid sh ix -> valid (unsel m sh) (unsel m ix).
Proof. apply valid_sel. Qed.
Lemma sel_merge m sh s k : length m = length sh -> valid (sel m sh) s -> valid (unsel m sh) k -> sel m (merge m s k) = s.
Proof.
  revert sh s k. induction m as [|b m IH]; intros [|n r] s k Hl Hs Hk; try discriminate; cbn [merge].
  - inversion Hs. reflexivity.
  - injection Hl as Hl. rewrite unsel_cons in Hk. destruct b; cbn [sel] in Hs.
    + inversion Hs; subst. cbn [sel]. f_equal. eapply IH; eassumption.
    + inversion Hk; subst. cbn [sel]. eapply IH; eassumption.
Qed.
Lemma unsel_merge m sh s k : length m = length sh -> valid (sel m sh) s -> valid (unsel m sh) k -> unsel m (merge m s k) = k.
Proof.
  revert sh s k. induction m as [|b m IH]; intros [|n r] s k Hl Hs Hk; try discriminate; cbn [merge].
  - inversion Hk. reflexivity.
  - injection Hl as Hl. rewrite unsel_cons in Hk. destruct b; cbn [sel] in Hs.
    + inversion Hs; subst. rewrite unsel_cons. eapply IH; eassumption.
    + inversion Hk; subst. rewrite unsel_cons. f_equal. eapply IH; eassumption.
Qed.
Lemma merge_sel m ix : length m = length ix -> merge m (sel m ix) (unsel m ix) = ix.
Proof.
  revert ix. induction m as [|b m IH]; intros [|x r] H; try discriminate; [reflexivity|].
  injection H as H. rewrite unsel_cons. cbn [sel]. destruct b; cbn [merge]; rewrite IH by exact H; reflexivity.
Qed.
Lemma list_eqb_spec a b : list_eqb a b = true <-> a = b.
Proof.
  revert b. induction a as [|x r IH]; intros [|y t]; cbn [list_eqb]; split; intros H; try discriminate; try reflexivity.
  - apply andb_true_iff in H as [H1 H2]. apply Nat.eqb_eq in H1. apply IH in H2. congruence.
  - injection H as -> ->. rewrite Nat.eqb_refl. apply IH. reflexivity.
Qed.
Lemma list_eqb_refl a : list_eqb a a = true. Proof. apply list_eqb_spec. reflexivity. Qed.
Lemma in_group sh m k ix : In ix (group sh m k) <-> valid sh ix /\ unsel m ix = k.
Proof. unfold group. rewrite filter_In, in_indices, list_eqb_spec. reflexivity. Qed.

Lemma filter_flat_map {A B} (p : B -> bool) (f : A -> list B) l :
  filter p (flat_map f l) = flat_map (fun x => filter p (f x)) l.
Proof. induction l as [|x r IH]; [reflexivity|]. cbn [flat_map]. rewrite filter_app, IH. reflexivity. Qed.
Lemma filter_map {A B} (p : B -> bool) (f : A -> B) l : filter p (map f l) = map f (filter (fun x => p (f x)) l).
Proof. induction l as [|x r IH]; [reflexivity|]. cbn. destruct (p (f x)); cbn; rewrite IH; reflexivity. Qed.
Lemma filter_false {A} (l : list A) : filter (fun _ => false) l = [].
Proof. induction l; [reflexivity|assumption]. Qed.
Lemma flat_map_nil {A B} (l : list A) : flat_map (fun _ => @nil B) l = [].
Proof. induction l; [reflexivity|assumption]. Qed.
Lemma flat_map_ext_in {A B} (f g : A -> list B) l : (forall x, In x l -> f x = g x) -> flat_map f l = flat_map g l.
Proof.
  induction l as [|x r IH]; intros H; [reflexivity|]. cbn [flat_map].
  rewrite (H x (or_introl eq_refl)), IH; [reflexivity|]. intros y Hy. apply H. right. exact Hy.
Qed.
Lemma flat_map_single {B} (f : nat -> list B) j n s :
  s <= j < s + n -> flat_map (fun i => if Nat.eqb i j then f i else []) (seq s n) = f j.
Proof.
  revert s. induction n as [|n IH]; intros s H; [lia|]. cbn [seq flat_map].
  destruct (Nat.eqb_spec s j) as [->|Hne].
  - rewrite (flat_map_ext_in _ (fun _ => [])).
    + rewrite flat_map_nil, app_nil_r. reflexivity.
    + intros i Hi. apply in_seq in Hi. destruct (Nat.eqb_spec i j); [lia|reflexivity].
  - cbn [app]. apply IH. lia.
Qed.

(** The cells of a group, in C order, are obtained by running through the reduced axes. *)
Lemma group_merge sh m k :
  length m = length sh -> valid (unsel m sh) k ->
  group sh m k = map (fun s => merge m s k) (indices (sel m sh)).
Proof.
  unfold group. revert m k. induction sh as [|n r IH]; intros [|b m] k Hl Hk; try discriminate.
  - inversion Hk. reflexivity.
  - injection Hl as Hl. rewrite unsel_cons in Hk. cbn [indices sel].
    rewrite filter_flat_map. destruct b.
    + cbn [indices]. rewrite !flat_map_concat_map, concat_map, map_map. f_equal.
      apply map_ext. intros i. rewrite filter_map, map_map.
      rewrite (filter_ext _ (fun ix => list_eqb (unsel m ix) k)) by (intros; rewrite unsel_cons; reflexivity).
      rewrite IH by assumption. rewrite map_map. reflexivity.
    + inversion Hk as [|j n' k' r' Hj Hk']; subst.
      rewrite (flat_map_ext_in _ (fun i => if Nat.eqb i j then map (cons i) (map (fun s => merge m s k') (indices (sel m r))) else [])).
      * rewrite flat_map_single by lia. rewrite map_map. reflexivity.
      * intros i _. rewrite filter_map.
        rewrite (filter_ext _ (fun ix => Nat.eqb i j && list_eqb (unsel m ix) k')) by (intros; rewrite unsel_cons; reflexivity).
        destruct (Nat.eqb_spec i j); cbn [andb].
        -- rewrite IH by assumption. reflexivity.
        -- rewrite filter_false. reflexivity.
Qed.
Lemma group_nonempty sh m k : length m = length sh -> valid (unsel m sh) k -> 0 < prod (sel m sh) -> group sh m k <> [].
Proof.
  intros Hl Hk Hp E. apply (f_equal (@length _)) in E. rewrite group_merge in E by assumption.
  rewrite map_length, indices_length in E. cbn in E. lia.
Qed.
Lemma mask_of_length nd axes : length (mask_of nd axes) = nd.
Proof. unfold mask_of. rewrite map_length, seq_length. reflexivity. Qed.
Lemma prod_sel_unsel m sh : length m = length sh -> prod sh = prod (sel m sh) * prod (unsel m sh).
Proof.
  revert sh. induction m as [|b m IH]; intros [|n r] H; try discriminate; [reflexivity|].
  injection H as H. rewrite unsel_cons. cbn [sel]. destruct b; cbn [prod]; rewrite (IH r H); lia.
Qed.
