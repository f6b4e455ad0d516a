(** Moving one axis to the front, inserting and removing coordinates, unit slices. *)
From Coq Require Import ZArith List Lia Bool Arith.
From Verif Require Import Num NdArr M_common NdAxes Spec M_ens.
Import ListNotations.
Open Scope nat_scope.

Lemma insert_at_split {A} n (x : A) l : n <= length l -> insert_at n x l = firstn n l ++ x :: skipn n l.
Proof. revert l. induction n as [|n IH]; intros [|y l] H; cbn in *; try reflexivity; try lia. rewrite IH by lia. reflexivity. Qed.
Lemma remove_at_split {A} n (l : list A) : remove_at n l = firstn n l ++ skipn (S n) l.
Proof. revert l. induction n as [|n IH]; intros [|y l]; cbn; try reflexivity. rewrite IH. destruct l; reflexivity. Qed.
Lemma nth_insert_at {A} n (x : A) l d : n <= length l -> nth n (insert_at n x l) d = x.
Proof. revert l. induction n as [|n IH]; intros [|y l] H; cbn in *; try reflexivity; try lia. apply IH. lia. Qed.
Lemma remove_insert_at {A} n (x : A) l : n <= length l -> remove_at n (insert_at n x l) = l.
Proof. revert l. induction n as [|n IH]; intros [|y l] H; cbn in *; try reflexivity; try lia. rewrite IH by lia. reflexivity. Qed.
Lemma insert_remove_at {A} n (l : list A) d : n < length l -> insert_at n (nth n l d) (remove_at n l) = l.
Proof. revert l. induction n as [|n IH]; intros [|y l] H; cbn in *; try lia; try reflexivity. rewrite IH by lia. reflexivity. Qed.
Lemma set_nth_insert_at n v x l : n <= length l -> set_nth n v (insert_at n x l) = insert_at n v l.
Proof.
  unfold set_nth. revert l. induction n as [|n IH]; intros [|y l] H; cbn in *; try reflexivity; try lia.
  f_equal. apply IH. lia.
Qed.
Lemma set_nth_cons j v x l : set_nth (S j) v (x :: l) = x :: set_nth j v l.
Proof. reflexivity. Qed.
Lemma set_nth_length j v l : j < length l -> length (set_nth j v l) = length l.
Proof. intros H. unfold set_nth. rewrite app_length, firstn_length. cbn [length]. rewrite skipn_length. lia. Qed.
Lemma set_nth_set_nth j v w l : j < length l -> set_nth j v (set_nth j w l) = set_nth j v l.
Proof. revert l. induction j as [|j IH]; intros [|x l] H; cbn [length] in H; try lia; [reflexivity|]. rewrite !set_nth_cons, IH by lia. reflexivity. Qed.
Lemma set_nth_same j l d : j < length l -> set_nth j (nth j l d) l = l.
Proof. revert l. induction j as [|j IH]; intros [|x l] H; cbn [length] in H; try lia; [reflexivity|]. cbn [nth]. rewrite set_nth_cons, IH by lia. reflexivity. Qed.
Lemma nth_set_nth j v l d : j < length l -> nth j (set_nth j v l) d = v.
Proof. revert l. induction j as [|j IH]; intros [|x l] H; cbn [length] in H; try lia; [reflexivity|]. rewrite set_nth_cons. cbn [nth]. apply IH. lia. Qed.
Lemma insert_at_length {A} n (x : A) l : length (insert_at n x l) = S (length l).
Proof. revert l. induction n as [|n IH]; intros [|y l]; cbn; try reflexivity. rewrite IH. reflexivity. Qed.
Lemma remove_at_length {A} n (l : list A) : n < length l -> length (remove_at n l) = length l - 1.
Proof. revert l. induction n as [|n IH]; intros [|y l] H; cbn in *; try lia. rewrite IH by lia. lia. Qed.

Lemma valid_nth sh ix j : valid sh ix -> j < length sh -> nth j ix 0 < nth j sh 0.
Proof. intros H. revert j. induction H as [|i n t r Hi Ht IH]; intros [|j] Hj; cbn in *; try lia. apply IH. lia. Qed.
Lemma valid_insert n m sh ix : n < length sh -> m < nth n sh 0 -> valid (remove_at n sh) ix -> valid sh (insert_at n m ix).
Proof.
  revert sh ix. induction n as [|n IH]; intros [|s sh] ix Hn Hm H; cbn in *; try lia.
  - constructor; [exact Hm|exact H].
  - inversion H as [|i s' t r Hi Ht]; subst. constructor; [exact Hi|]. apply IH; [lia|exact Hm|exact Ht].
Qed.
Lemma valid_set_nth j v sh ix : valid sh ix -> j < length sh -> v < nth j sh 0 -> valid sh (set_nth j v ix).
Proof.
  intros H. revert j. induction H as [|i n t r Hi Ht IH]; intros [|j] Hj Hv; cbn [length nth] in *; try lia.
  - constructor; assumption.
  - rewrite set_nth_cons. constructor; [exact Hi|]. apply IH; [lia|exact Hv].
Qed.
Lemma valid_set_nth_shape j v w sh ix : valid sh ix -> j < length sh -> v < w -> valid (set_nth j w sh) (set_nth j v ix).
Proof.
  intros H. revert j. induction H as [|i n t r Hi Ht IH]; intros [|j] Hj Hv; cbn [length] in *; try lia.
  - constructor; assumption.
  - rewrite !set_nth_cons. constructor; [exact Hi|]. apply IH; [lia|exact Hv].
Qed.

Lemma drop_axis_remove n sh : drop_axis n sh = remove_at n sh.
Proof. symmetry. apply remove_at_split. Qed.

(** np.moveaxis(a, z, 0) *)
Lemma moveaxis_front {A} (a : arr A) z n : axis_is (length (shape a)) z n ->
  exists b, moveaxis z 0 a = Ok b /\ shape b = nth n (shape a) 0 :: drop_axis n (shape a) /\
    forall m ix, length ix = length (shape a) - 1 -> get b (m :: ix) = get a (firstn n ix ++ m :: skipn n ix).
Proof.
  intros [Hn Hz]. unfold moveaxis. rewrite (norm_axis_fun _ _ _ Hn Hz). cbn [bind].
  assert (H0 : norm_axis (length (shape a)) 0 = Ok 0) by (apply (norm_axis_nat _ 0); lia). rewrite H0. cbn [bind].
  eexists. split; [reflexivity|]. split.
  - rewrite shape_transpose, pick_moveaxis_order by auto. rewrite drop_axis_remove. reflexivity.
  - intros m ix Hix.
    assert (Hle : n <= length ix) by lia.
    rewrite <- insert_at_split by exact Hle.
    transitivity (get (transpose (moveaxis_order (length (shape a)) n 0) a) (pick (moveaxis_order (length (shape a)) n 0) (insert_at n m ix))).
    + rewrite pick_moveaxis_order; [|rewrite insert_at_length; lia|exact Hn].
      rewrite nth_insert_at, remove_insert_at by exact Hle. reflexivity.
    + apply get_transpose; [apply moveaxis_order_perm, Hn|rewrite insert_at_length; lia].
Qed.
Lemma moveaxis_axis {A} (a b : arr A) z d : moveaxis z d a = Ok b -> exists n, axis_is (length (shape a)) z n.
Proof.
  unfold moveaxis. destruct (norm_axis (length (shape a)) z) as [n|] eqn:E; [|discriminate]. intros _.
  exists n. exact (norm_axis_ok _ _ _ E).
Qed.
Lemma column_front {A} (a b : arr A) z n ix : axis_is (length (shape a)) z n -> moveaxis z 0 a = Ok b ->
  length ix = length (shape a) - 1 -> column b ix = members_at n a ix.
Proof.
  intros Hz Hb Hix. destruct (moveaxis_front a z n Hz) as (b' & Eb & Hs & Hg). rewrite Hb in Eb. injection Eb as <-.
  unfold column, members_at. rewrite Hs. cbn [hd]. apply map_ext. intros m. apply Hg, Hix.
Qed.
Lemma axis_is_fun nd z n n' : axis_is nd z n -> axis_is nd z n' -> n = n'.
Proof. unfold axis_is. lia. Qed.

(** The column of a unit slice is the column of the array. *)
Lemma column_unit_slice {A} (c : arr A) j i ix : shape c <> [] -> j < length ix -> nth j ix 0 = i ->
  column (unit_slice (S j) i c) (set_nth j 0 ix) = column c ix.
Proof.
  intros Hc Hj Hi. unfold column. destruct (shape c) as [|s sh] eqn:E; [contradiction|].
  unfold unit_slice; cbn [shape get]. rewrite E, set_nth_cons. cbn [hd]. apply map_ext. intros m.
  rewrite set_nth_cons, set_nth_set_nth by exact Hj. rewrite <- Hi, set_nth_same by exact Hj. reflexivity.
Qed.
