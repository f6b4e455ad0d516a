(** Transpositions and the "move sample axes to the front" loop.  Proof support only. *)
From Coq Require Import ZArith List Lia Bool Arith Permutation Sorted.
From Verif Require Import Num NdArr Numpy M_common.
Import ListNotations.
Open Scope nat_scope.

(** [pick p l]: the entries of [l] at positions [p]. *)
Definition pick (p l : list nat) : list nat := map (fun j => nth j l 0) p.

Lemma index_of_lt x l : In x l -> index_of x l < length l.
Proof.
  induction l as [|y r IH]; intros H; [destruct H|]. cbn [index_of length].
  destruct (Nat.eqb_spec x y); [lia|]. destruct H as [->|H]; [contradiction|]. apply IH in H. lia.
Qed.
Lemma nth_index_of x l d : In x l -> nth (index_of x l) l d = x.
Proof.
  induction l as [|y r IH]; intros H; [destruct H|]. cbn [index_of].
  destruct (Nat.eqb_spec x y); [subst; reflexivity|]. destruct H as [->|H]; [contradiction|]. cbn [nth]. apply IH, H.
Qed.
Lemma index_of_nth i l d : NoDup l -> i < length l -> index_of (nth i l d) l = i.
Proof.
  intros H. revert i. induction H as [|x r Hx Hr IH]; intros i Hi; cbn [length] in Hi; [lia|].
  destruct i; cbn [nth index_of].
  - rewrite Nat.eqb_refl. reflexivity.
  - destruct (Nat.eqb_spec (nth i r d) x) as [E|E].
    + exfalso. apply Hx. rewrite <- E. apply nth_In. lia.
    + rewrite IH by lia. reflexivity.
Qed.
Definition is_perm (nd : nat) (p : list nat) : Prop := Permutation p (seq 0 nd).
Lemma is_perm_nodup nd p : is_perm nd p -> NoDup p.
Proof. intros H. eapply Permutation_NoDup; [symmetry; exact H|apply seq_NoDup]. Qed.
Lemma is_perm_in nd p x : is_perm nd p -> (In x p <-> x < nd).
Proof.
  intros H. split; intros Hx.
  - apply (Permutation_in _ H) in Hx. apply in_seq in Hx. lia.
  - apply (Permutation_in _ (Permutation_sym H)). apply in_seq. lia.
Qed.
Lemma is_perm_length nd p : is_perm nd p -> length p = nd.
Proof. intros H. rewrite (Permutation_length H). apply seq_length. Qed.
Lemma map_nth_seq (l : list nat) : map (fun j => nth j l 0) (seq 0 (length l)) = l.
Proof.
  induction l as [|x r IH]; [reflexivity|]. cbn [length seq map nth]. f_equal.
  rewrite <- seq_shift, map_map. exact IH.
Qed.
Lemma nth_map_in {A} (f : nat -> A) p i d : i < length p -> nth i (map f p) d = f (nth i p 0).
Proof.
  intros H. rewrite (nth_indep _ d (f 0)) by (rewrite map_length; exact H). apply map_nth.
Qed.

(** Reading a transposed array at the permuted index reads the original at the index. *)
Lemma unpick nd p l : is_perm nd p -> length l = nd ->
  map (fun ax => nth (index_of ax p) (pick p l) 0) (seq 0 nd) = l.
Proof.
  intros Hp Hl. subst nd. transitivity (map (fun j => nth j l 0) (seq 0 (length l))); [|apply map_nth_seq]. apply map_ext_in. intros ax Hax. apply in_seq in Hax.
  assert (Hin : In ax p) by (apply (is_perm_in _ _ _ Hp); lia).
  unfold pick. rewrite nth_map_in by (apply index_of_lt, Hin). rewrite nth_index_of by exact Hin. reflexivity.
Qed.
Lemma pick_unpick nd p ix : is_perm nd p -> length ix = nd ->
  pick p (map (fun ax => nth (index_of ax p) ix 0) (seq 0 nd)) = ix.
Proof.
  intros Hp Hl. pose proof (is_perm_length _ _ Hp) as Hpl. pose proof (is_perm_nodup _ _ Hp) as Hnd.
  transitivity (map (fun j => nth j ix 0) (map (fun ax => index_of ax p) p)).
  - unfold pick. rewrite map_map. apply map_ext_in. intros j Hj.
    apply (is_perm_in _ _ _ Hp) in Hj. rewrite nth_map_in by (rewrite seq_length; lia). rewrite seq_nth by lia. reflexivity.
  - transitivity (map (fun j => nth j ix 0) (seq 0 (length ix))); [|apply map_nth_seq]. f_equal. rewrite Hl, <- Hpl. clear -Hnd.
    apply (nth_ext _ _ 0 0); [rewrite map_length, seq_length; reflexivity|].
    intros i Hi. rewrite map_length in Hi. rewrite nth_map_in by exact Hi. rewrite seq_nth by exact Hi.
    rewrite index_of_nth by assumption. reflexivity.
Qed.
Lemma get_transpose {A} p (a : arr A) l :
  is_perm (length (shape a)) p -> length l = length (shape a) -> get (transpose p a) (pick p l) = get a l.
Proof. intros Hp Hl. unfold transpose; cbn [get]. rewrite unpick by assumption. reflexivity. Qed.
Lemma shape_transpose {A} p (a : arr A) : shape (transpose p a) = pick p (shape a).
Proof. reflexivity. Qed.
Lemma pick_length p l : length (pick p l) = length p. Proof. apply map_length. Qed.
Lemma pick_app p q l : pick (p ++ q) l = pick p l ++ pick q l. Proof. apply map_app. Qed.
Lemma pick_pick nd p q l : is_perm nd p -> is_perm nd q -> pick q (pick p l) = pick (pick q p) l.
Proof.
  intros Hp Hq. unfold pick. rewrite map_map. apply map_ext_in. intros i Hi.
  apply (is_perm_in _ _ _ Hq) in Hi. rewrite nth_map_in; [reflexivity|]. rewrite (is_perm_length _ _ Hp). exact Hi.
Qed.
Lemma pick_perm nd p q : is_perm nd p -> is_perm nd q -> is_perm nd (pick q p).
Proof.
  intros Hp Hq. unfold is_perm in *. rewrite <- Hp at 1. unfold pick.
  rewrite Hq. rewrite <- (is_perm_length _ _ Hp). rewrite map_nth_seq. reflexivity.
Qed.
Lemma transpose_transpose {A} p q (a : arr A) :
  is_perm (length (shape a)) p -> is_perm (length (shape a)) q ->
  shape (transpose q (transpose p a)) = shape (transpose (pick q p) a) /\
  forall ix, length ix = length (shape a) -> get (transpose q (transpose p a)) ix = get (transpose (pick q p) a) ix.
Proof.
  intros Hp Hq. split; [rewrite !shape_transpose; apply (pick_pick (length (shape a))); assumption|].
  intros ix Hix. set (nd := length (shape a)) in *.
  pose (l := map (fun ax => nth (index_of ax (pick q p)) ix 0) (seq 0 nd)).
  assert (Hl : length l = nd) by (unfold l; rewrite map_length, seq_length; reflexivity).
  assert (E : ix = pick (pick q p) l) by (symmetry; apply pick_unpick; [apply pick_perm; assumption|exact Hix]).
  rewrite E at 2. rewrite get_transpose by (try apply pick_perm; assumption).
  rewrite E. rewrite <- (pick_pick nd) by assumption.
  rewrite get_transpose; rewrite ?shape_transpose, ?pick_length, ?(is_perm_length _ _ Hp); try assumption; [|reflexivity].
  apply get_transpose; assumption.
Qed.

(** *** insert / remove *)
Lemma map_remove_at {A B} (f : A -> B) k l : map f (remove_at k l) = remove_at k (map f l).
Proof. revert k. induction l as [|x r IH]; intros [|k]; cbn; try reflexivity. rewrite IH. reflexivity. Qed.
Lemma map_insert_at {A B} (f : A -> B) k x l : map f (insert_at k x l) = insert_at k (f x) (map f l).
Proof. revert l. induction k as [|k IH]; intros [|y r]; cbn; try reflexivity. rewrite IH. reflexivity. Qed.
Lemma remove_at_app {A} (l1 l2 : list A) x : remove_at (length l1) (l1 ++ x :: l2) = l1 ++ l2.
Proof. induction l1 as [|y r IH]; cbn; [reflexivity|]. rewrite IH. reflexivity. Qed.
Lemma insert_at_app {A} (l1 l2 : list A) x : insert_at (length l1) x (l1 ++ l2) = l1 ++ x :: l2.
Proof. induction l1 as [|y r IH]; cbn; [reflexivity|]. rewrite IH. reflexivity. Qed.
Lemma remove_at_perm (l : list nat) k : k < length l -> Permutation l (nth k l 0 :: remove_at k l).
Proof.
  revert k. induction l as [|x r IH]; intros [|k] H; cbn in *; try lia; [reflexivity|].
  rewrite (IH k) at 1 by lia. apply perm_swap.
Qed.
Lemma insert_at_perm (l : list nat) k x : Permutation (insert_at k x l) (x :: l).
Proof.
  revert l. induction k as [|k IH]; intros [|y r]; cbn; try reflexivity. rewrite IH. apply perm_swap.
Qed.
Lemma moveaxis_order_perm nd s d : s < nd -> is_perm nd (moveaxis_order nd s d).
Proof.
  intros H. unfold is_perm, moveaxis_order. rewrite insert_at_perm.
  rewrite (remove_at_perm (seq 0 nd) s) at 2 by (rewrite seq_length; exact H).
  rewrite seq_nth by exact H. reflexivity.
Qed.
Lemma pick_moveaxis_order nd p s d : length p = nd -> s < nd ->
  pick (moveaxis_order nd s d) p = insert_at d (nth s p 0) (remove_at s p).
Proof.
  intros Hp Hs. unfold pick, moveaxis_order. rewrite map_insert_at, map_remove_at. subst nd. rewrite map_nth_seq. reflexivity.
Qed.

Definition restof (nd : nat) (P : list nat) : list nat :=
  filter (fun i => negb (existsb (Nat.eqb i) P)) (seq 0 nd).

Lemma existsb_eqb_in x l : existsb (Nat.eqb x) l = true <-> In x l.
Proof.
  rewrite existsb_exists. split.
  - intros (y & Hy & E). apply Nat.eqb_eq in E. congruence.
  - intros H. exists x. split; [exact H|apply Nat.eqb_refl].
Qed.
Lemma filter_all {A} (f : A -> bool) l : (forall x, In x l -> f x = true) -> filter f l = l.
Proof.
  induction l as [|x r IH]; intros H; [reflexivity|]. cbn. rewrite (H x (or_introl eq_refl)), IH; [reflexivity|].
  intros y Hy. apply H. right. exact Hy.
Qed.
Lemma filter_ext_in' {A} (f g : A -> bool) l : (forall x, In x l -> f x = g x) -> filter f l = filter g l.
Proof.
  induction l as [|x r IH]; intros H; [reflexivity|]. cbn. rewrite (H x (or_introl eq_refl)), IH; [reflexivity|].
  intros y Hy. apply H. right. exact Hy.
Qed.
Lemma restof_perm nd P : NoDup P -> (forall x, In x P -> x < nd) -> is_perm nd (P ++ restof nd P).
Proof.
  intros HP Hlt. apply NoDup_Permutation.
  - apply NoDup_app_intro; [exact HP|apply NoDup_filter, seq_NoDup|].
    intros x Hx Hc. apply filter_In in Hc as [_ Hc]. apply negb_true_iff in Hc.
    apply existsb_eqb_in in Hx. congruence.
  - apply seq_NoDup.
  - intros x. rewrite in_app_iff. unfold restof. rewrite filter_In, in_seq, negb_true_iff. split.
    + intros [H|[H _]]; [apply Hlt in H; lia|lia].
    + intros H. destruct (existsb (Nat.eqb x) P) eqn:E; [left; apply existsb_eqb_in, E|right; split; [lia|reflexivity]].
Qed.
(** decomposition of the remaining axes around an axis larger than all moved ones *)
Lemma restof_split nd P x : x < nd -> (forall y, In y P -> y < x) ->
  restof nd P = restof x P ++ x :: seq (S x) (nd - S x).
Proof.
  intros Hx HP. unfold restof.
  replace (seq 0 nd) with (seq 0 x ++ seq x (nd - x)) by (rewrite <- seq_app; f_equal; lia).
  rewrite filter_app. f_equal. replace (nd - x) with (S (nd - S x)) by lia.
  rewrite filter_all; [reflexivity|]. intros y Hy. apply in_seq in Hy. apply negb_true_iff.
  destruct (existsb (Nat.eqb y) P) eqn:E; [|reflexivity]. apply existsb_eqb_in, HP in E. lia.
Qed.
Lemma restof_snoc nd P x : x < nd -> (forall y, In y P -> y < x) ->
  restof nd (P ++ [x]) = restof x P ++ seq (S x) (nd - S x).
Proof.
  intros Hx HP. unfold restof.
  replace (seq 0 nd) with (seq 0 x ++ x :: seq (S x) (nd - S x)).
  2:{ change (x :: seq (S x) (nd - S x)) with (seq x (S (nd - S x))). replace (S (nd - S x)) with (nd - x) by lia.
      rewrite <- seq_app. f_equal. lia. }
  rewrite filter_app. f_equal.
  - apply filter_ext_in'. intros y Hy. apply in_seq in Hy. rewrite existsb_app. cbn [existsb].
    destruct (Nat.eqb_spec y x); [lia|]. cbn [orb]; rewrite ?orb_false_r. reflexivity.
  - cbn [filter]. rewrite existsb_app. cbn [existsb]. rewrite Nat.eqb_refl, orb_true_r. cbn [negb orb].
    apply filter_all. intros y Hy. apply in_seq in Hy. apply negb_true_iff. rewrite existsb_app. cbn [existsb].
    destruct (Nat.eqb_spec y x); [lia|]. rewrite !orb_false_r.
    destruct (existsb (Nat.eqb y) P) eqn:E; [|reflexivity]. apply existsb_eqb_in, HP in E. lia.
Qed.
Lemma restof_length x P : NoDup P -> (forall y, In y P -> y < x) -> length P + length (restof x P) = x.
Proof.
  intros H1 H2. rewrite <- app_length. apply is_perm_length, restof_perm; assumption.
Qed.

Lemma norm_axis_ok nd ax n : norm_axis nd ax = Ok n ->
  n < nd /\ (ax = Z.of_nat n \/ ax = Z.of_nat n - Z.of_nat nd)%Z.
Proof.
  unfold norm_axis. destruct (Z.ltb_spec ax (- Z.of_nat nd)); [discriminate|].
  destruct (Z.leb_spec (Z.of_nat nd) ax); [discriminate|]. cbn [orb].
  intros E. injection E as <-. destruct (Z.ltb_spec ax 0); split; lia.
Qed.
Lemma norm_axis_nat nd n : n < nd -> norm_axis nd (Z.of_nat n) = Ok n.
Proof.
  intros H. unfold norm_axis. destruct (Z.ltb_spec (Z.of_nat n) (- Z.of_nat nd)); [lia|].
  destruct (Z.leb_spec (Z.of_nat nd) (Z.of_nat n)); [lia|]. cbn [orb].
  destruct (Z.ltb_spec (Z.of_nat n) 0); [lia|]. rewrite Nat2Z.id. reflexivity.
Qed.
Lemma norm_axis_fun nd ax n : n < nd -> (ax = Z.of_nat n \/ ax = Z.of_nat n - Z.of_nat nd)%Z -> norm_axis nd ax = Ok n.
Proof.
  intros H [->| ->]; [apply norm_axis_nat, H|]. unfold norm_axis.
  destruct (Z.ltb_spec (Z.of_nat n - Z.of_nat nd) (- Z.of_nat nd)); [lia|].
  destruct (Z.leb_spec (Z.of_nat nd) (Z.of_nat n - Z.of_nat nd)); [lia|]. cbn [orb].
  destruct (Z.ltb_spec (Z.of_nat n - Z.of_nat nd) 0); [|lia]. f_equal. lia.
Qed.

(** [b] is observably [transpose p a]. *)
Definition transposed {A} (p : list nat) (a b : arr A) : Prop :=
  shape b = pick p (shape a) /\ forall l, length l = length (shape a) -> get b (pick p l) = get a l.

(** Moving a strictly increasing list of axes, given by positive or negative
    numbers, puts them in front, in increasing order, followed by the others in order. *)
Lemma move_loop_gen {A} (a : arr A) axes ns P b :
  let nd := length (shape a) in
  StronglySorted lt (P ++ ns) ->
  Forall2 (fun ax n => norm_axis nd ax = Ok n) axes ns ->
  (forall x, In x P -> x < nd) ->
  transposed (P ++ restof nd P) a b ->
  exists b', move_loop axes (length P) b = Ok (b', length (P ++ ns)) /\
             transposed ((P ++ ns) ++ restof nd (P ++ ns)) a b'.
Proof.
  intros nd Hs Hax. revert P b Hs. induction Hax as [|ax n axes ns Hn Hax IH]; intros P b Hs HP Hb; cbn [move_loop].
  - rewrite app_nil_r in *. exists b. split; [reflexivity|exact Hb].
  - pose proof (norm_axis_ok _ _ _ Hn) as [Hlt Haxn].
    assert (HPx : forall y, In y P -> y < n).
    { intros y Hy. clear -Hs Hy. induction P as [|z P IHP]; [destruct Hy|]. cbn [app] in Hs.
      inversion Hs as [|? ? Hs' Hf]; subst. destruct Hy as [->|Hy]; [|auto].
      rewrite Forall_forall in Hf. apply Hf. rewrite in_app_iff. right. left. reflexivity. }
    assert (HPn : NoDup P).
    { clear -Hs. induction P as [|z P IHP]; [constructor|]. cbn [app] in Hs. inversion Hs as [|? ? Hs' Hf]; subst.
      constructor; [|auto]. intros Hz. rewrite Forall_forall in Hf. specialize (Hf z). rewrite in_app_iff in Hf.
      assert (z < z) by (apply Hf; left; exact Hz). lia. }
    replace (P ++ n :: ns) with ((P ++ [n]) ++ ns) in * by (rewrite <- app_assoc; reflexivity).
    assert (HPn' : forall x, In x (P ++ [n]) -> x < nd).
    { intros x Hx. apply in_app_iff in Hx. cbn [In] in Hx. destruct Hx as [Hx|[<-|[]]]; [apply HP, Hx|exact Hlt]. }
    assert (Hperm : is_perm nd (P ++ restof nd P)) by (apply restof_perm; assumption).
    assert (Hstep : exists b1, (if Z.eqb ax (Z.of_nat (length P)) then Ok b else moveaxis ax (Z.of_nat (length P)) b) = Ok b1 /\
                    transposed ((P ++ [n]) ++ restof nd (P ++ [n])) a b1).
    { pose proof (restof_length n P HPn HPx) as Hlen.
      assert (Ep : P ++ restof nd P = (P ++ restof n P) ++ n :: seq (S n) (nd - S n)).
      { rewrite (restof_split nd P n) by assumption. rewrite <- app_assoc. reflexivity. }
      assert (Ep' : (P ++ [n]) ++ restof nd (P ++ [n]) = P ++ n :: restof n P ++ seq (S n) (nd - S n)).
      { rewrite restof_snoc by assumption. rewrite <- app_assoc. reflexivity. }
      destruct (Z.eqb_spec ax (Z.of_nat (length P))) as [E|E].
      - exists b. split; [reflexivity|].
        assert (n = length P) as En by lia.
        assert (Hr : restof n P = []) by (apply length_zero_iff_nil; lia).
        rewrite Ep', Hr. rewrite Ep, Hr, app_nil_r in Hb. exact Hb.
      - destruct Hb as [Hbs Hbg].
        assert (Hbl : length (shape b) = nd).
        { rewrite Hbs, pick_length. apply is_perm_length, Hperm. }
        unfold moveaxis. rewrite Hbl, Hn. cbn [bind].
        rewrite norm_axis_nat by lia. cbn [bind]. eexists. split; [reflexivity|].
        assert (Ho : pick (moveaxis_order nd n (length P)) (P ++ restof nd P) = (P ++ [n]) ++ restof nd (P ++ [n])).
        { rewrite pick_moveaxis_order; [|apply is_perm_length, Hperm|exact Hlt]. rewrite Ep, Ep'.
          assert (Hl2 : length (P ++ restof n P) = n) by (rewrite app_length; exact Hlen).
          pose proof (remove_at_app (P ++ restof n P) (seq (S n) (nd - S n)) n) as Hrm. rewrite Hl2 in Hrm. rewrite Hrm.
          rewrite app_nth2 by lia. rewrite Hl2, Nat.sub_diag. cbn [nth].
          rewrite <- app_assoc. apply insert_at_app. }
        pose proof (moveaxis_order_perm nd n (length P) Hlt) as Hmp.
        split.
        + rewrite shape_transpose, Hbs. rewrite (pick_pick nd) by assumption. rewrite Ho. reflexivity.
        + intros l Hl. rewrite <- Ho. rewrite <- (pick_pick nd) by assumption.
          rewrite get_transpose; [apply Hbg, Hl|rewrite Hbl; exact Hmp|].
          rewrite Hbl, pick_length. apply is_perm_length, Hperm. }
    destruct Hstep as (b1 & E1 & T1). rewrite E1. cbn [bind].
    replace (S (length P)) with (length (P ++ [n])) by (rewrite app_length; cbn; lia).
    apply IH; assumption.
Qed.
Lemma transposed_id {A} (a : arr A) : transposed (seq 0 (length (shape a))) a a.
Proof.
  split; [symmetry; apply map_nth_seq|]. intros l Hl. rewrite <- Hl. unfold pick. rewrite map_nth_seq. reflexivity.
Qed.
Lemma restof_nil nd : restof nd [] = seq 0 nd.
Proof. apply filter_all. reflexivity. Qed.
Lemma move_loop_spec {A} (a : arr A) axes ns :
  let nd := length (shape a) in
  StronglySorted lt ns ->
  Forall2 (fun ax n => norm_axis nd ax = Ok n) axes ns ->
  exists b, move_loop axes 0 a = Ok (b, length ns) /\ transposed (ns ++ restof nd ns) a b.
Proof.
  intros nd Hs Hax. apply (move_loop_gen a axes ns [] a Hs Hax); [intros x []|].
  cbn [app]. unfold nd. rewrite restof_nil. apply transposed_id.
Qed.

(** *** Masks and picks *)
Lemma sel_pick (f : nat -> bool) l s : 
  sel (map f (seq s (length l))) l = map (fun j => nth (j - s) l 0) (filter f (seq s (length l))).
Proof.
  revert s. induction l as [|x r IH]; intros s; [reflexivity|]. cbn [length seq map sel filter].
  rewrite IH.
  assert (E : map (fun j => nth (j - S s) r 0) (filter f (seq (S s) (length r))) =
              map (fun j => nth (j - s) (x :: r) 0) (filter f (seq (S s) (length r)))).
  { apply map_ext_in. intros j Hj. apply filter_In in Hj as [Hj _]. apply in_seq in Hj.
    replace (j - s) with (S (j - S s)) by lia. reflexivity. }
  rewrite E. destruct (f s); cbn [map]; [|reflexivity]. rewrite Nat.sub_diag. reflexivity.
Qed.
Lemma sel_mask_pick nd ns l : length l = nd -> sel (mask_of nd ns) l = pick (filter (fun i => existsb (Nat.eqb i) ns) (seq 0 nd)) l.
Proof.
  intros <-. unfold mask_of. rewrite sel_pick. unfold pick. apply map_ext. intros j. rewrite Nat.sub_0_r. reflexivity.
Qed.
Lemma unsel_mask_pick nd ns l : length l = nd -> unsel (mask_of nd ns) l = pick (restof nd ns) l.
Proof.
  intros <-. unfold unsel, mask_of. rewrite map_map, sel_pick. unfold pick, restof. apply map_ext. intros j. rewrite Nat.sub_0_r. reflexivity.
Qed.
Lemma sorted_filter_seq nd ns : StronglySorted lt ns -> (forall x, In x ns -> x < nd) ->
  filter (fun i => existsb (Nat.eqb i) ns) (seq 0 nd) = ns.
Proof.
  assert (G : forall k s, StronglySorted lt ns -> (forall x, In x ns -> s <= x < s + k) ->
              filter (fun i => existsb (Nat.eqb i) ns) (seq s k) = ns).
  { clear nd. intros k. revert ns. induction k as [|k IH]; intros ns s Hs Hr.
    - destruct ns as [|x r]; [reflexivity|]. specialize (Hr x (or_introl eq_refl)). lia.
    - cbn [seq filter]. destruct ns as [|x r].
      + cbn [existsb]. rewrite filter_false. reflexivity.
      + inversion Hs as [|? ? Hs' Hf]; subst. rewrite Forall_forall in Hf.
        destruct (Nat.eq_dec x s) as [->|Hne].
        * cbn [existsb]. rewrite Nat.eqb_refl. cbn [orb]. f_equal.
          transitivity (filter (fun i => existsb (Nat.eqb i) r) (seq (S s) k)); [|apply IH; [exact Hs'|]].
          -- apply filter_ext_in'. intros y Hy. apply in_seq in Hy. cbn [existsb]. destruct (Nat.eqb_spec y s); [lia|reflexivity].
          -- intros y Hy. pose proof (Hf y Hy). specialize (Hr y (or_intror Hy)). lia.
        * assert (Hx : s < x) by (specialize (Hr x (or_introl eq_refl)); lia).
          assert (E : existsb (Nat.eqb s) (x :: r) = false).
          { destruct (existsb (Nat.eqb s) (x :: r)) eqn:E; [|reflexivity]. apply existsb_eqb_in in E.
            destruct E as [E|E]; [lia|]. apply Hf in E. lia. }
          rewrite E. apply IH; [exact Hs|]. intros y Hy.
          assert (s < y) by (destruct Hy as [<-|Hy]; [exact Hx|apply Hf in Hy; lia]). specialize (Hr y Hy). lia. }
  intros Hs Hr. apply G; [exact Hs|]. intros x Hx. apply Hr in Hx. lia.
Qed.

(** The transposed array read at (sample index ++ kept index) is the original at the merged index. *)
Lemma transposed_merge {A} (a b : arr A) ns s k :
  let nd := length (shape a) in let m := mask_of nd ns in
  StronglySorted lt ns -> (forall x, In x ns -> x < nd) ->
  transposed (ns ++ restof nd ns) a b ->
  shape b = sel m (shape a) ++ unsel m (shape a) /\
  (valid (sel m (shape a)) s -> valid (unsel m (shape a)) k -> get b (s ++ k) = get a (merge m s k)).
Proof.
  intros nd m Hs Hr [Hb Hg]. split.
  - rewrite Hb, pick_app. unfold m. rewrite unsel_mask_pick, sel_mask_pick by reflexivity.
    rewrite sorted_filter_seq by assumption. reflexivity.
  - intros Hvs Hvk. assert (Hml : length m = length (shape a)) by apply mask_of_length.
    assert (Hl : length (merge m s k) = nd) by (apply valid_length, valid_merge; assumption).
    rewrite <- Hg by exact Hl. f_equal. rewrite pick_app. f_equal.
    + rewrite <- (sel_merge m (shape a) s k) at 1 by assumption.
      unfold m at 1. rewrite sel_mask_pick by exact Hl. rewrite sorted_filter_seq by assumption. reflexivity.
    + rewrite <- (unsel_merge m (shape a) s k) at 1 by assumption.
      unfold m at 1. rewrite unsel_mask_pick by exact Hl. reflexivity.
Qed.
