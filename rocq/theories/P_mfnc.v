(** Lemmas for C86 and C87: several files opened together. *)
From Coq Require Import String Ascii List Bool Arith NArith ZArith QArith Qcanon Lia Permutation Sorted.
From Verif Require Import QcTac Num NdArr NdMove M_nc Spec_nc P_nc M_mfnc Spec_mfnc.
From Verif Require M_io Spec_io Props_io.
Import ListNotations.
Open Scope string_scope.
Open Scope list_scope.
Open Scope nat_scope.

(** ** Order of paths *)
Lemma code_inj c d : nat_of_ascii c = nat_of_ascii d -> c = d.
Proof. intros H. rewrite <- (ascii_nat_embedding c), <- (ascii_nat_embedding d), H. reflexivity. Qed.
Lemma path_total p q : path_leb p q = true \/ path_leb q p = true.
Proof.
  revert q. induction p as [|c p IH]; intros [|d q]; cbn [path_leb]; cbv zeta; auto. destruct (Nat.lt_total (nat_of_ascii c) (nat_of_ascii d)) as [H|[H|H]].
  - left. apply Nat.ltb_lt in H. rewrite H. reflexivity.
  - rewrite H, Nat.ltb_irrefl, Nat.eqb_refl. cbn. apply IH.
  - right. apply Nat.ltb_lt in H. rewrite H. reflexivity.
Qed.
Lemma path_anti p q : path_leb p q = true -> path_leb q p = true -> p = q.
Proof.
  revert q. induction p as [|c p IH]; intros [|d q]; cbn [path_leb]; cbv zeta; auto; try discriminate. intros H K.
  apply orb_true_iff in H as [H|H], K as [K|K]; rewrite ?andb_true_iff, ?Nat.ltb_lt, ?Nat.eqb_eq in *; try lia.
  destruct H as [H1 H2], K as [_ K2]. apply code_inj in H1. subst. f_equal. auto.
Qed.
Lemma path_trans p q s : path_leb p q = true -> path_leb q s = true -> path_leb p s = true.
Proof.
  revert q s. induction p as [|c p IH]; intros [|d q] [|e s]; cbn [path_leb]; cbv zeta; auto; try discriminate. intros H K.
  apply orb_true_iff. apply orb_true_iff in H as [H|H], K as [K|K]; rewrite ?andb_true_iff, ?Nat.ltb_lt, ?Nat.eqb_eq in *; try (left; lia).
  right. destruct H as [-> H], K as [-> K]. split; [reflexivity|]. eauto.
Qed.
Lemma insert_comm p q l : insert_path p (insert_path q l) = insert_path q (insert_path p l).
Proof.
  induction l as [|z l IH]; cbn [insert_path].
  - destruct (path_leb p q) eqn:A, (path_leb q p) eqn:B; try reflexivity; [|destruct (path_total p q); congruence]. rewrite (path_anti _ _ A B). reflexivity.
  - destruct (path_leb q z) eqn:Qz, (path_leb p z) eqn:Pz; cbn [insert_path]; rewrite ?Qz, ?Pz.
    + destruct (path_leb p q) eqn:A, (path_leb q p) eqn:B; try reflexivity; [|destruct (path_total p q); congruence]. rewrite (path_anti _ _ A B). reflexivity.
    + destruct (path_leb p q) eqn:A; [|reflexivity]. rewrite (path_trans _ _ _ A Qz) in Pz. discriminate.
    + destruct (path_leb q p) eqn:A; [|reflexivity]. rewrite (path_trans _ _ _ A Pz) in Qz. discriminate.
    + rewrite IH. reflexivity.
Qed.
Lemma sort_perm l l' : Permutation l l' -> sort_paths l = sort_paths l'.
Proof. induction 1; cbn [sort_paths]; [reflexivity|congruence|apply insert_comm|congruence]. Qed.
Lemma insert_permutation p l : Permutation (p :: l) (insert_path p l).
Proof. induction l as [|q l IH]; cbn; [reflexivity|]. destruct (path_leb p q); [reflexivity|]. rewrite perm_swap, IH. reflexivity. Qed.
Lemma sort_permutation l : Permutation l (sort_paths l).
Proof. induction l as [|p l IH]; cbn; [reflexivity|]. rewrite <- insert_permutation, <- IH. reflexivity. Qed.

(** ** Order of data sets *)
Section Place.
Context {X : Type}.
Lemma place_perm key (x : X) acc : ~ In key (map fst acc) -> Permutation ((key, x) :: acc) (place key x acc).
Proof.
  induction acc as [|[k y] acc IH]; cbn [place map fst]; intros H; [reflexivity|]. destruct (qltb key k); [reflexivity|].
  destruct (Qc_eq_bool key k) eqn:E; [apply Qc_eq_bool_correct in E; subst; elim H; left; reflexivity|]. rewrite perm_swap, IH; [reflexivity|]. intros K. apply H. right. exact K.
Qed.
Definition increasing (l : list (Qc * X)) : Prop := StronglySorted (fun a b => (fst a < fst b)%Qc) l.
Lemma place_sorted key (x : X) acc : increasing acc -> increasing (place key x acc).
Proof.
  induction acc as [|[k y] acc IH]; cbn [place]; intros H; [repeat constructor|]. apply StronglySorted_inv in H as [H F].
  destruct (qltb_spec key k) as [L|L].
  - constructor; [constructor; assumption|]. constructor; [exact L|]. eapply Forall_impl; [|exact F]. intros [k' y'] K. cbn in *. eapply Qclt_trans; eassumption.
  - destruct (Qc_eq_bool key k) eqn:E; [apply Qc_eq_bool_correct in E; subst; constructor; assumption|].
    constructor; [apply IH, H|]. assert (N : (k < key)%Qc) by (apply Qcle_lt_or_eq in L as [L|L]; [exact L|]; subst; unfold Qc_eq_bool in E; destruct (Qc_eq_dec key key); congruence).
    clear - F N. induction acc as [|[k' y'] acc IH]; cbn [place]; [repeat constructor; exact N|]. inversion F as [|? ? F1 F2]; subst. cbn in F1.
    destruct (qltb key k'); [repeat constructor; assumption|]. destruct (Qc_eq_bool key k'); constructor; try assumption. apply IH, F2.
Qed.
Lemma fold_place (f : X -> Qc) l acc : increasing acc -> (forall a, In a acc -> fst a = f (snd a)) -> NoDup (map f (map snd acc ++ l)) ->
  let o := fold_left (fun acc c => place (f c) c acc) l acc in
  increasing o /\ (forall a, In a o -> fst a = f (snd a)) /\ Permutation (map snd acc ++ l) (map snd o).
Proof.
  revert acc. induction l as [|x l IH]; intros acc I K N; cbn [fold_left]; [rewrite app_nil_r; auto|].
  assert (Nk : ~ In (f x) (map fst acc)).
  { rewrite map_app in N. cbn [map] in N. apply NoDup_remove_2 in N. intros H. apply N, in_or_app. left. apply in_map_iff in H as (a & E & H). rewrite <- E, (K a H). apply in_map, in_map, H. }
  pose proof (place_perm (f x) x acc Nk) as P.
  destruct (IH (place (f x) x acc)) as (A & B & C).
  - apply place_sorted, I.
  - intros a H. eapply Permutation_in in H; [|symmetry; exact P]. destruct H as [<-|H]; [reflexivity|apply K, H].
  - eapply Permutation_NoDup; [|exact N]. apply Permutation_map. rewrite <- P. cbn [map snd]. symmetry. apply Permutation_middle.
  - split; [exact A|]. split; [exact B|]. rewrite <- C, <- P. cbn [map snd app]. symmetry. apply Permutation_middle.
Qed.
End Place.

(** ** Joining arrays *)
Lemma locate_at a n b k : k < n -> locate (a ++ n :: b) (list_sum a + k) = (length a, k).
Proof.
  intros H. induction a as [|x a IH].
  - cbn [app locate list_sum fold_right Nat.add length]. replace (k <? n) with true by (symmetry; apply Nat.ltb_lt; exact H). reflexivity.
  - cbn [app locate list_sum fold_right length]. replace (x + fold_right Nat.add 0 a + k <? x) with false by (symmetry; apply Nat.ltb_ge; lia).
    replace (x + fold_right Nat.add 0 a + k - x) with (list_sum a + k) by (unfold list_sum; lia). rewrite IH. reflexivity.
Qed.
Lemma list_sum_perm l l' : Permutation l l' -> list_sum l = list_sum l'.
Proof. induction 1; cbn [list_sum fold_right]; unfold list_sum in *; lia. Qed.

Lemma set_nth_ext ax v l l' : length l = length l' -> (forall i, i <> ax -> nth_error l i = nth_error l' i) -> set_nth ax v l = set_nth ax v l'.
Proof.
  revert l l'. induction ax as [|ax IH]; intros [|x l] [|y l'] L H; try discriminate L; try reflexivity.
  - unfold set_nth. cbn. f_equal. apply nth_ext with 0 0; [injection L; auto|]. intros i _. specialize (H (S i) ltac:(lia)). cbn in H.
    destruct (nth_error l i) eqn:E1.
    + symmetry in H. rewrite (nth_error_nth _ _ _ E1), (nth_error_nth _ _ _ H). reflexivity.
    + symmetry in H. apply nth_error_None in E1, H. rewrite !nth_overflow by assumption. reflexivity.
  - rewrite !set_nth_cons. f_equal; [specialize (H 0 ltac:(lia)); injection H; auto|]. apply IH; [injection L; auto|]. intros i Hi. apply (H (S i)). lia.
Qed.
Lemma along_none dims f ix : ~ In stations_dim dims -> length ix = length dims -> along dims f ix = ix.
Proof.
  unfold along. revert ix. induction dims as [|d dims IH]; intros [|i ix] H L; try discriminate L; [reflexivity|]. cbn [combine map fst snd].
  destruct (String.eqb_spec d stations_dim) as [->|N]; [elim H; left; reflexivity|]. f_equal. apply IH; [intros K; apply H; right; exact K|injection L; auto].
Qed.
Lemma along_set dims f ix : NoDup dims -> In stations_dim dims -> length ix = length dims ->
  along dims f ix = set_nth (axis_of stations_dim dims) (f (nth (axis_of stations_dim dims) ix 0)) ix.
Proof.
  revert ix. induction dims as [|d dims IH]; intros [|i ix] N H L; try discriminate L; [elim H|]. inversion N as [|? ? N1 N2]; subst. cbn [axis_of]. unfold along. cbn [combine map fst snd].
  destruct (String.eqb_spec d stations_dim) as [->|Nd].
  - fold (along dims f ix). rewrite along_none; [reflexivity|exact N1|injection L; auto].
  - rewrite set_nth_cons. cbn [nth]. f_equal. apply IH; [exact N2| |injection L; auto]. destruct H as [H|H]; [congruence|exact H].
Qed.
Lemma axis_of_nth dims : In stations_dim dims -> nth_error dims (axis_of stations_dim dims) = Some stations_dim.
Proof.
  induction dims as [|d dims IH]; intros H; [elim H|]. cbn [axis_of]. destruct (String.eqb_spec d stations_dim) as [->|Nd]; [reflexivity|]. cbn. apply IH. destruct H; [congruence|assumption].
Qed.
Lemma join_along_placed {A} (o : list path) (g : path -> arr A) (n : path -> nat) dims a p b q0 rest :
  o = a ++ p :: b -> o = q0 :: rest -> NoDup dims -> In stations_dim dims ->
  (forall q, In q o -> length (shape (g q)) = length dims /\ nth_error (shape (g q)) (axis_of stations_dim dims) = Some (n q)) ->
  (forall q q' i, In q o -> In q' o -> i <> axis_of stations_dim dims -> nth_error (shape (g q)) i = nth_error (shape (g q')) i) ->
  let J := join_along (axis_of stations_dim dims) (g q0) (map g rest) in
  shape J = along dims (fun _ => list_sum (map n o)) (shape (g p)) /\
  forall ix, Forall2 lt ix (shape (g p)) -> get J (along dims (Nat.add (list_sum (map n a))) ix) = get (g p) ix.
Proof.
  intros Eo Eq N H L R J. set (ax := axis_of stations_dim dims) in *.
  assert (Ip : In p o) by (rewrite Eo; apply in_elt). assert (Iq : In q0 o) by (rewrite Eq; left; reflexivity).
  assert (Lens : map (fun b => nth ax (shape b) 0) (g q0 :: map g rest) = map n o).
  { change (g q0 :: map g rest) with (map g (q0 :: rest)). rewrite <- Eq, map_map. apply map_ext_in. intros q Hq. apply nth_error_nth, L, Hq. }
  assert (Sh : shape J = set_nth ax (list_sum (map n o)) (shape (g q0))) by (unfold J, join_along; cbv zeta; rewrite Lens; reflexivity).
  split.
  - rewrite Sh, along_set by (assumption || apply L, Ip). fold ax. apply set_nth_ext; [rewrite (proj1 (L _ Iq)), (proj1 (L _ Ip)); reflexivity|]. intros i Hi. apply R; assumption.
  - intros ix V. assert (Lx : length ix = length dims) by (rewrite (valid_length _ _ V); apply L, Ip).
    rewrite along_set by assumption. fold ax. assert (Hax : ax < length ix) by (rewrite Lx; apply nth_error_Some; unfold ax; rewrite axis_of_nth by exact H; discriminate).
    unfold J, join_along. cbv zeta. rewrite Lens. cbn [get]. rewrite nth_set_nth by exact Hax. rewrite Eo, map_app. cbn [map].
    assert (Hk : nth ax ix 0 < n p).
    { destruct (L _ Ip) as [L1 E]. apply nth_error_nth with (d := 0) in E. rewrite <- E. apply valid_nth; [exact V|]. rewrite <- (valid_length _ _ V). exact Hax. }
    rewrite locate_at by exact Hk. rewrite set_nth_set_nth by exact Hax. rewrite set_nth_same by exact Hax.
    change (g q0 :: map g rest) with (map g (q0 :: rest)). rewrite <- Eq, Eo, map_app. rewrite app_nth2; rewrite !map_length; [|lia]. rewrite Nat.sub_diag. reflexivity.
Qed.

(** ** One run *)
Lemma offset_split (r : path -> N) (n : path -> nat) l a p b : Permutation l (a ++ p :: b) -> StronglySorted (fun x y => (r x < r y)%N) (a ++ p :: b) ->
  offset r n l p = list_sum (map n a).
Proof.
  intros P S. unfold offset.
  assert (F : forall l l', Permutation l l' -> list_sum (map n (filter (fun q => (r q <? r p)%N) l)) = list_sum (map n (filter (fun q => (r q <? r p)%N) l'))).
  { clear. intros l l' P. apply list_sum_perm, Permutation_map. induction P; cbn [filter]; repeat match goal with |- context[(?x <? ?y)%N] => destruct (x <? y)%N end; auto; try apply perm_swap; etransitivity; eassumption. }
  rewrite (F _ _ P). clear F P. f_equal. f_equal. induction a as [|q a IH]; cbn [app filter].
  - rewrite N.ltb_irrefl. cbn [app] in S. apply StronglySorted_inv in S as [_ S]. induction S as [|q b Hq S IH]; cbn [filter]; [reflexivity|]. destruct (N.ltb_spec (r q) (r p)); [lia|exact IH].
  - cbn [app] in S. apply StronglySorted_inv in S as [S K]. rewrite Forall_forall in K. specialize (K p (in_elt _ _ _)). destruct (N.ltb_spec (r q) (r p)); [|lia]. f_equal. apply IH, S.
Qed.
Lemma lowest_split (r : path -> N) l a p b : Permutation l (a ++ p :: b) -> StronglySorted (fun x y => (r x < r y)%N) (a ++ p :: b) -> lowest r l p -> a = [].
Proof.
  intros P S L. destruct a as [|q a]; [reflexivity|]. cbn [app] in S. apply StronglySorted_inv in S as [_ K]. rewrite Forall_forall in K. specialize (K p (in_elt _ _ _)).
  assert (H : In q l) by (eapply Permutation_in; [symmetry; exact P|left; reflexivity]). apply L in H. lia.
Qed.
Lemma run_perm {V} (D : path -> dataset V) r n l l' : Permutation l l' -> run D r n l -> run D r n l'.
Proof.
  intros P [S1 S2 S3 S4 S5 S6 S7 S8]. assert (I : forall p, In p l' -> In p l) by (intros p H; eapply Permutation_in; [symmetry; exact P|exact H]).
  constructor; eauto 10.
  - intros ->. apply Permutation_sym, Permutation_nil in P. contradiction.
  - eapply Permutation_NoDup; [apply Permutation_map; exact P|exact S3].
Qed.
Lemma placed_perm {V} r n l l' p (v w : variable V) : Permutation l l' -> placed r n l p v w -> placed r n l' p v w.
Proof.
  intros P [A B]. split.
  - rewrite A. erewrite list_sum_perm; [reflexivity|]. apply Permutation_map, P.
  - intros ix H. rewrite <- (B ix H). f_equal. f_equal. f_equal. unfold offset. apply list_sum_perm, Permutation_map. clear - P.
    induction P; cbn [filter]; repeat match goal with |- context[(?x <? ?y)%N] => destruct (x <? y)%N end; auto; try apply perm_swap; etransitivity; eassumption.
Qed.
Lemma find_size (s : list (string * nat)) d k : (exists k', In (d, k') s) -> (forall k', In (d, k') s -> k' = k) -> find (fun p => String.eqb (fst p) d) s = Some (d, k).
Proof.
  intros (k' & H) U. destruct (find _ s) as [[d' j]|] eqn:E.
  - pose proof (find_some _ _ E) as [I Q]. cbn in Q. apply String.eqb_eq in Q. subst d'. rewrite (U _ I). reflexivity.
  - exfalso. apply find_none with (x := (d, k')) in E; [|exact H]. cbn in E. rewrite String.eqb_refl in E. discriminate.
Qed.
Lemma same_names_refl l : same_names l l = true.
Proof. induction l; cbn; [reflexivity|]. rewrite String.eqb_refl. exact IHl. Qed.
Lemma same_names_eq a b : same_names a b = true -> a = b.
Proof. revert b. induction a as [|x a IH]; intros [|y b]; cbn; try discriminate; [reflexivity|]. rewrite andb_true_iff, String.eqb_eq. intros [-> H]. f_equal. auto. Qed.
Lemma assign_new {V} a (v : variable V) ds : ~ In a (map fst ds) -> assign a v ds = ds ++ [(a, v)].
Proof.
  induction ds as [|[b w] ds IH]; cbn [assign map fst app]; intros H; [reflexivity|]. destruct (String.eqb_spec b a) as [->|N]; [elim H; left; reflexivity|]. f_equal. apply IH. intros K. apply H. right. exact K.
Qed.
Lemma in_sizes_nth {V} (ds : dataset V) d k : In (d, k) (sizes ds) -> exists a v i, In (a, v) ds /\ nth_error (v_dims v) i = Some d /\ nth_error (shape (v_data v)) i = Some k.
Proof.
  intros H. apply in_sizes in H as (a & v & Hi & H). apply In_nth_error in H as (i & H). apply combine_nth_error_inv in H as [H1 H2]. exists a, v, i. auto.
Qed.
Lemma nth_in_sizes {V} (ds : dataset V) a v i d : In (a, v) ds -> length (shape (v_data v)) = length (v_dims v) -> nth_error (v_dims v) i = Some d ->
  exists k, nth_error (shape (v_data v)) i = Some k /\ In (d, k) (sizes ds).
Proof.
  intros Hi L H. destruct (nth_error (shape (v_data v)) i) as [k|] eqn:E.
  - exists k. split; [reflexivity|]. apply in_sizes. exists a, v. split; [exact Hi|]. eapply nth_error_In, combine_nth_error; eassumption.
  - exfalso. apply nth_error_None in E. rewrite L in E. apply nth_error_None in E. congruence.
Qed.
Lemma chain_app le a b : (forall x y, In x a -> In y b -> le x y = true) -> chain le a = true -> chain le b = true -> chain le (a ++ b) = true.
Proof.
  intros H A B. induction a as [|x a IH]; [exact B|]. cbn [app]. destruct a as [|y a].
  - cbn [app]. destruct b as [|y b]; [reflexivity|]. cbn [chain]. rewrite (H x y) by (left; reflexivity). exact B.
  - cbn [app chain] in *. apply andb_true_iff in A as [A1 A2]. rewrite A1. apply IH; [|exact A2]. intros u w Hu. apply H. right. exact Hu.
Qed.

Section Run.
Context {V : Type} (of_coord : Qc -> V).
Variables (D : path -> dataset V) (r : path -> N) (n : path -> nat).
Definition coords_at (p : path) : list Qc := map (fun k => (qz (Z.of_N (r p)) + qn k / qn (n p))%Qc) (seq 0 (n p)).
Definition lab (p : path) : variable V := Var ["num_stations"] (of_list (of_coord 0%Qc) [length (coords_at p)] (map of_coord (coords_at p))) None true.
Definition labelled_ds (p : path) : dataset V := D p ++ [(stations_dim, lab p)].
Notation E := labelled_ds.
Lemma with_coords_run l p : run D r n l -> In p l -> with_coords V of_coord p (D p) = Ok (coords_at p, E p).
Proof.
  intros R H. destruct (run_stations _ _ _ _ R p H) as (P & (a & v & Hi & Hd) & L).
  assert (DL : M_io.dim_len (M_io.Dataset (sizes (D p)) None) "num_stations" = Some (n p)).
  { unfold M_io.dim_len. cbn [M_io.dims]. erewrite find_size; [reflexivity| |].
    - apply In_nth_error in Hd as (i & Hd). destruct (nth_in_sizes (D p) a v i "num_stations" Hi (proj1 (run_shapes _ _ _ _ R p a v H Hi)) Hd) as (k & _ & K). exists k. exact K.
    - intros k K. apply in_sizes_nth in K as (b & w & i & I1 & I2 & I3). rewrite (L b w i I1 I2) in I3. congruence. }
  unfold with_coords. destruct (Props_io.c56_coords p (r p) _ (n p) (run_rank _ _ _ _ R p H) (proj1 (Props_io.dim_len_of _ _ _) DL)) as (io & c & -> & S & _ & Lc & Nth). cbn [bind]. rewrite S.
  assert (Ec : c = coords_at p).
  { unfold coords_at. apply nth_ext with 0%Qc (qz (Z.of_N (r p)) + qn 0 / qn (n p))%Qc; [rewrite map_length, seq_length; exact Lc|]. intros k Hk. rewrite Lc in Hk.
    rewrite (map_nth (fun k => (qz (Z.of_N (r p)) + qn k / qn (n p))%Qc)), seq_nth by exact Hk. apply Nth, Hk. }
  subst c. rewrite assign_new by apply (run_names _ _ _ _ R p H). reflexivity.
Qed.
Lemma coords_bounds p x : In x (coords_at p) -> (qz (Z.of_N (r p)) <= x)%Qc /\ (x < qz (Z.of_N (r p)) + 1)%Qc.
Proof.
  unfold coords_at. intros H. apply in_map_iff in H as (k & <- & H). apply in_seq in H. destruct (Props_io.frac_bounds k (n p)) as [A B]; [lia|].
  revert A B. generalize (qn k / qn (n p))%Qc (qz (Z.of_N (r p))). intros a b A B. split; qlra.
Qed.
Lemma coords_chain p : 0 < n p -> chain qleb (coords_at p) = true.
Proof.
  intros P. unfold coords_at. generalize 0. induction (n p) as [|m IH] at 2; intros s; cbn [seq map]; [reflexivity|]. destruct m as [|m]; [reflexivity|]. specialize (IH (S s)). cbn [seq map] in *. cbn [chain] in *. rewrite IH, andb_true_r.
  apply qleb_le. assert (Q : (qn s / qn (n p) <= qn (S s) / qn (n p))%Qc).
  { assert (P' : (0 < qn (n p))%Qc) by (apply qn_pos; exact P). apply Qclt_le_weak. apply Qcdiv_lt_iff; [exact P'|]. rewrite Qcmult_comm, Qcmult_div_r by (apply qn_neq0; lia). apply qn_lt. lia. }
  revert Q. generalize (qn s / qn (n p))%Qc (qn (S s) / qn (n p))%Qc (qz (Z.of_N (r p))). intros. qlra.
Qed.
Lemma coords_hd p : 0 < n p -> hd 0%Qc (coords_at p) = qz (Z.of_N (r p)).
Proof.
  intros P. unfold coords_at. destruct (n p) as [|m] eqn:En; [lia|]. cbn [seq map hd]. change (qn 0) with 0%Qc. unfold Qcdiv. rewrite Qcmult_0_l. apply Qcplus_0_r.
Qed.
Lemma rank_lt p q : (qz (Z.of_N (r p)) < qz (Z.of_N (r q)))%Qc -> (r p < r q)%N.
Proof. intros H. destruct (N.lt_ge_cases (r p) (r q)) as [L|L]; [exact L|]. exfalso. assert (K : (qz (Z.of_N (r q)) <= qz (Z.of_N (r p)))%Qc) by (apply (proj1 (qz_le _ _)); lia). apply (Qclt_not_le _ _ H K). Qed.
Lemma rank_eq p q : qz (Z.of_N (r p)) = qz (Z.of_N (r q)) -> r p = r q.
Proof.
  intros H. destruct (N.lt_total (r p) (r q)) as [L|[L|L]]; [|exact L|]; exfalso.
  - assert (K : (qz (Z.of_N (r p)) + 1 <= qz (Z.of_N (r q)))%Qc) by (change 1%Qc with (qz 1); rewrite <- qz_plus; apply (proj1 (qz_le _ _)); lia). rewrite H in K. revert K. generalize (qz (Z.of_N (r q))). intros. qlra.
  - assert (K : (qz (Z.of_N (r q)) + 1 <= qz (Z.of_N (r p)))%Qc) by (change 1%Qc with (qz 1); rewrite <- qz_plus; apply (proj1 (qz_le _ _)); lia). rewrite H in K. revert K. generalize (qz (Z.of_N (r q))). intros. qlra.
Qed.
Lemma order_of l : run D r n l -> exists o, Permutation l o /\ StronglySorted (fun x y => (r x < r y)%N) o /\
  in_order V (map (fun p => (coords_at p, E p)) l) = map (fun p => (coords_at p, E p)) o.
Proof.
  intros R. unfold in_order. set (f := fun p => (coords_at p, E p)). set (key := fun c : list Qc * dataset V => hd 0%Qc (fst c)).
  assert (Hk : forall p, In p l -> key (f p) = qz (Z.of_N (r p))) by (intros p H; apply coords_hd, (run_stations _ _ _ _ R p H)).
  destruct (fold_place key (map f l) []) as (I & K & P).
  - constructor.
  - intros a [].
  - cbn [map app]. rewrite map_map. pose proof (run_distinct _ _ _ _ R) as N. clear - Hk N.
    induction l as [|p l IH]; cbn [map] in *; [constructor|]. inversion N as [|? ? N1 N2]; subst. constructor.
    + intros H. apply in_map_iff in H as (q & Eq & H). rewrite !Hk in Eq by (left + right; auto; reflexivity). apply rank_eq in Eq. apply N1. rewrite <- Eq. apply in_map, H.
    + apply IH; [|exact N2]. intros q H. apply Hk. right. exact H.
  - cbn [map app] in P. set (o := fold_left _ _ _) in *. apply Permutation_sym in P. destruct (Permutation_map_inv _ _ P) as (q & Eq & Pq).
    exists q. split; [exact Pq|]. split; [|exact Eq].
    assert (So : StronglySorted (fun a b => (key a < key b)%Qc) (map snd o)).
    { clear - I K. induction I as [|a o I IH F]; cbn [map]; constructor; [apply IH; intros b H; apply K; right; exact H|]. apply Forall_map. rewrite Forall_forall in *. intros b H. rewrite <- (K a) by (left; reflexivity). rewrite <- (K b) by (right; exact H). apply F, H. }
    rewrite Eq in So. assert (Hq : forall p, In p q -> key (f p) = qz (Z.of_N (r p))) by (intros p H; apply Hk; eapply Permutation_in; [symmetry; exact Pq|exact H]). clear - So Hq.
    induction q as [|p q IH]; [constructor|]. cbn [map] in So. apply StronglySorted_inv in So as [So F]. constructor; [apply IH; [exact So|intros x H; apply Hq; right; exact H]|].
    rewrite Forall_forall in *. intros x H. apply rank_lt. rewrite <- (Hq p) by (left; reflexivity). rewrite <- (Hq x) by (right; exact H). apply F, in_map, H.
Qed.

Lemma along_id dims f ix : length ix = length dims -> (forall i k, nth_error dims i = Some stations_dim -> nth_error ix i = Some k -> f k = k) -> along dims f ix = ix.
Proof.
  unfold along. revert ix. induction dims as [|d dims IH]; intros [|i ix] L H; try discriminate L; [reflexivity|]. cbn [combine map fst snd].
  f_equal; [|apply IH; [injection L; auto|intros j k; apply (H (S j) k)]].
  destruct (String.eqb_spec d stations_dim) as [->|N]; [apply (H 0 i); reflexivity|reflexivity].
Qed.
(** the run with the labels added *)
Lemma E_alike l p q : run D r n l -> In p l -> In q l -> map (fun x => (fst x, v_dims (snd x))) (E p) = map (fun x => (fst x, v_dims (snd x))) (E q).
Proof. intros R Hp Hq. unfold labelled_ds. rewrite !map_app, (run_alike _ _ _ _ R p q Hp Hq). reflexivity. Qed.
Lemma E_names l p : run D r n l -> In p l -> NoDup (map fst (E p)).
Proof. intros R Hp. destruct (run_names _ _ _ _ R p Hp) as [A B]. unfold labelled_ds. rewrite map_app. cbn [map fst]. apply NoDup_app_intro; [exact A|repeat constructor; intros []|]. intros x Hx [<-|[]]. contradiction. Qed.
Lemma lab_length p : length (coords_at p) = n p.
Proof. unfold coords_at. rewrite map_length, seq_length. reflexivity. Qed.
Lemma E_shapes l p a v : run D r n l -> In p l -> In (a, v) (E p) -> length (shape (v_data v)) = length (v_dims v) /\ NoDup (v_dims v) /\
  (forall i, nth_error (v_dims v) i = Some stations_dim -> nth_error (shape (v_data v)) i = Some (n p)).
Proof.
  intros R Hp H. apply in_app_or in H as [H|[H|[]]].
  - destruct (run_shapes _ _ _ _ R p a v Hp H) as [A B]. split; [exact A|]. split; [exact B|]. destruct (run_stations _ _ _ _ R p Hp) as (_ & _ & X). intros i. exact (X a v i H).
  - injection H as <- <-. cbn [lab v_dims v_data shape of_list length]. split; [reflexivity|]. split; [repeat constructor; intros []|]. rewrite lab_length. intros [|[|i]]; cbn; congruence.
Qed.
Lemma E_lengths l p q a v b w i j d : run D r n l -> In p l -> In q l -> In (a, v) (E p) -> In (b, w) (E q) -> d <> stations_dim ->
  nth_error (v_dims v) i = Some d -> nth_error (v_dims w) j = Some d -> nth_error (shape (v_data v)) i = nth_error (shape (v_data w)) j.
Proof.
  intros R Hp Hq Ha Hb Nd Hi Hj. apply in_app_or in Ha as [Ha|[Ha|[]]]; [apply in_app_or in Hb as [Hb|[Hb|[]]]|].
  - eapply (run_lengths _ _ _ _ R p q); eassumption.
  - injection Hb as <- <-. exfalso. destruct j as [|[|j]]; cbn in Hj; try discriminate. apply Nd. injection Hj as <-. reflexivity.
  - injection Ha as <- <-. exfalso. destruct i as [|[|i]]; cbn in Hi; try discriminate. apply Nd. injection Hi as <-. reflexivity.
Qed.
Definition getv (a : string) (v : variable V) (q : path) : variable V := match lookup (E q) a with Some w => w | None => v end.
Lemma counterpart l p q a v : run D r n l -> In p l -> In q l -> In (a, v) (E p) -> exists w, lookup (E q) a = Some w /\ In (a, w) (E q) /\ v_dims w = v_dims v.
Proof.
  intros R Hp Hq H. assert (K : In (a, v_dims v) (map (fun x => (fst x, v_dims (snd x))) (E q))).
  { rewrite (E_alike l q p R Hq Hp). apply (in_map (fun x => (fst x, v_dims (snd x))) _ (a, v)), H. }
  apply in_map_iff in K as ([b w] & Eb & K). cbn [fst snd] in Eb. injection Eb as -> Ed. exists w. split; [apply In_lookup; [eapply E_names; eassumption|exact K]|]. split; [exact K|exact Ed].
Qed.
Lemma sizes_run l o : run D r n l -> (forall p, In p o -> In p l) -> sizes_agree V (map E o) = true.
Proof.
  intros R S. unfold sizes_agree. apply forallb_forall. intros [d k] H. apply forallb_forall. intros [d' k'] H'. cbn [fst snd].
  destruct (String.eqb_spec d d') as [<-|]; [|reflexivity]. cbn [negb orb]. apply Nat.eqb_eq.
  apply in_flat_map in H as (ds & I & H). apply in_map_iff in I as (p & <- & Ip). apply in_flat_map in H' as (ds & I & H'). apply in_map_iff in I as (q & <- & Iq).
  unfold rest in H, H'. apply filter_In in H as [H N]. apply filter_In in H' as [H' _]. cbn [fst] in N. apply negb_true_iff, String.eqb_neq in N.
  apply in_sizes_nth in H as (a & v & i & A1 & A2 & A3), H' as (b & w & j & B1 & B2 & B3).
  pose proof (E_lengths l p q a v b w i j d R (S _ Ip) (S _ Iq) A1 B1 N A2 B2). congruence.
Qed.
Definition joined (rs : list path) (x : string * variable V) : string * variable V :=
  (fst x, if mem "num_stations" (v_dims (snd x))
          then Var (v_dims (snd x)) (join_along (axis_of "num_stations" (v_dims (snd x))) (v_data (snd x)) (map (fun q => v_data (getv (fst x) (snd x) q)) rs)) (v_units (snd x)) (v_coord (snd x))
          else snd x).
Lemma join_run l q0 rs : run D r n l -> (forall p, In p (q0 :: rs) -> In p l) -> join_files V (map E (q0 :: rs)) = Ok (map (joined rs) (E q0)).
Proof.
  intros R S. unfold join_files. pose proof (sizes_run l (q0 :: rs) R S) as Z. cbn [map] in *. rewrite Z. cbn [andb].
  replace (forallb _ (map E rs)) with true.
  2:{ symmetry. apply forallb_forall. intros ds H. apply in_map_iff in H as (q & <- & H). apply Nat.eqb_eq. rewrite <- !(map_length (fun x => (fst x, v_dims (snd x)))). f_equal. apply (E_alike l); auto using in_eq, in_cons. }
  apply mapM_ok. intros [a v] H. unfold join_var, joined. cbn [fst snd].
  assert (O : others_of V a v (map E rs) = Ok (map (fun q => v_data (getv a v q)) rs)).
  { unfold others_of. rewrite (mapM_ok _ (fun ds => match lookup ds a with Some w => v_data w | None => v_data v end)).
    - rewrite map_map. f_equal. apply map_ext. intros q. unfold getv. destruct (lookup (E q) a); reflexivity.
    - intros ds Hd. apply in_map_iff in Hd as (q & <- & Hq). destruct (counterpart l q0 q a v R) as (w & -> & _ & ->); auto using in_eq, in_cons. rewrite same_names_refl. reflexivity. }
  rewrite O. reflexivity.
Qed.
Lemma joined_placed l q0 rs p a v w : run D r n l -> Permutation l (q0 :: rs) -> StronglySorted (fun x y => (r x < r y)%N) (q0 :: rs) ->
  In p l -> In (a, v) (E q0) -> lookup (E p) a = Some w -> In stations_dim (v_dims w) \/ lowest r l p -> placed r n l p w (snd (joined rs (a, v))).
Proof.
  intros R P S Hp Hv Hw C. pose proof (lookup_In _ _ _ Hw) as Iw.
  assert (Iq : In q0 l) by (eapply Permutation_in; [symmetry; exact P|left; reflexivity]).
  destruct (counterpart l q0 p a v R Iq Hp Hv) as (w' & Lw & _ & Dw). assert (w' = w) by congruence. subst w'.
  assert (Ip : In p (q0 :: rs)) by (eapply Permutation_in; [exact P|exact Hp]). destruct (in_split _ _ Ip) as (x & y & Eo).
  assert (Off : offset r n l p = list_sum (map n x)) by (apply offset_split with (b := y); rewrite <- Eo; assumption).
  assert (Lq : lookup (E q0) a = Some v) by (apply In_lookup; [eapply E_names; eassumption|exact Hv]).
  unfold joined. cbn [fst snd]. destruct (mem "num_stations" (v_dims v)) eqn:M.
  - apply mem_In in M. fold stations_dim in M.
    destruct (join_along_placed (q0 :: rs) (fun q => v_data (getv a v q)) n (v_dims v) x p y q0 rs Eo eq_refl) as [J1 J2].
    + apply (E_shapes l q0 a v R Iq Hv).
    + exact M.
    + intros q Hq. assert (Hq' : In q l) by (eapply Permutation_in; [symmetry; exact P|exact Hq]). destruct (counterpart l q0 q a v R Iq Hq' Hv) as (u & Lu & Iu & Du). unfold getv. rewrite Lu.
      destruct (E_shapes l q a u R Hq' Iu) as (A & _ & B). split; [congruence|]. apply B. rewrite Du. apply axis_of_nth, M.
    + intros q q' i Hq Hq' Hi. assert (Iq1 : In q l) by (eapply Permutation_in; [symmetry; exact P|exact Hq]). assert (Iq2 : In q' l) by (eapply Permutation_in; [symmetry; exact P|exact Hq']).
      destruct (counterpart l q0 q a v R Iq Iq1 Hv) as (u & Lu & Iu & Du), (counterpart l q0 q' a v R Iq Iq2 Hv) as (u' & Lu' & Iu' & Du'). unfold getv. rewrite Lu, Lu'.
      destruct (E_shapes l q a u R Iq1 Iu) as (A & Nu & _), (E_shapes l q' a u' R Iq2 Iu') as (A' & _ & _).
      destruct (nth_error (v_dims v) i) as [d|] eqn:Ed.
      * apply (E_lengths l q q' a u a u' i i d R Iq1 Iq2 Iu Iu'); [|congruence|congruence]. intros ->. apply Hi. rewrite Du in Nu. eapply (proj1 (NoDup_nth_error _) Nu); [apply nth_error_Some; congruence|]. rewrite Ed, axis_of_nth by exact M. reflexivity.
      * apply nth_error_None in Ed. rewrite (proj2 (nth_error_None _ _)), (proj2 (nth_error_None _ _)); [reflexivity| |]; congruence.
    + assert (G : getv a v p = w) by (unfold getv; rewrite Lw; reflexivity). assert (G0 : getv a v q0 = v) by (unfold getv; rewrite Lq; reflexivity).
      cbv beta in J1, J2. rewrite G, G0 in J1. rewrite G, G0 in J2. split; cbn [v_data v_dims].
      * rewrite Dw. erewrite list_sum_perm by (apply Permutation_map; exact P). exact J1.
      * intros ix V'. rewrite Off, Dw. exact (J2 ix V').
  - apply mem_notIn in M. fold stations_dim in M. destruct C as [C|C]; [rewrite Dw in C; contradiction|].
    assert (x = []) by (eapply lowest_split with (b := y) (p := p); [rewrite <- Eo; exact P|rewrite <- Eo; exact S|exact C]). subst x. cbn [app] in Eo. injection Eo as -> _.
    assert (v = w) by congruence. subst w. destruct (E_shapes l p a v R Hp Hv) as (A & _ & _).
    split; [rewrite along_none by assumption; reflexivity|]. intros ix V'. rewrite along_none; [reflexivity|exact M|]. rewrite (valid_length _ _ V'). exact A.
Qed.
Definition like (x y : string * variable V) : Prop := fst y = fst x /\ v_dims (snd y) = v_dims (snd x) /\ v_units (snd y) = v_units (snd x) /\ v_coord (snd y) = v_coord (snd x).
Lemma joined_like rs ds : Forall2 like ds (map (joined rs) ds).
Proof. induction ds as [|x ds IH]; constructor; [|exact IH]. unfold joined, like. cbn [fst snd]. destruct (mem _ _); auto. Qed.
Lemma lookup_joined rs ds a : lookup (map (joined rs) ds) a = option_map (fun v => snd (joined rs (a, v))) (lookup ds a).
Proof.
  induction ds as [|[b v] ds IH]; [reflexivity|]. unfold lookup in *. cbn [map find joined fst snd]. destruct (String.eqb_spec b a) as [->|N]; [reflexivity|]. exact IH.
Qed.
Lemma single_placed p a v : run D r n [p] -> In (a, v) (E p) -> placed r n [p] p v v.
Proof.
  intros R H. destruct (E_shapes [p] p a v R (or_introl eq_refl) H) as (A & _ & B). unfold placed. split.
  - symmetry. apply along_id; [exact A|]. intros i k Hi Hk. rewrite (B i Hi) in Hk. injection Hk as <-. cbn. lia.
  - intros ix V'. rewrite along_id; [reflexivity| |].
    + rewrite (valid_length _ _ V'). exact A.
    + intros i k _ _. unfold offset. cbn [filter]. rewrite N.ltb_irrefl. reflexivity.
Qed.
Lemma same_list_hd a b : same_list a b = true -> hd 0%Qc a = hd 0%Qc b.
Proof. destruct a, b; cbn; try discriminate; [reflexivity|]. rewrite andb_true_iff. intros [H _]. apply Qc_eq_bool_correct, H. Qed.
Lemma combined l : run D r n l -> exists out p0, combine_by_coords V (map (fun p => (coords_at p, E p)) l) = Ok out /\ In p0 l /\ lowest r l p0 /\ Forall2 like (E p0) out /\
  forall p a w, In p l -> lookup (E p) a = Some w -> In stations_dim (v_dims w) \/ lowest r l p -> exists u, lookup out a = Some u /\ placed r n l p w u /\ v_dims u = v_dims w /\ (lowest r l p -> v_coord u = v_coord w /\ v_units u = v_units w).
Proof.
  intros R. destruct l as [|p1 [|p2 l]]; [elim (run_some _ _ _ _ R); reflexivity| |].
  - exists (E p1), p1. split; [reflexivity|]. split; [left; reflexivity|]. split; [intros q [<-|[]]; lia|]. split; [clear; induction (E p1); constructor; [repeat split|assumption]|].
    intros p a w [<-|[]] Hw _. exists w. split; [exact Hw|]. split; [|auto]. apply (single_placed p1 a); [exact R|]. apply lookup_In, Hw.
  - set (l' := p1 :: p2 :: l) in *. destruct (order_of l' R) as (o & P & S & Eo).
    destruct o as [|q0 rs]; [apply Permutation_sym, Permutation_nil in P; discriminate P|].
    assert (In_l : forall p, In p (q0 :: rs) -> In p l') by (intros p H; eapply Permutation_in; [symmetry; exact P|exact H]).
    exists (map (joined rs) (E q0)), q0. split.
    { unfold combine_by_coords. cbn [map l']. fold l'.
      replace (forallb _ _) with false.
      2:{ symmetry. apply not_true_iff_false. intros F. cbn [forallb fst] in F. apply andb_true_iff in F as [F _]. apply same_list_hd in F.
          rewrite !coords_hd in F by (apply (run_stations _ _ _ _ R); unfold l'; auto using in_eq, in_cons). apply rank_eq in F.
          pose proof (run_distinct _ _ _ _ R) as N. unfold l' in N. cbn [map] in N. inversion N as [|? ? N1 _]. apply N1. left. congruence. }
      match goal with |- context[existsb ?f ?x] => replace (existsb f x) with false end.
      2:{ symmetry. apply not_true_iff_false. intros F. apply existsb_exists in F as (c & H & F). change (In c (map (fun p => (coords_at p, E p)) l')) in H. apply in_map_iff in H as (q & <- & H). cbn [fst] in F.
          rewrite lab_length in F. apply Nat.eqb_eq in F. pose proof (proj1 (run_stations _ _ _ _ R q H)). lia. }
      change ((coords_at p1, E p1) :: (coords_at p2, E p2) :: map (fun p => (coords_at p, E p)) l) with (map (fun p => (coords_at p, E p)) l'). rewrite Eo. rewrite map_map. cbn [snd].
      change (map (fun x => E x) (q0 :: rs)) with (map E (q0 :: rs)). rewrite (join_run l' q0 rs R In_l). cbn [bind].
      replace (chain qleb _) with true; [reflexivity|]. symmetry. clear Eo. revert S In_l. clear P. generalize (q0 :: rs). intros o S I. induction S as [|q o S IH F]; [reflexivity|]. cbn [map flat_map fst].
      apply chain_app; [| |apply IH; intros p H; apply I; right; exact H].
      - intros x y Hx Hy. apply qleb_le. apply coords_bounds in Hx as [_ Hx]. apply in_flat_map in Hy as (c & Hc & Hy). apply in_map_iff in Hc as (q' & <- & Hq'). cbn [fst] in Hy. apply coords_bounds in Hy as [Hy _].
        rewrite Forall_forall in F. specialize (F q' Hq'). assert (Z : (qz (Z.of_N (r q)) + 1 <= qz (Z.of_N (r q')))%Qc) by (change 1%Qc with (qz 1); rewrite <- qz_plus; apply (proj1 (qz_le _ _)); lia).
        revert Hx Hy Z. generalize (qz (Z.of_N (r q))) (qz (Z.of_N (r q'))). clear. intros. qlra.
      - apply coords_chain, (run_stations _ _ _ _ R q). apply I. left. reflexivity. }
    split; [apply In_l; left; reflexivity|]. split.
    { intros q H. assert (K : In q (q0 :: rs)) by (eapply Permutation_in; [exact P|exact H]). apply StronglySorted_inv in S as [_ F]. rewrite Forall_forall in F. destruct K as [<-|K]; [lia|]. specialize (F q K). lia. }
    split; [apply joined_like|].
    intros p a w Hp Hw C. destruct (counterpart l' p q0 a w R Hp (In_l _ (or_introl eq_refl)) (lookup_In _ _ _ Hw)) as (v & Lv & Iv & Dv).
    exists (snd (joined rs (a, v))). split; [rewrite lookup_joined, Lv; reflexivity|]. split; [eapply joined_placed; eassumption|]. unfold joined. cbn [fst snd]. split; [destruct (mem _ _); exact Dv|]. intros Lp. assert (v = w).
    { assert (K : In p (q0 :: rs)) by (eapply Permutation_in; [exact P|exact Hp]). destruct K as [->|K]; [congruence|]. exfalso. apply StronglySorted_inv in S as [_ F]. rewrite Forall_forall in F. specialize (F p K). specialize (Lp q0 (In_l _ (or_introl eq_refl))). lia. }
    subst v. destruct (mem _ _); auto.
Qed.
End Run.

(** ** The files on disk *)
Section Files.
Context {V : Type} (of_coord : Qc -> V) (cf : string -> V -> V) (disk : path -> option (ncfile V)).
Lemma open_file_ok group p root ds : holds disk group p root ds -> open_file V cf disk group false p = Ok ds.
Proof.
  intros (gs & E & H). unfold open_file. rewrite E. destruct group as [g|]; cbn [nc_root nc_groups].
  - destruct H as [N H]. destruct (find (fun x => String.eqb (fst x) g) gs) as [[h ds']|] eqn:F.
    + pose proof (find_some _ _ F) as [I Q]. cbn in Q. apply String.eqb_eq in Q. subst h. cbn. f_equal. clear - N H I. induction gs as [|[k d] gs IH]; [elim H|]. cbn [map fst] in N. inversion N as [|? ? N1 N2]; subst.
      destruct H as [H|H], I as [I|I]; [congruence| | |auto]; exfalso; apply N1.
      * injection H as -> ->. apply (in_map fst _ (g, ds')), I.
      * injection I as -> ->. apply (in_map fst _ (g, ds)), H.
    + exfalso. apply find_none with (x := (g, ds)) in F; [|exact H]. cbn in F. rewrite String.eqb_refl in F. discriminate.
  - rewrite H. reflexivity.
Qed.
Lemma xr_opened group R D r n l : run D r n l -> (forall p, In p l -> holds disk group p (R p) (D p)) ->
  exists out p0, xr_open_mf V of_coord cf disk l group false = Ok out /\ In p0 l /\ lowest r l p0 /\ Forall2 like (labelled_ds of_coord D r n p0) out /\
  forall p a w, In p l -> lookup (labelled_ds of_coord D r n p) a = Some w -> In stations_dim (v_dims w) \/ lowest r l p -> exists u, lookup out a = Some u /\ placed r n l p w u /\ v_dims u = v_dims w /\ (lowest r l p -> v_coord u = v_coord w /\ v_units u = v_units w).
Proof.
  intros Hr H. destruct (combined of_coord D r n l Hr) as (out & p0 & E & X). exists out, p0. split; [|exact X]. unfold xr_open_mf. rewrite (mapM_ok _ D) by (intros p Hp; eapply open_file_ok; apply H, Hp). cbn [bind].
  replace (combine l (map D l)) with (map (fun p => (p, D p)) l) by (clear; induction l as [|p l IH]; cbn; [reflexivity|rewrite IH; reflexivity]).
  rewrite (mapM_ok _ (fun c => (coords_at r n (fst c), labelled_ds of_coord D r n (fst c)))).
  - rewrite map_map. cbn [bind fst]. rewrite E. destruct l; [elim (run_some _ _ _ _ Hr); reflexivity|reflexivity].
  - intros c Hc. apply in_map_iff in Hc as (p & <- & Hp). cbn [fst snd]. eapply with_coords_run; eassumption.
Qed.
End Files.

(** ** After xarray: labels and locations from the root groups *)
Lemma along_nth dims f ix i d k : nth_error dims i = Some d -> nth_error ix i = Some k -> nth_error (along dims f ix) i = Some (if String.eqb d stations_dim then f k else k).
Proof. intros H K. unfold along. rewrite nth_error_map, (combine_nth_error dims ix i d k H K). reflexivity. Qed.
Lemma along_length dims f ix : length ix = length dims -> length (along dims f ix) = length dims.
Proof. intros L. unfold along. rewrite map_length, combine_length, L, Nat.min_id. reflexivity. Qed.
Section After.
Context {V : Type}.
Implicit Types ds root : dataset V.
Lemma in_dims_app d ds ds' : in_dims d (ds ++ ds') = in_dims d ds || in_dims d ds'.
Proof. apply existsb_app. Qed.
Lemma sizes_app ds ds' : sizes (ds ++ ds') = sizes ds ++ sizes ds'.
Proof. apply flat_map_app. Qed.
Lemma consistent_snoc ds a d k data u c : consistent ds = true -> In (d, k) (sizes ds) -> shape data = [k] -> consistent (ds ++ [(a, Var [d] data u c)]) = true.
Proof.
  intros C H S. rewrite consistent_iff in *. intros e i j. rewrite sizes_app. cbn [sizes flat_map snd v_dims v_data app]. rewrite S. cbn [combine app].
  assert (X : forall i, In (e, i) (sizes ds ++ [(d, k)]) -> In (e, i) (sizes ds)) by (intros x Hx; apply in_app_or in Hx as [Hx|[Hx|[]]]; [exact Hx|injection Hx as <- <-; exact H]).
  intros H1 H2. eapply C; apply X; eassumption.
Qed.
Lemma lookup_snoc ds a v b : ~ In a (map fst ds) -> lookup (ds ++ [(a, v)]) b = if String.eqb a b then Some v else lookup ds b.
Proof. intros N. rewrite <- assign_new by exact N. apply lookup_assign. Qed.
Lemma names_snoc ds a (v : variable V) : NoDup (map fst ds) -> ~ In a (map fst ds) -> NoDup (map fst (ds ++ [(a, v)])).
Proof. intros N H. rewrite <- assign_new by exact H. apply assign_nodup, N. Qed.
Lemma find_root_label d x : In (d, x) root_label -> find (fun p => String.eqb (fst p) d) coords_dict = Some (d, x).
Proof. intros H. cbn in H. repeat (destruct H as [H|H]; [injection H as <- <-; reflexivity|]). contradiction. Qed.
Lemma root_labels_ok names root ds : NoDup names -> NoDup (map fst ds) -> consistent ds = true -> NoDup (map fst root) ->
  (forall d, In d names -> exists x, In (d, x) root_label) ->
  (forall d x, In d names -> In (d, x) root_label -> in_dims d ds = true -> exists v k, In (x, v) root /\ shape (v_data v) = [k] /\ In (d, k) (sizes ds)) ->
  (forall d v, In d names -> lookup ds d = Some v -> in_dims d ds = true -> v_dims v = [d]) ->
  exists ds', root_labels V names root ds = Ok ds' /\ NoDup (map fst ds') /\ consistent ds' = true /\ (forall d, in_dims d ds' = in_dims d ds) /\ (forall x, In x (sizes ds) -> In x (sizes ds')) /\
    (forall a, ~ (In a names /\ in_dims a ds = true /\ lookup ds a = None) -> lookup ds' a = lookup ds a) /\
    (forall d x, In d names -> In (d, x) root_label -> in_dims d ds = true -> lookup ds d = None -> exists v, In (x, v) root /\ lookup ds' d = Some (Var [d] (v_data v) None true)).
Proof.
  revert ds. induction names as [|d names IH]; intros ds Nn Nd C Nr Hx Hl Hi.
  - exists ds. split; [reflexivity|]. repeat (split; [auto|]). intros d x [].
  - inversion Nn as [|? ? Nn1 Nn2]; subst. cbn [root_labels]. destruct (in_dims d ds) eqn:Ed; cbn [andb].
    + destruct (lookup ds d) as [w|] eqn:Ew.
      * unfold in_coords. rewrite Ew. rewrite (Hi d w) by (left + assumption; auto). rewrite same_names_refl, orb_true_r. cbn [negb].
        destruct (IH ds Nn2 Nd C Nr) as (ds' & E & A1 & A2 & A3 & A4 & A5 & A6); [intros; apply Hx; right; assumption|intros; eapply Hl; [right|..]; eassumption|intros; eapply Hi; [right|..]; eassumption|].
        exists ds'. split; [exact E|]. repeat (split; [assumption|]). split.
        -- intros a Ha. apply A5. intros (K1 & K2 & K3). apply Ha. split; [right; exact K1|auto].
        -- intros e x [<-|He] Hex K1 K2; [congruence|]. apply A6; assumption.
      * unfold in_coords. rewrite Ew. cbn [negb]. destruct (Hx d (or_introl eq_refl)) as (x & Hdx). rewrite (find_root_label d x Hdx).
        destruct (Hl d x (or_introl eq_refl) Hdx Ed) as (v & k & Hv & Sv & Sk). rewrite (In_lookup _ _ _ Nr Hv). apply lookup_none in Ew. rewrite assign_new by exact Ew.
        assert (Cs : consistent (ds ++ [(d, Var [d] (v_data v) None true)]) = true) by (eapply consistent_snoc; eassumption).
        rewrite Sv, Cs. cbn [length Nat.eqb andb].
        assert (Dm : forall e, in_dims e (ds ++ [(d, Var [d] (v_data v) None true)]) = in_dims e ds).
        { intros e. rewrite in_dims_app. cbn [in_dims existsb snd v_dims]. unfold mem. cbn [existsb]. destruct (String.eqb_spec e d) as [->|]; [rewrite Ed; reflexivity|rewrite !orb_false_r; reflexivity]. }
        assert (Lk : forall b, b <> d -> lookup (ds ++ [(d, Var [d] (v_data v) None true)]) b = lookup ds b).
        { intros b Hb. rewrite lookup_snoc by exact Ew. destruct (String.eqb_spec d b); [congruence|reflexivity]. }
        destruct (IH (ds ++ [(d, Var [d] (v_data v) None true)])) as (ds' & E & A1 & A2 & A3 & A4 & A5 & A6).
        -- exact Nn2.
        -- apply names_snoc; assumption.
        -- exact Cs.
        -- exact Nr.
        -- intros; apply Hx; right; assumption.
        -- intros e y He Hy. rewrite Dm. intros K. destruct (Hl e y (or_intror He) Hy K) as (u & j & U1 & U2 & U3). exists u, j. rewrite sizes_app. auto using in_or_app.
        -- intros e u He. rewrite Dm. rewrite Lk by (intros ->; contradiction). intros K1 K2. eapply Hi; [right; exact He|exact K1|exact K2].
        -- exists ds'. split; [exact E|]. split; [exact A1|]. split; [exact A2|]. split; [intros e; rewrite A3; apply Dm|]. split; [intros y Hy; apply A4; rewrite sizes_app; apply in_or_app; left; exact Hy|]. split.
           ++ intros a Ha. destruct (string_dec a d) as [->|Nad]; [exfalso; apply Ha; split; [left; reflexivity|]; split; [exact Ed|apply lookup_none, Ew]|]. rewrite A5; [apply Lk, Nad|]. rewrite Dm, Lk by exact Nad. intros (K1 & K2 & K3). apply Ha. split; [right; exact K1|auto].
           ++ intros e y He Hey K1 K2. destruct He as [<-|He].
              ** exists v. split; [replace y with x; [exact Hv|]|].
                 { pose proof (find_root_label d x Hdx). pose proof (find_root_label d y Hey). congruence. }
                 rewrite A5 by (intros (Z & _); contradiction). rewrite lookup_snoc by exact Ew. rewrite String.eqb_refl. reflexivity.
              ** apply A6; [exact He|exact Hey|rewrite Dm; exact K1|]. rewrite Lk by (intros ->; contradiction). exact K2.
    + destruct (IH ds Nn2 Nd C Nr) as (ds' & E & A1 & A2 & A3 & A4 & A5 & A6); [intros; apply Hx; right; assumption|intros; eapply Hl; [right|..]; eassumption|intros; eapply Hi; [right|..]; eassumption|].
      exists ds'. split; [exact E|]. repeat (split; [assumption|]). split.
      * intros a Ha. apply A5. intros (K1 & K2 & K3). apply Ha. split; [right; exact K1|auto].
      * intros e x [<-|He] Hex K1 K2; [congruence|]. apply A6; assumption.
Qed.
Lemma like_names ds ds' : Forall2 like ds ds' -> map fst ds' = map fst ds.
Proof. induction 1 as [|x y ds ds' (A & _) F IH]; cbn; congruence. Qed.
Lemma like_dims ds ds' d : Forall2 like ds ds' -> in_dims d ds' = in_dims d ds.
Proof. unfold in_dims. induction 1 as [|x y ds ds' (_ & A & _) F IH]; cbn; congruence. Qed.
End After.

Section Whole.
Context {V : Type} (of_coord : Qc -> V) (cf : string -> V -> V) (strict : bool) (disk : path -> option (ncfile V)) (glob : path -> list path) (expanduser : path -> path).
Lemma ready_perm group R D r n l l' : Permutation l l' -> ready strict disk group R D r n l -> ready strict disk group R D r n l'.
Proof.
  intros P [S1 S2 S3 S4 S5 S6]. assert (I : forall p, In p l' -> In p l) by (intros p H; eapply Permutation_in; [symmetry; exact P|exact H]).
  constructor; eauto using run_perm.
  intros p Hp. destruct (S4 p (I p Hp)) as [X|(X1 & X2 & X3)]; [left; exact X|right]. split; [exact X1|]. split; [eapply run_perm; eassumption|exact X3].
Qed.
Lemma holds_root group p root (ds : dataset V) : holds disk group p root ds -> holds disk None p root root.
Proof. intros (gs & E & _). exists gs. auto. Qed.
Lemma station_size (D : path -> dataset V) r n l p : run D r n l -> In p l -> In (stations_dim, n p) (sizes (D p)).
Proof.
  intros Rn Hp. destruct (run_stations _ _ _ _ Rn p Hp) as (_ & (a & v & Hi & Hd) & L). apply In_nth_error in Hd as (i & Hd).
  destruct (nth_in_sizes (D p) a v i _ Hi (proj1 (run_shapes _ _ _ _ Rn p a v Hp Hi)) Hd) as (k & K1 & K2). rewrite (L a v i Hi Hd) in K1. injection K1 as <-. exact K2.
Qed.
Notation E := (labelled_ds of_coord).
Lemma E_dims D r n l p d : run D r n l -> In p l -> in_dims d (E D r n p) = in_dims d (D p).
Proof.
  intros Rn Hp. unfold labelled_ds. rewrite in_dims_app. cbn [in_dims existsb snd lab v_dims]. unfold mem. cbn [existsb]. destruct (String.eqb_spec d "num_stations") as [->|]; [|rewrite !orb_false_r; reflexivity].
  replace (in_dims "num_stations" (D p)) with true; [reflexivity|]. symmetry. apply has_dim_iff, (run_stations _ _ _ _ Rn p Hp).
Qed.
(** the joined data set: lengths *)
Lemma joined_sizes D r n l p0 out : run D r n l -> In p0 l -> lowest r l p0 -> Forall2 like (E D r n p0) out ->
  (forall p a w, In p l -> lookup (E D r n p) a = Some w -> In stations_dim (v_dims w) \/ lowest r l p -> exists u, lookup out a = Some u /\ placed r n l p w u /\ v_dims u = v_dims w /\ (lowest r l p -> v_coord u = v_coord w /\ v_units u = v_units w)) ->
  NoDup (map fst out) /\ (forall d, in_dims d out = in_dims d (D p0)) /\ consistent out = true /\ In (stations_dim, list_sum (map n l)) (sizes out) /\
  (forall d k, d <> stations_dim -> In (d, k) (sizes (D p0)) -> In (d, k) (sizes out)).
Proof.
  intros Rn H0 Lo F H. assert (N0 : NoDup (map fst out)) by (rewrite (like_names _ _ F); eapply E_names; eassumption).
  assert (Dm : forall d, in_dims d out = in_dims d (D p0)) by (intros d; rewrite (like_dims _ _ _ F); eapply E_dims; eassumption).
  assert (Sz : forall a v i d k, lookup (E D r n p0) a = Some v -> nth_error (v_dims v) i = Some d -> nth_error (shape (v_data v)) i = Some k ->
    exists u, lookup out a = Some u /\ nth_error (v_dims u) i = Some d /\ nth_error (shape (v_data u)) i = Some (if String.eqb d stations_dim then list_sum (map n l) else k)).
  { intros a v i d k La Hd Hk. destruct (H p0 a v H0 La (or_intror Lo)) as (u & Lu & [Su _] & Du & Cu). exists u. split; [exact Lu|]. split; [congruence|]. rewrite Su, (along_nth _ _ _ i d k Hd Hk). reflexivity. }
  assert (Back : forall d k, In (d, k) (sizes out) -> exists a v i k', In (a, v) (E D r n p0) /\ nth_error (v_dims v) i = Some d /\ nth_error (shape (v_data v)) i = Some k' /\ k = if String.eqb d stations_dim then list_sum (map n l) else k').
  { intros d k Hd. apply in_sizes_nth in Hd as (a & u & i & A1 & A2 & A3). apply (In_lookup _ _ _ N0) in A1.
    destruct (lookup (E D r n p0) a) as [v|] eqn:Lv.
    2:{ exfalso. apply lookup_none in Lv. apply Lv. rewrite <- (like_names _ _ F). apply lookup_In in A1. apply (in_map fst _ (a, u)), A1. }
    destruct (H p0 a v H0 Lv (or_intror Lo)) as (u' & Lu & _ & Du & Cu). assert (u' = u) by congruence. subst u'. rewrite Du in A2.
    destruct (E_shapes of_coord D r n l p0 a v Rn H0 (lookup_In _ _ _ Lv)) as (Ls & _ & _).
    destruct (nth_error (shape (v_data v)) i) as [k'|] eqn:Ek.
    2:{ exfalso. apply nth_error_None in Ek. rewrite Ls in Ek. apply nth_error_None in Ek. congruence. }
    exists a, v, i, k'. split; [apply lookup_In, Lv|]. split; [exact A2|]. split; [exact Ek|]. destruct (Sz a v i d k' Lv A2 Ek) as (u' & Lu' & _ & K). assert (u' = u) by congruence. subst u'. congruence. }
  split; [exact N0|]. split; [exact Dm|]. split; [|split].
  - apply consistent_iff. intros d k k' K1 K2. apply Back in K1 as (a & v & i & j & A1 & A2 & A3 & ->), K2 as (b & w & i' & j' & B1 & B2 & B3 & ->).
    destruct (String.eqb_spec d stations_dim) as [->|Nd]; [reflexivity|]. pose proof (E_lengths of_coord D r n l p0 p0 a v b w i i' d Rn H0 H0 A1 B1 Nd A2 B2). congruence.
  - destruct (run_stations _ _ _ _ Rn p0 H0) as (_ & (a & v & Hi & Hd) & L). apply In_nth_error in Hd as (i & Hd).
    assert (La : lookup (E D r n p0) a = Some v) by (apply In_lookup; [eapply E_names; eassumption|apply in_or_app; left; exact Hi]).
    destruct (Sz a v i _ _ La Hd (L a v i Hi Hd)) as (u & Lu & U1 & U2). rewrite String.eqb_refl in U2. apply in_sizes. exists a, u. split; [apply lookup_In, Lu|]. eapply nth_error_In, combine_nth_error; eassumption.
  - intros d k Nd K. apply in_sizes_nth in K as (a & v & i & A1 & A2 & A3).
    assert (La : lookup (E D r n p0) a = Some v) by (apply In_lookup; [eapply E_names; eassumption|apply in_or_app; left; exact A1]).
    destruct (Sz a v i d k La A2 A3) as (u & Lu & U1 & U2). destruct (String.eqb_spec d stations_dim); [contradiction|]. apply in_sizes. exists a, u. split; [apply lookup_In, Lu|]. eapply nth_error_In, combine_nth_error; eassumption.
Qed.
Definition epoch_if (a : string) (v : variable V) : variable V := if mem a time_names then with_epoch v else v.
(** the data set before num_test_times is renamed *)
Lemma whole s group R D r n : ready strict disk group R D r n (listed glob expanduser s) ->
  let l := listed glob expanduser s in
  exists mid p0, In p0 l /\ lowest r l p0 /\
  let c := cond (D p0) in
  let out := map (fun p => (ren_if c (fst p), renvar_if c (snd p))) mid in
  open_mfdataset V of_coord cf strict disk glob expanduser s group false = Ok out /\ NoDup (map fst mid) /\ NoDup (map fst out) /\
  (forall p a w, In p l -> lookup (E D r n p) a = Some w -> In stations_dim (v_dims w) \/ lowest r l p ->
     exists u, lookup mid a = Some (epoch_if a u) /\ placed r n l p w u /\ v_dims u = v_dims w /\ (lowest r l p -> v_coord u = v_coord w /\ v_units u = v_units w)) /\
  (forall d x, In (d, x) root_label -> has_dim d (D p0) -> ~ In d (map fst (D p0)) -> exists p v, In p l /\ In (x, v) (R p) /\ lookup mid d = Some (epoch_if d (Var [d] (v_data v) None true))) /\
  (forall a, In a ["Xs"; "Ys"] -> ~ In "Xs" (map fst (D p0)) -> exists u, lookup mid a = Some u /\ v_dims u = [stations_dim] /\ forall p x, In p l -> In (a, x) (R p) -> placed r n l p x u) /\
  (forall a u, lookup mid a = Some u -> In a time_names -> v_units u = Some epoch) /\
  (forall a, In a (map fst mid) -> In a (map fst (D p0)) \/ a = stations_dim \/ (In a ["num_flts"; "num_test_times"] /\ has_dim a (D p0)) \/ (In a ["Xs"; "Ys"] /\ ~ In "Xs" (map fst (D p0)))).
Proof.
  intros Rd l. set (l' := sort_paths l). assert (P : Permutation l l') by apply sort_permutation.
  pose proof (ready_perm _ _ _ _ _ _ _ P Rd) as [Rn Hh Hl Hp Hi Ht].
  assert (In_l : forall p, In p l' -> In p l) by (intros p H; eapply Permutation_in; [symmetry; exact P|exact H]).
  assert (In_l' : forall p, In p l -> In p l') by (intros p H; eapply Permutation_in; [exact P|exact H]).
  assert (Low : forall p, lowest r l p -> lowest r l' p) by (intros p H q Hq; apply H, In_l, Hq).
  destruct (xr_opened of_coord cf disk group R D r n l' Rn Hh) as (ds0 & p0 & E0 & H0 & L0 & F0 & X0).
  destruct (joined_sizes D r n l' p0 ds0 Rn H0 L0 F0 X0) as (N0 & Dm0 & C0 & St0 & Sz0).
  assert (Nm0 : map fst ds0 = map fst (D p0) ++ [stations_dim]) by (rewrite (like_names _ _ F0); unfold labelled_ds; rewrite map_app; reflexivity).
  destruct l' as [|p1 l''] eqn:El; [elim (run_some _ _ _ _ Rn); reflexivity|]. rewrite <- El in *.
  assert (H1 : In p1 l') by (rewrite El; left; reflexivity). destruct (Hh p1 H1) as (gs & Dk & _).
  destruct (Hl p1 p0 H1 H0) as (Nr & Lb).
  (* labels *)
  destruct (root_labels_ok ["num_flts"; "num_test_times"] (R p1) ds0) as (ds1 & E1 & N1 & C1 & Dm1 & Sz1 & Old1 & New1).
  { repeat constructor; cbn; intuition discriminate. }
  { exact N0. } { exact C0. } { exact Nr. }
  { intros d [<-|[<-|[]]]; eexists; cbn; auto. }
  { intros d x _ Hd K. rewrite Dm0 in K. apply has_dim_iff in K. pose proof K as K'. destruct K' as (a & u & U1 & U2). apply In_nth_error in U2 as (i & U2). destruct (Lb d x Hd K) as (v & k & V1 & V2 & V3).
    exists v, k. split; [exact V1|]. split; [exact V2|]. apply Sz0; [intros ->; cbn in Hd; intuition discriminate|]. apply in_sizes. exists a, u. split; [exact U1|]. eapply nth_error_In, combine_nth_error; [exact U2|]. apply (V3 a u i U1 U2). }
  { intros d v Hd Lv K. rewrite Dm0 in K. apply has_dim_iff in K. apply lookup_In in Lv. assert (In d (map fst (D p0))).
    { assert (Z : In d (map fst ds0)) by (apply (in_map fst _ (d, v)), Lv). rewrite Nm0 in Z. apply in_app_or in Z as [Z|[Z|[]]]; [exact Z|]. subst d. cbn in Hd. intuition discriminate. }
    apply in_map_iff in H as ([d' w] & Ed & Hw). cbn in Ed. subst d'.
    assert (Lw : lookup (E D r n p0) d = Some w) by (apply In_lookup; [eapply E_names; eassumption|apply in_or_app; left; exact Hw]).
    destruct (X0 p0 d w H0 Lw (or_intror L0)) as (u & Lu & _ & Du & Cu). rewrite (In_lookup _ _ _ N0 Lv) in Lu. injection Lu as <-. rewrite Du. exact (Hi p0 d w H0 Hw K). }
  assert (Keep1 : forall a, In a (map fst ds0) -> lookup ds1 a = lookup ds0 a).
  { intros a Ha. apply Old1. intros (_ & _ & K). apply lookup_none in K. contradiction. }
  assert (Nx1 : forall a, In a (map fst ds1) -> In a (map fst ds0) \/ (In a ["num_flts"; "num_test_times"] /\ has_dim a (D p0))).
  { intros a Ha. destruct (in_dec string_dec a (map fst ds0)) as [I|I]; [left; exact I|]. right. destruct (in_dec string_dec a ["num_flts"; "num_test_times"]) as [J|J].
    - split; [exact J|]. apply has_dim_iff. rewrite <- Dm0. destruct (in_dims a ds0) eqn:Ea; [reflexivity|]. exfalso. assert (K : lookup ds1 a = lookup ds0 a) by (apply Old1; intros (_ & K & _); congruence). apply lookup_none in I. rewrite I in K. apply lookup_none in K. contradiction.
    - exfalso. assert (K : lookup ds1 a = lookup ds0 a) by (apply Old1; tauto). apply lookup_none in I. rewrite I in K. apply lookup_none in K. contradiction. }
  (* locations *)
  assert (Loc : exists ds2, locations V of_coord cf strict disk l' ds1 = Ok ds2 /\ NoDup (map fst ds2) /\ (forall d, in_dims d ds2 = in_dims d ds1) /\
    (forall a, In a (map fst ds1) -> lookup ds2 a = lookup ds1 a) /\
    (forall a, In a (map fst ds2) -> In a (map fst ds1) \/ (In a ["Xs"; "Ys"] /\ ~ In "Xs" (map fst (D p0)))) /\
    (forall a, In a ["Xs"; "Ys"] -> ~ In "Xs" (map fst (D p0)) -> exists u, lookup ds2 a = Some u /\ v_dims u = [stations_dim] /\ forall p x, In p l' -> In (a, x) (R p) -> placed r n l' p x u)).
  { unfold locations. destruct (in_ds "Xs" ds1) eqn:Ex.
    - apply mem_In in Ex. exists ds1. split; [reflexivity|]. split; [exact N1|]. repeat (split; [auto|]). intros a _ Na. exfalso. apply Na. apply Nx1 in Ex as [Ex|[Ex _]]; [|cbn in Ex; intuition discriminate].
      rewrite Nm0 in Ex. apply in_app_or in Ex as [Ex|[Ex|[]]]; [exact Ex|discriminate].
    - apply mem_notIn in Ex. assert (Nx : ~ In "Xs" (map fst (D p0))).
      { intros K. apply Ex. assert (Z : In "Xs" (map fst ds0)) by (rewrite Nm0; apply in_or_app; left; exact K). destruct (lookup ds0 "Xs") eqn:Lz; [|apply lookup_none in Lz; contradiction]. rewrite <- (Keep1 _ Z) in Lz. apply lookup_In in Lz. apply (in_map fst _ ("Xs", v)), Lz. }
      destruct (Hp p0 H0) as [K|(-> & RR & Ny & x0 & y0 & X1 & X2 & Y1 & Y2)]; [contradiction|].
      destruct (xr_opened of_coord cf disk None R R r n l' RR) as (dr & q0 & Er & Hq & Lq & Fr & Xr); [intros p Hpp; eapply holds_root; apply Hh, Hpp|]. rewrite Er. cbn [bind].
      destruct (joined_sizes R r n l' q0 dr RR Hq Lq Fr Xr) as (Nr' & _ & _ & _ & _).
      assert (Get : forall a z0, In (a, z0) (R p0) -> v_dims z0 = [stations_dim] -> exists u, lookup dr a = Some u /\ v_dims u = [stations_dim] /\ shape (v_data u) = [list_sum (map n l')] /\ forall p x, In p l' -> In (a, x) (R p) -> placed r n l' p x u).
      { intros a z0 Z1 Z2. assert (L1 : forall p x, In p l' -> In (a, x) (R p) -> lookup (E R r n p) a = Some x) by (intros p x Hpp Hx; apply In_lookup; [eapply E_names; eassumption|apply in_or_app; left; exact Hx]).
        destruct (Xr p0 a z0 H0 (L1 p0 z0 H0 Z1)) as (u & Lu & Pu & Du & Cu); [left; rewrite Z2; left; reflexivity|]. exists u. split; [exact Lu|]. split; [congruence|]. split.
        - destruct Pu as [Su _]. rewrite Su, Z2. destruct (run_shapes _ _ _ _ RR p0 a z0 H0 Z1) as [Ls _]. rewrite Z2 in Ls. destruct (shape (v_data z0)) as [|k [|]]; try discriminate Ls. reflexivity.
        - intros p x Hpp Hx. destruct (counterpart of_coord R r n l' p0 p a z0 RR H0 Hpp) as (w & Lw & _ & Dw); [apply in_or_app; left; exact Z1|]. rewrite (L1 p x Hpp Hx) in Lw. injection Lw as <-.
          destruct (Xr p a x Hpp (L1 p x Hpp Hx)) as (u' & Lu' & Pu' & _); [left; rewrite Dw, Z2; left; reflexivity|]. congruence. }
      destruct (Get "Xs" x0 X1 X2) as (ux & Lx & Dx & Sx & Px), (Get "Ys" y0 Y1 Y2) as (uy & Ly & Dy & Sy & Py). rewrite Lx, Ly.
      assert (Nx' : ~ In "Xs" (map fst ds1)) by exact Ex.
      assert (Ny' : ~ In "Ys" (map fst ds1)).
      { intros K. apply Nx1 in K as [K|[K _]]; [|cbn in K; intuition discriminate]. rewrite Nm0 in K. apply in_app_or in K as [K|[K|[]]]; [contradiction|discriminate]. }
      rewrite (assign_new "Xs") by exact Nx'. rewrite assign_new; [|rewrite map_app; intros K; apply in_app_or in K as [K|[K|[]]]; [contradiction|discriminate]].
      rewrite Dx, Dy.
      assert (St1 : In (stations_dim, list_sum (map n l')) (sizes ds1)) by (apply Sz1, St0).
      replace (consistent _) with true.
      2:{ symmetry. eapply consistent_snoc; [eapply consistent_snoc; [exact C1|exact St1|exact Sx]| |exact Sy]. rewrite sizes_app. apply in_or_app. left. exact St1. }
      set (vx := Var [stations_dim] (v_data ux) None false). set (vy := Var [stations_dim] (v_data uy) None false).
      assert (Ny2 : ~ In "Ys" (map fst (ds1 ++ [("Xs", vx)]))) by (rewrite map_app; intros K; apply in_app_or in K as [K|[K|[]]]; [contradiction|discriminate]).
      assert (L2 : forall b, lookup ((ds1 ++ [("Xs", vx)]) ++ [("Ys", vy)]) b = if String.eqb "Ys" b then Some vy else if String.eqb "Xs" b then Some vx else lookup ds1 b).
      { intros b. rewrite lookup_snoc by exact Ny2. rewrite lookup_snoc by exact Nx'. reflexivity. }
      exists ((ds1 ++ [("Xs", vx)]) ++ [("Ys", vy)]). split; [reflexivity|]. split; [apply names_snoc; [apply names_snoc; assumption|exact Ny2]|]. split; [|split; [|split]].
      + intros d. rewrite !in_dims_app. cbn [in_dims existsb snd vx vy v_dims]. unfold mem. cbn [existsb]. destruct (String.eqb_spec d stations_dim) as [->|]; [|rewrite !orb_false_r; reflexivity].
        replace (in_dims stations_dim ds1) with true; [reflexivity|]. symmetry. rewrite Dm1, Dm0. apply has_dim_iff, (run_stations _ _ _ _ Rn p0 H0).
      + intros a Ha. rewrite L2. destruct (String.eqb_spec "Ys" a) as [<-|]; [contradiction|]. destruct (String.eqb_spec "Xs" a) as [<-|]; [contradiction|reflexivity].
      + intros a Ha. rewrite !map_app in Ha. apply in_app_or in Ha as [Ha|[Ha|[]]]; [apply in_app_or in Ha as [Ha|[Ha|[]]]; [left; exact Ha|]|]; right; cbn in Ha; subst a; (split; [cbn; auto|exact Nx]).
      + intros a Ha _. destruct Ha as [<-|[<-|[]]].
        * exists vx. split; [rewrite L2; reflexivity|]. split; [reflexivity|]. exact Px.
        * exists vy. split; [rewrite L2; reflexivity|]. split; [reflexivity|]. exact Py. }
  destruct Loc as (ds2 & E2 & N2 & Dm2 & Keep2 & Nx2 & New2).
  destruct (set_units_ok time_names ds2) as [Nu Lu]. set (mid := set_units time_names ds2) in *.
  assert (Nm : NoDup (map fst mid)) by (rewrite Nu; exact N2).
  assert (Dm : forall d, in_dims d mid = in_dims d (D p0)) by (intros d; unfold mid; rewrite set_units_dims by exact N2; rewrite Dm2, Dm1, Dm0; reflexivity).
  assert (Tm : In "num_times" (map fst mid) -> in_dims "num_times" mid = true).
  { rewrite Dm, Nu. intros K. apply has_dim_iff, (Ht p0 H0). apply Nx2 in K as [K|[K _]]; [|cbn in K; intuition discriminate]. apply Nx1 in K as [K|[K _]]; [|cbn in K; intuition discriminate]. rewrite Nm0 in K. apply in_app_or in K as [K|[K|[]]]; [exact K|discriminate]. }
  pose proof (rename_ok mid Nm Tm) as [Ern Nrn]. rewrite !Dm in Ern, Nrn. fold (cond (D p0)) in Ern, Nrn.
  assert (Lk : forall a, lookup mid a = option_map (epoch_if a) (lookup ds2 a)).
  { intros a. rewrite Lu. unfold epoch_if. destruct (mem a time_names); [reflexivity|]. destruct (lookup ds2 a); reflexivity. }
  exists mid, p0. split; [apply In_l, H0|]. split; [intros q Hq; apply L0, In_l', Hq|]. cbv zeta. split; [|split; [exact Nm|split; [rewrite map_map; exact Nrn|]]].
  { unfold open_mfdataset. cbv zeta. fold l. fold l'. rewrite E0. cbn [bind]. rewrite El at 1. rewrite Dk. cbn [nc_root]. rewrite E1. cbn [bind]. rewrite E2. cbn [bind]. fold mid. rewrite Ern. reflexivity. }
  assert (In_ds1 : forall a v, lookup ds0 a = Some v -> lookup ds2 a = Some v).
  { intros a v La. assert (I0 : In a (map fst ds0)) by (apply (in_map fst _ (a, v)), lookup_In, La). assert (L1 : lookup ds1 a = Some v) by (rewrite Keep1; assumption).
    rewrite Keep2; [exact L1|]. apply (in_map fst _ (a, v)), lookup_In, L1. }
  split; [|split; [|split; [|split]]].
  - intros p a w Hpp Hw C. destruct (X0 p a w (In_l' _ Hpp) Hw) as (u & La & Pu & Du & Cu); [destruct C as [C|C]; [left; exact C|right; apply Low, C]|].
    exists u. split; [rewrite Lk, (In_ds1 a u La); reflexivity|]. split; [eapply placed_perm; [symmetry; exact P|exact Pu]|]. split; [exact Du|]. intros Z. apply Cu, Low, Z.
  - intros d x Hd K Nd. assert (Hd' : In d ["num_flts"; "num_test_times"]) by (cbn in Hd; destruct Hd as [Hd|[Hd|[]]]; injection Hd as <- <-; cbn; auto).
    destruct (New1 d x Hd' Hd) as (v & V1 & V2).
    + rewrite Dm0. apply has_dim_iff, K.
    + apply lookup_none. rewrite Nm0. intros Z. apply in_app_or in Z as [Z|[Z|[]]]; [contradiction|]. subst d. cbn in Hd'. intuition discriminate.
    + exists p1, v. split; [apply In_l, H1|]. split; [exact V1|]. rewrite Lk, Keep2, V2; [reflexivity|]. apply (in_map fst _ (d, Var [d] (v_data v) None true)), lookup_In, V2.
  - intros a Ha Nx. destruct (New2 a Ha Nx) as (u & U1 & U2 & U3). exists u. split; [|split; [exact U2|]].
    + rewrite Lk, U1. cbn in Ha. destruct Ha as [<-|[<-|[]]]; reflexivity.
    + intros p x Hpp Hx. eapply placed_perm; [symmetry; exact P|]. apply U3; [apply In_l', Hpp|exact Hx].
  - intros a u La Ha. rewrite Lk in La. destruct (lookup ds2 a) as [w|]; [|discriminate]. injection La as <-. unfold epoch_if. apply mem_In in Ha. rewrite Ha. reflexivity.
  - intros a Ha. rewrite Nu in Ha. apply Nx2 in Ha as [Ha|Ha]; [|right; right; right; exact Ha]. apply Nx1 in Ha as [Ha|Ha]; [|right; right; left; exact Ha]. rewrite Nm0 in Ha. apply in_app_or in Ha as [Ha|[Ha|[]]]; [left; exact Ha|right; left; symmetry; exact Ha].
Qed.
End Whole.
