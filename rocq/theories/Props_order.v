(** Property C110: the rank of an observation depends only on how many members lie below it and how many are equal to it. *)
From Coq Require Import String ZArith List Lia Bool Arith QArith Qcanon Permutation.
From Verif Require Import QcTac QSum Num NdArr Numpy NdAxes M_common M_boot M_ens Spec P_boot P_rank Props_rank
  Store M_state Spec_state P_state P_codec Spec_result P_result Props_state Props_result M_whole Spec_whole P_whole Props_whole.
From Verif Require Import Props_laws.
From Verif Require Props_ps NdMove.
Import ListNotations.
Open Scope string_scope.
Open Scope list_scope.
Open Scope nat_scope.

(** as many members below the observation, and as many not above it, in a cell of two data sets *)
Definition same_place (n n' : nat) (f o f' o' : arr num) (ix : list nat) : Prop :=
  how_many (fun m => nlt m (get o' ix)) (members_at n' f' ix) = how_many (fun m => nlt m (get o ix)) (members_at n f ix) /\
  how_many (fun m => nle m (get o' ix)) (members_at n' f' ix) = how_many (fun m => nle m (get o ix)) (members_at n f ix).
(** every number goes through [g] *)
Definition through (g : Qc -> Qc) (x : num) : num := match x with Fin q => Fin (g q) | y => y end.
Definition increasing (g : Qc -> Qc) : Prop := forall a b, (a < b)%Qc -> (g a < g b)%Qc.
Definition decreasing (g : Qc -> Qc) : Prop := forall a b, (a < b)%Qc -> (g b < g a)%Qc.

Lemma inc_lt g a b : increasing g -> qltb (g a) (g b) = qltb a b.
Proof.
  intros I. destruct (qltb_spec a b) as [L|L]; [apply qltb_lt, I, L|]. apply qltb_ge. apply Qcle_lt_or_eq in L as [L| ->]; [apply Qclt_le_weak, I, L|apply Qcle_refl].
Qed.
Lemma inc_le g a b : increasing g -> qleb (g a) (g b) = qleb a b.
Proof. intros I. pose proof (inc_lt g b a I) as E. unfold qltb in E. destruct (qleb (g a) (g b)), (qleb a b); cbn in E; congruence. Qed.
Lemma dec_lt g a b : decreasing g -> qltb (g a) (g b) = qltb b a.
Proof.
  intros I. destruct (qltb_spec b a) as [L|L]; [apply qltb_lt, I, L|]. apply qltb_ge. apply Qcle_lt_or_eq in L as [L| ->]; [apply Qclt_le_weak, I, L|apply Qcle_refl].
Qed.
Lemma how_many_map {A B} (p : B -> bool) (g : A -> B) l : how_many p (map g l) = how_many (fun a => p (g a)) l.
Proof. unfold how_many. induction l as [|a l IH]; [reflexivity|]. cbn. destruct (p (g a)); cbn; rewrite IH; reflexivity. Qed.
Lemma how_many_perm {A} (p : A -> bool) l l' : Permutation l l' -> how_many p l = how_many p l'.
Proof. intros H. exact (QSum.count_perm p l l' H). Qed.
Lemma how_many_ext {A} (p q : A -> bool) l : (forall a, In a l -> p a = q a) -> how_many p l = how_many q l.
Proof. unfold how_many. induction l as [|a l IH]; intros H; [reflexivity|]. cbn. rewrite (H a (or_introl eq_refl)). specialize (IH (fun b Hb => H b (or_intror Hb))). destruct (q a); cbn; rewrite IH; reflexivity. Qed.
(** an increasing function, and another order of the members, leave the place alone *)
Lemma place_increasing g n n' f o f' o' ix : increasing g -> get o' ix = through g (get o ix) -> Permutation (members_at n' f' ix) (map (through g) (members_at n f ix)) -> same_place n n' f o f' o' ix.
Proof.
  intros I Eo P. unfold same_place. rewrite Eo, !(how_many_perm _ _ _ P), !how_many_map. split; apply how_many_ext; intros m _; destruct m, (get o ix); cbn; try reflexivity; [apply inc_lt, I|apply inc_le, I].
Qed.

(** One process and the same random numbers: the same ranks, ties included. *)
Theorem c110_ranks : forall z z' rng f o ea n r f' o' ea' n' r',
  rank_histogram false 1 z rng f o ea = Ok r -> rank_histogram false 1 z' rng f' o' ea' = Ok r' -> axis_is (length (shape f)) ea n -> axis_is (length (shape f')) ea' n' ->
  shape o' = shape o -> (forall ix, Forall2 lt ix (shape o) -> same_place n n' f o f' o' ix) ->
  shape r' = shape r /\ forall ix, Forall2 lt ix (shape r) -> get r' ix = get r ix.
Proof.
  intros z z' rng f o ea n r f' o' ea' n' r' H H' A A' Sh P.
  destruct (rank_histogram_cells _ _ _ _ _ _ _ _ _ H A) as (_ & _ & S1 & _). destruct (rank_histogram_cells _ _ _ _ _ _ _ _ _ H' A') as (_ & _ & S2 & _).
  split; [congruence|]. intros ix V. rewrite S1 in V. pose proof (rank_serial_exact _ _ _ _ _ _ _ H A ix V) as [G1 G2]. rewrite <- Sh in V. pose proof (rank_serial_exact _ _ _ _ _ _ _ H' A' ix V) as [G1' G2']. rewrite Sh in V, G1', G2'.
  assert (T : forall jx, valid (shape o) jx -> ties (get o' jx) (members_at n' f' jx) = ties (get o jx) (members_at n f jx)) by (intros jx Vj; destruct (P jx Vj) as [P1 P2]; unfold ties; rewrite P1, P2; reflexivity).
  destruct (P ix V) as [P1 _].
  assert (D : (forall jx, valid (shape o) jx -> ties (get o ix) (members_at n f ix) <= ties (get o jx) (members_at n f jx)) \/ exists jx, valid (shape o) jx /\ ties (get o jx) (members_at n f jx) < ties (get o ix) (members_at n f ix)).
  { destruct (existsb (fun jx => Nat.ltb (ties (get o jx) (members_at n f jx)) (ties (get o ix) (members_at n f ix))) (indices (shape o))) eqn:E.
    - right. apply existsb_exists in E as (jx & Hj & Lj). exists jx. split; [apply in_indices, Hj|apply Nat.ltb_lt, Lj].
    - left. intros jx Vj. destruct (Nat.le_gt_cases (ties (get o ix) (members_at n f ix)) (ties (get o jx) (members_at n f jx))) as [L|L]; [exact L|]. exfalso.
      assert (Q : existsb (fun jx => Nat.ltb (ties (get o jx) (members_at n f jx)) (ties (get o ix) (members_at n f ix))) (indices (shape o)) = true) by (apply existsb_exists; exists jx; split; [apply in_indices, Vj|apply Nat.ltb_lt, L]). congruence. }
  destruct D as [D|(jx & Vj & D)].
  - rewrite G1 by exact D. rewrite G1' by (intros jx Vj; rewrite (T ix V), (T jx Vj); auto). rewrite P1. reflexivity.
  - rewrite G2 by (exists jx; auto). rewrite G2' by (exists jx; rewrite (T ix V), (T jx Vj); auto). rewrite P1, (T ix V). reflexivity.
Qed.
(** Without ties, any number of processes and any random numbers. *)
Theorem c110_no_ties : forall skip w z rng skip' w' z' rng' f o ea n r f' o' ea' n' r',
  rank_histogram skip w z rng f o ea = Ok r -> rank_histogram skip' w' z' rng' f' o' ea' = Ok r' -> axis_is (length (shape f)) ea n -> axis_is (length (shape f')) ea' n' ->
  shape o' = shape o -> (forall ix, Forall2 lt ix (shape o) -> same_place n n' f o f' o' ix) -> (forall ix, Forall2 lt ix (shape o) -> ~ In (get o ix) (members_at n f ix)) ->
  (forall ix, Forall2 lt ix (shape o) -> is_fin (get o ix) /\ is_fin (get o' ix) /\ (forall m, In m (members_at n f ix) -> is_fin m) /\ forall m, In m (members_at n' f' ix) -> is_fin m) ->
  shape r' = shape r /\ forall ix, Forall2 lt ix (shape r) -> get r' ix = get r ix.
Proof.
  intros skip w z rng skip' w' z' rng' f o ea n r f' o' ea' n' r' H H' A A' Sh P NT Fi.
  destruct (c18_rank_range _ _ _ _ _ _ _ n r H A) as (S1 & _ & G). destruct (c18_rank_range _ _ _ _ _ _ _ n' r' H' A') as (S2 & _ & G').
  split; [congruence|]. intros ix V. rewrite S1 in V. destruct (Fi ix V) as (F1 & F2 & F3 & F4).
  destruct (G ix V ltac:(intros; split; assumption)) as (k & Ek & _ & _ & Nk). rewrite <- Sh in V. destruct (G' ix V ltac:(intros; split; assumption)) as (k' & Ek' & _ & B' & _). rewrite Sh in V.
  destruct (P ix V) as [P1 P2]. rewrite Ek, Ek'. f_equal. rewrite (Nk (NT ix V)).
  assert (E : how_many (fun m => nle m (get o ix)) (members_at n f ix) = how_many (fun m => nlt m (get o ix)) (members_at n f ix)).
  { apply how_many_ext. intros m Hm. destruct (F3 m Hm) as [a ->], F1 as [b Eb]. rewrite Eb. cbn. destruct (qltb_spec a b) as [L|L]; [apply qleb_le, Qclt_le_weak, L|]. apply qleb_gt. apply Qcle_lt_or_eq in L as [L|L]; [exact L|]. exfalso. apply (NT ix V). rewrite Eb, L. exact Hm. }
  rewrite P1, P2, E in B'. lia.
Qed.
(** All numbers through a decreasing function, no ties: the ranks are counted from the other end. *)
Theorem c110_reversed : forall g skip w z rng skip' w' z' rng' f o ea n r f' o' ea' n' r', decreasing g ->
  rank_histogram skip w z rng f o ea = Ok r -> rank_histogram skip' w' z' rng' f' o' ea' = Ok r' -> axis_is (length (shape f)) ea n -> axis_is (length (shape f')) ea' n' ->
  shape o' = shape o -> (forall ix, Forall2 lt ix (shape o) -> get o' ix = through g (get o ix) /\ Permutation (members_at n' f' ix) (map (through g) (members_at n f ix))) ->
  (forall ix, Forall2 lt ix (shape o) -> ~ In (get o ix) (members_at n f ix)) ->
  (forall ix, Forall2 lt ix (shape o) -> is_fin (get o ix) /\ forall m, In m (members_at n f ix) -> is_fin m) ->
  forall ix, Forall2 lt ix (shape r) -> exists k k', get r ix = nnat k /\ get r' ix = nnat k' /\ k + k' = length (members_at n f ix) + 2.
Proof.
  intros g skip w z rng skip' w' z' rng' f o ea n r f' o' ea' n' r' Dg H H' A A' Sh P NT Fi ix V.
  destruct (c18_rank_range _ _ _ _ _ _ _ n r H A) as (S1 & _ & G). destruct (c18_rank_range _ _ _ _ _ _ _ n' r' H' A') as (S2 & _ & G'). rewrite S1 in V.
  destruct (Fi ix V) as [[y Ey] F2]. destruct (P ix V) as [Po Pm]. set (ms := members_at n f ix) in *. set (ms' := members_at n' f' ix) in *.
  assert (F4 : forall m, In m ms' -> is_fin m). { intros m Hm. apply (Permutation_in _ Pm) in Hm. apply in_map_iff in Hm as (a & <- & Ha). destruct (F2 a Ha) as [q ->]. eexists. reflexivity. }
  destruct (G ix V ltac:(intros; split; [eexists; exact Ey|exact F2])) as (k & Ek & _ & _ & Nk). rewrite <- Sh in V. destruct (G' ix V) as (k' & Ek' & _ & B' & _); [intros; split; [rewrite Po, Ey; eexists; reflexivity|exact F4]|]. rewrite Sh in V.
  exists k, k'. split; [exact Ek|]. split; [exact Ek'|]. fold ms in Nk. fold ms' in B'. rewrite (Nk (NT ix V)).
  assert (Or : forall m, In m ms -> exists a, m = Fin a /\ a <> y). { intros m Hm. destruct (F2 m Hm) as [a ->]. exists a. split; [reflexivity|]. intros ->. apply (NT ix V). rewrite Ey. exact Hm. }
  assert (C1 : how_many (fun m => nlt m (get o' ix)) ms' = length ms - how_many (fun m => nlt m (get o ix)) ms /\ how_many (fun m => nle m (get o' ix)) ms' = length ms - how_many (fun m => nlt m (get o ix)) ms /\ how_many (fun m => nlt m (get o ix)) ms <= length ms).
  { rewrite Po, Ey. cbn [through]. rewrite !(how_many_perm _ _ _ Pm), !how_many_map. clear - Or Dg. induction ms as [|m ms IH]; [repeat split; reflexivity|].
    destruct IH as (I1 & I2 & I3); [intros; apply Or; right; assumption|]. destruct (Or m (or_introl eq_refl)) as (a & -> & Na). unfold how_many in *. cbn [filter length through nlt nle] in *.
    rewrite (dec_lt g a y Dg). assert (Q : qleb (g a) (g y) = qltb y a).
    { destruct (qltb_spec y a) as [L|L]; [apply qleb_le, Qclt_le_weak, Dg, L|]. apply qleb_gt, Dg. apply Qcle_lt_or_eq in L as [L|L]; [exact L|congruence]. }
    rewrite Q. assert (Q' : qltb a y = negb (qltb y a)).
    { destruct (qltb_spec y a) as [L|L]; [apply qltb_ge, Qclt_le_weak, L|]. apply qltb_lt. apply Qcle_lt_or_eq in L as [L|L]; [exact L|congruence]. }
    rewrite Q'. destruct (qltb y a); cbn [negb length]; lia. }
  destruct C1 as (C1 & C2 & C3). rewrite C1, C2 in B'. lia.
Qed.
Print Assumptions c110_ranks.
Print Assumptions c110_no_ties.
Print Assumptions c110_reversed.

Section Program.
Variable S : settings.
Variable other : string -> list M_state.val -> res M_state.val.
Variable otherr : string -> list M_state.val -> nat -> res M_state.val.
Variable str_of : M_state.val -> string.
Variable dumps : M_state.val -> string.
Variable loads : string -> res M_state.val.
Variable expanduser : string -> string.
Variable resolve : string -> path.
Variable points : M_state.val -> M_state.val -> M_state.val -> res (list num).
Variable less_memory : bool.
Variable integrate_wdir : option path.
Variable cwd : path.
Variable rng : nat -> nat.
Notation answers := (Props_whole.answers S other otherr str_of dumps loads expanduser resolve points less_memory integrate_wdir cwd rng).
(** Two verifiers that save nothing, the second with every number through an increasing function and the members in any order and along any axis;
    one process, and the same random numbers to come. *)
Theorem c110_program : forall s s' n n' g, let x := ob s in let y := ob s' in
  mem_off less_memory x -> truthy (a_wd x) = false -> mem_off less_memory y -> truthy (a_wd y) = false -> cl x = CEnsemble -> cl y = CEnsemble -> pos s' = pos s ->
  skip_nan (w_boot S) = false -> w_workers S = 1 -> increasing g ->
  Props_ps.fits (arr_of (a_o x)) (arr_of (a_f x)) (int_of (a_eaxis x)) n -> Props_ps.fits (arr_of (a_o y)) (arr_of (a_f y)) (int_of (a_eaxis y)) n' -> arr_shape (a_o x) <> [] -> arr_shape (a_o y) = arr_shape (a_o x) ->
  (forall ix, Forall2 lt ix (arr_shape (a_f x)) -> is_fin (reads (a_f x) ix)) -> (forall ix, Forall2 lt ix (arr_shape (a_o x)) -> is_fin (reads (a_o x) ix)) -> (forall ix, Forall2 lt ix (arr_shape (a_f y)) -> is_fin (reads (a_f y) ix)) ->
  (forall ix, Forall2 lt ix (arr_shape (a_o x)) -> reads (a_o y) ix = through g (reads (a_o x) ix) /\ Permutation (members_at n' (arr_of (a_f y)) ix) (map (through g) (members_at n (arr_of (a_f x)) ix))) ->
  exists r r', answers s MRank r /\ answers s' MRank r' /\ arr_shape r = arr_shape (a_o x) /\ arr_shape r' = arr_shape r /\ forall ix, Forall2 lt ix (arr_shape r) -> reads r' ix = reads r ix.
Proof.
  intros s s' n n' g x y M W M' W' C C' Ps Sk Wk Ig [Ax D] [Ax' D'] Ne Sh Ff Fo Ff' V.
  assert (NN : forall a, (forall ix, Forall2 lt ix (shape a) -> is_fin (get a ix)) -> any_nan a = false).
  { intros a H. unfold any_nan. destruct (existsb is_nan (ravel a)) eqn:E; [|reflexivity]. apply existsb_exists in E as (v & I & E). unfold ravel in I. apply in_map_iff in I as (ix & <- & I).
    apply in_indices in I. destruct (H ix I) as [q Hq]. rewrite Hq in E. discriminate E. }
  assert (Fo' : forall ix, Forall2 lt ix (arr_shape (a_o y)) -> is_fin (reads (a_o y) ix)). { intros ix I. rewrite Sh in I. destruct (V ix I) as [-> _]. destruct (Fo ix I) as [q ->]. eexists. reflexivity. }
  set (h := w_gen_rank S (rng (pos s + 0))).
  assert (Make : forall s1 n1, mem_off less_memory (ob s1) -> truthy (a_wd (ob s1)) = false -> cl (ob s1) = CEnsemble -> pos s1 = pos s -> axis_is (length (shape (arr_of (a_f (ob s1))))) (int_of (a_eaxis (ob s1))) n1 ->
    drop_axis n1 (shape (arr_of (a_f (ob s1)))) = shape (arr_of (a_o (ob s1))) -> arr_shape (a_o (ob s1)) <> [] -> (forall ix, Forall2 lt ix (arr_shape (a_f (ob s1))) -> is_fin (reads (a_f (ob s1)) ix)) -> (forall ix, Forall2 lt ix (arr_shape (a_o (ob s1))) -> is_fin (reads (a_o (ob s1)) ix)) ->
    exists r1, rank_histogram false 1 (w_map_axis S) h (arr_of (a_f (ob s1))) (arr_of (a_o (ob s1))) (int_of (a_eaxis (ob s1))) = Ok r1 /\ answers s1 MRank (val_of r1)).
  { intros s1 n1 M1 W1 C1 P1 A1 D1 N1 F1 O1.
    destruct (rank_histogram_accepts false 1 (w_map_axis S) h (arr_of (a_f (ob s1))) (arr_of (a_o (ob s1))) (int_of (a_eaxis (ob s1))) n1 A1) as [r1 E1]; [rewrite arr_shape_of; exact N1|exact D1|intros _; split; apply NN; rewrite arr_shape_of; assumption|left; reflexivity|].
    exists r1. split; [exact E1|]. unfold Props_whole.answers.
    destruct (c83_saving_off (whole_lib S other) (whole_libr S otherr) str_of dumps loads expanduser resolve points less_memory integrate_wdir cwd rng MRank None s1 M1 W1 ltac:(constructor) (or_introl eq_refl)) as [-> _].
    cbn [Spec_result.result]. rewrite C1. unfold whole_libr. change ("rank_histogram" =? "boot_or_avg")%string with false. change ("rank_histogram" =? "rank_histogram")%string with true. cbv iota. rewrite P1. fold h. rewrite Sk, Wk, E1. reflexivity. }
  destruct (Make s n M W C eq_refl Ax D Ne Ff Fo) as (r & Er & Ar). destruct (Make s' n' M' W' C' Ps Ax' D' ltac:(fold y; rewrite Sh; exact Ne) Ff' Fo') as (r' & Er' & Ar'). fold x in Er. fold y in Er'.
  destruct (c110_ranks _ _ _ _ _ _ n r _ _ _ n' r' Er Er' Ax Ax') as [S1 G1]; rewrite ?arr_shape_of.
  - exact Sh.
  - intros ix I. destruct (V ix I) as [V1 V2]. apply (place_increasing g); assumption.
  - destruct (rank_histogram_cells _ _ _ _ _ _ _ _ _ Er Ax) as (_ & _ & Sr & _). rewrite arr_shape_of in Sr.
    exists (val_of r), (val_of r'). split; [exact Ar|]. split; [exact Ar'|]. split; [exact Sr|]. split; [exact S1|]. intros ix I. change (arr_shape (val_of r)) with (shape r) in I. rewrite !reads_val by (rewrite ?S1; exact I). apply G1, I.
Qed.
End Program.
Print Assumptions c110_program.

(** Three cells, two members; the observation ties with one, with two and with no member. Every number goes to one more than its double, and the members,
    in the other order, lie along the first axis. *)
Definition o_fun (q : Qc) : Qc := (q + q + 1)%Qc.
Definition o_one := l_state [3; 2] [1; 3; 2; 2; 5; 0]%Z [3; 2; 1]%Z [0; 0; 0]%Z (-1).
Definition o_two := l_state [2; 3] [7; 5; 1; 3; 5; 11]%Z [7; 5; 3]%Z [0; 0; 0]%Z 0.
Example c110_nonvacuous :
  (exists r r', e_answers o_one MRank r /\ e_answers o_two MRank r' /\ arr_shape r = [3] /\ arr_shape r' = [3] /\ forall ix, Forall2 lt ix [3] -> reads r' ix = reads r ix) /\
  (exists r r', rank_histogram false 1 (-1) (fun i ix => i + 1) (of_list NaN [3; 2] (map l_num [1; 3; 2; 2; 5; 0]%Z)) (of_list NaN [3] (map l_num [3; 2; 1]%Z)) (-1) = Ok r /\
     rank_histogram false 1 (-1) (fun i ix => i + 1) (of_list NaN [2; 3] (map l_num [7; 5; 1; 3; 5; 11]%Z)) (of_list NaN [3] (map l_num [7; 5; 3]%Z)) 0 = Ok r' /\
     ravel r = map nnat [3; 2; 2] /\ ravel r' = map nnat [3; 2; 2]) /\
  (* no ties, two processes, and the numbers turned around: 2 + 3 and 1 + 4, three members and two *)
  (exists r r', rank_histogram false 2 (-1) (fun i ix => i + 1) (of_list NaN [2; 3] (map l_num [1; 3; 5; 2; 4; 6]%Z)) (of_list NaN [2] (map l_num [2; 1]%Z)) (-1) = Ok r /\
     rank_histogram false 1 (-1) (fun i ix => i) (of_list NaN [2; 3] (map l_num [-1; -5; -3; -6; -4; -2]%Z)) (of_list NaN [2] (map l_num [-2; -1]%Z)) (-1) = Ok r' /\
     ravel r = map nnat [2; 1] /\ ravel r' = map nnat [3; 4]).
Proof.
  split; [|split].
  - destruct (l_facts [3; 2] [1; 3; 2; 2; 5; 0]%Z [3; 2; 1]%Z [0; 0; 0]%Z (-1)) as (_ & C & Sf & So & _ & _ & Ez & Ef & Eo & _ & _). destruct (l_facts [2; 3] [7; 5; 1; 3; 5; 11]%Z [7; 5; 3]%Z [0; 0; 0]%Z 0) as (_ & C' & Sf' & So' & _ & _ & Ez' & Ef' & Eo' & _ & _). fold o_one in *. fold o_two in *.
    assert (Fin_all : forall (sh : list nat) (l : list Z), NdArr.prod sh = length l -> forall ix, Forall2 lt ix sh -> is_fin (get (of_list NaN sh (map l_num l)) ix)).
    { intros sh l Hl ix V. cbn [get of_list]. destruct (nth_in_or_default (flat sh ix) (map l_num l) NaN) as [I|E]; [apply in_map_iff in I as (z & <- & _); eexists; reflexivity|].
      exfalso. assert (L : flat sh ix < length (map l_num l)) by (rewrite map_length, <- Hl; apply flat_lt, V). apply (nth_In _ NaN) in L. rewrite E in L. apply in_map_iff in L as (z & K & _). discriminate K. }
    destruct (c110_program e_set w_lib w_libr w_str w_dumps w_loads (fun s => s) w_resolve w_points false None [] (fun n => n) o_one o_two 1 0 o_fun) as (r & r' & A & A' & S1 & S2 & G).
    + left; reflexivity.
    + reflexivity.
    + left; reflexivity.
    + reflexivity.
    + exact C.
    + exact C'.
    + reflexivity.
    + reflexivity.
    + reflexivity.
    + intros a b L. unfold o_fun. qlra.
    + rewrite Ez, Ef, Eo. split; [split; [cbn; lia|right; reflexivity]|reflexivity].
    + rewrite Ez', Ef', Eo'. split; [split; [cbn; lia|left; reflexivity]|reflexivity].
    + rewrite So. discriminate.
    + rewrite So, So'. reflexivity.
    + rewrite Sf. unfold reads. rewrite Ef. apply Fin_all. reflexivity.
    + rewrite So. unfold reads. rewrite Eo. apply Fin_all. reflexivity.
    + rewrite Sf'. unfold reads. rewrite Ef'. apply Fin_all. reflexivity.
    + rewrite So. unfold reads. rewrite Eo, Eo', Ef, Ef'. apply three_cells; (split; [vm_compute; f_equal; apply Qc_is_canon; reflexivity|]).
      * replace (members_at 0 (of_list NaN [2; 3] (map l_num [7; 5; 1; 3; 5; 11]%Z)) [0]) with [Fin (qz 7); Fin (qz 3)] by reflexivity. replace (map (through o_fun) (members_at 1 (of_list NaN [3; 2] (map l_num [1; 3; 2; 2; 5; 0]%Z)) [0])) with [Fin (qz 3); Fin (qz 7)] by (vm_compute; repeat f_equal; apply Qc_is_canon; reflexivity). apply perm_swap.
      * replace (members_at 0 (of_list NaN [2; 3] (map l_num [7; 5; 1; 3; 5; 11]%Z)) [1]) with [Fin (qz 5); Fin (qz 5)] by reflexivity. replace (map (through o_fun) (members_at 1 (of_list NaN [3; 2] (map l_num [1; 3; 2; 2; 5; 0]%Z)) [1])) with [Fin (qz 5); Fin (qz 5)] by (vm_compute; repeat f_equal; apply Qc_is_canon; reflexivity). apply Permutation_refl.
      * replace (members_at 0 (of_list NaN [2; 3] (map l_num [7; 5; 1; 3; 5; 11]%Z)) [2]) with [Fin (qz 1); Fin (qz 11)] by reflexivity. replace (map (through o_fun) (members_at 1 (of_list NaN [3; 2] (map l_num [1; 3; 2; 2; 5; 0]%Z)) [2])) with [Fin (qz 11); Fin (qz 1)] by (vm_compute; repeat f_equal; apply Qc_is_canon; reflexivity). apply perm_swap.
    + exists r, r'. rewrite So in S1. rewrite S1 in S2, G. auto.
  - eexists. eexists. split; [vm_compute; reflexivity|]. split; [vm_compute; reflexivity|]. split; vm_compute; reflexivity.
  - eexists. eexists. split; [vm_compute; reflexivity|]. split; [vm_compute; reflexivity|]. split; vm_compute; reflexivity.
Qed.
