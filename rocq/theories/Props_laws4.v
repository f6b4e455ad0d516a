(** Property C117: the scores of an ensemble against those of its members, each verified alone; laws of the variance. *)
From Coq Require Import String Ascii ZArith List Bool Arith QArith Qcanon Lia Permutation.
From Verif Require Import QcTac QSum Num NdArr Numpy NdAxes M_common M_boot M_determ M_ens M_crpsens M_iou M_roc M_dist M_ps
  Spec P_boot P_rank P_prob P_ps Props_avg Props_prob Props_ps Props_iou Store M_state Spec_state P_state P_codec Spec_result P_result Props_state Props_result
  M_whole Spec_whole P_whole Props_whole P_laws P_laws2 Props_laws M_whole2 M_whole3 M_whole4 P_whole4 Props_whole4 P_laws4.
Import ListNotations.
Open Scope string_scope.
Open Scope list_scope.
Open Scope nat_scope.

Section Laws.
Variable S : settings.
Variable W : laws.
Variable T : stats.
Variable gen_decomp : nat -> nat -> nat -> nat -> nat.
Variable gen_rel : nat -> nat -> nat -> nat -> nat -> nat.
Variable other : string -> list M_state.val -> res M_state.val.
Variable otherr : string -> list M_state.val -> nat -> res M_state.val.
Variable str_of : M_state.val -> string.
Variable dumps : M_state.val -> string.
Variable loads : string -> res M_state.val.
Variable expanduser : string -> string.
Variable resolve : string -> path.
Variable points : M_state.val -> M_state.val -> M_state.val -> res (list num).
Variable less_memory : bool.
Variable integrate_wdir : option path.
Variable cwd : path.
Variable rng : nat -> nat.
Notation mlib := (more_lib S (prob_lib S W (stat_lib S T other))).
Notation mlibr := (more_libr S gen_decomp gen_rel (prob_libr S W otherr)).
Notation faithful := (faithful str_of dumps loads expanduser).
Notation reached := (reached S mlib mlibr str_of dumps loads expanduser resolve points less_memory integrate_wdir cwd rng).
Notation answers := (answers S mlib mlibr str_of dumps loads expanduser resolve points less_memory integrate_wdir cwd rng).
Notation errors := (c85_errors S mlib mlibr str_of dumps loads expanduser resolve points less_memory integrate_wdir cwd rng).
Notation crps := (c85_crps S mlib mlibr str_of dumps loads expanduser resolve points less_memory integrate_wdir cwd rng).
Notation variance := (c113_variance S W T gen_decomp gen_rel other otherr str_of dumps loads expanduser resolve points less_memory integrate_wdir cwd rng).

(** the call returns an array with the number [q] at [k] *)
Definition returns (s : st) (m : meth) (k : list nat) (q : Qc) : Prop := exists v, answers s m v /\ reads v k = Fin q.
(** how many members the ensemble has *)
Definition size (x : obj) (n : nat) : nat := nth n (arr_shape (a_f x)) 0.
(** a deterministic verifier for member [j] of the ensemble verifier, with the same observations *)
Definition verifies_member (s s' : st) (n j : nat) (k : list nat) (L : list (list nat)) : Prop :=
  reached s' /\ cl (ob s') = CDeterm /\ arr_shape (a_f (ob s')) = arr_shape (a_o (ob s')) /\ averages (ob s') k L /\
  forall ix, In ix L -> reads (a_f (ob s')) ix = nth j (members (ob s) n ix) NaN /\ reads (a_o (ob s')) ix = reads (a_o (ob s)) ix.

Lemma members_length x n ix M : members x n ix = map Fin M -> length M = size x n.
Proof. intros E. apply (f_equal (@length num)) in E. unfold members, members_at in E. rewrite !map_length, seq_length, arr_shape_of in E. symmetry. exact E. Qed.

Theorem c117_members : forall s n k L O M (D : nat -> st), faithful -> reached s -> cl (ob s) = CEnsemble -> properscoring (w_cell S) ->
  fits (arr_of (a_o (ob s))) (arr_of (a_f (ob s))) (int_of (a_eaxis (ob s))) n -> 0 < size (ob s) n -> w_split S = false \/ arr_shape (a_o (ob s)) <> [] ->
  arr_shape (a_fc (ob s)) = arr_shape (a_o (ob s)) -> averages (ob s) k L ->
  (forall ix, In ix L -> reads (a_o (ob s)) ix = Fin (O ix) /\ members (ob s) n ix = map Fin (M ix) /\ reads (a_fc (ob s)) ix = Fin (Spec.mean_of (M ix))) ->
  (forall j, j < size (ob s) n -> verifies_member s (D j) n j k L) ->
  exists x y z w r xs ys zs,
    returns s MError k x /\ returns s MSqErr k y /\ returns s MAbErr k z /\ returns s MCrps k w /\ (forall ix, In ix L -> returns s MVariance ix (r ix)) /\
    (forall j, j < size (ob s) n -> returns (D j) MError k (xs j) /\ returns (D j) MSqErr k (ys j) /\ returns (D j) MAbErr k (zs j)) /\
    let js := seq 0 (size (ob s) n) in
    x = Spec.mean_of (map xs js) /\
    Spec.mean_of (map ys js) = (y + Spec.mean_of (map r L))%Qc /\
    (Spec.mean_of (map ys js) = y <-> forall ix a b, In ix L -> In a (M ix) -> In b (M ix) -> a = b) /\
    (z <= Spec.mean_of (map zs js))%Qc /\
    (Spec.mean_of (map zs js) / qn (size (ob s) n) <= w)%Qc /\ (w <= Spec.mean_of (map zs js))%Qc.
Proof.
  intros s n k L O M D FA RE C PS Fi Pos Sp Sc Av V HD. set (c := size (ob s) n) in *. pose proof Av as (B & N & ax & ns & A & X & HC).
  assert (Len : forall ix, In ix L -> length (M ix) = c) by (intros ix I; destruct (V ix I) as (_ & V2 & _); exact (members_length _ _ _ _ V2)).
  assert (Ne : forall ix, In ix L -> M ix <> []) by (intros ix I Z; specialize (Len ix I); rewrite Z in Len; cbn in Len; lia).
  assert (Nj : seq 0 c <> []) by (intros Z; apply (f_equal (@length nat)) in Z; rewrite seq_length in Z; cbn in Z; lia).
  destruct (errors s ax ns k L (fun ix => Spec.mean_of (M ix)) O FA RE (or_intror C) B A ltac:(unfold point; rewrite C; exact Sc) X HC N) as (e & sq & ab & A1 & A2 & A3 & _ & _ & _ & G1 & G2 & G3 & _).
  { intros ix I. unfold point. rewrite C. destruct (V ix I) as (V1 & _ & V3). auto. }
  destruct (crps s n ax ns k L O M FA RE C PS Fi Pos Sp B A X HC N) as (cr & A4 & _ & G4); [intros ix I; destruct (V ix I) as (V1 & V2 & _); auto|].
  destruct (variance s n FA RE C Fi) as (v & A5 & _ & G5).
  exists (Spec.mean_of (map (fun ix => Spec.mean_of (M ix) - O ix) L))%Qc, (Spec.mean_of (map (fun ix => (Spec.mean_of (M ix) - O ix) * (Spec.mean_of (M ix) - O ix)) L))%Qc,
    (Spec.mean_of (map (fun ix => qdist (Spec.mean_of (M ix)) (O ix)) L)), (Spec.mean_of (map (fun ix => crps_formula (O ix) (M ix)) L)), (fun ix => variance_q (M ix)),
    (fun j => Spec.mean_of (map (fun ix => nth j (M ix) 0 - O ix) L))%Qc, (fun j => Spec.mean_of (map (fun ix => (nth j (M ix) 0 - O ix) * (nth j (M ix) 0 - O ix)) L))%Qc, (fun j => Spec.mean_of (map (fun ix => qdist (nth j (M ix) 0%Qc) (O ix)) L)).
  split; [exists e; auto|]. split; [exists sq; auto|]. split; [exists ab; auto|]. split; [exists cr; auto|].
  split; [|split].
  - intros ix I. exists v. split; [exact A5|]. assert (Vx : Forall2 lt ix (arr_shape (a_o (ob s)))) by apply (proj2 HC), I. destruct (G5 ix Vx) as [G _]. apply G; [apply (V ix I)|apply Ne, I].
  - intros j Hj. destruct (HD j Hj) as (RE' & C' & S' & (B' & _ & ax' & ns' & A' & X' & HC') & V').
    destruct (errors (D j) ax' ns' k L (fun ix => nth j (M ix) 0%Qc) O FA RE' (or_introl C') B' A' ltac:(unfold point; rewrite C'; exact S') X' HC' N) as (e' & sq' & ab' & B1 & B2 & B3 & _ & _ & _ & H1 & H2 & H3 & _).
    { intros ix I. unfold point. rewrite C'. destruct (V' ix I) as [W1 W2], (V ix I) as (V1 & V2 & _). rewrite W1, W2, V1, V2. split; [|reflexivity].
      rewrite (nth_indep _ NaN (Fin 0%Qc)) by (rewrite map_length, (Len ix I); exact Hj). apply (map_nth Fin). }
    split; [exists e'; auto|]. split; [exists sq'; auto|exists ab'; auto].
  - cbv zeta.
    assert (Sw : forall g : list nat -> Qc -> Qc, Spec.mean_of (map (fun j => Spec.mean_of (map (fun ix => g ix (nth j (M ix) 0%Qc)) L)) (seq 0 c)) = Spec.mean_of (map (fun ix => Spec.mean_of (map (g ix) (M ix))) L)).
    { intros g. rewrite (mean_swap (fun j ix => g ix (nth j (M ix) 0%Qc))) by assumption. apply mean_same. intros ix I. apply (mean_nth (g ix)), Len, I. }
    rewrite (Sw (fun ix m => m - O ix)%Qc), (Sw (fun ix m => (m - O ix) * (m - O ix))%Qc), (Sw (fun ix m => qdist m (O ix))).
    assert (Q : Spec.mean_of (map (fun ix => Spec.mean_of (map (fun m => (m - O ix) * (m - O ix))%Qc (M ix))) L) =
      (Spec.mean_of (map (fun ix => (Spec.mean_of (M ix) - O ix) * (Spec.mean_of (M ix) - O ix)) L) + Spec.mean_of (map (fun ix => variance_q (M ix)) L))%Qc).
    { rewrite <- mean_plus. apply mean_same. intros ix I. apply square_mean, Ne, I. }
    split; [|split; [exact Q|split; [|split; [|split]]]].
    + apply mean_same. intros ix I. symmetry. apply error_mean, Ne, I.
    + rewrite Q. set (y := Spec.mean_of (map (fun ix => (Spec.mean_of (M ix) - O ix) * (Spec.mean_of (M ix) - O ix))%Qc L)). split.
      * intros E ix a b I Ha Hb. assert (Z : Spec.mean_of (map (fun ix => variance_q (M ix)) L) = 0%Qc) by (set (t := Spec.mean_of (map (fun ix => variance_q (M ix)) L)) in *; clearbody t y; apply (f_equal (fun q => q - y)%Qc) in E; ring_simplify in E; exact E).
        rewrite mean_pos_zero in Z by (try exact N; intros i Hi; apply variance_nonneg, Ne, Hi). specialize (Z ix I). apply (proj1 (variance_zero _ (Ne ix I)) Z); assumption.
      * intros E. rewrite (mean_zero (fun ix => variance_q (M ix))); [ring|]. intros ix I. apply variance_zero; [apply Ne, I|]. intros a b. apply E, I.
    + apply mean_le; [exact N|]. intros ix I. apply distance_mean, Ne, I.
    + assert (E : forall t, (t / qn c = (/ qn c) * t)%Qc) by (intros; unfold Qcdiv; ring). rewrite E, <- (mean_scaled (fun ix => Spec.mean_of (map (fun m => qdist m (O ix)) (M ix))) (fun ix => Spec.mean_of (map (fun m => qdist m (O ix)) (M ix)) / qn c)%Qc) by (intros; apply E).
      apply mean_le; [exact N|]. intros ix I. rewrite <- (Len ix I). apply crps_lower, Ne, I.
    + apply mean_le; [exact N|]. intros ix I. apply crps_upper, Ne, I.
Qed.

(** The variance is not negative, zero exactly if all members are equal, and at most a quarter of the square of the range of the members. *)
Theorem c117_variance_range : forall s n ix M lo hi, faithful -> reached s -> cl (ob s) = CEnsemble -> fits (arr_of (a_o (ob s))) (arr_of (a_f (ob s))) (int_of (a_eaxis (ob s))) n -> 0 < size (ob s) n ->
  Forall2 lt ix (arr_shape (a_o (ob s))) -> members (ob s) n ix = map Fin M -> (forall m, In m M -> (lo <= m)%Qc /\ (m <= hi)%Qc) ->
  exists r, returns s MVariance ix r /\ (0 <= r)%Qc /\ (qz 4 * r <= (hi - lo) * (hi - lo))%Qc /\ (r = 0%Qc <-> forall a b, In a M -> In b M -> a = b).
Proof.
  intros s n ix M lo hi FA RE C Fi Pos V E Bd. destruct (variance s n FA RE C Fi) as (v & A & _ & G). pose proof (members_length _ _ _ _ E) as Ln.
  assert (N : M <> []) by (intros Z; rewrite Z in Ln; cbn in Ln; lia). exists (variance_q M).
  split; [exists v; split; [exact A|]; destruct (G ix V) as [G0 _]; apply G0; assumption|]. split; [apply variance_nonneg, N|]. split; [apply variance_range; assumption|apply variance_zero, N].
Qed.
(** Another verifier has the members in another order, in other units (with any factor), or each of them equally often. *)
Theorem c117_variance_laws : forall s s' n m ix M M', faithful -> reached s -> reached s' -> cl (ob s) = CEnsemble -> cl (ob s') = CEnsemble ->
  fits (arr_of (a_o (ob s))) (arr_of (a_f (ob s))) (int_of (a_eaxis (ob s))) n -> fits (arr_of (a_o (ob s'))) (arr_of (a_f (ob s'))) (int_of (a_eaxis (ob s'))) m -> 0 < size (ob s) n ->
  Forall2 lt ix (arr_shape (a_o (ob s))) -> Forall2 lt ix (arr_shape (a_o (ob s'))) -> members (ob s) n ix = map Fin M -> members (ob s') m ix = map Fin M' ->
  (Permutation M M' -> exists r, returns s MVariance ix r /\ returns s' MVariance ix r) /\
  (forall a b, M' = map (fun y => a * y + b)%Qc M -> exists r, returns s MVariance ix r /\ returns s' MVariance ix (a * a * r)%Qc) /\
  (forall c, 0 < c -> Permutation M' (flat_map (fun y => repeat y c) M) -> exists r, returns s MVariance ix r /\ returns s' MVariance ix r).
Proof.
  intros s s' n m ix M M' FA RE RE' C C' Fi Fi' Pos V V' E E'. destruct (variance s n FA RE C Fi) as (v & A & _ & G). destruct (variance s' m FA RE' C' Fi') as (v' & A' & _ & G').
  pose proof (members_length _ _ _ _ E) as Ln. assert (N : M <> []) by (intros Z; rewrite Z in Ln; cbn in Ln; lia).
  assert (R : returns s MVariance ix (variance_q M)) by (exists v; split; [exact A|]; destruct (G ix V) as [G0 _]; apply G0; assumption).
  assert (R' : M' <> [] -> returns s' MVariance ix (variance_q M')) by (intros N'; exists v'; split; [exact A'|]; destruct (G' ix V') as [G0 _]; apply G0; assumption).
  split; [|split].
  - intros P. exists (variance_q M). split; [exact R|]. rewrite (variance_perm _ _ P). apply R'. intros Z. rewrite Z in P. apply Permutation_sym, Permutation_nil in P. exact (N P).
  - intros a b ->. exists (variance_q M). split; [exact R|]. rewrite <- variance_convert with (b := b) by exact N. apply R'. intros Z. apply map_eq_nil in Z. exact (N Z).
  - intros c Pc P. exists (variance_q M). split; [exact R|]. rewrite <- (variance_repeat c M Pc N), <- (variance_perm _ _ P). apply R'. intros Z. rewrite Z in P. apply Permutation_nil in P.
    destruct M as [|q M]; [exact (N eq_refl)|]. destruct c; [lia|]. cbn in P. discriminate.
Qed.
End Laws.
Print Assumptions c117_members.
Print Assumptions c117_variance_range.
Print Assumptions c117_variance_laws.

(** ** A concrete case: members 1, 3, 1, 3 and 1, 5, 1, 5, observations 1 and 6.  The mean of the squared errors of the members
    (25/2, 5/2, 25/2, 5/2) is that of the ensemble mean, 5, and the mean of the variances 1 and 4. *)
Definition d_obj (f o : nat) : obj := mkObj CDeterm (VArr [2] f) (VArr [2] o) VNone VNone VNone (VBool true) VNone VNone VNone VNone VNone VNone VNone VNone VNone VNone.
Definition column (j : nat) : list Z := if Nat.even j then [1; 1]%Z else [3; 5]%Z.
Lemma d_constructed f o : M_state.construct (whole_lib e_set s_other) (fun s => s) w_resolve (d_obj f o) w_used = (Ok (d_obj f o), w_used).
Proof. reflexivity. Qed.
Notation s_returns := (returns e_set Props_whole3.g_laws s_stats (fun d i r j => d + i + r + j) (fun d i r j q => d + i + r + j + q) w_lib w_libr w_str w_dumps w_loads (fun s => s) w_resolve w_points false None [] (fun n => n)).
Notation s_verifies := (verifies_member e_set Props_whole3.g_laws s_stats (fun d i r j => d + i + r + j) (fun d i r j q => d + i + r + j + q) w_lib w_libr w_str w_dumps w_loads (fun s => s) w_resolve w_points false None [] (fun n => n)).
Lemma law_case f o (g : nat -> nat) : content f = Props_whole3.nums [1; 3; 1; 3; 1; 5; 1; 5]%Z -> content o = Props_whole3.nums [1; 6]%Z -> (forall j, content (g j) = Props_whole3.nums (column j)) ->
  exists x1, fst (M_state.construct (whole_lib e_set s_other) (fun s => s) w_resolve (s_obj f o) w_used) = Ok x1 /\ let s := s_state x1 in let D := fun j => s_state (d_obj (g j) o) in
  s_reached s /\ size (ob s) 1 = 4 /\ averages (ob s) [] [[0]; [1]] /\ (forall j, j < 4 -> s_verifies s (D j) 1 j [] [[0]; [1]]) /\
  (exists x y z w r xs ys zs, s_returns s MError [] x /\ s_returns s MSqErr [] y /\ s_returns s MAbErr [] z /\ s_returns s MCrps [] w /\ (forall ix, In ix [[0]; [1]] -> s_returns s MVariance ix (r ix)) /\
    (forall j, j < 4 -> s_returns (D j) MError [] (xs j) /\ s_returns (D j) MSqErr [] (ys j) /\ s_returns (D j) MAbErr [] (zs j)) /\
    Spec.mean_of (map ys [0; 1; 2; 3]) = Qcplus y (Spec.mean_of (map r [[0]; [1]])) /\ Qcle z (Spec.mean_of (map zs [0; 1; 2; 3])) /\ Qcle w (Spec.mean_of (map zs [0; 1; 2; 3]))) /\
  s_returns s MSqErr [] (qz 5) /\ s_returns s MVariance [0] (qz 1) /\ s_returns s MVariance [1] (qz 4) /\ s_returns (D 0) MSqErr [] (qz 25 / qz 2)%Qc /\ s_returns (D 1) MSqErr [] (qz 5 / qz 2)%Qc.
Proof.
  intros Hf Ho Hg. destruct (s_constructed f o) as (x1 & E & Wd & C & Ef & Eo & Ee & Eb & Ea & Ec). exists x1. split; [exact E|]. clear E. pose proof (s_is_reached x1 Wd) as RE. intros s D.
  assert (Af : arr_of (a_f x1) = of_list NaN [2; 4] (Props_whole3.nums [1; 3; 1; 3; 1; 5; 1; 5]%Z)) by (rewrite Ef; cbn [arr_of]; rewrite Hf; reflexivity).
  assert (Ao : arr_of (a_o x1) = of_list NaN [2] (Props_whole3.nums [1; 6]%Z)) by (rewrite Eo; cbn [arr_of]; rewrite Ho; reflexivity).
  assert (So : arr_shape (a_o x1) = [2]) by (rewrite Eo; reflexivity). assert (Sf : arr_shape (a_f x1) = [2; 4]) by (rewrite Ef; reflexivity).
  assert (Fi : fits (arr_of (a_o x1)) (arr_of (a_f x1)) (int_of (a_eaxis x1)) 1) by (rewrite Af, Ao, Ee; split; [split; [cbn; lia|right; reflexivity]|reflexivity]).
  set (M := fun ix : list nat => if Nat.eqb (hd 0 ix) 0 then [qz 1; qz 3; qz 1; qz 3] else [qz 1; qz 5; qz 1; qz 5]). set (O := fun ix : list nat => if Nat.eqb (hd 0 ix) 0 then qz 1 else qz 6).
  assert (Dm : forall ix, Forall2 lt ix [2] -> members x1 1 ix = map Fin (M ix)) by (unfold members; rewrite Af; apply Props_whole3.two_cells; reflexivity).
  assert (Df : forall ix, Forall2 lt ix [2] -> reads (a_fc x1) ix = Fin (Spec.mean_of (M ix))).
  { intros ix V. rewrite Ec, reads_val by exact V. cbn [get]. rewrite <- Ef. fold (members x1 1 ix). rewrite (Dm ix V). revert ix V. apply Props_whole3.two_cells; vm_compute; f_equal; apply Qc_is_canon; reflexivity. }
  assert (Do : forall ix, Forall2 lt ix [2] -> reads (a_o x1) ix = Fin (O ix)) by (unfold reads; rewrite Ao; apply Props_whole3.two_cells; reflexivity).
  assert (In2 : forall ix, In ix [[0]; [1]] -> Forall2 lt ix [2]) by (intros ix [<-|[<-|[]]]; repeat constructor).
  assert (Size : size (ob s) 1 = 4) by (unfold size; cbn [ob s s_state]; rewrite Sf; reflexivity).
  assert (Av : averages (ob s) [] [[0]; [1]]).
  { split; [exact Eb|]. split; [discriminate|]. exists None, [0]. cbn [ob s s_state]. rewrite Ea, So. split; [reflexivity|]. split; [reflexivity|exact cells_2]. }
  assert (Dd : forall j ix, j < 4 -> Forall2 lt ix [2] -> reads (VArr [2] (g j)) ix = nth j (map Fin (M ix)) NaN).
  { intros j ix Hj V. unfold reads. cbn [arr_of]. rewrite Hg. revert ix V. destruct j as [|[|[|[|j]]]]; [| | | |lia]; apply Props_whole3.two_cells; reflexivity. }
  assert (HD : forall j, j < 4 -> s_verifies s (D j) 1 j [] [[0]; [1]]).
  { intros j Hj. split; [apply s_is_reached; reflexivity|]. split; [reflexivity|]. split; [reflexivity|]. split.
    - split; [reflexivity|]. split; [discriminate|]. exists None, [0]. split; [reflexivity|]. split; [reflexivity|exact cells_2].
    - intros ix I. apply In2 in I. cbn [ob D s s_state d_obj a_f a_o]. rewrite (Dm ix I), Eo. split; [apply Dd; assumption|reflexivity]. }
  assert (V : forall ix, In ix [[0]; [1]] -> reads (a_o (ob s)) ix = Fin (O ix) /\ members (ob s) 1 ix = map Fin (M ix) /\ reads (a_fc (ob s)) ix = Fin (Spec.mean_of (M ix))) by (intros ix I; apply In2 in I; auto).
  split; [exact RE|]. split; [exact Size|]. split; [exact Av|]. split; [exact HD|]. split.
  - destruct (c117_members e_set Props_whole3.g_laws s_stats (fun d i r j => d + i + r + j) (fun d i r j q => d + i + r + j + q) w_lib w_libr w_str w_dumps w_loads (fun s => s) w_resolve w_points false None [] (fun n => n)
      s 1 [] [[0]; [1]] O M D e_faithful RE C (or_intror eq_refl) Fi ltac:(rewrite Size; lia) ltac:(right; cbn [ob s s_state]; rewrite So; discriminate) ltac:(cbn [ob s s_state]; rewrite Ec, So; reflexivity) Av V
      ltac:(rewrite Size; exact HD)) as (x & y & z & w & r & xs & ys & zs & R1 & R2 & R3 & R4 & R5 & R6 & Q). rewrite Size in R6, Q. destruct Q as (_ & Q1 & _ & Q2 & _ & Q3). cbn [seq] in Q1, Q2, Q3.
    exists x, y, z, w, r, xs, ys, zs. split; [exact R1|]. split; [exact R2|]. split; [exact R3|]. split; [exact R4|]. split; [exact R5|]. split; [exact R6|]. split; [exact Q1|]. split; [exact Q2|exact Q3].
  - destruct (c113_variance e_set Props_whole3.g_laws s_stats (fun d i r j => d + i + r + j) (fun d i r j q => d + i + r + j + q) w_lib w_libr w_str w_dumps w_loads (fun s => s) w_resolve w_points false None [] (fun n => n) s 1 e_faithful RE C Fi) as (v & A & _ & G).
    cbn [ob s s_state] in G. rewrite So in G. destruct (G [0] ltac:(repeat constructor)) as [G0 _], (G [1] ltac:(repeat constructor)) as [G1 _].
    destruct (c85_errors e_set s_other s_otherr w_str w_dumps w_loads (fun s => s) w_resolve w_points false None [] (fun n => n) s None [0] [] [[0]; [1]] (fun ix => Spec.mean_of (M ix)) O e_faithful RE (or_intror C) Eb
      ltac:(cbn [ob s s_state]; rewrite Ea; reflexivity) ltac:(unfold point; cbn [ob s s_state]; rewrite C, Ec, So; reflexivity) ltac:(cbn [ob s s_state]; rewrite So; reflexivity) ltac:(cbn [ob s s_state]; rewrite So; exact cells_2) ltac:(discriminate)
      ltac:(intros ix I; unfold point; cbn [ob s s_state]; rewrite C; destruct (V ix I) as (V1 & _ & V3); auto)) as (_ & sq & _ & _ & A2 & _ & _ & _ & _ & _ & G2 & _ & _).
    assert (MD : forall j, j < 4 -> exists v', s_answers (D j) MSqErr v' /\ reads v' [] = Fin (Spec.mean_of (map (fun ix => (nth j (M ix) 0 - O ix) * (nth j (M ix) 0 - O ix))%Qc [[0]; [1]]))).
    { intros j Hj. destruct (HD j Hj) as (RE' & _ & _ & _ & VD). destruct (c85_errors e_set s_other s_otherr w_str w_dumps w_loads (fun s => s) w_resolve w_points false None [] (fun n => n) (D j) None [0] [] [[0]; [1]] (fun ix => nth j (M ix) 0%Qc) O e_faithful RE' (or_introl eq_refl) eq_refl
        eq_refl eq_refl eq_refl cells_2 ltac:(discriminate)) as (_ & sq' & _ & _ & B2 & _ & _ & _ & _ & _ & H2 & _ & _).
      - intros ix I. destruct (VD ix I) as [V1 V2], (V ix I) as (V3 & V4 & _). change (point (ob (D j))) with (a_f (ob (D j))). rewrite V1, V2, V3, V4. split; [|reflexivity].
        rewrite (nth_indep _ NaN (Fin 0%Qc)) by (rewrite map_length; destruct I as [<-|[<-|[]]]; exact Hj). apply (map_nth Fin).
      - exists sq'. split; [exact B2|exact H2]. }
    destruct (MD 0 ltac:(lia)) as (v0 & A30 & G3), (MD 1 ltac:(lia)) as (v1 & A31 & G4).
    split; [exists sq; split; [exact A2|]; rewrite G2; apply (f_equal Fin); vm_compute; apply Qc_is_canon; reflexivity|].
    split; [exists v; split; [exact A|]; rewrite (G0 (M [0]) (Dm [0] ltac:(repeat constructor)) ltac:(discriminate)); apply (f_equal Fin); vm_compute; apply Qc_is_canon; reflexivity|].
    split; [exists v; split; [exact A|]; rewrite (G1 (M [1]) (Dm [1] ltac:(repeat constructor)) ltac:(discriminate)); apply (f_equal Fin); vm_compute; apply Qc_is_canon; reflexivity|].
    split; [exists v0; split; [exact A30|]; rewrite G3|exists v1; split; [exact A31|]; rewrite G4]; apply (f_equal Fin); vm_compute; apply Qc_is_canon; reflexivity.
Qed.
Example c117_nonvacuous := law_case _ _ (fun j => store (Props_whole3.nums (column j))) (content_store (Props_whole3.nums [1; 3; 1; 3; 1; 5; 1; 5]%Z)) (content_store (Props_whole3.nums [1; 6]%Z)) (fun j => content_store _).
(** The same members times 2 plus 1: the variance of the second cell is 4 and becomes 16; 4 * 4 is the square of the range 5 - 1. *)
Lemma law_case2 f f' o : content f = Props_whole3.nums [1; 3; 1; 3; 1; 5; 1; 5]%Z -> content f' = Props_whole3.nums [3; 7; 3; 7; 3; 11; 3; 11]%Z -> content o = Props_whole3.nums [1; 6]%Z ->
  exists x x', fst (M_state.construct (whole_lib e_set s_other) (fun s => s) w_resolve (s_obj f o) w_used) = Ok x /\ fst (M_state.construct (whole_lib e_set s_other) (fun s => s) w_resolve (s_obj f' o) w_used) = Ok x' /\
  s_reached (s_state x) /\ s_reached (s_state x') /\
  (exists r, s_returns (s_state x) MVariance [1] r /\ s_returns (s_state x') MVariance [1] (qz 2 * qz 2 * r)%Qc) /\
  exists r, s_returns (s_state x) MVariance [1] r /\ Qcle 0 r /\ Qcle (qz 4 * r) ((qz 5 - qz 1) * (qz 5 - qz 1)) /\ r <> 0%Qc.
Proof.
  intros Hf Hf' Ho. destruct (s_constructed f o) as (x & E & Wd & C & Ef & Eo & Ee & _). destruct (s_constructed f' o) as (x' & E' & Wd' & C' & Ef' & Eo' & Ee' & _).
  exists x, x'. split; [exact E|]. split; [exact E'|]. clear E E'. pose proof (s_is_reached x Wd) as RE. pose proof (s_is_reached x' Wd') as RE'. split; [exact RE|]. split; [exact RE'|].
  assert (Af : arr_of (a_f x) = of_list NaN [2; 4] (Props_whole3.nums [1; 3; 1; 3; 1; 5; 1; 5]%Z)) by (rewrite Ef; cbn [arr_of]; rewrite Hf; reflexivity).
  assert (Af' : arr_of (a_f x') = of_list NaN [2; 4] (Props_whole3.nums [3; 7; 3; 7; 3; 11; 3; 11]%Z)) by (rewrite Ef'; cbn [arr_of]; rewrite Hf'; reflexivity).
  assert (Ao : arr_of (a_o x) = of_list NaN [2] (Props_whole3.nums [1; 6]%Z)) by (rewrite Eo; cbn [arr_of]; rewrite Ho; reflexivity).
  assert (Ao' : arr_of (a_o x') = of_list NaN [2] (Props_whole3.nums [1; 6]%Z)) by (rewrite Eo'; cbn [arr_of]; rewrite Ho; reflexivity).
  assert (Fi : fits (arr_of (a_o x)) (arr_of (a_f x)) (int_of (a_eaxis x)) 1) by (rewrite Af, Ao, Ee; split; [split; [cbn; lia|right; reflexivity]|reflexivity]).
  assert (Fi' : fits (arr_of (a_o x')) (arr_of (a_f x')) (int_of (a_eaxis x')) 1) by (rewrite Af', Ao', Ee'; split; [split; [cbn; lia|right; reflexivity]|reflexivity]).
  assert (Pos : 0 < size (ob (s_state x)) 1) by (unfold size; cbn [ob s_state]; rewrite Ef; cbn; lia).
  set (M := [qz 1; qz 5; qz 1; qz 5]). assert (Em : members x 1 [1] = map Fin M) by (unfold members; rewrite Af; reflexivity).
  assert (Em' : members x' 1 [1] = map Fin (map (fun y => qz 2 * y + qz 1)%Qc M)) by (unfold members; rewrite Af'; vm_compute; repeat f_equal; apply Qc_is_canon; reflexivity).
  assert (V : Forall2 lt [1] (arr_shape (a_o x))) by (rewrite Eo; repeat constructor). assert (V' : Forall2 lt [1] (arr_shape (a_o x'))) by (rewrite Eo'; repeat constructor). split.
  - destruct (c117_variance_laws e_set Props_whole3.g_laws s_stats (fun d i r j => d + i + r + j) (fun d i r j q => d + i + r + j + q) w_lib w_libr w_str w_dumps w_loads (fun s => s) w_resolve w_points false None [] (fun n => n)
      (s_state x) (s_state x') 1 1 [1] M _ e_faithful RE RE' C C' Fi Fi' Pos V V' Em Em') as (_ & H & _). exact (H _ _ eq_refl).
  - destruct (c117_variance_range e_set Props_whole3.g_laws s_stats (fun d i r j => d + i + r + j) (fun d i r j q => d + i + r + j + q) w_lib w_libr w_str w_dumps w_loads (fun s => s) w_resolve w_points false None [] (fun n => n)
      (s_state x) 1 [1] M (qz 1) (qz 5) e_faithful RE C Fi Pos V Em) as (r & R & R0 & R1 & R2).
    + intros m [<-|[<-|[<-|[<-|[]]]]]; split; vm_compute; discriminate.
    + exists r. split; [exact R|]. split; [exact R0|]. split; [exact R1|]. intros Z. pose proof (proj1 R2 Z) as Z2. specialize (Z2 (qz 1) (qz 5) (or_introl eq_refl) (or_intror (or_introl eq_refl))). discriminate Z2.
Qed.
Example c117_variance_nonvacuous := law_case2 _ _ _ (content_store (Props_whole3.nums [1; 3; 1; 3; 1; 5; 1; 5]%Z)) (content_store (Props_whole3.nums [3; 7; 3; 7; 3; 11; 3; 11]%Z)) (content_store (Props_whole3.nums [1; 6]%Z)).
