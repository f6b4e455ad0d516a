(** NumPy functions used by PyAnEn (numpy 1.22/1.23 semantics): sort, quantile, linspace,
    digitize, bincount, array_split, random.choice / random.randint. *)
From Coq Require Import QArith Qcanon Qround ZArith List Lia Lqa Bool Arith Permutation Sorted.
From Verif Require Import QcTac QSum Num.
Import ListNotations.
Open Scope Qc_scope.

(** ** Sorting *)
Fixpoint qins (x : Qc) (l : list Qc) : list Qc :=
  match l with [] => [x] | y :: r => if qleb x y then x :: l else y :: qins x r end.
Fixpoint qsort (l : list Qc) : list Qc := match l with [] => [] | x :: r => qins x (qsort r) end.
Fixpoint nins (x : num) (l : list num) : list num :=
  match l with [] => [x] | y :: r => if nle x y then x :: l else y :: nins x r end.
(** np.sort of a list without NaN *)
Fixpoint nsort (l : list num) : list num := match l with [] => [] | x :: r => nins x (nsort r) end.
(** np.sort of a list of integers *)
Fixpoint zins (x : Z) (l : list Z) : list Z :=
  match l with [] => [x] | y :: r => if Z.leb x y then x :: l else y :: zins x r end.
Fixpoint zsort (l : list Z) : list Z := match l with [] => [] | x :: r => zins x (zsort r) end.

(** ** np.quantile, method 'linear' *)
Definition qfloor_nat (q : Qc) : nat := Z.to_nat (Qfloor (this q)).
(** virtual index (n-1)p; lower neighbour, upper neighbour, fraction *)
Definition interp_sorted (s : list Qc) (p : Qc) : Qc :=
  let n := length s in
  let h := p * qn (n - 1) in
  let lo := qfloor_nat h in
  let a := nth lo s 0 in
  let b := nth (Nat.min (lo + 1) (n - 1)) s 0 in
  a + (b - a) * (h - qn lo).
Definition qquant (l : list Qc) (p : Qc) : Qc := interp_sorted (qsort l) p.
Definition ninterp_sorted (s : list num) (p : Qc) : num :=
  let n := length s in
  let h := p * qn (n - 1) in
  let lo := qfloor_nat h in
  let a := nth lo s NaN in
  let b := nth (Nat.min (lo + 1) (n - 1)) s NaN in
  nadd a (nmul (nsub b a) (Fin (h - qn lo))).
(** np.quantile(l, p): levels outside [0,1] are rejected, an empty list fails, NaN in the data gives NaN *)
Definition np_quantile (l : list num) (p : Qc) : res num :=
  if negb (qleb 0 p && qleb p 1) then Raise ValueError
  else match l with
       | [] => Raise IndexError
       | _ => if existsb is_nan l then Ok NaN else Ok (ninterp_sorted (nsort l) p)
       end.
(** np.nanquantile(l, p): NaN dropped; NaN if nothing is left *)
Definition np_nanquantile (l : list num) (p : Qc) : res num :=
  if negb (qleb 0 p && qleb p 1) then Raise ValueError
  else match filter (fun x => negb (is_nan x)) l with
       | [] => Ok NaN
       | l' => Ok (ninterp_sorted (nsort l') p)
       end.

(** ** np.linspace(a, b, n) *)
Definition linspace (a b : Qc) (n : nat) : list Qc :=
  match n with
  | O => []
  | 1%nat => [a]
  | _ => map (fun i => a + qn i * ((b - a) / qn (n - 1))) (seq 0 n)
  end.

(** ** np.digitize(x, bins) for increasing bins: number of edges <= x; NaN sorts after every edge *)
Definition digitize (bins : list num) (x : num) : nat :=
  if is_nan x then length bins else count (fun b => nle b x) bins.

(** ** np.bincount: integer ids (negative ids are rejected), output length
    max(minlength, max id + 1) *)
Definition zmax_list (l : list Z) : Z := fold_right Z.max (-1)%Z l.
Definition bincount_len (ids : list Z) (minlength : nat) : nat :=
  Nat.max minlength (Z.to_nat (zmax_list ids + 1)).
Definition bincount (ids : list Z) (minlength : nat) : res (list nat) :=
  if existsb (fun i => Z.ltb i 0) ids then Raise ValueError
  else Ok (map (fun b => count (fun i => Z.eqb i (Z.of_nat b)) ids) (seq 0 (bincount_len ids minlength))).
Definition bincount_w (ids : list Z) (w : list num) (minlength : nat) : res (list num) :=
  if existsb (fun i => Z.ltb i 0) ids then Raise ValueError
  else if negb (Nat.eqb (length ids) (length w)) then Raise ValueError
  else Ok (map (fun b => nsum (map snd (filter (fun p => Z.eqb (fst p) (Z.of_nat b)) (combine ids w))))
               (seq 0 (bincount_len ids minlength))).

(** ** np.array_split(l, n): the first (len mod n) chunks have one element more *)
Definition split_sizes (len n : nat) : list nat :=
  repeat (len / n + 1)%nat (len mod n) ++ repeat (len / n)%nat (n - len mod n).
Fixpoint chunks {A} (sizes : list nat) (l : list A) : list (list A) :=
  match sizes with [] => [] | s :: r => firstn s l :: chunks r (skipn s l) end.
Definition array_split {A} (l : list A) (n : nat) : res (list (list A)) :=
  match n with O => Raise ValueError | _ => Ok (chunks (split_sizes (length l) n) l) end.

(** ** Randomness: an arbitrary natural number reduced to the admissible range *)
(** np.random.choice(pop, size=n, replace=True): an empty population is rejected *)
Definition choice {A} (rng : nat -> nat) (pop : list A) (n : nat) : res (list A) :=
  match pop with
  | [] => match n with O => Ok [] | _ => Raise ValueError end
  | d :: _ => Ok (map (fun j => nth (rng j mod length pop)%nat pop d) (seq 0 n))
  end.
(** np.random.randint(lo, hi): lo <= result < hi; low >= high is rejected *)
Definition randint (r : nat) (lo hi : Z) : res Z :=
  if Z.leb hi lo then Raise ValueError else Ok (lo + Z.of_nat r mod (hi - lo))%Z.

(** ** Facts *)
Lemma qins_perm x l : Permutation (x :: l) (qins x l).
Proof.
  induction l as [|y r IH]; cbn [qins]; [reflexivity|]. destruct (qleb x y); [reflexivity|].
  rewrite perm_swap. constructor. exact IH.
Qed.
Lemma qsort_perm l : Permutation l (qsort l).
Proof.
  induction l as [|x r IH]; cbn [qsort]; [reflexivity|]. rewrite <- qins_perm. constructor. exact IH.
Qed.
Definition qsorted := StronglySorted Qcle.
Lemma qins_sorted x l : qsorted l -> qsorted (qins x l).
Proof.
  induction 1 as [|y r Hr IH Hy]; cbn [qins]; [repeat constructor|].
  destruct (qleb_spec x y) as [H|H].
  - constructor; [constructor; assumption|]. constructor; [exact H|].
    eapply Forall_impl; [|exact Hy]. intros a Ha. eapply Qcle_trans; eassumption.
  - constructor; [exact IH|]. apply Forall_forall. intros z Hz.
    apply (Permutation_in _ (Permutation_sym (qins_perm x r))) in Hz. destruct Hz as [<-|Hz].
    + apply Qclt_le_weak, H.
    + rewrite Forall_forall in Hy. apply Hy, Hz.
Qed.
Lemma qsort_sorted l : qsorted (qsort l).
Proof. induction l as [|x r IH]; cbn [qsort]; [constructor|apply qins_sorted, IH]. Qed.
Lemma qsort_length l : length (qsort l) = length l.
Proof. symmetry. apply Permutation_length, qsort_perm. Qed.
Lemma in_qsort x l : In x (qsort l) <-> In x l.
Proof. split; apply Permutation_in; [symmetry|]; apply qsort_perm. Qed.
(** a sorted list is determined by its elements *)
Lemma qsorted_perm_eq l1 l2 : qsorted l1 -> qsorted l2 -> Permutation l1 l2 -> l1 = l2.
Proof.
  intros H1. revert l2. induction H1 as [|x r Hr IH Hx]; intros l2 H2 P.
  - apply Permutation_nil in P. congruence.
  - destruct H2 as [|y t Ht Hy]; [apply Permutation_sym, Permutation_nil in P; discriminate|].
    assert (E : x = y).
    { rewrite Forall_forall in Hx, Hy.
      assert (In x (y :: t)) as [<-|Hin] by (eapply Permutation_in; [exact P|left; reflexivity]); [reflexivity|].
      assert (In y (x :: r)) as [<-|Hin'] by (eapply Permutation_in; [symmetry; exact P|left; reflexivity]); [reflexivity|].
      apply Qcle_antisym; auto. }
    subst y. f_equal. apply IH; [exact Ht|]. eapply Permutation_cons_inv; exact P.
Qed.
Lemma qsort_perm_eq l1 l2 : Permutation l1 l2 -> qsort l1 = qsort l2.
Proof.
  intros P. apply qsorted_perm_eq; [apply qsort_sorted|apply qsort_sorted|].
  rewrite <- !qsort_perm. exact P.
Qed.
Lemma qsorted_nth s i j : qsorted s -> (i <= j)%nat -> (j < length s)%nat -> nth i s 0 <= nth j s 0.
Proof.
  intros H. revert i j. induction H as [|x r Hr IH Hx]; intros i j Hij Hj; [cbn in Hj; lia|].
  destruct i, j; cbn [nth length] in *; try lia.
  - apply Qcle_refl.
  - rewrite Forall_forall in Hx. apply Hx, nth_In. lia.
  - apply IH; lia.
Qed.
Lemma nsort_fin l : nsort (map Fin l) = map Fin (qsort l).
Proof.
  induction l as [|x r IH]; [reflexivity|]. cbn [map nsort qsort]. rewrite IH.
  generalize (qsort r). intros l. induction l as [|y t IHt]; [reflexivity|].
  cbn [map nins qins nle]. destruct (qleb x y); [reflexivity|]. cbn [map]. rewrite IHt. reflexivity.
Qed.

Lemma qfloor_nat_spec h : 0 <= h -> qn (qfloor_nat h) <= h /\ h < qn (qfloor_nat h) + 1.
Proof.
  intros H. unfold qfloor_nat.
  assert (Hz : (0 <= Qfloor (this h))%Z).
  { change 0%Z with (Qfloor 0). apply Qfloor_resp_le. exact H. }
  pose proof (Qfloor_le (this h)) as H1. pose proof (Qlt_floor (this h)) as H2.
  rewrite inject_Z_plus in H2.
  unfold qn, qz. rewrite Z2Nat.id by exact Hz. split.
  - unfold Qcle. rewrite this_Q2Qc. exact H1.
  - unfold Qclt. rewrite this_plus, this_Q2Qc. exact H2.
Qed.
Lemma qfloor_nat_unique h n : qn n <= h -> h < qn n + 1 -> qfloor_nat h = n.
Proof.
  intros H1 H2. assert (H0 : 0 <= h) by (pose proof (qn_nonneg n); qlra).
  destruct (qfloor_nat_spec h H0) as [H3 H4].
  assert (A : qn (qfloor_nat h) < qn (S n)) by (rewrite qn_S; qlra).
  assert (B : qn n < qn (S (qfloor_nat h))) by (rewrite qn_S; qlra).
  apply qn_lt in A, B. lia.
Qed.
Lemma qfloor_nat_mono a b : 0 <= a -> a <= b -> (qfloor_nat a <= qfloor_nat b)%nat.
Proof.
  intros Ha Hab. destruct (qfloor_nat_spec a Ha) as [H1 H2]. destruct (qfloor_nat_spec b) as [H3 H4]; [qlra|].
  assert (A : qn (qfloor_nat a) < qn (S (qfloor_nat b))) by (rewrite qn_S; qlra).
  apply qn_lt in A. lia.
Qed.

(** Position of the lower neighbour and the fraction. *)
Section interp.
Variables (s : list Qc) (Hs : qsorted s) (Hn : (0 < length s)%nat).
Let n := length s.
Lemma interp_bounds p : 0 <= p -> p <= 1 ->
  let h := p * qn (n - 1) in let lo := qfloor_nat h in
  (lo <= n - 1)%nat /\ 0 <= h - qn lo /\ h - qn lo < 1 /\ (lo = (n - 1)%nat -> h - qn lo = 0).
Proof.
  intros H0 H1 h lo. pose proof (qn_nonneg (n - 1)) as Hq.
  assert (Hh0 : 0 <= h) by (unfold h; qnra).
  assert (Hh1 : h <= qn (n - 1)) by (unfold h; qnra).
  destruct (qfloor_nat_spec h Hh0) as [A B]. fold lo in A, B.
  split; [apply qn_le; qlra|]. split; [qlra|]. split; [qlra|].
  intros E. assert (E2 : qn lo = qn (n - 1)) by (rewrite E; reflexivity). qlra.
Qed.
(** the interpolated value lies between its two neighbours *)
Lemma interp_between p : 0 <= p -> p <= 1 ->
  let lo := qfloor_nat (p * qn (n - 1)) in
  nth lo s 0 <= interp_sorted s p <= nth (Nat.min (lo + 1) (n - 1)) s 0.
Proof.
  intros H0 H1 lo. destruct (interp_bounds p H0 H1) as (A & B & C & D). fold lo in A, B, C, D.
  unfold interp_sorted. fold n. fold lo.
  assert (M : nth lo s 0 <= nth (Nat.min (lo + 1) (n - 1)) s 0) by (apply qsorted_nth; [exact Hs|lia|unfold n; lia]).
  revert M. generalize (nth lo s 0), (nth (Nat.min (lo + 1) (n - 1)) s 0). intros a b M.
  revert B C. generalize (p * qn (n - 1) - qn lo). intros f B C. split; qnra.
Qed.
Lemma interp_min p : 0 <= p -> p <= 1 -> nth 0 s 0 <= interp_sorted s p.
Proof.
  intros H0 H1. destruct (interp_between p H0 H1) as [A _]. destruct (interp_bounds p H0 H1) as [B _].
  eapply Qcle_trans; [|exact A]. apply qsorted_nth; [exact Hs|lia|unfold n in *; lia].
Qed.
Lemma interp_max p : 0 <= p -> p <= 1 -> interp_sorted s p <= nth (n - 1) s 0.
Proof.
  intros H0 H1. destruct (interp_between p H0 H1) as [_ A]. eapply Qcle_trans; [exact A|].
  apply qsorted_nth; [exact Hs|lia|unfold n in *; lia].
Qed.
Lemma interp_mono p1 p2 : 0 <= p1 -> p1 <= p2 -> p2 <= 1 -> interp_sorted s p1 <= interp_sorted s p2.
Proof.
  intros H0 H12 H1. pose proof (qn_nonneg (n - 1)) as Hq.
  assert (Hl : (qfloor_nat (p1 * qn (n - 1)) <= qfloor_nat (p2 * qn (n - 1)))%nat).
  { apply qfloor_nat_mono; qnra. }
  apply Nat.lt_eq_cases in Hl. destruct Hl as [Hl|Hl].
  - destruct (interp_between p1 H0) as [_ A]; [qlra|]. destruct (interp_between p2) as [B _]; [qlra|exact H1|].
    destruct (interp_bounds p2) as [C _]; [qlra|exact H1|].
    eapply Qcle_trans; [exact A|]. eapply Qcle_trans; [|exact B]. apply qsorted_nth; [exact Hs|lia|unfold n in *; lia].
  - unfold interp_sorted. fold n. rewrite Hl.
    destruct (interp_bounds p2) as [C _]; [qlra|exact H1|].
    assert (M : nth (qfloor_nat (p2 * qn (n - 1))) s 0 <= nth (Nat.min (qfloor_nat (p2 * qn (n - 1)) + 1) (n - 1)) s 0)
      by (apply qsorted_nth; [exact Hs|lia|unfold n in *; lia]).
    revert M. generalize (nth (qfloor_nat (p2 * qn (n - 1))) s 0), (nth (Nat.min (qfloor_nat (p2 * qn (n - 1)) + 1) (n - 1)) s 0).
    intros a b M. assert (p1 * qn (n - 1) <= p2 * qn (n - 1)) by qnra.
    revert H. generalize (p1 * qn (n - 1)), (p2 * qn (n - 1)). intros h1 h2 H. generalize (qn (qfloor_nat h2)). intros c. qnra.
Qed.
End interp.

Lemma qquant_mono l p1 p2 : l <> [] -> 0 <= p1 -> p1 <= p2 -> p2 <= 1 -> qquant l p1 <= qquant l p2.
Proof.
  intros Hl. apply interp_mono; [apply qsort_sorted|]. rewrite qsort_length. apply length_pos, Hl.
Qed.
Lemma qquant_ge l a p : l <> [] -> (forall x, In x l -> a <= x) -> 0 <= p -> p <= 1 -> a <= qquant l p.
Proof.
  intros Hl Ha H0 H1. assert (Hp : (0 < length (qsort l))%nat) by (rewrite qsort_length; apply length_pos, Hl).
  eapply Qcle_trans; [|apply interp_min; [apply qsort_sorted|exact Hp|exact H0|exact H1]].
  apply Ha. apply in_qsort. apply nth_In. exact Hp.
Qed.
Lemma qquant_le l b p : l <> [] -> (forall x, In x l -> x <= b) -> 0 <= p -> p <= 1 -> qquant l p <= b.
Proof.
  intros Hl Ha H0 H1. assert (Hp : (0 < length (qsort l))%nat) by (rewrite qsort_length; apply length_pos, Hl).
  eapply Qcle_trans; [apply interp_max; [apply qsort_sorted|exact Hp|exact H0|exact H1]|].
  apply Ha. apply in_qsort. apply nth_In. lia.
Qed.
Lemma nth_map_fin l i : (i < length l)%nat -> nth i (map Fin l) NaN = Fin (nth i l 0).
Proof.
  intros H. rewrite (nth_indep _ NaN (Fin 0)) by (rewrite map_length; exact H). apply map_nth.
Qed.
Lemma ninterp_fin s p : s <> [] -> 0 <= p -> p <= 1 -> ninterp_sorted (map Fin s) p = Fin (interp_sorted s p).
Proof.
  intros Hs H0 H1. apply length_pos in Hs. unfold ninterp_sorted, interp_sorted. rewrite map_length.
  assert (L : (qfloor_nat (p * qn (length s - 1)) <= length s - 1)%nat).
  { assert (Hh0 : 0 <= p * qn (length s - 1)) by (pose proof (qn_nonneg (length s - 1)); qnra).
    destruct (qfloor_nat_spec _ Hh0) as [A B]. apply qn_le. pose proof (qn_nonneg (length s - 1)). qnra. }
  rewrite !nth_map_fin by lia. reflexivity.
Qed.
Lemma existsb_nan_fin l : existsb is_nan (map Fin l) = false.
Proof. induction l; [reflexivity|assumption]. Qed.
Lemma np_quantile_fin l p : l <> [] -> 0 <= p -> p <= 1 -> np_quantile (map Fin l) p = Ok (Fin (qquant l p)).
Proof.
  intros Hl H0 H1. unfold np_quantile.
  destruct (qleb_spec 0 p) as [_|C]; [|exfalso; qlra]. destruct (qleb_spec p 1) as [_|C]; [|exfalso; qlra].
  cbn [andb negb]. rewrite existsb_nan_fin, nsort_fin, ninterp_fin; try assumption.
  - destruct l; [contradiction|reflexivity].
  - intros E. apply (f_equal (@length _)) in E. rewrite qsort_length in E. apply Hl. destruct l; [reflexivity|discriminate].
Qed.
Lemma np_quantile_nan l p : In NaN l -> 0 <= p -> p <= 1 -> np_quantile l p = Ok NaN.
Proof.
  intros Hl H0 H1. unfold np_quantile.
  destruct (qleb_spec 0 p) as [_|C]; [|exfalso; qlra]. destruct (qleb_spec p 1) as [_|C]; [|exfalso; qlra].
  cbn [andb negb]. destruct l as [|x r]; [destruct Hl|].
  assert (E : existsb is_nan (x :: r) = true) by (apply existsb_exists; exists NaN; split; [exact Hl|reflexivity]).
  rewrite E. reflexivity.
Qed.

(** *** linspace *)
Lemma linspace_length a b n : length (linspace a b n) = n.
Proof.
  destruct n as [|[|n]]; try reflexivity. unfold linspace. rewrite map_length, seq_length. reflexivity.
Qed.
Lemma linspace_nth a b n i : (i < S (S n))%nat -> nth i (linspace a b (S (S n))) 0 = a + qn i * ((b - a) / qn (S n)).
Proof.
  intros H. unfold linspace. set (f := fun i => a + qn i * ((b - a) / qn (S (S n) - 1))).
  rewrite (nth_indep _ 0 (f 0%nat)) by (rewrite map_length, seq_length; exact H).
  rewrite map_nth, seq_nth by exact H. reflexivity.
Qed.

(** *** array_split *)
Lemma chunks_length {A} sizes (l : list A) : length (chunks sizes l) = length sizes.
Proof. revert l. induction sizes as [|s r IH]; intros l; [reflexivity|]. cbn. rewrite IH. reflexivity. Qed.
Definition nsumn (l : list nat) : nat := fold_right Nat.add 0%nat l.
Lemma chunks_concat {A} sizes (l : list A) : (length l <= nsumn sizes)%nat -> concat (chunks sizes l) = l.
Proof.
  revert l. induction sizes as [|s r IH]; intros l H; cbn [chunks concat nsumn fold_right] in *.
  - destruct l; [reflexivity|cbn in H; lia].
  - rewrite IH; [apply firstn_skipn|]. rewrite skipn_length. fold (nsumn r) in H. lia.
Qed.
Lemma chunks_sizes {A} sizes (l : list A) : (nsumn sizes <= length l)%nat -> map (@length A) (chunks sizes l) = sizes.
Proof.
  revert l. induction sizes as [|s r IH]; intros l H; cbn [chunks map nsumn fold_right] in *; [reflexivity|].
  fold (nsumn r) in H. rewrite firstn_length, IH by (rewrite skipn_length; lia). f_equal. lia.
Qed.
Lemma nsumn_app a b : nsumn (a ++ b) = (nsumn a + nsumn b)%nat.
Proof. induction a as [|x r IH]; cbn; [reflexivity|]. fold (nsumn (r ++ b)) (nsumn r). rewrite IH. lia. Qed.
Lemma nsumn_repeat x n : nsumn (repeat x n) = (n * x)%nat.
Proof. induction n as [|n IH]; cbn; [reflexivity|]. fold (nsumn (repeat x n)). rewrite IH. lia. Qed.
Lemma split_sizes_sum len n : (0 < n)%nat -> nsumn (split_sizes len n) = len.
Proof.
  intros H. unfold split_sizes. rewrite nsumn_app, !nsumn_repeat.
  pose proof (Nat.div_mod len n). pose proof (Nat.mod_upper_bound len n). nia.
Qed.
Lemma split_sizes_length len n : (0 < n)%nat -> length (split_sizes len n) = n.
Proof.
  intros H. unfold split_sizes. rewrite app_length, !repeat_length. pose proof (Nat.mod_upper_bound len n). lia.
Qed.

(** *** choice *)
Lemma choice_in {A} rng (pop : list A) n l x : choice rng pop n = Ok l -> In x l -> In x pop.
Proof.
  destruct pop as [|d r]; unfold choice.
  - destruct n; [|discriminate]. intros H. injection H as <-. intros [].
  - intros H Hx. assert (E : map (fun j => nth (rng j mod length (d :: r)) (d :: r) d) (seq 0 n) = l) by congruence.
    rewrite <- E in Hx. apply in_map_iff in Hx as (j & Hj & _). rewrite <- Hj.
    assert (L : (rng j mod length (d :: r) < length (d :: r))%nat) by (apply Nat.mod_upper_bound; discriminate).
    exact (nth_In (d :: r) d L).
Qed.
Lemma choice_length {A} rng (pop : list A) n l : choice rng pop n = Ok l -> length l = n.
Proof.
  destruct pop as [|d r]; cbn [choice].
  - destruct n; [|discriminate]. intros H. injection H as <-. reflexivity.
  - intros H. injection H as <-. rewrite map_length, seq_length. reflexivity.
Qed.
Lemma choice_map {A B} (f : A -> B) rng pop n : choice rng (map f pop) n = rmap (map f) (choice rng pop n).
Proof.
  destruct pop as [|d r]; cbn [choice map].
  - destruct n; reflexivity.
  - cbn [rmap]. f_equal. rewrite map_map. apply map_ext. intros j.
    change (f d :: map f r) with (map f (d :: r)). rewrite map_length. apply map_nth.
Qed.
