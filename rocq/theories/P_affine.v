(** Quantiles, means and bootstrap triples of data in other units: a*x+b for any a. *)
From Coq Require Import ZArith List Lia Bool Arith QArith Qcanon Permutation Sorted.
From Verif Require Import QcTac QSum Num NdArr Numpy M_common M_boot Spec P_boot.
Import ListNotations.
Open Scope Qc_scope.

Definition unit_of (a b x : Qc) : Qc := a * x + b.
Lemma nth_map_in (f : Qc -> Qc) l i : (i < length l)%nat -> nth i (map f l) 0 = f (nth i l 0).
Proof. intros H. rewrite (nth_indep _ 0 (f 0)) by (rewrite map_length; exact H). apply map_nth. Qed.
Lemma sort_up a b l : 0 <= a -> qsort (map (unit_of a b) l) = map (unit_of a b) (qsort l).
Proof.
  intros A. apply qsorted_perm_eq; [apply qsort_sorted| |].
  - pose proof (qsort_sorted l) as H. induction H as [|x r Hr IH Hx]; [constructor|]. cbn [map]. constructor; [exact IH|]. apply Forall_forall. intros y Hy. apply in_map_iff in Hy as (z & <- & Hz). rewrite Forall_forall in Hx. specialize (Hx z Hz).
    unfold unit_of. assert (a * x <= a * z) by (rewrite (Qcmult_comm a x), (Qcmult_comm a z); apply Qcmult_le_compat_r; assumption). qlra.
  - rewrite <- qsort_perm. apply Permutation_map, qsort_perm.
Qed.
Lemma sorted_snoc s x : qsorted s -> Forall (fun y => y <= x) s -> qsorted (s ++ [x]).
Proof.
  induction 1 as [|y r Hr IH Hy]; intros F; [repeat constructor|]. inversion F; subst. cbn [app]. constructor; [apply IH; assumption|]. apply Forall_app. split; [exact Hy|]. constructor; [assumption|constructor].
Qed.
Lemma sort_down a b l : a <= 0 -> qsort (map (unit_of a b) l) = rev (map (unit_of a b) (qsort l)).
Proof.
  intros A. apply qsorted_perm_eq; [apply qsort_sorted| |].
  - pose proof (qsort_sorted l) as H. induction H as [|x r Hr IH Hx]; [constructor|]. cbn [map rev]. apply sorted_snoc; [exact IH|]. apply Forall_forall. intros y Hy. apply in_rev in Hy. apply in_map_iff in Hy as (z & <- & Hz). rewrite Forall_forall in Hx. specialize (Hx z Hz).
    unfold unit_of. assert ((- a) * x <= (- a) * z) by (rewrite (Qcmult_comm (- a) x), (Qcmult_comm (- a) z); apply Qcmult_le_compat_r; [assumption|qlra]). assert (- a * x = - (a * x)) by ring. assert (- a * z = - (a * z)) by ring. qlra.
  - rewrite <- qsort_perm, <- Permutation_rev. apply Permutation_map, qsort_perm.
Qed.
Lemma index_bound p n : 0 <= p -> p <= 1 -> (qfloor_nat (p * qn n) <= n)%nat.
Proof.
  intros H0 H1. pose proof (qn_nonneg n). assert (Hh : 0 <= p * qn n) by qnra. destruct (qfloor_nat_spec _ Hh) as [A B]. apply qn_le. qnra.
Qed.
Lemma quant_up a b l p : 0 <= a -> l <> [] -> 0 <= p -> p <= 1 -> qquant (map (unit_of a b) l) p = unit_of a b (qquant l p).
Proof.
  intros A N H0 H1. unfold qquant. rewrite sort_up by exact A. set (s := qsort l). assert (P : (0 < length s)%nat) by (unfold s; rewrite qsort_length; apply length_pos, N). clearbody s.
  unfold interp_sorted. rewrite map_length. pose proof (index_bound p (length s - 1) H0 H1). rewrite !nth_map_in by lia. unfold unit_of. ring.
Qed.
Lemma quant_down a b l p : a <= 0 -> l <> [] -> 0 <= p -> p <= 1 -> qquant (map (unit_of a b) l) p = unit_of a b (qquant l (1 - p)).
Proof.
  intros A N H0 H1. unfold qquant. rewrite sort_down by exact A. set (s := qsort l). assert (P : (0 < length s)%nat) by (unfold s; rewrite qsort_length; apply length_pos, N). clearbody s.
  unfold interp_sorted. rewrite rev_length, map_length. set (k := (length s - 1)%nat). assert (L : length s = S k) by (unfold k; lia).
  assert (B1 : (qfloor_nat (p * qn k) <= k)%nat) by (apply index_bound; assumption).
  assert (G : forall i, (i <= k)%nat -> nth i (rev (map (unit_of a b) s)) 0 = unit_of a b (nth (k - i) s 0)).
  { intros i Hi. rewrite rev_nth by (rewrite map_length; lia). rewrite map_length, L, nth_map_in by (rewrite L; lia). reflexivity. }
  rewrite !G by lia. pose proof (qn_nonneg k) as Qk. set (h := p * qn k) in *. assert (Hh : 0 <= h) by (unfold h; qnra). replace ((1 - p) * qn k) with (qn k - h) by (unfold h; ring).
  destruct (qfloor_nat_spec h Hh) as [F1 F2]. set (i := qfloor_nat h) in *. destruct (Qc_eq_dec (qn i) h) as [E|E].
  - assert (E' : qfloor_nat (qn k - h) = (k - i)%nat).
    { assert (qn (k - i) = qn k - qn i) as Hq by (rewrite <- (Nat.sub_add i k B1) at 2; rewrite qn_plus; ring). apply qfloor_nat_unique; rewrite Hq, E; qlra. }
    rewrite E'. assert (qn (k - i) = qn k - h) as -> by (rewrite <- E; rewrite <- (Nat.sub_add i k B1) at 2; rewrite qn_plus; ring). rewrite E. unfold unit_of. ring.
  - assert (I : (i < k)%nat). { destruct (Nat.eq_dec i k) as [->|]; [|lia]. exfalso. apply E. apply Qcle_antisym; [exact F1|]. unfold h. qnra. }
    assert (Hq : qn (k - i - 1) = qn k - qn i - 1).
    { assert (Ek : k = (k - i - 1 + (i + 1))%nat) by lia. rewrite Ek at 2. rewrite !qn_plus. change (qn 1) with (qn (S 0)). rewrite qn_S, qn_0. ring. }
    assert (F3 : qn i < h) by (apply Qcle_lt_or_eq in F1; destruct F1 as [F1|F1]; [exact F1|contradiction]).
    assert (E' : qfloor_nat (qn k - h) = (k - i - 1)%nat) by (apply qfloor_nat_unique; rewrite Hq; qlra).
    rewrite E', Hq. replace (Nat.min (i + 1) k) with (i + 1)%nat by lia. replace (Nat.min (k - i - 1 + 1) k) with (k - i)%nat by lia. replace (k - (i + 1))%nat with (k - i - 1)%nat by lia. unfold unit_of. ring.
Qed.
Lemma mean_unit a b l : l <> [] -> qmean (map (unit_of a b) l) = unit_of a b (qmean l).
Proof.
  intros N. unfold qmean, unit_of. rewrite map_length. assert (Z : qn (length l) <> 0) by (apply qn_neq0, length_pos, N).
  assert (E : qsum (map (fun x => a * x + b) l) = a * qsum l + b * qn (length l)).
  { clear. induction l as [|x r IH]; [cbn; rewrite qn_0; ring|]. cbn [map qsum length]. rewrite IH, qn_S. ring. }
  rewrite E. field. exact Z.
Qed.

(** the means of the resamples *)
Definition fin_means (e : boot_env) (rng : nat -> nat -> nat) (xs : list Qc) (n : nat) : list Qc :=
  map (fun r => qmean (map (fun j => nth (rng r j mod length xs)%nat xs 0) (seq 0 n))) (seq 0 (repeats e)).
Lemma boot_means_fin e rng xs n : xs <> [] -> (0 < n)%nat -> boot_means e rng (map Fin xs) n = Ok (map Fin (fin_means e rng xs n)).
Proof.
  intros N P. unfold boot_means, fin_means. rewrite map_map. generalize (seq 0 (repeats e)). intros l. induction l as [|r l IH]; [reflexivity|]. cbn [mapM map].
  destruct xs as [|x0 xs0] eqn:Ex; [contradiction|]. rewrite <- Ex in *. assert (Lp : (0 < length xs)%nat) by (rewrite Ex; cbn; lia).
  assert (C : choice (rng r) (map Fin xs) n = Ok (map Fin (map (fun j => nth (rng r j mod length xs)%nat xs 0) (seq 0 n)))).
  { unfold choice. rewrite Ex at 1. cbn [map]. f_equal. rewrite map_length, map_map. apply map_ext_in. intros j _. assert (B : (rng r j mod length xs < length xs)%nat) by (apply Nat.mod_upper_bound; lia).
    rewrite (nth_indep _ (Fin x0) (Fin 0)) by (rewrite map_length; exact B). apply map_nth. }
  rewrite C. cbn [bind]. rewrite IH. cbn [bind]. assert (Ne : map (fun j => nth (rng r j mod length xs)%nat xs 0) (seq 0 n) <> []) by (destruct n; [lia|discriminate]).
  destruct (skip_nan e); [rewrite nanmean_fin by exact Ne|rewrite nmean_fin by exact Ne]; reflexivity.
Qed.
Lemma fin_means_unit e rng xs n a b : xs <> [] -> (0 < n)%nat -> fin_means e rng (map (unit_of a b) xs) n = map (unit_of a b) (fin_means e rng xs n).
Proof.
  intros N P. unfold fin_means. rewrite map_map. apply map_ext_in. intros r _. rewrite <- mean_unit by (destruct n; [lia|discriminate]). f_equal. rewrite map_map, map_length. apply map_ext_in. intros j _.
  apply nth_map_in. apply Nat.mod_upper_bound. destruct xs; [contradiction|discriminate].
Qed.
(** lower bound, mean and upper bound; with a negative factor the bounds change places *)
Lemma boot_vec_unit e rng xs n a b : xs <> [] -> (0 < n)%nat -> (0 < repeats e)%nat -> 0 <= confidence e -> confidence e <= 1 ->
  exists lo m hi, boot_vec e rng (map Fin xs) n = Ok [Fin lo; Fin m; Fin hi] /\
    boot_vec e rng (map Fin (map (unit_of a b) xs)) n = Ok (map Fin (map (unit_of a b) (if qleb 0 a then [lo; m; hi] else [hi; m; lo]))).
Proof.
  intros N P R C0 C1. unfold boot_vec. rewrite boot_means_fin by assumption. rewrite boot_means_fin by (first [assumption|destruct xs; [contradiction|discriminate]]). cbn [bind]. cbv zeta.
  rewrite fin_means_unit by assumption. set (ms := fin_means e rng xs n). assert (Nm : ms <> []) by (unfold ms, fin_means; destruct (repeats e); [lia|discriminate]). clearbody ms.
  assert (Nm' : map (unit_of a b) ms <> []) by (destruct ms; [contradiction|discriminate]).
  set (d := (1 - confidence e) / qz 2). assert (D0 : 0 <= d) by (unfold d; unfold Qcdiv; assert (0 < / qz 2) by reflexivity; qnra). assert (D1 : d <= 1). { unfold d, Qcdiv. assert (/ qz 2 <= 1) by (vm_compute; discriminate). assert (0 < / qz 2) by reflexivity. qnra. }
  assert (D2 : 0 <= 1 - d) by qlra. assert (D3 : 1 - d <= 1) by qlra.
  rewrite !np_quantile_fin by assumption. rewrite !nmean_fin by assumption. cbn [bind]. exists (qquant ms d), (qmean ms), (qquant ms (1 - d)). split; [reflexivity|]. rewrite mean_unit by exact Nm.
  destruct (qleb_spec 0 a) as [A|A]; cbn [map].
  - rewrite !quant_up by assumption. reflexivity.
  - assert (A' : a <= 0) by (apply Qclt_le_weak, A). rewrite !quant_down by assumption. replace (1 - (1 - d)) with d by ring. reflexivity.
Qed.
