(** Properties C77 and C78: the CRPS of an ensemble, the Brier score and missing members. *)
From Coq Require Import ZArith List Bool Arith Lia Permutation QArith Qcanon.
From Verif Require Import QcTac QSum Num NdArr Numpy M_common NdAxes Spec M_ens NdMove P_boot P_rank P_prob M_crpsens M_ps P_ps.
From Verif Require Props_crpsens.
Import ListNotations.
Open Scope nat_scope.

(** ** Specification *)
(** [z] denotes axis [i] of the forecasts and dropping it gives the shape of the observations *)
Definition fits (o f : arr num) (z : Z) (i : nat) : Prop := axis_is (length (shape f)) z i /\ drop_axis i (shape f) = shape o.
(** one of the two implementations in properscoring *)
Definition properscoring (cell : num -> list num -> num) : Prop := cell = ps_vectorized \/ cell = ps_gufunc.
(** the number of workers allows a computation *)
Definition enough_workers (w : nat) (sh : list nat) : Prop := w = 1 \/ (1 < w /\ 0 < prod sh).
(** VerifyEnsemble.brier(below=t), before averaging *)
Definition brier_at (w : nat) (o f : arr num) (z : Z) (t : Qc) : res (arr num) :=
  cell_brier (ens_cdf Moments w f z None (Some (TScalar (Fin t)))) o None (Some (TScalar (Fin t))).
(** [xs] ascends, and [ts] has one point inside every interval of [xs] that is not empty *)
Fixpoint thresholds_between (xs ts : list Qc) : Prop :=
  match xs, ts with
  | x :: ((y :: _) as r), t :: ts' => (x <= y)%Qc /\ ((x < y)%Qc -> (x < t)%Qc /\ (t < y)%Qc) /\ thresholds_between r ts'
  | _ :: [], [] => True
  | _, _ => False
  end.
(** the area under the step function with heights [hs] over the intervals of [xs] *)
Fixpoint area (xs hs : list Qc) : Qc :=
  match xs, hs with
  | x :: ((y :: _) as r), h :: hs' => ((y - x) * h + area r hs')%Qc
  | _, _ => 0%Qc
  end.
Definition mean_abs_error (ob : Qc) (ms : list Qc) : Qc := (qsumf (fun m => qabs (m - ob)) ms / qn (length ms))%Qc.

(** ** Proofs *)
Lemma fits_old o f z i : fits o f z i -> Props_crpsens.fits o f z i.
Proof. intros [A B]. split; [exact A|]. rewrite <- drop_axis_remove. exact B. Qed.
Lemma members_old i (f : arr num) ix : i <= length ix -> Props_crpsens.members_at f i ix = members_at i f ix.
Proof. intros H. unfold Props_crpsens.members_at, members_at. apply map_ext. intros m. rewrite <- insert_at_split by exact H. reflexivity. Qed.
Lemma crps_cells cell o f z i : fits o f z i -> exists a, crps cell false o f z = Ok a /\ shape a = shape o /\
  forall ix, valid (shape o) ix -> get a ix = cell (get o ix) (members_at i f ix).
Proof.
  intros F. destruct (Props_crpsens.c54_whole cell o f z i (fits_old _ _ _ _ F)) as (a & E & S & G). exists a. split; [exact E|]. split; [exact S|]. intros ix V. rewrite (G ix V).
  rewrite members_old; [reflexivity|]. destruct F as [[L _] R]. rewrite (valid_length _ _ V), <- R, drop_axis_remove, remove_at_length by exact L. lia.
Qed.
Lemma cell_value cell o fs xs : properscoring cell -> good fs = map Fin xs -> xs <> [] -> cell (Fin o) fs = Fin (crps_of o xs).
Proof.
  intros [->| ->] E N; [|apply gufunc_fin; assumption]. rewrite vectorized_good, E. apply vectorized_fin, N.
Qed.
Lemma good_all ms : good (map Fin ms) = map Fin ms. Proof. apply finite_good. Qed.
Lemma brier_value w o f z i ix ob ms t : fits o f z i -> 0 < nth i (shape f) 0 -> enough_workers w (shape o) -> valid (shape o) ix ->
  get o ix = Fin ob -> members_at i f ix = map Fin ms ->
  exists b, brier_at w o f z t = Ok b /\ get b ix = Fin (let d := qsumf (fun a => step a t) ms / qn (length ms) - (if qltb ob t then 1 else 0) in d * d)%Qc.
Proof.
  intros [A R] M W V O E. unfold brier_at. destruct (ens_cdf_below w f z i (TScalar (Fin t)) A Logic.I M ltac:(rewrite R; exact W)) as (p & Ep & Sp & Gp). rewrite Ep.
  eexists. split; [reflexivity|]. cbn [amap2 get amap]. rewrite Gp by (rewrite R; exact V). rewrite O, E. cbn [thr_at nlt].
  assert (Fr : frac_le (Fin t) (map Fin ms) = (qsumf (fun a => step a t) ms / qn (length ms))%Qc).
  { unfold frac_le. rewrite map_length. apply (f_equal (fun x => x / qn (length ms))%Qc). change (how_many (fun m => nle m (Fin t)) (map Fin ms)) with (count (fun m => nle m (Fin t)) (map Fin ms)). rewrite count_map, count_sum. reflexivity. }
  rewrite Fr. destruct (qltb ob t); reflexivity.
Qed.
Lemma area_grid g xs ts : area xs (map g ts) = grid_sum g xs ts.
Proof. revert ts. induction xs as [|x [|y r] IH]; intros [|t ts]; try reflexivity. cbn [map]. rewrite grid_sum_cons, <- IH. reflexivity. Qed.
Lemma between_grid xs ts : thresholds_between xs ts -> grid xs ts.
Proof. intros H. exact H. Qed.
Lemma members_ne i (f : arr num) ix ms : 0 < nth i (shape f) 0 -> members_at i f ix = map Fin ms -> ms <> [].
Proof. intros M E ->. apply (members_at_nonempty i f ix M). rewrite E. reflexivity. Qed.

(** The CRPS of a cell is the area under its Brier scores as a function of the threshold, which vanishes beyond the
    smallest and the largest of the values. *)
Theorem c77_integral : forall cell w o f z i ix ob ms xs ts,
  properscoring cell -> fits o f z i -> 0 < nth i (shape f) 0 -> enough_workers w (shape o) ->
  Forall2 lt ix (shape o) -> get o ix = Fin ob -> members_at i f ix = map Fin ms ->
  thresholds_between xs ts -> In ob xs -> (forall m, In m ms -> In m xs) ->
  exists a heights, crps cell false o f z = Ok a /\ get a ix = Fin (area xs heights) /\
    Forall2 (fun t h => exists b, brier_at w o f z t = Ok b /\ get b ix = Fin h) ts heights /\
    forall t, (forall x, In x xs -> t < x)%Qc \/ (forall x, In x xs -> x < t)%Qc -> exists b, brier_at w o f z t = Ok b /\ get b ix = Fin 0%Qc.
Proof.
  intros cell w o f z i ix ob ms xs ts C F M W V O E B I1 I2. pose proof (members_ne _ _ _ _ M E) as N.
  destruct (crps_cells cell o f z i F) as (a & Ea & Sa & Ga). set (g := fun t => (let d := qsumf (fun a => step a t) ms / qn (length ms) - (if qltb ob t then 1 else 0) in d * d)%Qc).
  exists a, (map g ts). split; [exact Ea|]. split; [|split].
  - rewrite Ga, O, E by exact V. rewrite (cell_value cell ob _ ms C (good_all ms) N). f_equal. rewrite area_grid. rewrite <- (sqdist_grid ob ms xs ts N (between_grid _ _ B) I1 I2).
    apply grid_sum_ext; [apply between_grid, B|]. intros t _ Ht. specialize (Ht ob I1). unfold sqdist, g.
    assert (S : step ob t = if qltb ob t then 1%Qc else 0%Qc); [|rewrite S; reflexivity]. unfold step.
    destruct (qleb_spec ob t) as [L|L], (qltb_spec ob t) as [L'|L']; try reflexivity; exfalso.
    + apply Ht. apply Qcle_antisym; assumption.
    + apply (Qcle_not_lt _ _ (Qclt_le_weak _ _ L') L).
  - clear B. induction ts as [|t ts IH]; [constructor|]. cbn [map]. constructor; [|exact IH]. apply (brier_value w o f z i ix ob ms t F M W V O E).
  - intros t Ht. destruct (brier_value w o f z i ix ob ms t F M W V O E) as (b & Eb & Gb). exists b. split; [exact Eb|]. rewrite Gb. f_equal.
    pose proof (qn_neq0 (length ms) (length_pos _ N)) as Z. destruct Ht as [Ht|Ht].
    + rewrite (qsumf_ext _ (fun _ => 0%Qc)). 2:{ intros m Hm. unfold step. destruct (qleb_spec m t) as [L|L]; [|reflexivity]. elim (Qcle_not_lt _ _ L). auto. }
      rewrite qsumf_zero. destruct (qltb_spec ob t) as [L|L]; [elim (Qcle_not_lt _ _ (Qclt_le_weak _ _ L)); apply Ht, I1|]. cbn zeta. unfold Qcdiv. ring.
    + rewrite (qsumf_ext _ (fun _ => 1%Qc)). 2:{ intros m Hm. unfold step. destruct (qleb_spec m t) as [L|L]; [reflexivity|]. elim (Qcle_not_lt _ _ (Qclt_le_weak _ _ L)). auto. }
      rewrite qsumf_const. destruct (qltb_spec ob t) as [L|L]; [|elim (Qcle_not_lt _ _ L); auto]. cbn zeta. field. exact Z.
Qed.
Print Assumptions c77_integral.
Lemma pairs_le g h xs ys : (forall a b, In a xs -> In b ys -> g a b <= h a b)%Qc -> (pairs g xs ys <= pairs h xs ys)%Qc.
Proof. intros H. apply qsumf_le. intros a Ha. apply qsumf_le. intros b Hb. auto. Qed.
(** Its range: between 0, reached by perfect ensembles only, and the mean absolute error of the members, reached by a
    single member. *)
Theorem c77_range : forall cell o f z i ix ob ms,
  properscoring cell -> fits o f z i -> 0 < nth i (shape f) 0 -> Forall2 lt ix (shape o) -> get o ix = Fin ob -> members_at i f ix = map Fin ms ->
  exists a v, crps cell false o f z = Ok a /\ get a ix = Fin v /\ (0 <= v /\ v <= mean_abs_error ob ms)%Qc /\
    (v = 0%Qc <-> forall m, In m ms -> m = ob) /\ (forall m, ms = [m] -> v = qabs (m - ob)).
Proof.
  intros cell o f z i ix ob ms C F M V O E. pose proof (members_ne _ _ _ _ M E) as N. destruct (crps_cells cell o f z i F) as (a & Ea & Sa & Ga).
  exists a, (crps_of ob ms). split; [exact Ea|]. split; [rewrite Ga, O, E by exact V; apply cell_value; [exact C|apply good_all|exact N]|].
  pose proof (qn_pos (length ms) (length_pos _ N)) as P. pose proof (qn_neq0 (length ms) (length_pos _ N)) as Z.
  assert (PP : (0 < qn (length ms) * qn (length ms))%Qc) by (clear - P; qnra). unfold crps_of. split; [split|split].
  - apply Qcdiv_nonneg; [|exact PP]. apply qsumf_nonneg. intros x _. apply qsumf_nonneg. intros y _. apply overlap_nonneg.
  - apply Qcdiv_le_iff; [exact PP|]. unfold mean_abs_error. eapply Qcle_trans; [apply pairs_le; intros x y _ _; apply (overlap_le ob x y)|].
    rewrite (pairs_fst (fun x => qabs (x - ob))). set (s := qsumf _ ms). clearbody s. replace (s / qn (length ms) * (qn (length ms) * qn (length ms)))%Qc with (qn (length ms) * s)%Qc by (field; exact Z). apply Qcle_refl.
  - split.
    + intros Q m Hm. assert (Q0 : pairs (overlap ob) ms ms = 0%Qc).
      { replace (pairs (overlap ob) ms ms) with (pairs (overlap ob) ms ms / (qn (length ms) * qn (length ms)) * (qn (length ms) * qn (length ms)))%Qc by (field; exact Z). rewrite Q. ring. }
      unfold pairs in Q0. assert (Q1 : qsumf (overlap ob m) ms = 0%Qc).
      { apply (proj1 (qsumf_zero_iff (fun x => qsumf (overlap ob x) ms) ms (fun x _ => qsumf_nonneg (overlap ob x) ms (fun y _ => overlap_nonneg ob x y)))); assumption. }
      assert (Q2 : overlap ob m m = 0%Qc) by (apply (proj1 (qsumf_zero_iff (overlap ob m) ms (fun y _ => overlap_nonneg ob m y))); assumption).
      rewrite overlap_diag in Q2. apply (proj1 (qabs_zero _)) in Q2. transitivity ((m - ob) + ob)%Qc; [ring|]. rewrite Q2. ring.
    + intros H. rewrite pairs_zero; [unfold Qcdiv; ring|]. intros x y Hx Hy. rewrite (H x Hx), (H y Hy), overlap_diag. apply qabs_zero. ring.
  - intros m ->. unfold pairs. rewrite !qsumf_cons, !qsumf_nil, overlap_diag. cbn [length]. rewrite qn_1. field. discriminate.
Qed.
Print Assumptions c77_range.
(** Whether numba is installed makes no difference, also with missing members. *)
Theorem c77_implementations : forall o f z i ix ob,
  fits o f z i -> Forall2 lt ix (shape o) -> get o ix = Fin ob ->
  (forall m, In m (members_at i f ix) -> m = NaN \/ exists q, m = Fin q) -> (exists m, In m (members_at i f ix) /\ m <> NaN) ->
  exists a b, crps ps_vectorized false o f z = Ok a /\ crps ps_gufunc false o f z = Ok b /\ get a ix = get b ix.
Proof.
  intros o f z i ix ob F V O A (m & Hm & Nm). destruct (crps_cells ps_vectorized o f z i F) as (a & Ea & _ & Ga). destruct (crps_cells ps_gufunc o f z i F) as (b & Eb & _ & Gb).
  exists a, b. split; [exact Ea|]. split; [exact Eb|]. rewrite Ga, Gb, O by exact V. destruct (good_fin (members_at i f ix) ltac:(apply Forall_forall, A)) as [xs X].
  assert (N : xs <> []). { intros ->. assert (Q : In m (good (members_at i f ix))) by (apply filter_In; split; [exact Hm|]; destruct m; try reflexivity; contradiction). rewrite X in Q. elim Q. }
  rewrite (cell_value ps_vectorized ob _ xs (or_introl eq_refl) X N), (cell_value ps_gufunc ob _ xs (or_intror eq_refl) X N). reflexivity.
Qed.
Print Assumptions c77_implementations.
(** Concrete case: the second observation 6 with the members 5, 5, 7, 9. *)
Definition ps_f : arr num := of_list NaN [2; 4] (map nnat [1; 2; 3; 4; 5; 5; 7; 9]).
Definition ps_o : arr num := of_list NaN [2] (map nnat [2; 6]).
Definition ps_xs : list Qc := map qn [5; 5; 6; 7; 9].
Definition ps_ts : list Qc := map (fun p => (qz (fst p) / qz (snd p))%Qc) [(0, 1); (11, 2); (13, 2); (8, 1)]%Z.
Example c77_nonvacuous :
  fits ps_o ps_f (-1) 1 /\ enough_workers 3 (shape ps_o) /\ Forall2 lt [1] (shape ps_o) /\ get ps_o [1] = Fin (qn 6) /\
  members_at 1 ps_f [1] = map Fin (map qn [5; 5; 7; 9]) /\ thresholds_between ps_xs ps_ts /\ In (qn 6) ps_xs /\ (forall m, In m (map qn [5; 5; 7; 9]) -> In m ps_xs) /\
  rmap ravel (crps ps_gufunc false ps_o ps_f (-1)) = Ok [Fin (qz 3 / qz 8)%Qc; Fin (qz 5 / qz 8)%Qc].
Proof.
  split; [split; [split; [cbn; lia|right; reflexivity]|reflexivity]|]. split; [right; cbn; lia|]. split; [repeat constructor|]. split; [reflexivity|]. split; [reflexivity|].
  split; [|split; [right; right; left; reflexivity|split]].
  - assert (T : forall x y t : Qc, qleb x y = true -> (qltb x y = false \/ (qltb x t && qltb t y)%bool = true) -> (x <= y)%Qc /\ ((x < y)%Qc -> (x < t)%Qc /\ (t < y)%Qc)).
    { intros x y t H1 H2. split; [apply qleb_le, H1|]. intros H3. destruct H2 as [H2|H2]; [apply qltb_lt in H3; congruence|]. apply andb_true_iff in H2 as [A B]. split; apply qltb_lt; assumption. }
    repeat (apply and_assoc; split; [apply T; [reflexivity|first [left; reflexivity|right; reflexivity]]|]). exact Logic.I.
  - intros m Hm. cbn [map In] in Hm. cbn. tauto.
  - vm_compute. repeat first [reflexivity | apply Qc_is_canon; reflexivity | f_equal].
Qed.

(** ** C78 *)
(** [f'] has, in its cell [ix'], the members of cell [ix] of [f] that are not missing *)
Definition without_missing (i i' : nat) (f f' : arr num) (ix ix' : list nat) : Prop :=
  members_at i' f' ix' = filter (fun m => negb (is_nan m)) (members_at i f ix).
(** The CRPS leaves missing members out.  Missing: cells without any member. *)
Theorem c78_crps_partial : forall cell o f o' f' z z' i i' ix ix' ob,
  properscoring cell -> fits o f z i -> fits o' f' z' i' -> Forall2 lt ix (shape o) -> Forall2 lt ix' (shape o') ->
  get o ix = Fin ob -> get o' ix' = Fin ob -> (forall m, In m (members_at i f ix) -> m = NaN \/ exists q, m = Fin q) ->
  without_missing i i' f f' ix ix' -> members_at i' f' ix' <> [] ->
  exists a a', crps cell false o f z = Ok a /\ crps cell false o' f' z' = Ok a' /\ get a ix = get a' ix' /\ is_fin (get a ix).
Proof.
  intros cell o f o' f' z z' i i' ix ix' ob C F F' V V' O O' A E N. destruct (crps_cells cell o f z i F) as (a & Ea & _ & Ga). destruct (crps_cells cell o' f' z' i' F') as (a' & Ea' & _ & Ga').
  exists a, a'. split; [exact Ea|]. split; [exact Ea'|]. rewrite Ga, Ga', O, O' by assumption. destruct (good_fin (members_at i f ix) ltac:(apply Forall_forall, A)) as [xs X].
  unfold without_missing in E. fold (good (members_at i f ix)) in E. rewrite E in *. rewrite X in *. assert (Nx : xs <> []) by (intros ->; apply N; reflexivity).
  rewrite (cell_value cell ob _ xs C X Nx), (cell_value cell ob _ xs C (good_all xs) Nx). split; [reflexivity|eexists; reflexivity].
Qed.
Print Assumptions c78_crps_partial.
(** The probability of not exceeding a threshold counts them as if they lay above every threshold: the probability from
    the other members is scaled by the share of these members. *)
Theorem c78_cdf_partial : forall w o f o' f' z z' i i' ix ix' t,
  fits o f z i -> fits o' f' z' i' -> Forall2 lt ix (shape o) -> Forall2 lt ix' (shape o') ->
  enough_workers w (shape o) -> enough_workers w (shape o') ->
  without_missing i i' f f' ix ix' -> members_at i' f' ix' <> [] ->
  exists p p' q q', ens_cdf Moments w f z None (Some (TScalar (Fin t))) = Ok p /\ ens_cdf Moments w f' z' None (Some (TScalar (Fin t))) = Ok p' /\
    get p ix = Fin q /\ get p' ix' = Fin q' /\
    (q * qn (length (members_at i f ix)) = q' * qn (length (members_at i' f' ix')))%Qc /\
    (q = q' <-> q' = 0%Qc \/ forall m, In m (members_at i f ix) -> m <> NaN).
Proof.
  intros w o f o' f' z z' i i' ix ix' t [A R] [A' R'] V V' W W' E N. unfold without_missing in E. fold (good (members_at i f ix)) in E.
  assert (L' : 0 < nth i' (shape f') 0) by (rewrite <- (members_at_length i' f' ix'); apply length_pos, N).
  assert (LL : length (good (members_at i f ix)) <= length (members_at i f ix)) by (apply (count_le (fun m => negb (is_nan m)))).
  assert (L : 0 < nth i (shape f) 0). { rewrite <- (members_at_length i f ix). pose proof (length_pos _ N) as P. rewrite E in P. lia. }
  destruct (ens_cdf_below w f z i (TScalar (Fin t)) A Logic.I L ltac:(rewrite R; exact W)) as (p & Ep & _ & Gp).
  destruct (ens_cdf_below w f' z' i' (TScalar (Fin t)) A' Logic.I L' ltac:(rewrite R'; exact W')) as (p' & Ep' & _ & Gp').
  exists p, p', (frac_le (Fin t) (members_at i f ix)), (frac_le (Fin t) (members_at i' f' ix')).
  split; [exact Ep|]. split; [exact Ep'|]. split; [apply Gp; rewrite R; exact V|]. split; [apply Gp'; rewrite R'; exact V'|].
  pose proof (qn_neq0 _ (length_pos _ (members_at_nonempty i f ix L))) as Z. pose proof (qn_neq0 _ (length_pos _ N)) as Z'. unfold frac_le.
  assert (K : how_many (fun m => nle m (Fin t)) (members_at i' f' ix') = how_many (fun m => nle m (Fin t)) (members_at i f ix)).
  { rewrite E. unfold how_many, good. generalize (members_at i f ix). intros l. induction l as [|x l IH]; [reflexivity|]. cbn [filter]. destruct x; cbn [is_nan negb filter nle]; rewrite <- ?IH; try reflexivity.
    - destruct (qleb q t); cbn [length]; rewrite <- IH; reflexivity. - cbn [length]. rewrite <- IH. reflexivity. }
  rewrite K. clear K. set (k := how_many _ _) in *. set (n := length (members_at i f ix)) in *. set (n' := length (members_at i' f' ix')) in *.
  assert (NN : (forall m, In m (members_at i f ix) -> m <> NaN) <-> n' = n).
  { unfold n', n. rewrite E. unfold good. change (length (filter (fun f0 : num => negb (is_nan f0)) (members_at i f ix))) with (count (fun m => negb (is_nan m)) (members_at i f ix)).
    rewrite (count_full (fun m => negb (is_nan m))). split; intros H m Hm; specialize (H m Hm); destruct m; try reflexivity; try discriminate; try contradiction; elim H; reflexivity. }
  split; [field; split; assumption|]. rewrite NN. split.
  - intros Q. assert (Q' : (qn k * qn n' = qn k * qn n)%Qc).
    { transitivity ((qn k / qn n) * (qn n * qn n'))%Qc; [field; exact Z|]. rewrite Q. field. exact Z'. }
    rewrite <- !qn_mult in Q'. apply qn_inj in Q'. destruct (Nat.eq_dec k 0) as [K0|K0]; [left|right].
    + rewrite K0, qn_0. unfold Qcdiv. ring. + apply (proj1 (Nat.mul_cancel_l n' n k K0)) in Q'. exact Q'.
  - intros [Q|Q]; [|rewrite Q; reflexivity]. assert (Q' : qn k = 0%Qc) by (transitivity ((qn k / qn n') * qn n')%Qc; [field; exact Z'|rewrite Q; ring]). rewrite Q'. unfold Qcdiv. ring.
Qed.
Print Assumptions c78_cdf_partial.
(** Hence the Brier score does not leave them out, and the CRPS is not the area under it: with the members 1, 3 and a
    missing one the forecast never becomes certain. *)
Definition nm_f : arr num := of_list NaN [1; 3] [nnat 1; NaN; nnat 3].
Definition nm_g : arr num := of_list NaN [1; 2] [nnat 1; nnat 3].
Definition nm_o : arr num := of_list NaN [1] [nnat 2].
Theorem c78_missing_refuted :
  ~ (forall w o f f' z i i' ix t b b' v v', fits o f z i -> fits o f' z i' -> Forall2 lt ix (shape o) -> enough_workers w (shape o) ->
       without_missing i i' f f' ix ix -> members_at i' f' ix <> [] ->
       brier_at w o f z t = Ok b -> brier_at w o f' z t = Ok b' -> get b ix = Fin v -> get b' ix = Fin v' -> v = v') /\
  fits nm_o nm_f (-1) 1 /\ (forall t, (qn 3 < t)%Qc -> exists b, brier_at 1 nm_o nm_f (-1) t = Ok b /\ get b [0] = Fin (qz 1 / qz 9)%Qc).
Proof.
  assert (F : fits nm_o nm_f (-1) 1) by (split; [split; [cbn; lia|right; reflexivity]|reflexivity]).
  assert (F' : fits nm_o nm_g (-1) 1) by (split; [split; [cbn; lia|right; reflexivity]|reflexivity]). split.
  - intros H. destruct (brier_at 1 nm_o nm_f (-1) (qn 4)) as [b|] eqn:E; [|vm_compute in E; discriminate]. destruct (brier_at 1 nm_o nm_g (-1) (qn 4)) as [b'|] eqn:E'; [|vm_compute in E'; discriminate].
    assert (G : rmap ravel (brier_at 1 nm_o nm_f (-1) (qn 4)) = Ok [Fin (qz 1 / qz 9)%Qc]) by (vm_compute; repeat first [reflexivity | apply Qc_is_canon; reflexivity | f_equal]).
    assert (G' : rmap ravel (brier_at 1 nm_o nm_g (-1) (qn 4)) = Ok [Fin 0%Qc]) by (vm_compute; repeat first [reflexivity | apply Qc_is_canon; reflexivity | f_equal]).
    rewrite E in G. rewrite E' in G'. cbn [rmap] in G, G'. injection G as G. injection G' as G'.
    assert (S : shape b = [1]). { unfold brier_at in E. apply brier_cells in E as (pa & ob & Ep & _ & Sb & _). destruct (ens_cdf_below 1 nm_f (-1) 1 (TScalar (Fin (qn 4))) (proj1 F) Logic.I ltac:(cbn; lia) (or_introl eq_refl)) as (p & Ep2 & Sp & _). rewrite Ep2 in Ep. injection Ep as <-. rewrite Sb, Sp. reflexivity. }
    assert (S' : shape b' = [1]). { unfold brier_at in E'. apply brier_cells in E' as (pa & ob & Ep & _ & Sb & _). destruct (ens_cdf_below 1 nm_g (-1) 1 (TScalar (Fin (qn 4))) (proj1 F') Logic.I ltac:(cbn; lia) (or_introl eq_refl)) as (p & Ep2 & Sp & _). rewrite Ep2 in Ep. injection Ep as <-. rewrite Sb, Sp. reflexivity. }
    unfold ravel in G, G'. rewrite S in G. rewrite S' in G'. cbn in G, G'. injection G as G. injection G' as G'.
    specialize (H 1 nm_o nm_f nm_g (-1)%Z 1 1 [0] (qn 4) b b' _ _ F F' ltac:(repeat constructor) (or_introl eq_refl) eq_refl ltac:(discriminate) E E' G G'). revert H. vm_compute. discriminate.
  - split; [exact F|]. intros t Ht. unfold brier_at. destruct (ens_cdf_below 1 nm_f (-1) 1 (TScalar (Fin t)) (proj1 F) Logic.I ltac:(cbn; lia) (or_introl eq_refl)) as (p & Ep & Sp & Gp). rewrite Ep.
    eexists. split; [reflexivity|]. cbn [amap2 get amap]. rewrite Gp by (cbn; repeat constructor). change (members_at 1 nm_f [0]) with [nnat 1; NaN; nnat 3]. cbn [thr_at]. change (get nm_o [0]) with (nnat 2).
    unfold nnat, frac_le, how_many. cbn [filter nle nlt]. replace (qleb (qn 1) t) with true by (symmetry; apply qleb_le; assert (qn 1 < qn 3)%Qc by (apply qltb_lt; reflexivity); eapply Qcle_trans; apply Qclt_le_weak; eassumption).
    replace (qleb (qn 3) t) with true by (symmetry; apply qleb_le, Qclt_le_weak, Ht). replace (qltb (qn 2) t) with true by (symmetry; apply qltb_lt; assert (qn 2 < qn 3)%Qc by (apply qltb_lt; reflexivity); eapply Qclt_trans; eassumption).
    vm_compute. repeat first [reflexivity | apply Qc_is_canon; reflexivity | f_equal].
Qed.
Print Assumptions c78_missing_refuted.
Example c78_nonvacuous : fits nm_o nm_f (-1) 1 /\ fits nm_o nm_g (-1) 1 /\ without_missing 1 1 nm_f nm_g [0] [0] /\ members_at 1 nm_g [0] <> [] /\
  rmap ravel (crps ps_vectorized false nm_o nm_f (-1)) = Ok [Fin (qz 1 / qz 2)%Qc] /\ rmap ravel (crps ps_gufunc false nm_o nm_g (-1)) = Ok [Fin (qz 1 / qz 2)%Qc] /\
  rmap ravel (ens_cdf Moments 1 nm_f (-1) None (Some (TScalar (nnat 4)))) = Ok [Fin (qz 2 / qz 3)%Qc].
Proof.
  split; [split; [split; [cbn; lia|right; reflexivity]|reflexivity]|]. split; [split; [split; [cbn; lia|right; reflexivity]|reflexivity]|]. split; [reflexivity|]. split; [discriminate|].
  repeat split; vm_compute; repeat first [reflexivity | apply Qc_is_canon; reflexivity | f_equal].
Qed.
