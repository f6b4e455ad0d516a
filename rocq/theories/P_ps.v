(** Facts about the ensemble CRPS of one cell. *)
From Coq Require Import ZArith List Bool Arith Lia Permutation QArith Qcanon.
From Verif Require Import QcTac QSum Num NdArr Numpy M_ps.
Import ListNotations.
Open Scope Qc_scope.

(** sums over all ordered pairs *)
Definition pairs (g : Qc -> Qc -> Qc) (xs ys : list Qc) : Qc := qsumf (fun a => qsumf (g a) ys) xs.
Lemma pairs_ext g h xs ys : (forall a b, In a xs -> In b ys -> g a b = h a b) -> pairs g xs ys = pairs h xs ys.
Proof. intros H. apply qsumf_ext. intros a Ha. apply qsumf_ext. intros b Hb. auto. Qed.
Lemma pairs_plus g h xs ys : pairs (fun a b => g a b + h a b) xs ys = pairs g xs ys + pairs h xs ys.
Proof. unfold pairs. rewrite <- qsumf_plus. apply qsumf_ext. intros. apply qsumf_plus. Qed.
Lemma pairs_scale c g xs ys : pairs (fun a b => c * g a b) xs ys = c * pairs g xs ys.
Proof. unfold pairs. rewrite <- qsumf_scale. apply qsumf_ext. intros. apply qsumf_scale. Qed.
Lemma pairs_fst g xs ys : pairs (fun a _ => g a) xs ys = qn (length ys) * qsumf g xs.
Proof. unfold pairs. rewrite <- qsumf_scale. apply qsumf_ext. intros. apply qsumf_const. Qed.
Lemma pairs_snd g xs ys : pairs (fun _ b => g b) xs ys = qn (length xs) * qsumf g ys.
Proof. unfold pairs. apply qsumf_const. Qed.
Lemma pairs_const c xs ys : pairs (fun _ _ => c) xs ys = qn (length xs) * qn (length ys) * c.
Proof. rewrite pairs_fst, qsumf_const. ring. Qed.
Lemma pairs_cons_l g x xs ys : pairs g (x :: xs) ys = qsumf (g x) ys + pairs g xs ys.
Proof. reflexivity. Qed.
Lemma pairs_cons_r g xs y ys : pairs g xs (y :: ys) = qsumf (fun a => g a y) xs + pairs g xs ys.
Proof. unfold pairs. rewrite <- qsumf_plus. reflexivity. Qed.
Lemma pairs_app_l g x1 x2 ys : pairs g (x1 ++ x2) ys = pairs g x1 ys + pairs g x2 ys.
Proof. apply qsumf_app. Qed.
Lemma pairs_app_r g xs y1 y2 : pairs g xs (y1 ++ y2) = pairs g xs y1 + pairs g xs y2.
Proof. unfold pairs. rewrite <- qsumf_plus. apply qsumf_ext. intros. apply qsumf_app. Qed.
Lemma pairs_perm g xs xs' : Permutation xs xs' -> pairs g xs xs = pairs g xs' xs'.
Proof.
  intros P. unfold pairs. rewrite (qsumf_perm _ _ _ P). apply qsumf_ext. intros. apply qsumf_perm, P.
Qed.
Lemma pairs_zero g xs ys : (forall a b, In a xs -> In b ys -> g a b = 0) -> pairs g xs ys = 0.
Proof. intros H. rewrite (pairs_ext g (fun _ _ => 0)) by exact H. rewrite pairs_const. ring. Qed.

(** the length that the intervals between the observation and two members share *)
Definition overlap (o a b : Qc) : Qc := (qabs (a - o) + qabs (b - o) - qabs (a - b)) / qz 2.
Lemma qz2 : qz 2 = 1 + 1. Proof. apply Qc_is_canon. reflexivity. Qed.
Lemma dbl x : qz 2 * x = x + x. Proof. rewrite qz2. ring. Qed.
Lemma half_eq a b : a = b + b -> a / qz 2 = b.
Proof. intros ->. rewrite <- dbl. field. discriminate. Qed.
Ltac ov := apply half_eq; unfold qabs, qmin, qmax; repeat (match goal with |- context [qltb ?x ?y] => destruct (qltb_spec x y) | |- context [qleb ?x ?y] => destruct (qleb_spec x y) end); qlra.
Lemma overlap_lo o a b : a <= o -> b <= o -> overlap o a b = o - qmax a b.
Proof. intros. unfold overlap. ov. Qed.
Lemma overlap_hi o a b : o <= a -> o <= b -> overlap o a b = qmin a b - o.
Proof. intros. unfold overlap. ov. Qed.
Lemma overlap_lohi o a b : a <= o -> o <= b -> overlap o a b = 0.
Proof. intros. unfold overlap. ov. Qed.
Lemma overlap_hilo o a b : o <= a -> b <= o -> overlap o a b = 0.
Proof. intros. unfold overlap. ov. Qed.
Lemma overlap_nonneg o a b : 0 <= overlap o a b.
Proof.
  destruct (Qclt_le_dec a o) as [A|A], (Qclt_le_dec b o) as [B|B].
  - rewrite overlap_lo by (apply Qclt_le_weak; assumption). unfold qmax. destruct (qleb_spec a b); qlra.
  - rewrite overlap_lohi by (try assumption; apply Qclt_le_weak; assumption). apply Qcle_refl.
  - rewrite overlap_hilo by (try assumption; apply Qclt_le_weak; assumption). apply Qcle_refl.
  - rewrite overlap_hi by assumption. unfold qmin. destruct (qleb_spec a b); qlra.
Qed.
Lemma overlap_diag o a : overlap o a a = qabs (a - o).
Proof. unfold overlap. ov. Qed.
Lemma overlap_le o a b : overlap o a b <= qabs (a - o).
Proof.
  unfold overlap. apply Qcdiv_le_iff; [rewrite qz2; qlra|]. rewrite Qcmult_comm, dbl. unfold qabs.
  destruct (qltb_spec (a - o) 0), (qltb_spec (b - o) 0), (qltb_spec (a - b) 0); qlra.
Qed.

(** ** The vectorised implementation *)
Lemma finite_good xs : filter (fun f => negb (is_nan f)) (map Fin xs) = map Fin xs.
Proof. induction xs as [|x r IH]; [reflexivity|]. cbn [map filter is_nan negb]. rewrite IH. reflexivity. Qed.
Lemma nmean_fin xs : xs <> [] -> nmean (map Fin xs) = Fin (qmean xs).
Proof.
  intros H. unfold nmean. rewrite nsum_fin, map_length. unfold nnat, ndiv.
  destruct (qeqb_spec (qn (length xs)) 0) as [E|E]; [|reflexivity]. exfalso. apply (qn_neq0 (length xs)); [apply length_pos, H|exact E].
Qed.
Lemma nanmean_fin xs : xs <> [] -> nanmean (map Fin xs) = Fin (qmean xs).
Proof. intros H. unfold nanmean. rewrite finite_good. apply nmean_fin, H. Qed.
Lemma pairs_list (g : num -> num -> num) (h : Qc -> Qc -> Qc) xs ys : (forall a b, g (Fin a) (Fin b) = Fin (h a b)) ->
  flat_map (fun a => map (g a) (map Fin ys)) (map Fin xs) = map Fin (flat_map (fun a => map (h a) ys) xs).
Proof.
  intros E. induction xs as [|x r IH]; [reflexivity|]. cbn [map flat_map]. rewrite IH, map_app, !map_map. f_equal. apply map_ext. intros b. apply E.
Qed.
Lemma pairs_length {B} (h : Qc -> Qc -> B) xs ys : length (flat_map (fun a => map (h a) ys) xs) = (length xs * length ys)%nat.
Proof. induction xs as [|x r IH]; [reflexivity|]. cbn [flat_map]. rewrite app_length, map_length, IH. reflexivity. Qed.
Lemma pairs_qsum h xs ys : qsum (flat_map (fun a => map (h a) ys) xs) = pairs h xs ys.
Proof. induction xs as [|x r IH]; [reflexivity|]. cbn [flat_map]. rewrite qsum_app, IH. reflexivity. Qed.
Definition crps_of (o : Qc) (xs : list Qc) : Qc := pairs (overlap o) xs xs / (qn (length xs) * qn (length xs)).
Lemma vectorized_fin o xs : xs <> [] -> ps_vectorized (Fin o) (map Fin xs) = Fin (crps_of o xs).
Proof.
  intros N. unfold ps_vectorized. rewrite map_map.
  rewrite (map_ext (fun x => nabs (nsub (Fin x) (Fin o))) (fun x => Fin (qabs (x - o)))) by reflexivity.
  rewrite <- (map_map (fun x => qabs (x - o)) Fin). rewrite nanmean_fin by (destruct xs; [contradiction|discriminate]).
  rewrite (pairs_list (fun a b => nabs (nsub a b)) (fun a b => qabs (a - b))) by reflexivity.
  rewrite nanmean_fin by (destruct xs; [contradiction|discriminate]). cbn [nmul nadd]. f_equal.
  unfold qmean. rewrite pairs_length, pairs_qsum, map_length, qn_mult. unfold crps_of.
  pose proof (qn_neq0 (length xs) (length_pos _ N)) as Z.
  rewrite (pairs_ext (overlap o) (fun a b => / qz 2 * (qabs (a - o) + (qabs (b - o) + - (1) * qabs (a - b))))).
  2:{ intros a b _ _. unfold overlap. field. discriminate. }
  rewrite pairs_scale, pairs_plus, pairs_plus, pairs_scale, pairs_fst, pairs_snd.
  change (qsum (map (fun x => qabs (x - o)) xs)) with (qsumf (fun x => qabs (x - o)) xs).
  set (S := qsumf _ xs). set (P := pairs _ xs xs). clearbody S P. rewrite qz2. field. split; [|exact Z]. discriminate.
Qed.
(** ** Members that are NaN *)
Definition fin_or_nan (x : num) : Prop := x = NaN \/ exists q, x = Fin q.
Definition good (fs : list num) : list num := filter (fun f => negb (is_nan f)) fs.
Lemma good_fin fs : Forall fin_or_nan fs -> exists xs, good fs = map Fin xs.
Proof.
  induction 1 as [|x r Hx _ [xs E]]; [exists []; reflexivity|]. unfold good in *. cbn [filter]. destruct Hx as [->|[q ->]]; cbn [is_nan negb]; rewrite E; [exists xs; reflexivity|exists (q :: xs); reflexivity].
Qed.
Lemma good_map (g : num -> num) fs : (forall x, is_nan x = true -> is_nan (g x) = true) -> good (map g fs) = good (map g (good fs)).
Proof.
  intros H. unfold good. induction fs as [|x r IH]; [reflexivity|]. cbn [map filter]. destruct (is_nan x) eqn:E; cbn [negb map filter].
  - rewrite (H x E). exact IH.
  - rewrite IH. reflexivity.
Qed.
Lemma nanmean_good l l' : good l = good l' -> nanmean l = nanmean l'.
Proof. intros H. unfold nanmean. unfold good in H. rewrite H. reflexivity. Qed.
Lemma good_app l l' : good (l ++ l') = good l ++ good l'. Proof. apply filter_app. Qed.
Lemma nan_isnan x : is_nan x = true -> x = NaN. Proof. destruct x; try discriminate. reflexivity. Qed.
Lemma pairs_good (h : num -> num -> num) ys gs : (forall a b, is_nan a = true -> is_nan (h a b) = true) -> (forall a b, is_nan b = true -> is_nan (h a b) = true) ->
  good (flat_map (fun a => map (h a) gs) ys) = good (flat_map (fun a => map (h a) (good gs)) (good ys)).
Proof.
  intros H1 H2. induction ys as [|y r IH]; [reflexivity|]. cbn [flat_map]. rewrite good_app, IH, (good_map (h y)) by auto.
  replace (good (y :: r)) with (if is_nan y then good r else y :: good r) by (unfold good; cbn [filter]; destruct (is_nan y); reflexivity).
  destruct (is_nan y) eqn:E; cbn [flat_map]; [|rewrite good_app; reflexivity].
  replace (good (map (h y) (good gs))) with (@nil num); [reflexivity|]. generalize (good gs). intros l. unfold good. induction l as [|b l IHl]; [reflexivity|]. cbn [map filter]. rewrite (H1 y b E). exact IHl.
Qed.
Lemma vectorized_good o fs : ps_vectorized o fs = ps_vectorized o (good fs).
Proof.
  unfold ps_vectorized. f_equal; [|f_equal].
  - apply nanmean_good, good_map. intros x E. apply nan_isnan in E. subst x. reflexivity.
  - apply nanmean_good, (pairs_good (fun a b => nabs (nsub a b))); intros a b E; apply nan_isnan in E; subst; [|destruct a]; reflexivity.
Qed.

(** ** The one-pass implementation *)
(** the integral of the squared distance, from the sorted members *)
Fixpoint qloop (o w : Qc) (fs : list Qc) (H : bool) (F prev integral : Qc) : bool * Qc * Qc :=
  match fs with
  | [] => (H, prev, integral)
  | f :: r =>
      if negb H && qltb o f then qloop o w r true (F + w) f (integral + ((o - prev) * (F * F) + (f - o) * ((F - 1) * (F - 1))))
      else qloop o w r H (F + w) f (integral + (f - prev) * ((F - (if H then 1 else 0)) * (F - (if H then 1 else 0))))
  end.
Lemma loop_fin o w fs bad : Forall (fun x => is_nan x = true) bad -> forall H F p i,
  ps_loop (Fin o) (Fin w) (map Fin fs ++ bad) H (Fin F) (Fin p) (Fin i) = let '(H', p', i') := qloop o w fs H F p i in (H', Fin p', Fin i').
Proof.
  intros B. induction fs as [|f r IH]; intros H F p i.
  - cbn [map app qloop]. destruct B as [|x l Hx _]; [reflexivity|]. cbn [ps_loop]. rewrite Hx. reflexivity.
  - cbn [map app ps_loop qloop is_nan nlt]. destruct (negb H && qltb o f)%bool eqn:E; [cbn [nadd nsub nmul nsq]; apply IH|]. destruct H; cbn [nadd nsub nmul nsq b2n]; apply IH.
Qed.

Lemma qmin_l a b : a <= b -> qmin a b = a. Proof. intros H. unfold qmin. destruct (qleb_spec a b); [reflexivity|]. qlra. Qed.
Lemma qmin_r a b : b <= a -> qmin a b = b. Proof. intros H. unfold qmin. destruct (qleb_spec a b); qlra. Qed.
Lemma qmax_l a b : b <= a -> qmax a b = a. Proof. intros H. unfold qmax. destruct (qleb_spec a b); qlra. Qed.
Lemma qmax_r a b : a <= b -> qmax a b = b. Proof. intros H. unfold qmax. destruct (qleb_spec a b); [reflexivity|]. qlra. Qed.
(** moving the lower end of all intervals *)
Lemma pairs_min_step p f r : (forall b, In b r -> f <= b) ->
  pairs (fun a b => qmin a b - p) (f :: r) (f :: r) =
  (f - p) * (qn (length (f :: r)) * qn (length (f :: r))) + pairs (fun a b => qmin a b - f) r r.
Proof.
  intros H. rewrite (pairs_ext _ (fun a b => (f - p) + (qmin a b - f))) by (intros; ring). rewrite pairs_plus, pairs_const.
  rewrite pairs_cons_l, pairs_cons_r, qsumf_cons.
  rewrite (qsumf_ext (fun b => qmin f b - f) (fun _ => 0)) by (intros b Hb; rewrite qmin_l by auto; ring).
  rewrite (qsumf_ext (fun a => qmin a f - f) (fun _ => 0)) by (intros b Hb; rewrite qmin_r by auto; ring).
  rewrite !qsumf_zero, qmin_l by apply Qcle_refl. ring.
Qed.
Lemma pairs_max_step p f d : (forall b, In b d -> b <= f) ->
  pairs (fun a b => f - qmax a b) (d ++ [f]) (d ++ [f]) =
  (f - p) * (qn (length d) * qn (length d)) + pairs (fun a b => p - qmax a b) d d.
Proof.
  intros H. rewrite pairs_app_l, !pairs_app_r.
  rewrite (pairs_zero _ d [f]). 2:{ intros a b Ha [<-|[]]. rewrite qmax_r by auto. ring. }
  rewrite (pairs_zero _ [f] d). 2:{ intros a b [<-|[]] Hb. rewrite qmax_l by auto. ring. }
  rewrite (pairs_zero _ [f] [f]). 2:{ intros a b [<-|[]] [<-|[]]. rewrite qmax_l by apply Qcle_refl. ring. }
  rewrite (pairs_ext (fun a b => f - qmax a b) (fun a b => (f - p) + (p - qmax a b))) by (intros; ring). rewrite pairs_plus, pairs_const. ring.
Qed.
Section Loop.
Variables (o n w : Qc).
Hypothesis W : w * n = 1.
Lemma loop_above fs : forall k p i, qsorted (p :: fs) -> k + qn (length fs) = n ->
  exists p' i', qloop o w fs true (k * w) p i = (true, p', i') /\ i' * (n * n) = i * (n * n) + pairs (fun a b => qmin a b - p) fs fs.
Proof.
  induction fs as [|f r IH]; intros k p i S K.
  - exists p, i. split; [reflexivity|]. unfold pairs. rewrite qsumf_nil. ring.
  - cbn [qloop negb andb]. pose proof (Sorted.StronglySorted_inv S) as [S1 _]. pose proof (Sorted.StronglySorted_inv S1) as [_ Hf]. rewrite Forall_forall in Hf.
    destruct (IH (k + 1) f (i + (f - p) * ((k * w - 1) * (k * w - 1))) S1) as (p' & i' & E & Ei). { rewrite <- K. cbn [length]. rewrite qn_S. ring. }
    exists p', i'. split; [rewrite <- E; f_equal; ring|]. rewrite Ei, (pairs_min_step p f r Hf).
    assert (M : qn (length (f :: r)) = n - k) by (rewrite <- K; ring). rewrite M.
    replace ((i + (f - p) * ((k * w - 1) * (k * w - 1))) * (n * n)) with (i * (n * n) + (f - p) * ((k * (w * n) - n) * (k * (w * n) - n))) by ring. rewrite W. ring.
Qed.
Lemma pairs_split d r : (forall a, In a d -> a <= o) -> (forall a, In a r -> o <= a) ->
  pairs (overlap o) (d ++ r) (d ++ r) = pairs (fun a b => o - qmax a b) d d + pairs (fun a b => qmin a b - o) r r.
Proof.
  intros D R. rewrite pairs_app_l, !pairs_app_r. rewrite (pairs_zero _ d r), (pairs_zero _ r d).
  - rewrite (pairs_ext (overlap o) (fun a b => o - qmax a b) d d), (pairs_ext (overlap o) (fun a b => qmin a b - o) r r); [ring| |].
    + intros. apply overlap_hi; auto. + intros. apply overlap_lo; auto.
  - intros. apply overlap_hilo; auto. - intros. apply overlap_lohi; auto.
Qed.
Lemma loop_below fs : forall d p i, qsorted fs -> qn (length d) + qn (length fs) = n -> n <> 0 ->
  (d <> [] -> (forall a, In a d -> a <= p) /\ p <= o /\ forall b, In b fs -> p <= b) ->
  i * (n * n) = pairs (fun a b => p - qmax a b) d d ->
  exists H p' i', qloop o w fs false (qn (length d) * w) p i = (H, p', i') /\
    (if H then i' else i' + (o - p')) * (n * n) = pairs (overlap o) (d ++ fs) (d ++ fs).
Proof.
  induction fs as [|f r IH]; intros d p i S K N P I.
  - exists false, p, i. split; [reflexivity|]. cbn [length] in K. rewrite qn_0, Qcplus_0_r in K.
    assert (D : d <> []) by (intros ->; apply N; rewrite <- K; reflexivity). destruct (P D) as (P1 & P2 & _).
    rewrite app_nil_r, Qcmult_plus_distr_l, I, (pairs_ext (overlap o) (fun a b => (o - p) + (p - qmax a b))).
    2:{ intros a b Ha Hb. rewrite overlap_lo; [ring| |]; (eapply Qcle_trans; [apply P1; assumption|exact P2]). }
    rewrite pairs_plus, pairs_const, K. ring.
  - pose proof (Sorted.StronglySorted_inv S) as [S1 Hf]. rewrite Forall_forall in Hf. cbn [qloop negb andb]. destruct (qltb_spec o f) as [L|L].
    + set (j := i + _). destruct (loop_above r (qn (length d) + 1) f j S) as (p' & i' & E & Ei). { rewrite <- K. cbn [length]. rewrite qn_S. ring. }
      exists true, p', i'. split; [rewrite <- E; f_equal; ring|]. rewrite Ei.
      assert (D : forall a, In a d -> a <= o). { intros a Ha. destruct (P ltac:(intros ->; exact Ha)) as (P1 & P2 & _). eapply Qcle_trans; [apply P1; exact Ha|exact P2]. }
      rewrite pairs_split; [|exact D|]. 2:{ intros a [<-|Ha]; [apply Qclt_le_weak, L|]. eapply Qcle_trans; [apply Qclt_le_weak, L|apply Hf, Ha]. }
      rewrite (pairs_min_step o f r Hf). rewrite (pairs_ext (fun a b => o - qmax a b) (fun a b => (o - p) + (p - qmax a b)) d d) by (intros; ring).
      rewrite pairs_plus, pairs_const, <- I. assert (M : qn (length (f :: r)) = n - qn (length d)) by (rewrite <- K; ring). rewrite M. unfold j.
      set (k := qn (length d)). set (Z := pairs _ r r).
      transitivity (i * (n * n) + (o - p) * ((k * (w * n)) * (k * (w * n))) + (f - o) * ((k * (w * n) - n) * (k * (w * n) - n)) + Z); [ring|]. rewrite W. ring.
    + destruct (IH (d ++ [f]) f (i + (f - p) * ((qn (length d) * w - 0) * (qn (length d) * w - 0))) S1) as (H & p' & i' & E & Ei).
      * rewrite <- K. rewrite app_length, qn_plus. cbn [length]. rewrite (qn_S (length r)). rewrite qn_1. ring.
      * exact N.
      * intros _. split; [|split; [exact L|exact Hf]]. intros a Ha. apply in_app_iff in Ha as [Ha|[<-|[]]]; [|apply Qcle_refl].
        destruct (P ltac:(intros ->; exact Ha)) as (P1 & _ & P3). eapply Qcle_trans; [apply P1, Ha|apply P3; left; reflexivity].
      * rewrite (pairs_max_step p). 2:{ intros a Ha. destruct (P ltac:(intros ->; exact Ha)) as (P1 & _ & P3). eapply Qcle_trans; [apply P1, Ha|apply P3; left; reflexivity]. }
        rewrite <- I. set (k := qn (length d)).
        transitivity (i * (n * n) + (f - p) * ((k * (w * n)) * (k * (w * n)))); [ring|]. rewrite W. ring.
      * exists H, p', i'. rewrite <- app_assoc in Ei. split; [|exact Ei]. rewrite <- E. f_equal. rewrite app_length, qn_plus. cbn [length]. rewrite qn_1. ring.
Qed.
End Loop.
Lemma gufunc_fin o fs xs : good fs = map Fin xs -> xs <> [] -> ps_gufunc (Fin o) fs = Fin (crps_of o xs).
Proof.
  intros E N. unfold ps_gufunc. fold (good fs). rewrite E. cbn [is_nan]. replace (match map Fin xs with [] => NaN | _ => _ end) with (let '(H, last, integral) := ps_loop (Fin o) (ndiv (Fin 1) (nnat (length (map Fin xs)))) (nsort (map Fin xs) ++ filter is_nan fs) false (Fin 0) (Fin 0) (Fin 0) in if H then integral else nadd integral (nsub (Fin o) last)) by (destruct xs; [contradiction|reflexivity]).
  pose proof (qn_neq0 (length xs) (length_pos _ N)) as Z. rewrite map_length, nsort_fin. unfold ndiv, nnat. destruct (qeqb_spec (qn (length xs)) 0); [contradiction|].
  rewrite loop_fin. 2:{ apply Forall_forall. intros x Hx. apply filter_In in Hx. apply Hx. }
  destruct (loop_below o (qn (length xs)) (1 / qn (length xs)) ltac:(field; exact Z) (qsort xs) [] 0 0) as (Hb & p' & i' & El & Ei).
  - apply qsort_sorted. - rewrite qsort_length. cbn [length]. rewrite qn_0. ring. - exact Z. - intros C. elim C. reflexivity.
  - unfold pairs. rewrite qsumf_nil. ring.
  - cbn [length] in El. rewrite qn_0, Qcmult_0_l in El. rewrite El. unfold crps_of. cbn [app] in Ei. rewrite (pairs_perm (overlap o) xs (qsort xs)) by apply qsort_perm. rewrite <- Ei.
    destruct Hb; cbn [nadd nsub]; apply (f_equal Fin); field; exact Z.
Qed.

(** ** Sums over a grid *)
(** [xs] ascends, and [ts] has one point inside every interval of [xs] that is not empty *)
Fixpoint grid (xs ts : list Qc) : Prop :=
  match xs, ts with
  | x :: ((y :: _) as r), t :: ts' => x <= y /\ (x < y -> x < t /\ t < y) /\ grid r ts'
  | _ :: [], [] => True
  | _, _ => False
  end.
(** the sum of width times value *)
Fixpoint grid_sum (g : Qc -> Qc) (xs ts : list Qc) : Qc :=
  match xs, ts with
  | x :: ((y :: _) as r), t :: ts' => (y - x) * g t + grid_sum g r ts'
  | _, _ => 0
  end.
Lemma grid_cons x y r t ts : grid (x :: y :: r) (t :: ts) = (x <= y /\ (x < y -> x < t /\ t < y) /\ grid (y :: r) ts). Proof. reflexivity. Qed.
Lemma grid_sum_cons g x y r t ts : grid_sum g (x :: y :: r) (t :: ts) = (y - x) * g t + grid_sum g (y :: r) ts. Proof. reflexivity. Qed.
Lemma grid_ind' (P : list Qc -> list Qc -> Prop) : (forall x, P [x] []) ->
  (forall x y r t ts, x <= y -> (x < y -> x < t /\ t < y) -> grid (y :: r) ts -> P (y :: r) ts -> P (x :: y :: r) (t :: ts)) ->
  forall xs ts, grid xs ts -> P xs ts.
Proof.
  intros H0 H1 xs. induction xs as [|x [|y r] IH]; intros ts G; [destruct ts; elim G| |].
  - destruct ts; [apply H0|elim G]. - destruct ts as [|t ts]; [elim G|]. rewrite grid_cons in G. destruct G as (A & B & C). apply H1; auto.
Qed.
Lemma grid_le xs ts : grid xs ts -> forall a, In a xs -> hd 0 xs <= a.
Proof.
  revert xs ts. apply (grid_ind' (fun xs ts => forall a, In a xs -> hd 0 xs <= a)); [intros x a [<-|[]]; apply Qcle_refl|].
  intros x y r t ts L _ _ IH a [<-|H]; [apply Qcle_refl|]. eapply Qcle_trans; [exact L|]. apply IH, H.
Qed.
Lemma width_zero x y : x <= y -> ~ x < y -> y - x = 0.
Proof. intros L N. destruct (Qcle_lt_or_eq _ _ L) as [H|H]; [contradiction|]. rewrite H. ring. Qed.
(** only points that are not on the grid matter *)
Lemma grid_sum_ext g h xs ts : grid xs ts -> (forall t, In t ts -> (forall a, In a xs -> a <> t) -> g t = h t) -> grid_sum g xs ts = grid_sum h xs ts.
Proof.
  revert xs ts. cut (forall xs ts, grid xs ts -> forall lo, (forall a, In a lo -> a <= hd 0 xs) -> (forall t, In t ts -> (forall a, In a (lo ++ xs) -> a <> t) -> g t = h t) -> grid_sum g xs ts = grid_sum h xs ts).
  { intros H xs ts G E. apply (H xs ts G []); [intros a []|exact E]. }
  apply (grid_ind' (fun xs ts => forall lo, (forall a, In a lo -> a <= hd 0 xs) -> (forall t, In t ts -> (forall a, In a (lo ++ xs) -> a <> t) -> g t = h t) -> grid_sum g xs ts = grid_sum h xs ts)); [reflexivity|].
  intros x y r t ts L B G IH lo Hlo E. rewrite !grid_sum_cons. f_equal.
  - destruct (Qclt_le_dec x y) as [S|S]; [|rewrite (width_zero x y L) by (apply Qcle_not_lt, S); ring]. destruct (B S) as [B1 B2]. f_equal. apply E; [left; reflexivity|].
    intros a Ha ->. apply in_app_iff in Ha as [Ha|[Ha|Ha]].
    + apply Hlo in Ha. cbn [hd] in Ha. apply (Qcle_not_lt _ _ Ha B1).
    + subst x. apply (Qcle_not_lt _ _ (Qcle_refl t) B1).
    + pose proof (grid_le _ _ G _ Ha) as Q. cbn [hd] in Q. apply (Qcle_not_lt _ _ Q B2).
  - apply (IH (lo ++ [x])).
    + intros a Ha. cbn [hd]. apply in_app_iff in Ha as [Ha|[<-|[]]]; [|exact L]. eapply Qcle_trans; [apply (Hlo a Ha)|exact L].
    + intros t' Ht' Ha. apply E; [right; exact Ht'|]. rewrite <- app_assoc in Ha. exact Ha.
Qed.
Lemma grid_sum_plus g h xs ts : grid_sum (fun t => g t + h t) xs ts = grid_sum g xs ts + grid_sum h xs ts.
Proof. revert ts. induction xs as [|x [|y r] IH]; intros ts; [destruct ts; cbn; ring|destruct ts; cbn; ring|]. destruct ts as [|t ts]; [cbn; ring|]. rewrite !grid_sum_cons, IH. ring. Qed.
Lemma grid_sum_scale c g xs ts : grid_sum (fun t => c * g t) xs ts = c * grid_sum g xs ts.
Proof. revert ts. induction xs as [|x [|y r] IH]; intros ts; [destruct ts; cbn; ring|destruct ts; cbn; ring|]. destruct ts as [|t ts]; [cbn; ring|]. rewrite !grid_sum_cons, IH. ring. Qed.
Lemma grid_sum_zero xs ts : grid_sum (fun _ => 0) xs ts = 0.
Proof. revert ts. induction xs as [|x [|y r] IH]; intros ts; [destruct ts; reflexivity|destruct ts; reflexivity|]. destruct ts as [|t ts]; [reflexivity|]. rewrite !grid_sum_cons, IH. ring. Qed.
Lemma grid_sum_qsumf {A} (g : A -> Qc -> Qc) l xs ts : grid_sum (fun t => qsumf (fun a => g a t) l) xs ts = qsumf (fun a => grid_sum (g a) xs ts) l.
Proof.
  induction l as [|a l IH]; [apply grid_sum_zero|]. rewrite qsumf_cons, <- IH. rewrite <- (grid_sum_plus (g a)). reflexivity.
Qed.
Lemma grid_sum_pairs (g : Qc -> Qc -> Qc -> Qc) l l' xs ts : grid_sum (fun t => pairs (fun a b => g a b t) l l') xs ts = pairs (fun a b => grid_sum (g a b) xs ts) l l'.
Proof.
  unfold pairs. rewrite (grid_sum_qsumf (fun a t => qsumf (fun b => g a b t) l')). apply qsumf_ext. intros a _. apply (grid_sum_qsumf (g a)).
Qed.
(** a step at a point of the grid *)
Definition step (a t : Qc) : Qc := if qleb a t then 1 else 0.
Lemma grid_step_low xs ts : grid xs ts -> forall a, a <= hd 0 xs -> grid_sum (step a) xs ts = last xs 0 - hd 0 xs.
Proof.
  revert xs ts. apply (grid_ind' (fun xs ts => forall a, a <= hd 0 xs -> grid_sum (step a) xs ts = last xs 0 - hd 0 xs)).
  - intros x a _. cbn. ring.
  - intros x y r t ts L B G IH a Ha. rewrite grid_sum_cons. change (last (x :: y :: r) 0) with (last (y :: r) 0). cbn [hd] in *.
    rewrite IH by (eapply Qcle_trans; eassumption). assert (E : (y - x) * step a t = y - x); [|rewrite E; ring].
    destruct (Qclt_le_dec x y) as [S|S]; [|rewrite (width_zero x y L) by (apply Qcle_not_lt, S); ring]. destruct (B S) as [B1 _]. unfold step. destruct (qleb_spec a t) as [?|C]; [ring|].
    exfalso. apply (Qcle_not_lt a x Ha). eapply Qclt_trans; eassumption.
Qed.
Lemma grid_step xs ts : grid xs ts -> forall a, In a xs -> grid_sum (step a) xs ts = last xs 0 - a.
Proof.
  revert xs ts. apply (grid_ind' (fun xs ts => forall a, In a xs -> grid_sum (step a) xs ts = last xs 0 - a)).
  - intros x a [<-|[]]. cbn. ring.
  - intros x y r t ts L B G IH a Ha. destruct Ha as [<-|Ha].
    + apply (grid_step_low (x :: y :: r) (t :: ts)); [rewrite grid_cons; auto|apply Qcle_refl].
    + rewrite grid_sum_cons. change (last (x :: y :: r) 0) with (last (y :: r) 0). rewrite IH by exact Ha. pose proof (grid_le _ _ G a Ha) as Q. cbn [hd] in Q.
      assert (E : (y - x) * step a t = 0); [|rewrite E; ring].
      destruct (Qclt_le_dec x y) as [S|S]; [|rewrite (width_zero x y L) by (apply Qcle_not_lt, S); ring]. destruct (B S) as [_ B2]. unfold step. destruct (qleb_spec a t) as [C|?]; [|ring].
      exfalso. apply (Qcle_not_lt a t C). eapply Qclt_le_trans; eassumption.
Qed.
Lemma step_mult a b t : step a t * step b t = step (qmax a b) t.
Proof.
  unfold step, qmax. destruct (qleb_spec a b), (qleb_spec a t), (qleb_spec b t); try ring; exfalso.
  - apply (Qcle_not_lt a t); [eapply Qcle_trans; eassumption|assumption].
  - apply (Qcle_not_lt b t); [eapply Qcle_trans; [apply Qclt_le_weak|]; eassumption|assumption].
Qed.
Lemma qmax_in a b (xs : list Qc) : In a xs -> In b xs -> In (qmax a b) xs.
Proof. unfold qmax. destruct (qleb a b); auto. Qed.
(** the squared distance between the distribution of the members and the step at the observation *)
Definition sqdist (o : Qc) (ms : list Qc) (t : Qc) : Qc :=
  let d := qsumf (fun a => step a t) ms / qn (length ms) - step o t in d * d.
Lemma overlap_max o a b : overlap o a b = (qmax a o - qmax a b) + (qmax b o - o).
Proof.
  unfold overlap. apply half_eq. unfold qabs, qmax.
  destruct (qltb_spec (a - o) 0), (qltb_spec (b - o) 0), (qltb_spec (a - b) 0), (qleb_spec a o), (qleb_spec b o), (qleb_spec a b); qlra.
Qed.
Lemma sqdist_grid o ms xs ts : ms <> [] -> grid xs ts -> In o xs -> (forall m, In m ms -> In m xs) -> grid_sum (sqdist o ms) xs ts = crps_of o ms.
Proof.
  intros N G O M. pose proof (qn_neq0 (length ms) (length_pos _ N)) as Z. set (n := qn (length ms)) in *.
  transitivity (grid_sum (fun t => / (n * n) * pairs (fun a b => (step (qmax a b) t + - (1) * step (qmax a o) t) + (- (1) * step (qmax b o) t + step o t)) ms ms) xs ts).
  - apply grid_sum_ext; [exact G|]. intros t _ _.
    rewrite (pairs_ext _ (fun a b => (step a t * step b t + - (1) * (step a t * step o t)) + (- (1) * (step b t * step o t) + step o t * step o t))).
    2:{ intros a b _ _. rewrite !step_mult, (qmax_l o o) by apply Qcle_refl. reflexivity. }
    rewrite !pairs_plus, !pairs_scale. rewrite pairs_const. rewrite (pairs_fst (fun a => step a t * step o t)), (pairs_snd (fun a => step a t * step o t)).
    rewrite qsumf_scale_r. unfold sqdist. fold n. unfold pairs. rewrite (qsumf_ext (fun a => qsumf (fun b => step a t * step b t) ms) (fun a => step a t * qsumf (fun b => step b t) ms)) by (intros; apply qsumf_scale).
    rewrite qsumf_scale_r. fold n. set (S := qsumf (fun a => step a t) ms). change (qsumf (fun b => step b t) ms) with S. clearbody S n. field. exact Z.
  - rewrite grid_sum_scale, grid_sum_pairs. unfold crps_of. fold n. rewrite (pairs_ext _ (overlap o)); [field; exact Z|]. intros a b Ha Hb.
    rewrite !grid_sum_plus, !grid_sum_scale. rewrite !(grid_step xs ts G) by (try apply qmax_in; auto). rewrite overlap_max. ring.
Qed.
