(** Proofs: error metrics of a group (C11-C13), array-level bootstrap statements (C14, C15). *)
From Coq Require Import ZArith List Lia Bool Arith Permutation Sorted QArith Qcanon Reals Lra.
From Verif Require Import QcTac QSum Num NdArr Numpy M_common NdAxes M_boot RTier M_determ Spec P_boot P_boot2.
Import ListNotations.
Open Scope Qc_scope.

Lemma is_fin_val x : is_fin x -> x = Fin (val x).
Proof. intros [q ->]. reflexivity. Qed.

Lemma avg_fin e rng ax a r ns k L :
  boot_or_avg e rng ax None a = Ok r -> axes_are (length (shape a)) ax ns -> Cells (shape a) ns k L -> L <> [] ->
  (forall ix, In ix L -> is_fin (get a ix)) ->
  get r k = Fin (mean_of (map (fun ix => val (get a ix)) L)).
Proof.
  intros H Hax HL Hne Hfin. destruct (avg_spec _ _ _ _ _ _ H Hax) as [_ G]. rewrite (G k L HL).
  rewrite (map_fin_ext (get a) (fun ix => val (get a ix)) L) by (intros ix Hix; apply is_fin_val, Hfin, Hix).
  assert (Hm : map (fun ix => val (get a ix)) L <> []) by (destruct L; [contradiction|discriminate]).
  destruct (skip_nan e); [rewrite nanmean_fin by exact Hm|rewrite nmean_fin by exact Hm]; reflexivity.
Qed.

Lemma cell_fin (g : num -> num -> num) (h : Qc -> Qc -> Qc) (f o : arr num) ix :
  (forall x y, g (Fin x) (Fin y) = Fin (h x y)) -> is_fin (get f ix) -> is_fin (get o ix) ->
  get (amap2 g f o) ix = Fin (h (val (get f ix)) (val (get o ix))).
Proof. intros Hg [x Hx] [y Hy]. cbn [amap2 get]. rewrite Hx, Hy. apply Hg. Qed.

Lemma pub_fin (g : num -> num -> num) (h : Qc -> Qc -> Qc) e rng ax f o r ns k L :
  (forall x y, g (Fin x) (Fin y) = Fin (h x y)) ->
  boot_or_avg e rng ax None (amap2 g f o) = Ok r -> axes_are (length (shape f)) ax ns -> Cells (shape f) ns k L -> L <> [] ->
  (forall ix, In ix L -> is_fin (get f ix) /\ is_fin (get o ix)) ->
  get r k = Fin (mean_of (map (fun ix => h (val (get f ix)) (val (get o ix))) L)).
Proof.
  intros Hg H Hax HL Hne Hfin.
  rewrite (avg_fin e rng ax (amap2 g f o) r ns k L H Hax HL Hne).
  - f_equal. f_equal. apply map_ext_in. intros ix Hix. destruct (Hfin ix Hix) as [F O].
    rewrite (cell_fin g h f o ix Hg F O). reflexivity.
  - intros ix Hix. destruct (Hfin ix Hix) as [F O]. rewrite (cell_fin g h f o ix Hg F O). eexists. reflexivity.
Qed.

Definition dif (f o : arr num) (ix : list nat) : Qc := val (get f ix) - val (get o ix).

Lemma error_relations {A} (d : A -> Qc) (L : list A) : L <> [] ->
  let me := qmeanf d L in let ms := qmeanf (fun x => d x * d x) L in let ma := qmeanf (fun x => qabs (d x)) L in
  qabs me <= ma /\ ma * ma <= ms /\ 0 <= ms /\ ms = me * me + qmeanf (fun x => (d x - me) * (d x - me)) L /\
  (ms = 0 <-> forall x, In x L -> d x = 0) /\ (ma = 0 <-> forall x, In x L -> d x = 0).
Proof.
  intros HL me ms ma. split; [|split; [|split; [|split; [|split]]]].
  - unfold me, ma, qmeanf. rewrite <- (map_map d qabs). apply mean_abs_ge_abs_mean.
  - pose proof (mean_sq_ge (fun x => qabs (d x)) L HL) as H. unfold ma, ms.
    rewrite (qmeanf_ext (fun x => d x * d x) (fun x => qabs (d x) * qabs (d x))) by (intros; symmetry; apply qabs_sq).
    exact H.
  - apply qmeanf_nonneg; [exact HL|]. intros x _. apply qsq_nonneg.
  - unfold ms, me. rewrite (mean_sq_decomp d L HL). ring.
  - unfold ms. rewrite (qmeanf_zero_iff (fun x => d x * d x) L HL) by (intros; apply qsq_nonneg).
    split; intros H x Hx; [apply qsq_zero, H, Hx|rewrite (H x Hx); reflexivity].
  - unfold ma. rewrite (qmeanf_zero_iff (fun x => qabs (d x)) L HL) by (intros; apply qabs_nonneg).
    split; intros H x Hx; apply qabs_zero, H, Hx.
Qed.
Lemma sqrt_ge_of_sq a s : 0 <= a -> a * a <= s -> (q2r a <= sqrt (q2r s))%R.
Proof.
  intros Ha H. apply q2r_le in Ha, H. rewrite q2r_0 in Ha. rewrite q2r_mult in H.
  rewrite <- (sqrt_square (q2r a)) by exact Ha. apply sqrt_le_1_alt, H.
Qed.

(** ** Array level bootstrap *)
Lemma spelling_cells nd ax ns ns' : axes_are nd ax ns -> Permutation ns ns' -> forall sh k L,
  length sh = nd -> Cells sh ns k L -> Permutation (group sh (mask_of nd ns') k) L.
Proof.
  intros _ P sh k L <- HL. rewrite <- (mask_of_perm _ _ _ P). apply Cells_perm, HL.
Qed.
Lemma kept_prod nd ns sh : length sh = nd -> kept nd ns sh = unsel (mask_of nd ns) sh.
Proof. apply kept_unsel. Qed.

Lemma boot_groups e rng (a : arr num) ax ns n r :
  let nd := length (shape a) in
  axes_are nd ax ns -> same_sign ax -> prod (kept nd ns (shape a)) <> 0%nat ->
  boot_or_avg e rng ax (Some n) a = Ok r ->
  shape r = (3 :: kept nd ns (shape a))%nat /\
  forall k L, valid (kept nd ns (shape a)) k -> Cells (shape a) ns k L ->
    exists pop v c, Permutation pop (map (get a) L) /\ boot_vec e (rng c) pop n = Ok v /\
      get r (0 :: k)%nat = nth 0 v NaN /\ get r (1 :: k)%nat = nth 1 v NaN /\ get r (2 :: k)%nat = nth 2 v NaN.
Proof.
  intros nd Hax Hs HK H. destruct (same_sign_spelling nd ax ns Hax Hs) as (ns' & P & Hsp).
  cbn [boot_or_avg] in H.
  assert (Ek : kept nd ns (shape a) = unsel (mask_of nd ns') (shape a)).
  { rewrite kept_unsel by reflexivity. rewrite (mask_of_perm _ _ _ P). reflexivity. }
  rewrite Ek in *. destruct (boot_arr_spec e rng a ax ns' n r Hsp HK H) as [Hsh Hv]. fold nd in Hsh, Hv.
  split; [exact Hsh|]. intros k L Hk HL. destruct (Hv k Hk) as (v & Ev & Hg).
  exists (map (get a) (group (shape a) (mask_of nd ns') k)), v, (flat (unsel (mask_of nd ns') (shape a)) k).
  split; [apply Permutation_map; eapply spelling_cells; eauto|]. split; [exact Ev|].
  repeat split; apply Hg; lia.
Qed.
Lemma boot_accepts e rng (a : arr num) ax ns n :
  let nd := length (shape a) in
  axes_are nd ax ns -> same_sign ax -> (forall x, In x (shape a) -> 0 < x)%nat ->
  0 <= confidence e -> confidence e <= 1 -> (0 < repeats e)%nat ->
  exists r, boot_or_avg e rng ax (Some n) a = Ok r.
Proof.
  intros nd Hax Hs Hpos H0 H1 Hr. destruct (same_sign_spelling nd ax ns Hax Hs) as (ns' & P & Hsp).
  assert (Hp : forall m : list bool, prod (sel m (shape a)) <> 0%nat).
  { clear -Hpos. revert Hpos. generalize (shape a). induction l as [|x r IH]; intros Hpos [|b m]; cbn [sel prod]; try lia.
    destruct b; cbn [prod]; [|apply IH; intros y Hy; apply Hpos; right; exact Hy].
    specialize (IH (fun y Hy => Hpos y (or_intror Hy)) m). specialize (Hpos x (or_introl eq_refl)). nia. }
  cbn [boot_or_avg]. unfold nd in Hsp. rewrite (boot_arr_unfold e rng a ax ns' n Hsp (Hp _)). fold nd.
  set (keep := unsel (mask_of nd ns') (shape a)).
  assert (Hlen : length (mask_of nd ns') = length (shape a)) by apply mask_of_length.
  assert (G : exists cols, mapM (fun k => boot_vec e (rng (flat keep k)) (map (get a) (group (shape a) (mask_of nd ns') k)) n) (indices keep) = Ok cols).
  { assert (V : forall k, In k (indices keep) -> exists v, boot_vec e (rng (flat keep k)) (map (get a) (group (shape a) (mask_of nd ns') k)) n = Ok v).
    { intros k Hk. apply in_indices in Hk. apply boot_vec_defined; try assumption.
      intros E. apply map_eq_nil in E. revert E. apply group_nonempty; [exact Hlen|exact Hk|]. specialize (Hp (mask_of nd ns')). lia. }
    revert V. generalize (indices keep). induction l as [|k l IH]; intros V; [exists []; reflexivity|].
    destruct (V k (or_introl eq_refl)) as (v & Ev). destruct IH as (cols & Ec); [intros k' Hk'; apply V; right; exact Hk'|].
    exists (v :: cols). cbn [mapM]. rewrite Ev. cbn [bind]. rewrite Ec. reflexivity. }
  destruct G as (cols & ->). cbn [bind]. eexists. reflexivity.
Qed.
