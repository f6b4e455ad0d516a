(** Lemmas for the variance, the spread-skill diagram and the correlation of the whole program. *)
From Coq Require Import String ZArith List Lia Bool Arith QArith Qcanon Sorting.Permutation.
From Verif Require Import QcTac QSum Num NdArr Numpy NdAxes NdMove M_common M_boot M_special M_rel M_ss Spec Spec_rel Spec_ss P_boot P_rel P_dist P_special P_work P_ss Props_ss
  Store M_state M_whole P_whole M_whole4.
Import ListNotations.
Open Scope string_scope.
Open Scope list_scope.
Open Scope nat_scope.

(** ** Variance *)
Definition spread_about_mean (l : list Qc) : Qc := Spec.mean_of (map (fun x => (x - Spec.mean_of l) * (x - Spec.mean_of l))%Qc l).
Lemma nvar_fin l : l <> [] -> nvar (map Fin l) = Fin (spread_about_mean l).
Proof.
  intros N. unfold nvar. rewrite nmean_fin, qmean_mean_of by exact N. rewrite map_map.
  rewrite (map_ext _ (fun x => Fin ((x - Spec.mean_of l) * (x - Spec.mean_of l))%Qc)) by reflexivity. rewrite <- (map_map (fun x => ((x - Spec.mean_of l) * (x - Spec.mean_of l))%Qc) Fin).
  rewrite nmean_fin, qmean_mean_of by (destruct l; [contradiction|discriminate]). reflexivity.
Qed.
Lemma spread_about_mean_nonneg l : (0 <= spread_about_mean l)%Qc.
Proof.
  unfold spread_about_mean. rewrite <- qmean_mean_of. destruct l as [|a l]; [vm_compute; discriminate|]. apply qmean_ge; [discriminate|].
  intros z I. apply in_map_iff in I as (x & <- & _). set (d := (x - Spec.mean_of (a :: l))%Qc). clearbody d. qnra.
Qed.
Lemma nsum_nan l : In NaN l -> nsum l = NaN.
Proof.
  induction l as [|x l IH]; [intros []|]. intros [->|I]; [reflexivity|]. cbn [nsum fold_right]. change (fold_right nadd (Fin 0%Qc) l) with (nsum l). rewrite (IH I). destruct x; reflexivity.
Qed.
Lemma nmean_nan l : In NaN l -> nmean l = NaN.
Proof. intros I. unfold nmean. rewrite (nsum_nan _ I). reflexivity. Qed.
Lemma nvar_nan l : In NaN l -> nvar l = NaN.
Proof. intros I. unfold nvar. apply nmean_nan. apply in_map_iff. exists NaN. split; [reflexivity|exact I]. Qed.
Lemma var_along_ok z a ax : axis_is (length (shape a)) z ax ->
  exists r, var_along z a = Ok r /\ shape r = drop_axis ax (shape a) /\ forall ix, valid (drop_axis ax (shape a)) ix -> get r ix = nvar (Spec.members_at ax a ix).
Proof.
  intros [Ha Hz]. unfold var_along. rewrite (norm_axis_fun _ _ _ Ha Hz). cbn [bind]. eexists. split; [reflexivity|]. cbn [shape get]. rewrite drop_axis_remove. split; [reflexivity|].
  intros ix V. f_equal. unfold Spec.members_at. apply map_ext. intros m. rewrite insert_at_split; [reflexivity|].
  pose proof (valid_length _ _ V) as Hl. rewrite remove_at_length in Hl by exact Ha. lia.
Qed.

(** ** The bins survive being kept as a value *)
Lemma keep_round l : map (fun z => Z.to_nat (int_of z)) (map (fun n => VInt (Z.of_nat n)) l) = l.
Proof. rewrite map_map. rewrite <- (map_id l) at 2. apply map_ext. intros n. apply Nat2Z.id. Qed.
Lemma split_bins argsort v e nb ax s : ss_create_split argsort v e nb ax = Ok s -> forall b, In b (ss_bins s) -> exists n K, shape b = [n; 2; K].
Proof.
  unfold ss_create_split. destruct (list_eqb _ _); [|discriminate]. cbn [passert bind]. destruct (move_loop _ _ v) as [[v1 t]|]; [|discriminate]. cbn [bind].
  destruct (move_loop _ _ e) as [[e1 t']|]; [|discriminate]. cbn [bind]. destruct (prod _) as [|K]; [discriminate|]. cbv zeta. destruct (Nat.leb _ _); [|discriminate]. cbn [passert bind].
  destruct (array_split _ _) as [rows|]; [|discriminate]. cbn [bind]. intros X. injection X as <-. cbn [ss_bins]. intros b I. apply in_map_iff in I as (rs & <- & _). eexists. eexists. reflexivity.
Qed.
Lemma bin_col_val b n K t c : shape b = [n; 2; K] -> t < 2 -> c < K -> bin_col (arr_of (val_of b)) t c = bin_col b t c.
Proof.
  intros Sb Ht Hc. unfold bin_col. rewrite shape_of_val, Sb. cbn [nth]. apply map_ext_in. intros r I. apply in_seq in I. apply (arr_of_val b). rewrite shape_of_val, Sb. constructor; [lia|constructor; [exact Ht|constructor; [exact Hc|constructor]]].
Qed.
Lemma curves_round {B} (root : num -> B) skip bins keep : (forall b, In b bins -> exists n K, shape b = [n; 2; K]) ->
  ss_curves root skip (map arr_of (map val_of bins)) keep = ss_curves root skip bins keep.
Proof.
  intros H. unfold ss_curves. rewrite map_map.
  assert (Tb : forall t, t < 2 -> map (fun b => map (fun c => (if skip then nanmean else nmean) (bin_col b t c)) (seq 0 (nth 2 (shape b) 0))) (map (fun x => arr_of (val_of x)) bins) =
    map (fun b => map (fun c => (if skip then nanmean else nmean) (bin_col b t c)) (seq 0 (nth 2 (shape b) 0))) bins).
  { intros t Ht. rewrite map_map. apply map_ext_in. intros b I. destruct (H b I) as (n & K & Sb). rewrite shape_of_val. apply map_ext_in. intros c Ic. apply in_seq in Ic. rewrite Sb in Ic. cbn in Ic.
    rewrite (bin_col_val b n K t c Sb Ht) by lia. reflexivity. }
  destruct bins as [|b0 bins]; [reflexivity|]. cbn [map]. rewrite shape_of_val.
  pose proof (Tb 0 ltac:(lia)) as T0. pose proof (Tb 1 ltac:(lia)) as T1. cbn [map] in T0, T1. rewrite shape_of_val in T0, T1. rewrite T0, T1. cbn [length]. rewrite map_length. reflexivity.
Qed.

(** ** The diagram for any root: the mean variance and the mean squared error of each bin under the root *)
Lemma curves_value {B} (root : num -> B) argsort skip v e nb ax ns N (p y : list nat -> Qc) : (forall l, argsorts l (argsort l)) -> shape e = shape v ->
  axes_are (length (shape v)) ax ns -> same_sign ax ->
  prod (kept (length (shape v)) ns (shape v)) <> 0 -> prod (shape v) = N * prod (kept (length (shape v)) ns (shape v)) -> 1 <= nb <= N ->
  (forall ix, Forall2 lt ix (shape v) -> get v ix = Fin (p ix) /\ get e ix = Fin (y ix)) ->
  exists s sp rm, ss_create_split argsort v e nb ax = Ok s /\ ss_curves root skip (ss_bins s) (ss_keep s) = Ok (sp, rm) /\
  shape sp = kept (length (shape v)) ns (shape v) ++ [nb] /\ shape rm = kept (length (shape v)) ns (shape v) ++ [nb] /\
  forall k L, Forall2 lt k (kept (length (shape v)) ns (shape v)) -> Cells (shape v) ns k L ->
  exists Bs, ordered_bins (fun x y => (p x <= p y)%Qc) L nb Bs /\
    forall b, b < nb -> get sp (k ++ [b]) = root (Fin (Spec.mean_of (map p (nth b Bs [])))) /\ get rm (k ++ [b]) = root (Fin (Spec.mean_of (map y (nth b Bs [])))).
Proof.
  intros Harg Hsh Hax Hss HK HN Hnb Hd.
  destruct (c32_pairs_in_ordered_bins argsort v e nb ax ns N Harg Hsh Hax Hss HK HN Hnb) as (s & Es & Ks & H).
  set (keep := kept (length (shape v)) ns (shape v)) in *.
  assert (Hshapes : (forall b, In b (ss_bins s) -> nth 2 (shape b) 0 = prod keep) /\ length (ss_bins s) = nb).
  { destruct (same_sign_spelling _ _ _ Hax Hss) as (ns' & P & Hsp). pose proof (pos_shape v _ ns N eq_refl HN HK) as EN. rewrite (mask_of_perm _ ns ns' P) in EN.
    unfold keep in HK |- *. rewrite (kept_perm _ ns ns' _ P) in HK |- *. rewrite kept_unsel in HK |- * by reflexivity.
    destruct (ss_split_ok argsort v e nb ax ns' Harg Hsh Hsp HK) as (s' & Es' & _ & L' & T' & _); [rewrite <- EN; lia|]. rewrite Es in Es'. injection Es' as <-. auto. }
  destruct Hshapes as [H2 Hlb].
  destruct (ss_curves_ok root skip (ss_bins s) keep) as (sp & rm & Eo & Ssp & Srm & G); [intros E; rewrite E in Hlb; cbn in Hlb; lia|exact H2|].
  exists s, sp, rm. split; [exact Es|]. rewrite Ks. split; [exact Eo|]. rewrite Hlb in *. split; [exact Ssp|]. split; [exact Srm|].
  intros k L Hk HL. destruct (H k (flat keep k) L) as (Bs & HB & EB).
  { rewrite Ks. rewrite (nth_error_nth' _ []) by (rewrite indices_length; apply flat_lt, Hk). rewrite nth_indices by exact Hk. reflexivity. }
  { exact HL. }
  destruct HB as (LB & PB & NB & SB & OB).
  assert (InD : forall b x, In x (nth b Bs []) -> get v x = Fin (p x) /\ get e x = Fin (y x)).
  { intros b x Hx. apply Hd. apply (proj2 HL). apply (Permutation_in _ PB). apply in_concat. exists (nth b Bs []). split; [|exact Hx]. destruct (Nat.lt_ge_cases b (length Bs)) as [Hl|Hg]; [apply nth_In, Hl|].
    rewrite nth_overflow in Hx by exact Hg. destruct Hx. }
  exists Bs. split.
  - split; [exact LB|]. split; [exact PB|]. split; [exact NB|]. split; [exact SB|]. intros i j x0 y0 Hij Hx Hy. pose proof (OB i j x0 y0 Hij Hx Hy) as O.
    destruct (InD i x0 Hx) as (Ex & _). destruct (InD j y0 Hy) as (Ey & _). rewrite Ex, Ey in O. destruct O as [O|O]; [discriminate|apply qleb_le, O].
  - intros b Hb. destruct (G k b Hk Hb) as [G1 G2]. pose proof (nth_bins _ _ _ _ _ b EB ltac:(lia)) as Pb. destruct (bin_cols _ _ _ _ _ Pb) as (C0 & C1 & _).
    assert (Nn : nth b Bs [] <> []) by (apply NB, nth_In; lia).
    assert (M : forall (f : list nat -> Qc) (g : list nat -> num), (forall x, In x (nth b Bs []) -> g x = Fin (f x)) ->
       (if skip then nanmean else nmean) (map g (nth b Bs [])) = Fin (Spec.mean_of (map f (nth b Bs [])))).
    { intros f g Hf. rewrite (map_ext_in g (fun x => Fin (f x))) by exact Hf. rewrite <- (map_map f Fin). rewrite <- qmean_mean_of.
      assert (Nf : map f (nth b Bs []) <> []) by (destruct (nth b Bs []); [contradiction|discriminate]). destruct skip; [apply nanmean_fin|apply nmean_fin]; exact Nf. }
    rewrite G1, G2, C0, C1. rewrite (M p (get v)), (M y (get e)); [split; reflexivity| |]; intros x Hx; apply (InD b x Hx).
Qed.

(** ** Correlation: the coefficient of the cells of a group, taken in some order *)
Definition usable (skip : bool) (f o : list nat -> num) (L : list (list nat)) : list (list nat) :=
  if skip then filter (fun ix => negb (is_nan (f ix)) && negb (is_nan (o ix)))%bool L else L.
Lemma masked_cells {B} (cc : list num -> list num -> B) skip (f o : list nat -> num) L :
  corr_masked cc skip (map f L) (map o L) = cc (map f (usable skip f o L)) (map o (usable skip f o L)).
Proof.
  unfold corr_masked, usable. destruct skip; [|reflexivity].
  assert (E : filter (fun q : num * num => negb (is_nan (fst q)) && negb (is_nan (snd q)))%bool (combine (map f L) (map o L)) =
    map (fun ix => (f ix, o ix)) (filter (fun ix => negb (is_nan (f ix)) && negb (is_nan (o ix)))%bool L)).
  { induction L as [|ix L IH]; [reflexivity|]. cbn [map combine filter fst snd]. rewrite IH. destruct (_ && _)%bool; reflexivity. }
  rewrite E, !map_map. reflexivity.
Qed.
Lemma corr_with_value S T f o ax ns : shape f = shape o -> plain_axes (length (shape o)) ax ns -> 0 < prod (kept (length (shape o)) ns (shape o)) ->
  exists r, corr_with S T f o ax = Ok r /\ shape r = kept (length (shape o)) ns (shape o) /\
  forall k L, Cells (shape o) ns k L -> valid (kept (length (shape o)) ns (shape o)) k ->
    exists L', Permutation L' L /\ let U := usable (skip_nan (w_boot S)) (get f) (get o) L' in get r k = w_corrcoef T (map (get f) U) (map (get o) U).
Proof.
  intros Hsh Hax Hpos. unfold corr_with. set (func := fun (_ : nat) x y => Ok [corr_masked (w_corrcoef T) (skip_nan (w_boot S)) x y]).
  destruct (workflow_accepts NaN func f o ax ns Hsh Hax Hpos) as (r & Er); [intros; eexists; reflexivity|].
  destruct (workflow_spec NaN func f o ax ns Hsh Hax 1) with (r := r) as (_ & Sr & G); [intros i x y v E; injection E as <-; reflexivity|exact Er|].
  exists r. split; [exact Er|]. split; [exact Sr|]. intros k L HC Vk. destruct (G k Vk) as (v & Ev & Gv). injection Ev as <-.
  destruct (plain_axes_facts _ _ _ Hax) as (Hn & Hlt & _).
  exists (group_list (shape o) ns k). split; [apply group_list_perm; assumption|]. cbv zeta. rewrite <- masked_cells. exact (Gv 0 ltac:(lia)).
Qed.
