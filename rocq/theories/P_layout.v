(** Lemmas for C91 and C93: where the curves of a reliability diagram are found in the returned value. *)
From Coq Require Import String ZArith List Lia Bool Arith QArith Qcanon.
From Verif Require Import QcTac QSum Num NdArr Numpy NdAxes M_common M_boot M_special M_rel Spec Spec_prob Spec_rel P_boot P_brier P_rel Store M_state M_whole Spec_whole P_whole M_whole2 P_whole2 Spec_whole2.
Import ListNotations.
Open Scope string_scope.
Open Scope list_scope.
Open Scope nat_scope.

(** ** Layout of the returned reliability diagram *)
Definition stacked_ok {A} (ks : list nat) (s : stacked A) : Prop :=
  match s with Regular a => exists m, shape a = ks ++ [m] | Objects a => shape a = ks ++ [1] end.
Definition out_ok (ks : list nat) (out : rel_out) : Prop :=
  match out with
  | Single _ _ _ _ => ks = []
  | Many a b c d => ks <> [] /\ stacked_ok ks a /\ stacked_ok ks b /\ stacked_ok ks c /\ stacked_ok ks d
  end.
Lemma stack_ok {A} (d : A) ks ls : stacked_ok ks (stack d ks ls).
Proof. unfold stack. destruct (forallb _ _); cbn; [eexists|]; reflexivity. Qed.
Lemma rel_agg_ok ids p t bins out : rel_agg ids p t bins = Ok out -> out_ok (tl (shape t)) out.
Proof.
  unfold rel_agg. destruct (tl (shape t)) as [|n ks] eqn:E; intros H.
  - destruct (rel_slice _ _ _ _) as [[[[a b] c] d]|]; [|discriminate]. injection H as <-. reflexivity.
  - destruct (mapM _ _) as [ss|]; [|discriminate]. cbn [bind] in H. injection H as <-. cbn [out_ok]. split; [discriminate|]. repeat split; apply stack_ok.
Qed.
Lemma rel_diagram_ok f o nb ax ns out : shape f = shape o -> axes_are (length (shape o)) ax ns -> same_sign ax ->
  prod (kept (length (shape o)) ns (shape o)) <> 0%nat -> reliability_diagram f o nb ax = Ok out ->
  out_ok (kept (length (shape o)) ns (shape o)) out.
Proof.
  intros Hsh Hax Hss HK E. destruct (same_sign_spelling _ _ _ Hax Hss) as (ns' & P & Hsp).
  rewrite (kept_perm (length (shape o)) ns ns' (shape o) P) in HK |- *. rewrite (kept_unsel (length (shape o))) in HK |- * by reflexivity.
  destruct (rel_split_ok f o nb ax ns' Hsh Hsp HK) as (f2 & o2 & Es & _ & So & _). unfold reliability_diagram in E. rewrite Es in E. cbn [bind] in E.
  apply rel_agg_ok in E. rewrite So in E. exact E.
Qed.
Lemma vec_is l : vector_is (vec_of l) l.
Proof.
  split; [reflexivity|]. intros j Hj. unfold vec_of. rewrite reads_val by (constructor; [exact Hj|constructor]). cbn [of_list get flat prod].
  f_equal. lia.
Qed.
Lemma valid_snoc ks m k j : valid ks k -> j < m -> valid (ks ++ [m]) (k ++ [j]).
Proof. intros V H. apply Forall2_app; [exact V|]. constructor; [exact H|constructor]. Qed.
Lemma stacked_curve ks (s : stacked num) k : ks <> [] -> stacked_ok ks s -> valid ks k -> curve_at ks (stacked_val s) k (row s k).
Proof.
  intros N O V. destruct s as [a|a]; cbn [stacked_ok stacked_val row] in *.
  - destruct O as [m E]. left. rewrite E, last_last, map_length, seq_length. split; [exact E|]. intros j Hj.
    rewrite reads_val by (rewrite E; apply valid_snoc; assumption).
    rewrite (nth_indep _ NaN ((fun j => get a (k ++ [j])) 0)) by (rewrite map_length, seq_length; exact Hj). rewrite (map_nth (fun j => get a (k ++ [j]))), seq_nth by exact Hj. reflexivity.
  - right. split; [exact N|]. unfold objects_val. rewrite O. exists (map vec_of (ravel a)), (vec_of (get a (k ++ [0]))). split; [reflexivity|].
    assert (F : flat (ks ++ [1]) (k ++ [0]) = flat ks k) by (rewrite flat_app by exact V; cbn [flat prod]; lia).
    split; [rewrite map_length; unfold ravel; rewrite map_length, O, indices_length, prod_app; cbn [prod]; lia|]. split; [|apply vec_is].
    assert (V1 : valid (ks ++ [1]) (k ++ [0])) by (apply valid_snoc; [exact V|lia]).
    rewrite (nth_error_nth' _ (vec_of [])).
    + rewrite map_nth. do 2 f_equal. rewrite <- F, <- O. apply nth_ravel. rewrite O. exact V1.
    + rewrite map_length. unfold ravel. rewrite map_length, indices_length, O, <- F. apply flat_lt, V1.
Qed.
Definition smap {A B} (g : A -> B) (s : stacked A) : stacked B := match s with Regular a => Regular (amap g a) | Objects a => Objects (amap (map g) a) end.
Lemma stacked_counts_curve ks (s : stacked nat) k : ks <> [] -> stacked_ok ks s -> valid ks k -> curve_at ks (stacked_counts s) k (map nnat (row s k)).
Proof.
  intros N O V. replace (stacked_counts s) with (stacked_val (smap nnat s)) by (destruct s; reflexivity).
  replace (map nnat (row s k)) with (row (smap nnat s) k) by (destruct s; cbn [row smap]; [rewrite map_map|]; reflexivity).
  apply stacked_curve; [exact N|destruct s; exact O|exact V].
Qed.
Lemma rel_layout ks out : out_ok ks out -> exists fp op pc oc, rel_val out = VTuple [fp; op; pc; oc] /\
  forall k, valid ks k -> curve_at ks fp k (forecast_points out k) /\ curve_at ks op k (observed_points out k) /\
    counts_at ks pc k (point_labels out) (point_counts out k) /\ counts_at ks oc k (outcome_labels out) (outcome_counts out k).
Proof.
  destruct out as [p t pc tc|a b c d]; cbn [out_ok rel_val].
  - intros ->. do 4 eexists. split; [reflexivity|]. intros k V. inversion V; subst. cbn [forecast_points observed_points point_counts outcome_counts point_labels outcome_labels counts_at].
    split; [left; apply (vec_is p)|]. split; [left; apply (vec_is t)|]. unfold series_val. rewrite !map_map. split; do 2 eexists; (split; [reflexivity|]); split; apply vec_is.
  - intros (N & A & B & C & D). do 4 eexists. split; [reflexivity|]. intros k V. destruct ks as [|n ks]; [contradiction|]. cbn [counts_at forecast_points observed_points point_counts outcome_counts].
    split; [apply stacked_curve; assumption|]. split; [apply stacked_curve; assumption|]. split; apply stacked_counts_curve; assumption.
Qed.
