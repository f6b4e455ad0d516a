(** Property C54: the setting pyanen_split_crps_ensemble_along_0. *)
From Coq Require Import ZArith List Bool Arith Lia QArith Qcanon.
From Verif Require Import QcTac Num NdArr NdAxes Spec NdMove M_crpsens.
Import ListNotations.
Open Scope nat_scope.

(** ** Specification *)
(** [l] lists the members at [ix] along axis [i] of the forecasts *)
Definition members_at (f : arr num) (i : nat) (ix : list nat) : list num :=
  map (fun m => get f (insert_at i m ix)) (seq 0 (nth i (shape f) 0)).
(** the shapes a constructed verifier has (C59): [z] denotes axis [i], and dropping it gives the observations' shape *)
Definition fits (o f : arr num) (z : Z) (i : nat) : Prop := axis_is (length (shape f)) z i /\ remove_at i (shape f) = shape o.

(** ** Proofs *)
Lemma insert_last {A} (x : A) l : insert_at (length l) x l = l ++ [x].
Proof. rewrite <- (app_nil_r l) at 2. rewrite insert_at_app. reflexivity. Qed.
Lemma to_end (f : arr num) z i : axis_is (length (shape f)) z i -> exists g, moveaxis z (-1) f = Ok g /\
  shape g = remove_at i (shape f) ++ [nth i (shape f) 0] /\ forall ix m, length ix = length (shape f) - 1 -> get g (ix ++ [m]) = get f (insert_at i m ix).
Proof.
  intros [L E]. unfold moveaxis. rewrite (norm_axis_fun _ z i L E). cbn [bind]. set (n := length (shape f)) in *.
  rewrite (norm_axis_fun n (-1) (n - 1)) by (clear - L; lia). cbn [bind]. eexists. split; [reflexivity|]. split.
  - rewrite shape_transpose, pick_moveaxis_order by (unfold n; auto). rewrite <- insert_last, remove_at_length by exact L. reflexivity.
  - intros ix m H. rewrite <- (get_transpose (moveaxis_order n i (n - 1)) f (insert_at i m ix)).
    + rewrite pick_moveaxis_order; [|rewrite insert_at_length; lia|exact L]. rewrite nth_insert_at, remove_insert_at by lia. rewrite <- H, insert_last. reflexivity.
    + apply moveaxis_order_perm. exact L.
    + rewrite insert_at_length. lia.
Qed.
Section C54.
Variable cell : num -> list num -> num.
(** what both settings should give *)
Definition scores (o f : arr num) (i : nat) (a : arr num) : Prop :=
  shape a = shape o /\ forall ix, valid (shape o) ix -> get a ix = cell (get o ix) (members_at f i ix).

Lemma core o g i f : shape g = shape o ++ [nth i (shape f) 0] ->
  (forall ix m, length ix = length (shape o) -> get g (ix ++ [m]) = get f (insert_at i m ix)) ->
  exists a, crps_ensemble cell o g (-1) = Ok a /\ scores o f i a.
Proof.
  intros Eg Gg. unfold crps_ensemble. cbn [bind Z.eqb Pos.eqb]. destruct (list_eqb (shape o) (shape g)) eqn:E1.
  { exfalso. apply list_eqb_spec in E1. rewrite Eg in E1. apply (f_equal (@length nat)) in E1. rewrite app_length in E1. cbn in E1. lia. }
  rewrite Eg, removelast_last, list_eqb_refl. eexists. split; [reflexivity|]. split; [reflexivity|]. intros ix V. cbn [get]. f_equal. unfold members_last, members_at. rewrite Eg, last_last.
  apply map_ext. intros m. apply Gg. apply (valid_length _ _ V).
Qed.
Lemma same_axis o f z i : fits o f z i -> (z = -1 \/ z = Z.of_nat (length (shape f)) - 1)%Z ->
  shape f = shape o ++ [nth i (shape f) 0] /\ (forall ix m, length ix = length (shape o) -> get f (ix ++ [m]) = get f (insert_at i m ix)).
Proof.
  intros [[L E] R] Z. assert (Hi : i = length (shape f) - 1) by lia. assert (Lo : length (shape o) = i) by (rewrite <- R, remove_at_length by exact L; lia). split.
  - rewrite <- R at 1. rewrite <- insert_last. replace (length (remove_at i (shape f))) with i by (rewrite R; auto). symmetry. apply insert_remove_at. exact L.
  - intros ix m H. replace i with (length ix) by congruence. rewrite insert_last. reflexivity.
Qed.
Lemma moved o f z i : fits o f z i -> exists g, (if Z.eqb z (-1) then Ok f else moveaxis z (-1) f) = Ok g /\ shape g = shape o ++ [nth i (shape f) 0] /\
  (forall ix m, length ix = length (shape o) -> get g (ix ++ [m]) = get f (insert_at i m ix)).
Proof.
  intros F. destruct (Z.eqb_spec z (-1)) as [E|E].
  - exists f. split; [reflexivity|]. apply (same_axis o f z i F). auto.
  - destruct F as [L R]. destruct (to_end f z i L) as (g & Eg & Sg & Gg). exists g. split; [exact Eg|]. split; [rewrite Sg, R; reflexivity|].
    intros ix m H. apply Gg. rewrite H, <- R, remove_at_length by apply L. reflexivity.
Qed.
(** Without splitting, every cell is scored against the members behind it. *)
Theorem c54_whole : forall o f z i, fits o f z i -> exists a, crps cell false o f z = Ok a /\ scores o f i a.
Proof.
  intros o f z i F. destruct (moved o f z i F) as (g & Eg & Sg & Gg). unfold crps. destruct (core o g i f Sg Gg) as (a & Ea & Sa). exists a. split; [|exact Sa].
  unfold crps_ensemble in *. rewrite Eg. cbn [bind]. cbn [Z.eqb Pos.eqb bind] in Ea. exact Ea.
Qed.
Lemma crps_list o g (D : nat) n s : shape o = n :: s -> shape g = (n :: s) ++ [D] -> forall k b, k + b <= n -> exists l,
  mapM (fun i => a <- item0 o i ;; b <- item0 g i ;; crps_ensemble cell a b (-1)) (seq b k) = Ok l /\ length l = k /\
  forall j, j < k -> shape (nth j l o) = s /\ forall ix, get (nth j l o) ix = cell (get o ((b + j) :: ix)) (map (fun m => get g ((b + j) :: ix ++ [m])) (seq 0 D)).
Proof.
  intros So Sg. induction k as [|k IH]; intros b H; [exists []; repeat split; intros; lia|]. cbn [seq mapM]. destruct (IH (S b) ltac:(lia)) as (l & El & Ll & Gl).
  unfold item0 at 1 2. rewrite So, Sg. cbn [app]. destruct (Nat.ltb_spec b n); [|lia]. cbn [bind]. unfold crps_ensemble at 1. cbn [Z.eqb Pos.eqb bind shape].
  destruct (list_eqb s (s ++ [D])) eqn:E1. { exfalso. apply list_eqb_spec in E1. apply (f_equal (@length nat)) in E1. rewrite app_length in E1. cbn in E1. lia. }
  rewrite removelast_last, list_eqb_refl. cbn [bind]. rewrite El. cbn [bind]. eexists. split; [reflexivity|]. split; [cbn; lia|]. intros [|j] Hj; cbn [nth].
  - rewrite Nat.add_0_r. split; [reflexivity|]. intros ix. cbn [get]. unfold members_last. cbn [shape]. rewrite last_last. reflexivity.
  - destruct (Gl j ltac:(lia)) as [G1 G2]. split; [exact G1|]. intros ix. rewrite G2. replace (S b + j) with (b + S j) by lia. reflexivity.
Qed.
(** The same with splitting, when there is a first axis and it is not empty.  Missing: observations that are a single
    number, and empty first axes, where the two settings differ (below). *)
Theorem c54_split_partial : forall o f z i, fits o f z i -> shape o <> [] -> hd 0 (shape o) <> 0 ->
  exists a b, crps cell true o f z = Ok a /\ crps cell false o f z = Ok b /\ arr_eq a b /\ scores o f i a.
Proof.
  intros o f z i F N0 N1. destruct (c54_whole o f z i F) as (w & Ew & Sw & Gw).
  cut (exists a, crps cell true o f z = Ok a /\ scores o f i a).
  { intros (a & Ea & Sa & Ga). exists a, w. split; [exact Ea|]. split; [exact Ew|]. split; [|split; assumption]. split; [congruence|]. intros ix V. rewrite Sa in V. rewrite Ga, Gw by exact V. reflexivity. }
  unfold crps, crps_split. assert (G : exists g, (if (z =? -1)%Z || (z =? Z.of_nat (length (shape f)) - 1)%Z then Ok f else moveaxis z (-1) f) = Ok g /\ shape g = shape o ++ [nth i (shape f) 0] /\
    (forall ix m, length ix = length (shape o) -> get g (ix ++ [m]) = get f (insert_at i m ix))).
  { destruct (Z.eqb_spec z (-1)) as [E|E]; cbn [orb].
    - exists f. split; [reflexivity|]. apply (same_axis o f z i F). auto.
    - destruct (Z.eqb_spec z (Z.of_nat (length (shape f)) - 1)) as [E2|E2].
      + exists f. split; [reflexivity|]. apply (same_axis o f z i F). auto.
      + destruct (moved o f z i F) as (g & Eg & H). exists g. split; [|exact H]. destruct (Z.eqb_spec z (-1)); [contradiction|exact Eg]. }
  destruct G as (g & Eg & Sg & Gg). rewrite Eg. cbn [bind]. destruct (shape o) as [|n s] eqn:So; [elim N0; reflexivity|]. cbn [hd] in N1.
  destruct (crps_list o g _ n s So Sg n 0 ltac:(lia)) as (l & El & Ll & Gl). rewrite El. cbn [bind].
  destruct l as [|a r] eqn:Hl; [cbn in Ll; lia|]. unfold stack0.
  assert (Sa : forall b, In b (a :: r) -> shape b = s). { intros b Hb. destruct (In_nth _ _ o Hb) as (j & Hj & <-). apply Gl. rewrite <- Ll. exact Hj. }
  rewrite (Sa a) by (left; reflexivity).
  assert (FA : forallb (fun b => list_eqb (shape b) s) r = true). { apply forallb_forall. intros b Hb. apply list_eqb_spec, Sa. right. exact Hb. }
  rewrite FA, Ll. eexists. split; [reflexivity|]. split; [cbn [shape]; congruence|]. rewrite So. intros ix V. destruct ix as [|j ix]; [inversion V|]. assert (Vj : j < n) by (inversion V; assumption). assert (Vx : valid s ix) by (inversion V; assumption). cbn [get hd tl].
  rewrite (nth_indep _ a o) by (rewrite Ll; exact Vj). destruct (Gl j Vj) as [_ G2]. rewrite G2. cbn [Nat.add]. f_equal. unfold members_at. apply map_ext. intros m. apply (Gg (j :: ix) m). cbn. f_equal. apply (valid_length _ _ Vx).
Qed.
(** With an empty first axis the unsplit CRPS is an empty array and the split one raises. *)
Theorem c54_empty_refuted : forall o f z i, fits o f z i -> shape o <> [] -> hd 0 (shape o) = 0 ->
  crps cell true o f z = Raise ValueError /\ exists a, crps cell false o f z = Ok a /\ shape a = shape o.
Proof.
  intros o f z i F N0 N1. destruct (c54_whole o f z i F) as (w & Ew & Sw & _). split; [|exists w; auto].
  unfold crps, crps_split. assert (G : exists g, (if (z =? -1)%Z || (z =? Z.of_nat (length (shape f)) - 1)%Z then Ok f else moveaxis z (-1) f) = Ok g).
  { destruct (_ || _)%bool; [eexists; reflexivity|]. destruct (to_end f z i (proj1 F)) as (g & Eg & _). exists g. exact Eg. }
  destruct G as (g & ->). cbn [bind]. destruct (shape o) as [|n s]; [elim N0; reflexivity|]. cbn [hd] in N1. subst n. reflexivity.
Qed.
(** With a single observation likewise. *)
Theorem c54_scalar_refuted : forall o f z i, fits o f z i -> shape o = [] ->
  crps cell true o f z = Raise IndexError /\ exists a, crps cell false o f z = Ok a /\ get a [] = cell (get o []) (members_at f i []).
Proof.
  intros o f z i F N0. destruct (c54_whole o f z i F) as (w & Ew & Sw & Gw). split; [|exists w; split; [exact Ew|apply Gw; rewrite N0; constructor]].
  unfold crps, crps_split. assert (G : exists g, (if (z =? -1)%Z || (z =? Z.of_nat (length (shape f)) - 1)%Z then Ok f else moveaxis z (-1) f) = Ok g).
  { destruct (_ || _)%bool; [eexists; reflexivity|]. destruct (to_end f z i (proj1 F)) as (g & Eg & _). exists g. exact Eg. }
  destruct G as (g & ->). cbn [bind]. rewrite N0. reflexivity.
Qed.
End C54.
Print Assumptions c54_whole.
Print Assumptions c54_split_partial.
Print Assumptions c54_empty_refuted.
Print Assumptions c54_scalar_refuted.

(** ** Concrete cases *)
(** a cell function that tells all its arguments apart *)
Definition w_cell (o : num) (l : list num) : num := fold_left (fun a x => nadd (nmul a (Fin (qz 10))) x) l o.
Definition w_o : arr num := of_list NaN [2; 2] (map (fun k => Fin (qz k)) [1; 2; 3; 4]%Z).
Definition w_f (sh : list nat) : arr num := Arr sh (fun ix => Fin (qz (Z.of_nat (fold_left (fun a k => a * 3 + k) ix 0)))).
Definition w_values (sh : list nat) (z : Z) : res (list num) := rmap ravel (crps w_cell true w_o (w_f sh) z).
Example c54_nonvacuous :
  (fits w_o (w_f [2; 2; 3]) (-1) 2 /\ fits w_o (w_f [2; 2; 3]) 2 2 /\ fits w_o (w_f [3; 2; 2]) 0 0 /\ fits w_o (w_f [3; 2; 2]) (-3) 0) /\
  w_values [2; 2; 3] (-1) = Ok (map (fun k => Fin (qz k)) [1012; 2345; 4011; 5344]%Z) /\
  w_values [2; 2; 3] 2 = Ok (map (fun k => Fin (qz k)) [1012; 2345; 4011; 5344]%Z) /\
  w_values [3; 2; 2] 0 = Ok (map (fun k => Fin (qz k)) [1108; 2219; 3441; 4552]%Z) /\
  w_values [3; 2; 2] (-3) = Ok (map (fun k => Fin (qz k)) [1108; 2219; 3441; 4552]%Z).
Proof.
  split; [repeat split; cbn; lia|]. repeat split; vm_compute; repeat first [reflexivity | apply Qc_is_canon; reflexivity | f_equal].
Qed.
Example c54_refuted_nonvacuous : fits (Arr [0; 2] (fun _ => NaN)) (w_f [0; 2; 3]) (-1) 2 /\ fits (Arr [] (fun _ => NaN)) (w_f [3]) (-1) 0.
Proof. repeat split; cbn; lia. Qed.
