(** Properties C27, C28, C50, C51: Brier decomposition and correlation. *)
From Coq Require Import ZArith List Lia Bool Arith Permutation QArith Qcanon Reals Lra.
From Verif Require Import QcTac QSum Num NdArr Numpy M_common NdAxes M_boot Spec Spec_prob RTier M_special P_boot P_brier P_work P_corr P_special.
From Verif Require P_range NdMove.
Import ListNotations.
Open Scope Qc_scope.

(** In the statements [plain ax] says that the axis argument is None, or a non-empty list without negative
    entries; [sq x] is x * x; [vec l] is the one-dimensional array with entries l. *)

(** Example data: shape (2,3); probabilities and outcomes. *)
Definition sp_f : arr num := of_list NaN [2; 3]%nat [Fin (Q2Qc (1#10)); Fin (Q2Qc (1#2)); Fin (Q2Qc (52#100)); Fin (Q2Qc 1); Fin (Q2Qc (1#4)); Fin (Q2Qc (1#4))].
Definition sp_o : arr num := of_list NaN [2; 3]%nat (map nnat [0; 1; 0; 1; 0; 1]%nat).
Definition sp_env : boot_env := {| skip_nan := false; repeats := 3; confidence := Q2Qc (9 # 10) |}.
Definition sp_p (ix : list nat) : Qc := val (get sp_f ix).
Definition sp_y (ix : list nat) : Qc := val (get sp_o ix).

(** ** C27 *)
(** For every kept index, the mean squared difference of forecast probability and outcome over the cells of
    the group is reliability - resolution + uncertainty + within-bin variance of the forecasts - twice the
    within-bin covariance; the bins are the twenty intervals [j/20, (j+1)/20), the last one closed. *)
Theorem c27_brier_decomposition : forall e rng f o ax ns rel reso unc k L (p y : list nat -> Qc) (bin : list nat -> nat),
  shape f = shape o -> axes_are (length (shape o)) ax ns -> plain ax ->
  brier_decomp e rng f o ax None = Ok (rel, reso, unc) ->
  Forall2 lt k (kept (length (shape o)) ns (shape o)) -> Cells (shape o) ns k L ->
  (forall ix, In ix L -> get f ix = Fin (p ix) /\ get o ix = Fin (y ix) /\ (y ix = 0 \/ y ix = 1) /\ in_bin 20 (p ix) (bin ix)) ->
  exists a b c, get rel k = Fin a /\ get reso k = Fin b /\ get unc k = Fin c /\
    avg_over (fun ix => sq (p ix - y ix)) L
      = a - b + c + avg_over (fun ix => sq (p ix - bin_mean bin p L ix)) L
        - qz 2 * avg_over (fun ix => (p ix - bin_mean bin p L ix) * (y ix - bin_mean bin y L ix)) L /\
    ((forall ix jx, In ix L -> In jx L -> bin ix = bin jx -> p ix = p jx) ->
      avg_over (fun ix => sq (p ix - y ix)) L = a - b + c).
Proof.
  intros e rng f o ax ns rel reso unc k L p y bin Hsh Hax Hpl H Hk HL Hd.
  destruct (brier_values e rng f o ax ns rel reso unc k L p y bin Hsh Hax Hpl H Hk HL) as (HL0 & -> & -> & ->); [intros ix Hi; destruct (Hd ix Hi) as (A & B & _ & C); auto|].
  do 3 eexists. repeat (split; [reflexivity|]).
  destruct (avg_split L bin p y HL0) as [_ E]; [intros ix Hi; apply Hd, Hi|]. cbv zeta in E. split; [exact E|].
  intros Hc. rewrite E.
  assert (Z : forall ix, In ix L -> p ix - bin_mean bin p L ix = 0).
  { intros ix Hi. rewrite (bin_mean_const bin p L ix Hi); [ring|]. intros jx Hj Eb. apply Hc; assumption. }
  rewrite (avg_zero (fun ix => sq (p ix - bin_mean bin p L ix))), (avg_zero (fun ix => (p ix - bin_mean bin p L ix) * (y ix - bin_mean bin y L ix))); [ring| |].
  - intros ix Hi. rewrite Z by exact Hi. ring.
  - intros ix Hi. unfold sq. rewrite Z by exact Hi. ring.
Qed.
Print Assumptions c27_brier_decomposition.
(** the three terms themselves *)
Theorem c27_terms : forall e rng f o ax ns rel reso unc k L (p y : list nat -> Qc) (bin : list nat -> nat),
  shape f = shape o -> axes_are (length (shape o)) ax ns -> plain ax ->
  brier_decomp e rng f o ax None = Ok (rel, reso, unc) ->
  Forall2 lt k (kept (length (shape o)) ns (shape o)) -> Cells (shape o) ns k L ->
  (forall ix, In ix L -> get f ix = Fin (p ix) /\ get o ix = Fin (y ix) /\ in_bin 20 (p ix) (bin ix)) ->
  get rel k = Fin (avg_over (fun ix => sq (bin_mean bin p L ix - bin_mean bin y L ix)) L) /\
  get reso k = Fin (avg_over (fun ix => sq (bin_mean bin y L ix - avg_over y L)) L) /\
  get unc k = Fin (avg_over y L * (1 - avg_over y L)).
Proof. intros. eapply brier_values; eassumption. Qed.
Print Assumptions c27_terms.
Lemma sp_cells0 : Cells [2; 3]%nat [1%nat] [0%nat] [[0; 0]; [0; 1]; [0; 2]]%nat.
Proof. change [[0; 0]; [0; 1]; [0; 2]]%nat with (group [2; 3]%nat (mask_of 2 [1%nat]) [0%nat]). apply group_Cells. Qed.
(** row 0: probabilities 1/10, 1/2, 52/100 fall in bins 2, 10, 10 *)
Example c27_nonvacuous :
  let bin (ix : list nat) := (if Nat.eqb (nth 1 ix 0) 0 then 2 else 10)%nat in
  let L := [[0; 0]; [0; 1]; [0; 2]]%nat in
  axes_are 2 (Some [1%Z]) [1%nat] /\ plain (Some [1%Z]) /\ Cells [2; 3]%nat [1%nat] [0%nat] L /\
  (forall ix, In ix L -> get sp_f ix = Fin (sp_p ix) /\ get sp_o ix = Fin (sp_y ix) /\ (sp_y ix = 0 \/ sp_y ix = 1) /\ in_bin 20 (sp_p ix) (bin ix)) /\
  exists rel reso unc, brier_decomp sp_env (fun _ _ _ => O) sp_f sp_o (Some [1%Z]) None = Ok (rel, reso, unc) /\
    get rel [0%nat] = Fin (Q2Qc (17 # 5000)) /\ get reso [0%nat] = Fin (Q2Qc (1 # 18)) /\ get unc [0%nat] = Fin (Q2Qc (2 # 9)).
Proof.
  cbv zeta. split; [|split; [|split; [|split]]].
  - split; [constructor; [split; [lia|left; reflexivity]|constructor]|constructor; [intros []|constructor]].
  - split; [discriminate|constructor; [lia|constructor]].
  - apply sp_cells0.
  - intros ix [<-|[<-|[<-|[]]]]; (split; [reflexivity|split; [reflexivity|]]);
      (split; [first [left; reflexivity|right; reflexivity]|]); (split; [cbn; lia|]); (split; [vm_compute; discriminate|left; reflexivity]).
  - do 3 eexists. split; [reflexivity|]. repeat split; vm_compute; f_equal; apply Qc_is_canon; reflexivity.
Qed.

(** ** C28 *)
Theorem c28_term_bounds : forall e rng f o ax ns rel reso unc k,
  shape f = shape o -> axes_are (length (shape o)) ax ns -> plain ax ->
  brier_decomp e rng f o ax None = Ok (rel, reso, unc) ->
  Forall2 lt k (kept (length (shape o)) ns (shape o)) ->
  (forall ix, Forall2 lt ix (shape o) -> kept (length (shape o)) ns ix = k ->
     exists p y, get f ix = Fin p /\ 0 <= p /\ get o ix = Fin y /\ (y = 0 \/ y = 1)) ->
  exists a b c, get rel k = Fin a /\ get reso k = Fin b /\ get unc k = Fin c /\
    0 <= a /\ 0 <= b /\ 0 <= c /\ c <= / qz 4 /\ b <= c.
Proof.
  intros e rng f o ax ns rel reso unc k Hsh Hax Hpl H Hk Hd.
  set (L := group (shape o) (mask_of (length (shape o)) ns) k). assert (HL : Cells (shape o) ns k L) by apply group_Cells.
  assert (Hd' : forall ix, In ix L -> exists p y, get f ix = Fin p /\ 0 <= p /\ get o ix = Fin y /\ (y = 0 \/ y = 1)) by (intros ix Hi; apply HL in Hi as [Hv Ek]; apply Hd; assumption).
  set (p := fun ix => val (get f ix)). set (y := fun ix => val (get o ix)). set (bin := fun ix => digitize brier_bins (Fin (p ix))).
  destruct (brier_values e rng f o ax ns rel reso unc k L p y bin Hsh Hax Hpl H Hk HL) as (HL0 & -> & -> & ->).
  { intros ix Hi. destruct (Hd' ix Hi) as (q & z & Ef & Hq & Eo & _). unfold bin, p, y. rewrite Ef, Eo. cbn [val]. repeat split.
    1-3: destruct (in_bin_exists 20 q ltac:(lia) Hq) as (j & Hj); rewrite (brier_digitize _ _ Hj); apply Hj. }
  do 3 eexists. repeat (split; [reflexivity|]). apply (terms_bounds L bin p y HL0).
  intros ix Hi. destruct (Hd' ix Hi) as (q & z & _ & _ & Eo & Hz). unfold y. rewrite Eo. exact Hz.
Qed.
Print Assumptions c28_term_bounds.
(** with the bootstrap, for all draws: every entry of the three intervals obeys the same bounds *)
Theorem c28_bootstrap_bounds : forall e rng f o ax ns n rel reso unc k q,
  shape f = shape o -> axes_are (length (shape o)) ax ns -> plain ax -> (0 < repeats e)%nat ->
  brier_decomp e rng f o ax (Some n) = Ok (rel, reso, unc) ->
  Forall2 lt k (kept (length (shape o)) ns (shape o)) -> (q < 3)%nat ->
  (forall ix, Forall2 lt ix (shape o) -> kept (length (shape o)) ns ix = k ->
     exists p y, get f ix = Fin p /\ get o ix = Fin y /\ (y = 0 \/ y = 1)) ->
  exists a b c, get rel (q :: k) = Fin a /\ get reso (q :: k) = Fin b /\ get unc (q :: k) = Fin c /\
    0 <= a /\ 0 <= b /\ b <= / qz 4 /\ 0 <= c /\ c <= / qz 4.
Proof.
  intros e rng f o ax ns n rel reso unc k q Hsh Hax Hpl Hr H Hk Hq Hd. pose proof (plain_of _ _ _ Hax Hpl) as Hp. destruct (plain_axes_facts _ _ _ Hp) as (Hn & Hlt & _ & _).
  destruct (brier_api_boot e rng f o ax ns Hsh Hp n rel reso unc H) as (_ & _ & _ & G). specialize (G k Hk).
  set (S := group_list (shape o) ns k) in *. pose proof (group_list_Cells _ _ _ Hn Hlt Hk) as HC. fold S in HC.
  assert (HS : forall ix, In ix S -> exists p y, get f ix = Fin p /\ get o ix = Fin y /\ (y = 0 \/ y = 1)) by (intros ix Hi; apply HC in Hi as [Hv Ek]; apply Hd; assumption).
  rewrite (map_ext_in (get f) (fun ix => Fin (val (get f ix)))) in G by (intros ix Hi; destruct (HS ix Hi) as (p & y & -> & _); reflexivity).
  rewrite (map_ext_in (get o) (fun ix => Fin (val (get o ix)))) in G by (intros ix Hi; destruct (HS ix Hi) as (p & y & _ & -> & _); reflexivity).
  assert (Hy : forall ix, In ix S -> val (get o ix) = 0 \/ val (get o ix) = 1) by (intros ix Hi; destruct (HS ix Hi) as (p & y & _ & -> & B); exact B).
  destruct (brier_boot_bounds _ _ _ S _ _ _ Hr Hy G) as (va & vb & vc & E & La & Lb & Lc & Ba & Bb & Bc).
  destruct va as [|a0 [|a1 [|a2 [|]]]]; cbn in La; try lia. destruct vb as [|b0 [|b1 [|b2 [|]]]]; cbn in Lb; try lia. destruct vc as [|c0 [|c1 [|c2 [|]]]]; cbn in Lc; try lia.
  injection E as E1 E2 E3 E4 E5 E6 E7 E8 E9. rewrite <- E1, <- E2, <- E3, <- E4, <- E5, <- E6 in Ba. rewrite <- E4, <- E5, <- E6 in Bb. rewrite <- E7, <- E8, <- E9 in Bc.
  assert (I : forall (g : nat -> num) j, (j < 3)%nat -> In (g j) [g 0%nat; g 1%nat; g 2%nat]) by (intros g [|[|[|]]] Hj; cbn; auto; lia).
  destruct (Ba (get rel (q :: k))) as (a & -> & Ha); [apply in_app_iff; left; apply (I (fun j => get rel (j :: k))), Hq|].
  destruct (Ba (get reso (q :: k))) as (b & Eb & Hb); [apply in_app_iff; right; apply (I (fun j => get reso (j :: k))), Hq|].
  destruct (Bb (get reso (q :: k))) as (b' & Eb' & Hb'); [apply (I (fun j => get reso (j :: k))), Hq|].
  destruct (Bc (get unc (q :: k))) as (c & -> & Hc1 & Hc2); [apply (I (fun j => get unc (j :: k))), Hq|].
  rewrite Eb in Eb'. injection Eb' as <-. exists a, b, c. rewrite Eb. auto 10.
Qed.
Print Assumptions c28_bootstrap_bounds.
(** the order of the samples does not matter: rearranging the cells of each group (forecast and
    observation together) changes nothing *)
Theorem c28_order_independent : forall e rng f o f' o' ax ns r1 r2 r3 s1 s2 s3 k L L',
  shape f = shape o -> shape f' = shape o -> shape o' = shape o -> axes_are (length (shape o)) ax ns -> plain ax ->
  brier_decomp e rng f o ax None = Ok (r1, r2, r3) -> brier_decomp e rng f' o' ax None = Ok (s1, s2, s3) ->
  Forall2 lt k (kept (length (shape o)) ns (shape o)) -> Cells (shape o) ns k L -> Cells (shape o) ns k L' ->
  (forall ix, In ix L -> exists p y, get f ix = Fin p /\ get o ix = Fin y) ->
  Permutation (map (fun ix => (get f ix, get o ix)) L) (map (fun ix => (get f' ix, get o' ix)) L') ->
  get s1 k = get r1 k /\ get s2 k = get r2 k /\ get s3 k = get r3 k.
Proof.
  intros e rng f o f' o' ax ns r1 r2 r3 s1 s2 s3 k L L' Hsh Sf So Hax Hpl H1 H2 Hk HL HL' Hd P.
  pose proof (plain_of _ _ _ Hax Hpl) as Hp. destruct (plain_axes_facts _ _ _ Hp) as (Hn & Hlt & _ & _).
  destruct (brier_api_none e rng f o ax ns Hsh Hp r1 r2 r3 H1) as (_ & _ & _ & G1). specialize (G1 k Hk).
  destruct (brier_api_none e rng f' o' ax ns) with (3 := H2) as (_ & _ & _ & G2); [congruence|rewrite So; exact Hp|]. rewrite So in G2. specialize (G2 k Hk).
  set (S := group_list (shape o) ns k) in *. pose proof (group_list_perm _ _ _ _ Hn Hlt Hk HL) as PL. pose proof (group_list_perm _ _ _ _ Hn Hlt Hk HL') as PL'. fold S in PL, PL'.
  assert (PS : Permutation (map (fun ix => (get f ix, get o ix)) S) (map (fun ix => (get f' ix, get o' ix)) S)).
  { eapply perm_trans; [apply Permutation_map, PL|]. eapply perm_trans; [exact P|]. symmetry. apply Permutation_map, PL'. }
  assert (D : forall ix, In ix S -> is_fin (get f ix) /\ is_fin (get o ix)).
  { intros ix Hi. destruct (Hd ix (Permutation_in _ PL Hi)) as (p & y & -> & ->). split; eexists; reflexivity. }
  assert (D' : forall ix, In ix S -> is_fin (get f' ix) /\ is_fin (get o' ix)).
  { intros ix Hi. assert (I1 : In (get f' ix, get o' ix) (map (fun ix => (get f' ix, get o' ix)) S)) by (apply in_map_iff; exists ix; auto).
    apply (Permutation_in _ (Permutation_sym PS)) in I1. apply in_map_iff in I1 as (jx & E & Hj). injection E as <- <-. apply D, Hj. }
  set (vv := fun c : num * num => (val (fst c), val (snd c))).
  assert (Q : forall a b : arr num, (forall ix, In ix S -> is_fin (get a ix) /\ is_fin (get b ix)) ->
     map (get a) S = map (fun c => Fin (fst c)) (map vv (map (fun ix => (get a ix, get b ix)) S)) /\
     map (get b) S = map (fun c => Fin (snd c)) (map vv (map (fun ix => (get a ix, get b ix)) S))).
  { intros a b F. rewrite !map_map. split; apply map_ext_in; intros ix Hi; destruct (F ix Hi) as [[x Ex] [z Ez]]; cbn; rewrite ?Ex, ?Ez; reflexivity. }
  destruct (Q f o D) as [Q1 Q2], (Q f' o' D') as [Q3 Q4]. rewrite Q1, Q2 in G1. rewrite Q3, Q4 in G2.
  rewrite (brier_point_perm (skip_nan e) _ _ (Permutation_map vv PS)) in G1. rewrite G2 in G1. injection G1 as -> -> ->. auto.
Qed.
Print Assumptions c28_order_independent.
(** columns of the example: group of column 1 has outcomes 1, 0 *)
Example c28_nonvacuous :
  (forall ix, Forall2 lt ix [2; 3]%nat -> exists p y, get sp_f ix = Fin p /\ 0 <= p /\ get sp_o ix = Fin y /\ (y = 0 \/ y = 1)) /\
  exists rel reso unc, brier_decomp sp_env (fun i r j => (i + r + j)%nat) sp_f sp_o (Some [0%Z]) (Some 2%nat) = Ok (rel, reso, unc) /\
    shape rel = [3; 3]%nat /\ get unc [2; 1]%nat = Fin (Q2Qc (1 # 4)).
Proof.
  split.
  - intros ix H. inversion H as [|i ? r ? Hi Hr]; subst. inversion Hr as [|j ? r' ? Hj Hr']; subst. inversion Hr'; subst.
    assert (Hi' : i = 0%nat \/ i = 1%nat) by lia. assert (Hj' : j = 0%nat \/ j = 1%nat \/ j = 2%nat) by lia.
    destruct Hi' as [-> | ->], Hj' as [-> | [-> | ->]]; do 2 eexists; (split; [reflexivity|]); (split; [vm_compute; discriminate|]); (split; [reflexivity|]); first [left; reflexivity|right; reflexivity].
  - assert (X : match brier_decomp sp_env (fun i r j => (i + r + j)%nat) sp_f sp_o (Some [0%Z]) (Some 2%nat) with
                | Ok (a, b, c) => (shape a, get c [2; 1]%nat) | Raise _ => ([], NaN) end = ([3; 3]%nat, Fin (Q2Qc (1 # 4)))) by qcomp.
    destruct (brier_decomp _ _ _ _ _ _) as [[[a b] c]|]; [|discriminate]. injection X as X1 X2. exists a, b, c. auto.
Qed.
(** exchanging the two rows of column 1 changes neither term *)
Example c28_order_nonvacuous :
  let f' := of_list NaN [2; 1]%nat [Fin (Q2Qc (1#4)); Fin (Q2Qc (1#2))] in let f := of_list NaN [2; 1]%nat [Fin (Q2Qc (1#2)); Fin (Q2Qc (1#4))] in
  let o' := of_list NaN [2; 1]%nat [Fin 0; Fin 1] in let o := of_list NaN [2; 1]%nat [Fin 1; Fin 0] in let L := [[0; 0]; [1; 0]]%nat in
  Permutation (map (fun ix => (get f ix, get o ix)) L) (map (fun ix => (get f' ix, get o' ix)) L) /\
  exists r s, brier_decomp sp_env (fun _ _ _ => O) f o (Some [0%Z]) None = Ok r /\ brier_decomp sp_env (fun _ _ _ => O) f' o' (Some [0%Z]) None = Ok s.
Proof. cbv zeta. split; [cbn; apply perm_swap|do 2 eexists; split; reflexivity]. Qed.

(** ** C50 *)
(** every value, point estimate or bootstrap bound, for any draws, is NaN or in [-1,1] *)
Theorem c50_correlation_range : forall e rng f o ax n r ix,
  corr e rng f o ax n = Ok r -> get r ix = RNaN \/ exists x, get r ix = RFin x /\ (-1 <= x <= 1)%R.
Proof.
  intros e rng f o ax n r ix H. unfold corr in H. apply (workflow_in RNaN (fun i => func_corr e n (rng i)) unit_rnum f o ax r); [left; reflexivity| |exact H].
  intros i x y v Hl E b Hb. eapply func_corr_unit; eassumption.
Qed.
Print Assumptions c50_correlation_range.
(** exchanging the two arguments, or applying an increasing affine map to one of them, changes nothing:
    same result (or same error) for all axes, draws and data, finite or not *)
Theorem c50_correlation_symmetric : forall e rng f o ax n,
  corr e rng f o ax n = corr e rng o f ax n.
Proof.
  intros e rng f o ax n. unfold corr. destruct (list_eqb (shape f) (shape o)) eqn:E.
  - apply list_eqb_spec in E. apply workflow_cong; [exact E|symmetry; exact E|]. intros i L. apply func_corr_sym. rewrite !map_length. reflexivity.
  - unfold workflow. rewrite E. destruct (list_eqb (shape o) (shape f)) eqn:E'; [|reflexivity]. apply list_eqb_spec in E'. rewrite E', list_eqb_refl in E. discriminate.
Qed.
Print Assumptions c50_correlation_symmetric.
Theorem c50_correlation_affine : forall e rng f o ax n a b, 0 < a ->
  corr e rng (amap (fun x => nadd (nmul (Fin a) x) (Fin b)) f) o ax n = corr e rng f o ax n /\
  corr e rng f (amap (fun x => nadd (nmul (Fin a) x) (Fin b)) o) ax n = corr e rng f o ax n.
Proof.
  intros e rng f o ax n a b Ha.
  assert (G : forall f o : arr num, corr e rng (amap (fun x => nadd (nmul (Fin a) x) (Fin b)) f) o ax n = corr e rng f o ax n).
  { intros f' o'. unfold corr. apply workflow_cong; [reflexivity|reflexivity|]. intros i L.
    transitivity (func_corr e n (rng i) (map (affine a b) (map (get f') L)) (map (get o') L)); [rewrite map_map; reflexivity|].
    apply func_corr_affine; [exact Ha|rewrite !map_length; reflexivity]. }
  split; [apply G|]. rewrite c50_correlation_symmetric, G. apply c50_correlation_symmetric.
Qed.
Print Assumptions c50_correlation_affine.
(** equal non-constant series have correlation 1, opposite ones -1 *)
Theorem c50_correlation_extremes : forall e rng f o ax ns r k L,
  shape f = shape o -> axes_are (length (shape o)) ax ns -> plain ax -> corr e rng f o ax None = Ok r ->
  Forall2 lt k (kept (length (shape o)) ns (shape o)) -> Cells (shape o) ns k L ->
  (forall ix, In ix L -> is_fin (get f ix)) -> (exists ix jx, In ix L /\ In jx L /\ get f ix <> get f jx) ->
  ((forall ix, In ix L -> get o ix = get f ix) -> get r k = RFin 1) /\
  ((forall ix, In ix L -> get o ix = Fin (- val (get f ix))) -> get r k = RFin (-1)).
Proof.
  intros e rng f o ax ns r k L Hsh Hax Hpl H Hk HL Hfin (ix & jx & Hi & Hj & Hne).
  pose proof (plain_of _ _ _ Hax Hpl) as Hp. destruct (plain_axes_facts _ _ _ Hp) as (Hn & Hlt & _ & _).
  destruct (corr_api e rng f o ax ns Hsh Hp None r H) as (_ & G). specialize (G k Hk). cbn [func_corr] in G. injection G as G. rewrite <- G.
  pose proof (group_list_in _ _ _ _ Hn Hlt Hk HL) as HI. set (S := group_list (shape o) ns k) in *. set (x := map (fun ix => val (get f ix)) S).
  assert (Ef : map (get f) S = map Fin x) by (unfold x; rewrite map_map; apply map_ext_in; intros c Hc; destruct (Hfin c (proj1 (HI c) Hc)) as [q ->]; reflexivity).
  assert (Hx : exists a b, In a x /\ In b x /\ a <> b).
  { exists (val (get f ix)), (val (get f jx)). split; [|split]; [apply in_map_iff; exists ix; split; [reflexivity|apply HI, Hi]|apply in_map_iff; exists jx; split; [reflexivity|apply HI, Hj]|].
    intros E. apply Hne. destruct (Hfin ix Hi) as [q Eq], (Hfin jx Hj) as [q' Eq']. rewrite Eq, Eq' in *. cbn in E. congruence. }
  destruct (corrcoef_self x Hx) as [C1 C2].
  assert (P : forall y, length y = length x -> corr_point (skip_nan e) (map Fin x) (map Fin y) = corrcoef (map Fin x) (map Fin y)).
  { intros y Hy. apply corr_point_fin. symmetry. exact Hy. }
  split; intros Ho.
  - rewrite (map_ext_in (get o) (get f)) by (intros c Hc; apply Ho, HI, Hc). rewrite Ef, P by reflexivity. exact C1.
  - rewrite (map_ext_in (get o) (fun c => Fin (- val (get f c)))) by (intros c Hc; apply Ho, HI, Hc).
    rewrite Ef. replace (map (fun c => Fin (- val (get f c))) S) with (map Fin (map Qcopp x)) by (unfold x; rewrite !map_map; reflexivity).
    rewrite P by apply map_length. rewrite map_map. exact C2.
Qed.
Print Assumptions c50_correlation_extremes.
(** row 0 of the example against a decreasing copy: -1; against itself: 1 *)
Example c50_nonvacuous :
  axes_are 2 (Some [1%Z]) [1%nat] /\ plain (Some [1%Z]) /\ Cells [2; 3]%nat [1%nat] [0%nat] [[0; 0]; [0; 1]; [0; 2]]%nat /\
  (exists r, corr sp_env (fun _ _ _ => O) sp_f sp_f (Some [1%Z]) None = Ok r /\ get r [0%nat] = RFin 1) /\
  (exists r, corr sp_env (fun _ _ _ => O) sp_f (amap (fun x => Fin (- val x)) sp_f) (Some [1%Z]) None = Ok r /\ get r [0%nat] = RFin (-1)).
Proof.
  assert (Hax : axes_are 2 (Some [1%Z]) [1%nat]) by (split; [constructor; [split; [lia|left; reflexivity]|constructor]|constructor; [intros []|constructor]]).
  assert (Hpl : plain (Some [1%Z])) by (split; [discriminate|constructor; [lia|constructor]]).
  split; [exact Hax|]. split; [exact Hpl|]. split; [apply sp_cells0|].
  assert (V : Forall2 lt [0%nat] (kept 2 [1%nat] [2; 3]%nat)) by (repeat constructor).
  assert (Hf : forall ix, In ix [[0; 0]; [0; 1]; [0; 2]]%nat -> is_fin (get sp_f ix)) by (intros ix [<-|[<-|[<-|[]]]]; eexists; reflexivity).
  assert (Hd : exists ix jx, In ix [[0; 0]; [0; 1]; [0; 2]]%nat /\ In jx [[0; 0]; [0; 1]; [0; 2]]%nat /\ get sp_f ix <> get sp_f jx).
  { exists [0; 0]%nat, [0; 1]%nat. split; [left; reflexivity|]. split; [right; left; reflexivity|]. vm_compute. intros E. injection E as E. discriminate. }
  split.
  - destruct (workflow_accepts RNaN (fun i => func_corr sp_env None (fun _ _ => O)) sp_f sp_f (Some [1%Z]) [1%nat] eq_refl (plain_of _ _ _ Hax Hpl)) as (r & Er); [cbn; lia|intros; eexists; reflexivity|].
    exists r. split; [exact Er|]. change (corr sp_env (fun _ _ _ => O) sp_f sp_f (Some [1%Z]) None = Ok r) in Er. apply (c50_correlation_extremes sp_env (fun _ _ _ => O) sp_f sp_f (Some [1%Z]) [1%nat] r [0%nat] _ eq_refl Hax Hpl Er V sp_cells0 Hf Hd). reflexivity.
  - destruct (workflow_accepts RNaN (fun i => func_corr sp_env None (fun _ _ => O)) sp_f (amap (fun x => Fin (- val x)) sp_f) (Some [1%Z]) [1%nat] eq_refl (plain_of _ _ _ Hax Hpl)) as (r & Er); [cbn; lia|intros; eexists; reflexivity|].
    exists r. split; [exact Er|]. change (corr sp_env (fun _ _ _ => O) sp_f (amap (fun x => Fin (- val x)) sp_f) (Some [1%Z]) None = Ok r) in Er. apply (c50_correlation_extremes sp_env (fun _ _ _ => O) sp_f (amap (fun x => Fin (- val x)) sp_f) (Some [1%Z]) [1%nat] r [0%nat] _ eq_refl Hax Hpl Er V sp_cells0 Hf Hd). reflexivity.
Qed.

(** ** C51 *)
(** Full statement: for every axis list that plain averaging accepts.  Proved here for None and for
    non-empty lists without negative entries; the other lists are refuted below. *)
Theorem c51_correlation_per_slice_partial : forall e rng f o ax ns n r,
  shape f = shape o -> axes_are (length (shape o)) ax ns -> plain ax -> corr e rng f o ax n = Ok r ->
  let keep := kept (length (shape o)) ns (shape o) in
  shape r = match n with None => keep | Some _ => 3%nat :: keep end /\
  forall k, Forall2 lt k keep -> exists L i r1, Cells (shape o) ns k L /\
    corr e (fun _ => rng i) (vec (map (get f) L)) (vec (map (get o) L)) None n = Ok r1 /\
    match n with None => get r k = get r1 [] | Some _ => forall q, (q < 3)%nat -> get r (q :: k) = get r1 [q] end.
Proof.
  intros e rng f o ax ns n r Hsh Hax Hpl H keep. pose proof (plain_of _ _ _ Hax Hpl) as Hp. destruct (plain_axes_facts _ _ _ Hp) as (Hn & Hlt & _ & _).
  destruct (corr_api e rng f o ax ns Hsh Hp n r H) as (Sr & G). split; [exact Sr|]. intros k Hk. specialize (G k Hk). fold keep in G.
  set (S := group_list (shape o) ns k) in *. exists S, (flat keep k).
  assert (Hl : length (map (get f) S) = length (map (get o) S)) by (rewrite !map_length; reflexivity).
  destruct (vec_accepts RNaN (fun _ => func_corr e n (rng (flat keep k))) _ _ _ Hl G) as (r1 & E1). exists r1.
  split; [apply group_list_Cells; assumption|]. split; [exact E1|].
  destruct (corr_api e (fun _ => rng (flat keep k)) (vec (map (get f) S)) (vec (map (get o) S)) None [0%nat]) with (n := n) (r := r1) as (_ & G1); [cbn; rewrite Hl; reflexivity|reflexivity|exact E1|].
  specialize (G1 [] (Forall2_nil _)). change (shape (vec (map (get o) S))) with [length (map (get o) S)] in G1.
  rewrite vec_group, <- Hl, vec_group in G1. rewrite G1 in G. destruct n as [n|]; injection G.
  - intros E2 E3 E4 q Hq. destruct q as [|[|[|]]]; [symmetry; exact E4|symmetry; exact E3|symmetry; exact E2|lia].
  - intros E2. symmetry. exact E2.
Qed.
Print Assumptions c51_correlation_per_slice_partial.
Theorem c51_brier_per_slice_partial : forall e rng f o ax ns n rel reso unc,
  shape f = shape o -> axes_are (length (shape o)) ax ns -> plain ax -> brier_decomp e rng f o ax n = Ok (rel, reso, unc) ->
  let keep := kept (length (shape o)) ns (shape o) in let sh := match n with None => keep | Some _ => 3%nat :: keep end in
  shape rel = sh /\ shape reso = sh /\ shape unc = sh /\
  forall k, Forall2 lt k keep -> exists L i rel1 reso1 unc1, Cells (shape o) ns k L /\
    brier_decomp e (fun _ => rng i) (vec (map (get f) L)) (vec (map (get o) L)) None n = Ok (rel1, reso1, unc1) /\
    match n with
    | None => get rel k = get rel1 [] /\ get reso k = get reso1 [] /\ get unc k = get unc1 []
    | Some _ => forall q, (q < 3)%nat -> get rel (q :: k) = get rel1 [q] /\ get reso (q :: k) = get reso1 [q] /\ get unc (q :: k) = get unc1 [q]
    end.
Proof.
  intros e rng f o ax ns n rel reso unc Hsh Hax Hpl H keep sh. pose proof (plain_of _ _ _ Hax Hpl) as Hp. destruct (plain_axes_facts _ _ _ Hp) as (Hn & Hlt & _ & _).
  assert (Acc : forall g (x y : list num) v, length x = length y -> func_brier e n g x y = Ok v -> exists t, brier_decomp e (fun _ => g) (vec x) (vec y) None n = Ok t).
  { intros g x y v Hl E. destruct (vec_accepts NaN (fun _ => func_brier e n g) x y v Hl E) as (r & Er). unfold brier_decomp. rewrite Er. cbn [bind].
    destruct (workflow_spec NaN (fun _ => func_brier e n g) (vec x) (vec y) None [0%nat]) with (m := match n with None => 3 | Some _ => 9 end%nat) (r := r) as (_ & Sr & _);
      [cbn; rewrite Hl; reflexivity|reflexivity|intros; eapply func_brier_length; eassumption|exact Er|].
    destruct n; unfold lead in Sr; cbn [Nat.eqb] in Sr; rewrite Sr; cbn; eexists; reflexivity. }
  destruct n as [n|].
  - destruct (brier_api_boot e rng f o ax ns Hsh Hp n rel reso unc H) as (S1 & S2 & S3 & G). repeat (split; [assumption|]). intros k Hk. specialize (G k Hk). fold keep in G.
    set (S := group_list (shape o) ns k) in *. assert (Hl : length (map (get f) S) = length (map (get o) S)) by (rewrite !map_length; reflexivity).
    destruct (Acc _ _ _ _ Hl G) as ([[a b] c] & E1). exists S, (flat keep k), a, b, c. split; [apply group_list_Cells; assumption|]. split; [exact E1|].
    destruct (brier_api_boot e (fun _ => rng (flat keep k)) (vec (map (get f) S)) (vec (map (get o) S)) None [0%nat]) with (3 := E1) as (_ & _ & _ & G1); [cbn; rewrite Hl; reflexivity|reflexivity|].
    specialize (G1 [] (Forall2_nil _)). change (shape (vec (map (get o) S))) with [length (map (get o) S)] in G1. rewrite vec_group, <- Hl, vec_group in G1. rewrite G1 in G. injection G.
    intros F1 F2 F3 F4 F5 F6 F7 F8 F9 q Hq. destruct q as [|[|[|]]]; [auto|auto|auto|lia].
  - destruct (brier_api_none e rng f o ax ns Hsh Hp rel reso unc H) as (S1 & S2 & S3 & G). repeat (split; [assumption|]). intros k Hk. specialize (G k Hk). fold keep in G.
    set (S := group_list (shape o) ns k) in *. assert (Hl : length (map (get f) S) = length (map (get o) S)) by (rewrite !map_length; reflexivity).
    destruct (Acc (rng (flat keep k)) _ _ _ Hl G) as ([[a b] c] & E1). exists S, (flat keep k), a, b, c. split; [apply group_list_Cells; assumption|]. split; [exact E1|].
    destruct (brier_api_none e (fun _ => rng (flat keep k)) (vec (map (get f) S)) (vec (map (get o) S)) None [0%nat]) with (3 := E1) as (_ & _ & _ & G1); [cbn; rewrite Hl; reflexivity|reflexivity|].
    specialize (G1 [] (Forall2_nil _)). change (shape (vec (map (get o) S))) with [length (map (get o) S)] in G1. rewrite vec_group, <- Hl, vec_group in G1. rewrite G1 in G. injection G.
    auto.
Qed.
Print Assumptions c51_brier_per_slice_partial.
(** which calls succeed: the correlation always does on such axes (when a group exists) *)
Theorem c51_accepts_partial : forall e rng f o ax ns,
  shape f = shape o -> axes_are (length (shape o)) ax ns -> plain ax -> (0 < prod (kept (length (shape o)) ns (shape o)))%nat ->
  (exists r, corr e rng f o ax None = Ok r) /\
  ((forall x, In x (shape o) -> 0 < x)%nat -> exists t, brier_decomp e rng f o ax None = Ok t).
Proof.
  intros e rng f o ax ns Hsh Hax Hpl Hpos. pose proof (plain_of _ _ _ Hax Hpl) as Hp. split.
  - apply (workflow_accepts RNaN (fun i => func_corr e None (rng i)) f o ax ns Hsh Hp Hpos). intros; eexists; reflexivity.
  - intros Hs. destruct (plain_axes_facts _ _ _ Hp) as (Hn & Hlt & _ & _). unfold brier_decomp.
    rewrite (workflow_unfold NaN _ f o ax ns Hsh Hp). set (keep := kept (length (shape o)) ns (shape o)) in *.
    assert (E : exists ret, mapM (slice_run (fun i => func_brier e None (rng i)) f o ns) (seq 0 (prod keep)) = Ok ret /\ forall l, In l ret -> length l = 3%nat).
    { assert (HI : forall i, In i (seq 0 (prod keep)) -> exists v, slice_run (fun i => func_brier e None (rng i)) f o ns i = Ok v /\ length v = 3%nat).
      { intros i Hi. apply in_seq in Hi. unfold slice_run. fold keep. set (g := group_list (shape o) ns (unflat keep i)).
        assert (Hg : g <> []).
        { unfold g, group_list. intros Q. apply map_eq_nil in Q. pose proof (indices_length (pick ns (shape o))) as Hil. rewrite Q in Hil. cbn in Hil.
          assert (Pp : (0 < prod (pick ns (shape o)))%nat) by (apply P_range.prod_pos; intros x Hx; apply in_map_iff in Hx as (j & <- & Hj); apply Hs, nth_In, Hlt, Hj). lia. }
        destruct g as [|c g]; [contradiction|]. cbn [func_brier]. unfold brier_point. cbn [map]. eexists. split; reflexivity. }
      clear -HI. induction (seq 0 (prod keep)) as [|i l IH]; [exists []; split; [reflexivity|intros ? []]|].
      destruct (HI i (or_introl eq_refl)) as (v & Ev & Lv). destruct IH as (ret & Er & Lr); [intros j Hj; apply HI; right; exact Hj|].
      exists (v :: ret). cbn [mapM]. rewrite Ev. cbn [bind]. rewrite Er. split; [reflexivity|]. intros x [<-|Hx]; [exact Lv|apply Lr, Hx]. }
    destruct E as (ret & E & L3). fold keep. rewrite E. cbn [bind]. pose proof (mapM_length _ _ _ E) as Hl. rewrite seq_length in Hl.
    destruct ret as [|r0 ret]; [cbn in Hl; lia|]. rewrite (L3 r0 (or_introl eq_refl)).
    destruct (NdMove.moveaxis_front (of_list NaN (keep ++ [3%nat]) (concat (r0 :: ret))) (-1) (length keep)) as (b & -> & Sb & _); [cbn [of_list shape]; rewrite app_length; cbn [length]; split; [lia|right; lia]|].
    cbn [bind]. rewrite Sb. cbn [of_list shape]. rewrite app_nth2, Nat.sub_diag by lia. cbn [nth hd Nat.eqb]. rewrite Sb. cbn [of_list shape]. rewrite app_nth2, Nat.sub_diag by lia. cbn [nth hd Nat.eqb passert bind]. eexists. reflexivity.
Qed.
Print Assumptions c51_accepts_partial.
(** Refuted: lists with a negative entry, all of which plain averaging accepts, are always rejected. *)
Theorem c51_negative_axes_refuted : forall e rng f o l ns n,
  shape f = shape o -> axes_are (length (shape o)) (Some l) ns -> Exists (fun z => z < 0)%Z l ->
  (exists r, boot_or_avg e rng (Some l) None (amap2 nsub f o) = Ok r) /\
  corr e rng f o (Some l) n = Raise ValueError /\ brier_decomp e rng f o (Some l) n = Raise ValueError.
Proof.
  intros e rng f o l ns n Hsh Hax Hneg. split; [apply avg_accepts; exists ns; cbn [amap2 shape]; rewrite Hsh; exact Hax|].
  assert (Hn : NoDup l).
  { destruct Hax as [F N]. clear Hneg. revert N. induction F as [|z m l ms Hz F IH]; intros N; [constructor|]. inversion N as [|? ? Nm N']; subst. constructor; [|apply IH, N'].
    intros Hi. apply Nm. clear IH N N' Nm. induction F as [|z' m' l' ms' Hz' F IH]; [destruct Hi|]. destruct Hi as [->|Hi]; [left|right; apply IH, Hi].
    destruct Hz as [A [B|B]], Hz' as [A' [B'|B']]; lia. }
  split; [apply workflow_negative; assumption|]. unfold brier_decomp. rewrite workflow_negative by assumption. reflexivity.
Qed.
Print Assumptions c51_negative_axes_refuted.
(** Refuted: averaging over no axis (an empty list) is rejected too, although plain averaging accepts it. *)
Theorem c51_no_axis_refuted :
  (exists r, boot_or_avg sp_env (fun _ _ _ => O) (Some []) None sp_f = Ok r) /\
  corr sp_env (fun _ _ _ => O) sp_f sp_o (Some []) None = Raise ValueError /\
  brier_decomp sp_env (fun _ _ _ => O) sp_f sp_o (Some []) None = Raise ValueError.
Proof. split; [eexists; reflexivity|split; reflexivity]. Qed.
Print Assumptions c51_no_axis_refuted.
Example c51_nonvacuous :
  axes_are 2 (Some [(-1)%Z]) [1%nat] /\ Exists (fun z => z < 0)%Z [(-1)%Z] /\
  axes_are 2 (Some [0%Z]) [0%nat] /\ plain (Some [0%Z]) /\ (0 < prod (kept 2 [0%nat] [2; 3]%nat))%nat /\
  (exists r, corr sp_env (fun _ _ _ => O) sp_f sp_o (Some [0%Z]) None = Ok r) /\
  (exists t, brier_decomp sp_env (fun _ _ _ => O) sp_f sp_o (Some [0%Z]) None = Ok t).
Proof.
  split; [split; [constructor; [split; [lia|right; reflexivity]|constructor]|constructor; [intros []|constructor]]|].
  split; [constructor; lia|].
  assert (Hax : axes_are 2 (Some [0%Z]) [0%nat]) by (split; [constructor; [split; [lia|left; reflexivity]|constructor]|constructor; [intros []|constructor]]).
  assert (Hpl : plain (Some [0%Z])) by (split; [discriminate|constructor; [lia|constructor]]).
  split; [exact Hax|]. split; [exact Hpl|]. split; [cbn; lia|].
  destruct (c51_accepts_partial sp_env (fun _ _ _ => O) sp_f sp_o (Some [0%Z]) [0%nat] eq_refl Hax Hpl ltac:(cbn; lia)) as [A B]. split; [exact A|].
  apply B. intros x [<-|[<-|[]]]; lia.
Qed.
