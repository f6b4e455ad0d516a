(** From one slice to the whole array: Brier decomposition and correlation. *)
From Coq Require Import ZArith List Lia Bool Arith Permutation Sorted QArith Qcanon Reals Lra.
From Verif Require Import QcTac QSum Num NdArr Numpy M_common NdAxes Spec Spec_prob M_boot RTier M_special P_boot P_brier P_work P_corr.
Import ListNotations.
Open Scope nat_scope.

(** the axis lists that the work flow of utils_special_boot understands *)
Definition plain (ax : option (list Z)) : Prop := match ax with None => True | Some l => l <> [] /\ Forall (fun z => 0 <= z)%Z l end.
Lemma plain_of nd ax ns : axes_are nd ax ns -> plain ax -> plain_axes nd ax ns.
Proof.
  destruct ax as [l|]; cbn; [|auto]. intros [H Hn] [Hne Hp].
  assert (G : l = map Z.of_nat ns /\ forall x, In x ns -> x < nd).
  { clear Hn Hne. induction H as [|z n l ns Hz H IH]; [split; [reflexivity|intros x []]|]. inversion Hp as [|? ? Hz0 Hp']; subst. destruct (IH Hp') as [-> B].
    destruct Hz as [Hlt [->| ->]]; [|lia]. split; [reflexivity|]. intros x [<-|Hx]; [exact Hlt|apply B, Hx]. }
  destruct G as [-> B]. repeat split; auto. intros ->. apply Hne. reflexivity.
Qed.
Lemma brier_point_length skip f o v : brier_point skip f o = Ok v -> length v = 3.
Proof. unfold brier_point. destruct f; [discriminate|]. intros H. injection H as <-. reflexivity. Qed.
Lemma special_triple_length e s v : special_triple e s = Ok v -> length v = 3.
Proof.
  unfold special_triple. destruct (_ s (1 - confidence e)%Qc); [|discriminate]. cbn [bind]. destruct (_ s (confidence e)); [|discriminate]. cbn [bind]. intros H. injection H as <-. reflexivity.
Qed.
Lemma func_brier_length e n rng x y v : func_brier e n rng x y = Ok v -> length v = match n with None => 3 | Some _ => 9 end.
Proof.
  unfold func_brier. destruct n as [n|]; [|apply brier_point_length]. unfold brier_boot. destruct (mapM _ _) as [rets|]; [|discriminate]. cbn [bind].
  destruct (special_triple e (map (fun t => nth 0 t NaN) rets)) as [a|] eqn:Ea; [|discriminate]. cbn [bind].
  destruct (special_triple e (map (fun t => nth 1 t NaN) rets)) as [b|] eqn:Eb; [|discriminate]. cbn [bind].
  destruct (special_triple e (map (fun t => nth 2 t NaN) rets)) as [c|] eqn:Ec; [|discriminate]. cbn [bind].
  intros H. injection H as <-. rewrite !app_length, (special_triple_length _ _ _ Ea), (special_triple_length _ _ _ Eb), (special_triple_length _ _ _ Ec). reflexivity.
Qed.
Section Api.
  Variables (e : boot_env) (rng : nat -> nat -> nat -> nat) (f o : arr num) (ax : option (list Z)) (ns : list nat).
  Hypothesis (Hsh : shape f = shape o) (Hax : plain_axes (length (shape o)) ax ns).
  Let keep := kept (length (shape o)) ns (shape o).
  Let grp k := group_list (shape o) ns k.
  Lemma brier_api_none rel reso unc : brier_decomp e rng f o ax None = Ok (rel, reso, unc) ->
    shape rel = keep /\ shape reso = keep /\ shape unc = keep /\
    forall k, valid keep k -> brier_point (skip_nan e) (map (get f) (grp k)) (map (get o) (grp k)) = Ok [get rel k; get reso k; get unc k].
  Proof.
    unfold brier_decomp. destruct (workflow _ _ _ _ _) as [r|] eqn:Ew; [|discriminate]. cbn [bind].
    destruct (workflow_spec NaN _ f o ax ns Hsh Hax 3 (fun i x y v => func_brier_length e None (rng i) x y v) r Ew) as (_ & Sr & G).
    cbn [lead Nat.eqb] in Sr. fold keep in Sr. unfold lead in Sr. cbn [Nat.eqb] in Sr. rewrite Sr. cbn [hd Nat.eqb passert bind]. intros H. injection H as <- <- <-. unfold sub0. rewrite Sr. cbn [shape get tl].
    repeat (split; [reflexivity|]). intros k Hk. destruct (G k Hk) as (v & Ev & Gv). cbn [func_brier] in Ev. unfold grp. rewrite Ev. f_equal.
    pose proof (brier_point_length _ _ _ _ Ev) as L3. destruct v as [|a [|b [|c [|]]]]; cbn in L3; try lia.
    rewrite <- (Gv 0 ltac:(lia) : get r (0 :: k) = a), <- (Gv 1 ltac:(lia) : get r (1 :: k) = b), <- (Gv 2 ltac:(lia) : get r (2 :: k) = c). reflexivity.
  Qed.
  Lemma brier_api_boot n rel reso unc : brier_decomp e rng f o ax (Some n) = Ok (rel, reso, unc) ->
    shape rel = 3 :: keep /\ shape reso = 3 :: keep /\ shape unc = 3 :: keep /\
    forall k, valid keep k -> brier_boot e (rng (flat keep k)) n (map (get f) (grp k)) (map (get o) (grp k)) =
      Ok ([get rel (0 :: k); get rel (1 :: k); get rel (2 :: k)] ++ [get reso (0 :: k); get reso (1 :: k); get reso (2 :: k)] ++ [get unc (0 :: k); get unc (1 :: k); get unc (2 :: k)]).
  Proof.
    unfold brier_decomp. destruct (workflow _ _ _ _ _) as [r|] eqn:Ew; [|discriminate]. cbn [bind].
    destruct (workflow_spec NaN _ f o ax ns Hsh Hax 9 (fun i x y v => func_brier_length e (Some n) (rng i) x y v) r Ew) as (_ & Sr & G).
    unfold lead in Sr. cbn [Nat.eqb] in Sr. fold keep in Sr. rewrite Sr. cbn [hd tl Nat.eqb passert bind]. intros H. injection H as <- <- <-. unfold sub0. cbn [shape get tl reshape].
    repeat (split; [reflexivity|]). intros k Hk. destruct (G k Hk) as (v & Ev & Gv). cbn [func_brier] in Ev. fold keep in Ev. unfold grp. rewrite Ev. f_equal.
    pose proof (func_brier_length e (Some n) (rng (flat keep k)) _ _ _ Ev) as L9. cbn in L9.
    assert (R : forall i j, i < 3 -> j < 3 -> get r (unflat (shape r) (flat (3 :: 3 :: keep) (i :: j :: k))) = nth (i * 3 + j) v NaN).
    { intros i j Hi Hj. rewrite <- (Gv (i * 3 + j)) by lia. unfold lead_ix. cbn [Nat.eqb]. f_equal. rewrite Sr.
      assert (Hv : valid (9 :: keep) (i * 3 + j :: k)) by (constructor; [lia|exact Hk]).
      rewrite <- (unflat_flat (9 :: keep) (i * 3 + j :: k)) by exact Hv. f_equal. cbn [flat prod]. lia. }
    rewrite !R by lia. cbn [Nat.mul Nat.add]. do 9 (destruct v as [|? v]; [cbn in L9; lia|]). destruct v; [|cbn in L9; lia]. reflexivity.
  Qed.
  Lemma corr_api n r : corr e rng f o ax n = Ok r ->
    shape r = match n with None => keep | Some _ => 3 :: keep end /\
    forall k, valid keep k -> func_corr e n (rng (flat keep k)) (map (get f) (grp k)) (map (get o) (grp k)) =
      Ok match n with None => [get r k] | Some _ => [get r (0 :: k); get r (1 :: k); get r (2 :: k)] end.
  Proof.
    unfold corr. intros Ew.
    destruct (workflow_spec RNaN _ f o ax ns Hsh Hax _ (fun i x y v => func_corr_length e n (rng i) x y v) r Ew) as (_ & Sr & G).
    split; [destruct n; exact Sr|]. intros k Hk. destruct (G k Hk) as (v & Ev & Gv). fold keep in Ev. unfold grp. rewrite Ev. f_equal.
    pose proof (func_corr_length _ _ _ _ _ _ Ev) as L. destruct n as [n|].
    - destruct v as [|a [|b [|c [|]]]]; cbn in L; try lia.
      rewrite <- (Gv 0 ltac:(lia) : get r (0 :: k) = a), <- (Gv 1 ltac:(lia) : get r (1 :: k) = b), <- (Gv 2 ltac:(lia) : get r (2 :: k) = c). reflexivity.
    - destruct v as [|a [|]]; cbn in L; try lia. rewrite <- (Gv 0 ltac:(lia) : get r k = a). reflexivity.
  Qed.
End Api.
(** ** Sums do not depend on the order of the samples *)
Lemma avg_over_perm {A} (g : A -> Qc) S T : Permutation S T -> avg_over g S = avg_over g T.
Proof. intros P. unfold avg_over. apply (qmean_perm (map g S) (map g T)), Permutation_map, P. Qed.
Lemma avg_over_ext {A} (g h : A -> Qc) S : (forall x, In x S -> g x = h x) -> avg_over g S = avg_over h S.
Proof. intros H. unfold avg_over. f_equal. apply map_ext_in, H. Qed.
Lemma perm_filter {A} (p : A -> bool) S T : Permutation S T -> Permutation (filter p S) (filter p T).
Proof.
  induction 1 as [|x l l' H IH|x y l|l l' l'' H1 IH1 H2 IH2]; cbn; [constructor| | |eapply perm_trans; eassumption].
  - destruct (p x); [constructor; exact IH|exact IH].
  - destruct (p x), (p y); try reflexivity. constructor.
Qed.
Lemma bin_mean_perm {A} (bin : A -> nat) g S T x : Permutation S T -> bin_mean bin g S x = bin_mean bin g T x.
Proof. intros P. unfold bin_mean. apply (qmean_perm (map g _) (map g _)), Permutation_map, perm_filter, P. Qed.
Lemma bin_mean_ext {A} (b1 b2 : A -> nat) g S x : (forall y, In y S -> b1 y = b2 y) -> b1 x = b2 x -> bin_mean b1 g S x = bin_mean b2 g S x.
Proof. intros H Hx. unfold bin_mean. f_equal. f_equal. apply filter_ext_in. intros y Hy. rewrite (H y Hy), Hx. reflexivity. Qed.
Lemma group_list_perm sh ns k L : NoDup ns -> (forall x, In x ns -> x < length sh) -> valid (kept (length sh) ns sh) k -> Cells sh ns k L ->
  Permutation (group_list sh ns k) L.
Proof.
  intros Hn Hlt Hk HL. eapply perm_trans; [symmetry; apply Cells_perm, group_list_Cells; assumption|apply Cells_perm, HL].
Qed.
Lemma group_list_in sh ns k L : NoDup ns -> (forall x, In x ns -> x < length sh) -> valid (kept (length sh) ns sh) k -> Cells sh ns k L ->
  forall ix, In ix (group_list sh ns k) <-> In ix L.
Proof. intros Hn Hlt Hk HL ix. pose proof (group_list_perm _ _ _ _ Hn Hlt Hk HL) as P. split; apply Permutation_in; [exact P|symmetry; exact P]. Qed.
Open Scope Qc_scope.
Definition sq (x : Qc) : Qc := x * x.
Lemma brier_point_avg {A} skip (S : list A) (p y : A -> Qc) : S <> [] -> let bin x := digitize brier_bins (Fin (p x)) in
  brier_point skip (map (fun x => Fin (p x)) S) (map (fun x => Fin (y x)) S) = Ok
    [Fin (avg_over (fun x => sq (bin_mean bin p S x - bin_mean bin y S x)) S);
     Fin (avg_over (fun x => sq (bin_mean bin y S x - avg_over y S)) S);
     Fin (avg_over y S * (1 - avg_over y S))].
Proof.
  intros HS bin. pose proof (brier_point_fin S p y skip HS) as E. cbv zeta in E. etransitivity; [exact E|]. clear E.
  assert (Q : forall g : A -> Qc, avg_over g S = qsumf g S / qn (length S)) by (intros g; unfold avg_over, mean_of; rewrite map_length; reflexivity).
  f_equal. f_equal; [|f_equal]; f_equal; symmetry; apply Q.
Qed.
Lemma brier_values e rng f o ax ns rel reso unc k L (p y : list nat -> Qc) (bin : list nat -> nat) :
  shape f = shape o -> axes_are (length (shape o)) ax ns -> plain ax ->
  brier_decomp e rng f o ax None = Ok (rel, reso, unc) ->
  Forall2 lt k (kept (length (shape o)) ns (shape o)) -> Cells (shape o) ns k L ->
  (forall ix, In ix L -> get f ix = Fin (p ix) /\ get o ix = Fin (y ix) /\ in_bin 20 (p ix) (bin ix)) ->
  L <> [] /\
  get rel k = Fin (avg_over (fun ix => sq (bin_mean bin p L ix - bin_mean bin y L ix)) L) /\
  get reso k = Fin (avg_over (fun ix => sq (bin_mean bin y L ix - avg_over y L)) L) /\
  get unc k = Fin (avg_over y L * (1 - avg_over y L)).
Proof.
  intros Hsh Hax Hpl H Hk HL Hd. pose proof (plain_of _ _ _ Hax Hpl) as Hp. destruct (plain_axes_facts _ _ _ Hp) as (Hn & Hlt & _ & _).
  destruct (brier_api_none e rng f o ax ns Hsh Hp rel reso unc H) as (_ & _ & _ & G). specialize (G k Hk).
  set (S := group_list (shape o) ns k) in *. pose proof (group_list_perm _ _ _ _ Hn Hlt Hk HL) as P. fold S in P.
  assert (HS : forall ix, In ix S -> get f ix = Fin (p ix) /\ get o ix = Fin (y ix) /\ in_bin 20 (p ix) (bin ix)) by (intros ix Hi; apply Hd; eapply Permutation_in; [exact P|exact Hi]).
  rewrite (map_ext_in (get f) (fun ix => Fin (p ix))) in G by (intros ix Hi; apply HS, Hi).
  rewrite (map_ext_in (get o) (fun ix => Fin (y ix))) in G by (intros ix Hi; apply HS, Hi).
  assert (HS0 : S <> []) by (intros E; rewrite E in G; discriminate).
  assert (HL0 : L <> []) by (intros ->; apply HS0, Permutation_nil; symmetry; exact P).
  rewrite (brier_point_avg (skip_nan e) S p y HS0) in G. cbv zeta in G. split; [exact HL0|].
  set (key := fun x => digitize brier_bins (Fin (p x))) in G.
  assert (K : forall ix, In ix S -> key ix = bin ix) by (intros ix Hi; apply brier_digitize, HS, Hi).
  assert (M : forall g ix, In ix S -> bin_mean key g S ix = bin_mean bin g L ix).
  { intros g ix Hi. rewrite (bin_mean_ext key bin g S ix) by (try apply K; auto). apply bin_mean_perm, P. }
  rewrite <- (avg_over_perm y S L P), <- !(avg_over_perm _ S L P).
  injection G as G1 G2 G3. rewrite <- G1, <- G2, <- G3. repeat split; f_equal; apply avg_over_ext; intros ix Hi; rewrite ?M by exact Hi; reflexivity.
Qed.
(** the identity and the bounds, for averages *)
Lemma avg_sum {A} (g : A -> Qc) S : avg_over g S = qsumf g S / qn (length S).
Proof. unfold avg_over, mean_of. rewrite map_length. reflexivity. Qed.
Lemma avg_split {A} (S : list A) (bin : A -> nat) (p y : A -> Qc) : S <> [] -> (forall x, In x S -> y x = 0 \/ y x = 1) ->
  let P := bin_mean bin p S in let Y := bin_mean bin y S in let ob := avg_over y S in
  let rel := avg_over (fun x => sq (P x - Y x)) S in let reso := avg_over (fun x => sq (Y x - ob)) S in let unc := ob * (1 - ob) in
  unc - reso = avg_over (fun x => sq (y x - Y x)) S /\
  avg_over (fun x => sq (p x - y x)) S = rel - reso + unc + avg_over (fun x => sq (p x - P x)) S - qz 2 * avg_over (fun x => (p x - P x) * (y x - Y x)) S.
Proof.
  intros HS Hy P Y ob rel reso unc. assert (Hl : qn (length S) <> 0) by (apply qn_neq0; destruct S; [contradiction|cbn; lia]).
  assert (Hob : qsumf y S = qn (length S) * ob) by (unfold ob; rewrite avg_sum; field; exact Hl).
  assert (Hy2 : qsumf (fun x => y x * y x) S = qn (length S) * ob).
  { rewrite <- Hob. apply qsumf_ext. intros x Hx. destruct (Hy x Hx) as [->| ->]; ring. }
  pose proof (bin_sum S bin y) as Hs. rewrite Hob in Hs.
  pose proof (resolution_sum S bin y ob Hs) as R. pose proof (inner_variance S bin y) as V. rewrite Hy2 in V.
  assert (U : unc - reso = avg_over (fun x => sq (y x - Y x)) S).
  { unfold unc, reso. rewrite !avg_sum. unfold sq. change (qsumf (fun x => (Y x - ob) * (Y x - ob)) S) with (qsumf (fun x => (bm S bin y x - ob) * (bm S bin y x - ob)) S).
    change (qsumf (fun x => (y x - Y x) * (y x - Y x)) S) with (qsumf (fun x => (y x - bm S bin y x) * (y x - bm S bin y x)) S).
    rewrite R, V. field. exact Hl. }
  split; [exact U|].
  replace (rel - reso + unc) with (rel + (unc - reso)) by ring. rewrite U. unfold rel. rewrite !avg_sum. pose proof (square_split S bin p y) as Q.
  change (qsumf (fun x => sq (p x - y x)) S) with (qsumf (fun x => (p x - y x) * (p x - y x)) S). rewrite Q.
  change (qsumf (fun x => sq (P x - Y x)) S) with (qsumf (fun x => (bm S bin p x - bm S bin y x) * (bm S bin p x - bm S bin y x)) S).
  change (qsumf (fun x => sq (y x - Y x)) S) with (qsumf (fun x => (y x - bm S bin y x) * (y x - bm S bin y x)) S).
  change (qsumf (fun x => sq (p x - P x)) S) with (qsumf (fun x => (p x - bm S bin p x) * (p x - bm S bin p x)) S).
  change (qsumf (fun x => (p x - P x) * (y x - Y x)) S) with (qsumf (fun x => (p x - bm S bin p x) * (y x - bm S bin y x)) S).
  field. exact Hl.
Qed.
Lemma avg_nonneg {A} (g : A -> Qc) S : (forall x, In x S -> 0 <= g x) -> 0 <= avg_over g S.
Proof. intros H. destruct S as [|a S]; [apply Qcle_refl|]. rewrite avg_sum. apply Qcdiv_nonneg; [apply qsumf_nonneg, H|apply qn_pos; cbn; lia]. Qed.
Lemma avg_zero {A} (g : A -> Qc) S : (forall x, In x S -> g x = 0) -> avg_over g S = 0.
Proof. intros H. rewrite avg_sum, (qsumf_ext g (fun _ => 0)) by exact H. rewrite qsumf_zero. unfold Qcdiv. ring. Qed.
Lemma bin_mean_const {A} (bin : A -> nat) (g : A -> Qc) S x : In x S -> (forall y, In y S -> bin y = bin x -> g y = g x) -> bin_mean bin g S x = g x.
Proof.
  intros Hx H. change (qmeanf g (filter (fun y => Nat.eqb (bin y) (bin x)) S) = g x).
  assert (Hi : In x (filter (fun y => Nat.eqb (bin y) (bin x)) S)) by (apply filter_In; split; [exact Hx|apply Nat.eqb_refl]).
  rewrite (qmeanf_ext g (fun _ => g x)); [apply qmeanf_const; intros E; rewrite E in Hi; exact Hi|].
  intros y Hy. apply filter_In in Hy as [Hy E]. apply Nat.eqb_eq in E. apply H; assumption.
Qed.
Open Scope nat_scope.
(** ** One-dimensional calls *)
Definition vec (l : list num) : arr num := of_list NaN [length l] l.
Lemma group_list_vec n : group_list [n] [0] [] = map (fun i => [i]) (seq 0 n).
Proof.
  unfold group_list. change (pick [0] [n]) with [n]. cbn [indices map].
  induction (seq 0 n) as [|i l IH]; [reflexivity|]. exact (f_equal (cons [i]) IH).
Qed.
Lemma nth_seq_id {A} (d : A) l : map (fun i => nth i l d) (seq 0 (length l)) = l.
Proof. induction l as [|x l IH]; [reflexivity|]. cbn [length seq map nth]. f_equal. rewrite <- seq_shift, map_map. exact IH. Qed.
Lemma vec_group l : map (get (vec l)) (group_list [length l] [0] []) = l.
Proof.
  rewrite group_list_vec, map_map. transitivity (map (fun i => nth i l NaN) (seq 0 (length l))); [|apply nth_seq_id]. apply map_ext. intros i. cbn [vec of_list get flat prod]. rewrite Nat.mul_1_r, Nat.add_0_r. reflexivity.
Qed.
Lemma vec_accepts {B} (d : B) F x y v : length x = length y -> F 0 x y = Ok v -> exists r, workflow d F (vec x) (vec y) None = Ok r.
Proof.
  intros Hl E. rewrite (workflow_unfold d F (vec x) (vec y) None [0]); [|cbn; rewrite Hl; reflexivity|reflexivity].
  change (kept (length (shape (vec y))) [0] (shape (vec y))) with (@nil nat). cbn [prod seq mapM]. unfold slice_run. cbn [unflat].
  change (kept (length (shape (vec y))) [0] (shape (vec y))) with (@nil nat). cbn [unflat].
  change (shape (vec y)) with [length y]. rewrite vec_group, <- Hl, vec_group. rewrite E. cbn [bind]. eexists. cbn. reflexivity.
Qed.
(** ** Bootstrapped decompositions *)
Open Scope Qc_scope.
Lemma filter_nan_fin l : filter (fun x => negb (is_nan x)) (map Fin l) = map Fin l.
Proof. induction l as [|x l IH]; [reflexivity|]. cbn. rewrite IH. reflexivity. Qed.
Lemma np_nanquantile_fin l p : l <> [] -> 0 <= p -> p <= 1 -> np_nanquantile (map Fin l) p = Ok (Fin (qquant l p)).
Proof.
  intros Hl H0 H1. unfold np_nanquantile. rewrite ?filter_nan_fin. destruct (qleb_spec 0 p) as [_|C]; [|exfalso; qlra]. destruct (qleb_spec p 1) as [_|C]; [|exfalso; qlra].
  cbn [andb negb]. destruct (map Fin l) as [|x r] eqn:E; [apply map_eq_nil in E; contradiction|]. rewrite <- E.
  rewrite nsort_fin, ninterp_fin; try assumption; [reflexivity|].
  intros E'. apply (f_equal (@length _)) in E'. rewrite qsort_length in E'. apply Hl. destruct l; [reflexivity|discriminate].
Qed.
Lemma level_ok (b : bool) l p v : (if b then np_nanquantile else np_quantile) l p = Ok v -> 0 <= p /\ p <= 1.
Proof.
  intros H. destruct b; unfold np_nanquantile, np_quantile in H; destruct (negb (qleb 0 p && qleb p 1)) eqn:E; try discriminate; apply level_checked, E.
Qed.
Lemma triple_fin e l v : l <> [] -> special_triple e (map Fin l) = Ok v ->
  (0 <= confidence e /\ confidence e <= 1) /\ v = [Fin (qquant l (1 - confidence e)); Fin (qmean l); Fin (qquant l (confidence e))].
Proof.
  intros Hl H. unfold special_triple in H. set (q := if skip_nan e then np_nanquantile else np_quantile) in H.
  destruct (q (map Fin l) (1 - confidence e)) as [lo|] eqn:E1; [|discriminate]. cbn [bind] in H. destruct (q (map Fin l) (confidence e)) as [hi|] eqn:E2; [|discriminate]. cbn [bind] in H. injection H as <-.
  assert (C : 0 <= confidence e /\ confidence e <= 1) by (eapply level_ok; exact E2). split; [exact C|]. destruct C as [C0 C1].
  assert (Q : forall p, 0 <= p -> p <= 1 -> q (map Fin l) p = Ok (Fin (qquant l p))) by (intros; unfold q; destruct (skip_nan e); [apply np_nanquantile_fin|apply np_quantile_fin]; assumption).
  rewrite Q in E1, E2 by qlra. injection E1 as <-. injection E2 as <-. repeat f_equal. destruct (skip_nan e); [apply nanmean_fin|apply nmean_fin]; exact Hl.
Qed.
Lemma triple_ge e l v a : l <> [] -> (forall x, In x l -> a <= x) -> special_triple e (map Fin l) = Ok v ->
  forall x, In x v -> exists q, x = Fin q /\ a <= q.
Proof.
  intros Hl H E. destruct (triple_fin e l v Hl E) as [[C0 C1] ->].
  intros x [<-|[<-|[<-|[]]]]; eexists; (split; [reflexivity|]); [apply qquant_ge; try assumption; qlra|apply qmean_ge; assumption|apply qquant_ge; assumption].
Qed.
Lemma triple_le e l v a : l <> [] -> (forall x, In x l -> x <= a) -> special_triple e (map Fin l) = Ok v ->
  forall x, In x v -> exists q, x = Fin q /\ q <= a.
Proof.
  intros Hl H E. destruct (triple_fin e l v Hl E) as [[C0 C1] ->].
  intros x [<-|[<-|[<-|[]]]]; eexists; (split; [reflexivity|]); [apply qquant_le; try assumption; qlra|apply qmean_le; assumption|apply qquant_le; assumption].
Qed.
Lemma quarter (x : Qc) : x * (1 - x) <= / qz 4.
Proof.
  assert (H : 0 <= (1 - qz 2 * x) * (1 - qz 2 * x)) by apply qsq_nonneg. assert (E : / qz 4 * qz 4 = 1) by (apply Qcmult_inv_l; discriminate).
  assert (F : qz 4 = qz 2 * qz 2) by reflexivity. assert (G : qz 2 = 1 + 1) by reflexivity. assert (P : 0 < qz 4) by reflexivity.
  apply (Qcmult_lt_0_le_reg_r _ _ (qz 4)); [exact P|]. rewrite E, F, G. rewrite G in H.
  apply Qcle_minus_iff. replace (1 + - (x * (1 - x) * ((1 + 1) * (1 + 1)))) with ((1 - (1 + 1) * x) * (1 - (1 + 1) * x)) by ring. exact H.
Qed.
(** the three terms of any sample of 0/1 outcomes *)
Lemma terms_bounds {A} (S : list A) (bin : A -> nat) (p y : A -> Qc) : S <> [] -> (forall x, In x S -> y x = 0 \/ y x = 1) ->
  let rel := avg_over (fun x => sq (bin_mean bin p S x - bin_mean bin y S x)) S in
  let reso := avg_over (fun x => sq (bin_mean bin y S x - avg_over y S)) S in
  let unc := avg_over y S * (1 - avg_over y S) in
  0 <= rel /\ 0 <= reso /\ 0 <= unc /\ unc <= / qz 4 /\ reso <= unc.
Proof.
  intros HS Hy rel reso unc. destruct (avg_split S bin p y HS Hy) as [U _]. cbv zeta in U. fold reso unc in U.
  assert (R : 0 <= rel) by (apply avg_nonneg; intros; apply qsq_nonneg). assert (R2 : 0 <= reso) by (apply avg_nonneg; intros; apply qsq_nonneg).
  assert (V : 0 <= unc - reso) by (rewrite U; apply avg_nonneg; intros; apply qsq_nonneg).
  repeat split; try assumption; [qlra|apply quarter|qlra].
Qed.
Lemma take_map_cells {A} (g : A -> Qc) (d : A) S idx : (forall i, In i idx -> (i < length S)%nat) ->
  take NaN (map (fun x => Fin (g x)) S) idx = map (fun x => Fin (g x)) (map (fun i => nth i S d) idx).
Proof.
  intros H. unfold take. rewrite map_map. apply map_ext_in. intros i Hi. rewrite (nth_indep _ NaN (Fin (g d))) by (rewrite map_length; apply H, Hi). apply (map_nth (fun x => Fin (g x))).
Qed.
Lemma brier_boot_bounds {A} e rng n (S : list A) (p y : A -> Qc) v : (0 < repeats e)%nat -> (forall x, In x S -> y x = 0 \/ y x = 1) ->
  brier_boot e rng n (map (fun x => Fin (p x)) S) (map (fun x => Fin (y x)) S) = Ok v ->
  exists va vb vc, v = va ++ vb ++ vc /\ length va = 3%nat /\ length vb = 3%nat /\ length vc = 3%nat /\
    (forall x, In x (va ++ vb) -> exists q, x = Fin q /\ 0 <= q) /\
    (forall x, In x vb -> exists q, x = Fin q /\ q <= / qz 4) /\
    (forall x, In x vc -> exists q, x = Fin q /\ 0 <= q <= / qz 4).
Proof.
  intros Hr Hy. unfold brier_boot. rewrite map_length.
  destruct (mapM _ _) as [rets|] eqn:Er; [|discriminate]. cbn [bind].
  assert (T : forall t, In t rets -> exists a b c, t = [Fin a; Fin b; Fin c] /\ 0 <= a /\ 0 <= b /\ b <= / qz 4 /\ 0 <= c /\ c <= / qz 4).
  { intros t Ht. destruct (In_nth _ _ [] Ht) as (i & Hi & <-). rewrite (mapM_length _ _ _ Er) in Hi. pose proof (mapM_nth _ _ _ i 0%nat [] Er Hi) as G. cbn beta in G.
    destruct (choice _ _ _) as [idx|] eqn:Ec; [|discriminate]. cbn [bind] in G.
    assert (Hidx : forall j, In j idx -> (j < length S)%nat) by (intros j Hj; pose proof (choice_in _ _ _ _ _ Ec Hj) as X; apply in_seq in X; lia).
    destruct idx as [|i0 idx']; [discriminate|]. destruct S as [|d S'] eqn:ES; [specialize (Hidx i0 (or_introl eq_refl)); cbn in Hidx; lia|]. rewrite <- ES in *.
    rewrite (take_map_cells p d S _ Hidx), (take_map_cells y d S _ Hidx) in G. set (S1 := map (fun i => nth i S d) (i0 :: idx')) in G.
    assert (HS1 : S1 <> []) by discriminate. rewrite (brier_point_avg (skip_nan e) S1 p y HS1) in G. cbv zeta in G.
    assert (Hy1 : forall x, In x S1 -> y x = 0 \/ y x = 1) by (intros x Hx; apply in_map_iff in Hx as (j & <- & Hj); apply Hy, nth_In, Hidx, Hj).
    destruct (terms_bounds S1 (fun x => digitize brier_bins (Fin (p x))) p y HS1 Hy1) as (B1 & B2 & B3 & B4 & B5). cbv zeta in *.
    injection G as G. rewrite <- G. do 3 eexists. split; [reflexivity|]. repeat split; try assumption. eapply Qcle_trans; [exact B5|exact B4]. }
  assert (Hne : rets <> []) by (intros ->; apply mapM_length in Er; rewrite seq_length in Er; cbn in Er; lia).
  set (num i := fun t : list num => val (nth i t NaN)).
  assert (E : forall i, (i < 3)%nat -> map (fun t => nth i t NaN) rets = map Fin (map (num i) rets)).
  { intros i Hi. rewrite map_map. apply map_ext_in. intros t Ht. destruct (T t Ht) as (a & b & c & -> & _). unfold num. destruct i as [|[|[|]]]; [reflexivity|reflexivity|reflexivity|lia]. }
  assert (Hn : forall i, map (num i) rets <> []) by (intros i Q; apply map_eq_nil in Q; contradiction).
  rewrite (E 0%nat), (E 1%nat), (E 2%nat) by lia.
  destruct (special_triple e (map Fin (map (num 0%nat) rets))) as [va|] eqn:Ea; [|discriminate]. cbn [bind].
  destruct (special_triple e (map Fin (map (num 1%nat) rets))) as [vb|] eqn:Eb; [|discriminate]. cbn [bind].
  destruct (special_triple e (map Fin (map (num 2%nat) rets))) as [vc|] eqn:Ec; [|discriminate]. cbn [bind]. intros H. injection H as <-.
  exists va, vb, vc. split; [reflexivity|]. repeat (split; [eapply special_triple_length; eassumption|]).
  assert (N : forall i x, In x (map (num i) rets) -> exists t, In t rets /\ x = num i t) by (intros i x Hx; apply in_map_iff in Hx as (t & <- & Ht); exists t; auto).
  split; [|split].
  - intros x Hx. apply in_app_iff in Hx as [Hx|Hx].
    + refine (triple_ge e _ va 0 (Hn 0%nat) _ Ea x Hx). intros q Hq; destruct (N _ _ Hq) as (t & Ht & ->); destruct (T t Ht) as (a & b & c & -> & B); cbn; apply B.
    + refine (triple_ge e _ vb 0 (Hn 1%nat) _ Eb x Hx). intros q Hq; destruct (N _ _ Hq) as (t & Ht & ->); destruct (T t Ht) as (a & b & c & -> & B); cbn; apply B.
  - intros x Hx. refine (triple_le e _ vb _ (Hn 1%nat) _ Eb x Hx). intros q Hq; destruct (N _ _ Hq) as (t & Ht & ->); destruct (T t Ht) as (a & b & c & -> & B); cbn; apply B.
  - intros x Hx. destruct (triple_ge e _ vc 0 (Hn 2%nat)) with (x := x) as (q & -> & Q0); [|exact Ec|exact Hx|].
    + intros q Hq; destruct (N _ _ Hq) as (t & Ht & ->); destruct (T t Ht) as (a & b & c & -> & B); cbn; apply B.
    + destruct (triple_le e _ vc (/ qz 4) (Hn 2%nat)) with (x := Fin q) as (q' & Eq & Q1); [|exact Ec|exact Hx|injection Eq as <-; exists q; auto].
      intros q' Hq; destruct (N _ _ Hq) as (t & Ht & ->); destruct (T t Ht) as (a & b & c & -> & B); cbn; apply B.
Qed.
(** the order of the samples is irrelevant *)
Lemma brier_point_perm skip (S T : list (Qc * Qc)) : Permutation S T ->
  brier_point skip (map (fun c => Fin (fst c)) S) (map (fun c => Fin (snd c)) S) = brier_point skip (map (fun c => Fin (fst c)) T) (map (fun c => Fin (snd c)) T).
Proof.
  intros P. destruct S as [|s S'] eqn:ES; [apply Permutation_nil in P; subst; reflexivity|]. rewrite <- ES in *.
  assert (HS : S <> []) by (rewrite ES; discriminate). assert (HT : T <> []) by (intros ->; apply HS, Permutation_nil; symmetry; exact P).
  rewrite (brier_point_avg skip S fst snd HS), (brier_point_avg skip T fst snd HT). cbv zeta. set (bin := fun x : Qc * Qc => digitize brier_bins (Fin (fst x))).
  rewrite <- (avg_over_perm snd S T P), <- !(avg_over_perm _ S T P). f_equal. f_equal; [|f_equal]; f_equal; apply avg_over_ext; intros c _; rewrite ?(bin_mean_perm bin fst S T c P), ?(bin_mean_perm bin snd S T c P); reflexivity.
Qed.
Lemma corr_point_fin skip x y : length x = length y -> corr_point skip (map Fin x) (map Fin y) = corrcoef (map Fin x) (map Fin y).
Proof.
  intros H. unfold corr_point, corr_masked. destruct skip; [|reflexivity].
  assert (E : filter (fun p : num * num => negb (is_nan (fst p)) && negb (is_nan (snd p)))%bool (combine (map Fin x) (map Fin y)) = combine (map Fin x) (map Fin y)).
  { clear H. revert y. induction x as [|a x IH]; intros [|b y]; try reflexivity. cbn. f_equal. apply IH. }
  rewrite E, combine_fst, combine_snd by (rewrite !map_length; exact H). reflexivity.
Qed.
