(** Property C121: missing observations, forecasts and members, from the constructor to the numbers. *)
From Coq Require Import String Ascii ZArith List Bool Arith QArith Qcanon Lia Permutation.
From Verif Require Import QcTac QSum Num NdArr Numpy NdAxes M_common M_boot M_determ M_ens M_crpsens M_iou M_roc M_dist M_ps
  Spec P_boot P_rank P_prob P_ps Props_avg Props_prob Props_ps Props_iou Store M_state Spec_state P_state P_codec Spec_result P_result Props_state Props_result
  M_whole Spec_whole P_whole Props_whole P_laws Props_laws Props_pieces.
From Verif Require P_dist Props_crpsens.
Import ListNotations.
Open Scope string_scope.
Open Scope list_scope.
Open Scope nat_scope.

(** a value that may be missing *)
Definition given (o : option Qc) : num := match o with Some q => Fin q | None => NaN end.
(** the values that are there *)
Definition present (l : list (option Qc)) : list Qc := flat_map (fun o => match o with Some q => [q] | None => [] end) l.
(** mean of values some of which may be missing: with skip_nan the mean of the others, otherwise missing *)
Definition mean_given (skip : bool) (l : list (option Qc)) : option Qc :=
  if skip || forallb (fun o => match o with Some _ => true | None => false end) l
  then match present l with [] => None | p => Some (Spec.mean_of p) end else None.
Definition both (g : Qc -> Qc -> Qc) (a b : option Qc) : option Qc := match a, b with Some x, Some y => Some (g x y) | _, _ => None end.
(** CRPS of a cell: missing without observation or without any member, otherwise that of the members that are there *)
Definition crps_given (o : option Qc) (m : list (option Qc)) : option Qc :=
  match o, present m with Some y, _ :: _ => Some (crps_formula y (present m)) | _, _ => None end.
(** range of the members of a cell *)
Definition range_given (skip : bool) (m : list (option Qc)) (r : option Qc) : Prop :=
  match r with
  | Some d => (skip = true \/ ~ In None m) /\ exists hi lo, In hi (present m) /\ In lo (present m) /\ d = (hi - lo)%Qc /\ forall y, In y (present m) -> (lo <= y)%Qc /\ (y <= hi)%Qc
  | None => present m = [] \/ (skip = false /\ In None m)
  end.

Lemma filter_given l : filter (fun x => negb (is_nan x)) (map given l) = map Fin (present l).
Proof. induction l as [|[q|] r IH]; [reflexivity| |]; cbn [map filter given is_nan negb present flat_map app]; [rewrite IH; reflexivity|exact IH]. Qed.
Lemma all_given l : forallb (fun o : option Qc => match o with Some _ => true | None => false end) l = true -> map given l = map Fin (present l).
Proof. induction l as [|[q|] r IH]; [reflexivity| |discriminate]. cbn [forallb andb]. intros H. cbn [map given present flat_map app]. f_equal. apply IH, H. Qed.
Lemma not_all l : forallb (fun o : option Qc => match o with Some _ => true | None => false end) l = false -> In None l.
Proof. induction l as [|[q|] r IH]; [discriminate| |left; reflexivity]. cbn [forallb andb]. intros H. right. apply IH, H. Qed.
Lemma all_not l : In None l -> forallb (fun o : option Qc => match o with Some _ => true | None => false end) l = false.
Proof. induction l as [|[q|] r IH]; [intros []| |reflexivity]. intros [H|H]; [discriminate|]. cbn. apply IH, H. Qed.
Lemma mean_value (skip : bool) l : (if skip then nanmean else nmean) (map given l) = given (mean_given skip l).
Proof.
  assert (E : forall p, nmean (map Fin p) = given (match p with [] => None | q :: r => Some (Spec.mean_of (q :: r)) end)).
  { intros [|a p]; [reflexivity|]. rewrite Num.nmean_fin by discriminate. reflexivity. }
  unfold mean_given. destruct skip; cbn [orb].
  - unfold nanmean. rewrite filter_given. apply E.
  - destruct (forallb _ l) eqn:A; [rewrite (all_given l A); apply E|]. cbn [given]. apply Num.nmean_nan, in_map_iff. exists None. split; [reflexivity|apply not_all, A].
Qed.
Lemma cell_given cell o m : properscoring cell -> cell (given o) (map given m) = given (crps_given o m).
Proof.
  intros PS. assert (Eg : P_ps.good (map given m) = map Fin (present m)) by apply filter_given.
  assert (Nil : forall y, present m = [] -> cell y (map given m) = NaN).
  { intros y E. rewrite E in Eg. destruct PS as [->| ->].
    - rewrite vectorized_good, Eg. reflexivity.
    - unfold ps_gufunc. fold (P_ps.good (map given m)). rewrite Eg. destruct (is_nan y); reflexivity. }
  destruct o as [y|]; cbn [given crps_given].
  - destruct (present m) as [|a p] eqn:Ep; [apply Nil; reflexivity|]. rewrite (cell_value cell y _ (a :: p) PS Eg ltac:(discriminate)), crps_formula_of by discriminate. reflexivity.
  - destruct PS as [->| ->]; [|reflexivity]. unfold ps_vectorized. replace (nanmean (map (fun f => nabs (nsub f NaN)) (map given m))) with NaN; [reflexivity|].
    assert (Z : forall l, filter (fun x => negb (is_nan x)) (map (fun f => nabs (nsub f NaN)) l) = []) by (induction l as [|[q| | |] r IH]; [reflexivity|exact IH|exact IH|exact IH|exact IH]).
    unfold nanmean. rewrite Z. reflexivity.
Qed.
Lemma range_value (skip : bool) m r hi lo : m <> [] -> range_given skip m r ->
  (if skip then nannmax (map given m) else nmaximum (map given m)) = Ok hi -> (if skip then nannmin (map given m) else nminimum (map given m)) = Ok lo -> nsub hi lo = given r.
Proof.
  intros N H E1 E2.
  assert (Some_case : forall d, map Fin (present m) = map given m \/ skip = true -> (exists h l, In h (present m) /\ In l (present m) /\ d = (h - l)%Qc /\ forall y, In y (present m) -> (l <= y)%Qc /\ (y <= h)%Qc) -> nsub hi lo = Fin d).
  { intros d Hp (h & l & Ih & Il & -> & Bd). assert (Np : present m <> []) by (intros Z; rewrite Z in Ih; exact Ih).
    destruct (P_dist.spread_cell skip (present m) Np) as (h' & l' & F1 & F2 & Ih' & Il' & B').
    assert (G1 : Ok hi = Ok (Fin h')).
    { rewrite <- E1, <- F1. destruct Hp as [->| ->]; [reflexivity|]. unfold nannmax. rewrite filter_given. rewrite <- (map_map Fin (fun x => x)), map_id, P_dist.filter_fin. destruct m; [elim N; reflexivity|]. cbn [map]. destruct (present _) eqn:Ep; [elim Np; reflexivity|reflexivity]. }
    assert (G2 : Ok lo = Ok (Fin l')).
    { rewrite <- E2, <- F2. destruct Hp as [->| ->]; [reflexivity|]. unfold nannmin. rewrite filter_given. rewrite <- (map_map Fin (fun x => x)), map_id, P_dist.filter_fin. destruct m; [elim N; reflexivity|]. cbn [map]. destruct (present _) eqn:Ep; [elim Np; reflexivity|reflexivity]. }
    injection G1 as ->. injection G2 as ->. assert (h' = h) by (apply Qcle_antisym; [apply Bd|apply B']; assumption). assert (l' = l) by (apply Qcle_antisym; [apply B'|apply Bd]; assumption). subst. reflexivity. }
  destruct r as [d|]; cbn [range_given given] in *.
  - destruct H as [Hs H]. apply Some_case; [|exact H]. destruct Hs as [->|Hn]; [right; reflexivity|]. left. symmetry. apply all_given. destruct (forallb _ m) eqn:A; [reflexivity|]. elim Hn. apply not_all, A.
  - destruct (forallb (fun o : option Qc => match o with Some _ => true | None => false end) m) eqn:A.
    + destruct H as [H|[_ H]]; [|rewrite (all_not m H) in A; discriminate]. exfalso. apply N. pose proof (all_given m A) as E. rewrite H in E. destruct m; [reflexivity|discriminate].
    + assert (In None m) as HN by (apply not_all, A). destruct skip.
      * destruct H as [H|[H _]]; [|discriminate]. unfold nannmax in E1. rewrite filter_given, H in E1. destruct m; [elim N; reflexivity|]. cbn [map] in E1. injection E1 as <-. reflexivity.
      * assert (Fold : forall l a, (a = NaN \/ In NaN l) -> fold_left nmax2 l a = NaN).
        { induction l as [|y l IH]; intros a Ha; [destruct Ha as [->|[]]; reflexivity|]. cbn [fold_left]. apply IH. destruct Ha as [->|[->|Ha]]; [left; reflexivity|left; destruct a; reflexivity|right; exact Ha]. }
        assert (E3 : nmaximum (map given m) = Ok NaN).
        { destruct m as [|a m]; [elim N; reflexivity|]. cbn [map nmaximum]. f_equal. apply Fold. destruct HN as [->|HN]; [left; reflexivity|right; apply in_map_iff; exists None; split; [reflexivity|exact HN]]. }
        rewrite E3 in E1. injection E1 as <-. destruct lo; reflexivity.
Qed.

Section Laws.
Variable S : settings.
Variable other : string -> list M_state.val -> res M_state.val.
Variable otherr : string -> list M_state.val -> nat -> res M_state.val.
Variable str_of : M_state.val -> string.
Variable dumps : M_state.val -> string.
Variable loads : string -> res M_state.val.
Variable expanduser : string -> string.
Variable resolve : string -> path.
Variable points : M_state.val -> M_state.val -> M_state.val -> res (list num).
Variable less_memory : bool.
Variable integrate_wdir : option path.
Variable cwd : path.
Variable rng : nat -> nat.
Notation lib := (whole_lib S other).
Notation libr := (whole_libr S otherr).
Notation faithful := (faithful str_of dumps loads expanduser).
Notation reached := (reached S other otherr str_of dumps loads expanduser resolve points less_memory integrate_wdir cwd rng).
Notation answers := (answers S other otherr str_of dumps loads expanduser resolve points less_memory integrate_wdir cwd rng).
Notation ensemble_ready := (ensemble_ready S).
Notation thr_at := P_dist.thr_at.
Notation result := (Spec_result.result lib libr points).
Notation reached_result := (reached_result S other otherr str_of dumps loads expanduser resolve points less_memory integrate_wdir cwd rng).
Notation brier := (c85_brier S other otherr str_of dumps loads expanduser resolve points less_memory integrate_wdir cwd rng).
Notation skip := (skip_nan (w_boot S)).

Lemma averaged_given x w ax ns d : a_boot x = VNone -> axes_of (a_avg x) = Some ax -> axes_are (length (arr_shape w)) ax ns ->
  exists v, averaged_over lib libr x (Ok w) d = Ok v /\ arr_shape v = kept (length (arr_shape w)) ns (arr_shape w) /\
    forall k L G, Cells (arr_shape w) ns k L -> L <> [] -> (forall ix, In ix L -> reads w ix = given (G ix)) -> reads v k = given (mean_given skip (map G L)).
Proof.
  intros B A X. rewrite <- (arr_shape_of w) in *. unfold averaged_over, with_boot. rewrite B. cbn [is_none bind].
  destruct (proj2 (avg_accepts (w_boot S) (fun _ _ _ => O) ax (arr_of w)) (ex_intro _ ns X)) as [r E]. destruct (avg_spec _ _ _ _ _ _ E X) as [Sr G].
  exists (val_of r). split; [rewrite (lib_avg S other _ _ _ A), E; reflexivity|]. split; [exact Sr|].
  intros k L g C N F. rewrite reads_val by (rewrite Sr; exact (Cells_valid _ _ _ _ C N)). rewrite (G k L C), <- mean_value, map_map. f_equal. apply map_ext_in. intros ix I. apply F, I.
Qed.

(** ** Errors: a cell counts when forecast and observation are there *)
Theorem c121_errors : forall s k L F O, faithful -> reached s -> let x := ob s in
  cl x = CDeterm \/ cl x = CEnsemble -> arr_shape (point x) = arr_shape (a_o x) -> averages x k L ->
  (forall ix, In ix L -> reads (point x) ix = given (F ix) /\ reads (a_o x) ix = given (O ix)) ->
  exists e sq ab, answers s MError e /\ answers s MSqErr sq /\ answers s MAbErr ab /\
    reads e k = given (mean_given skip (map (fun ix => both Qcminus (F ix) (O ix)) L)) /\
    reads sq k = given (mean_given skip (map (fun ix => both (fun y z => (y - z) * (y - z))%Qc (F ix) (O ix)) L)) /\
    reads ab k = given (mean_given skip (map (fun ix => both qdist (F ix) (O ix)) L)).
Proof.
  intros s k L F O FA RE x C Sh (B & N & ax & ns & A & X & HC) V.
  assert (Pf : point_forecast lib points x = Ok (point x)) by (unfold point_forecast, point; destruct C as [-> | ->]; reflexivity).
  assert (Vf : forall ix, In ix L -> valid (shape (arr_of (point x))) ix) by (intros ix I; rewrite arr_shape_of, Sh; apply (proj2 HC), I).
  assert (Q : forall (m : meth) (n : string) (g : arr num -> arr num -> arr num) (h : Qc -> Qc -> Qc), key_ok m -> random_call x m = false ->
    (forall d, result x m d = averaged_over lib libr x (error_of lib points x n) (d 0)) ->
    lib n [point x; a_o x] = Ok (val_of (g (arr_of (point x)) (arr_of (a_o x)))) ->
    (forall a b, shape (g a b) = shape a) -> (forall a b ix y z, get a ix = given y -> get b ix = given z -> get (g a b) ix = given (both h y z)) ->
    exists v, answers s m v /\ reads v k = given (mean_given skip (map (fun ix => both h (F ix) (O ix)) L))).
  { intros m n g h K R Rm Ln Sg Gg. set (w := val_of (g (arr_of (point x)) (arr_of (a_o x)))) in *.
    assert (Sw : arr_shape w = arr_shape (a_o x)) by (rewrite <- Sh, <- (arr_shape_of (point x)); exact (Sg _ _)).
    destruct (averaged_given x w ax ns 0 B A) as (v & Ev & Sv & Gv); [rewrite Sw; exact X|]. rewrite Sw in Sv, Gv.
    assert (Er : result x m (fun _ => 0) = Ok v) by (rewrite Rm; unfold error_of; rewrite Pf; cbn [bind]; rewrite Ln; exact Ev).
    exists v. split; [unfold answers; rewrite (proj1 (reached_result s m FA RE K R)); exact Er|].
    apply Gv; [exact HC|exact N|]. intros ix I. unfold w. rewrite reads_val by (rewrite Sg; apply Vf, I). destruct (V ix I). apply Gg; assumption. }
  assert (R : forall m, m = MError \/ m = MSqErr \/ m = MAbErr -> random_call x m = false) by (intros m [-> |[-> | ->]]; unfold random_call; rewrite B; reflexivity).
  destruct (Q MError "sub" cell_error Qcminus ltac:(constructor) ltac:(apply R; auto) ltac:(reflexivity) ltac:(reflexivity) ltac:(reflexivity)) as (e & E1 & E2).
  { intros a b ix y z Ea Eb. cbn [cell_error amap2 get]. rewrite Ea, Eb. destruct y, z; reflexivity. }
  destruct (Q MSqErr "sub_sq" cell_sq_error (fun y z => (y - z) * (y - z))%Qc ltac:(constructor) ltac:(apply R; auto) ltac:(reflexivity) ltac:(reflexivity) ltac:(reflexivity)) as (sq & S1 & S2).
  { intros a b ix y z Ea Eb. cbn [cell_sq_error amap2 get]. rewrite Ea, Eb. destruct y, z; reflexivity. }
  destruct (Q MAbErr "sub_abs" cell_ab_error qdist ltac:(constructor) ltac:(apply R; auto) ltac:(reflexivity) ltac:(reflexivity) ltac:(reflexivity)) as (ab & A1 & A2).
  { intros a b ix y z Ea Eb. cbn [cell_ab_error amap2 get]. rewrite Ea, Eb. destruct y, z; try reflexivity. cbn [both given]. rewrite qdist_abs. reflexivity. }
  exists e, sq, ab. auto 10.
Qed.

(** ** CRPS: a cell counts when the observation and a member are there; missing members are left out *)
Theorem c121_crps : forall s n k L O M, faithful -> reached s -> let x := ob s in
  properscoring (w_cell S) -> of_members S x n -> averages x k L ->
  (forall ix, In ix L -> reads (a_o x) ix = given (O ix) /\ members x n ix = map given (M ix)) ->
  exists v, answers s MCrps v /\ reads v k = given (mean_given skip (map (fun ix => crps_given (O ix) (M ix)) L)).
Proof.
  intros s n k L O M FA RE x PS (C & Fi & Pos & Sp) (B & N & ax & ns & A & X & HC) V.
  assert (Q : exists c, crps (w_cell S) (w_split S) (arr_of (a_o x)) (arr_of (a_f x)) (int_of (a_eaxis x)) = Ok c /\ shape c = arr_shape (a_o x) /\
    forall ix, valid (arr_shape (a_o x)) ix -> get c ix = w_cell S (reads (a_o x) ix) (members_at n (arr_of (a_f x)) ix)).
  { destruct (crps_cells (w_cell S) _ _ _ _ Fi) as (c & Ec & Sc & Gc). rewrite arr_shape_of in Sc, Gc. destruct (w_split S); [|exists c; auto]. destruct Sp as [Sp|Sp]; [discriminate|].
    destruct (Props_crpsens.c54_split_partial (w_cell S) (arr_of (a_o x)) (arr_of (a_f x)) (int_of (a_eaxis x)) n (fits_old _ _ _ _ Fi)) as (c1 & c2 & E1 & E2 & [S12 G12] & _).
    - rewrite arr_shape_of. exact Sp.
    - rewrite arr_shape_of. intros Z. destruct L as [|ix L]; [elim N; reflexivity|]. pose proof (proj1 (proj1 (proj2 HC ix) (or_introl eq_refl))) as Vx. destruct (arr_shape (a_o x)) as [|d r]; [elim Sp; reflexivity|]. cbn in Z. subst d. inversion Vx. lia.
    - rewrite Ec in E2. injection E2 as <-. exists c1. split; [exact E1|]. rewrite <- Sc. split; [exact S12|]. intros ix Vx. rewrite <- S12 in Vx. rewrite (G12 ix Vx). apply Gc. rewrite <- Sc, <- S12. exact Vx. }
  destruct Q as (c & Ec & Sc & Gc). set (w := val_of c). assert (Sw : arr_shape w = arr_shape (a_o x)) by exact Sc.
  destruct (averaged_given x w ax ns 0 B A) as (v & Ev & Sv & Gv); [rewrite Sw; exact X|]. rewrite Sw in Sv, Gv. exists v. split.
  - unfold answers. edestruct (reached_result s) as [-> _]; [exact FA|exact RE|constructor|fold x; unfold random_call; rewrite B; reflexivity|].
    cbn [Spec_result.result]. fold x. unfold Spec_result.crps_of. rewrite C.
    change (lib "crps_ensemble" [a_o x; a_f x; a_eaxis x]) with (rmap val_of (crps (w_cell S) (w_split S) (arr_of (a_o x)) (arr_of (a_f x)) (int_of (a_eaxis x)))).
    rewrite Ec. exact Ev.
  - apply Gv; [exact HC|exact N|]. intros ix I. assert (Vx : valid (arr_shape (a_o x)) ix) by apply (proj2 HC), I. destruct (V ix I) as [Vo Vm].
    unfold w. rewrite reads_val by (rewrite Sc; exact Vx). unfold members in Vm. rewrite (Gc ix Vx), Vo, Vm. apply cell_given, PS.
Qed.

(** ** Spread: with skip_nan the range of the members that are there *)
Theorem c121_spread : forall s n k L M R, faithful -> reached s -> let x := ob s in
  of_members S x n -> averages x k L -> (forall ix, In ix L -> members x n ix = map given (M ix) /\ range_given skip (M ix) (R ix)) ->
  exists v, answers s MSpread v /\ reads v k = given (mean_given skip (map R L)).
Proof.
  intros s n k L M R FA RE x (C & [Ax D] & Pos & _) (B & N & ax & ns & A & X & HC) V.
  pose proof Pos as Pos'. rewrite <- (arr_shape_of (a_f x)) in Pos. rewrite (arr_shape_of (a_o x)) in D.
  destruct (P_dist.spread_along_ok skip (int_of (a_eaxis x)) (arr_of (a_f x)) n Ax Pos) as (c & Ec).
  destruct (P_dist.spread_along_inv _ _ _ _ _ Ax Ec) as (Sc & Gc). rewrite D in Sc, Gc.
  set (w := val_of c). assert (Sw : arr_shape w = arr_shape (a_o x)) by exact Sc.
  destruct (averaged_given x w ax ns 0 B A) as (v & Ev & Sv & Gv); [rewrite Sw; exact X|]. rewrite Sw in Sv, Gv. exists v. split.
  - unfold answers. edestruct (reached_result s) as [-> _]; [exact FA|exact RE|constructor|fold x; unfold random_call, random_value; rewrite B, C; reflexivity|].
    cbn [Spec_result.result]. fold x. rewrite C.
    change (lib "spread" [a_f x; a_eaxis x]) with (rmap val_of (spread_along skip (int_of (a_eaxis x)) (arr_of (a_f x)))).
    rewrite Ec. exact Ev.
  - apply Gv; [exact HC|exact N|]. intros ix I. assert (Vx : valid (arr_shape (a_o x)) ix) by apply (proj2 HC), I. destruct (V ix I) as (Vm & Rg).
    unfold w. rewrite reads_val by (rewrite Sc; exact Vx). destruct (Gc ix Vx) as (h & l & E1 & E2 & ->). unfold members in Vm. rewrite Vm in E1, E2.
    assert (Mn : M ix <> []). { intros Z. rewrite Z in Vm. apply (f_equal (@length num)) in Vm. unfold members_at in Vm. rewrite map_length, seq_length, arr_shape_of in Vm. cbn in Vm. lia. }
    exact (range_value skip (M ix) (R ix) h l Mn Rg E1 E2).
Qed.

(** ** Brier score: a missing observation is scored as an event that did not happen *)
Theorem c121_brier : forall s s' (over : bool) t t' b b' n n' k k' L, faithful -> reached s -> reached s' ->
  ensemble_ready (ob s) n t b -> ensemble_ready (ob s') n' t' b' -> threshold_ok t -> threshold_ok t' -> averages (ob s) k L -> averages (ob s') k' L ->
  (forall ix, In ix L -> thr_at b' ix = thr_at b ix /\ members (ob s') n' ix = members (ob s) n ix /\
     (reads (a_o (ob s')) ix = reads (a_o (ob s)) ix \/ reads (a_o (ob s)) ix = NaN /\ observed over (thr_at b ix) (reads (a_o (ob s')) ix) = false)) ->
  exists v v', answers s (over_or_below MBrier over t) v /\ answers s' (over_or_below MBrier over t') v' /\ reads v k = reads v' k' /\ exists q, reads v k = Fin q.
Proof.
  intros s s' over t t' b b' n n' k k' L FA R R' E E' T T' (B & N & ax & ns & A & X & H) (B' & N' & ax' & ns' & A' & X' & H') V.
  destruct (brier s over t b n ax ns k L FA R E T B A X H N) as (v & Av & _ & G). destruct (brier s' over t' b' n' ax' ns' k' L FA R' E' T' B' A' X' H' N') as (v' & Av' & _ & G').
  exists v, v'. split; [exact Av|]. split; [exact Av'|]. split; [|eexists; exact G]. rewrite G, G'. apply (f_equal Fin), (f_equal Spec.mean_of), map_ext_in. intros ix I. destruct (V ix I) as (Et & Em & Eo). unfold members in Em. rewrite Et, Em.
  destruct Eo as [->|[-> ->]]; [reflexivity|]. replace (observed over (thr_at b ix) NaN) with false; [reflexivity|]. destruct over, (thr_at b ix); reflexivity.
Qed.

(** ** With skip_nan the scores are those of a verifier without the cells where something is missing.
    [c] tells which cells are kept, [p] the place they had. *)
Lemma mean_without (c : list nat -> bool) (p : list nat -> list nat) (L1 L : list (list nat)) (G1 G : list nat -> option Qc) : Permutation (map p L1) (filter c L) -> (forall ix, In ix L -> c ix = false -> G ix = None) ->
  (forall ix, In ix L1 -> G1 ix = G (p ix)) -> mean_given true (map G L) = mean_given true (map G1 L1).
Proof.
  intros P H E. unfold mean_given. cbn [orb]. assert (Q : Permutation (present (map G1 L1)) (present (map G L))).
  { replace (present (map G L)) with (present (map G (filter c L))).
    - replace (map G1 L1) with (map G (map p L1)) by (rewrite map_map; apply map_ext_in; intros ix I; symmetry; apply E, I). unfold present. apply Permutation_flat_map, Permutation_map, P.
    - clear P E. induction L as [|ix L IH]; [reflexivity|]. cbn [filter]. specialize (IH (fun i I => H i (or_intror I))). destruct (c ix) eqn:Ec; cbn [map present flat_map]; [fold (present (map G (filter c L))) (present (map G L)); rewrite IH; reflexivity|].
      rewrite (H ix (or_introl eq_refl) Ec). exact IH. }
  destruct (present (map G1 L1)) as [|a l] eqn:E1, (present (map G L)) as [|b l'] eqn:E2; try reflexivity.
  - apply Permutation_length in Q. discriminate. - apply Permutation_length in Q. discriminate.
  - f_equal. rewrite (mean_q (b :: l')), (mean_q (a :: l)). symmetry. apply qmean_perm, Q.
Qed.
Theorem c121_without : forall s s1 n n1 k k1 L L1 (c : list nat -> bool) p F O M D, faithful -> reached s -> reached s1 -> skip = true -> properscoring (w_cell S) ->
  of_members S (ob s) n -> of_members S (ob s1) n1 -> averages (ob s) k L -> averages (ob s1) k1 L1 ->
  arr_shape (point (ob s)) = arr_shape (a_o (ob s)) -> arr_shape (point (ob s1)) = arr_shape (a_o (ob s1)) ->
  Permutation (map p L1) (filter c L) ->
  (forall ix, In ix L -> reads (point (ob s)) ix = given (F ix) /\ reads (a_o (ob s)) ix = given (O ix) /\ members (ob s) n ix = map given (M ix)) ->
  (forall ix, In ix L1 -> reads (point (ob s1)) ix = given (F (p ix)) /\ reads (a_o (ob s1)) ix = given (O (p ix)) /\ members (ob s1) n1 ix = map given (M (p ix))) ->
  (forall m, In m [MError; MSqErr; MAbErr] -> (forall ix, In ix L -> c ix = false -> F ix = None \/ O ix = None) ->
     exists v v1, answers s m v /\ answers s1 m v1 /\ reads v k = reads v1 k1) /\
  ((forall ix, In ix L -> c ix = false -> O ix = None \/ present (M ix) = []) -> exists v v1, answers s MCrps v /\ answers s1 MCrps v1 /\ reads v k = reads v1 k1) /\
  ((forall ix, In ix L -> c ix = false -> present (M ix) = []) -> (forall ix, In ix L -> range_given true (M ix) (D ix)) -> exists v v1, answers s MSpread v /\ answers s1 MSpread v1 /\ reads v k = reads v1 k1).
Proof.
  intros s s1 n n1 k k1 L L1 c p F O M D FA R R1 Sk PS Om Om1 A A1 Sh Sh1 P V V1.
  assert (In1 : forall ix, In ix L1 -> In (p ix) L) by (intros ix I; apply (in_map p) in I; apply (Permutation_in _ P) in I; apply filter_In in I; apply I).
  split; [|split].
  - intros m Hm Hc.
    destruct (c121_errors s k L F O FA R (or_intror (proj1 Om)) Sh A) as (e & sq & ab & E1 & E2 & E3 & G1 & G2 & G3); [intros ix I; destruct (V ix I) as (? & ? & _); auto|].
    destruct (c121_errors s1 k1 L1 (fun ix => F (p ix)) (fun ix => O (p ix)) FA R1 (or_intror (proj1 Om1)) Sh1 A1) as (e' & sq' & ab' & E1' & E2' & E3' & G1' & G2' & G3'); [intros ix I; destruct (V1 ix I) as (? & ? & _); auto|].
    rewrite Sk in *.
    assert (W : forall g, mean_given true (map (fun ix => both g (F ix) (O ix)) L) = mean_given true (map (fun ix => both g (F (p ix)) (O (p ix))) L1)).
    { intros g. apply (mean_without c p); [exact P| |reflexivity]. intros ix I Ec. destruct (Hc ix I Ec) as [->| ->]; [reflexivity|destruct (F ix); reflexivity]. }
    destruct Hm as [<-|[<-|[<-|[]]]]; [exists e, e'|exists sq, sq'|exists ab, ab']; (split; [assumption|]); (split; [assumption|]); [rewrite G1, G1'|rewrite G2, G2'|rewrite G3, G3']; rewrite W; reflexivity.
  - intros Hc. destruct (c121_crps s n k L O M FA R PS Om A) as (v & Av & G); [intros ix I; apply V, I|].
    destruct (c121_crps s1 n1 k1 L1 (fun ix => O (p ix)) (fun ix => M (p ix)) FA R1 PS Om1 A1) as (v1 & Av1 & G1'); [intros ix I; apply V1, I|].
    exists v, v1. split; [exact Av|]. split; [exact Av1|]. rewrite G, G1', Sk. apply (f_equal given), (mean_without c p); [exact P| |reflexivity].
    intros ix I Ec. unfold crps_given. destruct (Hc ix I Ec) as [->| ->]; [reflexivity|destruct (O ix); reflexivity].
  - intros Hc Hr. destruct (c121_spread s n k L M D FA R Om A) as (v & Av & G); [intros ix I; rewrite Sk; split; [apply V, I|apply Hr, I]|].
    destruct (c121_spread s1 n1 k1 L1 (fun ix => M (p ix)) (fun ix => D (p ix)) FA R1 Om1 A1) as (v1 & Av1 & G1); [intros ix I; rewrite Sk; split; [apply V1, I|apply Hr, In1, I]|].
    exists v, v1. split; [exact Av|]. split; [exact Av1|]. rewrite G, G1, Sk. apply (f_equal given), (mean_without c p); [exact P| |reflexivity].
    intros ix I Ec. specialize (Hr ix I). destruct (D ix) as [d|]; [|reflexivity]. destruct Hr as (_ & hi & _ & Ih & _). rewrite (Hc ix I Ec) in Ih. destruct Ih.
Qed.
End Laws.
Print Assumptions c121_errors.
Print Assumptions c121_crps.
Print Assumptions c121_spread.
Print Assumptions c121_brier.
Print Assumptions c121_without.

(** ** Three cells: the observation of the second and a member of the third are missing; and the verifier of the first and third *)
Definition k_set : settings := {| w_boot := {| skip_nan := true; repeats := 3; confidence := Q2Qc (95 # 100) |}; w_method := Moments; w_workers := 1; w_map_axis := (-1)%Z; w_split := true; w_cell := ps_gufunc;
  w_fun := fun _ => mean_along; w_gen_boot := fun d i r j => d + i * r + j; w_gen_rank := fun d i ix => d + i |}.
Notation k_reached := (Props_whole.reached k_set w_lib w_libr w_str w_dumps w_loads (fun s => s) w_resolve w_points false None [] (fun n => n)).
Definition n_state (n : nat) (f o c : list num) : st := mkSt (j_obj n (store f) (store o) (store c)) w_used 0 [].
Lemma n_facts n f o c : let x := ob (n_state n f o c) in
  k_reached (n_state n f o c) /\ cl x = CEnsemble /\ arr_shape (a_f x) = [n; 2] /\ arr_shape (a_o x) = [n] /\ arr_shape (point x) = [n] /\ a_boot x = VNone /\ int_of (a_eaxis x) = (-1)%Z /\
  arr_of (a_f x) = of_list NaN [n; 2] f /\ arr_of (a_o x) = of_list NaN [n] o /\ arr_of (point x) = of_list NaN [n] c /\ axes_of (a_avg x) = Some (Some [0%Z]).
Proof.
  cbv zeta. unfold n_state. generalize (content_store f) (content_store o) (content_store c). generalize (store f) (store o) (store c). intros cf co cc Hf Ho Hc.
  split; [right; split; [left; reflexivity|reflexivity]|]. cbn [ob j_obj cl a_f a_o a_boot a_eaxis a_avg point arr_shape int_of arr_of a_fc]. rewrite Hf, Ho, Hc. repeat split.
Qed.
Lemma n_averages n f o c : 0 < n -> averages (ob (n_state n f o c)) [] (firsts n).
Proof.
  intros Pos. destruct (n_facts n f o c) as (_ & _ & _ & So & _ & B & _ & _ & _ & _ & A). split; [exact B|]. split; [destruct n; [lia|discriminate]|]. exists (Some [0%Z]), [0]. split; [exact A|]. rewrite So.
  split; [split; [constructor; [split; [cbn; lia|left; reflexivity]|constructor]|constructor; [intros []|constructor]]|]. split.
  - apply FinFun.Injective_map_NoDup; [intros i j E; injection E; auto|apply seq_NoDup].
  - intros ix. unfold firsts. rewrite in_map_iff. split.
    + intros (i & <- & I). apply in_seq in I. split; [repeat constructor; lia|reflexivity].
    + intros [V _]. inversion V as [|i a r q H1 H2]; subst. inversion H2; subst. exists i. split; [reflexivity|]. apply in_seq. lia.
Qed.
Lemma n_ready n f o c t : 0 < n -> ensemble_ready k_set (ob (n_state n f o c)) 1 (VInt t) (TScalar (Fin (qz t))).
Proof.
  intros Pos. destruct (n_facts n f o c) as (_ & C & Sf & So & _ & _ & Ez & Ef & Eo & _ & _). split; [exact C|]. split; [reflexivity|]. split; [rewrite Ez, Ef, Eo; split; [split; [cbn; lia|right; reflexivity]|reflexivity]|].
  rewrite Sf, So. split; [cbn; lia|]. split; [left; reflexivity|]. split; [reflexivity|exact I].
Qed.
Lemma n_members n f o c : of_members k_set (ob (n_state n f o c)) 1.
Proof.
  destruct (n_facts n f o c) as (_ & C & Sf & So & _ & _ & Ez & Ef & Eo & _ & _). split; [exact C|]. split; [rewrite Ez, Ef, Eo; split; [split; [cbn; lia|right; reflexivity]|reflexivity]|]. rewrite Sf, So. split; [cbn; lia|]. right. discriminate.
Qed.
Lemma n_reads n f o c ix : reads (a_o (ob (n_state n f o c))) ix = get (of_list NaN [n] o) ix /\ reads (point (ob (n_state n f o c))) ix = get (of_list NaN [n] c) ix /\
  forall m, members (ob (n_state n f o c)) m ix = members_at m (of_list NaN [n; 2] f) ix.
Proof. destruct (n_facts n f o c) as (_ & _ & _ & _ & _ & _ & _ & Ef & Eo & Ec & _). unfold reads, members. rewrite Ef, Eo, Ec. auto. Qed.
Ltac n_read := repeat match goal with
  | |- context [reads (a_o (ob (n_state ?n ?f ?o ?c))) ?ix] => rewrite (proj1 (n_reads n f o c ix))
  | |- context [reads (point (ob (n_state ?n ?f ?o ?c))) ?ix] => rewrite (proj1 (proj2 (n_reads n f o c ix)))
  | |- context [members (ob (n_state ?n ?f ?o ?c)) ?m ?ix] => rewrite (proj2 (proj2 (n_reads n f o c ix)) m) end.
Example c121_nonvacuous : let z i := Fin (qz i) in
  let s := n_state 3 [z 2; z 4; z 0; z 1; NaN; z 5]%Z [z 2; NaN; z 1]%Z [z 3; z 7; z 5]%Z in let s1 := n_state 2 [z 2; z 4; NaN; z 5]%Z [z 2; z 1]%Z [z 3; z 5]%Z in
  let F ix := nth (hd 0 ix) [Some (qz 3); Some (qz 7); Some (qz 5)] None in let O ix := nth (hd 0 ix) [Some (qz 2); None; Some (qz 1)] None in
  let M ix := nth (hd 0 ix) [[Some (qz 2); Some (qz 4)]; [Some (qz 0); Some (qz 1)]; [None; Some (qz 5)]] [] in
  let D ix := nth (hd 0 ix) [Some (qz 2); Some (qz 1); Some (qz 0)] None in
  let c ix := negb (hd 0 ix =? 1) in let p ix := [2 * hd 0 ix] in
  skip_nan (w_boot k_set) = true /\ properscoring (w_cell k_set) /\ k_reached s /\ k_reached s1 /\ of_members k_set (ob s) 1 /\ of_members k_set (ob s1) 1 /\ averages (ob s) [] (firsts 3) /\ averages (ob s1) [] (firsts 2) /\
  ensemble_ready k_set (ob s) 1 (VInt 1) (TScalar (Fin (qz 1))) /\ arr_shape (point (ob s)) = arr_shape (a_o (ob s)) /\ arr_shape (point (ob s1)) = arr_shape (a_o (ob s1)) /\ Permutation (map p (firsts 2)) (filter c (firsts 3)) /\
  (forall ix, In ix (firsts 3) -> reads (point (ob s)) ix = given (F ix) /\ reads (a_o (ob s)) ix = given (O ix) /\ members (ob s) 1 ix = map given (M ix) /\ range_given true (M ix) (D ix) /\ (c ix = false -> O ix = None)) /\
  (forall ix, In ix (firsts 2) -> reads (point (ob s1)) ix = given (F (p ix)) /\ reads (a_o (ob s1)) ix = given (O (p ix)) /\ members (ob s1) 1 ix = map given (M (p ix))) /\
  mean_given true (map (fun ix => both Qcminus (F ix) (O ix)) (firsts 3)) = Some (qz 5 / qz 2)%Qc /\ mean_given false (map (fun ix => both Qcminus (F ix) (O ix)) (firsts 3)) = None /\
  mean_given true (map (fun ix => crps_given (O ix) (M ix)) (firsts 3)) = Some (qz 9 / qz 4)%Qc.
Proof.
  cbv zeta. split; [reflexivity|]. split; [right; reflexivity|]. split; [apply n_facts|]. split; [apply n_facts|]. split; [apply n_members|]. split; [apply n_members|]. split; [apply n_averages; lia|]. split; [apply n_averages; lia|]. split; [apply n_ready; lia|].
  assert (Sp : forall n f o c, arr_shape (point (ob (n_state n f o c))) = arr_shape (a_o (ob (n_state n f o c)))) by (intros; destruct (n_facts n f o c) as (_ & _ & _ & -> & -> & _); reflexivity).
  split; [apply Sp|]. split; [apply Sp|]. split; [apply Permutation_refl|]. split; [|split; [|split; [|split]]].
  - intros ix I. n_read. destruct I as [<-|[<-|[<-|[]]]]; (split; [vm_compute; reflexivity|]); (split; [vm_compute; reflexivity|]); (split; [vm_compute; reflexivity|]);
      (split; [split; [left; reflexivity|]|intros E; first [discriminate E|reflexivity]]); [exists (qz 4), (qz 2)|exists (qz 1), (qz 0)|exists (qz 5), (qz 5)];
      (split; [cbn; tauto|]); (split; [cbn; tauto|]); (split; [apply Qc_is_canon; vm_compute; reflexivity|]); intros y H; cbn in H; repeat (destruct H as [<-|H]; [split; vm_compute; discriminate|]); destruct H.
  - intros ix I. n_read. destruct I as [<-|[<-|[]]]; repeat split; vm_compute; reflexivity.
  - apply (f_equal Some), Qc_is_canon. vm_compute. reflexivity.
  - reflexivity.
  - apply (f_equal Some), Qc_is_canon. vm_compute. reflexivity.
Qed.
