(** Property C123: the score of one place does not depend on the data of other places. *)
From Coq Require Import String ZArith List Lia Bool Arith QArith Qcanon Permutation.
From Verif Require Import QcTac QSum Num NdArr Numpy NdAxes M_common M_boot M_determ M_ens M_crpsens M_dist
  Spec P_boot P_boot2 P_err P_range Props_avg Store M_state Spec_state P_state P_codec Spec_result P_result Props_state Props_result
  M_whole Spec_whole P_whole Props_ps Props_whole P_wboot Props_wboot Props_laws Props_pieces Props_unitboot.
From Verif Require P_dist Props_crpsens.
Import ListNotations.
Open Scope string_scope.
Open Scope list_scope.
Open Scope nat_scope.

Section Laws.
Variable S : settings.
Variable other : string -> list M_state.val -> res M_state.val.
Variable otherr : string -> list M_state.val -> nat -> res M_state.val.
Variable str_of : M_state.val -> string.
Variable dumps : M_state.val -> string.
Variable loads : string -> res M_state.val.
Variable expanduser : string -> string.
Variable resolve : string -> path.
Variable points : M_state.val -> M_state.val -> M_state.val -> res (list num).
Variable less_memory : bool.
Variable integrate_wdir : option path.
Variable cwd : path.
Variable rng : nat -> nat.
Notation lib := (whole_lib S other).
Notation libr := (whole_libr S otherr).
Notation faithful := (faithful str_of dumps loads expanduser).
Notation reached := (reached S other otherr str_of dumps loads expanduser resolve points less_memory integrate_wdir cwd rng).
Notation answers := (answers S other otherr str_of dumps loads expanduser resolve points less_memory integrate_wdir cwd rng).
Notation boot_answer := (boot_answer S other otherr str_of dumps loads expanduser resolve points less_memory integrate_wdir cwd rng).
Notation cells_answer := (cells_answer S other otherr str_of dumps loads expanduser resolve points less_memory integrate_wdir cwd rng).
Notation reached_boot := (reached_boot S other otherr str_of dumps loads expanduser resolve points less_memory integrate_wdir cwd rng).
Notation cells_of := (cells_of S other points).
Notation thr_at := P_dist.thr_at.

(** cells of shape sh averaged over the axes ax (counted from the front: ns), without bootstrapping or with n samples;
    L are the cells that belong to place k of the result *)
Definition asks (x : obj) (sh : list nat) (ax : option (list Z)) (ns k : list nat) (L : list (list nat)) (bt : option nat) : Prop :=
  axes_of (a_avg x) = Some ax /\ axes_are (length sh) ax ns /\ Forall2 lt k (kept (length sh) ns sh) /\ Cells sh ns k L /\
  match bt with
  | None => a_boot x = VNone
  | Some n => bootstraps x n ax /\ (forall d, In d sh -> 0 < d) /\ sane (w_boot S)
  end.
(** both answer, with the same numbers at this place *)
Definition same_place (s s' : st) (m m' : meth) (k : list nat) (bt : option nat) : Prop :=
  exists v v', answers s m v /\ answers s' m' v' /\ arr_shape v' = arr_shape v /\
    match bt with None => reads v' k = reads v k | Some _ => reads v' (0 :: k) = reads v (0 :: k) /\ reads v' (1 :: k) = reads v (1 :: k) /\ reads v' (2 :: k) = reads v (2 :: k) end.

Lemma avg_answer s m c ax : faithful -> reached s -> cellwise (ob s) m = true -> key_ok m -> cells_of (ob s) m = Ok c -> a_boot (ob s) = VNone -> axes_of (a_avg (ob s)) = Some ax ->
  fst (M_state.step lib libr str_of dumps loads expanduser resolve points less_memory integrate_wdir cwd rng (OMetric m None) s) = rmap val_of (boot_or_avg (w_boot S) (fun _ _ _ => O) ax None (arr_of c)).
Proof.
  intros FA RE CW K Ec B A. rewrite (reached_boot s m FA RE K (cellwise_value _ _ CW)), (cellwise_result S other otherr points _ _ _ CW), Ec. unfold averaged_over, with_boot. cbn [bind]. rewrite B. cbn [is_none].
  apply lib_avg, A.
Qed.
Lemma pair_same s s' m m' c c' sh ax ns k L bt : faithful -> reached s -> reached s' -> cellwise (ob s) m = true -> cellwise (ob s') m' = true -> key_ok m -> key_ok m' ->
  cells_of (ob s) m = Ok c -> cells_of (ob s') m' = Ok c' -> arr_shape c = sh -> arr_shape c' = sh -> asks (ob s) sh ax ns k L bt -> asks (ob s') sh ax ns k L bt -> (bt <> None -> rng (pos s') = rng (pos s)) ->
  (forall ix, In ix L -> reads c' ix = reads c ix) -> same_place s s' m m' k bt.
Proof.
  intros FA R R' CW CW' K K' Ec Ec' Sc Sc' (A & X & Vk & HC & Bt) (A' & _ & _ & _ & Bt') Rn G.
  assert (S1 : shape (arr_of c) = sh) by (rewrite arr_shape_of; exact Sc). assert (S2 : shape (arr_of c') = sh) by (rewrite arr_shape_of; exact Sc').
  destruct bt as [n|].
  - destruct Bt as ((B & _ & OS & Pn) & Pos & SN). pose proof SN as (Rp & C0 & C1). destruct Bt' as ((B' & _ & _ & _) & _). specialize (Rn ltac:(discriminate)). set (e := w_boot S) in *. set (gen := w_gen_boot S (rng (pos s))).
    destruct (boot_accepts e gen (arr_of c) ax ns n) as (r & Er); rewrite ?S1; try assumption. destruct (boot_accepts e gen (arr_of c') ax ns n) as (r' & Er'); rewrite ?S2; try assumption.
    assert (HK : prod (kept (length sh) ns sh) <> 0) by (pose proof (valid_prod_pos _ _ Vk); lia).
    destruct (same_sign_spelling _ ax ns X OS) as (ns' & P & Hsp).
    assert (Ek : kept (length sh) ns sh = unsel (mask_of (length sh) ns') sh) by (rewrite kept_unsel by reflexivity; rewrite (mask_of_perm _ _ _ P); reflexivity).
    rewrite Ek in HK, Vk. pose proof Er as Eb. pose proof Er' as Eb'. cbn [boot_or_avg] in Er, Er'.
    destruct (boot_arr_spec e gen (arr_of c) ax ns' n r) as [Sr Gr]; rewrite ?S1 in *; try assumption. destruct (boot_arr_spec e gen (arr_of c') ax ns' n r') as [Sr' Gr']; rewrite ?S2 in *; try assumption.
    destruct (Gr k Vk) as (v & Ev & Gv). destruct (Gr' k Vk) as (v' & Ev' & Gv').
    assert (M : map (get (arr_of c')) (group sh (mask_of (length sh) ns') k) = map (get (arr_of c)) (group sh (mask_of (length sh) ns') k)).
    { apply map_ext_in. intros ix I. apply G. apply (proj2 HC ix). rewrite <- (mask_of_perm _ _ _ P) in I. apply (proj2 (group_Cells sh ns k) ix) in I. exact I. }
    rewrite M, Ev in Ev'. injection Ev' as <-.
    exists (val_of r), (val_of r').
    split; [unfold Props_whole.answers; rewrite (boot_answer s m c n ax FA R CW K Ec B A); fold e gen; rewrite Eb; reflexivity|].
    split; [unfold Props_whole.answers; rewrite (boot_answer s' m' c' n ax FA R' CW' K' Ec' B' A'); rewrite Rn; fold e gen; rewrite Eb'; reflexivity|].
    split; [change (shape r' = shape r); congruence|].
    assert (Q : forall i, i < 3 -> reads (val_of r') (i :: k) = reads (val_of r) (i :: k)) by (intros i Hi; rewrite (reads_val r'), (reads_val r) by (rewrite ?Sr, ?Sr'; constructor; assumption); rewrite Gv, Gv' by exact Hi; reflexivity).
    repeat split; apply Q; lia.
  - assert (X1 : axes_are (length (shape (arr_of c))) ax ns) by (rewrite S1; exact X). assert (X2 : axes_are (length (shape (arr_of c'))) ax ns) by (rewrite S2; exact X).
    destruct (proj2 (avg_accepts (w_boot S) (fun _ _ _ => O) ax (arr_of c)) (ex_intro _ ns X1)) as [r E]. destruct (proj2 (avg_accepts (w_boot S) (fun _ _ _ => O) ax (arr_of c')) (ex_intro _ ns X2)) as [r' E'].
    destruct (avg_spec _ _ _ _ _ _ E X1) as [Sr Gr]. destruct (avg_spec _ _ _ _ _ _ E' X2) as [Sr' Gr']. rewrite S1 in *. rewrite S2 in *.
    exists (val_of r), (val_of r').
    split; [unfold Props_whole.answers; rewrite (avg_answer s m c ax FA R CW K Ec Bt A), E; reflexivity|].
    split; [unfold Props_whole.answers; rewrite (avg_answer s' m' c' ax FA R' CW' K' Ec' Bt' A'), E'; reflexivity|].
    split; [change (shape r' = shape r); congruence|]. rewrite (reads_val r'), (reads_val r) by (rewrite ?Sr, ?Sr'; exact Vk). rewrite (Gr k L HC), (Gr' k L HC).
    rewrite (map_ext_in _ _ L (fun ix I => G ix I : get (arr_of c') ix = get (arr_of c) ix)). reflexivity.
Qed.

(** ** Errors *)
Theorem c123_errors : forall s s' ax ns k L bt, faithful -> reached s -> reached s' -> cl (ob s) = CDeterm \/ cl (ob s) = CEnsemble -> cl (ob s') = CDeterm \/ cl (ob s') = CEnsemble ->
  let sh := arr_shape (a_o (ob s)) in arr_shape (point (ob s)) = sh -> arr_shape (a_o (ob s')) = sh -> arr_shape (point (ob s')) = sh ->
  asks (ob s) sh ax ns k L bt -> asks (ob s') sh ax ns k L bt -> (bt <> None -> rng (pos s') = rng (pos s)) ->
  (forall ix, In ix L -> reads (point (ob s')) ix = reads (point (ob s)) ix /\ reads (a_o (ob s')) ix = reads (a_o (ob s)) ix) ->
  same_place s s' MError MError k bt /\ same_place s s' MSqErr MSqErr k bt /\ same_place s s' MAbErr MAbErr k bt.
Proof.
  intros s s' ax ns k L bt FA R R' C C' sh Sf So' Sf' Q Q' Rn G.
  assert (Pf : forall x, cl x = CDeterm \/ cl x = CEnsemble -> point_forecast lib points x = Ok (point x)) by (intros x H; unfold point_forecast, point; destruct H as [-> | ->]; reflexivity).
  assert (V : forall ix, In ix L -> Forall2 lt ix sh) by (destruct Q as (_ & _ & _ & HC & _); intros ix I; apply (proj2 HC), I).
  assert (Z : forall m (nm : string) (h : num -> num -> num), cellwise (ob s) m = true -> cellwise (ob s') m = true -> key_ok m -> (forall x, cells_of x m = error_of lib points x nm) ->
    (forall x y, lib nm [x; y] = Ok (val_of (amap2 h (arr_of x) (arr_of y)))) -> same_place s s' m m k bt).
  { intros m nm h CW CW' K Ce Ln.
    apply (pair_same s s' m m (val_of (amap2 h (arr_of (point (ob s))) (arr_of (a_o (ob s))))) (val_of (amap2 h (arr_of (point (ob s'))) (arr_of (a_o (ob s'))))) sh ax ns k L bt); try assumption.
    - rewrite Ce. unfold error_of. rewrite (Pf _ C). apply Ln.
    - rewrite Ce. unfold error_of. rewrite (Pf _ C'). apply Ln.
    - etransitivity; [|exact Sf]. apply arr_shape_of.
    - etransitivity; [|exact Sf']. apply arr_shape_of.
    - intros ix I. rewrite (reads_val _ ix), (reads_val _ ix) by (cbn [amap2 shape]; rewrite arr_shape_of; rewrite ?Sf, ?Sf'; apply V, I).
      cbn [amap2 get]. destruct (G ix I) as [G1 G2]. unfold reads in G1, G2. rewrite G1, G2. reflexivity. }
  split; [|split].
  - apply (Z MError "sub" nsub); try reflexivity; constructor.
  - eapply (Z MSqErr "sub_sq"); try reflexivity; constructor.
  - eapply (Z MAbErr "sub_abs"); try reflexivity; constructor.
Qed.
Print Assumptions c123_errors.

Lemma crps_at x n sh L : of_members S x n -> arr_shape (a_o x) = sh -> L <> [] -> (forall ix, In ix L -> Forall2 lt ix sh) ->
  exists c, cells_of x MCrps = Ok c /\ arr_shape c = sh /\ forall ix, In ix L -> reads c ix = w_cell S (reads (a_o x) ix) (members x n ix).
Proof.
  intros (C & Fi & Pos & Sp) So N V. subst sh.
  assert (Q : exists c, crps (w_cell S) (w_split S) (arr_of (a_o x)) (arr_of (a_f x)) (int_of (a_eaxis x)) = Ok c /\ shape c = arr_shape (a_o x) /\
    forall ix, valid (arr_shape (a_o x)) ix -> get c ix = w_cell S (reads (a_o x) ix) (members_at n (arr_of (a_f x)) ix)).
  { destruct (crps_cells (w_cell S) _ _ _ _ Fi) as (c & Ec & Sc & Gc). rewrite arr_shape_of in Sc, Gc. destruct (w_split S); [|exists c; auto]. destruct Sp as [Sp|Sp]; [discriminate|].
    destruct (Props_crpsens.c54_split_partial (w_cell S) (arr_of (a_o x)) (arr_of (a_f x)) (int_of (a_eaxis x)) n (fits_old _ _ _ _ Fi)) as (c1 & c2 & E1 & E2 & [S12 G12] & _).
    - rewrite arr_shape_of. exact Sp.
    - rewrite arr_shape_of. intros Z. destruct L as [|ix L]; [elim N; reflexivity|]. pose proof (V ix (or_introl eq_refl)) as Vx. destruct (arr_shape (a_o x)) as [|d r]; [elim Sp; reflexivity|]. cbn in Z. subst d. inversion Vx. lia.
    - rewrite Ec in E2. injection E2 as <-. exists c1. split; [exact E1|]. rewrite <- Sc. split; [exact S12|]. intros ix Vx. rewrite <- S12 in Vx. rewrite (G12 ix Vx). apply Gc. rewrite <- Sc, <- S12. exact Vx. }
  destruct Q as (c & Ec & Sc & Gc). exists (val_of c). split; [|split; [exact Sc|]].
  - cbn [Props_wboot.cells_of]. unfold Spec_result.crps_of. rewrite C.
    change (lib "crps_ensemble" [a_o x; a_f x; a_eaxis x]) with (rmap val_of (crps (w_cell S) (w_split S) (arr_of (a_o x)) (arr_of (a_f x)) (int_of (a_eaxis x)))). rewrite Ec. reflexivity.
  - intros ix I. rewrite reads_val by (rewrite Sc; apply V, I). apply Gc, V, I.
Qed.
Lemma spread_at x n sh L : of_members S x n -> arr_shape (a_o x) = sh -> (forall ix, In ix L -> Forall2 lt ix sh) ->
  exists c, cells_of x MSpread = Ok c /\ arr_shape c = sh /\ forall ix, In ix L -> exists h l,
    (if skip_nan (w_boot S) then nannmax (members x n ix) else nmaximum (members x n ix)) = Ok h /\ (if skip_nan (w_boot S) then nannmin (members x n ix) else nminimum (members x n ix)) = Ok l /\ reads c ix = nsub h l.
Proof.
  intros (C & [Ax D] & Pos & _) So V. subst sh. rewrite <- (arr_shape_of (a_f x)) in Pos. rewrite (arr_shape_of (a_o x)) in D.
  destruct (P_dist.spread_along_ok (skip_nan (w_boot S)) (int_of (a_eaxis x)) (arr_of (a_f x)) n Ax Pos) as (c & Ec).
  destruct (P_dist.spread_along_inv _ _ _ _ _ Ax Ec) as (Sc & Gc). rewrite D in Sc, Gc. exists (val_of c). split; [|split; [exact Sc|]].
  - cbn [Props_wboot.cells_of]. change (lib "spread" [a_f x; a_eaxis x]) with (rmap val_of (spread_along (skip_nan (w_boot S)) (int_of (a_eaxis x)) (arr_of (a_f x)))). rewrite Ec. reflexivity.
  - intros ix I. rewrite reads_val by (rewrite Sc; apply V, I). destruct (Gc ix (V ix I)) as (h & l & E1 & E2 & E3). exists h, l. auto.
Qed.
(** ** CRPS and spread: the members at other places do not matter either *)
Theorem c123_crps_spread : forall s s' i i' ax ns k L bt, faithful -> reached s -> reached s' -> of_members S (ob s) i -> of_members S (ob s') i' -> L <> [] ->
  let sh := arr_shape (a_o (ob s)) in arr_shape (a_o (ob s')) = sh -> asks (ob s) sh ax ns k L bt -> asks (ob s') sh ax ns k L bt -> (bt <> None -> rng (pos s') = rng (pos s)) ->
  (forall ix, In ix L -> members (ob s') i' ix = members (ob s) i ix) ->
  same_place s s' MSpread MSpread k bt /\ ((forall ix, In ix L -> reads (a_o (ob s')) ix = reads (a_o (ob s)) ix) -> same_place s s' MCrps MCrps k bt).
Proof.
  intros s s' i i' ax ns k L bt FA R R' O O' N sh So' Q Q' Rn G.
  assert (V : forall ix, In ix L -> Forall2 lt ix sh) by (destruct Q as (_ & _ & _ & HC & _); intros ix I; apply (proj2 HC), I).
  split.
  - destruct (spread_at (ob s) i sh L O eq_refl V) as (c & Ec & Sc & Gc). destruct (spread_at (ob s') i' sh L O' So' V) as (c' & Ec' & Sc' & Gc').
    apply (pair_same s s' MSpread MSpread c c' sh ax ns k L bt); try assumption; try constructor; try (cbn [cellwise]; rewrite ?(proj1 O), ?(proj1 O'); reflexivity).
    intros ix I. destruct (Gc ix I) as (h & l & E1 & E2 & ->). destruct (Gc' ix I) as (h' & l' & E1' & E2' & ->). rewrite (G ix I), E1 in E1'. rewrite (G ix I), E2 in E2'. injection E1' as <-. injection E2' as <-. reflexivity.
  - intros Go. destruct (crps_at (ob s) i sh L O eq_refl N V) as (c & Ec & Sc & Gc). destruct (crps_at (ob s') i' sh L O' So' N V) as (c' & Ec' & Sc' & Gc').
    apply (pair_same s s' MCrps MCrps c c' sh ax ns k L bt); try assumption; try constructor; try reflexivity.
    intros ix I. rewrite (Gc ix I), (Gc' ix I), (G ix I), (Go ix I). reflexivity.
Qed.
Print Assumptions c123_crps_spread.

Lemma brier_at_cells x n t b (over : bool) sh L : ensemble_ready S x n t b -> arr_shape (a_o x) = sh -> (forall ix, In ix L -> Forall2 lt ix sh) ->
  exists c, cells_of x (over_or_below MBrier over t) = Ok c /\ arr_shape c = sh /\
    forall ix, In ix L -> reads c ix = nsq (Fin (member_share over (thr_at b ix) (members x n ix) - indicator (observed over (thr_at b ix) (reads (a_o x) ix)))%Qc).
Proof.
  intros H So V. subst sh. destruct (ready_prob S other x n t b over H) as (p & Ep & Sp & Gp). destruct (ready_outcome S other x n t b over H) as (o & Eo & So & Go).
  exists (val_of (cell_sq_error (arr_of p) (arr_of o))). split; [|split; [rewrite <- Sp, <- (arr_shape_of p); reflexivity|]].
  - assert (Q : brier_of lib x (over_of over t) (below_of over t) = Ok (val_of (cell_sq_error (arr_of p) (arr_of o)))) by (unfold brier_of, event_pair; rewrite Ep; cbn [bind]; rewrite Eo; reflexivity). exact Q.
  - intros ix I. rewrite reads_val by (cbn [cell_sq_error amap2 shape]; rewrite arr_shape_of, Sp; apply V, I). cbn [cell_sq_error amap2 get].
    change (get (arr_of p) ix) with (reads p ix). change (get (arr_of o) ix) with (reads o ix). rewrite (Gp ix (V ix I)), (Go ix (V ix I)). reflexivity.
Qed.
(** ** Probabilities and Brier score: nor do thresholds elsewhere *)
Theorem c123_events : forall s s' (over : bool) t t' b b' i i' ax ns k L bt, faithful -> reached s -> reached s' -> ensemble_ready S (ob s) i t b -> ensemble_ready S (ob s') i' t' b' -> threshold_ok t -> threshold_ok t' ->
  let sh := arr_shape (a_o (ob s)) in arr_shape (a_o (ob s')) = sh -> asks (ob s) sh ax ns k L bt -> asks (ob s') sh ax ns k L bt -> (bt <> None -> rng (pos s') = rng (pos s)) ->
  (forall ix, In ix L -> thr_at b' ix = thr_at b ix /\ members (ob s') i' ix = members (ob s) i ix) ->
  (exists p p', answers s (over_or_below MCdf over t) p /\ answers s' (over_or_below MCdf over t') p' /\ forall ix, In ix L -> reads p' ix = reads p ix) /\
  ((forall ix, In ix L -> reads (a_o (ob s')) ix = reads (a_o (ob s)) ix) -> same_place s s' (over_or_below MBrier over t) (over_or_below MBrier over t') k bt).
Proof.
  intros s s' over t t' b b' i i' ax ns k L bt FA R R' O O' T T' sh So' Q Q' Rn G.
  assert (V : forall ix, In ix L -> Forall2 lt ix sh) by (destruct Q as (_ & _ & _ & HC & _); intros ix I; apply (proj2 HC), I).
  split.
  - destruct (c85_probability S other otherr str_of dumps loads expanduser resolve points less_memory integrate_wdir cwd rng s over t b i FA R O T) as (p & Ap & _ & _ & Gp).
    destruct (c85_probability S other otherr str_of dumps loads expanduser resolve points less_memory integrate_wdir cwd rng s' over t' b' i' FA R' O' T') as (p' & Ap' & _ & _ & Gp').
    exists p, p'. split; [exact Ap|]. split; [exact Ap'|]. intros ix I. destruct (G ix I) as [G1 G2]. unfold members in G2. rewrite (Gp ix (V ix I)), (Gp' ix) by (rewrite So'; apply V, I). rewrite G1, G2. reflexivity.
  - intros Go. destruct (brier_at_cells (ob s) i t b over sh L O eq_refl V) as (c & Ec & Sc & Gc). destruct (brier_at_cells (ob s') i' t' b' over sh L O' So' V) as (c' & Ec' & Sc' & Gc').
    apply (pair_same s s' (over_or_below MBrier over t) (over_or_below MBrier over t') c c' sh ax ns k L bt); try assumption; try reflexivity; try (apply threshold_key; [assumption|reflexivity]).
    intros ix I. destruct (G ix I) as [G1 G2]. rewrite (Gc ix I), (Gc' ix I), G1, G2, (Go ix I). reflexivity.
Qed.
Print Assumptions c123_events.
End Laws.

(** ** Four cells in two columns of an ensemble verifier; in the second one the data differ, down to missing and infinite values *)
Definition q_obj (boot : M_state.val) (f o c : nat) : obj := mkObj CEnsemble (VArr [2; 2; 2] f) (VArr [2; 2] o) (VTuple [VInt 0]) boot VNone (VBool true)
    (VArr [2; 2] c) (VInt (-1)) (VFun 0) VNone VNone VNone VNone VNone VNone VNone.
Definition q_state (boot : M_state.val) (f o c : list num) : st := mkSt (q_obj boot (store f) (store o) (store c)) w_used 0 [].
Lemma q_facts boot f o c : let x := ob (q_state boot f o c) in
  h_reached (q_state boot f o c) /\ cl x = CEnsemble /\ arr_shape (a_f x) = [2; 2; 2] /\ arr_shape (a_o x) = [2; 2] /\ arr_shape (point x) = [2; 2] /\ a_boot x = boot /\ int_of (a_eaxis x) = (-1)%Z /\ axes_of (a_avg x) = Some (Some [0%Z]) /\
  arr_of (a_f x) = of_list NaN [2; 2; 2] f /\ arr_of (a_o x) = of_list NaN [2; 2] o /\ arr_of (point x) = of_list NaN [2; 2] c.
Proof.
  cbv zeta. unfold q_state. generalize (content_store f) (content_store o) (content_store c). generalize (store f) (store o) (store c). intros cf co cc Hf Ho Hc.
  split; [right; split; [left; reflexivity|reflexivity]|]. cbn [ob q_obj cl a_f a_o a_boot a_eaxis a_avg point arr_shape int_of arr_of a_fc]. rewrite Hf, Ho, Hc. repeat split.
Qed.
Lemma cells_column : Cells [2; 2] [0] [0] [[0; 0]; [1; 0]].
Proof.
  split; [repeat constructor; cbn; intuition discriminate|]. intros ix. split.
  - intros [<-|[<-|[]]]; (split; [repeat constructor|reflexivity]).
  - intros [V K]. inversion V as [|i a r q H1 H2]; subst. inversion H2 as [|j a r' q' H3 H4]; subst. inversion H4; subst. cbn in K. injection K as ->. destruct i as [|[|i]]; [left; reflexivity|right; left; reflexivity|lia].
Qed.
Definition zs (l : list Z) : list num := map (fun i => Fin (qz i)) l.
Lemma q_asks (bt : option nat) f o c : match bt with None => True | Some n => 0 < n end ->
  asks e_set (ob (q_state (match bt with None => VNone | Some n => VInt (Z.of_nat n) end) f o c)) [2; 2] (Some [0%Z]) [0] [0] [[0; 0]; [1; 0]] bt.
Proof.
  intros Pn. destruct (q_facts (match bt with None => VNone | Some n => VInt (Z.of_nat n) end) f o c) as (_ & _ & _ & _ & _ & B & _ & A & _).
  split; [exact A|]. split; [split; [constructor; [split; [cbn; lia|left; reflexivity]|constructor]|constructor; [intros []|constructor]]|]. split; [repeat constructor|]. split; [exact cells_column|].
  destruct bt as [n|]; [|exact B]. split; [|split; [|exact u_sane]].
  - split; [exact B|]. split; [exact A|]. split; [left; constructor; [lia|constructor]|exact Pn].
  - intros d [<-|[<-|[]]]; lia.
Qed.
Lemma q_members boot f o c : of_members e_set (ob (q_state boot f o c)) 2.
Proof.
  destruct (q_facts boot f o c) as (_ & C & Sf & So & _ & _ & Ez & _ & Ef & Eo & _). split; [exact C|]. split; [rewrite Ez, Ef, Eo; split; [split; [cbn; lia|right; reflexivity]|reflexivity]|].
  rewrite Sf, So. split; [cbn; lia|]. right. discriminate.
Qed.
Lemma q_ready boot f o c t : ensemble_ready e_set (ob (q_state boot f o c)) 2 (VInt t) (TScalar (Fin (qz t))).
Proof.
  destruct (q_facts boot f o c) as (_ & C & Sf & So & _ & _ & Ez & _ & Ef & Eo & _). split; [exact C|]. split; [reflexivity|]. split; [rewrite Ez, Ef, Eo; split; [split; [cbn; lia|right; reflexivity]|reflexivity]|].
  rewrite Sf, So. split; [cbn; lia|]. split; [left; reflexivity|]. split; [reflexivity|exact I].
Qed.
Notation q_same := (same_place e_set w_lib w_libr w_str w_dumps w_loads (fun s => s) w_resolve w_points false None [] (fun n => n)).
Example c123_nonvacuous : forall bt, bt = None \/ bt = Some 3 -> let boot := match bt with None => VNone | Some n => VInt (Z.of_nat n) end in
  let s := q_state boot (zs [1; 2; 7; 8; 3; 4; 9; 9]%Z) (zs [2; 7; 5; 9]%Z) (zs [1; 8; 4; 9]%Z) in
  let s' := q_state boot [Fin (qz 1); Fin (qz 2); NaN; PInf; Fin (qz 3); Fin (qz 4); NInf; NaN] [Fin (qz 2); NaN; Fin (qz 5); PInf] [Fin (qz 1); NInf; Fin (qz 4); NaN] in
  reads (a_o (ob s)) [0; 1] = Fin (qz 7) /\ reads (a_o (ob s')) [0; 1] = NaN /\
  q_same s s' MError MError [0] bt /\ q_same s s' MSqErr MSqErr [0] bt /\ q_same s s' MAbErr MAbErr [0] bt /\ q_same s s' MSpread MSpread [0] bt /\ q_same s s' MCrps MCrps [0] bt /\
  q_same s s' (over_or_below MBrier true (VInt 3)) (over_or_below MBrier true (VInt 3)) [0] bt.
Proof.
  intros bt Hbt boot s s'. set (f := zs [1; 2; 7; 8; 3; 4; 9; 9]%Z) in s. set (o := zs [2; 7; 5; 9]%Z) in s. set (c := zs [1; 8; 4; 9]%Z) in s.
  set (f' := [Fin (qz 1); Fin (qz 2); NaN; PInf; Fin (qz 3); Fin (qz 4); NInf; NaN]) in s'. set (o' := [Fin (qz 2); NaN; Fin (qz 5); PInf]) in s'. set (c' := [Fin (qz 1); NInf; Fin (qz 4); NaN]) in s'.
  assert (Pn : match bt with None => True | Some n => 0 < n end) by (destruct Hbt as [-> | ->]; [exact I|lia]).
  destruct (q_facts boot f o c) as (R & C & Sf & So & Sp & _ & _ & _ & Ef & Eo & Ep). destruct (q_facts boot f' o' c') as (R' & C' & Sf' & So' & Sp' & _ & _ & _ & Ef' & Eo' & Ep'). fold s in R, C, Sf, So, Sp, Ef, Eo, Ep. fold s' in R', C', Sf', So', Sp', Ef', Eo', Ep'.
  assert (Q : asks e_set (ob s) [2; 2] (Some [0%Z]) [0] [0] [[0; 0]; [1; 0]] bt) by (apply q_asks, Pn). assert (Q' : asks e_set (ob s') [2; 2] (Some [0%Z]) [0] [0] [[0; 0]; [1; 0]] bt) by (apply q_asks, Pn).
  assert (Go : forall ix, In ix [[0; 0]; [1; 0]] -> reads (a_o (ob s')) ix = reads (a_o (ob s)) ix) by (unfold reads; rewrite Eo, Eo'; intros ix [<-|[<-|[]]]; reflexivity).
  assert (Gp : forall ix, In ix [[0; 0]; [1; 0]] -> reads (point (ob s')) ix = reads (point (ob s)) ix) by (unfold reads; rewrite Ep, Ep'; intros ix [<-|[<-|[]]]; reflexivity).
  assert (Gm : forall ix, In ix [[0; 0]; [1; 0]] -> members (ob s') 2 ix = members (ob s) 2 ix) by (unfold members; rewrite Ef, Ef'; intros ix [<-|[<-|[]]]; reflexivity).
  assert (Rn : bt <> None -> (fun n : nat => n) (pos s') = (fun n : nat => n) (pos s)) by (intros _; exact (eq_refl 0)).
  split; [unfold reads; rewrite Eo; reflexivity|]. split; [unfold reads; rewrite Eo'; reflexivity|].
  rewrite <- So in Q, Q'.
  destruct (c123_errors e_set w_lib w_libr w_str w_dumps w_loads (fun s => s) w_resolve w_points false None [] (fun n => n) s s' (Some [0%Z]) [0] [0] [[0; 0]; [1; 0]] bt e_faithful R R' (or_intror C) (or_intror C')) as (E1 & E2 & E3);
    [rewrite So; exact Sp|rewrite So; exact So'|rewrite So; exact Sp'|exact Q|exact Q'|exact Rn|intros ix I; exact (conj (Gp ix I) (Go ix I))|].
  destruct (c123_crps_spread e_set w_lib w_libr w_str w_dumps w_loads (fun s => s) w_resolve w_points false None [] (fun n => n) s s' 2 2 (Some [0%Z]) [0] [0] [[0; 0]; [1; 0]] bt e_faithful R R' (q_members _ _ _ _) (q_members _ _ _ _)) as (E4 & E5);
    [discriminate|rewrite So; exact So'|exact Q|exact Q'|exact Rn|exact Gm|].
  assert (T : threshold_ok (VInt 3)) by (left; constructor).
  destruct (c123_events e_set w_lib w_libr w_str w_dumps w_loads (fun s => s) w_resolve w_points false None [] (fun n => n) s s' true (VInt 3) (VInt 3) _ _ 2 2 (Some [0%Z]) [0] [0] [[0; 0]; [1; 0]] bt e_faithful R R' (q_ready _ _ _ _ _) (q_ready _ _ _ _ _) T T) as (_ & E6);
    [rewrite So; exact So'|exact Q|exact Q'|exact Rn|intros ix I; exact (conj eq_refl (Gm ix I))|].
  exact (conj E1 (conj E2 (conj E3 (conj E4 (conj (E5 Go) (E6 Go)))))).
Qed.
