(** Property C125: the event metrics of an ensemble with any way of turning members into probabilities, from constructor
    to numbers. *)
From Coq Require Import String ZArith List Lia Bool Arith QArith Qcanon.
From Verif Require Import QcTac QSum Num NdArr Numpy NdAxes M_common M_boot M_determ M_ens M_crpsens M_iou M_roc M_dist M_ps
  Spec P_boot P_rank P_prob P_dist P_ps Props_avg Props_prob Props_ps Store M_state Spec_state P_state P_codec Spec_result P_result Props_state Props_result
  M_whole Spec_whole P_whole Props_whole P_wboot Props_wboot.
Import ListNotations.
Open Scope string_scope.
Open Scope list_scope.
Open Scope nat_scope.

(** ** One cell after the other, on any number of workers *)
Lemma mapM_first {A B} (f : A -> res B) l e : (forall x, In x l -> f x = Raise e \/ exists y, f x = Ok y) -> (exists x, In x l /\ f x = Raise e) -> mapM f l = Raise e.
Proof.
  induction l as [|a l IH]; intros H (x & I & E); [destruct I|]. cbn [mapM]. destruct (H a (or_introl eq_refl)) as [-> |(y & Ea)]; [reflexivity|]. rewrite Ea. cbn [bind].
  destruct I as [-> |I]; [congruence|]. rewrite IH; [reflexivity|intros z Iz; apply H; right; exact Iz|exists x; auto].
Qed.
Lemma kde_run kf w c (g : list nat -> num) : shape c <> [] -> 0 < w -> 0 < prod (tl (shape c)) -> (forall ix, valid (tl (shape c)) ix -> kf (column c ix) = Ok (g ix)) ->
  exists r, prob_of_stack (Kde kf) w c = Ok r /\ shape r = tl (shape c) /\ forall ix, valid (tl (shape c)) ix -> get r ix = g ix.
Proof.
  intros Ne Hw Hp G. assert (M : mapM (fun ix => kf (column c ix)) (indices (tl (shape c))) = Ok (map g (indices (tl (shape c))))).
  { rewrite (mapM_ext _ (fun ix => Ok (g ix))) by (intros ix I; apply G, in_indices, I). apply mapM_ok. reflexivity. }
  exists (of_list NaN (tl (shape c)) (map g (indices (tl (shape c))))). split; [|split; [reflexivity|intros ix V; apply of_list_cells, V]].
  unfold prob_of_stack. rewrite (proj2 (Nat.eqb_neq (prod (tl (shape c))) 0)) by lia. destruct (Nat.eqb w 1); [rewrite M; reflexivity|].
  rewrite (proj2 (Nat.eqb_neq w 0)) by lia. rewrite (parallel_run c kf Ne), M. reflexivity.
Qed.
Lemma kde_fail kf w c e : shape c <> [] -> 0 < w -> 0 < prod (tl (shape c)) -> (forall ix, valid (tl (shape c)) ix -> kf (column c ix) = Raise e \/ exists y, kf (column c ix) = Ok y) ->
  (exists ix, valid (tl (shape c)) ix /\ kf (column c ix) = Raise e) -> prob_of_stack (Kde kf) w c = Raise e.
Proof.
  intros Ne Hw Hp G (ix & V & E). assert (M : mapM (fun ix => kf (column c ix)) (indices (tl (shape c))) = Raise e).
  { apply mapM_first; [intros y I; apply G, in_indices, I|exists ix; split; [apply in_indices, V|exact E]]. }
  unfold prob_of_stack. rewrite (proj2 (Nat.eqb_neq (prod (tl (shape c))) 0)) by lia. destruct (Nat.eqb w 1); [rewrite M; reflexivity|].
  rewrite (proj2 (Nat.eqb_neq w 0)) by lia. rewrite (parallel_run c kf Ne), M. reflexivity.
Qed.

Section Program.
Variable S : settings.
Variable other : string -> list M_state.val -> res M_state.val.
Variable otherr : string -> list M_state.val -> nat -> res M_state.val.
Variable str_of : M_state.val -> string.
Variable dumps : M_state.val -> string.
Variable loads : string -> res M_state.val.
Variable expanduser : string -> string.
Variable resolve : string -> path.
Variable points : M_state.val -> M_state.val -> M_state.val -> res (list num).
Variable less_memory : bool.
Variable integrate_wdir : option path.
Variable cwd : path.
Variable rng : nat -> nat.
Notation lib := (whole_lib S other).
Notation libr := (whole_libr S otherr).
Notation step := (M_state.step lib libr str_of dumps loads expanduser resolve points less_memory integrate_wdir cwd rng).
Notation faithful := (faithful str_of dumps loads expanduser).
Notation reached := (reached S other otherr str_of dumps loads expanduser resolve points less_memory integrate_wdir cwd rng).
Notation answers := (answers S other otherr str_of dumps loads expanduser resolve points less_memory integrate_wdir cwd rng).
Notation reached_boot := (reached_boot S other otherr str_of dumps loads expanduser resolve points less_memory integrate_wdir cwd rng).
Notation reached_result := (reached_result S other otherr str_of dumps loads expanduser resolve points less_memory integrate_wdir cwd rng).

(** an ensemble verifier with at least one cell, and a threshold that fits the observations *)
Definition event_ready (x : obj) (n : nat) (t : M_state.val) (b : thr) : Prop :=
  cl x = CEnsemble /\ fits (arr_of (a_o x)) (arr_of (a_f x)) (int_of (a_eaxis x)) n /\ 0 < prod (arr_shape (a_o x)) /\ 0 < w_workers S /\
  thr_of t = Some (Some b) /\ thr_fits b (arr_shape (a_o x)).
(** the method gives the probability P ix of not exceeding the threshold in cell ix *)
Definition method_gives (x : obj) (n : nat) (b : thr) (P : list nat -> Qc) : Prop :=
  exists kf, w_method S = Kde kf /\ forall ix, Forall2 lt ix (arr_shape (a_o x)) -> kf (thr_at b ix :: members_at n (arr_of (a_f x)) ix) = Ok (Fin (P ix)).
(** it raises e in some cell, and nothing else in any other *)
Definition method_raises (x : obj) (n : nat) (b : thr) (e : exn) : Prop :=
  w_method S = UnknownMethod /\ e = PlainException \/
  exists kf, w_method S = Kde kf /\ (forall ix, Forall2 lt ix (arr_shape (a_o x)) -> let col := thr_at b ix :: members_at n (arr_of (a_f x)) ix in kf col = Raise e \/ exists p, kf col = Ok p) /\
    exists ix, Forall2 lt ix (arr_shape (a_o x)) /\ kf (thr_at b ix :: members_at n (arr_of (a_f x)) ix) = Raise e.
Definition side (over : bool) (p : Qc) : Qc := if over then (1 - p)%Qc else p.

Lemma ready_stack x n t b : event_ready x n t b -> exists c, prob_stack (arr_of (a_f x)) (int_of (a_eaxis x)) b = Ok c /\ shape c <> [] /\ tl (shape c) = arr_shape (a_o x) /\
  (forall ix, Forall2 lt ix (arr_shape (a_o x)) -> column c ix = thr_at b ix :: members_at n (arr_of (a_f x)) ix) /\
  cdf_of lib x t = rmap val_of (prob_of_stack (w_method S) (w_workers S) c).
Proof.
  intros (C & [Ax D] & Pr & W & T & TF). rewrite <- (arr_shape_of (a_o x)) in *. assert (TF' : thr_fits b (drop_axis n (shape (arr_of (a_f x))))) by (rewrite D; exact TF).
  destruct (prob_stack_spec _ _ _ _ Ax TF') as (c & E & Sc & Gc). exists c. split; [exact E|]. rewrite Sc. cbn [tl]. split; [discriminate|]. split; [exact D|]. split.
  - intros ix V. apply Gc. rewrite <- D in V. eapply valid_drop_length; [apply Ax|exact V].
  - unfold cdf_of. rewrite C. cbn [whole_lib]. change ("ens_to_prob" =? "ens_to_prob")%string with true. cbn [thr_of]. rewrite T. cbv iota. unfold ens_to_prob, one_threshold. cbn [is_some negb xorb passert bind].
    rewrite E. reflexivity.
Qed.
Lemma side_prob x t b (over : bool) : cl x = CEnsemble -> thr_of t = Some (Some b) ->
  event_prob lib x (over_of over t) (below_of over t) = (p <- cdf_of lib x t ;; if over then lib "one_minus" [p] else Ok p).
Proof. intros C T. unfold event_prob. rewrite C. destruct over; cbn [over_of below_of]; destruct t; try discriminate T; try reflexivity; destruct (cdf_of lib x _); reflexivity. Qed.
Lemma method_prob x n t b P (over : bool) : event_ready x n t b -> method_gives x n b P ->
  exists v, event_prob lib x (over_of over t) (below_of over t) = Ok v /\ arr_shape v = arr_shape (a_o x) /\
    forall ix, Forall2 lt ix (arr_shape (a_o x)) -> reads v ix = Fin (side over (P ix)).
Proof.
  intros R (kf & M & G). destruct (ready_stack x n t b R) as (c & E & Ne & Sc & Gc & Ec). destruct R as (C & _ & Pr & W & T & _). rewrite M in Ec.
  destruct (kde_run kf (w_workers S) c (fun ix => Fin (P ix)) Ne W) as (r & Er & Sr & Gr); [rewrite Sc; exact Pr|rewrite Sc; intros ix V; rewrite (Gc ix V); apply G, V|].
  rewrite Sc in Sr, Gr. rewrite Er in Ec. cbn [rmap] in Ec. rewrite (side_prob x t b over C T), Ec. cbn [bind]. destruct over.
  - exists (val_of (amap (nsub (Fin 1%Qc)) (arr_of (val_of r)))). split; [reflexivity|]. split; [exact Sr|]. intros ix V. rewrite reads_val by (cbn [amap shape]; rewrite shape_of_val, Sr; exact V). cbn [amap get].
    change (get (arr_of (val_of r)) ix) with (reads (val_of r) ix). rewrite reads_val by (rewrite Sr; exact V). rewrite (Gr ix V). reflexivity.
  - exists (val_of r). split; [reflexivity|]. split; [exact Sr|]. intros ix V. rewrite reads_val by (rewrite Sr; exact V). exact (Gr ix V).
Qed.
Lemma method_outcome x n t b (over : bool) : event_ready x n t b ->
  exists v, lib "binarize_obs" [a_o x; over_of over t; below_of over t] = Ok v /\ arr_shape v = arr_shape (a_o x) /\
    forall ix, valid (arr_shape (a_o x)) ix -> reads v ix = Fin (indicator (observed over (thr_at b ix) (reads (a_o x) ix))).
Proof.
  intros (_ & _ & _ & _ & T & TF). rewrite <- (arr_shape_of (a_o x)) in *.
  destruct (outcome_value S other x t b over T TF) as (v & E & _ & Sv & Gv). exists v. destruct over; auto.
Qed.

(** ** Probabilities: those of the method, and their complements *)
Theorem c125_probability : forall s (over : bool) t b n P, faithful -> reached s ->
  let x := ob s in event_ready x n t b -> method_gives x n b P -> threshold_ok t ->
  exists v, answers s (MCdf (over_of over t) (below_of over t)) v /\ answers s (MSharp (over_of over t) (below_of over t)) v /\
    arr_shape v = arr_shape (a_o x) /\ forall ix, Forall2 lt ix (arr_shape (a_o x)) -> reads v ix = Fin (side over (P ix)).
Proof.
  intros s over t b n P FA RE x H G T. destruct (method_prob x n t b P over H G) as (v & E & Sv & Gv). exists v.
  split; [|split; [|split; [exact Sv|exact Gv]]]; unfold Props_whole.answers; (edestruct (reached_result s) as [-> _]; [exact FA|exact RE|apply threshold_key; [exact T|reflexivity]|reflexivity|exact E]).
Qed.

(** ** Brier score: the mean squared distance of the probability to the outcome *)
Theorem c125_brier : forall s (over : bool) t b n P ax ns k L, faithful -> reached s ->
  let x := ob s in event_ready x n t b -> method_gives x n b P -> threshold_ok t ->
  a_boot x = VNone -> axes_of (a_avg x) = Some ax -> axes_are (length (arr_shape (a_o x))) ax ns ->
  Cells (arr_shape (a_o x)) ns k L -> L <> [] ->
  exists v, answers s (MBrier (over_of over t) (below_of over t)) v /\
    arr_shape v = kept (length (arr_shape (a_o x))) ns (arr_shape (a_o x)) /\
    reads v k = Fin (Spec.mean_of (map (fun ix =>
      let d := (side over (P ix) - indicator (observed over (thr_at b ix) (reads (a_o x) ix)))%Qc in (d * d)%Qc) L)).
Proof.
  intros s over t b n P ax ns k L FA RE x H G T B A X HC N.
  destruct (method_prob x n t b P over H G) as (p & Ep & Sp & Gp). destruct (method_outcome x n t b over H) as (o & Eo & So & Go).
  set (w := val_of (cell_sq_error (arr_of p) (arr_of o))). assert (Sw : arr_shape w = arr_shape (a_o x)) by (rewrite <- Sp, <- (arr_shape_of p); reflexivity).
  destruct (averaged_result S other otherr x w ax ns 0 B A) as (v & Ev & _ & Sv & Gv); [rewrite Sw; exact X|]. rewrite Sw in Sv, Gv. exists v.
  split; [|split; [exact Sv|]].
  - unfold Props_whole.answers. edestruct (reached_result s) as [-> _]; [exact FA|exact RE|apply threshold_key; [exact T|reflexivity]|fold x; unfold random_call; rewrite B; reflexivity|].
    cbn [Spec_result.result]. fold x. unfold brier_of, event_pair. rewrite Ep. cbn [bind]. rewrite Eo. exact Ev.
  - apply Gv; [exact HC|exact N|]. intros ix I. assert (V : valid (arr_shape (a_o x)) ix) by apply (proj2 HC), I.
    unfold w. rewrite reads_val by (cbn [cell_sq_error amap2 shape]; rewrite arr_shape_of, Sp; exact V). cbn [cell_sq_error amap2 get].
    change (get (arr_of p) ix) with (reads p ix). change (get (arr_of o) ix) with (reads o ix). rewrite (Gp ix V), (Go ix V). reflexivity.
Qed.

(** ** ROC area, from the order of the probabilities *)
Theorem c125_roc : forall s (over : bool) t b n P, faithful -> reached s ->
  let x := ob s in event_ready x n t b -> method_gives x n b P -> threshold_ok t ->
  let ev ix := observed over (thr_at b ix) (reads (a_o x) ix) in
  let E := filter ev (indices (arr_shape (a_o x))) in let N := filter (fun ix => negb (ev ix)) (indices (arr_shape (a_o x))) in
  E <> [] -> N <> [] ->
  exists fpr tpr, answers s (MRoc (over_of over t) (below_of over t)) (VTuple [fpr; tpr; VFloat (Fin (roc_area (fun ix => side over (P ix)) N E))]).
Proof.
  intros s over t b n P FA RE x H G T ev E N HE HN.
  destruct (method_prob x n t b P over H G) as (p & Ep & Sp & Gp). destruct (method_outcome x n t b over H) as (o & Eo & So & Go).
  destruct (roc_value S (arr_of p) (arr_of o) (fun ix => side over (P ix)) ev) as (fpr & tpr & Er);
    rewrite ?arr_shape_of, ?Sp, ?So; try assumption; [reflexivity|].
  rewrite arr_shape_of, Sp in Er. exists (vec_of fpr), (vec_of tpr).
  unfold Props_whole.answers. edestruct (reached_result s) as [-> _]; [exact FA|exact RE|apply threshold_key; [exact T|reflexivity]|reflexivity|].
  cbn [Spec_result.result]. fold x. unfold event_pair. rewrite Ep. cbn [bind]. rewrite Eo. cbn [bind].
  change (lib "calculate_roc" [p; o]) with (rmap (fun r => VTuple [vec_of (fst (fst r)); vec_of (snd (fst r)); VFloat (snd r)]) (calculate_roc (skip_nan (w_boot S)) (arr_of p) (bools (arr_of o)))).
  rewrite Er. reflexivity.
Qed.

(** ** A method that fails makes every metric of an event fail, with its exception and nothing else *)
Theorem c125_failure : forall s (over : bool) t b n e m, faithful -> reached s ->
  let x := ob s in event_ready x n t b -> method_raises x n b e -> threshold_ok t ->
  (exists nb, Spec_state.good nb /\ In m [MCdf (over_of over t) (below_of over t); MSharp (over_of over t) (below_of over t); MBrier (over_of over t) (below_of over t);
     MRoc (over_of over t) (below_of over t); MDecomp (over_of over t) (below_of over t); MRel nb (over_of over t) (below_of over t)]) ->
  fst (step (OMetric m None) s) = Raise e.
Proof.
  intros s over t b n e m FA RE x R F T (nb & Gn & Hm). destruct (ready_stack x n t b R) as (c & _ & Ne & Sc & Gc & Ec). pose proof R as (C & _ & Pr & W & Tt & _).
  assert (Ef : cdf_of lib x t = Raise e).
  { rewrite Ec. destruct F as [(M & ->)|(kf & M & G & ix & V & E)]; rewrite M; [unfold prob_of_stack; destruct (Nat.eqb _ 1); reflexivity|].
    rewrite (kde_fail kf (w_workers S) c e Ne W); [reflexivity|rewrite Sc; exact Pr| |].
    - rewrite Sc. intros iy Vy. rewrite (Gc iy Vy). apply G, Vy.
    - exists ix. rewrite Sc. split; [exact V|]. rewrite (Gc ix V). exact E. }
  assert (Ep : event_prob lib x (over_of over t) (below_of over t) = Raise e) by (rewrite (side_prob x t b over C Tt), Ef; reflexivity).
  assert (K : key_ok m).
  { assert (Ov : Spec_state.good (over_of over t) \/ long_array (over_of over t)) by (destruct over; [exact T|left; exact none_good]). assert (Be : Spec_state.good (below_of over t) \/ long_array (below_of over t)) by (destruct over; [left; exact none_good|exact T]).
    repeat (destruct Hm as [<-|Hm]; [unfold key_ok; cbn [kwargs]; repeat (apply Forall_cons; [cbn [snd]; try assumption; left; exact Gn|]); apply Forall_nil|]). destruct Hm. }
  assert (Rv : P_wboot.settled x m) by (repeat (destruct Hm as [<-|Hm]; [first [left; reflexivity|right; exact I]|]); destruct Hm).
  rewrite (reached_boot s m FA RE K Rv). fold x. clear K Rv. repeat (destruct Hm as [<-|Hm]; [cbn [Spec_result.result]; unfold brier_of, event_pair, averaged_over; rewrite Ep; reflexivity|]). destruct Hm.
Qed.
End Program.
Print Assumptions c125_probability.
Print Assumptions c125_brier.
Print Assumptions c125_roc.
Print Assumptions c125_failure.

(** ** A concrete method: the share 1 / (1 + number of members above), on two workers, which rejects
    thresholds above 6 *)
Definition soft (col : list num) : res num :=
  if nlt (nnat 6) (hd NaN col) then Raise ValueError
  else Ok (Fin (1 / qn (1 + how_many (fun m => nlt (hd NaN col) m) (tl col)))%Qc).
Definition k_set : settings := {| w_boot := ex_env; w_method := Kde soft; w_workers := 2; w_map_axis := (-1)%Z; w_split := true; w_cell := ps_gufunc;
  w_fun := fun _ => mean_along; w_gen_boot := fun d i r j => d + i * r + j; w_gen_rank := fun d i ix => d + i |}.
Definition k_state : st := mkSt (mkObj CEnsemble (VArr [2; 4] (store (ravel ps_f))) (VArr [2] (store (ravel ps_o))) (VTuple [VInt 0]) VNone VNone (VBool true)
    VNone (VInt (-1)) (VFun 0) VNone VNone VNone VNone VNone VNone VNone) w_used 0 [].
Notation k_answers := (answers k_set w_lib w_libr w_str w_dumps w_loads (fun s => s) w_resolve w_points false None [] (fun n => n)).
Definition k_kind (s : st) : Prop := let x := ob s in
  reached k_set w_lib w_libr w_str w_dumps w_loads (fun s => s) w_resolve w_points false None [] (fun n => n) s /\ cl x = CEnsemble /\ arr_shape (a_o x) = [2] /\ a_boot x = VNone /\
  int_of (a_eaxis x) = (-1)%Z /\ axes_of (a_avg x) = Some (Some [0%Z]) /\ arr_of (a_f x) = of_list NaN [2; 4] (ravel ps_f) /\ arr_of (a_o x) = of_list NaN [2] (ravel ps_o).
Lemma k_facts : k_kind k_state.
Proof.
  unfold k_kind, k_state. cbv zeta. generalize (content_store (ravel ps_f)) (content_store (ravel ps_o)). generalize (store (ravel ps_f)) (store (ravel ps_o)). intros cf co Hf Ho.
  split; [right; split; [left; reflexivity|reflexivity]|]. cbn [ob cl a_f a_o a_boot a_eaxis a_avg arr_shape int_of arr_of]. rewrite Hf, Ho. repeat split.
Qed.
Definition k_P (ix : list nat) : Qc := if Nat.eqb (hd 0 ix) 0 then 1%Qc else (1 / qz 3)%Qc.
Lemma k_two ix : Forall2 lt ix [2] -> ix = [0] \/ ix = [1].
Proof. intros V. inversion V as [|i d r q H1 H2]; subst. inversion H2; subst. destruct i as [|[|i]]; [auto|auto|lia]. Qed.
Section Witness.
Variable s : st.
Hypothesis KF : k_kind s.
Lemma k_ready t : event_ready k_set (ob s) 1 (VInt t) (TScalar (Fin (qz t))).
Proof.
  destruct KF as (_ & C & So & _ & Ez & _ & Ef & Eo). split; [exact C|]. rewrite Ez, Ef, Eo, So. split; [split; [split; [cbn; lia|right; reflexivity]|reflexivity]|].
  split; [cbn; lia|]. split; [cbn; lia|]. split; [reflexivity|exact I].
Qed.
Lemma k_gives : method_gives k_set (ob s) 1 (TScalar (Fin (qz 5))) k_P.
Proof.
  destruct KF as (_ & _ & So & _ & _ & _ & Ef & _). exists soft. split; [reflexivity|]. rewrite So, Ef. intros ix V.
  destruct (k_two ix V) as [-> | ->]; vm_compute; do 2 f_equal; apply Qc_is_canon; reflexivity.
Qed.
Lemma k_values : (exists v, k_answers s (MCdf (VInt 5) VNone) v /\ reads v [0] = Fin 0%Qc /\ reads v [1] = Fin (qz 2 / qz 3)%Qc) /\
  (exists v, k_answers s (MBrier (VInt 5) VNone) v /\ reads v [] = Fin (1 / qz 18)%Qc) /\
  (exists f t, k_answers s (MRoc (VInt 5) VNone) (VTuple [f; t; VFloat (Fin 1%Qc)])) /\
  method_raises k_set (ob s) 1 (TScalar (Fin (qz 7))) ValueError.
Proof.
  destruct KF as (R & C & So & B & Ez & A & Ef & Eo). assert (T : threshold_ok (VInt 5)) by (left; exact I). split; [|split; [|split]].
  - destruct (c125_probability k_set w_lib w_libr w_str w_dumps w_loads (fun s => s) w_resolve w_points false None [] (fun n => n) s true (VInt 5) _ 1 k_P e_faithful R (k_ready 5) k_gives T) as (v & Av & _ & _ & G).
    exists v. split; [exact Av|]. rewrite !G by (rewrite So; repeat constructor). split; qnum.
  - destruct (c125_brier k_set w_lib w_libr w_str w_dumps w_loads (fun s => s) w_resolve w_points false None [] (fun n => n) s true (VInt 5) _ 1 k_P (Some [0%Z]) [0] [] [[0]; [1]] e_faithful R (k_ready 5) k_gives T B A) as (v & Av & _ & G);
      [rewrite So; exact axes_2|rewrite So; exact cells_2|discriminate|].
    exists v. split; [exact Av|]. rewrite G. unfold reads. rewrite Eo. qnum.
  - destruct (c125_roc k_set w_lib w_libr w_str w_dumps w_loads (fun s => s) w_resolve w_points false None [] (fun n => n) s true (VInt 5) _ 1 k_P e_faithful R (k_ready 5) k_gives T) as (f & t & G).
    + rewrite So. unfold reads. rewrite Eo. vm_compute. discriminate.
    + rewrite So. unfold reads. rewrite Eo. vm_compute. discriminate.
    + exists f, t. rewrite So in G. unfold reads in G. rewrite Eo in G. match type of G with k_answers _ _ (VTuple [_; _; VFloat (Fin ?q)]) => replace q with 1%Qc in G by (apply Qc_is_canon; vm_compute; reflexivity) end. exact G.
  - right. exists soft. split; [reflexivity|]. rewrite So, Ef. split.
    + intros ix V. left. destruct (k_two ix V) as [-> | ->]; vm_compute; reflexivity.
    + exists [0]. split; [repeat constructor|vm_compute; reflexivity].
Qed.
End Witness.
Example c125_nonvacuous :
  (exists v, k_answers k_state (MCdf (VInt 5) VNone) v /\ reads v [0] = Fin 0%Qc /\ reads v [1] = Fin (qz 2 / qz 3)%Qc) /\
  (exists v, k_answers k_state (MBrier (VInt 5) VNone) v /\ reads v [] = Fin (1 / qz 18)%Qc) /\
  (exists f t, k_answers k_state (MRoc (VInt 5) VNone) (VTuple [f; t; VFloat (Fin 1%Qc)])) /\
  method_raises k_set (ob k_state) 1 (TScalar (Fin (qz 7))) ValueError.
Proof. exact (k_values k_state k_facts). Qed.
