(** Property C107 for a verifier in the state its history left it in: bootstrapped error metrics under two confidence levels. *)
From Coq Require Import String Ascii ZArith List Bool Arith QArith Qcanon Lia Permutation.
From Verif Require Import QcTac QSum Num NdArr Numpy NdAxes M_common M_boot M_determ M_ens M_crpsens M_iou M_roc M_dist M_ps
  Spec P_boot P_rank P_prob P_ps P_err Props_avg Props_prob Props_ps Props_iou Store M_state Spec_state P_state P_codec Spec_result P_result Props_state Props_result
  M_whole Spec_whole P_whole Props_whole.
From Verif Require Props_conf Props_nested.
Import ListNotations.
Open Scope string_scope.
Open Scope list_scope.
Open Scope nat_scope.

Section Levels.
Variable S S' : settings.
Variable other : string -> list M_state.val -> res M_state.val.
Variable otherr : string -> list M_state.val -> nat -> res M_state.val.
Variable str_of : M_state.val -> string.
Variable dumps : M_state.val -> string.
Variable loads : string -> res M_state.val.
Variable expanduser : string -> string.
Variable resolve : string -> path.
Variable points : M_state.val -> M_state.val -> M_state.val -> res (list num).
Variable less_memory : bool.
Variable integrate_wdir : option path.
Variable cwd : path.
Variable rng : nat -> nat.
Notation answers S := (answers S other otherr str_of dumps loads expanduser resolve points less_memory integrate_wdir cwd rng).
Notation in_order := Props_conf.in_order.

(** what a bootstrapped error metric of a verifier that saves nothing answers *)
Lemma boot_error s n ax (m : meth) : let x := ob s in mem_off less_memory x -> truthy (a_wd x) = false -> cl x = CDeterm \/ cl x = CEnsemble ->
  a_boot x = VInt (Z.of_nat n) -> axes_of (a_avg x) = Some ax -> m = MError \/ m = MSqErr \/ m = MAbErr ->
  exists g, (forall a b, shape (g a b) = shape a) /\ (forall a b ix, (get a ix = NaN \/ is_fin (get a ix)) -> (get b ix = NaN \/ is_fin (get b ix)) -> get (g a b) ix = NaN \/ is_fin (get (g a b) ix)) /\
   forall T, fst (M_state.step (whole_lib T other) (whole_libr T otherr) str_of dumps loads expanduser resolve points less_memory integrate_wdir cwd rng (OMetric m None) s) =
    rmap val_of (boot_or_avg (w_boot T) (w_gen_boot T (rng (pos s + 0))) ax (Some n) (arr_of (val_of (g (arr_of (point x)) (arr_of (a_o x)))))).
Proof.
  intros x M W C B A Hm.
  assert (Q : exists name (g : arr num -> arr num -> arr num), (forall T d, result (whole_lib T other) (whole_libr T otherr) points x m d = averaged_over (whole_lib T other) (whole_libr T otherr) x (error_of (whole_lib T other) points x name) (d 0)) /\ key_ok m /\
    (forall T, whole_lib T other name [point x; a_o x] = Ok (val_of (g (arr_of (point x)) (arr_of (a_o x))))) /\
    (forall a b, shape (g a b) = shape a) /\ (forall a b ix, (get a ix = NaN \/ is_fin (get a ix)) -> (get b ix = NaN \/ is_fin (get b ix)) -> get (g a b) ix = NaN \/ is_fin (get (g a b) ix))).
  { destruct Hm as [-> | [-> | ->]]; [exists "sub", cell_error|exists "sub_sq", cell_sq_error|exists "sub_abs", cell_ab_error];
      (split; [reflexivity|split; [constructor|split; [reflexivity|split; [reflexivity|]]]]); intros a b ix [Ea|[y Ea]] [Eb|[z Eb]]; cbn [cell_error cell_sq_error cell_ab_error amap2 get]; rewrite Ea, Eb; try (left; reflexivity); right; eexists; reflexivity. }
  destruct Q as (name & g & Rm & K & Ln & Shg & Gg). exists g. split; [exact Shg|]. split; [exact Gg|]. intros U.
  destruct (c83_saving_off (whole_lib U other) (whole_libr U otherr) str_of dumps loads expanduser resolve points less_memory integrate_wdir cwd rng m None s M W K (or_introl eq_refl)) as [-> _].
  fold x. rewrite Rm. assert (Pf : point_forecast (whole_lib U other) points x = Ok (point x)) by (unfold point_forecast, point; destruct C as [-> | ->]; reflexivity).
  unfold averaged_over, error_of. rewrite Pf. cbn [bind]. rewrite Ln. cbn [bind]. unfold with_boot. rewrite B. cbn [is_none app].
  unfold whole_libr. rewrite A. cbn [count_of]. destruct (Z.leb_spec 0 (Z.of_nat n)); [|lia]. rewrite Nat2Z.id. change ("boot_or_avg" =? "boot_or_avg")%string with true. cbv iota. reflexivity.
Qed.
Theorem c107_program : forall s n ax ns k (m : meth), let x := ob s in
  Props_nested.more_confident (w_boot S) (w_boot S') -> w_gen_boot S' = w_gen_boot S -> (0 <= confidence (w_boot S))%Qc -> (confidence (w_boot S') <= 1)%Qc -> 0 < repeats (w_boot S) ->
  mem_off less_memory x -> truthy (a_wd x) = false -> cl x = CDeterm \/ cl x = CEnsemble -> a_boot x = VInt (Z.of_nat n) -> axes_of (a_avg x) = Some ax ->
  match ax with None => True | Some l => Forall (fun z => 0 <= z)%Z l \/ Forall (fun z => z < 0)%Z l end ->
  m = MError \/ m = MSqErr \/ m = MAbErr ->
  arr_shape (point x) = arr_shape (a_o x) -> (forall d, In d (arr_shape (a_o x)) -> 0 < d) -> axes_are (length (arr_shape (a_o x))) ax ns ->
  Forall2 lt k (kept (length (arr_shape (a_o x))) ns (arr_shape (a_o x))) ->
  (forall ix, Forall2 lt ix (arr_shape (a_o x)) -> (reads (point x) ix = NaN \/ is_fin (reads (point x) ix)) /\ (reads (a_o x) ix = NaN \/ is_fin (reads (a_o x) ix))) ->
  exists v v', answers S s m v /\ answers S' s m v' /\
    in_order (reads v' (0 :: k)) (reads v (0 :: k)) /\ reads v' (1 :: k) = reads v (1 :: k) /\ in_order (reads v (2 :: k)) (reads v' (2 :: k)).
Proof.
  intros s n ax ns k m x MC Gb C0 C1 Rp M W C B A Sg Hm Sh Pos X Vk V.
  destruct (boot_error s n ax m M W C B A Hm) as (g & Shg & Gg & St). fold x in St.
  set (w := arr_of (val_of (g (arr_of (point x)) (arr_of (a_o x))))) in *.
  assert (Sw : shape w = arr_shape (a_o x)) by (rewrite <- Sh, <- (arr_shape_of (point x)); exact (Shg _ _)).
  pose proof MC as (Sk & Rr & Le).
  destruct (boot_accepts (w_boot S) (w_gen_boot S (rng (pos s + 0))) w ax ns n) as [r Er]; rewrite ?Sw; try assumption; [eapply Qcle_trans; eassumption|].
  destruct (boot_accepts (w_boot S') (w_gen_boot S (rng (pos s + 0))) w ax ns n) as [r' Er']; rewrite ?Sw; try assumption; [eapply Qcle_trans; eassumption|rewrite Rr; assumption|].
  assert (Ob : forall ix, Forall2 lt ix (shape w) -> Props_conf.observed (get w ix)).
  { intros ix I. rewrite Sw in I. change (get w ix) with (reads (val_of (g (arr_of (point x)) (arr_of (a_o x)))) ix). destruct (V ix I) as [V1 V2].
    rewrite reads_val by (rewrite Shg, arr_shape_of, Sh; exact I). exact (Gg _ _ _ V1 V2). }
  assert (HK : prod (kept (length (shape w)) ns (shape w)) <> 0) by (rewrite Sw; pose proof (valid_prod_pos _ _ Vk); lia).
  destruct (Props_nested.c107_arrays (w_boot S) (w_boot S') (w_gen_boot S (rng (pos s + 0))) ax w r r' ns n k MC) as (S2 & L1 & L2 & L3); rewrite ?Sw; try assumption.
  { rewrite <- Sw. exact Ob. }
  assert (Sr : shape r = 3 :: kept (length (arr_shape (a_o x))) ns (arr_shape (a_o x))).
  { destruct (boot_groups (w_boot S) (w_gen_boot S (rng (pos s + 0))) w ax ns n r) as [Z _]; rewrite ?Sw in *; assumption. }
  exists (val_of r), (val_of r'). split; [unfold Props_whole.answers; rewrite St; fold w; rewrite Er; reflexivity|]. split; [unfold Props_whole.answers; rewrite St, Gb; fold w; rewrite Er'; reflexivity|].
  rewrite !(reads_val r) by (rewrite Sr; constructor; [lia|assumption]). rewrite !(reads_val r') by (rewrite S2, Sr; constructor; [lia|assumption]). auto.
Qed.
End Levels.
Print Assumptions c107_program.

(** The errors 1, 2, 3 and 5 of a deterministic verifier, bootstrapped with two draws for each of the 40 repeats; confidence 1/2 and 9/10. *)
Definition b_set (c : Q) : settings := {| w_boot := {| skip_nan := false; repeats := 40; confidence := Q2Qc c |}; w_method := Moments; w_workers := 1; w_map_axis := (-1)%Z; w_split := true; w_cell := ps_gufunc;
  w_fun := fun _ => mean_along; w_gen_boot := fun d i r j => d + i * r + j; w_gen_rank := fun d i ix => d + i |}.
Definition b_obj (f o : nat) : obj := mkObj CDeterm (VArr [4] f) (VArr [4] o) VNone (VInt 2) VNone (VBool true) VNone (VInt (-1)) (VFun 0) VNone VNone VNone VNone VNone VNone VNone.
Definition b_state : st := mkSt (b_obj (store (map (fun i => Fin (qz i)) [1; 2; 3; 5]%Z)) (store (map (fun i => Fin (qz i)) [0; 0; 0; 0]%Z))) w_used 0 [].
Notation b_answers S := (answers S w_lib w_libr w_str w_dumps w_loads (fun s => s) w_resolve w_points false None [] (fun n => n)).
Theorem c107_program_nonvacuous : exists v v', b_answers (b_set (1 # 2)) b_state MError v /\ b_answers (b_set (9 # 10)) b_state MError v' /\
  Props_conf.in_order (reads v' [0]) (reads v [0]) /\ reads v' [1] = reads v [1] /\ Props_conf.in_order (reads v [2]) (reads v' [2]).
Proof.
  assert (F : let x := ob b_state in cl x = CDeterm /\ a_boot x = VInt 2 /\ a_avg x = VNone /\ arr_shape (point x) = [4] /\ arr_shape (a_o x) = [4] /\ a_wd x = VNone /\ mem_off false x /\
    arr_of (point x) = of_list NaN [4] (map (fun i => Fin (qz i)) [1; 2; 3; 5]%Z) /\ arr_of (a_o x) = of_list NaN [4] (map (fun i => Fin (qz i)) [0; 0; 0; 0]%Z)).
  { cbv zeta. unfold b_state. generalize (content_store (map (fun i => Fin (qz i)) [1; 2; 3; 5]%Z)) (content_store (map (fun i => Fin (qz i)) [0; 0; 0; 0]%Z)).
    generalize (store (map (fun i => Fin (qz i)) [1; 2; 3; 5]%Z)) (store (map (fun i => Fin (qz i)) [0; 0; 0; 0]%Z)). intros f o Hf Ho. cbn [ob b_obj cl a_boot a_avg point a_f a_fc arr_shape a_o arr_of a_wd]. rewrite Hf, Ho. repeat split. left. reflexivity. }
  destruct F as (C & B & A & Sp & So & W & M & Ef & Eo).
  refine (c107_program (b_set (1 # 2)) (b_set (9 # 10)) w_lib w_libr w_str w_dumps w_loads (fun s => s) w_resolve w_points false None [] (fun n => n) b_state 2 None [0] [] MError _ eq_refl _ _ _ M _ (or_introl C) B _ I (or_introl eq_refl) _ _ _ _ _).
  - split; [reflexivity|]. split; [reflexivity|]. unfold Qcle. vm_compute. discriminate.
  - unfold Qcle. vm_compute. discriminate.
  - unfold Qcle. vm_compute. discriminate.
  - cbn. lia.
  - rewrite W. reflexivity.
  - rewrite A. reflexivity.
  - congruence.
  - rewrite So. intros d [<-|[]]. lia.
  - rewrite So. reflexivity.
  - rewrite So. constructor.
  - rewrite So. intros ix V. unfold reads. rewrite Ef, Eo. apply (in_indices [4]) in V. destruct V as [<-|[<-|[<-|[<-|[]]]]]; split; right; eexists; vm_compute; reflexivity.
Qed.
Print Assumptions c107_program_nonvacuous.
