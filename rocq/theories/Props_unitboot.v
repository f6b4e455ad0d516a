(** Property C122: bootstrapped scores of data in other units, with the same random numbers. *)
From Coq Require Import String ZArith List Lia Bool Arith QArith Qcanon Permutation.
From Verif Require Import QcTac QSum Num NdArr Numpy NdAxes M_common M_boot M_determ M_ens
  Spec P_boot P_boot2 P_err P_range Props_avg Store M_state Spec_state P_state P_codec Spec_result P_result Props_state Props_result
  M_whole Spec_whole P_whole Props_whole P_wboot Props_wboot P_affine.
From Verif Require P_laws Props_mirror.
Import ListNotations.
Open Scope string_scope.
Open Scope list_scope.
Open Scope nat_scope.

Section Laws.
Variable S : settings.
Variable other : string -> list M_state.val -> res M_state.val.
Variable otherr : string -> list M_state.val -> nat -> res M_state.val.
Variable str_of : M_state.val -> string.
Variable dumps : M_state.val -> string.
Variable loads : string -> res M_state.val.
Variable expanduser : string -> string.
Variable resolve : string -> path.
Variable points : M_state.val -> M_state.val -> M_state.val -> res (list num).
Variable less_memory : bool.
Variable integrate_wdir : option path.
Variable cwd : path.
Variable rng : nat -> nat.
Notation lib := (whole_lib S other).
Notation libr := (whole_libr S otherr).
Notation faithful := (faithful str_of dumps loads expanduser).
Notation reached := (reached S other otherr str_of dumps loads expanduser resolve points less_memory integrate_wdir cwd rng).
Notation answers := (answers S other otherr str_of dumps loads expanduser resolve points less_memory integrate_wdir cwd rng).
Notation boot_answer := (boot_answer S other otherr str_of dumps loads expanduser resolve points less_memory integrate_wdir cwd rng).
Notation cells_answer := (cells_answer S other otherr str_of dumps loads expanduser resolve points less_memory integrate_wdir cwd rng).
Notation cells_of := (cells_of S other points).

(** the settings of a bootstrapped verifier *)
Definition bootstraps (x : obj) (n : nat) (ax : option (list Z)) : Prop := a_boot x = VInt (Z.of_nat n) /\ axes_of (a_avg x) = Some ax /\ one_sided ax /\ 0 < n.
Definition sane (e : boot_env) : Prop := 0 < repeats e /\ (0 <= confidence e)%Qc /\ (confidence e <= 1)%Qc.
(** lower bound, mean and upper bound at one place *)
Definition triple_at (v : M_state.val) (k : list nat) (lo m hi : Qc) : Prop := reads v (0 :: k) = Fin lo /\ reads v (1 :: k) = Fin m /\ reads v (2 :: k) = Fin hi.
(** the answers of two verifiers: lo, m, hi and the same in other units *)
Definition unit_answers (s s' : st) (m m' : meth) (k : list nat) (a b : Qc) : Prop :=
  exists v v' lo mid hi, answers s m v /\ answers s' m' v' /\ arr_shape v' = arr_shape v /\ triple_at v k lo mid hi /\
    if qleb 0 a then triple_at v' k (a * lo + b)%Qc (a * mid + b)%Qc (a * hi + b)%Qc else triple_at v' k (a * hi + b)%Qc (a * mid + b)%Qc (a * lo + b)%Qc.

Lemma unit_dist (a b y z : Qc) : qdist (a * y + b) (a * z + b) = ((if qleb 0 a then a else - a) * qdist y z + 0)%Qc.
Proof.
  rewrite Qcplus_0_r. destruct (Qc_dec a 0) as [[A|A]|A].
  - destruct (qleb 0 a) eqn:E; [exfalso; apply qleb_le in E; exact (Qcle_not_lt _ _ E A)|apply Props_mirror.mirror_dist, A].
  - destruct (qleb 0 a) eqn:E; [apply P_laws.qdist_convert, A|exfalso; apply qleb_gt in E; exact (Qclt_not_le _ _ A (Qclt_le_weak _ _ E))].
  - subst a. rewrite !Qcmult_0_l, P_laws.qdist_self. destruct (qleb 0 0); ring.
Qed.
Lemma pair_units s s' m m' c c' n ax ns k L g a b : faithful -> reached s -> reached s' ->
  cellwise (ob s) m = true -> cellwise (ob s') m' = true -> key_ok m -> key_ok m' -> cells_of (ob s) m = Ok c -> cells_of (ob s') m' = Ok c' -> arr_shape c' = arr_shape c ->
  bootstraps (ob s) n ax -> bootstraps (ob s') n ax -> sane (w_boot S) -> rng (pos s') = rng (pos s) ->
  let sh := arr_shape c in axes_are (length sh) ax ns -> (forall d, In d sh -> 0 < d) -> Forall2 lt k (kept (length sh) ns sh) -> Cells sh ns k L ->
  (forall ix, In ix L -> reads c ix = Fin (g ix) /\ reads c' ix = Fin (a * g ix + b)%Qc) -> unit_answers s s' m m' k a b.
Proof.
  intros FA R R' CW CW' K K' Ec Ec' Sc (B & A & OS & Pn) (B' & A' & _ & _) (Rp & C0 & C1) Rn sh X Pos Vk HC G. set (e := w_boot S) in *. set (gen := w_gen_boot S (rng (pos s))).
  assert (S1 : shape (arr_of c) = sh) by apply arr_shape_of. assert (S2 : shape (arr_of c') = sh) by (rewrite arr_shape_of; exact Sc).
  destruct (boot_accepts e gen (arr_of c) ax ns n) as (r & Er); rewrite ?S1; try assumption. destruct (boot_accepts e gen (arr_of c') ax ns n) as (r' & Er'); rewrite ?S2; try assumption.
  assert (HK : prod (kept (length sh) ns sh) <> 0) by (pose proof (valid_prod_pos _ _ Vk); lia).
  destruct (same_sign_spelling _ ax ns X OS) as (ns' & P & Hsp).
  assert (Ek : kept (length sh) ns sh = unsel (mask_of (length sh) ns') sh) by (rewrite kept_unsel by reflexivity; rewrite (mask_of_perm _ _ _ P); reflexivity).
  pose proof Vk as Vk0. rewrite Ek in HK, Vk. pose proof Er as Eb. pose proof Er' as Eb'. cbn [boot_or_avg] in Er, Er'.
  destruct (boot_arr_spec e gen (arr_of c) ax ns' n r) as [Sr Gr]; rewrite ?S1 in *; try assumption. destruct (boot_arr_spec e gen (arr_of c') ax ns' n r') as [Sr' Gr']; rewrite ?S2 in *; try assumption.
  set (GR := group sh (mask_of (length sh) ns') k) in *. assert (IG : forall ix, In ix GR -> In ix L).
  { intros ix I. apply (proj2 HC ix). unfold GR in I. rewrite <- (mask_of_perm _ _ _ P) in I. apply (proj2 (group_Cells sh ns k) ix) in I. exact I. }
  destruct (Gr k Vk) as (v & Ev & Gv). destruct (Gr' k Vk) as (v' & Ev' & Gv'). fold GR in Ev, Ev'.
  assert (M1 : map (get (arr_of c)) GR = map Fin (map g GR)) by (rewrite map_map; apply map_ext_in; intros ix I; apply (proj1 (G ix (IG ix I)))).
  assert (M2 : map (get (arr_of c')) GR = map Fin (map (unit_of a b) (map g GR))) by (rewrite !map_map; apply map_ext_in; intros ix I; apply (proj2 (G ix (IG ix I)))).
  rewrite M1 in Ev. rewrite M2 in Ev'.
  assert (NE : map g GR <> []).
  { intros Z. assert (Z' : GR = []) by (destruct GR; [reflexivity|discriminate]). revert Z'. apply group_nonempty; [apply mask_of_length|exact Vk|]. apply P_range.prod_pos. intros d I. apply Pos, (P_range.in_sel _ _ _ I). }
  destruct (boot_vec_unit e (gen (flat (unsel (mask_of (length sh) ns') sh) k)) (map g GR) n a b NE Pn Rp C0 C1) as (lo & mid & hi & V1 & V2). rewrite V1 in Ev. injection Ev as <-. rewrite V2 in Ev'. injection Ev' as <-.
  exists (val_of r), (val_of r'), lo, mid, hi.
  split; [unfold Props_whole.answers; rewrite (boot_answer s m c n ax FA R CW K Ec B A); fold e gen; rewrite Eb; reflexivity|].
  split; [unfold Props_whole.answers; rewrite (boot_answer s' m' c' n ax FA R' CW' K' Ec' B' A'); rewrite Rn; fold e gen; rewrite Eb'; reflexivity|].
  split; [change (shape r' = shape r); congruence|].
  assert (RV : forall i, i < 3 -> reads (val_of r) (i :: k) = nth i [Fin lo; Fin mid; Fin hi] NaN) by (intros i Hi; rewrite reads_val by (rewrite Sr; constructor; assumption); apply Gv, Hi).
  assert (RV' : forall i, i < 3 -> reads (val_of r') (i :: k) = nth i (map Fin (map (unit_of a b) (if qleb 0 a then [lo; mid; hi] else [hi; mid; lo]))) NaN) by (intros i Hi; rewrite reads_val by (rewrite Sr'; constructor; assumption); apply Gv', Hi).
  split; [repeat split; apply RV; lia|]. destruct (qleb 0 a); (repeat split; [apply (RV' 0)|apply (RV' 1)|apply (RV' 2)]; lia).
Qed.

(** ** Cells of one verifier are the cells of another in other units: so are mean and bounds, and a negative factor exchanges the bounds *)
Theorem c122_bootstrap : forall s s0 s' s0' m m' w w' n ax ns k L g (a b : Qc), faithful -> reached s -> reached s0 -> reached s' -> reached s0' ->
  for_cells (ob s) (ob s0) -> for_cells (ob s') (ob s0') -> cellwise (ob s) m = true -> cellwise (ob s') m' = true -> key_ok m -> key_ok m' ->
  answers s0 m w -> answers s0' m' w' -> arr_shape w' = arr_shape w -> bootstraps (ob s) n ax -> bootstraps (ob s') n ax -> sane (w_boot S) -> rng (pos s') = rng (pos s) ->
  let sh := arr_shape w in axes_are (length sh) ax ns -> (forall d, In d sh -> 0 < d) -> Forall2 lt k (kept (length sh) ns sh) -> Cells sh ns k L ->
  (forall ix, In ix L -> reads w ix = Fin (g ix) /\ reads w' ix = Fin (a * g ix + b)%Qc) -> unit_answers s s' m m' k a b.
Proof.
  intros s s0 s' s0' m m' w w' n ax ns k L g a b FA R R0 R' R0' FC FC' CW CW' K K' A A' Sw B B' SN Rn sh X Pos Vk HC G.
  destruct (cells_answer s s0 m w FA R0 FC CW K A) as (c & Ec & Sc & Gc). destruct (cells_answer s' s0' m' w' FA R0' FC' CW' K' A') as (c' & Ec' & Sc' & Gc').
  apply (pair_units s s' m m' c c' n ax ns k L g a b); rewrite ?Sc; try assumption; try (rewrite Sc', Sw; reflexivity).
  intros ix I. pose proof (proj1 (proj1 (proj2 HC ix) I)) as V. rewrite (Gc ix) by exact V. rewrite (Gc' ix) by (rewrite Sw; exact V). apply G, I.
Qed.
Print Assumptions c122_bootstrap.

Lemma error_cells x (n : string) (g : arr num -> arr num -> arr num) (h : Qc -> Qc -> Qc) sh F O L : cl x = CDeterm \/ cl x = CEnsemble -> arr_shape (point x) = sh -> arr_shape (a_o x) = sh ->
  lib n [point x; a_o x] = Ok (val_of (g (arr_of (point x)) (arr_of (a_o x)))) -> (forall a b, shape (g a b) = shape a) -> (forall a b ix y z, get a ix = Fin y -> get b ix = Fin z -> get (g a b) ix = Fin (h y z)) ->
  (forall ix, In ix L -> Forall2 lt ix sh) -> (forall ix, In ix L -> reads (point x) ix = Fin (F ix) /\ reads (a_o x) ix = Fin (O ix)) ->
  exists c, error_of lib points x n = Ok c /\ arr_shape c = sh /\ forall ix, In ix L -> reads c ix = Fin (h (F ix) (O ix)).
Proof.
  intros C Sf So Ln Sg Gg V G. assert (Pf : point_forecast lib points x = Ok (point x)) by (unfold point_forecast, point; destruct C as [-> | ->]; reflexivity).
  exists (val_of (g (arr_of (point x)) (arr_of (a_o x)))). split; [unfold error_of; rewrite Pf; exact Ln|]. assert (Sr : shape (g (arr_of (point x)) (arr_of (a_o x))) = sh) by (rewrite Sg, arr_shape_of; exact Sf).
  split; [exact Sr|]. intros ix I. rewrite reads_val by (rewrite Sr; apply V, I). destruct (G ix I). apply Gg; assumption.
Qed.
(** ** Forecasts and observations in other units: bounds of the error change by the factor, of the squared error by its square, of the absolute error by its size *)
Theorem c122_errors : forall s s' n ax ns k L F O (a b : Qc), faithful -> reached s -> reached s' -> cl (ob s) = CDeterm \/ cl (ob s) = CEnsemble -> cl (ob s') = CDeterm \/ cl (ob s') = CEnsemble ->
  let sh := arr_shape (a_o (ob s)) in arr_shape (point (ob s)) = sh -> arr_shape (a_o (ob s')) = sh -> arr_shape (point (ob s')) = sh ->
  bootstraps (ob s) n ax -> bootstraps (ob s') n ax -> sane (w_boot S) -> rng (pos s') = rng (pos s) ->
  axes_are (length sh) ax ns -> (forall d, In d sh -> 0 < d) -> Forall2 lt k (kept (length sh) ns sh) -> Cells sh ns k L ->
  (forall ix, In ix L -> reads (point (ob s)) ix = Fin (F ix) /\ reads (a_o (ob s)) ix = Fin (O ix) /\ reads (point (ob s')) ix = Fin (a * F ix + b)%Qc /\ reads (a_o (ob s')) ix = Fin (a * O ix + b)%Qc) ->
  unit_answers s s' MError MError k a 0 /\ unit_answers s s' MSqErr MSqErr k (a * a) 0 /\ unit_answers s s' MAbErr MAbErr k (if qleb 0 a then a else - a)%Qc 0.
Proof.
  intros s s' n ax ns k L F O a b FA R R' C C' sh Sf So' Sf' B B' SN Rn X Pos Vk HC G.
  assert (V : forall ix, In ix L -> Forall2 lt ix sh) by (intros ix I; apply (proj2 HC), I).
  assert (G1 : forall ix, In ix L -> reads (point (ob s)) ix = Fin (F ix) /\ reads (a_o (ob s)) ix = Fin (O ix)) by (intros ix I; destruct (G ix I) as (? & ? & _); auto).
  assert (G2 : forall ix, In ix L -> reads (point (ob s')) ix = Fin (a * F ix + b)%Qc /\ reads (a_o (ob s')) ix = Fin (a * O ix + b)%Qc) by (intros ix I; destruct (G ix I) as (_ & _ & ? & ?); auto).
  assert (Q : forall m (nm : string) g h d, cellwise (ob s) m = true -> cellwise (ob s') m = true -> key_ok m -> (forall x, cells_of x m = error_of lib points x nm) ->
    (forall x y, lib nm [x; y] = Ok (val_of (g (arr_of x) (arr_of y)))) -> (forall a b, shape (g a b) = shape a) -> (forall a b ix y z, get a ix = Fin y -> get b ix = Fin z -> get (g a b) ix = Fin (h y z)) ->
    (forall y z, h (a * y + b)%Qc (a * z + b)%Qc = (d * h y z + 0)%Qc) -> unit_answers s s' m m k d 0).
  { intros m nm g h d CW CW' K Ce Ln Sg Gg Hh. destruct (error_cells (ob s) nm g h sh F O L C Sf eq_refl (Ln _ _) Sg Gg V G1) as (c & Ec & Sc & Rc).
    destruct (error_cells (ob s') nm g h sh (fun ix => a * F ix + b)%Qc (fun ix => a * O ix + b)%Qc L C' Sf' So' (Ln _ _) Sg Gg V G2) as (c' & Ec' & Sc' & Rc').
    apply (pair_units s s' m m c c' n ax ns k L (fun ix => h (F ix) (O ix)) d 0); rewrite ?Sc, ?Ce; try assumption. intros ix I. split; [apply Rc, I|rewrite (Rc' ix I); apply (f_equal Fin), Hh]. }
  split; [|split].
  - apply (Q MError "sub" cell_error (fun y z => y - z)%Qc); try reflexivity; try (constructor; fail); [intros p q ix y z Ep Eq; cbn [cell_error amap2 get]; rewrite Ep, Eq; reflexivity|intros; ring].
  - apply (Q MSqErr "sub_sq" cell_sq_error (fun y z => (y - z) * (y - z))%Qc); try reflexivity; try (constructor; fail); [intros p q ix y z Ep Eq; cbn [cell_sq_error amap2 get]; rewrite Ep, Eq; reflexivity|intros; ring].
  - apply (Q MAbErr "sub_abs" cell_ab_error qdist); try reflexivity; try (constructor; fail); [intros p q ix y z Ep Eq; cbn [cell_ab_error amap2 get]; rewrite Ep, Eq; cbn; rewrite qdist_abs; reflexivity|intros; apply unit_dist].
Qed.
Print Assumptions c122_errors.
End Laws.

(** ** Forecasts 3 and 5 of observations 1 and 2, and the same in units with -2 x + 1: -5, -9 and -1, -3 *)
Definition u_obj (avg boot : M_state.val) (f o : nat) : obj := mkObj CDeterm (VArr [2] f) (VArr [2] o) avg boot VNone (VBool true)
    VNone VNone VNone VNone VNone VNone VNone VNone VNone VNone.
Definition u_state (avg boot : M_state.val) (f o : list Z) : st := mkSt (u_obj avg boot (store (map (fun i => Fin (qz i)) f)) (store (map (fun i => Fin (qz i)) o))) w_used 0 [].
Lemma u_facts avg boot f o : let x := ob (u_state avg boot f o) in
  h_reached (u_state avg boot f o) /\ cl x = CDeterm /\ arr_shape (a_o x) = [2] /\ arr_shape (point x) = [2] /\ a_boot x = boot /\ a_avg x = avg /\
  forall ix, reads (a_o x) ix = get (of_list NaN [2] (map (fun i => Fin (qz i)) o)) ix /\ reads (point x) ix = get (of_list NaN [2] (map (fun i => Fin (qz i)) f)) ix.
Proof.
  cbv zeta. unfold u_state. generalize (content_store (map (fun i => Fin (qz i)) f)) (content_store (map (fun i => Fin (qz i)) o)).
  generalize (store (map (fun i => Fin (qz i)) f)) (store (map (fun i => Fin (qz i)) o)). intros cf co Hf Ho.
  split; [right; split; [left; reflexivity|reflexivity]|]. cbn [ob u_obj cl a_f a_o a_boot a_avg point arr_shape arr_of]. repeat (split; [reflexivity|]). intros ix. unfold reads. cbn [arr_of]. rewrite Hf, Ho. split; reflexivity.
Qed.
Notation u_answers := (unit_answers e_set w_lib w_libr w_str w_dumps w_loads (fun s => s) w_resolve w_points false None [] (fun n => n)).
Lemma u_sane : sane (w_boot e_set). Proof. split; [cbn; lia|]. split; vm_compute; discriminate. Qed.
Lemma u_bootstraps f o : bootstraps (ob (u_state VNone (VInt 2) f o)) 2 None.
Proof. destruct (u_facts VNone (VInt 2) f o) as (_ & _ & _ & _ & B & A & _). split; [exact B|]. split; [rewrite A; reflexivity|]. split; [exact I|lia]. Qed.
Example c122_nonvacuous :
  let s := u_state VNone (VInt 2) [3; 5]%Z [1; 2]%Z in let s' := u_state VNone (VInt 2) [-5; -9]%Z [-1; -3]%Z in
  h_reached s /\ h_reached s' /\ bootstraps (ob s) 2 None /\ bootstraps (ob s') 2 None /\ sane (w_boot e_set) /\
  (forall ix, In ix [[0]; [1]] -> exists f o, reads (point (ob s)) ix = Fin f /\ reads (a_o (ob s)) ix = Fin o /\ reads (point (ob s')) ix = Fin (qz (-2) * f + 1)%Qc /\ reads (a_o (ob s')) ix = Fin (qz (-2) * o + 1)%Qc) /\
  qleb 0 (qz (-2)) = false /\ u_answers s s' MError MError [] (qz (-2)) 0 /\ u_answers s s' MSqErr MSqErr [] (qz (-2) * qz (-2))%Qc 0 /\ u_answers s s' MAbErr MAbErr [] (- qz (-2))%Qc 0.
Proof.
  intros s s'. destruct (u_facts VNone (VInt 2) [3; 5]%Z [1; 2]%Z) as (R & C & So & Sf & _ & _ & G). destruct (u_facts VNone (VInt 2) [-5; -9]%Z [-1; -3]%Z) as (R' & C' & So' & Sf' & _ & _ & G'). fold s in R, C, So, Sf, G. fold s' in R', C', So', Sf', G'.
  assert (V : forall ix, In ix [[0]; [1]] -> reads (point (ob s)) ix = Fin (qz (nth (hd O ix) [3; 5]%Z 0%Z)) /\ reads (a_o (ob s)) ix = Fin (qz (nth (hd O ix) [1; 2]%Z 0%Z)) /\
    reads (point (ob s')) ix = Fin (qz (-2) * qz (nth (hd O ix) [3; 5]%Z 0%Z) + 1)%Qc /\ reads (a_o (ob s')) ix = Fin (qz (-2) * qz (nth (hd O ix) [1; 2]%Z 0%Z) + 1)%Qc).
  { intros ix I. destruct (G ix) as [-> ->], (G' ix) as [-> ->]. destruct I as [<-|[<-|[]]]; (split; [reflexivity|]); (split; [reflexivity|]); split; apply (f_equal Fin); apply Qc_is_canon; vm_compute; reflexivity. }
  split; [exact R|]. split; [exact R'|]. split; [apply u_bootstraps|]. split; [apply u_bootstraps|]. split; [exact u_sane|]. split; [intros ix I; exact (ex_intro _ _ (ex_intro _ _ (V ix I)))|]. split; [reflexivity|].
  destruct (c122_errors e_set w_lib w_libr w_str w_dumps w_loads (fun s => s) w_resolve w_points false None [] (fun n => n) s s' 2 None [0] [] [[0]; [1]]
    (fun ix => qz (nth (hd O ix) [3; 5]%Z 0%Z)) (fun ix => qz (nth (hd O ix) [1; 2]%Z 0%Z)) (qz (-2)) 1 e_faithful R R' (or_introl C) (or_introl C')) as (E1 & E2 & E3); rewrite ?So, ?So'; try assumption.
  - apply u_bootstraps.
  - apply u_bootstraps.
  - exact u_sane.
  - exact (eq_refl 0).
  - reflexivity.
  - intros d [<-|[]]. lia.
  - constructor.
  - exact cells_2.
  - exact (conj E1 (conj E2 E3)).
Qed.
(** the verifiers asked for their cells *)
Example c122_cells :
  let s := u_state VNone (VInt 2) [3; 5]%Z [1; 2]%Z in let s' := u_state VNone (VInt 2) [-5; -9]%Z [-1; -3]%Z in
  let s0 := u_state (VTuple []) VNone [3; 5]%Z [1; 2]%Z in let s0' := u_state (VTuple []) VNone [-5; -9]%Z [-1; -3]%Z in
  h_reached s0 /\ h_reached s0' /\ for_cells (ob s) (ob s0) /\ for_cells (ob s') (ob s0') /\
  exists w w', e_answers s0 MError w /\ e_answers s0' MError w' /\ arr_shape w = [2] /\ arr_shape w' = [2] /\ reads w [0] = Fin (qz 2) /\ reads w [1] = Fin (qz 3) /\ reads w' [0] = Fin (qz (-2) * qz 2 + 0)%Qc /\ reads w' [1] = Fin (qz (-2) * qz 3 + 0)%Qc.
Proof.
  assert (W : forall f0 f1 o0 o1 i, i < 2 -> exists w, e_answers (u_state (VTuple []) VNone [f0; f1] [o0; o1]) MError w /\ arr_shape w = [2] /\ reads w [i] = Fin (qz (nth i [f0; f1] 0%Z) - qz (nth i [o0; o1] 0%Z))%Qc).
  { intros f0 f1 o0 o1 i Hi. destruct (u_facts (VTuple []) VNone [f0; f1] [o0; o1]) as (R & C & So & Sf & B & A & G). set (s := u_state _ _ _ _) in *.
    destruct (c85_errors e_set w_lib w_libr w_str w_dumps w_loads (fun s => s) w_resolve w_points false None [] (fun n => n) s (Some []) [] [i] [[i]]
      (fun ix => qz (nth (hd O ix) [f0; f1] 0%Z)) (fun ix => qz (nth (hd O ix) [o0; o1] 0%Z)) e_faithful R (or_introl C)) as (w & _ & _ & A1 & _ & _ & Sw & _ & _ & R1 & _); rewrite ?So; try assumption.
    - rewrite A. reflexivity.
    - split; constructor.
    - apply Cells_none. constructor; [exact Hi|constructor].
    - discriminate.
    - intros ix [<-|[]]. destruct (G [i]) as [-> ->]. destruct i as [|[|i]]; [split; reflexivity|split; reflexivity|lia].
    - exists w. split; [exact A1|]. split; [rewrite Sw, So; reflexivity|]. rewrite R1. apply (f_equal Fin). cbn [map hd]. generalize (qz (nth i [f0; f1] 0%Z) - qz (nth i [o0; o1] 0%Z))%Qc. intros q. unfold Spec.mean_of. cbn. apply Qc_is_canon. cbn. rewrite ?Qred_correct. field. }
  intros s s' s0 s0'. split; [apply u_facts|]. split; [apply u_facts|]. split; [reflexivity|]. split; [reflexivity|].
  destruct (W 3%Z 5%Z 1%Z 2%Z 0 ltac:(lia)) as (w & A & Sw & R0). destruct (W 3%Z 5%Z 1%Z 2%Z 1 ltac:(lia)) as (w1 & A1 & _ & R1). fold s0 in A, A1. unfold Props_whole.answers in A, A1. assert (w1 = w) by (rewrite A in A1; injection A1; auto). subst w1.
  destruct (W (-5)%Z (-9)%Z (-1)%Z (-3)%Z 0 ltac:(lia)) as (w' & A' & Sw' & R0'). destruct (W (-5)%Z (-9)%Z (-1)%Z (-3)%Z 1 ltac:(lia)) as (w1 & A1' & _ & R1'). fold s0' in A', A1'. unfold Props_whole.answers in A', A1'. assert (w1 = w') by (rewrite A' in A1'; injection A1'; auto). subst w1.
  exists w, w'. split; [exact A|]. split; [exact A'|]. split; [exact Sw|]. split; [exact Sw'|]. rewrite R0, R1, R0', R1'. repeat split; apply (f_equal Fin); apply Qc_is_canon; vm_compute; reflexivity.
Qed.
