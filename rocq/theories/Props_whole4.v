(** Property C113: variance, binned spread-skill diagram and correlation from constructor to numbers, for the ensemble
    and the parametric verifiers (correlation also for the deterministic one). *)
From Coq Require Import String ZArith List Lia Bool Arith QArith Qcanon Sorting.Permutation.
From Verif Require Import QcTac QSum Num NdArr Numpy NdAxes M_common M_boot M_determ M_ens M_special M_rel M_ss M_dist
  Spec Spec_rel Spec_ss P_boot P_rank P_dist P_special P_rel Props_avg Props_ss Props_rank
  Store M_state Spec_state P_state P_codec Spec_result P_result Props_state Props_result M_whole Spec_whole P_whole Props_whole M_whole2 M_whole3 M_whole4 P_whole4.
From Verif Require Props_ps Props_whole2 Props_whole3.
Import ListNotations.
Open Scope string_scope.
Open Scope list_scope.
Open Scope nat_scope.

Section Program.
Variable S : settings.
Variable W : laws.
Variable T : stats.
Variable gen_decomp : nat -> nat -> nat -> nat -> nat.
Variable gen_rel : nat -> nat -> nat -> nat -> nat -> nat.
Variable other : string -> list M_state.val -> res M_state.val.
Variable otherr : string -> list M_state.val -> nat -> res M_state.val.
Variable str_of : M_state.val -> string.
Variable dumps : M_state.val -> string.
Variable loads : string -> res M_state.val.
Variable expanduser : string -> string.
Variable resolve : string -> path.
Variable points : M_state.val -> M_state.val -> M_state.val -> res (list num).
Variable less_memory : bool.
Variable integrate_wdir : option path.
Variable cwd : path.
Variable rng : nat -> nat.

Notation slib := (stat_lib S T other).
Notation mlib := (more_lib S (prob_lib S W slib)).
Notation mlibr := (more_libr S gen_decomp gen_rel (prob_libr S W otherr)).
Notation lib := (whole_lib S mlib).
Notation libr := (whole_libr S mlibr).
Notation step := (M_state.step lib libr str_of dumps loads expanduser resolve points less_memory integrate_wdir cwd rng).
Notation result := (Spec_result.result lib libr points).
Notation faithful := (Props_whole.faithful str_of dumps loads expanduser).
Notation reached := (Props_whole.reached S mlib mlibr str_of dumps loads expanduser resolve points less_memory integrate_wdir cwd rng).
Notation answers := (Props_whole.answers S mlib mlibr str_of dumps loads expanduser resolve points less_memory integrate_wdir cwd rng).
Notation reached_result := (Props_whole.reached_result S mlib mlibr str_of dumps loads expanduser resolve points less_memory integrate_wdir cwd rng).

(** ** Variance of the members *)
Lemma ensemble_variance x n : cl x = CEnsemble -> Props_ps.fits (arr_of (a_o x)) (arr_of (a_f x)) (int_of (a_eaxis x)) n ->
  exists v, variance_of lib points x = Ok v /\ arr_shape v = arr_shape (a_o x) /\
    forall ix, valid (arr_shape (a_o x)) ix -> reads v ix = nvar (Spec.members_at n (arr_of (a_f x)) ix).
Proof.
  intros C [Ax D]. destruct (var_along_ok _ _ _ Ax) as (r & Er & Sr & Gr). rewrite D, arr_shape_of in Sr, Gr.
  exists (val_of r). split; [|split; [exact Sr|]].
  - unfold variance_of. rewrite C. change (lib "var" [a_f x; a_eaxis x]) with (rmap val_of (var_along (int_of (a_eaxis x)) (arr_of (a_f x)))). rewrite Er. reflexivity.
  - intros ix V. rewrite reads_val by (rewrite Sr; exact V). apply Gr, V.
Qed.
Theorem c113_variance : forall s n, faithful -> reached s ->
  let x := ob s in cl x = CEnsemble -> Props_ps.fits (arr_of (a_o x)) (arr_of (a_f x)) (int_of (a_eaxis x)) n ->
  exists v, answers s MVariance v /\ arr_shape v = arr_shape (a_o x) /\
  forall ix, Forall2 lt ix (arr_shape (a_o x)) -> let ms := Spec.members_at n (arr_of (a_f x)) ix in
    (forall M, ms = map Fin M -> M <> [] -> reads v ix = Fin (Spec.mean_of (map (fun m => (m - Spec.mean_of M) * (m - Spec.mean_of M))%Qc M))) /\
    (In NaN ms -> reads v ix = NaN).
Proof.
  intros s n FA RE x C Fi. destruct (ensemble_variance x n C Fi) as (v & E & Sv & Gv). exists v. split; [|split; [exact Sv|]].
  - unfold Props_whole.answers. destruct (reached_result s MVariance FA RE ltac:(constructor) ltac:(reflexivity)) as [-> _]. exact E.
  - intros ix V ms. rewrite (Gv ix V). fold ms. split; [intros M -> N; apply nvar_fin, N|apply nvar_nan].
Qed.

(** ** Binned spread-skill diagram *)
Lemma diagram s nb v e ax ns N (p y : list nat -> Qc) : faithful -> reached s -> (forall l, argsorts l (w_argsort T l)) ->
  let x := ob s in let sh := arr_shape (a_o x) in let ks := kept (length sh) ns sh in
  variance_of lib points x = Ok v -> error_of lib points x "sub_sq" = Ok e -> arr_shape v = sh -> arr_shape e = sh ->
  (forall ix, valid sh ix -> reads v ix = Fin (p ix) /\ reads e ix = Fin (y ix)) ->
  a_boot x = VNone -> axes_of (a_avg x) = Some ax -> axes_are (length sh) ax ns -> same_sign ax ->
  prod ks <> 0 -> prod sh = N * prod ks -> 1 <= nb <= N ->
  exists sp rm, answers s (MSS (VInt (Z.of_nat nb))) (VTuple [sp; rm]) /\ arr_shape sp = ks ++ [nb] /\ arr_shape rm = ks ++ [nb] /\
  forall k L, valid ks k -> Cells sh ns k L ->
  exists Bs, ordered_bins (fun i j => (p i <= p j)%Qc) L nb Bs /\ forall b, b < nb ->
    reads sp (k ++ [b]) = w_sqrt T (Fin (Spec.mean_of (map p (nth b Bs [])))) /\ reads rm (k ++ [b]) = w_sqrt T (Fin (Spec.mean_of (map y (nth b Bs [])))).
Proof.
  intros FA RE Harg x sh ks Ev Ee Sv Se D B A X SS HK HN Hnb.
  assert (Sv' : shape (arr_of v) = sh) by (rewrite arr_shape_of; exact Sv). assert (Se' : shape (arr_of e) = sh) by (rewrite arr_shape_of; exact Se).
  destruct (curves_value (w_sqrt T) (w_argsort T) (skip_nan (w_boot S)) (arr_of v) (arr_of e) nb ax ns N p y Harg) as (sp0 & sp & rm & Es & Ec & S1 & S2 & G); rewrite ?Sv', ?Se'; try assumption; [reflexivity|].
  rewrite Sv' in S1, S2, G. fold ks in S1, S2, G. exists (val_of sp), (val_of rm). split; [|split; [exact S1|split; [exact S2|]]].
  - unfold Props_whole.answers. destruct (reached_result s (MSS (VInt (Z.of_nat nb))) FA RE) as [-> _]; [apply Forall_cons; [left; exact I|apply Forall_nil]|fold x; unfold random_call, random_value; rewrite B; reflexivity|].
    cbn [Spec_result.result]. fold x. rewrite Ev. cbn [bind]. rewrite Ee. cbn [bind].
    change (lib "spread_skill_split" [v; e; VInt (Z.of_nat nb); a_avg x]) with (slib "spread_skill_split" [v; e; VInt (Z.of_nat nb); a_avg x]). unfold stat_lib at 1.
    change ("spread_skill_split" =? "spread_skill_split")%string with true. cbv iota. rewrite A. cbn [count_of]. destruct (Z.leb_spec 0 (Z.of_nat nb)); [|lia]. rewrite Nat2Z.id, Es. cbn [rmap bind].
    unfold with_boot. rewrite B. cbn [is_none]. change (lib "post_binned_spread_skill" [bins_val sp0]) with (slib "post_binned_spread_skill" [bins_val sp0]). unfold stat_lib.
    change ("post_binned_spread_skill" =? "post_binned_spread_skill")%string with true. cbv iota. cbn [bins_val bins_of].
    rewrite keep_round, curves_round by (exact (split_bins _ _ _ _ _ _ Es)). rewrite Ec. reflexivity.
  - intros k L Vk HL. destruct (G k L Vk HL) as (Bs & OB & Gb). exists Bs. split; [exact OB|]. intros b Hb. destruct (Gb b Hb) as [G1 G2].
    assert (V : valid (ks ++ [nb]) (k ++ [b])) by (apply Forall2_app; [exact Vk|repeat constructor; exact Hb]).
    rewrite !reads_val by (rewrite ?S1, ?S2; exact V). split; assumption.
Qed.
(** the forecast whose errors are measured *)
Inductive forecast_is (x : obj) : M_state.val -> Prop :=
  | f_determ : cl x = CDeterm -> forecast_is x (a_f x)
  | f_collapsed : cl x = CEnsemble -> forecast_is x (a_fc x)
  | f_mean mu : cl x = CGaussian \/ cl x = CGamma -> field (a_f x) "mu" = Some mu -> forecast_is x mu.
Lemma forecast_point x v : forecast_is x v -> point_forecast lib points x = Ok v /\ Spec_result.mean_of lib points x = Ok v.
Proof.
  intros [C|C|mu C Fm]; unfold point_forecast, Spec_result.mean_of; [rewrite C; split; reflexivity|rewrite C; split; reflexivity|].
  unfold part. rewrite Fm. destruct C as [-> | ->]; split; reflexivity.
Qed.
Lemma square_errors x f (F O : list nat -> Qc) : forecast_is x f -> arr_shape f = arr_shape (a_o x) ->
  (forall ix, valid (arr_shape (a_o x)) ix -> reads f ix = Fin (F ix) /\ reads (a_o x) ix = Fin (O ix)) ->
  exists e, error_of lib points x "sub_sq" = Ok e /\ arr_shape e = arr_shape (a_o x) /\
    forall ix, valid (arr_shape (a_o x)) ix -> reads e ix = Fin ((F ix - O ix) * (F ix - O ix))%Qc.
Proof.
  intros Hf Sf D. exists (val_of (cell_sq_error (arr_of f) (arr_of (a_o x)))). split; [|split].
  - unfold error_of. rewrite (proj1 (forecast_point x f Hf)). reflexivity.
  - rewrite <- Sf. apply arr_shape_of.
  - intros ix V. rewrite reads_val by (change (valid (shape (arr_of f)) ix); rewrite arr_shape_of, Sf; exact V). destruct (D ix V) as [D1 D2]. cbn [cell_sq_error amap2 get].
    change (get (arr_of f) ix) with (reads f ix). change (get (arr_of (a_o x)) ix) with (reads (a_o x) ix). rewrite D1, D2. reflexivity.
Qed.
(** an ensemble: the bins are ordered by the variances of the members *)
Theorem c113_spread_skill_ensemble : forall s n nb ax ns N (M : list nat -> list Qc) (F O : list nat -> Qc), faithful -> reached s -> (forall l, argsorts l (w_argsort T l)) ->
  let x := ob s in let sh := arr_shape (a_o x) in let ks := kept (length sh) ns sh in
  cl x = CEnsemble -> Props_ps.fits (arr_of (a_o x)) (arr_of (a_f x)) (int_of (a_eaxis x)) n -> 0 < nth n (arr_shape (a_f x)) 0 -> arr_shape (a_fc x) = sh ->
  (forall ix, Forall2 lt ix sh -> Spec.members_at n (arr_of (a_f x)) ix = map Fin (M ix) /\ reads (a_fc x) ix = Fin (F ix) /\ reads (a_o x) ix = Fin (O ix)) ->
  a_boot x = VNone -> axes_of (a_avg x) = Some ax -> axes_are (length sh) ax ns -> same_sign ax ->
  prod ks <> 0 -> prod sh = N * prod ks -> 1 <= nb <= N ->
  let p := fun ix => Spec.mean_of (map (fun m => (m - Spec.mean_of (M ix)) * (m - Spec.mean_of (M ix)))%Qc (M ix)) in
  let y := fun ix => ((F ix - O ix) * (F ix - O ix))%Qc in
  exists sp rm, answers s (MSS (VInt (Z.of_nat nb))) (VTuple [sp; rm]) /\ arr_shape sp = ks ++ [nb] /\ arr_shape rm = ks ++ [nb] /\
  forall k L, Forall2 lt k ks -> Cells sh ns k L ->
  exists Bs, ordered_bins (fun i j => (p i <= p j)%Qc) L nb Bs /\ forall b, b < nb ->
    reads sp (k ++ [b]) = w_sqrt T (Fin (Spec.mean_of (map p (nth b Bs [])))) /\ reads rm (k ++ [b]) = w_sqrt T (Fin (Spec.mean_of (map y (nth b Bs [])))).
Proof.
  intros s n nb ax ns N M F O FA RE Harg x sh ks C Fi Pos Sc D B A X SS HK HN Hnb p y.
  destruct (ensemble_variance x n C Fi) as (v & Ev & Sv & Gv). destruct (square_errors x (a_fc x) F O (f_collapsed x C) Sc) as (e & Ee & Se & Ge); [intros ix V; exact (proj2 (D ix V))|].
  apply (diagram s nb v e ax ns N p y); try assumption. intros ix V. split; [|apply Ge, V]. destruct (D ix V) as (Dm & _). rewrite (Gv ix V), Dm. apply nvar_fin.
  intros Z. rewrite Z in Dm. apply (f_equal (@length num)) in Dm. unfold Spec.members_at in Dm. rewrite map_length, seq_length, arr_shape_of in Dm. cbn in Dm. lia.
Qed.
(** the Gaussian and the Gamma verifier: by the squares of sigma *)
Theorem c113_spread_skill_parametric : forall s mu sg nb ax ns N (F D O : list nat -> Qc), faithful -> reached s -> (forall l, argsorts l (w_argsort T l)) ->
  let x := ob s in let sh := arr_shape (a_o x) in let ks := kept (length sh) ns sh in
  cl x = CGaussian \/ cl x = CGamma -> field (a_f x) "mu" = Some mu -> field (a_f x) "sigma" = Some sg -> arr_shape mu = sh -> arr_shape sg = sh ->
  (forall ix, Forall2 lt ix sh -> reads mu ix = Fin (F ix) /\ reads sg ix = Fin (D ix) /\ reads (a_o x) ix = Fin (O ix)) ->
  a_boot x = VNone -> axes_of (a_avg x) = Some ax -> axes_are (length sh) ax ns -> same_sign ax ->
  prod ks <> 0 -> prod sh = N * prod ks -> 1 <= nb <= N ->
  let p := fun ix => (D ix * D ix)%Qc in let y := fun ix => ((F ix - O ix) * (F ix - O ix))%Qc in
  exists sp rm, answers s (MSS (VInt (Z.of_nat nb))) (VTuple [sp; rm]) /\ arr_shape sp = ks ++ [nb] /\ arr_shape rm = ks ++ [nb] /\
  forall k L, Forall2 lt k ks -> Cells sh ns k L ->
  exists Bs, ordered_bins (fun i j => (p i <= p j)%Qc) L nb Bs /\ forall b, b < nb ->
    reads sp (k ++ [b]) = w_sqrt T (Fin (Spec.mean_of (map p (nth b Bs [])))) /\ reads rm (k ++ [b]) = w_sqrt T (Fin (Spec.mean_of (map y (nth b Bs [])))).
Proof.
  intros s mu sg nb ax ns N F D O FA RE Harg x sh ks C Fm Fs Sm Ss V B A X SS HK HN Hnb p y.
  destruct (square_errors x mu F O (f_mean x mu C Fm) Sm) as (e & Ee & Se & Ge); [intros ix H; destruct (V ix H) as (V1 & _ & V3); split; [exact V1|exact V3]|].
  apply (diagram s nb (val_of (amap nsq (arr_of sg))) e ax ns N p y); try assumption.
  - unfold variance_of, part. fold x. rewrite Fs. destruct C as [-> | ->]; reflexivity.
  - fold x sh. rewrite <- Ss. apply arr_shape_of.
  - intros ix H. split; [|apply Ge, H]. rewrite reads_val by (cbn [amap shape]; rewrite arr_shape_of, Ss; exact H). cbn [amap get]. change (get (arr_of sg) ix) with (reads sg ix).
    destruct (V ix H) as (_ & -> & _). reflexivity.
Qed.

(** ** Correlation: np.corrcoef of the forecasts and the observations of a group, cell by cell in one order; with
    pyanen_skip_nan the cells where either is missing are left out *)
Theorem c113_correlation : forall s f ax ns, faithful -> reached s ->
  let x := ob s in let sh := arr_shape (a_o x) in let ks := kept (length sh) ns sh in
  forecast_is x f -> arr_shape f = sh -> a_boot x = VNone -> axes_of (a_avg x) = Some ax -> axes_are (length sh) ax ns -> P_special.plain ax -> 0 < prod ks ->
  exists r, answers s MCorr r /\ arr_shape r = ks /\
  forall k L, Forall2 lt k ks -> Cells sh ns k L ->
  exists U, Permutation U (if skip_nan (w_boot S) then filter (fun ix => negb (is_nan (reads f ix)) && negb (is_nan (reads (a_o x) ix)))%bool L else L) /\
    reads r k = w_corrcoef T (map (reads f) U) (map (reads (a_o x)) U).
Proof.
  intros s f ax ns FA RE x sh ks Hf Sf B A X PL Pos.
  assert (So : shape (arr_of (a_o x)) = sh) by apply arr_shape_of. assert (Sf' : shape (arr_of f) = sh) by (rewrite arr_shape_of; exact Sf).
  destruct (corr_with_value S T (arr_of f) (arr_of (a_o x)) ax ns) as (r & Er & Sr & G); rewrite ?So; [exact Sf'|apply plain_of; assumption|exact Pos|]. rewrite So in Sr, G. fold ks in Sr, G.
  exists (val_of r). split; [|split; [exact Sr|]].
  - unfold Props_whole.answers. destruct (reached_result s MCorr FA RE ltac:(constructor)) as [-> _]; [fold x; unfold random_call, random_value; rewrite B; reflexivity|].
    cbn [Spec_result.result]. fold x. rewrite (proj2 (forecast_point x f Hf)). cbn [bind]. unfold with_boot. rewrite B. cbn [is_none].
    change (lib "corr" [f; a_o x; a_avg x]) with (slib "corr" [f; a_o x; a_avg x]). unfold stat_lib. change ("corr" =? "corr")%string with true. cbv iota. rewrite A, Er. reflexivity.
  - intros k L Vk HL. destruct (G k L HL Vk) as (L' & P & E). cbv zeta in E. exists (usable (skip_nan (w_boot S)) (reads f) (reads (a_o x)) L'). split.
    + unfold usable. destruct (skip_nan (w_boot S)); [apply perm_filter, P|exact P].
    + rewrite reads_val by (rewrite Sr; exact Vk). exact E.
Qed.
End Program.
Print Assumptions c113_variance.
Print Assumptions c113_spread_skill_ensemble.
Print Assumptions c113_spread_skill_parametric.
Print Assumptions c113_correlation.

(** ** Concrete programs: two cells *)
(** exact roots of 1, 4, 9, 16; the sign of the covariance (the correlation of two points) *)
Definition root_ex (v : num) : num :=
  match v with Fin q => if qeqb q 1%Qc then Fin 1%Qc else if qeqb q (qz 4) then Fin (qz 2) else if qeqb q (qz 9) then Fin (qz 3) else if qeqb q (qz 16) then Fin (qz 4) else NaN | _ => NaN end.
Definition sign_ex (f o : list num) : num :=
  let c := nmean (map (fun p => nmul (nsub (fst p) (nmean f)) (nsub (snd p) (nmean o))) (combine f o)) in
  if nlt (Fin 0%Qc) c then Fin 1%Qc else if nlt c (Fin 0%Qc) then Fin (qz (-1)) else NaN.
Definition s_stats : stats := {| w_argsort := argsort_ex; w_sqrt := root_ex; w_corrcoef := sign_ex |}.
Notation s_other := (more_lib e_set (prob_lib e_set Props_whole3.g_laws (stat_lib e_set s_stats w_lib))).
Notation s_otherr := (more_libr e_set (fun d i r j => d + i + r + j) (fun d i r j q => d + i + r + j + q) (prob_libr e_set Props_whole3.g_laws w_libr)).
Notation s_answers := (Props_whole.answers e_set s_other s_otherr w_str w_dumps w_loads (fun s => s) w_resolve w_points false None [] (fun n => n)).
Notation s_reached := (Props_whole.reached e_set s_other s_otherr w_str w_dumps w_loads (fun s => s) w_resolve w_points false None [] (fun n => n)).
Definition s_state (x : obj) : st := mkSt x w_used 0 [].
Lemma s_is_reached x : truthy (a_wd x) = false -> s_reached (s_state x).
Proof. intros H. right. split; [left; reflexivity|exact H]. Qed.
Lemma two_bins (p : list nat -> Qc) Bs : Qclt (p [0]) (p [1]) -> ordered_bins (fun i j => (p i <= p j)%Qc) [[0]; [1]] 2 Bs -> Bs = [[[0]]; [[1]]].
Proof.
  intros H (L & P & N & _ & O). destruct Bs as [|A [|B [|]]]; try discriminate L. pose proof (N A (or_introl eq_refl)) as NA. pose proof (N B (or_intror (or_introl eq_refl))) as NB.
  cbn [concat] in P. rewrite app_nil_r in P. pose proof (Permutation_length P) as Ln. rewrite app_length in Ln. cbn in Ln.
  destruct A as [|a [|a' A]]; [contradiction| |destruct B; [contradiction|cbn in Ln; lia]]. destruct B as [|b [|]]; [contradiction| |cbn in Ln; lia]. cbn [app] in P.
  apply Permutation_length_2_inv in P. specialize (O 0 1 a b ltac:(lia) (or_introl eq_refl) (or_introl eq_refl)). destruct P as [P|P]; injection P as <- <-; [reflexivity|].
  exfalso. revert O. apply Qclt_not_le. exact H.
Qed.
(** the Gaussian verifier: means 1 and 3, deviations 1 and 2, observations 2 and 0 *)
Lemma s_gaussian m s o : content m = Props_whole3.nums [1; 3]%Z -> content s = Props_whole3.nums [1; 2]%Z -> content o = Props_whole3.nums [2; 0]%Z ->
  let x := Props_whole3.g_obj CGaussian (Props_whole3.g_dict m s) o VNone VNone false in
  (exists sp rm, s_answers (s_state x) (MSS (VInt 2)) (VTuple [sp; rm]) /\ map (fun i => reads sp [i]) [0; 1] = map Fin [qz 1; qz 2] /\ map (fun i => reads rm [i]) [0; 1] = map Fin [qz 1; qz 3]) /\
  (exists r, s_answers (s_state x) MCorr r /\ reads r [] = Fin (qz (-1))).
Proof.
  intros Hm Hs Ho x. pose proof (s_is_reached x eq_refl) as RE.
  set (F := fun ix : list nat => if Nat.eqb (hd 0 ix) 0 then qz 1 else qz 3). set (D := fun ix : list nat => if Nat.eqb (hd 0 ix) 0 then qz 1 else qz 2). set (O := fun ix : list nat => if Nat.eqb (hd 0 ix) 0 then qz 2 else qz 0).
  assert (V : forall ix, Forall2 lt ix [2] -> reads (VArr [2] m) ix = Fin (F ix) /\ reads (VArr [2] s) ix = Fin (D ix) /\ reads (VArr [2] o) ix = Fin (O ix)).
  { unfold reads. cbn [arr_of]. rewrite Hm, Hs, Ho. apply Props_whole3.two_cells; repeat split. }
  split.
  - destruct (c113_spread_skill_parametric e_set Props_whole3.g_laws s_stats (fun d i r j => d + i + r + j) (fun d i r j q => d + i + r + j + q) w_lib w_libr w_str w_dumps w_loads (fun s => s) w_resolve w_points false None [] (fun n => n)
      (s_state x) (VArr [2] m) (VArr [2] s) 2 None [0] 2 F D O e_faithful RE argsort_ex_ok (or_introl eq_refl) eq_refl eq_refl eq_refl eq_refl V eq_refl eq_refl eq_refl I ltac:(discriminate) eq_refl ltac:(lia)) as (sp & rm & A & _ & _ & G).
    exists sp, rm. split; [exact A|]. destruct (G [] [[0]; [1]] ltac:(constructor) cells_2) as (Bs & OB & Gb). apply two_bins in OB; [|vm_compute; reflexivity]. subst Bs.
    destruct (Gb 0 ltac:(lia)) as [G1 G2], (Gb 1 ltac:(lia)) as [G3 G4]. cbn [app] in G1, G2, G3, G4. cbn [map]. rewrite G1, G2, G3, G4. split; vm_compute; repeat f_equal; apply Qc_is_canon; reflexivity.
  - destruct (c113_correlation e_set Props_whole3.g_laws s_stats (fun d i r j => d + i + r + j) (fun d i r j q => d + i + r + j + q) w_lib w_libr w_str w_dumps w_loads (fun s => s) w_resolve w_points false None [] (fun n => n)
      (s_state x) (VArr [2] m) None [0] e_faithful RE (f_mean x _ (or_introl eq_refl) eq_refl) eq_refl eq_refl eq_refl eq_refl I ltac:(cbn; lia)) as (r & A & _ & G).
    exists r. split; [exact A|]. destruct (G [] [[0]; [1]] ltac:(constructor) cells_2) as (U & P & ->).
    assert (E : U = [[0]; [1]] \/ U = [[1]; [0]]).
    { apply Permutation_sym in P. cbn [skip_nan w_boot e_set ex_env filter] in P. exact (Permutation_length_2_inv P). }
    destruct (V [0] ltac:(repeat constructor)) as (F0 & _ & O0), (V [1] ltac:(repeat constructor)) as (F1 & _ & O1). cbn [ob s_state x Props_whole3.g_obj a_o].
    destruct E as [-> | ->]; cbn [map]; rewrite F0, F1, O0, O1; vm_compute; reflexivity.
Qed.
(** an ensemble: members 1, 3, 1, 3 and 1, 5, 1, 5 (means 2 and 3, variances 1 and 4), observations 1 and 6 *)
Definition s_obj (f o : nat) : obj := mkObj CEnsemble (VArr [2; 4] f) (VArr [2] o) VNone VNone VNone (VBool true)
    VNone VNone (VFun 0) VNone VNone VNone VNone VNone VNone VNone.
Lemma s_constructed f o : exists x1, fst (M_state.construct (whole_lib e_set s_other) (fun s => s) w_resolve (s_obj f o) w_used) = Ok x1 /\ truthy (a_wd x1) = false /\
  cl x1 = CEnsemble /\ a_f x1 = VArr [2; 4] f /\ a_o x1 = VArr [2] o /\ a_eaxis x1 = VInt (-1) /\ a_boot x1 = VNone /\ a_avg x1 = VNone /\
  a_fc x1 = val_of (Arr [2] (fun ix => nmean (Spec.members_at 1 (arr_of (VArr [2; 4] f)) ix))).
Proof. eexists. split; [reflexivity|]. repeat split. Qed.
Lemma s_ensemble f o : content f = Props_whole3.nums [1; 3; 1; 3; 1; 5; 1; 5]%Z -> content o = Props_whole3.nums [1; 6]%Z ->
  exists x1, fst (M_state.construct (whole_lib e_set s_other) (fun s => s) w_resolve (s_obj f o) w_used) = Ok x1 /\
  (exists v, s_answers (s_state x1) MVariance v /\ reads v [0] = Fin (qz 1) /\ reads v [1] = Fin (qz 4)) /\
  (exists sp rm, s_answers (s_state x1) (MSS (VInt 2)) (VTuple [sp; rm]) /\ map (fun i => reads sp [i]) [0; 1] = map Fin [qz 1; qz 2] /\ map (fun i => reads rm [i]) [0; 1] = map Fin [qz 1; qz 3]).
Proof.
  intros Hf Ho. destruct (s_constructed f o) as (x1 & E & Wd & C & Ef & Eo & Ee & Eb & Ea & Ec). exists x1. split; [exact E|]. clear E. pose proof (s_is_reached x1 Wd) as RE.
  assert (Af : arr_of (a_f x1) = of_list NaN [2; 4] (Props_whole3.nums [1; 3; 1; 3; 1; 5; 1; 5]%Z)) by (rewrite Ef; cbn [arr_of]; rewrite Hf; reflexivity).
  assert (Ao : arr_of (a_o x1) = of_list NaN [2] (Props_whole3.nums [1; 6]%Z)) by (rewrite Eo; cbn [arr_of]; rewrite Ho; reflexivity).
  assert (So : arr_shape (a_o x1) = [2]) by (rewrite Eo; reflexivity). assert (Sf : arr_shape (a_f x1) = [2; 4]) by (rewrite Ef; reflexivity).
  assert (Fi : Props_ps.fits (arr_of (a_o x1)) (arr_of (a_f x1)) (int_of (a_eaxis x1)) 1) by (rewrite Af, Ao, Ee; split; [split; [cbn; lia|right; reflexivity]|reflexivity]).
  set (M := fun ix : list nat => if Nat.eqb (hd 0 ix) 0 then [qz 1; qz 3; qz 1; qz 3] else [qz 1; qz 5; qz 1; qz 5]).
  set (F := fun ix : list nat => if Nat.eqb (hd 0 ix) 0 then qz 2 else qz 3). set (O := fun ix : list nat => if Nat.eqb (hd 0 ix) 0 then qz 1 else qz 6).
  assert (Dm : forall ix, Forall2 lt ix [2] -> Spec.members_at 1 (arr_of (a_f x1)) ix = map Fin (M ix)) by (rewrite Af; apply Props_whole3.two_cells; reflexivity).
  assert (Df : forall ix, Forall2 lt ix [2] -> reads (a_fc x1) ix = Fin (F ix)).
  { intros ix V. rewrite Ec, reads_val by exact V. cbn [get]. rewrite <- Ef, (Dm ix V). revert ix V. apply Props_whole3.two_cells; vm_compute; f_equal; apply Qc_is_canon; reflexivity. }
  assert (Do : forall ix, Forall2 lt ix [2] -> reads (a_o x1) ix = Fin (O ix)) by (unfold reads; rewrite Ao; apply Props_whole3.two_cells; reflexivity).
  split.
  - destruct (c113_variance e_set Props_whole3.g_laws s_stats (fun d i r j => d + i + r + j) (fun d i r j q => d + i + r + j + q) w_lib w_libr w_str w_dumps w_loads (fun s => s) w_resolve w_points false None [] (fun n => n) (s_state x1) 1 e_faithful RE C Fi) as (v & A & _ & G).
    exists v. split; [exact A|]. cbn [ob s_state] in G. rewrite So in G.
    destruct (G [0] ltac:(repeat constructor)) as [G0 _], (G [1] ltac:(repeat constructor)) as [G1 _]. rewrite (G0 (M [0]) (Dm [0] ltac:(repeat constructor)) ltac:(discriminate)), (G1 (M [1]) (Dm [1] ltac:(repeat constructor)) ltac:(discriminate)). split; qnum.
  - destruct (c113_spread_skill_ensemble e_set Props_whole3.g_laws s_stats (fun d i r j => d + i + r + j) (fun d i r j q => d + i + r + j + q) w_lib w_libr w_str w_dumps w_loads (fun s => s) w_resolve w_points false None [] (fun n => n)
      (s_state x1) 1 2 None [0] 2 M F O e_faithful RE argsort_ex_ok C Fi ltac:(cbn [ob s_state]; rewrite Sf; cbn; lia) ltac:(cbn [ob s_state]; rewrite Ec, So; reflexivity)
      ltac:(cbn [ob s_state]; rewrite So; intros ix V; exact (conj (Dm ix V) (conj (Df ix V) (Do ix V)))) Eb ltac:(cbn [ob s_state]; rewrite Ea; reflexivity) ltac:(cbn [ob s_state]; rewrite So; reflexivity) I
      ltac:(cbn [ob s_state]; rewrite So; discriminate) ltac:(cbn [ob s_state]; rewrite So; reflexivity) ltac:(lia)) as (sp & rm & A & _ & _ & G). cbn [ob s_state] in G. rewrite So in G.
    exists sp, rm. split; [exact A|]. destruct (G [] [[0]; [1]] ltac:(constructor) cells_2) as (Bs & OB & Gb). apply two_bins in OB; [|vm_compute; reflexivity]. subst Bs.
      destruct (Gb 0 ltac:(lia)) as [G1 G2], (Gb 1 ltac:(lia)) as [G3 G4]. cbn [app] in G1, G2, G3, G4. cbn [map]. rewrite G1, G2, G3, G4. split; vm_compute; repeat f_equal; apply Qc_is_canon; reflexivity.
Qed.
Example c113_nonvacuous :
  (let x := Props_whole3.g_obj CGaussian (Props_whole3.g_dict (store (Props_whole3.nums [1; 3]%Z)) (store (Props_whole3.nums [1; 2]%Z))) (store (Props_whole3.nums [2; 0]%Z)) VNone VNone false in
   (exists sp rm, s_answers (s_state x) (MSS (VInt 2)) (VTuple [sp; rm]) /\ map (fun i => reads sp [i]) [0; 1] = map Fin [qz 1; qz 2] /\ map (fun i => reads rm [i]) [0; 1] = map Fin [qz 1; qz 3]) /\
   (exists r, s_answers (s_state x) MCorr r /\ reads r [] = Fin (qz (-1)))) /\
  exists x1, fst (M_state.construct (whole_lib e_set s_other) (fun s => s) w_resolve (s_obj (store (Props_whole3.nums [1; 3; 1; 3; 1; 5; 1; 5]%Z)) (store (Props_whole3.nums [1; 6]%Z))) w_used) = Ok x1 /\
  (exists v, s_answers (s_state x1) MVariance v /\ reads v [0] = Fin (qz 1) /\ reads v [1] = Fin (qz 4)) /\
  (exists sp rm, s_answers (s_state x1) (MSS (VInt 2)) (VTuple [sp; rm]) /\ map (fun i => reads sp [i]) [0; 1] = map Fin [qz 1; qz 2] /\ map (fun i => reads rm [i]) [0; 1] = map Fin [qz 1; qz 3]).
Proof. split; [exact (s_gaussian _ _ _ (content_store _) (content_store _) (content_store _))|exact (s_ensemble _ _ (content_store _) (content_store _))]. Qed.
