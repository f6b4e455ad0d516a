(** Property C115: bootstrapped metrics of the whole program, also of a verifier that saves its results. *)
From Coq Require Import String ZArith List Lia Bool Arith QArith Qcanon.
From Verif Require Import QcTac QSum Num NdArr Numpy NdAxes M_common M_boot M_determ M_ens
  Spec P_boot P_boot2 P_err P_range Props_avg Store M_state Spec_state P_state P_codec Spec_result P_result Props_state Props_result
  M_whole Spec_whole P_whole Props_whole P_wboot.
Import ListNotations.
Open Scope string_scope.
Open Scope list_scope.
Open Scope nat_scope.
Notation reads := P_whole.reads.

(** the metrics that are averages of one value per cell *)
Definition cellwise (x : obj) (m : meth) : bool :=
  match m with MCrps | MError | MSqErr | MAbErr | MBrier _ _ => true | MSpread => match cl x with CEnsemble => true | _ => false end | _ => false end.
(** the same verifier asked for the values of the cells: avg_axis=(), no bootstrapping, results saved anywhere or nowhere *)
Definition for_cells (x x0 : obj) : Prop := put_wd VNone x0 = put_wd VNone (put_avg (VTuple []) (put_boot VNone x)).
Definition one_sided (ax : option (list Z)) : Prop := match ax with None => True | Some l => Forall (fun z => 0 <= z)%Z l \/ Forall (fun z => z < 0)%Z l end.

Lemma nmean_one x : nmean [x] = x.
Proof. destruct x as [q| | |]; try reflexivity. change [Fin q] with (map Fin [q]). rewrite (nmean_fin [q]) by discriminate. apply (f_equal Fin). unfold Spec.mean_of. cbn. apply Qc_is_canon. cbn. rewrite ?Qred_correct. field. Qed.
Lemma nanmean_one x : nanmean [x] = x.
Proof. destruct x as [q| | |]; try reflexivity. exact (nmean_one (Fin q)). Qed.
Lemma kept_none (l : list nat) : kept (length l) [] l = l.
Proof.
  rewrite kept_unsel by reflexivity. unfold mask_of. generalize 0. induction l as [|a l IH]; intros i; [reflexivity|].
  cbn [length seq map existsb]. specialize (IH (Datatypes.S i)). cbn [existsb] in IH. cbn. apply (f_equal (cons a)). exact IH.
Qed.
Lemma Cells_none sh k : Forall2 lt k sh -> Cells sh [] k [k].
Proof.
  intros V. split; [repeat constructor; intros []|]. intros ix. split.
  - intros [<-|[]]. split; [exact V|]. rewrite <- (valid_length _ _ V). apply kept_none.
  - intros [Vx E]. left. rewrite <- (valid_length _ _ Vx), kept_none in E. symmetry. exact E.
Qed.

Section Program.
Variable S : settings.
Variable other : string -> list M_state.val -> res M_state.val.
Variable otherr : string -> list M_state.val -> nat -> res M_state.val.
Variable str_of : M_state.val -> string.
Variable dumps : M_state.val -> string.
Variable loads : string -> res M_state.val.
Variable expanduser : string -> string.
Variable resolve : string -> path.
Variable points : M_state.val -> M_state.val -> M_state.val -> res (list num).
Variable less_memory : bool.
Variable integrate_wdir : option path.
Variable cwd : path.
Variable rng : nat -> nat.
Notation lib := (whole_lib S other).
Notation libr := (whole_libr S otherr).
Notation step := (M_state.step lib libr str_of dumps loads expanduser resolve points less_memory integrate_wdir cwd rng).
Notation steps := (M_state.steps lib libr str_of dumps loads expanduser resolve points less_memory integrate_wdir cwd rng).
Notation result := (Spec_result.result lib libr points).
Notation faithful := (Props_whole.faithful str_of dumps loads expanduser).
Notation reached := (Props_whole.reached S other otherr str_of dumps loads expanduser resolve points less_memory integrate_wdir cwd rng).
Notation answers := (Props_whole.answers S other otherr str_of dumps loads expanduser resolve points less_memory integrate_wdir cwd rng).

Lemma reached_boot s m : faithful -> reached s -> key_ok m -> settled (ob s) m ->
  fst (step (OMetric m None) s) = result (ob s) m (fun i => rng (pos s + i)).
Proof.
  intros (TX & PK & EX) [(x & k & x1 & k1 & os & n & M & WF & SC & C & F & ->)|[M T]] K R.
  - exact (history_result lib libr str_of dumps loads expanduser resolve points less_memory integrate_wdir cwd rng TX PK x k x1 k1 os m n EX M WF SC C F K R).
  - destruct (c83_saving_off lib libr str_of dumps loads expanduser resolve points less_memory integrate_wdir cwd rng m None s M T K (or_introl eq_refl)) as [-> _]. reflexivity.
Qed.

Lemma result_draw x m d d' : settled x m -> d 0 = d' 0 -> result x m d = result x m d'.
Proof.
  intros [R|R] E; [|destruct m; try contradiction; cbn [Spec_result.result]; rewrite E; reflexivity].
  destruct m; cbn [Spec_result.result random_value] in *; rewrite ?E; try reflexivity.
  - destruct (cl x); try reflexivity; try discriminate; (destruct (is_none (a_members x)); [|discriminate]; rewrite ?E; reflexivity).
  - destruct (cl x); rewrite ?E; try reflexivity; discriminate.
Qed.
(** ** What was saved does not matter: the answer is settled by the verifier and the next random number *)
Theorem c115_saved_or_not : forall s t m, faithful -> reached s -> reached t -> key_ok m -> settled (ob s) m ->
  put_wd VNone (ob s) = put_wd VNone (ob t) -> rng (pos s) = rng (pos t) ->
  fst (step (OMetric m None) s) = fst (step (OMetric m None) t).
Proof.
  intros s t m FA RS RT K R O P. assert (R' : settled (ob t) m) by (change (settled (put_wd VNone (ob t)) m); rewrite <- O; exact R).
  rewrite (reached_boot s m FA RS K R), (reached_boot t m FA RT K R'). rewrite <- (result_wd lib libr points VNone (ob s)), <- (result_wd lib libr points VNone (ob t)), O.
  apply result_draw; [exact R'|]. rewrite !Nat.add_0_r. exact P.
Qed.

(** the value of every cell *)
Definition cells_of (x : obj) (m : meth) : res M_state.val :=
  match m with
  | MCrps => crps_of lib points x
  | MError => error_of lib points x "sub" | MSqErr => error_of lib points x "sub_sq" | MAbErr => error_of lib points x "sub_abs"
  | MBrier over below => brier_of lib x over below
  | _ => lib "spread" [a_f x; a_eaxis x]
  end.
Lemma cellwise_result x m d : cellwise x m = true -> result x m d = averaged_over lib libr x (cells_of x m) (d 0).
Proof. destruct m; cbn [cellwise]; try discriminate; try reflexivity. intros C. cbn [Spec_result.result cells_of]. destruct (cl x); try discriminate. reflexivity. Qed.
Lemma cellwise_value x m : cellwise x m = true -> settled x m.
Proof. intros H; left; revert H; destruct m; cbn [cellwise random_value]; try discriminate; try reflexivity. destruct (cl x); try discriminate. reflexivity. Qed.
Lemma cells_same x x0 m : for_cells x x0 -> cells_of x0 m = cells_of x m.
Proof. intros H. change (cells_of (put_wd VNone x0) m = cells_of x m). rewrite H. destruct m; reflexivity. Qed.
Lemma cellwise_same x x0 m : for_cells x x0 -> cellwise x0 m = cellwise x m.
Proof. intros H. change (cellwise (put_wd VNone x0) m = cellwise x m). rewrite H. destruct m; reflexivity. Qed.
(** averaging over no axis *)
Lemma cells_answer s s0 m w : faithful -> reached s0 -> for_cells (ob s) (ob s0) -> cellwise (ob s) m = true -> key_ok m -> answers s0 m w ->
  exists c, cells_of (ob s) m = Ok c /\ arr_shape c = arr_shape w /\ forall ix, Forall2 lt ix (arr_shape w) -> reads c ix = reads w ix.
Proof.
  intros FA RE FC CW K A. unfold Props_whole.answers in A. assert (C0 : cellwise (ob s0) m = true) by (rewrite (cellwise_same _ _ _ FC); exact CW).
  rewrite (reached_boot s0 m FA RE K (cellwise_value _ _ C0)), (cellwise_result _ _ _ C0), (cells_same _ _ _ FC) in A.
  destruct (cells_of (ob s) m) as [c|e]; [|discriminate]. exists c. split; [reflexivity|]. unfold averaged_over, with_boot in A. cbn [bind] in A.
  assert (B0 : a_boot (ob s0) = VNone) by (change (a_boot (put_wd VNone (ob s0)) = VNone); rewrite FC; reflexivity).
  assert (A0 : a_avg (ob s0) = VTuple []) by (change (a_avg (put_wd VNone (ob s0)) = VTuple []); rewrite FC; reflexivity).
  rewrite B0, A0 in A. cbn [is_none] in A. rewrite (lib_avg S other c (VTuple []) (Some [])) in A by reflexivity.
  assert (X : axes_are (length (shape (arr_of c))) (Some []) []) by (split; constructor).
  destruct (boot_or_avg (w_boot S) (fun _ _ _ => O) (Some []) None (arr_of c)) as [r|] eqn:E; [|discriminate]. injection A as <-.
  destruct (avg_spec _ _ _ _ _ _ E X) as [Sr Gr]. rewrite kept_none in Sr. rewrite arr_shape_of in *. assert (Sv : arr_shape (val_of r) = arr_shape c) by exact Sr. rewrite Sv. split; [reflexivity|]. intros ix V. rewrite reads_val by (rewrite Sr; exact V).
  rewrite (Gr ix [ix] (Cells_none _ _ V)). cbn [map]. destruct (skip_nan (w_boot S)); [rewrite nanmean_one|rewrite nmean_one]; reflexivity.
Qed.
Lemma boot_answer s m c n ax : faithful -> reached s -> cellwise (ob s) m = true -> key_ok m -> cells_of (ob s) m = Ok c ->
  a_boot (ob s) = VInt (Z.of_nat n) -> axes_of (a_avg (ob s)) = Some ax ->
  fst (step (OMetric m None) s) = rmap val_of (boot_or_avg (w_boot S) (w_gen_boot S (rng (pos s))) ax (Some n) (arr_of c)).
Proof.
  intros FA RE CW K Ec B A. rewrite (reached_boot s m FA RE K (cellwise_value _ _ CW)), (cellwise_result _ _ _ CW), Ec. unfold averaged_over, with_boot. cbn [bind]. rewrite B. cbn [is_none app].
  unfold whole_libr. rewrite A. cbn [count_of]. destruct (Z.leb_spec 0 (Z.of_nat n)); [|lia]. rewrite Nat2Z.id, Nat.add_0_r. reflexivity.
Qed.
Lemma get_reads c w L : (forall ix, Forall2 lt ix (arr_shape w) -> reads c ix = reads w ix) -> (forall ix, In ix L -> Forall2 lt ix (arr_shape w)) -> map (get (arr_of c)) L = map (reads w) L.
Proof. intros H V. apply map_ext_in. intros ix I. apply H, V, I. Qed.

(** ** Lower bound, mean and upper bound: quantiles and mean of the means of resamples of the cells *)
Theorem c115_resamples : forall s s0 m w n ax ns, faithful -> reached s -> reached s0 -> for_cells (ob s) (ob s0) ->
  cellwise (ob s) m = true -> key_ok m -> answers s0 m w ->
  let sh := arr_shape w in let e := w_boot S in
  a_boot (ob s) = VInt (Z.of_nat n) -> axes_of (a_avg (ob s)) = Some ax -> axes_are (length sh) ax ns -> one_sided ax ->
  (forall d, In d sh -> 0 < d) -> (0 <= confidence e)%Qc -> (confidence e <= 1)%Qc -> 0 < repeats e ->
  exists v, answers s m v /\ arr_shape v = 3 :: kept (length sh) ns sh /\
  forall k L, Forall2 lt k (kept (length sh) ns sh) -> Cells sh ns k L ->
    exists rs stats, resamples_of (map (reads w) L) n (repeats e) rs /\
      stats = map (fun l => if skip_nan e then nanmean l else nmean l) rs /\
      triple_of np_quantile ((1 - confidence e) / qz 2)%Qc (1 - (1 - confidence e) / qz 2)%Qc stats [reads v (0 :: k); reads v (1 :: k); reads v (2 :: k)].
Proof.
  intros s s0 m w n ax ns FA RE RE0 FC CW K A sh e B Av X Sg Pos C0 C1 Rp.
  destruct (cells_answer s s0 m w FA RE0 FC CW K A) as (c & Ec & Sc & Gc).
  assert (Sc' : shape (arr_of c) = sh) by (rewrite arr_shape_of; exact Sc).
  destruct (boot_accepts e (w_gen_boot S (rng (pos s))) (arr_of c) ax ns n) as (r & Er); rewrite ?Sc'; try assumption.
  assert (HK : prod (kept (length sh) ns sh) <> 0).
  { apply Nat.neq_0_lt_0, P_range.prod_pos. intros d I. unfold kept in I. apply in_map_iff in I as (j & <- & J). apply Pos, nth_In. apply filter_In in J as [J _]. apply in_seq in J. lia. }
  destruct (c14_bootstrap_groups_partial e (w_gen_boot S (rng (pos s))) (arr_of c) r ax ns n) as [Sr G]; rewrite ?Sc' in *; try assumption.
  exists (val_of r). split; [|split; [exact Sr|]].
  - unfold Props_whole.answers. rewrite (boot_answer s m c n ax FA RE CW K Ec B Av). fold e. rewrite Er. reflexivity.
  - intros k L Vk HC. destruct (G k L Vk HC) as (rs & stats & H1 & H2 & H3). exists rs, stats.
    rewrite (get_reads c w L Gc) in H1 by (intros ix I; apply (proj2 HC), I). split; [exact H1|]. split; [exact H2|].
    assert (R3 : forall i, i < 3 -> reads (val_of r) (i :: k) = get r (i :: k)) by (intros i Hi; apply reads_val; rewrite Sr; constructor; assumption).
    rewrite !R3 by lia. exact H3.
Qed.
(** ** They lie between the least and the largest cell; cells with one value give this value *)
Theorem c115_within : forall s s0 m w n ax ns k L lo hi, faithful -> reached s -> reached s0 -> for_cells (ob s) (ob s0) ->
  cellwise (ob s) m = true -> key_ok m -> answers s0 m w ->
  let sh := arr_shape w in let e := w_boot S in
  a_boot (ob s) = VInt (Z.of_nat n) -> 0 < n -> axes_of (a_avg (ob s)) = Some ax -> axes_are (length sh) ax ns -> one_sided ax ->
  (forall d, In d sh -> 0 < d) -> (0 <= confidence e)%Qc -> (confidence e <= 1)%Qc -> 0 < repeats e ->
  Forall2 lt k (kept (length sh) ns sh) -> Cells sh ns k L -> (forall ix, In ix L -> exists q, reads w ix = Fin q /\ (lo <= q)%Qc /\ (q <= hi)%Qc) ->
  exists v a b c, answers s m v /\ reads v (0 :: k) = Fin a /\ reads v (1 :: k) = Fin b /\ reads v (2 :: k) = Fin c /\
    (lo <= a)%Qc /\ (a <= c)%Qc /\ (c <= hi)%Qc /\ (lo <= b)%Qc /\ (b <= hi)%Qc /\ (lo = hi -> a = lo /\ b = lo /\ c = lo).
Proof.
  intros s s0 m w n ax ns k L lo hi FA RE RE0 FC CW K A sh e B Pn Av X Sg Pos C0 C1 Rp Vk HC Bd.
  destruct (cells_answer s s0 m w FA RE0 FC CW K A) as (c & Ec & Sc & Gc).
  assert (Sc' : shape (arr_of c) = sh) by (rewrite arr_shape_of; exact Sc).
  destruct (c15_bootstrap_within_data_partial e (w_gen_boot S (rng (pos s))) ax (arr_of c) ns n k L lo hi) as (r & x & y & z & Er & G0 & G1 & G2 & H); rewrite ?Sc' in *; try assumption.
  { intros ix I. change (get (arr_of c) ix) with (reads c ix). rewrite (Gc ix) by (apply (proj2 HC), I). destruct (Bd ix I) as (q & -> & Q). split; [eexists; reflexivity|exact Q]. }
  assert (Sr : shape r = 3 :: kept (length sh) ns sh).
  { destruct (c14_bootstrap_groups_partial e (w_gen_boot S (rng (pos s))) (arr_of c) r ax ns n) as [Z _]; rewrite ?Sc' in *; try assumption. pose proof (valid_prod_pos _ _ Vk). lia. }
  exists (val_of r), x, y, z. split; [unfold Props_whole.answers; rewrite (boot_answer s m c n ax FA RE CW K Ec B Av); fold e; rewrite Er; reflexivity|].
  assert (R3 : forall i, i < 3 -> reads (val_of r) (i :: k) = get r (i :: k)) by (intros i Hi; apply reads_val; rewrite Sr; constructor; assumption).
  rewrite !R3 by lia. exact (conj G0 (conj G1 (conj G2 H))).
Qed.
(** ** A metric that fails for the cells fails in the same way with bootstrapping *)
Theorem c115_exception : forall s s0 m ex, faithful -> reached s -> reached s0 -> for_cells (ob s) (ob s0) -> cellwise (ob s) m = true -> key_ok m ->
  fst (step (OMetric m None) s0) = Raise ex -> fst (step (OMetric m None) s) = Raise ex.
Proof.
  intros s s0 m ex FA RE RE0 FC CW K A. assert (C0 : cellwise (ob s0) m = true) by (rewrite (cellwise_same _ _ _ FC); exact CW).
  rewrite (reached_boot s0 m FA RE0 K (cellwise_value _ _ C0)), (cellwise_result _ _ _ C0), (cells_same _ _ _ FC) in A.
  rewrite (reached_boot s m FA RE K (cellwise_value _ _ CW)), (cellwise_result _ _ _ CW).
  assert (B0 : a_boot (ob s0) = VNone) by (change (a_boot (put_wd VNone (ob s0)) = VNone); rewrite FC; reflexivity).
  assert (A0 : a_avg (ob s0) = VTuple []) by (change (a_avg (put_wd VNone (ob s0)) = VTuple []); rewrite FC; reflexivity).
  destruct (cells_of (ob s) m) as [c|e]; [|exact A]. exfalso. unfold averaged_over, with_boot in A. cbn [bind] in A. rewrite B0, A0 in A. cbn [is_none] in A. rewrite (lib_avg S other c (VTuple []) (Some [])) in A by reflexivity.
  destruct (proj2 (avg_accepts (w_boot S) (fun _ _ _ => O) (Some []) (arr_of c))) as [r E]; [exists []; split; constructor|]. rewrite E in A. discriminate.
Qed.
End Program.
Print Assumptions c115_saved_or_not.
Print Assumptions c115_resamples.
Print Assumptions c115_within.
Print Assumptions c115_exception.

(** A verifier with errors 2 and 3 that saves into a used directory, asked a second time for the bootstrapped error. *)
Definition h_obj (f o : nat) : obj := mkObj CDeterm (VArr [2] f) (VArr [2] o) VNone (VInt 2) (VStr "w") (VBool true)
    VNone VNone VNone VNone VNone VNone VNone VNone VNone VNone.
Notation h_reached := (Props_whole.reached e_set w_lib w_libr w_str w_dumps w_loads (fun s => s) w_resolve w_points false None [] (fun n => n)).
Lemma h_constructed f o : exists x1 k1, M_state.construct e_lib (fun s => s) w_resolve (h_obj f o) w_used = (Ok x1, k1) /\ put_wd VNone x1 = put_wd VNone (h_obj f o) /\ truthy (a_wd x1) = true.
Proof. do 2 eexists. split; [reflexivity|]. split; reflexivity. Qed.
Lemma h_case f o : content f = map nnat [3; 5] -> content o = map nnat [1; 2] ->
  exists x1 k1, M_state.construct e_lib (fun s => s) w_resolve (h_obj f o) w_used = (Ok x1, k1) /\ truthy (a_wd x1) = true /\
  let s := snd (e_steps [OMetric MError None] (mkSt x1 k1 0 [])) in let s0 := mkSt (put_avg (VTuple []) (put_boot VNone (put_wd VNone x1))) k1 0 [] in
  h_reached s /\ h_reached s0 /\ for_cells (ob s) (ob s0) /\
  exists w v a b c, e_answers s0 MError w /\ arr_shape w = [2] /\ reads w [0] = Fin (qn 2) /\ reads w [1] = Fin (qn 3) /\ e_answers s MError v /\
    reads v [0] = Fin a /\ reads v [1] = Fin b /\ reads v [2] = Fin c /\
    (qn 2 <= a)%Qc /\ (a <= c)%Qc /\ (c <= qn 3)%Qc /\ (qn 2 <= b)%Qc /\ (b <= qn 3)%Qc.
Proof.
  intros Hf Ho. destruct (h_constructed f o) as (x1 & k1 & E & Ox & Tx). exists x1, k1. split; [exact E|]. split; [exact Tx|]. intros s s0.
  assert (F : Forall calm [OMetric MError None]) by repeat constructor.
  assert (RE : h_reached s) by (left; exists (h_obj f o), w_used, x1, k1, [OMetric MError None], 0; exact (conj (or_introl eq_refl) (conj w_used_wf (conj eq_refl (conj E (conj F eq_refl)))))).
  assert (RE0 : h_reached s0) by (right; split; [left; reflexivity|reflexivity]).
  assert (OS : put_wd VNone (ob s) = put_wd VNone (h_obj f o)).
  { rewrite <- Ox. destruct (construct_inv e_lib e_libr w_str w_dumps (fun s => s) w_resolve w_points false (h_obj f o) w_used x1 k1 w_used ltac:(reflexivity) ltac:(left; reflexivity) w_used_wf eq_refl E) as [IN _].
    destruct (calm_steps e_lib e_libr w_str w_dumps w_loads (fun s => s) w_resolve w_points false None [] (fun n => n) w_text w_pickle [OMetric MError None]
      (mkSt x1 k1 0 []) (mkSt (put_wd VNone x1) w_used 0 []) F IN eq_refl) as [_ O1]. fold s in O1. rewrite <- O1. set (t := mkSt (put_wd VNone x1) w_used 0 []).
    assert (Q : ob (snd (e_step (OMetric MError None) t)) = ob t) by (apply (c83_saving_off e_lib e_libr w_str w_dumps w_loads (fun s => s) w_resolve w_points false None [] (fun n => n) MError None t (or_introl eq_refl) eq_refl ltac:(constructor) (or_introl eq_refl))).
    cbn [M_state.steps]. destruct (e_step (OMetric MError None) t) as [r t1] eqn:Et. cbn [snd] in Q |- *. exact Q. }
  assert (FC : for_cells (ob s) (ob s0)).
  { unfold for_cells. change (put_wd VNone (put_avg (VTuple []) (put_boot VNone (ob s)))) with (put_avg (VTuple []) (put_boot VNone (put_wd VNone (ob s)))). rewrite OS, <- Ox. reflexivity. }
  split; [exact RE|]. split; [exact RE0|]. split; [exact FC|].
  assert (V0 : put_wd VNone (ob s0) = put_avg (VTuple []) (put_boot VNone (put_wd VNone (h_obj f o)))) by (rewrite <- Ox; reflexivity).
  assert (P : forall g : obj -> M_state.val, g (put_wd VNone (ob s0)) = g (put_avg (VTuple []) (put_boot VNone (put_wd VNone (h_obj f o))))) by (intros g; rewrite V0; reflexivity).
  assert (C0 : cl (ob s0) = CDeterm) by (change (cl (put_wd VNone (ob s0)) = CDeterm); rewrite V0; reflexivity).
  pose proof (P a_f) as Pf. pose proof (P a_o) as Po. cbn [put_wd put_avg put_boot a_f a_o h_obj] in Pf, Po.
  assert (Af : arr_of (a_f (ob s0)) = of_list NaN [2] (map nnat [3; 5])) by (etransitivity; [exact (f_equal arr_of Pf)|cbn [arr_of]; rewrite Hf; reflexivity]).
  assert (Ao : arr_of (a_o (ob s0)) = of_list NaN [2] (map nnat [1; 2])) by (etransitivity; [exact (f_equal arr_of Po)|cbn [arr_of]; rewrite Ho; reflexivity]).
  assert (Sf : arr_shape (a_f (ob s0)) = [2]) by (rewrite <- arr_shape_of, Af; reflexivity). assert (So : arr_shape (a_o (ob s0)) = [2]) by (rewrite <- arr_shape_of, Ao; reflexivity).
  assert (VX : forall i, i < 2 -> Forall2 lt [i] [2]) by (intros i H; constructor; [exact H|constructor]).
  assert (W : forall i, i < 2 -> exists w, e_answers s0 MError w /\ arr_shape w = [2] /\ reads w [i] = Fin (qn (nth i [2; 3] 0))).
  { intros i Hi. destruct (c85_errors e_set w_lib w_libr w_str w_dumps w_loads (fun s => s) w_resolve w_points false None [] (fun n => n) s0 (Some []) [] [i] [[i]]
      (fun ix => qn (nth (hd 0 ix) [3; 5] 0)) (fun ix => qn (nth (hd 0 ix) [1; 2] 0)) e_faithful RE0 (or_introl C0)) as (w & _ & _ & A & _ & _ & Sw & _ & _ & R & _).
    - reflexivity.
    - reflexivity.
    - unfold point. rewrite C0, Sf, So. reflexivity.
    - split; constructor.
    - rewrite So. apply Cells_none, VX, Hi.
    - discriminate.
    - unfold point, reads. rewrite C0, Af, Ao. intros ix [<-|[]]. destruct i as [|[|i]]; [split; reflexivity|split; reflexivity|lia].
    - exists w. split; [exact A|]. split; [rewrite Sw, So; reflexivity|]. rewrite R. destruct i as [|[|i]]; [| |lia]; apply (f_equal Fin); apply Qc_is_canon; vm_compute; reflexivity. }
  destruct (W 0 ltac:(lia)) as (w & A & Sw & R0). destruct (W 1 ltac:(lia)) as (w' & A' & _ & R1). unfold Props_whole.answers in A, A'. assert (w' = w) by (rewrite A in A'; injection A'; auto). subst w'.
  assert (Ps : forall g : obj -> M_state.val, g (put_wd VNone (ob s)) = g (put_wd VNone (h_obj f o))) by (intros g; rewrite OS; reflexivity).
  destruct (c115_within e_set w_lib w_libr w_str w_dumps w_loads (fun s => s) w_resolve w_points false None [] (fun n => n) s s0 MError w 2 None [0] [] [[0]; [1]] (qn 2) (qn 3) e_faithful RE RE0 FC eq_refl ltac:(constructor) A) as (v & a & b & c & Av & H).
  - exact (Ps a_boot).
  - lia.
  - rewrite (Ps a_avg : a_avg (ob s) = VNone). reflexivity.
  - rewrite Sw. reflexivity.
  - exact I.
  - rewrite Sw. intros d [<-|[]]. lia.
  - vm_compute. discriminate.
  - vm_compute. discriminate.
  - cbn. lia.
  - rewrite Sw. constructor.
  - rewrite Sw. exact cells_2.
  - intros ix [<-|[<-|[]]]; [exists (qn 2)|exists (qn 3)]; (split; [assumption|split; vm_compute; discriminate]).
  - exists w, v, a, b, c. destruct H as (G0 & G1 & G2 & B1 & B2 & B3 & B4 & B5 & _). exact (conj A (conj Sw (conj R0 (conj R1 (conj Av (conj G0 (conj G1 (conj G2 (conj B1 (conj B2 (conj B3 (conj B4 B5)))))))))))).
Qed.
Example c115_nonvacuous : exists x1 k1, M_state.construct e_lib (fun s => s) w_resolve (h_obj (store (map nnat [3; 5])) (store (map nnat [1; 2]))) w_used = (Ok x1, k1) /\ truthy (a_wd x1) = true /\
  let s := snd (e_steps [OMetric MError None] (mkSt x1 k1 0 [])) in let s0 := mkSt (put_avg (VTuple []) (put_boot VNone (put_wd VNone x1))) k1 0 [] in
  h_reached s /\ h_reached s0 /\ for_cells (ob s) (ob s0) /\
  exists w v a b c, e_answers s0 MError w /\ arr_shape w = [2] /\ reads w [0] = Fin (qn 2) /\ reads w [1] = Fin (qn 3) /\ e_answers s MError v /\
    reads v [0] = Fin a /\ reads v [1] = Fin b /\ reads v [2] = Fin c /\
    (qn 2 <= a)%Qc /\ (a <= c)%Qc /\ (c <= qn 3)%Qc /\ (qn 2 <= b)%Qc /\ (b <= qn 3)%Qc.
Proof. apply h_case; apply content_store. Qed.
