(** Properties C01-C10: verifier objects, saved results, setters. *)
From Coq Require Import String Ascii QArith Qcanon ZArith Lia List Bool.
From Verif Require Import Num M_state Spec_state P_state P_state2 P_codec.
Import ListNotations.
Open Scope string_scope.
Open Scope list_scope.
Open Scope nat_scope.

(** ** Example oracles and objects *)

(** The free library: a leaf function returns its name and its arguments, so
    that two results are equal only if they come from the same calls. *)
Definition w_lib (n : string) (args : list val) : res val := Ok (VTuple (VStr n :: args)).
Definition w_libr (n : string) (args : list val) (d : nat) : res val :=
  Ok (VTuple (VStr n :: VInt (Z.of_nat d) :: args)).
Definition w_resolve (s : string) : path := [s].
Definition w_points (o r b : val) : res (list num) := Ok [NInf; PInf].
Definition w_root : disk := mkDisk (fun _ => None) (fun p => match p with [] => true | _ => false end).
(** a directory "w" with the file "old.txt", and a file "other.txt" beside it *)
Definition w_used : disk :=
  mkDisk (fun p => if path_eqb p ["w"; "old.txt"] then Some "a"
                   else if path_eqb p ["other.txt"] then Some "b" else None)
         (fun p => match p with [] => true | [d] => String.eqb d "w" | _ => false end).

Notation w_construct := (construct w_lib (fun s => s) w_resolve).
Notation w_step_m mem := (step w_lib w_libr w_str w_dumps w_loads (fun s => s) w_resolve w_points mem None [] (fun n => n)).
Notation w_steps_m mem := (steps w_lib w_libr w_str w_dumps w_loads (fun s => s) w_resolve w_points mem None [] (fun n => n)).
Notation w_step := (w_step_m false).
Notation w_steps := (w_steps_m false).
Notation w_runs := (crashed_runs w_lib w_libr w_str w_dumps w_loads (fun s => s) w_resolve w_points false None [] (fun n => n)).

Definition start (x : obj) (k : disk) : st := mkSt x k 0 [].
(** VerifyDeterm(f, o, working_directory="w") with f, o of shape (2, 3) *)
Definition w_det (scratch : bool) : obj :=
  mkObj CDeterm (VArr [2; 3] 0) (VArr [2; 3] 1) VNone VNone (VStr "w") (VBool scratch)
    VNone VNone VNone VNone VNone VNone VNone VNone VNone VNone.
(** VerifyEnsemble(f, o, ensemble_axis=None, working_directory="w"), f of shape (2, 3, 4) *)
Definition w_ens (scratch : bool) : obj :=
  mkObj CEnsemble (VArr [2; 3; 4] 0) (VArr [2; 3] 1) VNone VNone (VStr "w") (VBool scratch)
    VNone VNone (VFun 0) VNone VNone VNone VNone VNone VNone VNone.
Definition w_gauss (scratch : bool) : obj :=
  mkObj CGaussian (VDict [("mu", VArr [2; 3] 0); ("sigma", VArr [2; 3] 2)]) (VArr [2; 3] 1)
    VNone VNone (VStr "w") (VBool scratch)
    VNone VNone VNone (VBool false) (VInt 10) VNone (VInt (-1)) (VBool true) VNone VNone.
Definition w_hurdle : obj :=
  mkObj CHurdle (VDict [("pop", VArr [2; 3] 0); ("mu", VArr [2; 3] 2); ("sigma", VArr [2; 3] 3)]) (VArr [2; 3] 1)
    VNone VNone VNone (VBool true)
    VNone VNone VNone (VBool false) VNone VNone (VInt (-1)) (VBool true) (VInt 20) VNone.
(** the object a constructor returned *)
Definition made (r : res obj * disk) : st :=
  match r with (Ok x, k) => start x k | (_, k) => start (w_det true) k end.

Lemma w_root_wf : disk_wf w_root.
Proof.
  split; [|reflexivity]. intros d c r H. destruct d; [reflexivity|]. discriminate.
Qed.
Lemma w_used_wf : disk_wf w_used.
Proof.
  split.
  - intros d c r. unfold exists_at, w_used. simpl.
    destruct d as [|a [|b d]]; simpl; auto.
    + destruct (String.eqb a "w") eqn:E; simpl; [auto|].
      destruct (String.eqb a "other.txt"); simpl; discriminate.
    + destruct (String.eqb a "w") eqn:E; simpl.
      * destruct (String.eqb b "old.txt"); simpl; [destruct d|]; simpl;
          destruct (String.eqb a "other.txt"); simpl; discriminate.
      * destruct (String.eqb a "other.txt"); simpl; discriminate.
  - intros [|a [|b d]]; simpl; try discriminate; [reflexivity|].
    intro E. rewrite E. simpl. apply String.eqb_eq in E. subst. reflexivity.
Qed.

(** more than five elements, as [len] and [ravel] see them *)
Definition too_long (v : val) : Prop :=
  match v with
  | VStr s => 5 < String.length s
  | VTuple l | VList l => 5 < length l
  | VDict l => 5 < length l
  | VArr sh _ => 5 < fold_right Nat.mul 1 sh \/ 5 < hd 0 sh
  | _ => False
  end.
Definition zero_dim (v : val) : Prop := match v with VArr [] _ => True | _ => False end.
(** blanks replaced by underscores, everything else kept *)
Definition unblank (s t : string) : Prop :=
  forall i, String.get i t = option_map (fun c => if Ascii.eqb c " " then "_"%char else c) (String.get i s).
Lemma short_spec v : ~ zero_dim v ->
  (too_long v /\ short_enough v = Ok false) \/ (~ too_long v /\ short_enough v = Ok true).
Proof.
  assert (LEB : forall a, (5 < a /\ Ok (Nat.leb a 5) = Ok false) \/ (~ 5 < a /\ Ok (Nat.leb a 5) = Ok true)).
  { intro a. destruct (Nat.leb_spec a 5); [right|left]; split; auto; lia. }
  destruct v; intro Z; simpl; try (right; split; [tauto|reflexivity]); try apply LEB.
  destruct sh as [|a sh]; [contradiction Z; exact I|].
  change (fold_right Nat.mul 1 (a :: sh)) with (a * fold_right Nat.mul 1 sh).
  destruct (Nat.ltb_spec 5 (a * fold_right Nat.mul 1 sh)); [left; auto|].
  simpl hd. destruct (LEB a) as [[L E]|[L E]]; [left|right]; (split; [|exact E]); [right; exact L|].
  intros [X|X]; lia.
Qed.

(** C06 *)
Definition outside_kept (d : path) (k k1 : disk) : Prop :=
  (forall p, under d p = false -> file k1 p = file k p /\ (isdir k p = true -> isdir k1 p = true)) /\
  (forall p, isdir k1 p = true -> isdir k p = true \/ under p d = true).
Definition emptied (d : path) (k1 : disk) : Prop :=
  forall p, under d p = true -> file k1 p = None /\ (isdir k1 p = true <-> p = d).
Definition nothing_lost (k k1 : disk) : Prop :=
  forall p, file k1 p = file k p /\ (isdir k p = true -> isdir k1 p = true).

Lemma under_antisym p q : under p q = true -> under q p = true -> p = q.
Proof.
  intros A B. apply under_spec in A as [r ->]. apply under_spec in B as [r' E].
  rewrite <- app_assoc in E. assert (L := f_equal (@length string) E). rewrite !app_length in L.
  destruct r; [symmetry; apply app_nil_r|]. simpl in L. lia.
Qed.

Section Oracles.
Variable lib : string -> list val -> res val.
Variable libr : string -> list val -> nat -> res val.
Variable str_of : val -> string.
Variable dumps : val -> string.
Variable loads : string -> res val.
Variable expanduser : string -> string.
Variable resolve : string -> path.
Variable points : val -> val -> val -> res (list num).
Variable less_memory : bool.
Variable integrate_wdir : option path.
Variable cwd : path.
Variable rng : nat -> nat.

Notation default_name := (default_name str_of).
Notation to_name := (to_name str_of).
Notation step := (step lib libr str_of dumps loads expanduser resolve points less_memory integrate_wdir cwd rng).
Notation steps := (steps lib libr str_of dumps loads expanduser resolve points less_memory integrate_wdir cwd rng).
Notation construct := (construct lib expanduser resolve).
Notation crashed_runs := (crashed_runs lib libr str_of dumps loads expanduser resolve points less_memory integrate_wdir cwd rng).

(** ** C01 *)
(** A verifier made with start_from_scratch=True and any working directory on any disk, after any
    history of metric calls and setters, answers every deterministic metric call like a verifier
    with the same arguments and history but saving disabled (on any other disk and random state),
    and has the same settings.  Missing from the full statement: save names chosen by the caller, array
    thresholds (their printed text is not faithful), setters given a value of a wrong type, enable_saving
    within the history, and the scratch file of the hurdle class; see the refutations below. *)
Theorem c01_saving_transparent_partial : forall x k x1 k1 os o n kt nt,
  text_faithful str_of -> pickle_faithful dumps loads ->
  (forall s, expanduser (expanduser s) = expanduser s) ->
  mem_off less_memory x -> disk_wf k -> a_scratch x = VBool true ->
  construct x k = (Ok x1, k1) -> Forall calm os -> calm o ->
  let s := snd (steps os (mkSt x1 k1 n [])) in
  let t := snd (steps os (mkSt (put_wd VNone x1) kt nt [])) in
  construct (put_wd VNone x) kt = (Ok (put_wd VNone x1), kt) /\
  ob t = put_wd VNone (ob s) /\
  (no_draw (ob s) o -> fst (step o s) = fst (step o t)).
Proof.
  intros x k x1 k1 os o n kt nt TX PK EX M WF S H F CO s t.
  destruct (construct_inv lib libr str_of dumps expanduser resolve points less_memory x k x1 k1 kt EX M WF S H) as [IN CT].
  split; [exact CT|].
  destruct (calm_steps lib libr str_of dumps loads expanduser resolve points less_memory integrate_wdir cwd rng TX PK os
    (mkSt x1 k1 n []) (mkSt (put_wd VNone x1) kt nt []) F IN eq_refl) as [I1 O1].
  split; [exact O1|]. intro ND.
  apply (calm_step lib libr str_of dumps loads expanduser resolve points less_memory integrate_wdir cwd rng TX PK o s t CO I1 O1), ND.
Qed.

(** ** C02 *)
(** With start_from_scratch=False, starting from an empty or missing directory, any history of metric calls
    and of changes of boot_samples: every deterministic call returns what it returns with saving off, so it reflects
    the current boot_samples.  Missing: the other settings, for which the statement is false (below). *)
Theorem c02_boot_samples_partial : forall x k x1 k1 os o n kt nt,
  text_faithful str_of -> pickle_faithful dumps loads ->
  (forall s, expanduser (expanduser s) = expanduser s) ->
  mem_off less_memory x -> disk_wf k -> a_scratch x = VBool false ->
  (forall s, a_wd x = VStr s -> empty_dir (resolve (expanduser s)) k) ->
  construct x k = (Ok x1, k1) -> Forall boot_op os -> boot_op o ->
  let s := snd (steps os (mkSt x1 k1 n [])) in
  let t := snd (steps os (mkSt (put_wd VNone x1) kt nt [])) in
  ob t = put_wd VNone (ob s) /\
  (no_draw (ob s) o -> fst (step o s) = fst (step o t)).
Proof.
  intros x k x1 k1 os o n kt nt TX PK EX M WF S EM H F CO s t.
  pose proof (reuse_inv lib libr str_of dumps expanduser resolve points less_memory x k x1 k1 EX M WF S EM H) as IN.
  destruct (boot_steps lib libr str_of dumps loads expanduser resolve points less_memory integrate_wdir cwd rng TX PK os
    (mkSt x1 k1 n []) (mkSt (put_wd VNone x1) kt nt []) F IN eq_refl) as [I1 O1].
  split; [exact O1|]. intro ND.
  apply (boot_step lib libr str_of dumps loads expanduser resolve points less_memory integrate_wdir cwd rng TX PK o s t CO I1 O1), ND.
Qed.

(** ** C03 *)
(** Two metric calls with default save names whose arguments are printed with the characters of numbers,
    None, bools and tuples of them use the same file only if they are the same metric and all their arguments are
    printed alike (up to blanks). *)
Theorem c03_names_identify : forall m m' n,
  Forall (fun p => number_text (str_of (snd p))) (kwargs m) ->
  Forall (fun p => number_text (str_of (snd p))) (kwargs m') ->
  default_name m = Ok (Some n) -> default_name m' = Ok (Some n) ->
  metric_of m = metric_of m' /\
  map (fun p => us (str_of (snd p))) (kwargs m) = map (fun p => us (str_of (snd p))) (kwargs m').
Proof. intros. eapply names_distinct; eassumption. Qed.
(** with faithful printing of numbers: the same call *)
Theorem c03_names_injective : forall m m' n, text_faithful str_of ->
  Forall (fun p => good (snd p)) (kwargs m) -> Forall (fun p => good (snd p)) (kwargs m') ->
  default_name m = Ok (Some n) -> default_name m' = Ok (Some n) -> m = m'.
Proof.
  intros m m' n TX G G' H H'. apply (name_inj lib libr str_of loads expanduser resolve TX m m' n); auto.
  - destruct m; simpl; try exact I; try (eapply Forall_impl; [|exact G]; auto).
    simpl in G. inversion G as [|? ? A B]; inversion B; subst; auto.
  - destruct m'; simpl; try exact I; try (eapply Forall_impl; [|exact G']; auto).
    simpl in G'. inversion G' as [|? ? A B]; inversion B; subst; auto.
Qed.

(** ** C04 *)
(** save_name, then _key_value for every argument in order *)
Fixpoint argument_text (kw : list (string * val)) : string :=
  match kw with
  | [] => ""
  | (k, v) :: r => ("_" ++ k ++ "_" ++ us (str_of v) ++ argument_text r)%string
  end.

Theorem c04_not_a_string : forall v kw, is_str v = false -> to_name v kw = Ok None.
Proof. intros v kw H. destruct v; try reflexivity. discriminate. Qed.
Theorem c04_blanks : forall s, unblank s (us s).
Proof. intros s i. apply us_get. Qed.
Theorem c04_literal : forall s r kw, us s = ("LITERAL_" ++ r)%string -> to_name (VStr s) kw = Ok (Some r).
Proof.
  intros s r kw H. unfold M_state.to_name. rewrite H, prefix_app.
  change 8 with (String.length "LITERAL_"). rewrite drop_app. reflexivity.
Qed.
Theorem c04_too_long : forall s kw, (forall r, us s <> ("LITERAL_" ++ r)%string) ->
  Forall (fun p => ~ zero_dim (snd p)) kw -> Exists (fun p => too_long (snd p)) kw ->
  to_name (VStr s) kw = Ok None.
Proof.
  intros s kw NL Z E. unfold M_state.to_name.
  destruct (String.prefix "LITERAL_" (us s)) eqn:P.
  { apply prefix_split in P as [r P]. exfalso. exact (NL r P). }
  rewrite render_long; [reflexivity| |].
  - eapply Forall_impl; [|exact Z]. intros p N. destruct (short_spec _ N) as [[_ H]|[_ H]]; auto.
  - clear -E Z. induction E as [p l T|p l E IH]; inversion Z; subst.
    + left. destruct (short_spec (snd p)) as [[_ S]|[N _]]; auto. contradiction.
    + right. auto.
Qed.
Theorem c04_name : forall s kw, (forall r, us s <> ("LITERAL_" ++ r)%string) ->
  Forall (fun p => ~ zero_dim (snd p) /\ ~ too_long (snd p)) kw ->
  to_name (VStr s) kw = Ok (Some (us s ++ argument_text kw)%string).
Proof.
  intros s kw NL Z. unfold M_state.to_name.
  destruct (String.prefix "LITERAL_" (us s)) eqn:P.
  { apply prefix_split in P as [r P]. exfalso. exact (NL r P). }
  rewrite render_short.
  - cbn [bind option_map]. rewrite (join_args str_of (us s) kw). reflexivity.
  - eapply Forall_impl; [|exact Z]. intros p [A B]. destruct (short_spec _ A) as [[T _]|[_ H]]; auto. contradiction.
Qed.
(** a zero-dimensional array argument is rejected (len() of unsized object) *)
Theorem c04_zero_dim : forall s k d kw, (forall r, us s <> ("LITERAL_" ++ r)%string) ->
  to_name (VStr s) ((k, VArr [] d) :: kw) = Raise TypeError.
Proof.
  intros s k d kw NL. unfold M_state.to_name.
  destruct (String.prefix "LITERAL_" (us s)) eqn:P; [|reflexivity].
  apply prefix_split in P as [r P]. exfalso. exact (NL r P).
Qed.
(** without a name the workflow is just the computation: nothing is loaded, nothing is saved *)
Theorem c04_unnamed_is_not_saved : forall v kw run s, is_str v = false ->
  workflow_1 dumps loads resolve (to_name v kw) run s = run s.
Proof.
  intros v kw run s V. rewrite (c04_not_a_string v kw V). unfold workflow_1, load, save, save_path. cbn [bind].
  destruct (run s) as [[w|e] s1]; reflexivity.
Qed.

(** ** C05 *)
(** Saving enabled, a metric that is saved under its default name and not averaged or bootstrapped afterwards:
    repeating the call after any metric calls in between (any save names, any draws) returns the first result. *)
Theorem c05_saved_result_stable : forall m s w s1 os d nm,
  pickle_faithful dumps loads -> averaged m = false ->
  a_wd (ob s) = VStr d -> d <> "" -> default_name m = Ok (Some nm) ->
  step (OMetric m None) s = (Ok w, s1) -> w <> VNone ->
  forallb metric_op os = true ->
  fst (step (OMetric m None) (snd (steps os s1))) = Ok w.
Proof.
  intros m s w s1 os d nm PK AV W D N E NW F.
  assert (T : truthy (VStr d) = true) by (simpl; apply negb_true_iff, String.eqb_neq, D).
  assert (E' : metric lib libr str_of dumps loads resolve points less_memory integrate_wdir cwd rng m (default_save m) s = (Ok w, s1))
    by (destruct m; exact E).
  assert (NN : is_none w = false) by (destruct w; try reflexivity; contradiction).
  destruct (metric_saves lib libr str_of dumps loads resolve points less_memory integrate_wdir cwd rng PK m (default_save m) s w s1 d nm AV E' NN W T N) as [SV OB].
  destruct (steps_keeps lib libr str_of dumps loads expanduser resolve points less_memory integrate_wdir cwd rng
     (pkl (resolve d) nm) (resolve d) nm w os eq_refl NN F s1 SV) as (K1 & K2 & K3).
  assert (OK2 : match m, cl (ob (snd (steps os s1))) with (MEns | MPit), (CDeterm | CEnsemble) => False | _, _ => True end).
  { rewrite K1, OB. unfold metric in E'. destruct m; auto; destruct (cl (ob s)); auto; discriminate E'. }
  assert (R := metric_reloads lib libr str_of dumps loads resolve points less_memory integrate_wdir cwd rng m (default_save m)
     (snd (steps os s1)) w d nm AV NN).
  rewrite K1, OB in R. specialize (R W T N K3). rewrite K1, OB in OK2. specialize (R OK2).
  assert (X : step (OMetric m None) (snd (steps os s1)) =
    metric lib libr str_of dumps loads resolve points less_memory integrate_wdir cwd rng m (default_save m) (snd (steps os s1)))
    by (destruct m; reflexivity).
  rewrite X, R. reflexivity.
Qed.

(** ** C06 *)
Lemma saving_empties x k u x1 k1 s : disk_wf k -> a_scratch x = VBool true ->
  a_wd x = VStr s -> s <> "" -> validate_saving expanduser resolve x k = (Ok u, x1, k1) ->
  emptied (resolve (expanduser s)) k1.
Proof.
  intros WF SC W NE. unfold validate_saving.
  assert (T : truthy (a_wd x) = true) by (rewrite W; simpl; apply negb_true_iff, String.eqb_neq, NE).
  rewrite T, W. cbv zeta. cbn [a_scratch put_wd]. rewrite SC. cbn [truthy].
  set (d := resolve (expanduser s)).
  destruct (exists_at k d) eqn:X.
  - unfold rmtree. destruct (isdir k d) eqn:D; [|discriminate].
    set (k0 := mkDisk _ _).
    destruct (makedirs d k0) as [k2|e] eqn:MK; [|discriminate]. intro H. injection H as <- <- <-.
    destruct (makedirs_files _ _ _ MK) as [F I].
    intros p U. rewrite F, I. unfold k0. simpl. rewrite U. split; [reflexivity|].
    destruct (under p d) eqn:U2; split; intro Y; auto; try discriminate.
    + apply under_antisym; assumption.
    + subst p. rewrite under_self in U2. discriminate.
  - destruct (makedirs d k) as [k2|e] eqn:MK; [|discriminate]. intro H. injection H as <- <- <-.
    destruct (makedirs_files _ _ _ MK) as [F I].
    apply exists_false in X as [X1 X2].
    assert (NB : forall p, under d p = true -> exists_at k p = false).
    { intros p U. apply under_spec in U as [r ->]. destruct r as [|c r].
      - rewrite app_nil_r. unfold exists_at. rewrite X1, X2. reflexivity.
      - destruct (exists_at k (d ++ c :: r)) eqn:Y; [|reflexivity].
        rewrite (proj1 WF _ _ _ Y) in X1. discriminate. }
    intros p U. destruct (exists_false _ _ (NB p U)) as [I0 F0].
    rewrite F, I, F0, I0. split; [reflexivity|].
    destruct (under p d) eqn:U2; split; intro Y; auto; try discriminate.
    + apply under_antisym; assumption.
    + subst p. rewrite under_self in U2. discriminate.
Qed.

Lemma validate_scope x k r x1 k1 s : a_wd x = VStr s -> s <> "" ->
  validate expanduser resolve x k = (r, x1, k1) ->
  let d := resolve (expanduser s) in
  outside_kept d k k1 /\
  (disk_wf k -> a_scratch x = VBool true -> forall u, r = Ok u -> emptied d k1) /\
  (a_scratch x = VBool false -> nothing_lost k k1).
Proof.
  intros W NE V d.
  destruct (validate_disk _ _ _ _ _ _ _ V) as [[-> [e ->]]|(y & r0 & z & Y1 & Y2 & _ & VS & OKR)].
  - split; [split; auto|]. split; [discriminate|]. intros _ p. auto.
  - rewrite W in Y1.
    assert (T : truthy (a_wd y) = true) by (rewrite Y1; simpl; apply negb_true_iff, String.eqb_neq, NE).
    destruct (saving_effect _ _ _ _ _ _ _ _ Y1 T VS) as (A & B & C).
    split; [split; assumption|]. split.
    + intros WF SC u E. destruct (OKR u E) as [u' ->].
      apply (saving_empties y k u' z k1 s WF); [rewrite Y2; exact SC|exact Y1|exact NE|exact VS].
    + intros SC p. apply C. rewrite Y2, SC. reflexivity.
Qed.

Theorem c06_constructor_scope : forall x k r k1 s,
  a_wd x = VStr s -> s <> "" -> construct x k = (r, k1) ->
  let d := resolve (expanduser s) in
  outside_kept d k k1 /\
  (disk_wf k -> a_scratch x = VBool true -> forall x1, r = Ok x1 -> emptied d k1) /\
  (a_scratch x = VBool false -> nothing_lost k k1).
Proof.
  intros x k r k1 s W NE H d. unfold M_state.construct in H.
  destruct (validate expanduser resolve (put_fc VNone x) k) as [[r0 x0] k0] eqn:V.
  destruct (validate_scope (put_fc VNone x) k r0 x0 k0 s W NE V) as (A & B & C).
  assert (k0 = k1).
  { destruct r0; [|congruence]. destruct (cl x); try congruence.
    destruct (lib "collapse" [a_collapse x0; a_f x0; a_eaxis x0]); congruence. }
  subst k0. split; [exact A|]. split; [|exact C].
  intros WF SC x1 ->. destruct r0 as [u|e]; [|discriminate]. apply (B WF SC u eq_refl).
Qed.
(** The same for the setters that validate again; the working directory is the one of the object, or the
    argument of enable_saving. *)
Theorem c06_setter_scope : forall o s r s' w sc,
  metric_op o = false -> o <> ONoBoot -> o <> ONoSave ->
  match o with OSave wd b => (wd, b) | _ => (a_wd (ob s), a_scratch (ob s)) end = (VStr w, sc) -> w <> "" ->
  step o s = (r, s') ->
  let d := resolve (expanduser w) in
  outside_kept d (dk s) (dk s') /\
  (disk_wf (dk s) -> sc = VBool true -> forall v, r = Ok v -> emptied d (dk s')) /\
  (sc = VBool false -> nothing_lost (dk s) (dk s')).
Proof.
  intros o s r s' w sc MO NB NS W NE E d.
  assert (SET : forall x, a_wd x = VStr w -> a_scratch x = sc ->
    set_and_validate expanduser resolve x s = (r, s') ->
    outside_kept d (dk s) (dk s') /\
    (disk_wf (dk s) -> sc = VBool true -> forall v, r = Ok v -> emptied d (dk s')) /\
    (sc = VBool false -> nothing_lost (dk s) (dk s'))).
  { intros x W1 S1 H. unfold set_and_validate in H.
    destruct (validate expanduser resolve x (dk s)) as [[r0 x0] k0] eqn:V. injection H as <- <-. cbn [dk].
    destruct (validate_scope x (dk s) r0 x0 k0 w W1 NE V) as (A & B & C). rewrite S1 in B, C.
    split; [exact A|]. split; [|exact C].
    intros WF SC v Q. destruct r0 as [u|e]; [|discriminate]. apply (B WF SC u eq_refl). }
  assert (SAME : forall e, (Raise e, s) = (r, s') ->
    outside_kept d (dk s) (dk s') /\
    (disk_wf (dk s) -> sc = VBool true -> forall v, r = Ok v -> emptied d (dk s')) /\
    (sc = VBool false -> nothing_lost (dk s) (dk s'))).
  { intros e H. injection H as <- <-. split; [split; auto|]. split; [discriminate|]. intros _ p. auto. }
  destruct o; try discriminate MO; try congruence; unfold M_state.step in E; cbv zeta in E;
    injection W as W1 W2; subst;
    try (apply (SET _) in E; [exact E|exact W1|reflexivity]);
    try (match type of E with (if ?b then _ else _) = _ => destruct b end;
         [apply (SET _) in E; [exact E|exact W1|reflexivity]|exact (SAME _ E)]).
  apply (SET _) in E; [exact E|reflexivity|reflexivity].
Qed.

(** ** C07 *)
(** A constructor or setter value that the base class rejects (axis, number of samples or start_from_scratch of
    a wrong type) leaves every file and directory as it was.  Missing: class-specific checks run after the directory has been
    wiped, and a rejected setter keeps the invalid attribute; both are refuted below. *)
Theorem c07_base_rejection_partial : forall x k r k1,
  axis_type (a_avg x) = false \/ boot_type (a_boot x) = false \/ is_bool (a_scratch x) = false ->
  construct x k = (r, k1) -> k1 = k /\ exists e, r = Raise e.
Proof.
  intros x k r k1 BAD H. unfold M_state.construct in H.
  assert (V : exists x2, validate expanduser resolve (put_fc VNone x) k = (Raise AssertionError, x2, k)).
  { unfold validate, validate_base. rewrite validate_avg_eq. cbn [a_avg put_fc].
    destruct (avg_ok (norm_avg (a_avg x))) eqn:A; simpl passert; cbv iota beta; [|eexists; reflexivity].
    cbn [a_boot put_avg put_fc a_scratch].
    destruct BAD as [B|[B|B]].
    - exfalso. destruct (a_avg x); simpl in *; discriminate.
    - unfold boot_type in B. rewrite B. eexists; reflexivity.
    - rewrite B. destruct (is_none (a_boot x) || is_int (a_boot x)); eexists; reflexivity. }
  destruct V as [x2 V]. rewrite V in H. injection H as <- <-. eauto.
Qed.
Theorem c07_setter_rejection_partial : forall s r s' o,
  (exists v, o = OAvg v /\ axis_type v = false) \/ (exists v, o = OBoot v /\ boot_type v = false) ->
  step o s = (r, s') -> dk s' = dk s /\ events s' = events s /\ exists e, r = Raise e.
Proof.
  intros s r s' o BAD E.
  assert (V : forall x, axis_type (a_avg x) = false \/ boot_type (a_boot x) = false ->
    exists x2, validate expanduser resolve x (dk s) = (Raise AssertionError, x2, dk s)).
  { intros x B. unfold validate, validate_base. rewrite validate_avg_eq.
    destruct (avg_ok (norm_avg (a_avg x))) eqn:A; simpl passert; cbv iota beta; [|eexists; reflexivity].
    cbn [a_boot put_avg a_scratch]. destruct B as [B|B].
    - exfalso. destruct (a_avg x); simpl in *; discriminate.
    - unfold boot_type in B. rewrite B. eexists; reflexivity. }
  destruct BAD as [[v [-> B]]|[v [-> B]]]; unfold M_state.step in E; cbv zeta in E; unfold set_and_validate in E;
    (match type of E with context [validate expanduser resolve ?x _] => destruct (V x) as [x2 X]; [auto|rewrite X in E] end);
    injection E as <- <-; simpl; eauto.
Qed.

(** ** C08 *)
(** Any number of runs over the same arguments, the first starting from scratch, the others reusing the
    directory, each stopped at any point of any write; then a further run reusing the directory, and in it any metric
    calls: every deterministic metric call raises or returns what it returns with saving off. *)
Theorem c08_crash_never_wrong : forall x0 s0 k x k1 n os o t,
  text_faithful str_of -> pickle_faithful dumps loads ->
  mem_off less_memory x0 -> a_wd x0 = VStr s0 -> s0 <> "" -> expanduser s0 <> "" ->
  crashed_runs x0 k ->
  construct (put_scratch (VBool false) x0) k = (Ok x, k1) ->
  Forall calm_metric os -> calm_metric o ->
  let s := snd (steps os (mkSt x k1 n [])) in
  ob t = put_wd VNone x -> no_draw x o ->
  k1 = k /\ ob s = x /\
  ((exists e, fst (step o s) = Raise e) \/ fst (step o s) = fst (step o t)).
Proof.
  intros x0 s0 k x k1 n os o t TX PK M W NE NE2 CR H F CO s OT ND.
  assert (T : truthy (a_wd x0) = true) by (rewrite W; simpl; apply negb_true_iff, String.eqb_neq, NE).
  destruct (crashed_coh lib libr str_of dumps loads expanduser resolve points less_memory integrate_wdir cwd rng TX PK x0 k M T) as (x' & kk & k' & H' & C);
    [intros s1 W1; rewrite W in W1; injection W1 as <-; exact NE2|exact CR|].
  destruct (construct_obj lib expanduser resolve _ _ _ _ _ _ _ _ _ H' H) as [E SC].
  assert (MX : mem_off less_memory x').
  { destruct (construct_disk _ _ _ _ _ _ _ H') as [_ [_ [_ CL]]]. unfold mem_off in *. rewrite CL. exact M. }
  assert (CX : Coh lib libr str_of dumps resolve points less_memory true x k) by (subst x; apply coh_scratch; assumption).
  destruct (construct_wd _ _ _ _ _ _ _ _ H' T) as [s1 [W0 W1]].
  rewrite W in W0. injection W0 as <-.
  assert (T1 : truthy (a_wd x') = true) by (rewrite W1; simpl; apply negb_true_iff, String.eqb_neq, NE2).
  assert (k1 = k).
  { eapply reopen_disk; [exact H|]. intros _. exists s0. split; [exact W|].
    apply (coh_dir _ _ _ _ _ _ _ _ _ _ C _ T1 W1). }
  subst k1. split; [reflexivity|].
  assert (MX2 : mem_off less_memory x) by (subst x; exact MX).
  pose proof (steps_quiet lib libr str_of dumps loads expanduser resolve points less_memory integrate_wdir cwd rng TX PK true os (mkSt x k n []) F MX2 CX) as Q.
  assert (OS : ob s = x) by apply Q. split; [exact OS|].
  destruct (step o s) as [r s'] eqn:ES.
  assert (CS : Coh lib libr str_of dumps resolve points less_memory true (ob s) (dk s))
    by (rewrite OS; eapply quiet_coh; [exact Q|exact CX]).
  assert (MS : mem_off less_memory (ob s)) by (rewrite OS; exact MX2).
  destruct (step_quiet lib libr str_of dumps loads expanduser resolve points less_memory integrate_wdir cwd rng TX PK true o s r s' CO MS CS ES) as [_ V].
  rewrite OS in V. cbn [fst]. destruct (V ND t OT) as [E1|[_ E1]]; auto.
Qed.

(** ** C09 *)
(** Every later run fails on the truncated file, for ever: whatever was being saved, if the file of a
    metric holds a proper initial segment of a dump, the metric call raises and changes nothing. *)
Theorem c09_truncated_file_blocks_refuted : forall m s w d nm b,
  pickle_faithful dumps loads -> a_wd (ob s) = VStr d -> d <> "" ->
  default_name m = Ok (Some nm) ->
  isdir (dk s) (resolve d ++ [(nm ++ ".pkl")%string]) = false ->
  file (dk s) (resolve d ++ [(nm ++ ".pkl")%string]) = Some b -> cut_short b (dumps w) ->
  exists e, step (OMetric m None) s = (Raise e, s).
Proof.
  intros m s w d nm b PK W D N NI F CS.
  assert (T : truthy (VStr d) = true) by (simpl; apply negb_true_iff, String.eqb_neq, D).
  destruct (pickle_cut _ _ PK w b CS) as [e L].
  assert (X : forall run, workflow_1 dumps loads resolve (default_name m) run s = (Raise e, s)).
  { intro run. unfold workflow_1. rewrite N. unfold load, save_path. rewrite W, T. cbn [bind].
    rewrite NI, F, L. reflexivity. }
  assert (Y : step (OMetric m None) s =
    metric lib libr str_of dumps loads resolve points less_memory integrate_wdir cwd rng m (default_save m) s)
    by (destruct m; reflexivity).
  rewrite Y. unfold metric. fold (default_name m). unfold M_state.default_name in X.
  destruct m; try (rewrite X; eauto); destruct (cl (ob s)); try (rewrite X); eauto.
Qed.
(** A process that dies between two writes leaves nothing behind that matters: the later run
    recomputes what is missing.  Missing: crash points inside a write. *)
Theorem c09_crash_between_writes_partial : forall x0 s0 k0 x1 k1 n1 os1 pre rest x k2 n os o t,
  text_faithful str_of -> pickle_faithful dumps loads ->
  mem_off less_memory x0 -> a_wd x0 = VStr s0 -> s0 <> "" -> expanduser s0 <> "" ->
  disk_wf k0 -> construct (put_scratch (VBool true) x0) k0 = (Ok x1, k1) -> Forall calm_metric os1 ->
  events (snd (steps os1 (mkSt x1 k1 n1 []))) = pre ++ rest ->
  construct (put_scratch (VBool false) x0) (fold_left apply_event pre k1) = (Ok x, k2) ->
  Forall calm_metric os -> calm_metric o ->
  let s := snd (steps os (mkSt x k2 n [])) in
  ob t = put_wd VNone x -> no_draw x o -> fst (step o s) = fst (step o t).
Proof.
  intros x0 s0 k0 x1 k1 n1 os1 pre rest x k2 n os o t TX PK M W NE NE2 WF H1 F1 EV H F CO s OT ND.
  assert (T : truthy (a_wd x0) = true) by (rewrite W; simpl; apply negb_true_iff, String.eqb_neq, NE).
  assert (C1 := fresh_coh lib libr str_of dumps expanduser resolve points less_memory false x0 k0 x1 k1 WF H1).
  assert (MX : mem_off less_memory x1).
  { destruct (construct_disk _ _ _ _ _ _ _ H1) as [_ [_ [_ CL]]]. unfold mem_off in *. rewrite CL. exact M. }
  destruct (steps_quiet lib libr str_of dumps loads expanduser resolve points less_memory integrate_wdir cwd rng TX PK false os1 (mkSt x1 k1 n1 []) F1 MX C1) as (_ & _ & _ & evs & E1 & G1 & _).
  rewrite E1 in EV. simpl in EV. rewrite EV in G1. apply Forall_app in G1 as [G1 _].
  assert (C2 := events_coh lib libr str_of dumps resolve points less_memory false x1 pre k1 G1 C1).
  destruct (construct_obj lib expanduser resolve _ _ _ _ _ _ _ _ _ H1 H) as [E SC].
  assert (CX : Coh lib libr str_of dumps resolve points less_memory false x (fold_left apply_event pre k1)) by (subst x; apply coh_scratch; assumption).
  destruct (construct_wd _ _ _ _ _ _ _ _ H1 T) as [s1 [W0 W1]].
  rewrite W in W0. injection W0 as <-.
  assert (T1 : truthy (a_wd x1) = true) by (rewrite W1; simpl; apply negb_true_iff, String.eqb_neq, NE2).
  assert (k2 = fold_left apply_event pre k1).
  { eapply reopen_disk; [exact H|]. intros _. exists s0. split; [exact W|].
    apply (coh_dir _ _ _ _ _ _ _ _ _ _ C2 _ T1 W1). }
  subst k2.
  assert (MX2 : mem_off less_memory x) by (subst x; exact MX).
  pose proof (steps_quiet lib libr str_of dumps loads expanduser resolve points less_memory integrate_wdir cwd rng TX PK false os (mkSt x (fold_left apply_event pre k1) n []) F MX2 CX) as Q.
  assert (OS : ob s = x) by apply Q.
  destruct (step o s) as [r s'] eqn:ES.
  assert (CS : Coh lib libr str_of dumps resolve points less_memory false (ob s) (dk s))
    by (rewrite OS; eapply quiet_coh; [exact Q|exact CX]).
  assert (MS : mem_off less_memory (ob s)) by (rewrite OS; exact MX2).
  destruct (step_quiet lib libr str_of dumps loads expanduser resolve points less_memory integrate_wdir cwd rng TX PK false o s r s' CO MS CS ES) as [_ V].
  rewrite OS in V. cbn [fst]. destruct (V ND t OT) as [E2|[E2 _]]; [exact E2|discriminate].
Qed.

(** ** C10 *)
(** With saving off, no history (enable_saving excluded) changes the disk, and the results are the same
    on every disk.  Missing: the hurdle class with pyanen_integrate_with_less_memory, refuted below. *)
Theorem c10_no_disk_effect_partial : forall os s k,
  mem_off less_memory (ob s) -> truthy (a_wd (ob s)) = false -> forallb not_enable os = true ->
  dk (snd (steps os s)) = dk s /\
  fst (steps os (on_disk k s)) = fst (steps os s) /\
  dk (snd (steps os (on_disk k s))) = k.
Proof. intros. apply steps_off; assumption. Qed.
(** the constructor without working directory, and disable_saving *)
Theorem c10_constructor_partial : forall x k, truthy (a_wd x) = false -> snd (construct x k) = k.
Proof.
  intros x k T. unfold M_state.construct.
  destruct (validate expanduser resolve (put_fc VNone x) k) as [[r0 x0] k0] eqn:V.
  assert (k0 = k).
  { destruct (validate_disk _ _ _ _ _ _ _ V) as [[E _]|(y & r1 & z & Y1 & _ & _ & VS & _)]; [exact E|].
    assert (Y2 : a_wd y = a_wd x) by exact Y1.
    unfold validate_saving in VS. rewrite Y2, T in VS. congruence. }
  subst k0. destruct r0; [|reflexivity]. destruct (cl x); try reflexivity.
  destruct (lib "collapse" [a_collapse x0; a_f x0; a_eaxis x0]); reflexivity.
Qed.
Theorem c10_disable_saving_partial : forall s, truthy (a_wd (ob (snd (step ONoSave s)))) = false /\ dk (snd (step ONoSave s)) = dk s.
Proof. intro s. split; reflexivity. Qed.
End Oracles.

(** ** Assumptions *)
Print Assumptions c01_saving_transparent_partial.
Print Assumptions c02_boot_samples_partial.
Print Assumptions c03_names_identify.
Print Assumptions c03_names_injective.
Print Assumptions c04_not_a_string.
Print Assumptions c04_blanks.
Print Assumptions c04_literal.
Print Assumptions c04_too_long.
Print Assumptions c04_name.
Print Assumptions c04_zero_dim.
Print Assumptions c04_unnamed_is_not_saved.
Print Assumptions c05_saved_result_stable.
Print Assumptions c06_constructor_scope.
Print Assumptions c06_setter_scope.
Print Assumptions c07_base_rejection_partial.
Print Assumptions c07_setter_rejection_partial.
Print Assumptions c08_crash_never_wrong.
Print Assumptions c09_truncated_file_blocks_refuted.
Print Assumptions c09_crash_between_writes_partial.
Print Assumptions c10_no_disk_effect_partial.
Print Assumptions c10_constructor_partial.
Print Assumptions c10_disable_saving_partial.

(** ** Concrete cases and refutations *)
Definition one : val := VFloat (Fin (Q2Qc 1)).
Definition two : val := VFloat (Fin (Q2Qc 2)).


Ltac refute_tac := repeat (split; [solve [exact w_text|exact w_pickle|exact w_root_wf|exact w_used_wf|reflexivity|vm_compute; reflexivity]|]); vm_compute; discriminate.

(** C01: error(save_name='sq_error') after sq_error() returns squared errors. *)
Theorem c01_save_name_refuted : exists x k x1 k1 os o,
  text_faithful w_str /\ pickle_faithful w_dumps w_loads /\ disk_wf k /\ a_scratch x = VBool true /\
  w_construct x k = (Ok x1, k1) /\ metric_op o = true /\ forallb metric_op os = true /\
  no_draw (ob (snd (w_steps os (start x1 k1)))) o /\
  fst (w_step o (snd (w_steps os (start x1 k1)))) <>
  fst (w_step o (snd (w_steps os (start (put_wd VNone x1) k1)))).
Proof.
  exists (w_det true), w_root. do 2 eexists.
  exists [OMetric MSqErr None], (OMetric MError (Some (VStr "sq_error"))).
  refute_tac.
Qed.
Print Assumptions c01_save_name_refuted.
(** C01: after a rejected set_avg_axis the object computes with the new value, but an intersection over union
    saved for the old axis is still there. *)
Theorem c01_rejected_setter_refuted : exists x k x1 k1 os o,
  text_faithful w_str /\ pickle_faithful w_dumps w_loads /\ disk_wf k /\ a_scratch x = VBool true /\
  w_construct x k = (Ok x1, k1) /\ calm o /\
  (forall q sn, In (OMetric q sn) (o :: os) -> sn = None) /\
  no_draw (ob (snd (w_steps os (start x1 k1)))) o /\
  fst (w_step o (snd (w_steps os (start x1 k1)))) <>
  fst (w_step o (snd (w_steps os (start (put_wd VNone x1) k1)))).
Proof.
  exists (w_det true), w_root. do 2 eexists.
  exists [OMetric (MIouD one VNone) None; OAvg (VStr "time")], (OMetric (MIouD one VNone) None).
  do 5 (split; [solve [exact w_text|exact w_pickle|exact w_root_wf|reflexivity]|]).
  split; [simpl; repeat constructor|].
  split; [intros q sn [H|[H|[H|[]]]]; congruence|].
  split; [vm_compute; reflexivity|]. vm_compute. discriminate.
Qed.
Print Assumptions c01_rejected_setter_refuted.
(** C01: short arrays with the same printed text share a file. *)
Theorem c01_array_text_refuted : exists x k x1 k1 os o,
  text_faithful w_str /\ pickle_faithful w_dumps w_loads /\ disk_wf k /\ a_scratch x = VBool true /\
  w_construct x k = (Ok x1, k1) /\ metric_op o = true /\ forallb metric_op os = true /\
  no_draw (ob (snd (w_steps os (start x1 k1)))) o /\
  fst (w_step o (snd (w_steps os (start x1 k1)))) <>
  fst (w_step o (snd (w_steps os (start (put_wd VNone x1) k1)))).
Proof.
  exists (w_ens true), w_root. do 2 eexists.
  exists [OMetric (MCdf VNone (VArr [1] 7)) None], (OMetric (MCdf VNone (VArr [1] 8)) None).
  refute_tac.
Qed.
Print Assumptions c01_array_text_refuted.
(** The hypotheses of the partial theorem hold for an ensemble verifier on a used disk, with a history that saves
    and changes settings, and the deterministic call is not trivial. *)
Example c01_nonvacuous :
  let os := [OMetric MCrps None; OMetric (MIouD one VNone) None; OAvg (VInt 0); OBoot (VInt 5); OMetric MSqErr None; ONoBoot] in
  let o := OMetric (MIouD one VNone) None in
  exists x1 k1, w_construct (w_ens true) w_used = (Ok x1, k1) /\ Forall calm os /\ calm o /\
    no_draw (ob (snd (w_steps os (start x1 k1)))) o /\
    fst (w_step o (snd (w_steps os (start x1 k1)))) =
      Ok (VTuple [VStr "iou_determ"; VTuple [VStr "collapse"; VFun 0; VArr [2; 3; 4] 0; VInt (-1)];
                  VArr [2; 3] 1; VTuple [VInt 0]; one; VNone]).
Proof.
  intros os o. do 2 eexists. split; [reflexivity|].
  split; [unfold os; repeat constructor|]. split; [unfold o; simpl; repeat constructor|].
  split; vm_compute; reflexivity.
Qed.

(** C02: iou_determ saved under the old averaging axis is returned after set_avg_axis. *)
Theorem c02_stale_axis_refuted : exists x k x1 k1 os o,
  text_faithful w_str /\ pickle_faithful w_dumps w_loads /\ disk_wf k /\ a_scratch x = VBool false /\
  empty_dir (w_resolve "w") k /\
  w_construct x k = (Ok x1, k1) /\ Forall calm os /\ calm o /\
  Forall (fun r => forall e, r <> Raise e) (fst (w_steps os (start x1 k1))) /\
  no_draw (ob (snd (w_steps os (start x1 k1)))) o /\
  fst (w_step o (snd (w_steps os (start x1 k1)))) <>
  fst (w_step o (snd (w_steps os (start (put_wd VNone x1) k1)))).
Proof.
  exists (w_det false), w_root. do 2 eexists.
  exists [OMetric (MIouD one VNone) None; OAvg (VInt 0)], (OMetric (MIouD one VNone) None).
  do 4 (split; [solve [exact w_text|exact w_pickle|exact w_root_wf|reflexivity]|]).
  split; [intros [|a p] U; [discriminate|split; [reflexivity|discriminate]]|].
  split; [reflexivity|]. split; [repeat constructor|]. split; [simpl; repeat constructor|].
  split; [vm_compute; repeat constructor; discriminate|].
  split; [vm_compute; reflexivity|]. vm_compute. discriminate.
Qed.
Print Assumptions c02_stale_axis_refuted.
(** C02: the CRPS of the untruncated Gaussian is returned after set_truncated(True). *)
Theorem c02_stale_truncation_refuted : exists x k x1 k1 os o,
  text_faithful w_str /\ pickle_faithful w_dumps w_loads /\ disk_wf k /\ a_scratch x = VBool false /\
  w_construct x k = (Ok x1, k1) /\ Forall calm os /\ calm o /\
  Forall (fun r => forall e, r <> Raise e) (fst (w_steps os (start x1 k1))) /\
  no_draw (ob (snd (w_steps os (start x1 k1)))) o /\
  fst (w_step o (snd (w_steps os (start x1 k1)))) <>
  fst (w_step o (snd (w_steps os (start (put_wd VNone x1) k1)))).
Proof.
  exists (w_gauss false), w_root. do 2 eexists.
  exists [OMetric MCrps None; OTrunc (VBool true)], (OMetric MCrps None).
  do 5 (split; [solve [exact w_text|exact w_pickle|exact w_root_wf|reflexivity]|]).
  split; [repeat constructor|]. split; [simpl; repeat constructor|].
  split; [vm_compute; repeat constructor; discriminate|].
  split; [vm_compute; reflexivity|]. vm_compute. discriminate.
Qed.
Print Assumptions c02_stale_truncation_refuted.
(** the partial theorem: reusing the directory, boot_samples set and unset *)
Example c02_nonvacuous :
  let os := [OMetric MError None; OBoot (VInt 5); OMetric MError None; ONoBoot] in
  let o := OMetric MError None in
  exists x1 k1, empty_dir (w_resolve "w") w_root /\ w_construct (w_det false) w_root = (Ok x1, k1) /\
    Forall boot_op os /\ boot_op o /\ no_draw (ob (snd (w_steps os (start x1 k1)))) o /\
    events (snd (w_steps os (start x1 k1))) <> [] /\
    nth 2 (fst (w_steps os (start x1 k1))) (Raise KeyError) <> fst (w_step o (snd (w_steps os (start x1 k1)))).
Proof.
  intros os o. do 2 eexists.
  split; [intros [|a p] U; [discriminate|split; [reflexivity|discriminate]]|].
  split; [reflexivity|]. split; [unfold os; repeat constructor|]. split; [unfold o; repeat constructor|].
  split; [vm_compute; reflexivity|]. split; vm_compute; discriminate.
Qed.

(** C03: two calls with different thresholds, the texts are of the assumed kind and the names exist and differ. *)
Example c03_nonvacuous :
  Forall (fun p => number_text (w_str (snd p))) (kwargs (MRel (VInt 15) one VNone)) /\
  Forall (fun p => good (snd p)) (kwargs (MRel (VInt 15) one VNone)) /\
  exists n n', default_name w_str (MRel (VInt 15) one VNone) = Ok (Some n) /\
    default_name w_str (MRel (VInt 15) VNone one) = Ok (Some n') /\ n <> n'.
Proof.
  split; [simpl; repeat (constructor; [apply (text_plain _ w_text); exact I|]); constructor|].
  split; [simpl; repeat constructor|]. do 2 eexists. split; [vm_compute; reflexivity|]. split; [vm_compute; reflexivity|discriminate].
Qed.

(** C04 *)
Example c04_nonvacuous :
  to_name w_str (VStr "LITERAL my file") [("over", VTuple [one; one; one; one; one; one])] = Ok (Some "my_file") /\
  to_name w_str (VStr "my file") [("over", VTuple [one; one; one; one; one; one])] = Ok None /\
  to_name (fun _ => "(1, 2)") (VStr "my file") [("over", VTuple [one; two]); ("below", VNone)] = Ok (Some "my_file_over_(1,_2)_below_(1,_2)").
Proof. split; [|split]; reflexivity. Qed.

(** C05: PIT, rank histogram and sampled ensembles of a Gaussian verifier; the draws of the
    second call would be different. *)
Example c05_nonvacuous :
  exists x1 k1, w_construct (w_gauss true) w_root = (Ok x1, k1) /\
  forall m, In m [MRank; MPit; MEns] ->
    random_call x1 m = true /\ averaged m = false /\
    (exists nm, default_name w_str m = Ok (Some nm)) /\
    (exists w, fst (w_step (OMetric m None) (start x1 k1)) = Ok w /\ w <> VNone) /\
    (let s1 := snd (w_step (OMetric m None) (start x1 k1)) in
     fst (w_step (OMetric m None) (snd (w_steps [OMetric MSpread None; OMetric MCrps (Some (VStr "rank"))] s1))) =
     fst (w_step (OMetric m None) (start x1 k1))) /\
    (* without saving the second call differs *)
    (let s1 := snd (w_step (OMetric m None) (start (put_wd VNone x1) k1)) in
     fst (w_step (OMetric m None) s1) <> fst (w_step (OMetric m None) (start (put_wd VNone x1) k1))).
Proof.
  do 2 eexists. split; [reflexivity|].
  intros m [<-|[<-|[<-|[]]]]; (split; [reflexivity|]); (split; [reflexivity|]);
    (split; [eexists; reflexivity|]); (split; [eexists; split; [vm_compute; reflexivity|discriminate]|]);
    (split; vm_compute; [reflexivity|discriminate]).
Qed.

(** C06: the used disk *)
Example c06_nonvacuous :
  exists x1 k1, w_construct (w_det true) w_used = (Ok x1, k1) /\ disk_wf w_used /\
    file w_used ["w"; "old.txt"] = Some "a" /\ file k1 ["w"; "old.txt"] = None /\
    file k1 ["other.txt"] = Some "b" /\ isdir k1 ["w"] = true /\
  exists x2 k2, w_construct (w_det false) w_used = (Ok x2, k2) /\ file k2 ["w"; "old.txt"] = Some "a".
Proof.
  do 2 eexists. split; [reflexivity|]. split; [exact w_used_wf|].
  do 4 (split; [reflexivity|]). do 2 eexists. split; reflexivity.
Qed.

(** C07: a constructor whose observations have a wrong shape is rejected after the directory was emptied. *)
Definition w_bad : obj :=
  mkObj CDeterm (VArr [2; 3] 0) (VArr [3; 2] 1) VNone VNone (VStr "w") (VBool true)
    VNone VNone VNone VNone VNone VNone VNone VNone VNone VNone.
Theorem c07_rejected_constructor_refuted : exists x k e k1 p,
  disk_wf k /\ w_construct x k = (Raise e, k1) /\ file k p <> None /\ file k1 p = None.
Proof.
  exists w_bad, w_used, AssertionError. eexists. exists ["w"; "old.txt"].
  split; [exact w_used_wf|]. split; [reflexivity|]. split; [discriminate|reflexivity].
Qed.
Print Assumptions c07_rejected_constructor_refuted.
(** C07: a rejected set_avg_axis changes the axis all the same, and later calls use it. *)
Theorem c07_rejected_setter_refuted : exists x k x1 k1 v e,
  w_construct x k = (Ok x1, k1) /\ fst (w_step (OAvg v) (start x1 k1)) = Raise e /\
  a_avg (ob (snd (w_step (OAvg v) (start x1 k1)))) <> a_avg x1 /\
  fst (w_step (OMetric MError None) (snd (w_step (OAvg v) (start x1 k1)))) <> fst (w_step (OMetric MError None) (start x1 k1)).
Proof.
  exists (w_det true), w_root. do 2 eexists. exists (VStr "time"), AssertionError.
  split; [reflexivity|]. split; [reflexivity|]. split; [vm_compute; discriminate|]. vm_compute. discriminate.
Qed.
Print Assumptions c07_rejected_setter_refuted.
(** C07: a setter rejected by a class check has emptied the directory. *)
Theorem c07_rejected_setter_wipes_refuted : exists x k x1 k1 o e p,
  w_construct x k = (Ok x1, k1) /\
  let s := snd (w_step (OMetric MSqErr None) (start x1 k1)) in
  fst (w_step o s) = Raise e /\ file (dk s) p <> None /\ file (dk (snd (w_step o s))) p = None.
Proof.
  exists (w_ens true), w_root. do 2 eexists.
  exists (OEAxis (VInt 1)), AssertionError, ["w"; "sq_error.pkl"].
  split; [reflexivity|]. cbv zeta. split; [vm_compute; reflexivity|]. split; [vm_compute; discriminate|vm_compute; reflexivity].
Qed.
Print Assumptions c07_rejected_setter_wipes_refuted.
Example c07_nonvacuous :
  axis_type (VStr "time") = false /\ w_construct (put_avg (VStr "time") (w_det true)) w_used = (Raise AssertionError, w_used).
Proof. split; reflexivity. Qed.

(** C08/C09: the process died after two bytes of sq_error.pkl; the later run raises. *)
Definition w_dead : disk := write_file ["w"; "sq_error.pkl"] "11" (snd (w_construct (w_det true) w_root)).
Lemma w_dead_run : w_runs (w_det true) w_dead.
Proof.
  apply (first_run _ _ _ _ _ _ _ _ _ _ _ _ (w_det true) w_root (w_det true)
    (snd (w_construct (w_det true) w_root)) [OMetric MSqErr None] 0 w_dead); [exact w_root_wf|reflexivity|repeat constructor|].
  right. do 2 eexists. eexists. exists "11". eexists.
  split; [rewrite app_nil_l; vm_compute; reflexivity|]. split; [eexists; reflexivity|reflexivity].
Qed.
Example c08_nonvacuous :
  exists x k1, w_construct (w_det false) w_dead = (Ok x, k1) /\ w_runs (w_det true) w_dead /\
  no_draw x (OMetric MAbErr None) /\
  fst (w_step (OMetric MSqErr None) (start x k1)) = Raise UnpicklingError /\
  fst (w_step (OMetric MAbErr None) (start x k1)) =
    Ok (VTuple [VStr "boot_or_avg"; VTuple [VStr "sub_abs"; VArr [2; 3] 0; VArr [2; 3] 1]; VNone]).
Proof.
  do 2 eexists. split; [reflexivity|]. split; [exact w_dead_run|]. split; [reflexivity|].
  split; vm_compute; reflexivity.
Qed.
(** C09: no number of later calls helps *)
Theorem c09_recovery_refuted : exists x0 k x k1 o e,
  text_faithful w_str /\ pickle_faithful w_dumps w_loads /\ w_runs x0 k /\
  w_construct (put_scratch (VBool false) x0) k = (Ok x, k1) /\ calm_metric o /\
  (forall n, fst (w_steps (repeat o n) (start x k1)) = repeat (Raise e) n) /\
  (exists v, fst (w_step o (start (put_wd VNone x) k1)) = Ok v).
Proof.
  exists (w_det true), w_dead. do 2 eexists. exists (OMetric MSqErr None), UnpicklingError.
  split; [exact w_text|]. split; [exact w_pickle|]. split; [exact w_dead_run|].
  split; [reflexivity|]. split; [repeat constructor|]. split.
  - induction n as [|n IH]; [reflexivity|].
    cbn [repeat M_state.steps].
    match goal with |- context [w_step ?oo ?ss] =>
      assert (E : w_step oo ss = (Raise UnpicklingError, ss)) by (vm_compute; reflexivity); rewrite E; clear E end.
    match goal with |- context [let (_, _) := ?q in _] => destruct q as [vs s2] eqn:Q end.
    cbn [fst] in *. f_equal. exact IH.
  - eexists. vm_compute. reflexivity.
Qed.
Print Assumptions c09_recovery_refuted.
Example c09_nonvacuous :
  let s := snd (w_steps [OMetric MSqErr None; OMetric MAbErr None] (start (w_det true) (snd (w_construct (w_det true) w_root)))) in
  length (events s) = 2 /\
  exists x k, w_construct (w_det false) (fold_left apply_event (firstn 1 (events s)) (snd (w_construct (w_det true) w_root))) = (Ok x, k) /\
    file k ["w"; "sq_error.pkl"] <> None /\ file k ["w"; "ab_error.pkl"] = None.
Proof.
  split; [vm_compute; reflexivity|]. do 2 eexists. split; [reflexivity|]. split; vm_compute; [discriminate|reflexivity].
Qed.

(** C10: with pyanen_integrate_with_less_memory a hurdle verifier without working directory removes a
    file of the current directory. *)
Definition w_scratch_file : disk :=
  mkDisk (fun p => if path_eqb p ["__pyanen_numerical_integration__.dat"] then Some "mine" else None) (isdir w_root).
Theorem c10_scratch_file_refuted : exists x k x1 o p,
  w_construct x k = (Ok x1, k) /\ a_wd x1 = VNone /\ calm_metric o /\
  file k p <> None /\ file (dk (snd (w_step_m true o (start x1 k)))) p = None /\
  (exists v, fst (w_step_m true o (start x1 k)) = Ok v).
Proof.
  exists w_hurdle, w_scratch_file. eexists. exists (OMetric MCrps None), ["__pyanen_numerical_integration__.dat"].
  split; [reflexivity|]. split; [reflexivity|]. split; [repeat constructor|].
  split; [discriminate|]. split; [vm_compute; reflexivity|]. eexists. vm_compute. reflexivity.
Qed.
Print Assumptions c10_scratch_file_refuted.
Example c10_nonvacuous :
  let s := start w_hurdle w_used in
  let os := [OMetric MCrps None; OMembers (VInt 3); OAvg (VStr "time"); OMetric MRank None] in
  mem_off false (ob s) /\ truthy (a_wd (ob s)) = false /\ forallb not_enable os = true /\
  exists v, hd_error (fst (w_steps os s)) = Some (Ok v).
Proof.
  cbv zeta. split; [left; reflexivity|]. split; [reflexivity|]. split; [reflexivity|]. eexists. vm_compute. reflexivity.
Qed.
