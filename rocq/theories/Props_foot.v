(** Property C88: the files a verifier touches. *)
From Coq Require Import String Ascii QArith Qcanon ZArith Lia List Bool.
From Verif Require Import Num M_state Spec_state P_state P_codec Props_state Spec_foot P_foot.
Import ListNotations.
Open Scope string_scope.
Open Scope list_scope.
Open Scope nat_scope.

Section C88.
Variable lib : string -> list val -> res val.
Variable libr : string -> list val -> nat -> res val.
Variable str_of : val -> string.
Variable dumps : val -> string.
Variable loads : string -> res val.
Variable expanduser : string -> string.
Variable resolve : string -> path.
Variable points : val -> val -> val -> res (list num).
Variable less_memory : bool.
Variable integrate_wdir : option path.
Variable cwd : path.
Variable rng : nat -> nat.
Notation step := (step lib libr str_of dumps loads expanduser resolve points less_memory integrate_wdir cwd rng).
Notation steps := (steps lib libr str_of dumps loads expanduser resolve points less_memory integrate_wdir cwd rng).
Notation footprint := (footprint loads dumps resolve less_memory integrate_wdir cwd).
Notation scratch_file := (scratch_file resolve integrate_wdir cwd).

(** A metric call, whether it returns or raises, leaves the object as it is, makes and removes no directory, and changes no file but:
    results that were missing (or held None) in the working directory, and for hurdle forecasts in less memory the scratch file,
    which lies in the directory of the setting, else in the working directory, else in the current one. *)
Theorem c88_metric_footprint : forall o s r s', metric_op o = true -> step o s = (r, s') -> ob s' = ob s /\ footprint (ob s) (dk s) (dk s').
Proof. intros o s r s' M E. destruct (step_foot _ _ _ _ _ _ _ _ _ _ _ _ o s r s' M E) as (A & B & _). split; assumption. Qed.
(** A metric call that returns leaves no scratch file behind that was not there. *)
Theorem c88_scratch_removed : forall o s v s' p, metric_op o = true -> step o s = (Ok v, s') -> scratch_file (a_wd (ob s)) p ->
  file (dk s') p = file (dk s) p \/ file (dk s') p = None.
Proof. intros o s v s' p M E Sc. destruct (step_foot _ _ _ _ _ _ _ _ _ _ _ _ o s _ s' M E) as (_ & _ & G). apply G; eauto. Qed.

(** Whole histories of calls and settings: everything outside the directories named as working directories, and the scratch file, is as it was. *)
Hypothesis home : forall s, expanduser (expanduser s) = expanduser s.
Definition inside (x0 : obj) (W : list val) (x : obj) : Prop :=
  cl x = cl x0 /\ forall w, a_wd x = VStr w -> w <> "" -> exists w0, In (VStr w0) W /\ w0 <> "" /\ (w = w0 \/ w = expanduser w0).
Lemma validate_saving_wd x k r x1 k1 : validate_saving expanduser resolve x k = (r, x1, k1) ->
  cl x1 = cl x /\ (a_wd x1 = a_wd x \/ exists w, a_wd x = VStr w /\ w <> "" /\ a_wd x1 = VStr (expanduser w)).
Proof.
  unfold M_state.validate_saving. destruct (truthy (a_wd x)) eqn:T; [|intros E; injection E as _ <- _; auto]. destruct (a_wd x) as [| | | |w| | | | | |] eqn:W; try (intros E; injection E as _ <- _; auto; fail).
  assert (N : w <> "") by (intros ->; discriminate T). cbv zeta.
  assert (P : cl (put_wd (VStr (expanduser w)) x) = cl x /\ (a_wd (put_wd (VStr (expanduser w)) x) = VStr w \/ exists w', VStr w = VStr w' /\ w' <> "" /\ a_wd (put_wd (VStr (expanduser w)) x) = VStr (expanduser w'))) by (split; [reflexivity|right; exists w; auto]).
  destruct (exists_at _ _).
  - destruct (truthy (a_scratch _)); [|intros E; injection E as _ <- _; exact P]. destruct (rmtree _ _) as [k2|]; [|intros E; injection E as _ <- _; exact P]. destruct (makedirs _ _); intros E; injection E as _ <- _; exact P.
  - destruct (makedirs _ _); intros E; injection E as _ <- _; exact P.
Qed.
Lemma validate_class_same x : cl (snd (validate_class x)) = cl x /\ a_wd (snd (validate_class x)) = a_wd x.
Proof.
  unfold validate_class. destruct (cl x) eqn:C; cbn [snd]; auto. unfold validate_ensemble. destruct (negb _); [auto|].
  destruct (if is_none _ then _ else _); cbn [snd]; auto.
Qed.
Lemma validate_wd x k r x1 k1 : validate expanduser resolve x k = (r, x1, k1) ->
  cl x1 = cl x /\ (a_wd x1 = a_wd x \/ exists w, a_wd x = VStr w /\ w <> "" /\ a_wd x1 = VStr (expanduser w)).
Proof.
  unfold M_state.validate, M_state.validate_base. destruct (validate_avg x) as [r0 y] eqn:A.
  assert (Y : cl y = cl x /\ a_wd y = a_wd x).
  { unfold validate_avg in A. injection A as _ <-. destruct (is_none _); [auto|]. destruct (is_int _); cbn [a_avg put_avg]; [auto|]. destruct (a_avg x); auto. }
  destruct Y as [Y1 Y2]. destruct r0 as [u|e]; [|intros E; injection E as _ <- _; auto].
  destruct (is_none (a_boot y) || is_int (a_boot y)); [|intros E; injection E as _ <- _; auto]. destruct (is_bool (a_scratch y)); [|intros E; injection E as _ <- _; auto].
  destruct (M_state.validate_saving expanduser resolve y k) as [[r1 z] k2] eqn:V. apply validate_saving_wd in V as [Z1 Z2]. rewrite Y1 in Z1. rewrite Y2 in Z2.
  destruct r1 as [u'|e]; [|intros E; injection E as _ <- _; auto]. destruct (validate_class_same z) as [C1 C2]. destruct (validate_class z) as [r2 z2]. cbn [snd] in C1, C2. intros E; injection E as _ <- _. rewrite C1, C2. auto.
Qed.
Lemma set_inside x0 W x s : inside x0 W x ->
  inside x0 W (ob (snd (set_and_validate expanduser resolve x s))) /\
  forall p, file (dk (snd (set_and_validate expanduser resolve x s))) p = file (dk s) p \/ exists w d, In (VStr w) W /\ w <> "" /\ d = resolve (expanduser w) /\ under d p = true.
Proof.
  intros [C I]. unfold set_and_validate. destruct (validate expanduser resolve x (dk s)) as [[r x1] k1] eqn:V. cbn [snd ob dk]. destruct (validate_wd _ _ _ _ _ V) as [C1 W1]. split.
  - split; [congruence|]. intros w Ew N. destruct W1 as [W1|(w1 & Ew1 & N1 & W1)]; [apply I; [congruence|exact N]|].
    destruct (I w1 Ew1 N1) as (w0 & I0 & N0 & D). exists w0. split; [exact I0|]. split; [exact N0|]. right. rewrite W1 in Ew. injection Ew as <-. destruct D as [->| ->]; [reflexivity|apply home].
  - intros p. destruct (truthy (a_wd x)) eqn:T.
    + assert (S : (exists w, a_wd x = VStr w) \/ k1 = dk s).
      { destruct (validate_disk _ _ _ _ _ _ _ V) as [[-> _]|(y & r0 & z & Y1 & _ & _ & VS & _)]; [auto|]. unfold M_state.validate_saving in VS. rewrite Y1, T in VS. destruct (a_wd x); eauto; right; congruence. }
      destruct S as [[w W0]| ->]; [|left; reflexivity]. rewrite W0 in T.
      assert (N : w <> "") by (intros ->; discriminate T). destruct (I w W0 N) as (w0 & I0 & N0 & D).
      destruct (validate_scope expanduser resolve x (dk s) r x1 k1 w W0 N V) as ([O _] & _). destruct (under (resolve (expanduser w)) p) eqn:U; [|left; apply (O p U)].
      right. exists w0, (resolve (expanduser w)). split; [exact I0|]. split; [exact N0|]. split; [|exact U]. destruct D as [->| ->]; [reflexivity|rewrite home; reflexivity].
    + left. destruct (validate_disk _ _ _ _ _ _ _ V) as [[-> _]|(y & r0 & z & Y1 & _ & _ & VS & _)]; [reflexivity|]. unfold M_state.validate_saving in VS. rewrite Y1, T in VS. injection VS as _ _ <-. reflexivity.
Qed.
Lemma inside_put x0 W x y : inside x0 W x -> cl y = cl x -> a_wd y = a_wd x -> inside x0 W y.
Proof. intros [A B] C D. split; [congruence|]. rewrite D. exact B. Qed.
Notation place_of := (place_of expanduser resolve less_memory integrate_wdir cwd).
Lemma under_snoc d c : under d (d ++ [c]) = true.
Proof. apply under_spec. exists [c]. reflexivity. Qed.
Theorem c88_history : forall os s p, file (dk (snd (steps os s))) p <> file (dk s) p -> place_of (ob s) os p.
Proof.
  intros os s p. set (W := a_wd (ob s) :: flat_map given os).
  assert (G : forall os' s', inside (ob s) W (ob s') -> (forall v, In v (flat_map given os') -> In v W) -> file (dk (snd (steps os' s'))) p <> file (dk s') p -> place_of (ob s) os p).
  { induction os' as [|o os' IH]; intros s' I Sub Ne; [elim Ne; reflexivity|]. cbn [M_state.steps] in Ne. destruct (step o s') as [r s1] eqn:E. destruct (steps os' s1) as [vs s2] eqn:Es. cbn [snd] in Ne.
    assert (Next : inside (ob s) W (ob s1) -> (file (dk s1) p = file (dk s') p \/ place_of (ob s) os p) -> place_of (ob s) os p).
    { intros I1 [D|D]; [|exact D]. apply (IH s1 I1); [intros v Hv; apply Sub; cbn [flat_map]; apply in_or_app; right; exact Hv|]. rewrite Es. cbn [snd]. congruence. }
    assert (SetV : forall x, inside (ob s) W x -> set_and_validate expanduser resolve x s' = (r, s1) -> place_of (ob s) os p).
    { intros x Ix Ex. destruct (set_inside (ob s) W x s' Ix) as [J K]. rewrite Ex in J, K. cbn [snd] in J, K. apply Next; [exact J|]. destruct (K p) as [K1|(w & d & K1 & K2 & K3 & K4)]; [left; exact K1|].
      right. left. exists d. split; [|exact K4]. exists w. auto. }
    assert (Only : forall (b : bool) x, inside (ob s) W x -> (if b then set_and_validate expanduser resolve x s' else (Raise AttributeError, s')) = (r, s1) -> place_of (ob s) os p).
    { intros b x Ix. destruct b; [apply SetV, Ix|]. intros X. injection X as _ <-. apply Next; auto. }
    destruct (metric_op o) eqn:M.
    - destruct (c88_metric_footprint o s' r s1 M E) as [O [_ F]]. apply Next; [rewrite O; exact I|]. destruct I as [C I]. destruct (F p) as [F1|[((w & n & W1 & W2 & W3) & _)|(F1 & F2 & (d & F3 & F4))]]; [left; exact F1|right|right].
      + destruct (I w W1 W2) as (w0 & I1 & I2 & I3). left. exists (resolve w). split; [|rewrite W3; apply under_snoc]. exists w0. split; [exact I1|]. split; [exact I2|]. destruct I3 as [->| ->]; auto.
      + destruct F3 as [d Sd|w Sd W1 W2|Sd _].
        * right. split; [exact F1|]. split; [congruence|]. exists d. auto.
        * destruct (I w W1 W2) as (w0 & I1 & I2 & I3). left. exists (resolve w). split; [|rewrite F4; apply under_snoc]. exists w0. split; [exact I1|]. split; [exact I2|]. destruct I3 as [->| ->]; auto.
        * right. split; [exact F1|]. split; [congruence|]. exists cwd. auto.
    - destruct o; try discriminate M; unfold M_state.step in E; cbv zeta in E; try (eapply SetV; [|exact E]; eapply inside_put; [exact I|reflexivity|reflexivity]);
        try (eapply Only; [|exact E]; eapply inside_put; [exact I|reflexivity|reflexivity]).
      + injection E as _ <-. apply Next; [eapply inside_put; [exact I|reflexivity|reflexivity]|left; reflexivity].
      + eapply SetV; [|exact E]. destruct I as [C I]. split; [exact C|]. cbn [a_wd put_scratch put_wd]. intros w -> Nw. exists w. split; [apply Sub; left; reflexivity|]. auto.
      + injection E as _ <-. apply Next; [|left; reflexivity]. destruct I as [C I]. split; [exact C|]. cbn. discriminate. }
  apply G; [|intros v Hv; right; exact Hv]. split; [reflexivity|]. intros w Ew Nw. exists w. split; [left; exact Ew|]. auto.
Qed.
End C88.
Print Assumptions c88_metric_footprint.
Print Assumptions c88_scratch_removed.
Print Assumptions c88_history.


(** A call that fails while it integrates leaves the scratch file behind. *)
Definition w_failing (n : string) (args : list val) : res val := if String.eqb n "cdf_gamma_hurdle" then Raise ValueError else w_lib n args.
Notation w_step_f := (step w_failing w_libr w_str w_dumps w_loads (fun s => s) w_resolve w_points true None [] (fun n => n)).
Theorem c88_scratch_left_refuted : exists x k x1 o p e,
  construct w_failing (fun s => s) w_resolve x k = (Ok x1, k) /\ metric_op o = true /\ scratch_file w_resolve None [] (a_wd x1) p /\
  fst (w_step_f o (start x1 k)) = Raise e /\ file k p = None /\ file (dk (snd (w_step_f o (start x1 k)))) p <> None.
Proof.
  exists w_hurdle, w_root. eexists. exists (OMetric MCrps None), ["__pyanen_numerical_integration__.dat"], ValueError.
  split; [reflexivity|]. split; [reflexivity|]. split; [exists []; split; [apply by_current; auto|reflexivity]|].
  split; [vm_compute; reflexivity|]. split; [reflexivity|]. vm_compute. discriminate.
Qed.
Print Assumptions c88_scratch_left_refuted.
(** A hurdle verifier that saves in "w": the mean and the variance are computed through the scratch file w/__pyanen_numerical_integration__.dat,
    results appear beside old.txt, which stays; then saving is turned off. *)
Definition w_saving : obj := put_scratch (VBool false) (put_wd (VStr "w") w_hurdle).
Example c88_nonvacuous :
  let s := start w_saving w_used in
  let s1 := snd (w_step_m true (OMetric MCrps None) s) in
  let s2 := snd (w_steps_m true [OMetric MCrps None; ONoSave; OMetric MDeterm None] s) in
  (exists v, fst (w_step_m true (OMetric MCrps None) s) = Ok v) /\
  file (dk s1) ["w"; "crps.pkl"] <> None /\ file (dk s1) ["w"; "__pyanen_numerical_integration__.dat"] = None /\
  In (EvWrite ["w"; "__pyanen_numerical_integration__.dat"] "") (events s1) /\
  In (EvWrite ["__pyanen_numerical_integration__.dat"] "") (events s2) /\ ~ In (EvWrite ["__pyanen_numerical_integration__.dat"] "") (events s1) /\
  file (dk s2) ["w"; "old.txt"] = Some "a" /\ file (dk s2) ["other.txt"] = Some "b".
Proof.
  cbv zeta. split; [eexists; vm_compute; reflexivity|]. split; [vm_compute; discriminate|]. split; [vm_compute; reflexivity|].
  split; [vm_compute; tauto|]. split; [vm_compute; tauto|]. split; [vm_compute; intuition discriminate|]. split; vm_compute; reflexivity.
Qed.
