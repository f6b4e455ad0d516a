(** Property C99: verifiers in one program do not disturb each other. *)
From Coq Require Import String Ascii QArith Qcanon ZArith Lia List Bool.
From Verif Require Import Num M_state Spec_state P_state P_codec Props_state P_foot NdArr M_many Spec_many P_many M_whole Props_whole.
Import ListNotations.
Open Scope string_scope.
Open Scope list_scope.
Open Scope nat_scope.

Section C99.
Variable lib : string -> list val -> res val.
Variable libr : string -> list val -> nat -> res val.
Variable str_of : val -> string.
Variable dumps : val -> string.
Variable loads : string -> res val.
Variable expanduser : string -> string.
Variable resolve : string -> path.
Variable points : val -> val -> val -> res (list num).
Variable less_memory : bool.
Variable integrate_wdir : option path.
Variable cwd : path.
Notation act := (act lib libr str_of dumps loads expanduser resolve points less_memory integrate_wdir cwd).
Notation run := (run lib libr str_of dumps loads expanduser resolve points less_memory integrate_wdir cwd).
Notation step := (step lib libr str_of dumps loads expanduser resolve points less_memory integrate_wdir cwd).
Notation dir_of := (dir_of expanduser resolve).
Notation good := (good expanduser resolve).
Notation quiet := (quiet less_memory).
Hypothesis home : forall s, expanduser (expanduser s) = expanduser s.

Section Proof.
Variable h : list (nat * action).
Variable i : nat.
Hypothesis Quiet : no_scratch less_memory h.
Hypothesis Apart : apart_from_others expanduser resolve h i.
Definition known (w : world) : Prop := forall j x, objs w j = Some x -> good (dir_of h j) x /\ quiet x.
Lemma new_good j x : In (j, New x) h -> good (dir_of h j) x /\ quiet x.
Proof.
  intros I. split.
  - intros w W N. split; exists w; (split; [exact N|]); (split; [left; eauto|]); auto.
  - destruct Quiet as [Q|Q]; [left; exact Q|right; eapply Q; eassumption].
Qed.
Lemma save_good j w sc : In (j, Call (OSave (VStr w) sc)) h -> w <> "" -> dir_of h j (resolve w) /\ dir_of h j (resolve (expanduser w)).
Proof. intros I N. split; exists w; (split; [exact N|]); (split; [right; eauto|]); auto. Qed.
Lemma act_known rng j a w r w1 : In (j, a) h -> known w -> act rng j a w = (r, w1) -> known w1 /\ frame (dir_of h j) (wdisk w) (wdisk w1).
Proof.
  intros I K E. destruct a as [x|o]; cbn [M_many.act] in E.
  - destruct (new_good j x I) as [G Q]. destruct (construct lib expanduser resolve x (wdisk w)) as [q k1] eqn:C. pose proof (construct_frame _ _ _ _ _ _ _ _ G C) as F.
    destruct (construct_mirrors lib expanduser resolve home (dir_of h j) x (wdisk w) q k1 G C) as [Y _].
    destruct q as [y|e]; injection E as <- <-; cbn; (split; [|exact F]); [|exact K].
    intros l z. cbn. unfold bind_name. destruct (Nat.eqb_spec l j) as [->|]; [|apply K]. intros X. injection X as <-. destruct (Y y eq_refl) as [Y1 Y2]. split; [exact Y1|]. eapply quiet_cl; eassumption.
  - destruct (objs w j) as [x|] eqn:O; [|injection E as <- <-; split; [exact K|apply frame_refl]]. destruct (K j x O) as [G Q].
    destruct (step rng o (mkSt x (wdisk w) (wpos w) [])) as [q s] eqn:S. injection E as <- <-.
    assert (Sv : forall w0 sc, o = OSave (VStr w0) sc -> w0 <> "" -> dir_of h j (resolve w0) /\ dir_of h j (resolve (expanduser w0))) by (intros w0 sc -> N; eapply save_good; eassumption).
    pose proof (step_frame _ _ _ _ _ _ _ _ _ _ _ (dir_of h j) rng o (mkSt x (wdisk w) (wpos w) []) q s Sv G Q S) as F.
    destruct (step_mirrors _ _ _ _ _ _ _ _ _ _ _ home (dir_of h j) o rng (mkSt x (wdisk w) (wpos w) []) q s Sv G Q S) as (G1 & Q1 & _). cbn. split; [|exact F].
    intros l z. cbn. unfold bind_name. destruct (Nat.eqb_spec l j) as [->|]; [|apply K]. intros X. injection X as <-. auto.
Qed.
Definition looks_same (w w' : world) : Prop := objs w' i = objs w i /\ sim (dir_of h i) (wdisk w) (wdisk w').
Lemma own_cons {A} j (a : A) l : own i ((j, a) :: l) = if Nat.eqb j i then (j, a) :: own i l else own i l.
Proof. reflexivity. Qed.
Lemma run_same rng : forall h', (forall e, In e h' -> In e h) -> forall w, known w ->
  exists f : nat -> nat, (forall a, exists b, f a = rng b) /\ forall w' rng', looks_same w w' -> (forall a, rng' (wpos w' + a) = f a) ->
  fst (run rng' (own i h') w') = own i (fst (run rng h' w)) /\ looks_same (snd (run rng h' w)) (snd (run rng' (own i h') w')).
Proof.
  induction h' as [|[j a] h' IH]; intros Sub w K.
  { exists rng. split; [eauto|]. intros w' rng' L _. cbn. split; [reflexivity|exact L]. }
  assert (Sub' : forall e, In e h' -> In e h) by (intros e He; apply Sub; right; exact He). pose proof (Sub _ (or_introl eq_refl)) as Ia.
  cbn [M_many.run]. destruct (act rng j a w) as [v w1] eqn:E. destruct (act_known rng j a w v w1 Ia K E) as [K1 F].
  destruct (IH Sub' w1 K1) as (f & Ff & Hf). destruct (Nat.eqb_spec j i) as [->|Ne].
  - (* a line of verifier i *)
    assert (M : exists m, forall w' rng', looks_same w w' -> (forall b, b < m -> rng' (wpos w' + b) = rng (wpos w + b)) ->
       exists w1', act rng' i a w' = (v, w1') /\ looks_same w1 w1' /\ wpos w1' = wpos w' + m).
    { destruct a as [x|o]; cbn [M_many.act] in *.
      - destruct (new_good i x Ia) as [G _]. destruct (construct lib expanduser resolve x (wdisk w)) as [q k1] eqn:C. exists 0. intros w' rng' [O S] _.
        destruct (construct_mirrors lib expanduser resolve home (dir_of h i) x (wdisk w) q k1 G C) as [_ Y]. destruct (Y (wdisk w') S) as (k1' & C' & S1). rewrite C'.
        destruct q as [y|e]; injection E as <- <-; cbn; eexists; (split; [reflexivity|]); (split; [|cbn; lia]).
        + split; cbn; [unfold bind_name; rewrite Nat.eqb_refl; reflexivity|exact S1].
        + split; cbn; [exact O|exact S1].
      - destruct (objs w i) as [x|] eqn:Ox.
        2:{ injection E as <- <-. exists 0. intros w' rng' [O S] _. rewrite O, Ox. exists w'. split; [reflexivity|]. split; [split; [congruence|exact S]|]. lia. }
        destruct (K i x Ox) as [G Q]. destruct (step rng o (mkSt x (wdisk w) (wpos w) [])) as [q s] eqn:St. injection E as <- <-.
        assert (Sv : forall w0 sc, o = OSave (VStr w0) sc -> w0 <> "" -> dir_of h i (resolve w0) /\ dir_of h i (resolve (expanduser w0))) by (intros w0 sc -> N; eapply save_good; eassumption).
        destruct (step_mirrors _ _ _ _ _ _ _ _ _ _ _ home (dir_of h i) o rng (mkSt x (wdisk w) (wpos w) []) q s Sv G Q St) as (G1 & Q1 & m & Pm & Mi). cbn [pos dk ob] in *.
        exists m. intros w' rng' [O S] Ag. rewrite O, Ox.
        destruct (Mi rng' (mkSt x (wdisk w') (wpos w') []) eq_refl S Ag) as (s1' & E1 & O1 & S1 & P1). rewrite E1. eexists. split; [reflexivity|].
        split; [split; cbn; [unfold bind_name; rewrite Nat.eqb_refl; congruence|exact S1]|exact P1]. }
    destruct M as (m & M).
    exists (fun b => if Nat.ltb b m then rng (wpos w + b) else f (b - m)). split.
    { intros b. destruct (Nat.ltb b m); eauto. }
    intros w' rng' L Ag. destruct (M w' rng' L) as (w1' & A1 & L1 & P1'). { intros b Hb. rewrite Ag. apply Nat.ltb_lt in Hb. rewrite Hb. reflexivity. }
    destruct (Hf w1' rng' L1) as [R1 R2]. { intros b. rewrite P1', <- Nat.add_assoc, Ag. destruct (Nat.ltb_spec (m + b) m); [lia|]. f_equal. lia. }
    rewrite own_cons, Nat.eqb_refl. cbn [M_many.run]. rewrite A1.
    destruct (run rng' (own i h') w1') as [vs' w2'] eqn:Er'. destruct (run rng h' w1) as [vs w2] eqn:Er. cbn [fst snd] in *. rewrite own_cons, Nat.eqb_refl. split; [congruence|exact R2].
  - (* a line of another verifier *)
    exists f. split; [exact Ff|]. intros w' rng' [O S] Ag.
    assert (L1 : looks_same w1 w').
    { split.
      - rewrite O. destruct a as [x|o]; cbn [M_many.act] in E.
        + destruct (construct lib expanduser resolve x (wdisk w)) as [[y|e] k1]; injection E as <- <-; cbn; [|reflexivity]. unfold bind_name. destruct (Nat.eqb_spec i j); [congruence|reflexivity].
        + destruct (objs w j) as [x|]; [|injection E as <- <-; reflexivity]. destruct (step rng o _) as [q s]. injection E as <- <-. cbn. unfold bind_name. destruct (Nat.eqb_spec i j); [congruence|reflexivity].
      - apply sim_trans with (wdisk w); [|exact S]. apply sim_sym. apply (frame_sim _ (dir_of h j)); [|exact F]. intros d e Hd He. apply (Apart j d e Ne Hd He). }
    destruct (Hf w' rng' L1 Ag) as [R1 R2]. rewrite own_cons. destruct (Nat.eqb_spec j i); [congruence|].
    destruct (run rng h' w1) as [vs w2] eqn:Er. cbn [fst snd] in *. rewrite own_cons. destruct (Nat.eqb_spec j i); [congruence|]. split; [exact R1|exact R2].
Qed.
End Proof.

(** A program makes any number of verifiers, with any arguments, and calls them in any order on one disk.  A verifier whose directories are
    apart from those of the others returns and raises exactly what it would if the other lines of the program were deleted, with suitable
    random numbers out of those drawn; and its directories end up with the same contents. *)
Theorem c99_separate_partial : forall rng h i k n, no_scratch less_memory h -> apart_from_others expanduser resolve h i ->
  let empty m := mkWorld (fun _ => None) k m in
  exists rng', (forall a, exists b, rng' a = rng b) /\
  fst (run rng' (own i h) (empty 0)) = own i (fst (run rng h (empty n))) /\
  forall d p, dir_of h i d -> under d p = true ->
    file (wdisk (snd (run rng' (own i h) (empty 0)))) p = file (wdisk (snd (run rng h (empty n)))) p /\
    isdir (wdisk (snd (run rng' (own i h) (empty 0)))) p = isdir (wdisk (snd (run rng h (empty n)))) p.
Proof.
  intros rng h i k n Q A empty.
  destruct (run_same h i Q A rng h (fun e H => H) (empty n)) as (f & Ff & Hf); [intros j x X; discriminate X|].
  exists f. split; [exact Ff|]. destruct (Hf (empty 0) f) as [R [_ [S1 S2]]]; [split; [reflexivity|apply sim_refl]|reflexivity|]. split; [exact R|].
  intros d p Hd U. split; symmetry; [apply S1|apply S2]; exists d; auto.
Qed.
End C99.
Print Assumptions c99_separate_partial.

(** With a shared directory the numbers of one verifier are returned by another.  Two verifiers of different forecasts work in "w"; the
    second is made with start_from_scratch=False. *)
Definition m_det (f o : num) (wd : string) (scratch : bool) : obj :=
  mkObj CDeterm (val_of (of_list NaN [1] [f])) (val_of (of_list NaN [1] [o])) VNone VNone (VStr wd) (VBool scratch)
    VNone VNone VNone VNone VNone VNone VNone VNone VNone VNone.
Definition m_resolve (s : string) : path := if String.eqb s "w/in" then ["w"; "in"] else [s].
Notation m_run := (run (whole_lib e_set w_lib) (whole_libr e_set w_libr) w_str w_dumps w_loads (fun s => s) m_resolve w_points false None [] (fun n => n)).
Definition m_start : world := mkWorld (fun _ => None) w_root 0.
Definition m_int (z : Z) : num := Fin (Q2Qc (inject_Z z)).
Definition m_shared : list (nat * action) :=
  [(0, New (m_det (m_int 1) (m_int 0) "w" true)); (0, Call (OMetric MError None));
   (1, New (m_det (m_int 0) (m_int 0) "w" false)); (1, Call (OMetric MError None))].
Definition m_single (z : Z) : val := val_of (of_list NaN [] [m_int z]).
Theorem c99_shared_refuted : exists h i v v', no_scratch false h /\
  own i (fst (m_run h m_start)) = [(i, Ok VNone); (i, Ok v)] /\ fst (m_run (own i h) m_start) = [(i, Ok VNone); (i, Ok v')] /\ v <> v'.
Proof.
  exists m_shared, 1, (m_single 1), (m_single 0). split; [left; reflexivity|]. split; [vm_compute; reflexivity|]. split; [vm_compute; reflexivity|]. vm_compute. discriminate.
Qed.
Print Assumptions c99_shared_refuted.
(** A verifier made in the parent directory removes the directory of the first; its next metric raises instead of returning a number. *)
Definition m_nested : list (nat * action) :=
  [(0, New (m_det (m_int 0) (m_int 0) "w/in" true)); (1, New (m_det (m_int 1) (m_int 0) "w" true)); (0, Call (OMetric MError None))].
Theorem c99_nested_refuted : exists h i v, no_scratch false h /\
  own i (fst (m_run h m_start)) = [(i, Ok VNone); (i, Raise FileNotFoundError)] /\ fst (m_run (own i h) m_start) = [(i, Ok VNone); (i, Ok v)].
Proof.
  exists m_nested, 0, (m_single 0). split; [left; reflexivity|]. split; vm_compute; reflexivity.
Qed.
Print Assumptions c99_nested_refuted.

(** Two verifiers in "w" and "v", called in turn; each gets its own numbers. *)
Definition m_apart : list (nat * action) :=
  [(0, New (m_det (m_int 1) (m_int 0) "w" true)); (0, Call (OMetric MError None));
   (1, New (m_det (m_int 0) (m_int 0) "v" false)); (1, Call (OMetric MError None)); (0, Call (OMetric MSqErr None)); (1, Call (OSave (VStr "v2") (VBool true)))].
Example c99_nonvacuous : no_scratch false m_apart /\ apart_from_others (fun s => s) m_resolve m_apart 1 /\ dir_of (fun s => s) m_resolve m_apart 1 ["v2"] /\
  own 1 (fst (m_run m_apart m_start)) = [(1, Ok VNone); (1, Ok (m_single 0)); (1, Ok VNone)] /\ own 0 (fst (m_run m_apart m_start)) = [(0, Ok VNone); (0, Ok (m_single 1)); (0, Ok (m_single 1))].
Proof.
  assert (Dir : forall j d, dir_of (fun s => s) m_resolve m_apart j d -> (j = 0 /\ d = ["w"]) \/ (j = 1 /\ (d = ["v"] \/ d = ["v2"]))).
  { intros j d (w & N & [(x & I & W)|(sc & I)] & E); cbn in I;
      repeat (destruct I as [I|I]; [first [discriminate I|injection I; intros; subst; cbn in *; first [injection W; intros; subst|idtac]; destruct E; subst; cbn; auto]|]); contradiction. }
  split; [left; reflexivity|]. split.
  { intros j d e Ne Hd He. apply Dir in Hd as [[Hd _]|[_ Hd]]; [discriminate Hd|]. apply Dir in He as [[_ ->]|[He _]]; [|congruence]. destruct Hd as [->| ->]; split; reflexivity. }
  split. { exists "v2". split; [discriminate|]. split; [right; exists (VBool true); cbn; tauto|left; reflexivity]. }
  split; vm_compute; reflexivity.
Qed.
