(** More about verifier objects: reused directories, effect of setters on the
    disk, rejected calls, interrupted writes, names. *)
From Coq Require Import String Ascii QArith Qcanon ZArith Lia List Bool.
From Verif Require Import Num M_state Spec_state P_state.
Import ListNotations.
Open Scope string_scope.
Open Scope list_scope.
Open Scope nat_scope.

Section Proofs.
Variable lib : string -> list val -> res val.
Variable libr : string -> list val -> nat -> res val.
Variable str_of : val -> string.
Variable dumps : val -> string.
Variable loads : string -> res val.
Variable expanduser : string -> string.
Variable resolve : string -> path.
Variable points : val -> val -> val -> res (list num).
Variable less_memory : bool.
Variable integrate_wdir : option path.
Variable cwd : path.
Variable rng : nat -> nat.

Notation default_name := (default_name str_of).
Notation to_name := (to_name str_of).
Notation metric := (metric lib libr str_of dumps loads resolve points less_memory integrate_wdir cwd rng).
Notation step := (step lib libr str_of dumps loads expanduser resolve points less_memory integrate_wdir cwd rng).
Notation steps := (steps lib libr str_of dumps loads expanduser resolve points less_memory integrate_wdir cwd rng).
Notation validate := (validate expanduser resolve).
Notation validate_saving := (validate_saving expanduser resolve).
Notation construct := (construct lib expanduser resolve).
Notation set_and_validate := (set_and_validate expanduser resolve).
Notation Coh := (Coh lib libr str_of dumps resolve points less_memory).
Notation vobj := (vobj expanduser).

(** ** Names *)

Lemma prefix_app a b : String.prefix a (a ++ b) = true.
Proof.
  induction a as [|c a IH]; simpl; [destruct b; reflexivity|].
  destruct (Ascii.ascii_dec c c); [exact IH|contradiction].
Qed.
Lemma prefix_split a : forall s, String.prefix a s = true -> exists r, s = (a ++ r)%string.
Proof.
  induction a as [|c a IH]; intros s H; [exists s; reflexivity|].
  destruct s as [|c' s]; [discriminate|]. simpl in H.
  destruct (Ascii.ascii_dec c c') as [<-|]; [|discriminate].
  destruct (IH s H) as [r ->]. exists r. reflexivity.
Qed.
Lemma substring_all s : String.substring 0 (String.length s) s = s.
Proof. induction s; simpl; congruence. Qed.
Lemma drop_app a b : drop_str (String.length a) (a ++ b) = b.
Proof.
  unfold drop_str. rewrite slen_app. replace (String.length a + String.length b - String.length a) with (String.length b) by lia.
  induction a as [|c a IH]; simpl; [apply substring_all|]. exact IH.
Qed.
Lemma us_get s i : String.get i (us s) =
  option_map (fun c => if Ascii.eqb c " " then "_"%char else c) (String.get i s).
Proof. revert i. induction s as [|c s IH]; intros [|i]; simpl; auto. Qed.

Fixpoint args_text (kw : list (string * val)) : string :=
  match kw with
  | [] => ""
  | (k, v) :: r => ("_" ++ k ++ "_" ++ us (str_of v) ++ args_text r)%string
  end.
Lemma sapp_assoc a b c : ((a ++ b) ++ c = a ++ b ++ c)%string.
Proof. induction a; simpl; congruence. Qed.
Lemma join_args s kw :
  join_us (s :: map (fun p => (fst p ++ "_" ++ us (str_of (snd p)))%string) kw) = (s ++ args_text kw)%string.
Proof.
  revert s. induction kw as [|[k v] kw IH]; intro s; [symmetry; apply sapp_nil|].
  change (join_us (s :: map (fun p => (fst p ++ "_" ++ us (str_of (snd p)))%string) ((k, v) :: kw)))
    with (s ++ "_" ++ join_us ((k ++ "_" ++ us (str_of v)) :: map (fun p => (fst p ++ "_" ++ us (str_of (snd p)))%string) kw))%string.
  rewrite IH. simpl. rewrite !sapp_assoc. reflexivity.
Qed.
Lemma render_short kw : Forall (fun p => short_enough (snd p) = Ok true) kw ->
  render_args str_of kw = Ok (Some (map (fun p => (fst p ++ "_" ++ us (str_of (snd p)))%string) kw)).
Proof.
  induction 1 as [|[k v] kw H _ IH]; [reflexivity|]. simpl in *. rewrite H. simpl. rewrite IH. reflexivity.
Qed.
Lemma render_long kw : Forall (fun p => short_enough (snd p) = Ok true \/ short_enough (snd p) = Ok false) kw ->
  Exists (fun p => short_enough (snd p) = Ok false) kw -> render_args str_of kw = Ok None.
Proof.
  induction 1 as [|[k v] kw H F IH]; intro E; [inversion E|]. simpl in *.
  inversion E as [? ? E1|? ? E1]; subst; simpl in *.
  - rewrite E1. reflexivity.
  - destruct H as [->| ->]; simpl; [|reflexivity]. rewrite (IH E1). reflexivity.
Qed.

(** ** Reused directories: boot_samples *)

Record InvF (x : obj) (k : disk) : Prop := {
  f_mem : mem_off less_memory x;
  f_avg : avg_ok (a_avg x) = true;
  f_scratch : a_scratch x = VBool false;
  f_exp : forall s, a_wd x = VStr s -> truthy (a_wd x) = true -> expanduser s = s;
  f_class : validate_class x = (Ok tt, x);
  f_coh : Coh false x k
}.

Lemma norm_ok v : avg_ok v = true -> norm_avg v = v.
Proof. destruct v; try discriminate; reflexivity. Qed.

Lemma validate_class_boot v x :
  validate_class (put_boot v x) = (fst (validate_class x), put_boot v (snd (validate_class x))).
Proof.
  unfold validate_class. change (cl (put_boot v x)) with (cl x).
  destruct (cl x); try reflexivity.
  unfold validate_ensemble.
  change (guess_axis (put_boot v x)) with (guess_axis x).
  cbn [a_f a_o a_eaxis a_collapse put_boot].
  destruct (negb (is_arr (a_f x) && is_arr (a_o x))); [reflexivity|].
  destruct (if is_none (a_eaxis x) then guess_axis x
            else if is_int (a_eaxis x) then Ok (a_eaxis x) else Raise AssertionError);
    reflexivity.
Qed.
Lemma validate_class_fc v x :
  validate_class (put_fc v x) = (fst (validate_class x), put_fc v (snd (validate_class x))).
Proof.
  unfold validate_class. change (cl (put_fc v x)) with (cl x).
  destruct (cl x); try reflexivity.
  unfold validate_ensemble.
  change (guess_axis (put_fc v x)) with (guess_axis x).
  cbn [a_f a_o a_eaxis a_collapse put_fc].
  destruct (negb (is_arr (a_f x) && is_arr (a_o x))); [reflexivity|].
  destruct (if is_none (a_eaxis x) then guess_axis x
            else if is_int (a_eaxis x) then Ok (a_eaxis x) else Raise AssertionError);
    reflexivity.
Qed.
Lemma guess_int x v : guess_axis x = Ok v -> is_none v = false /\ is_int v = true.
Proof.
  unfold guess_axis. destruct (arr_shape (a_f x)); [discriminate|].
  destruct (list_nat_eqb _ _); [intro H; injection H as <-; auto|].
  destruct (list_nat_eqb _ _); [intro H; injection H as <-; auto|discriminate].
Qed.
Lemma validate_class_idem x x1 : validate_class x = (Ok tt, x1) -> validate_class x1 = (Ok tt, x1).
Proof.
  intro H.
  assert (C : cl x1 = cl x).
  { pose proof (proj1 (validate_class_keeps x)) as C. rewrite H in C. exact C. }
  destruct (cl x) eqn:CL;
    try (assert (E : x1 = x) by (unfold validate_class in H; rewrite CL in H; injection H as _ H; congruence);
         subst x1; exact H).
  unfold validate_class in *. rewrite CL in H. rewrite C. unfold validate_ensemble in *.
  destruct (negb (is_arr (a_f x) && is_arr (a_o x))) eqn:A; [discriminate|].
  destruct (if is_none (a_eaxis x) then guess_axis x
            else if is_int (a_eaxis x) then Ok (a_eaxis x) else Raise AssertionError) as [ax|e] eqn:G;
    [|discriminate].
  assert (I : is_none ax = false /\ is_int ax = true).
  { destruct (is_none (a_eaxis x)) eqn:N; [eapply guess_int, G|].
    destruct (is_int (a_eaxis x)) eqn:I; [|discriminate]. injection G as <-. auto. }
  cbv zeta in H. injection H as H E. subst x1.
  cbn [a_f a_o a_eaxis a_collapse put_eaxis] in *. rewrite A, (proj1 I), (proj2 I). cbv zeta.
  exact (f_equal2 pair H eq_refl).
Qed.

Lemma coh_boot tr v x k : mem_off less_memory x -> Coh tr x k -> Coh tr (put_boot v x) k.
Proof.
  intros M [A B C]. split; [exact A|exact B|].
  intros p b T F s m n W K R N E.
  assert (NB : not_boot m = true) by (destruct m; try reflexivity; discriminate N).
  assert (R' : random_value x m = false) by (destruct m; try discriminate NB; exact R).
  destruct (C p b T F s m n W K R' N E) as [w [V O]].
  exists w. split; [|exact O]. rewrite value_boot; assumption.
Qed.

Lemma boot_setter x k v : InvF x k -> boot_type v = true ->
  validate (put_boot v x) k = (Ok tt, put_boot v x, k) /\ InvF (put_boot v x) k.
Proof.
  intros [M A S E CL C] B.
  assert (IN : InvF (put_boot v x) k).
  { split; auto; [rewrite validate_class_boot, CL; reflexivity|apply coh_boot; assumption]. }
  split; [|exact IN].
  unfold validate, M_state.validate, validate_base, M_state.validate_base. rewrite validate_avg_eq.
  cbn [a_avg put_boot]. rewrite (norm_ok _ A), A. simpl passert. cbv iota beta.
  replace (put_avg (a_avg x) (put_boot v x)) with (put_boot v x) by (destruct x; reflexivity).
  cbn [a_boot put_boot a_scratch]. unfold boot_type in B. rewrite B, S. simpl is_bool. cbv iota.
  unfold M_state.validate_saving. cbn [a_wd put_boot].
  destruct (truthy (a_wd x)) eqn:T.
  - destruct (coh_wd _ _ _ _ _ _ _ _ _ _ C T) as [s W]. rewrite W. cbv zeta.
    rewrite (E s W eq_refl).
    destruct (coh_dir _ _ _ _ _ _ _ _ _ _ C s T W) as [D _].
    unfold exists_at. rewrite D. cbn [orb a_scratch put_wd put_boot]. rewrite S. cbn [truthy].
    replace (put_wd (VStr s) (put_boot v x)) with (put_boot v x)
      by (destruct x; simpl in W; subst; reflexivity).
    rewrite validate_class_boot, CL. reflexivity.
  - rewrite validate_class_boot, CL. reflexivity.
Qed.

Hypothesis TX : text_faithful str_of.
Hypothesis PK : pickle_faithful dumps loads.

(** Metric calls and changes of boot_samples. *)
Definition boot_op (o : op) : Prop :=
  match o with OBoot v => boot_type v = true | ONoBoot => True | _ => calm_metric o end.

Lemma boot_step o s t : boot_op o -> InvF (ob s) (dk s) -> ob t = put_wd VNone (ob s) ->
  InvF (ob (snd (step o s))) (dk (snd (step o s))) /\
  ob (snd (step o t)) = put_wd VNone (ob (snd (step o s))) /\
  (no_draw (ob s) o -> fst (step o s) = fst (step o t)).
Proof.
  intros BO IN OT.
  assert (MET : calm_metric o ->
    InvF (ob (snd (step o s))) (dk (snd (step o s))) /\
    ob (snd (step o t)) = put_wd VNone (ob (snd (step o s))) /\
    (no_draw (ob s) o -> fst (step o s) = fst (step o t))).
  { intro CM. destruct (step o s) as [r s1] eqn:E.
    destruct (step_quiet _ _ _ _ _ expanduser _ _ _ integrate_wdir cwd rng TX PK false o s r s1 CM (f_mem _ _ IN) (f_coh _ _ IN) E) as [Q V].
    assert (O1 : ob s1 = ob s) by apply Q.
    cbn [fst snd]. rewrite O1. split; [|split].
    - destruct IN as [M A S EX CL C]. split; auto. eapply quiet_coh; [exact Q|exact C].
    - destruct (step o t) as [rt t1] eqn:ET.
      assert (MT : mem_off less_memory (ob t)) by (rewrite OT; apply (f_mem _ _ IN)).
      assert (CT : Coh false (ob t) (dk t)) by (apply off_coh; rewrite OT; reflexivity).
      destruct (step_quiet _ _ _ _ _ expanduser _ _ _ integrate_wdir cwd rng TX PK false o t rt t1 CM MT CT ET) as [(_ & QT & _) _].
      cbn [snd]. rewrite QT. exact OT.
    - intro ND. destruct (V ND t OT) as [H|[H _]]; [exact H|discriminate]. }
  destruct o; try (exact (MET BO)).
  - cbn [boot_op] in BO. clear MET. unfold step, M_state.step. cbv zeta. unfold M_state.set_and_validate.
    destruct (boot_setter (ob s) (dk s) v IN BO) as [V I1]. rewrite V.
    assert (IT : InvF (ob t) (dk t)).
    { rewrite OT. destruct IN as [M A S E CL C]. split; auto.
      - intros. discriminate.
      - rewrite validate_class_wd, CL. reflexivity.
      - apply off_coh. reflexivity. }
    destruct (boot_setter (ob t) (dk t) v IT BO) as [VT _]. rewrite VT. cbn [fst snd ob dk].
    split; [exact I1|]. split; [rewrite OT; reflexivity|reflexivity].
  - clear MET. unfold step, M_state.step. cbv zeta. cbn [fst snd ob dk with_ob].
    destruct (boot_setter (ob s) (dk s) VNone IN eq_refl) as [_ I1].
    split; [exact I1|]. split; [rewrite OT; reflexivity|reflexivity].
Qed.

Lemma boot_steps os : forall s t, Forall boot_op os -> InvF (ob s) (dk s) -> ob t = put_wd VNone (ob s) ->
  InvF (ob (snd (steps os s))) (dk (snd (steps os s))) /\
  ob (snd (steps os t)) = put_wd VNone (ob (snd (steps os s))).
Proof.
  induction os as [|o os IH]; intros s t F IN OT.
  - simpl. auto.
  - inversion F; subst. rewrite !steps_cons. cbn [snd].
    destruct (boot_step o s t) as (I1 & O1 & _); auto.
Qed.

(** The directory is missing or empty. *)
Definition empty_dir (d : path) (k : disk) : Prop :=
  forall p, under d p = true -> file k p = None /\ (isdir k p = true -> p = d).

Lemma reuse_inv x k x1 k1 :
  (forall s, expanduser (expanduser s) = expanduser s) ->
  mem_off less_memory x -> disk_wf k -> a_scratch x = VBool false ->
  (forall s, a_wd x = VStr s -> empty_dir (resolve (expanduser s)) k) ->
  construct x k = (Ok x1, k1) -> InvF x1 k1.
Proof.
  intros EX M WF SC EM H.
  destruct (construct_disk _ _ _ _ _ _ _ H) as [x2 [V [W C1]]].
  pose proof (validate_obj _ _ _ _ _ _ _ V) as X2.
  assert (R1 : exists v, x1 = put_fc v x2).
  { unfold construct, M_state.construct in H. rewrite V in H.
    assert (SELF : exists v, x2 = put_fc v x2) by (exists (a_fc x2); destruct x2; reflexivity).
    destruct (cl x) eqn:C; try (injection H as <-; exact SELF).
    destruct (lib "collapse" [a_collapse x2; a_f x2; a_eaxis x2]) as [v|]; [|discriminate H].
    injection H as <-. exists v. reflexivity. }
  destruct R1 as [fc R1].
  assert (B2 : avg_ok (a_avg x2) = true /\ a_scratch x2 = VBool false /\ validate_class x2 = (Ok tt, x2) /\
    forall x', a_wd x' = a_wd x2 -> Coh false x' k1).
  { unfold validate, M_state.validate, validate_base, M_state.validate_base in V. rewrite validate_avg_eq in V.
    cbn [a_avg put_fc] in V.
    destruct (avg_ok (norm_avg (a_avg x))) eqn:AO; simpl passert in V; cbv iota beta in V; [|discriminate].
    cbn [a_boot a_scratch put_avg put_fc] in V.
    destruct (is_none (a_boot x) || is_int (a_boot x)); [|discriminate].
    rewrite SC in V. cbn [is_bool] in V.
    unfold M_state.validate_saving in V. cbn [a_wd put_avg put_fc] in V.
    destruct (truthy (a_wd x)) eqn:T.
    - destruct (a_wd x) as [| | | |s| | | | | |] eqn:WX; try discriminate V. cbv zeta in V.
      cbn [a_scratch put_wd put_avg put_fc] in V. rewrite SC in V. cbn [truthy] in V.
      specialize (EM s eq_refl). set (d := resolve (expanduser s)) in *.
      set (y := put_wd (VStr (expanduser s)) (put_avg (norm_avg (a_avg x)) (put_fc VNone x))) in *.
      assert (G : exists kk, (let (r, x3) := validate_class y in (r, x3, kk)) = (Ok tt, x2, k1) /\
        clean d kk).
      { destruct (exists_at k d) eqn:XD.
        - exists k. split; [exact V|].
          assert (D : isdir k d = true).
          { unfold exists_at in XD. destruct (EM d (under_self d)) as [F _]. rewrite F, orb_false_r in XD. exact XD. }
          split; [exact D|]. split; [apply wf_no_ancestor; assumption|].
          split; intro n.
          + destruct (EM (d ++ [n]) (under_app d [n])) as [F I].
            destruct (isdir k (d ++ [n])); [|reflexivity]. pose proof (I eq_refl) as L.
            apply (f_equal (@length string)) in L. rewrite app_length in L. simpl in L. lia.
          + apply (EM (d ++ n)). apply under_app.
        - destruct (makedirs d k) as [k2|e] eqn:MK; [|discriminate V]. exists k2. split; [exact V|].
          pose proof (makedirs_files _ _ _ MK) as [F I].
          split; [rewrite I, under_self; reflexivity|].
          split. { unfold ancestor_is_file. rewrite F. unfold makedirs in MK. unfold ancestor_is_file in MK.
                   destruct (existsb _ (seq 0 (length d))); [discriminate|reflexivity]. }
          split; intro n.
          + rewrite I, not_under_longer. destruct (isdir k (d ++ [n])) eqn:Y; [|reflexivity].
            destruct (EM (d ++ [n]) (under_app d [n])) as [_ L]. specialize (L Y).
            apply (f_equal (@length string)) in L. rewrite app_length in L. simpl in L. lia.
          + rewrite F. apply (EM (d ++ n)). apply under_app. }
      destruct G as [kk [G CLN]]. destruct (validate_class y) as [r x3] eqn:VC.
      injection G as -> -> ->.
      pose proof (validate_class_keeps y) as KP. rewrite VC in KP. cbn [snd] in KP.
      destruct KP as (_ & KA & _ & KW & KS).
      split; [rewrite KA; exact AO|]. split; [rewrite KS; exact SC|].
      split; [eapply validate_class_idem, VC|].
      intros x' W'. apply (clean_coh _ _ _ _ _ _ _ _ _ _ (expanduser s)); [rewrite W'; exact KW|exact CLN].
    - set (y := put_avg (norm_avg (a_avg x)) (put_fc VNone x)) in *.
      destruct (validate_class y) as [r x3] eqn:VC. injection V as -> -> ->.
      pose proof (validate_class_keeps y) as KP. rewrite VC in KP. cbn [snd] in KP.
      destruct KP as (_ & KA & _ & KW & KS).
      split; [rewrite KA; exact AO|]. split; [rewrite KS; exact SC|].
      split; [eapply validate_class_idem, VC|].
      intros x' W'. apply off_coh. rewrite W', KW. exact T. }
  destruct B2 as (B2 & B3 & B4 & B5). subst x1. split; [|exact B2|exact B3| | |apply B5; reflexivity].
  - unfold mem_off in *. rewrite C1. exact M.
  - cbn [a_wd put_fc]. intros s Ws Ts. rewrite X2, vobj_wd in Ws. cbn [a_wd put_fc] in Ws.
    destruct (truthy (a_wd x)) eqn:T.
    + destruct (a_wd x); try (injection Ws as <-; apply EX); discriminate.
    + rewrite X2, vobj_wd in Ts. cbn [a_wd put_fc] in Ts. rewrite T in Ts. congruence.
  - rewrite validate_class_fc, B4. reflexivity.
Qed.

End Proofs.
