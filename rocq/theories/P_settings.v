(** Reused directories: settings that no saved result depends on. *)
From Coq Require Import String Ascii QArith Qcanon ZArith Lia List Bool.
From Verif Require Import Num M_state Spec_state P_state P_state2 Spec_settings.
Import ListNotations.
Open Scope string_scope.
Open Scope list_scope.
Open Scope nat_scope.

Section Proofs.
Variable lib : string -> list val -> res val.
Variable libr : string -> list val -> nat -> res val.
Variable str_of : val -> string.
Variable dumps : val -> string.
Variable loads : string -> res val.
Variable expanduser : string -> string.
Variable resolve : string -> path.
Variable points : val -> val -> val -> res (list num).
Variable less_memory : bool.
Variable integrate_wdir : option path.
Variable cwd : path.
Variable rng : nat -> nat.

Notation body := (body lib libr points less_memory).
Notation exec := (exec lib libr str_of dumps loads resolve points less_memory integrate_wdir cwd rng).
Notation default_name := (default_name str_of).
Notation to_name := (to_name str_of).
Notation metric := (metric lib libr str_of dumps loads resolve points less_memory integrate_wdir cwd rng).
Notation rmse := (rmse lib libr str_of dumps loads resolve points less_memory integrate_wdir cwd rng).
Notation step := (step lib libr str_of dumps loads expanduser resolve points less_memory integrate_wdir cwd rng).
Notation steps := (steps lib libr str_of dumps loads expanduser resolve points less_memory integrate_wdir cwd rng).
Notation validate := (validate expanduser resolve).
Notation validate_saving := (validate_saving expanduser resolve).
Notation validate_base := (validate_base expanduser resolve).
Notation construct := (construct lib expanduser resolve).
Notation set_and_validate := (set_and_validate expanduser resolve).
Notation load := (load loads resolve).
Notation save := (save dumps resolve).
Notation save_path := (save_path resolve).
Notation workflow_1 := (workflow_1 dumps loads resolve).
Notation post := (post lib libr).
Notation value := (value lib libr points less_memory).
Notation Coh := (Coh lib libr str_of dumps resolve points less_memory).

Definition put (g : setting) (v : val) (x : obj) : obj :=
  match g with
  | SAvg => put_avg v x | SBoot => put_boot v x | SEAxis => put_eaxis v x
  | SCollapse => put_collapse v x | SMove => put_move v x | SMembers => put_members v x
  | SClip => put_clip v x | STrunc => put_trunc v x | SBins => put_bins v x | SRange => put_range v x
  end.

(** ** Programs *)

Lemma wfp_all {I} (P : I -> meth -> Prop) (Q : I -> Prop) nd p :
  wfp (fun _ => True) nd p -> (forall i, Q i -> wfp (P i) nd p) ->
  wfp (fun m => forall i, Q i -> P i m) nd p.
Proof.
  induction p as [v|e|k IH|m k IH|b k IH]; intros H A; simpl in *; auto.
  - destruct H as [H1 H2]. split; [exact H1|]. intro d. apply IH; [apply H2|]. intros i q. apply (A i q).
  - destruct H as [H1 H2]. split; [intros i q; apply (A i q)|]. intro v. apply IH; [apply H2|].
    intros i q. apply (A i q).
Qed.
Lemma wfp_and (P Q : meth -> Prop) nd p : wfp P nd p -> wfp Q nd p -> wfp (fun m => P m /\ Q m) nd p.
Proof.
  induction p as [v|e|k IH|m k IH|b k IH]; intros H A; simpl in *; auto.
  - destruct H as [H1 H2], A as [A1 A2]. split; auto.
  - destruct H as [H1 H2], A as [A1 A2]. split; auto.
Qed.

Lemma stale_calls g x m : mem_off less_memory x -> stale (cl x) m g = false ->
  wfp (fun m' => stale (cl x) m' g = false) false (body x m).
Proof.
  intros M H.
  destruct (cl x) eqn:C; destruct m; unfold M_state.body; unfold determ_body; rewrite ?C;
    try exact I; try apply wfp_lib; try apply wfp_rand;
    try (destruct g; solve [discriminate H|
      apply wfp_with_prob; [reflexivity|]; intros; (apply wfp_lib || (apply wfp_boot; discriminate))|
      apply wfp_with_forecast; [reflexivity|]; intro; apply wfp_lib|
      apply wfp_integrate; [destruct M; [assumption|congruence]|]; intro; reflexivity|
      apply wfp_cdf; intros; reflexivity|
      repeat (apply wfp_getf; intro); apply wfp_lib|
      split; [reflexivity|]; intro; exact I|
      split; [reflexivity|]; intro; apply wfp_lib|
      split; [reflexivity|]; intro; apply wfp_boot; discriminate|
      split; [reflexivity|]; intro; split; [reflexivity|]; intro; apply wfp_lib|
      destruct (is_none (a_members x));
         [split; [reflexivity|]; intro; exact I
         |split; [reflexivity|]; intro; apply wfp_rand]|
      apply wfp_pif; intros _; apply wfp_pif; intros _; apply wfp_pif; intros _;
         apply wfp_nth; intros; apply wfp_nth; intros; apply wfp_with_prob; [reflexivity|];
         intros; apply wfp_nth; intros; apply wfp_nth; intros; apply wfp_lib|
      destruct (truthy (a_trunc x)); try exact I; repeat (apply wfp_getf; intro); apply wfp_lib|
      repeat (apply wfp_getf; intro); destruct (truthy (a_trunc x)); apply wfp_lib|
      repeat (apply wfp_getf; intro); apply wfp_pif; intros _; apply wfp_bind;
         [apply wfp_rand|]; intro; destruct (is_none (a_clip x)); [exact I|apply wfp_lib]|
      apply wfp_bind; [apply wfp_cdf; discriminate|]; intro;
         destruct (is_true (a_pitr x)); [apply wfp_rand|exact I]]).
Qed.

Lemma body_put g v x m : stale (cl x) m g = false -> not_boot m = true ->
  body (put g v x) m = body x m.
Proof.
  destruct x as [c f o av bo wd sc ea co fc mo pi me cli tr bi ra]. cbn [cl].
  intros H N.
  destruct g; destruct m; try discriminate N; try discriminate H; try reflexivity;
    destruct c; try discriminate H; reflexivity.
Qed.

Lemma value_put g v x m : mem_off less_memory x -> stale (cl x) m g = false -> not_boot m = true ->
  value (put g v x) m = value x m.
Proof.
  intros M H N. unfold P_state.value. rewrite body_put by assumption.
  apply (pev_ext lib libr points less_memory (fun m => stale (cl x) m g = false /\ not_boot m = true) false x _ M).
  - intros m' [A B]. apply body_put; assumption.
  - intros m' [A B]. apply wfp_and; [apply stale_calls; assumption|].
    apply body_calls; auto.
  - apply wfp_and; [apply stale_calls; assumption|]. apply body_calls; auto.
Qed.

Lemma random_put g v x m : stale (cl x) m g = false -> not_boot m = true ->
  random_value (put g v x) m = random_value x m.
Proof.
  destruct x as [c f o av bo wd sc ea co fc mo pi me cli tr bi ra]. cbn [cl].
  intros H N. destruct g; destruct m; try discriminate N; try discriminate H; try reflexivity.
Qed.

(** ** What execution writes *)

Section Writes.
Variable A : meth -> Prop.
Definition only (s s' : st) : Prop :=
  ob s' = ob s /\ forall p, file (dk s') p <> file (dk s) p ->
    exists m w n, A m /\ default_name m = Ok (Some n) /\ a_wd (ob s) = VStr w /\ p = pkl (resolve w) n.

Lemma only_refl s : only s s.
Proof. split; [reflexivity|]. intros p H. congruence. Qed.
Lemma only_trans s1 s2 s3 : only s1 s2 -> only s2 s3 -> only s1 s3.
Proof.
  intros [O1 H1] [O2 H2]. split; [congruence|]. intros p N.
  destruct (list_eq_dec string_dec p p) as [_|]; [|congruence].
  assert (D : file (dk s2) p = file (dk s1) p \/ file (dk s2) p <> file (dk s1) p).
  { destruct (file (dk s2) p) as [a|], (file (dk s1) p) as [b|]; try (right; discriminate); auto.
    destruct (string_dec a b); [left; congruence|right; congruence]. }
  destruct D as [D|D]; [|apply H1, D].
  destruct (H2 p) as (m & w & n & X); [congruence|]. exists m, w, n. rewrite <- O1. exact X.
Qed.

Lemma workflow_only m sn run s r s' :
  A m -> (to_name sn (kwargs m) = default_name m \/ to_name sn (kwargs m) = Ok None) ->
  (forall r1 s1, run s = (r1, s1) -> only s s1) ->
  workflow_1 (to_name sn (kwargs m)) run s = (r, s') -> only s s'.
Proof.
  intros Am PN RUN E. unfold workflow_1, M_state.workflow_1 in E.
  destruct (to_name sn (kwargs m)) as [n|e] eqn:TN; [|injection E as <- <-; apply only_refl].
  destruct (load s n) as [[w|]|e]; [injection E as <- <-; apply only_refl| |injection E as <- <-; apply only_refl].
  destruct (run s) as [r1 s1]. pose proof (RUN r1 s1 eq_refl) as K.
  destruct r1 as [w|e]; [|injection E as <- <-; exact K].
  assert (S : forall r2 s2, save s1 n w = (r2, s2) -> only s s2).
  { intros r2 s2 X. unfold save, M_state.save in X.
    destruct (save_path (ob s1) n) as [[q|]|e] eqn:SP; try (injection X as <- <-; assumption).
    destruct (isdir (dk s1) q); [injection X as <- <-; assumption|].
    destruct (isdir (dk s1) (removelast q)); injection X as <- <-; [|assumption].
    eapply only_trans; [exact K|]. split; [reflexivity|]. intros p N.
    simpl in N. destruct (path_eqb q p) eqn:EQ; [|congruence]. apply path_eqb_spec in EQ. subst q.
    unfold save_path, M_state.save_path in SP. destruct n as [n|]; [|discriminate].
    destruct (truthy (a_wd (ob s1))); [|discriminate].
    destruct (a_wd (ob s1)) as [| | | |d| | | | | |] eqn:W; try discriminate.
    injection SP as <-. destruct PN as [PN|PN]; [|discriminate].
    exists m, d, n. split; [exact Am|]. split; [symmetry; exact PN|]. split; reflexivity. }
  destruct (save s1 n w) as [[u|e] s2] eqn:SS; injection E as <- <-; eapply S; reflexivity.
Qed.

Lemma exec_only x : (forall m, A m -> wfp A false (body x m)) -> forall n p s r s',
  ob s = x -> wfp A false p -> exec n p s = (r, s') -> only s s'.
Proof.
  intros CL n. induction n as [n IHn] using lt_wf_ind.
  intros p. induction p as [w|e|k IHp|m k IHp|b k IHp]; intros s r s' O W H.
  - destruct n; injection H as <- <-; apply only_refl.
  - destruct n; injection H as <- <-; apply only_refl.
  - assert (H' : exec n (k (rng (pos s))) (mkSt (ob s) (dk s) (S (pos s)) (events s)) = (r, s'))
      by (destruct n; exact H).
    destruct W as [_ W].
    exact (IHp _ (mkSt (ob s) (dk s) (S (pos s)) (events s)) r s' O (W _) H').
  - destruct n as [|n]; [injection H as <- <-; apply only_refl|].
    destruct W as [W1 W2]. simpl in H.
    change ((let '(r0, s1) := workflow_1 (default_name m) (exec n (body (ob s) m)) s in
      match r0 with Ok v => exec (S n) (k v) s1 | Raise e => (Raise e, s1) end) = (r, s')) in H.
    destruct (workflow_1 (default_name m) (exec n (body (ob s) m)) s) as [r1 s1] eqn:E.
    assert (K : only s s1).
    { eapply (workflow_only m (default_save m)); [exact W1|left; reflexivity| |exact E].
      intros r2 s2 X. eapply (IHn n (Nat.lt_succ_diag_r n)); [exact O| |exact X].
      rewrite O. apply CL, W1. }
    destruct r1 as [w|e]; [|injection H as <- <-; exact K].
    eapply only_trans; [exact K|]. eapply IHp; [|apply W2|exact H].
    destruct K as [K _]. congruence.
  - contradiction.
Qed.

Lemma metric_only x m sn s r s' : (forall m, A m -> wfp A false (body x m)) -> ob s = x -> A m ->
  plain_save m sn -> metric m sn s = (r, s') -> only s s'.
Proof.
  intros CL O Am PS E. unfold metric, M_state.metric in E.
  assert (G : match workflow_1 (to_name sn (kwargs m)) (exec depth (body (ob s) m)) s with
    | (Ok v, s1) => exec depth (post (ob s1) m v) s1
    | (Raise e, s1) => (Raise e, s1)
    end = (r, s') -> only s s').
  { intro X.
    destruct (workflow_1 (to_name sn (kwargs m)) (exec depth (body (ob s) m)) s) as [r1 s1] eqn:E1.
    assert (K : only s s1).
    { eapply (workflow_only m sn); [exact Am|apply plain_name, PS| |exact E1].
      intros r2 s2 Y. eapply exec_only; [exact CL|exact O| |exact Y]. rewrite O. apply CL, Am. }
    destruct r1; [|injection X as <- <-; exact K].
    eapply only_trans; [exact K|]. eapply exec_only; [exact CL| | |exact X].
    - destruct K as [K _]. congruence.
    - destruct m; simpl; try exact I; apply wfp_boot; discriminate. }
  destruct m; try (apply G; exact E); destruct (cl (ob s)); try (apply G; exact E);
    injection E as <- <-; apply only_refl.
Qed.

Lemma step_only x o s r s' : (forall m, A m -> wfp A false (body x m)) -> ob s = x ->
  (forall m, computes o = Some m -> A m) -> calm_metric o -> step o s = (r, s') -> only s s'.
Proof.
  intros CL O AO [CM MO] E.
  assert (RM : forall sn, A MSqErr -> plain_save MSqErr sn -> rmse sn s = (r, s') -> only s s').
  { intros sn Am PS X. unfold rmse, M_state.rmse in X.
    destruct (metric MSqErr sn s) as [r1 s1] eqn:E1.
    pose proof (metric_only x _ _ _ _ _ CL O Am PS E1) as K.
    destruct r1; [|injection X as <- <-; exact K].
    eapply only_trans; [exact K|]. eapply exec_only; [exact CL| | |exact X].
    - destruct K as [K _]. congruence.
    - apply wfp_lib. }
  destruct o; try discriminate MO; specialize (AO _ eq_refl);
    unfold step, M_state.step in E; cbv zeta in E; cbn [calm] in CM.
  - destruct save_name as [w|].
    + destruct CM as [_ CM].
      assert (PS : plain_save m w) by (right; exact CM).
      destruct m; try (eapply metric_only; eassumption);
        (destruct (is_prob (cl (ob s))); injection E as <- <-; apply only_refl).
    + assert (PS : plain_save m (default_save m)) by (left; reflexivity).
      destruct m; (eapply metric_only; eassumption).
  - destruct save_name; eapply RM; try exact E; try exact AO; [right; exact CM|left; reflexivity].
Qed.
End Writes.

(** ** Validation with a reused directory *)

Lemma ens_put g v x : g <> SEAxis -> snd (validate_ensemble x) = x ->
  snd (validate_ensemble (put g v x)) = put g v x.
Proof.
  intros N S. transitivity (put g v (snd (validate_ensemble x))); [|rewrite S; reflexivity].
  assert (GA : guess_axis (put g v x) = guess_axis x) by (destruct g; reflexivity).
  assert (E1 : a_f (put g v x) = a_f x) by (destruct g; reflexivity).
  assert (E2 : a_o (put g v x) = a_o x) by (destruct g; reflexivity).
  assert (E3 : a_eaxis (put g v x) = a_eaxis x) by (destruct g; try congruence; reflexivity).
  unfold validate_ensemble. rewrite GA, E1, E2, E3.
  destruct (negb (is_arr (a_f x) && is_arr (a_o x))); [reflexivity|].
  destruct (if is_none (a_eaxis x) then guess_axis x
            else if is_int (a_eaxis x) then Ok (a_eaxis x) else Raise AssertionError); [|reflexivity].
  cbn [snd]. destruct g; try congruence; reflexivity.
Qed.

Lemma class_put g v x : snd (validate_class x) = x ->
  exists w, snd (validate_class (put g v x)) = put g w x /\
    snd (validate_class (put g w x)) = put g w x /\ (g <> SEAxis -> w = v) /\
    fst (validate_class (put g w x)) = fst (validate_class (put g v x)).
Proof.
  intro S. destruct (cl x) eqn:C;
    try (exists v; split; [|split; [|split; [auto|reflexivity]]];
         destruct g; unfold validate_class; simpl; rewrite C; reflexivity).
  assert (CP : forall u, cl (put g u x) = CEnsemble) by (intro u; destruct g; exact C).
  assert (VC : forall u, validate_class (put g u x) = validate_ensemble (put g u x))
    by (intro u; unfold validate_class; rewrite CP; reflexivity).
  unfold validate_class in S. rewrite C in S.
  assert (D : g = SEAxis \/ g <> SEAxis) by (destruct g; auto; right; discriminate).
  destruct D as [-> |D].
  2:{ exists v. rewrite (VC v). assert (Z := ens_put g v x D S).
      split; [exact Z|split; [exact Z|split; [auto|reflexivity]]]. }
  clear S.
  assert (GA : forall u, guess_axis (put_eaxis u x) = guess_axis x) by reflexivity.
  assert (VE : forall u, validate_ensemble (put_eaxis u x) =
    if negb (is_arr (a_f x) && is_arr (a_o x)) then (Raise AssertionError, put_eaxis u x)
    else match (if is_none u then guess_axis x else if is_int u then Ok u else Raise AssertionError) with
    | Raise e => (Raise e, put_eaxis u x)
    | Ok ax => (fst (validate_ensemble (put_eaxis ax x)), put_eaxis ax x)
    end).
  { intro u. unfold validate_ensemble. rewrite !GA. cbn [a_f a_o a_eaxis].
    change (a_f (put_eaxis u x)) with (a_f x). change (a_o (put_eaxis u x)) with (a_o x).
    change (a_eaxis (put_eaxis u x)) with u.
    destruct (negb (is_arr (a_f x) && is_arr (a_o x))) eqn:NA; [reflexivity|].
    destruct (if is_none u then guess_axis x else if is_int u then Ok u else Raise AssertionError) as [ax|e] eqn:G; [|reflexivity].
    assert (I : is_none ax = false /\ is_int ax = true).
    { destruct (is_none u) eqn:N; [eapply guess_int, G|].
      destruct (is_int u) eqn:I; [|discriminate]. injection G as <-. auto. }
    change (a_f (put_eaxis ax x)) with (a_f x). change (a_o (put_eaxis ax x)) with (a_o x).
    change (a_eaxis (put_eaxis ax x)) with ax. rewrite NA, GA, (proj1 I), (proj2 I). reflexivity. }
  unfold put in *. rewrite (VC v).
  destruct (if is_none v then guess_axis x else if is_int v then Ok v else Raise AssertionError) as [ax|e] eqn:G.
  - assert (I : is_none ax = false /\ is_int ax = true).
    { destruct (is_none v) eqn:N; [eapply guess_int, G|].
      destruct (is_int v) eqn:I; [|discriminate]. injection G as <-. auto. }
    destruct (negb (is_arr (a_f x) && is_arr (a_o x))) eqn:NA.
    + exists v. rewrite (VC v), VE, ?NA.
      split; [reflexivity|]. split; [reflexivity|]. split; [congruence|reflexivity].
    + exists ax. rewrite (VC ax), (VE v), ?NA, G.
      cbn [fst snd]. split; [reflexivity|]. split; [|split; [congruence|reflexivity]].
      rewrite (VE ax), ?NA, (proj1 I), (proj2 I). reflexivity.
  - exists v. rewrite (VC v), (VE v), G.
    destruct (negb (is_arr (a_f x) && is_arr (a_o x)));
      (split; [reflexivity|]; split; [reflexivity|]; split; [congruence|reflexivity]).
Qed.

Section History.
Variable G : setting -> Prop.
Definition safe (c : cls) (m : meth) : Prop := forall g, G g -> stale c m g = false.

Record InvR (x : obj) (k : disk) : Prop := {
  r_mem : mem_off less_memory x;
  r_avg : avg_ok (a_avg x) = true;
  r_boot : boot_type (a_boot x) = true;
  r_scratch : a_scratch x = VBool false;
  r_exp : forall s, a_wd x = VStr s -> truthy (a_wd x) = true -> expanduser s = s;
  r_class : snd (validate_class x) = x;
  r_coh : Coh false x k;
  r_only : truthy (a_wd x) = true -> forall s m n, a_wd x = VStr s -> key_ok m ->
    default_name m = Ok (Some n) -> file k (pkl (resolve s) n) <> None -> safe (cl x) m
}.

Lemma put_keeps g v x :
  cl (put g v x) = cl x /\ a_wd (put g v x) = a_wd x /\ a_scratch (put g v x) = a_scratch x /\
  a_avg (put g v x) = (match g with SAvg => v | _ => a_avg x end) /\
  a_boot (put g v x) = (match g with SBoot => v | _ => a_boot x end) /\
  (forall w, put g v (put_wd w x) = put_wd w (put g v x)).
Proof. destruct g; repeat split. Qed.

Definition typed (g : setting) (v : val) : Prop :=
  match g with SAvg => axis_type v = true | SBoot => boot_type v = true | _ => True end.

Lemma coh_put g v x k : G g -> InvR x k -> Coh false (put g v x) k.
Proof.
  intros Gg I. destruct (put_keeps g v x) as (E1 & E2 & E3 & _ & _ & _).
  destruct (r_coh _ _ I) as [A B C]. split; rewrite ?E2; auto.
  intros p b T F s m n W K R N E. rewrite E2 in W.
  assert (NB : not_boot m = true) by (destruct m; try reflexivity; discriminate N).
  assert (S : stale (cl x) m g = false).
  { apply (r_only _ _ I T s m n W K N); [|exact Gg]. rewrite <- E, F. discriminate. }
  rewrite random_put in R by assumption.
  destruct (C p b T F s m n W K R N E) as [w [V O]]. exists w. split; [|exact O].
  rewrite value_put; try assumption. apply (r_mem _ _ I).
Qed.

Lemma inv_put g v x k : G g -> InvR x k -> snd (validate_class (put g v x)) = put g v x ->
  (g = SAvg -> avg_ok v = true) -> (g = SBoot -> boot_type v = true) -> InvR (put g v x) k.
Proof.
  intros Gg I SV AV BV. pose proof (coh_put g v x k Gg I) as C.
  destruct (put_keeps g v x) as (E1 & E2 & E3 & E4 & E5 & _).
  destruct I as [M A B S E CL _ O]. split; try assumption.
  - unfold mem_off. rewrite E1. exact M.
  - rewrite E4. destruct g; auto.
  - rewrite E5. destruct g; auto.
  - rewrite E3. exact S.
  - rewrite E2. exact E.
  - rewrite E1, E2. exact O.
Qed.

Lemma validate_false x k :
  axis_type (a_avg x) = true -> boot_type (a_boot x) = true -> a_scratch x = VBool false ->
  (truthy (a_wd x) = true -> exists s, a_wd x = VStr s /\ expanduser s = s /\ isdir k (resolve s) = true) ->
  validate x k = (fst (validate_class (put_avg (norm_avg (a_avg x)) x)),
                  snd (validate_class (put_avg (norm_avg (a_avg x)) x)), k).
Proof.
  intros A B S D. unfold validate, M_state.validate, validate_base, M_state.validate_base.
  rewrite validate_avg_eq, (avg_ok_type _ A). simpl passert.
  cbv iota beta. cbn [a_boot put_avg a_scratch].
  unfold boot_type in B. rewrite B, S. simpl is_bool. cbv iota.
  set (y := put_avg (norm_avg (a_avg x)) x).
  unfold M_state.validate_saving. change (a_wd y) with (a_wd x).
  destruct (truthy (a_wd x)) eqn:T; [|destruct (validate_class y); reflexivity].
  destruct (D eq_refl) as (s & W & E & DI). rewrite W. cbv zeta. rewrite E.
  unfold exists_at. rewrite DI. cbn [orb]. change (a_scratch (put_wd (VStr s) y)) with (a_scratch x).
  rewrite S. cbn [truthy].
  replace (put_wd (VStr s) y) with y by (unfold y; destruct x; simpl in W; subst; reflexivity).
  destruct (validate_class y); reflexivity.
Qed.

Lemma put_avg_norm g v x : avg_ok (a_avg x) = true ->
  put_avg (norm_avg (a_avg (put g v x))) (put g v x) =
  put g (match g with SAvg => norm_avg v | _ => v end) x.
Proof.
  intro A. destruct x as [c f o av bo wd sc ea co fc mo pi me cli tr bi ra]. simpl in A.
  destruct g; simpl; rewrite ?(norm_ok _ A); reflexivity.
Qed.

Lemma setter_false g v s t : G g -> typed g v -> InvR (ob s) (dk s) -> ob t = put_wd VNone (ob s) ->
  let rs := set_and_validate (put g v (ob s)) s in
  let rt := set_and_validate (put g v (ob t)) t in
  InvR (ob (snd rs)) (dk (snd rs)) /\ ob (snd rt) = put_wd VNone (ob (snd rs)) /\ fst rs = fst rt.
Proof.
  intros Gg TY I OT rs rt.
  destruct (put_keeps g v (ob s)) as (E1 & E2 & E3 & E4 & E5 & E6).
  pose proof (r_avg _ _ I) as AV. pose proof (r_boot _ _ I) as BO.
  set (v1 := match g with SAvg => norm_avg v | _ => v end).
  assert (A' : axis_type (a_avg (put g v (ob s))) = true).
  { rewrite E4. destruct g; try (apply avg_ok_axis, AV). exact TY. }
  assert (B' : boot_type (a_boot (put g v (ob s))) = true).
  { rewrite E5. destruct g; try exact BO. exact TY. }
  assert (VS : validate (put g v (ob s)) (dk s) =
    (fst (validate_class (put g v1 (ob s))), snd (validate_class (put g v1 (ob s))), dk s)).
  { rewrite validate_false; try assumption.
    - rewrite put_avg_norm by exact AV. reflexivity.
    - rewrite E3. apply (r_scratch _ _ I).
    - rewrite E2. intro T. destruct (coh_wd _ _ _ _ _ _ _ _ _ _ (r_coh _ _ I) T) as [d W].
      exists d. split; [exact W|]. split; [apply (r_exp _ _ I d W T)|].
      apply (coh_dir _ _ _ _ _ _ _ _ _ _ (r_coh _ _ I) d T W). }
  assert (VT : validate (put g v (ob t)) (dk t) =
    (fst (validate_class (put g v1 (ob s))), put_wd VNone (snd (validate_class (put g v1 (ob s)))), dk t)).
  { rewrite OT, E6. rewrite validate_false; try assumption.
    - change (a_avg (put_wd VNone (put g v (ob s)))) with (a_avg (put g v (ob s))).
      change (put_avg (norm_avg (a_avg (put g v (ob s)))) (put_wd VNone (put g v (ob s))))
        with (put_wd VNone (put_avg (norm_avg (a_avg (put g v (ob s)))) (put g v (ob s)))).
      rewrite put_avg_norm by exact AV. rewrite validate_class_wd. reflexivity.
    - change (a_scratch (put_wd VNone (put g v (ob s)))) with (a_scratch (put g v (ob s))).
      rewrite E3. apply (r_scratch _ _ I).
    - discriminate. }
  destruct (class_put g v1 (ob s) (r_class _ _ I)) as (w & W1 & W2 & W3 & W4).
  unfold rs, rt, set_and_validate, M_state.set_and_validate. rewrite VS, VT. cbn [fst snd ob dk].
  rewrite W1. split; [|split; reflexivity].
  apply inv_put; try assumption.
  - intros ->. rewrite W3 by discriminate. apply avg_ok_type. exact TY.
  - intros ->. rewrite W3 by discriminate. exact TY.
Qed.

Hypothesis TX : text_faithful str_of.
Hypothesis PK : pickle_faithful dumps loads.

(** The calls of a history: what they change is in [G], what they compute does
    not depend on it. *)
Definition apart (c : cls) (o : op) : Prop :=
  calm o /\ (forall g, changes o = Some g -> G g) /\ (forall m, computes o = Some m -> safe c m).

Lemma safe_closed x m : mem_off less_memory x -> safe (cl x) m /\ key_ok m ->
  wfp (fun m => safe (cl x) m /\ key_ok m) false (body x m).
Proof.
  intros M [S K]. apply wfp_and.
  - apply (wfp_all (fun g m => stale (cl x) m g = false) G).
    + apply body_calls; auto.
    + intros g Gg. apply stale_calls; auto.
  - eapply wfp_mono; [|eapply (body_wf lib libr str_of dumps loads expanduser resolve points less_memory rng x m false M K); discriminate].
    intros m' [H _]. exact H.
Qed.

Lemma name_free m m' n : key_ok m -> key_ok m' -> default_name m = Ok (Some n) ->
  default_name m' = Ok (Some n) -> m = m'.
Proof. exact (name_inj lib libr str_of loads expanduser resolve TX m m' n). Qed.

Lemma apart_step o s t :
  apart (cl (ob s)) o -> InvR (ob s) (dk s) -> ob t = put_wd VNone (ob s) ->
  InvR (ob (snd (step o s))) (dk (snd (step o s))) /\ cl (ob (snd (step o s))) = cl (ob s) /\
  ob (snd (step o t)) = put_wd VNone (ob (snd (step o s))) /\
  (no_draw (ob s) o -> fst (step o s) = fst (step o t)).
Proof.
  intros (CM & CH & CO) IN OT.
  assert (KC : forall x k x2, InvR x k -> InvR x2 k -> True) by auto.
  assert (CLT : cl (ob t) = cl (ob s)) by (rewrite OT; reflexivity).
  assert (SET : forall g v, G g -> typed g v ->
    let rs := set_and_validate (put g v (ob s)) s in
    let rt := set_and_validate (put g v (ob t)) t in
    InvR (ob (snd rs)) (dk (snd rs)) /\ cl (ob (snd rs)) = cl (ob s) /\
    ob (snd rt) = put_wd VNone (ob (snd rs)) /\ (True -> fst rs = fst rt)).
  { intros g v Gg TY. pose proof (setter_false g v s t Gg TY IN OT) as (I1 & O1 & R1). cbv zeta.
    split; [exact I1|]. split; [|auto].
    unfold set_and_validate, M_state.set_and_validate.
    destruct (validate (put g v (ob s)) (dk s)) as [[r x2] k2] eqn:V. cbn [fst snd ob].
    revert V. unfold validate, M_state.validate, M_state.validate_base. rewrite validate_avg_eq.
    assert (C0 : cl (put_avg (norm_avg (a_avg (put g v (ob s)))) (put g v (ob s))) = cl (ob s))
      by (apply (put_keeps g v (ob s))).
    set (y := put_avg (norm_avg (a_avg (put g v (ob s)))) (put g v (ob s))) in *.
    destruct (passert _); [|intro V; injection V as _ <- _; exact C0].
    destruct (is_none (a_boot y) || is_int (a_boot y)); [|intro V; injection V as _ <- _; exact C0].
    destruct (is_bool (a_scratch y)); [|intro V; injection V as _ <- _; exact C0].
    assert (SV : forall r0 x0 k0, M_state.validate_saving expanduser resolve y (dk s) = (r0, x0, k0) -> cl x0 = cl (ob s)).
    { intros r0 x0 k0. unfold M_state.validate_saving.
      destruct (truthy (a_wd y)); [|intro V; injection V as _ <- _; exact C0].
      destruct (a_wd y); try (intro V; injection V as _ <- _; exact C0).
      cbv zeta. destruct (exists_at (dk s) (resolve (expanduser s0))).
      - destruct (truthy (a_scratch (put_wd (VStr (expanduser s0)) y))); [|intro V; injection V as _ <- _; exact C0].
        destruct (rmtree (resolve (expanduser s0)) (dk s)); [|intro V; injection V as _ <- _; exact C0].
        destruct (makedirs (resolve (expanduser s0)) _); intro V; injection V as _ <- _; exact C0.
      - destruct (makedirs (resolve (expanduser s0)) (dk s)); intro V; injection V as _ <- _; exact C0. }
    destruct (M_state.validate_saving expanduser resolve y (dk s)) as [[r0 x0] k0] eqn:VS.
    specialize (SV r0 x0 k0 eq_refl).
    destruct r0; [|intro V; injection V as _ <- _; exact SV].
    destruct (validate_class x0) as [r3 x3] eqn:VC. intro V. injection V as _ <- _.
    pose proof (proj1 (validate_class_keeps x0)) as K. rewrite VC in K. cbn [snd] in K. congruence. }
  assert (SAME : forall r : res val, InvR (ob (snd (r, s))) (dk (snd (r, s))) /\ cl (ob (snd (r, s))) = cl (ob s) /\
    ob (snd (r, t)) = put_wd VNone (ob (snd (r, s))) /\ (True -> fst (r, s) = fst (r, t))) by (intro r; simpl; auto).
  assert (MET : metric_op o = true ->
    InvR (ob (snd (step o s))) (dk (snd (step o s))) /\ cl (ob (snd (step o s))) = cl (ob s) /\
    ob (snd (step o t)) = put_wd VNone (ob (snd (step o s))) /\
    (no_draw (ob s) o -> fst (step o s) = fst (step o t))).
  { intro MO.
    destruct (step o s) as [r s1] eqn:E.
    destruct (step_quiet _ _ _ _ _ expanduser _ _ _ integrate_wdir cwd rng TX PK false o s r s1 (conj CM MO) (r_mem _ _ IN) (r_coh _ _ IN) E) as [Q V].
    assert (O1 : ob s1 = ob s) by apply Q.
    cbn [fst snd]. rewrite O1. split; [|split; [reflexivity|split]].
    - assert (ON : only (fun m => safe (cl (ob s)) m /\ key_ok m) s s1).
      { eapply (step_only _ (ob s) o); [| |  | |exact E]; auto.
        - intros m. apply safe_closed, (r_mem _ _ IN).
        - intros m H. split; [apply CO, H|].
          destruct o; try discriminate H; injection H as <-; cbn [calm] in CM.
          + destruct save_name; [apply CM|exact CM].
          + simpl. constructor.
        - split; assumption. }
      pose proof (quiet_coh _ _ _ _ _ _ _ false (ob s) s s1 Q (r_coh _ _ IN)) as C1.
      destruct IN as [M A B S EX CL C O]. split; try assumption.
      intros T d m n W K N F.
      destruct (file (dk s) (pkl (resolve d) n)) eqn:F0.
      + apply (O T d m n W K N). rewrite F0. discriminate.
      + destruct ON as [_ ON]. destruct (ON (pkl (resolve d) n)) as (m' & w & n' & [S' K'] & N' & W' & P').
        { rewrite F0. exact F. }
        assert (w = d) by congruence. subst w. apply pkl_inj in P' as [_ <-].
        rewrite (name_free m m' n K K' N N'). exact S'.
    - destruct (step o t) as [rt t1] eqn:ET.
      assert (MT : mem_off less_memory (ob t)) by (rewrite OT; apply (r_mem _ _ IN)).
      assert (CT : Coh false (ob t) (dk t)) by (apply off_coh; rewrite OT; reflexivity).
      destruct (step_quiet _ _ _ _ _ expanduser _ _ _ integrate_wdir cwd rng TX PK false o t rt t1 (conj CM MO) MT CT ET) as [(_ & QT & _) _].
      cbn [snd]. rewrite QT. exact OT.
    - intro ND. destruct (V ND t OT) as [H|[H _]]; [exact H|discriminate]. }
  destruct o; try exact (MET eq_refl); cbn [calm] in CM; try contradiction; clear MET;
    unfold step, M_state.step; cbv zeta; cbn [no_draw];
    try (specialize (CH _ eq_refl)).
  - exact (SET SAvg v CH CM).
  - exact (SET SBoot v CH CM).
  - cbn [fst snd ob dk with_ob]. split; [|split; [reflexivity|split; [rewrite OT; reflexivity|reflexivity]]].
    assert (Z : snd (validate_class (put SBoot VNone (ob s))) = put SBoot VNone (ob s)).
    { destruct (class_put SBoot VNone (ob s) (r_class _ _ IN)) as (w & W1 & W2 & W3 & _).
      rewrite W3 in W1 by discriminate. exact W1. }
    apply (inv_put SBoot VNone (ob s) (dk s) CH IN Z); [discriminate|reflexivity].
  - cbn [fst snd ob dk with_ob]. split; [|split; [reflexivity|split; [rewrite OT; reflexivity|reflexivity]]].
    destruct IN as [M A B S EX CL C O]. split; try assumption; try discriminate.
    + rewrite validate_class_wd. cbn [snd]. rewrite CL. reflexivity.
    + apply off_coh. reflexivity.
  - rewrite CLT. destruct (cl (ob s)) eqn:CC; try apply SAME. exact (SET SEAxis v CH I).
  - rewrite CLT. destruct (cl (ob s)) eqn:CC; try apply SAME. exact (SET SCollapse v CH I).
  - rewrite CLT. destruct (is_prob (cl (ob s))) eqn:CC; [|apply SAME]. exact (SET SMove v CH I).
  - rewrite CLT. destruct (is_prob (cl (ob s))) eqn:CC; [|apply SAME]. exact (SET SMembers v CH I).
  - rewrite CLT. destruct (is_prob (cl (ob s))) eqn:CC; [|apply SAME]. exact (SET SClip v CH I).
  - rewrite CLT. destruct (is_prob (cl (ob s))) eqn:CC; [|apply SAME]. exact (SET STrunc v CH I).
  - rewrite CLT. destruct (cl (ob s)) eqn:CC; try apply SAME. exact (SET SBins v CH I).
  - rewrite CLT. destruct (cl (ob s)) eqn:CC; try apply SAME. exact (SET SRange (VTuple [vmin; vmax]) CH I).
Qed.

Lemma apart_steps c os : forall s t, cl (ob s) = c -> Forall (apart c) os ->
  InvR (ob s) (dk s) -> ob t = put_wd VNone (ob s) ->
  InvR (ob (snd (steps os s))) (dk (snd (steps os s))) /\ cl (ob (snd (steps os s))) = c /\
  ob (snd (steps os t)) = put_wd VNone (ob (snd (steps os s))).
Proof.
  induction os as [|o os IH]; intros s t CS F IN OT.
  - simpl. auto.
  - inversion F; subst. rewrite !steps_cons. cbn [snd].
    destruct (apart_step o s t) as (I1 & C1 & O1 & _); auto.
Qed.
End History.
End Proofs.
