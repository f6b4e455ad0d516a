(** Property C02 for all settings: reused directories and results that do not
    depend on what is changed. *)
From Coq Require Import String Ascii QArith Qcanon ZArith Lia List Bool.
From Verif Require Import Num M_state Spec_state P_state P_state2 P_codec Spec_settings P_settings Props_state.
Import ListNotations.
Open Scope string_scope.
Open Scope list_scope.
Open Scope nat_scope.

Section Oracles.
Variable lib : string -> list val -> res val.
Variable libr : string -> list val -> nat -> res val.
Variable str_of : val -> string.
Variable dumps : val -> string.
Variable loads : string -> res val.
Variable expanduser : string -> string.
Variable resolve : string -> path.
Variable points : val -> val -> val -> res (list num).
Variable less_memory : bool.
Variable integrate_wdir : option path.
Variable cwd : path.
Variable rng : nat -> nat.
Notation step := (step lib libr str_of dumps loads expanduser resolve points less_memory integrate_wdir cwd rng).
Notation steps := (steps lib libr str_of dumps loads expanduser resolve points less_memory integrate_wdir cwd rng).
Notation construct := (construct lib expanduser resolve).

Lemma construct_invr G x k x1 k1 :
  (forall s, expanduser (expanduser s) = expanduser s) ->
  mem_off less_memory x -> disk_wf k -> a_scratch x = VBool false ->
  (forall s, a_wd x = VStr s -> empty_dir (resolve (expanduser s)) k) ->
  construct x k = (Ok x1, k1) ->
  InvR lib libr str_of dumps expanduser resolve points less_memory G x1 k1 /\ cl x1 = cl x.
Proof.
  intros EX M WF SC EM H.
  pose proof (reuse_inv lib libr str_of dumps expanduser resolve points less_memory x k x1 k1 EX M WF SC EM H) as [F1 F2 F3 F4 F5 F6].
  destruct (construct_disk _ _ _ _ _ _ _ H) as [x2 [V [W C]]]. split; [|exact C].
  split; try assumption.
  - assert (B2 : boot_type (a_boot x2) = true).
    { pose proof (validate_obj _ _ _ _ _ _ _ V) as ->.
      unfold vobj. cbv zeta. rewrite (proj1 (proj2 (proj2 (validate_class_keeps _)))).
      assert (B : boot_type (a_boot x) = true).
      { revert V. unfold validate, validate_base. rewrite validate_avg_eq.
        destruct (passert _); [|discriminate]. change (a_boot (put_avg _ (put_fc VNone x))) with (a_boot x).
        unfold boot_type. destruct (is_none (a_boot x) || is_int (a_boot x)); [reflexivity|discriminate]. }
      change (a_wd (put_avg (norm_avg (a_avg (put_fc VNone x))) (put_fc VNone x))) with (a_wd x).
      destruct (truthy (a_wd x)); [|exact B]. destruct (a_wd x); exact B. }
    unfold M_state.construct in H. rewrite V in H.
    destruct (cl x); try (injection H as <-; exact B2).
    destruct (lib "collapse" [a_collapse x2; a_f x2; a_eaxis x2]); [|discriminate H].
    injection H as <-. exact B2.
  - rewrite F5. reflexivity.
  - intros T s m n WS K N F. exfalso. apply F.
    assert (X := validate_obj _ _ _ _ _ _ _ V).
    assert (WX := vobj_wd expanduser (put_fc VNone x)). rewrite <- X, <- W in WX.
    cbn [a_wd put_fc] in WX. rewrite WS in WX.
    destruct (validate_disk _ _ _ _ _ _ _ V) as [[_ [e E]]|(y & r0 & z & Y1 & Y2 & _ & VS & OKR)]; [discriminate|].
    cbn [a_wd a_scratch put_fc] in Y1, Y2.
    destruct (truthy (a_wd x)) eqn:TX.
    + destruct (a_wd x) as [| | | |d| | | | | |] eqn:WD;
        try (unfold validate_saving in VS; rewrite Y1, TX in VS; injection VS as <- _ _;
             destruct (OKR tt eq_refl); discriminate).
      injection WX as ->.
      rewrite <- Y1 in TX.
      destruct (saving_effect _ _ y k r0 z k1 d Y1 TX VS) as (_ & _ & SE).
      rewrite Y2, SC in SE. rewrite (proj1 (SE eq_refl (pkl (resolve (expanduser d)) n))).
      apply (EM d eq_refl). unfold pkl. apply under_app.
    + rewrite <- WX in TX. rewrite WS in T. rewrite T in TX. discriminate.
Qed.

(** With start_from_scratch=False, starting from an empty or missing directory: a history of metric calls and of
    setters (accepted or not) in which no metric depends, as far as its result is saved, on a setting the history
    changes.  Every deterministic call returns what it returns with saving off, so it reflects the current settings.
    Missing: the other combinations of metric and setting, for which the statement is false (the theorem below). *)
Theorem c02_unaffected_partial : forall x k x1 k1 os o n kt nt,
  text_faithful str_of -> pickle_faithful dumps loads ->
  (forall s, expanduser (expanduser s) = expanduser s) ->
  mem_off less_memory x -> disk_wf k -> a_scratch x = VBool false ->
  (forall s, a_wd x = VStr s -> empty_dir (resolve (expanduser s)) k) ->
  construct x k = (Ok x1, k1) -> Forall calm (os ++ [o]) -> unaffected (cl x) (os ++ [o]) ->
  let s := snd (steps os (mkSt x1 k1 n [])) in
  let t := snd (steps os (mkSt (put_wd VNone x1) kt nt [])) in
  ob t = put_wd VNone (ob s) /\
  (no_draw (ob s) o -> fst (step o s) = fst (step o t)).
Proof.
  intros x k x1 k1 os o n kt nt TX PK EX M WF S EM H CA UN s t.
  set (G := fun g => exists o', In o' (os ++ [o]) /\ changes o' = Some g).
  destruct (construct_invr G x k x1 k1 EX M WF S EM H) as [IN CL].
  assert (AP : Forall (apart G (cl x)) (os ++ [o])).
  { apply Forall_forall. intros a I. rewrite Forall_forall in CA. split; [apply CA, I|]. split.
    - intros g E. exists a. auto.
    - intros m E g (a' & I' & E'). apply (UN a' a g m I' I E' E). }
  apply Forall_app in AP as [AP1 AP2]. inversion AP2 as [|? ? APO _]; subst.
  destruct (apart_steps lib libr str_of dumps loads expanduser resolve points less_memory integrate_wdir cwd rng G TX PK (cl x) os
    (mkSt x1 k1 n []) (mkSt (put_wd VNone x1) kt nt []) CL AP1 IN eq_refl) as (I1 & C1 & O1).
  split; [exact O1|]. intro ND. rewrite <- C1 in APO.
  apply (apart_step lib libr str_of dumps loads expanduser resolve points less_memory integrate_wdir cwd rng G TX PK o s t APO I1 O1), ND.
Qed.
End Oracles.
Print Assumptions c02_unaffected_partial.

(** An ensemble verifier whose averaging axis, ensemble axis, collapse function and bootstrap are changed between
    metrics that do not depend on them: the last call answers with the new axis, while the squared errors come from
    the disk. *)
Example c02_unaffected_nonvacuous :
  let os := [OMetric MSqErr None; OMetric MCorr None; OAvg (VInt 0); OEAxis (VInt (-1)); OBoot (VInt 3);
             OMetric MAbErr None; OCollapse (VFun 1); ONoBoot; OEAxis (VInt 7)] in
  let o := OMetric MSqErr None in
  exists x1 k1, empty_dir (w_resolve "w") w_root /\ w_construct (w_ens false) w_root = (Ok x1, k1) /\
    Forall calm (os ++ [o]) /\ unaffected CEnsemble (os ++ [o]) /\
    no_draw (ob (snd (w_steps os (start x1 k1)))) o /\
    map (fun r : res val => match r with Ok _ => true | _ => false end) (fst (w_steps os (start x1 k1)))
      = [true; true; true; true; true; true; true; true; false] /\
    fst (w_step o (snd (w_steps os (start x1 k1)))) =
      Ok (VTuple [VStr "boot_or_avg";
                  VTuple [VStr "sub_sq"; VTuple [VStr "collapse"; VFun 0; VArr [2; 3; 4] 0; VInt (-1)]; VArr [2; 3] 1];
                  VTuple [VInt 0]]) /\
    events (snd (w_step o (snd (w_steps os (start x1 k1))))) = events (snd (w_steps os (start x1 k1))).
Proof.
  intros os o. do 2 eexists.
  split; [intros [|a p] U; [discriminate|split; [reflexivity|discriminate]]|].
  split; [reflexivity|]. split; [unfold os, o; simpl; repeat constructor|].
  split.
  { intros a b g m Ia Ib Ca Cb. unfold os, o in Ia, Ib. simpl in Ia, Ib.
    repeat (destruct Ib as [<-|Ib]; [try discriminate Cb; injection Cb as <-|]); try contradiction;
      repeat (destruct Ia as [<-|Ia]; [try discriminate Ca; injection Ca as <-; reflexivity|]); contradiction. }
  split; [vm_compute; reflexivity|]. split; [vm_compute; reflexivity|]. split; vm_compute; reflexivity.
Qed.

(** ** The remaining combinations *)

(** Integration abscissae that depend on the range. *)
Definition t_points (o r b : val) : res (list num) :=
  match r with VTuple [VFloat p; VFloat q] => Ok [p; q] | _ => Ok [NInf; PInf] end.
Notation t_step := (step w_lib w_libr w_str w_dumps w_loads (fun s => s) w_resolve t_points false None [] (fun n => n)).
Notation t_steps := (steps w_lib w_libr w_str w_dumps w_loads (fun s => s) w_resolve t_points false None [] (fun n => n)).
(** One verifier of each class in the directory "w", start_from_scratch=False; an ensemble of shape (2, 2, 2). *)
Definition t_obj (c : cls) : obj :=
  let a := VArr [2; 2] in
  mkObj c (match c with
           | CDeterm => a 0 | CEnsemble => VArr [2; 2; 2] 0
           | CHurdle => VDict [("pop", a 0); ("mu", a 2); ("sigma", a 3)]
           | _ => VDict [("mu", a 0); ("sigma", a 2); ("shift", a 3); ("unshifted_mu", a 4)]
           end) (a 1)
    VNone VNone (VStr "w") (VBool false)
    VNone VNone (VFun 0) (VBool false) VNone VNone (VInt (-1)) (VBool false) (VInt 20) VNone.
(** An accepted call that changes the setting. *)
Definition t_set (g : setting) : op :=
  match g with
  | SAvg => OAvg (VInt 0) | SBoot => OBoot (VInt 3) | SEAxis => OEAxis (VInt 0) | SCollapse => OCollapse (VFun 1)
  | SMove => OMove (VInt 0) | SMembers => OMembers (VInt 9) | SClip => OClip one | STrunc => OTrunc (VBool true)
  | SBins => OBins (VInt 30) | SRange => ORange one two
  end.
Definition t_metrics : list meth :=
  [MCorr; MDecomp one VNone; MRank; MVariance; MDeterm; MRoc one VNone; MSharp one VNone; MIouD one VNone;
   MIouP (VTuple [one; two]) (VTuple [VNone; VNone]); MCdf one VNone; MCrps; MError; MSpread; MSqErr; MAbErr;
   MBrier one VNone; MRel (VInt 5) one VNone; MSS (VInt 5); MEns; MPit].

(** C02 fails for every metric and setting the theorem above excludes: for each class, each metric and each setting
    the metric depends on, the metric computed before the setting was changed is returned after it, although without
    saving the call gives something else.  (The members, their axis and their clipping only concern metrics that
    draw random numbers.) *)
Theorem c02_every_dependent_metric_refuted : forall c m g,
  In m t_metrics -> stale c m g = true -> ~ In g [SMove; SMembers; SClip] ->
  exists x1 k1, w_construct (t_obj c) w_root = (Ok x1, k1) /\
  let h := [OMetric m None; t_set g] in
  Forall calm h /\
  (forall w, fst (t_step (OMetric m None) (start x1 k1)) = Ok w ->
   random_call x1 m = false ->
   nth 1 (fst (t_steps h (start x1 k1))) (Raise KeyError) = Ok VNone /\
   no_draw (ob (snd (t_steps h (start x1 k1)))) (OMetric m None) /\
   fst (t_step (OMetric m None) (snd (t_steps h (start x1 k1)))) <>
   fst (t_step (OMetric m None) (snd (t_steps h (start (put_wd VNone x1) k1))))).
Proof.
  intros c m g I S NI.
  unfold t_metrics in I. cbn [In] in I.
  repeat (destruct I as [<-|I]); try contradiction;
    destruct g; try discriminate S; try (exfalso; apply NI; simpl; tauto); clear NI;
    destruct c; try discriminate S;
    do 2 eexists; (split; [reflexivity|]); (split; [repeat constructor|]);
    intros w W R; clear S; vm_compute in W; try discriminate W; try discriminate R; clear W R;
    (split; [vm_compute; reflexivity|]); (split; [vm_compute; reflexivity|]); vm_compute; discriminate.
Qed.
Print Assumptions c02_every_dependent_metric_refuted.

(** The combinations the hypotheses of the last theorem leave, per class: 66 in all. *)
Definition t_cases (c : cls) : list (meth * setting) :=
  filter (fun p => stale c (fst p) (snd p) &&
            match w_construct (t_obj c) w_root with
            | (Ok x1, k1) => negb (random_call x1 (fst p)) &&
                match fst (t_step (OMetric (fst p) None) (start x1 k1)) with Ok _ => true | _ => false end
            | _ => false
            end)
    (list_prod t_metrics [SAvg; SEAxis; STrunc; SBins; SRange]).
Example c02_every_dependent_metric_nonvacuous :
  map (fun c => length (t_cases c)) [CDeterm; CEnsemble; CGamma; CHurdle; CGaussian] = [1; 15; 14; 22; 14] /\
  t_cases CDeterm = [(MIouD one VNone, SAvg)] /\ In (MCrps, STrunc) (t_cases CGaussian) /\
  In (MDeterm, SBins) (t_cases CHurdle) /\ In (MBrier one VNone, SEAxis) (t_cases CEnsemble).
Proof.
  split; [vm_compute; reflexivity|]. split; [vm_compute; reflexivity|].
  split; [vm_compute; tauto|]. split; vm_compute; tauto.
Qed.
