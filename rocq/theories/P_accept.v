(** The checks of the constructors and setters against Spec_accept. *)
From Coq Require Import String ZArith Lia List Bool Arith.
From Verif Require Import Num M_state Spec_state P_state Spec_accept.
Import ListNotations.
Open Scope string_scope.
Open Scope list_scope.
Open Scope nat_scope.

Lemma passert_ok b : passert b = Ok tt <-> b = true.
Proof. destruct b; cbn; split; congruence. Qed.
Lemma seq_ok (b : bool) (r : res unit) : (passert b ;;; r) = Ok tt <-> b = true /\ r = Ok tt.
Proof. destruct b; cbn; split; try (intros [? ?]); try split; congruence. Qed.
Lemma seq2_ok (a r : res unit) : (a ;;; r) = Ok tt <-> a = Ok tt /\ r = Ok tt.
Proof. destruct a as [[]|]; cbn; split; try (intros [? ?]); try split; congruence. Qed.

Lemma int_iff v : is_int v = true <-> int_like v.
Proof. split; [destruct v; try discriminate; constructor|intros []; reflexivity]. Qed.
Lemma bool_iff v : is_bool v = true <-> bool_like v.
Proof. split; [destruct v; try discriminate; constructor|intros []; reflexivity]. Qed.
Lemma none_iff v : is_none v = true <-> v = VNone.
Proof. split; [destruct v; try discriminate; reflexivity|intros ->; reflexivity]. Qed.
Lemma opt_iff v (p : val -> bool) (P : val -> Prop) : (p v = true <-> P v) ->
  is_none v || p v = true <-> optional P v.
Proof. intro H. rewrite orb_true_iff, none_iff, H. reflexivity. Qed.
Lemma float_iff v : is_float v = true <-> exists q, v = VFloat q.
Proof. split; [destruct v; try discriminate; eexists; reflexivity|intros [q ->]; reflexivity]. Qed.
Lemma arr_iff v : is_arr v = true <-> exists sh i, v = VArr sh i.
Proof. split; [destruct v; try discriminate; do 2 eexists; reflexivity|intros (sh & i & ->); reflexivity]. Qed.
Lemma dict_iff v : is_dict v = true <-> exists l, v = VDict l.
Proof. split; [destruct v; try discriminate; eexists; reflexivity|intros (l & ->); reflexivity]. Qed.
Lemma fun_iff v : is_fun v = true <-> exists g, v = VFun g.
Proof. split; [destruct v; try discriminate; eexists; reflexivity|intros (l & ->); reflexivity]. Qed.
Lemma shape_iff a b : list_nat_eqb a b = true <-> a = b.
Proof.
  revert b. induction a as [|x a IH]; intros [|y b]; cbn; split; try discriminate; try reflexivity.
  - intro H. apply andb_true_iff in H. destruct H as [H1 H2]. apply Nat.eqb_eq in H1. apply IH in H2. congruence.
  - intro H. injection H as -> ->. rewrite Nat.eqb_refl. apply IH. reflexivity.
Qed.

(** avg_axis *)
Lemma avg_iff x : match validate_avg x with
  | (Ok _, y) => axis_arg (a_avg x) (a_avg y) /\ y = put_avg (a_avg y) x
  | (Raise e, _) => e = AssertionError /\ forall v, ~ axis_arg (a_avg x) v
  end.
Proof.
  unfold validate_avg. destruct x as [c f o avg bt wd sc fc ea co tr me cp mv pr bi ra]; cbn.
  assert (N : forall v, is_none v = false -> is_int v = false -> is_seq v = false -> forall w, ~ axis_arg v w)
    by (intros v A B C w H; destruct H as [|? []| |]; discriminate).
  destruct avg; cbn; split; try reflexivity; try (apply N; reflexivity); repeat constructor.
Qed.

(** shapes *)
Lemma without_0 n l : without 0 (n :: l) = l. Proof. reflexivity. Qed.
Lemma without_last l n : without (length l) (l ++ [n]) = l.
Proof.
  unfold without. rewrite firstn_app, Nat.sub_diag, firstn_all. cbn [firstn].
  rewrite skipn_all2 by (rewrite app_length; cbn; lia). rewrite !app_nil_r. reflexivity.
Qed.
Lemma snoc_inv (fs : list nat) : fs <> [] -> exists l n, fs = l ++ [n] /\ removelast fs = l.
Proof.
  intro N. exists (removelast fs), (last fs 0). split; [apply app_removelast_last, N|reflexivity].
Qed.
Lemma pop_last_iff fs os : fs <> [] -> (list_nat_eqb (pop_last fs) os = true <-> exists n, fs = os ++ [n]).
Proof.
  intro N. destruct (snoc_inv fs N) as (l & n & E & R). unfold pop_last. rewrite shape_iff, R. split.
  - intros <-. exists n. exact E.
  - intros [m E2]. rewrite E in E2. apply app_inj_tail in E2. tauto.
Qed.
Lemma pop_first_iff fs os : fs <> [] -> (list_nat_eqb (pop_first fs) os = true <-> exists n, fs = n :: os).
Proof.
  intro N. unfold pop_first. rewrite shape_iff. destruct fs as [|n l]; [congruence|]. cbn [tl]. split.
  - intros ->. exists n. reflexivity.
  - intros [m E]. congruence.
Qed.
Lemma without_first fs : fs <> [] -> without 0 fs = pop_first fs.
Proof. destruct fs; [congruence|reflexivity]. Qed.
Lemma without_end fs : fs <> [] -> without (length fs - 1) fs = pop_last fs.
Proof.
  intro N. destruct (snoc_inv fs N) as (l & n & E & R). unfold pop_last. rewrite R, E, app_length. cbn [length].
  rewrite Nat.add_sub. apply without_last.
Qed.

Definition at_end (z : Z) (n : nat) : bool :=
  (Z.eqb z 0 || Z.eqb z (-1) || Z.eqb z (- Z.of_nat n) || Z.eqb z (Z.of_nat n - 1))%bool.
Definition at_start (z : Z) (n : nat) : bool := (Z.eqb z 0 || Z.eqb z (- Z.of_nat n))%bool.

Lemma given_iff z fs sh :
  (exists i, names_axis z (length fs) i /\ (i = 0 \/ S i = length fs) /\ sh = without i fs) <->
  fs <> [] /\ at_end z (length fs) = true /\
  list_nat_eqb (if at_start z (length fs) then pop_first fs else pop_last fs) sh = true.
Proof.
  rewrite shape_iff. unfold at_end, at_start. rewrite !orb_true_iff, !Z.eqb_eq. split.
  - intros (i & [L Z] & E & ->).
    assert (NE : fs <> []) by (destruct fs; [cbn in L; lia|discriminate]).
    split; [exact NE|]. split; [lia|].
    destruct (Z.eqb_spec z 0) as [Z0|Z0]; [|destruct (Z.eqb_spec z (- Z.of_nat (length fs))) as [Z1|Z1]]; cbn [orb].
    + assert (i = 0) as -> by lia. symmetry. apply without_first, NE.
    + assert (i = 0) as -> by lia. symmetry. apply without_first, NE.
    + assert (i = length fs - 1) as -> by lia. symmetry. apply without_end, NE.
  - intros (NE & D & E).
    assert (L : 1 <= length fs) by (destruct fs; [congruence|cbn; lia]).
    destruct (Z.eqb_spec z 0) as [Z0|Z0]; [|destruct (Z.eqb_spec z (- Z.of_nat (length fs))) as [Z1|Z1]]; cbn [orb] in E.
    + exists 0. unfold names_axis. rewrite without_first by exact NE. repeat split; (lia || auto).
    + exists 0. unfold names_axis. rewrite without_first by exact NE. repeat split; (lia || auto).
    + exists (length fs - 1). unfold names_axis. rewrite without_end by exact NE. repeat split; (lia || auto).
Qed.

(** The check of the ensemble class. *)
Lemma ensemble_iff x : match validate_ensemble x with
  | (Ok _, y) => exists sh i fs j g, a_o x = VArr sh i /\ a_f x = VArr fs j /\ a_collapse x = VFun g /\
       member_axis fs sh (a_eaxis x) (a_eaxis y) /\ y = put_eaxis (a_eaxis y) x
  | (Raise e, _) => ~ (exists sh i fs j ax g, a_o x = VArr sh i /\ a_f x = VArr fs j /\
       member_axis fs sh (a_eaxis x) ax /\ a_collapse x = VFun g)
  end.
Proof.
  unfold validate_ensemble.
  destruct (is_arr (a_f x)) eqn:AF; cbn [andb negb].
  2: { intros (sh & i & fs & j & ax & g & A & B & _). rewrite B in AF. discriminate. }
  destruct (is_arr (a_o x)) eqn:AO; cbn [negb].
  2: { intros (sh & i & fs & j & ax & g & A & B & _). rewrite A in AO. discriminate. }
  apply arr_iff in AF, AO. destruct AF as (fs & j & F), AO as (sh & i & O).
  rewrite F, O. cbn [arr_shape].
  assert (SAME : (exists sh0 i0 fs0 j0 ax g, VArr sh i = VArr sh0 i0 /\ VArr fs j = VArr fs0 j0 /\
       member_axis fs0 sh0 (a_eaxis x) ax /\ a_collapse x = VFun g) ->
     exists ax g, member_axis fs sh (a_eaxis x) ax /\ a_collapse x = VFun g).
  { intros (sh0 & i0 & fs0 & j0 & ax & g & A & B & C & D).
    injection A as <- <-. injection B as <- <-. exists ax, g. tauto. }
  (* after the axis is chosen *)
  assert (G : forall ax, fs <> [] -> at_end (int_of ax) (length fs) = true ->
    list_nat_eqb (if at_start (int_of ax) (length fs) then pop_first fs else pop_last fs) sh = true ->
    member_axis fs sh (a_eaxis x) ax ->
    match (let x1 := put_eaxis ax x in
        let z := int_of ax in
        let n := Z.of_nat (length fs) in
        (if (Z.eqb z 0 || Z.eqb z (-1) || Z.eqb z (- n) || Z.eqb z (n - 1))%bool then
           match fs with
           | [] => Raise IndexError
           | fs =>
               passert (list_nat_eqb (if (Z.eqb z 0 || Z.eqb z (- n))%bool then pop_first fs else pop_last fs) sh) ;;;
               passert (is_fun (a_collapse x))
           end
         else Raise AssertionError, x1)) with
    | (Ok _, y) => exists sh0 i0 fs0 j0 g, VArr sh i = VArr sh0 i0 /\ VArr fs j = VArr fs0 j0 /\ a_collapse x = VFun g /\
       member_axis fs0 sh0 (a_eaxis x) (a_eaxis y) /\ y = put_eaxis (a_eaxis y) x
    | (Raise e, _) => ~ (exists sh0 i0 fs0 j0 ax g, VArr sh i = VArr sh0 i0 /\ VArr fs j = VArr fs0 j0 /\
       member_axis fs0 sh0 (a_eaxis x) ax /\ a_collapse x = VFun g)
    end).
  { intros ax NE AE EQ MA. cbv zeta. unfold at_end in AE. rewrite AE. unfold at_start in EQ.
    destruct fs as [|f0 fr]; [congruence|]. rewrite EQ. cbn [passert bind].
    destruct (is_fun (a_collapse x)) eqn:C; cbn [passert].
    - apply fun_iff in C. destruct C as [g C]. exists sh, i, (f0 :: fr), j, g. repeat split; assumption.
    - intro H. destruct (SAME H) as (ax' & g & _ & C'). rewrite C' in C. discriminate. }
  destruct (is_none (a_eaxis x)) eqn:N.
  - apply none_iff in N. unfold guess_axis. rewrite F, O. cbn [arr_shape].
    destruct fs as [|f0 fr].
    + intro H. destruct (SAME H) as (ax & g & MA & _). rewrite N in MA.
      inversion MA as [v k IL NA FL W | n E | n E _]; subst; [inversion IL|destruct sh; discriminate|discriminate].
    + assert (NE : f0 :: fr <> []) by discriminate.
      destruct (list_nat_eqb (pop_last (f0 :: fr)) sh) eqn:PL.
      * apply G; [exact NE|reflexivity| |].
        -- destruct (at_start (int_of (VInt (-1))) (length (f0 :: fr))) eqn:A; [|exact PL].
           unfold at_start in A. cbn [int_of] in A. apply orb_true_iff in A. rewrite !Z.eqb_eq in A.
           destruct fr; [exact PL|cbn [length] in A; lia].
        -- rewrite N. apply pop_last_iff in PL; [|exact NE]. destruct PL as [n PL]. apply axis_last with n. exact PL.
      * destruct (list_nat_eqb (pop_first (f0 :: fr)) sh) eqn:PF.
        -- apply G; [exact NE|reflexivity|exact PF|].
           rewrite N. apply pop_first_iff in PF; [|exact NE]. destruct PF as [n PF]. apply axis_first with n; [exact PF|].
           intros m E. assert (X : exists m, f0 :: fr = sh ++ [m]) by (exists m; exact E).
           apply pop_last_iff in X; [congruence|exact NE].
        -- intro H. destruct (SAME H) as (ax & g & MA & _). rewrite N in MA.
           inversion MA as [v k IL NA FL W | n E | n E _]; subst.
           ++ inversion IL.
           ++ assert (X : exists m, f0 :: fr = sh ++ [m]) by (exists n; exact E).
              apply pop_last_iff in X; [congruence|exact NE].
           ++ assert (X : exists m, f0 :: fr = m :: sh) by (exists n; exact E).
              apply pop_first_iff in X; [congruence|exact NE].
  - assert (MG : forall ax, member_axis fs sh (a_eaxis x) ax -> int_like (a_eaxis x) /\
       exists k, names_axis (int_of (a_eaxis x)) (length fs) k /\ (k = 0 \/ S k = length fs) /\ sh = without k fs).
    { intros ax MA. inversion MA as [v k IL NA FL W Ev | n E Ev | n E _ Ev]; subst.
      - split; [exact IL|]. exists k. tauto.
      - rewrite <- Ev in N. discriminate.
      - rewrite <- Ev in N. discriminate. }
    destruct (is_int (a_eaxis x)) eqn:II.
    2: { intro H. destruct (SAME H) as (ax & g & MA & _). apply MG in MA. destruct MA as [IL _].
         apply int_iff in IL. congruence. }
    destruct (at_end (int_of (a_eaxis x)) (length fs)) eqn:AE.
    2: { cbv zeta. unfold at_end in AE. rewrite AE. intro H. destruct (SAME H) as (ax & g & MA & _).
         apply MG in MA. destruct MA as [_ MA]. apply given_iff in MA. destruct MA as (_ & MA & _).
         unfold at_end in MA. congruence. }
    destruct fs as [|f0 fr].
    { cbv zeta. unfold at_end in AE. rewrite AE. intro H. destruct (SAME H) as (ax & g & MA & _).
      apply MG in MA. destruct MA as [_ MA]. apply given_iff in MA. destruct MA as (MA & _). congruence. }
    destruct (list_nat_eqb (if at_start (int_of (a_eaxis x)) (length (f0 :: fr)) then pop_first (f0 :: fr)
                            else pop_last (f0 :: fr)) sh) eqn:EQ.
    + assert (X : exists k, names_axis (int_of (a_eaxis x)) (length (f0 :: fr)) k /\
         (k = 0 \/ S k = length (f0 :: fr)) /\ sh = without k (f0 :: fr)).
      { apply given_iff. split; [discriminate|]. split; assumption. }
      apply G; [discriminate|exact AE|exact EQ|]. destruct X as (k & X1 & X2 & X3).
      apply axis_given with k; try assumption. apply int_iff, II.
    + cbv zeta. unfold at_end in AE. rewrite AE. unfold at_start in EQ. rewrite EQ. cbn [passert bind].
      intro H. destruct (SAME H) as (ax & g & MA & _).
      apply MG in MA. destruct MA as [_ MA]. apply given_iff in MA. destruct MA as (_ & _ & MA).
      unfold at_start in MA. congruence.
Qed.

(** The probabilistic classes. *)
Lemma shapes_iff l sh : check_shapes l sh = Ok tt <-> arrays_of_shape l sh.
Proof.
  unfold arrays_of_shape. induction l as [|[k v] l IH]; cbn [check_shapes].
  - split; [intros _ ? ? []|reflexivity].
  - assert (D : (exists s i, v = VArr s i) \/ (match v with
      | VArr s _ => passert (list_nat_eqb s sh) ;;; check_shapes l sh | _ => Raise AttributeError end = Raise AttributeError
        /\ forall s i, v <> VArr s i)).
    { destruct v; try (right; split; [reflexivity|discriminate]). left; do 2 eexists; reflexivity. }
    destruct D as [(s & i & ->)|[E N]].
    + rewrite seq_ok, shape_iff, IH. split.
      * intros [-> H] k' v' [X|X]; [injection X as <- <-; eexists; reflexivity|eapply H, X].
      * intro H. split; [destruct (H k (VArr s i) (or_introl eq_refl)) as [j X]; congruence|].
        intros k' v' X. apply (H k' v'). right. exact X.
    + rewrite E. split; [discriminate|]. intro H. destruct (H k v (or_introl eq_refl)) as [j X]. destruct (N _ _ X).
Qed.
Lemma key_iff x k : has_key x k = true <-> exists v, In (k, v) (fields (a_f x)).
Proof.
  unfold has_key. rewrite existsb_exists. split.
  - intros ([k' v] & I & E). cbn in E. apply String.eqb_eq in E. subst. exists v. exact I.
  - intros (v & I). exists (k, v). split; [exact I|]. apply String.eqb_refl.
Qed.

Lemma opt_int_iff v : is_none v || is_int v = true <-> optional int_like v.
Proof. apply opt_iff, int_iff. Qed.
Lemma opt_float_iff v : is_none v || is_float v = true <-> optional (fun v => exists q, v = VFloat q) v.
Proof. apply (opt_iff v is_float (fun v => exists q, v = VFloat q)), float_iff. Qed.
Lemma prob_iff x : is_prob (cl x) = true -> (validate_prob x = Ok tt <->
  int_like (a_move x) /\ bool_like (a_pitr x) /\ optional int_like (a_members x) /\
  optional (fun v => exists q, v = VFloat q) (a_clip x) /\ bool_like (a_trunc x) /\
  (cl x = CHurdle -> a_trunc x = VBool false)).
Proof.
  intro P. unfold validate_prob.
  rewrite !seq_ok, int_iff, !bool_iff, opt_int_iff, opt_float_iff.
  assert (H : bool_like (a_trunc x) -> ((match cl x with CHurdle => passert (negb (truthy (a_trunc x))) | _ => Ok tt end) = Ok tt <->
     (cl x = CHurdle -> a_trunc x = VBool false))).
  { intros [b]. destruct (cl x); try (split; [intros _; discriminate|reflexivity]).
    rewrite passert_ok. destruct b; cbn; split; try (intros _; intros; reflexivity); try reflexivity; try discriminate.
    intro X. specialize (X eq_refl). discriminate. }
  tauto.
Qed.
Lemma range_iff v : (if is_none v then Ok tt
        else if is_seq v then passert (Nat.eqb (length (items v)) 2) else Raise TypeError) = Ok tt <->
  optional (fun v => exists a b, v = VTuple [a; b] \/ v = VList [a; b]) v.
Proof.
  unfold optional. destruct (is_none v) eqn:N.
  - apply none_iff in N. tauto.
  - assert (NV : v <> VNone) by (intro E; rewrite E in N; discriminate).
    destruct (is_seq v) eqn:S.
    + rewrite passert_ok, Nat.eqb_eq. split.
      * intro L. right. destruct v; try discriminate S; cbn [items] in L;
          destruct l as [|a [|b [|c l]]]; try discriminate L; exists a, b; tauto.
      * intros [E|(a & b & [E|E])]; [congruence|subst; reflexivity..].
    + split; [discriminate|]. intros [E|(a & b & [E|E])]; [congruence|subst; discriminate..].
Qed.

Definition class_ok (x : obj) : Prop := forecasts_ok x /\ (is_prob (cl x) = true -> prob_ok x).
Lemma fields_iff x ks : (forall k, In k ks -> has_key x k = true) <-> has_fields (fields (a_f x)) ks.
Proof. unfold has_fields. split; intros H k I; apply key_iff, H, I. Qed.

Lemma class_iff x : match validate_class x with
  | (Ok _, y) => class_ok x /\ y = put_eaxis (a_eaxis y) x /\
      (cl x = CEnsemble -> member_axis (arr_shape (a_f x)) (arr_shape (a_o x)) (a_eaxis x) (a_eaxis y)) /\
      (cl x <> CEnsemble -> a_eaxis y = a_eaxis x)
  | (Raise e, _) => ~ class_ok x
  end.
Proof.
  assert (ID : x = put_eaxis (a_eaxis x) x) by (destruct x; reflexivity).
  assert (GOAL : forall (r : res unit) (Q : Prop), cl x <> CEnsemble -> (r = Ok tt <-> class_ok x) ->
    match (r, x) with
    | (Ok _, y) => class_ok x /\ y = put_eaxis (a_eaxis y) x /\
      (cl x = CEnsemble -> member_axis (arr_shape (a_f x)) (arr_shape (a_o x)) (a_eaxis x) (a_eaxis y)) /\
      (cl x <> CEnsemble -> a_eaxis y = a_eaxis x)
    | (Raise e, _) => ~ class_ok x
    end).
  { intros r _ N E. destruct r as [[]|e].
    - split; [apply E; reflexivity|]. split; [exact ID|]. split; [contradiction|reflexivity].
    - intro C. apply E in C. discriminate. }
  unfold validate_class. destruct (cl x) eqn:C.
  - apply (GOAL _ True); [discriminate|]. rewrite !seq_ok, passert_ok, !arr_iff, shape_iff.
    unfold class_ok, forecasts_ok. rewrite C. cbn [is_prob]. split.
    + intros ((s & i & F) & (s' & j & O) & E). rewrite F, O in E. cbn in E. subst s'.
      split; [|discriminate]. exists s, j. split; [exact O|]. exists i. exact F.
    + intros [(s & i & O & j & F) _]. rewrite F, O. repeat split; do 2 eexists; reflexivity.
  - pose proof (ensemble_iff x) as E. destruct (validate_ensemble x) as [[[]|e] y].
    + destruct E as (sh & i & fs & j & g & O & F & G & M & Y).
      split; [|split; [exact Y|split; [|congruence]]].
      * split; [|rewrite C; discriminate]. exists sh, i. split; [exact O|]. rewrite C. exists fs, j, (a_eaxis y), g. tauto.
      * intros _. rewrite O, F. exact M.
    + intros [(sh & i & O & H) _]. rewrite C in H. destruct H as (fs & j & ax & g & F & M & G). apply E.
      exists sh, i, fs, j, ax, g. tauto.
  - apply (GOAL _ True); [discriminate|].
    rewrite seq2_ok, !seq_ok, seq2_ok, !seq_ok, passert_ok, prob_iff, dict_iff, arr_iff, shapes_iff by (rewrite C; reflexivity).
    unfold class_ok, forecasts_ok, prob_ok. rewrite C. cbn [is_prob]. split.
    + intros (P & (l & F) & (s & i & O) & SH & K1 & K2 & K3 & K4). rewrite F, O in SH. cbn in SH. split.
      * exists s, i. split; [exact O|]. exists l. split; [exact F|]. split; [exact SH|].
        pose proof (fields_iff x ["mu"; "sigma"; "shift"; "unshifted_mu"]) as FI. rewrite F in FI. apply FI.
        intros k I. repeat (destruct I as [<-|I]; [assumption|]). destruct I.
      * intros _. repeat (split; [tauto|]). discriminate.
    + intros [(s & i & O & l & F & SH & FL) P]. specialize (P eq_refl).
      pose proof (fields_iff x ["mu"; "sigma"; "shift"; "unshifted_mu"]) as FI. rewrite F in FI.
      assert (K := proj2 FI FL). rewrite F, O. cbn [arr_shape fields].
      split; [repeat (split; [tauto|]); discriminate|]. split; [eexists; reflexivity|].
      split; [do 2 eexists; reflexivity|]. split; [exact SH|]. repeat split; apply K; cbn; tauto.
  - apply (GOAL _ True); [discriminate|].
    rewrite seq2_ok, !seq_ok, range_iff, prob_iff, dict_iff, arr_iff, int_iff by (rewrite C; reflexivity).
    unfold class_ok, forecasts_ok, prob_ok. rewrite C. cbn [is_prob]. split.
    + intros (P & (l & F) & (s & i & O) & K1 & K2 & K3 & B & R). split.
      * exists s, i. split; [exact O|]. exists l. split; [exact F|].
        pose proof (fields_iff x ["pop"; "mu"; "sigma"]) as FI. rewrite F in FI. apply FI.
        intros k I. repeat (destruct I as [<-|I]; [assumption|]). destruct I.
      * intros _. tauto.
    + intros [(s & i & O & l & F & FL) P]. specialize (P eq_refl).
      pose proof (fields_iff x ["pop"; "mu"; "sigma"]) as FI. rewrite F in FI.
      assert (K := proj2 FI FL). rewrite F, O.
      split; [tauto|]. split; [eexists; reflexivity|].
      split; [do 2 eexists; reflexivity|]. split; [apply K; cbn; tauto|]. split; [apply K; cbn; tauto|].
      split; [apply K; cbn; tauto|]. tauto.
  - apply (GOAL _ True); [discriminate|].
    rewrite seq2_ok, !seq_ok, seq2_ok, !seq_ok, passert_ok, prob_iff, dict_iff, arr_iff, shapes_iff by (rewrite C; reflexivity).
    unfold class_ok, forecasts_ok, prob_ok. rewrite C. cbn [is_prob]. split.
    + intros (P & (l & F) & (s & i & O) & SH & K1 & K2). rewrite F, O in SH. cbn in SH. split.
      * exists s, i. split; [exact O|]. exists l. split; [exact F|]. split; [exact SH|].
        pose proof (fields_iff x ["mu"; "sigma"]) as FI. rewrite F in FI. apply FI.
        intros k I. repeat (destruct I as [<-|I]; [assumption|]). destruct I.
      * intros _. repeat (split; [tauto|]). discriminate.
    + intros [(s & i & O & l & F & SH & FL) P]. specialize (P eq_refl).
      pose proof (fields_iff x ["mu"; "sigma"]) as FI. rewrite F in FI.
      assert (K := proj2 FI FL). rewrite F, O. cbn [arr_shape fields].
      split; [repeat (split; [tauto|]); discriminate|]. split; [eexists; reflexivity|].
      split; [do 2 eexists; reflexivity|]. split; [exact SH|]. repeat split; apply K; cbn; tauto.
Qed.

Section Dirs.
Variable expanduser : string -> string.
Variable resolve : string -> path.
Notation validate_saving := (validate_saving expanduser resolve).
Notation validate := (validate expanduser resolve).
Notation directory_ok := (directory_ok expanduser resolve).
Notation acceptable := (acceptable expanduser resolve).
Notation settled := (settled expanduser).

Lemma ancestor_iff d k : ancestor_is_file d k = false <-> forall a b, d = a ++ b -> b <> [] -> file k a = None.
Proof.
  unfold ancestor_is_file. split.
  - intros H a b -> NB. destruct (file k a) eqn:F; [|reflexivity].
    assert (T : existsb (fun n => match file k (firstn n (a ++ b)) with Some _ => true | None => false end)
       (seq 0 (length (a ++ b))) = true); [|congruence].
    apply existsb_exists. exists (length a). split.
    + apply in_seq. rewrite app_length. destruct b; [congruence|cbn; lia].
    + rewrite firstn_app, Nat.sub_diag, firstn_all. cbn [firstn]. rewrite app_nil_r, F. reflexivity.
  - intro H. apply not_true_is_false. intro T. apply existsb_exists in T. destruct T as (n & I & F).
    apply in_seq in I. rewrite (H (firstn n d) (skipn n d)) in F; [discriminate|symmetry; apply firstn_skipn|].
    intro E. assert (L : length (skipn n d) = 0) by (rewrite E; reflexivity). rewrite skipn_length in L. lia.
Qed.

Definition wd_of (v : val) : val :=
  match v with VStr s => if String.eqb s "" then VStr s else VStr (expanduser s) | v => v end.
Lemma saving_iff x k : disk_wf k -> bool_like (a_scratch x) -> match validate_saving x k with
  | (Ok _, y, _) => directory_ok x k /\ y = put_wd (wd_of (a_wd x)) x
  | (Raise e, y, _) => ~ directory_ok x k
  end.
Proof.
  intros WF SC. unfold M_state.validate_saving, Spec_accept.directory_ok.
  destruct (truthy (a_wd x)) eqn:T.
  2: { split; [discriminate|]. destruct x as [c f o avg bt wd sc fc ea co tr me cp mv pr bi ra]. cbn in *.
       unfold put_wd. cbn. f_equal. destruct wd; try reflexivity. cbn in T. cbn.
       destruct (String.eqb s ""); [reflexivity|discriminate]. }
  destruct (a_wd x) as [| | | |w| | | | | |] eqn:W;
    try (cbv beta iota; intro H; destruct (H eq_refl) as (s0 & b0 & E0 & _); discriminate E0).
  assert (WD : wd_of (VStr w) = VStr (expanduser w)).
  { cbn in T. cbn. destruct (String.eqb w ""); [discriminate|reflexivity]. }
  rewrite WD. cbn [a_scratch put_wd]. set (d := resolve (expanduser w)).
  inversion SC as [b SB]. cbn [truthy].
  assert (YES : usable k d b -> true = true -> exists s b0, VStr w = VStr s /\ VBool b = VBool b0 /\ usable k (resolve (expanduser s)) b0)
    by (intros U _; exists w, b; tauto).
  assert (NO : ~ usable k d b -> ~ (true = true -> exists s b0, VStr w = VStr s /\ VBool b = VBool b0 /\ usable k (resolve (expanduser s)) b0)).
  { intros U H. destruct (H eq_refl) as (s & b0 & E1 & E2 & U'). injection E1 as <-. injection E2 as <-. exact (U U'). }
  unfold exists_at. destruct (isdir k d) eqn:D; cbn [orb].
  - assert (U : usable k d b) by (left; exact D).
    destruct b.
    + destruct (wipe_clean d k D (wf_no_ancestor k d WF D)) as (k1 & k2 & R & MK & _). rewrite R, MK.
      split; [exact (YES U)|reflexivity].
    + split; [exact (YES U)|reflexivity].
  - destruct (file k d) as [fb|] eqn:F.
    + destruct b.
      * unfold rmtree. rewrite D. apply NO. intros [U|[[_ U]|(_ & U & _)]]; congruence.
      * split; [|reflexivity]. apply YES. right. left. split; [congruence|reflexivity].
    + unfold makedirs. destruct (ancestor_is_file d k) eqn:A.
      * apply NO. intros [U|[[U _]|(_ & _ & U)]]; [congruence|congruence|].
        apply ancestor_iff in U. congruence.
      * split; [|reflexivity]. apply YES. right. right. split; [exact D|]. split; [exact F|]. apply ancestor_iff, A.
Qed.

Lemma validate_iff x k : disk_wf k -> match validate x k with
  | (Ok _, y, _) => acceptable x k /\ settled x y
  | (Raise e, y, _) => ~ acceptable x k
  end.
Proof.
  intro WF. unfold M_state.validate, validate_base.
  pose proof (avg_iff x) as A. destruct (validate_avg x) as [[u|e] x1].
  2: { intros [[v H] _]. destruct A as [_ A]. exact (A v H). }
  destruct A as [A E1].
  assert (B1 : a_boot x1 = a_boot x) by (rewrite E1; reflexivity). rewrite B1.
  destruct (is_none (a_boot x) || is_int (a_boot x)) eqn:B.
  2: { intros (_ & H & _). apply opt_int_iff in H. congruence. }
  assert (S1 : a_scratch x1 = a_scratch x) by (rewrite E1; reflexivity). rewrite S1.
  destruct (is_bool (a_scratch x)) eqn:S.
  2: { intros (_ & _ & H & _). apply bool_iff in H. congruence. }
  assert (SB : bool_like (a_scratch x1)) by (rewrite S1; apply bool_iff, S).
  assert (D1 : directory_ok x1 k <-> directory_ok x k) by (rewrite E1; reflexivity).
  pose proof (saving_iff x1 k WF SB) as SV. destruct (validate_saving x1 k) as [[[u2|e] x2] k2].
  2: { intros (_ & _ & _ & H & _). apply D1 in H. contradiction. }
  destruct SV as [DO E2].
  pose proof (class_iff x2) as CL. destruct (validate_class x2) as [r y].
  assert (CO : class_ok x2 <-> class_ok x) by (rewrite E2, E1; reflexivity).
  destruct r as [u3|e].
  - destruct CL as (C1 & Y & C2 & C3). apply CO in C1. destruct C1 as [C1 C4]. split.
    + split; [exists (a_avg x1); exact A|]. split; [apply opt_int_iff, B|]. split; [rewrite <- S1; exact SB|].
      split; [apply D1, DO|]. split; [exact C1|exact C4].
    + exists (a_eaxis y).
      assert (AY : a_avg y = a_avg x1) by (rewrite Y, E2; reflexivity).
      split; [rewrite AY; exact A|].
      split; [intro C; rewrite E2, E1 in C2; apply C2; exact C|].
      split; [intro C; rewrite E2, E1 in C3; apply C3; exact C|].
      rewrite AY. clear - Y E2 E1. revert Y E1. generalize (a_eaxis y) (a_avg x1). intros ey av -> ->. rewrite E2.
      destruct x as [c f o avg bt wd sc fc ea co tr me cp mv pr bi ra]. destruct wd; reflexivity.
  - intros (_ & _ & _ & _ & F & P). apply CL, CO. split; assumption.
Qed.

(** The checks do not look at f_collapsed, and leave it. *)
Lemma acceptable_fc v x k : acceptable (put_fc v x) k <-> acceptable x k.
Proof. reflexivity. Qed.
End Dirs.
