(** Proofs about the files a call touches. *)
From Coq Require Import String Ascii QArith Qcanon ZArith Lia List Bool.
From Verif Require Import Num M_state Spec_state P_state Spec_foot.
Import ListNotations.
Open Scope string_scope.
Open Scope list_scope.
Open Scope nat_scope.

Section Foot.
Variable lib : string -> list val -> res val.
Variable libr : string -> list val -> nat -> res val.
Variable str_of : val -> string.
Variable dumps : val -> string.
Variable loads : string -> res val.
Variable expanduser : string -> string.
Variable resolve : string -> path.
Variable points : val -> val -> val -> res (list num).
Variable less_memory : bool.
Variable integrate_wdir : option path.
Variable cwd : path.
Variable rng : nat -> nat.
Notation exec := (exec lib libr str_of dumps loads resolve points less_memory integrate_wdir cwd rng).
Notation metric := (metric lib libr str_of dumps loads resolve points less_memory integrate_wdir cwd rng).
Notation rmse := (rmse lib libr str_of dumps loads resolve points less_memory integrate_wdir cwd rng).
Notation step := (step lib libr str_of dumps loads expanduser resolve points less_memory integrate_wdir cwd rng).
Notation steps := (steps lib libr str_of dumps loads expanduser resolve points less_memory integrate_wdir cwd rng).
Notation body := (body lib libr points less_memory).
Notation to_name := (to_name str_of).
Notation default_name := (default_name str_of).
Notation load := (load loads resolve).
Notation save := (save dumps resolve).
Notation workflow_1 := (workflow_1 dumps loads resolve).
Notation post := (post lib libr).
Notation footprint := (footprint loads dumps resolve less_memory integrate_wdir cwd).
Notation scratch_file := (scratch_file resolve integrate_wdir cwd).
Notation mem_path := (mem_path resolve integrate_wdir cwd).
Notation mem_dir := (mem_dir resolve integrate_wdir cwd).

(** the scratch file is made and removed in turn, and only by the integrations of the hurdle class *)
Fixpoint bal (mem : Prop) (o : bool) (p : prog) : Prop :=
  match p with
  | PRet _ => o = false
  | PRaise _ => True
  | PRand k => forall d, bal mem o (k d)
  | PCall _ k => forall v, bal mem o (k v)
  | PMem b k => mem /\ o = negb b /\ bal mem b k
  end.
Fixpoint still (p : prog) : Prop :=
  match p with
  | PRet _ | PRaise _ => True
  | PRand k => forall d, still (k d)
  | PCall _ k => forall v, still (k v)
  | PMem _ _ => False
  end.
Lemma bal_still mem p : still p -> bal mem false p.
Proof. induction p; cbn; auto. tauto. Qed.
Lemma bal_bind mem o p f : still p -> (forall v, bal mem o (f v)) -> bal mem o (pbind p f).
Proof. intros H Hf. induction p; cbn in *; auto. tauto. Qed.
Lemma still_bind p f : still p -> (forall v, still (f v)) -> still (pbind p f).
Proof. intros H Hf. induction p; cbn in *; auto. Qed.
Lemma still_lift r : still (lift r). Proof. destruct r; exact I. Qed.
Lemma still_lib n a : still (plib lib n a). Proof. apply still_lift. Qed.
Lemma still_rand n a : still (prand libr n a). Proof. intro. apply still_lift. Qed.
Lemma still_getf x k f : (forall v, still (f v)) -> still (getf x k f).
Proof. intro H. unfold getf. destruct (field _ _); [apply H|exact I]. Qed.
Lemma still_pif b p : still p -> still (pif b p). Proof. destruct b; cbn; auto. Qed.
Lemma still_boot x n a : still (pboot lib libr x n a).
Proof. unfold pboot. destruct (is_none _); [apply still_lib|apply still_rand]. Qed.
Lemma still_cdf x o b : still (cdf_body lib x o b).
Proof.
  unfold cdf_body, cdf_below. destruct (cl x); [exact I|..]; apply still_pif; (destruct (is_none b); [intro; apply still_lib|]); repeat (apply still_getf; intro); apply still_lib.
Qed.
Lemma still_item l n k : (forall v, still (k v)) -> still (nth_item l n k).
Proof. intros H. unfold nth_item. destruct (nth_error _ _); [apply H|exact I]. Qed.
Lemma still_prob x o b k : (forall f v, still (k f v)) -> still (with_prob lib x o b k).
Proof. intros H f. apply still_bind; [apply still_lib|intro; apply H]. Qed.
Lemma still_forecast x k : (forall v, still (k v)) -> still (with_forecast x k).
Proof. intros H. unfold with_forecast. destruct (cl x); cbn; auto. Qed.
Definition mem (x : obj) : Prop := less_memory = true /\ cl x = CHurdle.
Lemma bal_pcalls m o ms acc k : (forall vs, bal m o (k vs)) -> bal m o (pcalls ms acc k).
Proof. intros H. revert acc. induction ms; intros acc; cbn; auto. Qed.
Lemma bal_integrate x w key : cl x = CHurdle -> bal (mem x) false (integrate lib points less_memory x w key).
Proof.
  intros C. unfold integrate. destruct (points _ _ _); [|exact I]. destruct less_memory eqn:L.
  - assert (M : mem x) by (split; assumption). cbn [bal negb]. split; [exact M|]. split; [reflexivity|]. apply bal_pcalls. intro. apply bal_bind; [apply still_lib|]. intro. cbn [bal negb]. auto.
  - apply bal_pcalls. intro. apply bal_bind; [apply still_lib|]. intro. reflexivity.
Qed.
Ltac quiet := repeat first [exact I | apply still_lib | apply still_boot | apply still_rand | apply still_cdf
  | apply still_getf; intro | apply still_pif | apply still_prob; intros ? ? | apply still_forecast; intro | apply still_item; intro
  | apply still_bind; [|intro] | match goal with |- still (if ?b then _ else _) => destruct b end
  | match goal with |- still (match ?b with _ => _ end) => destruct b end | intro | progress cbn [still] ].
Lemma body_bal x m : bal (mem x) false (body x m).
Proof.
  destruct m; try (apply bal_still; unfold M_state.body; solve [quiet]).
  all: unfold M_state.body, determ_body; destruct (cl x) eqn:C; try (apply bal_still; solve [quiet]); try (apply bal_integrate; assumption).
Qed.

Lemma post_still x m v : still (post x m v).
Proof. destruct m; unfold M_state.post; solve [quiet]. Qed.

(** ** What running a program does to the disk *)
Definition gone (x : obj) (k k' : disk) : Prop := forall p, scratch_file (a_wd x) p -> file k' p = file k p \/ file k' p = None.
Lemma foot_refl x k : footprint x k k.
Proof. split; auto. Qed.
Lemma foot_trans x k1 k2 k3 : footprint x k1 k2 -> footprint x k2 k3 -> footprint x k1 k3.
Proof.
  intros [A1 B1] [A2 B2]. split; [intros; rewrite A2; apply A1|]. intros p. destruct (B1 p) as [E1|[E1|E1]]; [|right|right; right; exact E1].
  - destruct (B2 p) as [E2|[(R & O & W)|E2]]; [left; congruence| |right; right; exact E2]. right; left. rewrite E1 in O. auto.
  - destruct (B2 p) as [E2|[(R & O & W)|E2]]; [|left|right; exact E2].
    + left. destruct E1 as (R & O & W). rewrite E2. auto.
    + destruct E1 as (R1 & O1 & W1). auto.
Qed.
Lemma gone_trans x k1 k2 k3 : gone x k1 k2 -> gone x k2 k3 -> gone x k1 k3.
Proof. intros A B p S. destruct (B p S) as [E|E]; [|right; exact E]. rewrite E. apply A, S. Qed.
Lemma result_not_scratch x p : result_file resolve (a_wd x) p -> scratch_file (a_wd x) p -> False.
Proof.
  intros (w & n & _ & _ & ->) (d & _ & H). apply app_inj_tail in H as [_ H]. exact (pkl_not_dat n H).
Qed.
Lemma mem_scratch x : mem_text integrate_wdir x = true -> scratch_file (a_wd x) (mem_path x).
Proof.
  intros T. exists (mem_dir x). split; [|reflexivity]. unfold mem_text, M_state.mem_dir in *. destruct integrate_wdir as [d|] eqn:E; [apply by_setting; reflexivity|].
  destruct (a_wd x) eqn:W; try discriminate T; [apply by_current; auto|]. destruct (String.eqb_spec s "") as [->|N]; [apply by_current; auto|]. apply (by_working _ _ _ _ s); auto.
Qed.
Lemma save_foot x s n v r s' : ob s = x -> (forall p, save_path resolve x n = Ok (Some p) -> file (dk s) p = None \/ exists b, file (dk s) p = Some b /\ loads b = Ok VNone) ->
  save s n v = (r, s') -> ob s' = x /\ footprint x (dk s) (dk s') /\ gone x (dk s) (dk s').
Proof.
  intros O H E. unfold M_state.save in E. rewrite O in E.
  assert (Self : ob s = x /\ footprint x (dk s) (dk s) /\ gone x (dk s) (dk s)) by (split; [exact O|]; split; [apply foot_refl|intros p _; auto]).
  destruct (save_path resolve x n) as [[q|]|e] eqn:SP; try (injection E as <- <-; exact Self).
  destruct (isdir (dk s) q); [injection E as <- <-; exact Self|]. destruct (isdir (dk s) (removelast q)); injection E as <- <-; [|exact Self].
  assert (R : result_file resolve (a_wd x) q).
  { unfold save_path in SP. destruct n as [n|]; [|discriminate]. destruct (truthy (a_wd x)) eqn:T; [|discriminate]. destruct (a_wd x) eqn:W; try discriminate SP.
    injection SP as <-. eexists _, n. split; [reflexivity|]. split; [|reflexivity]. intros Es. rewrite Es in T. discriminate T. }
  split; [exact O|]. split; [split; [reflexivity|]|].
  - intros p. cbn [emit dk apply_event write_file file]. destruct (path_eqb q p) eqn:PE; [|left; reflexivity]. apply path_eqb_spec in PE as <-. right; left. split; [exact R|]. split; [apply (H q eq_refl)|exists v; reflexivity].
  - intros p Sc. left. cbn [emit dk apply_event write_file file]. destruct (path_eqb q p) eqn:PE; [|reflexivity]. apply path_eqb_spec in PE as <-. elim (result_not_scratch x q R Sc).
Qed.
Lemma workflow_foot x nm run s r s' : ob s = x -> (forall r1 s1, run s = (r1, s1) -> ob s1 = x /\ footprint x (dk s) (dk s1) /\ ((exists v, r1 = Ok v) -> gone x (dk s) (dk s1))) ->
  workflow_1 nm run s = (r, s') -> ob s' = x /\ footprint x (dk s) (dk s') /\ ((exists v, r = Ok v) -> gone x (dk s) (dk s')).
Proof.
  intros O R E. unfold M_state.workflow_1 in E.
  assert (Self : ob s = x /\ footprint x (dk s) (dk s) /\ ((exists v, r = Ok v) -> gone x (dk s) (dk s))) by (split; [exact O|]; split; [apply foot_refl|intros _ p _; auto]).
  destruct nm as [n|e]; [|injection E as <- <-; exact Self].
  destruct (load s n) as [[v|]|e] eqn:L; try (injection E as <- <-; exact Self).
  destruct (run s) as [[v|e] s1] eqn:Er; destruct (R _ _ eq_refl) as (O1 & F1 & G1).
  2:{ injection E as <- <-. split; [exact O1|]. split; [exact F1|]. intros [v V]. discriminate V. }
  specialize (G1 (ex_intro _ v eq_refl)).
  destruct (save s1 n v) as [r2 s2] eqn:Sv.
  assert (K : ob s2 = x /\ footprint x (dk s) (dk s2) /\ gone x (dk s) (dk s2)).
  { (* a result that is rewritten was missing, or None, when it was looked up; what the computation wrote there does not count *)
    unfold M_state.save in Sv. rewrite O1 in Sv. destruct (save_path resolve x n) as [[q|]|e] eqn:SP; try (injection Sv as <- <-; auto).
    destruct (isdir (dk s1) q) eqn:D1; [injection Sv as <- <-; auto|]. destruct (isdir (dk s1) (removelast q)); injection Sv as <- <-; [|auto].
    assert (Rf : result_file resolve (a_wd x) q).
    { unfold save_path in SP. destruct n as [n|]; [|discriminate]. destruct (truthy (a_wd x)) eqn:T; [|discriminate]. destruct (a_wd x) eqn:W; try discriminate SP.
      injection SP as <-. eexists _, n. split; [reflexivity|]. split; [|reflexivity]. intros Es. rewrite Es in T. discriminate T. }
    assert (Old : file (dk s) q = None \/ exists b, file (dk s) q = Some b /\ loads b = Ok VNone).
    { unfold M_state.load in L. rewrite O, SP in L. cbn [bind] in L. destruct (isdir (dk s) q); [discriminate L|]. destruct (file (dk s) q) as [b|]; [|auto]. right. exists b. split; [reflexivity|].
      destruct (loads b) as [w|e]; [|discriminate L]. cbn [bind] in L. destruct w; try discriminate L. reflexivity. }
    split; [exact O1|]. destruct F1 as [A1 B1]. split; [split; [exact A1|]|].
    - intros p. cbn [emit dk apply_event write_file file]. destruct (path_eqb q p) eqn:PE; [|apply B1]. apply path_eqb_spec in PE as <-. right; left. split; [exact Rf|]. split; [exact Old|exists v; reflexivity].
    - intros p Sc. cbn [emit dk apply_event write_file file]. destruct (path_eqb q p) eqn:PE; [|apply G1, Sc]. apply path_eqb_spec in PE as <-. elim (result_not_scratch x q Rf Sc). }
  destruct r2 as [u|e]; injection E as <- <-; destruct K as (K1 & K2 & K3); auto.
Qed.
Lemma exec_foot n : forall p o s r s' x, bal (mem x) o p -> ob s = x -> (o = true -> mem_text integrate_wdir x = true) -> exec n p s = (r, s') ->
  ob s' = x /\ footprint x (dk s) (dk s') /\ ((exists v, r = Ok v) -> gone x (dk s) (dk s') /\ (o = true -> file (dk s') (mem_path x) = None)).
Proof.
  induction n as [n IHn] using lt_wf_ind. intros p.
  induction p as [w|e|k IHp|m k IHp|b k IHp]; intros o s r s' x B O T H.
  - assert (H' : (Ok w, s) = (r, s')) by (destruct n; exact H). injection H' as <- <-. split; [exact O|]. split; [apply foot_refl|]. intros _. split; [intros p _; auto|]. cbn in B. congruence.
  - assert (H' : (Raise e, s) = (r, s')) by (destruct n; exact H). injection H' as <- <-. split; [exact O|]. split; [apply foot_refl|]. intros [v V]. discriminate V.
  - assert (H' : exec n (k (rng (pos s))) (mkSt (ob s) (dk s) (S (pos s)) (events s)) = (r, s')) by (destruct n; exact H).
    exact (IHp _ o (mkSt (ob s) (dk s) (S (pos s)) (events s)) r s' x (B _) O T H').
  - destruct n as [|n]; [injection H as <- <-; split; [exact O|]; split; [apply foot_refl|]; intros [v V]; discriminate V|].
    simpl in H.
    change ((let '(r0, s1) := workflow_1 (default_name m) (exec n (body (ob s) m)) s in
      match r0 with Ok v => exec (S n) (k v) s1 | Raise e => (Raise e, s1) end) = (r, s')) in H.
    destruct (workflow_1 (default_name m) (exec n (body (ob s) m)) s) as [r1 s1] eqn:E.
    assert (K : ob s1 = x /\ footprint x (dk s) (dk s1) /\ ((exists v, r1 = Ok v) -> gone x (dk s) (dk s1))).
    { eapply workflow_foot; [exact O| |exact E]. intros r2 s2 X.
      destruct (IHn n (Nat.lt_succ_diag_r n) (body (ob s) m) false s r2 s2 x ltac:(rewrite O; apply body_bal) O ltac:(discriminate) X) as (K1 & K2 & K3). split; [exact K1|]. split; [exact K2|]. intros V. apply (K3 V). }
    destruct K as (K1 & K2 & K3). destruct r1 as [w|e]; [|injection H as <- <-; split; [exact K1|]; split; [exact K2|]; intros [v V]; discriminate V].
    destruct (IHp w o s1 r s' x (B w) K1 T H) as (L1 & L2 & L3). split; [exact L1|]. split; [eapply foot_trans; eassumption|]. intros V. destruct (L3 V) as [G1 G2]. split; [|exact G2].
    eapply gone_trans; [apply K3; eauto|exact G1].
  - cbn [bal] in B. destruct B as (M & Eo & B). destruct b; cbn [negb] in Eo; subst o.
    + assert (H' : (if negb (mem_text integrate_wdir (ob s)) then (Raise TypeError, s) else if isdir (dk s) (mem_dir (ob s))
                    then exec n k (emit (EvWrite (mem_path (ob s)) "") s)
                    else (Raise FileNotFoundError, s)) = (r, s')) by (destruct n; exact H).
      rewrite O in H'. assert (Fail : forall e, (Raise e, s) = (r, s') -> ob s' = x /\ footprint x (dk s) (dk s') /\ ((exists v, r = Ok v) -> gone x (dk s) (dk s') /\ (false = true -> file (dk s') (mem_path x) = None))).
      { intros e X. injection X as <- <-. split; [exact O|]. split; [apply foot_refl|]. intros [v V]. discriminate V. }
      destruct (mem_text integrate_wdir x) eqn:MT; cbn [negb] in H'; [|eapply Fail; exact H']. destruct (isdir (dk s) (mem_dir x)); [|eapply Fail; exact H'].
      pose proof (mem_scratch x MT) as Sc.
      destruct (IHp true (emit (EvWrite (mem_path x) "") s) r s' x B O (fun _ => MT) H') as (L1 & L2 & L3). split; [exact L1|]. split.
      * eapply foot_trans; [|exact L2]. split; [reflexivity|]. intros p. cbn [emit dk apply_event write_file file]. destruct (path_eqb (mem_path x) p) eqn:PE; [|left; reflexivity]. apply path_eqb_spec in PE as <-. right; right. destruct M; auto.
      * intros V. destruct (L3 V) as [G1 G2]. split; [|discriminate]. intros p Sp. destruct (path_eqb (mem_path x) p) eqn:PE.
        -- apply path_eqb_spec in PE as <-. right. apply G2; reflexivity.
        -- destruct (G1 p Sp) as [G|G]; [|right; exact G]. left. rewrite G. cbn [emit dk apply_event write_file file]. rewrite PE. reflexivity.
    + specialize (T eq_refl).
      assert (H' : match file (dk s) (mem_path (ob s)) with
                   | Some _ => exec n k (emit (EvRemove (mem_path (ob s))) s)
                   | None => (Raise FileNotFoundError, s) end = (r, s')) by (destruct n; exact H).
      rewrite O in H'. destruct (file (dk s) (mem_path x)) as [c|]; [|injection H' as <- <-; split; [exact O|]; split; [apply foot_refl|]; intros [v V]; discriminate V].
      destruct (IHp false (emit (EvRemove (mem_path x)) s) r s' x B O ltac:(discriminate) H') as (L1 & L2 & L3). pose proof (mem_scratch x T) as Sc. split; [exact L1|]. split.
      * eapply foot_trans; [|exact L2]. split; [reflexivity|]. intros p. cbn [emit dk apply_event remove_file file]. destruct (path_eqb (mem_path x) p) eqn:PE; [|left; reflexivity]. apply path_eqb_spec in PE as <-. right; right. destruct M; auto.
      * intros V. destruct (L3 V) as [G1 _].
        assert (Z : file (dk s') (mem_path x) = None).
        { destruct (G1 _ Sc) as [G|G]; [|exact G]. rewrite G. cbn [emit dk apply_event remove_file file]. rewrite path_eqb_refl. reflexivity. }
        split; [|intros _; exact Z]. intros p Sp. destruct (path_eqb (mem_path x) p) eqn:PE; [apply path_eqb_spec in PE as <-; right; exact Z|].
        destruct (G1 p Sp) as [G|G]; [|right; exact G]. left. rewrite G. cbn [emit dk apply_event remove_file file]. rewrite PE. reflexivity.
Qed.
Definition tidy (x : obj) (r : res val) (k k' : disk) : Prop := footprint x k k' /\ ((exists v, r = Ok v) -> gone x k k').
Lemma still_foot n p s r s' x : still p -> ob s = x -> exec n p s = (r, s') -> ob s' = x /\ tidy x r (dk s) (dk s').
Proof.
  intros S O E. destruct (exec_foot n p false s r s' x (bal_still _ _ S) O ltac:(discriminate) E) as (A & B & C). split; [exact A|]. split; [exact B|]. intros V. apply (C V).
Qed.
Lemma metric_foot m sn s r s' : metric m sn s = (r, s') -> ob s' = ob s /\ tidy (ob s) r (dk s) (dk s').
Proof.
  intros E. unfold M_state.metric in E.
  assert (SELF : forall q : res val, ob s = ob s /\ tidy (ob s) q (dk s) (dk s)) by (intros q; split; [reflexivity|]; split; [apply foot_refl|intros _ p _; auto]).
  assert (G : match workflow_1 (to_name sn (kwargs m)) (exec depth (body (ob s) m)) s with
    | (Ok v, s1) => exec depth (post (ob s1) m v) s1
    | (Raise e, s1) => (Raise e, s1)
    end = (r, s') -> ob s' = ob s /\ tidy (ob s) r (dk s) (dk s')).
  { intro X.
    destruct (workflow_1 (to_name sn (kwargs m)) (exec depth (body (ob s) m)) s) as [r1 s1] eqn:E1.
    assert (K : ob s1 = ob s /\ tidy (ob s) r1 (dk s) (dk s1)).
    { eapply workflow_foot; [reflexivity| |exact E1]. intros r2 s2 Y.
      destruct (exec_foot _ _ false s r2 s2 (ob s) (body_bal _ _) eq_refl ltac:(discriminate) Y) as (A & B & C). split; [exact A|]. split; [exact B|]. intros V. apply (C V). }
    destruct K as (K1 & K2 & K3). destruct r1 as [v|e]; [|injection X as <- <-; split; [exact K1|split; assumption]].
    destruct (still_foot _ _ s1 r s' (ob s) (post_still _ _ _) K1 X) as (L1 & L2 & L3). split; [exact L1|]. split; [eapply foot_trans; eassumption|]. intros V. eapply gone_trans; [apply K3; eauto|apply L3, V]. }
  destruct m; try (apply G; exact E); destruct (cl (ob s)); try (apply G; exact E);
    injection E as <- <-; apply SELF.
Qed.
Lemma step_foot o s r s' : metric_op o = true -> step o s = (r, s') -> ob s' = ob s /\ tidy (ob s) r (dk s) (dk s').
Proof.
  intros MO E.
  assert (SELF : forall q : res val, ob s = ob s /\ tidy (ob s) q (dk s) (dk s)) by (intros q; split; [reflexivity|]; split; [apply foot_refl|intros _ p _; auto]).
  assert (RM : forall sn, rmse sn s = (r, s') -> ob s' = ob s /\ tidy (ob s) r (dk s) (dk s')).
  { intros sn X. unfold M_state.rmse in X. destruct (metric MSqErr sn s) as [r1 s1] eqn:E1. apply metric_foot in E1 as (K1 & K2 & K3).
    destruct r1 as [v|e]; [|injection X as <- <-; split; [exact K1|split; assumption]].
    destruct (still_foot _ _ s1 r s' (ob s) (still_lib _ _) K1 X) as (L1 & L2 & L3). split; [exact L1|]. split; [eapply foot_trans; eassumption|]. intros V. eapply gone_trans; [apply K3; eauto|apply L3, V]. }
  destruct o; try discriminate MO; unfold M_state.step in E; cbv zeta in E.
  - destruct save_name as [w|].
    + destruct m; try (eapply metric_foot; eassumption);
        (destruct (is_prob (cl (ob s))); injection E as <- <-; apply SELF).
    + destruct m; (eapply metric_foot; eassumption).
  - destruct save_name; eapply RM; exact E.
Qed.
End Foot.
