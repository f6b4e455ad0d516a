(** Bootstrapped metrics of a verifier that saves its results: proofs for C115. *)
From Coq Require Import String ZArith List Lia Bool Arith.
From Verif Require Import Num M_state Spec_state P_state P_codec Spec_result P_result Props_state Props_result.
Import ListNotations.
Open Scope string_scope.
Open Scope list_scope.
Open Scope nat_scope.

(** the value is settled by the verifier and the next random number: nothing random is saved (random_value), or the call
    has no default name, is not saved, and draws only after its inner calls *)
Definition settled (x : obj) (m : meth) : Prop := random_value x m = false \/ match m with MCorr | MDecomp _ _ => True | _ => False end.

Section Proofs.
Variable lib : string -> list val -> res val.
Variable libr : string -> list val -> nat -> res val.
Variable str_of : val -> string.
Variable dumps : val -> string.
Variable loads : string -> res val.
Variable expanduser : string -> string.
Variable resolve : string -> path.
Variable points : val -> val -> val -> res (list num).
Variable less_memory : bool.
Variable integrate_wdir : option path.
Variable cwd : path.
Variable rng : nat -> nat.
Hypothesis TX : text_faithful str_of.
Hypothesis PK : pickle_faithful dumps loads.
Notation exec := (M_state.exec lib libr str_of dumps loads resolve points less_memory integrate_wdir cwd rng).
Notation metric := (M_state.metric lib libr str_of dumps loads resolve points less_memory integrate_wdir cwd rng).
Notation step := (M_state.step lib libr str_of dumps loads expanduser resolve points less_memory integrate_wdir cwd rng).
Notation steps := (M_state.steps lib libr str_of dumps loads expanduser resolve points less_memory integrate_wdir cwd rng).
Notation post := (M_state.post lib libr).
Notation body := (M_state.body lib libr points less_memory).
Notation construct := (M_state.construct lib expanduser resolve).
Notation result := (Spec_result.result lib libr points).
Notation workflow_1 := (M_state.workflow_1 dumps loads resolve).
Notation default_name := (M_state.default_name str_of).
Notation to_name := (M_state.to_name str_of).
Notation Coh := (P_state.Coh lib libr str_of dumps resolve points less_memory).

Lemma exec_lib n f a s : exec n (plib lib f a) s = (lib f a, s).
Proof. unfold plib, lift. destruct (lib f a), n; reflexivity. Qed.
Lemma exec_rand n f a s : fst (exec n (prand libr f a) s) = libr f a (rng (pos s)).
Proof. unfold prand. destruct n; cbn [M_state.exec draw fst]; unfold lift; destruct (libr f a (rng (pos s))); reflexivity. Qed.
Lemma post_same n m v s t : a_boot (ob s) = a_boot (ob t) -> a_avg (ob s) = a_avg (ob t) -> pos s = pos t ->
  fst (exec n (post (ob s) m v) s) = fst (exec n (post (ob t) m v) t).
Proof.
  intros B A P. assert (Q : forall f a b, a = b -> fst (exec n (pboot lib libr (ob s) f a) s) = fst (exec n (pboot lib libr (ob t) f b) t)).
  { intros f a b <-. unfold pboot. rewrite B. destruct (is_none (a_boot (ob t))); [rewrite !exec_lib; reflexivity|]. rewrite !exec_rand, P. reflexivity. }
  destruct m; cbn [M_state.post]; try (destruct n; reflexivity); apply Q; rewrite ?A; reflexivity.
Qed.
(** the same answer with and without saved results when the next random numbers are the same *)
Lemma metric_same m sn s t : key_ok m -> plain_save m sn -> random_value (ob s) m = false ->
  mem_off less_memory (ob s) -> Coh false (ob s) (dk s) -> ob t = put_wd VNone (ob s) -> pos t = pos s ->
  fst (metric m sn s) = fst (metric m sn t).
Proof.
  intros K PS R M C OT PT. set (x := ob s) in *. assert (MT : mem_off less_memory (ob t)) by (rewrite OT; exact M).
  assert (CT : Coh false (ob t) (dk t)) by (apply (off_coh lib libr str_of dumps resolve points less_memory); rewrite OT; reflexivity).
  unfold M_state.metric. fold x. assert (Cl : cl (ob t) = cl x) by (rewrite OT; reflexivity). rewrite Cl.
  assert (G : fst (match workflow_1 (to_name sn (kwargs m)) (exec depth (body x m)) s with (Ok v, s1) => exec depth (post (ob s1) m v) s1 | (Raise e, s1) => (Raise e, s1) end) =
    fst (match workflow_1 (to_name sn (kwargs m)) (exec depth (body (ob t) m)) t with (Ok v, s1) => exec depth (post (ob s1) m v) s1 | (Raise e, s1) => (Raise e, s1) end)).
  { destruct (workflow_1 _ _ s) as [r1 s1] eqn:E1. destruct (workflow_1 _ _ t) as [r2 t1] eqn:E2.
    destruct (call_coh lib libr str_of dumps loads expanduser resolve points less_memory integrate_wdir cwd rng TX PK false x m sn s M K PS eq_refl C r1 s1 E1) as [Q1 V1].
    destruct (call_coh lib libr str_of dumps loads expanduser resolve points less_memory integrate_wdir cwd rng TX PK false (ob t) m sn t MT K PS eq_refl CT r2 t1 E2) as [Q2 V2].
    destruct (V1 R) as [[F1|[X _]] P1]; [|discriminate]. destruct (V2 ltac:(rewrite OT; exact R)) as [[F2|[X _]] P2]; [|discriminate].
    rewrite OT, value_wd in F2 by exact M. rewrite <- F1 in F2. subst r2. clear F1.
    destruct r1 as [v|e]; [|reflexivity]. destruct Q1 as (_ & O1 & _), Q2 as (_ & O2 & _).
    apply post_same; [rewrite O1, O2, OT; reflexivity|rewrite O1, O2, OT; reflexivity|congruence]. }
  destruct m; try exact G; destruct (cl x); try exact G; reflexivity.
Qed.
Lemma exec_call n m k s : exec (S n) (PCall m k) s =
  match exec (S n) (PCall m PRet) s with (Ok v, s1) => exec (S n) (k v) s1 | (Raise e, s1) => (Raise e, s1) end.
Proof. cbn [M_state.exec]. destruct (workflow_1 (default_name m) (exec n (body (ob s) m)) s) as [[v|e] s1]; reflexivity. Qed.
Lemma exec_bind n p k s : exec n (pbind p k) s = match exec n p s with (Ok v, s1) => exec n (k v) s1 | (Raise e, s1) => (Raise e, s1) end.
Proof.
  revert s. induction p as [v|e|g IH|m g IH|b g IH]; intros s; try (destruct n; reflexivity).
  - cbn [pbind]. destruct n; cbn [M_state.exec draw]; apply IH.
  - cbn [pbind]. destruct n; [reflexivity|]. rewrite (exec_call n m), (exec_call n m g). destruct (exec (S n) (PCall m PRet) s) as [[v|e] s1]; [apply IH|reflexivity].
  - cbn [pbind]. destruct b, n; cbn [M_state.exec]; repeat match goal with |- context [if ?c then _ else _] => destruct c | |- context [match ?c with Some _ => _ | None => _ end] => destruct c end; try reflexivity; apply IH.
Qed.
(** a deterministic inner call gives the same value and uses no random number *)
Lemma inner_same m s t : key_ok m -> rank m <= 4 -> random_value (ob s) m = false -> mem_off less_memory (ob s) -> Coh false (ob s) (dk s) -> ob t = put_wd VNone (ob s) -> pos t = pos s ->
  exists r s1 t1, exec depth (PCall m PRet) s = (r, s1) /\ exec depth (PCall m PRet) t = (r, t1) /\ ob s1 = ob s /\ ob t1 = ob t /\ pos s1 = pos s /\ pos t1 = pos t.
Proof.
  intros K Rk R M C OT PT.
  assert (CT : Coh false (ob t) (dk t)) by (apply (off_coh lib libr str_of dumps resolve points less_memory); rewrite OT; reflexivity).
  assert (MT : mem_off less_memory (ob t)) by (rewrite OT; exact M).
  assert (RT : random_value (ob t) m = false) by (rewrite OT; exact R).
  assert (Q : forall u, mem_off less_memory (ob u) -> random_value (ob u) m = false -> Coh false (ob u) (dk u) ->
    exists r u1, exec depth (PCall m PRet) u = (r, u1) /\ ob u1 = ob u /\ pos u1 = pos u /\ r = P_state.value lib libr points less_memory (ob u) m).
  { intros u Mu Ru Cu. destruct (exec depth (PCall m PRet) u) as [r u1] eqn:E. exists r, u1. split; [reflexivity|].
    destruct (exec_coh lib libr str_of dumps loads expanduser resolve points less_memory integrate_wdir cwd rng TX PK false (ob u) Mu depth (PCall m PRet) u true depth) with (res := r) (s' := u1) as [(_ & O1 & _) V];
      [split; [split; [exact K|split; [unfold depth; lia|intros _; exact Ru]]|intros v; exact I]|lia|reflexivity|exact Cu|exact E|].
    split; [exact O1|]. destruct (V eq_refl) as [[V1|[X _]] P1]; [|discriminate]. split; [exact P1|]. rewrite V1.
    transitivity (match P_state.pev lib libr points less_memory 4 (ob u) (body (ob u) m) with Ok v => Ok v | Raise e => Raise e end); [reflexivity|].
    rewrite (value_fuel lib libr str_of dumps loads expanduser resolve points less_memory rng (ob u) m 4 Mu K Ru Rk). destruct (P_state.value _ _ _ _ _ _); reflexivity. }
  destruct (Q s M R C) as (r & s1 & E1 & O1 & P1 & V1). destruct (Q t MT RT CT) as (r' & t1 & E2 & O2 & P2 & V2).
  exists r, s1, t1. split; [exact E1|]. split; [|repeat split; assumption]. rewrite E2. f_equal. rewrite V1, V2, OT. apply value_wd, M.
Qed.

(** corr and brier_decomp *)
Lemma unnamed_same m s t : key_ok m -> match m with MCorr | MDecomp _ _ => True | _ => False end ->
  mem_off less_memory (ob s) -> Coh false (ob s) (dk s) -> ob t = put_wd VNone (ob s) -> pos t = pos s ->
  fst (metric m (default_save m) s) = fst (metric m (default_save m) t).
Proof.
  intros K U M C OT PT.
  assert (Q : forall u f a, fst (exec depth (pboot lib libr (ob u) f a) u) = if is_none (a_boot (ob u)) then lib f a else libr f (a ++ [a_boot (ob u)]) (rng (pos u))).
  { intros u f a. unfold pboot. destruct (is_none (a_boot (ob u))); [rewrite exec_lib|rewrite exec_rand]; reflexivity. }
  assert (W : forall u run, workflow_1 (Ok None) run u = run u) by (intros u run; unfold M_state.workflow_1; cbn; destruct (run u) as [[v|e] u1]; reflexivity).
  assert (E : forall q u, fst (match exec depth q u with (Ok v, s1) => exec depth (PRet v) s1 | (Raise e, s1) => (Raise e, s1) end) = fst (exec depth q u)).
  { intros q u. destruct (exec depth q u) as [[v|e] u1]; reflexivity. }
  assert (Ca : forall m k u, exec depth (PCall m k) u = match exec depth (PCall m PRet) u with (Ok v, s1) => exec depth (k v) s1 | (Raise e, s1) => (Raise e, s1) end) by (intros; apply exec_call).
  destruct m; try contradiction; unfold M_state.metric; cbn [default_save M_state.to_name M_state.post].
  - rewrite !W, !E. cbn [M_state.body]. rewrite (Ca MDeterm _ s), (Ca MDeterm _ t).
    destruct (inner_same MDeterm s t) as (r & s1 & t1 & -> & -> & O1 & O2 & P1 & P2); try assumption; [cbn; lia|reflexivity|].
    destruct r as [v|e]; [|reflexivity]. rewrite <- O1, <- O2, !Q. rewrite O1, O2, OT, P1, P2, PT. reflexivity.
  - rewrite !W, !E. cbn [M_state.body]. assert (Cl : cl (ob t) = cl (ob s)) by (rewrite OT; reflexivity). rewrite Cl.
    assert (G : fst (exec depth (with_prob lib (ob s) over below (fun f o => pboot lib libr (ob s) "brier_decomp" [f; o; a_avg (ob s)])) s) =
      fst (exec depth (with_prob lib (ob t) over below (fun f o => pboot lib libr (ob t) "brier_decomp" [f; o; a_avg (ob t)])) t)).
    { unfold with_prob. rewrite (Ca (MCdf over below) _ s), (Ca (MCdf over below) _ t).
      destruct (inner_same (MCdf over below) s t) as (r & s1 & t1 & -> & -> & O1 & O2 & P1 & P2); try assumption; [cbn [rank]; destruct (is_none below); lia|reflexivity|].
      destruct r as [v|e]; [|reflexivity]. rewrite !exec_bind, !exec_lib. rewrite OT at 1. cbn [put_wd a_o].
      destruct (lib "binarize_obs" [a_o (ob s); over; below]) as [o|e]; [|reflexivity].
      rewrite <- O1, <- O2, !Q. rewrite O1, O2, OT, P1, P2, PT. reflexivity. }
    destruct (cl (ob s)); try exact G. reflexivity.
Qed.
(** a verifier constructed with start_from_scratch=True, after any history *)
Lemma history_same x k x1 k1 os m n t : (forall s, expanduser (expanduser s) = expanduser s) ->
  mem_off less_memory x -> disk_wf k -> a_scratch x = VBool true -> construct x k = (Ok x1, k1) -> Forall calm os -> key_ok m ->
  let s := snd (steps os (mkSt x1 k1 n [])) in settled (ob s) m -> ob t = put_wd VNone (ob s) -> pos t = pos s ->
  fst (step (OMetric m None) s) = fst (step (OMetric m None) t).
Proof.
  intros EX M WF SC H F K s R OT PT.
  destruct (construct_inv lib libr str_of dumps expanduser resolve points less_memory x k x1 k1 k EX M WF SC H) as [IN _].
  destruct (calm_steps lib libr str_of dumps loads expanduser resolve points less_memory integrate_wdir cwd rng TX PK os
    (mkSt x1 k1 n []) (mkSt (put_wd VNone x1) k n []) F IN eq_refl) as [I1 _]. fold s in I1.
  assert (Q : forall u, step (OMetric m None) u = metric m (default_save m) u) by (intros u; unfold M_state.step; destruct m; reflexivity). rewrite !Q.
  pose proof (i_mem _ _ _ _ _ _ _ _ _ _ I1) as Ms. pose proof (i_coh _ _ _ _ _ _ _ _ _ _ I1) as Cs.
  destruct R as [R|R]; [apply metric_same; try assumption; left; reflexivity|apply unnamed_same; assumption].
Qed.
Lemma history_result x k x1 k1 os m n : (forall s, expanduser (expanduser s) = expanduser s) ->
  mem_off less_memory x -> disk_wf k -> a_scratch x = VBool true -> construct x k = (Ok x1, k1) -> Forall calm os -> key_ok m ->
  let s := snd (steps os (mkSt x1 k1 n [])) in settled (ob s) m ->
  fst (step (OMetric m None) s) = result (ob s) m (fun i => rng (pos s + i)).
Proof.
  intros EX M WF SC H F K s R. set (t := mkSt (put_wd VNone (ob s)) (dk s) (pos s) []).
  destruct (construct_inv lib libr str_of dumps expanduser resolve points less_memory x k x1 k1 k EX M WF SC H) as [IN _].
  destruct (calm_steps lib libr str_of dumps loads expanduser resolve points less_memory integrate_wdir cwd rng TX PK os
    (mkSt x1 k1 n []) (mkSt (put_wd VNone x1) k n []) F IN eq_refl) as [I1 _]. fold s in I1.
  pose proof (history_same x k x1 k1 os m n t EX M WF SC H F K R eq_refl eq_refl) as E0. cbv zeta in E0. fold s in E0. rewrite E0. clear E0.
  assert (Mt : mem_off less_memory (ob t)) by exact (i_mem _ _ _ _ _ _ _ _ _ _ I1).
  destruct (c83_saving_off lib libr str_of dumps loads expanduser resolve points less_memory integrate_wdir cwd rng m None t Mt eq_refl K (or_introl eq_refl)) as [-> _].
  apply result_wd.
Qed.
End Proofs.
