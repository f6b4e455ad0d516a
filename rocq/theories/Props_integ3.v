(** Property C65, continued: integrations after any number of integrations that returned. *)
From Coq Require Import ZArith String Ascii List Lia Bool Arith QArith Qcanon.
From Verif Require Import QcTac QSum Num NdArr Numpy M_ens M_integ P_integ P_integ2 Props_integ.
Import ListNotations.
Open Scope nat_scope.

(** what one integration needs: the verifier, the quantity, the range, bins, workers, memory and directory settings *)
Record request := Request { q_kind : kind; q_ver : verifier; q_range : option (num * num); q_bins : nat; q_workers : option Z; q_less : option bool; q_dir : option string }.
Section C65.
Variables (pyint : string -> res Z) (expanduser : string -> string) (isdir : string -> bool).
Definition serve wait (q : request) (s : proc) (f : fs) : res (arr num) * proc * fs :=
  run (integrate pyint expanduser isdir wait (q_kind q) (q_ver q) (q_range q) (q_bins q) (q_workers q) (q_less q) (q_dir q)) s f.
(** [s'] and [f'] are reached from [s] and [f] by integrations that returned; every one may wait for its tasks in its own order *)
Inductive after_returns (s : proc) (f : fs) : proc -> fs -> Prop :=
| Now : after_returns s f s f
| Then wait q s' f' a : after_returns s f s' f' -> result (serve wait q s' f') = Ok a ->
    after_returns s f (process (serve wait q s' f')) (files (serve wait q s' f')).

(** the settings mean the same *)
Definition same_settings (s s' : proc) : Prop :=
  (exists t t' b, p_env s V_disable = Some t /\ p_env s' V_disable = Some t' /\ strtobool t = Ok b /\ strtobool t' = Ok b) /\
  (exists t t' z, p_env s V_workers = Some t /\ p_env s' V_workers = Some t' /\ pyint t = Ok z /\ pyint t' = Ok z) /\
  (forall y, y <> V_disable -> y <> V_workers -> p_env s' y = p_env s y) /\ p_ray s' = p_ray s.
Lemma same_refl s : settings_ok pyint s -> same_settings s s.
Proof. intros ((t1 & b1 & E1 & F1) & _ & (t3 & z3 & E3 & F3) & _). split; [exists t1, t1, b1; auto|]. split; [exists t3, t3, z3; auto|]. split; reflexivity. Qed.
Lemma same_trans a b c : same_settings a b -> same_settings b c -> same_settings a c.
Proof.
  intros ((t & t' & d & E1 & E2 & E3 & E4) & (u & u' & z & F1 & F2 & F3 & F4) & A & B) ((t1 & t1' & d1 & G1 & G2 & G3 & G4) & (u1 & u1' & z1 & H1 & H2 & H3 & H4) & A' & B').
  rewrite E2 in G1. injection G1 as <-. rewrite E4 in G3. injection G3 as <-. rewrite F2 in H1. injection H1 as <-. rewrite F4 in H3. injection H3 as <-.
  split; [exists t, t1', d; auto|]. split; [exists u, u1', z; auto|]. split; [intros y N1 N2; rewrite A', A by assumption; reflexivity|congruence].
Qed.
Lemma same_ok s s' : settings_ok pyint s -> same_settings s s' -> settings_ok pyint s'.
Proof.
  intros (_ & S2 & _ & S4 & S5 & S6) ((t & t' & d & E1 & E2 & E3 & E4) & (u & u' & z & F1 & F2 & F3 & F4) & A & _).
  split; [exists t', d; auto|]. split; [rewrite A by discriminate; exact S2|]. split; [exists u', z; auto|].
  split; [rewrite A by discriminate; exact S4|]. split; rewrite A by discriminate; assumption.
Qed.
Lemma after_same s f s' f' : (forall z, pyint (pystr z) = Ok z) -> settings_ok pyint s -> after_returns s f s' f' -> same_settings s s'.
Proof.
  intros RT O H. induction H as [|wait q s' f' a H IH R]; [apply same_refl, O|]. apply (same_trans _ _ _ IH).
  destruct (c44_returned_partial pyint expanduser isdir wait _ _ _ _ _ _ _ s' f' a RT (same_ok _ _ O IH) R) as (A & B & C & D). repeat split; assumption.
Qed.
Lemma same_answer wait wait' q s s' f f' : settings_ok pyint s -> same_settings s s' -> same_result (result (serve wait q s f)) (result (serve wait' q s' f')).
Proof.
  intros O S. pose proof (same_ok _ _ O S) as O'. destruct S as (_ & (u & u' & z & F1 & F2 & F3 & F4) & A & B). destruct q as [k v range nbins w less dir]. unfold serve. cbn [q_kind q_ver q_range q_bins q_workers q_less q_dir].
  assert (AB : agree_but [V_disable; V_workers] s s') by (intros x N; symmetry; apply A; intros ->; apply N; cbn; auto).
  destruct (settings_values pyint expanduser v w less dir s O) as ((c & C) & (b & Lb) & (dd & Dd)).
  assert (C' : cores_are pyint w s' c).
  { destruct w as [w|]; [exact C|]. destruct C as (t & X & Y). fold V_workers in X. rewrite F1 in X. injection X as <-. rewrite F3 in Y. injection Y as <-. exists u'. split; assumption. }
  pose proof (less_agree s s' less b _ AB ltac:(notin) Lb) as Lb2. pose proof (dir_agree expanduser s s' dir v dd _ AB ltac:(notin) Dd) as Dd2.
  unfold integrate, result. rewrite !run_bind.
  rewrite (new_run pyint expanduser v range nbins w less dir s f c b dd O C Lb Dd), (new_run pyint expanduser v range nbins w less dir s' f' c b dd O' C' Lb2 Dd2).
  pose proof (points_agree s s' pyint v range nbins _ AB ltac:(notin)) as E. rewrite <- E.
  destruct (points pyint v range nbins s) as [xs|e] eqn:Px; [|exact I]. cbn [rmap]. pose proof (points_length _ _ _ _ _ _ Px) as Lx.
  set (i := Integ v nbins xs c b dd).
  destruct (settings_reads pyint s O) as (d1 & z1 & Rd1). destruct (settings_reads pyint s' O') as (d2 & z2 & Rd2).
  destruct (all_cases isdir i s (what_of k (i_v i))) as [Bad|(Y & Rm & vals & G)].
  - assert (Bad' : ~ ready i s' \/ ~ room isdir i \/ (exists j, j < i_nbins i /\ bad i (what_of k (i_v i)) j)).
    { destruct Bad as [N|N]; [left|right; exact N]. unfold ready in *. rewrite B. exact N. }
    destruct (workflow_bad pyint isdir wait i Lx k s f d1 z1 Rd1 Bad) as (e1 & s1' & f1' & E1 & _). rewrite E1.
    destruct (workflow_bad pyint isdir wait' i Lx k s' f' d2 z2 Rd2 Bad') as (e2 & s2' & f2' & E2 & _). rewrite E2. exact I.
  - assert (Y' : ready i s') by (unfold ready in *; rewrite B; exact Y).
    destruct (workflow_ok pyint isdir wait i Lx k vals s f d1 z1 Rd1 Y Rm G) as (a1 & s1' & f1' & E1 & [S1 V1] & _). rewrite E1.
    destruct (workflow_ok pyint isdir wait' i Lx k vals s' f' d2 z2 Rd2 Y' Rm G) as (a2 & s2' & f2' & E2 & [S2 V2] & _). rewrite E2.
    cbn [fst same_result]. split; [rewrite S1, S2; reflexivity|]. intros ix V. rewrite S1 in V. rewrite V1, V2 by exact V. reflexivity.
Qed.
End C65.
(** After any number of integrations that returned, an integration gives the answer it would have given at the beginning
    (also when it raises), whatever the files and the order in which the tasks complete.  Missing from the full statement:
    integrations that raised before, see c65_ray_left_refuted. *)
Theorem c65_after_returns_partial : forall pyint expanduser isdir wait wait' q s f s' f',
  (forall z, pyint (pystr z) = Ok z) -> settings_ok pyint s ->
  after_returns pyint expanduser isdir s f s' f' ->
  same_result (result (serve pyint expanduser isdir wait q s f)) (result (serve pyint expanduser isdir wait' q s' f')).
Proof. intros pyint expanduser isdir wait wait' q s f s' f' RT O H. apply same_answer; [exact O|]. exact (after_same _ _ _ _ _ _ _ RT O H). Qed.
Print Assumptions c65_after_returns_partial.
(** a mean with three Ray workers, then the CRPS with two: the environment has changed ("False" is now "0"), the answer has not *)
Definition w_mean : request := Request KMean w_ver None 5 (Some 3%Z) (Some false) None.
Definition w_crps : request := Request KCrps w_ver (Some (Fin 0, Fin (qz 4))) 5 (Some 2%Z) None None.
Definition w_served (q : request) := serve w_pyint w_home w_isdir last_ q.
Example c65_after_inhabited : let x := w_served w_mean (w_proc "3" "False") w_files in
  settings_ok w_pyint (w_proc "3" "False") /\ after_returns w_pyint w_home w_isdir (w_proc "3" "False") w_files (process x) (files x) /\
  p_env (w_proc "3" "False") V_disable = Some "False"%string /\ p_env (process x) V_disable = Some "0"%string /\
  shown (w_served w_crps (process x) (files x)) = Ok [Fin (qz 3 / qz 8)%Qc; Fin (qz 11 / qz 32)%Qc].
Proof.
  cbv zeta. split; [eapply w_settings; reflexivity|]. split; [eapply Then; [apply Now|reflexivity]|]. split; [reflexivity|]. split; [reflexivity|].
  ncomp.
Qed.
