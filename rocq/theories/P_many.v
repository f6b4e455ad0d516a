(** Proofs about several verifiers on one disk. *)
From Coq Require Import String Ascii QArith Qcanon ZArith Lia List Bool.
From Verif Require Import Num M_state Spec_state P_state Spec_foot P_foot Props_foot M_many Spec_many.
Import ListNotations.
Open Scope string_scope.
Open Scope list_scope.
Open Scope nat_scope.

Section Many.
Variable lib : string -> list val -> res val.
Variable libr : string -> list val -> nat -> res val.
Variable str_of : val -> string.
Variable dumps : val -> string.
Variable loads : string -> res val.
Variable expanduser : string -> string.
Variable resolve : string -> path.
Variable points : val -> val -> val -> res (list num).
Variable less_memory : bool.
Variable integrate_wdir : option path.
Variable cwd : path.
Hypothesis home : forall s, expanduser (expanduser s) = expanduser s.
Notation exec := (exec lib libr str_of dumps loads resolve points less_memory integrate_wdir cwd).
Notation metric := (metric lib libr str_of dumps loads resolve points less_memory integrate_wdir cwd).
Notation rmse := (rmse lib libr str_of dumps loads resolve points less_memory integrate_wdir cwd).
Notation step := (step lib libr str_of dumps loads expanduser resolve points less_memory integrate_wdir cwd).
Notation body := (body lib libr points less_memory).
Notation to_name := (to_name str_of).
Notation default_name := (default_name str_of).
Notation load := (load loads resolve).
Notation save := (save dumps resolve).
Notation workflow_1 := (workflow_1 dumps loads resolve).
Notation post := (post lib libr).

Definition quiet (x : obj) : Prop := less_memory = false \/ cl x <> CHurdle.
Lemma bal_quiet (M : Prop) p : ~ M -> bal M false p -> still p.
Proof. intros N. induction p; cbn; auto. intros [X _]. tauto. Qed.
Lemma body_still x m : quiet x -> still (body x m).
Proof.
  intros Q. eapply bal_quiet; [|apply body_bal]. intros [A B]. destruct Q as [Q|Q]; congruence.
Qed.

(** What a verifier with the directories [D] can see of the disk. *)
Section View.
Variable D : path -> Prop.
Definition sees_file (q : path) : Prop := exists d, D d /\ (under d q = true \/ under q d = true).
Definition sees_dir (q : path) : Prop := exists d, D d /\ under d q = true.
Definition sim (k k' : disk) : Prop := (forall q, sees_file q -> file k q = file k' q) /\ (forall q, sees_dir q -> isdir k q = isdir k' q).
Definition good (x : obj) : Prop := forall w, a_wd x = VStr w -> w <> "" -> D (resolve w) /\ D (resolve (expanduser w)).
Lemma sim_refl k : sim k k. Proof. split; auto. Qed.
Lemma sim_trans k1 k2 k3 : sim k1 k2 -> sim k2 k3 -> sim k1 k3.
Proof. intros [A B] [C E]. split; intros q H; [rewrite A, C|rewrite B, E]; auto. Qed.
Lemma sim_sym k1 k2 : sim k1 k2 -> sim k2 k1.
Proof. intros [A B]. split; intros q H; symmetry; auto. Qed.

(** Running [f] from a state of object [x] keeps the object, and can be repeated on a disk that looks the same with the same random numbers. *)
Definition mirrors (x : obj) (f : (nat -> nat) -> st -> res val * st) : Prop :=
  forall rng s r s1, ob s = x -> f rng s = (r, s1) ->
  ob s1 = x /\ exists m, pos s1 = pos s + m /\
    forall rng' s', ob s' = x -> sim (dk s) (dk s') -> (forall i, i < m -> rng' (pos s' + i) = rng (pos s + i)) ->
    exists s1', f rng' s' = (r, s1') /\ ob s1' = x /\ sim (dk s1) (dk s1') /\ pos s1' = pos s' + m.

Lemma save_path_seen x n q : good x -> save_path resolve x n = Ok (Some q) -> sees_file q /\ sees_dir q /\ sees_dir (removelast q).
Proof.
  intros G. unfold save_path. destruct n as [n|]; [|discriminate]. destruct (truthy (a_wd x)) eqn:T; [|discriminate]. destruct (a_wd x) as [| | | |w| | | | | |] eqn:W; try discriminate. intros E. injection E as <-.
  assert (N : w <> "") by (intros ->; discriminate T). destruct (G w W N) as [G1 _].
  assert (U : under (resolve w) (resolve w ++ [(n ++ ".pkl")%string]) = true) by apply under_snoc.
  split; [exists (resolve w); auto|]. split; [exists (resolve w); auto|]. rewrite removelast_last. exists (resolve w). split; [exact G1|]. apply under_spec. exists []. symmetry. apply app_nil_r.
Qed.
Lemma sim_write k k' q b : sim k k' -> sim (write_file q b k) (write_file q b k').
Proof. intros [A B]. split; intros p H; cbn; [destruct (path_eqb q p); auto|auto]. Qed.

Lemma mirrors_stop x (r : st -> res val) : (forall s s', ob s = x -> ob s' = x -> sim (dk s) (dk s') -> r s = r s') -> mirrors x (fun _ s => (r s, s)).
Proof.
  intros R rng s r0 s1 O E. injection E as <- <-. split; [exact O|]. exists 0. split; [lia|]. intros rng' s' O' S _. exists s'. rewrite (R s s' O O' S). split; [reflexivity|]. split; [exact O'|]. split; [exact S|lia].
Qed.
Lemma mirrors_ext x f g : (forall rng s, ob s = x -> f rng s = g rng s) -> mirrors x f -> mirrors x g.
Proof.
  intros E M rng s r s1 O H. rewrite <- E in H by exact O. destruct (M rng s r s1 O H) as (O1 & m & P & K). split; [exact O1|]. exists m. split; [exact P|].
  intros rng' s' O' S I. rewrite <- E by exact O'. apply K; assumption.
Qed.
Lemma mirrors_seq x f (g : val -> (nat -> nat) -> st -> res val * st) : mirrors x f -> (forall v, mirrors x (g v)) ->
  mirrors x (fun rng s => let '(r, s1) := f rng s in match r with Ok v => g v rng s1 | Raise e => (Raise e, s1) end).
Proof.
  intros F G rng s r s1 O H. destruct (f rng s) as [r1 s2] eqn:E. destruct (F rng s r1 s2 O E) as (O2 & m & P & K). destruct r1 as [v|e].
  - destruct (G v rng s2 r s1 O2 H) as (O1 & m' & P' & K'). split; [exact O1|]. exists (m + m'). split; [lia|]. intros rng' s' O' S I.
    destruct (K rng' s' O' S) as (s2' & E' & A & B & C); [intros i Hi; apply I; lia|]. rewrite E'.
    destruct (K' rng' s2' A B) as (s1' & E'' & A' & B' & C'). { intros i Hi. rewrite C, P, <- !Nat.add_assoc. apply I. lia. }
    exists s1'. split; [exact E''|]. split; [exact A'|]. split; [exact B'|lia].
  - injection H as <- <-. split; [exact O2|]. exists m. split; [exact P|]. intros rng' s' O' S I. destruct (K rng' s' O' S I) as (s2' & E' & A & B & C). rewrite E'. exists s2'. auto.
Qed.
Lemma workflow_mirrors nm x run : good x -> mirrors x run -> mirrors x (fun rng s => workflow_1 nm (run rng) s).
Proof.
  intros G M. unfold M_state.workflow_1. destruct nm as [n|e]; [|apply mirrors_stop; reflexivity].
  assert (Ld : forall s s', ob s = x -> ob s' = x -> sim (dk s) (dk s') -> load s' n = load s n).
  { intros s s' O O' [S1 S2]. unfold M_state.load. rewrite O, O'. destruct (save_path resolve x n) as [[q|]|e] eqn:SP; cbn [bind]; [|reflexivity|reflexivity].
    destruct (save_path_seen x n q G SP) as (A & B & _). rewrite (S1 q A), (S2 q B). reflexivity. }
  assert (Sv : forall v, mirrors x (fun _ s => let '(r, s2) := save s n v in match r with Ok _ => (Ok v, s2) | Raise e => (Raise e, s2) end)).
  { intros v. eapply mirrors_ext with (f := fun _ s => match save_path resolve x n with Raise e => (Raise e, s) | Ok None => (Ok v, s)
        | Ok (Some p) => if isdir (dk s) p then (Raise IsADirectoryError, s) else if isdir (dk s) (removelast p) then (Ok v, emit (EvWrite p (dumps v)) s) else (Raise FileNotFoundError, s) end).
    { intros rng s O. unfold M_state.save. rewrite O. destruct (save_path resolve x n) as [[q|]|e]; [|reflexivity|reflexivity]. destruct (isdir (dk s) q); [reflexivity|]. destruct (isdir (dk s) (removelast q)); reflexivity. }
    destruct (save_path resolve x n) as [[q|]|e] eqn:SP; [|apply mirrors_stop; reflexivity|apply mirrors_stop; reflexivity].
    destruct (save_path_seen x n q G SP) as (A & B & C). intros rng s r s1 O E.
    assert (K : ob s1 = x /\ pos s1 = pos s) by (destruct (isdir (dk s) q); [injection E as <- <-; auto|]; destruct (isdir (dk s) (removelast q)); injection E as <- <-; auto).
    destruct K as [K1 K2]. split; [exact K1|]. exists 0. split; [lia|]. intros rng' s' O' S _. pose proof S as [S1 S2]. rewrite <- (S2 q B), <- (S2 _ C).
    destruct (isdir (dk s) q); [injection E as <- <-; exists s'; repeat split; auto; apply S|]. destruct (isdir (dk s) (removelast q)); injection E as <- <-; eexists; (split; [reflexivity|]); (split; [exact O'|]); (split; [|cbn; lia]); [apply sim_write, S|exact S]. }
  assert (Rn := mirrors_seq x run (fun v _ s => let '(r, s2) := save s n v in match r with Ok _ => (Ok v, s2) | Raise e => (Raise e, s2) end) M Sv).
  intros rng s r s1 O E. cbv beta in E. pose proof (fun s' => Ld s s' O) as L. destruct (load s n) as [[v|]|e] eqn:E0.
  1, 3: injection E as <- <-; (split; [exact O|]); exists 0; (split; [lia|]); intros rng' s' O' S _; rewrite (L s' O' S); exists s'; (split; [reflexivity|]); (split; [exact O'|]); (split; [exact S|lia]).
  destruct (Rn rng s r s1 O E) as (O1 & m & P & K). split; [exact O1|]. exists m. split; [exact P|]. intros rng' s' O' S I.
  destruct (K rng' s' O' S I) as (s1' & E1 & R1). rewrite (L s' O' S). exists s1'. split; [exact E1|exact R1].
Qed.

Lemma exec_mirrors x n : good x -> quiet x -> forall p, still p -> mirrors x (fun rng s => exec rng n p s).
Proof.
  intros G Q. induction n as [n IHn] using lt_wf_ind. intros p.
  induction p as [w|e|k IHp|m k IHp|b k IHp]; intros St.
  - eapply mirrors_ext; [|apply (mirrors_stop x (fun _ => Ok w)); reflexivity]. intros; destruct n; reflexivity.
  - eapply mirrors_ext; [|apply (mirrors_stop x (fun _ => Raise e)); reflexivity]. intros; destruct n; reflexivity.
  - intros rng s r s1 O H. assert (H' : exec rng n (k (rng (pos s))) (mkSt (ob s) (dk s) (S (pos s)) (events s)) = (r, s1)) by (destruct n; exact H).
    destruct (IHp _ (St _) rng (mkSt (ob s) (dk s) (S (pos s)) (events s)) r s1 O H') as (O1 & m & Pm & M). split; [exact O1|]. exists (S m). cbn [pos] in Pm. split; [lia|].
    intros rng' s' O' Si I. pose proof (I 0 ltac:(lia)) as I0. rewrite !Nat.add_0_r in I0.
    destruct (M rng' (mkSt (ob s') (dk s') (S (pos s')) (events s')) O' Si) as (s1' & E1 & A & B & C).
    { intros i Hi. cbn [pos]. specialize (I (S i) ltac:(lia)). rewrite !Nat.add_succ_r in I. exact I. }
    exists s1'. split; [|split; [exact A|]; split; [exact B|cbn [pos] in C; lia]]. rewrite <- I0 in E1. destruct n; exact E1.
  - destruct n as [|n]; [eapply mirrors_ext; [|apply (mirrors_stop x (fun _ => Raise RuntimeError)); reflexivity]; reflexivity|].
    eapply mirrors_ext; [|apply (mirrors_seq x (fun rng s => workflow_1 (default_name m) (exec rng n (body x m)) s) (fun v rng s => exec rng (S n) (k v) s))].
    + intros rg z Oz. simpl. rewrite Oz. destruct (workflow_1 _ _ z) as [[v|e] z1]; reflexivity.
    + apply workflow_mirrors; [exact G|]. apply (IHn n); [lia|]. apply body_still, Q.
    + intros v. apply IHp, St.
  - destruct St.
Qed.
Lemma metric_mirrors x m sn : good x -> quiet x -> mirrors x (fun rng s => metric rng m sn s).
Proof.
  intros G Q.
  assert (K : mirrors x (fun rng s => match workflow_1 (to_name sn (kwargs m)) (exec rng depth (body (ob s) m)) s with (Ok v, s1) => exec rng depth (post (ob s1) m v) s1 | (Raise e, s1) => (Raise e, s1) end)).
  { pose proof (workflow_mirrors (to_name sn (kwargs m)) x _ G (exec_mirrors x depth G Q _ (body_still x m Q))) as W.
    pose proof (mirrors_seq x _ (fun v rng s => exec rng depth (post x m v) s) W (fun v => exec_mirrors x depth G Q _ (post_still _ _ _ _ _))) as M.
    eapply mirrors_ext; [|exact M]. intros rng s O. cbv beta. rewrite O. destruct (workflow_1 _ _ s) as [[v|e] s1] eqn:E; [|reflexivity]. destruct (W rng s _ _ O E) as [O1 _]. rewrite O1. reflexivity. }
  assert (N : mirrors x (fun _ s => (Raise AttributeError, s))) by (apply mirrors_stop; reflexivity).
  destruct (match m with MEns | MPit => match cl x with CDeterm | CEnsemble => true | _ => false end | _ => false end) eqn:B.
  - eapply mirrors_ext; [|exact N]. intros rng s O. unfold M_state.metric. rewrite O. destruct m; try discriminate B; destruct (cl x); try discriminate B; reflexivity.
  - eapply mirrors_ext; [|exact K]. intros rng s O. unfold M_state.metric. rewrite O. destruct m; try reflexivity; destruct (cl x); try discriminate B; reflexivity.
Qed.
Lemma rmse_mirrors x sn : good x -> quiet x -> mirrors x (fun rng s => rmse rng sn s).
Proof.
  intros G Q. eapply mirrors_ext; [|apply (mirrors_seq x _ (fun v rng s => exec rng depth (plib lib "sqrt" [v]) s) (metric_mirrors x MSqErr sn G Q)); intros v; apply exec_mirrors; auto; apply still_lib].
  intros rng s O. unfold M_state.rmse. cbv beta. destruct (metric rng MSqErr sn s) as [[v|e] s1]; reflexivity.
Qed.

(** Validation looks at the same places. *)
Lemma makedirs_sim d k k' : D d -> sim k k' -> match makedirs d k, makedirs d k' with Ok a, Ok b => sim a b | Raise e, Raise e' => e = e' | _, _ => False end.
Proof.
  intros Hd [A B]. unfold makedirs. replace (ancestor_is_file d k') with (ancestor_is_file d k).
  - destruct (ancestor_is_file d k); [reflexivity|]. split; cbn; [exact A|]. intros q Hq. destruct (under q d); auto.
  - unfold ancestor_is_file. induction (seq 0 (length d)) as [|i l IH]; [reflexivity|]. cbn [existsb]. rewrite IH. f_equal. rewrite (A (firstn i d)); [reflexivity|]. exists d. split; [exact Hd|]. right. apply under_spec. exists (skipn i d). symmetry. apply firstn_skipn.
Qed.
Lemma rmtree_sim d k k' : D d -> sim k k' -> match rmtree d k, rmtree d k' with Ok a, Ok b => sim a b | Raise e, Raise e' => e = e' | _, _ => False end.
Proof.
  intros Hd [A B]. unfold rmtree. rewrite <- (B d).
  - destruct (isdir k d); [|reflexivity]. split; cbn; intros q Hq; destruct (under d q); auto.
  - exists d. split; [exact Hd|]. apply under_spec. exists []. symmetry. apply app_nil_r.
Qed.
Lemma validate_saving_sim x k k' : good x -> sim k k' -> match validate_saving expanduser resolve x k, validate_saving expanduser resolve x k' with
  (r, x1, k1), (r', x1', k1') => r = r' /\ x1 = x1' /\ sim k1 k1' end.
Proof.
  intros G S. unfold validate_saving. destruct (truthy (a_wd x)) eqn:T; [|auto]. destruct (a_wd x) as [| | | |w| | | | | |] eqn:W; auto.
  assert (N : w <> "") by (intros ->; discriminate T). destruct (G w W N) as [_ Hd]. cbv zeta.
  assert (Ex : exists_at k' (resolve (expanduser w)) = exists_at k (resolve (expanduser w))).
  { destruct S as [A B]. unfold exists_at. assert (U : under (resolve (expanduser w)) (resolve (expanduser w)) = true) by (apply under_spec; exists []; symmetry; apply app_nil_r).
    rewrite (A (resolve (expanduser w))), (B (resolve (expanduser w))); [reflexivity|exists (resolve (expanduser w)); auto|exists (resolve (expanduser w)); auto]. }
  rewrite Ex. destruct (exists_at k _).
  - destruct (truthy (a_scratch _)); [|auto]. pose proof (rmtree_sim _ _ _ Hd S) as R. destruct (rmtree _ k) as [k1|e], (rmtree _ k') as [k1'|e']; try contradiction; [|subst; auto].
    pose proof (makedirs_sim _ _ _ Hd R) as M. destruct (makedirs _ k1) as [k2|e], (makedirs _ k1') as [k2'|e']; try contradiction; [auto|subst; auto].
  - pose proof (makedirs_sim _ _ _ Hd S) as M. destruct (makedirs _ k) as [k2|e], (makedirs _ k') as [k2'|e']; try contradiction; [auto|subst; auto].
Qed.
Lemma validate_avg_same x : cl (snd (validate_avg x)) = cl x /\ a_wd (snd (validate_avg x)) = a_wd x.
Proof. unfold validate_avg. cbn [snd]. destruct (is_none _); [auto|]. destruct (is_int _); cbn [a_avg put_avg]; [auto|]. destruct (a_avg x); auto. Qed.
Lemma good_wd x y : good x -> a_wd y = a_wd x -> good y.
Proof. intros G E w. rewrite E. apply G. Qed.
Lemma validate_sim x k k' : good x -> sim k k' -> match validate expanduser resolve x k, validate expanduser resolve x k' with
  (r, x1, k1), (r', x1', k1') => r = r' /\ x1 = x1' /\ sim k1 k1' /\ good x1 /\ cl x1 = cl x end.
Proof.
  intros G S. destruct (validate expanduser resolve x k) as [[r x1] k1] eqn:E1. destruct (validate expanduser resolve x k') as [[r' x1'] k1'] eqn:E2.
  pose proof (validate_wd _ _ _ _ _ _ _ E1) as [C W].
  assert (K : r = r' /\ x1 = x1' /\ sim k1 k1').
  { unfold validate, validate_base in E1, E2. pose proof (validate_avg_same x) as [_ Wy]. destruct (validate_avg x) as [[u|e] y]; cbn [snd] in Wy; [|injection E1 as <- <- <-; injection E2 as <- <- <-; auto].
    destruct (is_none (a_boot y) || is_int (a_boot y)); [|injection E1 as <- <- <-; injection E2 as <- <- <-; auto]. destruct (is_bool (a_scratch y)); [|injection E1 as <- <- <-; injection E2 as <- <- <-; auto].
    pose proof (validate_saving_sim y k k' (good_wd _ _ G Wy) S) as V. destruct (validate_saving expanduser resolve y k) as [[r1 z] k2], (validate_saving expanduser resolve y k') as [[r1' z'] k2']. destruct V as (<- & <- & V).
    destruct r1 as [u'|e]; [|injection E1 as <- <- <-; injection E2 as <- <- <-; auto]. destruct (validate_class z) as [r2 z2]. injection E1 as <- <- <-; injection E2 as <- <- <-; auto. }
  destruct K as (K1 & K2 & K3). split; [exact K1|]. split; [exact K2|]. split; [exact K3|]. split; [|exact C].
  destruct W as [W|(w & W0 & N & W)]; [eapply good_wd; eassumption|]. intros w' E N'. rewrite W in E. injection E as <-. destruct (G w W0 N) as [_ G2]. rewrite home. auto.
Qed.
Lemma quiet_cl x y : quiet x -> cl y = cl x -> quiet y.
Proof. unfold quiet. intros [Q|Q] E; [auto|right; congruence]. Qed.

(** A public call can be repeated on a disk that looks the same. *)
Lemma step_mirrors o rng s r s1 : (forall w sc, o = OSave (VStr w) sc -> w <> "" -> D (resolve w) /\ D (resolve (expanduser w))) -> good (ob s) -> quiet (ob s) -> step rng o s = (r, s1) ->
  good (ob s1) /\ quiet (ob s1) /\ exists m, pos s1 = pos s + m /\
    forall rng' s', ob s' = ob s -> sim (dk s) (dk s') -> (forall i, i < m -> rng' (pos s' + i) = rng (pos s + i)) ->
    exists s1', step rng' o s' = (r, s1') /\ ob s1' = ob s1 /\ sim (dk s1) (dk s1') /\ pos s1' = pos s' + m.
Proof.
  intros Sav G Q E. remember (ob s) as x eqn:Ox. symmetry in Ox.
  assert (Mir : forall f, mirrors x f -> (forall rg z, ob z = x -> step rg o z = f rg z) -> good (ob s1) /\ quiet (ob s1) /\ exists m, pos s1 = pos s + m /\
    forall rng' s', ob s' = x -> sim (dk s) (dk s') -> (forall i, i < m -> rng' (pos s' + i) = rng (pos s + i)) ->
    exists s1', step rng' o s' = (r, s1') /\ ob s1' = ob s1 /\ sim (dk s1) (dk s1') /\ pos s1' = pos s' + m).
  { intros f M Eq. rewrite Eq in E by exact Ox. destruct (M rng s r s1 Ox E) as (O1 & m & P & K). rewrite O1. split; [exact G|]. split; [exact Q|]. exists m. split; [exact P|].
    intros rng' s' O' S I. rewrite Eq by exact O'. apply K; assumption. }
  assert (Stop : forall q, (forall rg z, ob z = x -> step rg o z = (q, z)) -> good (ob s1) /\ quiet (ob s1) /\ exists m, pos s1 = pos s + m /\
    forall rng' s', ob s' = x -> sim (dk s) (dk s') -> (forall i, i < m -> rng' (pos s' + i) = rng (pos s + i)) ->
    exists s1', step rng' o s' = (r, s1') /\ ob s1' = ob s1 /\ sim (dk s1) (dk s1') /\ pos s1' = pos s' + m).
  { intros q Eq. apply (Mir (fun _ z => (q, z))); [apply mirrors_stop; reflexivity|exact Eq]. }
  assert (Set_ : forall y, good y -> cl y = cl x -> (forall rg z, ob z = x -> step rg o z = set_and_validate expanduser resolve y z) -> good (ob s1) /\ quiet (ob s1) /\ exists m, pos s1 = pos s + m /\
    forall rng' s', ob s' = x -> sim (dk s) (dk s') -> (forall i, i < m -> rng' (pos s' + i) = rng (pos s + i)) ->
    exists s1', step rng' o s' = (r, s1') /\ ob s1' = ob s1 /\ sim (dk s1) (dk s1') /\ pos s1' = pos s' + m).
  { intros y Gy Cy Eq. rewrite Eq in E by exact Ox. unfold set_and_validate in E, Eq.
    pose proof (validate_sim y (dk s) (dk s) Gy (sim_refl _)) as V0. destruct (validate expanduser resolve y (dk s)) as [[r0 y1] k1] eqn:V. destruct V0 as (_ & _ & _ & Gy1 & Cy1). injection E as <- <-. cbn [ob pos dk].
    split; [exact Gy1|]. split; [apply (quiet_cl x); [exact Q|congruence]|]. exists 0. split; [lia|]. intros rng' s' O' S _. rewrite Eq by exact O'.
    pose proof (validate_sim y (dk s) (dk s') Gy S) as V1. rewrite V in V1. destruct (validate expanduser resolve y (dk s')) as [[r0' y1'] k1']. destruct V1 as (<- & <- & V1 & _). eexists. split; [reflexivity|]. cbn. split; [reflexivity|]. split; [exact V1|lia]. }
  assert (Obj : forall y, good y -> cl y = cl x -> (forall rg z, ob z = x -> step rg o z = (Ok VNone, with_ob y z)) -> good (ob s1) /\ quiet (ob s1) /\ exists m, pos s1 = pos s + m /\
    forall rng' s', ob s' = x -> sim (dk s) (dk s') -> (forall i, i < m -> rng' (pos s' + i) = rng (pos s + i)) ->
    exists s1', step rng' o s' = (r, s1') /\ ob s1' = ob s1 /\ sim (dk s1) (dk s1') /\ pos s1' = pos s' + m).
  { intros y Gy Cy Eq. rewrite Eq in E by exact Ox. injection E as <- <-. cbn. split; [exact Gy|]. split; [apply (quiet_cl x); auto|]. exists 0. split; [lia|]. intros rng' s' O' S _. rewrite Eq by exact O'. eexists. split; [reflexivity|]. cbn. split; [reflexivity|]. split; [exact S|lia]. }
  assert (Only : forall (b : bool) y, good y -> cl y = cl x -> (forall rg z, ob z = x -> step rg o z = if b then set_and_validate expanduser resolve y z else (Raise AttributeError, z)) -> good (ob s1) /\ quiet (ob s1) /\ exists m, pos s1 = pos s + m /\
    forall rng' s', ob s' = x -> sim (dk s) (dk s') -> (forall i, i < m -> rng' (pos s' + i) = rng (pos s + i)) ->
    exists s1', step rng' o s' = (r, s1') /\ ob s1' = ob s1 /\ sim (dk s1) (dk s1') /\ pos s1' = pos s' + m).
  { intros b y Gy Cy Eq. destruct b; [apply (Set_ y Gy Cy Eq)|apply (Stop _ Eq)]. }
  destruct o as [m sn|sn|v|v| |wd sc| |v|v|v|v|v|v|v|v1 v2].
  - destruct sn as [v|].
    + destruct (match m with MEns | MPit => true | _ => false end) eqn:B.
      * apply (Stop (if is_prob (cl x) then Raise TypeError else Raise AttributeError)). intros rg z Oz. unfold M_state.step. rewrite Oz. destruct m; try discriminate B; reflexivity.
      * apply (Mir _ (metric_mirrors x m v G Q)). intros rg z Oz. unfold M_state.step. destruct m; try discriminate B; reflexivity.
    + apply (Mir _ (metric_mirrors x m (default_save m) G Q)). intros rg z Oz. unfold M_state.step. destruct m; reflexivity.
  - destruct sn as [v|]; [apply (Mir _ (rmse_mirrors x v G Q))|apply (Mir _ (rmse_mirrors x (VStr "sq_error") G Q))]; reflexivity.
  - apply (Set_ (put_avg v x)); [apply (good_wd x); auto|reflexivity|]. intros rg z Oz. unfold M_state.step. rewrite Oz. reflexivity.
  - apply (Set_ (put_boot v x)); [apply (good_wd x); auto|reflexivity|]. intros rg z Oz. unfold M_state.step. rewrite Oz. reflexivity.
  - apply (Obj (put_boot VNone x)); [apply (good_wd x); auto|reflexivity|]. intros rg z Oz. unfold M_state.step. rewrite Oz. reflexivity.
  - apply (Set_ (put_scratch sc (put_wd wd x))); [|reflexivity|].
    + intros w Ew N. cbn in Ew. subst wd. apply (Sav w sc eq_refl N).
    + intros rg z Oz. unfold M_state.step. rewrite Oz. reflexivity.
  - apply (Obj (put_wd VNone x)); [intros w Ew; discriminate Ew|reflexivity|]. intros rg z Oz. unfold M_state.step. rewrite Oz. reflexivity.
  - eapply (Only _ (put_eaxis v x)); [apply (good_wd x); auto|reflexivity|]. intros rg z Oz. unfold M_state.step. rewrite Oz. reflexivity.
  - eapply (Only _ (put_collapse v x)); [apply (good_wd x); auto|reflexivity|]. intros rg z Oz. unfold M_state.step. rewrite Oz. reflexivity.
  - eapply (Only _ (put_move v x)); [apply (good_wd x); auto|reflexivity|]. intros rg z Oz. unfold M_state.step. rewrite Oz. reflexivity.
  - eapply (Only _ (put_members v x)); [apply (good_wd x); auto|reflexivity|]. intros rg z Oz. unfold M_state.step. rewrite Oz. reflexivity.
  - eapply (Only _ (put_clip v x)); [apply (good_wd x); auto|reflexivity|]. intros rg z Oz. unfold M_state.step. rewrite Oz. reflexivity.
  - eapply (Only _ (put_trunc v x)); [apply (good_wd x); auto|reflexivity|]. intros rg z Oz. unfold M_state.step. rewrite Oz. reflexivity.
  - eapply (Only _ (put_bins v x)); [apply (good_wd x); auto|reflexivity|]. intros rg z Oz. unfold M_state.step. rewrite Oz. reflexivity.
  - eapply (Only _ (put_range (VTuple [v1; v2]) x)); [apply (good_wd x); auto|reflexivity|]. intros rg z Oz. unfold M_state.step. rewrite Oz. reflexivity.
Qed.
Lemma construct_mirrors x k r k1 : good x -> construct lib expanduser resolve x k = (r, k1) ->
  (forall y, r = Ok y -> good y /\ cl y = cl x) /\ forall k', sim k k' -> exists k1', construct lib expanduser resolve x k' = (r, k1') /\ sim k1 k1'.
Proof.
  intros G E. unfold construct in *. pose proof (fun k' => validate_sim (put_fc VNone x) k k' (good_wd _ (put_fc VNone x) G eq_refl)) as V.
  destruct (validate expanduser resolve (put_fc VNone x) k) as [[r0 x1] k2] eqn:E0.
  pose proof (V k (sim_refl k)) as V0. rewrite E0 in V0. destruct V0 as (_ & _ & _ & G1 & C1). cbn in C1.
  split.
  - intros y ->. destruct r0 as [u|e]; [|discriminate E]. destruct (cl x); try (injection E as <- <-; auto). destruct (lib _ _); [|discriminate E]. injection E as <- <-. split; [apply (good_wd x1); auto|exact C1].
  - intros k' S. specialize (V k' S). destruct (validate expanduser resolve (put_fc VNone x) k') as [[r0' x1'] k2']. destruct V as (<- & <- & V & _).
    destruct r0 as [u|e]; [|injection E as <- <-; eauto]. destruct (cl x); try (injection E as <- <-; eauto). destruct (lib _ _); injection E as <- <-; eauto.
Qed.

(** What a verifier with directories [D] leaves alone. *)
Definition frame (k k' : disk) : Prop :=
  (forall q, (forall d, D d -> under d q = false) -> file k' q = file k q) /\
  (forall q, (forall d, D d -> under d q = false /\ under q d = false) -> isdir k' q = isdir k q).
Lemma frame_refl k : frame k k. Proof. split; auto. Qed.
Lemma frame_trans k1 k2 k3 : frame k1 k2 -> frame k2 k3 -> frame k1 k3.
Proof. intros [A B] [C E]. split; intros q H; [rewrite C, A|rewrite E, B]; auto. Qed.
Lemma makedirs_frame d k k1 : D d -> makedirs d k = Ok k1 -> frame k k1.
Proof. intros Hd. unfold makedirs. destruct (ancestor_is_file d k); [discriminate|]. intros E. injection E as <-. split; cbn; [auto|]. intros q H. destruct (H d Hd) as [_ ->]. reflexivity. Qed.
Lemma rmtree_frame d k k1 : D d -> rmtree d k = Ok k1 -> frame k k1.
Proof. intros Hd. unfold rmtree. destruct (isdir k d); [|discriminate]. intros E. injection E as <-. split; cbn; intros q H; [rewrite (H d Hd); reflexivity|destruct (H d Hd) as [-> _]; reflexivity]. Qed.
Lemma validate_frame x k r x1 k1 : good x -> validate expanduser resolve x k = (r, x1, k1) -> frame k k1.
Proof.
  intros G E. unfold validate, validate_base in E. pose proof (validate_avg_same x) as [_ Wy]. destruct (validate_avg x) as [[u|e] y]; cbn [snd] in Wy; [|injection E as _ _ <-; apply frame_refl].
  destruct (is_none (a_boot y) || is_int (a_boot y)); [|injection E as _ _ <-; apply frame_refl]. destruct (is_bool (a_scratch y)); [|injection E as _ _ <-; apply frame_refl].
  destruct (validate_saving expanduser resolve y k) as [[r1 z] k2] eqn:V. assert (k1 = k2) as -> by (destruct r1; [destruct (validate_class z)|]; injection E as _ _ <-; reflexivity). clear E.
  unfold validate_saving in V. destruct (truthy (a_wd y)) eqn:T; [|injection V as _ _ <-; apply frame_refl]. rewrite Wy in *. destruct (a_wd x) as [| | | |w| | | | | |] eqn:W; try (injection V as _ _ <-; apply frame_refl).
  assert (N : w <> "") by (intros ->; discriminate T). destruct (G w W N) as [_ Hd]. cbv zeta in V. destruct (exists_at _ _).
  - destruct (truthy (a_scratch _)); [|injection V as _ _ <-; apply frame_refl]. destruct (rmtree _ k) as [k3|e] eqn:R; [|injection V as _ _ <-; apply frame_refl]. pose proof (rmtree_frame _ _ _ Hd R) as F.
    destruct (makedirs _ k3) as [k4|e] eqn:M; injection V as _ _ <-; [|exact F]. eapply frame_trans; [exact F|]. eapply makedirs_frame; eassumption.
  - destruct (makedirs _ k) as [k4|e] eqn:M; injection V as _ _ <-; [|apply frame_refl]. eapply makedirs_frame; eassumption.
Qed.
Lemma step_frame rng o s r s1 : (forall w sc, o = OSave (VStr w) sc -> w <> "" -> D (resolve w) /\ D (resolve (expanduser w))) -> good (ob s) -> quiet (ob s) -> step rng o s = (r, s1) -> frame (dk s) (dk s1).
Proof.
  intros Sav G Q E. destruct (metric_op o) eqn:MO.
  - destruct (step_foot _ _ _ _ _ _ _ _ _ _ _ _ o s r s1 MO E) as (_ & [F1 F2] & _). split; [|intros q _; apply F1]. intros q H. destruct (F2 q) as [F|[((w & n & W & N & P) & _)|(L & C & _)]]; [exact F| |].
    + destruct (G w W N) as [Hd _]. specialize (H _ Hd). rewrite P, under_snoc in H. discriminate H.
    + destruct Q as [Q|Q]; congruence.
  - assert (Set_ : forall y, good y -> set_and_validate expanduser resolve y s = (r, s1) -> frame (dk s) (dk s1)).
    { intros y Gy X. unfold set_and_validate in X. destruct (validate expanduser resolve y (dk s)) as [[r0 y1] k1] eqn:V. injection X as _ <-. cbn. eapply validate_frame; eassumption. }
    assert (Only : forall (b : bool) y, good y -> (if b then set_and_validate expanduser resolve y s else (Raise AttributeError, s)) = (r, s1) -> frame (dk s) (dk s1)).
    { intros b y Gy. destruct b; [apply Set_, Gy|]. intros X. injection X as _ <-. apply frame_refl. }
    destruct o; try discriminate MO; unfold M_state.step in E; cbv zeta in E;
      try (eapply Set_; [|exact E]; apply (good_wd (ob s)); [exact G|reflexivity]); try (eapply Only; [|exact E]; apply (good_wd (ob s)); [exact G|reflexivity]); try (injection E as _ <-; apply frame_refl).
    eapply Set_; [|exact E]. intros w Ew N. cbn in Ew. subst wd. apply (Sav w scratch eq_refl N).
Qed.
Lemma construct_frame x k r k1 : good x -> construct lib expanduser resolve x k = (r, k1) -> frame k k1.
Proof.
  intros G E. unfold construct in E. destruct (validate expanduser resolve (put_fc VNone x) k) as [[r0 x1] k2] eqn:V. apply validate_frame in V; [|apply (good_wd x); auto].
  destruct r0; [|injection E as _ <-; exact V]. destruct (cl x); try (injection E as _ <-; exact V). destruct (lib _ _); injection E as _ <-; exact V.
Qed.
End View.

(** What others do under their directories is not seen. *)
Lemma frame_sim (D E : path -> Prop) k k' : (forall d e, D d -> E e -> under d e = false /\ under e d = false) -> frame E k k' -> sim D k k'.
Proof.
  intros Ap [F1 F2]. split.
  - intros q (d & Hd & U). symmetry. apply F1. intros e He. destruct (under e q) eqn:Ue; [|reflexivity]. destruct (Ap d e Hd He) as [A B]. destruct U as [U|U].
    + apply under_spec in U as [a Ea]. apply under_spec in Ue as [b Eb]. subst q. (* both are prefixes of q *)
      destruct (Nat.le_ge_cases (length d) (length e)) as [L|L].
      * assert (X : under d e = true); [|congruence]. apply under_spec. exists (skipn (length d) e).
        rewrite <- (firstn_skipn (length d) e) at 1. f_equal. transitivity (firstn (length d) (e ++ b)); [rewrite firstn_app; replace (length d - length e) with 0 by lia; cbn; rewrite app_nil_r; reflexivity|].
        rewrite <- Eb, firstn_app, Nat.sub_diag, firstn_all. cbn. apply app_nil_r.
      * assert (X : under e d = true); [|congruence]. apply under_spec. exists (skipn (length e) d).
        rewrite <- (firstn_skipn (length e) d) at 1. f_equal. transitivity (firstn (length e) (d ++ a)); [rewrite firstn_app; replace (length e - length d) with 0 by lia; cbn; rewrite app_nil_r; reflexivity|].
        rewrite Eb, firstn_app, Nat.sub_diag, firstn_all. cbn. apply app_nil_r.
    + assert (X : under e d = true); [|congruence]. apply under_spec in U as [a Ea]. apply under_spec in Ue as [b Eb]. apply under_spec. exists (b ++ a). rewrite Ea, Eb, app_assoc. reflexivity.
  - intros q (d & Hd & U). symmetry. apply F2. intros e He. destruct (Ap d e Hd He) as [A B].
    assert (Pre : forall u v t, under u t = true -> under v t = true -> under u v = true \/ under v u = true).
    { induction u as [|c u IH]; intros v t; [left; reflexivity|]. destruct v as [|c' v]; [right; reflexivity|]. destruct t as [|c'' t]; [discriminate|]. cbn. rewrite !andb_true_iff, !String.eqb_eq. intros [-> X] [-> Y]. destruct (IH v t X Y); auto. }
    split.
    + destruct (under e q) eqn:Ue; [|reflexivity]. destruct (Pre d e q U Ue); congruence.
    + destruct (under q e) eqn:Ue; [|reflexivity]. assert (X : under d e = true); [|congruence]. apply under_spec in U as [a ->]. apply under_spec in Ue as [b ->]. apply under_spec. exists (a ++ b). rewrite app_assoc. reflexivity.
Qed.
End Many.
