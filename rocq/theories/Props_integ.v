(** Properties C42, C43, C44, C47, C65: running numerical integrations. *)
From Coq Require Import ZArith String Ascii List Lia Bool Arith QArith Qcanon Permutation Decimal DecimalString DecimalZ DecimalFacts.
From Verif Require Import QcTac QSum Num NdArr Numpy M_ens M_integ P_integ P_integ2.
Import ListNotations.
Open Scope nat_scope.

(** ** Vocabulary *)
Definition result {A} (x : res A * proc * fs) : res A := fst (fst x).
Definition process {A} (x : res A * proc * fs) : proc := snd (fst x).
Definition files {A} (x : res A * proc * fs) : fs := snd x.
(** both calls return equal arrays, or both raise *)
Definition same_result (r1 r2 : res (arr num)) : Prop :=
  match r1, r2 with Ok a, Ok b => arr_eq a b | Raise _, Raise _ => True | _, _ => False end.
(** the environments agree except for the listed variables *)
Definition agree_but (vars : list string) (s1 s2 : proc) : Prop := forall x, ~ In x vars -> p_env s1 x = p_env s2 x.
Definition V_disable : string := "pyanen_tqdm_disable".
Definition V_workers : string := "pyanen_tqdm_workers".
Definition V_less : string := "pyanen_integrate_with_less_memory".

(** ** The cases of a call *)
Section Cases.
Variable pyint : string -> res Z.
Variable expanduser : string -> string.
Variable isdir : string -> bool.
Lemma settings_reads s : settings_ok pyint s -> exists d w, reads pyint s d w.
Proof. intros ((t1 & b1 & E1 & F1) & _ & (t3 & z3 & E3 & F3) & _). exists b1, z3, t1, t3. auto. Qed.
Lemma ready_dec i s : ready i s \/ ~ ready i s.
Proof.
  unfold ready. destruct (Z.eq_dec (i_cores i) 1) as [E|E]; [left; intros N; contradiction|].
  destruct (p_ray s); [right; intros X; specialize (X E); discriminate|left; reflexivity].
Qed.
Lemma room_dec i : room isdir i \/ ~ room isdir i.
Proof.
  unfold room. destruct (i_less i); [|left; discriminate]. destruct (isdir (i_dir i)); [|right; intros X; destruct (X eq_refl); discriminate].
  destruct (Nat.eq_dec (i_nbins i * cells i) 0) as [E|E]; [right; intros X; destruct (X eq_refl); contradiction|left; split; [reflexivity|exact E]].
Qed.
Lemma good_dec i what : (exists vals, forall j, j < i_nbins i -> good i what j (vals j)) \/ exists j, j < i_nbins i /\ bad i what j.
Proof.
  destruct (all_good_or i what (seq 0 (i_nbins i))) as [(vals & V)|(j & Hj & B)].
  - left. exists vals. intros j Hj. apply V, in_seq. lia.
  - right. exists j. apply in_seq in Hj. split; [lia|exact B].
Qed.
Lemma all_cases i s what : (~ ready i s \/ ~ room isdir i \/ (exists j, j < i_nbins i /\ bad i what j)) \/
  (ready i s /\ room isdir i /\ exists vals, forall j, j < i_nbins i -> good i what j (vals j)).
Proof.
  destruct (ready_dec i s) as [A|A]; [|left; left; exact A]. destruct (room_dec i) as [B|B]; [|left; right; left; exact B].
  destruct (good_dec i what) as [C|C]; [right; exact (conj A (conj B C))|left; right; right; exact C].
Qed.
End Cases.
Lemma points_agree s1 s2 pyint v range n vars : agree_but vars s1 s2 -> ~ In "pyanen_integrate_range_multiplier"%string vars ->
  points pyint v range n s1 = points pyint v range n s2.
Proof. intros A N. unfold points. destruct range; [reflexivity|]. rewrite (A _ N). reflexivity. Qed.
Lemma less_agree s1 s2 l b vars : agree_but vars s1 s2 -> ~ In V_less vars -> less_is l s1 b -> less_is l s2 b.
Proof. intros A N. unfold less_is. destruct l; [tauto|]. intros (t & E & F). exists t. fold V_less. rewrite <- (A _ N). auto. Qed.
Lemma dir_agree expanduser s1 s2 d v dir vars : agree_but vars s1 s2 -> ~ In "pyanen_integrate_wdir"%string vars -> dir_is expanduser d v s1 dir -> dir_is expanduser d v s2 dir.
Proof. intros A N. unfold dir_is. destruct d; [tauto|]. rewrite (A _ N). tauto. Qed.
Ltac notin := cbn; unfold V_workers, V_less; intuition discriminate.

(** ** C42 *)
(** [wait] chooses which pending Ray task completes next. *)
Theorem c42_schedule : forall pyint expanduser isdir wait1 wait2 k v range nbins w1 w2 less dir s1 s2 f1 f2 c1 c2,
  settings_ok pyint s1 -> settings_ok pyint s2 -> agree_but [V_workers] s1 s2 ->
  cores_are pyint w1 s1 c1 -> cores_are pyint w2 s2 c2 -> (1 <= c1)%Z -> (1 <= c2)%Z ->
  p_ray s1 = false -> p_ray s2 = false ->
  same_result (result (run (integrate pyint expanduser isdir wait1 k v range nbins w1 less dir) s1 f1))
              (result (run (integrate pyint expanduser isdir wait2 k v range nbins w2 less dir) s2 f2)).
Proof.
  intros pyint expanduser isdir wait1 wait2 k v range nbins w1 w2 less dir s1 s2 f1 f2 c1 c2 O1 O2 A C1 C2 P1 P2 R1 R2.
  destruct (settings_values pyint expanduser v w1 less dir s1 O1) as (_ & (b & Lb) & (dd & Dd)).
  pose proof (less_agree s1 s2 less b _ A ltac:(notin) Lb) as Lb2. pose proof (dir_agree expanduser s1 s2 dir v dd _ A ltac:(notin) Dd) as Dd2.
  unfold integrate, result. rewrite !run_bind.
  rewrite (new_run pyint expanduser v range nbins w1 less dir s1 f1 c1 b dd O1 C1 Lb Dd), (new_run pyint expanduser v range nbins w2 less dir s2 f2 c2 b dd O2 C2 Lb2 Dd2).
  pose proof (points_agree s1 s2 pyint v range nbins _ A ltac:(notin)) as E. rewrite <- E.
  destruct (points pyint v range nbins s1) as [xs|e] eqn:Px; [|exact I]. cbn [rmap].
  pose proof (points_length _ _ _ _ _ _ Px) as Lx.
  set (i1 := Integ v nbins xs c1 b dd). set (i2 := Integ v nbins xs c2 b dd).
  destruct (settings_reads pyint s1 O1) as (d1 & z1 & Rd1). destruct (settings_reads pyint s2 O2) as (d2 & z2 & Rd2).
  assert (Y1 : ready i1 s1) by (intros _; exact R1). assert (Y2 : ready i2 s2) by (intros _; exact R2).
  destruct (room_dec isdir i1) as [Rm|Nm].
  - destruct (good_dec i1 (what_of k v)) as [(vals & G)|B].
    + destruct (workflow_ok pyint isdir wait1 i1 Lx k vals s1 f1 d1 z1 Rd1 Y1 Rm G) as (a1 & s1' & f1' & E1 & [S1 V1] & _). rewrite E1.
      destruct (workflow_ok pyint isdir wait2 i2 Lx k vals s2 f2 d2 z2 Rd2 Y2 Rm G) as (a2 & s2' & f2' & E2 & [S2 V2] & _). rewrite E2.
      cbn [fst same_result]. split; [rewrite S1, S2; reflexivity|]. intros ix V. rewrite S1 in V. rewrite V1, V2 by exact V. reflexivity.
    + destruct (workflow_bad pyint isdir wait1 i1 Lx k s1 f1 d1 z1 Rd1 (or_intror (or_intror B))) as (e1 & s1' & f1' & E1 & _). rewrite E1.
      destruct (workflow_bad pyint isdir wait2 i2 Lx k s2 f2 d2 z2 Rd2 (or_intror (or_intror B))) as (e2 & s2' & f2' & E2 & _). rewrite E2. exact I.
  - destruct (workflow_bad pyint isdir wait1 i1 Lx k s1 f1 d1 z1 Rd1 (or_intror (or_introl Nm))) as (e1 & s1' & f1' & E1 & _). rewrite E1.
    destruct (workflow_bad pyint isdir wait2 i2 Lx k s2 f2 d2 z2 Rd2 (or_intror (or_introl Nm))) as (e2 & s2' & f2' & E2 & _). rewrite E2. exact I.
Qed.
Print Assumptions c42_schedule.

(** ** C43 *)
Lemma finan_linspace a b n : finan a -> finan b -> forall j, j < n -> finan (nth j (nlinspace a b n) NaN).
Proof.
  intros Ha Hb j Hj. destruct n as [|[|n]]; [lia| |].
  - destruct j; [|lia]. cbn [nlinspace nth]. apply finan_add; [apply finan_mul; [exact I|apply finan_sub; assumption]|exact Ha].
  - unfold nlinspace. set (g := fun i => if i =? S (S n) - 1 then b else _).
    rewrite (nth_indep _ NaN (g 0)) by (rewrite map_length, seq_length; exact Hj). rewrite map_nth, seq_nth by exact Hj. unfold g.
    destruct (_ =? _); [exact Hb|]. apply finan_add; [|exact Ha]. apply finan_mul; [exact I|].
    pose proof (finan_sub b a Hb Ha) as F. destruct (nsub b a) as [q| | |]; cbn in F; try contradiction; [|exact I].
    unfold nnat, ndiv. destruct (qeqb_spec (qn (S (S n) - 1)) 0) as [E|E]; [|exact I]. exfalso. revert E. apply qn_neq0. lia.
Qed.
Lemma finan_extremum (pick : num -> num -> num) l : (forall a b, finan a -> finan b -> finan (pick a b)) -> forall x, finan x -> (forall y, In y l -> finan y) -> finan (fold_left pick l x).
Proof. intros H. induction l as [|y r IH]; intros x Hx Hl; [exact Hx|]. cbn [fold_left]. apply IH; [apply H; [exact Hx|apply Hl; left; reflexivity]|intros z Hz; apply Hl; right; exact Hz]. Qed.
Lemma finan_extremum_r (pick : num -> num -> num) l : (forall a b, finan a -> finan b -> finan (pick a b)) -> forall x, finan x -> (forall y, In y l -> finan y) -> finan (fold_right pick x l).
Proof. intros H. induction l as [|y r IH]; intros x Hx Hl; [exact Hx|]. cbn [fold_right]. apply H; [apply Hl; left; reflexivity|apply IH; [exact Hx|intros z Hz; apply Hl; right; exact Hz]]. Qed.
(** no infinite number enters the integration *)
Definition no_infinity (v : verifier) (range : option (num * num)) : Prop :=
  match range with Some (a, b) => finan a /\ finan b | None => forall x, In x (ravel (v_o v)) -> finan x end /\
  forall x a ix, v_cdf v x = Ok a -> valid (shape (v_o v)) ix -> finan (get a ix).
Lemma finan_points pyint v range n s xs : no_infinity v range -> points pyint v range n s = Ok xs -> forall j, j < n -> finan (nth j xs NaN).
Proof.
  intros [H _]. unfold points. destruct range as [[a b]|].
  - destruct H as [Ha Hb]. intros E. apply (f_equal (fun r => match r with Ok x => x | _ => [] end)) in E. subst xs. apply finan_linspace; assumption.
  - destruct (p_env s _) as [t|]; [|discriminate]. destruct (pyint t) as [m|e]; [|discriminate]. cbn [bind]. destruct (passert _) as [[]|e]; [|discriminate]. cbn [bind].
    destruct (nminimum _) as [a|e] eqn:E1; [|discriminate]. cbn [bind]. destruct (nmaximum _) as [b|e] eqn:E2; [|discriminate]. cbn [bind].
    assert (Fa : finan a). { unfold nminimum in E1. destruct (ravel (v_o v)) as [|x r]; [discriminate|]. apply (f_equal (fun r => match r with Ok x => x | _ => NaN end)) in E1. subst a.
      first [apply finan_extremum|apply finan_extremum_r]; [|apply H; left; reflexivity|intros y Hy; apply H; right; exact Hy]. intros p q Fp Fq. unfold nmin2. destruct p, q; cbn in *; try tauto; destruct (qleb _ _); exact I. }
    assert (Fb : finan b). { unfold nmaximum in E2. destruct (ravel (v_o v)) as [|x r]; [discriminate|]. apply (f_equal (fun r => match r with Ok x => x | _ => NaN end)) in E2. subst b.
      first [apply finan_extremum|apply finan_extremum_r]; [|apply H; left; reflexivity|intros y Hy; apply H; right; exact Hy]. intros p q Fp Fq. unfold nmax2. destruct p, q; cbn in *; try tauto; destruct (qleb _ _); exact I. }
    intros E. apply (f_equal (fun r => match r with Ok x => x | _ => [] end)) in E. subst xs.
    apply finan_linspace; [apply finan_sub|apply finan_add]; try assumption; apply finan_mul; try exact I; apply finan_sub; assumption.
Qed.
Lemma finan_what k v x a ix range : no_infinity v range -> what_of k v x = Ok a -> valid (shape (v_o v)) ix -> finan (get a ix).
Proof.
  intros [_ H] E V. destruct k; cbn [what_of] in E; [|apply (H x a ix E V)|apply (H x a ix E V)].
  unfold v_brier, cell_brier in E. destruct (v_cdf v x) as [p|e] eqn:Ep; [|discriminate]. cbn in E.
  apply (f_equal (fun r => match r with Ok x => get x ix | _ => Fin 0 end)) in E. cbn [get amap2 amap] in E. rewrite <- E.
  pose proof (H x p ix Ep V) as F. assert (G : finan (nsub (get p ix) (b2n (nlt (get (v_o v) ix) x)))) by (apply finan_sub; [exact F|destruct (nlt _ _); exact I]).
  apply finan_mul; exact G.
Qed.
(** Memory-efficient integration returns what in-memory integration returns, whatever the completion orders; afterwards
    the scratch file is gone and no other file has changed.  The directory must exist and the arrays must not be empty. *)
Theorem c43_memory : forall pyint expanduser isdir wait1 wait2 k v range nbins w1 w2 l1 l2 dir s1 s2 f1 f2 d,
  settings_ok pyint s1 -> settings_ok pyint s2 -> agree_but [V_workers; V_less] s1 s2 ->
  less_is l1 s1 true -> less_is l2 s2 false ->
  p_ray s1 = false -> p_ray s2 = false ->
  dir_is expanduser dir v s1 d -> isdir d = true -> 0 < nbins -> 0 < prod (shape (v_o v)) -> no_infinity v range ->
  let x1 := run (integrate pyint expanduser isdir wait1 k v range nbins w1 l1 dir) s1 f1 in
  let x2 := run (integrate pyint expanduser isdir wait2 k v range nbins w2 l2 dir) s2 f2 in
  same_result (result x1) (result x2) /\
  (forall a, result x1 = Ok a -> f_live (files x1 (d ++ "/__pyanen_numerical_integration__.dat")%string) = false) /\
  (forall q, q <> (d ++ "/__pyanen_numerical_integration__.dat")%string -> files x1 q = f1 q).
Proof.
  intros pyint expanduser isdir wait1 wait2 k v range nbins w1 w2 l1 l2 dir s1 s2 f1 f2 dd O1 O2 A L1 L2 R1 R2 Dd Hd Hn Hp NI.
  destruct (settings_values pyint expanduser v w1 l1 dir s1 O1) as ((c1 & C1) & _ & _).
  destruct (settings_values pyint expanduser v w2 l2 dir s2 O2) as ((c2 & C2) & _ & _).
  pose proof (dir_agree expanduser s1 s2 dir v dd _ A ltac:(notin) Dd) as Dd2.
  unfold integrate, result, files. rewrite !run_bind.
  rewrite (new_run pyint expanduser v range nbins w1 l1 dir s1 f1 c1 true dd O1 C1 L1 Dd), (new_run pyint expanduser v range nbins w2 l2 dir s2 f2 c2 false dd O2 C2 L2 Dd2).
  pose proof (points_agree s1 s2 pyint v range nbins _ A ltac:(notin)) as E. rewrite <- E.
  destruct (points pyint v range nbins s1) as [xs|e] eqn:Px; [|split; [exact I|split; [discriminate|reflexivity]]]. cbn [rmap].
  pose proof (points_length _ _ _ _ _ _ Px) as Lx.
  set (i1 := Integ v nbins xs c1 true dd). set (i2 := Integ v nbins xs c2 false dd).
  destruct (settings_reads pyint s1 O1) as (d1 & z1 & Rd1). destruct (settings_reads pyint s2 O2) as (d2 & z2 & Rd2).
  assert (Y1 : ready i1 s1) by (intros _; exact R1). assert (Y2 : ready i2 s2) by (intros _; exact R2).
  assert (Rm : room isdir i1) by (intros _; split; [exact Hd|]; change (nbins * length (indices (shape (v_o v))) <> 0); rewrite indices_length; nia).
  assert (Rm2 : room isdir i2) by (intros X; discriminate X).
  destruct (good_dec i1 (what_of k v)) as [(vals & G)|B].
  - destruct (workflow_ok pyint isdir wait1 i1 Lx k vals s1 f1 d1 z1 Rd1 Y1 Rm G) as (a1 & s1' & f1' & E1 & [S1 V1] & _ & _ & _ & _ & LV & _ & Q). rewrite E1.
    destruct (workflow_ok pyint isdir wait2 i2 Lx k vals s2 f2 d2 z2 Rd2 Y2 Rm2 G) as (a2 & s2' & f2' & E2 & [S2 V2] & _). rewrite E2.
    cbn [fst snd same_result]. split; [|split; [intros a _; apply LV; reflexivity|exact Q]].
    split; [rewrite S1, S2; reflexivity|]. intros ix V. rewrite S1 in V. rewrite V1, V2 by exact V.
    change (i_less i1) with true. change (i_less i2) with false. rewrite cell_value_less; [reflexivity| |].
    + intros j Hj. destruct (G j Hj) as [Gj _]. apply (finan_what k v _ _ _ range NI Gj V).
    + intros j Hj. apply (finan_points _ _ _ _ _ _ NI Px j Hj).
  - destruct (workflow_bad pyint isdir wait1 i1 Lx k s1 f1 d1 z1 Rd1 (or_intror (or_intror B))) as (e1 & s1' & f1' & E1 & _).
    pose proof (only_run _ _ (workflow_only pyint isdir wait1 i1 k) s1 f1) as Q. rewrite E1 in Q |- *.
    destruct (workflow_bad pyint isdir wait2 i2 Lx k s2 f2 d2 z2 Rd2 (or_intror (or_intror B))) as (e2 & s2' & f2' & E2 & _). rewrite E2.
    split; [exact I|]. split; [discriminate|exact Q].
Qed.
Print Assumptions c43_memory.

(** ** C44 *)
(** A call that returns leaves the two variables with the meaning they had and every other variable untouched.
    Missing: calls that raise. *)
Theorem c44_returned_partial : forall pyint expanduser isdir wait k v range nbins w l dir s f a,
  (forall z, pyint (pystr z) = Ok z) ->
  let x := run (integrate pyint expanduser isdir wait k v range nbins w l dir) s f in
  settings_ok pyint s -> result x = Ok a ->
  (exists t t' b, p_env s V_disable = Some t /\ p_env (process x) V_disable = Some t' /\ strtobool t = Ok b /\ strtobool t' = Ok b) /\
  (exists t t' z, p_env s V_workers = Some t /\ p_env (process x) V_workers = Some t' /\ pyint t = Ok z /\ pyint t' = Ok z) /\
  (forall y, y <> V_disable -> y <> V_workers -> p_env (process x) y = p_env s y) /\ p_ray (process x) = p_ray s.
Proof.
  intros pyint expanduser isdir wait k v range nbins w l dir s f a RT x O. subst x.
  destruct (settings_values pyint expanduser v w l dir s O) as ((c & C) & (b & L) & (dd & D)).
  unfold integrate, result, process. rewrite run_bind, (new_run pyint expanduser v range nbins w l dir s f c b dd O C L D).
  destruct (points pyint v range nbins s) as [xs|e] eqn:Px; [|discriminate]. cbn [rmap]. set (i := Integ v nbins xs c b dd).
  pose proof (points_length _ _ _ _ _ _ Px) as Lx. destruct (settings_reads pyint s O) as (d & z & Rd).
  pose proof (all_cases isdir i s (what_of k (i_v i))) as Bad.
  destruct Bad as [Bad|(Y & Rm & vals & G)].
  - destruct (workflow_bad pyint isdir wait i Lx k s f d z Rd Bad) as (e & s' & f' & E & _). rewrite E. discriminate.
  - destruct (workflow_ok pyint isdir wait i Lx k vals s f d z Rd Y Rm G) as (a' & s' & f' & E & _ & E1 & E2 & E3 & E4 & _). rewrite E. cbn [fst snd]. intros _.
    destruct Rd as (t1 & t2 & A1 & A2 & A3 & A4). split; [|split; [|split]].
    + exists t1, (pybool01 d), d. repeat split; try assumption. destruct d; reflexivity.
    + exists t2, (pystr z), z. repeat split; try assumption. apply RT.
    + intros y N1 N2. apply E3; assumption.
    + rewrite E4. unfold after. destruct (Z.eqb_spec (i_cores i) 1) as [|N]; [reflexivity|]. cbn. symmetry. apply Y, N.
Qed.
Print Assumptions c44_returned_partial.
(** Every call that raises after its object was built leaves progress bars disabled and, with several workers, the number
    of workers at 1: the restoring code is not in a finally clause. *)
Theorem c44_raised_refuted : forall pyint expanduser isdir wait k v range nbins w l dir s f e c,
  settings_ok pyint s -> cores_are pyint w s c ->
  let x := run (integrate pyint expanduser isdir wait k v range nbins w l dir) s f in
  (forall e', points pyint v range nbins s <> Raise e') ->
  result x = Raise e ->
  p_env (process x) V_disable = Some "True"%string /\ ((1 < c)%Z -> p_env (process x) V_workers = Some "1"%string).
Proof.
  intros pyint expanduser isdir wait k v range nbins w l dir s f e c O C x. subst x.
  destruct (settings_values pyint expanduser v w l dir s O) as (_ & (b & L) & (dd & D)).
  unfold integrate, result, process. rewrite run_bind, (new_run pyint expanduser v range nbins w l dir s f c b dd O C L D).
  destruct (points pyint v range nbins s) as [xs|e'] eqn:Px; [|intros X; exfalso; apply (X e'); reflexivity]. intros _. cbn [rmap]. set (i := Integ v nbins xs c b dd).
  pose proof (points_length _ _ _ _ _ _ Px) as Lx. destruct (settings_reads pyint s O) as (d & z & Rd).
  pose proof (all_cases isdir i s (what_of k (i_v i))) as Bad.
  destruct Bad as [Bad|(Y & Rm & vals & G)].
  - destruct (workflow_bad pyint isdir wait i Lx k s f d z Rd Bad) as (e1 & s' & f' & E & Es). rewrite E. cbn [fst snd]. intros _. rewrite Es. unfold suppressed, i. cbn [i_cores].
    destruct (Z.ltb_spec 1 c); cbn [p_env]; unfold upd, V_disable, V_workers; split; try reflexivity; intros; lia.
  - destruct (workflow_ok pyint isdir wait i Lx k vals s f d z Rd Y Rm G) as (a' & s' & f' & E & _). rewrite E. discriminate.
Qed.
Print Assumptions c44_raised_refuted.

(** ** C65 *)
(** A process in which Ray is running cannot integrate with several workers... *)
Theorem c65_ray_running_refuted : forall pyint expanduser isdir wait k v range nbins w dir s f c,
  settings_ok pyint s -> cores_are pyint w s c -> c <> 1%Z -> p_ray s = true ->
  (forall e', points pyint v range nbins s <> Raise e') ->
  result (run (integrate pyint expanduser isdir wait k v range nbins w (Some false) dir) s f) = Raise RuntimeError.
Proof.
  intros pyint expanduser isdir wait k v range nbins w dir s f c O C N R. 
  destruct (settings_values pyint expanduser v w (Some false) dir s O) as (_ & _ & (dd & D)).
  unfold integrate, result. rewrite run_bind, (new_run pyint expanduser v range nbins w (Some false) dir s f c false dd O C eq_refl D).
  destruct (points pyint v range nbins s) as [xs|e'] eqn:Px; [|intros X; exfalso; apply (X e'); reflexivity]. intros _. cbn [rmap].
  destruct (settings_reads pyint s O) as (d & z & Rd). unfold workflow. rewrite run_bind, (suppress_run pyint _ s f d z Rd), run_bind. unfold initialize. cbn [i_less run pret]. rewrite run_bind.
  assert (Z1 : Z.eqb c 1 = false) by (apply Z.eqb_neq, N).
  assert (G : forall what, run (gather wait (Integ v nbins xs c false dd) what) (suppressed (Integ v nbins xs c false dd) s) f = (Raise RuntimeError, suppressed (Integ v nbins xs c false dd) s, f)).
  { intros what. unfold gather. cbn [i_cores]. rewrite Z1. unfold ray_init, env_res. cbn [pbind run]. rewrite suppressed_ray, R. reflexivity. }
  destruct k; cbn [func_of]; [unfold int_crps|unfold int_mean|unfold int_variance]; rewrite run_bind, G; reflexivity.
Qed.
Print Assumptions c65_ray_running_refuted.
(** ... and a parallel integration that fails in a task leaves Ray running. *)
Theorem c65_ray_left_refuted : forall pyint expanduser isdir wait k v range nbins w dir s f c xs,
  settings_ok pyint s -> cores_are pyint w s c -> c <> 1%Z -> p_ray s = false ->
  points pyint v range nbins s = Ok xs -> (exists x e, In x xs /\ v_cdf v x = Raise e) ->
  let y := run (integrate pyint expanduser isdir wait k v range nbins w (Some false) dir) s f in
  (exists e, result y = Raise e) /\ p_ray (process y) = true.
Proof.
  intros pyint expanduser isdir wait k v range nbins w dir s f c xs O C N R Px (x & e & Hx & Ex) y. subst y.
  destruct (settings_values pyint expanduser v w (Some false) dir s O) as (_ & _ & (dd & D)).
  unfold integrate, result, process. rewrite run_bind, (new_run pyint expanduser v range nbins w (Some false) dir s f c false dd O C eq_refl D), Px. cbn [rmap].
  pose proof (points_length _ _ _ _ _ _ Px) as Lx. set (i := Integ v nbins xs c false dd).
  destruct (settings_reads pyint s O) as (d & z & Rd). unfold workflow. rewrite run_bind, (suppress_run pyint _ s f d z Rd), run_bind. unfold initialize. cbn [i_less i run pret]. rewrite run_bind. fold i.
  destruct (In_nth _ _ NaN Hx) as (j & Hj & Ej). rewrite Lx in Hj.
  assert (G : forall what, what x = Raise e -> exists e1 s1, run (gather wait i what) (suppressed i s) f = (Raise e1, s1, f) /\ p_ray s1 = true).
  { intros what Hw. unfold gather. cbn [i i_cores i_x]. assert (Z1 : Z.eqb c 1 = false) by (apply Z.eqb_neq, N). rewrite Z1. unfold ray_init, env_res. cbn [pbind run].
    rewrite suppressed_ray, R. rewrite run_bind. fold i. rewrite Lx. set (ord := ray_to_iterator wait nbins (seq 0 nbins)). set (s0 := Proc _ true).
    assert (Hin : In j ord) by (apply (Permutation_in j (Permutation_sym (iterator_perm wait nbins (seq 0 nbins) (seq_length _ _)))), in_seq; lia).
    destruct (tasks_mem_any i what ord s0 f eq_refl) as [(vals & V & Rn)|(e1 & Rn)].
    - exfalso. specialize (V j Hin). unfold xat in V. cbn [i i_x] in V. rewrite Ej, Hw in V. discriminate.
    - rewrite Rn. exists e1, s0. split; reflexivity. }
  assert (W : what_of k v x = Raise e) by (destruct k; cbn [what_of]; try exact Ex; unfold v_brier, cell_brier; rewrite Ex; reflexivity).
  destruct (G (what_of k v) W) as (e1 & s1 & Rn & P).
  destruct k; cbn [func_of what_of] in *; [unfold int_crps|unfold int_mean|unfold int_variance]; rewrite run_bind; cbn [i_v i]; fold i; rewrite Rn; cbn [fst snd]; (split; [eexists; reflexivity|exact P]).
Qed.
Print Assumptions c65_ray_left_refuted.

(** ** C47 *)
(** Two integrations with different scratch files, interleaved in any way: if both end, each ends as it would alone.
    Missing: the same scratch file, the usual case. *)
Theorem c47_distinct_partial : forall pyint1 pyint2 isdir wait1 wait2 k1 k2 i1 i2 sched s1 s2 f r1 r2 s1' s2' f',
  scratch i1 <> scratch i2 ->
  par sched (workflow pyint1 isdir i1 (func_of wait1 k1)) s1 (workflow pyint2 isdir i2 (func_of wait2 k2)) s2 f = ((Done r1, s1'), (Done r2, s2'), f') ->
  r1 = result (run (workflow pyint1 isdir i1 (func_of wait1 k1)) s1 f) /\ s1' = process (run (workflow pyint1 isdir i1 (func_of wait1 k1)) s1 f) /\
  r2 = result (run (workflow pyint2 isdir i2 (func_of wait2 k2)) s2 f) /\ s2' = process (run (workflow pyint2 isdir i2 (func_of wait2 k2)) s2 f).
Proof.
  intros pyint1 pyint2 isdir wait1 wait2 k1 k2 i1 i2 sched s1 s2 f r1 r2 s1' s2' f' N E.
  pose proof (par_distinct _ _ sched N _ _ s1 s2 f (workflow_only pyint1 isdir wait1 i1 k1) (workflow_only pyint2 isdir wait2 i2 k2)) as P. rewrite E in P.
  cbn [run fst] in P. destruct P as (P1 & P2 & _). unfold result, process. rewrite <- P1, <- P2. repeat split; reflexivity.
Qed.
Print Assumptions c47_distinct_partial.

(** ** A concrete setting *)
(** int() of a decimal text *)
Definition w_pyint (t : string) : res Z := match NilZero.int_of_string t with Some d => Ok (Z.of_int d) | None => Raise ValueError end.
Lemma w_pyint_pystr z : w_pyint (pystr z) = Ok z.
Proof.
  unfold w_pyint, pystr. rewrite NilZero.isi; [rewrite DecimalZ.of_to; reflexivity| |];
  intros E; pose proof (DecimalZ.of_to z) as F; rewrite E in F; cbn in F; subst z; discriminate.
Qed.
Definition w_env (disable workers less : string) (x : string) : option string :=
  if String.eqb x V_disable then Some disable else if String.eqb x V_workers then Some workers else if String.eqb x V_less then Some less
  else if String.eqb x "pyanen_integrate_range_multiplier" then Some "2"%string else if String.eqb x "pyanen_integrate_wdir" then Some "/tmp"%string
  else if String.eqb x "pyanen_tqdm_leave" then Some "True"%string else if String.eqb x "pyanen_tqdm_chunksize" then Some "1"%string
  else if String.eqb x "HOME" then Some "/root"%string else None.
Definition w_proc (workers less : string) : proc := Proc (w_env "False" workers less) false.
Definition w_home (p : string) : string := p.
Definition w_isdir (p : string) : bool := String.eqb p "/tmp" || String.eqb p "/scratch".
Definition w_files : fs := fun _ => PS false 0 (fun _ => []).
(** uniform distribution on [0, 4]; at the second cell one unit to the right *)
Definition w_cdf (x : num) : res (arr num) :=
  match x with
  | Fin q => Ok (Arr [2] (fun ix => match ix with [0] => Fin (qmax 0 (qmin 1 (q / qz 4))) | _ => Fin (qmax 0 (qmin 1 ((q - 1) / qz 4))) end))%Qc
  | _ => Raise ValueError
  end.
Definition w_ver : verifier := Verifier (of_list NaN [2] [Fin 1; Fin (qz 3)]) w_cdf None.
(** fails above 2 *)
Definition w_failing : verifier := Verifier (of_list NaN [2] [Fin 1; Fin (qz 3)]) (fun x => if nlt (Fin (qz 2)) x then Raise ValueError else w_cdf x) None.
Definition first : list nat -> nat := fun _ => 0.
Definition last_ : list nat -> nat := fun l => length l - 1.
Definition call (wait : list nat -> nat) (k : kind) (v : verifier) (range : option (num * num)) (w : option Z) (l : option bool) (s : proc) (f : fs) :=
  run (integrate w_pyint w_home w_isdir wait k v range 5 w l None) s f.
Ltac ncomp := vm_compute; repeat first [reflexivity | apply Qc_is_canon; reflexivity | f_equal].

Definition shown (x : res (arr num) * proc * fs) := match result x with Ok a => Ok (ravel a) | Raise e => Raise e end.
Lemma w_settings w z l b : w_pyint w = Ok z -> strtobool l = Ok b -> settings_ok w_pyint (w_proc w l).
Proof. intros Hw Hl. unfold settings_ok, w_proc. cbn [p_env]. 
  split; [exists "False"%string, false; split; reflexivity|]. split; [exists "True"%string, true; split; reflexivity|]. split; [exists w, z; split; [reflexivity|exact Hw]|].
  split; [exists "1"%string, 1%Z; split; reflexivity|]. split; [exists l, b; split; [reflexivity|exact Hl]|]. exists "/tmp"%string. reflexivity.
Qed.

(** C42: three workers in reverse completion order, against none *)
Example c42_inhabited : same_result (result (call first KMean w_ver None None None (w_proc "1" "False") w_files)) (result (call last_ KMean w_ver None (Some 3%Z) None (w_proc "4" "False") w_files)) /\
  shown (call last_ KMean w_ver None (Some 3%Z) None (w_proc "4" "False") w_files) = Ok [Fin (qz 2); Fin (qz 47 / qz 16)%Qc].
Proof.
  split; [|ncomp]. apply (c42_schedule w_pyint w_home w_isdir first last_ KMean w_ver None 5 None (Some 3%Z) None None _ _ w_files w_files 1 3);
    try reflexivity; try lia; try (eapply w_settings; reflexivity); [|exists "1"%string; split; reflexivity].
  intros x N. unfold w_proc, w_env. cbn [p_env]. destruct (String.eqb_spec x V_disable); [reflexivity|]. destruct (String.eqb_spec x V_workers) as [->|]; [exfalso; apply N; left; reflexivity|reflexivity].
Qed.
(** C43: through the scratch file, three workers, against in memory *)
Example c43_inhabited : same_result (result (call last_ KVariance w_ver None None None (w_proc "3" "True") w_files)) (result (call first KVariance w_ver None None None (w_proc "1" "False") w_files)) /\
  shown (call last_ KVariance w_ver None None None (w_proc "3" "True") w_files) = Ok [Fin (qz 25 / qz 8)%Qc; Fin (qz 975 / qz 256)%Qc].
Proof.
  split; [|ncomp]. apply (c43_memory w_pyint w_home w_isdir last_ first KVariance w_ver None 5 None None None None None (w_proc "3" "True") (w_proc "1" "False") w_files w_files "/tmp"%string);
    try reflexivity; try (eapply w_settings; reflexivity); try (eexists; split; reflexivity); try (cbn; lia).
  - intros x N. unfold w_proc, w_env. cbn [p_env]. destruct (String.eqb_spec x V_disable); [reflexivity|]. destruct (String.eqb_spec x V_workers) as [->|]; [exfalso; apply N; left; reflexivity|].
    destruct (String.eqb_spec x V_less) as [->|]; [exfalso; apply N; right; left; reflexivity|reflexivity].
  - split; [intros x Hx; vm_compute in Hx; destruct Hx as [<-|[<-|[]]]; exact I|]. intros x a ix E _. destruct x; try discriminate.
    apply (f_equal (fun r => match r with Ok z => get z ix | _ => NaN end)) in E. cbn [get] in E. rewrite <- E. destruct ix as [|[|] []]; exact I.
Qed.
Example c44_returned_inhabited : result (call last_ KMean w_ver None None None (w_proc "3" "False") w_files) <> Raise ValueError /\
  p_env (process (call last_ KMean w_ver None None None (w_proc "3" "False") w_files)) V_workers = Some "3"%string.
Proof. split; [discriminate|reflexivity]. Qed.
(** a task that fails: the caller's three workers and progress bars are gone for good *)
Example c44_raised_inhabited : let x := call last_ KMean w_failing None None None (w_proc "3" "False") w_files in
  result x = Raise ValueError /\ p_env (w_proc "3" "False") V_workers = Some "3"%string /\ p_env (process x) V_workers = Some "1"%string /\
  p_env (w_proc "3" "False") V_disable = Some "False"%string /\ p_env (process x) V_disable = Some "True"%string /\
  (forall e, points w_pyint w_failing None 5 (w_proc "3" "False") <> Raise e).
Proof. repeat split; discriminate. Qed.
(** ... and integrating again with three workers fails though nothing is wrong any more *)
Example c65_inhabited : let x := call last_ KMean w_failing None (Some 3%Z) (Some false) (w_proc "3" "False") w_files in
  result x = Raise ValueError /\ p_ray (process x) = true /\ result (call last_ KMean w_ver None (Some 3%Z) (Some false) (process x) w_files) = Raise RuntimeError /\
  result (call last_ KMean w_ver None (Some 3%Z) (Some false) (w_proc "3" "False") w_files) <> Raise RuntimeError.
Proof. repeat split; discriminate. Qed.

(** Two sequential integrations of the same forecasts through the same directory: the first returns 0 where it returns 2
    and 7/4 alone, the second raises. *)
Definition w_int (dir : string) : integration := Integ w_ver 3 [Fin 0; Fin (qz 2); Fin (qz 4)]  1 true dir.
Definition work (dir : string) := workflow w_pyint w_isdir (w_int dir) (func_of first KMean).
Definition cells_of (p : prog (arr num)) : option (res (list num)) := match p with Done r => Some (rmap ravel r) | _ => None end.
Definition w_race (d1 d2 : string) := par (repeat true 8 ++ repeat false 5 ++ repeat true 60 ++ repeat false 60) (work d1) (w_proc "1" "True") (work d2) (w_proc "1" "True") w_files.
Theorem c47_shared_refuted : exists p1 s1 p2 s2 f, w_race "/tmp" "/tmp" = ((p1, s1), (p2, s2), f) /\
  cells_of p1 = Some (Ok [Fin 0; Fin 0]) /\ cells_of p2 = Some (Raise FileNotFoundError) /\
  rmap ravel (result (run (work "/tmp") (w_proc "1" "True") w_files)) = Ok [Fin (qz 2); Fin (qz 7 / qz 4)%Qc].
Proof.
  destruct (w_race "/tmp" "/tmp") as [[[p1 s1] [p2 s2]] f] eqn:E. exists p1, s1, p2, s2, f. split; [reflexivity|].
  assert (E1 : p1 = fst (fst (fst (w_race "/tmp" "/tmp")))) by (rewrite E; reflexivity). assert (E2 : p2 = fst (snd (fst (w_race "/tmp" "/tmp")))) by (rewrite E; reflexivity).
  rewrite E1, E2. split; [ncomp|]. split; ncomp.
Qed.
Print Assumptions c47_shared_refuted.
(** with different directories the same schedule is harmless *)
Example c47_distinct_inhabited : scratch (w_int "/tmp") <> scratch (w_int "/scratch") /\
  cells_of (fst (fst (fst (w_race "/tmp" "/scratch")))) = Some (Ok [Fin (qz 2); Fin (qz 7 / qz 4)%Qc]) /\
  cells_of (fst (snd (fst (w_race "/tmp" "/scratch")))) = Some (Ok [Fin (qz 2); Fin (qz 7 / qz 4)%Qc]).
Proof. split; [vm_compute; discriminate|]. split; ncomp. Qed.
