(** Properties C59 (ensemble axis) and C60 (collapse function) of ensemble verifiers. *)
From Coq Require Import String Ascii QArith Qcanon ZArith Lia List Bool.
From Verif Require Import QcTac Num NdArr Numpy M_common M_ens M_state Spec_state P_state P_state2 P_codec Props_state Props_thr.
Import ListNotations.
Open Scope string_scope.
Open Scope list_scope.
Open Scope nat_scope.

(** ** Specification *)
(** the shape without axis [i] *)
Definition without (i : nat) (sh : list nat) : list nat := firstn i sh ++ skipn (S i) sh.
(** the axis a Python index means *)
Definition axis_at (n : nat) (z : Z) : nat := Z.to_nat (if Z.ltb z 0 then z + Z.of_nat n else z).
Definition shape_of (v : val) : list nat := match v with VArr sh _ => sh | _ => [] end.
Definition an_array (v : val) : Prop := exists sh d, v = VArr sh d.

Lemma list_nat_eqb_spec a b : list_nat_eqb a b = true <-> a = b.
Proof.
  revert b. induction a as [|x a IH]; intros [|y b]; cbn; try (split; congruence). rewrite andb_true_iff, Nat.eqb_eq, IH. split; [intros [-> ->]; reflexivity|intros E; injection E; auto].
Qed.
Lemma pop_first_without sh : pop_first sh = without 0 sh. Proof. destruct sh; reflexivity. Qed.
Lemma pop_last_without sh : sh <> [] -> pop_last sh = without (length sh - 1) sh.
Proof.
  intros N. unfold pop_last, without. destruct (exists_last N) as (l & x & ->). rewrite removelast_last, app_length. cbn [length].
  replace (length l + 1 - 1) with (length l) by lia. rewrite firstn_app, Nat.sub_diag, firstn_all. cbn [firstn]. rewrite skipn_all2 by (rewrite app_length; cbn; lia). rewrite !app_nil_r. reflexivity.
Qed.

Section Ens.
Variable lib : string -> list val -> res val.
Variable libr : string -> list val -> nat -> res val.
Variable str_of : val -> string.
Variable dumps : val -> string.
Variable loads : string -> res val.
Variable expanduser : string -> string.
Variable resolve : string -> path.
Variable points : val -> val -> val -> res (list num).
Variable less_memory : bool.
Variable integrate_wdir : option path.
Variable cwd : path.
Variable rng : nat -> nat.
Notation construct := (construct lib expanduser resolve).
Notation validate := (validate expanduser resolve).
Notation exec := (exec lib libr str_of dumps loads resolve points less_memory integrate_wdir cwd rng).
Notation metric := (metric lib libr str_of dumps loads resolve points less_memory integrate_wdir cwd rng).
Notation step := (step lib libr str_of dumps loads expanduser resolve points less_memory integrate_wdir cwd rng).
Notation workflow_1 := (workflow_1 dumps loads resolve).
Notation body := (body lib libr points less_memory).

(** ** C59 *)
Lemma base_keeps x k r x1 k1 : validate_base expanduser resolve x k = (r, x1, k1) ->
  cl x1 = cl x /\ a_f x1 = a_f x /\ a_o x1 = a_o x /\ a_eaxis x1 = a_eaxis x /\ a_collapse x1 = a_collapse x /\ a_fc x1 = a_fc x.
Proof.
  unfold validate_base, validate_avg. cbv zeta.
  set (y := if is_none (a_avg x) then x else _).
  assert (Y : cl y = cl x /\ a_f y = a_f x /\ a_o y = a_o x /\ a_eaxis y = a_eaxis x /\ a_collapse y = a_collapse x /\ a_fc y = a_fc x).
  { subst y. destruct (is_none (a_avg x)); [auto 10|]. destruct (is_int (a_avg x)); [cbn; auto 10|]. destruct (a_avg x); cbn; auto 10. }
  clearbody y. destruct (passert _) as [u|e]; [|intros E; injection E as <- <- <-; exact Y].
  destruct (is_none (a_boot y) || is_int (a_boot y)); [|intros E; injection E as <- <- <-; exact Y].
  destruct (is_bool (a_scratch y)); [|intros E; injection E as <- <- <-; exact Y].
  unfold validate_saving. destruct (truthy (a_wd y)); [|intros E; injection E as <- <- <-; exact Y].
  destruct (a_wd y); try (intros E; injection E as <- <- <-; exact Y).
  destruct (exists_at k _); [destruct (truthy _); [destruct (rmtree _ _) as [k2|e]; [destruct (makedirs _ _) as [k3|e]|]|]|destruct (makedirs _ _) as [k3|e]];
    intros E; injection E as <- <- <-; exact Y.
Qed.
(** the checks on the ensemble axis, in terms of shapes *)
Definition axis_fits (f o : val) (z : Z) : Prop :=
  let n := length (shape_of f) in
  n <> 0 /\ (z = 0 \/ z = -1 \/ z = - Z.of_nat n \/ z = Z.of_nat n - 1)%Z /\ without (axis_at n z) (shape_of f) = shape_of o.
Lemma is_arr_shape v : is_arr v = true -> an_array v /\ arr_shape v = shape_of v.
Proof. destruct v; try discriminate. intros _. split; [do 2 eexists; reflexivity|reflexivity]. Qed.
Lemma ensemble_ok x x1 : validate_ensemble x = (Ok tt, x1) -> exists ax, x1 = put_eaxis ax x /\ an_array (a_f x) /\ an_array (a_o x) /\ is_int ax = true /\ axis_fits (a_f x) (a_o x) (int_of ax) /\ is_fun (a_collapse x) = true /\
  (a_eaxis x <> VNone -> ax = a_eaxis x) /\
  (a_eaxis x = VNone -> (without (length (shape_of (a_f x)) - 1) (shape_of (a_f x)) = shape_of (a_o x) /\ ax = VInt (-1)) \/
                        (without (length (shape_of (a_f x)) - 1) (shape_of (a_f x)) <> shape_of (a_o x) /\ ax = VInt 0)).
Proof.
  unfold validate_ensemble. destruct (is_arr (a_f x) && is_arr (a_o x)) eqn:A; [|discriminate]. apply andb_true_iff in A as [A1 A2].
  destruct (is_arr_shape _ A1) as [F1 F2], (is_arr_shape _ A2) as [O1 O2]. cbn [negb]. rewrite F2, O2 in *.
  set (g := if is_none (a_eaxis x) then _ else _).
  assert (G : forall ax, g = Ok ax -> is_int ax = true /\ (a_eaxis x <> VNone -> ax = a_eaxis x) /\
    (a_eaxis x = VNone -> (without (length (shape_of (a_f x)) - 1) (shape_of (a_f x)) = shape_of (a_o x) /\ ax = VInt (-1)) \/
                        (without (length (shape_of (a_f x)) - 1) (shape_of (a_f x)) <> shape_of (a_o x) /\ ax = VInt 0))).
  { intros ax. subst g. destruct (is_none (a_eaxis x)) eqn:En.
    - assert (Ex : a_eaxis x = VNone) by (destruct (a_eaxis x); try discriminate; reflexivity).
      unfold guess_axis. rewrite F2, O2. destruct (shape_of (a_f x)) as [|d sh] eqn:Es; [discriminate|]. rewrite <- Es, pop_last_without by (rewrite Es; discriminate).
      destruct (list_nat_eqb (without _ _) _) eqn:E1.
      + intros E. injection E as <-. apply list_nat_eqb_spec in E1. repeat split; auto. intros N. contradiction.
      + destruct (list_nat_eqb (pop_first _) _); [|discriminate]. intros E. injection E as <-. repeat split; [intros N; contradiction|]. intros _. right. split; [|reflexivity].
        intros X. apply list_nat_eqb_spec in X. congruence.
    - destruct (is_int (a_eaxis x)) eqn:Ei; [|discriminate]. intros E. injection E as <-. repeat split; auto. intros X. rewrite X in En. discriminate. }
  clearbody g. destruct g as [ax|e]; [|discriminate]. destruct (G ax eq_refl) as (Gi & G1 & G2). cbv zeta.
  remember (length (shape_of (a_f x))) as n eqn:Hn. remember (int_of ax) as z eqn:Hz.
  destruct ((z =? 0)%Z || (z =? -1)%Z || (z =? - Z.of_nat n)%Z || (z =? Z.of_nat n - 1)%Z) eqn:Z0; [|discriminate].
  assert (NE : forall (p : unit) (q : obj), (match shape_of (a_f x) with [] => Raise IndexError | fs => passert (list_nat_eqb (if (z =? 0)%Z || (z =? - Z.of_nat n)%Z then pop_first fs else pop_last fs) (shape_of (a_o x))) ;;; passert (is_fun (a_collapse x)) end, put_eaxis ax x) = (Ok p, q) ->
    shape_of (a_f x) <> [] /\ list_nat_eqb (if (z =? 0)%Z || (z =? - Z.of_nat n)%Z then pop_first (shape_of (a_f x)) else pop_last (shape_of (a_f x))) (shape_of (a_o x)) = true /\ is_fun (a_collapse x) = true /\ q = put_eaxis ax x).
  { intros p q. destruct (shape_of (a_f x)) as [|d sh]; [discriminate|]. unfold passert, bind. set (t := list_nat_eqb _ _). destruct t; [|intros E; discriminate E]. destruct (is_fun (a_collapse x)); [|intros E; discriminate E]. intros E. injection E as _ <-. repeat split; discriminate. }
  intros E. destruct (NE _ _ E) as (N & E1 & E2 & ->). clear NE E.
  exists ax. split; [reflexivity|]. split; [exact F1|]. split; [exact O1|]. split; [exact Gi|]. split; [|auto].
  apply list_nat_eqb_spec in E1. rewrite <- Hz. unfold axis_fits. rewrite <- Hn. assert (Hn0 : n <> 0) by (intros X; rewrite X in Hn; destruct (shape_of (a_f x)); [elim N; reflexivity|discriminate]).
  rewrite !orb_true_iff, !Z.eqb_eq in Z0. split; [exact Hn0|]. split; [tauto|]. rewrite <- E1. unfold axis_at.
  rewrite pop_first_without, pop_last_without, <- Hn by exact N.
  destruct (Z.eqb_spec z 0) as [Y0|N0]; cbn [orb]; [rewrite Y0; reflexivity|]. destruct (Z.eqb_spec z (- Z.of_nat n)) as [Y1|N1].
  - rewrite Y1. destruct (Z.ltb_spec (- Z.of_nat n) 0); [|lia]. f_equal. lia.
  - f_equal. destruct (Z.ltb_spec z 0); lia.
Qed.
(** After construction: the axis is the first or the last, dropping it from the forecast shape gives the observation
    shape, an axis that was given is kept, and one that was omitted is the last if that fits, else the first. *)
Theorem c59_constructed : forall x k y k1, cl x = CEnsemble -> construct x k = (Ok y, k1) ->
  a_f y = a_f x /\ a_o y = a_o x /\ an_array (a_f x) /\ an_array (a_o x) /\ is_int (a_eaxis y) = true /\
  axis_fits (a_f x) (a_o x) (int_of (a_eaxis y)) /\
  (a_eaxis x <> VNone -> a_eaxis y = a_eaxis x) /\
  (a_eaxis x = VNone -> a_eaxis y = VInt (if list_eq_dec Nat.eq_dec (without (length (shape_of (a_f x)) - 1) (shape_of (a_f x))) (shape_of (a_o x)) then -1 else 0)).
Proof.
  intros x k y k1 C. unfold M_state.construct. rewrite C. unfold M_state.validate. destruct (validate_base expanduser resolve (put_fc VNone x) k) as [[[u|e] x1] k2] eqn:B; [|discriminate].
  destruct (base_keeps _ _ _ _ _ B) as (B1 & B2 & B3 & B4 & B5 & B6). cbn in B1, B2, B3, B4, B5, B6. unfold validate_class. rewrite B1, C.
  destruct (validate_ensemble x1) as [[[]|e] x2] eqn:V; [|discriminate]. destruct (ensemble_ok _ _ V) as (ax & -> & F & O & I & Fit & _ & G1 & G2).
  destruct (lib "collapse" _) as [v|e]; [|discriminate]. intros E. injection E as <- <-. cbn [put_eaxis put_fc a_f a_o a_eaxis].
  rewrite B2, B3, B4 in *. repeat (split; [assumption || reflexivity|]). intros N. destruct (list_eq_dec _ _ _) as [D|D]; destruct (G2 N) as [[H ->]|[H ->]]; try reflexivity; contradiction.
Qed.
(** When neither axis fits, or the forecasts have no axis, construction raises. *)
Theorem c59_raises : forall x k, cl x = CEnsemble -> a_eaxis x = VNone ->
  ~ (shape_of (a_f x) <> [] /\ without (length (shape_of (a_f x)) - 1) (shape_of (a_f x)) = shape_of (a_o x)) ->
  ~ (shape_of (a_f x) <> [] /\ without 0 (shape_of (a_f x)) = shape_of (a_o x)) ->
  exists e k1, construct x k = (Raise e, k1).
Proof.
  intros x k C N H1 H0. destruct (construct x k) as [[y|e] k1] eqn:E; [|do 2 eexists; reflexivity]. exfalso.
  destruct (c59_constructed x k y k1 C E) as (_ & _ & _ & _ & _ & (Fn & Fz & Fw) & _ & G). specialize (G N).
  assert (NE : shape_of (a_f x) <> []) by (intros X; rewrite X in Fn; elim Fn; reflexivity).
  rewrite G in Fw, Fz. cbn [int_of] in Fw. destruct (list_eq_dec _ _ _) as [D|D]; [apply H1; split; assumption|]. apply H0. split; [exact NE|exact Fw].
Qed.
(** ... with a plain Exception, and for a forecast without axes with an IndexError. *)
Theorem c59_exception : forall x k x1 k1, cl x = CEnsemble -> a_eaxis x = VNone -> an_array (a_f x) -> an_array (a_o x) ->
  validate_base expanduser resolve (put_fc VNone x) k = (Ok tt, x1, k1) ->
  shape_of (a_f x) = [] \/ (without (length (shape_of (a_f x)) - 1) (shape_of (a_f x)) <> shape_of (a_o x) /\ without 0 (shape_of (a_f x)) <> shape_of (a_o x)) ->
  construct x k = (Raise (if Nat.eqb (length (shape_of (a_f x))) 0 then IndexError else PlainException), k1).
Proof.
  intros x k x1 k1 C N (fs & fd & F) (os & od & O) B H. unfold M_state.construct, M_state.validate. rewrite B.
  destruct (base_keeps _ _ _ _ _ B) as (B1 & B2 & B3 & B4 & B5 & B6). cbn in B1, B2, B3, B4, B5, B6. unfold validate_class. rewrite B1, C.
  unfold validate_ensemble, guess_axis. rewrite B2, B3, B4, N, F, O in *. cbn [is_arr andb negb is_none arr_shape shape_of] in *.
  destruct fs as [|d sh] eqn:Es; [reflexivity|]. rewrite <- Es in *. assert (NE : fs <> []) by (rewrite Es; discriminate). destruct H as [H|[H1 H0]]; [contradiction|].
  rewrite pop_last_without by exact NE. rewrite pop_first_without.
  destruct (list_nat_eqb (without (length fs - 1) fs) os) eqn:E1; [apply list_nat_eqb_spec in E1; contradiction|].
  destruct (list_nat_eqb (without 0 fs) os) eqn:E0; [apply list_nat_eqb_spec in E0; contradiction|]. rewrite Es. reflexivity.
Qed.
(** Construction succeeds when the checks that do not concern the axis do, and an axis fits. *)
Theorem c59_accepts : forall x k x1 k1 v, cl x = CEnsemble -> a_eaxis x = VNone -> an_array (a_f x) -> an_array (a_o x) -> is_fun (a_collapse x) = true ->
  validate_base expanduser resolve (put_fc VNone x) k = (Ok tt, x1, k1) ->
  shape_of (a_f x) <> [] ->
  without (length (shape_of (a_f x)) - 1) (shape_of (a_f x)) = shape_of (a_o x) \/ without 0 (shape_of (a_f x)) = shape_of (a_o x) ->
  (forall args, lib "collapse" args = Ok v) -> exists y, construct x k = (Ok y, k1).
Proof.
  intros x k x1 k1 v C N (fs & fd & F) (os & od & O) Fn B NE H L. unfold M_state.construct, M_state.validate. rewrite C, B.
  destruct (base_keeps _ _ _ _ _ B) as (B1 & B2 & B3 & B4 & B5 & B6). cbn in B1, B2, B3, B4, B5, B6. unfold validate_class. rewrite B1, C.
  unfold validate_ensemble, guess_axis. rewrite B2, B3, B4, B5, N, F, O, Fn in *. cbn [is_arr andb negb is_none arr_shape shape_of] in *.
  destruct fs as [|d sh] eqn:Es; [elim NE; reflexivity|]. rewrite <- Es in *. rewrite pop_last_without by exact NE. rewrite pop_first_without.
  destruct (list_nat_eqb (without (length fs - 1) fs) os) eqn:E1.
  - set (c := (int_of (VInt (-1)) =? 0)%Z || (int_of (VInt (-1)) =? - Z.of_nat (length fs))%Z).
    assert (E2 : list_nat_eqb (if c then without 0 fs else without (length fs - 1) fs) os = true).
    { subst c. cbn [int_of]. change (-1 =? 0)%Z with false. cbn [orb]. destruct (Z.eqb_spec (-1) (- Z.of_nat (length fs))) as [Z1|Z1]; [|exact E1]. replace (length fs - 1) with 0 in E1 by lia. exact E1. }
    rewrite E2. change (int_of (VInt (-1)) =? -1)%Z with true. rewrite orb_true_r. cbn [orb passert bind]. rewrite L. eexists. reflexivity.
  - assert (E0 : list_nat_eqb (without 0 fs) os = true). { apply list_nat_eqb_spec. destruct H as [H|H]; [apply list_nat_eqb_spec in H; congruence|exact H]. }
    rewrite E0. cbn [int_of Z.eqb orb]. rewrite E0. cbn [passert]. rewrite L. eexists. reflexivity.
Qed.

(** ** C60 *)
(** A verifier whose results are not stored, as construction leaves it. *)
Definition settled (x : obj) : Prop := cl x = CEnsemble /\ truthy (a_wd x) = false /\ is_int (a_eaxis x) = true /\ (a_avg x = VNone \/ exists l, a_avg x = VTuple l).
Lemma set_collapse s g r s1 : settled (ob s) -> step (OCollapse g) s = (Ok r, s1) -> s1 = with_ob (put_collapse g (ob s)) s.
Proof.
  intros (C & W & I & A). cbn [M_state.step]. rewrite C. unfold set_and_validate, M_state.validate.
  destruct (validate_base expanduser resolve (put_collapse g (ob s)) (dk s)) as [[[u|e] x1] k1] eqn:B; [|discriminate].
  assert (E1 : x1 = put_collapse g (ob s) /\ k1 = dk s).
  { assert (V : validate_avg (put_collapse g (ob s)) = (Ok tt, put_collapse g (ob s))).
    { unfold validate_avg. cbn [a_avg put_collapse]. destruct A as [Ea|(l & Ea)]; rewrite Ea; cbn [is_none is_int]; cbv zeta; cbn [a_avg put_collapse]; rewrite ?Ea; cbn [a_avg put_collapse]; rewrite ?Ea; reflexivity. }
    revert B. unfold validate_base. rewrite V. cbn [a_boot a_scratch put_collapse]. destruct (_ || _); [|intros B; discriminate B]. destruct (is_bool _); [|intros B; discriminate B].
    unfold validate_saving. cbn [a_wd put_collapse]. rewrite W. intros B. injection B as _ <- <-. auto. }
  destruct E1 as [-> ->]. unfold validate_class. cbn [cl put_collapse]. rewrite C. destruct (validate_ensemble _) as [[[]|e] x2] eqn:V; [|discriminate].
  destruct (ensemble_ok _ _ V) as (ax & -> & _ & _ & _ & _ & _ & G & _). cbn [a_eaxis put_collapse] in G. rewrite G by (intros X; rewrite X in I; discriminate).
  intros E. injection E as _ <-. destruct (ob s); reflexivity.
Qed.
Fixpoint leaf (p : prog) : Prop := match p with PRet _ | PRaise _ => True | PRand k => forall d, leaf (k d) | _ => False end.
Lemma leaf_lift r : leaf (lift r). Proof. destruct r; exact I. Qed.
Lemma leaf_pboot x n args : leaf (pboot lib libr x n args).
Proof. unfold pboot. destruct (is_none _); [apply leaf_lift|intros d; apply leaf_lift]. Qed.
Lemma exec_leaf n m p : leaf p -> forall s s', pos s = pos s' -> fst (exec n p s) = fst (exec m p s') /\ pos (snd (exec n p s)) = pos (snd (exec m p s')) /\
  ob (snd (exec n p s)) = ob s /\ ob (snd (exec m p s')) = ob s'.
Proof.
  induction p as [v|e|k IH|mm k IH|b k IH]; intros L s s' E; try contradiction L; [destruct n, m; cbn; auto|destruct n, m; cbn; auto|].
  destruct n, m; (cbn [M_state.exec]; unfold draw; cbn [pos]; rewrite E; refine (IH (rng (pos s')) (L _) (mkSt (ob s) (dk s) (S (pos s')) (events s)) (mkSt (ob s') (dk s') (S (pos s')) (events s')) eq_refl)).
Qed.
Definition deterministic (m : meth) : Prop := match m with MDeterm | MError | MSqErr | MAbErr | MIouD _ _ | MCorr => True | _ => False end.
(** Whatever function is set: the deterministic metrics stay what they were. *)
Theorem c60_ignored_refuted : forall s g r s1 m name, settled (ob s) -> step (OCollapse g) s = (Ok r, s1) -> deterministic m ->
  a_collapse (ob s1) = g /\ fst (metric m name s1) = fst (metric m name s).
Proof.
  intros s g r s1 m name St E D. pose proof (set_collapse _ _ _ _ St E) as ->. split; [reflexivity|]. set (s1 := with_ob _ s). destruct St as (C & W & _ & _).
  assert (P : pos s1 = pos s) by reflexivity. assert (C1 : cl (ob s1) = CEnsemble) by exact C. assert (W1 : truthy (a_wd (ob s1)) = false) by exact W.
  assert (LO : forall s0 n, truthy (a_wd (ob s0)) = false -> load loads resolve s0 n = Ok None) by (intros; apply load_off; assumption).
  assert (SO : forall s0 n v, truthy (a_wd (ob s0)) = false -> save dumps resolve s0 n v = (Ok tt, s0)) by (intros; apply save_off; assumption).
  unfold M_state.metric. rewrite C, C1.
  assert (Lf : m <> MCorr -> leaf (body (ob s) m) /\ body (ob s1) m = body (ob s) m).
  { intros N. destruct m; try contradiction D; try (elim N; reflexivity); cbn [M_state.body]; unfold determ_body, with_forecast; rewrite ?C, ?C1; (split; [apply leaf_lift|reflexivity]). }
  assert (Lp : forall v, leaf (post lib libr (ob s) m v) /\ post lib libr (ob s1) m v = post lib libr (ob s) m v).
  { intros v. destruct m; try contradiction D; cbn [post]; (split; [first [apply leaf_pboot|exact I]|reflexivity]). }
  assert (Main : forall nm, fst (match workflow_1 nm (exec depth (body (ob s1) m)) s1 with (Ok v, s2) => exec depth (post lib libr (ob s2) m v) s2 | (Raise e, s2) => (Raise e, s2) end) =
                 fst (match workflow_1 nm (exec depth (body (ob s) m)) s with (Ok v, s2) => exec depth (post lib libr (ob s2) m v) s2 | (Raise e, s2) => (Raise e, s2) end)).
  { intros nm. unfold M_state.workflow_1. destruct nm as [nm|e]; [|reflexivity]. rewrite !LO by assumption.
    assert (X : fst (exec depth (body (ob s1) m) s1) = fst (exec depth (body (ob s) m) s) /\ pos (snd (exec depth (body (ob s1) m) s1)) = pos (snd (exec depth (body (ob s) m) s)) /\
                ob (snd (exec depth (body (ob s1) m) s1)) = ob s1 /\ ob (snd (exec depth (body (ob s) m) s)) = ob s).
    { assert (Dc : m = MCorr \/ m <> MCorr) by (destruct m; try (right; discriminate); left; reflexivity). destruct Dc as [->|N].
      - cbn [M_state.body]. unfold depth. rewrite !exec_PCall. unfold M_state.workflow_1. destruct (default_name str_of MDeterm) as [nd|e]; [|repeat split; reflexivity]. rewrite !LO by assumption.
        cbn [M_state.body]. unfold determ_body. rewrite C, C1. unfold plib. change (a_fc (ob s1)) with (a_fc (ob s)). destruct (lib "copy" [a_fc (ob s)]) as [v|e]; cbn [lift M_state.exec]; [|repeat split; reflexivity].
        rewrite !SO by assumption. apply (exec_leaf 5 5 (pboot lib libr (ob s) "corr" [v; a_o (ob s); a_avg (ob s)]) (leaf_pboot _ _ _) s1 s P).
      - destruct (Lf N) as [L ->]. apply (exec_leaf depth depth (body (ob s) m) L s1 s P). }
    destruct (exec depth (body (ob s1) m) s1) as [r1 t1] eqn:X1, (exec depth (body (ob s) m) s) as [r0 t0] eqn:X0. cbn [fst snd] in X. destruct X as (Xr & Xp & Xo1 & Xo0). subst r1.
    destruct r0 as [v|e]; [|reflexivity]. rewrite !SO by (rewrite ?Xo1, ?Xo0; assumption). rewrite Xo1, Xo0. destruct (Lp v) as [L ->]. apply (exec_leaf depth depth _ L t1 t0 Xp). }
  destruct m; try contradiction D; apply Main.
Qed.
(** Right after construction they are those of the function given to the constructor.  Missing: functions set later. *)
Theorem c60_constructed_partial : forall x k y k1, cl x = CEnsemble -> construct x k = (Ok y, k1) ->
  lib "collapse" [a_collapse x; a_f x; a_eaxis y] = Ok (a_fc y) /\
  (truthy (a_wd y) = false -> forall s name, ob s = y -> a_avg y = VNone -> (exists n, to_name str_of name [] = Ok n) ->
   fst (metric MDeterm name s) = lib "copy" [a_fc y]).
Proof.
  intros x k y k1 C. unfold M_state.construct. rewrite C. unfold M_state.validate. destruct (validate_base expanduser resolve (put_fc VNone x) k) as [[[u|e] x1] k2] eqn:B; [|discriminate].
  destruct (base_keeps _ _ _ _ _ B) as (B1 & B2 & B3 & B4 & B5 & B6). cbn in B1, B2, B3, B4, B5, B6. unfold validate_class. rewrite B1, C.
  destruct (validate_ensemble x1) as [[[]|e] x2] eqn:V; [|discriminate]. destruct (ensemble_ok _ _ V) as (ax & -> & F & O & I & Fit & _ & G1 & G2).
  destruct (lib "collapse" _) as [v|e] eqn:L; [|discriminate]. intros E. injection E as <- <-. cbn [put_eaxis put_fc a_f a_o a_eaxis a_collapse a_fc] in *. rewrite B5, B2 in L. split; [exact L|].
  intros W s name Es A (n & Hn). unfold M_state.metric. rewrite Es. cbn [cl put_fc put_eaxis]. rewrite ?B1, ?C. unfold M_state.workflow_1. cbn [kwargs]. rewrite Hn.
  rewrite load_off by (rewrite Es; exact W). cbn [M_state.body]. unfold determ_body. cbn [cl put_fc put_eaxis a_fc]. rewrite B1, C. unfold plib. destruct (lib "copy" _) as [w|e]; [|reflexivity].
  cbn [lift]. unfold depth. cbn [M_state.exec]. rewrite save_off by (rewrite Es; exact W). reflexivity.
Qed.
(** A successful [set_ensemble_axis] leaves an axis that fits, whatever the verifier's axis was before. *)
Theorem c59_set_axis : forall s v r s1, cl (ob s) = CEnsemble -> step (OEAxis v) s = (Ok r, s1) ->
  a_f (ob s1) = a_f (ob s) /\ a_o (ob s1) = a_o (ob s) /\ axis_fits (a_f (ob s)) (a_o (ob s)) (int_of (a_eaxis (ob s1))) /\
  (v <> VNone -> a_eaxis (ob s1) = v) /\
  (v = VNone -> a_eaxis (ob s1) = VInt (if list_eq_dec Nat.eq_dec (without (length (shape_of (a_f (ob s))) - 1) (shape_of (a_f (ob s)))) (shape_of (a_o (ob s))) then -1 else 0)).
Proof.
  intros s v r s1 C. cbn [M_state.step]. rewrite C. unfold set_and_validate, M_state.validate.
  destruct (validate_base expanduser resolve (put_eaxis v (ob s)) (dk s)) as [[[u|e] x1] k1] eqn:B; [|discriminate].
  destruct (base_keeps _ _ _ _ _ B) as (B1 & B2 & B3 & B4 & B5 & B6). cbn in B1, B2, B3, B4, B5, B6. unfold validate_class. rewrite B1, C.
  destruct (validate_ensemble x1) as [[[]|e] x2] eqn:V; [|discriminate]. destruct (ensemble_ok _ _ V) as (ax & -> & F & O & I & Fit & _ & G1 & G2).
  intros E. injection E as _ <-. cbn [ob put_eaxis a_f a_o a_eaxis]. rewrite B2, B3, B4 in *. split; [reflexivity|]. split; [reflexivity|]. split; [exact Fit|]. split; [exact G1|].
  intros N. destruct (list_eq_dec _ _ _) as [D|D]; destruct (G2 N) as [[H ->]|[H ->]]; try reflexivity; contradiction.
Qed.
End Ens.
Print Assumptions c59_set_axis.
Print Assumptions c59_constructed.
Print Assumptions c59_raises.
Print Assumptions c59_accepts.
Print Assumptions c59_exception.
Print Assumptions c60_ignored_refuted.
Print Assumptions c60_constructed_partial.

(** ** Concrete cases *)
(** members last, members first, and forecasts of a square shape where both fit (the last axis is taken) *)
Definition w_shaped (fs os : list nat) : obj :=
  mkObj CEnsemble (VArr fs 0) (VArr os 1) VNone VNone VNone (VBool true) VNone VNone (VFun 0) VNone VNone VNone VNone VNone VNone VNone.
Example c59_nonvacuous : forall fs os z, In (fs, os, z) [([2; 3; 4], [2; 3], (-1)%Z); ([2; 3; 4], [3; 4], 0%Z); ([3; 3; 3], [3; 3], (-1)%Z); ([7], [], (-1)%Z)] ->
  exists y, w_construct (w_shaped fs os) w_root = (Ok y, w_root) /\ a_eaxis y = VInt z.
Proof. intros fs os z H. cbn in H. destruct H as [H|[H|[H|[H|[]]]]]; injection H as <- <- <-; eexists; (split; [vm_compute; reflexivity|reflexivity]). Qed.
Example c59_raises_nonvacuous : forall fs os, In (fs, os) [([2; 3; 4], [2; 4]); ([], []); ([2; 3], [2; 3])] ->
  (exists e, w_construct (w_shaped fs os) w_root = (Raise e, w_root)) /\
  ~ (fs <> [] /\ without (length fs - 1) fs = os) /\ ~ (fs <> [] /\ without 0 fs = os).
Proof.
  intros fs os H. cbn in H. destruct H as [H|[H|[H|[]]]]; injection H as <- <-; (split; [eexists; vm_compute; reflexivity|]); split; intros [N E]; try discriminate E; elim N; reflexivity.
Qed.
Example c59_exception_nonvacuous : forall fs os, In (fs, os) [([2; 3; 4], [2; 4]); ([2; 3], [2; 3])] ->
  without (length fs - 1) fs <> os /\ without 0 fs <> os /\ w_construct (w_shaped fs os) w_root = (Raise PlainException, w_root).
Proof. intros fs os H. cbn in H. destruct H as [H|[H|[]]]; injection H as <- <-; (split; [discriminate|split; [discriminate|vm_compute; reflexivity]]). Qed.
(** [set_ensemble_axis] changes the axis when both fit, and refuses one that does not. *)
Example c59_set_nonvacuous : let s := made (w_construct (w_shaped [3; 3; 3] [3; 3]) w_root) in
  a_eaxis (ob s) = VInt (-1) /\ a_eaxis (ob (snd (w_step (OEAxis (VInt 0)) s))) = VInt 0 /\ fst (w_step (OEAxis (VInt 0)) s) = Ok VNone /\
  a_eaxis (ob (snd (w_step (OEAxis (VInt 2)) s))) = VInt 2 /\ fst (w_step (OEAxis (VInt 1)) s) = Raise AssertionError.
Proof. vm_compute. repeat split. Qed.
(** C60 fails: a verifier is constructed with one function, another is set, and every deterministic metric is still that
    of the first function; a verifier constructed with the second has other values. *)
Theorem c60_collapse_refuted : exists x k y k1 g z k2 s,
  w_construct x k = (Ok y, k1) /\ settled y /\ w_construct (put_collapse g x) k = (Ok z, k2) /\
  w_step (OCollapse g) (start y k1) = (Ok VNone, s) /\ a_collapse (ob s) = g /\
  (forall m, In m [MDeterm; MError; MSqErr; MAbErr; MCorr; MIouD one VNone] ->
     fst (w_step (OMetric m None) s) = fst (w_step (OMetric m None) (start y k1)) /\
     fst (w_step (OMetric m None) s) <> fst (w_step (OMetric m None) (start z k2)) /\
     exists v, fst (w_step (OMetric m None) s) = Ok v).
Proof.
  exists (w_shaped [2; 3; 4] [2; 3]), w_root. do 2 eexists. exists (VFun 1). do 3 eexists. split; [vm_compute; reflexivity|]. split; [exact (conj eq_refl (conj eq_refl (conj eq_refl (or_introl eq_refl))))|].
  split; [vm_compute; reflexivity|]. split; [vm_compute; reflexivity|]. split; [reflexivity|].
  intros m H. cbn in H. destruct H as [<-|[<-|[<-|[<-|[<-|[<-|[]]]]]]]; (split; [vm_compute; reflexivity|split; [vm_compute; discriminate|eexists; vm_compute; reflexivity]]).
Qed.
Print Assumptions c60_collapse_refuted.
Example c60_nonvacuous : exists y k1, w_construct (w_shaped [2; 3; 4] [2; 3]) w_root = (Ok y, k1) /\ truthy (a_wd y) = false /\ a_avg y = VNone /\
  a_fc y = VTuple [VStr "collapse"; VFun 0; VArr [2; 3; 4] 0; VInt (-1)].
Proof. do 2 eexists. split; [vm_compute; reflexivity|]. repeat split. Qed.
