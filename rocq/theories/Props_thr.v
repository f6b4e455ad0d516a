(** Properties C24 (exactly one threshold) and C36 (iou_prob with a single pair). *)
From Coq Require Import String Ascii QArith Qcanon ZArith Lia List Bool.
From Verif Require Import QcTac Num NdArr Numpy M_common M_ens M_iou M_state Spec_state P_state P_state2 P_codec Props_state.
Import ListNotations.
Open Scope string_scope.
Open Scope list_scope.
Open Scope nat_scope.

(** ** Specification *)
(** What the caller wrote: exactly one threshold, or not. *)
Definition given (v : val) : Prop := v <> VNone.
Definition exactly_one (over below : val) : Prop := (given over /\ below = VNone) \/ (over = VNone /\ given below).

(** The metrics that take over and below as thresholds (iou_prob takes pairs, see below). *)
Inductive takes : meth -> val -> val -> Prop :=
| TCdf o b : takes (MCdf o b) o b
| TBrier o b : takes (MBrier o b) o b
| TDecomp o b : takes (MDecomp o b) o b
| TRoc o b : takes (MRoc o b) o b
| TSharp o b : takes (MSharp o b) o b
| TRel n o b : takes (MRel n o b) o b
| TIou o b : takes (MIouD o b) o b.

(** The library's own rule (proved of the modelled functions in [c24_functions] below):
    utils_verify.iou_determ rejects wrong combinations, and the leaf functions raise AssertionError
    only for a wrong combination of their last two arguments. *)
Definition lib_rejects (lib : string -> list val -> res val) : Prop :=
  forall f o ax over below, ~ exactly_one over below -> lib "iou_determ" [f; o; ax; over; below] = Raise AssertionError.
Definition lib_accepts (lib : string -> list val -> res val) : Prop :=
  forall n args, lib n args = Raise AssertionError ->
  exists pre over below, In n ["iou_determ"; "iou_prob"; "binarize_obs"; "ens_to_prob"] /\
    args = pre ++ [over; below] /\ ~ exactly_one over below.

Lemma last_two (l : list val) (o b : val) pre o' b' : l ++ [o; b] = pre ++ [o'; b'] -> o = o' /\ b = b'.
Proof.
  intros E. change [o; b] with ([o] ++ [b]) in E. change [o'; b'] with ([o'] ++ [b']) in E. rewrite !app_assoc in E.
  apply app_inj_tail in E as [E ->]. apply app_inj_tail in E as [_ ->]. auto.
Qed.
Lemma exactly_one_xor o b : exactly_one o b <-> xorb (is_none o) (is_none b) = true.
Proof.
  unfold exactly_one, given. destruct o, b; cbn; split; intros H; try discriminate; try reflexivity;
    try (destruct H as [[H1 H2]|[H1 H2]]; congruence);
    try (left; split; [discriminate|reflexivity]); (right; split; [reflexivity|discriminate]).
Qed.
Lemma not_exactly_one_xor o b : ~ exactly_one o b -> xorb (is_none o) (is_none b) = false.
Proof. rewrite exactly_one_xor. destruct xorb; [intros H; elim H; reflexivity|reflexivity]. Qed.

(** The functions themselves, as modelled in M_ens.v and M_iou.v. *)
Definition one_of {A B} (over : option A) (below : option B) : Prop :=
  (over <> None /\ below = None) \/ (over = None /\ below <> None).
Lemma one_of_dec {A B} (over : option A) (below : option B) : one_threshold over below = Ok tt \/ one_threshold over below = Raise AssertionError.
Proof. destruct over, below; cbn; auto. Qed.
Lemma one_of_ok {A B} (over : option A) (below : option B) : one_threshold over below = Ok tt <-> one_of over below.
Proof.
  unfold one_of. destruct over, below; cbn; split; intros H; try discriminate; try reflexivity;
    try (destruct H as [[H1 H2]|[H1 H2]]; congruence).
  - left; split; [discriminate|reflexivity].
  - right; split; [reflexivity|discriminate].
Qed.
Lemma not_one_of {A B} (over : option A) (below : option B) : ~ one_of over below -> one_threshold over below = Raise AssertionError.
Proof. rewrite <- one_of_ok. destruct (one_of_dec over below) as [->| ->]; [intros H; elim H; reflexivity|reflexivity]. Qed.

Section C24.
Variable lib : string -> list val -> res val.
Variable libr : string -> list val -> nat -> res val.
Variable str_of : val -> string.
Variable dumps : val -> string.
Variable loads : string -> res val.
Variable expanduser : string -> string.
Variable resolve : string -> path.
Variable points : val -> val -> val -> res (list num).
Variable less_memory : bool.
Variable integrate_wdir : option path.
Variable cwd : path.
Variable rng : nat -> nat.

Notation default_name := (default_name str_of).
Notation to_name := (to_name str_of).
Notation load := (load loads resolve).
Notation body := (body lib libr points less_memory).
Notation exec := (exec lib libr str_of dumps loads resolve points less_memory integrate_wdir cwd rng).
Notation workflow_1 := (workflow_1 dumps loads resolve).
Notation metric := (metric lib libr str_of dumps loads resolve points less_memory integrate_wdir cwd rng).
Notation step := (step lib libr str_of dumps loads expanduser resolve points less_memory integrate_wdir cwd rng).

(** No result is stored under the name (nor is the name unusable, C04). *)
Definition unsaved (s : st) (name : res (option string)) : Prop := exists n, name = Ok n /\ load s n = Ok None.

Lemma workflow_unsaved name run s e : unsaved s name -> fst (run s) = Raise e -> fst (workflow_1 name run s) = Raise e.
Proof.
  intros (n & -> & L) H. unfold M_state.workflow_1. rewrite L. destruct (run s) as [[v|e'] s1]; [discriminate H|exact H].
Qed.
Lemma metric_raise m save_name s e : cl (ob s) <> CDeterm \/ (match m with MEns | MPit => False | _ => True end) ->
  unsaved s (to_name save_name (kwargs m)) -> (match m with MEns | MPit => False | _ => True end) ->
  fst (exec depth (body (ob s) m) s) = Raise e -> fst (metric m save_name s) = Raise e.
Proof.
  intros _ U N H. pose proof (workflow_unsaved _ (exec depth (body (ob s) m)) s e U H) as W.
  unfold M_state.metric. destruct m; try (elim N); destruct (workflow_1 _ _ s) as [[v|e'] s1]; try discriminate W; exact W.
Qed.
Lemma exec_PCall n m k s : exec (S n) (PCall m k) s = match workflow_1 (default_name m) (exec n (body (ob s) m)) s with
  | (Ok v, s1) => exec (S n) (k v) s1 | (Raise e, s1) => (Raise e, s1) end.
Proof. reflexivity. Qed.
Lemma exec_call n m k s e : unsaved s (default_name m) -> fst (exec n (body (ob s) m) s) = Raise e ->
  fst (exec (S n) (PCall m k) s) = Raise e.
Proof.
  intros U H. pose proof (workflow_unsaved _ (exec n (body (ob s) m)) s e U H) as W.
  cbn [M_state.exec]. destruct (workflow_1 _ _ s) as [[v|e'] s1]; [discriminate W|exact W].
Qed.
Lemma exec_call_ok n m k s v s1 : exec (S n) (PCall m PRet) s = (Ok v, s1) -> exec (S n) (PCall m k) s = exec (S n) (k v) s1.
Proof.
  intros H. cbn [M_state.exec] in H |- *. destruct (workflow_1 _ _ s) as [[w|e'] s2]; [|discriminate H].
  injection H as -> ->. reflexivity.
Qed.
Lemma cdf_rejects n o b s : cl (ob s) <> CDeterm -> ~ exactly_one o b ->
  fst (exec n (body (ob s) (MCdf o b)) s) = Raise AssertionError.
Proof.
  intros C H. cbn [M_state.body]. unfold cdf_body. rewrite (not_exactly_one_xor _ _ H).
  destruct (cl (ob s)); [elim C; reflexivity|..]; destruct n; reflexivity.
Qed.

(** ** C24: rejection *)
(** With neither or both thresholds every threshold metric of every probabilistic or ensemble verifier raises
    AssertionError, under any save name, unless a result is already stored under that name or (when the
    metric first asks for the probabilities) under that of the probabilities. *)
Theorem c24_rejects : forall m over below save_name s, takes m over below ->
  cl (ob s) <> CDeterm -> (forall o b, m <> MIouD o b) -> ~ exactly_one over below ->
  unsaved s (to_name save_name (kwargs m)) -> unsaved s (default_name (MCdf over below)) ->
  fst (metric m save_name s) = Raise AssertionError.
Proof.
  intros m over below save_name s T C NI H U1 U2.
  apply metric_raise; [left; exact C|exact U1|inversion T; exact I|].
  pose proof (fun n => cdf_rejects n over below s C H) as R. unfold depth.
  inversion T; subst; try (elim (NI over below); reflexivity); [apply R|..];
    cbn [M_state.body]; unfold with_prob; destruct (cl (ob s)) eqn:Ec; try (elim C; reflexivity);
    apply exec_call; auto.
Qed.
(** iou_determ: also for deterministic verifiers; for the parametric ones once the deterministic forecast
    has been obtained. *)
Theorem c24_iou_determ_rejects : forall over below save_name s, lib_rejects lib -> ~ exactly_one over below ->
  unsaved s (to_name save_name (kwargs (MIouD over below))) ->
  (is_prob (cl (ob s)) = true -> exists f s1, exec depth (PCall MDeterm PRet) s = (Ok f, s1)) ->
  fst (metric (MIouD over below) save_name s) = Raise AssertionError.
Proof.
  intros over below save_name s L H U1 F. apply metric_raise; [right; exact I|exact U1|exact I|].
  unfold depth in *. cbn [M_state.body]. unfold with_forecast, plib.
  destruct (cl (ob s)) eqn:Ec; [rewrite L by exact H; reflexivity | rewrite L by exact H; reflexivity |..];
  (destruct (F eq_refl) as (f & s1 & E); rewrite (exec_call_ok _ _ _ _ _ _ E); rewrite L by exact H; reflexivity).
Qed.
(** iou_prob takes pairs (threshold, probability); the thresholds are their first elements. *)
Theorem c24_iou_prob_rejects : forall over below save_name s t p u q,
  cl (ob s) <> CDeterm -> over = VTuple [t; p] -> below = VTuple [u; q] -> ~ exactly_one t u ->
  unsaved s (to_name save_name (kwargs (MIouP over below))) -> unsaved s (default_name (MCdf t u)) ->
  fst (metric (MIouP over below) save_name s) = Raise AssertionError.
Proof.
  intros over below save_name s t p u q C -> -> H U1 U2. apply metric_raise; [right; exact I|exact U1|exact I|].
  unfold depth. cbn [M_state.body is_seq items length Nat.eqb orb pif nth_item nth_error].
  destruct (cl (ob s)) eqn:Ec; try (elim C; reflexivity); unfold with_prob; apply exec_call; auto; apply cdf_rejects; congruence.
Qed.

(** ** C24: acceptance *)
Section Accept.
Hypothesis lib_ok : lib_accepts lib.
Hypothesis libr_ok : forall n args d, libr n args d <> Raise AssertionError.
Hypothesis loads_ok : forall b, loads b <> Raise AssertionError.
Hypothesis points_ok : forall a b c, points a b c <> Raise AssertionError.

Lemma lib_noassert n args : (forall pre o b, args = pre ++ [o; b] -> In n ["iou_determ"; "iou_prob"; "binarize_obs"; "ens_to_prob"] -> exactly_one o b) ->
  lib n args <> Raise AssertionError.
Proof. intros H E. destruct (lib_ok _ _ E) as (pre & o & b & I & A & N). exact (N (H _ _ _ A I)). Qed.

Fixpoint safe (x : obj) (n : nat) : prog -> Prop :=
  fix go (p : prog) : Prop :=
    match p with
    | PRet _ => True
    | PRaise e => e <> AssertionError
    | PRand k => forall d, go (k d)
    | PMem _ k => go k
    | PCall m k => match n with 0 => True | S n' => safe x n' (body x m) end /\ forall v, go (k v)
    end.
Lemma safe_bind x n p f : safe x n p -> (forall v, safe x n (f v)) -> safe x n (pbind p f).
Proof.
  intros Hp Hf. induction p; cbn [pbind].
  - apply Hf.
  - exact Hp.
  - destruct n; intro d; apply H, Hp.
  - destruct n; destruct Hp as [H1 H2]; (split; [exact H1|intro w; apply H, H2]).
  - destruct n; apply IHp, Hp.
Qed.
Lemma safe_lift x n r : r <> Raise AssertionError -> safe x n (lift r).
Proof. intros H. destruct r as [v|e]; destruct n; cbn; auto; intros ->; exact (H eq_refl). Qed.
Lemma safe_plib x n nm args : (forall pre o b, args = pre ++ [o; b] -> In nm ["iou_determ"; "iou_prob"; "binarize_obs"; "ens_to_prob"] -> exactly_one o b) ->
  safe x n (plib lib nm args).
Proof. intros H. apply safe_lift, lib_noassert, H. Qed.
Lemma safe_other x n nm args : existsb (String.eqb nm) ["iou_determ"; "iou_prob"; "binarize_obs"; "ens_to_prob"] = false -> safe x n (plib lib nm args).
Proof.
  intros H. apply safe_plib. intros pre o b _ I. exfalso. assert (E : existsb (String.eqb nm) ["iou_determ"; "iou_prob"; "binarize_obs"; "ens_to_prob"] = true).
  { apply existsb_exists. exists nm. split; [exact I|apply String.eqb_refl]. }
  rewrite E in H. discriminate.
Qed.
Lemma safe_prand x n nm args : safe x n (prand libr nm args).
Proof.
  unfold prand.
  assert (G : forall d, safe x n (lift (libr nm args d))) by (intro; apply safe_lift, libr_ok).
  destruct n; cbn [safe]; exact G.
Qed.
Lemma safe_pboot y x n nm args : existsb (String.eqb nm) ["iou_determ"; "iou_prob"; "binarize_obs"; "ens_to_prob"] = false -> safe x n (pboot lib libr y nm args).
Proof. intros H. unfold pboot. destruct (is_none _); [apply safe_other, H|apply safe_prand]. Qed.
Lemma safe_getf x n y k f : (forall v, safe x n (f v)) -> safe x n (getf y k f).
Proof. intros H. unfold getf. destruct field; [apply H|]. destruct n; cbn; discriminate. Qed.
Lemma safe_call x n m k : match n with 0 => True | S n' => safe x n' (body x m) end -> (forall v, safe x n (k v)) -> safe x n (PCall m k).
Proof. intros H1 H2. destruct n; cbn [safe]; split; auto. Qed.
Lemma safe_raise x n e : e <> AssertionError -> safe x n (PRaise e).
Proof. intros H. destruct n; cbn; exact H. Qed.
Lemma safe_cdf x n o b : exactly_one o b -> safe x n (cdf_body lib x o b).
Proof.
  revert o b. induction n as [|n IH]; intros o b H.
  - unfold cdf_body. rewrite (proj1 (exactly_one_xor _ _) H). cbn [pif].
    assert (G : safe x 0 (cdf_below lib x o b)).
    { unfold cdf_below. destruct (cl x); repeat (apply safe_getf; intro); try (apply safe_other; reflexivity); [apply safe_raise; discriminate|].
      apply safe_plib. intros pre o' b' E _. destruct (last_two [a_f x; a_eaxis x] o b pre o' b' E) as [<- <-]. exact H. }
    destruct (cl x) eqn:Ec; [apply safe_raise; discriminate|..]; (destruct (is_none b); [apply safe_call; [exact I|intro; apply safe_other; reflexivity]|exact G]).
  - unfold cdf_body. rewrite (proj1 (exactly_one_xor _ _) H). cbn [pif].
    assert (G : safe x (S n) (cdf_below lib x o b)).
    { unfold cdf_below. destruct (cl x); repeat (apply safe_getf; intro); try (apply safe_other; reflexivity); [apply safe_raise; discriminate|].
      apply safe_plib. intros pre o' b' E _. destruct (last_two [a_f x; a_eaxis x] o b pre o' b' E) as [<- <-]. exact H. }
    assert (K : is_none b = true -> safe x n (cdf_body lib x VNone o)).
    { intros B. apply IH. destruct H as [[H1 H2]|[H1 H2]]; [right; auto|]. destruct b; try discriminate. elim H2. reflexivity. }
    destruct (cl x) eqn:Ec; [apply safe_raise; discriminate|..];
      (destruct (is_none b) eqn:Eb; [apply safe_call; [exact (K eq_refl)|intro; apply safe_other; reflexivity]|exact G]).
Qed.
Lemma safe_pcalls x n ms acc k : (forall m, In m ms -> match n with 0 => True | S n' => safe x n' (body x m) end) ->
  (forall vs, safe x n (k vs)) -> safe x n (pcalls ms acc k).
Proof.
  revert acc. induction ms as [|m ms IH]; intros acc Hm Hk; cbn [pcalls]; [apply Hk|].
  apply safe_call; [apply Hm; left; reflexivity|]. intro v. apply IH; [intros; apply Hm; right; assumption|exact Hk].
Qed.
Lemma safe_determ x n : safe x n (determ_body lib points less_memory x).
Proof.
  unfold determ_body. destruct (cl x); try (apply safe_other; reflexivity); try (apply safe_getf; intro; apply safe_other; reflexivity).
  unfold integrate. destruct (points _ _ _) as [xs|e] eqn:Ep.
  - assert (G : forall k, (forall v, safe x n (k v)) -> safe x n (pcalls (map (fun q => MCdf VNone (VFloat q)) xs) [] (fun vs => pbind (plib lib "integrate_mean"
        [VTuple (map VFloat xs); VTuple vs; a_o x; a_bins x]) k))).
    { intros k Hk. apply safe_pcalls; [|intro; apply safe_bind; [apply safe_other; reflexivity|exact Hk]].
      intros m Hm. apply in_map_iff in Hm as (q & <- & _). destruct n; [exact I|]. cbn [M_state.body]. apply safe_cdf. right. split; [reflexivity|discriminate]. }
    destruct less_memory.
    + assert (G' := G (fun v => PMem false (PRet v))). destruct n; cbn [safe]; apply G'; intro; exact I.
    + apply G. intro. destruct n; exact I.
  - apply safe_raise. intros ->. exact (points_ok _ _ _ Ep).
Qed.
Lemma safe_prob x n o b k : exactly_one o b -> (forall f v, safe x n (k f v)) -> safe x n (with_prob lib x o b k).
Proof.
  intros H Hk. unfold with_prob. apply safe_call; [destruct n; [exact I|apply safe_cdf, H]|]. intro f.
  apply safe_bind; [|intro; apply Hk]. apply safe_plib. intros pre o' b' E _. destruct (last_two [a_o x] o b pre o' b' E) as [<- <-]. exact H.
Qed.
Lemma load_noassert s n : load s n <> Raise AssertionError.
Proof.
  unfold M_state.load, save_path. destruct n as [n|]; cbn; [|discriminate].
  destruct (truthy _); cbn; [|discriminate]. destruct (a_wd (ob s)); cbn; try discriminate.
  destruct (isdir _ _); [discriminate|]. destruct (file _ _) as [b|]; [|discriminate].
  destruct (loads b) as [v|e] eqn:E; cbn; [discriminate|]. intros [= ->]. exact (loads_ok _ E).
Qed.
Lemma save_noassert s n v : fst (save dumps resolve s n v) <> Raise AssertionError.
Proof.
  unfold save, save_path. destruct n as [n|]; cbn; [|discriminate].
  destruct (truthy _); cbn; [|discriminate]. destruct (a_wd (ob s)); cbn; try discriminate.
  destruct (isdir _ _); [discriminate|]. destruct (isdir _ _); discriminate.
Qed.
Lemma save_ob s n v : ob (snd (save dumps resolve s n v)) = ob s.
Proof.
  unfold save. destruct (save_path _ _ _) as [[p|]|]; try reflexivity.
  destruct (isdir _ _); [reflexivity|]. destruct (isdir _ _); reflexivity.
Qed.
Lemma name_noassert v kw : to_name v kw <> Raise AssertionError.
Proof.
  unfold M_state.to_name. destruct v; try discriminate. destruct (String.prefix _ _); [discriminate|].
  assert (G : render_args str_of kw <> Raise AssertionError).
  { induction kw as [|[k w] kw IH]; cbn [render_args]; [discriminate|].
    destruct (short_enough w) as [b|e] eqn:E; cbn [bind].
    - destruct b; [|discriminate]. destruct (render_args _ kw) as [r|e] eqn:R; cbn; [discriminate|]. intros [= ->]. apply IH. reflexivity.
    - intros [= ->]. destruct w; try discriminate E; cbn [short_enough] in E; destruct (Nat.ltb _ _); try discriminate E; destruct sh; discriminate E. }
  destruct (render_args str_of kw) as [r|e]; cbn; [discriminate|]. intros [= ->]. apply G. reflexivity.
Qed.
(** Running keeps the object and, on a safe program, never raises AssertionError. *)
Lemma exec_safe x n p s : ob s = x -> safe x n p -> fst (exec n p s) <> Raise AssertionError /\ ob (snd (exec n p s)) = x.
Proof.
  revert p s. induction n as [|n IHn]; intros p; induction p; intros s Hs Hp.
  - split; [discriminate|exact Hs].
  - split; [intros E; apply Hp; destruct e; try discriminate E; reflexivity|exact Hs].
  - apply (H (rng (pos s)) (mkSt (ob s) (dk s) (S (pos s)) (events s))); [exact Hs|apply Hp].
  - split; [discriminate|exact Hs].
  - destruct b; cbn [M_state.exec].
    * destruct (negb (mem_text integrate_wdir (ob s))); [split; [discriminate|exact Hs]|]. destruct (isdir _ _); [apply IHp; auto|split; [discriminate|exact Hs]].
    * destruct (file _ _); [apply IHp; auto|split; [discriminate|exact Hs]].
  - split; [discriminate|exact Hs].
  - split; [intros E; apply Hp; destruct e; try discriminate E; reflexivity|exact Hs].
  - apply (H (rng (pos s)) (mkSt (ob s) (dk s) (S (pos s)) (events s))); [exact Hs|apply Hp].
  - cbn [M_state.exec safe] in *. destruct Hp as [Hm Hk].
    unfold M_state.workflow_1. destruct (default_name m) as [nm|e] eqn:En.
    2:{ split; [intros [= ->]; exact (name_noassert _ _ En)|exact Hs]. }
    pose proof (load_noassert s nm) as Hl. destruct (load s nm) as [[v|]|e] eqn:El.
    + apply H; [exact Hs|apply Hk].
    + destruct (IHn (body (ob s) m) s Hs) as [R1 R2]; [rewrite Hs; exact Hm|].
      destruct (exec n (body (ob s) m) s) as [[v|e] s1]; cbn [fst snd] in R1, R2.
      * pose proof (save_noassert s1 nm v) as S1. pose proof (save_ob s1 nm v) as S2.
        destruct (save _ _ s1 nm v) as [[u|e] s2]; cbn [fst snd] in S1, S2.
        -- apply H; [congruence|apply Hk].
        -- split; [cbn; intros [= ->]; exact (S1 eq_refl)|cbn; congruence].
      * split; [cbn; intros [= ->]; exact (R1 eq_refl)|exact R2].
    + split; [cbn; intros [= ->]; exact (Hl eq_refl)|exact Hs].
  - destruct b; cbn [M_state.exec].
    * destruct (negb (mem_text integrate_wdir (ob s))); [split; [discriminate|exact Hs]|]. destruct (isdir _ _); [apply IHp; auto|split; [discriminate|exact Hs]].
    * destruct (file _ _); [apply IHp; auto|split; [discriminate|exact Hs]].
Qed.
Lemma safe_post y x n m v : safe x n (post lib libr y m v).
Proof. destruct m; cbn [post]; try (apply safe_pboot; reflexivity); destruct n; exact I. Qed.
Lemma metric_safe m save_name s : safe (ob s) depth (body (ob s) m) -> fst (metric m save_name s) <> Raise AssertionError.
Proof.
  intros H. assert (G : fst (match workflow_1 (to_name save_name (kwargs m)) (exec depth (body (ob s) m)) s with
      | (Ok v, s1) => exec depth (post lib libr (ob s1) m v) s1
      | (Raise e, s1) => (Raise e, s1) end) <> Raise AssertionError).
  { unfold M_state.workflow_1. destruct (to_name save_name (kwargs m)) as [nm|e] eqn:En.
    2:{ cbn. intros [= ->]. exact (name_noassert _ _ En). }
    assert (P : forall s2 v, fst (exec depth (post lib libr (ob s2) m v) s2) <> Raise AssertionError) by (intros s2 v; apply (exec_safe (ob s2)); [reflexivity|apply safe_post]).
    pose proof (load_noassert s nm) as Hl. destruct (load s nm) as [[v|]|e]; [apply P| |cbn; intros [= ->]; exact (Hl eq_refl)].
    destruct (exec_safe (ob s) depth (body (ob s) m) s eq_refl H) as [R1 R2].
    destruct (exec depth (body (ob s) m) s) as [[v|e] s1]; cbn [fst snd] in R1, R2; [|cbn; intros [= ->]; exact (R1 eq_refl)].
    pose proof (save_noassert s1 nm v) as S1.
    destruct (save _ _ s1 nm v) as [[u|e] s2]; cbn [fst snd] in S1; [apply P|cbn; intros [= ->]; exact (S1 eq_refl)]. }
  unfold M_state.metric. destruct m; try exact G; destruct (cl (ob s)); try exact G; discriminate.
Qed.

(** With exactly one threshold no threshold metric of any verifier ever raises AssertionError, whatever is
    stored on disk and under whatever save name. *)
Theorem c24_accepts : forall m over below save_name s, takes m over below -> exactly_one over below ->
  fst (metric m save_name s) <> Raise AssertionError.
Proof.
  intros m over below save_name s T H. apply metric_safe. unfold depth.
  assert (P : forall k, (forall f v, safe (ob s) 5 (k f v)) -> safe (ob s) 5 match cl (ob s) with CDeterm => PRaise NotImplementedError | _ => with_prob lib (ob s) over below k end).
  { intros k Hk. destruct (cl (ob s)); first [apply safe_raise; discriminate|apply safe_prob; assumption]. }
  inversion T; subst; cbn [M_state.body].
  - apply safe_cdf, H.
  - apply P. intros f v. apply safe_other. reflexivity.
  - apply P. intros f v. apply safe_pboot. reflexivity.
  - apply P. intros f v. apply safe_other. reflexivity.
  - assert (Q : safe (ob s) 5 (PCall (MCdf over below) PRet)) by (apply safe_call; [apply (safe_cdf (ob s) 4), H|intro; exact I]).
    destruct (cl (ob s)); first [apply safe_raise; discriminate|exact Q].
  - apply P. intros f v. apply safe_other. reflexivity.
  -
  assert (G : forall f n, safe (ob s) n (plib lib "iou_determ" [f; a_o (ob s); a_avg (ob s); over; below])).
  { intros f n. apply safe_plib. intros pre o' b' E _. destruct (last_two [f; a_o (ob s); a_avg (ob s)] over below pre o' b' E) as [<- <-]. exact H. }
  unfold with_forecast. destruct (cl (ob s)); try apply G; apply safe_call; try (intro; apply G); cbn [M_state.body]; apply safe_determ.
Qed.
(** The same for iou_prob, the other pair being (None, None). *)
Theorem c24_iou_prob_accepts : forall over below save_name s t p u q, over = VTuple [t; p] -> below = VTuple [u; q] ->
  exactly_one t u -> exactly_one p q -> fst (metric (MIouP over below) save_name s) <> Raise AssertionError.
Proof.
  intros over below save_name s t p u q -> -> H1 H2. apply metric_safe. unfold depth.
  cbn [M_state.body is_seq items length Nat.eqb orb pif nth_item nth_error].
  destruct (cl (ob s)); try (apply safe_raise; discriminate); (apply safe_prob; [exact H1|]; intros f v; apply safe_plib; intros pre o' b' E _; destruct (last_two [f; v; a_avg (ob s)] p q pre o' b' E) as [<- <-]; exact H2).
Qed.
End Accept.

(** ** C36 *)
(** Every ensemble or parametric verifier rejects a single pair: with the other argument left at its default,
    iou_prob raises AssertionError, under any save name under which nothing is stored. *)
Theorem c36_single_pair_refuted : forall t p save_name s, cl (ob s) <> CDeterm ->
  (unsaved s (to_name save_name (kwargs (MIouP (VTuple [t; p]) VNone))) ->
     fst (metric (MIouP (VTuple [t; p]) VNone) save_name s) = Raise AssertionError) /\
  (unsaved s (to_name save_name (kwargs (MIouP VNone (VTuple [t; p])))) ->
     fst (metric (MIouP VNone (VTuple [t; p])) save_name s) = Raise AssertionError).
Proof.
  intros t p save_name s C. split; intros U; (apply metric_raise; [right; exact I|exact U|exact I|]);
    unfold depth; cbn [M_state.body is_seq pif]; destruct (cl (ob s)); try (elim C; reflexivity); reflexivity.
Qed.
Lemma load_off s m : truthy (a_wd (ob s)) = false -> load s m = Ok None.
Proof. intros E. unfold M_state.load, save_path. destruct m; [rewrite E|]; reflexivity. Qed.
Lemma save_off s m v : truthy (a_wd (ob s)) = false -> save dumps resolve s m v = (Ok tt, s).
Proof. intros E. unfold save, save_path. destruct m; [rewrite E|]; reflexivity. Qed.
Lemma cdf_below_off s o b : exists r, forall k, exec k (cdf_below lib (ob s) o b) s = (r, s).
Proof.
  unfold cdf_below, getf, plib. destruct (cl (ob s));
    repeat match goal with |- context [field ?a ?b] => destruct (field a b); cbv beta end;
    try (match goal with |- context [lift ?r] => destruct r as [vv|ee]; [exists (Ok vv)|exists (Raise ee)]; intros [|k]; reflexivity end);
    eexists; intros [|k]; reflexivity.
Qed.
Lemma cdf_off s o b : truthy (a_wd (ob s)) = false -> exists r, forall k, exec (S k) (cdf_body lib (ob s) o b) s = (r, s).
Proof.
  intros W. unfold cdf_body at 1. destruct (cl (ob s)) eqn:Ec; [eexists; reflexivity|..].
  all: destruct (xorb (is_none o) (is_none b)) eqn:X; cbn [pif]; [|eexists; reflexivity].
  all: destruct (is_none b) eqn:Eb; [|destruct (cdf_below_off s o b) as [r Hr]; exists r; intros k; apply Hr].
  all: destruct (cdf_below_off s VNone o) as [r Hr].
  all: assert (G : forall k, exec (S k) (PCall (MCdf VNone o) (fun v => plib lib "one_minus" [v])) s =
      match default_name (MCdf VNone o) with Raise e => (Raise e, s) | Ok _ => match r with Raise e => (Raise e, s) | Ok v => (lib "one_minus" [v], s) end end).
  1,3,5,7: (intros k; cbn [M_state.exec]; unfold M_state.workflow_1; destruct (default_name _) as [nm|]; [|reflexivity];
     rewrite (load_off s nm W); cbn [M_state.body]; unfold cdf_body; rewrite Ec; cbn [is_none]; destruct (is_none o) eqn:Eo; [discriminate X|]; cbn [xorb pif];
     rewrite Hr; destruct r as [v|]; [|reflexivity]; rewrite (save_off s nm v W); unfold plib; destruct (lib _ _); reflexivity).
  all: destruct (default_name _); [destruct r as [v|e]|]; eexists; exact G.
Qed.
(** What does work is to write the other pair out as (None, None) (or any other pair whose elements are given
    exactly where those of the first are not): without saving the value is that of
    utils_verify.iou_prob on the probabilities and the binary observations of the same verifier. *)
Theorem c36_explicit_pair_partial : forall t p u q save_name s f s1 o, cl (ob s) <> CDeterm ->
  truthy (a_wd (ob s)) = false -> (exists n, to_name save_name (kwargs (MIouP (VTuple [t; p]) (VTuple [u; q]))) = Ok n) ->
  metric (MCdf t u) (VStr "cdf") s = (Ok f, s1) -> lib "binarize_obs" [a_o (ob s); t; u] = Ok o ->
  fst (metric (MIouP (VTuple [t; p]) (VTuple [u; q])) save_name s) = lib "iou_prob" [f; o; a_avg (ob s); p; q].
Proof.
  intros t p u q save_name s f s1 o C W (n & N) F B. unfold M_state.metric, M_state.workflow_1 in *. cbn [post] in *.
  destruct (cdf_off s t u W) as [r Hr].
  destruct (to_name (VStr "cdf") (kwargs (MCdf t u))) as [nc|] eqn:Nc; [|discriminate F].
  rewrite (load_off s nc W) in F. cbn [M_state.body] in F. unfold depth in *. rewrite Hr in F.
  destruct r as [v|]; [|discriminate F]. rewrite (save_off s nc v W) in F. injection F as -> <-.
  rewrite N, (load_off s n W). cbn [M_state.body is_seq items length Nat.eqb orb pif nth_item nth_error].
  assert (G : exec 5 (with_prob lib (ob s) t u (fun f0 o0 => plib lib "iou_prob" [f0; o0; a_avg (ob s); p; q])) s = (lib "iou_prob" [f; o; a_avg (ob s); p; q], s)).
  { unfold with_prob. rewrite (exec_call_ok _ _ _ _ f s).
    - unfold plib. rewrite B. cbn [lift pbind]. destruct (lib "iou_prob" _); reflexivity.
    - rewrite exec_PCall. unfold M_state.workflow_1, M_state.default_name. cbn [default_save]. rewrite Nc, (load_off s nc W). cbn [M_state.body].
      rewrite Hr, (save_off s nc f W). reflexivity. }
  destruct (cl (ob s)) eqn:Ec; [elim C; reflexivity|..]; rewrite G; (destruct (lib "iou_prob" _) as [v|]; [rewrite (save_off s n v W); reflexivity|reflexivity]).
Qed.

End C24.

Print Assumptions c24_rejects.
Print Assumptions c24_iou_determ_rejects.
Print Assumptions c24_iou_prob_rejects.
Print Assumptions c24_accepts.
Print Assumptions c24_iou_prob_accepts.
Print Assumptions c36_single_pair_refuted.
Print Assumptions c36_explicit_pair_partial.

(** The modelled library functions themselves: wrong combinations raise AssertionError ... *)
Theorem c24_functions_reject : forall over below, ~ one_of over below ->
  (forall m w f ax, ens_to_prob m w f ax over below = Raise AssertionError) /\
  (forall m w f ax, ens_cdf m w f ax over below = Raise AssertionError) /\
  (forall o, binarize_obs o over below = Raise AssertionError).
Proof.
  intros over below H. apply not_one_of in H.
  split; [|split]; intros; unfold ens_to_prob, ens_cdf, binarize_obs; rewrite H; reflexivity.
Qed.
Print Assumptions c24_functions_reject.
Theorem c24_iou_functions_reject : forall over below, ~ one_of over below ->
  (forall f o ax, iou_determ f o ax over below = Raise AssertionError) /\
  (forall f o ax, iou_prob f o ax over below = Raise AssertionError).
Proof.
  intros over below H. apply not_one_of in H.
  split; intros; unfold iou_determ, iou_prob; rewrite H; destruct (list_eqb _ _); reflexivity.
Qed.
Print Assumptions c24_iou_functions_reject.
(** ... and right ones do not, as long as the other assertions of the function hold: equal shapes, and a
    probability threshold in [0, 1]. *)
Theorem c24_functions_accept : forall over below, one_of over below ->
  forall o, binarize_obs o over below <> Raise AssertionError.
Proof.
  intros over below H o. apply one_of_ok in H. unfold binarize_obs. rewrite H. cbn [bind].
  destruct over as [[a|a|]|]; try discriminate; try (destruct (list_eqb _ _); discriminate).
  destruct below as [[a|a|]|]; try discriminate; destruct (list_eqb _ _); discriminate.
Qed.
Print Assumptions c24_functions_accept.
Lemma iou_noassert f o ax : iou f o ax <> Raise AssertionError.
Proof.
  unfold iou. destruct ax as [l|]; [|destruct (Nat.eqb _ _); discriminate].
  destruct (np_axes _ _) as [m|e] eqn:E; cbn [bind]; [discriminate|]. intros [= ->].
  unfold np_axes in E. destruct (mapM _ l) as [ns|e] eqn:M; cbn [bind] in E; [destruct (nodupb ns); discriminate E|].
  injection E as ->. revert M. induction l as [|z l IH]; cbn [mapM]; [discriminate|].
  unfold norm_axis at 1. destruct (_ || _)%bool; cbn [bind]; [discriminate|].
  destruct (mapM _ l) as [r|e]; cbn [bind]; [discriminate|]. intros [= ->]. apply IH. reflexivity.
Qed.
Theorem c24_iou_functions_accept : forall over below, one_of over below ->
  (forall f o ax, shape f = shape o -> iou_determ f o ax over below <> Raise AssertionError) /\
  (forall f o ax, shape f = shape o ->
     (forall p, over = Some p \/ below = Some p -> nle (Fin 0) p = true /\ nle p (Fin 1%Qc) = true) ->
     iou_prob f o ax over below <> Raise AssertionError).
Proof.
  intros over below H. apply one_of_ok in H. split; intros f o ax Sh.
  - unfold iou_determ. rewrite Sh, list_eqb_refl, H. cbn [passert bind]. destruct over, below; try discriminate H; apply iou_noassert.
  - intros P. unfold iou_prob. rewrite Sh, list_eqb_refl, H. cbn [passert bind].
    destruct over as [p|], below as [p'|]; try discriminate H.
    + destruct (P p (or_introl eq_refl)) as [P1 P2]. unfold unit_prob. rewrite P1, P2. apply iou_noassert.
    + destruct (P p' (or_intror eq_refl)) as [P1 P2]. unfold unit_prob. rewrite P1, P2. apply iou_noassert.
Qed.
Print Assumptions c24_iou_functions_accept.

(** ** Non-vacuity *)
(** A library that checks the thresholds and otherwise returns its arguments. *)
Definition w_thr_lib (n : string) (args : list val) : res val :=
  if existsb (String.eqb n) ["iou_determ"; "iou_prob"; "binarize_obs"; "ens_to_prob"] then
    match rev args with b :: o :: _ => passert (xorb (is_none o) (is_none b)) ;;; w_lib n args | _ => w_lib n args end
  else w_lib n args.
Lemma w_thr_lib_rejects : lib_rejects w_thr_lib.
Proof. intros f o ax over below H. unfold w_thr_lib. cbn [existsb String.eqb Ascii.eqb Bool.eqb orb rev app]. rewrite (not_exactly_one_xor _ _ H). reflexivity. Qed.
Lemma w_thr_lib_accepts : lib_accepts w_thr_lib.
Proof.
  intros n args H. unfold w_thr_lib in H. destruct (existsb _ _) eqn:E; [|discriminate H].
  apply existsb_exists in E as (n' & I & E). apply String.eqb_eq in E. subst n'.
  destruct (rev args) as [|b [|o r]] eqn:R; try discriminate H.
  exists (rev r), o, b. split; [exact I|]. split.
  - rewrite <- (rev_involutive args), R. cbn [rev]. rewrite <- app_assoc. reflexivity.
  - rewrite exactly_one_xor. destruct (xorb _ _); [discriminate H|discriminate].
Qed.
Notation w_metric := (M_state.metric w_thr_lib w_libr w_str w_dumps w_loads w_resolve w_points false None [] (fun n => n)).
Definition w_state (x : obj) : st := made (construct w_thr_lib (fun s => s) w_resolve x w_used).
Definition one : val := VFloat (Fin 1%Qc).

Example c24_nonvacuous :
  cl (ob (w_state (w_ens true))) <> CDeterm /\
  unsaved w_loads w_resolve (w_state (w_ens true)) (to_name w_str (VStr "brier") (kwargs (MBrier one one))) /\
  unsaved w_loads w_resolve (w_state (w_ens true)) (M_state.default_name w_str (MCdf one one)) /\
  fst (w_metric (MBrier one one) (VStr "brier") (w_state (w_ens true))) = Raise AssertionError /\
  fst (w_metric (MBrier VNone VNone) (VStr "brier") (w_state (w_gauss true))) = Raise AssertionError /\
  fst (w_metric (MIouD VNone VNone) (VStr "iou_determ") (w_state (w_gauss true))) = Raise AssertionError /\
  fst (w_metric (MIouP (VTuple [one; one]) (VTuple [one; VNone])) (VStr "iou_prob") (w_state (w_gauss true))) = Raise AssertionError.
Proof.
  split; [vm_compute; discriminate|]. split; [eexists; split; reflexivity|]. split; [eexists; split; reflexivity|].
  repeat split; reflexivity.
Qed.
Example c24_accepts_nonvacuous :
  (exists v, fst (w_metric (MBrier one VNone) (VStr "brier") (w_state (w_ens true))) = Ok v) /\
  (exists v, fst (w_metric (MIouD VNone one) (VStr "iou_determ") (w_state w_hurdle)) = Ok v) /\
  (exists v, fst (w_metric (MIouP (VTuple [one; one]) (VTuple [VNone; VNone])) (VStr "iou_prob") (w_state w_hurdle)) = Ok v).
Proof. repeat split; eexists; reflexivity. Qed.
Example c36_nonvacuous :
  fst (w_metric (MIouP (VTuple [one; one]) VNone) (VStr "iou_prob") (w_state w_hurdle)) = Raise AssertionError /\
  exists f o, fst (w_metric (MIouP (VTuple [one; one]) (VTuple [VNone; VNone])) (VStr "iou_prob") (w_state w_hurdle)) =
    w_thr_lib "iou_prob" [f; o; VNone; one; VNone] /\ fst (w_metric (MCdf one VNone) (VStr "cdf") (w_state w_hurdle)) = Ok f.
Proof. split; [reflexivity|]. do 2 eexists. split; reflexivity. Qed.
