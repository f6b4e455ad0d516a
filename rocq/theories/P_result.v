(** Metrics without saving are the formulas of Spec_result. *)
From Coq Require Import String Ascii QArith Qcanon ZArith Lia List Bool.
From Verif Require Import Num M_state Spec_state P_state Spec_result.
Import ListNotations.
Open Scope string_scope.
Open Scope list_scope.
Open Scope nat_scope.

Section Proofs.
Variable lib : string -> list val -> res val.
Variable libr : string -> list val -> nat -> res val.
Variable str_of : val -> string.
Variable dumps : val -> string.
Variable loads : string -> res val.
Variable expanduser : string -> string.
Variable resolve : string -> path.
Variable points : val -> val -> val -> res (list num).
Variable less_memory : bool.
Variable integrate_wdir : option path.
Variable cwd : path.
Variable rng : nat -> nat.

Notation body := (body lib libr points less_memory).
Notation exec := (exec lib libr str_of dumps loads resolve points less_memory integrate_wdir cwd rng).
Notation default_name := (default_name str_of).
Notation to_name := (to_name str_of).
Notation metric := (metric lib libr str_of dumps loads resolve points less_memory integrate_wdir cwd rng).
Notation rmse := (rmse lib libr str_of dumps loads resolve points less_memory integrate_wdir cwd rng).
Notation workflow_1 := (workflow_1 dumps loads resolve).
Notation post := (post lib libr).
Notation result := (result lib libr points).

(** Programs without files: value and number of draws used so far. *)
Fixpoint prun (n : nat) (x : obj) : prog -> nat -> res val * nat :=
  fix go (p : prog) (i : nat) : res val * nat :=
    match p with
    | PRet v => (Ok v, i)
    | PRaise e => (Raise e, i)
    | PRand k => go (k (rng i)) (S i)
    | PMem _ k => go k i
    | PCall m k =>
        match n with
        | O => (Raise RuntimeError, i)
        | S n' => match prun n' x (body x m) i with
                  | (Ok v, j) => go (k v) j
                  | (Raise e, j) => (Raise e, j)
                  end
        end
    end.

Definition at_pos (i : nat) (s : st) : st := mkSt (ob s) (dk s) i (events s).

Lemma workflow_run n run s i r : truthy (a_wd (ob s)) = false ->
  run s = (r, at_pos i s) -> workflow_1 (Ok n) run s = (r, at_pos i s).
Proof.
  intros T R. unfold workflow_1, M_state.workflow_1.
  assert (L : forall s0, ob s0 = ob s -> load loads resolve s0 n = Ok None).
  { intros s0 O. unfold load, save_path. rewrite O, T. destruct n; reflexivity. }
  rewrite (L s eq_refl), R. destruct r as [w|e]; [|reflexivity].
  unfold save, save_path. cbn [ob at_pos]. rewrite T. destruct n; reflexivity.
Qed.

Lemma exec_run x : mem_off less_memory x -> truthy (a_wd x) = false -> forall n p s r,
  ob s = x -> wfp (okm x false r) false p ->
  exec n p s = (fst (prun n x p (pos s)), at_pos (snd (prun n x p (pos s))) s).
Proof.
  intros M T n. induction n as [n IHn] using lt_wf_ind.
  intros p. induction p as [w|e|c IHp|m c IHp|b c IHp]; intros s r O W.
  - destruct n, s; reflexivity.
  - destruct n, s; reflexivity.
  - destruct W as [_ W].
    pose proof (IHp (rng (pos s)) (mkSt (ob s) (dk s) (S (pos s)) (events s)) r O (W _)) as H.
    destruct n; exact H.
  - destruct W as [[K _] W].
    destruct n as [|n]; [destruct s; reflexivity|].
    destruct (key_named str_of m K) as [nm N].
    assert (E : workflow_1 (default_name m) (exec n (body (ob s) m)) s =
      (fst (prun n x (body x m) (pos s)), at_pos (snd (prun n x (body x m) (pos s))) s)).
    { rewrite N. apply workflow_run; [rewrite O; exact T|]. rewrite O.
      apply (IHn n (Nat.lt_succ_diag_r n) _ s (rank m) O).
      apply (body_wf lib libr str_of dumps loads expanduser resolve points less_memory rng); [exact M|exact K|discriminate]. }
    change (exec (S n) (PCall m c) s) with
      (match workflow_1 (default_name m) (exec n (body (ob s) m)) s with
       | (Ok v, s1) => exec (S n) (c v) s1 | (Raise e, s1) => (Raise e, s1) end).
    change (prun (S n) x (PCall m c) (pos s)) with
      (match prun n x (body x m) (pos s) with
       | (Ok v, j) => prun (S n) x (c v) j | (Raise e, j) => (Raise e, j) end).
    rewrite E. destruct (prun n x (body x m) (pos s)) as [[v|e] j]; cbn [fst snd]; [|reflexivity].
    apply (IHp v (at_pos j s) r O (W v)).
  - contradiction.
Qed.

(** ** Evaluation rules *)
Lemma run_ret n x v i : prun n x (PRet v) i = (Ok v, i). Proof. destruct n; reflexivity. Qed.
Lemma run_raise n x e i : prun n x (PRaise e) i = (Raise e, i). Proof. destruct n; reflexivity. Qed.
Lemma run_lift n x r i : prun n x (lift r) i = (r, i).
Proof. destruct r, n; reflexivity. Qed.
Lemma run_lib n x f a i : prun n x (plib lib f a) i = (lib f a, i).
Proof. apply run_lift. Qed.
Lemma run_rand n x f a i : prun n x (prand libr f a) i = (libr f a (rng i), S i).
Proof. unfold prand. destruct n; simpl; destruct (libr f a (rng i)); reflexivity. Qed.
Lemma run_boot n x f a i : prun n x (pboot lib libr x f a) i =
  (with_boot lib libr x f a (rng i), if is_none (a_boot x) then i else S i).
Proof. unfold pboot, with_boot. destruct (is_none (a_boot x)); [apply run_lib|apply run_rand]. Qed.
Lemma run_call n x m k i : prun (S n) x (PCall m k) i =
  match prun n x (body x m) i with (Ok v, j) => prun (S n) x (k v) j | (Raise e, j) => (Raise e, j) end.
Proof. reflexivity. Qed.
Lemma run_bind n x p f : forall i, prun n x (pbind p f) i =
  match prun n x p i with (Ok v, j) => prun n x (f v) j | (Raise e, j) => (Raise e, j) end.
Proof.
  induction p as [v|e|k IH|m k IH|b k IH]; intro i; cbn [pbind].
  - rewrite run_ret. reflexivity.
  - rewrite !run_raise. reflexivity.
  - pose proof (IH (rng i) (S i)) as H. destruct n; exact H.
  - destruct n as [|n]; [reflexivity|]. rewrite !run_call.
    destruct (prun n x (body x m) i) as [[v|e] j]; [apply IH|reflexivity].
  - pose proof (IH i) as H. destruct n; exact H.
Qed.
Lemma run_getf n x k f i : prun n x (getf x k f) i =
  match part x k with Ok v => prun n x (f v) i | Raise e => (Raise e, i) end.
Proof. unfold getf, part. destruct (field (a_f x) k); [reflexivity|apply run_raise]. Qed.
Lemma run_pif n x b p i : prun n x (pif b p) i = if b then prun n x p i else (Raise AssertionError, i).
Proof. unfold pif. destruct b; [reflexivity|apply run_raise]. Qed.

Lemma run_cdf_below n x t i : prun n x (cdf_below lib x VNone t) i = (cdf_of lib x t, i).
Proof.
  unfold cdf_below, cdf_of. destruct (cl x); try apply run_raise; try apply run_lib;
    repeat (rewrite run_getf; destruct (part x _); [|reflexivity]); apply run_lib.
Qed.
Lemma run_cdf n x over below i : prun (S n) x (cdf_body lib x over below) i = (event_prob lib x over below, i).
Proof.
  unfold cdf_body, event_prob.
  destruct (cl x) eqn:C; try apply run_raise.
  all: rewrite run_pif; destruct over; destruct below; try reflexivity; cbn [is_none xorb];
    try apply run_cdf_below.
  all: rewrite run_call; unfold M_state.body, cdf_body; rewrite C; rewrite run_pif; cbn [is_none xorb];
    rewrite run_cdf_below; destruct (cdf_of lib x _); [apply run_lib|reflexivity].
Qed.
Lemma run_mcdf n x over below i : prun (S n) x (body x (MCdf over below)) i = (event_prob lib x over below, i).
Proof. apply run_cdf. Qed.
Lemma run_cdf0 n x t i : is_none t = false -> prun n x (body x (MCdf VNone t)) i = (cdf_of lib x t, i).
Proof.
  intro N. unfold M_state.body, cdf_body, cdf_of. destruct (cl x) eqn:C; try apply run_raise;
    rewrite run_pif, N; cbn [is_none xorb]; rewrite run_cdf_below; unfold cdf_of; rewrite C; reflexivity.
Qed.

Lemma run_calls n x (key : num -> meth) (F : num -> res val) xs :
  (forall q i, prun n x (body x (key q)) i = (F q, i)) -> forall acc k i,
  prun (S n) x (pcalls (map key xs) acc k) i =
  match mapM F xs with Ok vs => prun (S n) x (k (rev acc ++ vs)) i | Raise e => (Raise e, i) end.
Proof.
  intro H. induction xs as [|q xs IH]; intros acc k i; cbn [map pcalls mapM].
  - rewrite app_nil_r. reflexivity.
  - rewrite run_call, H. destruct (F q) as [v|e]; cbn [bind]; [|reflexivity].
    rewrite IH. destruct (mapM F xs); cbn [bind rev]; [|reflexivity]. rewrite <- app_assoc. reflexivity.
Qed.

Lemma run_integrate n x what (key : val -> meth) (F : num -> res val) i :
  less_memory = false -> (forall q i, prun n x (body x (key (VFloat q))) i = (F q, i)) ->
  prun (S n) x (integrate lib points less_memory x what key) i = (integral lib points x what F, i).
Proof.
  intros L H. unfold integrate, integral.
  destruct (points (a_o x) (a_range x) (a_bins x)) as [xs|e]; cbn [bind]; [|apply run_raise].
  rewrite L. cbv zeta. rewrite (run_calls n x (fun q => key (VFloat q)) F xs H).
  destruct (mapM F xs); cbn [bind]; [|reflexivity]. rewrite run_bind, run_lib. cbn [rev app].
  destruct (lib what _); [apply run_ret|reflexivity].
Qed.

Lemma run_determ n x i : mem_off less_memory x -> 1 <= n ->
  prun n x (body x MDeterm) i = (mean_of lib points x, i).
Proof.
  intros M L. destruct n as [|n]; [lia|]. unfold M_state.body, determ_body, mean_of.
  destruct (cl x) eqn:C; try apply run_lib.
  - rewrite run_getf; destruct (part x _); [|reflexivity]; apply run_lib.
  - apply run_integrate; [destruct M; [assumption|congruence]|]. intros. apply run_cdf0. reflexivity.
  - rewrite run_getf; destruct (part x _); [|reflexivity]; apply run_lib.
Qed.
Lemma run_forecast n x k i : mem_off less_memory x -> 2 <= n ->
  prun n x (with_forecast x k) i =
  match point_forecast lib points x with Ok v => prun n x (k v) i | Raise e => (Raise e, i) end.
Proof.
  intros M L. destruct n as [|n]; [lia|]. unfold with_forecast, point_forecast.
  destruct (cl x) eqn:C; try reflexivity; rewrite run_call, run_determ by (try assumption; lia); reflexivity.
Qed.
Lemma run_prob n x over below k i : 2 <= n -> 
  prun n x (with_prob lib x over below k) i =
  match event_prob lib x over below with
  | Ok p => match lib "binarize_obs" [a_o x; over; below] with
            | Ok b => prun n x (k p b) i | Raise e => (Raise e, i) end
  | Raise e => (Raise e, i) end.
Proof.
  intro L. destruct n as [|[|n]]; [lia|lia|]. unfold with_prob. rewrite run_call, run_mcdf.
  destruct (event_prob lib x over below); [|reflexivity].
  rewrite run_bind, run_lib. destruct (lib "binarize_obs" _); reflexivity.
Qed.
Lemma run_variance n x i : mem_off less_memory x -> 1 <= n ->
  prun n x (body x MVariance) i = (variance_of lib points x, i).
Proof.
  intros M L. destruct n as [|n]; [lia|]. unfold M_state.body, variance_of.
  destruct (cl x) eqn:C; try apply run_lib; try apply run_raise.
  - rewrite run_getf; destruct (part x _); [|reflexivity]; apply run_lib.
  - apply run_integrate; [destruct M; [assumption|congruence]|]. intros. apply run_cdf0. reflexivity.
  - rewrite run_getf; destruct (part x _); [|reflexivity]; apply run_lib.
Qed.
Lemma run_error n x f i : mem_off less_memory x -> 2 <= n ->
  prun n x (with_forecast x (fun v => plib lib f [v; a_o x])) i = (error_of lib points x f, i).
Proof.
  intros M L. rewrite run_forecast by assumption. unfold error_of.
  destruct (point_forecast lib points x); cbn [bind]; [apply run_lib|reflexivity].
Qed.
Lemma run_brier n x over below i : 2 <= n -> prun n x (body x (MBrier over below)) i = (brier_of lib x over below, i).
Proof.
  intro L. unfold M_state.body, brier_of, event_pair.
  assert (D : cl x = CDeterm \/ cl x <> CDeterm) by (destruct (cl x); auto; right; discriminate).
  destruct D as [D|D].
  - unfold event_prob. rewrite D. apply run_raise.
  - transitivity (prun n x (with_prob lib x over below (fun f o => plib lib "sub_sq" [f; o])) i);
      [destruct (cl x); congruence || reflexivity|].
    rewrite run_prob by exact L. destruct (event_prob lib x over below); cbn [bind]; [|reflexivity].
    destruct (lib "binarize_obs" _); cbn [bind]; [apply run_lib|reflexivity].
Qed.

(** ** What the programs use of the random numbers *)
Ltac parts := repeat (rewrite run_getf; destruct (part _ _); [|reflexivity]).

Lemma run_ens n x i : prun n x (body x MEns) i =
  (members_of lib libr x (rng i), snd (prun n x (body x MEns) i)) /\
  (forall v, fst (prun n x (body x MEns) i) = Ok v -> snd (prun n x (body x MEns) i) = S i).
Proof.
  assert (G : forall f args r, r =
     prun n x (pif (negb (is_none (a_members x)))
          (pbind (prand libr f (args ++ [a_members x; a_move x; a_trunc x])) (fun e =>
           if is_none (a_clip x) then PRet e else plib lib "clip_members" [e; a_clip x]))) i ->
     r = ((if is_none (a_members x) then Raise AssertionError
      else e <- libr f (args ++ [a_members x; a_move x; a_trunc x]) (rng i) ;;
         if is_none (a_clip x) then Ok e else lib "clip_members" [e; a_clip x]), snd r) /\
     (forall v, fst r = Ok v -> snd r = S i)).
  { intros f args r ->. rewrite run_pif. destruct (is_none (a_members x)); cbn [negb].
    - split; [reflexivity|discriminate].
    - rewrite run_bind, run_rand. destruct (libr _ _ _); cbn [bind]; [|split; [reflexivity|discriminate]].
      destruct (is_none (a_clip x)); rewrite ?run_ret, ?run_lib; split; reflexivity. }
  assert (R : forall e p, p = PRaise e -> prun n x p i = (Raise e, snd (prun n x p i)) /\
     (forall v, fst (prun n x p i) = Ok v -> snd (prun n x p i) = S i)).
  { intros e p ->. rewrite run_raise. split; [reflexivity|discriminate]. }
  unfold M_state.body, members_of. destruct (cl x); try (apply R; reflexivity).
  all: rewrite !run_getf; destruct (part x _); cbn [bind]; [|split; [reflexivity|discriminate]].
  all: rewrite !run_getf; destruct (part x _); cbn [bind]; [|split; [reflexivity|discriminate]].
  1: rewrite !run_getf; destruct (part x _); cbn [bind]; [|split; [reflexivity|discriminate]].
  all: apply G; reflexivity.
Qed.

Lemma run_pit n x i : fst (prun (S n) x (body x MPit) i) = pit_of lib libr x (rng i).
Proof.
  unfold M_state.body, pit_of.
  assert (G : fst (prun (S n) x (pbind (cdf_body lib x VNone (a_o x)) (fun r =>
             if is_true (a_pitr x) then prand libr "randomize_zero_ranks" [r; a_o x] else PRet r)) i) =
    (r <- event_prob lib x VNone (a_o x) ;;
     if is_true (a_pitr x) then libr "randomize_zero_ranks" [r; a_o x] (rng i) else Ok r)).
  { rewrite run_bind, run_cdf. destruct (event_prob lib x VNone (a_o x)); cbn [bind]; [|reflexivity].
    destruct (is_true (a_pitr x)); [rewrite run_rand|rewrite run_ret]; reflexivity. }
  destruct (cl x); try (rewrite run_raise; reflexivity); exact G.
Qed.

Definition chain (x : obj) (m : meth) (n i : nat) : res val :=
  match prun n x (body x m) i with
  | (Ok v, j) => fst (prun n x (post x m v) j)
  | (Raise e, _) => Raise e
  end.

Lemma chain_ret x m n i : (forall v, post x m v = PRet v) -> chain x m n i = fst (prun n x (body x m) i).
Proof.
  intro P. unfold chain. destruct (prun n x (body x m) i) as [[v|e] j]; [rewrite P, run_ret|]; reflexivity.
Qed.
Lemma chain_boot x m n i j r (f : string) (a : val -> list val) :
  (forall v, post x m v = pboot lib libr x f (a v)) ->
  prun n x (body x m) i = (r, j) -> chain x m n i = (v <- r ;; with_boot lib libr x f (a v) (rng j)).
Proof.
  intros P E. unfold chain. rewrite E. destruct r; cbn [bind]; [|reflexivity]. rewrite P, run_boot. reflexivity.
Qed.

Lemma run_pair n x over below k k' i : 2 <= n -> (forall p b, prun n x (k p b) i = (k' p b, snd (prun n x (k p b) i))) ->
  fst (prun n x (with_prob lib x over below k) i) = event_pair lib x over below k'.
Proof.
  intros L H. rewrite run_prob by exact L. unfold event_pair.
  destruct (event_prob lib x over below); cbn [bind]; [|reflexivity].
  destruct (lib "binarize_obs" _); cbn [bind]; [|reflexivity]. rewrite H. reflexivity.
Qed.
Lemma run_pair_at n x over below k k' i : 2 <= n -> (forall p b, prun n x (k p b) i = (k' p b, i)) ->
  prun n x (with_prob lib x over below k) i = (event_pair lib x over below k', i).
Proof.
  intros L H. rewrite run_prob by exact L. unfold event_pair.
  destruct (event_prob lib x over below); cbn [bind]; [|reflexivity].
  destruct (lib "binarize_obs" _); cbn [bind]; [|reflexivity]. rewrite H. reflexivity.
Qed.
Lemma pair_determ x over below k : cl x = CDeterm -> event_pair lib x over below k = Raise NotImplementedError.
Proof. intro C. unfold event_pair, event_prob. rewrite C. reflexivity. Qed.

(** The class switch "no probability forecast" of the metrics. *)
Lemma run_switch n x p r i : (cl x = CDeterm -> r = (Raise NotImplementedError)) ->
  (cl x <> CDeterm -> fst (prun n x p i) = r) ->
  fst (prun n x match cl x with CDeterm => PRaise NotImplementedError | _ => p end i) = r.
Proof.
  intros A B. destruct (cl x); [rewrite run_raise, A; reflexivity|apply B; discriminate..].
Qed.
Lemma run_switch_at n x p r i : (cl x = CDeterm -> r = (Raise NotImplementedError)) ->
  (cl x <> CDeterm -> prun n x p i = (r, i)) ->
  prun n x match cl x with CDeterm => PRaise NotImplementedError | _ => p end i = (r, i).
Proof.
  intros A B. destruct (cl x); [rewrite run_raise, A; reflexivity|apply B; discriminate..].
Qed.

Lemma chain_result x m n i : mem_off less_memory x -> 3 <= n ->
  chain x m n i = result x m (fun j => rng (i + j)).
Proof.
  intros M L. assert (L2 : 2 <= n) by lia. assert (L1 : 1 <= n) by lia.
  destruct n as [|n]; [lia|].
  unfold result, Spec_result.result, averaged_over. rewrite !Nat.add_0_r.
  destruct m; try (rewrite chain_ret by reflexivity).
  - (* corr *)
    change (body x MCorr) with (PCall MDeterm (fun f => pboot lib libr x "corr" [f; a_o x; a_avg x])).
    rewrite run_call, run_determ by (assumption || lia).
    destruct (mean_of lib points x); cbn [bind]; [rewrite run_boot|]; reflexivity.
  - (* brier_decomp *)
    apply run_switch; [apply pair_determ|]. intros _.
    apply run_pair; [exact L2|]. intros. rewrite run_boot. reflexivity.
  - (* rank_hist *)
    cbn [M_state.body]. destruct (cl x) eqn:C; try (rewrite ?run_raise, ?run_rand; reflexivity).
    all: destruct (is_none (a_members x)).
    all: rewrite run_call; destruct n as [|n]; [lia|].
    all: try solve [pose proof (run_pit n x i) as P; destruct (prun (S n) x (body x MPit) i) as [[v|e] j];
      cbn [fst] in P; rewrite <- P, ?run_ret; reflexivity].
    all: pose proof (run_ens (S n) x i) as [P Q]; destruct (prun (S n) x (body x MEns) i) as [[v|e] j];
      cbn [fst snd] in P, Q; injection P as <-; cbn [bind]; [|reflexivity].
    all: rewrite (Q v eq_refl), run_rand, Nat.add_1_r; reflexivity.
  - (* variance *) rewrite run_variance by assumption. reflexivity.
  - (* f_determ *) rewrite run_determ by assumption. reflexivity.
  - (* roc *)
    apply run_switch; [apply pair_determ|]. intros _.
    apply run_pair; [exact L2|]. intros. rewrite run_lib. reflexivity.
  - (* sharpness *)
    apply run_switch; [unfold event_prob; intros ->; reflexivity|]. intros _.
    destruct n as [|n]; [lia|]. rewrite run_call, run_mcdf.
    destruct (event_prob lib x over below); [rewrite run_ret|]; reflexivity.
  - (* iou_determ *)
    change (body x (MIouD over below)) with
      (with_forecast x (fun f => plib lib "iou_determ" [f; a_o x; a_avg x; over; below])).
    rewrite run_forecast by assumption.
    destruct (point_forecast lib points x); cbn [bind]; [rewrite run_lib|]; reflexivity.
  - (* iou_prob *)
    apply run_switch; [intros ->; reflexivity|]. intro C.
    match goal with |- _ = ?r => transitivity
      (if is_seq over && is_seq below then
            match items over, items below with
            | o0 :: o1 :: l, b0 :: b1 :: l' =>
                match l, l' with
                | _ :: _, _ :: _ => Raise AssertionError
                | _, _ => event_pair lib x o0 b0 (fun p b => lib "iou_prob" [p; b; a_avg x; o1; b1])
                end
            | [_; _], [] | [], [_; _] => Raise IndexError
            | [o0], [b0; _] | [o0; _], [b0] => event_pair lib x o0 b0 (fun _ _ => Raise IndexError)
            | _, _ => Raise AssertionError
            end
          else Raise AssertionError); [|destruct (cl x); congruence || reflexivity] end.
    rewrite run_pif. destruct (is_seq over); [|reflexivity]. rewrite run_pif. destruct (is_seq below); [|reflexivity].
    rewrite run_pif. cbn [andb].
    destruct (items over) as [|o0 [|o1 [|o2 l]]], (items below) as [|b0 [|b1 [|b2 l']]]; try reflexivity;
      cbn [length Nat.eqb orb nth_item nth_error];
      try (rewrite run_raise; reflexivity);
      (apply run_pair; [exact L2|]; intros; rewrite ?run_lib, ?run_raise; reflexivity).
  - (* cdf *) change (body x (MCdf over below)) with (cdf_body lib x over below). rewrite run_cdf. reflexivity.
  - (* crps *)
    apply (chain_boot x MCrps (S n) i i (crps_of lib points x) "boot_or_avg" (fun v => [v; a_avg x])); [reflexivity|].
    unfold M_state.body, crps_of. destruct (cl x) eqn:C; rewrite ?run_raise, ?run_lib; try reflexivity.
    + destruct (truthy (a_trunc x)); [apply run_raise|]. parts. apply run_lib.
    + apply run_integrate; [destruct M; [assumption|congruence]|]. intros. apply run_brier. lia.
    + parts. destruct (truthy (a_trunc x)); apply run_lib.
  - apply (chain_boot x MError (S n) i i _ "boot_or_avg" (fun v => [v; a_avg x])); [reflexivity|]. apply run_error; assumption.
  - (* spread *)
    assert (P : forall v, post x MSpread v = pboot lib libr x "boot_or_avg" ((fun v => [v; a_avg x]) v)) by reflexivity.
    destruct (cl x) eqn:C.
    + erewrite (chain_boot x MSpread (S n) i i (Raise NotImplementedError) _ _ P); [reflexivity|].
      cbn [M_state.body]. rewrite C. apply run_raise.
    + apply (chain_boot x MSpread (S n) i i _ _ _ P). cbn [M_state.body]. rewrite C. apply run_lib.
    + unfold chain; cbn [M_state.body]; rewrite C, run_call;
      pose proof (run_ens n x i) as [A B]; destruct (prun n x (body x MEns) i) as [[v|e] j];
      cbn [fst snd] in A, B; injection A as <-; cbn [bind]; [|reflexivity];
      rewrite run_lib; destruct (lib "spread" _); cbn [bind]; [|reflexivity];
      rewrite P, run_boot, (B v eq_refl), Nat.add_1_r; reflexivity.
    + unfold chain; cbn [M_state.body]; rewrite C, run_call;
      pose proof (run_ens n x i) as [A B]; destruct (prun n x (body x MEns) i) as [[v|e] j];
      cbn [fst snd] in A, B; injection A as <-; cbn [bind]; [|reflexivity];
      rewrite run_lib; destruct (lib "spread" _); cbn [bind]; [|reflexivity];
      rewrite P, run_boot, (B v eq_refl), Nat.add_1_r; reflexivity.
    + unfold chain; cbn [M_state.body]; rewrite C, run_call;
      pose proof (run_ens n x i) as [A B]; destruct (prun n x (body x MEns) i) as [[v|e] j];
      cbn [fst snd] in A, B; injection A as <-; cbn [bind]; [|reflexivity];
      rewrite run_lib; destruct (lib "spread" _); cbn [bind]; [|reflexivity];
      rewrite P, run_boot, (B v eq_refl), Nat.add_1_r; reflexivity.
  - apply (chain_boot x MSqErr (S n) i i _ "boot_or_avg" (fun v => [v; a_avg x])); [reflexivity|]. apply run_error; assumption.
  - apply (chain_boot x MAbErr (S n) i i _ "boot_or_avg" (fun v => [v; a_avg x])); [reflexivity|]. apply run_error; assumption.
  - apply (chain_boot x (MBrier over below) (S n) i i _ "boot_or_avg" (fun v => [v; a_avg x])); [reflexivity|].
    apply run_brier; assumption.
  - (* reliability *)
    apply (chain_boot x (MRel nbins over below) (S n) i i _ "post_reliability" (fun v => [v])); [reflexivity|].
    apply run_switch_at; [apply pair_determ|]. intros _.
    apply run_pair_at; [exact L2|]. intros. apply run_lib.
  - (* spread skill *)
    rewrite (chain_boot x (MSS nbins) (S n) i i
      (v <- variance_of lib points x ;; e <- error_of lib points x "sub_sq" ;;
       lib "spread_skill_split" [v; e; nbins; a_avg x]) "post_binned_spread_skill" (fun v => [v])); [|reflexivity|].
    + destruct (variance_of lib points x); cbn [bind]; [|reflexivity].
      destruct (error_of lib points x "sub_sq"); reflexivity.
    + apply run_switch_at; [unfold variance_of; intros ->; reflexivity|]. intros _.
      rewrite run_call, run_variance by (assumption || lia).
      destruct (variance_of lib points x); cbn [bind]; [|reflexivity].
      rewrite run_call. change (body x MSqErr) with (with_forecast x (fun f => plib lib "sub_sq" [f; a_o x])).
      rewrite run_error by (assumption || lia). destruct (error_of lib points x "sub_sq"); cbn [bind]; [|reflexivity].
      apply run_lib.
  - (* members *) destruct (run_ens (S n) x i) as [-> _]. reflexivity.
  - (* pit *) apply run_pit.
Qed.

(** ** Public calls with saving off *)
Lemma result_no_class x m d : (m = MEns \/ m = MPit) -> cl x = CDeterm \/ cl x = CEnsemble ->
  result x m d = Raise AttributeError.
Proof. intros [-> | ->] [C|C]; unfold result, Spec_result.result, members_of, pit_of; rewrite C; reflexivity. Qed.

Lemma key_renders m : key_ok m -> exists l, render_args str_of (kwargs m) = Ok l.
Proof.
  intro K.
  assert (G : Forall (fun p => good (snd p) \/ long_array (snd p)) (kwargs m)).
  { destruct m; simpl in K; simpl; auto. destruct K. repeat constructor; auto. }
  revert G. generalize (kwargs m). induction l as [|[k v] l IH]; intro G; simpl.
  - eexists; reflexivity.
  - inversion G; subst. destruct (IH H2) as [r ->]. simpl in H1.
    assert (S : exists b, short_enough v = Ok b).
    { destruct v; simpl in *; try (eexists; reflexivity).
      destruct H1 as [|L]; [contradiction|].
      destruct (Nat.ltb_spec 5 (fold_right Nat.mul 1 sh)); [eexists; reflexivity|lia]. }
    destruct S as [[|] ->]; simpl; eexists; reflexivity.
Qed.
Lemma key_to_name m sn : key_ok m -> exists nm, to_name sn (kwargs m) = Ok nm.
Proof.
  intro K. unfold to_name, M_state.to_name. destruct sn; try (eexists; reflexivity).
  destruct (String.prefix "LITERAL_" _); [eexists; reflexivity|].
  destruct (key_renders m K) as [l ->]. eexists; reflexivity.
Qed.

Lemma metric_result m sn nm s : mem_off less_memory (ob s) -> truthy (a_wd (ob s)) = false -> key_ok m ->
  to_name sn (kwargs m) = Ok nm ->
  exists j, metric m sn s = (result (ob s) m (fun i => rng (pos s + i)), at_pos j s).
Proof.
  intros M T K N.
  assert (AP : s = at_pos (pos s) s) by (destruct s; reflexivity).
  assert (G : exists j, match workflow_1 (to_name sn (kwargs m)) (exec depth (body (ob s) m)) s with
      | (Ok v, s1) => exec depth (post (ob s1) m v) s1
      | (Raise e, s1) => (Raise e, s1)
      end = (result (ob s) m (fun i => rng (pos s + i)), at_pos j s)).
  { rewrite <- (chain_result (ob s) m depth (pos s) M) by (unfold depth; lia). unfold chain.
    rewrite N. erewrite workflow_run; [|exact T|].
    2: { eapply (exec_run (ob s) M T depth _ s (rank m) eq_refl).
         apply (body_wf lib libr str_of dumps loads expanduser resolve points less_memory rng); [exact M|exact K|discriminate]. }
    destruct (prun depth (ob s) (body (ob s) m) (pos s)) as [[v|e] j]; cbn [fst snd]; [|exists j; reflexivity].
    exists (snd (prun depth (ob s) (post (ob s) m v) j)).
    apply (exec_run (ob s) M T depth _ (at_pos j s) 0 eq_refl). apply post_wf; discriminate. }
  unfold metric, M_state.metric.
  destruct m; try exact G; destruct (cl (ob s)) eqn:C; try exact G;
    (exists (pos s); rewrite <- AP, result_no_class by tauto; reflexivity).
Qed.

Lemma rmse_result sn nm s : mem_off less_memory (ob s) -> truthy (a_wd (ob s)) = false ->
  to_name sn [] = Ok nm ->
  exists j, rmse sn s = ((v <- result (ob s) MSqErr (fun i => rng (pos s + i)) ;; lib "sqrt" [v]), at_pos j s).
Proof.
  intros M T N. unfold rmse, M_state.rmse.
  destruct (metric_result MSqErr sn nm s M T ltac:(constructor) N) as [j ->]. exists j.
  destruct (result (ob s) MSqErr _) as [v|e]; cbn [bind]; [|reflexivity].
  unfold plib, lift. destruct (lib "sqrt" [v]); reflexivity.
Qed.

(** ** Calls without random numbers *)
Lemma with_boot_det x f a d d' : is_none (a_boot x) = true -> with_boot lib libr x f a d = with_boot lib libr x f a d'.
Proof. intro B. unfold with_boot. rewrite B. reflexivity. Qed.
Lemma averaged_det x r d d' : is_none (a_boot x) = true -> averaged_over lib libr x r d = averaged_over lib libr x r d'.
Proof. intro B. unfold averaged_over. destruct r; cbn [bind]; [apply with_boot_det, B|reflexivity]. Qed.
Lemma event_pair_ext x over below k k' : (forall p b, k p b = k' p b) ->
  event_pair lib x over below k = event_pair lib x over below k'.
Proof.
  intro H. unfold event_pair. destruct (event_prob lib x over below); cbn [bind]; [|reflexivity].
  destruct (lib "binarize_obs" _); cbn [bind]; [apply H|reflexivity].
Qed.
Lemma pit_det x d d' : is_true (a_pitr x) = false -> pit_of lib libr x d = pit_of lib libr x d'.
Proof. intro P. unfold pit_of. rewrite P. reflexivity. Qed.

Lemma result_det x m d d' : random_call x m = false -> result x m d = result x m d'.
Proof.
  intro R. unfold random_call in R. apply orb_false_iff in R. destruct R as [R A].
  assert (BT : averaged m = true -> is_none (a_boot x) = true).
  { intro E. rewrite E in A. destruct (is_none (a_boot x)); [reflexivity|discriminate]. }
  destruct m; cbn [random_value averaged] in R, BT; unfold result, Spec_result.result; try reflexivity;
    try (apply averaged_det, BT; reflexivity); try discriminate R.
  - destruct (mean_of lib points x); cbn [bind]; [|reflexivity]. apply with_boot_det.
    destruct (is_none (a_boot x)); [reflexivity|discriminate].
  - apply event_pair_ext. intros. apply with_boot_det. destruct (is_none (a_boot x)); [reflexivity|discriminate].
  - destruct (cl x); try discriminate R; try reflexivity;
      destruct (is_none (a_members x)); try discriminate R; apply pit_det, R.
  - destruct (cl x); try discriminate R; [reflexivity|]. apply averaged_det, BT; reflexivity.
  - destruct (event_pair lib x over below _); cbn [bind]; [|reflexivity]. apply with_boot_det, BT; reflexivity.
  - destruct (variance_of lib points x); cbn [bind]; [|reflexivity].
    destruct (error_of lib points x "sub_sq"); cbn [bind]; [|reflexivity].
    destruct (lib "spread_skill_split" _); cbn [bind]; [|reflexivity]. apply with_boot_det, BT; reflexivity.
  - apply pit_det, R.
Qed.
Lemma result_wd w x m d : result (put_wd w x) m d = result x m d.
Proof. reflexivity. Qed.
End Proofs.
