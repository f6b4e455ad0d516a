(** Numerical integration: values, workflow. *)
From Coq Require Import ZArith String Ascii List Lia Bool Arith QArith Qcanon Permutation.
From Verif Require Import QcTac QSum Num NdArr Numpy M_ens M_integ P_integ.
Import ListNotations.
Open Scope nat_scope.

(** ** Values per cell *)
Definition diffs (n : nat) (m c : nat -> num) : num := nsum (map (fun k => nmul (m k) (nsub (c (S k)) (c k))) (seq 0 (n - 1))).
Definition wsum (n : nat) (m c : nat -> num) : num := nsum (map (fun k => nmul (c k) (m k)) (seq 0 (n - 1))).
(** [less]: summed from the scratch file *)
Definition cell_value (less : bool) (k : kind) (i : integration) (c : nat -> num) : num :=
  let n := i_nbins i in
  let d m := if less then nsub (wsum n m (fun j => c (S j))) (wsum n m c) else diffs n m c in
  match k with
  | KCrps => nmul half (if less then nadd (wsum n (dx i) (fun j => c (S j))) (wsum n (dx i) c)
                        else nsum (map (fun k => nmul (nadd (c (S k)) (c k)) (dx i k)) (seq 0 (n - 1))))
  | KMean => nmul half (d (x2 i))
  | KVariance => nsub (nmul half (d (xsq2 i))) (nsq (nmul half (d (x2 i))))
  end.
Definition what_of (k : kind) (v : verifier) : num -> res (arr num) := match k with KCrps => v_brier v | _ => v_cdf v end.
Definition is_value (less : bool) (k : kind) (i : integration) (vals : nat -> arr num) (a : arr num) : Prop :=
  shape a = shape (v_o (i_v i)) /\ forall ix, valid (shape (v_o (i_v i))) ix -> get a ix = cell_value less k i (fun j => get (vals j) ix).

Lemma fold_nsum (g : nat -> num) l a : fold_left (fun out k => nadd out (g k)) l a = nadd a (nsum (map g l)).
Proof.
  revert a. induction l as [|k r IH]; intros a; cbn [fold_left map nsum].
  - destruct a; cbn; try reflexivity. f_equal. ring.
  - rewrite IH, nadd_assoc. reflexivity.
Qed.
Lemma nadd_0 x : nadd (Fin 0) x = x.
Proof. destruct x; cbn; try reflexivity. f_equal. ring. Qed.
Lemma sum_mul_wsum i mul data off ix (c : nat -> num) :
  (forall k, k < i_nbins i - 1 -> row_at i data (k + off) ix = c k) -> sum_mul i mul data off ix = wsum (i_nbins i) mul c.
Proof.
  intros H. unfold sum_mul. rewrite fold_nsum, nadd_0. unfold wsum. f_equal. apply map_ext_in. intros k Hk. apply in_seq in Hk. rewrite H by lia. reflexivity.
Qed.
Section Values.
Variable wait : list nat -> nat.
Variable i : integration.
Notation sh := (shape (v_o (i_v i))).
Hypothesis Hlen : length (i_x i) = i_nbins i.
Lemma at_vals vals k ix : k < i_nbins i -> at_ (map vals (seq 0 (i_nbins i))) k ix = get (vals k) ix.
Proof.
  intros H. unfold at_. rewrite (nth_indep _ _ (vals 0)) by (rewrite map_length, seq_length; exact H). rewrite map_nth, seq_nth by exact H. reflexivity.
Qed.
Lemma func_mem_ok k vals s f : i_less i = false -> ready i s -> (forall j, j < i_nbins i -> good i (what_of k (i_v i)) j (vals j)) ->
  exists a, run (func_of wait k i None) s f = (Ok a, after i s, f) /\ is_value false k i vals a.
Proof.
  intros Hl R H.
  assert (D : forall m ix, sum_diff i m (map vals (seq 0 (i_nbins i))) ix = diffs (i_nbins i) m (fun j => get (vals j) ix)).
  { intros m ix. unfold sum_diff, diffs. f_equal. apply map_ext_in. intros j Hj. apply in_seq in Hj. rewrite !at_vals by lia. reflexivity. }
  destruct k; cbn [func_of what_of] in *; [unfold int_crps|unfold int_mean|unfold int_variance]; rewrite run_bind, (gather_mem_ok wait i _ Hlen vals) by assumption;
    eexists; (split; [reflexivity|]); (split; [reflexivity|]); intros ix V; cbn [get cell_value].
  - f_equal. f_equal. apply map_ext_in. intros j Hj. apply in_seq in Hj. rewrite !at_vals by lia. reflexivity.
  - rewrite D. reflexivity.
  - rewrite !D. reflexivity.
Qed.
Lemma func_bad k h s f : (h = None <-> i_less i = false) -> (i_less i = true -> f_live (f (scratch i)) = true) ->
  (exists j, j < i_nbins i /\ bad i (what_of k (i_v i)) j) \/ ~ ready i s ->
  exists e s' f', run (func_of wait k i h) s f = (Raise e, s', f').
Proof.
  intros Hh HL H.
  assert (G : exists e s' f', run (gather wait i (what_of k (i_v i))) s f = (Raise e, s', f')).
  { destruct H as [H|H]; [|apply gather_not_ready, H].
    destruct (i_less i) eqn:El.
    - destruct (gather_file_bad wait i _ Hlen s f El H (HL eq_refl)) as (e & s' & f' & R & _). eauto.
    - destruct (gather_mem_bad wait i _ Hlen s f El H) as (e & s' & R). eauto. }
  destruct G as (e & s' & f' & R). destruct k; cbn [func_of what_of] in *; [unfold int_crps|unfold int_mean|unfold int_variance]; rewrite run_bind, R; do 3 eexists; reflexivity.
Qed.
Lemma func_file_ok k vals s f : i_less i = true -> ready i s -> (forall j, j < i_nbins i -> good i (what_of k (i_v i)) j (vals j)) ->
  sized i (f (scratch i)) ->
  exists a f', run (func_of wait k i (Some (f_gen (f (scratch i))))) s f = (Ok a, after i s, f') /\ is_value true k i vals a /\ f_live (f' (scratch i)) = true.
Proof.
  intros Hl R H Sz. destruct (gather_file_ok wait i _ Hlen vals s f Hl R H Sz) as (f1 & Rn & S1 & G1 & D).
  assert (RD : forall j ix off, valid sh ix -> j + off < i_nbins i -> row_at i (f_data (f1 (scratch i)) (f_gen (f1 (scratch i)))) (j + off) ix = get (vals (j + off)) ix) by (intros; apply D; assumption).
  assert (W : forall m off ix, off <= 1 -> valid sh ix -> sum_mul i m (f_data (f1 (scratch i)) (f_gen (f1 (scratch i)))) off ix = wsum (i_nbins i) m (fun j => get (vals (j + off)) ix)).
  { intros m off ix Ho V. apply sum_mul_wsum. intros j Hj. apply RD; [exact V|lia]. }
  assert (W1 : forall m ix, valid sh ix -> sum_mul i m (f_data (f1 (scratch i)) (f_gen (f1 (scratch i)))) 1 ix = wsum (i_nbins i) m (fun j => get (vals (S j)) ix)).
  { intros m ix V. rewrite W by (lia || assumption). unfold wsum. f_equal. apply map_ext. intros j. rewrite Nat.add_1_r. reflexivity. }
  assert (W0 : forall m ix, valid sh ix -> sum_mul i m (f_data (f1 (scratch i)) (f_gen (f1 (scratch i)))) 0 ix = wsum (i_nbins i) m (fun j => get (vals j) ix)).
  { intros m ix V. rewrite W by (lia || assumption). unfold wsum. f_equal. apply map_ext. intros j. rewrite Nat.add_0_r. reflexivity. }
  assert (L : i_nbins i * cells i <=? length (f_data (f1 (scratch i)) (f_gen (f1 (scratch i)))) = true) by (apply Nat.leb_le; destruct S1 as [_ E]; rewrite E; lia).
  rewrite <- G1. destruct k; cbn [func_of what_of] in *; [unfold int_crps|unfold int_mean|unfold int_variance]; rewrite run_bind, Rn;
    unfold memmap_read, file_res; cbn [pbind run]; rewrite L; cbn [run pret]; do 2 eexists; (split; [reflexivity|]); (split; [split; [reflexivity|]; intros ix V; cbn [get cell_value]|rewrite fs_set_same; apply S1]).
  - rewrite W1, W0 by exact V. reflexivity.
  - unfold sum_diff_mem. rewrite W1, W0 by exact V. reflexivity.
  - unfold sum_diff_mem. rewrite !W1, !W0 by exact V. reflexivity.
Qed.
Lemma func_env k h : keeps_env (func_of wait k i h).
Proof.
  destruct k; cbn [func_of]; [unfold int_crps|unfold int_mean|unfold int_variance]; (apply keeps_env_bind; [apply gather_env|]); intros rows; destruct h; try constructor; intros b; destruct b; constructor.
Qed.
Lemma func_only k h : only (scratch i) (func_of wait k i h).
Proof.
  destruct k; cbn [func_of]; [unfold int_crps|unfold int_mean|unfold int_variance]; (apply only_bind; [apply gather_only|]); intros rows; destruct h; try constructor; intros b; destruct b; constructor.
Qed.
End Values.

(** ** Scratch file and exact arithmetic *)
Definition finan (x : num) : Prop := match x with Fin _ | NaN => True | _ => False end.
Lemma finan_add a b : finan a -> finan b -> finan (nadd a b). Proof. destruct a, b; cbn; tauto. Qed.
Lemma finan_opp a : finan a -> finan (nopp a). Proof. destruct a; cbn; tauto. Qed.
Lemma finan_sub a b : finan a -> finan b -> finan (nsub a b). Proof. intros. apply finan_add; [assumption|apply finan_opp; assumption]. Qed.
Lemma finan_mul a b : finan a -> finan b -> finan (nmul a b). Proof. destruct a, b; cbn; tauto. Qed.
Lemma finan_sum l : (forall x, In x l -> finan x) -> finan (nsum l).
Proof. induction l as [|x r IH]; intros H; [exact I|]. cbn [nsum]. apply finan_add; [apply H; left; reflexivity|apply IH; intros y Hy; apply H; right; exact Hy]. Qed.
Lemma nmul_distr_sub m a b : finan m -> finan a -> finan b -> nmul m (nsub a b) = nsub (nmul a m) (nmul b m).
Proof. destruct m, a, b; cbn; try tauto; intros; try reflexivity. f_equal. ring. Qed.
Lemma nmul_distr_add m a b : finan m -> finan a -> finan b -> nmul (nadd a b) m = nadd (nmul a m) (nmul b m).
Proof. destruct m, a, b; cbn; try tauto; intros; try reflexivity. f_equal. ring. Qed.
Lemma nsub_add4 a b c d : finan a -> finan b -> finan c -> finan d -> nadd (nsub a b) (nsub c d) = nsub (nadd a c) (nadd b d).
Proof. destruct a, b, c, d; cbn; try tauto; intros; try reflexivity. f_equal. ring. Qed.
Lemma nadd_add4 a b c d : finan a -> finan b -> finan c -> finan d -> nadd (nadd a b) (nadd c d) = nadd (nadd a c) (nadd b d).
Proof. destruct a, b, c, d; cbn; try tauto; intros; try reflexivity. f_equal. ring. Qed.
Lemma diffs_wsum n m c : (forall k, k < n -> finan (c k)) -> (forall k, k < n - 1 -> finan (m k)) ->
  diffs n m c = nsub (wsum n m (fun j => c (S j))) (wsum n m c).
Proof.
  intros Hc Hm. unfold diffs, wsum. assert (G : forall l, (forall k, In k l -> S k < n) ->
     nsum (map (fun k => nmul (m k) (nsub (c (S k)) (c k))) l) = nsub (nsum (map (fun k => nmul (c (S k)) (m k)) l)) (nsum (map (fun k => nmul (c k) (m k)) l))).
  { induction l as [|k r IH]; intros H; cbn [map nsum]; [cbn; f_equal; ring|].
    assert (Hk : S k < n) by (apply H; left; reflexivity). assert (Hr : forall j, In j r -> S j < n) by (intros j Hj; apply H; right; exact Hj).
    rewrite IH by exact Hr. assert (Fm : finan (m k)) by (apply Hm; lia). assert (F1 : finan (c (S k))) by (apply Hc; lia). assert (F0 : finan (c k)) by (apply Hc; lia).
    rewrite nmul_distr_sub by assumption. apply nsub_add4; try (apply finan_mul; assumption); apply finan_sum; intros y Hy; apply in_map_iff in Hy as (j & <- & Hj); specialize (Hr j Hj); apply finan_mul; [apply Hc; lia|apply Hm; lia|apply Hc; lia|apply Hm; lia]. }
  apply G. intros k Hk. apply in_seq in Hk. lia.
Qed.
Lemma sums_wsum n m c : (forall k, k < n -> finan (c k)) -> (forall k, k < n - 1 -> finan (m k)) ->
  nsum (map (fun k => nmul (nadd (c (S k)) (c k)) (m k)) (seq 0 (n - 1))) = nadd (wsum n m (fun j => c (S j))) (wsum n m c).
Proof.
  intros Hc Hm. unfold wsum. assert (G : forall l, (forall k, In k l -> S k < n) ->
     nsum (map (fun k => nmul (nadd (c (S k)) (c k)) (m k)) l) = nadd (nsum (map (fun k => nmul (c (S k)) (m k)) l)) (nsum (map (fun k => nmul (c k) (m k)) l))).
  { induction l as [|k r IH]; intros H; cbn [map nsum]; [cbn; f_equal; ring|].
    assert (Hk : S k < n) by (apply H; left; reflexivity). assert (Hr : forall j, In j r -> S j < n) by (intros j Hj; apply H; right; exact Hj).
    rewrite IH by exact Hr. assert (Fm : finan (m k)) by (apply Hm; lia). assert (F1 : finan (c (S k))) by (apply Hc; lia). assert (F0 : finan (c k)) by (apply Hc; lia).
    rewrite nmul_distr_add by assumption. apply nadd_add4; try (apply finan_mul; assumption); apply finan_sum; intros y Hy; apply in_map_iff in Hy as (j & <- & Hj); specialize (Hr j Hj); apply finan_mul; [apply Hc; lia|apply Hm; lia|apply Hc; lia|apply Hm; lia]. }
  apply G. intros k Hk. apply in_seq in Hk. lia.
Qed.
Lemma cell_value_less k i c : (forall j, j < i_nbins i -> finan (c j)) -> (forall j, j < i_nbins i -> finan (xat i j)) ->
  cell_value true k i c = cell_value false k i c.
Proof.
  intros Hc Hx. assert (D : forall m, (forall j, j < i_nbins i - 1 -> finan (m j)) -> nsub (wsum (i_nbins i) m (fun j => c (S j))) (wsum (i_nbins i) m c) = diffs (i_nbins i) m c) by (intros m Hm; symmetry; apply diffs_wsum; assumption).
  destruct k; cbn [cell_value].
  - rewrite sums_wsum; [reflexivity|assumption|]. intros j Hj. apply finan_sub; apply Hx; lia.
  - rewrite D; [reflexivity|]. intros j Hj. apply finan_add; apply Hx; lia.
  - rewrite !D; [reflexivity| |]; intros j Hj; apply finan_add; try (apply finan_mul); apply Hx; lia.
Qed.

(** ** The constructor *)
Definition settings_ok (pyint : string -> res Z) (s : proc) : Prop :=
  (exists t b, p_env s "pyanen_tqdm_disable" = Some t /\ strtobool t = Ok b) /\
  (exists t b, p_env s "pyanen_tqdm_leave" = Some t /\ strtobool t = Ok b) /\
  (exists t z, p_env s "pyanen_tqdm_workers" = Some t /\ pyint t = Ok z) /\
  (exists t z, p_env s "pyanen_tqdm_chunksize" = Some t /\ pyint t = Ok z) /\
  (exists t b, p_env s "pyanen_integrate_with_less_memory" = Some t /\ strtobool t = Ok b) /\
  (exists t, p_env s "pyanen_integrate_wdir" = Some t).
Definition cores_are (pyint : string -> res Z) (w : option Z) (s : proc) (c : Z) : Prop :=
  match w with Some c' => c = c' | None => exists t, p_env s "pyanen_tqdm_workers" = Some t /\ pyint t = Ok c end.
Definition less_is (l : option bool) (s : proc) (b : bool) : Prop :=
  match l with Some b' => b = b' | None => exists t, p_env s "pyanen_integrate_with_less_memory" = Some t /\ strtobool t = Ok b end.
Definition dir_is (expanduser : string -> string) (d : option string) (v : verifier) (s : proc) (dir : string) : Prop :=
  match d with
  | Some d' => dir = d'
  | None => match p_env s "pyanen_integrate_wdir" with
            | Some ""%string => dir = match v_wd v with Some w => w | None => "."%string end
            | Some t => dir = expanduser t
            | None => False
            end
  end.
(** the evaluation points as a function of the environment *)
Definition points (pyint : string -> res Z) (v : verifier) (range : option (num * num)) (n : nat) (s : proc) : res (list num) :=
  match range with
  | Some r => Ok (nlinspace (fst r) (snd r) n)
  | None =>
    match p_env s "pyanen_integrate_range_multiplier" with
    | None => Raise KeyError
    | Some t => m <- pyint t ;; passert (Z.ltb 0 m) ;;;
        vmin <- nminimum (ravel (v_o v)) ;; vmax <- nmaximum (ravel (v_o v)) ;;
        Ok (nlinspace (nsub vmin (nmul (Fin (qz m)) (nsub vmax vmin))) (nadd vmax (nmul (Fin (qz m)) (nsub vmax vmin))) n)
    end
  end.
Lemma define_range_run pyint v range n s f : run (define_range pyint v range n) s f = (points pyint v range n s, s, f).
Proof.
  unfold define_range, points. destruct range as [[a b]|]; [reflexivity|]. rewrite run_bind, run_environ.
  destruct (p_env s _) as [t|]; [|reflexivity]. rewrite run_lift. destruct (pyint t) as [m|e]; [|reflexivity]. cbn [bind]. rewrite run_lift.
  destruct (passert _) as [[]|e]; [|reflexivity]. cbn [bind]. rewrite run_lift. destruct (nminimum _) as [a|e]; [|reflexivity]. cbn [bind]. rewrite run_lift.
  destruct (nmaximum _) as [b|e]; reflexivity.
Qed.
Lemma nlinspace_length a b n : length (nlinspace a b n) = n.
Proof. destruct n as [|[|n]]; [reflexivity|reflexivity|]. unfold nlinspace. rewrite map_length, seq_length. reflexivity. Qed.
Lemma points_length pyint v range n s xs : points pyint v range n s = Ok xs -> length xs = n.
Proof.
  unfold points. destruct range as [[a b]|]; [intros E; apply (f_equal (fun r => match r with Ok x => x | _ => [] end)) in E; subst xs; apply nlinspace_length|].
  destruct (p_env s _) as [t|]; [|discriminate]. destruct (pyint t) as [m|e]; [|discriminate]. cbn [bind].
  destruct (passert _) as [[]|e]; [|discriminate]. cbn [bind]. destruct (nminimum _) as [a|e]; [|discriminate]. cbn [bind].
  destruct (nmaximum _) as [b|e]; [|discriminate]. cbn [bind].
  intros E; apply (f_equal (fun r => match r with Ok x => x | _ => [] end)) in E; subst xs; apply nlinspace_length.
Qed.
Lemma new_run pyint expanduser v range n w l d s f c b dir :
  settings_ok pyint s -> cores_are pyint w s c -> less_is l s b -> dir_is expanduser d v s dir ->
  run (integration_new pyint expanduser v range n w l d) s f = (rmap (fun xs => Integ v n xs c b dir) (points pyint v range n s), s, f).
Proof.
  intros ((t1 & b1 & E1 & F1) & (t2 & b2 & E2 & F2) & (t3 & z3 & E3 & F3) & (t4 & z4 & E4 & F4) & (t5 & b5 & E5 & F5) & (t6 & E6)) Hc Hl Hd.
  unfold integration_new. rewrite run_bind, define_range_run. destruct (points pyint v range n s) as [xs|e]; [|reflexivity]. cbn [rmap].
  rewrite run_environ, E1, run_lift, F1, run_environ, E2, run_lift, F2, run_bind.
  assert (C : run (match w with Some w0 => pret w0 | None => w0 <~ environ "pyanen_tqdm_workers" ;; lift (pyint w0) end) s f = (Ok c, s, f)).
  { destruct w as [w|]; cbn [cores_are] in Hc; [subst; reflexivity|]. destruct Hc as (t & X & Y). rewrite run_environ, X. cbn. rewrite Y. reflexivity. }
  rewrite C, run_environ, E4, run_lift, F4, run_bind.
  assert (L : run (match l with Some b0 => pret b0 | None => m <~ environ "pyanen_integrate_with_less_memory" ;; lift (strtobool m) end) s f = (Ok b, s, f)).
  { destruct l as [l|]; cbn [less_is] in Hl; [subst; reflexivity|]. destruct Hl as (t & X & Y). rewrite run_environ, X. cbn. rewrite Y. reflexivity. }
  rewrite L, run_environ, E6. unfold dir_is in Hd. rewrite E6 in Hd. destruct d as [d|]; [subst; reflexivity|].
  destruct t6 as [|ch t6]; subst dir; reflexivity.
Qed.
Lemma settings_values pyint expanduser v w l d s : settings_ok pyint s ->
  (exists c, cores_are pyint w s c) /\ (exists b, less_is l s b) /\ (exists dir, dir_is expanduser d v s dir).
Proof.
  intros (_ & _ & (t3 & z3 & E3 & F3) & _ & (t5 & b5 & E5 & F5) & (t6 & E6)). repeat split.
  - destruct w as [w|]; [exists w; reflexivity|exists z3, t3; auto].
  - destruct l as [l|]; [exists l; reflexivity|exists b5, t5; auto].
  - destruct d as [d|]; [exists d; reflexivity|]. unfold dir_is. rewrite E6. destruct t6; eexists; reflexivity.
Qed.

(** ** The workflow *)
Definition upd (e : string -> option string) (k v : string) : string -> option string := fun j => if String.eqb j k then Some v else e j.
Definition suppressed (i : integration) (s : proc) : proc :=
  let s1 := Proc (upd (p_env s) "pyanen_tqdm_disable" "True") (p_ray s) in
  if Z.ltb 1 (i_cores i) then Proc (upd (p_env s1) "pyanen_tqdm_workers" "1") (p_ray s1) else s1.
Section Work.
Variable pyint : string -> res Z.
Variable isdir : string -> bool.
Variable wait : list nat -> nat.
Variable i : integration.
Notation sh := (shape (v_o (i_v i))).
Hypothesis Hlen : length (i_x i) = i_nbins i.
Definition reads (s : proc) (d : bool) (w : Z) : Prop :=
  exists t1 t2, p_env s "pyanen_tqdm_disable" = Some t1 /\ strtobool t1 = Ok d /\ p_env s "pyanen_tqdm_workers" = Some t2 /\ pyint t2 = Ok w.
Lemma suppress_run s f d w : reads s d w -> run (suppress pyint i) s f = (Ok (d, w), suppressed i s, f).
Proof.
  intros (t1 & t2 & E1 & F1 & E2 & F2). unfold suppress, suppressed. rewrite run_environ, E1, run_lift, F1, run_environ, E2, run_lift, F2.
  cbn [pbind run setenv env_res]. destruct (Z.ltb 1 (i_cores i)); reflexivity.
Qed.
Lemma resume_run s f d w : exists s', run (resume (d, w)) s f = (Ok tt, s', f) /\ p_ray s' = p_ray s /\
  p_env s' = upd (upd (p_env s) "pyanen_tqdm_disable" (pybool01 d)) "pyanen_tqdm_workers" (pystr w).
Proof. eexists. split; [reflexivity|]. split; reflexivity. Qed.
(** the scratch file can be made *)
Definition room : Prop := i_less i = true -> isdir (i_dir i) = true /\ i_nbins i * cells i <> 0.
Lemma initialize_ok s f : room -> exists h f', run (initialize isdir i) s f = (Ok h, s, f') /\
  (i_less i = false -> h = None /\ f' = f) /\ (i_less i = true -> h = Some (f_gen (f' (scratch i))) /\ sized i (f' (scratch i))) /\ (h = None <-> i_less i = false) /\
  forall q, q <> scratch i -> f' q = f q.
Proof.
  intros R. unfold initialize, room in *. destruct (i_less i) eqn:El.
  - destruct (R eq_refl) as [D N]. unfold memmap_create. rewrite D. destruct (Nat.eqb_spec (i_nbins i * cells i) 0) as [|_]; [contradiction|].
    unfold memmap_reader, file_res. cbn [pbind run]. rewrite fs_set_same. cbn [f_live f_gen f_data]. rewrite Nat.eqb_refl, repeat_length, Nat.leb_refl. cbn [run pret].
    do 2 eexists. split; [reflexivity|]. split; [discriminate|]. rewrite fs_set_same. cbn [f_live f_gen f_data]. split; [|split].
    + intros _. split; [reflexivity|]. unfold sized. cbn [f_live f_gen f_data]. rewrite Nat.eqb_refl, repeat_length. split; reflexivity.
    + split; discriminate.
    + intros q Hq. rewrite !fs_set_other by exact Hq. reflexivity.
  - exists None, f. split; [reflexivity|]. split; [split; reflexivity|]. split; [discriminate|]. split; [split; reflexivity|reflexivity].
Qed.
Lemma initialize_bad s f : ~ room -> exists e f', run (initialize isdir i) s f = (Raise e, s, f').
Proof.
  intros N. unfold room in N. unfold initialize. destruct (i_less i); [|exfalso; apply N; discriminate].
  unfold memmap_create. destruct (isdir (i_dir i)); [|do 2 eexists; reflexivity].
  destruct (Nat.eqb_spec (i_nbins i * cells i) 0) as [|X]; [do 2 eexists; reflexivity|]. exfalso. apply N. intros _. split; [reflexivity|exact X].
Qed.
Lemma initialize_keeps : keeps_env (initialize isdir i).
Proof.
  unfold initialize. destruct (i_less i); [|constructor]. apply keeps_env_bind; [|intros _; apply keeps_env_bind; [|intros; constructor]].
  - unfold memmap_create. destruct (isdir _); [|constructor]. destruct (_ =? 0); constructor; intros; constructor.
  - unfold memmap_reader, file_res. constructor. intros. constructor.
Qed.
Lemma initialize_only : only (scratch i) (initialize isdir i).
Proof.
  unfold initialize. destruct (i_less i); [|constructor]. apply only_bind; [|intros _; apply only_bind; [|intros; constructor]].
  - unfold memmap_create. destruct (isdir _); [|constructor]. destruct (_ =? 0); constructor; intros; constructor.
  - unfold memmap_reader, file_res. constructor. intros. constructor.
Qed.
Lemma suppressed_ray s : p_ray (suppressed i s) = p_ray s.
Proof. unfold suppressed. destruct (Z.ltb _ _); reflexivity. Qed.
Lemma suppressed_env s x : x <> "pyanen_tqdm_disable"%string -> x <> "pyanen_tqdm_workers"%string -> p_env (suppressed i s) x = p_env s x.
Proof.
  intros N1 N2. unfold suppressed, upd. destruct (Z.ltb _ _); cbn [p_env]; destruct (String.eqb_spec x "pyanen_tqdm_disable"); try contradiction; try reflexivity.
  destruct (String.eqb_spec x "pyanen_tqdm_workers"); [contradiction|reflexivity].
Qed.
Lemma after_ray s : p_ray s = true -> i_cores i <> 1%Z -> ~ ready i s.
Proof. intros H N R. rewrite (R N) in H. discriminate. Qed.
Lemma workflow_ok k vals s f d w : reads s d w -> ready i s -> room -> (forall j, j < i_nbins i -> good i (what_of k (i_v i)) j (vals j)) ->
  exists a s' f', run (workflow pyint isdir i (func_of wait k)) s f = (Ok a, s', f') /\ is_value (i_less i) k i vals a /\
    p_env s' "pyanen_tqdm_disable" = Some (pybool01 d) /\ p_env s' "pyanen_tqdm_workers" = Some (pystr w) /\
    (forall x, x <> "pyanen_tqdm_disable"%string -> x <> "pyanen_tqdm_workers"%string -> p_env s' x = p_env s x) /\
    p_ray s' = p_ray (after i s) /\
    (i_less i = true -> f_live (f' (scratch i)) = false) /\ (i_less i = false -> f' = f) /\ (forall q, q <> scratch i -> f' q = f q).
Proof.
  intros Rd R Rm H. unfold workflow. rewrite run_bind, (suppress_run s f d w Rd), run_bind.
  destruct (initialize_ok (suppressed i s) f Rm) as (h & f1 & R1 & Lf & Lt & Lh & Q1). rewrite R1, run_bind.
  assert (Rs : ready i (suppressed i s)) by (intros N; rewrite suppressed_ray; apply R, N).
  assert (EV : forall s2, p_env s2 = p_env (suppressed i s) -> forall x, x <> "pyanen_tqdm_disable"%string -> x <> "pyanen_tqdm_workers"%string ->
     upd (upd (p_env s2) "pyanen_tqdm_disable" (pybool01 d)) "pyanen_tqdm_workers" (pystr w) x = p_env s x).
  { intros s2 E x N1 N2. unfold upd. destruct (String.eqb_spec x "pyanen_tqdm_workers"); [contradiction|]. destruct (String.eqb_spec x "pyanen_tqdm_disable"); [contradiction|]. rewrite E. apply suppressed_env; assumption. }
  assert (AR : p_ray (after i (suppressed i s)) = p_ray (after i s)) by (unfold after; destruct (Z.eqb _ _); [apply suppressed_ray|reflexivity]).
  assert (AE : p_env (after i (suppressed i s)) = p_env (suppressed i s)) by (unfold after; destruct (Z.eqb _ _); reflexivity).
  destruct (i_less i) eqn:El.
  - destruct (Lt eq_refl) as [-> Sz]. destruct (func_file_ok wait i Hlen k vals _ _ El Rs H Sz) as (a & f2 & R2 & V & L2). rewrite R2, run_bind.
    unfold finalize. rewrite El. unfold file_res. cbn [run]. rewrite L2. cbn [run]. rewrite run_bind.
    match goal with |- context [run (resume _) ?s2 ?f2] => destruct (resume_run s2 f2 d w) as (s3 & R3 & P3 & E3) end. rewrite R3. cbn [run pret].
    do 3 eexists. split; [reflexivity|]. split; [exact V|]. rewrite E3. split; [reflexivity|]. split; [reflexivity|]. split; [apply EV, AE|].
    split; [rewrite P3; exact AR|]. split; [intros _; rewrite fs_set_same; reflexivity|]. split; [discriminate|].
    intros q Hq. rewrite fs_set_other by exact Hq.
    pose proof (only_run _ _ (func_only wait i k (Some (f_gen (f1 (scratch i))))) (suppressed i s) f1 q Hq) as O. rewrite R2 in O. cbn [snd] in O. rewrite O. apply Q1, Hq.
  - destruct (Lf eq_refl) as [-> ->]. destruct (func_mem_ok wait i Hlen k vals (suppressed i s) f El Rs H) as (a & R2 & V). rewrite R2, run_bind.
    unfold finalize. rewrite El. cbn [run pret]. rewrite run_bind.
    match goal with |- context [run (resume _) ?s2 ?f2] => destruct (resume_run s2 f2 d w) as (s3 & R3 & P3 & E3) end. rewrite R3. cbn [run pret].
    do 3 eexists. split; [reflexivity|]. split; [exact V|]. rewrite E3. split; [reflexivity|]. split; [reflexivity|]. split; [apply EV, AE|].
    split; [rewrite P3; exact AR|]. split; [discriminate|]. split; reflexivity.
Qed.
(** a failing task, a running Ray or a missing directory: the environment stays as it was set for the inner computation *)
Lemma workflow_bad k s f d w : reads s d w ->
  ~ ready i s \/ ~ room \/ (exists j, j < i_nbins i /\ bad i (what_of k (i_v i)) j) ->
  exists e s' f', run (workflow pyint isdir i (func_of wait k)) s f = (Raise e, s', f') /\ p_env s' = p_env (suppressed i s).
Proof.
  intros Rd H. unfold workflow. rewrite run_bind, (suppress_run s f d w Rd), run_bind.
  assert (DR : room \/ ~ room).
  { unfold room. destruct (i_less i); [|left; discriminate]. destruct (isdir (i_dir i)); [|right; intros X; destruct (X eq_refl); discriminate].
    destruct (Nat.eq_dec (i_nbins i * cells i) 0) as [E|E]; [right; intros X; destruct (X eq_refl); contradiction|left; split; [reflexivity|exact E]]. }
  destruct DR as [Rm|Nm].
  - destruct (initialize_ok (suppressed i s) f Rm) as (h & f1 & R1 & Lf & Lt & Lh & Q1). rewrite R1, run_bind.
    assert (H' : (exists j, j < i_nbins i /\ bad i (what_of k (i_v i)) j) \/ ~ ready i (suppressed i s)).
    { destruct H as [H|[H|H]]; [right; intros X; apply H; intros N; rewrite <- suppressed_ray; apply X, N|contradiction|left; exact H]. }
    destruct (func_bad wait i Hlen k h (suppressed i s) f1 Lh) as (e & s2 & f2 & R2); [intros El; apply (Lt El)|exact H'|]. rewrite R2.
    do 3 eexists. split; [reflexivity|]. pose proof (keeps_env_run _ (func_env wait i k h) (suppressed i s) f1) as K. rewrite R2 in K. exact K.
  - destruct (initialize_bad (suppressed i s) f Nm) as (e & f1 & R1). rewrite R1. do 3 eexists. split; reflexivity.
Qed.
Lemma workflow_only k : only (scratch i) (workflow pyint isdir i (func_of wait k)).
Proof.
  unfold workflow. apply only_bind.
  - unfold suppress. repeat (first [apply only_bind; [|intros] | constructor; intros]). all: try (destruct (Z.ltb _ _)); repeat (first [constructor; intros]).
  - intros b. apply only_bind; [apply initialize_only|]. intros h. apply only_bind; [apply func_only|]. intros r. apply only_bind.
    + unfold finalize. destruct (i_less i); [|constructor]. unfold file_res. constructor. intros. constructor.
    + intros _. apply only_bind; [|intros; constructor]. unfold resume. repeat (first [apply only_bind; [|intros] | constructor; intros]).
Qed.
End Work.
