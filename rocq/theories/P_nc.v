(** Lemmas about opening a data set (C80-C82). *)
From Coq Require Import String List Bool Arith Lia.
From Verif Require Import Num NdArr M_nc Spec_nc P_ss.
Import ListNotations.
Open Scope string_scope.

Lemma mem_In n l : mem n l = true <-> In n l.
Proof. unfold mem. rewrite existsb_exists. split; [intros (x & H & E); apply String.eqb_eq in E; subst; exact H|intros H; exists n; split; [exact H|apply String.eqb_refl]]. Qed.
Lemma mem_notIn n l : mem n l = false <-> ~ In n l.
Proof. rewrite <- mem_In. destruct (mem n l); split; congruence. Qed.
Section Lemmas.
Context {V : Type}.
Implicit Types ds file : dataset V.
Lemma lookup_In ds n v : lookup ds n = Some v -> In (n, v) ds.
Proof.
  unfold lookup. destruct (find _ ds) as [[m w]|] eqn:E; [|discriminate]. cbn. intros H. injection H as ->. apply find_some in E as [Hi He]. cbn in He. apply String.eqb_eq in He. subst. exact Hi.
Qed.
Lemma In_lookup ds n v : NoDup (map fst ds) -> In (n, v) ds -> lookup ds n = Some v.
Proof.
  unfold lookup. induction ds as [|[m w] ds IH]; intros N H; [contradiction|]. inversion N as [|? ? Hm N']; subst. cbn [find fst]. destruct H as [H|H].
  - injection H as -> ->. rewrite String.eqb_refl. reflexivity.
  - destruct (String.eqb_spec m n) as [E|E]; [exfalso; subst; apply Hm; apply in_map_iff; exists (n, v); auto|apply IH; assumption].
Qed.
Lemma lookup_none ds n : lookup ds n = None <-> ~ In n (map fst ds).
Proof.
  unfold lookup. induction ds as [|[m w] ds IH]; [cbn; tauto|]. cbn [find fst map]. destruct (String.eqb_spec m n) as [E|E]; cbn [option_map In]; [split; [discriminate|intros H; elim H; left; exact E]|].
  rewrite IH. cbn [In]. tauto.
Qed.
Lemma lookup_in_ds ds n : in_ds n ds = true <-> lookup ds n <> None.
Proof. unfold in_ds. rewrite mem_In, lookup_none. destruct (in_dec string_dec n (map fst ds)); tauto. Qed.
Lemma lookup_assign n v ds m : lookup (assign n v ds) m = if String.eqb n m then Some v else lookup ds m.
Proof.
  unfold lookup. induction ds as [|[k w] ds IH]; cbn [assign find fst]; [destruct (String.eqb n m); reflexivity|].
  destruct (String.eqb_spec k n) as [E|E]; cbn [find fst].
  - subst k. destruct (String.eqb n m); reflexivity.
  - destruct (String.eqb_spec k m) as [E'|E']; [|exact IH]. subst m. destruct (String.eqb_spec n k) as [E2|E2]; [congruence|reflexivity].
Qed.
Lemma assign_names_old n v ds : In n (map fst ds) -> map fst (assign n v ds) = map fst ds.
Proof.
  induction ds as [|[k w] ds IH]; [contradiction|]. cbn [map fst assign]. intros H. destruct (String.eqb_spec k n) as [E|E]; cbn [map fst]; [congruence|].
  rewrite IH; [reflexivity|]. destruct H as [H|H]; [contradiction|exact H].
Qed.
Lemma assign_names_new n v ds : ~ In n (map fst ds) -> map fst (assign n v ds) = (map fst ds ++ [n])%list.
Proof.
  induction ds as [|[k w] ds IH]; [reflexivity|]. cbn [map fst assign]. intros H. destruct (String.eqb_spec k n) as [E|E]; [exfalso; apply H; left; exact E|].
  cbn [map fst app]. rewrite IH; [reflexivity|]. intros C. apply H. right. exact C.
Qed.
Lemma assign_nodup n v ds : NoDup (map fst ds) -> NoDup (map fst (assign n v ds)).
Proof.
  intros N. destruct (in_dec string_dec n (map fst ds)) as [H|H]; [rewrite assign_names_old by exact H; exact N|].
  rewrite assign_names_new by exact H. apply NoDup_app_intro; [exact N|repeat constructor; intros []|]. intros x Hx [<-|[]]. exact (H Hx).
Qed.
Lemma in_dims_iff ds d : NoDup (map fst ds) -> (in_dims d ds = true <-> exists n v, lookup ds n = Some v /\ In d (v_dims v)).
Proof.
  intros N. unfold in_dims. rewrite existsb_exists. split.
  - intros ([n v] & Hi & Hm). apply mem_In in Hm. exists n, v. split; [apply In_lookup; assumption|exact Hm].
  - intros (n & v & Hl & Hd). exists (n, v). split; [apply lookup_In, Hl|apply mem_In, Hd].
Qed.
Lemma has_dim_iff ds d : in_dims d ds = true <-> has_dim d ds.
Proof.
  unfold in_dims, has_dim. rewrite existsb_exists. split.
  - intros ([n v] & Hi & Hm). apply mem_In in Hm. exists n, v. auto.
  - intros (n & v & Hl & Hd). exists (n, v). split; [exact Hl|apply mem_In, Hd].
Qed.
(** replacing a variable by one with the same dimensions *)
Lemma in_dims_ext ds ds' d : NoDup (map fst ds) -> NoDup (map fst ds') ->
  ((exists n v, lookup ds n = Some v /\ In d (v_dims v)) <-> (exists n v, lookup ds' n = Some v /\ In d (v_dims v))) -> in_dims d ds = in_dims d ds'.
Proof. intros N N' H. rewrite <- (in_dims_iff ds d N), <- (in_dims_iff ds' d N') in H. destruct (in_dims d ds), (in_dims d ds'); try reflexivity; intuition congruence. Qed.

(** ** Sizes *)
Lemma in_sizes ds d k : In (d, k) (sizes ds) <-> exists n v, In (n, v) ds /\ In (d, k) (combine (v_dims v) (shape (v_data v))).
Proof.
  unfold sizes. rewrite in_flat_map. split; [intros ([n v] & H1 & H2); exists n, v; auto|intros (n & v & H1 & H2); exists (n, v); auto].
Qed.
Lemma consistent_iff ds : consistent ds = true <-> forall d k k', In (d, k) (sizes ds) -> In (d, k') (sizes ds) -> k = k'.
Proof.
  unfold consistent. rewrite forallb_forall. split.
  - intros H d k k' H1 H2. specialize (H _ H1). rewrite forallb_forall in H. specialize (H _ H2). cbn [fst snd] in H. rewrite String.eqb_refl in H. cbn in H. apply Nat.eqb_eq, H.
  - intros H [d k] H1. apply forallb_forall. intros [d' k'] H2. cbn [fst snd]. destruct (String.eqb_spec d d') as [->|E]; [|reflexivity]. cbn. apply Nat.eqb_eq. eapply H; eassumption.
Qed.
Lemma combine_nth_error {A B} (l : list A) (l' : list B) i a b : nth_error l i = Some a -> nth_error l' i = Some b -> nth_error (combine l l') i = Some (a, b).
Proof. revert l l'. induction i; intros [|x l] [|y l']; cbn; intros H1 H2; try discriminate; [congruence|apply IHi; assumption]. Qed.
Lemma combine_nth_error_inv {A B} (l : list A) (l' : list B) i a b : nth_error (combine l l') i = Some (a, b) -> nth_error l i = Some a /\ nth_error l' i = Some b.
Proof. revert l l'. induction i; intros [|x l] [|y l']; cbn; intros H; try discriminate; [injection H as -> ->; auto|apply IHi; assumption]. Qed.
Lemma assign_sizes n w ds : NoDup (map fst ds) -> (forall p, In p (combine (v_dims w) (shape (v_data w))) -> In p (sizes ds)) -> consistent ds = true -> consistent (assign n w ds) = true.
Proof.
  intros N Hw. rewrite !consistent_iff. intros H.
  assert (X : forall d k, In (d, k) (sizes (assign n w ds)) -> In (d, k) (sizes ds)).
  { intros d k Hd. apply in_sizes in Hd as (m & u & Hm & Hu). apply (In_lookup _ _ _ (assign_nodup n w ds N)) in Hm. rewrite lookup_assign in Hm.
    destruct (String.eqb n m); [injection Hm as <-; apply Hw, Hu|]. apply in_sizes. exists m, u. split; [apply lookup_In, Hm|exact Hu]. }
  intros d k k' H1 H2. eapply H; apply X; eassumption.
Qed.
End Lemmas.

(** ** The steps *)
Section Steps.
Context {V : Type} (text : V -> res string) (of_text : string -> V).
Implicit Types ds file : dataset V.
Definition name_ok (v : variable V) : Prop := In "num_chars" (v_dims v) -> exists d a b names, v_dims v = [d; "num_chars"] /\ d <> "num_chars" /\ shape (v_data v) = [a; b] /\ name_rows text v = Ok names /\ length names = a.
Definition dec (v : variable V) : variable V :=
  if mem "num_chars" (v_dims v) then
    match name_rows text v, others (v_dims v) with
    | Ok names, d :: _ => Var [d] (of_list (of_text "") [length names] (map of_text names)) None (v_coord v)
    | _, _ => v
    end
  else v.
Lemma others_two d : d <> "num_chars" -> others [d; "num_chars"] = [d].
Proof. intros H. unfold others. cbn [filter]. destruct (String.eqb_spec d "num_chars"); [contradiction|]. reflexivity. Qed.
Lemma dec_name v d a b names : v_dims v = [d; "num_chars"] -> d <> "num_chars" -> shape (v_data v) = [a; b] -> name_rows text v = Ok names ->
  dec v = Var [d] (of_list (of_text "") [length names] (map of_text names)) None (v_coord v).
Proof. intros H1 H2 H3 H4. unfold dec. rewrite H1, H4, others_two by exact H2. cbn [mem existsb]. rewrite String.eqb_refl, orb_true_r. reflexivity. Qed.
Lemma dec_other v : ~ In "num_chars" (v_dims v) -> dec v = v.
Proof. intros H. unfold dec. apply mem_notIn in H. rewrite H. reflexivity. Qed.
Lemma decode_names_ok vars ds : NoDup (map fst ds) -> consistent ds = true -> NoDup vars -> (forall n, In n vars -> exists v, lookup ds n = Some v /\ name_ok v) ->
  exists ds', decode_names text of_text vars ds = Ok (false, ds') /\ map fst ds' = map fst ds /\
  forall n, lookup ds' n = if mem n vars then option_map dec (lookup ds n) else lookup ds n.
Proof.
  revert ds. induction vars as [|x vars IH]; intros ds N C Nv H; [exists ds; auto|].
  inversion Nv as [|? ? Hx Nv']; subst. destruct (H x (or_introl eq_refl)) as (v & Ev & Hok). cbn [decode_names]. rewrite Ev.
  destruct (mem "num_chars" (v_dims v)) eqn:Em.
  - apply mem_In in Em. destruct (Hok Em) as (d & a & b & names & D & Dn & Sh & Er & Ln). rewrite D. cbn [length Nat.sub Nat.eqb]. rewrite Er. cbn [bind]. rewrite others_two by exact Dn.
    set (w := Var [d] _ None (v_coord v)). assert (Ew : dec v = w) by (eapply dec_name; eassumption).
    assert (C' : consistent (assign x w ds) = true).
    { apply assign_sizes; [exact N| |exact C]. cbn [w v_dims v_data of_list shape combine]. intros p [<-|[]]. apply in_sizes. exists x, v. split; [apply lookup_In, Ev|]. rewrite D, Sh, Ln. left. reflexivity. }
    rewrite C'. destruct (IH (assign x w ds)) as (ds' & E & Nm & L); [apply assign_nodup, N|exact C'|exact Nv'| |].
    { intros n Hn. destruct (H n (or_intror Hn)) as (u & Eu & Hu). exists u. rewrite lookup_assign. destruct (String.eqb_spec x n) as [->|_]; [contradiction|auto]. }
    exists ds'. split; [exact E|]. split; [rewrite Nm; apply assign_names_old; destruct (in_dec string_dec x (map fst ds)) as [i|i]; [exact i|apply lookup_none in i; congruence]|].
    intros n. rewrite L, lookup_assign. cbn [mem existsb]. fold (mem n vars). destruct (String.eqb_spec n x) as [->|Hnx]; cbn [orb].
    + rewrite String.eqb_refl, Ev. cbn [option_map]. rewrite Ew. apply mem_notIn in Hx. rewrite Hx. reflexivity.
    + destruct (String.eqb_spec x n) as [->|_]; [contradiction|reflexivity].
  - destruct (IH ds N C Nv') as (ds' & E & Nm & L); [intros n Hn; apply H; right; exact Hn|]. exists ds'. split; [exact E|]. split; [exact Nm|].
    intros n. rewrite L. cbn [mem existsb]. fold (mem n vars). destruct (String.eqb_spec n x) as [->|_]; [|reflexivity]. cbn [orb].
    rewrite Ev. cbn [option_map]. rewrite dec_other by (apply mem_notIn, Em). destruct (mem x vars); reflexivity.
Qed.
Definition label (ds : dataset V) (pairs : list (string * string)) (n : string) : option (variable V) :=
  match find (fun p => String.eqb (fst p) n) pairs with
  | Some (k, x) => if in_dims k ds then match lookup ds x with Some v => Some (Var [k] (v_data v) (v_units v) true) | None => lookup ds n end else lookup ds n
  | None => lookup ds n
  end.
Lemma add_labels_ok pairs ds : NoDup (map fst ds) -> NoDup (map fst pairs) -> (forall k x k' x', In (k, x) pairs -> In (k', x') pairs -> k <> x') ->
  (forall k x v, In (k, x) pairs -> in_dims k ds = true -> lookup ds x = Some v -> v_dims v = [k]) ->
  (forall k x v, In (k, x) pairs -> in_dims k ds = true -> lookup ds k = Some v -> v_dims v = [k]) ->
  exists ds', add_labels pairs ds = Ok ds' /\ NoDup (map fst ds') /\ (forall d, in_dims d ds' = in_dims d ds) /\ forall n, lookup ds' n = label ds pairs n.
Proof.
  revert ds. induction pairs as [|[k x] pairs IH]; intros ds N Np Hd H1 H2; [exists ds; auto|].
  inversion Np as [|? ? Hk Np']; subst. cbn [fst] in Hk. cbn [add_labels].
  assert (Skip : (in_dims k ds = false \/ lookup ds x = None) -> forall n, label ds ((k, x) :: pairs) n = label ds pairs n).
  { intros Hs n. unfold label at 1. cbn [find fst]. destruct (String.eqb_spec k n) as [->|_]; [|reflexivity].
    assert (F : find (fun p => String.eqb (fst p) n) pairs = None).
    { destruct (find _ pairs) as [[m z]|] eqn:F; [|reflexivity]. exfalso. apply find_some in F as [F1 F2]. cbn in F2. apply String.eqb_eq in F2. subst m. apply Hk. apply in_map_iff. exists (n, z). auto. }
    unfold label. rewrite F. destruct Hs as [-> | ->]; [reflexivity|]. destruct (in_dims n ds); reflexivity. }
  destruct (in_dims k ds) eqn:Ek.
  - destruct (lookup ds x) as [v|] eqn:Ex.
    + rewrite (H1 k x v (or_introl eq_refl) Ek Ex), String.eqb_refl. set (w := Var [k] (v_data v) (v_units v) true). set (ds1 := assign k w ds).
      assert (N1 : NoDup (map fst ds1)) by apply assign_nodup, N.
      assert (D1 : forall d, in_dims d ds1 = in_dims d ds).
      { intros d. apply in_dims_ext; [exact N1|exact N|]. split.
        - intros (n & u & Hl & Hu). unfold ds1 in Hl. rewrite lookup_assign in Hl. destruct (String.eqb_spec k n) as [->|_]; [|exists n, u; auto]. injection Hl as <-.
          cbn [w v_dims] in Hu. destruct Hu as [<-|[]]. apply in_dims_iff in Ek; [exact Ek|exact N].
        - intros (n & u & Hl & Hu). destruct (String.eqb_spec k n) as [->|Hkn].
          + exists n, w. unfold ds1. rewrite lookup_assign, String.eqb_refl. split; [reflexivity|]. rewrite (H2 n x u (or_introl eq_refl) Ek Hl) in Hu. exact Hu.
          + exists n, u. unfold ds1. rewrite lookup_assign. destruct (String.eqb_spec k n); [contradiction|]. auto. }
      assert (Lx : forall k' x', In (k', x') pairs -> lookup ds1 x' = lookup ds x').
      { intros k' x' Hi. unfold ds1. rewrite lookup_assign. destruct (String.eqb_spec k x') as [->|_]; [|reflexivity]. exfalso. eapply (Hd x' x k' x'); [left; reflexivity|right; exact Hi|reflexivity]. }
      destruct (IH ds1 N1 Np') as (ds' & E & N' & D' & L).
      * intros a b c d Ha Hb. eapply Hd; right; eassumption.
      * intros k' x' u Hi. rewrite D1, (Lx k' x' Hi). apply (H1 k' x' u). right. exact Hi.
      * intros k' x' u Hi. rewrite D1. unfold ds1. rewrite lookup_assign. destruct (String.eqb_spec k k') as [->|_]; [exfalso; apply Hk; apply in_map_iff; exists (k', x'); auto|]. apply (H2 k' x' u). right. exact Hi.
      * exists ds'. split; [exact E|]. split; [exact N'|]. split; [intros d; rewrite D'; apply D1|]. intros n. rewrite L. unfold label. cbn [find fst].
        destruct (String.eqb_spec k n) as [->|Hkn].
        -- rewrite Ek, Ex. destruct (find _ pairs) as [[m z]|] eqn:F; [exfalso; apply find_some in F as [F1 F2]; cbn in F2; apply String.eqb_eq in F2; subst m; apply Hk; apply in_map_iff; exists (n, z); auto|].
           unfold ds1. rewrite lookup_assign, String.eqb_refl. reflexivity.
        -- assert (Ln : lookup ds1 n = lookup ds n) by (unfold ds1; rewrite lookup_assign; destruct (String.eqb_spec k n); [contradiction|reflexivity]). rewrite Ln.
           destruct (find _ pairs) as [[m z]|] eqn:F; [|reflexivity]. apply find_some in F as [F1 _]. rewrite D1, (Lx m z F1). reflexivity.
    + destruct (IH ds N Np') as (ds' & E & N' & D' & L); [intros a b c d Ha Hb; eapply Hd; right; eassumption|intros; eapply H1; [right|..]; eassumption|intros; eapply H2; [right|..]; eassumption|].
      exists ds'. split; [exact E|]. split; [exact N'|]. split; [exact D'|]. intros n. rewrite L. symmetry. apply Skip. auto.
  - destruct (IH ds N Np') as (ds' & E & N' & D' & L); [intros a b c d Ha Hb; eapply Hd; right; eassumption|intros; eapply H1; [right|..]; eassumption|intros; eapply H2; [right|..]; eassumption|].
    exists ds'. split; [exact E|]. split; [exact N'|]. split; [exact D'|]. intros n. rewrite L. symmetry. apply Skip. auto.
Qed.
Definition with_epoch (v : variable V) : variable V := Var (v_dims v) (v_data v) (Some epoch) (v_coord v).
Lemma with_epoch_twice v : with_epoch (with_epoch v) = with_epoch v. Proof. reflexivity. Qed.
Lemma set_units_ok names ds : map fst (set_units names ds) = map fst ds /\ forall n, lookup (set_units names ds) n = if mem n names then option_map with_epoch (lookup ds n) else lookup ds n.
Proof.
  revert ds. induction names as [|x names IH]; intros ds; [auto|]. cbn [set_units]. destruct (lookup ds x) as [v|] eqn:E.
  - fold (with_epoch v). destruct (IH (assign x (with_epoch v) ds)) as [A B]. split.
    + rewrite A. apply assign_names_old. destruct (in_dec string_dec x (map fst ds)) as [i|i]; [exact i|apply lookup_none in i; congruence].
    + intros n. rewrite B, lookup_assign. cbn [mem existsb]. fold (mem n names). destruct (String.eqb_spec n x) as [->|Hn]; cbn [orb].
      * rewrite String.eqb_refl, E. cbn [option_map]. rewrite with_epoch_twice. destruct (mem x names); reflexivity.
      * destruct (String.eqb_spec x n); [congruence|reflexivity].
  - destruct (IH ds) as [A B]. split; [exact A|]. intros n. rewrite B. cbn [mem existsb]. fold (mem n names). destruct (String.eqb_spec n x) as [->|Hn]; cbn [orb]; [|reflexivity]. rewrite E. destruct (mem x names); reflexivity.
Qed.
Lemma set_units_dims names ds d : NoDup (map fst ds) -> in_dims d (set_units names ds) = in_dims d ds.
Proof.
  intros N. destruct (set_units_ok names ds) as [A B]. apply in_dims_ext; [rewrite A; exact N|exact N|]. split.
  - intros (n & v & Hl & Hd). rewrite B in Hl. destruct (mem n names); [|exists n, v; auto]. destruct (lookup ds n) as [u|] eqn:E; [|discriminate]. injection Hl as <-. exists n, u. auto.
  - intros (n & v & Hl & Hd). destruct (mem n names) eqn:Em.
    + exists n, (with_epoch v). rewrite B, Em, Hl. auto.
    + exists n, v. rewrite B, Em. auto.
Qed.
Lemma ren_inj a b : a <> "num_times" -> b <> "num_times" -> ren a = ren b -> a = b.
Proof. unfold ren. destruct (String.eqb_spec a "num_test_times"), (String.eqb_spec b "num_test_times"); congruence. Qed.
Definition ren_if (c : bool) (x : string) : string := if c then ren x else x.
Definition renvar_if (c : bool) (v : variable V) : variable V := if c then rename_var v else v.
Lemma rename_ok ds : NoDup (map fst ds) -> (In "num_times" (map fst ds) -> in_dims "num_times" ds = true) ->
  let c := (negb (in_dims "num_times" ds) && in_dims "num_test_times" ds)%bool in
  rename_times ds = Ok (map (fun p => (ren_if c (fst p), renvar_if c (snd p))) ds) /\ NoDup (map (fun p => ren_if c (fst p)) ds).
Proof.
  intros N H c. unfold rename_times. fold c. destruct c eqn:Ec.
  - assert (Hn : ~ In "num_times" (map fst ds)) by (intros Hi; apply H in Hi; unfold c in Ec; rewrite Hi in Ec; discriminate).
    destruct (in_ds "num_times" ds) eqn:E; [apply mem_In in E; contradiction|]. split; [reflexivity|].
    clear -N Hn. induction ds as [|[n v] ds IH]; [constructor|]. cbn [map fst] in *. inversion N as [|? ? H1 H2]; subst. constructor; [|apply IH; [exact H2|intros C; apply Hn; right; exact C]].
    intros Hi. apply in_map_iff in Hi as ([m w] & Em & Hm). cbn [fst ren_if] in Em. apply H1. replace n with m; [apply in_map_iff; exists (m, w); auto|]. apply ren_inj; [intros ->|intros ->|exact Em].
    + apply Hn. right. apply in_map_iff. exists ("num_times", w). auto.
    + apply Hn. left. reflexivity.
  - split; [|exact N]. f_equal. rewrite <- (map_id ds) at 1. apply map_ext. intros []. reflexivity.
Qed.
End Steps.

(** ** The whole function *)
Section Open.
Context {V : Type} (text : V -> res string) (of_text : string -> V) (cf : string -> V -> V).
Implicit Types file : dataset V.
Lemma name_rows_ok (v : variable V) a b : shape (v_data v) = [a; b] -> (forall ix, Forall2 lt ix (shape (v_data v)) -> exists c, text (get (v_data v) ix) = Ok c) ->
  exists names, name_rows text v = Ok names /\ length names = a /\
  forall i, i < a -> exists cs, Forall2 (fun j c => text (get (v_data v) [i; j]) = Ok c) (seq 0 b) cs /\ nth i names "" = String.concat "" cs.
Proof.
  intros Sh H. unfold name_rows. rewrite Sh in *. cbn [nth].
  destruct (mapM_exists (fun i => rmap (String.concat "") (mapM (fun j => text (get (v_data v) [i; j])) (seq 0 b)))
    (fun i s => exists cs, Forall2 (fun j c => text (get (v_data v) [i; j]) = Ok c) (seq 0 b) cs /\ s = String.concat "" cs) (seq 0 a)) as (names & E & F).
  - intros i Hi. apply in_seq in Hi.
    destruct (mapM_exists (fun j => text (get (v_data v) [i; j])) (fun j c => text (get (v_data v) [i; j]) = Ok c) (seq 0 b)) as (cs & Ec & Fc).
    { intros j Hj. apply in_seq in Hj. destruct (H [i; j]) as (c & Hc); [constructor; [lia|constructor; [lia|constructor]]|]. exists c. auto. }
    exists (String.concat "" cs). rewrite Ec. split; [reflexivity|]. exists cs. auto.
  - exists names. split; [exact E|]. pose proof (Forall2_len _ _ _ F) as L. rewrite seq_length in L. split; [symmetry; exact L|].
    intros i Hi. pose proof (Forall2_nth _ _ _ i 0 "" F) as X. rewrite seq_length, seq_nth in X by exact Hi. exact (X Hi).
Qed.
Lemma file_consistent file : anen_file text file -> consistent file = true.
Proof.
  intros (N & L & C & _). apply consistent_iff. intros d k k' H1 H2. apply in_sizes in H1 as (n & v & Hn & Hv). apply in_sizes in H2 as (m & w & Hm & Hw).
  apply In_nth_error in Hv as (i & Hi). apply In_nth_error in Hw as (j & Hj). apply combine_nth_error_inv in Hi as [I1 I2]. apply combine_nth_error_inv in Hj as [J1 J2].
  specialize (C n v m w i j d Hn Hm I1 J1). congruence.
Qed.
Lemma file_names_ok file n v : anen_file text file -> In (n, v) file -> name_ok text v.
Proof.
  intros (N & L & _ & _ & C & _) Hn Hc. destruct (C n v Hn Hc) as (d & D & Dn & T). pose proof (L n v Hn) as Ln. rewrite D in Ln.
  destruct (shape (v_data v)) as [|a [|b [|]]] eqn:Sh; try discriminate. destruct (name_rows_ok v a b Sh) as (names & E & Len & _); [rewrite Sh; exact T|]. exists d, a, b, names. auto.
Qed.
(** the data set before num_test_times is renamed *)
Lemma opened file : anen_file text file -> exists mid,
  let c := (negb (in_dims "num_times" file) && in_dims "num_test_times" file)%bool in
  let out := map (fun p => (ren_if c (fst p), renvar_if c (snd p))) mid in
  open_dataset text of_text cf file false = Ok out /\ open_dataset text of_text cf file true = Ok (decode_cf cf out) /\
  NoDup (map fst mid) /\ NoDup (map fst out) /\
  (forall n, lookup mid n = option_map (if mem n time_names then with_epoch else fun v => v)
     match find (fun p => String.eqb (fst p) n) coords_dict with
     | Some (k, x) => if in_dims k file then match lookup file x with Some v => Some (Var [k] (v_data (dec text of_text v)) (v_units (dec text of_text v)) true) | None => option_map (dec text of_text) (lookup file n) end
                      else option_map (dec text of_text) (lookup file n)
     | None => option_map (dec text of_text) (lookup file n)
     end).
Proof.
  intros A. pose proof A as (N & Ln & Cs & Own & Chr & Lab & Tm). pose proof (file_consistent _ A) as Cf.
  assert (Names : exists ds1, (if in_dims "num_chars" file then decode_names text of_text (map fst file) file else Ok (false, file)) = Ok (false, ds1) /\ map fst ds1 = map fst file /\
    forall n, lookup ds1 n = option_map (dec text of_text) (lookup file n)).
  { destruct (in_dims "num_chars" file) eqn:Ec.
    - destruct (decode_names_ok text of_text (map fst file) file N Cf N) as (ds1 & E & Nm & L).
      { intros n Hn. apply in_map_iff in Hn as ([m v] & <- & Hi). exists v. split; [apply In_lookup; assumption|eapply file_names_ok; eassumption]. }
      exists ds1. split; [exact E|]. split; [exact Nm|]. intros n. rewrite L. destruct (mem n (map fst file)) eqn:Em; [reflexivity|]. apply mem_notIn, lookup_none in Em. rewrite Em. reflexivity.
    - exists file. split; [reflexivity|]. split; [reflexivity|]. intros n. destruct (lookup file n) as [v|] eqn:E; [|reflexivity]. cbn. rewrite dec_other; [reflexivity|].
      intros Hc. assert (X : in_dims "num_chars" file = true) by (apply in_dims_iff; [exact N|exists n, v; auto]). congruence. }
  destruct Names as (ds1 & E1 & Nm1 & L1).
  assert (N1 : NoDup (map fst ds1)) by (rewrite Nm1; exact N).
  assert (Dd : forall n v d, lookup file n = Some v -> d <> "num_chars" -> (In d (v_dims (dec text of_text v)) <-> In d (v_dims v))).
  { intros n v d Hl Hd. destruct (in_dec string_dec "num_chars" (v_dims v)) as [i|i]; [|rewrite dec_other by exact i; reflexivity].
    destruct (file_names_ok _ _ _ A (lookup_In _ _ _ Hl) i) as (e & a & b & names & D & Dn & Sh & Er & _). rewrite (dec_name text of_text v e a b names D Dn Sh Er), D. cbn. intuition congruence. }
  assert (D1 : forall d, d <> "num_chars" -> in_dims d ds1 = in_dims d file).
  { intros d Hd. apply in_dims_ext; [exact N1|exact N|]. split.
    - intros (n & v & Hl & Hi). rewrite L1 in Hl. destruct (lookup file n) as [u|] eqn:E; [|discriminate]. injection Hl as <-. exists n, u. split; [exact E|]. apply (Dd n u d E Hd), Hi.
    - intros (n & v & Hl & Hi). exists n, (dec text of_text v). rewrite L1, Hl. split; [reflexivity|]. apply (Dd n v d Hl Hd), Hi. }
  assert (Knc : forall k x, In (k, x) coords_dict -> k <> "num_chars").
  { intros k x Hi. cbn in Hi. repeat (destruct Hi as [Hi|Hi]; [injection Hi as <- <-; discriminate|]). contradiction. }
  assert (Dd1 : forall v k, v_dims v = [k] \/ v_dims v = [k; "num_chars"] -> k <> "num_chars" -> name_ok text v -> v_dims (dec text of_text v) = [k]).
  { intros v k Hv Hk Hok. destruct (in_dec string_dec "num_chars" (v_dims v)) as [i|i].
    - destruct (Hok i) as (e & a & b & names & D & Dn & Sh & Er & _). rewrite (dec_name text of_text v e a b names D Dn Sh Er). cbn [v_dims]. rewrite D in Hv. destruct Hv as [Hv|Hv]; [discriminate|congruence].
    - rewrite dec_other by exact i. destruct Hv as [Hv|Hv]; [exact Hv|]. exfalso. apply i. rewrite Hv. right. left. reflexivity. }
  destruct (add_labels_ok coords_dict ds1 N1) as (ds2 & E2 & N2 & D2 & L2).
  { repeat constructor; cbn; intuition discriminate. }
  { intros k x k' x' H1 H2. cbn in H1, H2.
    repeat (destruct H1 as [H1|H1]; [injection H1 as <- <-; repeat (destruct H2 as [H2|H2]; [injection H2 as <- <-; discriminate|]); contradiction|]). contradiction. }
  { intros k x v Hi Hk Hl. rewrite D1 in Hk by (eapply Knc; eassumption). rewrite L1 in Hl. destruct (lookup file x) as [u|] eqn:Eu; [|discriminate]. injection Hl as <-.
    apply Dd1; [|eapply Knc; eassumption|eapply file_names_ok; [exact A|apply lookup_In; exact Eu]]. apply (Lab k x u Hi); [apply has_dim_iff, Hk|apply lookup_In, Eu]. }
  { intros k x v Hi Hk Hl. rewrite D1 in Hk by (eapply Knc; eassumption). rewrite L1 in Hl. destruct (lookup file k) as [u|] eqn:Eu; [|discriminate]. injection Hl as <-.
    apply Dd1; [left; apply Own; [apply lookup_In, Eu|apply has_dim_iff, Hk]|eapply Knc; eassumption|eapply file_names_ok; [exact A|apply lookup_In; exact Eu]]. }
  destruct (set_units_ok time_names ds2) as [Nm3 L3]. set (ds3 := set_units time_names ds2) in *.
  assert (N3 : NoDup (map fst ds3)) by (rewrite Nm3; exact N2).
  assert (D3 : forall d, d <> "num_chars" -> in_dims d ds3 = in_dims d file) by (intros d Hd; unfold ds3; rewrite set_units_dims by exact N2; rewrite D2; apply D1, Hd).
  assert (Lm : forall n, lookup ds3 n = option_map (if mem n time_names then with_epoch else fun v => v)
     match find (fun p => String.eqb (fst p) n) coords_dict with
     | Some (k, x) => if in_dims k file then match lookup file x with Some v => Some (Var [k] (v_data (dec text of_text v)) (v_units (dec text of_text v)) true) | None => option_map (dec text of_text) (lookup file n) end
                      else option_map (dec text of_text) (lookup file n)
     | None => option_map (dec text of_text) (lookup file n)
     end).
  { intros n. rewrite L3, L2. unfold label. rewrite L1.
    assert (Y : match find (fun p => String.eqb (fst p) n) coords_dict with
      | Some (k, x) => if in_dims k ds1 then match lookup ds1 x with Some v => Some (Var [k] (v_data v) (v_units v) true) | None => option_map (dec text of_text) (lookup file n) end else option_map (dec text of_text) (lookup file n)
      | None => option_map (dec text of_text) (lookup file n) end = match find (fun p => String.eqb (fst p) n) coords_dict with
     | Some (k, x) => if in_dims k file then match lookup file x with Some v => Some (Var [k] (v_data (dec text of_text v)) (v_units (dec text of_text v)) true) | None => option_map (dec text of_text) (lookup file n) end
                      else option_map (dec text of_text) (lookup file n)
     | None => option_map (dec text of_text) (lookup file n) end).
    { destruct (find _ coords_dict) as [[k x]|] eqn:F; [|reflexivity]. apply find_some in F as [F _]. rewrite D1 by (eapply Knc; eassumption). rewrite L1. destruct (lookup file x); reflexivity. }
    rewrite Y. destruct (mem n time_names); [reflexivity|]. match goal with |- ?a = _ => destruct a; reflexivity end. }
  destruct (rename_ok ds3 N3) as [E3 N4].
  { intros Hi. rewrite D3 by discriminate. apply has_dim_iff. destruct (in_dims "num_times" file) eqn:Et; [apply has_dim_iff, Et|]. exfalso.
    assert (X : lookup ds3 "num_times" <> None) by (intros C; apply lookup_none in C; contradiction). apply X. rewrite Lm. cbn [find coords_dict fst]. cbn -[lookup in_dims dec]. rewrite Et.
    assert (Y : lookup file "num_times" = None) by (apply lookup_none; intros Hf; apply Tm, has_dim_iff in Hf; congruence). rewrite Y. reflexivity. }
  exists ds3. cbv zeta in *. rewrite !D3 in E3, N4 by discriminate.
  split; [unfold open_dataset; rewrite E1; cbn [bind fst snd]; rewrite E2; cbn [bind]; fold ds3; rewrite E3; reflexivity|].
  split; [unfold open_dataset; rewrite E1; cbn [bind fst snd]; rewrite E2; cbn [bind]; fold ds3; rewrite E3; reflexivity|].
  split; [exact N3|]. split; [rewrite map_map; cbn [fst]; exact N4|exact Lm].
Qed.
Lemma dec_same file n v : anen_file text file -> In (n, v) file -> same_values text of_text v (dec text of_text v) /\ v_dims (dec text of_text v) = others (v_dims v) /\ v_coord (dec text of_text v) = v_coord v.
Proof.
  intros A Hn. pose proof A as (N & Ln & _ & _ & C & _). destruct (in_dec string_dec "num_chars" (v_dims v)) as [i|i].
  - destruct (C n v Hn i) as (d & D & Dn & T). pose proof (Ln n v Hn) as L. rewrite D in L. destruct (shape (v_data v)) as [|a [|b [|]]] eqn:Sh; try discriminate.
    destruct (name_rows_ok v a b Sh) as (names & E & Len & G); [rewrite Sh; exact T|]. rewrite (dec_name text of_text v d a b names D Dn Sh E). split; [|split; [rewrite D, others_two by exact Dn; reflexivity|reflexivity]].
    right. split; [exact i|]. exists a, b. split; [exact Sh|]. cbn [v_data of_list shape get]. split; [rewrite Len; reflexivity|]. intros j Hj. destruct (G j Hj) as (cs & F & En). exists cs. split; [exact F|].
    cbn [flat prod]. rewrite Nat.mul_1_r, Nat.add_0_r. rewrite map_nth, En. reflexivity.
  - rewrite dec_other by exact i. split; [left; auto|]. split; [|reflexivity]. unfold others. clear -i. induction (v_dims v) as [|x l IH]; [reflexivity|]. cbn [filter]. destruct (String.eqb_spec x "num_chars") as [->|_]; [exfalso; apply i; left; reflexivity|].
    cbn [negb]. f_equal. apply IH. intros C. apply i. right. exact C.
Qed.
Lemma same_values_ext v w w' : v_data w' = v_data w -> same_values text of_text v w -> same_values text of_text v w'.
Proof. unfold same_values. intros ->. exact (fun H => H). Qed.
Definition cond file : bool := (negb (in_dims "num_times" file) && in_dims "num_test_times" file)%bool.
Lemma cond_iff file : cond file = true <-> renames file.
Proof.
  unfold cond, renames. rewrite <- !has_dim_iff, andb_true_iff, negb_true_iff. destruct (in_dims "num_times" file); split; intros [H1 H2]; split; congruence.
Qed.
Lemma new_name_ren file x : new_name file x (ren_if (cond file) x).
Proof.
  unfold new_name. rewrite <- cond_iff. destruct (cond file); cbn [ren_if]; [|right; split; [intros [C _]; discriminate|reflexivity]].
  unfold ren. destruct (String.eqb_spec x "num_test_times") as [->|H]; [left; auto|right; split; [intros [_ C]; contradiction|reflexivity]].
Qed.
Lemma new_name_unique file x y : new_name file x y -> y = ren_if (cond file) x.
Proof.
  unfold new_name. rewrite <- cond_iff. intros [(-> & -> & ->)|[H ->]]; [reflexivity|]. destruct (cond file) eqn:E; [|reflexivity]. cbn [ren_if]. unfold ren.
  destruct (String.eqb_spec x "num_test_times") as [->|_]; [exfalso; apply H; auto|reflexivity].
Qed.
Lemma lookup_label file n : match find (fun p => String.eqb (fst p) n) coords_dict with
     | Some (k, x) => (if in_dims k file then match lookup file x with Some v => Some v | None => None end else None) | None => None end = None \/ labelled file n.
Proof.
  destruct (find _ coords_dict) as [[k x]|] eqn:F; [|left; reflexivity]. apply find_some in F as [F1 F2]. cbn [fst] in F2. apply String.eqb_eq in F2. subst k.
  destruct (in_dims n file) eqn:En; [|left; reflexivity]. destruct (lookup file x) as [v|] eqn:Ex; [|left; reflexivity]. right. exists x, v. split; [exact F1|]. split; [apply has_dim_iff, En|apply lookup_In, Ex].
Qed.
Lemma find_label d x : In (d, x) label_of -> find (fun p => String.eqb (fst p) d) coords_dict = Some (d, x).
Proof. intros H. cbn in H. repeat (destruct H as [H|H]; [injection H as <- <-; reflexivity|]). contradiction. Qed.
End Open.
