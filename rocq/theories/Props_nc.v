(** Properties C80, C81, C82: opening a data set. *)
From Coq Require Import String Ascii List Bool Arith Lia.
From Verif Require Import Num NdArr M_nc Spec_nc P_nc.
Import ListNotations.
Open Scope string_scope.

(** Vocabulary ([Spec_nc]): [anen_file] are the files considered, [new_name file x y] says that the name x reads y
    afterwards, [labelled file d] that d is a dimension with a label variable, [same_values v w] that w holds the values of v
    (names as strings). *)

(** ** C80 *)
(** Opening keeps every variable with its values under the new names, labels every dimension that has a
    label variable with that variable's values, and adds nothing else. *)
Theorem c80_opened : forall V (text : V -> res string) of_text cf file, anen_file text file ->
  exists out, open_dataset text of_text cf file false = Ok out /\ NoDup (map fst out) /\
  (forall n v, In (n, v) file -> ~ labelled file n -> exists m w, new_name file n m /\ In (m, w) out /\
     Forall2 (new_name file) (filter (fun d => negb (String.eqb d "num_chars")) (v_dims v)) (v_dims w) /\ same_values text of_text v w /\ v_coord w = v_coord v) /\
  (forall d x v, In (d, x) label_of -> has_dim d file -> In (x, v) file -> exists m w, new_name file d m /\ In (m, w) out /\
     v_dims w = [m] /\ v_coord w = true /\ same_values text of_text v w) /\
  (forall m w, In (m, w) out -> exists n, new_name file n m /\ (In n (map fst file) \/ labelled file n)).
Proof.
  intros V text of_text cf file A. destruct (opened text of_text cf file A) as (mid & H). cbv zeta in H. fold (cond file) in H. set (c := cond file) in *. destruct H as (E & _ & Nm & No & L).
  pose proof A as (N & _). eexists. split; [exact E|]. split; [exact No|]. split; [|split].
  - intros n v Hi Hl. destruct (dec_same text of_text file n v A Hi) as (S & D & Co). pose proof (In_lookup _ _ _ N Hi) as Lf.
    set (u := (if mem n time_names then with_epoch else fun v => v) (dec text of_text v)).
    assert (Lu : lookup mid n = Some u).
    { rewrite L. destruct (lookup_label file n) as [X|X]; [|contradiction]. destruct (find _ coords_dict) as [[k x]|]; [|rewrite Lf; reflexivity].
      destruct (in_dims k file); [|rewrite Lf; reflexivity]. destruct (lookup file x); [discriminate|rewrite Lf; reflexivity]. }
    exists (ren_if c n), (renvar_if c u). split; [apply new_name_ren|]. split; [apply in_map_iff; exists (n, u); split; [reflexivity|apply lookup_In, Lu]|].
    assert (Du : v_dims u = others (v_dims v)) by (unfold u; destruct (mem n time_names); exact D).
    assert (Cu : v_coord u = v_coord v) by (unfold u; destruct (mem n time_names); exact Co).
    split; [|split].
    + fold (others (v_dims v)). rewrite <- Du. unfold c. pose proof (new_name_ren file) as R. revert R. destruct (cond file); cbn [renvar_if rename_var v_dims ren_if]; intros R; clear -R.
      * induction (v_dims u); cbn [map]; constructor; auto.
      * induction (v_dims u); constructor; auto.
    + eapply same_values_ext; [|exact S]. unfold u, renvar_if. destruct c, (mem n time_names); reflexivity.
    + rewrite <- Cu. unfold renvar_if. destruct c; reflexivity.
  - intros d x v Hd Hh Hi. destruct (dec_same text of_text file x v A Hi) as (S & D & Co). pose proof (In_lookup _ _ _ N Hi) as Lf. apply has_dim_iff in Hh.
    set (u := (if mem d time_names then with_epoch else fun v => v) (Var [d] (v_data (dec text of_text v)) (v_units (dec text of_text v)) true)).
    assert (Lu : lookup mid d = Some u) by (rewrite L, (find_label d x Hd), Hh, Lf; reflexivity).
    exists (ren_if c d), (renvar_if c u). split; [apply new_name_ren|]. split; [apply in_map_iff; exists (d, u); split; [reflexivity|apply lookup_In, Lu]|].
    split; [unfold u, renvar_if; destruct c, (mem d time_names); reflexivity|]. split; [unfold u, renvar_if; destruct c, (mem d time_names); reflexivity|].
    eapply same_values_ext; [|exact S]. unfold u, renvar_if. destruct c, (mem d time_names); reflexivity.
  - intros m w Hi. apply in_map_iff in Hi as ([n u] & Em & Hi). cbn [fst snd] in Em. injection Em as <- <-. exists n. split; [apply new_name_ren|].
    apply (In_lookup _ _ _ Nm) in Hi. rewrite L in Hi. destruct (lookup_label file n) as [X|X]; [|right; exact X]. left.
    destruct (lookup file n) as [v|] eqn:Ev; [apply lookup_In in Ev; apply in_map_iff; exists (n, v); auto|]. exfalso.
    destruct (find _ coords_dict) as [[k x]|]; [|destruct (mem n time_names); discriminate]. destruct (in_dims k file); [|destruct (mem n time_names); discriminate].
    destruct (lookup file x); [discriminate|destruct (mem n time_names); discriminate].
Qed.
Print Assumptions c80_opened.

(** A variable of characters with another number of dimensions: the file comes back as it was, decoded or not. *)
Theorem c80_early_return : forall V (text : V -> res string) of_text cf pre n v post decode, let file := (pre ++ (n, v) :: post)%list in
  NoDup (map fst file) -> (forall m w, In (m, w) pre -> ~ In "num_chars" (v_dims w)) -> In "num_chars" (v_dims v) -> length (v_dims v) <> 2 ->
  open_dataset text of_text cf file decode = Ok file.
Proof.
  intros V text of_text cf pre n v post decode file N Hp Hc Hl.
  assert (D : in_dims "num_chars" file = true) by (apply has_dim_iff; exists n, v; split; [apply in_or_app; right; left; reflexivity|exact Hc]).
  assert (G : forall l, (forall m w, In (m, w) l -> ~ In "num_chars" (v_dims w) /\ In (m, w) file) -> decode_names text of_text (map fst (l ++ (n, v) :: post)%list) file = Ok (true, file)).
  { induction l as [|[m w] l IH]; intros H; cbn [app map fst decode_names].
    - rewrite (In_lookup file n v N) by (apply in_or_app; right; left; reflexivity). apply mem_In in Hc. rewrite Hc. destruct (Nat.eqb_spec (length (v_dims v) - 1) 1); [lia|reflexivity].
    - destruct (H m w (or_introl eq_refl)) as [H1 H2]. rewrite (In_lookup file m w N H2). apply mem_notIn in H1. rewrite H1. apply IH. intros m' w' Hi. apply H. right. exact Hi. }
  unfold open_dataset. rewrite D. unfold file at 1. rewrite G; [reflexivity|]. intros m w Hi. split; [eapply Hp, Hi|apply in_or_app; left; exact Hi].
Qed.
Print Assumptions c80_early_return.
(** The new name of the dimension of the test times is refused when a variable has it already. *)
Theorem c80_name_taken : forall V (text : V -> res string) of_text cf file decode v, NoDup (map fst file) -> ~ has_dim "num_chars" file -> ~ has_dim "num_times" file ->
  In "num_times" (map fst file) -> In ("test_times", v) file -> v_dims v = ["num_test_times"] -> open_dataset text of_text cf file decode = Raise ValueError.
Proof.
  intros V text of_text cf file decode v N Hc Ht Hn Hv Dv. rewrite <- has_dim_iff in Hc, Ht. apply not_true_is_false in Hc. apply not_true_is_false in Ht.
  set (inv := fun ds : dataset V => NoDup (map fst ds) /\ in_dims "num_times" ds = false /\ In "num_times" (map fst ds) /\ exists w, lookup ds "test_times" = Some w /\ v_dims w = ["num_test_times"]).
  assert (Mem : forall k (w : variable V) (ds : dataset V), NoDup (map fst ds) -> In "num_times" (map fst ds) -> In "num_times" (map fst (assign k w ds))).
  { intros k w ds Nd H. destruct (in_dec string_dec k (map fst ds)) as [i|i]; [rewrite assign_names_old by exact i; exact H|rewrite assign_names_new by exact i; apply in_or_app; left; exact H]. }
  assert (Dim : forall k (w : variable V) (ds : dataset V), NoDup (map fst ds) -> in_dims "num_times" ds = false -> ~ In "num_times" (v_dims w) -> in_dims "num_times" (assign k w ds) = false).
  { intros k w ds Nd H Hw. apply not_true_is_false. intros C. apply (in_dims_iff _ _ (assign_nodup k w ds Nd)) in C as (m & u & Hu & Du). rewrite lookup_assign in Hu.
    destruct (String.eqb k m); [injection Hu as <-; contradiction|]. assert (X : in_dims "num_times" ds = true) by (apply (in_dims_iff _ _ Nd); exists m, u; auto). congruence. }
  assert (A : forall pairs ds, inv ds -> (forall k x, In (k, x) pairs -> k <> "test_times") -> add_labels pairs ds = Raise ValueError \/ exists ds', add_labels pairs ds = Ok ds' /\ inv ds').
  { induction pairs as [|[k x] pairs IH]; intros ds I Hk; [right; exists ds; auto|]. cbn [add_labels].
    assert (Hk' : forall k' x', In (k', x') pairs -> k' <> "test_times") by (intros k' x' Hi; apply (Hk k' x'); right; exact Hi).
    destruct (in_dims k ds) eqn:Ek; [|apply IH; assumption]. destruct (lookup ds x) as [u|]; [|apply IH; assumption].
    destruct (v_dims u) as [|d [|]]; try (left; reflexivity). destruct (String.eqb d k); [|left; reflexivity]. apply IH; [|exact Hk'].
    destruct I as (I1 & I2 & I3 & w & I4 & I5). split; [apply assign_nodup, I1|]. split; [apply Dim; [exact I1|exact I2|]|split; [apply Mem; assumption|]].
    - cbn [v_dims]. intros [C|[]]. congruence.
    - exists w. split; [|exact I5]. rewrite lookup_assign. destruct (String.eqb_spec k "test_times") as [C|_]; [exfalso; eapply Hk; [left; reflexivity|exact C]|exact I4]. }
  assert (B : forall names ds, inv ds -> inv (set_units names ds)).
  { induction names as [|m names IH]; intros ds I; [exact I|]. cbn [set_units]. apply IH. destruct (lookup ds m) as [u|] eqn:Eu; [|exact I].
    destruct I as (I1 & I2 & I3 & w & I4 & I5). split; [apply assign_nodup, I1|]. split; [apply Dim; [exact I1|exact I2|]|split; [apply Mem; assumption|]].
    - cbn [v_dims]. intros C. assert (X : in_dims "num_times" ds = true) by (apply (in_dims_iff _ _ I1); exists m, u; auto). congruence.
    - rewrite lookup_assign. destruct (String.eqb_spec m "test_times") as [C|_]; [|exists w; auto]. subst m. rewrite I4 in Eu. injection Eu as <-. eexists. split; [reflexivity|exact I5]. }
  unfold open_dataset. rewrite Hc. cbn [bind fst snd].
  assert (I0 : inv file) by (split; [exact N|]; split; [exact Ht|]; split; [exact Hn|]; exists v; split; [apply In_lookup; assumption|exact Dv]).
  destruct (A coords_dict file I0) as [E|(ds & E & I)].
  - intros k x Hi C. cbn in Hi. subst k. repeat (destruct Hi as [Hi|Hi]; [discriminate|]). contradiction.
  - rewrite E. reflexivity.
  - rewrite E. cbn [bind]. apply (B time_names) in I. destruct I as (I1 & I2 & I3 & w & I4 & I5). unfold rename_times. rewrite I2.
    assert (X : in_dims "num_test_times" (set_units time_names ds) = true) by (apply (in_dims_iff _ _ I1); exists "test_times", w; rewrite I5; cbn; auto). rewrite X. cbn [negb andb].
    unfold in_ds. apply mem_In in I3. rewrite I3. reflexivity.
Qed.
Print Assumptions c80_name_taken.

(** ** C81 *)
Definition time_variables : list string := ["test_times"; "search_times"; "Times"; "num_test_times"; "num_times"].
(** these five get the units of the epoch and are decoded with them; variables without units are not touched by decoding *)
Theorem c81_times_partial : forall V (text : V -> res string) of_text cf file, anen_file text file ->
  exists out out', open_dataset text of_text cf file false = Ok out /\ open_dataset text of_text cf file true = Ok out' /\ NoDup (map fst out') /\
  map fst out' = map fst out /\
  (forall m w, In (m, w) out -> In m time_variables -> v_units w = Some "seconds since 1970-01-01" /\
     exists w', In (m, w') out' /\ v_dims w' = v_dims w /\ shape (v_data w') = shape (v_data w) /\ v_coord w' = v_coord w /\ v_units w' = None /\
     forall ix, get (v_data w') ix = cf "seconds since 1970-01-01" (get (v_data w) ix)) /\
  (forall m w, In (m, w) out -> v_units w = None -> In (m, w) out').
Proof.
  intros V text of_text cf file A. destruct (opened text of_text cf file A) as (mid & H). cbv zeta in H. fold (cond file) in H. set (c := cond file) in *. destruct H as (E & E' & Nm & No & L).
  set (out := map _ mid) in *.
  assert (Mf : map fst (decode_cf cf out) = map fst out) by (unfold decode_cf; rewrite map_map; reflexivity).
  exists out, (decode_cf cf out). split; [exact E|]. split; [exact E'|]. split; [rewrite Mf; exact No|]. split; [exact Mf|]. split.
  - intros m w Hi Hm.
    assert (U : v_units w = Some epoch).
    { unfold out in Hi. apply in_map_iff in Hi as ([n u] & Em & Hi). cbn [fst snd] in Em. injection Em as <- <-. apply (In_lookup _ _ _ Nm) in Hi. rewrite L in Hi.
      assert (Tn : mem n time_names = true).
      { apply mem_In. unfold c in Hm. destruct (cond file); cbn [ren_if] in Hm; [|exact Hm]. unfold ren in Hm. destruct (String.eqb_spec n "num_test_times") as [->|_]; [cbn; tauto|exact Hm]. }
      rewrite Tn in Hi. match type of Hi with option_map _ ?y = _ => destruct y as [z|]; [|discriminate] end. injection Hi as <-. unfold renvar_if. destruct c; reflexivity. }
    split; [exact U|]. exists (decode_var cf w). split; [apply in_map_iff; exists (m, w); auto|]. unfold decode_var. rewrite U. cbn [v_dims v_data v_coord v_units]. repeat split; reflexivity.
  - intros m w Hi Hu. apply in_map_iff. exists (m, w). split; [|exact Hi]. cbn [fst snd]. unfold decode_var. rewrite Hu. reflexivity.
Qed.
Print Assumptions c81_times_partial.
(** Example files: values are numbers, characters, strings and times *)
Inductive cell := Number (n : nat) | Letter (c : ascii) | Words (s : string) | Date (n : nat).
Definition cell_text (x : cell) : res string := match x with Letter c => Ok (String c "") | Words s => Ok s | _ => Raise ValueError end.
Definition cell_cf (u : string) (x : cell) : cell := match x with Number n => if String.eqb u "seconds since 1970-01-01" then Date n else x | _ => x end.
Definition row_of (l : list cell) : arr cell := of_list (Number 0) [length l] l.
Definition nc_file : dataset cell :=
  [("FLTs", Var ["num_flts"] (row_of [Number 0; Number 3600]) None false);
   ("ParameterNames", Var ["num_parameters"; "num_chars"] (of_list (Number 0) [2; 2] [Letter "u"; Letter "1"; Letter "v"; Letter "2"]) None false);
   ("test_times", Var ["num_test_times"] (row_of [Number 7; Number 8; Number 9]) None false);
   ("search_times", Var ["num_search_times"] (row_of [Number 1; Number 2]) None false);
   ("Xs", Var ["num_stations"] (row_of [Number 5; Number 6]) None false);
   ("Ys", Var ["num_stations"] (row_of [Number 3; Number 4]) None false);
   ("analogs", Var ["num_flts"; "num_test_times"] (of_list (Number 0) [2; 3] (map Number [1; 2; 3; 4; 5; 6])) None false)].
Definition shown (r : res (dataset cell)) : list (string * (list string * list nat * list cell * bool)) :=
  match r with Ok ds => map (fun p => (fst p, (v_dims (snd p), shape (v_data (snd p)), ravel (v_data (snd p)), v_coord (snd p)))) ds | Raise _ => [] end.
Lemma nc_file_ok : anen_file cell_text nc_file.
Proof.
  split; [repeat constructor; cbn; intuition discriminate|].
  split; [intros n v H; cbn in H; repeat (destruct H as [H|H]; [injection H as <- <-; reflexivity|]); contradiction|].
  split.
  { assert (C : consistent nc_file = true) by (vm_compute; reflexivity). rewrite consistent_iff in C.
    assert (L : forall n v, In (n, v) nc_file -> length (shape (v_data v)) = length (v_dims v)) by (intros n v H; cbn in H; repeat (destruct H as [H|H]; [injection H as <- <-; reflexivity|]); contradiction).
    assert (X : forall n v i d, In (n, v) nc_file -> nth_error (v_dims v) i = Some d -> exists k, nth_error (shape (v_data v)) i = Some k /\ In (d, k) (sizes nc_file)).
    { intros n v i d Hi Hd. destruct (nth_error (shape (v_data v)) i) as [k|] eqn:Ek.
      - exists k. split; [reflexivity|]. apply in_sizes. exists n, v. split; [exact Hi|]. eapply nth_error_In, combine_nth_error; eassumption.
      - exfalso. apply nth_error_None in Ek. rewrite (L n v Hi) in Ek. apply nth_error_None in Ek. congruence. }
    intros n v m w i j d H1 H2 H3 H4. destruct (X n v i d H1 H3) as (k & -> & K1). destruct (X m w j d H2 H4) as (k' & -> & K2). f_equal. eapply C; eassumption. }
  split.
  { intros n v H Hd. apply has_dim_iff in Hd. cbn in H. repeat (destruct H as [H|H]; [injection H as <- <-; try reflexivity; vm_compute in Hd; discriminate|]). contradiction. }
  split.
  { intros n v H Hc. cbn in H. repeat (destruct H as [H|H]; [injection H as <- <-; cbn in Hc; try (exfalso; intuition discriminate)|]); try contradiction.
    exists "num_parameters". split; [reflexivity|]. split; [discriminate|]. intros ix Hx. cbn in Hx. inversion Hx as [|i ? r ? Hi Hr]; subst. inversion Hr as [|j ? r' ? Hj Hr']; subst. inversion Hr'; subst.
    destruct i as [|[|]]; [| |lia]; (destruct j as [|[|]]; [| |lia]); eexists; reflexivity. }
  split.
  { intros d n v Hd Hh H. cbn in Hd. cbn in H.
    repeat (destruct Hd as [Hd|Hd]; [injection Hd as <- <-; repeat (destruct H as [H|H]; [injection H as; subst; try discriminate; cbn; tauto|]); contradiction|]). contradiction. }
  intros H. cbn in H. intuition discriminate.
Qed.
Example c80_nonvacuous : anen_file cell_text nc_file /\ renames nc_file /\ labelled nc_file "num_parameters" /\
  shown (open_dataset cell_text Words cell_cf nc_file false) =
  [("FLTs", (["num_flts"], [2], [Number 0; Number 3600], false)); ("ParameterNames", (["num_parameters"], [2], [Words "u1"; Words "v2"], false));
   ("test_times", (["num_times"], [3], [Number 7; Number 8; Number 9], false)); ("search_times", (["num_search_times"], [2], [Number 1; Number 2], false));
   ("Xs", (["num_stations"], [2], [Number 5; Number 6], false)); ("Ys", (["num_stations"], [2], [Number 3; Number 4], false));
   ("analogs", (["num_flts"; "num_times"], [2; 3], map Number [1; 2; 3; 4; 5; 6], false)); ("num_flts", (["num_flts"], [2], [Number 0; Number 3600], true));
   ("num_parameters", (["num_parameters"], [2], [Words "u1"; Words "v2"], true)); ("num_times", (["num_times"], [3], [Number 7; Number 8; Number 9], true));
   ("num_search_times", (["num_search_times"], [2], [Number 1; Number 2], true))].
Proof.
  split; [apply nc_file_ok|]. split; [apply cond_iff; reflexivity|]. split.
  - eexists. eexists. split; [right; left; reflexivity|]. split; [apply has_dim_iff; reflexivity|right; left; reflexivity].
  - vm_compute. reflexivity.
Qed.
(** a file of notes in one dimension; a scalar called num_times *)
Example c80_odd_files : let notes := ("Notes", Var ["num_chars"] (row_of [Letter "a"]) None false) in let scalar := ("num_times", Var [] (of_list (Number 0) [] [Number 3]) None false) in
  let times := ("test_times", Var ["num_test_times"] (row_of [Number 7; Number 8; Number 9]) None false) in
  open_dataset cell_text Words cell_cf [times; notes] true = Ok [times; notes] /\ open_dataset cell_text Words cell_cf [times; scalar] true = Raise ValueError.
Proof. split; [apply (c80_early_return _ _ _ _ [_] "Notes" _ []); cbn; [repeat constructor; cbn; intuition discriminate|intros m w [H|[]]; injection H as <- <-; cbn; intuition discriminate|tauto|discriminate]|reflexivity]. Qed.
(** The labels of the search times are not decoded: search_times holds dates, num_search_times seconds. *)
Theorem c81_search_labels_refuted : ~ (forall V (text : V -> res string) of_text cf file out, anen_file text file -> open_dataset text of_text cf file true = Ok out ->
  forall d x m v w, In (d, x) label_of -> new_name file d m -> In (x, v) out -> In (m, w) out -> has_dim d file -> ravel (v_data w) = ravel (v_data v)).
Proof.
  intros H. destruct (open_dataset cell_text Words cell_cf nc_file true) as [out|] eqn:E; [|vm_compute in E; discriminate].
  assert (S : shown (Ok out) = shown (open_dataset cell_text Words cell_cf nc_file true)) by (rewrite E; reflexivity).
  assert (Lv : option_map (fun v => ravel (v_data v)) (lookup out "search_times") = Some [Date 1; Date 2]).
  { transitivity (match open_dataset cell_text Words cell_cf nc_file true with Ok o => option_map (fun v => ravel (v_data v)) (lookup o "search_times") | Raise _ => None end); [rewrite E; reflexivity|vm_compute; reflexivity]. }
  assert (Lw : option_map (fun v => ravel (v_data v)) (lookup out "num_search_times") = Some [Number 1; Number 2]).
  { transitivity (match open_dataset cell_text Words cell_cf nc_file true with Ok o => option_map (fun v => ravel (v_data v)) (lookup o "num_search_times") | Raise _ => None end); [rewrite E; reflexivity|vm_compute; reflexivity]. }
  destruct (lookup out "search_times") as [v|] eqn:Ev; [|discriminate]. destruct (lookup out "num_search_times") as [w|] eqn:Ew; [|discriminate]. cbn in Lv, Lw. injection Lv as Lv. injection Lw as Lw.
  assert (X : ravel (v_data w) = ravel (v_data v)).
  { apply (H cell cell_text Words cell_cf nc_file out nc_file_ok E "num_search_times" "search_times" "num_search_times" v w).
    - cbn. tauto.
    - right. split; [intros [_ C]; discriminate|reflexivity].
    - apply lookup_In, Ev.
    - apply lookup_In, Ew.
    - apply has_dim_iff. reflexivity. }
  congruence.
Qed.
Print Assumptions c81_search_labels_refuted.
(** A character variable with another number of dimensions ends the work at once: no labels, no units, no decoding. *)
Theorem c81_undecodable_refuted : ~ (forall V (text : V -> res string) of_text cf file out, open_dataset text of_text cf file true = Ok out ->
  forall v, In ("test_times", v) file -> exists w, In ("test_times", w) out /\ forall ix, Forall2 lt ix (shape (v_data v)) -> get (v_data w) ix = cf "seconds since 1970-01-01" (get (v_data v) ix)).
Proof.
  intros H. set (file := ("Notes", Var ["num_chars"] (row_of [Letter "a"]) None false) :: nc_file).
  assert (E : open_dataset cell_text Words cell_cf file true = Ok file) by reflexivity.
  destruct (H cell cell_text Words cell_cf file file E (Var ["num_test_times"] (row_of [Number 7; Number 8; Number 9]) None false)) as (w & Hw & G); [cbn; tauto|].
  apply (In_lookup file) in Hw; [|repeat constructor; cbn; intuition discriminate]. cbn in Hw. injection Hw as <-. specialize (G [0]). cbn in G. assert (X : Number 7 = Date 7) by (apply G; repeat constructor; lia). discriminate.
Qed.
Print Assumptions c81_undecodable_refuted.
Example c81_nonvacuous : option_map (fun p => snd (fst (snd p))) (find (fun p => String.eqb (fst p) "num_times") (shown (open_dataset cell_text Words cell_cf nc_file true))) = Some [Date 7; Date 8; Date 9] /\
  option_map (fun p => snd (fst (snd p))) (find (fun p => String.eqb (fst p) "FLTs") (shown (open_dataset cell_text Words cell_cf nc_file true))) = Some [Number 0; Number 3600].
Proof. split; vm_compute; reflexivity. Qed.

(** ** C82 *)
Definition plain_name (n : string) : Prop := ~ In n (map fst label_of).
Lemma opened_plain V (text : V -> res string) of_text cf file n : anen_file text file -> plain_name n -> exists out, open_dataset text of_text cf file false = Ok out /\
  (forall v, In (n, v) file -> exists w, lookup out n = Some w /\ same_values text of_text v w) /\ (~ In n (map fst file) -> lookup out n = None).
Proof.
  intros A Hp. destruct (c80_opened V text of_text cf file A) as (out & E & No & H1 & _ & H3). exists out. split; [exact E|].
  assert (Nl : ~ labelled file n) by (intros (x & v & Hx & _); apply Hp; apply in_map_iff; exists (n, x); auto).
  split.
  - intros v Hv. destruct (H1 n v Hv Nl) as (m & w & Hm & Hi & _ & S & _). assert (m = n); [|subst m; exists w; split; [apply In_lookup; assumption|exact S]].
    apply new_name_unique in Hm. subst m. unfold ren_if, ren. destruct (cond file); [|reflexivity]. destruct (String.eqb_spec n "num_test_times") as [->|_]; [exfalso; apply Hp; cbn; tauto|reflexivity].
  - intros Hn. apply lookup_none. intros Hi. apply in_map_iff in Hi as ([m w] & Em & Hi). cbn in Em. subst m. destruct (H3 n w Hi) as (k & Hk & Hor).
    assert (k = n) as ->; [|destruct Hor; contradiction].
    apply new_name_unique in Hk. unfold ren_if, ren in Hk. destruct (cond file); [|congruence]. destruct (String.eqb_spec k "num_test_times") as [K|_]; [|congruence]. exfalso. apply Hp. rewrite Hk. cbn. tauto.
Qed.
(** the coordinates are the values stored in the file; unequal numbers and missing variables are errors *)
Theorem c82_coordinates : forall V (text : V -> res string) of_text cf file var_x var_y, anen_file text file -> plain_name var_x -> plain_name var_y ->
  (forall x y nx ny, In (var_x, x) file -> In (var_y, y) file -> ~ In "num_chars" (v_dims x) -> ~ In "num_chars" (v_dims y) -> shape (v_data x) = [nx] -> shape (v_data y) = [ny] ->
    (nx = ny -> exists a b, read_station_coordinates text of_text cf file var_x var_y = Ok (a, b) /\ shape a = [nx] /\ shape b = [nx] /\
       forall i, i < nx -> get a [i] = get (v_data x) [i] /\ get b [i] = get (v_data y) [i]) /\
    (nx <> ny -> read_station_coordinates text of_text cf file var_x var_y = Raise AssertionError)) /\
  (~ In var_x (map fst file) \/ ~ In var_y (map fst file) -> read_station_coordinates text of_text cf file var_x var_y = Raise KeyError).
Proof.
  intros V text of_text cf file X Y A Px Py. destruct (opened_plain V text of_text cf file X A Px) as (out & E & Fx & Mx). destruct (opened_plain V text of_text cf file Y A Py) as (out' & E' & Fy & My).
  rewrite E in E'. injection E' as <-. unfold read_station_coordinates. rewrite E. cbn [bind]. split.
  - intros x y nx ny Hx Hy Cx Cy Sx Sy. destruct (Fx x Hx) as (wx & Lx & [(_ & Shx & Gx)|[C _]]); [|contradiction]. destruct (Fy y Hy) as (wy & Ly & [(_ & Shy & Gy)|[C _]]); [|contradiction].
    rewrite Lx, Ly, Shx, Shy, Sx, Sy. rewrite Sx in Gx. rewrite Sy in Gy. split.
    + intros ->. rewrite Nat.eqb_refl. cbn [passert bind]. exists (v_data wx), (v_data wy). split; [reflexivity|]. rewrite Shx, Shy, Sx, Sy. split; [reflexivity|]. split; [reflexivity|].
      intros i Hi. split; [apply Gx|apply Gy]; (constructor; [exact Hi|constructor]).
    + intros Hne. apply Nat.eqb_neq in Hne. rewrite Hne. reflexivity.
  - intros [H|H]; [rewrite (Mx H); reflexivity|rewrite (My H)]. destruct (lookup out X); reflexivity.
Qed.
Print Assumptions c82_coordinates.
Example c82_nonvacuous : plain_name "Xs" /\ plain_name "Ys" /\
  (exists a b, read_station_coordinates cell_text Words cell_cf nc_file "Xs" "Ys" = Ok (a, b) /\ ravel a = [Number 5; Number 6] /\ ravel b = [Number 3; Number 4]) /\
  read_station_coordinates cell_text Words cell_cf nc_file "Xs" "test_times" = Raise AssertionError /\ read_station_coordinates cell_text Words cell_cf nc_file "X" "Ys" = Raise KeyError.
Proof.
  split; [unfold plain_name; cbn; intuition discriminate|]. split; [unfold plain_name; cbn; intuition discriminate|]. split; [|split; vm_compute; reflexivity].
  eexists. eexists. split; [vm_compute; reflexivity|]. split; vm_compute; reflexivity.
Qed.
