(** Lemmas for Props_repr.v *)
From Coq Require Import String Ascii ZArith List Bool Lia.
From Verif Require Import Num M_state M_io M_repr Spec_repr P_state.
Import ListNotations.
Open Scope string_scope.
Open Scope list_scope.

Lemma lines_nonempty s : lines s <> [].
Proof. destruct s as [|c r]; cbn [lines]; [discriminate|]. destruct (is_newline c); [discriminate|]. destruct (lines r); discriminate. Qed.
Lemma one_line_lines s : one_line s -> lines s = [s].
Proof. induction s as [|c r IH]; cbn [lines one_line]; [reflexivity|]. intros [H1 H2]. rewrite H1, (IH H2). reflexivity. Qed.
Lemma one_line_app a b : one_line a -> one_line b -> one_line (a ++ b).
Proof. induction a as [|c r IH]; cbn [one_line append]; [auto|]. intros [H1 H2] H. split; [exact H1|exact (IH H2 H)]. Qed.
Lemma lines_cons_nl s : lines (newline ++ s) = "" :: lines s.
Proof. reflexivity. Qed.
(** text up to a line end *)
Lemma lines_nl a b : lines (a ++ newline ++ b) = lines a ++ lines b.
Proof.
  induction a as [|c r IH].
  - reflexivity.
  - change (String c r ++ newline ++ b)%string with (String c (r ++ newline ++ b)). cbn [lines]. rewrite IH.
    destruct (is_newline c); [reflexivity|]. pose proof (lines_nonempty r). destruct (lines r); [contradiction|reflexivity].
Qed.
Lemma lines_pre a b : one_line a -> lines (a ++ b) = match lines b with h :: t => (a ++ h)%string :: t | [] => [] end.
Proof.
  induction a as [|c r IH]; intros H.
  - cbn [append]. pose proof (lines_nonempty b). destruct (lines b); [contradiction|reflexivity].
  - cbn [one_line] in H. destruct H as [H1 H2]. change (String c r ++ b)%string with (String c (r ++ b)). cbn [lines]. rewrite H1, (IH H2).
    pose proof (lines_nonempty b). destruct (lines b); [contradiction|reflexivity].
Qed.
Lemma app_inj a b c : (a ++ b = a ++ c)%string -> b = c.
Proof. induction a as [|x r IH]; cbn [append]; [auto|]. intros H. injection H as H. exact (IH H). Qed.

Section Repr.
Variable text : val -> string.
Variable has_len : nat -> bool.
Variable fname : nat -> option string.
Notation format := (format text has_len).

Lemma join_lines sep l : (forall x, In x l -> lines x = [x]) -> forall a, lines a = [a] -> one_line sep ->
  lines (join (newline ++ sep) (a :: l)) = a :: map (fun x => (sep ++ x)%string) l.
Proof.
  induction l as [|y l IH]; intros H a Ha Hs.
  - exact Ha.
  - change (join (newline ++ sep) (a :: y :: l)) with (a ++ (newline ++ sep) ++ join (newline ++ sep) (y :: l))%string.
    rewrite sapp_assoc, lines_nl, Ha, (lines_pre sep) by exact Hs.
    rewrite IH; [reflexivity|intros x Hx; apply H; right; exact Hx|apply H; left; reflexivity|exact Hs].
Qed.
Ltac ones := repeat split; assumption.
Lemma about_lines lab v : one_line lab -> (forall w, one_line (shape_text text w)) -> (forall k w, In (k, w) (fields v) -> one_line k) ->
  ((exists sh n, v = VArr sh n) \/ exists l, v = VDict l /\ forall k w, In (k, w) l -> exists sh n, w = VArr sh n) ->
  lines ((lab ++ ": ") ++ format v "")%string = about text lab v.
Proof.
  intros L S K [(sh & n & ->)|(l & -> & H)].
  - cbn [M_repr.format about]. rewrite one_line_lines; [rewrite sapp_assoc; reflexivity|].
    repeat (apply one_line_app); try (repeat split; fail); [exact L|exact (S (VArr sh n))].
  - cbn [M_repr.format about]. cbn [fields] in K.
    rewrite lines_pre by (apply one_line_app; [exact L|repeat split]).
    replace (newline ++ "" ++ "  - ")%string with (newline ++ "  - ")%string by reflexivity.
    rewrite (join_lines "  - ").
    + rewrite sapp_assoc. cbn [append]. f_equal. rewrite map_map. apply map_ext_in. intros [k w] Hi. destruct (H k w Hi) as (sh & n & ->). cbn [fst snd M_repr.format]. reflexivity.
    + intros x Hx. apply in_map_iff in Hx as ([k w] & <- & Hi). destruct (H k w Hi) as (sh & n & ->). apply one_line_lines. cbn [fst snd M_repr.format].
      apply one_line_app; [exact (K k _ Hi)|]. apply one_line_app; [repeat split|]. apply one_line_app; [repeat split|]. apply one_line_app; [repeat split|exact (S (VArr sh n))].
    + reflexivity.
    + repeat split.
Qed.
Lemma set_line lab v : one_line lab -> one_line (text v) -> lines ((lab ++ ": ") ++ text v)%string = [(lab ++ ": " ++ text v)%string].
Proof. intros L T. rewrite one_line_lines; [rewrite sapp_assoc; reflexivity|]. repeat apply one_line_app; try assumption; repeat split. Qed.

Lemma repr_lines x : data x -> printable text fname x -> exists t, repr text has_len fname x = Ok t /\ lines t = report text fname x.
Proof.
  intros [(so & no & Eo) Df] (T & S & K & N).
  assert (F : lines ("Forecast (f): " ++ format (a_f x) "")%string = about text "Forecast (f)" (a_f x)) by (apply (about_lines "Forecast (f)"); [repeat split|exact S|exact K|exact Df]).
  assert (O : lines ("Observations (o): " ++ format (a_o x) "")%string = about text "Observations (o)" (a_o x)).
  { apply (about_lines "Observations (o)"); [repeat split|exact S|rewrite Eo; intros k w []|left; exists so, no; exact Eo]. }
  assert (TT : forall lab g, In (lab, g) (settings (cl x)) -> one_line lab -> lines ((lab ++ ": ") ++ text (g x))%string = [(lab ++ ": " ++ text (g x))%string]).
  { intros lab g H L. apply set_line; [exact L|exact (T _ H)]. }
  assert (TL : lines (title (cl x)) = [title (cl x)]) by (apply one_line_lines; destruct (cl x); repeat split).
  assert (B4 : forall lab g, In (lab, g) (firstn 4 (settings (cl x))) -> lines ((lab ++ ": ") ++ text (g x))%string = [(lab ++ ": " ++ text (g x))%string]).
  { intros lab g H. apply TT.
    - rewrite <- (firstn_skipn 4 (settings (cl x))). apply in_or_app. left. exact H.
    - cbn [settings app firstn] in H. repeat (destruct H as [E|H]; [injection E as <- _; repeat split|]). destruct H. }
  assert (B5 : forall lab g, In (lab, g) (skipn 4 (settings (cl x))) -> lines ((lab ++ ": ") ++ text (g x))%string = [(lab ++ ": " ++ text (g x))%string]).
  { intros lab g H. apply TT.
    - rewrite <- (firstn_skipn 4 (settings (cl x))). apply in_or_app. right. exact H.
    - cbn [settings app skipn] in H. destruct (cl x); repeat (destruct H as [E|H]; [injection E as <- _; repeat split|]); destruct H. }
  set (four := map (fun s => (fst s ++ ": " ++ text (snd s x))%string) (firstn 4 (settings (cl x)))).
  assert (B : forall rest, lines (repr_base text has_len x ++ newline ++ rest)%string = title (cl x) :: about text "Forecast (f)" (a_f x) ++ about text "Observations (o)" (a_o x) ++ four ++ lines rest).
  { intros rest.
    replace (repr_base text has_len x ++ newline ++ rest)%string with
      (title (cl x) ++ newline ++ ("Forecast (f): " ++ format (a_f x) "") ++ newline ++ ("Observations (o): " ++ format (a_o x) "") ++ newline ++
       (("Average/Sample axis (avg_axis)" ++ ": ") ++ text (a_avg x)) ++ newline ++ (("Bootstrap samples (boot_samples)" ++ ": ") ++ text (a_boot x)) ++ newline ++
       (("Save intermediate data at (working_directory)" ++ ": ") ++ text (a_wd x)) ++ newline ++
       (("Ignore saved intermediate data (start_from_scratch)" ++ ": ") ++ text (a_scratch x)) ++ newline ++ rest)%string
      by (unfold repr_base, title, class_name; rewrite !sapp_assoc; reflexivity).
    rewrite !lines_nl, TL, F, O.
    rewrite (B4 "Average/Sample axis (avg_axis)" a_avg), (B4 "Bootstrap samples (boot_samples)" a_boot), (B4 "Save intermediate data at (working_directory)" a_wd),
      (B4 "Ignore saved intermediate data (start_from_scratch)" a_scratch) by (cbn [settings app firstn In]; auto 6).
    reflexivity. }
  assert (B0 : lines (repr_base text has_len x) = title (cl x) :: about text "Forecast (f)" (a_f x) ++ about text "Observations (o)" (a_o x) ++ four).
  { pose proof (B "") as H. rewrite lines_nl in H. cbn [lines] in H.
    apply (app_inj_tail (lines (repr_base text has_len x)) (title (cl x) :: about text "Forecast (f)" (a_f x) ++ about text "Observations (o)" (a_o x) ++ four) "" "").
    rewrite H. cbn [app]. rewrite <- !app_assoc. reflexivity. }
  assert (R : report text fname x = title (cl x) :: about text "Forecast (f)" (a_f x) ++ about text "Observations (o)" (a_o x) ++ four ++
     map (fun s => (fst s ++ ": " ++ text (snd s x))%string) (skipn 4 (settings (cl x))) ++ collapse_line fname x).
  { unfold report, four. rewrite (app_assoc (map _ (firstn 4 _))), <- map_app, firstn_skipn. reflexivity. }
  rewrite R. unfold repr. destruct (cl x) eqn:C.
  3-5: eexists; (split; [reflexivity|]); rewrite B;
    replace ("Ensemble members to sample (n_sample_members): " ++ text (a_members x) ++ newline ++ "Move generated ensemble axis to (move_sampled_ens_axis): " ++ text (a_move x) ++
        newline ++ "Truncated (truncated): " ++ text (a_trunc x) ++ newline ++ "Randomize zero ranks (pit_randomize_zero_ranks): " ++ text (a_pitr x))%string with
      ((("Ensemble members to sample (n_sample_members)" ++ ": ") ++ text (a_members x)) ++ newline ++ (("Move generated ensemble axis to (move_sampled_ens_axis)" ++ ": ") ++ text (a_move x)) ++
        newline ++ (("Truncated (truncated)" ++ ": ") ++ text (a_trunc x)) ++ newline ++ (("Randomize zero ranks (pit_randomize_zero_ranks)" ++ ": ") ++ text (a_pitr x)))%string
      by (rewrite !sapp_assoc; reflexivity);
    rewrite !lines_nl, (B5 "Ensemble members to sample (n_sample_members)" a_members), (B5 "Move generated ensemble axis to (move_sampled_ens_axis)" a_move),
      (B5 "Truncated (truncated)" a_trunc), (B5 "Randomize zero ranks (pit_randomize_zero_ranks)" a_pitr) by (cbn [settings app skipn In]; auto 6);
    unfold collapse_line; rewrite C; reflexivity.
  - eexists. split; [reflexivity|]. rewrite B0. unfold collapse_line. rewrite C. cbn [settings app skipn map]. rewrite app_nil_r. reflexivity.
  - destruct (N eq_refl) as (f & n & E1 & E2 & On). rewrite E1, E2. eexists. split; [reflexivity|]. rewrite B.
    replace ("Ensemble axis (ensemble_axis): " ++ text (a_eaxis x) ++ newline ++ "Ensemble collapsing function (ensemble_collapse_func): " ++ n)%string with
      ((("Ensemble axis (ensemble_axis)" ++ ": ") ++ text (a_eaxis x)) ++ newline ++ ("Ensemble collapsing function (ensemble_collapse_func): " ++ n))%string
      by (rewrite !sapp_assoc; reflexivity).
    rewrite lines_nl, (B5 "Ensemble axis (ensemble_axis)" a_eaxis) by (cbn [settings app skipn In]; auto).
    rewrite (one_line_lines ("Ensemble collapsing function (ensemble_collapse_func): " ++ n)%string) by (apply one_line_app; [repeat split|exact On]).
    unfold collapse_line. rewrite C, E1, E2. reflexivity.
Qed.

Lemma about_len_tail (a b c d : list string) : length b = length d -> a ++ b = c ++ d -> a = c /\ b = d.
Proof.
  revert c. induction a as [|x a IH]; intros [|y c] L E.
  - exact (conj eq_refl E).
  - apply (f_equal (@length _)) in E. cbn [app length] in E. rewrite app_length in E. cbn in E. lia.
  - apply (f_equal (@length _)) in E. cbn [app length] in E. rewrite app_length in E. cbn in E. lia.
  - cbn [app] in E. injection E as -> E. destruct (IH c L E) as [-> ->]. exact (conj eq_refl eq_refl).
Qed.
Lemma report_same x y : data x -> printable text fname x -> data y -> printable text fname y -> report text fname x = report text fname y ->
  cl x = cl y /\ (forall s, In s (settings (cl x)) -> text (snd s x) = text (snd s y)) /\
  shape_text text (a_o x) = shape_text text (a_o y) /\
  (is_dict (a_f x) = false -> is_dict (a_f y) = false -> shape_text text (a_f x) = shape_text text (a_f y)) /\
  (is_dict (a_f x) = true -> is_dict (a_f y) = true -> Forall2 (fun p q => (fst p ++ ": array " ++ shape_text text (snd p) = fst q ++ ": array " ++ shape_text text (snd q))%string) (fields (a_f x)) (fields (a_f y))).
Proof.
  intros [(so & no & Eo) Df] (_ & _ & _ & N) [(so' & no' & Eo') Df'] (_ & _ & _ & N') E.
  unfold report in E. pose proof (f_equal (hd "") E) as T. apply (f_equal (@tl _)) in E. cbn [hd tl] in T, E.
  assert (C : cl x = cl y).
  { destruct (cl x), (cl y); try reflexivity; discriminate T. }
  split; [exact C|]. rewrite <- C in E.
  assert (L : length (collapse_line fname x) = length (collapse_line fname y)).
  { unfold collapse_line. rewrite <- C. destruct (cl x); try reflexivity.
    destruct (N eq_refl) as (f & n & -> & -> & _). destruct (N' (eq_sym C)) as (f' & n' & -> & -> & _). reflexivity. }
  rewrite !app_assoc in E. apply about_len_tail in E as [E _]; [|exact L].
  apply about_len_tail in E as [E1 E2]; [|rewrite !map_length; reflexivity].
  apply about_len_tail in E1 as [E3 E4]; [|rewrite Eo, Eo'; reflexivity].
  split; [|split; [|split]].
  - intros s H. clear - E2 H. induction (settings (cl x)) as [|a l IH]; [destruct H|]. cbn [map] in E2. injection E2 as E2 E2'.
    destruct H as [->|H]; [|exact (IH E2' H)]. apply app_inj in E2. injection E2 as E2. exact E2.
  - rewrite Eo, Eo' in *. cbn [about] in E4. injection E4 as E4. exact E4.
  - destruct Df as [(s1 & n1 & Fx)|(l & Fx & _)]; rewrite Fx in *; [|discriminate]. destruct Df' as [(s2 & n2 & Fy)|(l & Fy & _)]; rewrite Fy in *; [|discriminate].
    cbn [about] in E3. injection E3 as E3. intros _ _. exact E3.
  - destruct Df as [(s1 & n1 & Fx)|(l & Fx & _)]; rewrite Fx in *; [discriminate|]. destruct Df' as [(s2 & n2 & Fy)|(l' & Fy & _)]; rewrite Fy in *; [discriminate|].
    intros _ _. cbn [about fields] in *. injection E3 as E3. clear - E3. revert l' E3. induction l as [|a l IH]; intros [|b l'] E; try discriminate E; constructor.
    + cbn [map] in E. injection E as E _. exact E.
    + apply IH. cbn [map] in E. injection E as _ E. exact E.
Qed.
End Repr.
