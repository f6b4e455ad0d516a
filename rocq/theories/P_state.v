(** Proofs about the state machine of M_state. *)
From Coq Require Import String Ascii QArith Qcanon ZArith Lia List Bool.
From Verif Require Import Num M_state Spec_state.
Import ListNotations.
Open Scope string_scope.
Open Scope list_scope.
Open Scope nat_scope.

(** * Strings *)

Lemma sapp_assoc a b c : ((a ++ b) ++ c = a ++ (b ++ c))%string.
Proof. induction a; simpl; congruence. Qed.
Lemma sapp_nil a : (a ++ "" = a)%string.
Proof. induction a; simpl; congruence. Qed.
Lemma sapp_inv_head a b c : (a ++ b = a ++ c)%string -> b = c.
Proof. induction a; simpl; intro H; [exact H|injection H; auto]. Qed.

Lemma slen_app a b : String.length (a ++ b) = String.length a + String.length b.
Proof. induction a; simpl; congruence. Qed.

Lemma sapp_inv_len a b c d :
  String.length a = String.length c -> (a ++ b = c ++ d)%string -> a = c /\ b = d.
Proof.
  revert c. induction a as [|x a IH]; intros [|y c] L H; simpl in *; try discriminate.
  - auto.
  - injection H as -> H. injection L as L. destruct (IH c L H). subst. auto.
Qed.
Lemma sapp_inv_tail a b c : (a ++ c = b ++ c)%string -> a = b.
Proof.
  intro H. apply (sapp_inv_len a c b c); [|exact H].
  pose proof (f_equal String.length H) as L. rewrite !slen_app in L. lia.
Qed.

(** Text without the character [c]. *)
Definition free (c : ascii) (s : string) : Prop := ~ In c (list_ascii_of_string s).

Lemma free_cons c x s : free c (String x s) -> c <> x /\ free c s.
Proof. unfold free. simpl. intro H. split; intro; apply H; auto. Qed.

(** Splitting at the first occurrence of [c]. *)
Lemma split_first c a b a' b' :
  free c a -> free c a' -> (a ++ String c b = a' ++ String c b')%string -> a = a' /\ b = b'.
Proof.
  revert a'. induction a as [|x a IH]; intros [|y a'] F F' H; simpl in *.
  - injection H; auto.
  - injection H as E _. apply free_cons in F'. destruct F'. congruence.
  - injection H as E _. apply free_cons in F. destruct F. congruence.
  - injection H as -> H. apply free_cons in F. apply free_cons in F'.
    destruct (IH a' (proj2 F) (proj2 F') H). subst. auto.
Qed.

Lemma list_of_app a b :
  list_ascii_of_string (a ++ b) = list_ascii_of_string a ++ list_ascii_of_string b.
Proof. induction a; simpl; congruence. Qed.
Lemma free_app c a b : free c a -> free c b -> free c (a ++ b).
Proof. unfold free. rewrite list_of_app, in_app_iff. tauto. Qed.

Lemma number_text_us s : number_text s -> number_text (us s).
Proof.
  unfold number_text. induction s as [|c s IH]; simpl; intro H; [constructor|].
  inversion H; subst. constructor; [|auto].
  destruct (Ascii.eqb c " "); [|assumption].
  vm_compute. tauto.
Qed.
Lemma number_text_free c s : number_text s -> ~ In c text_alphabet -> free c s.
Proof. unfold number_text, free. rewrite Forall_forall. intros H N I. auto. Qed.
Lemma no_v : ~ In "v"%char text_alphabet.
Proof. vm_compute. intuition discriminate. Qed.
Lemma no_b : ~ In "b"%char text_alphabet.
Proof. vm_compute. intuition discriminate. Qed.

(** * Paths *)

Lemma path_eqb_spec p q : path_eqb p q = true <-> p = q.
Proof.
  revert q. induction p as [|x p IH]; intros [|y q]; simpl; split; intro H; try congruence.
  - apply andb_true_iff in H as [H1 H2]. apply String.eqb_eq in H1. apply IH in H2. congruence.
  - injection H as -> ->. rewrite String.eqb_refl. apply IH. reflexivity.
Qed.
Lemma path_eqb_refl p : path_eqb p p = true.
Proof. apply path_eqb_spec. reflexivity. Qed.
Lemma path_eqb_neq p q : p <> q -> path_eqb p q = false.
Proof. intro H. destruct (path_eqb p q) eqn:E; [apply path_eqb_spec in E; contradiction|reflexivity]. Qed.

Lemma under_spec d p : under d p = true <-> exists r, p = d ++ r.
Proof.
  revert p. induction d as [|x d IH]; intros p; simpl.
  - split; [exists p; reflexivity|reflexivity].
  - destruct p as [|y p]; split.
    + discriminate.
    + intros [r H]. discriminate.
    + intro H. apply andb_true_iff in H as [H1 H2]. apply String.eqb_eq in H1.
      apply IH in H2 as [r ->]. subst. exists r. reflexivity.
    + intros [r H]. injection H as -> ->. rewrite String.eqb_refl. apply IH. exists r. reflexivity.
Qed.

Lemma longer_ne (d : path) n : d ++ [n] <> d.
Proof. intro H. apply (f_equal (@length string)) in H. rewrite app_length in H. simpl in H. lia. Qed.

Lemma removelast_snoc (d : path) n : removelast (d ++ [n]) = d.
Proof. rewrite removelast_app by discriminate. simpl. apply app_nil_r. Qed.

Lemma pkl_not_dat n : (n ++ ".pkl")%string <> "__pyanen_numerical_integration__.dat".
Proof.
  intro H.
  apply (f_equal (fun s => List.last (list_ascii_of_string s) "0"%char)) in H.
  rewrite list_of_app in H. simpl in H.
  rewrite last_last with (l := list_ascii_of_string n ++ ["."; "p"; "k"]%char) (a := "l"%char) in H
   || idtac.
  revert H. generalize (list_ascii_of_string n). intros l H.
  assert (E : forall (l : list ascii) a b c d z,
             List.last (l ++ [a; b; c; d]) z = d).
  { clear. intros l a b c d z. change [a; b; c; d] with ([a; b; c] ++ [d]).
    rewrite app_assoc. apply last_last. }
  rewrite E in H. discriminate.
Qed.

(** * The memory-saving integration is off (or not used by the class) *)
(** Nesting depth of metric calls. *)
Definition rank (m : meth) : nat :=
  match m with
  | MCdf _ b => if is_none b then 1 else 0
  | MEns | MPit => 0
  | MDeterm | MVariance | MRank | MSpread => 1
  | MSS _ | MCrps => 3
  | _ => 2
  end.

Section Proofs.
Variable lib : string -> list val -> res val.
Variable libr : string -> list val -> nat -> res val.
Variable str_of : val -> string.
Variable dumps : val -> string.
Variable loads : string -> res val.
Variable expanduser : string -> string.
Variable resolve : string -> path.
Variable points : val -> val -> val -> res (list num).
Variable less_memory : bool.
Variable integrate_wdir : option path.
Variable cwd : path.
Variable rng : nat -> nat.

Notation body := (body lib libr points less_memory).
Notation exec := (exec lib libr str_of dumps loads resolve points less_memory integrate_wdir cwd rng).
Notation default_name := (default_name str_of).
Notation to_name := (to_name str_of).
Notation metric := (metric lib libr str_of dumps loads resolve points less_memory integrate_wdir cwd rng).
Notation rmse := (rmse lib libr str_of dumps loads resolve points less_memory integrate_wdir cwd rng).
Notation step := (step lib libr str_of dumps loads expanduser resolve points less_memory integrate_wdir cwd rng).
Notation steps := (steps lib libr str_of dumps loads expanduser resolve points less_memory integrate_wdir cwd rng).
Notation crashed_runs := (crashed_runs lib libr str_of dumps loads expanduser resolve points less_memory integrate_wdir cwd rng).
Notation validate := (validate expanduser resolve).
Notation validate_saving := (validate_saving expanduser resolve).
Notation validate_base := (validate_base expanduser resolve).
Notation construct := (construct lib expanduser resolve).
Notation load := (load loads resolve).
Notation save := (save dumps resolve).
Notation save_path := (save_path resolve).
Notation workflow_1 := (workflow_1 dumps loads resolve).
Notation post := (post lib libr).

(** ** Shape of programs *)

Fixpoint wfp (ok : meth -> Prop) (nd : bool) (p : prog) : Prop :=
  match p with
  | PRet _ | PRaise _ => True
  | PRand k => nd = false /\ forall d, wfp ok nd (k d)
  | PCall m k => ok m /\ forall v, wfp ok nd (k v)
  | PMem _ _ => False
  end.

Definition okm (x : obj) (nd : bool) (r : nat) (m : meth) : Prop :=
  key_ok m /\ rank m < r /\ (nd = true -> random_value x m = false).

Lemma wfp_mono (ok ok' : meth -> Prop) nd p :
  (forall m, ok m -> ok' m) -> wfp ok nd p -> wfp ok' nd p.
Proof.
  intros H. induction p; simpl; auto; intros [A B]; split; auto.
Qed.

Lemma wfp_bind ok nd p f :
  wfp ok nd p -> (forall v, wfp ok nd (f v)) -> wfp ok nd (pbind p f).
Proof.
  intros H Hf. induction p; simpl in *; auto; destruct H; split; auto.
Qed.
Lemma wfp_lift ok nd r : wfp ok nd (lift r).
Proof. destruct r; exact I. Qed.
Lemma wfp_lib ok nd n a : wfp ok nd (plib lib n a).
Proof. apply wfp_lift. Qed.
Lemma wfp_rand ok n a : wfp ok false (prand libr n a).
Proof. split; [reflexivity|]. intro. apply wfp_lift. Qed.
Lemma wfp_getf ok nd x k f : (forall v, wfp ok nd (f v)) -> wfp ok nd (getf x k f).
Proof. intro H. unfold getf. destruct (field (a_f x) k); [apply H|exact I]. Qed.
Lemma wfp_pif ok nd b p : (b = true -> wfp ok nd p) -> wfp ok nd (pif b p).
Proof. destruct b; simpl; auto. Qed.
Lemma wfp_boot x ok nd n a :
  (nd = true -> is_none (a_boot x) = true) -> wfp ok nd (pboot lib libr x n a).
Proof.
  intro H. unfold pboot. destruct (is_none (a_boot x)).
  - apply wfp_lib.
  - destruct nd; [discriminate H; reflexivity|apply wfp_rand].
Qed.
Lemma wfp_nth ok nd l n f :
  (forall v, In v l -> wfp ok nd (f v)) -> wfp ok nd (nth_item l n f).
Proof.
  intro H. unfold nth_item. destruct (nth_error l n) eqn:E; [|exact I].
  apply H. eapply nth_error_In, E.
Qed.
Lemma wfp_calls (ok : meth -> Prop) nd ms k : (forall m, In m ms -> ok m) -> (forall vs, wfp ok nd (k vs)) ->
  forall acc, wfp ok nd (pcalls ms acc k).
Proof.
  induction ms as [|m ms IH]; intros H Hk acc; simpl; [apply Hk|].
  split; [apply H; left; reflexivity|]. intro v. apply IH; [|exact Hk].
  intros. apply H. right. assumption.
Qed.

Lemma wfp_cdf_below ok nd x o b : wfp ok nd (cdf_below lib x o b).
Proof.
  unfold cdf_below. destruct (cl x); try exact I; repeat (apply wfp_getf; intro);
    apply wfp_lib.
Qed.

Lemma wfp_cdf (ok : meth -> Prop) nd x o b :
  (is_none b = true -> is_none o = false -> ok (MCdf VNone o)) -> wfp ok nd (cdf_body lib x o b).
Proof.
  intro H. unfold cdf_body. destruct (cl x) eqn:E; try exact I;
  (apply wfp_pif; intro X; destruct (is_none b) eqn:N;
   [split; [apply H; [reflexivity|destruct (is_none o); [discriminate X|reflexivity]]
           |intro; apply wfp_lib]
   |apply wfp_cdf_below]).
Qed.

Lemma wfp_integrate (ok : meth -> Prop) nd x w key :
  less_memory = false -> (forall q, ok (key (VFloat q))) ->
  wfp ok nd (integrate lib points less_memory x w key).
Proof.
  intros -> H. unfold integrate.
  destruct (points (a_o x) (a_range x) (a_bins x)) as [xs|e]; [|exact I].
  apply wfp_calls.
  - intros m I. apply in_map_iff in I as [q [<- _]]. apply H.
  - intro vs. apply wfp_bind; [apply wfp_lib|intro; exact I].
Qed.

Lemma ok_cdf_float x nd q r : 0 < r -> okm x nd r (MCdf VNone (VFloat q)).
Proof.
  intro H. repeat split; auto. simpl. repeat constructor; left; exact I.
Qed.

Lemma scalar_good v : scalar v -> good v.
Proof. destruct v; simpl; tauto. Qed.

Lemma good_items v w : good v -> In w (items v) -> good w.
Proof.
  destruct v; simpl; try tauto; intros H I; rewrite Forall_forall in H;
    apply scalar_good; auto.
Qed.

Lemma wfp_with_forecast (ok : meth -> Prop) nd x k :
  ok MDeterm -> (forall v, wfp ok nd (k v)) -> wfp ok nd (with_forecast x k).
Proof. intros A B. unfold with_forecast. destruct (cl x); simpl; auto. Qed.

Lemma wfp_with_prob (ok : meth -> Prop) nd x o b k :
  ok (MCdf o b) -> (forall v w, wfp ok nd (k v w)) -> wfp ok nd (with_prob lib x o b k).
Proof.
  intros A B. split; [exact A|]. intro f. apply wfp_bind; [apply wfp_lib|]. intro. apply B.
Qed.

Lemma key_args m o b : kwargs m = [("over", o); ("below", b)] \/ (exists n, kwargs m = [("nbins", n); ("over", o); ("below", b)]) ->
  key_ok m -> (good o \/ long_array o) /\ (good b \/ long_array b).
Proof.
  intros K H.
  destruct m; simpl in K, H; try (destruct K as [K|[nn K]]; discriminate K);
  (destruct K as [K|[nn K]]; [|try discriminate K]; try discriminate K);
  try (injection K as -> ->); try (injection K as -> -> ->);
  try (destruct H; split; left; assumption);
  repeat match goal with H : Forall _ (_ :: _) |- _ => inversion H; clear H; subst end;
  simpl in *; auto.
Qed.

Lemma ok_cdf x nd r o b :
  2 <= r -> (good o \/ long_array o) -> (good b \/ long_array b) -> okm x nd r (MCdf o b).
Proof.
  intros R A B. split; [|split].
  - simpl. constructor; [exact A|]. constructor; [exact B|constructor].
  - simpl. destruct (is_none b); lia.
  - reflexivity.
Qed.

Lemma ok_const x nd r m : kwargs m = [] -> rank m < r -> (nd = true -> random_value x m = false) ->
  okm x nd r m.
Proof.
  intros K R D. split; [|split; assumption].
  destruct m; simpl in *; try discriminate; constructor.
Qed.

Lemma body_wf x m nd :
  mem_off less_memory x -> key_ok m -> (nd = true -> random_value x m = false) ->
  wfp (okm x nd (rank m)) nd (body x m).
Proof.
  intros M K D.
  assert (H2 : forall o b, kwargs m = [("over", o); ("below", b)] \/
                (exists n, kwargs m = [("nbins", n); ("over", o); ("below", b)]) ->
             2 <= rank m -> okm x nd (rank m) (MCdf o b)).
  { intros o b E R. destruct (key_args m o b E K). apply ok_cdf; assumption. }
  destruct m; unfold body, M_state.body.
  - (* corr *)
    split; [apply ok_const; auto|]. intro f. apply wfp_boot. intro E. specialize (D E).
    simpl in D. destruct (is_none (a_boot x)); [reflexivity|discriminate].
  - (* decomp *)
    destruct (cl x); try exact I;
    (apply wfp_with_prob; [apply H2; auto|]; intros; apply wfp_boot; intro E; specialize (D E);
     simpl in D; destruct (is_none (a_boot x)); [reflexivity|discriminate]).
  - (* rank *)
    destruct (cl x) eqn:C; try exact I.
    + destruct nd; [specialize (D eq_refl); simpl in D; rewrite C in D; discriminate|apply wfp_rand].
    + destruct (is_none (a_members x)) eqn:N.
      * split; [apply ok_const; simpl; auto|intro; exact I].
        intro E. specialize (D E). simpl in D. rewrite C, N in D. exact D.
      * assert (nd = false).
        { destruct nd; [|reflexivity]. specialize (D eq_refl). simpl in D. rewrite C, N in D.
          discriminate. }
        subst nd. split; [apply ok_const; simpl; auto; discriminate|intro; apply wfp_rand].
    + destruct (is_none (a_members x)) eqn:N.
      * split; [apply ok_const; simpl; auto|intro; exact I].
        intro E. specialize (D E). simpl in D. rewrite C, N in D. exact D.
      * assert (nd = false).
        { destruct nd; [|reflexivity]. specialize (D eq_refl). simpl in D. rewrite C, N in D.
          discriminate. }
        subst nd. split; [apply ok_const; simpl; auto; discriminate|intro; apply wfp_rand].
    + destruct (is_none (a_members x)) eqn:N.
      * split; [apply ok_const; simpl; auto|intro; exact I].
        intro E. specialize (D E). simpl in D. rewrite C, N in D. exact D.
      * assert (nd = false).
        { destruct nd; [|reflexivity]. specialize (D eq_refl). simpl in D. rewrite C, N in D.
          discriminate. }
        subst nd. split; [apply ok_const; simpl; auto; discriminate|intro; apply wfp_rand].
  - (* variance *)
    destruct (cl x) eqn:C; try exact I; try apply wfp_lib;
      try (apply wfp_getf; intro; apply wfp_lib).
    apply wfp_integrate; [destruct M; [assumption|congruence]|].
    intro q. apply ok_cdf_float. simpl. lia.
  - (* determ *)
    unfold determ_body. destruct (cl x) eqn:C; try apply wfp_lib;
      try (apply wfp_getf; intro; apply wfp_lib).
    apply wfp_integrate; [destruct M; [assumption|congruence]|].
    intro q. apply ok_cdf_float. simpl. lia.
  - destruct (cl x); try exact I; (apply wfp_with_prob; [apply H2; auto|]; intros; apply wfp_lib).
  - destruct (cl x); try exact I; (split; [apply H2; auto|intro; exact I]).
  - apply wfp_with_forecast; [apply ok_const; simpl; auto|]. intro. apply wfp_lib.
  - (* iou_prob *)
    destruct K as [K1 K2].
    destruct (cl x); try exact I;
    (apply wfp_pif; intros _; apply wfp_pif; intros _; apply wfp_pif; intros _;
     apply wfp_nth; intros o0 I0; apply wfp_nth; intros b0 I1;
     apply wfp_with_prob;
     [apply ok_cdf; [simpl; lia|left; exact (good_items _ _ K1 I0)|left; exact (good_items _ _ K2 I1)]|];
     intros; apply wfp_nth; intros; apply wfp_nth; intros; apply wfp_lib).
  - (* cdf *)
    apply wfp_cdf. intros N N2.
    destruct (key_args (MCdf over below) over below (or_introl eq_refl) K) as [A B].
    split; [|split].
    + simpl. constructor; [left; exact I|]. constructor; [exact A|constructor].
    + simpl. rewrite N, N2. lia.
    + reflexivity.
  - (* crps *)
    destruct (cl x) eqn:C; try exact I; try apply wfp_lib.
    + destruct (truthy (a_trunc x)); [exact I|]. repeat (apply wfp_getf; intro). apply wfp_lib.
    + apply wfp_integrate; [destruct M; [assumption|congruence]|].
      intro q. split; [|split]; [|simpl; lia|reflexivity].
      simpl. repeat constructor; left; exact I.
    + repeat (apply wfp_getf; intro). destruct (truthy (a_trunc x)); apply wfp_lib.
  - apply wfp_with_forecast; [apply ok_const; simpl; auto|]. intro. apply wfp_lib.
  - (* spread *)
    destruct (cl x) eqn:C; try exact I; try apply wfp_lib;
    (assert (nd = false) by (destruct nd; [|reflexivity]; specialize (D eq_refl); simpl in D;
       rewrite C in D; discriminate);
     subst nd; split; [apply ok_const; simpl; auto; discriminate|intro; apply wfp_lib]).
  - apply wfp_with_forecast; [apply ok_const; simpl; auto|]. intro. apply wfp_lib.
  - apply wfp_with_forecast; [apply ok_const; simpl; auto|]. intro. apply wfp_lib.
  - destruct (cl x); try exact I; (apply wfp_with_prob; [apply H2; auto|]; intros; apply wfp_lib).
  - destruct (cl x); try exact I;
    (apply wfp_with_prob; [apply H2; [right; exists nbins; reflexivity|simpl; lia]|];
     intros; apply wfp_lib).
  - (* ss *)
    destruct (cl x); try exact I;
    (split; [apply ok_const; simpl; auto|]; intro; split; [apply ok_const; simpl; auto|];
     intro; apply wfp_lib).
  - (* ens *)
    destruct nd; [discriminate (D eq_refl)|].
    destruct (cl x); try exact I; repeat (apply wfp_getf; intro); apply wfp_pif; intros _;
    apply wfp_bind; try apply wfp_rand; intro e; destruct (is_none (a_clip x)); try exact I;
    apply wfp_lib.
  - (* pit *)
    destruct (cl x); try exact I;
    (apply wfp_bind; [apply wfp_cdf; discriminate|]; intro r;
     destruct (is_true (a_pitr x)) eqn:P; [|exact I];
     destruct nd; [specialize (D eq_refl); simpl in D; congruence|apply wfp_rand]).
Qed.

(** ** Names *)

Definition rend (p : string * val) : string := (fst p ++ "_" ++ us (str_of (snd p)))%string.

Lemma render_some kw l :
  render_args str_of kw = Ok (Some l) ->
  l = map rend kw /\ Forall (fun p => short_enough (snd p) = Ok true) kw.
Proof.
  revert l. induction kw as [|[k v] kw IH]; intros l H; simpl in H.
  - injection H as <-. auto.
  - destruct (short_enough v) as [[|]|] eqn:S; simpl in H; try discriminate.
    destruct (render_args str_of kw) as [[l'|]|] eqn:R; simpl in H; try discriminate.
    injection H as <-. destruct (IH l' eq_refl) as [-> F]. split; [reflexivity|].
    constructor; [exact S|exact F].
Qed.

Lemma name_shape m n : default_name m = Ok (Some n) ->
  (exists s, default_save m = VStr s /\ n = join_us (s :: map rend (kwargs m))) /\
  Forall (fun p => short_enough (snd p) = Ok true) (kwargs m).
Proof.
  unfold default_name, to_name, M_state.default_name, M_state.to_name.
  destruct (default_save m) eqn:D; try discriminate. intro H.
  assert (L : String.prefix "LITERAL_" (us s) = false /\ us s = s).
  { destruct m; simpl in D; inversion D; subst; split; reflexivity. }
  destruct L as [L U]. rewrite U in H. rewrite U in L. rewrite L in H.
  destruct (render_args str_of (kwargs m)) as [[l|]|] eqn:R; try discriminate.
  destruct (render_some _ _ R) as [-> F]. split; [|exact F].
  exists s. split; [reflexivity|]. simpl in H. injection H as <-. reflexivity.
Qed.

Lemma sep_below X R X' R' : free "b" X -> free "b" X' ->
  (X ++ "_below_" ++ R = X' ++ "_below_" ++ R')%string -> X = X' /\ R = R'.
Proof.
  intros F F' H.
  assert (E : forall X R, (X ++ "_below_" ++ R = (X ++ "_") ++ String "b" ("elow_" ++ R))%string)
    by (intros; rewrite sapp_assoc; reflexivity).
  rewrite !E in H. apply split_first in H.
  - destruct H as [H1 H2]. apply sapp_inv_tail in H1. simpl in H2. split; [exact H1|congruence].
  - apply free_app; [exact F|]. intro I. vm_compute in I. destruct I; [discriminate|contradiction].
  - apply free_app; [exact F'|]. intro I. vm_compute in I. destruct I; [discriminate|contradiction].
Qed.
Lemma sep_over X R X' R' : free "v" X -> free "v" X' ->
  (X ++ "_over_" ++ R = X' ++ "_over_" ++ R')%string -> X = X' /\ R = R'.
Proof.
  intros F F' H.
  assert (E : forall X R, (X ++ "_over_" ++ R = (X ++ "_o") ++ String "v" ("er_" ++ R))%string)
    by (intros; rewrite sapp_assoc; reflexivity).
  rewrite !E in H. apply split_first in H.
  - destruct H as [H1 H2]. apply sapp_inv_tail in H1. simpl in H2. split; [exact H1|congruence].
  - apply free_app; [exact F|]. intro I. vm_compute in I. intuition discriminate.
  - apply free_app; [exact F'|]. intro I. vm_compute in I. intuition discriminate.
Qed.

(** The metric without its arguments. *)
Definition texts (m : meth) : list string := map (fun p => us (str_of (snd p))) (kwargs m).

Lemma two_texts (X Y X' Y' : string) pre :
  free "b" X -> free "b" X' ->
  join_us [pre; ("over_" ++ X)%string; ("below_" ++ Y)%string] =
  join_us [pre; ("over_" ++ X')%string; ("below_" ++ Y')%string] -> [X; Y] = [X'; Y'].
Proof.
  intros F F' H. simpl in H. apply sapp_inv_head in H.
  injection H as H.
  apply sep_below in H; auto. destruct H as [-> ->]. reflexivity.
Qed.

Lemma three_texts (N X Y N' X' Y' : string) pre :
  free "v" N -> free "v" N' -> free "b" X -> free "b" X' ->
  join_us [pre; ("nbins_" ++ N)%string; ("over_" ++ X)%string; ("below_" ++ Y)%string] =
  join_us [pre; ("nbins_" ++ N')%string; ("over_" ++ X')%string; ("below_" ++ Y')%string] ->
  [N; X; Y] = [N'; X'; Y'].
Proof.
  intros V V' F F' H. simpl in H. apply sapp_inv_head in H.
  injection H as H.
  apply sep_over in H; auto. destruct H as [-> H].
  apply sep_below in H; auto. destruct H as [-> ->]. reflexivity.
Qed.

Lemma names_distinct m m' n :
  Forall (fun p => number_text (str_of (snd p))) (kwargs m) ->
  Forall (fun p => number_text (str_of (snd p))) (kwargs m') ->
  default_name m = Ok (Some n) -> default_name m' = Ok (Some n) ->
  metric_of m = metric_of m' /\ texts m = texts m'.
Proof.
  intros F F' H H'.
  destruct (name_shape _ _ H) as [[s [D E]] _]. destruct (name_shape _ _ H') as [[s' [D' E']] _].
  rewrite E in E'. clear H H' E n.
  assert (FR : forall c v, ~ In c text_alphabet -> number_text (str_of v) -> free c (us (str_of v))).
  { intros c v N T. apply number_text_free; [apply number_text_us, T|exact N]. }
  destruct m; destruct m'; simpl in D, D'; try discriminate D; try discriminate D';
    injection D as <-; injection D' as <-;
    try (split; reflexivity);
    try (exfalso; simpl in E'; discriminate E');
    (split; [reflexivity|]); unfold texts; simpl kwargs in *; simpl map in *;
    repeat match goal with
    | H : Forall _ (_ :: _) |- _ => inversion H; clear H; subst
    end; simpl snd in *.
  all: try (eapply two_texts; [apply FR; [apply no_b|assumption]..|exact E']).
  - eapply three_texts; [apply FR; [apply no_v|assumption] | apply FR; [apply no_v|assumption]
      | apply FR; [apply no_b|assumption] | apply FR; [apply no_b|assumption] | exact E'].
  - simpl in E'. injection E' as ->. reflexivity.
Qed.

Hypothesis TX : text_faithful str_of.

Lemma named_good m n : key_ok m -> default_name m = Ok (Some n) ->
  Forall (fun p => good (snd p)) (kwargs m).
Proof.
  intros K H. destruct (name_shape _ _ H) as [_ S].
  assert (G : Forall (fun p => good (snd p) \/ long_array (snd p)) (kwargs m)).
  { destruct m; simpl in K; simpl; auto. destruct K. repeat constructor; auto. }
  revert S G. generalize (kwargs m). intros l S. induction S; intro G; constructor.
  - inversion G; subst. destruct H3 as [|L]; [assumption|].
    destruct (snd x); simpl in L; try contradiction. simpl in H0.
    destruct (Nat.ltb_spec 5 (fold_right Nat.mul 1 sh)); [discriminate|lia].
  - inversion G; auto.
Qed.

Lemma name_inj m m' n : key_ok m -> key_ok m' ->
  default_name m = Ok (Some n) -> default_name m' = Ok (Some n) -> m = m'.
Proof.
  intros K K' H H'.
  pose proof (named_good _ _ K H) as G. pose proof (named_good _ _ K' H') as G'.
  destruct (names_distinct m m' n) as [M T]; try assumption.
  - eapply Forall_impl; [|exact G]. intros a A. apply (text_plain _ TX), A.
  - eapply Forall_impl; [|exact G']. intros a A. apply (text_plain _ TX), A.
  - clear H H' K K'.
    assert (I := text_inj _ TX).
    destruct m; destruct m'; try discriminate M; try reflexivity;
      unfold texts in T; simpl in T, G, G';
      repeat match goal with
      | H : Forall _ (_ :: _) |- _ => inversion H; clear H; subst
      end; simpl in *; injection T; intros; f_equal; apply I; assumption.
Qed.

Lemma key_named m : key_ok m -> exists n, default_name m = Ok n.
Proof.
  intro K. unfold default_name, M_state.default_name, M_state.to_name.
  destruct (default_save m); try (eexists; reflexivity).
  destruct (String.prefix "LITERAL_" (us s)); [eexists; reflexivity|].
  assert (G : Forall (fun p => good (snd p) \/ long_array (snd p)) (kwargs m)).
  { destruct m; simpl in K; simpl; auto. destruct K. repeat constructor; auto. }
  assert (R : exists l, render_args str_of (kwargs m) = Ok l).
  { revert G. generalize (kwargs m). induction l as [|[k v] l IH]; intro G; simpl.
    - eexists; reflexivity.
    - inversion G; subst. destruct (IH H2) as [r ->]. simpl in H1.
      assert (S : exists b, short_enough v = Ok b).
      { destruct v; simpl in *; try (eexists; reflexivity).
        destruct H1 as [|L]; [contradiction|].
        destruct (Nat.ltb_spec 5 (fold_right Nat.mul 1 sh)); [eexists; reflexivity|lia]. }
      destruct S as [[|] ->]; simpl; eexists; reflexivity. }
  destruct R as [l ->]. eexists; reflexivity.
Qed.

(** ** Values without saving *)

Fixpoint pev (n : nat) (x : obj) : prog -> res val :=
  fix go (p : prog) : res val :=
    match p with
    | PRet v => Ok v
    | PRaise e => Raise e
    | PRand k => go (k 0)
    | PMem _ k => go k
    | PCall m k =>
        match n with
        | O => Raise RuntimeError
        | S n' => match pev n' x (body x m) with Ok v => go (k v) | Raise e => Raise e end
        end
    end.
Definition value (x : obj) (m : meth) : res val := pev depth x (body x m).

Lemma pev_fuel x p : forall n n' nd r, mem_off less_memory x ->
  wfp (okm x nd r) nd p -> r <= n -> r <= n' -> pev n x p = pev n' x p.
Proof.
  intros n. revert p. induction n as [n IHn] using lt_wf_ind.
  intros p n' nd r M. induction p as [v|e|k IHp|m k IHp|b k IHp]; intros W L L'.
  - destruct n, n'; reflexivity.
  - destruct n, n'; reflexivity.
  - destruct W as [_ W]. specialize (IHp 0 (W 0) L L'). destruct n, n'; exact IHp.
  - destruct W as [[K [R D]] W].
    destruct n as [|n]; [lia|]. destruct n' as [|n']; [lia|].
    assert (E : pev n x (body x m) = pev n' x (body x m)).
    { apply (IHn n (Nat.lt_succ_diag_r n) _ n' nd (rank m) M); [|lia|lia].
      apply body_wf; assumption. }
    specialize (fun v => IHp v (W v) L L').
    simpl. rewrite E. destruct (pev n' x (body x m)); [apply IHp|reflexivity].
  - contradiction.
Qed.

Lemma rank_depth m : rank m < depth.
Proof. unfold depth. destruct m; simpl; try lia. destruct (is_none below); lia. Qed.

Lemma value_fuel x m n : mem_off less_memory x -> key_ok m -> random_value x m = false ->
  rank m <= n -> pev n x (body x m) = value x m.
Proof.
  intros M K D L. apply (pev_fuel x _ n depth true (rank m)); auto.
  - apply body_wf; auto.
  - pose proof (rank_depth m). lia.
Qed.

(** ** Coherent disks *)

Definition okb (tr : bool) (b : string) (v : val) : Prop :=
  b = dumps v \/ (tr = true /\ cut_short b (dumps v)).

Definition pkl (d : path) (n : string) : path := d ++ [(n ++ ".pkl")%string].

Lemma pkl_inj d n d' n' : pkl d n = pkl d' n' -> d = d' /\ n = n'.
Proof.
  unfold pkl. intro H. apply app_inj_tail in H as [-> H]. apply sapp_inv_tail in H. auto.
Qed.

Definition sound_file (tr : bool) (x : obj) (p : path) (b : string) : Prop :=
  forall s m n, a_wd x = VStr s -> key_ok m -> random_value x m = false ->
    default_name m = Ok (Some n) -> p = pkl (resolve s) n ->
    exists v, value x m = Ok v /\ okb tr b v.

Record Coh (tr : bool) (x : obj) (k : disk) : Prop := {
  coh_wd : truthy (a_wd x) = true -> exists s, a_wd x = VStr s;
  coh_dir : forall s, truthy (a_wd x) = true -> a_wd x = VStr s ->
    isdir k (resolve s) = true /\ ancestor_is_file (resolve s) k = false /\
    (forall n, isdir k (resolve s ++ [n]) = false);
  coh_files : forall p b, truthy (a_wd x) = true -> file k p = Some b -> sound_file tr x p b
}.

Definition good_event (x : obj) (e : event) : Prop :=
  exists p b s n, e = EvWrite p b /\ a_wd x = VStr s /\ truthy (a_wd x) = true /\
    p = pkl (resolve s) n /\ sound_file false x p b.

Lemma okb_weaken tr b v : okb false b v -> okb tr b v.
Proof. intros [H|[H _]]; [left; exact H|discriminate]. Qed.
Lemma sound_weaken tr x p b : sound_file false x p b -> sound_file tr x p b.
Proof.
  intros H s m n A K R D E. destruct (H s m n A K R D E) as [v [V O]].
  exists v. split; [exact V|apply okb_weaken, O].
Qed.

Lemma ancestor_write p b k d : (forall n, n < length d -> firstn n d <> p) ->
  ancestor_is_file d (write_file p b k) = ancestor_is_file d k.
Proof.
  intro H. unfold ancestor_is_file.
  assert (E : forall l, (forall n, In n l -> n < length d) ->
    existsb (fun n => match file (write_file p b k) (firstn n d) with Some _ => true | None => false end) l =
    existsb (fun n => match file k (firstn n d) with Some _ => true | None => false end) l).
  { induction l as [|n l IH]; intro L; cbn [existsb]; [reflexivity|].
    rewrite IH; [|intros; apply L; right; assumption]. f_equal. simpl.
    rewrite path_eqb_neq; [reflexivity|].
    intro X; apply (H n); [apply L; left; reflexivity|auto]. }
  apply E. intros n I. apply in_seq in I. lia.
Qed.

Lemma firstn_ne_pkl d n i : i < length d -> firstn i d <> pkl d n.
Proof.
  intros L E. apply (f_equal (@length string)) in E. unfold pkl in E.
  rewrite firstn_length, app_length in E. simpl in E. lia.
Qed.

(** A write of a result, complete or cut short, keeps the disk coherent. *)
Lemma coh_write tr x k s n b :
  Coh tr x k -> a_wd x = VStr s -> sound_file tr x (pkl (resolve s) n) b ->
  Coh tr x (write_file (pkl (resolve s) n) b k).
Proof.
  intros C W S. split.
  - apply (coh_wd _ _ _ C).
  - intros s' T W'. destruct (coh_dir _ _ _ C s' T W') as [A [B D]].
    split; [exact A|]. split; [|exact D].
    assert (s' = s) by congruence. subst s'.
    rewrite ancestor_write; [exact B|]. intros i L. apply firstn_ne_pkl, L.
  - intros p c T F. simpl in F. destruct (path_eqb (pkl (resolve s) n) p) eqn:E.
    + apply path_eqb_spec in E. subst p. injection F as <-. exact S.
    + apply (coh_files _ _ _ C p c T F).
Qed.

Lemma coh_event tr x k e : Coh tr x k -> good_event x e -> Coh tr x (apply_event k e).
Proof.
  intros C (p & b & s & n & -> & W & T & -> & S). simpl. apply coh_write; auto.
  apply sound_weaken, S.
Qed.

Lemma coh_weaken x k : Coh false x k -> Coh true x k.
Proof.
  intros [A B C]. split; auto. intros. apply sound_weaken. eauto.
Qed.

(** ** Execution on a coherent disk *)

Hypothesis PK : pickle_faithful dumps loads.

Definition rel (tr : bool) (r r' : res val) : Prop :=
  r = r' \/ (tr = true /\ exists e, r = Raise e).

Definition quiet (x : obj) (s s' : st) : Prop :=
  ob s = x /\ ob s' = x /\ isdir (dk s') = isdir (dk s) /\
  exists evs, events s' = events s ++ evs /\ Forall (good_event x) evs /\
    dk s' = fold_left apply_event evs (dk s).

Lemma quiet_refl x s : ob s = x -> quiet x s s.
Proof.
  intro H. repeat split; auto. exists []. rewrite app_nil_r. auto.
Qed.
Lemma quiet_trans x s1 s2 s3 : quiet x s1 s2 -> quiet x s2 s3 -> quiet x s1 s3.
Proof.
  intros (A & B & C & e1 & D & E & F) (A' & B' & C' & e2 & D' & E' & F').
  split; [exact A|]. split; [exact B'|]. split; [congruence|].
  exists (e1 ++ e2). split; [rewrite D', D, app_assoc; reflexivity|].
  split; [apply Forall_app; auto|]. rewrite fold_left_app, <- F. exact F'.
Qed.
Lemma quiet_coh tr x s s' : quiet x s s' -> Coh tr x (dk s) -> Coh tr x (dk s').
Proof.
  intros (A & B & C & e1 & D & E & F) H. rewrite F. clear -E H.
  revert H. generalize (dk s). induction E; intros k H0; simpl; [exact H0|].
  apply IHE. apply coh_event; assumption.
Qed.

(** Saving the value of a call. *)
Lemma save_quiet tr x s n v :
  ob s = x -> Coh tr x (dk s) ->
  (forall m nm, key_ok m -> random_value x m = false -> default_name m = Ok (Some nm) ->
      n = Some nm -> value x m = Ok v) ->
  exists s', save s n v = (Ok tt, s') /\ quiet x s s' /\ pos s' = pos s.
Proof.
  intros O C V. unfold save, M_state.save, M_state.save_path. rewrite O.
  destruct n as [n|]; [|exists s; split; [reflexivity|split; [apply quiet_refl, O|reflexivity]]].
  destruct (truthy (a_wd x)) eqn:T;
    [|exists s; split; [reflexivity|split; [apply quiet_refl, O|reflexivity]]].
  destruct (coh_wd _ _ _ C T) as [w W]. rewrite W.
  destruct (coh_dir _ _ _ C w T W) as [A [B D]].
  rewrite D, removelast_snoc, A.
  eexists. split; [reflexivity|]. split; [|reflexivity].
  split; [exact O|]. split; [exact O|]. split; [reflexivity|].
  exists [EvWrite (pkl (resolve w) n) (dumps v)]. split; [reflexivity|]. split; [|reflexivity].
  constructor; [|constructor].
  exists (pkl (resolve w) n), (dumps v), w, n. repeat split; auto.
  intros s' m nm W' K R N E.
  assert (s' = w) by congruence. subst s'. apply pkl_inj in E as [_ E]. subst nm.
  exists v. split; [apply (V m n K R N eq_refl)|]. left. reflexivity.
Qed.

(** Loading under a default name. *)
Lemma load_coh tr x s m n :
  ob s = x -> Coh tr x (dk s) -> key_ok m -> default_name m = Ok n ->
  (exists e, load s n = Raise e /\ (random_value x m = true \/ tr = true)) \/
  load s n = Ok None \/
  (exists v, load s n = Ok (Some v) /\ (random_value x m = true \/ value x m = Ok v)).
Proof.
  intros O C K N. unfold load, M_state.load, M_state.save_path. rewrite O.
  destruct n as [n|]; [|right; left; reflexivity].
  destruct (truthy (a_wd x)) eqn:T; [|right; left; reflexivity].
  destruct (coh_wd _ _ _ C T) as [w W]. rewrite W. simpl.
  destruct (coh_dir _ _ _ C w T W) as [A [B D]]. rewrite D.
  destruct (file (dk s) (resolve w ++ [(n ++ ".pkl")%string])) as [b|] eqn:F;
    [|right; left; reflexivity].
  destruct (random_value x m) eqn:R.
  - destruct (loads b) as [v|e] eqn:L; simpl.
    + destruct (is_none v); [right; left; reflexivity|]. right. right. exists v. auto.
    + left. exists e. auto.
  - destruct (coh_files _ _ _ C _ b T F w m n W K R N eq_refl) as [v [V [->|[-> X]]]].
    + rewrite (pickle_back _ _ PK). simpl.
      destruct (is_none v); [right; left; reflexivity|]. right. right. exists v. auto.
    + destruct (pickle_cut _ _ PK v b X) as [e ->]. left. exists e. auto.
Qed.

Lemma exec_coh tr x : mem_off less_memory x -> forall n p s nd r,
  wfp (okm x nd r) nd p -> r <= n -> ob s = x -> Coh tr x (dk s) ->
  forall res s', exec n p s = (res, s') ->
  quiet x s s' /\ (nd = true -> rel tr res (pev n x p) /\ pos s' = pos s).
Proof.
  intros M n. induction n as [n IHn] using lt_wf_ind.
  intros p. induction p as [v|e|k IHp|m k IHp|b k IHp]; intros s nd r W L O C res s' H.
  - destruct n; injection H as <- <-; (split; [apply quiet_refl, O|]; split; [left|]; reflexivity).
  - destruct n; injection H as <- <-; (split; [apply quiet_refl, O|]; split; [left|]; reflexivity).
  - destruct W as [-> W].
    assert (H' : exec n (k (rng (pos s))) (mkSt (ob s) (dk s) (S (pos s)) (events s)) = (res, s'))
      by (destruct n; exact H).
    destruct (IHp (rng (pos s)) (mkSt (ob s) (dk s) (S (pos s)) (events s)) false r (W _) L O C _ _ H') as [Q _].
    split; [|discriminate].
    apply (quiet_trans _ _ (mkSt (ob s) (dk s) (S (pos s)) (events s))); [|exact Q].
    split; [exact O|]. split; [exact O|]. split; [reflexivity|].
    exists []. rewrite app_nil_r. auto.
  - destruct W as [[K [R D]] W]. destruct n as [|n]; [lia|].
    destruct (key_named m K) as [nm N].
    assert (LR : rank m <= n) by lia.
    assert (BW : wfp (okm x nd (rank m)) nd (body x m)) by (apply body_wf; assumption).
    (* the inner call *)
    assert (CALL : forall r1 s1,
      workflow_1 (default_name m) (exec n (body x m)) s = (r1, s1) ->
      quiet x s s1 /\ (nd = true -> rel tr r1 (pev n x (body x m)) /\ pos s1 = pos s)).
    { intros r1 s1 E. unfold workflow_1, M_state.workflow_1 in E. rewrite N in E.
      destruct (load_coh tr x s m nm O C K N) as [[e [LE X]]|[LE|[v [LE X]]]]; rewrite LE in E.
      - injection E as <- <-. split; [apply quiet_refl, O|]. intro ND. split; [|reflexivity].
        destruct X as [X|X]; [rewrite D in X by exact ND; discriminate|].
        right. split; [exact X|]. exists e. reflexivity.
      - destruct (exec n (body x m) s) as [r2 s2] eqn:E2.
        destruct (IHn n (Nat.lt_succ_diag_r n) _ s nd (rank m) BW LR O C _ _ E2) as [Q V].
        assert (O2 : ob s2 = x) by apply Q.
        assert (C2 : Coh tr x (dk s2)) by (eapply quiet_coh; eassumption).
        destruct r2 as [v|e].
        + assert (SV : exists s3, save s2 nm v = (Ok tt, s3) /\ quiet x s2 s3 /\ pos s3 = pos s2).
          { apply (save_quiet tr); auto. intros m' nm' K' R' N' EN. subst nm.
            assert (m' = m) by (apply (name_inj m' m nm' K' K N' N)). subst m'.
            (* the saved value is the one computed without saving *)
            destruct (IHn n (Nat.lt_succ_diag_r n) _ s true (rank m)
                        (body_wf x m true M K (fun _ => R')) LR O C _ _ E2) as [_ V'].
            destruct (V' eq_refl) as [[V1|[_ [e V1]]] _]; [|discriminate].
            rewrite <- (value_fuel x m n M K R' LR). symmetry. exact V1. }
          destruct SV as [s3 [S3 [Q3 P3]]]. rewrite S3 in E. injection E as <- <-.
          split; [eapply quiet_trans; eassumption|].
          intro ND. destruct (V ND) as [V1 V2]. split; [exact V1|congruence].
        + injection E as <- <-. split; [exact Q|exact V].
      - injection E as <- <-. split; [apply quiet_refl, O|]. intro ND. split; [|reflexivity].
        destruct X as [X|X]; [rewrite D in X by exact ND; discriminate|].
        left. rewrite (value_fuel x m n M K (D ND) LR). symmetry. exact X. }
    simpl in H. rewrite O in H.
    change ((let '(r0, s1) := workflow_1 (default_name m) (exec n (body x m)) s in
      match r0 with Ok v => exec (S n) (k v) s1 | Raise e => (Raise e, s1) end) = (res, s')) in H.
    destruct (workflow_1 (default_name m) (exec n (body x m)) s) as [r1 s1] eqn:E1.
    destruct (CALL r1 s1 eq_refl) as [Q V].
    assert (O1 : ob s1 = x) by apply Q.
    assert (C1 : Coh tr x (dk s1)) by (eapply quiet_coh; eassumption).
    destruct r1 as [v|e].
    + destruct (IHp v s1 nd r (W v) L O1 C1 _ _ H) as [Q' V'].
      split; [eapply quiet_trans; eassumption|].
      intro ND. destruct (V ND) as [[V1|[_ [e V1]]] V2]; [|discriminate].
      destruct (V' ND) as [V3 V4]. split; [|congruence].
      simpl. rewrite <- V1. exact V3.
    + injection H as <- <-. split; [exact Q|].
      intro ND. destruct (V ND) as [[V1|V1] V2]; (split; [|exact V2]).
      * left. simpl. rewrite <- V1. reflexivity.
      * right. exact V1.
  - contradiction.
Qed.

(** ** Public metric calls on a coherent disk *)

Definition pure_metric (x : obj) (m : meth) : res val :=
  match m, cl x with
  | (MEns | MPit), (CDeterm | CEnsemble) => Raise AttributeError
  | _, _ => match value x m with
            | Ok v => pev depth x (post x m v)
            | Raise e => Raise e
            end
  end.
Definition pure_rmse (x : obj) : res val :=
  match pure_metric x MSqErr with Ok v => lib "sqrt" [v] | Raise e => Raise e end.

(** The save name is the default one, or no string at all. *)
Definition plain_save (m : meth) (sn : val) : Prop := sn = default_save m \/ is_str sn = false.

Lemma plain_name m sn : plain_save m sn ->
  to_name sn (kwargs m) = default_name m \/ to_name sn (kwargs m) = Ok None.
Proof.
  intros [->|H]; [left; reflexivity|right]. destruct sn; try reflexivity. discriminate.
Qed.

Lemma call_coh tr x m sn s :
  mem_off less_memory x -> key_ok m -> plain_save m sn -> ob s = x -> Coh tr x (dk s) ->
  forall r s', workflow_1 (to_name sn (kwargs m)) (exec depth (body x m)) s = (r, s') ->
  quiet x s s' /\ (random_value x m = false -> rel tr r (value x m) /\ pos s' = pos s).
Proof.
  intros M K PS O C r s' E.
  assert (L : rank m <= depth) by (pose proof (rank_depth m); lia).
  pose proof (body_wf x m false M K) as W0.
  assert (W : wfp (okm x false (rank m)) false (body x m)) by (apply W0; discriminate). clear W0.
  assert (RUN : forall r2 s2, exec depth (body x m) s = (r2, s2) ->
     quiet x s s2 /\ (random_value x m = false -> rel tr r2 (value x m) /\ pos s2 = pos s)).
  { intros r2 s2 E2. split.
    - eapply exec_coh; eassumption.
    - intro R. eapply (exec_coh tr x M depth _ s true (rank m)); try eassumption; [|reflexivity].
      apply body_wf; auto. }
  unfold workflow_1, M_state.workflow_1 in E.
  destruct (plain_name m sn PS) as [N|N]; rewrite N in E.
  - destruct (key_named m K) as [nm NM]. rewrite NM in E.
    destruct (load_coh tr x s m nm O C K NM) as [[e [LE X]]|[LE|[v [LE X]]]]; rewrite LE in E.
    + injection E as <- <-. split; [apply quiet_refl, O|]. intro R. split; [|reflexivity].
      destruct X as [X|X]; [congruence|]. right. split; [exact X|]. exists e. reflexivity.
    + destruct (exec depth (body x m) s) as [r2 s2] eqn:E2.
      destruct (RUN r2 s2 eq_refl) as [Q V].
      destruct r2 as [v|e]; [|injection E as <- <-; auto].
      assert (SV : exists s3, save s2 nm v = (Ok tt, s3) /\ quiet x s2 s3 /\ pos s3 = pos s2).
      { apply (save_quiet tr); [apply Q|eapply quiet_coh; eassumption|].
        intros m' nm' K' R' N' EN. subst nm.
        assert (m' = m) by (apply (name_inj m' m nm' K' K N' NM)). subst m'.
        destruct (V R') as [[V1|[_ [e V1]]] _]; [symmetry; exact V1|discriminate]. }
      destruct SV as [s3 [S3 [Q3 P3]]]. rewrite S3 in E. injection E as <- <-.
      split; [eapply quiet_trans; eassumption|]. intro R. destruct (V R). split; [assumption|congruence].
    + injection E as <- <-. split; [apply quiet_refl, O|]. intro R. split; [|reflexivity].
      destruct X as [X|X]; [congruence|]. left. symmetry. exact X.
  - change (load s None) with (Ok (@None val)) in E. cbv iota in E.
    destruct (exec depth (body x m) s) as [r2 s2] eqn:E2.
    destruct (RUN r2 s2 eq_refl) as [Q V].
    destruct r2 as [v|e]; [change (save s2 None v) with (Ok tt, s2) in E|];
      injection E as <- <-; auto.
Qed.

Lemma post_wf x m nd v :
  (nd = true -> averaged m && negb (is_none (a_boot x)) = false) ->
  wfp (okm x nd 0) nd (post x m v).
Proof.
  intro H. destruct m; simpl; try exact I; apply wfp_boot; intro E; specialize (H E);
    simpl in H; destruct (is_none (a_boot x)); auto; discriminate.
Qed.

Lemma metric_coh tr x m sn s :
  mem_off less_memory x -> key_ok m -> plain_save m sn -> ob s = x -> Coh tr x (dk s) ->
  forall r s', metric m sn s = (r, s') ->
  quiet x s s' /\ (random_call x m = false -> rel tr r (pure_metric x m) /\ pos s' = pos s).
Proof.
  intros M K PS O C r s' E. unfold metric, M_state.metric in E. rewrite O in E.
  assert (G : forall r1 s1,
    match workflow_1 (to_name sn (kwargs m)) (exec depth (body x m)) s with
    | (Ok v, s1) => exec depth (post (ob s1) m v) s1
    | (Raise e, s1) => (Raise e, s1)
    end = (r1, s1) ->
    quiet x s s1 /\ (random_call x m = false ->
       rel tr r1 (match value x m with
            | Ok v => pev depth x (post x m v)
            | Raise e => Raise e
            end) /\ pos s1 = pos s)).
  { clear E r s'. intros r s' E.
    destruct (workflow_1 (to_name sn (kwargs m)) (exec depth (body x m)) s) as [r1 s1] eqn:E1.
    destruct (call_coh tr x m sn s M K PS O C r1 s1 E1) as [Q V].
    assert (RV : random_call x m = false -> random_value x m = false).
    { unfold random_call. intro R. apply orb_false_iff in R. tauto. }
    destruct r1 as [v|e].
    - assert (O1 : ob s1 = x) by apply Q. rewrite O1 in E.
      assert (C1 : Coh tr x (dk s1)) by (eapply quiet_coh; eassumption).
      split.
      + eapply quiet_trans; [exact Q|].
        eapply (exec_coh tr x M depth _ s1 false 0); try eassumption; [|lia].
        apply post_wf. discriminate.
      + intro R. destruct (V (RV R)) as [[V1|[_ [e V1]]] V2]; [|discriminate].
        rewrite <- V1.
        destruct (exec_coh tr x M depth (post x m v) s1 true 0) with (res := r) (s' := s') as [_ X];
          try assumption; [|lia|].
        * apply post_wf. intros _. unfold random_call in R. apply orb_false_iff in R. tauto.
        * destruct (X eq_refl). split; [assumption|congruence].
    - injection E as <- <-. split; [exact Q|].
      intro R. destruct (V (RV R)) as [[V1|V1] V2]; (split; [|exact V2]).
      + left. rewrite <- V1. reflexivity.
      + right. exact V1. }
  assert (A : forall e, (Raise e, s) = (r, s') -> quiet x s s' /\ (random_call x m = false ->
              rel tr r (Raise e) /\ pos s' = pos s)).
  { intros e X. injection X as <- <-. split; [apply quiet_refl, O|]. intros _.
    split; [left|]; reflexivity. }
  unfold pure_metric.
  destruct m; try (apply G; exact E); destruct (cl x);
    try (apply G; exact E); apply A; exact E.
Qed.

Lemma rmse_coh tr x sn s :
  mem_off less_memory x -> plain_save MSqErr sn -> ob s = x -> Coh tr x (dk s) ->
  forall r s', rmse sn s = (r, s') ->
  quiet x s s' /\ (random_call x MSqErr = false -> rel tr r (pure_rmse x) /\ pos s' = pos s).
Proof.
  intros M PS O C r s' E. unfold rmse, M_state.rmse in E.
  assert (K : key_ok MSqErr) by constructor.
  destruct (metric MSqErr sn s) as [r1 s1] eqn:E1.
  destruct (metric_coh tr x MSqErr sn s M K PS O C r1 s1 E1) as [Q V].
  destruct r1 as [v|e].
  - assert (X : r = lib "sqrt" [v] /\ s' = s1).
    { unfold plib, lift in E. destruct (lib "sqrt" [v]); simpl in E; injection E; auto. }
    destruct X as [-> ->]. split; [exact Q|]. intro R.
    destruct (V R) as [[V1|[_ [e V1]]] V2]; [|discriminate].
    split; [|exact V2]. left. unfold pure_rmse. rewrite <- V1. reflexivity.
  - injection E as <- <-. split; [exact Q|]. intro R.
    destruct (V R) as [[V1|V1] V2]; (split; [|exact V2]).
    + left. unfold pure_rmse. rewrite <- V1. reflexivity.
    + right. exact V1.
Qed.

(** ** Which metrics a metric calls *)

Definition not_boot (m : meth) : bool := match m with MCorr | MDecomp _ _ => false | _ => true end.

Lemma body_calls (ok : meth -> Prop) x m :
  mem_off less_memory x -> (forall m', not_boot m' = true -> ok m') -> wfp ok false (body x m).
Proof.
  intros M H.
  destruct m; unfold body, M_state.body; unfold determ_body; destruct (cl x) eqn:C;
    try exact I; try apply wfp_lib; try apply wfp_rand;
    try (apply wfp_with_prob; [apply H; reflexivity|]; intros; (apply wfp_lib || (apply wfp_boot; discriminate)));
    try (apply wfp_with_forecast; [apply H; reflexivity|]; intro; apply wfp_lib);
    try (apply wfp_integrate; [destruct M; [assumption|congruence]|]; intro; apply H; reflexivity);
    try (apply wfp_cdf; intros; apply H; reflexivity);
    try (repeat (apply wfp_getf; intro); apply wfp_lib);
    try (split; [apply H; reflexivity|]; intro; exact I);
    try (split; [apply H; reflexivity|]; intro; apply wfp_lib);
    try (split; [apply H; reflexivity|]; intro; apply wfp_boot; discriminate);
    try (split; [apply H; reflexivity|]; intro; split; [apply H; reflexivity|]; intro; apply wfp_lib);
    try (destruct (is_none (a_members x));
         [split; [apply H; reflexivity|]; intro; exact I
         |split; [apply H; reflexivity|]; intro; apply wfp_rand]);
    try (apply wfp_pif; intros _; apply wfp_pif; intros _; apply wfp_pif; intros _;
         apply wfp_nth; intros; apply wfp_nth; intros; apply wfp_with_prob; [apply H; reflexivity|];
         intros; apply wfp_nth; intros; apply wfp_nth; intros; apply wfp_lib);
    try (destruct (truthy (a_trunc x)); try exact I; repeat (apply wfp_getf; intro); apply wfp_lib);
    try (repeat (apply wfp_getf; intro); destruct (truthy (a_trunc x)); apply wfp_lib);
    try (repeat (apply wfp_getf; intro); apply wfp_pif; intros _; apply wfp_bind;
         [apply wfp_rand|]; intro; destruct (is_none (a_clip x)); [exact I|apply wfp_lib]);
    try (apply wfp_bind; [apply wfp_cdf; discriminate|]; intro;
         destruct (is_true (a_pitr x)); [apply wfp_rand|exact I]).
Qed.

(** The value of a metric as a function of the settings it depends on. *)
Lemma pev_ext (ok : meth -> Prop) nd x y :
  mem_off less_memory x ->
  (forall m, ok m -> body y m = body x m) ->
  (forall m, ok m -> wfp ok nd (body x m)) ->
  forall n p, wfp ok nd p -> pev n y p = pev n x p.
Proof.
  intros M B W n. induction n as [|n IHn]; intros p;
    induction p as [v|e|k IHp|m k IHp|b k IHp]; intro H; try reflexivity; try contradiction.
  - destruct H as [_ H]. apply (IHp 0 (H 0)).
  - destruct H as [H1 H2]. simpl. rewrite (B m H1), (IHn _ (W m H1)).
    destruct (pev n x (body x m)); [apply IHp, H2|reflexivity].
Qed.

Lemma body_wd w x m : body (put_wd w x) m = body x m.
Proof. destruct m; reflexivity. Qed.
Lemma body_boot b x m : not_boot m = true -> body (put_boot b x) m = body x m.
Proof. destruct m; intro H; try discriminate H; reflexivity. Qed.

Lemma pev_wd w x n p : mem_off less_memory x -> wfp (fun _ => True) false p ->
  pev n (put_wd w x) p = pev n x p.
Proof.
  intros M H. apply (pev_ext (fun _ => True) false x _ M).
  - intros. apply body_wd.
  - intros. apply body_calls; auto.
  - exact H.
Qed.
Lemma value_wd w x m : mem_off less_memory x -> value (put_wd w x) m = value x m.
Proof.
  intro M. unfold value. rewrite body_wd. apply pev_wd; [exact M|]. apply body_calls; auto.
Qed.
Lemma value_boot b x m : mem_off less_memory x -> not_boot m = true ->
  value (put_boot b x) m = value x m.
Proof.
  intros M N. unfold value. rewrite body_boot by exact N.
  apply (pev_ext (fun m => not_boot m = true) false x _ M).
  - intros. apply body_boot. assumption.
  - intros. apply body_calls; auto.
  - apply body_calls; auto.
Qed.

Lemma post_any x m v : wfp (fun _ => True) false (post x m v).
Proof. destruct m; simpl; try exact I; apply wfp_boot; discriminate. Qed.

Lemma pure_metric_wd w x m : mem_off less_memory x -> pure_metric (put_wd w x) m = pure_metric x m.
Proof.
  intro M. unfold pure_metric. rewrite value_wd by exact M.
  change (cl (put_wd w x)) with (cl x).
  assert (E : match value x m with
          | Ok v => pev depth (put_wd w x) (post (put_wd w x) m v)
          | Raise e => Raise e
          end = match value x m with
          | Ok v => pev depth x (post x m v)
          | Raise e => Raise e
          end).
  { destruct (value x m) as [v|]; [|reflexivity].
    change (post (put_wd w x) m v) with (post x m v). apply pev_wd; [exact M|]. apply post_any. }
  rewrite E. reflexivity.
Qed.

(** ** Validation *)

Definition norm_avg (v : val) : val :=
  match v with VInt _ | VBool _ => VTuple [v] | VList l => VTuple l | v => v end.
Definition avg_ok (v : val) : bool := match v with VNone | VTuple _ => true | _ => false end.

Lemma put_avg_id x : put_avg (a_avg x) x = x.
Proof. destruct x; reflexivity. Qed.

Lemma validate_avg_eq x :
  validate_avg x = (passert (avg_ok (norm_avg (a_avg x))), put_avg (norm_avg (a_avg x)) x).
Proof.
  unfold validate_avg. destruct (a_avg x) eqn:A; simpl;
    try rewrite A; simpl; try rewrite A; simpl; try reflexivity;
    rewrite <- A, put_avg_id, ?A; reflexivity.
Qed.
Lemma avg_ok_type v : axis_type v = true -> avg_ok (norm_avg v) = true.
Proof. destruct v; simpl; auto. Qed.

Lemma validate_class_wd w x :
  validate_class (put_wd w x) = (fst (validate_class x), put_wd w (snd (validate_class x))).
Proof.
  unfold validate_class. change (cl (put_wd w x)) with (cl x).
  destruct (cl x); try reflexivity.
  unfold validate_ensemble.
  change (guess_axis (put_wd w x)) with (guess_axis x).
  cbn [a_f a_o a_eaxis a_collapse put_wd].
  destruct (negb (is_arr (a_f x) && is_arr (a_o x))); [reflexivity|].
  destruct (if is_none (a_eaxis x) then guess_axis x
            else if is_int (a_eaxis x) then Ok (a_eaxis x) else Raise AssertionError);
    reflexivity.
Qed.

(** What the class checks may change. *)
Lemma validate_class_keeps x :
  let y := snd (validate_class x) in
  cl y = cl x /\ a_avg y = a_avg x /\ a_boot y = a_boot x /\ a_wd y = a_wd x /\
  a_scratch y = a_scratch x.
Proof.
  unfold validate_class. destruct (cl x) eqn:C; simpl; try (rewrite C; auto 10; fail); auto 10.
  unfold validate_ensemble.
  destruct (negb (is_arr (a_f x) && is_arr (a_o x))); [simpl; auto|].
  destruct (if is_none (a_eaxis x) then guess_axis x
            else if is_int (a_eaxis x) then Ok (a_eaxis x) else Raise AssertionError);
    simpl; auto.
Qed.

(** An accepted or rejected re-validation, as seen from saving. *)
Lemma validate_eq x k :
  axis_type (a_avg x) = true -> boot_type (a_boot x) = true -> a_scratch x = VBool true ->
  validate x k =
  match validate_saving (put_avg (norm_avg (a_avg x)) x) k with
  | (Raise e, x1, k1) => (Raise e, x1, k1)
  | (Ok _, x1, k1) => (fst (validate_class x1), snd (validate_class x1), k1)
  end.
Proof.
  intros A B S. unfold validate, M_state.validate, validate_base, M_state.validate_base.
  rewrite validate_avg_eq, (avg_ok_type _ A). simpl passert.
  cbv iota beta. cbn [a_boot put_avg a_scratch].
  unfold boot_type in B. rewrite B, S. simpl is_bool. cbv iota.
  destruct (validate_saving (put_avg (norm_avg (a_avg x)) x) k) as [[[u|e] x1] k1]; [|reflexivity].
  destruct (validate_class x1); reflexivity.
Qed.

(** The directory is empty and usable. *)
Definition clean (d : path) (k : disk) : Prop :=
  isdir k d = true /\ ancestor_is_file d k = false /\
  (forall n, isdir k (d ++ [n]) = false) /\ (forall r, file k (d ++ r) = None).

Lemma clean_coh tr x k s : a_wd x = VStr s -> clean (resolve s) k -> Coh tr x k.
Proof.
  intros W (A & B & C & D). split.
  - intros _. exists s. exact W.
  - intros s' T W'. assert (s' = s) by congruence. subst. auto.
  - intros p b T F s' m n W' K R N E. assert (s' = s) by congruence. subst.
    unfold pkl in F. rewrite D in F. discriminate.
Qed.
Lemma off_coh tr x k : truthy (a_wd x) = false -> Coh tr x k.
Proof. intro H. split; intros; congruence. Qed.

Lemma under_self d : under d d = true.
Proof. apply under_spec. exists []. symmetry. apply app_nil_r. Qed.
Lemma under_app d r : under d (d ++ r) = true.
Proof. apply under_spec. exists r. reflexivity. Qed.
Lemma not_under_longer d n : under (d ++ [n]) d = false.
Proof.
  destruct (under (d ++ [n]) d) eqn:E; [|reflexivity].
  apply under_spec in E as [r E]. apply (f_equal (@length string)) in E.
  rewrite !app_length in E. simpl in E. lia.
Qed.
Lemma not_under_firstn d n : n < length d -> under d (firstn n d) = false.
Proof.
  intro L. destruct (under d (firstn n d)) eqn:E; [|reflexivity].
  apply under_spec in E as [r E]. apply (f_equal (@length string)) in E.
  rewrite app_length, firstn_length in E. lia.
Qed.

Lemma existsb_false {A} (f : A -> bool) l : (forall a, In a l -> f a = false) -> existsb f l = false.
Proof.
  induction l as [|a l IH]; intro H; simpl; [reflexivity|].
  rewrite H by (left; reflexivity). apply IH. intros. apply H. right. assumption.
Qed.
Lemma existsb_false_inv {A} (f : A -> bool) l : existsb f l = false -> forall a, In a l -> f a = false.
Proof.
  induction l as [|b l IH]; intros H a I; [contradiction|].
  simpl in H. apply orb_false_iff in H as [H1 H2]. destruct I as [<-|I]; auto.
Qed.

Lemma wipe_clean d k :
  isdir k d = true -> ancestor_is_file d k = false ->
  exists k1 k2, rmtree d k = Ok k1 /\ makedirs d k1 = Ok k2 /\ clean d k2.
Proof.
  intros D A. unfold rmtree. rewrite D. eexists. eexists. split; [reflexivity|].
  assert (A1 : ancestor_is_file d
     (mkDisk (fun q => if under d q then None else file k q)
             (fun q => if under d q then false else isdir k q)) = false).
  { apply existsb_false. intros n I. simpl.
    apply in_seq in I. rewrite not_under_firstn by lia.
    apply (existsb_false_inv _ _ A). apply in_seq. lia. }
  unfold makedirs. rewrite A1. split; [reflexivity|]. unfold clean. simpl.
  rewrite under_self. split; [reflexivity|]. split; [|split].
  - unfold ancestor_is_file in *. exact A1.
  - intro n. rewrite not_under_longer, under_app. reflexivity.
  - intro r. rewrite under_app. reflexivity.
Qed.

(** A file system: what exists lies in a directory, a file is no directory. *)
Lemma wf_no_ancestor k d : disk_wf k -> isdir k d = true -> ancestor_is_file d k = false.
Proof.
  intros [W1 W2] D. apply existsb_false. intros n I. apply in_seq in I.
  assert (N : skipn n d <> []).
  { intro E. apply (f_equal (@length string)) in E. rewrite skipn_length in E. simpl in E. lia. }
  destruct (skipn n d) as [|c r] eqn:E; [contradiction|].
  rewrite (W2 (firstn n d)); [reflexivity|].
  apply (W1 _ c r). rewrite <- E, firstn_skipn. unfold exists_at. rewrite D. reflexivity.
Qed.
Lemma wf_below k d c r : disk_wf k -> exists_at k d = false -> exists_at k (d ++ c :: r) = false.
Proof.
  intros [W1 W2] E. destruct (exists_at k (d ++ c :: r)) eqn:X; [|reflexivity].
  apply W1 in X. unfold exists_at in E. rewrite X in E. discriminate.
Qed.
Lemma exists_false k p : exists_at k p = false -> isdir k p = false /\ file k p = None.
Proof.
  unfold exists_at. intro H. apply orb_false_iff in H as [A B].
  destruct (file k p); [discriminate|auto].
Qed.

(** Fresh saving from any disk. *)
Lemma saving_fresh x k u x1 k1 :
  disk_wf k -> a_scratch x = VBool true -> validate_saving x k = (Ok u, x1, k1) ->
  truthy (a_wd x) = false /\ x1 = x /\ k1 = k \/
  exists s, a_wd x = VStr s /\ x1 = put_wd (VStr (expanduser s)) x /\
    clean (resolve (expanduser s)) k1.
Proof.
  intros WF S. unfold validate_saving, M_state.validate_saving.
  destruct (truthy (a_wd x)) eqn:T; [|intro H; injection H as <- <- <-; auto].
  destruct (a_wd x) eqn:W; try discriminate. cbn [a_scratch put_wd]. rewrite S. simpl truthy.
  set (d := resolve (expanduser s)). cbv iota.
  destruct (exists_at k d) eqn:X.
  - destruct (isdir k d) eqn:D.
    + destruct (wipe_clean d k D (wf_no_ancestor k d WF D)) as [k2 [k3 [R [MK C]]]].
      rewrite R, MK. intro H. injection H as <- <- <-. right. exists s. auto.
    + unfold rmtree. rewrite D. discriminate.
  - destruct (makedirs d k) as [k2|] eqn:MK; [|discriminate].
    intro H. injection H as <- <- <-. right. exists s. split; [reflexivity|]. split; [reflexivity|].
    unfold makedirs in MK. destruct (ancestor_is_file d k) eqn:A; [discriminate|].
    injection MK as <-. unfold clean. simpl. rewrite under_self.
    split; [reflexivity|]. split; [exact A|]. split.
    + intro n. fold d. rewrite not_under_longer.
      apply (exists_false k (d ++ [n])), wf_below; assumption.
    + intros [|c r]; fold d.
      * rewrite app_nil_r. apply (exists_false k d X).
      * apply (exists_false k (d ++ c :: r)), wf_below; assumption.
Qed.

(** Re-validation when the directory is in use. *)
Lemma saving_again x k :
  a_scratch x = VBool true ->
  (forall s, a_wd x = VStr s -> truthy (a_wd x) = true -> expanduser s = s) ->
  (truthy (a_wd x) = true -> exists s, a_wd x = VStr s) ->
  (forall s, truthy (a_wd x) = true -> a_wd x = VStr s ->
     isdir k (resolve s) = true /\ ancestor_is_file (resolve s) k = false) ->
  exists k1, validate_saving x k = (Ok tt, x, k1) /\
   (forall s, truthy (a_wd x) = true -> a_wd x = VStr s -> clean (resolve s) k1).
Proof.
  intros S E W D. unfold validate_saving, M_state.validate_saving.
  destruct (truthy (a_wd x)) eqn:T.
  - destruct (W eq_refl) as [s Ws]. rewrite Ws. rewrite (E s Ws eq_refl).
    assert (XI : put_wd (VStr s) x = x) by (destruct x; simpl in *; subst; reflexivity).
    rewrite XI, S. simpl truthy.
    destruct (D s eq_refl Ws) as [D1 D2].
    unfold exists_at. rewrite D1. simpl orb. cbv iota.
    destruct (wipe_clean _ _ D1 D2) as [k2 [k3 [R [MK C]]]]. rewrite R, MK.
    exists k3. split; [reflexivity|]. intros s' _ W'. injection W' as <-. exact C.
  - exists k. split; [reflexivity|]. discriminate.
Qed.

(** ** Histories with saving, against the same history without *)

Record Inv (x : obj) (k : disk) : Prop := {
  i_mem : mem_off less_memory x;
  i_avg : avg_ok (a_avg x) = true;
  i_boot : boot_type (a_boot x) = true;
  i_scratch : a_scratch x = VBool true;
  i_exp : forall s, a_wd x = VStr s -> truthy (a_wd x) = true -> expanduser s = s;
  i_coh : Coh false x k
}.

Lemma avg_ok_axis v : avg_ok v = true -> axis_type v = true.
Proof. destruct v; simpl; auto. Qed.

Lemma Inv_setter x k x' :
  Inv x k -> a_wd x' = a_wd x -> a_scratch x' = a_scratch x -> cl x' = cl x ->
  axis_type (a_avg x') = true -> boot_type (a_boot x') = true ->
  exists r x2 k2, validate x' k = (r, x2, k2) /\ Inv x2 k2 /\
    forall kt, validate (put_wd VNone x') kt = (r, put_wd VNone x2, kt).
Proof.
  intros [M A B S E C] W' S' C' A' B'.
  rewrite validate_eq by (try assumption; congruence).
  set (y := put_avg (norm_avg (a_avg x')) x').
  destruct (saving_again y k) as [k1 [V CL]].
  - simpl. congruence.
  - intros s Ws T. simpl in Ws, T. apply E; congruence.
  - simpl. rewrite W'. apply (coh_wd _ _ _ C).
  - simpl. rewrite W'. intros s T Ws. destruct (coh_dir _ _ _ C s T Ws) as (a & b & _). auto.
  - rewrite V. eexists. eexists. eexists. split; [reflexivity|].
    destruct (validate_class_keeps y) as (K1 & K2 & K3 & K4 & K5).
    split.
    + split.
      * unfold mem_off. rewrite K1. simpl. rewrite C'. exact M.
      * rewrite K2. simpl. apply avg_ok_type, A'.
      * rewrite K3. exact B'.
      * rewrite K5. simpl. congruence.
      * rewrite K4. simpl. rewrite W'. exact E.
      * destruct (truthy (a_wd y)) eqn:T.
        -- assert (X : exists s, a_wd y = VStr s).
           { simpl in T |- *. rewrite W' in T |- *. apply (coh_wd _ _ _ C T). }
           destruct X as [s X]. apply (clean_coh _ _ _ s); [congruence|]. apply CL; [reflexivity|exact X].
        -- apply off_coh. rewrite K4. exact T.
    + intro kt. rewrite validate_eq; [|assumption|assumption|simpl; congruence].
      cbn [a_avg put_wd]. change (put_avg (norm_avg (a_avg x')) (put_wd VNone x')) with (put_wd VNone y).
      unfold validate_saving, M_state.validate_saving. cbn [a_wd put_wd truthy].
      rewrite validate_class_wd. reflexivity.
Qed.

Lemma Inv_quiet x s s' : Inv x (dk s) -> quiet x s s' -> Inv x (dk s').
Proof. intros [M A B S E C] Q. split; auto. eapply quiet_coh; eassumption. Qed.

Lemma off_quiet x s s' : truthy (a_wd x) = false -> quiet x s s' -> ob s' = x.
Proof. intros _ Q. apply Q. Qed.

Lemma value_coh_boot tr x k : mem_off less_memory x -> Coh tr x k -> Coh tr (put_boot VNone x) k.
Proof.
  intros M [A B C]. split; auto.
  intros p b T F s m n W K R N E.
  assert (NB : not_boot m = true).
  { destruct m; try reflexivity; discriminate N. }
  assert (R' : random_value x m = false) by (destruct m; try discriminate NB; exact R).
  destruct (C p b T F s m n W K R' N E) as [v [V O]].
  exists v. split; [|exact O]. rewrite value_boot; assumption.
Qed.

Lemma calm_step o s t :
  calm o -> Inv (ob s) (dk s) -> ob t = put_wd VNone (ob s) ->
  Inv (ob (snd (step o s))) (dk (snd (step o s))) /\
  ob (snd (step o t)) = put_wd VNone (ob (snd (step o s))) /\
  (no_draw (ob s) o -> fst (step o s) = fst (step o t)).
Proof.
  intros CM IN OT.
  assert (SET : forall f : obj -> obj,
    (forall x w, f (put_wd w x) = put_wd w (f x)) ->
    a_wd (f (ob s)) = a_wd (ob s) -> a_scratch (f (ob s)) = a_scratch (ob s) ->
    cl (f (ob s)) = cl (ob s) ->
    axis_type (a_avg (f (ob s))) = true -> boot_type (a_boot (f (ob s))) = true ->
    let rs := set_and_validate expanduser resolve (f (ob s)) s in
    let rt := set_and_validate expanduser resolve (f (ob t)) t in
    Inv (ob (snd rs)) (dk (snd rs)) /\ ob (snd rt) = put_wd VNone (ob (snd rs)) /\
    fst rs = fst rt).
  { intros f F1 F2 F3 F4 F5 F6.
    destruct (Inv_setter (ob s) (dk s) (f (ob s)) IN F2 F3 F4 F5 F6) as (r & x2 & k2 & V & I2 & VT).
    unfold set_and_validate. rewrite V. rewrite OT, F1, (VT (dk t)). simpl. auto. }
  assert (AX : axis_type (a_avg (ob s)) = true) by apply avg_ok_axis, (i_avg _ _ IN).
  pose proof (i_boot _ _ IN) as BT.
  assert (ONLY : forall (b : bool) (f : obj -> obj),
    (forall x w, f (put_wd w x) = put_wd w (f x)) ->
    a_wd (f (ob s)) = a_wd (ob s) -> a_scratch (f (ob s)) = a_scratch (ob s) ->
    cl (f (ob s)) = cl (ob s) ->
    axis_type (a_avg (f (ob s))) = true -> boot_type (a_boot (f (ob s))) = true ->
    let rs := if b then set_and_validate expanduser resolve (f (ob s)) s else (Raise AttributeError, s) in
    let rt := if b then set_and_validate expanduser resolve (f (ob t)) t else (Raise AttributeError, t) in
    Inv (ob (snd rs)) (dk (snd rs)) /\ ob (snd rt) = put_wd VNone (ob (snd rs)) /\
    fst rs = fst rt).
  { intros b f F1 F2 F3 F4 F5 F6. destruct b; [apply SET; assumption|]. simpl. auto. }
  assert (MET : forall m sn, key_ok m -> plain_save m sn ->
    Inv (ob (snd (metric m sn s))) (dk (snd (metric m sn s))) /\
    ob (snd (metric m sn t)) = put_wd VNone (ob (snd (metric m sn s))) /\
    (random_call (ob s) m = false -> fst (metric m sn s) = fst (metric m sn t))).
  { intros m sn K PS.
    pose proof (metric_coh false (ob s) m sn s (i_mem _ _ IN) K PS eq_refl (i_coh _ _ IN)) as H.
    destruct (metric m sn s) as [r s'] eqn:E. destruct (H r s' eq_refl) as [Q V].
    assert (MT : mem_off less_memory (ob t)) by (rewrite OT; exact (i_mem _ _ IN)).
    pose proof (metric_coh false (ob t) m sn t MT K PS eq_refl) as HT.
    destruct (metric m sn t) as [rt t'] eqn:ET.
    assert (CT : Coh false (ob t) (dk t)) by (apply off_coh; rewrite OT; reflexivity).
    destruct (HT CT rt t' eq_refl) as [QT VT]. simpl.
    destruct Q as (Q1 & Q2 & Q3). assert (QQ : quiet (ob s) s s') by (split; [exact Q1|split; assumption]).
    rewrite Q2. split; [apply (Inv_quiet _ s); assumption|].
    split; [destruct QT as (_ & QT & _); rewrite QT; exact OT|].
    intro R. destruct (V R) as [[V1|[X _]] _]; [|discriminate].
    assert (RT : random_call (ob t) m = false) by (rewrite OT; exact R).
    destruct (VT RT) as [[V2|[X _]] _]; [|discriminate].
    rewrite V1, V2, OT, pure_metric_wd; [reflexivity|apply (i_mem _ _ IN)]. }
  assert (RMS : forall sn, plain_save MSqErr sn ->
    Inv (ob (snd (rmse sn s))) (dk (snd (rmse sn s))) /\
    ob (snd (rmse sn t)) = put_wd VNone (ob (snd (rmse sn s))) /\
    (random_call (ob s) MSqErr = false -> fst (rmse sn s) = fst (rmse sn t))).
  { intros sn PS.
    pose proof (rmse_coh false (ob s) sn s (i_mem _ _ IN) PS eq_refl (i_coh _ _ IN)) as H.
    destruct (rmse sn s) as [r s'] eqn:E. destruct (H r s' eq_refl) as [Q V].
    assert (MT : mem_off less_memory (ob t)) by (rewrite OT; exact (i_mem _ _ IN)).
    assert (CT : Coh false (ob t) (dk t)) by (apply off_coh; rewrite OT; reflexivity).
    pose proof (rmse_coh false (ob t) sn t MT PS eq_refl CT) as HT.
    destruct (rmse sn t) as [rt t'] eqn:ET.
    destruct (HT rt t' eq_refl) as [QT VT]. simpl.
    destruct Q as (Q1 & Q2 & Q3). assert (QQ : quiet (ob s) s s') by (split; [exact Q1|split; assumption]).
    rewrite Q2. split; [apply (Inv_quiet _ s); assumption|].
    split; [destruct QT as (_ & QT & _); rewrite QT; exact OT|].
    intro R. destruct (V R) as [[V1|[X _]] _]; [|discriminate].
    assert (RT : random_call (ob t) MSqErr = false) by (rewrite OT; exact R).
    destruct (VT RT) as [[V2|[X _]] _]; [|discriminate].
    rewrite V1, V2, OT. unfold pure_rmse. rewrite pure_metric_wd; [reflexivity|apply (i_mem _ _ IN)]. }
  assert (CLT : cl (ob t) = cl (ob s)) by (rewrite OT; reflexivity).
  destruct o; cbn [calm] in CM; try contradiction; cbn [no_draw]; unfold step, M_state.step; cbv zeta.
  - destruct save_name as [v|].
    + destruct CM as [K NS].
      assert (PS : plain_save m v) by (right; exact NS).
      destruct m; try (apply (MET _ v K PS)); simpl; rewrite CLT; auto.
    + destruct m; exact (MET _ _ CM (or_introl eq_refl)).
  - destruct save_name as [v|]; apply RMS; [right; exact CM|left; reflexivity].
  - destruct (SET (put_avg v)) as (X1 & X2 & X3); auto.
  - destruct (SET (put_boot v)) as (X1 & X2 & X3); auto.
  - simpl. split; [|split; [rewrite OT; reflexivity|reflexivity]].
    destruct IN as [M A B S E C]. split; auto. apply value_coh_boot; assumption.
  - simpl. split; [|split; [rewrite OT; reflexivity|reflexivity]].
    destruct IN as [M A B S E C]. split; auto; [simpl; discriminate|]. apply off_coh. reflexivity.
  - rewrite CLT. destruct (ONLY (match cl (ob s) with CEnsemble => true | _ => false end) (put_eaxis v)) as (X1 & X2 & X3); auto.
  - rewrite CLT. destruct (ONLY (match cl (ob s) with CEnsemble => true | _ => false end) (put_collapse v)) as (X1 & X2 & X3); auto.
  - rewrite CLT. destruct (ONLY (is_prob (cl (ob s))) (put_move v)) as (X1 & X2 & X3); auto.
  - rewrite CLT. destruct (ONLY (is_prob (cl (ob s))) (put_members v)) as (X1 & X2 & X3); auto.
  - rewrite CLT. destruct (ONLY (is_prob (cl (ob s))) (put_clip v)) as (X1 & X2 & X3); auto.
  - rewrite CLT. destruct (ONLY (is_prob (cl (ob s))) (put_trunc v)) as (X1 & X2 & X3); auto.
  - rewrite CLT. destruct (ONLY (match cl (ob s) with CHurdle => true | _ => false end) (put_bins v)) as (X1 & X2 & X3); auto.
  - rewrite CLT. destruct (ONLY (match cl (ob s) with CHurdle => true | _ => false end) (put_range (VTuple [vmin; vmax]))) as (X1 & X2 & X3); auto.
Qed.

Lemma steps_cons o os s :
  steps (o :: os) s = (fst (step o s) :: fst (steps os (snd (step o s))), snd (steps os (snd (step o s)))).
Proof.
  simpl. destruct (step o s) as [r s1]. simpl. destruct (steps os s1). reflexivity.
Qed.

Lemma calm_steps os s t :
  Forall calm os -> Inv (ob s) (dk s) -> ob t = put_wd VNone (ob s) ->
  Inv (ob (snd (steps os s))) (dk (snd (steps os s))) /\
  ob (snd (steps os t)) = put_wd VNone (ob (snd (steps os s))).
Proof.
  intro F. revert s t. induction F as [|o os C F IH]; intros s t IN OT.
  - simpl. auto.
  - rewrite !steps_cons. cbn [snd].
    destruct (calm_step o s t C IN OT) as (I1 & O1 & _). apply IH; assumption.
Qed.

(** The object made by a constructor with saving and start_from_scratch. *)
Lemma construct_inv x k x1 k1 kt :
  (forall s, expanduser (expanduser s) = expanduser s) ->
  mem_off less_memory x -> disk_wf k -> a_scratch x = VBool true ->
  construct x k = (Ok x1, k1) ->
  Inv x1 k1 /\ construct (put_wd VNone x) kt = (Ok (put_wd VNone x1), kt).
Proof.
  intros EX M WF S H. unfold construct, M_state.construct in *.
  set (y := put_fc VNone x) in *.
  change (put_fc VNone (put_wd VNone x)) with (put_wd VNone y).
  change (cl (put_wd VNone x)) with (cl x).
  assert (V : exists r x2, validate y k = (r, x2, k1) /\
     (forall u, r = Ok u ->
       mem_off less_memory x2 /\ avg_ok (a_avg x2) = true /\ boot_type (a_boot x2) = true /\
       a_scratch x2 = VBool true /\ (forall s, a_wd x2 = VStr s -> truthy (a_wd x2) = true -> expanduser s = s) /\
       (truthy (a_wd x2) = true -> exists s, a_wd x2 = VStr s /\ clean (resolve s) k1)) /\
     (forall u, r = Ok u -> validate (put_wd VNone y) kt = (r, put_wd VNone x2, kt))).
  { destruct (validate y k) as [[r x2] k2] eqn:V. exists r, x2.
    assert (k2 = k1).
    { destruct r; [|congruence]. destruct (cl x); try congruence.
      destruct (lib "collapse" [a_collapse x2; a_f x2; a_eaxis x2]); congruence. }
    subst k2. split; [reflexivity|].
    split.
    - intros u ->. 
      unfold validate, M_state.validate, validate_base, M_state.validate_base in V.
      rewrite validate_avg_eq in V.
      destruct (avg_ok (norm_avg (a_avg y))) eqn:A; simpl passert in V; cbv iota beta in V; [|discriminate].
      cbn [a_boot put_avg a_scratch] in V.
      destruct (is_none (a_boot y) || is_int (a_boot y)) eqn:B; [|discriminate].
      assert (SY : a_scratch y = VBool true) by exact S.
      rewrite SY in V. simpl is_bool in V. cbv iota in V.
      set (z := put_avg (norm_avg (a_avg y)) y) in *.
      destruct (validate_saving z k) as [[[w|e] z1] k2] eqn:VS; [|discriminate].
      destruct (validate_class z1) as [r2 z2] eqn:VC. injection V as -> <- <-.
      destruct (validate_class_keeps z1) as (K1 & K2 & K3 & K4 & K5). rewrite VC in *. simpl in *.
      destruct (saving_fresh z k w z1 k2 WF S VS) as [(T & -> & ->)|(s & Ws & -> & CL)].
      + split; [unfold mem_off; rewrite K1; exact M|]. split; [rewrite K2; exact A|].
        split; [rewrite K3; exact B|]. split; [rewrite K5; exact S|].
        rewrite K4. split; intros; congruence.
      + split; [unfold mem_off; rewrite K1; exact M|]. split; [rewrite K2; exact A|].
        split; [rewrite K3; exact B|]. split; [rewrite K5; exact S|].
        rewrite K4. simpl. split.
        * intros s0 E _. injection E as <-. apply EX.
        * intros _. exists (expanduser s). auto.
    - intros u ->.
      unfold validate, M_state.validate, validate_base, M_state.validate_base in *.
      rewrite validate_avg_eq in *. cbn [a_avg put_wd] in *.
      destruct (avg_ok (norm_avg (a_avg y))) eqn:A; simpl passert in *; cbv iota beta in *; [|discriminate].
      change (put_avg (norm_avg (a_avg y)) (put_wd VNone y)) with (put_wd VNone (put_avg (norm_avg (a_avg y)) y)).
      cbn [a_boot put_avg a_scratch put_wd] in *.
      destruct (is_none (a_boot y) || is_int (a_boot y)) eqn:B; [|discriminate].
      assert (SY : a_scratch y = VBool true) by exact S.
      rewrite SY in *. simpl is_bool in *. cbv iota in *.
      set (z := put_avg (norm_avg (a_avg y)) y) in *.
      destruct (validate_saving z k) as [[[w|e] z1] k2] eqn:VS; [|discriminate].
      destruct (validate_class z1) as [r2 z2] eqn:VC. injection V as -> <- <-.
      assert (Z : put_wd VNone z1 = put_wd VNone z).
      { destruct (saving_fresh z k w z1 k2 WF S VS) as [(T & -> & ->)|(s & Ws & -> & CL)]; reflexivity. }
      unfold validate_saving, M_state.validate_saving. cbn [a_wd put_wd truthy].
      change (mkObj _ _ _ _ _ VNone _ _ _ _ _ _ _ _ _ _ _) with (put_wd VNone z) || idtac.
      rewrite <- Z. rewrite validate_class_wd, VC. reflexivity. }
  destruct V as (r & x2 & V & P & VT). rewrite V in H.
  destruct r as [u|e]; [|discriminate].
  destruct (P u eq_refl) as (P1 & P2 & P3 & P4 & P5 & P6).
  rewrite (VT u eq_refl).
  assert (DONE : forall v, Inv (put_fc v x2) k1 /\ Inv x2 k1).
  { assert (G : forall z, cl z = cl x2 -> a_avg z = a_avg x2 -> a_boot z = a_boot x2 ->
       a_scratch z = a_scratch x2 -> a_wd z = a_wd x2 -> Inv z k1).
    { intros z Z1 Z2 Z3 Z4 Z5. split; try congruence.
      - unfold mem_off in *. rewrite Z1. exact P1.
      - rewrite Z5. exact P5.
      - destruct (truthy (a_wd x2)) eqn:T.
        + destruct (P6 eq_refl) as [s [W CL]]. apply (clean_coh _ _ _ s); [congruence|exact CL].
        + apply off_coh. congruence. }
    intro v. split; apply G; reflexivity. }
  destruct (cl x); try (injection H as <-; split; [apply (DONE VNone)|reflexivity]).
  cbn [a_collapse a_f a_eaxis put_wd].
  destruct (lib "collapse" [a_collapse x2; a_f x2; a_eaxis x2]) as [v|]; [|discriminate].
  injection H as <-. split; [apply (DONE v)|reflexivity].
Qed.

(** ** A saved result is never overwritten by metric calls *)

Definition saved (k : disk) (P : path) (v : val) : Prop :=
  isdir k P = false /\ exists b, file k P = Some b /\ loads b = Ok v.
Definition keeps (P : path) (v : val) (s s' : st) : Prop :=
  ob s' = ob s /\ isdir (dk s') = isdir (dk s) /\ saved (dk s') P v.

Lemma workflow_keeps P d nm v run name s r s' :
  P = pkl d nm -> is_none v = false -> saved (dk s) P v ->
  (forall r1 s1, run s = (r1, s1) -> keeps P v s s1) ->
  workflow_1 name run s = (r, s') -> keeps P v s s'.
Proof.
  intros EP NV SV RUN E. unfold workflow_1, M_state.workflow_1 in E.
  assert (SELF : keeps P v s s) by (split; [|split]; auto).
  destruct name as [n|e]; [|injection E as <- <-; exact SELF].
  destruct (load s n) as [[w|]|e] eqn:L; [injection E as <- <-; exact SELF| |injection E as <- <-; exact SELF].
  destruct (run s) as [r1 s1] eqn:R. pose proof (RUN r1 s1 eq_refl) as K.
  destruct r1 as [w|e]; [|injection E as <- <-; exact K].
  assert (S : forall r2 s2, save s1 n w = (r2, s2) -> keeps P v s s2).
  { intros r2 s2 X. unfold save, M_state.save in X.
    destruct K as (K1 & K2 & K3). rewrite K1 in X.
    destruct (save_path (ob s) n) as [[q|]|e] eqn:SP; try (injection X as <- <-; split; [|split]; assumption).
    destruct (isdir (dk s1) q); [injection X as <- <-; split; [|split]; assumption|].
    destruct (isdir (dk s1) (removelast q)); injection X as <- <-;
      [|split; [|split]; assumption].
    split; [exact K1|]. split; [exact K2|].
    destruct K3 as [D [b [F LB]]]. split; [exact D|]. exists b. split; [|exact LB].
    simpl. rewrite path_eqb_neq; [exact F|]. intros ->.
    (* the file was there when the result was looked up *)
    unfold load, M_state.load in L. fold save_path in L. rewrite SP in L. simpl in L.
    destruct SV as [D0 [b0 [F0 L0]]]. rewrite D0, F0, L0 in L. simpl in L. rewrite NV in L. discriminate. }
  destruct (save s1 n w) as [[u|e] s2] eqn:SS; injection E as <- <-; eapply S; reflexivity.
Qed.

Lemma mem_not_pkl x d n : mem_path resolve integrate_wdir cwd x <> pkl d n.
Proof.
  unfold mem_path, pkl. intro H. apply app_inj_tail in H as [_ H]. symmetry in H. exact (pkl_not_dat n H).
Qed.

Lemma keeps_trans P v s1 s2 s3 : keeps P v s1 s2 -> keeps P v s2 s3 -> keeps P v s1 s3.
Proof.
  intros (A & B & C) (A' & B' & C'). split; [congruence|]. split; [congruence|assumption].
Qed.

Lemma exec_keeps P d nm v : P = pkl d nm -> is_none v = false -> forall n p s r s',
  saved (dk s) P v -> exec n p s = (r, s') -> keeps P v s s'.
Proof.
  intros EP NV n. induction n as [n IHn] using lt_wf_ind.
  intros p. induction p as [w|e|k IHp|m k IHp|b k IHp]; intros s r s' SV H.
  - destruct n; injection H as <- <-; (split; [|split]; auto).
  - destruct n; injection H as <- <-; (split; [|split]; auto).
  - assert (H' : exec n (k (rng (pos s))) (mkSt (ob s) (dk s) (S (pos s)) (events s)) = (r, s'))
      by (destruct n; exact H).
    destruct (IHp _ (mkSt (ob s) (dk s) (S (pos s)) (events s)) r s' SV H') as (A & B & C).
    split; [exact A|split; [exact B|exact C]].
  - destruct n as [|n]; [injection H as <- <-; split; [|split]; auto|].
    simpl in H.
    change ((let '(r0, s1) := workflow_1 (default_name m) (exec n (body (ob s) m)) s in
      match r0 with Ok v => exec (S n) (k v) s1 | Raise e => (Raise e, s1) end) = (r, s')) in H.
    destruct (workflow_1 (default_name m) (exec n (body (ob s) m)) s) as [r1 s1] eqn:E.
    assert (K : keeps P v s s1).
    { eapply (workflow_keeps P d nm v); try eassumption. intros r2 s2 X.
      eapply (IHn n (Nat.lt_succ_diag_r n)); eassumption. }
    destruct r1 as [w|e]; [|injection H as <- <-; exact K].
    eapply keeps_trans; [exact K|]. eapply IHp; [apply K|exact H].
  - assert (NE := mem_not_pkl (ob s) d nm). rewrite <- EP in NE.
    assert (SK : forall e, (exists c, e = EvWrite (mem_path resolve integrate_wdir cwd (ob s)) c) \/
                  e = EvRemove (mem_path resolve integrate_wdir cwd (ob s)) -> keeps P v s (emit e s)).
    { intros e X. split; [reflexivity|]. destruct SV as [D [c [F L]]].
      destruct X as [[c' ->] | -> ]; (split; [reflexivity|]); (split; [exact D|]);
        exists c; (split; [|exact L]); simpl; rewrite path_eqb_neq by exact NE; exact F. }
    destruct b.
    + assert (H' : (if negb (mem_text integrate_wdir (ob s)) then (Raise TypeError, s) else if isdir (dk s) (mem_dir resolve integrate_wdir cwd (ob s))
                    then exec n k (emit (EvWrite (mem_path resolve integrate_wdir cwd (ob s)) "") s)
                    else (Raise FileNotFoundError, s)) = (r, s')) by (destruct n; exact H).
      destruct (negb (mem_text integrate_wdir (ob s))); [injection H' as <- <-; split; [|split]; auto|].
      destruct (isdir (dk s) (mem_dir resolve integrate_wdir cwd (ob s)));
        [|injection H' as <- <-; split; [|split]; auto].
      assert (K := SK _ (or_introl (ex_intro _ "" eq_refl))).
      eapply keeps_trans; [exact K|]. eapply IHp; [apply K|exact H'].
    + assert (H' : match file (dk s) (mem_path resolve integrate_wdir cwd (ob s)) with
                   | Some _ => exec n k (emit (EvRemove (mem_path resolve integrate_wdir cwd (ob s))) s)
                   | None => (Raise FileNotFoundError, s) end = (r, s')) by (destruct n; exact H).
      destruct (file (dk s) (mem_path resolve integrate_wdir cwd (ob s)));
        [|injection H' as <- <-; split; [|split]; auto].
      assert (K := SK _ (or_intror eq_refl)).
      eapply keeps_trans; [exact K|]. eapply IHp; [apply K|exact H'].
Qed.

Lemma metric_keeps P d nm v m sn s r s' : P = pkl d nm -> is_none v = false ->
  saved (dk s) P v -> metric m sn s = (r, s') -> keeps P v s s'.
Proof.
  intros EP NV SV E. unfold metric, M_state.metric in E.
  assert (SELF : keeps P v s s) by (split; [|split]; auto).
  assert (G : match workflow_1 (to_name sn (kwargs m)) (exec depth (body (ob s) m)) s with
    | (Ok v, s1) => exec depth (post (ob s1) m v) s1
    | (Raise e, s1) => (Raise e, s1)
    end = (r, s') -> keeps P v s s').
  { intro X.
    destruct (workflow_1 (to_name sn (kwargs m)) (exec depth (body (ob s) m)) s) as [r1 s1] eqn:E1.
    assert (K : keeps P v s s1).
    { eapply (workflow_keeps P d nm v); try eassumption. intros r2 s2 Y.
      eapply exec_keeps; eassumption. }
    destruct r1; [|injection X as <- <-; exact K].
    eapply keeps_trans; [exact K|]. eapply exec_keeps; try eassumption. apply K. }
  destruct m; try (apply G; exact E); destruct (cl (ob s)); try (apply G; exact E);
    injection E as <- <-; exact SELF.
Qed.

Lemma step_keeps P d nm v o s r s' : P = pkl d nm -> is_none v = false ->
  saved (dk s) P v -> metric_op o = true -> step o s = (r, s') -> keeps P v s s'.
Proof.
  intros EP NV SV MO E.
  assert (SELF : keeps P v s s) by (split; [|split]; auto).
  assert (RM : forall sn, rmse sn s = (r, s') -> keeps P v s s').
  { intros sn X. unfold rmse, M_state.rmse in X.
    destruct (metric MSqErr sn s) as [r1 s1] eqn:E1.
    pose proof (metric_keeps P d nm v _ _ _ _ _ EP NV SV E1) as K.
    destruct r1; [|injection X as <- <-; exact K].
    eapply keeps_trans; [exact K|]. eapply exec_keeps; try eassumption. apply K. }
  destruct o; try discriminate MO; unfold step, M_state.step in E; cbv zeta in E.
  - destruct save_name as [w|].
    + destruct m; try (eapply metric_keeps; eassumption);
        (destruct (is_prob (cl (ob s))); injection E as <- <-; exact SELF).
    + destruct m; (eapply metric_keeps; eassumption).
  - destruct save_name; eapply RM; exact E.
Qed.

Lemma steps_keeps P d nm v os : P = pkl d nm -> is_none v = false ->
  forallb metric_op os = true -> forall s, saved (dk s) P v -> keeps P v s (snd (steps os s)).
Proof.
  intros EP NV. induction os as [|o os IH]; intros F s SV.
  - split; [|split]; auto.
  - simpl in F. apply andb_true_iff in F as [F1 F2]. rewrite steps_cons. cbn [snd].
    destruct (step o s) as [r s1] eqn:E.
    pose proof (step_keeps P d nm v o s r s1 EP NV SV F1 E) as K.
    eapply keeps_trans; [exact K|]. apply IH; [exact F2|apply K].
Qed.

(** After a saved metric call the result is on disk, and is found again. *)
Lemma metric_saves m sn s w s1 d nm :
  averaged m = false -> metric m sn s = (Ok w, s1) -> is_none w = false ->
  a_wd (ob s) = VStr d -> truthy (VStr d) = true -> to_name sn (kwargs m) = Ok (Some nm) ->
  saved (dk s1) (pkl (resolve d) nm) w /\ ob s1 = ob s.
Proof.
  intros AV E NW W T N. unfold metric, M_state.metric in E.
  assert (OB : forall n p s r s', exec n p s = (r, s') -> ob s' = ob s).
  { clear. intro n. induction n as [n IHn] using lt_wf_ind.
    intros p. induction p as [w|e|k IHp|m k IHp|b k IHp]; intros s r s' H.
    - destruct n; injection H as <- <-; reflexivity.
    - destruct n; injection H as <- <-; reflexivity.
    - assert (H' : exec n (k (rng (pos s))) (mkSt (ob s) (dk s) (S (pos s)) (events s)) = (r, s'))
        by (destruct n; exact H). apply IHp in H'. exact H'.
    - destruct n as [|n]; [injection H as <- <-; reflexivity|].
      simpl in H.
      change ((let '(r0, s1) := workflow_1 (default_name m) (exec n (body (ob s) m)) s in
        match r0 with Ok v => exec (S n) (k v) s1 | Raise e => (Raise e, s1) end) = (r, s')) in H.
      destruct (workflow_1 (default_name m) (exec n (body (ob s) m)) s) as [r1 s1] eqn:E.
      assert (O1 : ob s1 = ob s).
      { unfold workflow_1, M_state.workflow_1 in E. destruct (default_name m); [|congruence].
        destruct (load s a) as [[w|]|]; try congruence.
        destruct (exec n (body (ob s) m) s) as [r2 s2] eqn:E2.
        apply (IHn n (Nat.lt_succ_diag_r n)) in E2. destruct r2; [|congruence].
        unfold save, M_state.save in E. destruct (save_path (ob s2) a) as [[q|]|]; try congruence.
        destruct (isdir (dk s2) q); [congruence|].
        destruct (isdir (dk s2) (removelast q)); [|congruence].
        injection E as <- <-. exact E2. }
      destruct r1; [apply IHp in H; congruence|congruence].
    - destruct b.
      + assert (H' : (if negb (mem_text integrate_wdir (ob s)) then (Raise TypeError, s) else if isdir (dk s) (mem_dir resolve integrate_wdir cwd (ob s))
                    then exec n k (emit (EvWrite (mem_path resolve integrate_wdir cwd (ob s)) "") s)
                    else (Raise FileNotFoundError, s)) = (r, s')) by (destruct n; exact H).
        destruct (negb (mem_text integrate_wdir (ob s))); [congruence|].
        destruct (isdir (dk s) (mem_dir resolve integrate_wdir cwd (ob s))); [|congruence].
        apply IHp in H'. exact H'.
      + assert (H' : match file (dk s) (mem_path resolve integrate_wdir cwd (ob s)) with
                   | Some _ => exec n k (emit (EvRemove (mem_path resolve integrate_wdir cwd (ob s))) s)
                   | None => (Raise FileNotFoundError, s) end = (r, s')) by (destruct n; exact H).
        destruct (file (dk s) (mem_path resolve integrate_wdir cwd (ob s))); [|congruence].
        apply IHp in H'. exact H'. }
  assert (G : match workflow_1 (to_name sn (kwargs m)) (exec depth (body (ob s) m)) s with
    | (Ok v, s1) => exec depth (post (ob s1) m v) s1
    | (Raise e, s1) => (Raise e, s1)
    end = (Ok w, s1) -> saved (dk s1) (pkl (resolve d) nm) w /\ ob s1 = ob s).
  { clear E. intro X.
    destruct (workflow_1 (to_name sn (kwargs m)) (exec depth (body (ob s) m)) s) as [[v|e] s0] eqn:E1;
      [|discriminate].
    assert (PO : post (ob s0) m v = PRet v) by (destruct m; try discriminate AV; reflexivity).
    rewrite PO in X. simpl in X. injection X as -> ->.
    unfold workflow_1, M_state.workflow_1 in E1. rewrite N in E1.
    unfold load, M_state.load, M_state.save_path in E1. rewrite W, T in E1. simpl bind in E1. 
    fold (pkl (resolve d) nm) in E1.
    destruct (isdir (dk s) (pkl (resolve d) nm)) eqn:D; [discriminate|].
    assert (CASE : (exists b v, file (dk s) (pkl (resolve d) nm) = Some b /\ loads b = Ok v /\ is_none v = false)
                   \/ match exec depth (body (ob s) m) s with
                      | (Ok v, s1) => match save s1 (Some nm) v with
                                      | (Ok _, s2) => (Ok v, s2)
                                      | (Raise e, s2) => (Raise e, s2) end
                      | (Raise e, s1) => (Raise e, s1) end = (Ok w, s1)).
    { destruct (file (dk s) (pkl (resolve d) nm)) as [b|]; [|right; exact E1].
      destruct (loads b) as [v|] eqn:LB; simpl in E1; [|discriminate].
      destruct (is_none v) eqn:NV; [right; exact E1|]. left. exists b, v. auto. }
    destruct CASE as [(b & v & F & LB & NV)|C].
    - rewrite F, LB in E1. simpl in E1. rewrite NV in E1. injection E1 as -> ->.
      split; [|reflexivity]. split; [exact D|]. exists b. auto.
    - destruct (exec depth (body (ob s) m) s) as [[v|e] s2] eqn:E2; [|discriminate].
      pose proof (OB _ _ _ _ _ E2) as O2.
      unfold save, M_state.save, M_state.save_path in C. rewrite O2, W, T in C.
      fold (pkl (resolve d) nm) in C.
      destruct (isdir (dk s2) (pkl (resolve d) nm)) eqn:D2; [discriminate|].
      destruct (isdir (dk s2) (removelast (pkl (resolve d) nm))); [|discriminate].
      injection C as -> <-. split; [|exact O2]. split; [exact D2|].
      exists (dumps w). simpl. rewrite path_eqb_refl. split; [reflexivity|].
      apply (pickle_back _ _ PK). }
  destruct m; try (apply G; exact E); destruct (cl (ob s)); try (apply G; exact E); discriminate.
Qed.

Lemma metric_reloads m sn s w d nm :
  averaged m = false -> is_none w = false ->
  a_wd (ob s) = VStr d -> truthy (VStr d) = true -> to_name sn (kwargs m) = Ok (Some nm) ->
  saved (dk s) (pkl (resolve d) nm) w ->
  (match m, cl (ob s) with (MEns | MPit), (CDeterm | CEnsemble) => False | _, _ => True end) ->
  metric m sn s = (Ok w, s).
Proof.
  intros AV NW W T N [D [b [F L]]] OKC. unfold metric, M_state.metric.
  assert (X : workflow_1 (to_name sn (kwargs m)) (exec depth (body (ob s) m)) s = (Ok w, s)).
  { unfold workflow_1, M_state.workflow_1. rewrite N.
    unfold load, M_state.load, M_state.save_path. rewrite W, T. simpl bind.
    fold (pkl (resolve d) nm). rewrite D, F, L. simpl. rewrite NW. reflexivity. }
  rewrite X.
  assert (PO : forall y, post y m w = PRet w) by (intro; destruct m; try discriminate AV; reflexivity).
  rewrite PO.
  destruct m; try reflexivity; destruct (cl (ob s)); try reflexivity; contradiction.
Qed.

(** ** Nothing happens on disk when saving is off *)

Lemma workflow_off name run s k r s' :
  truthy (a_wd (ob s)) = false ->
  (forall r1 s1, run s = (r1, s1) ->
     ob s1 = ob s /\ dk s1 = dk s /\ run (on_disk k s) = (r1, on_disk k s1)) ->
  workflow_1 name run s = (r, s') ->
  ob s' = ob s /\ dk s' = dk s /\ workflow_1 name run (on_disk k s) = (r, on_disk k s').
Proof.
  intros T RUN E. unfold workflow_1, M_state.workflow_1 in *.
  destruct name as [n|e]; [|injection E as <- <-; auto].
  assert (L : forall s0, ob s0 = ob s -> load s0 n = Ok None).
  { intros s0 O. unfold load, M_state.load, M_state.save_path. rewrite O, T. destruct n; reflexivity. }
  rewrite (L s eq_refl) in E. rewrite (L (on_disk k s) eq_refl).
  destruct (run s) as [r1 s1] eqn:R. destruct (RUN r1 s1 eq_refl) as (A & B & C). rewrite C.
  destruct r1 as [w|e]; [|injection E as <- <-; auto].
  assert (S : forall s0, ob s0 = ob s -> save s0 n w = (Ok tt, s0)).
  { intros s0 O. unfold save, M_state.save, M_state.save_path. rewrite O, T. destruct n; reflexivity. }
  rewrite (S s1 A) in E. rewrite (S (on_disk k s1) A). injection E as <- <-. auto.
Qed.

Lemma exec_off x : mem_off less_memory x -> truthy (a_wd x) = false -> forall n p s r s' k,
  ob s = x -> wfp (fun _ => True) false p -> exec n p s = (r, s') ->
  ob s' = x /\ dk s' = dk s /\ exec n p (on_disk k s) = (r, on_disk k s').
Proof.
  intros M T n. induction n as [n IHn] using lt_wf_ind.
  intros p. induction p as [w|e|c IHp|m c IHp|b c IHp]; intros s r s' k O W H.
  - destruct n; injection H as <- <-; auto.
  - destruct n; injection H as <- <-; auto.
  - destruct W as [_ W].
    assert (H' : exec n (c (rng (pos s))) (mkSt (ob s) (dk s) (S (pos s)) (events s)) = (r, s'))
      by (destruct n; exact H).
    destruct (IHp _ (mkSt (ob s) (dk s) (S (pos s)) (events s)) r s' k O (W _) H') as (A & B & C).
    split; [exact A|split; [exact B|]]. destruct n; exact C.
  - destruct W as [_ W].
    destruct n as [|n]; [injection H as <- <-; auto|].
    simpl in H. simpl exec. rewrite O in H. cbn [ob on_disk]. rewrite O.
    change ((let '(r0, s1) := workflow_1 (default_name m) (exec n (body x m)) s in
      match r0 with Ok v => exec (S n) (c v) s1 | Raise e => (Raise e, s1) end) = (r, s')) in H.
    change (ob s' = x /\ dk s' = dk s /\
      (let '(r0, s1) := workflow_1 (default_name m) (exec n (body x m)) (on_disk k s) in
      match r0 with Ok v => exec (S n) (c v) s1 | Raise e => (Raise e, s1) end) = (r, on_disk k s')).
    destruct (workflow_1 (default_name m) (exec n (body x m)) s) as [r1 s1] eqn:E.
    assert (TS : truthy (a_wd (ob s)) = false) by (rewrite O; exact T).
    assert (RUN : forall r2 s2, exec n (body x m) s = (r2, s2) -> ob s2 = ob s /\ dk s2 = dk s /\
              exec n (body x m) (on_disk k s) = (r2, on_disk k s2)).
    { intros r2 s2 X. rewrite O. apply (IHn n (Nat.lt_succ_diag_r n)); [exact O| |exact X].
      apply body_calls; auto. }
    destruct (workflow_off (default_name m) (exec n (body x m)) s k r1 s1 TS RUN E) as (A & B & C).
    rewrite C. destruct r1 as [w|e]; [|injection H as <- <-; repeat split; congruence].
    destruct (IHp w s1 r s' k ltac:(congruence) (W w) H) as (A' & B' & C').
    split; [exact A'|split; [congruence|exact C']].
  - contradiction.
Qed.

Lemma metric_off m sn s r s' k :
  mem_off less_memory (ob s) -> truthy (a_wd (ob s)) = false -> metric m sn s = (r, s') ->
  ob s' = ob s /\ dk s' = dk s /\ metric m sn (on_disk k s) = (r, on_disk k s').
Proof.
  intros M T E. unfold metric, M_state.metric in *. cbn [ob on_disk].
  assert (G : match workflow_1 (to_name sn (kwargs m)) (exec depth (body (ob s) m)) s with
    | (Ok v, s1) => exec depth (post (ob s1) m v) s1
    | (Raise e, s1) => (Raise e, s1)
    end = (r, s') -> ob s' = ob s /\ dk s' = dk s /\
    match workflow_1 (to_name sn (kwargs m)) (exec depth (body (ob s) m)) (on_disk k s) with
    | (Ok v, s1) => exec depth (post (ob s1) m v) s1
    | (Raise e, s1) => (Raise e, s1)
    end = (r, on_disk k s')).
  { clear E. intro E.
    destruct (workflow_1 (to_name sn (kwargs m)) (exec depth (body (ob s) m)) s) as [r1 s1] eqn:E1.
    assert (RUN : forall r2 s2, exec depth (body (ob s) m) s = (r2, s2) -> ob s2 = ob s /\ dk s2 = dk s /\
              exec depth (body (ob s) m) (on_disk k s) = (r2, on_disk k s2)).
    { intros r2 s2 X. apply (exec_off _ M T depth _ s r2 s2 k eq_refl); [|exact X].
      apply body_calls; auto. }
    destruct (workflow_off _ _ s k r1 s1 T RUN E1) as (A & B & C).
    rewrite C. destruct r1 as [w|e]; [|injection E as <- <-; auto].
    cbn [ob on_disk]. rewrite A in *.
    destruct (exec_off _ M T depth _ s1 r s' k A (post_any _ _ _) E) as (A' & B' & C').
    split; [exact A'|split; [congruence|exact C']]. }
  destruct m; try (apply G; exact E); destruct (cl (ob s)); try (apply G; exact E);
    injection E as <- <-; auto.
Qed.

Lemma rmse_off sn s r s' k :
  mem_off less_memory (ob s) -> truthy (a_wd (ob s)) = false -> rmse sn s = (r, s') ->
  ob s' = ob s /\ dk s' = dk s /\ rmse sn (on_disk k s) = (r, on_disk k s').
Proof.
  intros M T E. unfold rmse, M_state.rmse in *.
  destruct (metric MSqErr sn s) as [r1 s1] eqn:E1.
  destruct (metric_off MSqErr sn s r1 s1 k M T E1) as (A & B & C). rewrite C.
  destruct r1 as [v|e]; [|injection E as <- <-; auto].
  unfold plib, lift in *. destruct (lib "sqrt" [v]); simpl in *; injection E as <- <-; auto.
Qed.

Lemma validate_off x k : truthy (a_wd x) = false ->
  exists r x1, validate x k = (r, x1, k) /\ truthy (a_wd x1) = false /\ cl x1 = cl x /\
    forall k', validate x k' = (r, x1, k').
Proof.
  intro T. unfold validate, M_state.validate, validate_base, M_state.validate_base.
  rewrite validate_avg_eq.
  destruct (avg_ok (norm_avg (a_avg x))); simpl passert; cbv iota beta;
    [|eexists; eexists; split; [reflexivity|auto]].
  cbn [a_boot a_scratch put_avg].
  destruct (is_none (a_boot x) || is_int (a_boot x)); [|eexists; eexists; split; [reflexivity|auto]].
  destruct (is_bool (a_scratch x)); [|eexists; eexists; split; [reflexivity|auto]].
  unfold validate_saving, M_state.validate_saving. cbn [a_wd put_avg]. rewrite T.
  pose proof (validate_class_keeps (put_avg (norm_avg (a_avg x)) x)) as K.
  destruct (validate_class (put_avg (norm_avg (a_avg x)) x)) as [r x1]. simpl in K.
  destruct K as (K1 & K2 & K3 & K4 & K5).
  eexists; eexists; split; [reflexivity|]. split; [rewrite K4; exact T|]. split; [exact K1|reflexivity].
Qed.

Lemma step_off o s r s' k :
  mem_off less_memory (ob s) -> truthy (a_wd (ob s)) = false -> not_enable o = true ->
  step o s = (r, s') ->
  cl (ob s') = cl (ob s) /\ truthy (a_wd (ob s')) = false /\ dk s' = dk s /\
  step o (on_disk k s) = (r, on_disk k s').
Proof.
  intros M T NE E.
  assert (SET : forall x, truthy (a_wd x) = false -> cl x = cl (ob s) ->
    set_and_validate expanduser resolve x s = (r, s') ->
    cl (ob s') = cl (ob s) /\ truthy (a_wd (ob s')) = false /\ dk s' = dk s /\
    set_and_validate expanduser resolve x (on_disk k s) = (r, on_disk k s')).
  { intros x TX' CX X. unfold set_and_validate in *.
    destruct (validate_off x (dk s) TX') as (r1 & x1 & V & T1 & C1 & VK).
    rewrite V in X. cbn [dk on_disk]. rewrite (VK k). injection X as <- <-. simpl.
    split; [congruence|auto]. }
  assert (ONLY : forall (b : bool) x, truthy (a_wd x) = false -> cl x = cl (ob s) ->
    (if b then set_and_validate expanduser resolve x s else (Raise AttributeError, s)) = (r, s') ->
    cl (ob s') = cl (ob s) /\ truthy (a_wd (ob s')) = false /\ dk s' = dk s /\
    (if b then set_and_validate expanduser resolve x (on_disk k s)
     else (Raise AttributeError, on_disk k s)) = (r, on_disk k s')).
  { intros b x A B X. destruct b; [apply SET; assumption|]. injection X as <- <-. auto. }
  assert (MET : forall m sn, metric m sn s = (r, s') ->
    cl (ob s') = cl (ob s) /\ truthy (a_wd (ob s')) = false /\ dk s' = dk s /\
    metric m sn (on_disk k s) = (r, on_disk k s')).
  { intros m sn X. destruct (metric_off m sn s r s' k M T X) as (A & B & C).
    rewrite A. auto. }
  assert (RM : forall sn, rmse sn s = (r, s') ->
    cl (ob s') = cl (ob s) /\ truthy (a_wd (ob s')) = false /\ dk s' = dk s /\
    rmse sn (on_disk k s) = (r, on_disk k s')).
  { intros sn X. destruct (rmse_off sn s r s' k M T X) as (A & B & C).
    rewrite A. auto. }
  destruct o; try discriminate NE; unfold step, M_state.step in *; cbv zeta in *;
    try (apply ONLY; [exact T|reflexivity|exact E]);
    try (apply SET; [exact T|reflexivity|exact E]).
  - destruct save_name as [w|].
    + destruct m; try (apply MET; exact E);
        cbn [ob on_disk]; destruct (is_prob (cl (ob s))); injection E as <- <-; auto.
    + destruct m; (apply MET; exact E).
  - destruct save_name; apply RM; exact E.
  - injection E as <- <-. auto.
  - injection E as <- <-. auto.
Qed.

Lemma steps_off os : forall s k,
  mem_off less_memory (ob s) -> truthy (a_wd (ob s)) = false -> forallb not_enable os = true ->
  dk (snd (steps os s)) = dk s /\
  fst (steps os (on_disk k s)) = fst (steps os s) /\
  dk (snd (steps os (on_disk k s))) = k.
Proof.
  induction os as [|o os IH]; intros s k M T F.
  - auto.
  - simpl in F. apply andb_true_iff in F as [F1 F2]. rewrite !steps_cons. cbn [fst snd].
    destruct (step o s) as [r s1] eqn:E.
    destruct (step_off o s r s1 k M T F1 E) as (A & B & C & D). rewrite D. cbn [fst snd].
    assert (M1 : mem_off less_memory (ob s1)) by (unfold mem_off in *; rewrite A; exact M).
    destruct (IH s1 k M1 B F2) as (X & Y & Z).
    split; [congruence|]. split; [congruence|exact Z].
Qed.

(** ** Effect of validation on the disk *)

Lemma makedirs_files d k k1 : makedirs d k = Ok k1 ->
  file k1 = file k /\ forall p, isdir k1 p = if under p d then true else isdir k p.
Proof.
  unfold makedirs. destruct (ancestor_is_file d k); [discriminate|]. intro H. injection H as <-. auto.
Qed.

Lemma saving_effect x k r x1 k1 s :
  a_wd x = VStr s -> truthy (a_wd x) = true -> validate_saving x k = (r, x1, k1) ->
  let d := resolve (expanduser s) in
  (forall p, under d p = false -> file k1 p = file k p /\ (isdir k p = true -> isdir k1 p = true)) /\
  (forall p, isdir k1 p = true -> isdir k p = true \/ under p d = true) /\
  (truthy (a_scratch x) = false ->
     forall p, file k1 p = file k p /\ (isdir k p = true -> isdir k1 p = true)).
Proof.
  intros W T. unfold validate_saving, M_state.validate_saving. rewrite T, W. cbv zeta.
  cbn [a_scratch put_wd]. set (d := resolve (expanduser s)).
  assert (SAME : forall e : res unit, (e, put_wd (VStr (expanduser s)) x, k) = (r, x1, k1) ->
    (forall p, under d p = false -> file k1 p = file k p /\ (isdir k p = true -> isdir k1 p = true)) /\
    (forall p, isdir k1 p = true -> isdir k p = true \/ under p d = true) /\
    (truthy (a_scratch x) = false ->
       forall p, file k1 p = file k p /\ (isdir k p = true -> isdir k1 p = true))).
  { intros e H. injection H as <- <- <-. auto. }
  destruct (exists_at k d) eqn:X.
  - destruct (truthy (a_scratch x)) eqn:S; [|apply SAME].
    unfold rmtree. destruct (isdir k d) eqn:D; [|apply SAME].
    set (k0 := mkDisk _ _).
    assert (P0 : forall p, under d p = false -> file k0 p = file k p /\ isdir k0 p = isdir k p)
      by (intros p U; simpl; rewrite U; auto).
    assert (Q0 : forall p, isdir k0 p = true -> isdir k p = true)
      by (intros p; simpl; destruct (under d p); [discriminate|auto]).
    destruct (makedirs d k0) as [k2|e] eqn:MK; intro H; injection H as <- <- <-.
    + destruct (makedirs_files _ _ _ MK) as [F I]. split; [|split; [|discriminate]].
      * intros p U. destruct (P0 p U) as [A B]. rewrite F, I. split; [exact A|].
        intro Y. destruct (under p d); [reflexivity|congruence].
      * intros p. rewrite I. destruct (under p d); auto.
    + split; [|split; [|discriminate]].
      * intros p U. destruct (P0 p U) as [A B]. split; [exact A|congruence].
      * intros p Y. left. auto.
  - destruct (makedirs d k) as [k2|e] eqn:MK; [|apply SAME].
    intro H; injection H as <- <- <-.
    destruct (makedirs_files _ _ _ MK) as [F I].
    assert (G : forall p, file k2 p = file k p /\ (isdir k p = true -> isdir k2 p = true)).
    { intro p. rewrite F, I. split; [reflexivity|]. intro. destruct (under p d); auto. }
    split; [intros p _; apply G|]. split; [|intros _; apply G].
    intros p. rewrite I. destruct (under p d); auto.
Qed.

Lemma validate_disk x k r x1 k1 : validate x k = (r, x1, k1) ->
  (k1 = k /\ exists e, r = Raise e) \/
  exists y r0 x0, a_wd y = a_wd x /\ a_scratch y = a_scratch x /\ is_bool (a_scratch x) = true /\
    validate_saving y k = (r0, x0, k1) /\ (forall u, r = Ok u -> exists u', r0 = Ok u').
Proof.
  unfold validate, M_state.validate, validate_base, M_state.validate_base. rewrite validate_avg_eq.
  destruct (avg_ok (norm_avg (a_avg x))); simpl passert; cbv iota beta;
    [|intro H; injection H as <- <- <-; left; eauto].
  cbn [a_boot a_scratch put_avg].
  destruct (is_none (a_boot x) || is_int (a_boot x)); [|intro H; injection H as <- <- <-; left; eauto].
  destruct (is_bool (a_scratch x)) eqn:B; [|intro H; injection H as <- <- <-; left; eauto].
  destruct (validate_saving (put_avg (norm_avg (a_avg x)) x) k) as [[r0 x0] k0] eqn:V.
  intro H. right. exists (put_avg (norm_avg (a_avg x)) x), r0, x0.
  assert (k0 = k1) by (destruct r0; [destruct (validate_class x0)|]; congruence). subst k0.
  repeat split; auto. intros u ->. destruct r0; [eauto|discriminate].
Qed.

(** ** Crashes while results are written *)

Lemma events_coh tr x evs k : Forall (good_event x) evs -> Coh tr x k ->
  Coh tr x (fold_left apply_event evs k).
Proof.
  intro F. revert k. induction F; intros k C; simpl; [exact C|].
  apply IHF. apply coh_event; assumption.
Qed.

Lemma crash_coh x k evs kc : Forall (good_event x) evs -> Coh true x k -> crash_disk k evs kc ->
  Coh true x kc.
Proof.
  intros F C [(pre & rest & -> & ->)|(pre & p & b & c & rest & -> & [r R] & ->)].
  - apply Forall_app in F as [F _]. apply events_coh; assumption.
  - apply Forall_app in F as [F1 F2]. inversion F2 as [|? ? G _]; subst.
    destruct G as (p' & b' & s & n & E & W & T & P & S). injection E as <- <-. subst p.
    apply coh_write; [apply events_coh; assumption|exact W|].
    intros s' m nm W' K R' N EP. destruct (S s' m nm W' K R' N EP) as [v [V O]].
    exists v. split; [exact V|]. destruct O as [O|[O _]]; [|discriminate].
    destruct r as [|a r].
    + left. rewrite sapp_nil in O. exact O.
    + right. split; [reflexivity|]. exists a, r. symmetry. exact O.
Qed.

Lemma step_quiet tr o s r s' :
  calm_metric o -> mem_off less_memory (ob s) -> Coh tr (ob s) (dk s) -> step o s = (r, s') ->
  quiet (ob s) s s' /\
  (no_draw (ob s) o -> forall t, ob t = put_wd VNone (ob s) -> rel tr r (fst (step o t))).
Proof.
  intros [CM MO] M C E.
  assert (MET : forall m sn, key_ok m -> plain_save m sn -> metric m sn s = (r, s') ->
    quiet (ob s) s s' /\ (random_call (ob s) m = false -> forall t, ob t = put_wd VNone (ob s) ->
       rel tr r (fst (metric m sn t)))).
  { intros m sn K PS X.
    destruct (metric_coh tr (ob s) m sn s M K PS eq_refl C r s' X) as [Q V].
    split; [exact Q|]. intros R t OT. destruct (V R) as [V1 _].
    assert (MT : mem_off less_memory (ob t)) by (rewrite OT; exact M).
    assert (CT : Coh false (ob t) (dk t)) by (apply off_coh; rewrite OT; reflexivity).
    destruct (metric m sn t) as [rt t'] eqn:ET.
    destruct (metric_coh false (ob t) m sn t MT K PS eq_refl CT rt t' ET) as [_ VT].
    assert (RT : random_call (ob t) m = false) by (rewrite OT; exact R).
    destruct (VT RT) as [[V2|[Y _]] _]; [|discriminate]. simpl.
    rewrite V2, OT, pure_metric_wd; assumption. }
  assert (RMS : forall sn, plain_save MSqErr sn -> rmse sn s = (r, s') ->
    quiet (ob s) s s' /\ (random_call (ob s) MSqErr = false -> forall t, ob t = put_wd VNone (ob s) ->
       rel tr r (fst (rmse sn t)))).
  { intros sn PS X.
    destruct (rmse_coh tr (ob s) sn s M PS eq_refl C r s' X) as [Q V].
    split; [exact Q|]. intros R t OT. destruct (V R) as [V1 _].
    assert (MT : mem_off less_memory (ob t)) by (rewrite OT; exact M).
    assert (CT : Coh false (ob t) (dk t)) by (apply off_coh; rewrite OT; reflexivity).
    destruct (rmse sn t) as [rt t'] eqn:ET.
    destruct (rmse_coh false (ob t) sn t MT PS eq_refl CT rt t' ET) as [_ VT].
    assert (RT : random_call (ob t) MSqErr = false) by (rewrite OT; exact R).
    destruct (VT RT) as [[V2|[Y _]] _]; [|discriminate]. simpl.
    rewrite V2, OT. unfold pure_rmse. rewrite pure_metric_wd; assumption. }
  destruct o; try discriminate MO; cbn [calm no_draw] in *; unfold step, M_state.step in *; cbv zeta in *.
  - destruct save_name as [v|].
    + destruct CM as [K NS].
      assert (PS : plain_save m v) by (right; exact NS).
      destruct m; try (apply (MET _ v K PS E));
        (destruct (is_prob (cl (ob s))) eqn:IP; injection E as <- <-;
         (split; [apply quiet_refl; reflexivity|]; intros _ t OT; rewrite OT;
          left; simpl; rewrite IP; reflexivity)).
    + destruct m; exact (MET _ _ CM (or_introl eq_refl) E).
  - destruct save_name as [v|]; apply (RMS _); [right; exact CM|exact E|left; reflexivity|exact E].
Qed.

Lemma steps_quiet tr os : forall s,
  Forall calm_metric os -> mem_off less_memory (ob s) -> Coh tr (ob s) (dk s) ->
  quiet (ob s) s (snd (steps os s)).
Proof.
  induction os as [|o os IH]; intros s F M C.
  - apply quiet_refl. reflexivity.
  - inversion F as [|? ? F1 F2]; subst. rewrite steps_cons. cbn [snd].
    destruct (step o s) as [r s1] eqn:E.
    destruct (step_quiet tr o s r s1 F1 M C E) as [Q _].
    cbn [snd]. eapply quiet_trans; [exact Q|].
    assert (O1 : ob s1 = ob s) by apply Q. rewrite <- O1.
    apply IH; [exact F2|rewrite O1; exact M|rewrite O1; eapply quiet_coh; eassumption].
Qed.

(** The settings an accepted constructor produces do not depend on the disk. *)
Definition vobj (x : obj) : obj :=
  let y := put_avg (norm_avg (a_avg x)) x in
  snd (validate_class (if truthy (a_wd y) then
         match a_wd y with VStr s => put_wd (VStr (expanduser s)) y | _ => y end else y)).

Lemma validate_class_scratch w x :
  validate_class (put_scratch w x) = (fst (validate_class x), put_scratch w (snd (validate_class x))).
Proof.
  unfold validate_class. change (cl (put_scratch w x)) with (cl x).
  destruct (cl x); try reflexivity.
  unfold validate_ensemble.
  change (guess_axis (put_scratch w x)) with (guess_axis x).
  cbn [a_f a_o a_eaxis a_collapse put_scratch].
  destruct (negb (is_arr (a_f x) && is_arr (a_o x))); [reflexivity|].
  destruct (if is_none (a_eaxis x) then guess_axis x
            else if is_int (a_eaxis x) then Ok (a_eaxis x) else Raise AssertionError);
    reflexivity.
Qed.

Lemma vobj_scratch w x : vobj (put_scratch w x) = put_scratch w (vobj x).
Proof.
  unfold vobj. cbv zeta. cbn [a_avg a_wd put_scratch put_avg].
  destruct (truthy (a_wd x)).
  - destruct (a_wd x) as [| | | |s| | | | | |];
      try (exact (f_equal snd (validate_class_scratch w (put_avg (norm_avg (a_avg x)) x)))).
    exact (f_equal snd (validate_class_scratch w (put_wd (VStr (expanduser s)) (put_avg (norm_avg (a_avg x)) x)))).
  - apply (f_equal snd (validate_class_scratch w (put_avg (norm_avg (a_avg x)) x))).
Qed.

Lemma validate_obj x k u x1 k1 : validate x k = (Ok u, x1, k1) -> x1 = vobj x.
Proof.
  unfold validate, M_state.validate, validate_base, M_state.validate_base. rewrite validate_avg_eq.
  destruct (avg_ok (norm_avg (a_avg x))); simpl passert; cbv iota beta; [|discriminate].
  cbn [a_boot a_scratch put_avg].
  destruct (is_none (a_boot x) || is_int (a_boot x)); [|discriminate].
  destruct (is_bool (a_scratch x)) eqn:B; [|discriminate].
  unfold vobj. cbv zeta. set (y := put_avg (norm_avg (a_avg x)) x).
  unfold validate_saving, M_state.validate_saving.
  destruct (truthy (a_wd y)).
  - destruct (a_wd y) as [| | | |s| | | | | |]; try discriminate. cbv zeta.
    destruct (exists_at k (resolve (expanduser s))).
    + destruct (truthy (a_scratch (put_wd (VStr (expanduser s)) y))).
      * destruct (rmtree (resolve (expanduser s)) k); [|discriminate].
        destruct (makedirs (resolve (expanduser s)) a); [|discriminate].
        destruct (validate_class (put_wd (VStr (expanduser s)) y)). intro H. injection H as _ <- _. reflexivity.
      * destruct (validate_class (put_wd (VStr (expanduser s)) y)). intro H. injection H as _ <- _. reflexivity.
    + destruct (makedirs (resolve (expanduser s)) k); [|discriminate].
      destruct (validate_class (put_wd (VStr (expanduser s)) y)). intro H. injection H as _ <- _. reflexivity.
  - destruct (validate_class y). intro H. injection H as _ <- _. reflexivity.
Qed.

Lemma construct_obj b b' x0 k x k1 k2 y k3 :
  construct (put_scratch b x0) k = (Ok x, k1) ->
  construct (put_scratch b' x0) k2 = (Ok y, k3) -> y = put_scratch b' x /\ a_scratch x = b.
Proof.
  unfold construct, M_state.construct. cbn [cl put_scratch].
  change (put_fc VNone (put_scratch b x0)) with (put_scratch b (put_fc VNone x0)).
  change (put_fc VNone (put_scratch b' x0)) with (put_scratch b' (put_fc VNone x0)).
  destruct (validate (put_scratch b (put_fc VNone x0)) k) as [[[u|e] x1] k4] eqn:V; [|discriminate].
  destruct (validate (put_scratch b' (put_fc VNone x0)) k2) as [[[u'|e] x2] k5] eqn:V2; [|discriminate].
  apply validate_obj in V. apply validate_obj in V2. rewrite vobj_scratch in V, V2. subst.
  set (z := vobj (put_fc VNone x0)).
  destruct (cl x0); try (intros H1 H2; injection H1 as <- <-; injection H2 as <- <-; split; reflexivity).
  cbn [a_collapse a_f a_eaxis put_scratch].
  destruct (lib "collapse" [a_collapse z; a_f z; a_eaxis z]); [|discriminate].
  intros H1 H2; injection H1 as <- <-; injection H2 as <- <-; split; reflexivity.
Qed.

Lemma construct_disk x k x1 k1 : construct x k = (Ok x1, k1) ->
  exists x2, validate (put_fc VNone x) k = (Ok tt, x2, k1) /\ a_wd x1 = a_wd x2 /\ cl x1 = cl x.
Proof.
  unfold construct, M_state.construct.
  destruct (validate (put_fc VNone x) k) as [[[[]|e] x2] k4] eqn:V; [|discriminate].
  assert (CX : cl x2 = cl x).
  { apply validate_obj in V. subst x2. unfold vobj. cbv zeta.
    match goal with |- cl (snd (validate_class ?z)) = _ =>
      rewrite (proj1 (validate_class_keeps z)); destruct (truthy (a_wd (put_avg (norm_avg (a_avg (put_fc VNone x))) (put_fc VNone x)))); [|reflexivity] end.
    destruct (a_wd (put_avg (norm_avg (a_avg (put_fc VNone x))) (put_fc VNone x))); reflexivity. }
  intro H. exists x2.
  destruct (cl x) eqn:C; try (injection H as <- <-; auto).
  destruct (lib "collapse" [a_collapse x2; a_f x2; a_eaxis x2]); [|discriminate].
  injection H as <- <-. auto.
Qed.

Lemma body_scratch w x m : body (put_scratch w x) m = body x m.
Proof. destruct m; reflexivity. Qed.
Lemma value_scratch w x m : mem_off less_memory x -> value (put_scratch w x) m = value x m.
Proof.
  intro M. unfold value. rewrite body_scratch.
  apply (pev_ext (fun _ => True) false x _ M).
  - intros. apply body_scratch.
  - intros. apply body_calls; auto.
  - apply body_calls; auto.
Qed.
Lemma coh_scratch tr w x k : mem_off less_memory x -> Coh tr x k -> Coh tr (put_scratch w x) k.
Proof.
  intros M [A B C]. split; [exact A|exact B|].
  intros p b T F s m n W K R N E. destruct (C p b T F s m n W K R N E) as [v [V O]].
  exists v. split; [|exact O]. rewrite value_scratch; assumption.
Qed.

Lemma run_crash_coh x k1 os n kc :
  mem_off less_memory x -> Coh true x k1 -> Forall calm_metric os ->
  crash_disk k1 (events (snd (steps os (mkSt x k1 n [])))) kc -> Coh true x kc.
Proof.
  intros M C F CR.
  pose proof (steps_quiet true os (mkSt x k1 n []) F M C) as (_ & _ & _ & evs & E & G & _).
  rewrite E in CR. simpl in CR. eapply crash_coh; eassumption.
Qed.

Lemma vobj_wd x : a_wd (vobj x) =
  if truthy (a_wd x) then match a_wd x with VStr s => VStr (expanduser s) | w => w end else a_wd x.
Proof.
  unfold vobj. cbv zeta. rewrite (proj1 (proj2 (proj2 (proj2 (validate_class_keeps _))))).
  cbn [a_wd put_avg]. destruct (truthy (a_wd x)); [|reflexivity].
  destruct (a_wd x) eqn:W; cbn [a_wd put_avg put_wd]; auto.
Qed.

Lemma fresh_coh tr x0 k x k1 :
  disk_wf k -> construct (put_scratch (VBool true) x0) k = (Ok x, k1) -> Coh tr x k1.
Proof.
  intros WF H. destruct (construct_disk _ _ _ _ H) as [x2 [V [W _]]].
  assert (X := validate_obj _ _ _ _ _ V).
  destruct (validate_disk _ _ _ _ _ V) as [[_ [e E]]|(y & r0 & z & Y1 & Y2 & _ & VS & OKR)]; [discriminate|].
  destruct (OKR tt eq_refl) as [u ->].
  assert (WX := vobj_wd (put_fc VNone (put_scratch (VBool true) x0))). rewrite <- X, <- W in WX.
  cbn [a_wd put_fc put_scratch] in WX. assert (Y3 : a_wd y = a_wd x0) by exact Y1.
  destruct (saving_fresh y k u z k1 WF) as [(T & EZ & EK)|(s & Ws & EZ & CL)];
    [rewrite Y2; reflexivity|exact VS| |].
  - apply off_coh. rewrite Y3 in T. rewrite T in WX. rewrite WX. exact T.
  - rewrite Y3 in Ws. destruct (truthy (a_wd x0)) eqn:T.
    + rewrite Ws in WX. apply (clean_coh _ _ _ (expanduser s)); assumption.
    + apply off_coh. rewrite WX. exact T.
Qed.

Lemma reopen_disk x0 k x k1 :
  construct (put_scratch (VBool false) x0) k = (Ok x, k1) ->
  (truthy (a_wd x0) = true -> exists s, a_wd x0 = VStr s /\ isdir k (resolve (expanduser s)) = true) ->
  k1 = k.
Proof.
  intros H D. destruct (construct_disk _ _ _ _ H) as [x2 [V _]].
  destruct (validate_disk _ _ _ _ _ V) as [[E _]|(y & r0 & z & Y1 & Y2 & _ & VS & _)]; [exact E|].
  unfold validate_saving, M_state.validate_saving in VS.
  assert (Y3 : a_wd y = a_wd x0) by exact Y1. rewrite Y3 in VS.
  destruct (truthy (a_wd x0)); [|congruence].
  destruct (D eq_refl) as [s [W I]]. rewrite W in VS. cbv zeta in VS.
  unfold exists_at in VS. rewrite I in VS. simpl orb in VS. cbv iota in VS.
  cbn [a_scratch put_wd] in VS. rewrite Y2 in VS. simpl in VS. congruence.
Qed.

(** The working directory of an accepted object. *)
Lemma construct_wd x0 k x k1 b : construct (put_scratch (VBool b) x0) k = (Ok x, k1) ->
  truthy (a_wd x0) = true -> exists s, a_wd x0 = VStr s /\ a_wd x = VStr (expanduser s).
Proof.
  intros H T. destruct (construct_disk _ _ _ _ H) as [x2 [V [W _]]].
  assert (X := validate_obj _ _ _ _ _ V). rewrite W, X, vobj_wd.
  cbn [a_wd put_fc put_scratch]. rewrite T.
  destruct (validate_disk _ _ _ _ _ V) as [[_ [e E]]|(y & r0 & z & Y1 & Y2 & _ & VS & OKR)]; [discriminate|].
  destruct (OKR tt eq_refl) as [u ->].
  unfold validate_saving, M_state.validate_saving in VS.
  assert (Y3 : a_wd y = a_wd x0) by exact Y1. rewrite Y3, T in VS.
  destruct (a_wd x0) as [| | | |s| | | | | |]; try discriminate VS. exists s. auto.
Qed.

Lemma crashed_coh x0 k : mem_off less_memory x0 -> truthy (a_wd x0) = true ->
  (forall s, a_wd x0 = VStr s -> expanduser s <> "") ->
  crashed_runs x0 k ->
  exists x kk k', construct (put_scratch (VBool true) x0) kk = (Ok x, k') /\ Coh true x k.
Proof.
  intros M T NE R.
  assert (MX : forall b kk x k', construct (put_scratch b x0) kk = (Ok x, k') -> mem_off less_memory x).
  { intros b kk x k' H. destruct (construct_disk _ _ _ _ H) as [_ [_ [_ C]]].
    unfold mem_off in *. rewrite C. exact M. }
  induction R as [k x k1 os n kc WF H F CR|k x k1 os n kc R IH H F CR].
  - exists x, k, k1. split; [exact H|].
    eapply run_crash_coh; try eassumption; [eapply MX, H|eapply fresh_coh; eassumption].
  - destruct IH as (x' & kk & k' & H' & C). exists x', kk, k'. split; [exact H'|].
    destruct (construct_obj _ _ _ _ _ _ _ _ _ H' H) as [E SC]. subst x.
    destruct (construct_wd _ _ _ _ _ H' T) as [s [W0 W1]].
    assert (T1 : truthy (a_wd x') = true).
    { rewrite W1. simpl. apply negb_true_iff, String.eqb_neq, NE, W0. }
    assert (k1 = k).
    { eapply reopen_disk; [exact H|]. intros _. exists s. split; [exact W0|].
      apply (coh_dir _ _ _ C _ T1 W1). }
    subst k1.
    assert (C' : Coh true (put_scratch (VBool false) x') kc).
    { eapply run_crash_coh; try eassumption; [apply (MX _ _ _ _ H)|].
      apply coh_scratch; [apply (MX _ _ _ _ H')|exact C]. }
    apply (coh_scratch true (VBool true)) in C'; [|apply (MX _ _ _ _ H)].
    replace (put_scratch (VBool true) (put_scratch (VBool false) x')) with x' in C'; [exact C'|].
    destruct x'; simpl in *; subst; reflexivity.
Qed.

End Proofs.
