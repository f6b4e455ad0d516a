(** C90: the text of a verifier. *)
From Coq Require Import String Ascii ZArith List Bool Lia.
From Verif Require Import Num M_state M_io M_repr Spec_repr P_state P_repr.
Import ListNotations.
Open Scope string_scope.
Open Scope list_scope.

Section C90.
Variable text : val -> string.
Variable has_len : nat -> bool.
Variable fname : nat -> option string.
Notation repr := (repr text has_len fname).
Notation report := (report text fname).
Notation printable := (printable text fname).

(** C90.  The text is the report, line by line: class, shapes of forecasts and observations, the settings listed. *)
Theorem c90_report : forall x, data x -> printable x -> exists t, repr x = Ok t /\ lines t = report x.
Proof. exact (repr_lines text has_len fname). Qed.
(** So two verifiers with the same text are of one class and agree on the text of every setting listed, of the shapes,
    and on the names of the forecast fields. *)
Theorem c90_same_text : forall x y, data x -> printable x -> data y -> printable y -> repr x = repr y ->
  cl x = cl y /\ (forall s, In s (settings (cl x)) -> text (snd s x) = text (snd s y)) /\
  shape_text text (a_o x) = shape_text text (a_o y) /\
  (is_dict (a_f x) = false -> is_dict (a_f y) = false -> shape_text text (a_f x) = shape_text text (a_f y)) /\
  (is_dict (a_f x) = true -> is_dict (a_f y) = true -> Forall2 (fun p q => (fst p ++ ": array " ++ shape_text text (snd p) = fst q ++ ": array " ++ shape_text text (snd q))%string) (fields (a_f x)) (fields (a_f y))).
Proof.
  intros x y Dx Px Dy Py E.
  destruct (c90_report x Dx Px) as (t & Et & Lt). destruct (c90_report y Dy Py) as (u & Eu & Lu).
  rewrite Et, Eu in E. injection E as <-. rewrite Lt in Lu. exact (report_same text fname x y Dx Px Dy Py Lu).
Qed.
(** The listed settings are not all of them: clip_member_to_zero, n_approx_bins and integration_range are not shown. *)
Theorem c90_hidden_refuted : forall x v,
  repr (put_clip v x) = repr x /\ repr (put_bins v x) = repr x /\ repr (put_range v x) = repr x.
Proof. intros x v. repeat split; destruct x as [[] ? ? ? ? ? ? ? ? ? ? ? ? ? ? ? ?]; reflexivity. Qed.
(** And there is no text at all for an ensemble collapsed by something callable without __name__ (functools.partial, say). *)
Theorem c90_nameless_refuted : forall x f, cl x = CEnsemble -> a_collapse x = VFun f -> fname f = None -> repr x = Raise AttributeError.
Proof. intros x f C F N. unfold M_repr.repr. rewrite C, F, N. reflexivity. Qed.
End C90.

(** A gamma forecast; and an ensemble whose collapse function has no name, which the constructor accepts. *)
Definition w_text (v : val) : string :=
  match v with VNone => "None" | VBool true => "True" | VBool false => "False" | VTuple [VInt _; VInt _] => "(2, 3)" | VTuple [VInt _] => "(2,)" | VInt _ => "5" | _ => "?" end.
Definition w_fname (f : nat) : option string := match f with O => Some "mean" | _ => None end.
Definition w_obj : obj :=
  mkObj CGaussian (VDict [("mu", VArr [2; 3]%nat 0); ("sigma", VArr [2; 3]%nat 1)]) (VArr [2; 3]%nat 2) (VTuple [VInt 0]) VNone VNone (VBool true)
    VNone VNone VNone (VBool false) (VInt 5) VNone (VInt 5) (VBool true) VNone VNone.
Example c90_case : data w_obj /\ printable w_text w_fname w_obj /\
  (exists t, M_repr.repr w_text (fun _ => true) w_fname w_obj = Ok t /\ lines t =
    ["=============== PyAnEn::VerifyProbGaussian ==============="; "Forecast (f):  dict"; "  - mu: array (2, 3)"; "  - sigma: array (2, 3)";
     "Observations (o): array (2, 3)"; "Average/Sample axis (avg_axis): (2,)"; "Bootstrap samples (boot_samples): None";
     "Save intermediate data at (working_directory): None"; "Ignore saved intermediate data (start_from_scratch): True";
     "Ensemble members to sample (n_sample_members): 5"; "Move generated ensemble axis to (move_sampled_ens_axis): 5";
     "Truncated (truncated): False"; "Randomize zero ranks (pit_randomize_zero_ranks): True"]).
Proof.
  split; [|split].
  - split; [do 2 eexists; reflexivity|right]. eexists. split; [reflexivity|]. intros k v [E|[E|[]]]; injection E as <- <-; do 2 eexists; reflexivity.
  - split; [|split; [|split]].
    + intros s H. cbn [settings cl w_obj app] in H. repeat (destruct H as [<-|H]; [repeat split|]). destruct H.
    + intros v. unfold shape_text. destruct (arr_shape v) as [|a [|b [|c r]]]; repeat split.
    + intros k v [E|[E|[]]]; injection E as <- <-; repeat split.
    + discriminate.
  - eexists. split; reflexivity.
Qed.
Example c90_nameless_case : exists x k, construct (fun _ _ => Ok (VArr [2; 3]%nat 5)) (fun s => s) (fun _ => [])
    (mkObj CEnsemble (VArr [4; 2; 3]%nat 0) (VArr [2; 3]%nat 1) VNone VNone VNone (VBool true) VNone VNone (VFun 1) VNone VNone VNone VNone VNone VNone VNone)
    (mkDisk (fun _ => None) (fun _ => true)) = (Ok x, k) /\ M_repr.repr w_text (fun _ => true) w_fname x = Raise AttributeError.
Proof. do 2 eexists. split; reflexivity. Qed.
Print Assumptions c90_report.
Print Assumptions c90_same_text.
Print Assumptions c90_hidden_refuted.
Print Assumptions c90_nameless_refuted.
