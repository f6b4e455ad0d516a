(** What the text of a verifier should say, line by line (C90). *)
From Coq Require Import String Ascii ZArith List Bool.
From Verif Require Import Num M_state.
Import ListNotations.
Open Scope string_scope.
Open Scope list_scope.

(** str.split('\n') *)
Definition is_newline (c : ascii) : bool := Ascii.eqb c (ascii_of_nat 10).
Fixpoint lines (s : string) : list string :=
  match s with
  | EmptyString => [EmptyString]
  | String c r => if is_newline c then EmptyString :: lines r
                  else match lines r with h :: t => String c h :: t | [] => [String c EmptyString] end
  end.
Fixpoint one_line (s : string) : Prop := match s with EmptyString => True | String c r => is_newline c = false /\ one_line r end.

(** The settings listed, with what they are called *)
Definition settings (c : cls) : list (string * (obj -> val)) :=
  [("Average/Sample axis (avg_axis)", a_avg); ("Bootstrap samples (boot_samples)", a_boot);
   ("Save intermediate data at (working_directory)", a_wd); ("Ignore saved intermediate data (start_from_scratch)", a_scratch)] ++
  match c with
  | CDeterm => []
  | CEnsemble => [("Ensemble axis (ensemble_axis)", a_eaxis)]
  | CGamma | CHurdle | CGaussian =>
      [("Ensemble members to sample (n_sample_members)", a_members); ("Move generated ensemble axis to (move_sampled_ens_axis)", a_move);
       ("Truncated (truncated)", a_trunc); ("Randomize zero ranks (pit_randomize_zero_ranks)", a_pitr)]
  end.
(** what verifiers are given: arrays, or a dictionary of arrays *)
Definition data (x : obj) : Prop :=
  (exists sh n, a_o x = VArr sh n) /\
  ((exists sh n, a_f x = VArr sh n) \/ exists l, a_f x = VDict l /\ forall k v, In (k, v) l -> exists sh n, v = VArr sh n).

Section Spec.
Variable text : val -> string.
Variable fname : nat -> option string.
Definition shape_text (v : val) : string := text (VTuple (map (fun n => VInt (Z.of_nat n)) (arr_shape v))).
(** the lines about forecasts or observations *)
Definition about (label : string) (v : val) : list string :=
  match v with
  | VDict l => (label ++ ":  dict")%string :: map (fun p => ("  - " ++ fst p ++ ": array " ++ shape_text (snd p))%string) l
  | _ => [(label ++ ": array " ++ shape_text v)%string]
  end.
Definition title (c : cls) : string :=
  ("=============== PyAnEn::" ++ match c with CDeterm => "VerifyDeterm" | CEnsemble => "VerifyEnsemble" | CGamma => "VerifyProbGamma"
     | CHurdle => "VerifyProbGammaHurdle" | CGaussian => "VerifyProbGaussian" end ++ " ===============")%string.
Definition collapse_line (x : obj) : list string :=
  match cl x, a_collapse x with
  | CEnsemble, VFun f => match fname f with Some n => [("Ensemble collapsing function (ensemble_collapse_func): " ++ n)%string] | None => [] end
  | _, _ => []
  end.
Definition report (x : obj) : list string :=
  title (cl x) :: about "Forecast (f)" (a_f x) ++ about "Observations (o)" (a_o x) ++
  map (fun s => (fst s ++ ": " ++ text (snd s x))%string) (settings (cl x)) ++ collapse_line x.
(** nothing in the texts breaks a line, and the collapse function has a name *)
Definition printable (x : obj) : Prop :=
  (forall s, In s (settings (cl x)) -> one_line (text (snd s x))) /\
  (forall v, one_line (shape_text v)) /\ (forall k v, In (k, v) (fields (a_f x)) -> one_line k) /\
  (cl x = CEnsemble -> exists f n, a_collapse x = VFun f /\ fname f = Some n /\ one_line n).
End Spec.
