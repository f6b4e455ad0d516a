(** Model of the text of a verifier: Verify.py 263-290, VerifyEnsemble.py 223-227, VerifyProb.py 203-209.
    Simplified: str() of a value and its attribute __len__ are oracles; dict keys are strings. *)
From Coq Require Import String Ascii ZArith List Bool.
From Verif Require Import Num M_state M_io.
Import ListNotations.
Open Scope string_scope.
Open Scope list_scope.

Section Repr.
(** str(v), which '{}'.format(v) inserts; __len__ of an object of another type; __name__ of a callable, if it has one *)
Variable text : val -> string.
Variable has_len : nat -> bool.
Variable fname : nat -> option string.

Definition newline : string := String (ascii_of_nat 10) "".
Definition ints (l : list nat) : val := VTuple (map (fun n => VInt (Z.of_nat n)) l).
(** Verify._format, Verify.py 279-290 *)
Fixpoint format (obj : val) (indent : string) : string :=
  match obj with
  | VNone | VBool _ | VInt _ | VFloat _ | VFun _ => (indent ++ text obj)%string
  | VTuple l | VList l => (indent ++ "sequence [" ++ text (VInt (Z.of_nat (length l))) ++ "]")%string
  | VArr sh _ => (indent ++ "array " ++ text (ints sh))%string
  | VDict l => join (newline ++ indent ++ "  - ") (" dict" :: map (fun p => (fst p ++ ":" ++ format (snd p) " ")%string) l)
  | VOther n => if has_len n then "** UNKNOWN TYPE **" else (indent ++ text obj)%string
  | VStr _ => "** UNKNOWN TYPE **"
  end.
(** type(self).__name__ *)
Definition class_name (c : cls) : string :=
  match c with CDeterm => "VerifyDeterm" | CEnsemble => "VerifyEnsemble" | CGamma => "VerifyProbGamma" | CHurdle => "VerifyProbGammaHurdle" | CGaussian => "VerifyProbGaussian" end.
(** Verify.__repr__, Verify.py 263-277; all five classes have the attributes f and o *)
Definition repr_base (x : obj) : string :=
  ("=============== PyAnEn::" ++ class_name (cl x) ++ " ===============" ++
   newline ++ "Forecast (f): " ++ format (a_f x) "" ++
   newline ++ "Observations (o): " ++ format (a_o x) "" ++
   newline ++ "Average/Sample axis (avg_axis): " ++ text (a_avg x) ++
   newline ++ "Bootstrap samples (boot_samples): " ++ text (a_boot x) ++
   newline ++ "Save intermediate data at (working_directory): " ++ text (a_wd x) ++
   newline ++ "Ignore saved intermediate data (start_from_scratch): " ++ text (a_scratch x))%string.
(** __repr__ of the class: VerifyEnsemble.py 223-227, VerifyProb.py 203-209 *)
Definition repr (x : obj) : res string :=
  match cl x with
  | CDeterm => Ok (repr_base x)
  | CEnsemble =>
      match a_collapse x with
      | VFun f =>
          match fname f with
          | Some n => Ok (repr_base x ++ newline ++ "Ensemble axis (ensemble_axis): " ++ text (a_eaxis x) ++
                          newline ++ "Ensemble collapsing function (ensemble_collapse_func): " ++ n)%string
          | None => Raise AttributeError
          end
      | _ => Raise AttributeError
      end
  | CGamma | CHurdle | CGaussian =>
      Ok (repr_base x ++ newline ++ "Ensemble members to sample (n_sample_members): " ++ text (a_members x) ++
          newline ++ "Move generated ensemble axis to (move_sampled_ens_axis): " ++ text (a_move x) ++
          newline ++ "Truncated (truncated): " ++ text (a_trunc x) ++
          newline ++ "Randomize zero ranks (pit_randomize_zero_ranks): " ++ text (a_pitr x))%string
  end.
End Repr.
