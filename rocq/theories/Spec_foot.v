(** Which files a call of a verifier may touch (C88). *)
From Coq Require Import String List Bool.
From Verif Require Import Num M_state.
Import ListNotations.
Open Scope string_scope.
Open Scope list_scope.

Section Foot.
Variable loads : string -> res val.
Variable dumps : val -> string.
Variable expanduser : string -> string.
Variable resolve : string -> path.
Variable less_memory : bool.
Variable setting : option path.    (* pyanen_integrate_wdir *)
Variable cwd : path.
(** The scratch file of an integration: in the directory of the setting, else in the working directory, else in the current one. *)
Inductive scratch_dir (wd : val) : path -> Prop :=
| by_setting d : setting = Some d -> scratch_dir wd d
| by_working w : setting = None -> wd = VStr w -> w <> "" -> scratch_dir wd (resolve w)
| by_current : setting = None -> wd = VNone \/ wd = VStr "" -> scratch_dir wd cwd.
Definition scratch_file (wd : val) (p : path) : Prop :=
  exists d, scratch_dir wd d /\ p = d ++ ["__pyanen_numerical_integration__.dat"].
(** A result: name.pkl in the working directory. *)
Definition result_file (wd : val) (p : path) : Prop := exists w n, wd = VStr w /\ w <> "" /\ p = resolve w ++ [(n ++ ".pkl")%string].
(** What a metric call of [x] may do: write results that were not there (or were None), and use the scratch file. *)
Definition footprint (x : obj) (k k' : disk) : Prop :=
  (forall p, isdir k' p = isdir k p) /\
  forall p, file k' p = file k p \/
    (result_file (a_wd x) p /\ (file k p = None \/ exists b, file k p = Some b /\ loads b = Ok VNone) /\ exists v, file k' p = Some (dumps v)) \/
    (less_memory = true /\ cl x = CHurdle /\ scratch_file (a_wd x) p).
(** The directories named in a history: the working directory at its start and those given to enable_saving, as given or with ~ expanded. *)
Definition given (o : op) : list val := match o with OSave wd _ => [wd] | _ => [] end.
Definition named (wd : val) (os : list op) (d : path) : Prop :=
  exists w, In (VStr w) (wd :: flat_map given os) /\ w <> "" /\ (d = resolve w \/ d = resolve (expanduser w)).
(** The places a history may touch. *)
Definition place_of (x : obj) (os : list op) (p : path) : Prop :=
  (exists d, named (a_wd x) os d /\ under d p = true) \/
  (less_memory = true /\ cl x = CHurdle /\ exists d, (setting = Some d \/ setting = None /\ d = cwd) /\ p = d ++ ["__pyanen_numerical_integration__.dat"]).
End Foot.
