(** Notions used in the statements about verifier objects and saved results:
    which arguments have a faithful text, which calls draw random numbers. *)
From Coq Require Import String Ascii QArith Qcanon ZArith Lia List Bool.
From Verif Require Import Num M_state.
Import ListNotations.
Open Scope string_scope.
Open Scope list_scope.
Open Scope nat_scope.

(** Scalars that Python prints without loss: None, bool, int, float. *)
Definition scalar (v : val) : Prop :=
  match v with VNone | VBool _ | VInt _ | VFloat _ => True | _ => False end.
(** A threshold, a number of bins, or a tuple/list of such. *)
Definition good (v : val) : Prop :=
  match v with
  | VTuple l | VList l => Forall scalar l
  | _ => scalar v
  end.
(** An array threshold with more than five elements. *)
Definition long_array (v : val) : Prop :=
  match v with VArr sh _ => 5 < fold_right Nat.mul 1 sh | _ => False end.

(** The arguments of a metric call that the positive theorems speak about. *)
Definition key_ok (m : meth) : Prop :=
  match m with
  | MIouP o b => good o /\ good b
  | _ => Forall (fun p => good (snd p) \/ long_array (snd p)) (kwargs m)
  end.

(** Characters of the texts of numbers, None, bool and tuples of them. *)
Definition text_alphabet : list ascii :=
  list_ascii_of_string "0123456789+-.einfaNoTruFls(),[]_ ".
Definition number_text (s : string) : Prop :=
  Forall (fun c => In c text_alphabet) (list_ascii_of_string s).

(** What is assumed of Python's [str] on the arguments above. *)
Record text_faithful (str_of : val -> string) : Prop := {
  text_plain : forall v, good v -> number_text (str_of v);
  text_inj : forall v w, good v -> good w -> us (str_of v) = us (str_of w) -> v = w
}.

(** What is assumed of pickle: loading a complete dump gives the value back,
    loading a dump cut short raises. *)
Definition cut_short (a b : string) : Prop := exists c r, b = (a ++ String c r)%string.
Record pickle_faithful (dumps : val -> string) (loads : string -> res val) : Prop := {
  pickle_back : forall v, loads (dumps v) = Ok v;
  pickle_cut : forall v b, cut_short b (dumps v) -> exists e, loads b = Raise e
}.

(** Metrics whose post-processing averages or bootstraps (workflows 2 and 3). *)
Definition averaged (m : meth) : bool :=
  match m with
  | MCrps | MError | MSpread | MSqErr | MAbErr | MBrier _ _ | MRel _ _ _ | MSS _ => true
  | _ => false
  end.

(** Does computing the metric (before averaging) draw random numbers? *)
Definition random_value (x : obj) (m : meth) : bool :=
  match m with
  | MRank => match cl x with
             | CDeterm => false
             | CEnsemble => true
             | _ => if is_none (a_members x) then is_true (a_pitr x) else true
             end
  | MPit => is_true (a_pitr x)
  | MEns => true
  | MSpread => is_prob (cl x)
  | MCorr | MDecomp _ _ => negb (is_none (a_boot x))
  | _ => false
  end.
(** Does the public call draw random numbers? *)
Definition random_call (x : obj) (m : meth) : bool :=
  random_value x m || (averaged m && negb (is_none (a_boot x))).

(** The argument types the base class accepts for avg_axis and boot_samples. *)
Definition axis_type (v : val) : bool :=
  match v with VNone | VInt _ | VBool _ | VTuple _ | VList _ => true | _ => false end.
Definition boot_type (v : val) : bool := is_none v || is_int v.

(** The integration of the hurdle class does not use a scratch file. *)
Definition mem_off (less_memory : bool) (x : obj) : Prop := less_memory = false \/ cl x <> CHurdle.

(** The metric of a call, without its arguments. *)
Definition metric_of (m : meth) : meth :=
  match m with
  | MDecomp _ _ => MDecomp VNone VNone | MRoc _ _ => MRoc VNone VNone
  | MSharp _ _ => MSharp VNone VNone | MIouD _ _ => MIouD VNone VNone
  | MIouP _ _ => MIouP VNone VNone | MCdf _ _ => MCdf VNone VNone
  | MBrier _ _ => MBrier VNone VNone | MRel _ _ _ => MRel VNone VNone VNone
  | MSS _ => MSS VNone | m => m
  end.

(** A file system: what contains something is a directory, and nothing is a
    file and a directory. *)
Definition disk_wf (k : disk) : Prop :=
  (forall d c r, exists_at k (d ++ c :: r) = true -> isdir k d = true) /\
  (forall p, isdir k p = true -> file k p = None).

(** Calls the positive theorems speak about: metric calls with the default
    save name or with no saving, setters whose avg_axis and boot_samples have
    an accepted type; enable_saving is excluded. *)
Definition calm (o : op) : Prop :=
  match o with
  | OMetric m None => key_ok m
  | OMetric m (Some v) => key_ok m /\ is_str v = false
  | ORmse None => True
  | ORmse (Some v) => is_str v = false
  | OAvg v => axis_type v = true
  | OBoot v => boot_type v = true
  | OSave _ _ => False
  | _ => True
  end.
(** Calls that draw no random number. *)
Definition no_draw (x : obj) (o : op) : Prop :=
  match o with
  | OMetric m _ => random_call x m = false
  | ORmse _ => random_call x MSqErr = false
  | _ => True
  end.

Definition metric_op (o : op) : bool := match o with OMetric _ _ | ORmse _ => true | _ => false end.

Definition calm_metric (o : op) : Prop := calm o /\ metric_op o = true.

(** Anything but enable_saving. *)
Definition not_enable (o : op) : bool := match o with OSave _ _ => false | _ => true end.

(** The same state with another disk. *)
Definition on_disk (k : disk) (s : st) : st := mkSt (ob s) k (pos s) (events s).

(** The disk after a process died: some of its writes have happened, and of
    the next one an initial segment of the bytes (or nothing) is in the file. *)
Definition crash_disk (k : disk) (evs : list event) (kc : disk) : Prop :=
  (exists pre rest, evs = pre ++ rest /\ kc = fold_left apply_event pre k) \/
  (exists pre p b c rest, evs = pre ++ EvWrite p b :: rest /\ (exists r, b = (c ++ r)%string) /\
     kc = write_file p c (fold_left apply_event pre k)).

Section Runs.
Variable lib : string -> list val -> res val.
Variable libr : string -> list val -> nat -> res val.
Variable str_of : val -> string.
Variable dumps : val -> string.
Variable loads : string -> res val.
Variable expanduser : string -> string.
Variable resolve : string -> path.
Variable points : val -> val -> val -> res (list num).
Variable less_memory : bool.
Variable integrate_wdir : option path.
Variable cwd : path.
Variable rng : nat -> nat.
Notation steps := (steps lib libr str_of dumps loads expanduser resolve points less_memory integrate_wdir cwd rng).
Notation construct := (construct lib expanduser resolve).

(** Any number of runs that die while writing, the first from scratch, the
    later ones reusing the directory. *)
Inductive crashed_runs (x0 : obj) : disk -> Prop :=
| first_run k x k1 os n kc :
    disk_wf k -> construct (put_scratch (VBool true) x0) k = (Ok x, k1) ->
    Forall calm_metric os ->
    crash_disk k1 (events (snd (steps os (mkSt x k1 n [])))) kc ->
    crashed_runs x0 kc
| next_run k x k1 os n kc :
    crashed_runs x0 k -> construct (put_scratch (VBool false) x0) k = (Ok x, k1) ->
    Forall calm_metric os ->
    crash_disk k1 (events (snd (steps os (mkSt x k1 n [])))) kc ->
    crashed_runs x0 kc.

End Runs.
