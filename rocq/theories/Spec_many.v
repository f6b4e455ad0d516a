(** What it means that verifiers keep to their own directories (C99). *)
From Coq Require Import String List Bool Arith.
From Verif Require Import Num M_state M_many.
Import ListNotations.
Open Scope string_scope.

Section Many.
Variable expanduser : string -> string.
Variable resolve : string -> path.
Variable less_memory : bool.

(** The entries of one verifier in a history, and in what the history returned. *)
Definition own {A} (i : nat) (h : list (nat * A)) : list (nat * A) := filter (fun e => Nat.eqb (fst e) i) h.

(** The directories given to verifier [i]: to a constructor or to enable_saving, as given or with ~ expanded. *)
Definition dir_of (h : list (nat * action)) (i : nat) (d : path) : Prop :=
  exists w, w <> "" /\ ((exists x, In (i, New x) h /\ a_wd x = VStr w) \/ (exists sc, In (i, Call (OSave (VStr w) sc)) h)) /\
    (d = resolve w \/ d = resolve (expanduser w)).

(** No directory of [i] is, contains, or lies in a directory of another verifier. *)
Definition apart_from_others (h : list (nat * action)) (i : nat) : Prop :=
  forall j d e, j <> i -> dir_of h i d -> dir_of h j e -> under d e = false /\ under e d = false.

(** No scratch files: the setting is off, or no hurdle verifier is made. *)
Definition no_scratch (h : list (nat * action)) : Prop :=
  less_memory = false \/ forall j x, In (j, New x) h -> cl x <> CHurdle.
End Many.
