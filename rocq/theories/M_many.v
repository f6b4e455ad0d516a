(** Several verifiers in one process: they share the disk and the random
    numbers of numpy's global generator, and nothing else.  Each is bound to a
    name, here a number; a constructor that raises leaves the name as it was. *)
From Coq Require Import String List Bool Arith.
From Verif Require Import Num M_state.
Import ListNotations.

Section Many.
Variable lib : string -> list val -> res val.
Variable libr : string -> list val -> nat -> res val.
Variable str_of : val -> string.
Variable dumps : val -> string.
Variable loads : string -> res val.
Variable expanduser : string -> string.
Variable resolve : string -> path.
Variable points : val -> val -> val -> res (list num).
Variable less_memory : bool.
Variable integrate_wdir : option path.
Variable cwd : path.
Variable rng : nat -> nat.

(** A constructor (VerifyDeterm.py 25-33, VerifyEnsemble.py 39-53, VerifyProb.py
    35-45) or a public call of the object (M_state.step). *)
Inductive action := New (x : obj) | Call (o : op).
Record world := mkWorld { objs : nat -> option obj; wdisk : disk; wpos : nat }.
Definition bind_name (i : nat) (x : obj) (m : nat -> option obj) : nat -> option obj :=
  fun j => if Nat.eqb j i then Some x else m j.

(** One line of the program.  A call of a name that is bound to nothing raises
    NameError, here AttributeError. *)
Definition act (i : nat) (a : action) (w : world) : res val * world :=
  match a with
  | New x =>
      match construct lib expanduser resolve x (wdisk w) with
      | (Ok y, k) => (Ok VNone, mkWorld (bind_name i y (objs w)) k (wpos w))
      | (Raise e, k) => (Raise e, mkWorld (objs w) k (wpos w))
      end
  | Call o =>
      match objs w i with
      | None => (Raise AttributeError, w)
      | Some x =>
          let (r, s) := step lib libr str_of dumps loads expanduser resolve points
                             less_memory integrate_wdir cwd rng o (mkSt x (wdisk w) (wpos w) []) in
          (r, mkWorld (bind_name i (ob s) (objs w)) (dk s) (pos s))
      end
  end.

Fixpoint run (h : list (nat * action)) (w : world) : list (nat * res val) * world :=
  match h with
  | [] => ([], w)
  | (i, a) :: r => let (v, w1) := act i a w in let (vs, w2) := run r w1 in ((i, v) :: vs, w2)
  end.
End Many.
