(** Station coordinates in binary64 (IO.py 47): Python's int / int is correctly rounded, the integer is converted and
    the sum is rounded.  Overflow is not modelled. *)
From Coq Require Import ZArith Reals.
From Flocq Require Import Core.
Open Scope R_scope.

(** rounding to nearest, ties to even *)
Definition rn (x : R) : R := round radix2 (FLT_exp (-1074) 53) ZnearestE x.
(** start + index / current_total *)
Definition coord (start : Z) (total index : nat) : R := rn (rn (IZR start) + rn (INR index / INR total)).
