(** What is assumed of gammainc and gammaln together: the density of the gamma distribution with shape s and scale 1. *)
From Coq Require Import Reals.
From Coquelicot Require Import Coquelicot.
From Verif Require Import RTier.
Open Scope R_scope.

Definition std_gamma_density (lg : R) (s x : R) : R := exp ((s - 1) * ln x - x - lg).
Record gamma_law (P : R -> R -> R) (lg : R -> R) (s : R) : Prop := GammaLaw {
  gl_strict : forall x y, 0 <= x -> x < y -> P s x < P s y;
  gl_density : forall x, 0 < x -> is_derive (P s) x (std_gamma_density (lg s) s x)
}.
(** [f] is a density of the distribution function [F] on the open interval from [l] to [u] *)
Definition density_on (F f : R -> R) (l u : R) : Prop :=
  (forall x, l < x < u -> 0 < f x /\ is_derive F x (f x)) /\
  (forall x y, l < x < u -> l < y < u -> is_RInt f x y (F y - F x)).
(** the number in a cell, and both ends of the support in units of the forecast *)
Definition number (v : rnum) : R := match v with RFin x => x | _ => 0 end.
Definition low (a loc scale : R) : R := loc + a * scale.
