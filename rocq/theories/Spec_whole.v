(** Words for C85: probabilities and events of an ensemble in terms of its members. *)
From Coq Require Import ZArith List Bool QArith Qcanon.
From Verif Require Import QcTac QSum Num NdArr Spec.
Import ListNotations.

(** fraction of the members at or below resp. not at or below a threshold *)
Definition member_share (over : bool) (t : num) (ms : list num) : Qc :=
  (qn (how_many (fun m => if over then negb (nle m t) else nle m t) ms) / qn (length ms))%Qc.
(** the observation lies strictly beyond the threshold *)
Definition observed (over : bool) (t y : num) : bool := if over then nlt t y else nlt y t.
Definition indicator (b : bool) : Qc := if b then 1%Qc else 0%Qc.
Definition qdist (a b : Qc) : Qc := if qltb a b then (b - a)%Qc else (a - b)%Qc.
(** CRPS of an ensemble: mean distance to the observation minus half of the mean distance of two members *)
Definition crps_formula (y : Qc) (ms : list Qc) : Qc :=
  (mean_of (map (fun m => qdist m y) ms) -
   mean_of (flat_map (fun a => map (fun b => qdist a b) ms) ms) / qz 2)%Qc.
(** pairs of a cell of [N] and a cell of [E] in which the latter has the higher value; in which both have the same *)
Definition higher (P : list nat -> Qc) (N E : list (list nat)) : nat :=
  length (filter (fun p => qltb (P (fst p)) (P (snd p))) (list_prod N E)).
Definition same (P : list nat -> Qc) (N E : list (list nat)) : nat :=
  length (filter (fun p => qeqb (P (fst p)) (P (snd p))) (list_prod N E)).
Definition roc_area (P : list nat -> Qc) (N E : list (list nat)) : Qc :=
  ((qn (higher P N E) + qn (same P N E) / qn 2) / (qn (length E) * qn (length N)))%Qc.
