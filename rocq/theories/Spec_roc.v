(** Words for C75 and C76: cells that count, events, non-events, pairs won and tied, rates at a threshold. *)
From Coq Require Import List Bool Arith QArith Qcanon.
From Verif Require Import QcTac Num NdArr.
Import ListNotations.

(** every forecast is finite, or missing and to be skipped *)
Definition usable (skip_nan : bool) (f : arr num) : Prop :=
  forall ix, In ix (indices (shape f)) -> (exists q, get f ix = Fin q) \/ (skip_nan = true /\ get f ix = NaN).
(** the cells that have a forecast, and those among them with and without the event *)
Definition known (f : arr num) : list (list nat) := filter (fun ix => negb (is_nan (get f ix))) (indices (shape f)).
Definition events (f : arr num) (o : arr bool) : list (list nat) := filter (fun ix => get o ix) (known f).
Definition nonevents (f : arr num) (o : arr bool) : list (list nat) := filter (fun ix => negb (get o ix)) (known f).
(** pairs (non-event, event): the event has the higher probability; both have the same *)
Definition wins (f : arr num) (o : arr bool) : nat :=
  length (filter (fun p => nlt (get f (fst p)) (get f (snd p))) (list_prod (nonevents f o) (events f o))).
Definition ties (f : arr num) (o : arr bool) : nat :=
  length (filter (fun p => nle (get f (fst p)) (get f (snd p)) && nle (get f (snd p)) (get f (fst p))) (list_prod (nonevents f o) (events f o))).
(** fraction of the cells [l] whose forecast is at least [t] *)
Definition share (f : arr num) (t : Qc) (l : list (list nat)) : Qc :=
  (qn (length (filter (fun ix => nle (Fin t) (get f ix)) l)) / qn (length l))%Qc.
