(** Contents of arrays as natural numbers: the state machine (M_state) gives every array a number for its content. *)
From stdpp Require Import countable numbers.
From Coq Require Import Qcanon.
From Verif Require Import Num.
Definition num_in (x : num) : option (Qc + bool) := match x with Fin q => Some (inl q) | PInf => Some (inr true) | NInf => Some (inr false) | NaN => None end.
Definition num_out (x : option (Qc + bool)) : num := match x with Some (inl q) => Fin q | Some (inr b) => if b then PInf else NInf | None => NaN end.
Lemma num_in_out x : num_out (num_in x) = x. Proof. destruct x; reflexivity. Qed.
Definition store (l : list num) : nat := encode_nat (map num_in l).
Definition content (n : nat) : list num := match @decode_nat (list (option (Qc + bool))) _ _ n with Some l => map num_out l | None => nil end.
Lemma content_store l : content (store l) = l.
Proof. unfold content, store. rewrite decode_encode_nat. rewrite map_map. rewrite (map_ext _ (fun x => x)); [apply map_id|apply num_in_out]. Qed.
