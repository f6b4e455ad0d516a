(** Vocabulary for C116: triples and counts of a slice in a returned value. *)
From Coq Require Import String ZArith List Bool QArith Qcanon.
From Verif Require Import QcTac Num NdArr Numpy M_boot Spec Spec_prob Spec_rel Spec_relboot M_state M_whole P_whole Spec_whole2.
Import ListNotations.
Open Scope string_scope.
Open Scope list_scope.
Open Scope nat_scope.

(** the triples [l] of the slice [k]: a list of vectors when there is only one slice, otherwise an array with one
    axis for the points and one for the three numbers *)
Definition triples_at (ks : list nat) (v : M_state.val) (k : list nat) (l : list (list num)) : Prop :=
  match ks with
  | [] => exists vs, v = VList vs /\ Forall2 vector_is vs l
  | _ => arr_shape v = ks ++ [length l; 3] /\ forall j t, j < length l -> t < 3 -> reads v (k ++ [j; t]) = nth t (nth j l []) NaN
  end.
(** counts: the values of a labelled series when there is only one slice *)
Definition numbers_at (ks : list nat) (v : M_state.val) (k : list nat) (l : list nat) : Prop :=
  match ks with
  | [] => exists i w, v = VDict [("index", i); ("values", w)] /\ vector_is w (map nnat l)
  | _ => curve_at ks v k (map nnat l)
  end.
(** The bootstrapped diagram [fp], [op], [pc], [oc] of the probabilities [p] and outcomes [y] (bins [bin]): in every
    slice one point for each occupied bin, in the order of the bins; a point is the (quantile, mean, quantile) triple of
    the means of resamples of [n] samples of this bin; the counts are those of the data. *)
Definition boot_diagram (e : boot_env) (n M : nat) (sh ns : list nat) (bin : list nat -> nat) (p y : list nat -> Qc) (fp op pc oc : M_state.val) : Prop :=
  let ks := kept (length sh) ns sh in
  forall k L, Forall2 lt k ks -> Cells sh ns k L -> exists bs fl ol, bins_of bin L bs /\ length bs = M /\ length fl = M /\ length ol = M /\
    triples_at ks fp k fl /\ triples_at ks op k ol /\
    (forall j, j < M -> exists rs, resamples_of (filter (fun ix => Nat.eqb (bin ix) (nth j bs 0%nat)) L) n (repeats e) rs /\
       triple_of np_quantile (1 - confidence e)%Qc (confidence e) (map (fun s => Fin (mean_of (map p s))) rs) (nth j fl []) /\
       triple_of np_quantile (1 - confidence e)%Qc (confidence e) (map (fun s => Fin (mean_of (map y s))) rs) (nth j ol [])) /\
    numbers_at ks pc k (map (fun b => how_many (fun ix => Nat.eqb (bin ix) b) L) bs) /\
    numbers_at ks oc k (filter (fun c => negb (Nat.eqb c 0)) [how_many (fun ix => qeqb (y ix) 0%Qc) L; how_many (fun ix => qeqb (y ix) 1%Qc) L]).
(** the three forecast values of a point lie in its bin, the three observed ones between 0 and 1, the upper bounds not
    below the lower ones *)
Definition in_their_bins (nb : nat) (sh ns : list nat) (bin : list nat -> nat) (fp op : M_state.val) : Prop :=
  let ks := kept (length sh) ns sh in
  forall k L, Forall2 lt k ks -> Cells sh ns k L -> exists bs fl ol, bins_of bin L bs /\ length fl = length bs /\ length ol = length bs /\
    triples_at ks fp k fl /\ triples_at ks op k ol /\
    forall j, j < length bs -> exists a m b a' m' b', nth j fl [] = [Fin a; Fin m; Fin b] /\ nth j ol [] = [Fin a'; Fin m'; Fin b'] /\
      let lo := rel_edge nb (nth j bs 0) in let hi := rel_edge nb (S (nth j bs 0)) in
      (lo <= a)%Qc /\ (a <= b)%Qc /\ (b <= hi)%Qc /\ (lo <= m)%Qc /\ (m <= hi)%Qc /\
      (0 <= a')%Qc /\ (a' <= b')%Qc /\ (b' <= 1)%Qc /\ (0 <= m')%Qc /\ (m' <= 1)%Qc.
(** bootstrapped reliability, resolution and uncertainty: lower bound, mean and upper bound of each are not negative,
    those of the last two at most a quarter *)
Definition boot_terms (sh ns : list nat) (rel reso unc : M_state.val) : Prop :=
  let out := 3 :: kept (length sh) ns sh in arr_shape rel = out /\ arr_shape reso = out /\ arr_shape unc = out /\
  forall k q, Forall2 lt k (kept (length sh) ns sh) -> q < 3 ->
  exists a b c, reads rel (q :: k) = Fin a /\ reads reso (q :: k) = Fin b /\ reads unc (q :: k) = Fin c /\
    (0 <= a)%Qc /\ (0 <= b)%Qc /\ (b <= / qz 4)%Qc /\ (0 <= c)%Qc /\ (c <= / qz 4)%Qc.
