(** Vocabulary for C86 and C87: the files of one run opened together. *)
From Coq Require Import String Ascii List Arith NArith ZArith QArith Qcanon.
From Verif Require Import QcTac Num NdArr M_nc Spec_nc M_mfnc.
From Verif Require Spec_io.
Import ListNotations.
Open Scope string_scope.
Open Scope nat_scope.

Section Spec.
Context {V : Type}.
Definition stations_dim : string := "num_stations".
(** a change of the positions along the stations, in an index (or a shape) with dimensions [dims] *)
Definition along (dims : list string) (f : nat -> nat) (ix : list nat) : list nat :=
  map (fun p => if String.eqb (fst p) stations_dim then f (snd p) else snd p) (combine dims ix).
(** [D p] is a data set in file p, r p its rank number, n p its number of stations.  The files of one run have different rank
    numbers, at least one station, and the same variables with the same dimensions; the lengths agree except for the stations. *)
Record run (D : path -> dataset V) (r : path -> N) (n : path -> nat) (l : list path) : Prop := Run {
  run_some : l <> [];
  run_rank : forall p, In p l -> Spec_io.ranked p (r p);
  run_distinct : NoDup (map r l);
  run_names : forall p, In p l -> NoDup (map fst (D p)) /\ ~ In stations_dim (map fst (D p));
  run_alike : forall p q, In p l -> In q l -> map (fun x => (fst x, v_dims (snd x))) (D p) = map (fun x => (fst x, v_dims (snd x))) (D q);
  run_shapes : forall p a v, In p l -> In (a, v) (D p) -> length (shape (v_data v)) = length (v_dims v) /\ NoDup (v_dims v);
  run_stations : forall p, In p l -> 0 < n p /\ has_dim stations_dim (D p) /\
    forall a v i, In (a, v) (D p) -> nth_error (v_dims v) i = Some stations_dim -> nth_error (shape (v_data v)) i = Some (n p);
  run_lengths : forall p q a v b w i j d, In p l -> In q l -> In (a, v) (D p) -> In (b, w) (D q) -> d <> stations_dim ->
    nth_error (v_dims v) i = Some d -> nth_error (v_dims w) j = Some d -> nth_error (shape (v_data v)) i = nth_error (shape (v_data w)) j
}.
(** where the stations of file p begin: after those of all files with a smaller rank number *)
Definition offset (r : path -> N) (n : path -> nat) (l : list path) (p : path) : nat := list_sum (map n (filter (fun q => (r q <? r p)%N) l)).
Definition lowest (r : path -> N) (l : list path) (p : path) : Prop := forall q, In q l -> (r p <= r q)%N.
(** [w] holds the values of [v] from file p at the places of its stations, and has room for all stations *)
Definition placed (r : path -> N) (n : path -> nat) (l : list path) (p : path) (v w : variable V) : Prop :=
  shape (v_data w) = along (v_dims v) (fun _ => list_sum (map n l)) (shape (v_data v)) /\
  forall ix, Forall2 lt ix (shape (v_data v)) -> get (v_data w) (along (v_dims v) (Nat.add (offset r n l p)) ix) = get (v_data v) ix.
(** what file p holds: its root group, and the group that is opened *)
Definition holds (disk : path -> option (ncfile V)) (group : option string) (p : path) (root ds : dataset V) : Prop :=
  exists gs, disk p = Some (NcFile V root gs) /\
  match group with None => ds = root | Some g => NoDup (map fst gs) /\ In (g, ds) gs end.
(** the root group has the labels of the lead times and of the test times *)
Definition root_label : list (string * string) := [("num_flts", "FLTs"); ("num_test_times", "test_times")].
Definition labels_in (root ds : dataset V) : Prop :=
  NoDup (map fst root) /\
  forall d x, In (d, x) root_label -> has_dim d ds -> exists v k, In (x, v) root /\ shape (v_data v) = [k] /\
    forall a u i, In (a, u) ds -> nth_error (v_dims u) i = Some d -> nth_error (shape (v_data u)) i = Some k.
(** the files of one run with all that is needed to open group [D] (the root groups are [R]) *)
Record ready (strict : bool) (disk : path -> option (ncfile V)) (group : option string) (R D : path -> dataset V) (r : path -> N) (n : path -> nat) (l : list path) : Prop := Ready {
  rdy_run : run D r n l;
  rdy_holds : forall p, In p l -> holds disk group p (R p) (D p);
  rdy_labels : forall p q, In p l -> In q l -> labels_in (R p) (D q);
  rdy_places : forall p, In p l -> In "Xs" (map fst (D p)) \/
    (strict = false /\ run R r n l /\ ~ In "Ys" (map fst (D p)) /\
     exists x y, In ("Xs", x) (R p) /\ v_dims x = [stations_dim] /\ In ("Ys", y) (R p) /\ v_dims y = [stations_dim]);
  rdy_index : forall p a v, In p l -> In (a, v) (D p) -> has_dim a (D p) -> v_dims v = [a];
  rdy_times : forall p, In p l -> In "num_times" (map fst (D p)) -> has_dim "num_times" (D p)
}.
End Spec.
