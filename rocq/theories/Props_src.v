(** Property C86, which files are opened: stated on the arguments of open_mfdataset, not on the helper [listed] (IO.py 119-124). *)
From Coq Require Import String Ascii List Bool Arith QArith Qcanon Permutation.
From Verif Require Import QcTac Num NdArr M_nc M_mfnc P_mfnc.
Import ListNotations.
Open Scope string_scope.
Open Scope list_scope.
Open Scope nat_scope.

(** A list stands for its expanded paths, a pattern for the matches of its expanded form; in both cases the order plays no part,
    and nothing else is expanded or matched ([id] and any other [glob'] on the right). *)
Theorem c86_sources : forall V of_coord cf strict disk glob glob' expanduser group decode l,
  (forall given, Permutation l (map expanduser given) ->
     open_mfdataset V of_coord cf strict disk glob expanduser (Paths given) group decode
     = open_mfdataset V of_coord cf strict disk glob' (fun q => q) (Paths l) group decode) /\
  (forall p, Permutation l (glob (expanduser p)) ->
     open_mfdataset V of_coord cf strict disk glob expanduser (Pattern p) group decode
     = open_mfdataset V of_coord cf strict disk glob' (fun q => q) (Paths l) group decode).
Proof.
  intros. split; intros g P.
  all: match goal with |- open_mfdataset _ _ _ _ _ ?gl ?e ?s _ _ = open_mfdataset _ _ _ _ _ ?gl' ?e' ?s' _ _ =>
    assert (Q : Permutation (listed gl e s) (listed gl' e' s')) by (symmetry; unfold listed, id in *; try rewrite map_id; exact P) end.
  all: unfold open_mfdataset; rewrite (sort_perm _ _ Q); reflexivity.
Qed.
Print Assumptions c86_sources.

(** "~" in a list: the only file there is has the expanded name.  Opened by "~/a-Rank2.nc" it is found; where "~" stands for itself it is not. *)
Definition u_text := list_ascii_of_string.
Definition u_home (p : path) : path := match p with "~"%char :: r => u_text "/home" ++ r | _ => p end.
Definition u_disk (p : path) : option (ncfile nat) :=
  if list_eq_dec ascii_dec p (u_text "/home/a-Rank2.nc")
  then Some (NcFile nat [("Xs", Var ["num_stations"] (of_list 0 [1] [7]) None false); ("Ys", Var ["num_stations"] (of_list 0 [1] [8]) None false)] []) else None.
Definition u_open (eu : path -> path) := open_mfdataset nat (fun _ => 0) (fun _ v => v) false u_disk (fun _ => []) eu (Paths [u_text "~/a-Rank2.nc"]) None false.
Example c86_sources_nonvacuous : (exists ds, u_open u_home = Ok ds /\ option_map (fun v => get (v_data v) [0]) (lookup ds "Xs") = Some 7) /\
  u_open (fun p => p) = Raise FileNotFoundError.
Proof. split; [eexists; split; [vm_compute; reflexivity|vm_compute; reflexivity]|vm_compute; reflexivity]. Qed.
