(** Model of IO.open_mfdataset (IO.py 103-172) with the default preprocess=__add_coords__ (IO.py 36-50).
    Data sets are those of M_nc; a file holds a root group and named groups; [disk] are the files that can be read.
    xr.open_mfdataset is modelled as in xarray 0.20 to 2022 with combine='by_coords', data_vars='minimal',
    coords='minimal', compat='override'.  Its rule for the order of the files ("any two datasets whose coord
    along dim starts with the same value have the same coord along the whole dim") is kept.
    [strict] tells whether this xarray refuses concat_dim together with combine='by_coords' (older ones only warn).
    Simplified: station coordinates are exact rationals, [of_coord] turns one into a value of the data set; no other
    variable is named after a dimension with values that differ between the files; files whose variables or dimensions
    differ in name raise ValueError (xarray would try to merge them); OSError is written as its subclass FileNotFoundError; paths are ASCII text; [parallel] has no effect. *)
From Coq Require Import String Ascii List Bool Arith NArith ZArith QArith Qcanon.
From Verif Require Import QcTac Num NdArr M_nc.
From Verif Require M_io.
Import ListNotations.
Open Scope string_scope.
Open Scope nat_scope.

Definition path := list ascii.
(** paths.sort(), IO.py 124: order of text *)
Fixpoint path_leb (p q : path) : bool :=
  match p, q with
  | [], _ => true
  | _ :: _, [] => false
  | c :: p', d :: q' => let a := nat_of_ascii c in let b := nat_of_ascii d in (a <? b) || ((a =? b) && path_leb p' q')
  end.
Fixpoint insert_path (p : path) (l : list path) : list path :=
  match l with [] => [p] | q :: r => if path_leb p q then p :: l else q :: insert_path p r end.
Fixpoint sort_paths (l : list path) : list path := match l with [] => [] | p :: r => insert_path p (sort_paths r) end.

(** ** Joining arrays along one axis *)
(** the part that holds position [s], and the position in it *)
Fixpoint locate (lens : list nat) (s : nat) : nat * nat :=
  match lens with
  | [] => (0, s)
  | n :: r => if s <? n then (0, s) else let (i, k) := locate r (s - n) in (S i, k)
  end.
Definition join_along {A} (ax : nat) (a : arr A) (r : list (arr A)) : arr A :=
  let lens := map (fun b => nth ax (shape b) 0) (a :: r) in
  Arr (set_nth ax (list_sum lens) (shape a))
      (fun ix => let (i, k) := locate lens (nth ax ix 0) in get (nth i (a :: r) a) (set_nth ax k ix)).

Section Mf.
Variables (V : Type) (of_coord : Qc -> V) (cf : string -> V -> V) (strict : bool).
Record ncfile := NcFile { nc_root : dataset V; nc_groups : list (string * dataset V) }.
Variable disk : path -> option ncfile.
Variables (glob : path -> list path) (expanduser : path -> path).

(** ** One file *)
Definition open_file (group : option string) (decode : bool) (p : path) : res (dataset V) :=
  match disk p with
  | None => Raise FileNotFoundError
  | Some f =>
    match match group with None => Some (nc_root f) | Some g => option_map snd (find (fun x => String.eqb (fst x) g) (nc_groups f)) end with
    | None => Raise FileNotFoundError
    | Some ds => Ok (if decode then decode_cf cf ds else ds)
    end
  end.
(** __add_coords__: the coordinates, and the data set with them *)
Definition with_coords (p : path) (ds : dataset V) : res (list Qc * dataset V) :=
  io <- M_io.add_coords p "num_stations" (M_io.Dataset (sizes ds) None) ;;
  match M_io.stations io with
  | Some l => Ok (l, assign "num_stations" (Var ["num_stations"] (of_list (of_coord 0%Qc) [length l] (map of_coord l)) None true) ds)
  | None => Raise ValueError
  end.

(** ** xr.open_mfdataset *)
Fixpoint same_list (a b : list Qc) : bool :=
  match a, b with [], [] => true | x :: a', y :: b' => Qc_eq_bool x y && same_list a' b' | _, _ => false end.
Fixpoint same_names (a b : list string) : bool :=
  match a, b with [], [] => true | x :: a', y :: b' => String.eqb x y && same_names a' b' | _, _ => false end.
Fixpoint chain (le : Qc -> Qc -> bool) (l : list Qc) : bool :=
  match l with x :: (y :: _) as r => le x y && chain le r | _ => true end.
(** positions by first coordinate; a later data set takes the place of an earlier one with the same first coordinate *)
Fixpoint place {X} (key : Qc) (x : X) (acc : list (Qc * X)) : list (Qc * X) :=
  match acc with
  | [] => [(key, x)]
  | (k, y) :: r => if qltb key k then (key, x) :: acc else if Qc_eq_bool key k then (key, x) :: r else (k, y) :: place key x r
  end.
Definition in_order (l : list (list Qc * dataset V)) : list (list Qc * dataset V) :=
  map snd (fold_left (fun acc c => place (hd 0%Qc (fst c)) c acc) l []).
Fixpoint axis_of (d : string) (dims : list string) : nat :=
  match dims with [] => 0 | x :: r => if String.eqb x d then 0 else S (axis_of d r) end.
Definition rest (ds : dataset V) : list (string * nat) := filter (fun p => negb (String.eqb (fst p) "num_stations")) (sizes ds).
Definition sizes_agree (l : list (dataset V)) : bool :=
  let s := flat_map rest l in
  forallb (fun p => forallb (fun q => negb (String.eqb (fst p) (fst q)) || (snd p =? snd q)) s) s.
(** the variables [n] of the other files, with dimensions as in the first *)
Definition others_of (n : string) (v : variable V) (r : list (dataset V)) : res (list (arr V)) :=
  mapM (fun ds => match lookup ds n with
                  | Some w => if same_names (v_dims w) (v_dims v) then Ok (v_data w) else Raise ValueError
                  | None => Raise ValueError
                  end) r.
Definition join_var (r : list (dataset V)) (p : string * variable V) : res (string * variable V) :=
  let (n, v) := p in
  o <- others_of n v r ;;
  Ok (n, if mem "num_stations" (v_dims v) then Var (v_dims v) (join_along (axis_of "num_stations" (v_dims v)) (v_data v) o) (v_units v) (v_coord v) else v).
Definition join_files (l : list (dataset V)) : res (dataset V) :=
  match l with
  | [] => Raise ValueError
  | ds :: r => if sizes_agree l && forallb (fun d => length d =? length ds) r then mapM (join_var r) ds else Raise ValueError
  end.
Definition combine_by_coords (l : list (list Qc * dataset V)) : res (dataset V) :=
  match l with
  | [] => Raise FileNotFoundError
  | [c] => Ok (snd c)
  | c :: r =>
    if forallb (fun d => same_list (fst d) (fst c)) r then Raise ValueError
    else if existsb (fun d => length (fst d) =? 0) l then Raise ValueError
    else
      let o := in_order l in
      ds <- join_files (map snd o) ;;
      let all := flat_map fst o in
      if chain qleb all || chain (fun x y => qleb y x) all then Ok ds else Raise ValueError
  end.
Definition xr_open_mf (paths : list path) (group : option string) (decode : bool) : res (dataset V) :=
  match paths with
  | [] => Raise FileNotFoundError
  | _ =>
    opened <- mapM (open_file group decode) paths ;;
    l <- mapM (fun c => with_coords (fst c) (snd c)) (List.combine paths opened) ;;
    combine_by_coords l
  end.

(** ** IO.py 137-144: labels from the root group of the first file *)
Definition in_coords (d : string) (ds : dataset V) : bool :=
  match lookup ds d with Some v => v_coord v || same_names (v_dims v) [d] | None => false end.
Fixpoint root_labels (names : list string) (root ds : dataset V) : res (dataset V) :=
  match names with
  | [] => Ok ds
  | d :: r =>
    if in_dims d ds && negb (in_coords d ds) then
      match find (fun p => String.eqb (fst p) d) coords_dict with
      | None => Raise KeyError
      | Some (_, x) =>
        match lookup root x with
        | None => Raise KeyError
        | Some v =>
          let ds' := assign d (Var [d] (v_data v) None true) ds in
          if (length (shape (v_data v)) =? 1) && consistent ds' then root_labels r root ds' else Raise ValueError
        end
      end
    else root_labels r root ds
  end.
(** IO.py 146-153 *)
Definition locations (paths : list path) (ds : dataset V) : res (dataset V) :=
  if in_ds "Xs" ds then Ok ds
  else if strict then Raise ValueError
  else
    root <- xr_open_mf paths None false ;;
    match lookup root "Xs", lookup root "Ys" with
    | Some x, Some y =>
      let ds' := assign "Ys" (Var (v_dims y) (v_data y) None false) (assign "Xs" (Var (v_dims x) (v_data x) None false) ds) in
      if consistent ds' then Ok ds' else Raise ValueError
    | _, _ => Raise KeyError
    end.

(** ** IO.py 103-172 *)
Inductive source := Pattern (p : path) | Paths (l : list path).
(** IO.py 119-122 *)
Definition listed (s : source) : list path :=
  match s with Pattern p => glob (expanduser p) | Paths l => map expanduser l end.
Definition open_mfdataset (s : source) (group : option string) (decode : bool) : res (dataset V) :=
  let paths := sort_paths (listed s) in
  ds <- xr_open_mf paths group decode ;;
  match paths with
  | [] => Raise IndexError
  | p :: _ =>
    match disk p with
    | None => Raise FileNotFoundError
    | Some f =>
      ds <- root_labels ["num_flts"; "num_test_times"] (nc_root f) ds ;;
      ds <- locations paths ds ;;
      ds <- rename_times (set_units time_names ds) ;;
      Ok (if decode then decode_cf cf ds else ds)
    end
  end.
End Mf.
