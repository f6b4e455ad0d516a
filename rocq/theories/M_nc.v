(** Model of IO.open_dataset (IO.py 53-100) after the file has been read by xarray, and of
    Grid.read_station_coordinates (Grid.py 8-25).
    A data set is a list of named variables; a variable has dimensions, values, the attribute [units] and the mark of a
    coordinate.  As in xarray the dimensions of a data set are those of its variables.  The values are of any type:
    [text] is astype('str') of one value, [of_text] a string as a value, [cf u] what xr.decode_cf makes of a value with
    units u.  Simplified: no other attributes; a variable used as a label that does not lie along its
    dimension raises (xarray raises for two dimensions; other shapes do not occur in the files). *)
From Coq Require Import String Ascii List Bool Arith.
From Verif Require Import Num NdArr.
Import ListNotations.
Open Scope nat_scope.
Open Scope string_scope.

Section Nc.
Variables (V : Type) (text : V -> res string) (of_text : string -> V) (cf : string -> V -> V).
Record variable := Var { v_dims : list string; v_data : arr V; v_units : option string; v_coord : bool }.
Definition dataset := list (string * variable).
(** ds[name], name in ds, name in ds.dims, ds[name] = v *)
Definition lookup (ds : dataset) (n : string) : option variable := option_map snd (find (fun p => String.eqb (fst p) n) ds).
Definition mem (n : string) (l : list string) : bool := existsb (String.eqb n) l.
Definition in_ds (n : string) (ds : dataset) : bool := mem n (map fst ds).
Definition in_dims (d : string) (ds : dataset) : bool := existsb (fun p => mem d (v_dims (snd p))) ds.
Fixpoint assign (n : string) (v : variable) (ds : dataset) : dataset :=
  match ds with
  | [] => [(n, v)]
  | p :: r => if String.eqb (fst p) n then (n, v) :: r else p :: assign n v r
  end.
(** xarray refuses a data set in which one dimension has two lengths *)
Definition sizes (ds : dataset) : list (string * nat) := flat_map (fun p => combine (v_dims (snd p)) (shape (v_data (snd p)))) ds.
Definition consistent (ds : dataset) : bool :=
  forallb (fun p => forallb (fun q => negb (String.eqb (fst p) (fst q)) || (Nat.eqb (snd p) (snd q))) (sizes ds)) (sizes ds).

(** IO.py 65-76; the flag says that the function returned at once *)
Definition name_rows (v : variable) : res (list string) :=
  mapM (fun i => rmap (String.concat "") (mapM (fun j => text (get (v_data v) [i; j])) (seq 0 (nth 1 (shape (v_data v)) 0)))) (seq 0 (nth 0 (shape (v_data v)) 0)).
Definition others (dims : list string) : list string := filter (fun d => negb (String.eqb d "num_chars")) dims.
Fixpoint decode_names (vars : list string) (ds : dataset) : res (bool * dataset) :=
  match vars with
  | [] => Ok (false, ds)
  | n :: r =>
    match lookup ds n with
    | None => Raise KeyError
    | Some v =>
      if mem "num_chars" (v_dims v) then
        if Nat.eqb (length (v_dims v) - 1) 1 then
          names <- name_rows v ;;
          match others (v_dims v) with
          | [] => Raise IndexError
          | d :: _ =>
            let ds' := assign n (Var [d] (of_list (of_text "") [length names] (map of_text names)) None (v_coord v)) ds in
            if consistent ds' then decode_names r ds' else Raise ValueError
          end
        else Ok (true, ds)
      else decode_names r ds
    end
  end.

(** IO.py 25-29 and 78-81 *)
Definition coords_dict : list (string * string) :=
  [("num_flts", "FLTs"); ("num_parameters", "ParameterNames"); ("num_test_times", "test_times");
   ("num_search_times", "search_times"); ("num_times", "Times")].
Fixpoint add_labels (pairs : list (string * string)) (ds : dataset) : res dataset :=
  match pairs with
  | [] => Ok ds
  | (key, value) :: r =>
    if in_dims key ds then
      match lookup ds value with
      | Some v => match v_dims v with
                  | [d] => if String.eqb d key then add_labels r (assign key (Var [key] (v_data v) (v_units v) true) ds) else Raise ValueError
                  | _ => Raise ValueError
                  end
      | None => add_labels r ds
      end
    else add_labels r ds
  end.

(** IO.py 83-86 *)
Definition time_names : list string := ["test_times"; "search_times"; "Times"; "num_test_times"; "num_times"].
Definition epoch : string := "seconds since 1970-01-01".
Fixpoint set_units (names : list string) (ds : dataset) : dataset :=
  match names with
  | [] => ds
  | n :: r => set_units r match lookup ds n with
                          | Some v => assign n (Var (v_dims v) (v_data v) (Some epoch) (v_coord v)) ds
                          | None => ds
                          end
  end.

(** IO.py 88-94; ds.rename refuses a name in use *)
Definition ren (x : string) : string := if String.eqb x "num_test_times" then "num_times" else x.
Definition rename_var (v : variable) : variable := Var (map ren (v_dims v)) (v_data v) (v_units v) (v_coord v).
Definition rename_times (ds : dataset) : res dataset :=
  if negb (in_dims "num_times" ds) && in_dims "num_test_times" ds then
    if in_ds "num_times" ds then Raise ValueError
    else Ok (map (fun p => (ren (fst p), rename_var (snd p))) ds)
  else Ok ds.

(** xr.decode_cf (IO.py 96-98) *)
Definition decode_var (v : variable) : variable :=
  match v_units v with
  | Some u => Var (v_dims v) (amap (cf u) (v_data v)) None (v_coord v)
  | None => v
  end.
Definition decode_cf (ds : dataset) : dataset := map (fun p => (fst p, decode_var (snd p))) ds.

(** IO.py 53-100 *)
Definition open_dataset (file : dataset) (decode : bool) : res dataset :=
  s <- (if in_dims "num_chars" file then decode_names (map fst file) file else Ok (false, file)) ;;
  if fst s then Ok (snd s)
  else
    ds <- add_labels coords_dict (snd s) ;;
    ds <- rename_times (set_units time_names ds) ;;
    Ok (if decode then decode_cf ds else ds).

(** Grid.py 8-25 *)
Definition read_station_coordinates (file : dataset) (var_x var_y : string) : res (arr V * arr V) :=
  ds <- open_dataset file false ;;
  match lookup ds var_x, lookup ds var_y with
  | Some x, Some y =>
    match shape (v_data x), shape (v_data y) with
    | nx :: _, ny :: _ => passert (Nat.eqb nx ny) ;;; Ok (v_data x, v_data y)
    | _, _ => Raise TypeError
    end
  | _, _ => Raise KeyError
  end.
End Nc.
Arguments Var {V}. Arguments v_dims {V}. Arguments v_data {V}. Arguments v_units {V}. Arguments v_coord {V}.
Arguments lookup {V}. Arguments in_ds {V}. Arguments in_dims {V}. Arguments assign {V}. Arguments sizes {V}. Arguments consistent {V}.
Arguments name_rows {V}. Arguments decode_names {V}. Arguments add_labels {V}. Arguments set_units {V}. Arguments rename_var {V}.
Arguments rename_times {V}. Arguments decode_var {V}. Arguments decode_cf {V}. Arguments open_dataset {V}. Arguments read_station_coordinates {V}.
