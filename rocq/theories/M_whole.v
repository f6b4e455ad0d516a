(** The library of the state machine (M_state) filled with the numerical functions modelled in the other files: a
    whole program.  A call of one of these functions with arguments outside of their models (and every other
    function) stays an arbitrary oracle [other] resp. [otherr].
    Boolean arrays are arrays of zeros and ones, as NumPy treats them in arithmetic; a NumPy scalar is an array
    without axes. *)
From Coq Require Import String ZArith List Bool QArith Qcanon.
From Verif Require Import QcTac Num NdArr Numpy M_common M_boot M_determ M_ens M_crpsens M_iou M_roc M_dist Store M_state.
Import ListNotations.
Open Scope string_scope.
Open Scope list_scope.

(** ** Values and arrays *)
Definition arr_of (v : val) : arr num :=
  match v with
  | VArr sh d => of_list NaN sh (content d)
  | VFloat x => afull [] x
  | VInt z => afull [] (Fin (qz z))
  | _ => afull [] NaN
  end.
Definition val_of (a : arr num) : val := VArr (shape a) (store (ravel a)).
(** avg_axis: None, an integer or a tuple of integers *)
Definition axes_of (v : val) : option (option (list Z)) :=
  match v with
  | VNone => Some None
  | VInt z => Some (Some [z])
  | VTuple l => if forallb is_int l then Some (Some (map int_of l)) else None
  | _ => None
  end.
Definition scalar_of (v : val) : option num :=
  match v with VFloat x => Some x | VInt z => Some (Fin (qz z)) | _ => None end.
(** None, a number, an array, or another object with a length *)
Definition thr_of (v : val) : option (option thr) :=
  match v with
  | VNone => Some None
  | VArr _ _ => Some (Some (TArray (arr_of v)))
  | VTuple _ | VList _ => Some (Some TSeq)
  | _ => option_map (fun x => Some (TScalar x)) (scalar_of v)
  end.
Definition num_of (v : val) : option (option num) :=
  match v with VNone => Some None | _ => option_map Some (scalar_of v) end.
Definition count_of (v : val) : option nat :=
  match v with VInt z => if Z.leb 0 z then Some (Z.to_nat z) else None | _ => None end.
Definition bools (a : arr num) : arr bool := amap (fun x => negb (neqb x (Fin 0%Qc))) a.
(** np.array of a list of numbers *)
Definition vec_of (l : list num) : val := val_of (of_list NaN [length l] l).

(** ** Settings and randomness *)
Record settings := {
  w_boot : boot_env;                           (* pyanen_skip_nan, pyanen_boot_repeats, pyanen_boot_confidence *)
  w_method : prob_method;                      (* pyanen_ens_to_prob_method *)
  w_workers : nat;                             (* pyanen_tqdm_workers *)
  w_map_axis : Z;                              (* pyanen_tqdm_map_axis *)
  w_split : bool;                              (* pyanen_split_crps_ensemble_along_0 *)
  w_cell : num -> list num -> num;             (* properscoring, one cell *)
  w_fun : nat -> arr num -> Z -> res (arr num);(* collapse functions: f(a, axis=z) *)
  w_gen_boot : nat -> nat -> nat -> nat -> nat;(* the numbers behind one draw *)
  w_gen_rank : nat -> nat -> list nat -> nat
}.

Section Whole.
Variable S : settings.
Variable other : string -> list val -> res val.
Variable otherr : string -> list val -> nat -> res val.

(** The functions that draw no random numbers; the names are those of [body] and [post] in M_state *)
Definition whole_lib (n : string) (args : list val) : res val :=
  let oth := other n args in
  match args with
  | [a] =>
      if String.eqb n "copy" then Ok a
      else if String.eqb n "one_minus" then Ok (val_of (amap (nsub (Fin 1%Qc)) (arr_of a)))
      else oth
  | [a; b] =>
      if String.eqb n "sub" then Ok (val_of (cell_error (arr_of a) (arr_of b)))
      else if String.eqb n "sub_sq" then Ok (val_of (cell_sq_error (arr_of a) (arr_of b)))
      else if String.eqb n "sub_abs" then Ok (val_of (cell_ab_error (arr_of a) (arr_of b)))
      else if String.eqb n "boot_or_avg" then
        match axes_of b with
        | Some ax => rmap val_of (boot_or_avg (w_boot S) (fun _ _ _ => O) ax None (arr_of a))
        | None => oth
        end
      else if String.eqb n "spread" then rmap val_of (spread_along (skip_nan (w_boot S)) (int_of b) (arr_of a))
      else if String.eqb n "calculate_roc" then
        rmap (fun r => VTuple [vec_of (fst (fst r)); vec_of (snd (fst r)); VFloat (snd r)])
             (calculate_roc (skip_nan (w_boot S)) (arr_of a) (bools (arr_of b)))
      else oth
  | [a; b; c] =>
      if String.eqb n "binarize_obs" then
        match thr_of b, thr_of c with
        | Some over, Some below => rmap (fun r => val_of (amap b2n r)) (binarize_obs (arr_of a) over below)
        | _, _ => oth
        end
      else if String.eqb n "crps_ensemble" then
        rmap val_of (crps (w_cell S) (w_split S) (arr_of a) (arr_of b) (int_of c))
      else if String.eqb n "collapse" then
        match a with VFun i => rmap val_of (w_fun S i (arr_of b) (int_of c)) | _ => oth end
      else oth
  | [a; b; c; d] =>
      if String.eqb n "ens_to_prob" then
        match thr_of c, thr_of d with
        | Some over, Some below => rmap val_of (ens_to_prob (w_method S) (w_workers S) (arr_of a) (int_of b) over below)
        | _, _ => oth
        end
      else oth
  | [a; b; c; d; e] =>
      match axes_of c, num_of d, num_of e with
      | Some ax, Some over, Some below =>
          if String.eqb n "iou_determ" then rmap val_of (iou_determ (arr_of a) (arr_of b) ax over below)
          else if String.eqb n "iou_prob" then rmap val_of (iou_prob (arr_of a) (bools (arr_of b)) ax over below)
          else oth
      | _, _, _ => oth
      end
  | _ => oth
  end.
(** The functions that draw random numbers *)
Definition whole_libr (n : string) (args : list val) (d : nat) : res val :=
  let oth := otherr n args d in
  match args with
  | [a; b; c] =>
      if String.eqb n "boot_or_avg" then
        match axes_of b, count_of c with
        | Some ax, Some k => rmap val_of (boot_or_avg (w_boot S) (w_gen_boot S d) ax (Some k) (arr_of a))
        | _, _ => oth
        end
      else if String.eqb n "rank_histogram" then
        rmap val_of (rank_histogram (skip_nan (w_boot S)) (w_workers S) (w_map_axis S) (w_gen_rank S d) (arr_of a) (arr_of b) (int_of c))
      else oth
  | _ => oth
  end.
End Whole.
