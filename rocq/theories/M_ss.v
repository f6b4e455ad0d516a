(** Model of the binned spread-skill diagram: utils_ss.py 47-203. *)
From Coq Require Import ZArith List Bool Arith QArith Qcanon Reals.
From Verif Require Import QcTac QSum Num NdArr Numpy M_common M_boot M_rel RTier.
Import ListNotations.
Open Scope nat_scope.

(** ** When does the flattened array share the caller's memory?
    The caller's arrays are assumed C-contiguous.  np.moveaxis returns a view; ndarray.reshape(N, K) returns a
    view when, axes of length one aside, the strides of the axes merged into N, and of those merged into K, chain
    (NumPy's _attempt_nocopy_reshape). *)
Definition strides (sh : list nat) : list nat := map (fun i => prod (skipn (S i) sh)) (seq 0 (length sh)).
(** order of the original axes after the moving loop *)
Fixpoint move_order (nd : nat) (axes : list Z) (to : nat) (p : list nat) : list nat :=
  match axes with
  | [] => p
  | ax :: r =>
      let p' := if Z.eqb ax (Z.of_nat to) then p
                else match norm_axis nd ax with Ok s => insert_at to (nth s p 0) (remove_at s p) | Raise _ => p end in
      move_order nd r (S to) p'
  end.
Fixpoint chained (l : list (nat * nat)) : bool :=
  match l with
  | (_, s1) :: ((d2, s2) :: _) as r => Nat.eqb s1 (d2 * s2) && chained r
  | _ => true
  end.
Definition is_view (sh p : list nat) (n : nat) : bool :=
  let ds := map (fun j => (nth j sh 0, nth j (strides sh) 0)) p in
  let big := filter (fun d => negb (Nat.eqb (fst d) 1)) in
  chained (big (firstn n ds)) && chained (big (skipn n ds)).

(** ** utils_ss.py 47-87.  [argsort] is np.argsort (quicksort: ties in any order).  The sorted columns are
    assigned into the flattened arrays (lines 71-74), hence into the caller's arrays when these are views; the two
    arrays are assumed not to share memory with each other. *)
Record ss_split := { ss_bins : list (arr num);      (* arr_split: arrays of shape (bin size, 2, K) *)
                     ss_keep : list nat;            (* shape_to_keep *)
                     ss_variance : arr num;         (* the caller's arrays after the call *)
                     ss_sq_error : arr num }.
Definition take_rows (l : list num) (idx : list nat) : list num := map (fun i => nth i l NaN) idx.
Definition ss_create_split (argsort : list num -> list nat) (variance sq_error : arr num) (nbins : nat) (sample_axis : option (list Z)) : res ss_split :=
  let nd := length (shape variance) in
  let axes := match sample_axis with None => all_axes nd | Some l => l end in
  passert (list_eqb (shape variance) (shape sq_error)) ;;;
  vt <- move_loop (zsort axes) 0 variance ;;
  et <- move_loop (zsort axes) 0 sq_error ;;
  let (v1, to_axis) := vt : arr num * nat in let e1 := fst (et : arr num * nat) in
  let keep := skipn to_axis (shape v1) in
  match prod keep with
  | 0 => Raise ValueError
  | K =>
    let N := prod (shape v1) / K in
    let v2 := reshape [N; K] v1 in let e2 := reshape [N; K] e1 in
    (* lines 71-74 *)
    let sorted (a : arr num) := Arr [N; K] (fun ix => match ix with
        [r; c] => nth r (take_rows (col a c) (argsort (col v2 c))) NaN | _ => NaN end) in
    let v3 := sorted v2 in let e3 := sorted e2 in
    let p := move_order nd (zsort axes) 0 (seq 0 nd) in
    let after (a a3 : arr num) := if is_view (shape a) p to_axis
        then Arr (shape a) (fun ix => get a3 (unflat [N; K] (flat (shape v1) (map (fun j => nth j ix 0) p)))) else a in
    passert (Nat.leb nbins N) ;;;
    (* lines 82-83 only warn; np.array_split(np.stack([variance, sq_error], axis=1), nbins, 0) *)
    rows <- array_split (seq 0 N) nbins ;;
    let bin (rs : list nat) := Arr [length rs; 2; K] (fun ix => match ix with
        [r; t; c] => get (if Nat.eqb t 0 then v3 else e3) [nth r rs 0; c] | _ => NaN end) in
    Ok {| ss_bins := map bin rows; ss_keep := keep; ss_variance := after variance v3; ss_sq_error := after sq_error e3 |}
  end.

(** arr[:, t, c] *)
Definition bin_col (b : arr num) (t c : nat) : list num := map (fun r => get b [r; t; c]) (seq 0 (nth 0 (shape b) 0)).

(** ** utils_ss.py 90-125; [root] is np.sqrt *)
Definition ss_curves {B} (root : num -> B) (skip : bool) (bins : list (arr num)) (keep : list nat) : res (arr B * arr B) :=
  let mean := if skip then nanmean else nmean in
  let table t := map (fun b => map (fun c => mean (bin_col b t c)) (seq 0 (nth 2 (shape b) 0))) bins in
  (* np.array of no bins has one axis only *)
  match bins with
  | [] => Raise IndexError
  | b0 :: _ =>
    passert (Nat.eqb (nth 2 (shape b0) 0) (prod keep)) ;;;
    let out t := moveaxis 0 (-1) (amap root (of_list NaN (length bins :: keep) (concat (table t)))) in
    spread <- out 0 ;; rmse <- out 1 ;; Ok (spread, rmse)
  end.
Definition ss_no_boot : bool -> list (arr num) -> list nat -> res (arr rnum * arr rnum) := ss_curves nsqrt.

(** ** utils_ss.py 128-184.  [rng b c r] serves the r-th resample of column c of bin b. *)
Definition ss_boot_with {B : Type} (root : num -> B) (e : boot_env) (rng : nat -> nat -> nat -> nat -> nat) (n : nat) (bins : list (arr num)) (keep : list nat) : res (arr B * arr B) :=
  let mean := if skip_nan e then nanmean else nmean in
  cis <- mapM (fun bb : nat * arr num => let (b, a) := bb in
           mapM (fun c =>
             ps <- mapM (fun r => idx <- choice (rng b c r) (seq 0 (nth 0 (shape a) 0)) n ;;
                                  Ok (mean (map (fun i => get a [i; 0; c]) idx), mean (map (fun i => get a [i; 1; c]) idx))) (seq 0 (repeats e)) ;;
             v <- plain_triple (confidence e) (map fst ps) ;;
             m <- plain_triple (confidence e) (map snd ps) ;; Ok (v, m)) (seq 0 (nth 2 (shape a) 0)))
         (combine (seq 0 (length bins)) bins) ;;
  let flat_cis := concat cis in
  passert (Nat.eqb (length flat_cis) (prod keep * length bins)) ;;;
  let out (l : list (list num)) := moveaxis 0 (-2) (amap root (of_list NaN (length bins :: keep ++ [3]) (concat l))) in
  spread <- out (map fst flat_cis) ;; rmse <- out (map snd flat_cis) ;; Ok (spread, rmse).
Definition ss_boot := @ss_boot_with rnum nsqrt.

(** ** utils_ss.py 187-203 (and Verify.py 117-126 through the classes) *)
Definition binned_spread_skill (argsort : list num -> list nat) (skip : bool) (variance sq_error : arr num) (nbins : nat) (ax : option (list Z)) : res (arr rnum * arr rnum) :=
  s <- ss_create_split argsort variance sq_error nbins ax ;; ss_no_boot skip (ss_bins s) (ss_keep s).
Definition binned_spread_skill_boot (argsort : list num -> list nat) (e : boot_env) (rng : nat -> nat -> nat -> nat -> nat) (n : nat)
    (variance sq_error : arr num) (nbins : nat) (ax : option (list Z)) : res (arr rnum * arr rnum) :=
  s <- ss_create_split argsort variance sq_error nbins ax ;; ss_boot e rng n (ss_bins s) (ss_keep s).
