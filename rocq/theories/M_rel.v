(** Model of the reliability diagram: utils_verify.py 296-498. *)
From Coq Require Import ZArith List Bool Arith QArith Qcanon.
From Verif Require Import QcTac QSum Num NdArr Numpy M_common M_boot.
Import ListNotations.
Open Scope nat_scope.

(** utils_verify.py 319: np.linspace(0.0, 1.0 + 1e-8, nbins + 1); nbins is a natural number *)
Definition rel_top : Qc := (1 + / qz 100000000)%Qc.
Definition rel_bins (nbins : nat) : list num := map Fin (linspace 0%Qc rel_top (nbins + 1)).

(** utils_verify.py 296-322: sample axes first, one flattened sample axis, bin numbers.  The two arrays have
    the same shape, so that the loop treats them alike; reshape(-1, ...) is rejected when a kept axis is empty.
    np.digitize(...) - 1 is -1 for a negative probability and nbins for NaN or a value above the last edge. *)
Definition rel_split (f o : arr num) (nbins : nat) (sample_axis : option (list Z))
    : res (arr Z * arr num * arr num * list num) :=
  let axes := match sample_axis with None => all_axes (length (shape o)) | Some l => l end in
  passert (list_eqb (shape f) (shape o)) ;;;
  ft <- move_loop (zsort axes) 0 f ;;
  ot <- move_loop (zsort axes) 0 o ;;
  let (f1, to_axis) := ft : arr num * nat in
  let o1 := fst (ot : arr num * nat) in
  let keep := skipn to_axis (shape f1) in
  match prod keep with
  | 0 => Raise ValueError
  | K =>
    let N := prod (shape f1) / K in
    let f2 := reshape (N :: keep) f1 in let o2 := reshape (N :: keep) o1 in
    let bins := rel_bins nbins in
    Ok (amap (fun x => Z.of_nat (digitize bins x) - 1)%Z f2, f2, o2, bins)
  end.

(** ndarray.astype(int): truncation; NaN and the infinities give the smallest 64-bit integer *)
Definition to_int (x : num) : Z :=
  match x with
  | Fin q => if qltb q 0%Qc then (- Qround.Qfloor (this (- q)%Qc))%Z else Qround.Qfloor (this q)
  | _ => (- 2 ^ 63)%Z
  end.
(** pd.value_counts(l).sort_index(): (value, number of occurrences), values increasing *)
Definition value_counts (l : list Z) : list (Z * nat) :=
  map (fun v => (v, count (Z.eqb v) l)) (zsort (nodup Z.eq_dec l)).
(** boolean-mask indexing x[bin_total != 0] *)
Definition nonzero {A} (total : list nat) (l : list A) : list A :=
  map snd (filter (fun t => negb (Nat.eqb (fst t) 0)) (combine total l)).

(** utils_verify.py 326-343: prob_pred, prob_true, pred_count, true_count *)
Definition rel_slice (ids : list Z) (y_prob y_true : list num) (bins : list num)
    : res (list num * list num * list (Z * nat) * list (Z * nat)) :=
  sums <- bincount_w ids y_prob (length bins) ;;
  trues <- bincount_w ids y_true (length bins) ;;
  total <- bincount ids (length bins) ;;
  let over s := map (fun p => ndiv (fst p) (nnat (snd p))) (combine (nonzero total s) (nonzero total total)) in
  Ok (over sums, over trues, value_counts ids, value_counts (map to_int y_true)).

(** np.array(list of K vectors).reshape( *keep, -1): a rectangular array when all vectors have the same length;
    otherwise (NumPy < 1.24) an array of shape ( *keep, 1) whose entries are the vectors themselves *)
Inductive stacked (A : Type) := Regular (a : arr A) | Objects (a : arr (list A)).
Arguments Regular {A}. Arguments Objects {A}.
Definition stack {A} (d : A) (keep : list nat) (ls : list (list A)) : stacked A :=
  let m := length (hd [] ls) in
  if forallb (fun l => Nat.eqb (length l) m) ls then Regular (of_list d (keep ++ [m]) (concat ls))
  else Objects (of_list [] (keep ++ [1]) ls).

(** column i of a two-dimensional array *)
Definition col {A} (a : arr A) (i : nat) : list A := map (fun r => get a [r; i]) (seq 0 (hd 0 (shape a))).

(** utils_verify.py 346-382.  The one-dimensional case returns the slice itself (the counts as labelled
    series), the other case stacked arrays (the labels of the counts are dropped). *)
Inductive rel_out :=
| Single (pred true : list num) (pred_count true_count : list (Z * nat))
| Many (pred true : stacked num) (pred_count true_count : stacked nat).
Definition rel_agg (ids : arr Z) (y_prob y_true : arr num) (bins : list num) : res rel_out :=
  let keep := tl (shape y_true) in
  match keep with
  | [] => s <- rel_slice (ravel ids) (ravel y_prob) (ravel y_true) bins ;;
          let '(p, t, pc, tc) := s in Ok (Single p t pc tc)
  | _ =>
    let sh2 := [hd 0 (shape y_true); prod keep] in
    let ids2 := reshape sh2 ids in let p2 := reshape sh2 y_prob in let t2 := reshape sh2 y_true in
    ss <- mapM (fun i => rel_slice (col ids2 i) (col p2 i) (col t2 i) bins) (seq 0 (prod keep)) ;;
    Ok (Many (stack NaN keep (map (fun s => fst (fst (fst s))) ss)) (stack NaN keep (map (fun s => snd (fst (fst s))) ss))
             (stack 0 keep (map (fun s => map snd (snd (fst s))) ss)) (stack 0 keep (map (fun s => map snd (snd s)) ss)))
  end.

(** utils_verify.py 385-438.  [rng b r] serves the r-th resample of bin b.  np.quantile without NaN handling
    at the levels 1-confidence and confidence; the middle value is the plain mean of the resampled means. *)
Definition plain_triple (c : Qc) (stats : list num) : res (list num) :=
  lo <- np_quantile stats (1 - c)%Qc ;; hi <- np_quantile stats c ;; Ok [lo; nmean stats; hi].
Definition where_eq (ids : list Z) (b : nat) : list nat :=
  map snd (filter (fun p => Z.eqb (fst p) (Z.of_nat b)) (combine ids (seq 0 (length ids)))).
Definition rel_boot_bin (e : boot_env) (rng : nat -> nat -> nat) (n : nat) (ids : list Z) (y_prob y_true : list num) (b : nat)
    : res (list num * list num) :=
  let indices := where_eq ids b in
  match indices with
  | [] => Ok ([], [])
  | _ =>
    let mean := if skip_nan e then nanmean else nmean in
    ps <- mapM (fun r => idx <- choice (rng r) indices n ;;
                         Ok (mean (map (fun i => nth i y_prob NaN) idx), mean (map (fun i => nth i y_true NaN) idx))) (seq 0 (repeats e)) ;;
    a <- plain_triple (confidence e) (map fst ps) ;;
    b <- plain_triple (confidence e) (map snd ps) ;;
    Ok (a, b)
  end.
Definition rel_boot_slice (e : boot_env) (rng : nat -> nat -> nat -> nat) (n : nat) (ids : list Z) (y_prob y_true : list num) (bins : list num)
    : res (list (list num) * list (list num) * list (Z * nat) * list (Z * nat)) :=
  pts <- mapM (fun b => rel_boot_bin e (rng b) n ids y_prob y_true b) (seq 0 (length bins)) ;;
  total <- bincount ids (length bins) ;;
  let kept := nonzero total pts in
  Ok (map fst kept, map snd kept, value_counts ids, value_counts (map to_int y_true)).

(** utils_verify.py 441-478: np.array(...).reshape( *keep, -1, 3); when the slices have different numbers of
    points the array of objects has too few entries for this shape *)
Inductive rel_boot_out :=
| BSingle (pred true : list (list num)) (pred_count true_count : list (Z * nat))
| BMany (pred true : arr num) (pred_count true_count : stacked nat).
Definition stack3 (keep : list nat) (ls : list (list (list num))) : res (arr num) :=
  let m := length (hd [] ls) in
  if forallb (fun l => Nat.eqb (length l) m) ls then Ok (of_list NaN (keep ++ [m; 3]) (concat (concat ls)))
  else Raise ValueError.
Definition rel_agg_boot (e : boot_env) (rng : nat -> nat -> nat -> nat -> nat) (n : nat) (ids : arr Z) (y_prob y_true : arr num) (bins : list num) : res rel_boot_out :=
  let keep := tl (shape y_true) in
  match keep with
  | [] => s <- rel_boot_slice e (rng 0) n (ravel ids) (ravel y_prob) (ravel y_true) bins ;;
          let '(p, t, pc, tc) := s in Ok (BSingle p t pc tc)
  | _ =>
    let sh2 := [hd 0 (shape y_true); prod keep] in
    let ids2 := reshape sh2 ids in let p2 := reshape sh2 y_prob in let t2 := reshape sh2 y_true in
    ss <- mapM (fun i => rel_boot_slice e (rng i) n (col ids2 i) (col p2 i) (col t2 i) bins) (seq 0 (prod keep)) ;;
    p <- stack3 keep (map (fun s => fst (fst (fst s))) ss) ;;
    t <- stack3 keep (map (fun s => snd (fst (fst s))) ss) ;;
    Ok (BMany p t (stack 0 keep (map (fun s => map snd (snd (fst s))) ss)) (stack 0 keep (map (fun s => map snd (snd s)) ss)))
  end.

(** utils_verify.py 481-498 (and Verify.py 128-138 through the classes), without and with the bootstrap *)
Definition reliability_diagram (f o : arr num) (nbins : nat) (ax : option (list Z)) : res rel_out :=
  s <- rel_split f o nbins ax ;; let '(ids, f2, o2, bins) := s in rel_agg ids f2 o2 bins.
Definition reliability_boot (e : boot_env) (rng : nat -> nat -> nat -> nat -> nat) (n : nat) (f o : arr num) (nbins : nat) (ax : option (list Z)) : res rel_boot_out :=
  s <- rel_split f o nbins ax ;; let '(ids, f2, o2, bins) := s in rel_agg_boot e rng n ids f2 o2 bins.
