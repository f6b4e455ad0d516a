(** Model of the ensemble utilities: utils_verify.py 30-90 (rankdata, rank_histogram), 93-194
    (ensemble to probability), 197-199 (binarize_obs), VerifyEnsemble.py 107-118, 171-174. *)
From Coq Require Import ZArith List Bool Arith QArith Qcanon.
From Verif Require Import QcTac QSum Num NdArr Numpy M_common.
Import ListNotations.
Open Scope nat_scope.

(** ** Ranks *)
(** Column of an array along its first axis (what axis=0 functions see for one cell). *)
Definition column {A} (c : arr A) (ix : list nat) : list A :=
  map (fun m => get c (m :: ix)) (seq 0 (hd 0 (shape c))).

(** scipy.stats.rankdata(x, method='min', axis=0) for one column (scipy < 1.10): 1 + number of
    smaller values; every NaN counts as distinct and larger than all numbers (their order among
    themselves is taken as the position; only cells masked by pyanen_skip_nan see it). *)
Definition rank_min (col : list num) (i : nat) : nat :=
  match nth i col NaN with
  | NaN => 1 + count (fun y => negb (is_nan y)) col + count is_nan (firstn i col)
  | x => 1 + count (fun y => nlt y x) col
  end.
(** utils_verify.py 36: number of members whose rank equals the rank of the observation *)
Definition tie_count (col : list num) : nat :=
  count (fun m => Nat.eqb (rank_min col 0) (rank_min col m)) (seq 1 (length col - 1)).
(** np.unique on counts: increasing, without repetition *)
Definition unique_nat (l : list nat) : list nat :=
  filter (fun k => existsb (Nat.eqb k) l) (seq 0 (S (list_max l))).

Fixpoint foldM {S A} (f : A -> S -> res S) (l : list A) (s : S) : res S :=
  match l with [] => Ok s | x :: r => s' <- f x s ;; foldM f r s' end.

(** utils_verify.py 41-45, one pass of the loop for the tie count [u]: every cell with that many ties gets
    np.random.randint(rank, rank + u + 1, u)[0]; a draw of size 0 has no element 0.
    [rng ix] is the number drawn for cell ix. *)
Definition tie_pass (rng : list nat -> nat) (ties : arr nat) (u : nat) (obs_ranks : arr nat) : res (arr nat) :=
  if Nat.eqb u 0 then Raise IndexError
  else Ok (Arr (shape obs_ranks)
               (fun ix => if Nat.eqb (get ties ix) u then get obs_ranks ix + (rng ix) mod (u + 1) else get obs_ranks ix)).

(** utils_verify.py 30-47.  The loop starts at index 1 of unique_tie. *)
Definition rankdata (rng : list nat -> nat) (c : arr num) : res (arr nat) :=
  let rest := tl (shape c) in
  let obs_ranks := Arr rest (fun ix => rank_min (column c ix) 0) in
  let ties := Arr rest (fun ix => tie_count (column c ix)) in
  foldM (tie_pass rng ties) (skipn 1 (unique_nat (ravel ties))) obs_ranks.

(** utils_verify.py 63-65: np.vstack((np.expand_dims(o, 0), fm)).  A 0-dimensional o is turned into
    two-dimensional rows by vstack, which only fits one member: modelled as rejected. *)
Definition vstack_obs (o fm : arr num) : res (arr num) :=
  match shape o with
  | [] => Raise ValueError
  | _ =>
    if list_eqb (tl (shape fm)) (shape o)
    then Ok (Arr (S (hd 0 (shape fm)) :: shape o)
                 (fun ix => match ix with 0 :: r => get o r | S m :: r => get fm (m :: r) | [] => NaN end))
    else Raise ValueError
  end.

Definition any_nan (a : arr num) : bool := existsb is_nan (ravel a).

(** utils_verify.py 68-84.  [rng i] serves the i-th slice; process_map returns results in order. *)
Definition ranks_of (workers : nat) (map_axis : Z) (rng : nat -> list nat -> nat) (c : arr num) : res (arr nat) :=
  if Nat.eqb workers 1 then rankdata (rng 0) c
  else
    passert (Z.ltb map_axis 0) ;;;
    match norm_axis (length (shape c)) map_axis with
    | Raise _ => Raise IndexError                                  (* c.shape[parallelize_axis] *)
    | Ok ax =>
      if Nat.eqb (nth ax (shape c) 0) 0 then Raise ZeroDivisionError (* np.split into 0 sections *)
      else if Nat.eqb workers 0 then Raise ValueError                (* max_workers=0 *)
      else
        parts <- mapM (fun p => rankdata (rng (fst p)) (snd p)) (combine (seq 0 (nth ax (shape c) 0)) (split_units ax c)) ;;
        (* the results lack the first axis, so the same negative number denotes axis ax - 1 *)
        oax <- norm_axis (length (shape c) - 1) map_axis ;;
        Ok (concat_units (Arr [] (fun _ => 0)) oax parts)
    end.

(** utils_verify.py 50-90 *)
Definition rank_histogram (skip_nan : bool) (workers : nat) (map_axis : Z) (rng : nat -> list nat -> nat)
    (f o : arr num) (ensemble_axis : Z) : res (arr num) :=
  (if skip_nan then Ok tt else passert (negb (any_nan f)) ;;; passert (negb (any_nan o))) ;;;
  fm <- moveaxis ensemble_axis 0 f ;;
  c <- vstack_obs o fm ;;
  obs_ranks <- ranks_of workers map_axis rng c ;;
  Ok (Arr (shape obs_ranks)
       (fun ix => if skip_nan && (is_nan (get o ix) || is_nan (nsum (column fm ix)))%bool
                  then NaN else nnat (get obs_ranks ix))).

(** ** Ensemble probabilities *)
(** A threshold argument: a scalar, an array, or another object with __len__ (list, tuple). *)
Inductive thr := TScalar (x : num) | TArray (a : arr num) | TSeq.

(** pyanen_ens_to_prob_method; the kernel density estimate (sklearn) is an arbitrary function of a
    column (threshold first, then the members). *)
Inductive prob_method := Moments | Kde (k : list num -> res num) | UnknownMethod.

(** utils_verify.py 122-124 for one column *)
Definition moments_col (col : list num) : num :=
  ndiv (nnat (count (fun m => nle m (hd NaN col)) (tl col))) (nnat (length col - 1)).

(** np.expand_dims(a, ax) and np.concatenate([b, f], axis) for b of length 1 along the axis *)
Definition expand_dims {A} (ax : nat) (a : arr A) : arr A :=
  Arr (insert_at ax 1 (shape a)) (fun ix => get a (remove_at ax ix)).
Definition concat_first {A} (ax : nat) (b f : arr A) : arr A :=
  Arr (set_nth ax (S (nth ax (shape f) 0)) (shape f))
      (fun ix => match nth ax ix 0 with 0 => get b ix | S m => get f (set_nth ax m ix) end).

(** utils_verify.py 131-145: threshold check, merge, move.  Result: first axis = threshold, members. *)
Definition prob_stack (f : arr num) (ensemble_axis : Z) (below : thr) : res (arr num) :=
  match norm_axis (length (shape f)) ensemble_axis with
  | Raise _ => Raise IndexError                            (* np.delete(f.shape, axis) *)
  | Ok ax =>
    let rest := remove_at ax (shape f) in
    b <- match below with
         | TArray a => passert (list_eqb (shape a) rest) ;;; Ok a
         | TScalar x => Ok (afull rest x)
         | TSeq => Raise AssertionError
         end ;;
    moveaxis ensemble_axis 0 (concat_first ax (expand_dims ax b) f)
  end.

(** utils_verify.py 147-194 *)
Definition prob_of_stack (m : prob_method) (workers : nat) (c : arr num) : res (arr num) :=
  let rest := tl (shape c) in
  if Nat.eqb workers 1 then
    match m with
    | Moments => Ok (Arr rest (fun ix => moments_col (column c ix)))
    | Kde k => if Nat.eqb (prod rest) 0 then Raise ValueError      (* apply_along_axis needs a cell *)
               else xs <- mapM (fun ix => k (column c ix)) (indices rest) ;; Ok (of_list NaN rest xs)
    | UnknownMethod => Raise PlainException
    end
  else
    match m with
    | UnknownMethod => Raise PlainException
    | _ =>
      let colfun := match m with Kde k => k | _ => fun col => Ok (moments_col col) end in
      let f2 := reshape [hd 0 (shape c); prod rest] c in
      if Nat.eqb (prod rest) 0 then Raise ZeroDivisionError        (* np.split into 0 sections *)
      else if Nat.eqb workers 0 then Raise ValueError
      else
        ret <- mapM (fun p => colfun (column p [0])) (split_units 1 f2) ;;
        Ok (of_list NaN rest ret)
    end.

Definition is_some {A} (x : option A) : bool := match x with Some _ => true | None => false end.
(** assert (over is None) ^ (below is None) *)
Definition one_threshold {A B} (over : option A) (below : option B) : res unit :=
  passert (xorb (negb (is_some over)) (negb (is_some below))).

(** utils_verify.py 127-194 *)
Definition ens_to_prob (m : prob_method) (workers : nat) (f : arr num) (ensemble_axis : Z) (over below : option thr) : res (arr num) :=
  one_threshold over below ;;;
  let run b := c <- prob_stack f ensemble_axis b ;; prob_of_stack m workers c in
  match below, over with
  | Some b, _ => run b
  | None, Some b => rmap (amap (nsub (Fin 1%Qc))) (run b)
  | None, None => Raise AssertionError
  end.

(** VerifyEnsemble.py 171-174, without saving: below is None -> 1 - self.cdf(below=over) *)
Definition ens_cdf (m : prob_method) (workers : nat) (f : arr num) (ensemble_axis : Z) (over below : option thr) : res (arr num) :=
  one_threshold over below ;;;
  match below with
  | None => rmap (amap (nsub (Fin 1%Qc)))
              (one_threshold (@None thr) over ;;; ens_to_prob m workers f ensemble_axis None over)
  | Some _ => ens_to_prob m workers f ensemble_axis over below
  end.

(** utils_verify.py 197-199.  Array thresholds of the observation's shape; other shapes (which NumPy may
    broadcast) have been rejected by the probability computed before in every caller. *)
Definition binarize_obs (o : arr num) (over below : option thr) : res (arr bool) :=
  one_threshold over below ;;;
  match over with
  | None => match below with
            | Some (TScalar b) => Ok (amap (fun x => nlt x b) o)
            | Some (TArray b) => if list_eqb (shape b) (shape o) then Ok (amap2 (fun x t => nlt x t) o b) else Raise ValueError
            | _ => Raise ValueError
            end
  | Some (TScalar a) => Ok (amap (fun x => nlt a x) o)
  | Some (TArray a) => if list_eqb (shape a) (shape o) then Ok (amap2 (fun x t => nlt t x) o a) else Raise ValueError
  | Some TSeq => Raise ValueError
  end.

(** VerifyEnsemble.py 116-118 and VerifyProb.py 115-117: (cdf - binarized observation)^2 per cell;
    [p] is the result of self.cdf(over, below). *)
Definition cell_brier (p : res (arr num)) (o : arr num) (over below : option thr) : res (arr num) :=
  p <- p ;; b <- binarize_obs o over below ;;
  Ok (amap2 (fun p b => nsq (nsub p (b2n b))) p b).
