(** Model of utils_special_boot.py: Brier decomposition, correlation and the shared work flow. *)
From Coq Require Import ZArith List Bool Arith QArith Qcanon Reals.
From Verif Require Import QcTac QSum Num NdArr Numpy M_common M_boot RTier.
Import ListNotations.
Open Scope nat_scope.

(** ** utils_special_boot.py 50-114: Brier decomposition of one slice *)
(** line 52: np.linspace(0, 1, n_bins + 2)[1:-1] with n_bins = 19 *)
Definition brier_bins : list num := map Fin (removelast (tl (linspace 0%Qc 1%Qc 21))).
(** lines 53, 66: the pairs of the slice whose forecast belongs to bin b *)
Definition brier_bin (b : nat) (f o : list num) : list (num * num) :=
  filter (fun p => Nat.eqb (digitize brier_bins (fst p)) b) (combine f o).
(** lines 50-81 (n_samples is None).  belongs.max() fails on an empty slice. *)
Definition brier_point (skip : bool) (f o : list num) : res (list num) :=
  let mean := if skip then nanmean else nmean in
  let o_bar := mean o in
  match f with
  | [] => Raise ValueError
  | _ =>
    let nb := S (list_max (map (digitize brier_bins) f)) in
    let add (g : list (num * num) -> num) acc b :=
      let s := brier_bin b f o in
      if Nat.eqb (length s) 0 then acc else nadd acc (nmul (nnat (length s)) (nsq (g s))) in
    let rel := fold_left (add (fun s => nsub (mean (map fst s)) (mean (map snd s)))) (seq 0 nb) (Fin 0%Qc) in
    let reso := fold_left (add (fun s => nsub (mean (map snd s)) o_bar)) (seq 0 nb) (Fin 0%Qc) in
    Ok [ndiv rel (nnat (length f)); ndiv reso (nnat (length f)); nmul o_bar (nsub (Fin 1%Qc) o_bar)]
  end.
(** f_slice[indices] *)
Definition take {A} (d : A) (l : list A) (idx : list nat) : list A := map (fun i => nth i l d) idx.
(** lines 99-114: [ci[0], mean, ci[1]] at the levels 1-confidence and confidence *)
Definition special_triple (e : boot_env) (stats : list num) : res (list num) :=
  let quant := if skip_nan e then np_nanquantile else np_quantile in
  lo <- quant stats (1 - confidence e)%Qc ;; hi <- quant stats (confidence e) ;;
  Ok [lo; (if skip_nan e then nanmean else nmean) stats; hi].
(** lines 83-114 (bootstrap), the nested lists flattened as np.array(ret).reshape does *)
Definition brier_boot (e : boot_env) (rng : nat -> nat -> nat) (n : nat) (f o : list num) : res (list num) :=
  rets <- mapM (fun r => idx <- choice (rng r) (seq 0 (length f)) n ;;
                         brier_point (skip_nan e) (take NaN f idx) (take NaN o idx)) (seq 0 (repeats e)) ;;
  a <- special_triple e (map (fun t => nth 0 t NaN) rets) ;;
  b <- special_triple e (map (fun t => nth 1 t NaN) rets) ;;
  c <- special_triple e (map (fun t => nth 2 t NaN) rets) ;;
  Ok (a ++ b ++ c).
Definition func_brier (e : boot_env) (n_samples : option nat) (rng : nat -> nat -> nat) (f o : list num) : res (list num) :=
  match n_samples with None => brier_point (skip_nan e) f o | Some n => brier_boot e rng n f o end.

(** ** utils_special_boot.py 117-138: correlation of one slice *)
Fixpoint all_fin (l : list num) : option (list Qc) :=
  match l with
  | [] => Some []
  | Fin q :: r => match all_fin r with Some s => Some (q :: s) | None => None end
  | _ => None
  end.
(** np.corrcoef(f, o)[0, 1]: covariances divided by n-1, then by the two standard deviations; NaN for
    fewer than two values, a non-finite value, or a constant series (0/0).  The final np.clip to [-1, 1]
    only concerns rounding. *)
Definition corrcoef (f o : list num) : rnum :=
  match all_fin f, all_fin o with
  | Some x, Some y =>
    if Nat.ltb (length x) 2 then RNaN
    else
      let dev l q := (q - qmean l)%Qc in
      let cov a b := (qsum (map (fun p => dev a (fst p) * dev b (snd p)) (combine a b)) / qn (length a - 1))%Qc in
      if (qeqb (cov x x) 0%Qc || qeqb (cov y y) 0%Qc)%bool then RNaN
      else RFin (q2r (cov x y) / sqrt (q2r (cov x x)) / sqrt (q2r (cov y y)))%R
  | _, _ => RNaN
  end.
(** lines 118-124; [stat] is the correlation coefficient *)
Definition corr_masked {B} (stat : list num -> list num -> B) (skip : bool) (f o : list num) : B :=
  if skip then
    let s := filter (fun p => negb (is_nan (fst p)) && negb (is_nan (snd p)))%bool (combine f o) in
    stat (map fst s) (map snd s)
  else stat f o.
Definition corr_point : bool -> list num -> list num -> rnum := corr_masked corrcoef.

(** np.quantile / np.mean over real numbers (linear interpolation, level as a rational) *)
Fixpoint rins (x : R) (l : list R) : list R :=
  match l with [] => [x] | y :: r => if Rle_dec x y then x :: l else y :: rins x r end.
Fixpoint rsort (l : list R) : list R := match l with [] => [] | x :: r => rins x (rsort r) end.
Definition rinterp (s : list R) (p : Qc) : R :=
  let n := length s in
  let h := (p * qn (n - 1))%Qc in
  let lo := qfloor_nat h in
  let a := nth lo s 0%R in
  let b := nth (Nat.min (lo + 1) (n - 1)) s 0%R in
  (a + (b - a) * q2r (h - qn lo)%Qc)%R.
Definition rvals (l : list rnum) : list R := flat_map (fun x => match x with RFin r => [r] | _ => [] end) l.
Definition r_is_fin (x : rnum) : bool := match x with RFin _ => true | _ => false end.
Definition r_quantile (skip : bool) (l : list rnum) (p : Qc) : res rnum :=
  if negb (qleb 0%Qc p && qleb p 1%Qc)%bool then Raise ValueError
  else if skip then match rvals l with [] => Ok RNaN | v => Ok (RFin (rinterp (rsort v) p)) end
  else match l with
       | [] => Raise IndexError
       | _ => if forallb r_is_fin l then Ok (RFin (rinterp (rsort (rvals l)) p)) else Ok RNaN
       end.
Definition rlist_mean (l : list R) : rnum :=
  match l with [] => RNaN | _ => RFin (fold_right Rplus 0 l / INR (length l))%R end.
Definition r_mean (skip : bool) (l : list rnum) : rnum :=
  if skip then rlist_mean (rvals l) else if forallb r_is_fin l then rlist_mean (rvals l) else RNaN.
(** lines 117-138; in the bootstrap branch missing values are not masked within a resample *)
Definition func_corr (e : boot_env) (n_samples : option nat) (rng : nat -> nat -> nat) (f o : list num) : res (list rnum) :=
  match n_samples with
  | None => Ok [corr_point (skip_nan e) f o]
  | Some n =>
    cs <- mapM (fun r => idx <- choice (rng r) (seq 0 (length f)) n ;;
                         Ok (corrcoef (take NaN f idx) (take NaN o idx))) (seq 0 (repeats e)) ;;
    lo <- r_quantile (skip_nan e) cs (1 - confidence e)%Qc ;;
    hi <- r_quantile (skip_nan e) cs (confidence e) ;;
    Ok [lo; r_mean (skip_nan e) cs; hi]
  end.

(** ** utils_special_boot.py 141-186: the work flow *)
(** [func i f_slice o_slice] is the statistic of the i-th slice; all slices give the same number of
    values.  Negative entries of avg_axis are not in set(range(nd)), so that the transposition gets too
    many axes; the same holds for repeated or too large ones.  list(set(...)) of small integers is
    increasing. *)
Definition workflow {B} (d : B) (func : nat -> list num -> list num -> res (list B))
    (f o : arr num) (avg_axis : option (list Z)) : res (arr B) :=
  passert (list_eqb (shape f) (shape o)) ;;;
  let nd := length (shape o) in
  let avg := match avg_axis with None => all_axes nd | Some l => l end in
  let out := filter (fun j => negb (existsb (Z.eqb (Z.of_nat j)) avg)) (seq 0 nd) in
  if negb (Nat.eqb (length out + length avg) nd) then Raise ValueError
  else
    let p := out ++ map Z.to_nat avg in
    let o1 := transpose p o in let f1 := transpose p f in
    let out_shape := firstn (length out) (shape f1) in
    (* f.shape[-len(avg_axis):] is the whole shape when avg_axis is empty *)
    let flat_shape := match avg with [] => shape f1 | _ => skipn (length out) (shape f1) end in
    let K := prod out_shape in let N := prod flat_shape in
    if negb (Nat.eqb (K * N) (prod (shape f1))) then Raise ValueError
    else
      let o2 := reshape [K; N] o1 in let f2 := reshape [K; N] f1 in
      ret <- mapM (fun i => func i (map (fun j => get f2 [i; j]) (seq 0 N)) (map (fun j => get o2 [i; j]) (seq 0 N))) (seq 0 K) ;;
      match ret with
      | [] => Raise ValueError                                     (* reshape to ( *out_shape, -1) of nothing *)
      | r0 :: _ =>
        r <- moveaxis (-1) 0 (of_list d (out_shape ++ [length r0]) (concat ret)) ;;
        Ok (if Nat.eqb (hd 0 (shape r)) 1 then Arr (tl (shape r)) (fun ix => get r (0 :: ix)) else r)
      end.

(** utils_special_boot.py 25-26; VerifyDeterm.py / VerifyEnsemble.py / VerifyProb.py _corr *)
Definition corr (e : boot_env) (rng : nat -> nat -> nat -> nat) (f o : arr num) (avg_axis : option (list Z)) (n_samples : option nat) : res (arr rnum) :=
  workflow RNaN (fun i => func_corr e n_samples (rng i)) f o avg_axis.

(** utils_special_boot.py 29-43: rel, res, unc = ret *)
Definition sub0 {A} (i : nat) (a : arr A) : arr A := Arr (tl (shape a)) (fun ix => get a (i :: ix)).
Definition brier_decomp (e : boot_env) (rng : nat -> nat -> nat -> nat) (f o : arr num) (avg_axis : option (list Z)) (n_samples : option nat)
    : res (arr num * arr num * arr num) :=
  ret <- workflow NaN (fun i => func_brier e n_samples (rng i)) f o avg_axis ;;
  match n_samples with
  | None => passert (Nat.eqb (hd 0 (shape ret)) 3) ;;; Ok (sub0 0 ret, sub0 1 ret, sub0 2 ret)
  | Some _ => passert (Nat.eqb (hd 0 (shape ret)) 9) ;;;
              let ret := reshape (3 :: 3 :: tl (shape ret)) ret in Ok (sub0 0 ret, sub0 1 ret, sub0 2 ret)
  end.
