(** The library of the whole program (M_whole to M_whole4), continued: the integrals of VerifyProbGammaHurdle and the
    CRPS of the Gaussian and the Gamma verifier. *)
From Coq Require Import String ZArith List Bool Arith QArith Qcanon.
From Verif Require Import QcTac Num NdArr Numpy M_common M_integ Store M_state M_whole.
Import ListNotations.
Open Scope string_scope.
Open Scope list_scope.

(** ** The abscissae: utils_approximation.py 279-293 *)
(** integration_range: None or two numbers, VerifyProbGammaHurdle.py 43-46 and 62-63; anything else is left out *)
Definition range_of (v : val) : option (option (num * num)) :=
  match v with
  | VNone => Some None
  | VTuple [a; b] | VList [a; b] => match scalar_of a, scalar_of b with Some x, Some y => Some (Some (x, y)) | _, _ => None end
  | _ => None
  end.
(** [m] is pyanen_integrate_range_multiplier *)
Definition seq_x (m : Z) (o : arr num) (range : option (num * num)) (nbins : nat) : res (list num) :=
  match range with
  | Some r => Ok (nlinspace (fst r) (snd r) nbins)
  | None =>
      passert (Z.ltb 0 m) ;;;
      vmin <- nminimum (ravel o) ;; vmax <- nmaximum (ravel o) ;;
      let w := nmul (Fin (qz m)) (nsub vmax vmin) in
      Ok (nlinspace (nsub vmin w) (nadd vmax w) nbins)
  end.
Definition points_with (m : Z) (other : val -> val -> val -> res (list num)) (o range bins : val) : res (list num) :=
  match range_of range, count_of bins with
  | Some r, Some n => seq_x m (arr_of o) r n
  | _, _ => other o range bins
  end.

(** ** The sums: utils_approximation.py 125-135, 163-174, 197-222 without the scratch file *)
Definition rows_value (k : kind) (nbins : nat) (xs : list num) (o : arr num) (l : list (arr num)) : res (arr num) :=
  rows <- np_stack (shape o) l ;;
  let i := Integ (Verifier o (fun _ => Raise NotImplementedError) None) nbins xs 1 false "" in
  Ok (Arr (shape o) (fun ix =>
    match k with
    | KCrps => nmul half (nsum (map (fun j => nmul (nadd (at_ rows (S j) ix) (at_ rows j ix)) (dx i j)) (seq 0 (nbins - 1))))
    | KMean => nmul half (sum_diff i (x2 i) rows ix)
    | KVariance => nsub (nmul half (sum_diff i (xsq2 i) rows ix)) (nsq (nmul half (sum_diff i (x2 i) rows ix)))
    end)).
Definition integral_of (n : string) : option kind :=
  if String.eqb n "integrate_mean" then Some KMean
  else if String.eqb n "integrate_variance" then Some KVariance
  else if String.eqb n "integrate_crps" then Some KCrps else None.

(** ** The CRPS of one cell: properscoring.crps_gaussian, VerifyProbGaussian.py 76-81; crps_truncated_gaussian, the
    same lines; the CRPS of a shifted gamma distribution, VerifyProbGamma.py 78-83 (M_crps, M_crpstf) *)
Record scores := {
  w_crps_normal : bool -> num -> num -> num -> num;        (* truncated, observation, mu, sigma *)
  w_crps_gamma : num -> num -> num -> num -> num           (* mu, sigma, shift, observation *)
}.

Section Integrals.
Variable C : scores.
Variable other : string -> list val -> res val.
Definition same_shape (l : list (arr num)) (a : arr num) : bool := forallb (fun b => list_eqb (shape b) (shape a)) l.
Definition integ_lib (n : string) (args : list val) : res val :=
  let oth := other n args in
  match args with
  | [o; mu; sg] =>
      let normal tr := if same_shape [arr_of mu; arr_of sg] (arr_of o)
        then Ok (val_of (Arr (shape (arr_of o)) (fun ix => w_crps_normal C tr (get (arr_of o) ix) (get (arr_of mu) ix) (get (arr_of sg) ix)))) else oth in
      if String.eqb n "crps_gaussian" then normal false
      else if String.eqb n "crps_truncated_gaussian" then normal true
      else oth
  | [a; b; c; d] =>
      match integral_of n with
      | Some k =>
          match a, b, count_of d with
          | VTuple xs, VTuple vs, Some nbins => rmap val_of (rows_value k nbins (map (fun x => get (arr_of x) []) xs) (arr_of c) (map arr_of vs))
          | _, _, _ => oth
          end
      | None =>
          if String.eqb n "crps_gamma" then
            if same_shape [arr_of a; arr_of b; arr_of c] (arr_of d)
            then Ok (val_of (Arr (shape (arr_of d)) (fun ix => w_crps_gamma C (get (arr_of a) ix) (get (arr_of b) ix) (get (arr_of c) ix) (get (arr_of d) ix)))) else oth
          else oth
      end
  | _ => oth
  end.
End Integrals.
