(** Model of the stand-alone statistics: Verify.reliability_index (Verify.py 90-97) and
    utils_significance.py 22-114.
    Simplified: the three series are ndarrays (the code checks the type of the first one only), given here as
    the lists their ravel() returns; h is an integer. *)
From Coq Require Import ZArith String List Bool Arith QArith Qcanon Reals.
From Verif Require Import QcTac Num RTier.
Import ListNotations.
Open Scope nat_scope.

(** ** Verify.py 90-97 *)
Definition reliability_index (freqs : list num) : num :=
  let s := nsum freqs in
  let freqs := if neqb s (Fin 1) then freqs else map (fun x => ndiv x s) freqs in
  (* np.arange(2, len(freqs) + 2) *)
  nsum (map (fun p => nabs (nsub (fst p) (ndiv (Fin 1) (nnat (snd p))))) (combine freqs (seq 2 (length freqs)))).

(** ** Extended reals for the test statistic *)
Inductive enum := EFin (r : R) | EPos | ENeg | ENaN.
Definition eopp (x : enum) : enum := match x with EFin r => EFin (- r) | EPos => ENeg | ENeg => EPos | ENaN => ENaN end.
Definition eabs (x : enum) : enum := match x with EFin r => EFin (Rabs r) | EPos | ENeg => EPos | ENaN => ENaN end.
Definition einf (r : R) : enum := if Rlt_dec 0 r then EPos else if Rlt_dec r 0 then ENeg else ENaN.
(** numpy division of a number by a square root *)
Definition ediv (a : num) (b : rnum) : enum :=
  match a, b with
  | NaN, _ | _, RNaN => ENaN
  | Fin q, RFin r => if Req_EM_T r 0 then einf (q2r q) else EFin (q2r q / r)
  | Fin _, RInf => EFin 0
  | PInf, RFin _ => EPos
  | NInf, RFin _ => ENeg
  | _, RInf => ENaN
  end.
(** product of a square root with an extended real *)
Definition rmul (a : rnum) (b : enum) : enum :=
  match a, b with
  | RNaN, _ | _, ENaN => ENaN
  | RFin r, EFin s => EFin (r * s)
  | RFin r, EPos => einf r
  | RFin r, ENeg => eopp (einf r)
  | RInf, EFin s => einf s
  | RInf, x => x
  end.
Definition edouble (x : enum) : enum := match x with EFin r => EFin (2 * r) | y => y end.

(** ** utils_significance.py 22-23 *)
Definition autocovariance (d : list num) (k : nat) : num :=
  let m := nmean d in
  nmean (map (fun p => nmul (nsub (fst p) m) (nsub (snd p) m)) (combine (skipn k d) (firstn (length d - k) d))).

(** lines 82-96: one loss per element.  [pw] is x ** power, an arbitrary elementwise function. *)
Definition loss (pw : num -> num) (crit : string) (a p : num) : num :=
  if String.eqb crit "MSE" then nsq (nsub a p)
  else if String.eqb crit "MAD" then nabs (nsub a p)
  else if String.eqb crit "MAPE" then nabs (ndiv (nsub a p) a)
  else pw (nsub a p).
(** lines 82-98 *)
Definition differential (pw : num -> num) (crit : string) (actual pred1 pred2 : list num) : list num :=
  map (fun t => nsub (loss pw crit (fst t) (fst (snd t))) (loss pw crit (fst t) (snd (snd t)))) (combine actual (combine pred1 pred2)).
(** lines 101-104 *)
Definition dm_variance (d : list num) (h : nat) : num :=
  let gamma := map (autocovariance d) (seq 0 h) in
  ndiv (nadd (nth 0 gamma NaN) (nmul (Fin (qz 2)) (nsum (tl gamma)))) (nnat (length d)).
(** line 108 *)
Definition harvey (n h : nat) : Qc := ((qn n + 1 - qz 2 * qn h + qn h * (qn h - 1) / qn n) / qn n)%Qc.
(** lines 105-109 *)
Definition dm_stat (d : list num) (h : nat) : enum :=
  rmul (nsqrt (Fin (harvey (length d) h))) (ediv (nmean d) (nsqrt (dm_variance d h))).

(** utils_significance.py 26-114; [tcdf x df] is scipy's t.cdf *)
Definition diebold_mariano_test (tcdf : enum -> nat -> enum) (pw : num -> num) (actual pred1 pred2 : list num) (h : Z) (crit : string) : res (enum * enum) :=
  let n := length actual in
  passert (Nat.eqb n (length pred1) && Nat.eqb (length pred1) (length pred2)) ;;;
  passert (Z.leb 1 h) ;;;
  passert (Z.ltb h (Z.of_nat n)) ;;;
  passert (existsb (String.eqb crit) ["MSE"; "MAPE"; "MAD"; "poly"]%string) ;;;
  let stat := dm_stat (differential pw crit actual pred1 pred2) (Z.to_nat h) in
  Ok (stat, edouble (tcdf (eopp (eabs stat)) (n - 1))).
