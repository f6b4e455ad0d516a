(** Model of properscoring.crps_ensemble for one observation and its members, the function that VerifyEnsemble._crps
    calls (VerifyEnsemble.py 19, 97, 105), in both of its implementations (properscoring 0.1).
    Simplified: no weights, exact arithmetic. *)
From Coq Require Import ZArith List Bool Arith QArith Qcanon.
From Verif Require Import QcTac Num NdArr Numpy.
Import ListNotations.

(** properscoring/_crps.py, _crps_ensemble_vectorized: np.nanmean(abs(forecasts - observation)) minus half of
    np.nanmean of the absolute differences of all ordered pairs *)
Definition ps_vectorized (o : num) (fs : list num) : num :=
  nadd (nanmean (map (fun f => nabs (nsub f o)) fs))
       (nmul (Fin (- / qz 2)%Qc) (nanmean (flat_map (fun a => map (fun b => nabs (nsub a b)) fs) fs))).

(** properscoring/_gufuncs.py, _crps_ensemble_gufunc, used when numba can be imported: one pass over the members in
    ascending order.  [w] is the weight of a member, [H] tells whether the observation was passed, [F] is the weight
    passed, [prev] the last member passed *)
Fixpoint ps_loop (o w : num) (fs : list num) (H : bool) (F prev integral : num) : bool * num * num :=
  match fs with
  | [] => (H, prev, integral)
  | f :: r =>
      if is_nan f then (H, prev, integral)
      else if negb H && nlt o f
      then ps_loop o w r true (nadd F w) f
             (nadd integral (nadd (nmul (nsub o prev) (nsq F)) (nmul (nsub f o) (nsq (nsub F (Fin 1))))))
      else ps_loop o w r H (nadd F w) f (nadd integral (nmul (nsub f prev) (nsq (nsub F (b2n H)))))
  end.
(** the members sorted with NaN last, equal weights over those that are not NaN; the observation may lie above all of
    them.  Without any member to count the result is NaN *)
Definition ps_gufunc (o : num) (fs : list num) : num :=
  let good := filter (fun f => negb (is_nan f)) fs in
  let bad := filter is_nan fs in
  if is_nan o then NaN
  else match good with
       | [] => NaN
       | _ => let '(H, last, integral) := ps_loop o (ndiv (Fin 1) (nnat (length good))) (nsort good ++ bad) false (Fin 0) (Fin 0) (Fin 0) in
              if H then integral else nadd integral (nsub o last)
       end.
