(** Model of the verifier objects as a state machine: constructors, setters,
    saved results on disk, metric calls.

    Python values are kept at the level the control flow of these methods
    looks at: types, truth value, length, shape.  The numerical leaf functions
    (numpy, scipy, properscoring and the functions of utils_*.py, modelled in
    the other files) are an arbitrary oracle [lib]; the ones that draw random
    numbers are the oracle [libr], which is given one draw.  What is modelled
    here exactly is which settings every metric reads, which other metrics it
    calls, under which name it is saved, and what setters do to settings and
    disk.

    Simplified: a single process ([pyanen_tqdm_workers] = 1, so that
    utils_approximation.Integration takes its [cores == 1] branches); symbolic
    links, permissions and disk-full errors do not exist; save names contain no
    '/'; environment variables do not change during a history. *)
From Coq Require Import String Ascii QArith Qcanon ZArith Lia List Bool.
From Verif Require Import Num.
Import ListNotations.
Open Scope string_scope.
Open Scope list_scope.
Open Scope nat_scope.

(** * Python values *)

Inductive val :=
| VNone
| VBool (b : bool)
| VInt (z : Z)
| VFloat (x : num)
| VStr (s : string)
| VTuple (l : list val)
| VList (l : list val)
| VArr (sh : list nat) (data : nat)      (* ndarray: shape, and its content *)
| VDict (l : list (string * val))
| VFun (f : nat)
| VOther (n : nat).                      (* an object of any other type *)

Definition is_none v := match v with VNone => true | _ => false end.
(** [isinstance(v, int)]; [bool] is a subclass of [int]. *)
Definition is_int v := match v with VInt _ | VBool _ => true | _ => false end.
Definition int_of v : Z :=
  match v with VInt z => z | VBool true => 1 | VBool false => 0 | _ => 0 end%Z.
Definition is_bool v := match v with VBool _ => true | _ => false end.
Definition is_float v := match v with VFloat _ => true | _ => false end.
Definition is_str v := match v with VStr _ => true | _ => false end.
Definition is_seq v := match v with VTuple _ | VList _ => true | _ => false end.
Definition items v := match v with VTuple l | VList l => l | _ => [] end.
Definition is_arr v := match v with VArr _ _ => true | _ => false end.
Definition arr_shape v := match v with VArr sh _ => sh | _ => [] end.
Definition is_dict v := match v with VDict _ => true | _ => false end.
Definition is_fun v := match v with VFun _ => true | _ => false end.
Definition is_true v := match v with VBool b => b | _ => false end.
Definition fields v := match v with VDict l => l | _ => [] end.
Definition field (v : val) (k : string) : option val :=
  option_map snd (find (fun p => String.eqb (fst p) k) (fields v)).

Definition truthy (v : val) : bool :=
  match v with
  | VNone => false
  | VBool b => b
  | VInt z => negb (Z.eqb z 0)
  | VFloat x => negb (neqb x (Fin (Q2Qc 0)))
  | VStr s => negb (String.eqb s "")
  | VTuple l | VList l => match l with [] => false | _ => true end
  | VDict l => match l with [] => false | _ => true end
  | VArr _ _ | VFun _ | VOther _ => true
  end.

(** * Metrics (Verify.py 62-82, VerifyProb.py 47-51) *)

Inductive meth :=
| MCorr | MDecomp (over below : val)
| MRank | MVariance | MDeterm
| MRoc (over below : val) | MSharp (over below : val)
| MIouD (over below : val) | MIouP (over below : val) | MCdf (over below : val)
| MCrps | MError | MSpread | MSqErr | MAbErr | MBrier (over below : val)
| MRel (nbins over below : val) | MSS (nbins : val)
| MEns | MPit.

(** Default of [save_name] in Verify.py 62-82; VerifyProb.py 48 and 51. *)
Definition default_save (m : meth) : val :=
  match m with
  | MCorr => VNone | MDecomp _ _ => VNone
  | MRank => VStr "rank" | MVariance => VStr "variance" | MDeterm => VStr "f_determ"
  | MRoc _ _ => VStr "roc" | MSharp _ _ => VStr "sharpness"
  | MIouD _ _ => VStr "iou_determ" | MIouP _ _ => VStr "iou_prob" | MCdf _ _ => VStr "cdf"
  | MCrps => VStr "crps" | MError => VStr "error" | MSpread => VStr "spread"
  | MSqErr => VStr "sq_error" | MAbErr => VStr "ab_error" | MBrier _ _ => VStr "brier"
  | MRel _ _ _ => VStr "rel" | MSS _ => VStr "ss"
  | MEns => VStr "prob_to_ens" | MPit => VStr "pit"
  end.

(** The keyword arguments handed to [to_name] in Verify.py 62-82. *)
Definition kwargs (m : meth) : list (string * val) :=
  match m with
  | MDecomp o b | MRoc o b | MSharp o b | MIouD o b | MIouP o b | MCdf o b | MBrier o b =>
      [("over", o); ("below", b)]
  | MRel n o b => [("nbins", n); ("over", o); ("below", b)]
  | MSS n => [("nbins", n)]
  | _ => []
  end.

Inductive cls := CDeterm | CEnsemble | CGamma | CHurdle | CGaussian.

Definition is_prob (c : cls) : bool :=
  match c with CGamma | CHurdle | CGaussian => true | _ => false end.

(** * Objects *)

Record obj := mkObj {
  cl : cls;
  a_f : val; a_o : val;
  a_avg : val; a_boot : val; a_wd : val; a_scratch : val;    (* Verify.py 32-35 *)
  a_fc : val; a_eaxis : val; a_collapse : val;               (* VerifyEnsemble.py 42-46 *)
  a_trunc : val; a_members : val; a_clip : val; a_move : val; a_pitr : val;
                                                             (* VerifyProb.py 39-43 *)
  a_bins : val; a_range : val                                (* VerifyProbGammaHurdle.py 33-36 *)
}.

Definition put_avg v x := mkObj (cl x) (a_f x) (a_o x) v (a_boot x) (a_wd x) (a_scratch x)
  (a_fc x) (a_eaxis x) (a_collapse x) (a_trunc x) (a_members x) (a_clip x) (a_move x)
  (a_pitr x) (a_bins x) (a_range x).
Definition put_boot v x := mkObj (cl x) (a_f x) (a_o x) (a_avg x) v (a_wd x) (a_scratch x)
  (a_fc x) (a_eaxis x) (a_collapse x) (a_trunc x) (a_members x) (a_clip x) (a_move x)
  (a_pitr x) (a_bins x) (a_range x).
Definition put_wd v x := mkObj (cl x) (a_f x) (a_o x) (a_avg x) (a_boot x) v (a_scratch x)
  (a_fc x) (a_eaxis x) (a_collapse x) (a_trunc x) (a_members x) (a_clip x) (a_move x)
  (a_pitr x) (a_bins x) (a_range x).
Definition put_scratch v x := mkObj (cl x) (a_f x) (a_o x) (a_avg x) (a_boot x) (a_wd x) v
  (a_fc x) (a_eaxis x) (a_collapse x) (a_trunc x) (a_members x) (a_clip x) (a_move x)
  (a_pitr x) (a_bins x) (a_range x).
Definition put_fc v x := mkObj (cl x) (a_f x) (a_o x) (a_avg x) (a_boot x) (a_wd x) (a_scratch x)
  v (a_eaxis x) (a_collapse x) (a_trunc x) (a_members x) (a_clip x) (a_move x)
  (a_pitr x) (a_bins x) (a_range x).
Definition put_eaxis v x := mkObj (cl x) (a_f x) (a_o x) (a_avg x) (a_boot x) (a_wd x) (a_scratch x)
  (a_fc x) v (a_collapse x) (a_trunc x) (a_members x) (a_clip x) (a_move x)
  (a_pitr x) (a_bins x) (a_range x).
Definition put_collapse v x := mkObj (cl x) (a_f x) (a_o x) (a_avg x) (a_boot x) (a_wd x) (a_scratch x)
  (a_fc x) (a_eaxis x) v (a_trunc x) (a_members x) (a_clip x) (a_move x)
  (a_pitr x) (a_bins x) (a_range x).
Definition put_trunc v x := mkObj (cl x) (a_f x) (a_o x) (a_avg x) (a_boot x) (a_wd x) (a_scratch x)
  (a_fc x) (a_eaxis x) (a_collapse x) v (a_members x) (a_clip x) (a_move x)
  (a_pitr x) (a_bins x) (a_range x).
Definition put_members v x := mkObj (cl x) (a_f x) (a_o x) (a_avg x) (a_boot x) (a_wd x) (a_scratch x)
  (a_fc x) (a_eaxis x) (a_collapse x) (a_trunc x) v (a_clip x) (a_move x)
  (a_pitr x) (a_bins x) (a_range x).
Definition put_clip v x := mkObj (cl x) (a_f x) (a_o x) (a_avg x) (a_boot x) (a_wd x) (a_scratch x)
  (a_fc x) (a_eaxis x) (a_collapse x) (a_trunc x) (a_members x) v (a_move x)
  (a_pitr x) (a_bins x) (a_range x).
Definition put_move v x := mkObj (cl x) (a_f x) (a_o x) (a_avg x) (a_boot x) (a_wd x) (a_scratch x)
  (a_fc x) (a_eaxis x) (a_collapse x) (a_trunc x) (a_members x) (a_clip x) v
  (a_pitr x) (a_bins x) (a_range x).
Definition put_bins v x := mkObj (cl x) (a_f x) (a_o x) (a_avg x) (a_boot x) (a_wd x) (a_scratch x)
  (a_fc x) (a_eaxis x) (a_collapse x) (a_trunc x) (a_members x) (a_clip x) (a_move x)
  (a_pitr x) v (a_range x).
Definition put_range v x := mkObj (cl x) (a_f x) (a_o x) (a_avg x) (a_boot x) (a_wd x) (a_scratch x)
  (a_fc x) (a_eaxis x) (a_collapse x) (a_trunc x) (a_members x) (a_clip x) (a_move x)
  (a_pitr x) (a_bins x) v.

(** * Disk *)

(** A path is the list of its components from the root. *)
Definition path := list string.
Record disk := mkDisk { file : path -> option string; isdir : path -> bool }.

Fixpoint path_eqb (p q : path) : bool :=
  match p, q with
  | [], [] => true
  | x :: p', y :: q' => String.eqb x y && path_eqb p' q'
  | _, _ => false
  end.
Fixpoint under (d p : path) : bool :=       (* d is p or an ancestor of p *)
  match d, p with
  | [], _ => true
  | x :: d', y :: p' => String.eqb x y && under d' p'
  | _, _ => false
  end.
Definition exists_at (k : disk) (p : path) : bool :=
  isdir k p || match file k p with Some _ => true | None => false end.

Definition write_file (p : path) (b : string) (k : disk) : disk :=
  mkDisk (fun q => if path_eqb p q then Some b else file k q) (isdir k).
Definition remove_file (p : path) (k : disk) : disk :=
  mkDisk (fun q => if path_eqb p q then None else file k q) (isdir k).
(** [shutil.rmtree] *)
Definition rmtree (d : path) (k : disk) : res disk :=
  if isdir k d then
    Ok (mkDisk (fun q => if under d q then None else file k q)
               (fun q => if under d q then false else isdir k q))
  else Raise NotADirectoryError.
(** [os.makedirs]: creates the missing ancestors too. *)
Definition ancestor_is_file (d : path) (k : disk) : bool :=
  existsb (fun n => match file k (firstn n d) with Some _ => true | None => false end)
          (seq 0 (length d)).
Definition makedirs (d : path) (k : disk) : res disk :=
  if ancestor_is_file d k then Raise NotADirectoryError
  else Ok (mkDisk (file k) (fun q => if under q d then true else isdir k q)).

(** Writes to the disk that happen while a metric is computed, in order. *)
Inductive event := EvWrite (p : path) (b : string) | EvRemove (p : path).
Definition apply_event (k : disk) (e : event) : disk :=
  match e with EvWrite p b => write_file p b k | EvRemove p => remove_file p k end.

Record st := mkSt { ob : obj; dk : disk; pos : nat; events : list event }.
Definition emit (e : event) (s : st) : st :=
  mkSt (ob s) (apply_event (dk s) e) (pos s) (events s ++ [e]).
Definition with_ob (x : obj) (s : st) := mkSt x (dk s) (pos s) (events s).
Definition with_dk (k : disk) (s : st) := mkSt (ob s) k (pos s) (events s).

(** Blanks to underscores: [str.replace(' ', '_')]. *)
Fixpoint us (s : string) : string :=
  match s with
  | EmptyString => EmptyString
  | String c r => String (if Ascii.eqb c " " then "_"%char else c) (us r)
  end.
Definition drop_str (n : nat) (s : string) : string := String.substring n (String.length s - n) s.

Section Machine.

(** Oracles: the leaf functions, their random variants, Python's [str], the
    pickle codec, [os.path.expanduser], resolution of a directory name to a
    path, the integration abscissae of utils_approximation.py 279-293, the
    environment variables pyanen_integrate_with_less_memory and
    pyanen_integrate_wdir (expanded; [None] for ''), the current directory and
    the stream of random draws. *)
Variable lib : string -> list val -> res val.
Variable libr : string -> list val -> nat -> res val.
Variable str_of : val -> string.
Variable dumps : val -> string.
Variable loads : string -> res val.
Variable expanduser : string -> string.
Variable resolve : string -> path.
Variable points : val -> val -> val -> res (list num).
Variable less_memory : bool.
Variable integrate_wdir : option path.
Variable cwd : path.
Variable rng : nat -> nat.

(** ** Names: Verify.to_name, Verify.py 143-160 *)

(** The length test of Verify.py 154-156 for one argument: [None] when the
    argument is too long to be named. *)
Definition short_enough (v : val) : res bool :=
  match v with
  | VStr s => Ok (Nat.leb (String.length s) 5)
  | VTuple l | VList l => Ok (Nat.leb (length l) 5)
  | VDict l => Ok (Nat.leb (length l) 5)
  | VArr sh _ =>
      if Nat.ltb 5 (fold_right Nat.mul 1 sh) then Ok false
      else match sh with
           | [] => Raise TypeError                   (* len() of a 0-d array *)
           | n :: _ => Ok (Nat.leb n 5)
           end
  | _ => Ok true
  end.

(** Verify.py 151-160; the loop over the keyword arguments. *)
Fixpoint render_args (kw : list (string * val)) : res (option (list string)) :=
  match kw with
  | [] => Ok (Some [])
  | (k, v) :: r =>
      b <- short_enough v ;;
      if b then
        rest <- render_args r ;;
        Ok (option_map (cons (k ++ "_" ++ us (str_of v))%string) rest)
      else Ok None
  end.

Fixpoint join_us (l : list string) : string :=
  match l with
  | [] => "" | [x] => x
  | x :: r => (x ++ "_" ++ join_us r)%string
  end.

Definition to_name (save_name : val) (kw : list (string * val)) : res (option string) :=
  match save_name with
  | VStr s0 =>
      let s := us s0 in
      if String.prefix "LITERAL_" s then Ok (Some (drop_str 8 s))
      else l <- render_args kw ;; Ok (option_map (fun l => join_us (s :: l)) l)
  | _ => Ok None
  end.

(** ** Saving and loading: Verify.py 230-244 *)

Definition save_path (x : obj) (name : option string) : res (option path) :=
  match name with
  | Some n =>
      if truthy (a_wd x) then
        match a_wd x with
        | VStr s => Ok (Some (resolve s ++ [(n ++ ".pkl")%string]))
        | _ => Raise TypeError
        end
      else Ok None
  | None => Ok None
  end.

(** [None] also stands for a loaded Python [None]. *)
Definition load (s : st) (name : option string) : res (option val) :=
  p <- save_path (ob s) name ;;
  match p with
  | None => Ok None
  | Some p =>
      if isdir (dk s) p then Raise IsADirectoryError
      else match file (dk s) p with
           | Some b => v <- loads b ;; Ok (if is_none v then None else Some v)
           | None => Ok None
           end
  end.

Definition save (s : st) (name : option string) (v : val) : res unit * st :=
  match save_path (ob s) name with
  | Raise e => (Raise e, s)
  | Ok None => (Ok tt, s)
  | Ok (Some p) =>
      if isdir (dk s) p then (Raise IsADirectoryError, s)
      else if isdir (dk s) (removelast p) then (Ok tt, emit (EvWrite p (dumps v)) s)
      else (Raise FileNotFoundError, s)
  end.

(** ** Programs *)

Inductive prog :=
| PRet (v : val)
| PRaise (e : exn)
| PRand (k : nat -> prog)              (* one draw *)
| PCall (m : meth) (k : val -> prog)   (* self._metric_workflow_1 with the default name *)
| PMem (b : bool) (k : prog).          (* create / remove the integration scratch file *)

Fixpoint pbind (p : prog) (f : val -> prog) : prog :=
  match p with
  | PRet v => f v
  | PRaise e => PRaise e
  | PRand k => PRand (fun d => pbind (k d) f)
  | PCall m k => PCall m (fun v => pbind (k v) f)
  | PMem b k => PMem b (pbind k f)
  end.
Definition lift (r : res val) : prog := match r with Ok v => PRet v | Raise e => PRaise e end.
Definition plib (n : string) (args : list val) : prog := lift (lib n args).
Definition prand (n : string) (args : list val) : prog := PRand (fun d => lift (libr n args d)).
Definition pif (b : bool) (p : prog) : prog := if b then p else PRaise AssertionError.

(** A library function called with [boot_samples]: the random version unless
    it is None. *)
Definition pboot (x : obj) (n : string) (args : list val) : prog :=
  if is_none (a_boot x) then plib n args else prand n (args ++ [a_boot x]).

Definition getf (x : obj) (k : string) (f : val -> prog) : prog :=
  match field (a_f x) k with Some v => f v | None => PRaise KeyError end.

(** [_cdf]: VerifyEnsemble.py 171-174, VerifyProbGamma.py 73-76,
    VerifyProbGammaHurdle.py 73-76, VerifyProbGaussian.py 71-74; abstract for
    VerifyDeterm (Verify.py 53). *)
Definition cdf_below (x : obj) (over below : val) : prog :=
  match cl x with
  | CDeterm => PRaise NotImplementedError
  | CEnsemble => plib "ens_to_prob" [a_f x; a_eaxis x; over; below]
  | CGamma =>
      getf x "unshifted_mu" (fun mu => getf x "sigma" (fun sg => getf x "shift" (fun sh =>
        plib "cdf_gamma" [mu; sg; sh; below; a_trunc x])))
  | CHurdle =>
      getf x "pop" (fun pop => getf x "mu" (fun mu => getf x "sigma" (fun sg =>
        plib "cdf_gamma_hurdle" [pop; mu; sg; below])))
  | CGaussian =>
      getf x "mu" (fun mu => getf x "sigma" (fun sg =>
        plib "cdf_gaussian" [mu; sg; below; a_trunc x]))
  end.
Definition cdf_body (x : obj) (over below : val) : prog :=
  match cl x with
  | CDeterm => PRaise NotImplementedError
  | _ =>
      pif (xorb (is_none over) (is_none below))
        (if is_none below
         then PCall (MCdf VNone over) (fun v => plib "one_minus" [v])
         else cdf_below x over below)
  end.

(** utils_approximation.py 103-107, 141-146 and 180-185: the wrapper over the abscissae, [k] is
    given the list of results. *)
Fixpoint pcalls (ms : list meth) (acc : list val) (k : list val -> prog) : prog :=
  match ms with
  | [] => k (List.rev acc)
  | m :: r => PCall m (fun v => pcalls r (v :: acc) k)
  end.

(** Integration(...).crps / mean / variance: utils_approximation.py 56-135,
    137-222, 224-232 with cores = 1. *)
Definition integrate (x : obj) (what : string) (key : val -> meth) : prog :=
  match points (a_o x) (a_range x) (a_bins x) with
  | Raise e => PRaise e
  | Ok xs =>
      let ms := map (fun q => key (VFloat q)) xs in
      let body := fun k => pcalls ms [] (fun vs => pbind (plib what
                    [VTuple (map VFloat xs); VTuple vs; a_o x; a_bins x]) k) in
      if less_memory then PMem true (body (fun v => PMem false (PRet v)))
      else body PRet
  end.

(** [_f_determ]: VerifyDeterm.py 51, VerifyEnsemble.py 71, VerifyProbGamma.py
    57, VerifyProbGaussian.py 55, VerifyProbGammaHurdle.py 78. *)
Definition determ_body (x : obj) : prog :=
  match cl x with
  | CDeterm => plib "copy" [a_f x]
  | CEnsemble => plib "copy" [a_fc x]
  | CGamma | CGaussian => getf x "mu" (fun mu => plib "copy" [mu])
  | CHurdle => integrate x "integrate_mean" (fun q => MCdf VNone q)
  end.

(** The deterministic forecast the error metrics use: VerifyDeterm.py 39-49,
    VerifyEnsemble.py 77-84 and 157, VerifyProb.py 90-97 and 153. *)
Definition with_forecast (x : obj) (k : val -> prog) : prog :=
  match cl x with
  | CDeterm => k (a_f x)
  | CEnsemble => k (a_fc x)
  | _ => PCall MDeterm k
  end.

(** [f_prob] and [o_binary], VerifyEnsemble.py 116-169, VerifyProb.py 115-165. *)
Definition with_prob (x : obj) (over below : val) (k : val -> val -> prog) : prog :=
  PCall (MCdf over below) (fun f =>
  pbind (plib "binarize_obs" [a_o x; over; below]) (fun o => k f o)).

Definition nth_item (l : list val) (n : nat) (k : val -> prog) : prog :=
  match nth_error l n with Some v => k v | None => PRaise IndexError end.

(** The private metric methods, one case each. *)
Definition body (x : obj) (m : meth) : prog :=
  match m with
  (* _corr: VerifyDeterm.py 54, VerifyEnsemble.py 74, VerifyProb*.py *)
  | MCorr => PCall MDeterm (fun f => pboot x "corr" [f; a_o x; a_avg x])
  (* _brier_decomp: VerifyEnsemble.py 120-123, VerifyProb.py 119-122 *)
  | MDecomp over below =>
      match cl x with
      | CDeterm => PRaise NotImplementedError
      | _ => with_prob x over below (fun f o => pboot x "brier_decomp" [f; o; a_avg x])
      end
  (* _rank_hist: VerifyEnsemble.py 107-108, VerifyProb.py 99-106 *)
  | MRank =>
      match cl x with
      | CDeterm => PRaise NotImplementedError
      | CEnsemble => prand "rank_histogram" [a_f x; a_o x; a_eaxis x]
      | _ =>
          if is_none (a_members x) then PCall MPit PRet
          else PCall MEns (fun e => prand "rank_histogram" [e; a_o x; VInt (-1)])
      end
  (* _variance: VerifyEnsemble.py 125, VerifyProbGamma.py 60,
     VerifyProbGaussian.py 58, VerifyProbGammaHurdle.py 70 *)
  | MVariance =>
      match cl x with
      | CDeterm => PRaise NotImplementedError
      | CEnsemble => plib "var" [a_f x; a_eaxis x]
      | CGamma | CGaussian => getf x "sigma" (fun s => plib "square" [s])
      | CHurdle => integrate x "integrate_variance" (fun q => MCdf VNone q)
      end
  | MDeterm => determ_body x
  (* _roc: VerifyEnsemble.py 146-152, VerifyProb.py 142-148 *)
  | MRoc over below =>
      match cl x with
      | CDeterm => PRaise NotImplementedError
      | _ => with_prob x over below (fun f o => plib "calculate_roc" [f; o])
      end
  (* _sharpness: VerifyEnsemble.py 154, VerifyProb.py 150 *)
  | MSharp over below =>
      match cl x with
      | CDeterm => PRaise NotImplementedError
      | _ => PCall (MCdf over below) PRet
      end
  (* _iou_determ: VerifyDeterm.py 48, VerifyEnsemble.py 157, VerifyProb.py 153 *)
  | MIouD over below =>
      with_forecast x (fun f => plib "iou_determ" [f; a_o x; a_avg x; over; below])
  (* _iou_prob: VerifyEnsemble.py 160-169, VerifyProb.py 156-165 *)
  | MIouP over below =>
      match cl x with
      | CDeterm => PRaise NotImplementedError
      | _ =>
          pif (is_seq over) (pif (is_seq below)
          (pif (Nat.eqb (length (items over)) 2 || Nat.eqb (length (items below)) 2)
          (nth_item (items over) 0 (fun o0 => nth_item (items below) 0 (fun b0 =>
           with_prob x o0 b0 (fun f o =>
             nth_item (items over) 1 (fun o1 => nth_item (items below) 1 (fun b1 =>
             plib "iou_prob" [f; o; a_avg x; o1; b1]))))))))
      end
  | MCdf over below => cdf_body x over below
  (* _crps: VerifyEnsemble.py 86-105, VerifyProbGamma.py 78-83,
     VerifyProbGaussian.py 76-81, VerifyProbGammaHurdle.py 81 *)
  | MCrps =>
      match cl x with
      | CDeterm => PRaise NotImplementedError
      | CEnsemble => plib "crps_ensemble" [a_o x; a_f x; a_eaxis x]
      | CGamma =>
          if truthy (a_trunc x) then PRaise NotImplementedError
          else getf x "unshifted_mu" (fun mu => getf x "sigma" (fun sg =>
               getf x "shift" (fun sh => plib "crps_gamma" [mu; sg; sh; a_o x])))
      | CGaussian =>
          getf x "mu" (fun mu => getf x "sigma" (fun sg =>
          if truthy (a_trunc x) then plib "crps_truncated_gaussian" [a_o x; mu; sg]
          else plib "crps_gaussian" [a_o x; mu; sg]))
      | CHurdle => integrate x "integrate_crps" (fun q => MBrier VNone q)
      end
  | MError => with_forecast x (fun f => plib "sub" [f; a_o x])
  | MSqErr => with_forecast x (fun f => plib "sub_sq" [f; a_o x])
  | MAbErr => with_forecast x (fun f => plib "sub_abs" [f; a_o x])
  (* _spread: VerifyEnsemble.py 110-114, VerifyProb.py 108-113 *)
  | MSpread =>
      match cl x with
      | CDeterm => PRaise NotImplementedError
      | CEnsemble => plib "spread" [a_f x; a_eaxis x]
      | _ => PCall MEns (fun e => plib "spread" [e; VInt (-1)])
      end
  (* _brier: VerifyEnsemble.py 116-118, VerifyProb.py 115-117 *)
  | MBrier over below =>
      match cl x with
      | CDeterm => PRaise NotImplementedError
      | _ => with_prob x over below (fun f o => plib "sub_sq" [f; o])
      end
  (* _reliability: VerifyEnsemble.py 138-144, VerifyProb.py 134-140 *)
  | MRel nbins over below =>
      match cl x with
      | CDeterm => PRaise NotImplementedError
      | _ => with_prob x over below (fun f o => plib "reliability_split" [f; o; nbins; a_avg x])
      end
  (* _binned_spread_skill: VerifyEnsemble.py 128-136, VerifyProb.py 124-132 *)
  | MSS nbins =>
      match cl x with
      | CDeterm => PRaise NotImplementedError
      | _ => PCall MVariance (fun v => PCall MSqErr (fun e =>
             plib "spread_skill_split" [v; e; nbins; a_avg x]))
      end
  (* _prob_to_ens: VerifyProbGamma.py 63-71, VerifyProbGaussian.py 61-69;
     abstract for the hurdle class *)
  | MEns =>
      let draw n args :=
        pif (negb (is_none (a_members x)))
          (pbind (prand n (args ++ [a_members x; a_move x; a_trunc x])) (fun e =>
           if is_none (a_clip x) then PRet e else plib "clip_members" [e; a_clip x])) in
      match cl x with
      | CDeterm | CEnsemble => PRaise AttributeError
      | CHurdle => PRaise NotImplementedError
      | CGamma => getf x "unshifted_mu" (fun mu => getf x "sigma" (fun sg =>
                  getf x "shift" (fun sh => draw "sample_dist_gamma" [mu; sg; sh])))
      | CGaussian => getf x "mu" (fun mu => getf x "sigma" (fun sg =>
                     draw "sample_dist_gaussian" [mu; sg]))
      end
  (* _pit: VerifyProb.py 167-177; calls the private _cdf, so nothing is saved
     under the name of the cdf *)
  | MPit =>
      match cl x with
      | CDeterm | CEnsemble => PRaise AttributeError
      | _ => pbind (cdf_body x VNone (a_o x)) (fun r =>
             if is_true (a_pitr x) then prand "randomize_zero_ranks" [r; a_o x] else PRet r)
      end
  end.

(** ** Execution *)

Definition default_name (m : meth) : res (option string) := to_name (default_save m) (kwargs m).

(** Directory of the integration scratch file, utils_approximation.py 85-90. *)
Definition mem_dir (x : obj) : path :=
  match integrate_wdir with
  | Some d => d
  | None => match a_wd x with
            | VStr s => if String.eqb s "" then cwd else resolve s
            | _ => cwd
            end
  end.
(** os.path.join accepts the directory (utils_approximation.py 236) *)
Definition mem_text (x : obj) : bool :=
  match integrate_wdir with Some _ => true | None => is_str (a_wd x) || is_none (a_wd x) end.
Definition mem_path (x : obj) : path := mem_dir x ++ ["__pyanen_numerical_integration__.dat"].

Definition draw (s : st) : nat * st := (rng (pos s), mkSt (ob s) (dk s) (S (pos s)) (events s)).

(** Verify._metric_workflow_1, Verify.py 246-253; [run] computes the metric. *)
Definition workflow_1 (name : res (option string)) (run : st -> res val * st) (s : st)
  : res val * st :=
  match name with
  | Raise e => (Raise e, s)
  | Ok n =>
      match load s n with
      | Raise e => (Raise e, s)
      | Ok (Some v) => (Ok v, s)
      | Ok None =>
          match run s with
          | (Raise e, s1) => (Raise e, s1)
          | (Ok v, s1) =>
              match save s1 n v with
              | (Raise e, s2) => (Raise e, s2)
              | (Ok _, s2) => (Ok v, s2)
              end
          end
      end
  end.

(** Execution of a program; [n] bounds the nesting of metric calls (5 is
    enough, see P_state). *)
Fixpoint exec (n : nat) : prog -> st -> res val * st :=
  fix go (p : prog) (s : st) : res val * st :=
    match p with
    | PRet v => (Ok v, s)
    | PRaise e => (Raise e, s)
    | PRand k => let (d, s1) := draw s in go (k d) s1
    | PMem true k =>
        if negb (mem_text (ob s)) then (Raise TypeError, s)
        else if isdir (dk s) (mem_dir (ob s)) then go k (emit (EvWrite (mem_path (ob s)) "") s)
        else (Raise FileNotFoundError, s)
    | PMem false k =>
        match file (dk s) (mem_path (ob s)) with
        | Some _ => go k (emit (EvRemove (mem_path (ob s))) s)
        | None => (Raise FileNotFoundError, s)
        end
    | PCall m k =>
        match n with
        | O => (Raise RuntimeError, s)
        | S n' =>
            match workflow_1 (default_name m) (exec n' (body (ob s) m)) s with
            | (Ok v, s1) => go (k v) s1
            | (Raise e, s1) => (Raise e, s1)
            end
        end
    end.

Definition depth := 5.

(** Post-processing: Verify.py 103-139. *)
Definition post (x : obj) (m : meth) (v : val) : prog :=
  match m with
  | MCrps | MError | MSpread | MSqErr | MAbErr | MBrier _ _ =>
      pboot x "boot_or_avg" [v; a_avg x]
  | MRel _ _ _ => pboot x "post_reliability" [v]
  | MSS _ => pboot x "post_binned_spread_skill" [v]
  | _ => PRet v
  end.

(** A public metric call, Verify.py 62-82 with 246-261. *)
Definition metric (m : meth) (save_name : val) (s : st) : res val * st :=
  match m, cl (ob s) with
  | (MEns | MPit), (CDeterm | CEnsemble) => (Raise AttributeError, s)
  | _, _ =>
      match workflow_1 (to_name save_name (kwargs m)) (exec depth (body (ob s) m)) s with
      | (Ok v, s1) => exec depth (post (ob s1) m v) s1
      | (Raise e, s1) => (Raise e, s1)
      end
  end.
(** rmse: Verify.py 84. *)
Definition rmse (save_name : val) (s : st) : res val * st :=
  match metric MSqErr save_name s with
  | (Ok v, s1) => exec depth (plib "sqrt" [v]) s1
  | r => r
  end.

(** ** Validation *)

(** Verify._validate_avg_axis, Verify.py 190-197. *)
Definition validate_avg (x : obj) : res unit * obj :=
  let x1 := if is_none (a_avg x) then x
            else let x1 := if is_int (a_avg x) then put_avg (VTuple [a_avg x]) x else x in
                 match a_avg x1 with VList l => put_avg (VTuple l) x1 | _ => x1 end in
  (passert (is_none (a_avg x1) || match a_avg x1 with VTuple _ => true | _ => false end), x1).

(** Verify._validate_saving, Verify.py 199-210. *)
Definition validate_saving (x : obj) (k : disk) : res unit * obj * disk :=
  if truthy (a_wd x) then
    match a_wd x with
    | VStr s =>
        let x1 := put_wd (VStr (expanduser s)) x in
        let d := resolve (expanduser s) in
        if exists_at k d then
          if truthy (a_scratch x1) then
            match rmtree d k with
            | Raise e => (Raise e, x1, k)
            | Ok k1 => match makedirs d k1 with
                       | Raise e => (Raise e, x1, k1)
                       | Ok k2 => (Ok tt, x1, k2)
                       end
            end
          else (Ok tt, x1, k)
        else match makedirs d k with
             | Raise e => (Raise e, x1, k)
             | Ok k1 => (Ok tt, x1, k1)
             end
    | _ => (Raise AssertionError, x, k)
    end
  else (Ok tt, x, k).

(** Verify._validate, Verify.py 216-228. *)
Definition validate_base (x : obj) (k : disk) : res unit * obj * disk :=
  match validate_avg x with
  | (Raise e, x1) => (Raise e, x1, k)
  | (Ok _, x1) =>
      if is_none (a_boot x1) || is_int (a_boot x1) then
        if is_bool (a_scratch x1) then validate_saving x1 k
        else (Raise AssertionError, x1, k)
      else (Raise AssertionError, x1, k)
  end.

Fixpoint list_nat_eqb (a b : list nat) : bool :=
  match a, b with
  | [], [] => true
  | x :: a', y :: b' => Nat.eqb x y && list_nat_eqb a' b'
  | _, _ => false
  end.
Definition pop_last (l : list nat) := removelast l.
Definition pop_first (l : list nat) := tl l.

(** VerifyEnsemble._guess_ensemble_axis, VerifyEnsemble.py 178-192. *)
Definition guess_axis (x : obj) : res val :=
  match arr_shape (a_f x) with
  | [] => Raise IndexError                              (* pop from empty list *)
  | fs =>
      if list_nat_eqb (pop_last fs) (arr_shape (a_o x)) then Ok (VInt (-1))
      else if list_nat_eqb (pop_first fs) (arr_shape (a_o x)) then Ok (VInt 0)
      else Raise PlainException
  end.

(** The part of VerifyEnsemble._validate below super(), VerifyEnsemble.py 197-218. *)
Definition validate_ensemble (x : obj) : res unit * obj :=
  if negb (is_arr (a_f x) && is_arr (a_o x)) then (Raise AssertionError, x)
  else
    let guess := if is_none (a_eaxis x) then guess_axis x
                 else if is_int (a_eaxis x) then Ok (a_eaxis x) else Raise AssertionError in
    match guess with
    | Raise e => (Raise e, x)
    | Ok ax =>
        let x1 := put_eaxis ax x in
        let z := int_of ax in
        let n := Z.of_nat (length (arr_shape (a_f x))) in
        (if (Z.eqb z 0 || Z.eqb z (-1) || Z.eqb z (- n) || Z.eqb z (n - 1))%bool then
           match arr_shape (a_f x) with
           | [] => Raise IndexError
           | fs =>
               passert (list_nat_eqb (if (Z.eqb z 0 || Z.eqb z (- n))%bool then pop_first fs else pop_last fs)
                                     (arr_shape (a_o x))) ;;;
               passert (is_fun (a_collapse x))
           end
         else Raise AssertionError, x1)
    end.

(** VerifyProb._validate below super(), VerifyProb.py 181-201. *)
Definition validate_prob (x : obj) : res unit :=
  passert (is_int (a_move x)) ;;;
  passert (is_bool (a_pitr x)) ;;;
  passert (is_none (a_members x) || is_int (a_members x)) ;;;
  passert (is_none (a_clip x) || is_float (a_clip x)) ;;;
  passert (is_bool (a_trunc x)) ;;;
  (match cl x with CHurdle => passert (negb (truthy (a_trunc x))) | _ => Ok tt end).

Definition has_key (x : obj) (k : string) : bool :=
  existsb (fun p => String.eqb (fst p) k) (fields (a_f x)).
(** VerifyProbGamma.py 45-50, VerifyProbGaussian.py 45-50: every field of [f]
    has the shape of [o]. *)
Fixpoint check_shapes (l : list (string * val)) (sh : list nat) : res unit :=
  match l with
  | [] => Ok tt
  | (_, v) :: r =>
      match v with
      | VArr s _ => passert (list_nat_eqb s sh) ;;; check_shapes r sh
      | _ => Raise AttributeError                       (* .shape *)
      end
  end.

(** The class-specific checks, VerifyDeterm.py 61-70, VerifyProbGamma.py 38-55,
    VerifyProbGammaHurdle.py 51-68, VerifyProbGaussian.py 38-53. *)
Definition validate_class (x : obj) : res unit * obj :=
  match cl x with
  | CDeterm =>
      (passert (is_arr (a_f x)) ;;; passert (is_arr (a_o x)) ;;;
       passert (list_nat_eqb (arr_shape (a_f x)) (arr_shape (a_o x))), x)
  | CEnsemble => validate_ensemble x
  | CGamma =>
      (validate_prob x ;;; passert (is_dict (a_f x)) ;;; passert (is_arr (a_o x)) ;;;
       check_shapes (fields (a_f x)) (arr_shape (a_o x)) ;;;
       passert (has_key x "mu") ;;; passert (has_key x "sigma") ;;;
       passert (has_key x "shift") ;;; passert (has_key x "unshifted_mu"), x)
  | CHurdle =>
      (validate_prob x ;;; passert (is_dict (a_f x)) ;;; passert (is_arr (a_o x)) ;;;
       passert (has_key x "pop") ;;; passert (has_key x "mu") ;;; passert (has_key x "sigma") ;;;
       passert (is_int (a_bins x)) ;;;
       (if is_none (a_range x) then Ok tt
        else if is_seq (a_range x) then passert (Nat.eqb (length (items (a_range x))) 2)
        else Raise TypeError), x)
  | CGaussian =>
      (validate_prob x ;;; passert (is_dict (a_f x)) ;;; passert (is_arr (a_o x)) ;;;
       check_shapes (fields (a_f x)) (arr_shape (a_o x)) ;;;
       passert (has_key x "mu") ;;; passert (has_key x "sigma"), x)
  end.

(** self._validate() of the concrete class. *)
Definition validate (x : obj) (k : disk) : res unit * obj * disk :=
  match validate_base x k with
  | (Raise e, x1, k1) => (Raise e, x1, k1)
  | (Ok _, x1, k1) => let (r, x2) := validate_class x1 in (r, x2, k1)
  end.

(** Constructors: VerifyDeterm.py 25-33, VerifyEnsemble.py 39-53, VerifyProb.py
    35-45 and its subclasses.  [x] carries the constructor arguments; the
    result is the object, or the exception; the disk is changed in both cases.
    VerifyEnsemble._collapse_ensembles, VerifyEnsemble.py 220. *)
Definition construct (x : obj) (k : disk) : res obj * disk :=
  match validate (put_fc VNone x) k with
  | (Raise e, _, k1) => (Raise e, k1)
  | (Ok _, x1, k1) =>
      match cl x with
      | CEnsemble =>
          match lib "collapse" [a_collapse x1; a_f x1; a_eaxis x1] with
          | Ok v => (Ok (put_fc v x1), k1)
          | Raise e => (Raise e, k1)
          end
      | _ => (Ok x1, k1)
      end
  end.

(** ** Histories *)

Inductive op :=
| OMetric (m : meth) (save_name : option val)
| ORmse (save_name : option val)
| OAvg (v : val) | OBoot (v : val) | ONoBoot | OSave (wd scratch : val) | ONoSave
| OEAxis (v : val) | OCollapse (v : val)
| OMove (v : val) | OMembers (v : val) | OClip (v : val) | OTrunc (v : val)
| OBins (v : val) | ORange (vmin vmax : val).

(** A setter that assigns and re-validates. *)
Definition set_and_validate (x : obj) (s : st) : res val * st :=
  match validate x (dk s) with
  | (r, x1, k1) => (rmap (fun _ => VNone) r, mkSt x1 k1 (pos s) (events s))
  end.

(** One public call: the metrics above, and the setters Verify.py 162-184,
    VerifyEnsemble.py 55-63, VerifyProb.py 64-82, VerifyProbGammaHurdle.py
    41-49.  A setter the class does not have raises AttributeError. *)
Definition step (o : op) (s : st) : res val * st :=
  let x := ob s in
  let only (b : bool) (x' : obj) :=
    if b then set_and_validate x' s else (Raise AttributeError, s) in
  let prob := is_prob (cl x) in
  let ens := match cl x with CEnsemble => true | _ => false end in
  let hurdle := match cl x with CHurdle => true | _ => false end in
  match o with
  | OMetric m None => metric m (default_save m) s
  | OMetric ((MEns | MPit) as m) (Some _) =>
      (if prob then Raise TypeError else Raise AttributeError, s)
  | OMetric m (Some v) => metric m v s
  | ORmse None => rmse (VStr "sq_error") s
  | ORmse (Some v) => rmse v s
  | OAvg v => set_and_validate (put_avg v x) s
  | OBoot v => set_and_validate (put_boot v x) s
  | ONoBoot => (Ok VNone, with_ob (put_boot VNone x) s)
  | OSave wd sc => set_and_validate (put_scratch sc (put_wd wd x)) s
  | ONoSave => (Ok VNone, with_ob (put_wd VNone x) s)
  | OEAxis v => only ens (put_eaxis v x)
  | OCollapse v => only ens (put_collapse v x)
  | OMove v => only prob (put_move v x)
  | OMembers v => only prob (put_members v x)
  | OClip v => only prob (put_clip v x)
  | OTrunc v => only prob (put_trunc v x)
  | OBins v => only hurdle (put_bins v x)
  | ORange a b => only hurdle (put_range (VTuple [a; b]) x)
  end.

Fixpoint steps (os : list op) (s : st) : list (res val) * st :=
  match os with
  | [] => ([], s)
  | o :: r => let (v, s1) := step o s in let (vs, s2) := steps r s1 in (v :: vs, s2)
  end.

End Machine.
