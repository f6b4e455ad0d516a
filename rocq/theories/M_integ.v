(** Model of numerical integration: utils_approximation.py 28-305, as called by
    VerifyProbGammaHurdle.py 70-82.
    A run is a program over two kinds of state: the private state of the process (environment, Ray) and the
    files.  Programs are sequences of atomic actions, so that two of them can be interleaved.
    Simplified: progress bars are not modelled (their settings are read); the verifier's public cdf(below=x)
    and the per-cell Brier score are functions of x alone; an array of another shape than the
    observation where NumPy would try to broadcast is a ValueError; nbins >= 1; strtobool lower-cases ASCII
    letters only; a Ray task runs at the moment it is reported complete; ray.init does not fail for other
    reasons than a running Ray; float64 storage is exact. *)
From Coq Require Import ZArith String Ascii List Bool Arith QArith Qcanon Decimal DecimalString DecimalZ.
From Verif Require Import QcTac QSum Num NdArr Numpy M_ens.
Import ListNotations.
Open Scope nat_scope.

(** ** State *)
(** os.environ and whether Ray is running in this process *)
Record proc := Proc { p_env : string -> option string; p_ray : bool }.
(** What a path denotes: whether the file exists, how many times it has been created, and the contents
    (flat float64 arrays) of all files ever created there; a mapping keeps its file after unlinking. *)
Record pstate := PS { f_live : bool; f_gen : nat; f_data : nat -> list num }.
Definition fs := string -> pstate.
Definition fs_set (f : fs) (p : string) (s : pstate) : fs := fun q => if String.eqb q p then s else f q.

(** ** Programs *)
Inductive prog (A : Type) : Type :=
| Done (r : res A)
| Env (B : Type) (op : proc -> B * proc) (k : B -> prog A)
| File (path : string) (B : Type) (op : pstate -> B * pstate) (k : B -> prog A).
Arguments Done {A}. Arguments Env {A}. Arguments File {A}.
Fixpoint run {A} (p : prog A) (s : proc) (f : fs) : res A * proc * fs :=
  match p with
  | Done r => (r, s, f)
  | Env _ op k => let (b, s') := op s in run (k b) s' f
  | File path _ op k => let (b, ps) := op (f path) in run (k b) s (fs_set f path ps)
  end.
Fixpoint pbind {A B} (p : prog A) (k : A -> prog B) : prog B :=
  match p with
  | Done (Ok a) => k a
  | Done (Raise e) => Done (Raise e)
  | Env _ op k' => Env _ op (fun b => pbind (k' b) k)
  | File path _ op k' => File path _ op (fun b => pbind (k' b) k)
  end.
Notation "x <~ p ;; q" := (pbind p (fun x => q)) (at level 63, p at next level, right associativity).
Notation "p ~;; q" := (pbind p (fun _ => q)) (at level 63, right associativity).
Definition lift {A} (r : res A) : prog A := Done r.
Definition pret {A} (a : A) : prog A := Done (Ok a).
Definition env_res {A} (op : proc -> res A * proc) : prog A := Env _ op Done.
Definition file_res {A} (path : string) (op : pstate -> res A * pstate) : prog A := File path _ op Done.
Fixpoint pmap {A B} (f : A -> prog B) (l : list A) : prog (list B) :=
  match l with [] => pret [] | x :: r => y <~ f x ;; ys <~ pmap f r ;; pret (y :: ys) end.

(** Two processes with their own environments and common files; one atomic action per scheduling step. *)
Definition step {A} (p : prog A) (s : proc) (f : fs) : prog A * proc * fs :=
  match p with
  | Done r => (p, s, f)
  | Env _ op k => let (b, s') := op s in (k b, s', f)
  | File path _ op k => let (b, ps) := op (f path) in (k b, s, fs_set f path ps)
  end.
Fixpoint par {A B} (sched : list bool) (p : prog A) (s1 : proc) (q : prog B) (s2 : proc) (f : fs) : prog A * proc * (prog B * proc) * fs :=
  match sched with
  | [] => ((p, s1), (q, s2), f)
  | true :: r => let '(p', s1', f') := step p s1 f in par r p' s1' q s2 f'
  | false :: r => let '(q', s2', f') := step q s2 f in par r p s1 q' s2' f'
  end.

(** ** Environment variables *)
Definition environ (k : string) : prog string :=
  env_res (fun s => (match p_env s k with Some v => Ok v | None => Raise KeyError end, s)).
Definition setenv (k v : string) : prog unit :=
  env_res (fun s => (Ok tt, Proc (fun j => if String.eqb j k then Some v else p_env s j) (p_ray s))).
(** distutils.util.strtobool *)
Definition lower_char (c : ascii) : ascii :=
  let n := nat_of_ascii c in if (65 <=? n) && (n <=? 90) then ascii_of_nat (n + 32) else c.
Fixpoint lower (s : string) : string := match s with EmptyString => EmptyString | String c r => String (lower_char c) (lower r) end.
Definition strtobool (s : string) : res bool :=
  if existsb (String.eqb (lower s)) ["y"; "yes"; "t"; "true"; "on"; "1"]%string then Ok true
  else if existsb (String.eqb (lower s)) ["n"; "no"; "f"; "false"; "off"; "0"]%string then Ok false
  else Raise ValueError.
(** str of an integer *)
Definition pystr (z : Z) : string := NilZero.string_of_int (Z.to_int z).
Definition pybool01 (b : bool) : string := if b then "1"%string else "0"%string.

(** ** np.linspace with possibly non-finite ends *)
Definition nlinspace (a b : num) (n : nat) : list num :=
  match n with
  | O => []
  | 1 => [nadd (nmul (Fin 0) (nsub b a)) a]
  | _ => map (fun i => if i =? n - 1 then b else nadd (nmul (nnat i) (ndiv (nsub b a) (nnat (n - 1)))) a) (seq 0 n)
  end.

(** ** The verifier as seen by Integration *)
Record verifier := Verifier { v_o : arr num; v_cdf : num -> res (arr num); v_wd : option string }.
(** VerifyProb.py 115-117 through _metric_workflow_1, over=None *)
Definition v_brier (v : verifier) (x : num) : res (arr num) := cell_brier (v_cdf v x) (v_o v) None (Some (TScalar x)).

(** ** Integration objects: utils_approximation.py 57-90 *)
Record integration := Integ { i_v : verifier; i_nbins : nat; i_x : list num; i_cores : Z; i_less : bool; i_dir : string }.
Section Integration.
Variable pyint : string -> res Z. (* int(s) *)
Variable expanduser : string -> string.
Variable isdir : string -> bool.
Variable wait : list nat -> nat. (* ray.wait: which pending task completes next *)

(** lines 279-293 *)
Definition define_range (v : verifier) (range : option (num * num)) (nbins : nat) : prog (list num) :=
  r <~ match range with
       | Some r => pret r
       | None =>
         m <~ environ "pyanen_integrate_range_multiplier" ;;
         m <~ lift (pyint m) ;;
         lift (passert (Z.ltb 0 m)) ~;;
         vmin <~ lift (nminimum (ravel (v_o v))) ;;
         vmax <~ lift (nmaximum (ravel (v_o v))) ;;
         let vrange := nsub vmax vmin in
         pret (nsub vmin (nmul (Fin (qz m)) vrange), nadd vmax (nmul (Fin (qz m)) vrange))
       end ;;
  pret (nlinspace (fst r) (snd r) nbins).
(** lines 57-90; the arguments are those of the constructor (disable_pbar, leave_pbar, chunksize are not given) *)
Definition integration_new (v : verifier) (range : option (num * num)) (nbins : nat)
    (workers : option Z) (less_memory : option bool) (memmap_dir : option string) : prog integration :=
  xs <~ define_range v range nbins ;;
  d <~ environ "pyanen_tqdm_disable" ;; lift (strtobool d) ~;;
  l <~ environ "pyanen_tqdm_leave" ;; lift (strtobool l) ~;;
  cores <~ match workers with Some w => pret w | None => w <~ environ "pyanen_tqdm_workers" ;; lift (pyint w) end ;;
  c <~ environ "pyanen_tqdm_chunksize" ;; lift (pyint c) ~;;
  less <~ match less_memory with Some b => pret b | None => m <~ environ "pyanen_integrate_with_less_memory" ;; lift (strtobool m) end ;;
  wdir <~ environ "pyanen_integrate_wdir" ;;
  let dir := match memmap_dir with
             | Some d => d
             | None => if String.eqb wdir "" then match v_wd v with Some d => d | None => "."%string end else expanduser wdir
             end in
  pret (Integ v nbins xs cores less dir).

(** ** The scratch file: lines 234-256 *)
Definition scratch (i : integration) : string := (i_dir i ++ "/__pyanen_numerical_integration__.dat")%string.
Definition cells (i : integration) : nat := length (indices (shape (v_o (i_v i)))).
(** np.memmap(mode='write'): create or truncate, zero-filled *)
Definition memmap_create (i : integration) : prog unit :=
  if isdir (i_dir i) then
    if (i_nbins i * cells i) =? 0 then file_res (scratch i) (fun s => (Raise ValueError, s))
    else file_res (scratch i) (fun s =>
      let g := if f_live s then f_gen s else S (f_gen s) in
      (Ok tt, PS true g (fun h => if h =? g then repeat (Fin 0) (i_nbins i * cells i) else f_data s h)))
  else lift (Raise FileNotFoundError).
(** np.memmap(mode='readonly'): the handle is the generation of the file *)
Definition memmap_reader (i : integration) : prog nat :=
  file_res (scratch i) (fun s =>
    (if f_live s then if i_nbins i * cells i <=? length (f_data s (f_gen s)) then Ok (f_gen s) else Raise ValueError
     else Raise FileNotFoundError, s)).
Definition initialize (i : integration) : prog (option nat) :=
  if i_less i then memmap_create i ~;; h <~ memmap_reader i ;; pret (Some h) else pret None.
Definition finalize (i : integration) : prog unit :=
  if i_less i then file_res (scratch i) (fun s =>
    (if f_live s then (Ok tt, PS false (f_gen s) (f_data s)) else (Raise FileNotFoundError, s)))
  else pret tt.
(** memmap_arr[k] = row, on a mapping opened with mode='r+' (which extends a shorter file) *)
Definition overwrite (at_ : nat) (row l : list num) : list num := firstn at_ l ++ row ++ skipn (at_ + length row) l.
Definition memmap_write (i : integration) (k : nat) (value : res (arr num)) : prog unit :=
  file_res (scratch i) (fun s =>
    if f_live s then
      let old := f_data s (f_gen s) in
      let old := old ++ repeat (Fin 0) (i_nbins i * cells i - length old) in
      let grown := PS true (f_gen s) (fun h => if h =? f_gen s then old else f_data s h) in
      match value with
      | Raise e => (Raise e, grown)
      | Ok a => if list_eqb (shape a) (shape (v_o (i_v i)))
                then (Ok tt, PS true (f_gen s) (fun h => if h =? f_gen s then overwrite (k * cells i) (ravel a) old else f_data s h))
                else (Raise ValueError, grown)
      end
    else (Raise FileNotFoundError, s)).

(** ** Workers: lines 28-53 *)
(** wrapper_cdf / wrapper_brier; [what] is the value at a threshold.  The result is the index and the array,
    or nothing when the array went to the scratch file. *)
Definition wrapper (i : integration) (what : num -> res (arr num)) (k : nat) : prog (nat * option (arr num)) :=
  let x := nth k (i_x i) NaN in
  if i_less i then memmap_write i k (what x) ~;; pret (k, None)
  else a <~ lift (what x) ;; pret (k, Some a).
(** _ray_to_iterator: order in which the pending tasks are yielded *)
Fixpoint ray_to_iterator (fuel : nat) (ids : list nat) : list nat :=
  match fuel, ids with
  | S m, _ :: _ => let j := wait ids mod length ids in nth j ids 0 :: ray_to_iterator m (remove_at j ids)
  | _, _ => []
  end.
Definition ray_init : prog unit :=
  env_res (fun s => if p_ray s then (Raise RuntimeError, s) else (Ok tt, Proc (p_env s) true)).
Definition ray_shutdown : prog unit := env_res (fun s => (Ok tt, Proc (p_env s) false)).
(** np.array of a list of arrays *)
Definition np_stack (sh : list nat) (l : list (arr num)) : res (list (arr num)) :=
  if forallb (fun a => list_eqb (shape a) sh) l then Ok l else Raise ValueError.
(** ordered[i] = e *)
Fixpoint place {A} (d : A) (k : nat) (e : A) (l : list A) : list A :=
  match l, k with [], _ => [] | _ :: r, O => e :: r | y :: r, S m => y :: place d m e r end.
Definition reorder (l : list (nat * option (arr num))) : list (option (arr num)) :=
  fold_left (fun acc p => place None (fst p) (snd p) acc) l (repeat None (length l)).
Definition values (l : list (option (arr num))) : list (arr num) :=
  flat_map (fun o => match o with Some a => [a] | None => [] end) l.
(** lines 103-126, 141-164, 180-203: the arrays at all thresholds ([] when they are in the scratch file);
    Simplified: _mean calls ray.shutdown before np.array, the other two after; the order only shows when np.array
    fails, and is that of the other two here *)
Definition gather (i : integration) (what : num -> res (arr num)) : prog (list (arr num)) :=
  let sh := shape (v_o (i_v i)) in
  if Z.eqb (i_cores i) 1 then
    l <~ pmap (wrapper i what) (seq 0 (length (i_x i))) ;;
    lift (np_stack sh (values (map snd l)))
  else
    ray_init ~;;
    l <~ pmap (wrapper i what) (ray_to_iterator (length (i_x i)) (seq 0 (length (i_x i)))) ;;
    a <~ lift (np_stack sh (values (reorder l))) ;;
    ray_shutdown ~;;
    pret a.

(** ** Sums: lines 128-135, 166-174, 205-222, 295-305 *)
Definition half : num := Fin (/ qz 2)%Qc.
Definition xat (i : integration) (k : nat) : num := nth k (i_x i) NaN.
Definition at_ (rows : list (arr num)) (k : nat) (ix : list nat) : num := get (nth k rows (afull [] NaN)) ix.
(** [mul k] times the difference of consecutive rows *)
Definition sum_diff (i : integration) (mul : nat -> num) (rows : list (arr num)) (ix : list nat) : num :=
  nsum (map (fun k => nmul (mul k) (nsub (at_ rows (S k) ix) (at_ rows k ix))) (seq 0 (i_nbins i - 1))).
Definition x2 (i : integration) (k : nat) : num := nadd (xat i (S k)) (xat i k).
Definition xsq2 (i : integration) (k : nat) : num := nadd (nsq (xat i (S k))) (nsq (xat i k)).
Definition dx (i : integration) (k : nat) : num := nsub (xat i (S k)) (xat i k).
(** _memmap_sum_mul over the mapping [h] shifted by [off] rows *)
Definition row_at (i : integration) (data : list num) (k : nat) (ix : list nat) : num :=
  nth (k * cells i + flat (shape (v_o (i_v i))) ix) data NaN.
Definition sum_mul (i : integration) (mul : nat -> num) (data : list num) (off : nat) (ix : list nat) : num :=
  fold_left (fun out k => nadd out (nmul (row_at i data (k + off) ix) (mul k))) (seq 0 (i_nbins i - 1)) (Fin 0).
(** reading the mapping; rows beyond the end of a truncated file cannot be read *)
Definition memmap_read (i : integration) (h : nat) : prog (list num) :=
  file_res (scratch i) (fun s => (if i_nbins i * cells i <=? length (f_data s h) then Ok (f_data s h) else Raise RuntimeError, s)).
Definition sum_diff_mem (i : integration) (mul : nat -> num) (data : list num) (ix : list nat) : num :=
  nsub (sum_mul i mul data 1 ix) (sum_mul i mul data 0 ix).

Definition int_crps (i : integration) (h : option nat) : prog (arr num) :=
  rows <~ gather i (v_brier (i_v i)) ;;
  match h with
  | Some h => d <~ memmap_read i h ;;
      pret (Arr (shape (v_o (i_v i))) (fun ix => nmul half (nadd (sum_mul i (dx i) d 1 ix) (sum_mul i (dx i) d 0 ix))))
  | None => pret (Arr (shape (v_o (i_v i))) (fun ix =>
      nmul half (nsum (map (fun k => nmul (nadd (at_ rows (S k) ix) (at_ rows k ix)) (dx i k)) (seq 0 (i_nbins i - 1))))))
  end.
Definition int_mean (i : integration) (h : option nat) : prog (arr num) :=
  rows <~ gather i (v_cdf (i_v i)) ;;
  match h with
  | Some h => d <~ memmap_read i h ;;
      pret (Arr (shape (v_o (i_v i))) (fun ix => nmul half (sum_diff_mem i (x2 i) d ix)))
  | None => pret (Arr (shape (v_o (i_v i))) (fun ix => nmul half (sum_diff i (x2 i) rows ix)))
  end.
Definition int_variance (i : integration) (h : option nat) : prog (arr num) :=
  rows <~ gather i (v_cdf (i_v i)) ;;
  match h with
  | Some h => d <~ memmap_read i h ;;
      pret (Arr (shape (v_o (i_v i))) (fun ix =>
        nsub (nmul half (sum_diff_mem i (xsq2 i) d ix)) (nsq (nmul half (sum_diff_mem i (x2 i) d ix)))))
  | None => pret (Arr (shape (v_o (i_v i))) (fun ix =>
        nsub (nmul half (sum_diff i (xsq2 i) rows ix)) (nsq (nmul half (sum_diff i (x2 i) rows ix)))))
  end.

(** ** lines 224-232, 258-277 *)
Definition suppress (i : integration) : prog (bool * Z) :=
  d <~ environ "pyanen_tqdm_disable" ;; d <~ lift (strtobool d) ;;
  w <~ environ "pyanen_tqdm_workers" ;; w <~ lift (pyint w) ;;
  setenv "pyanen_tqdm_disable" "True" ~;;
  (if Z.ltb 1 (i_cores i) then setenv "pyanen_tqdm_workers" "1" else pret tt) ~;;
  pret (d, w).
Definition resume (b : bool * Z) : prog unit :=
  setenv "pyanen_tqdm_disable" (pybool01 (fst b)) ~;;
  setenv "pyanen_tqdm_workers" (pystr (snd b)).
Definition workflow {A} (i : integration) (func : integration -> option nat -> prog A) : prog A :=
  b <~ suppress i ;;
  h <~ initialize i ;;
  ret <~ func i h ;;
  finalize i ~;;
  resume b ~;;
  pret ret.
(** lines 92-94 *)
Inductive kind := KCrps | KMean | KVariance.
Definition func_of (k : kind) : integration -> option nat -> prog (arr num) :=
  match k with KCrps => int_crps | KMean => int_mean | KVariance => int_variance end.
(** VerifyProbGammaHurdle.py 70-82: build the object and integrate *)
Definition integrate (k : kind) (v : verifier) (range : option (num * num)) (nbins : nat)
    (workers : option Z) (less_memory : option bool) (memmap_dir : option string) : prog (arr num) :=
  i <~ integration_new v range nbins workers less_memory memmap_dir ;;
  workflow i (func_of k).
End Integration.
