(** The random part of the library of the whole program, continued: the bootstrapped spread-skill diagram and the
    bootstrapped correlation. *)
From Coq Require Import String ZArith List Bool Arith QArith Qcanon.
From Verif Require Import QcTac Num NdArr Numpy M_common M_boot M_special M_ss Store M_state M_whole M_whole4.
Import ListNotations.
Open Scope string_scope.
Open Scope list_scope.

Section Stats.
Variable S : settings.
Variable T : stats.
(** the draws from the state of the generator: bin, column, repetition, position (np.random.randint, utils_ss.py 152-153)
    and slice, repetition, position (np.random.choice, utils_special_boot.py 130) *)
Variable gen_ss : nat -> nat -> nat -> nat -> nat -> nat.
Variable gen_corr : nat -> nat -> nat -> nat -> nat.
Variable otherr : string -> list val -> nat -> res val.

(** utils_special_boot.py 126-138: missing values are not masked in a resample *)
Definition func_corr_with (n : nat) (rng : nat -> nat -> nat) (f o : list num) : res (list num) :=
  cs <- mapM (fun r => idx <- choice (rng r) (seq 0 (length f)) n ;;
                       Ok (w_corrcoef T (take NaN f idx) (take NaN o idx))) (seq 0 (repeats (w_boot S))) ;;
  special_triple (w_boot S) cs.
(** utils_special_boot.py 25-26 and 141-186 with boot_samples *)
Definition corr_boot_with (n : nat) (rng : nat -> nat -> nat -> nat) (f o : arr num) (ax : option (list Z)) : res (arr num) :=
  workflow NaN (fun i => func_corr_with n (rng i)) f o ax.
(** Verify.py 101-126: the number of boot samples is the last argument *)
Definition stat_libr (nm : string) (args : list val) (d : nat) : res val :=
  let oth := otherr nm args d in
  match args with
  | [v; b] =>
      if String.eqb nm "post_binned_spread_skill" then
        match bins_of v, count_of b with
        | Some (bins, keep), Some n => rmap (fun r => VTuple [val_of (fst r); val_of (snd r)]) (ss_boot_with (w_sqrt T) (w_boot S) (gen_ss d) n bins keep)
        | _, _ => oth
        end
      else oth
  | [f; o; avg; b] =>
      if String.eqb nm "corr" then
        match axes_of avg, count_of b with
        | Some ax, Some n => rmap val_of (corr_boot_with n (gen_corr d) (arr_of f) (arr_of o) ax)
        | _, _ => oth
        end
      else oth
  | _ => oth
  end.
End Stats.
