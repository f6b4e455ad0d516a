(** Model of VerifyDeterm.py 39-46, 51-52 (per-cell metrics of a deterministic forecast).
    NumPy broadcasting is not needed: _validate (61-70) forces equal shapes. *)
From Coq Require Import ZArith List Bool Arith QArith Qcanon.
From Verif Require Import QcTac QSum Num NdArr Numpy M_common M_boot.
Import ListNotations.

(** VerifyDeterm.py 39-40; also VerifyEnsemble.py 77-78 with f = f_collapsed *)
Definition cell_error (f o : arr num) : arr num := amap2 nsub f o.
(** VerifyDeterm.py 42-43 *)
Definition cell_sq_error (f o : arr num) : arr num := amap2 (fun a b => nsq (nsub a b)) f o.
(** VerifyDeterm.py 45-46 *)
Definition cell_ab_error (f o : arr num) : arr num := amap2 (fun a b => nabs (nsub a b)) f o.

(** Verify.py 75, 77, 78: the public calls, without saving: workflow 2 applies boot_or_avg. *)
Definition pub_error e rng ax boot f o := boot_or_avg e rng ax boot (cell_error f o).
Definition pub_sq_error e rng ax boot f o := boot_or_avg e rng ax boot (cell_sq_error f o).
Definition pub_ab_error e rng ax boot f o := boot_or_avg e rng ax boot (cell_ab_error f o).
(** Verify.py 84: rmse = np.sqrt(self.sq_error()) *)
From Verif Require Import RTier.
Definition pub_rmse e rng ax boot f o : res (arr rnum) :=
  rmap (amap nsqrt) (pub_sq_error e rng ax boot f o).
