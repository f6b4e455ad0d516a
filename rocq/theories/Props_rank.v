(** Properties C18-C21: ranks of the observation in the ensemble. *)
From Coq Require Import ZArith List Lia Bool Arith QArith Qcanon.
From Verif Require Import QcTac QSum Num NdArr Numpy M_common NdAxes Spec M_ens NdMove P_rank.
Import ListNotations.
Open Scope nat_scope.

(** Example: two cells, three members on the last axis; the first cell ties with two members. *)
Definition rk_f : arr num := of_list NaN [2; 3] (map nnat [5; 5; 7; 1; 2; 3]).
Definition rk_o : arr num := of_list NaN [2] (map nnat [5; 4]).

(** ** C18 *)
Theorem c18_rank_range : forall skip workers map_axis rng f o ea n r,
  rank_histogram skip workers map_axis rng f o ea = Ok r -> axis_is (length (shape f)) ea n ->
  shape r = shape o /\ drop_axis n (shape f) = shape o /\
  forall ix, Forall2 lt ix (shape o) ->
    let ms := members_at n f ix in
    (* a cell without missing values; when pyanen_skip_nan is off the call itself guarantees this *)
    (skip = true -> is_fin (get o ix) /\ forall m, In m ms -> is_fin m) ->
    exists k, get r ix = nnat k /\ 1 <= k <= length ms + 1 /\
      how_many (fun m => nlt m (get o ix)) ms < k <= 1 + how_many (fun m => nle m (get o ix)) ms /\
      (~ In (get o ix) ms -> k = 1 + how_many (fun m => nlt m (get o ix)) ms).
Proof.
  intros skip w z rng f o ea n r H Hea.
  destruct (rank_histogram_cells _ _ _ _ _ _ _ _ _ H Hea) as (_ & Hd & Hs & Hnan & G).
  split; [exact Hs|]. split; [exact Hd|]. intros ix Hv ms Hfin.
  assert (Ho : is_nan (get o ix) = false).
  { destruct skip; [destruct (Hfin eq_refl) as [[q ->] _]; reflexivity|]. apply (proj2 (Hnan eq_refl)), Hv. }
  destruct (G ix Hv) as [_ G2]. destruct (G2 Ho) as (k & Ek & Hk).
  { intros E. destruct (Hfin E) as [_ Hm]. fold ms. destruct (is_nan (nsum ms)) eqn:En; [|reflexivity]. exfalso.
    apply nsum_nan_iff in En; [|intros m Hin; right; apply Hm, Hin]. destruct (Hm _ En) as [q Hq]. discriminate. }
  exists k. split; [exact Ek|]. pose proof (admissible_range _ ms _ Hk). split; [lia|]. split; [exact Hk|].
  intros Hn. apply no_tie_unique; assumption.
Qed.
Print Assumptions c18_rank_range.
Example c18_nonvacuous : exists r, rank_histogram false 1 (-1) (fun _ _ => 1) rk_f rk_o (-1) = Ok r /\
  axis_is 2 (-1) 1 /\ members_at 1 rk_f [0] = map nnat [5; 5; 7] /\ get r [0] = nnat 2 /\ get r [1] = nnat 4.
Proof. eexists. split; [vm_compute; reflexivity|]. split; [split; [lia|right; reflexivity]|]. repeat split. Qed.

(** ** C19 *)
(** As stated the claim is false: a cell whose tie count is the smallest in the array always gets
    the lowest admissible rank, and whether a cell is randomised depends on the other cells. *)
Theorem c19_ties_refuted :
  let f1 := of_list NaN [1; 2] (map nnat [5; 7]) in let o1 := of_list NaN [1] (map nnat [5]) in
  let f2 := of_list NaN [2; 2] (map nnat [5; 7; 1; 2]) in let o2 := of_list NaN [2] (map nnat [5; 4]) in
  (* one cell, observation 5, members 5 and 7: ranks 1 and 2 are admissible, but only 1 is ever returned *)
  (forall rng, exists r, rank_histogram false 1 (-1) rng f1 o1 (-1) = Ok r /\ get r [0] = nnat 1) /\
  (* the same cell next to a cell without ties can get rank 2 *)
  (exists rng r, rank_histogram false 1 (-1) rng f2 o2 (-1) = Ok r /\ get r [0] = nnat 2).
Proof.
  split.
  - intros rng. eexists. split; [vm_compute; reflexivity|]. reflexivity.
  - exists (fun _ _ => 1). eexists. split; [vm_compute; reflexivity|]. reflexivity.
Qed.
Print Assumptions c19_ties_refuted.
(** For all arrays: the cells with the fewest ties are never randomised. *)
Theorem c19_fewest_ties_never_randomised_refuted : forall z rng f o ea n r ix,
  rank_histogram false 1 z rng f o ea = Ok r -> axis_is (length (shape f)) ea n -> Forall2 lt ix (shape o) ->
  let ties := fun ix => how_many (fun m => nle m (get o ix)) (members_at n f ix) - how_many (fun m => nlt m (get o ix)) (members_at n f ix) in
  (forall ix', Forall2 lt ix' (shape o) -> ties ix <= ties ix') ->
  get r ix = nnat (1 + how_many (fun m => nlt m (get o ix)) (members_at n f ix)).
Proof.
  intros z rng f o ea n r ix H Hea Hv ties Hm. destruct (rank_serial_exact _ _ _ _ _ _ _ H Hea ix Hv) as [G _]. apply G, Hm.
Qed.
Print Assumptions c19_fewest_ties_never_randomised_refuted.
(** What does hold: every simultaneous choice of admissible ranks for the cells that have more ties than
    some other cell can be returned.  Missing: the cells with the fewest ties. *)
Theorem c19_randomised_partial : forall z f o ea n (target : list nat -> nat),
  axis_is (length (shape f)) ea n -> shape o <> [] -> drop_axis n (shape f) = shape o ->
  any_nan f = false -> any_nan o = false ->
  (forall ix, Forall2 lt ix (shape o) ->
     how_many (fun m => nlt m (get o ix)) (members_at n f ix) < target ix <= 1 + how_many (fun m => nle m (get o ix)) (members_at n f ix)) ->
  exists rng r, rank_histogram false 1 z rng f o ea = Ok r /\
    forall ix, Forall2 lt ix (shape o) ->
      let ties := fun ix => how_many (fun m => nle m (get o ix)) (members_at n f ix) - how_many (fun m => nlt m (get o ix)) (members_at n f ix) in
      (exists ix', Forall2 lt ix' (shape o) /\ ties ix' < ties ix) -> get r ix = nnat (target ix).
Proof.
  intros z f o ea n target Hea Ho Hd Hnf Hno Ht.
  set (rng := fun (_ : nat) ix => target ix - (1 + how_many (fun m => nlt m (get o ix)) (members_at n f ix))).
  destruct (rank_histogram_accepts false 1 z rng f o ea n Hea Ho Hd) as (r & Er); [auto|left; reflexivity|].
  exists rng, r. split; [exact Er|]. intros ix Hv T Hmore.
  destruct (rank_serial_exact _ _ _ _ _ _ _ Er Hea ix Hv) as [_ G]. rewrite (G Hmore). f_equal.
  specialize (Ht ix Hv). unfold rng, ties. rewrite Nat.mod_small by lia. lia.
Qed.
Print Assumptions c19_randomised_partial.
Example c19_nonvacuous :
  any_nan rk_f = false /\ any_nan rk_o = false /\
  how_many (fun m => nle m (get rk_o [0])) (members_at 1 rk_f [0]) = 2 /\
  exists rng r, rank_histogram false 1 (-1) rng rk_f rk_o (-1) = Ok r /\ get r [0] = nnat 3.
Proof. split; [reflexivity|]. split; [reflexivity|]. split; [reflexivity|]. exists (fun _ _ => 2). eexists. split; [vm_compute; reflexivity|]. reflexivity. Qed.

(** ** C20 *)
Theorem c20_parallel_rank : forall skip w1 z1 rng1 w2 z2 rng2 f o ea n r1 r2,
  axis_is (length (shape f)) ea n ->
  (forall ix, Forall2 lt ix (shape o) -> ~ In (get o ix) (members_at n f ix)) ->
  rank_histogram skip w1 z1 rng1 f o ea = Ok r1 -> rank_histogram skip w2 z2 rng2 f o ea = Ok r2 ->
  shape r1 = shape r2 /\ forall ix, Forall2 lt ix (shape r1) -> get r1 ix = get r2 ix.
Proof.
  intros skip w1 z1 rng1 w2 z2 rng2 f o ea n r1 r2 Hea Hno H1 H2.
  destruct (rank_histogram_cells _ _ _ _ _ _ _ _ _ H1 Hea) as (_ & _ & Hs1 & Hnan & G1).
  destruct (rank_histogram_cells _ _ _ _ _ _ _ _ _ H2 Hea) as (_ & _ & Hs2 & _ & G2).
  split; [congruence|]. intros ix Hv. rewrite Hs1 in Hv. specialize (Hno ix Hv).
  destruct (G1 ix Hv) as [A1 B1], (G2 ix Hv) as [A2 B2].
  destruct (is_nan (get o ix)) eqn:Eo.
  - destruct skip; [rewrite A1, A2 by auto; reflexivity|]. exfalso. rewrite (proj2 (Hnan eq_refl) ix Hv) in Eo. discriminate.
  - destruct (skip && is_nan (nsum (members_at n f ix)))%bool eqn:Es.
    + apply andb_true_iff in Es as [-> Es]. rewrite A1, A2 by auto. reflexivity.
    + assert (C : skip = true -> is_nan (nsum (members_at n f ix)) = false) by (intros ->; exact Es).
      destruct (B1 eq_refl C) as (k1 & -> & K1), (B2 eq_refl C) as (k2 & -> & K2).
      f_equal. rewrite (no_tie_unique _ _ _ Eo Hno K1), (no_tie_unique _ _ _ Eo Hno K2). reflexivity.
Qed.
Print Assumptions c20_parallel_rank.
(** Every negative map axis of the observation array with at least one slice is accepted with any
    number of workers >= 2, and so is one worker. *)
Theorem c20_accepts : forall skip w z rng f o ea n,
  axis_is (length (shape f)) ea n -> shape o <> [] -> drop_axis n (shape f) = shape o ->
  (skip = false -> any_nan f = false /\ any_nan o = false) ->
  (w = 1 \/ (1 < w /\ exists j, j < length (shape o) /\ z = (Z.of_nat j - Z.of_nat (length (shape o)))%Z /\ 0 < nth j (shape o) 0)) ->
  exists r, rank_histogram skip w z rng f o ea = Ok r.
Proof. intros. eapply rank_histogram_accepts; eassumption. Qed.
Print Assumptions c20_accepts.
Example c20_nonvacuous :
  let f := of_list NaN [2; 2; 2] (map nnat [1; 2; 3; 4; 5; 6; 7; 8]) in let o := of_list NaN [2; 2] (map nnat [0; 9; 10; 0]) in
  exists r, rank_histogram false 4 (-2) (fun _ _ => 0) f o 0 = Ok r /\ ravel r = map nnat [1; 3; 3; 1].
Proof. eexists. split; [vm_compute; reflexivity|]. reflexivity. Qed.

(** ** C21 *)
Theorem c21_missing_data : forall w z rng f o ea n,
  axis_is (length (shape f)) ea n ->
  (forall r, rank_histogram true w z rng f o ea = Ok r ->
     forall ix, Forall2 lt ix (shape o) ->
       let ms := members_at n f ix in
       (get o ix = NaN \/ is_fin (get o ix)) -> (forall m, In m ms -> m = NaN \/ is_fin m) ->
       (get r ix = NaN <-> get o ix = NaN \/ In NaN ms) /\
       (get r ix <> NaN -> exists k, get r ix = nnat k /\
          how_many (fun m => nlt m (get o ix)) ms < k <= 1 + how_many (fun m => nle m (get o ix)) ms)) /\
  ((exists ix, Forall2 lt ix (shape f) /\ get f ix = NaN) \/ (exists ix, Forall2 lt ix (shape o) /\ get o ix = NaN) ->
     rank_histogram false w z rng f o ea = Raise AssertionError).
Proof.
  intros w z rng f o ea n Hea. split.
  - intros r H ix Hv ms Ho Hms. destruct (rank_histogram_cells _ _ _ _ _ _ _ _ _ H Hea) as (_ & _ & _ & _ & G).
    destruct (G ix Hv) as [A B]. fold ms in A, B.
    assert (K : get r ix = NaN \/ (get o ix <> NaN /\ ~ In NaN ms /\ exists k, get r ix = nnat k /\ admissible (get o ix) ms k)).
    { destruct (is_nan (get o ix)) eqn:Eo; [left; apply A; auto|]. destruct (is_nan (nsum ms)) eqn:Es; [left; apply A; auto|].
      right. split; [intros E; rewrite E in Eo; discriminate|]. split; [|apply B; auto].
      intros C. apply (nsum_nan_iff ms Hms) in C. congruence. }
    split.
    + split.
      * intros E. destruct (is_nan (get o ix)) eqn:Eo; [left; destruct (get o ix); try discriminate; reflexivity|].
        destruct (is_nan (nsum ms)) eqn:Es; [right; apply (nsum_nan_iff ms Hms), Es|]. exfalso.
        destruct (B eq_refl) as (k & Ek & _); [auto|]. rewrite E in Ek. discriminate.
      * intros [E|E].
        -- apply A; [reflexivity|]. left. rewrite E. reflexivity.
        -- apply A; [reflexivity|]. right. apply (nsum_nan_iff ms Hms), E.
    + intros Hn. destruct K as [K|(_ & _ & K)]; [contradiction|exact K].
  - intros Hnan. unfold rank_histogram.
    assert (Q : forall a ix, Forall2 lt ix (shape a) -> get a ix = NaN -> any_nan a = true).
    { intros a ix Hv E. apply existsb_exists. exists NaN. split; [|reflexivity]. rewrite <- E. apply in_map, in_indices, Hv. }
    destruct Hnan as [(ix & Hv & E)|(ix & Hv & E)]; rewrite (Q _ _ Hv E); [reflexivity|]. destruct (any_nan f); reflexivity.
Qed.
Print Assumptions c21_missing_data.
(** A remark outside the property (which speaks of finite or missing values): a member sum of
    +inf and -inf is NaN, so such a cell is masked although nothing is missing. *)
Example c21_opposite_infinities : exists r,
  rank_histogram true 1 (-1) (fun _ _ => 0) (of_list NaN [1; 2] [PInf; NInf]) (of_list NaN [1] [Fin 0%Qc]) (-1) = Ok r /\ get r [0] = NaN.
Proof. eexists. split; [vm_compute; reflexivity|]. reflexivity. Qed.
Example c21_nonvacuous :
  let f := of_list NaN [3; 2] [nnat 1; nnat 2; NaN; nnat 3; nnat 1; nnat 4] in let o := of_list NaN [3] [NaN; nnat 2; nnat 2] in
  (exists r, rank_histogram true 1 (-1) (fun _ _ => 0) f o (-1) = Ok r /\ ravel r = [NaN; NaN; nnat 2]) /\
  rank_histogram false 1 (-1) (fun _ _ => 0) f o (-1) = Raise AssertionError.
Proof. split; [eexists; split; [vm_compute; reflexivity|]; reflexivity|reflexivity]. Qed.
