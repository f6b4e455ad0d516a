(** Lemmas for the bootstrapped spread-skill diagram and correlation of the whole program. *)
From Coq Require Import String ZArith List Lia Bool Arith QArith Qcanon Sorting.Permutation.
From Verif Require Import QcTac QSum Num NdArr Numpy NdAxes NdMove M_common M_boot M_special M_rel M_ss Spec Spec_rel Spec_ss P_boot P_boot2 P_rel P_dist P_special P_work P_ss Props_ss
  Store M_state M_whole P_whole M_whole4 P_whole4 M_whole6 Spec_wboot3.
From Verif Require P_wboot2.
Import ListNotations.
Open Scope string_scope.
Open Scope list_scope.
Open Scope nat_scope.

(** ** The bins survive being kept as a value *)
Lemma combine_map_r {A B C} (f : B -> C) (l : list A) l' : combine l (map f l') = map (fun p => (fst p, f (snd p))) (combine l l').
Proof. revert l'. induction l as [|a l IH]; intros [|b l']; cbn; try reflexivity. rewrite IH. reflexivity. Qed.
Lemma boot_round {B} (root : num -> B) env rng n bins keep : (forall b, In b bins -> exists n K, shape b = [n; 2; K]) ->
  ss_boot_with root env rng n (map arr_of (map val_of bins)) keep = ss_boot_with root env rng n bins keep.
Proof.
  intros H. unfold ss_boot_with. set (mean := if skip_nan env then nanmean else nmean). rewrite map_map, map_length, combine_map_r, mapM_map.
  erewrite P_boot.mapM_ext; [reflexivity|]. intros [j b] I. apply in_combine_r in I. destruct (H b I) as (m & K & Sb). cbn [fst snd]. rewrite shape_of_val.
  apply P_boot.mapM_ext. intros c Ic. apply in_seq in Ic. rewrite Sb in Ic. cbn [nth] in Ic.
  erewrite P_boot.mapM_ext; [reflexivity|]. intros r _. cbv beta. destruct (choice (rng j c r) (seq 0 (nth 0 (shape b) 0)) n) as [idx|] eqn:E; [|reflexivity]. cbn [bind].
  assert (X : forall t, t < 2 -> map (fun i => get (arr_of (val_of b)) [i; t; c]) idx = map (fun i => get b [i; t; c]) idx).
  { intros t Ht. apply map_ext_in. intros i Hi. apply (choice_in _ _ _ _ _ E), in_seq in Hi. rewrite Sb in Hi. cbn [nth] in Hi.
    apply (arr_of_val b). rewrite shape_of_val, Sb. constructor; [lia|constructor; [exact Ht|constructor; [lia|constructor]]]. }
  rewrite (X 0), (X 1) by lia. reflexivity.
Qed.

(** ** The diagram of finite data *)
Lemma boot_value {B} (root : num -> B) argsort env rng n v e nb ax ns N (p y : list nat -> Qc) : (forall l, argsorts l (argsort l)) -> shape e = shape v ->
  axes_are (length (shape v)) ax ns -> same_sign ax ->
  prod (kept (length (shape v)) ns (shape v)) <> 0 -> prod (shape v) = N * prod (kept (length (shape v)) ns (shape v)) -> 1 <= nb <= N ->
  (0 <= confidence env)%Qc -> (confidence env <= 1)%Qc -> 0 < repeats env -> 0 < n ->
  (forall ix, Forall2 lt ix (shape v) -> get v ix = Fin (p ix) /\ get e ix = Fin (y ix)) ->
  exists s sp rm, ss_create_split argsort v e nb ax = Ok s /\ ss_boot_with root env rng n (ss_bins s) (ss_keep s) = Ok (sp, rm) /\
  shape sp = kept (length (shape v)) ns (shape v) ++ [nb; 3] /\ shape rm = kept (length (shape v)) ns (shape v) ++ [nb; 3] /\
  forall k L, Forall2 lt k (kept (length (shape v)) ns (shape v)) -> Cells (shape v) ns k L ->
  exists Bs, ordered_bins (fun x y => (p x <= p y)%Qc) L nb Bs /\
  forall b, b < nb -> exists rs tv te, resamples_of (nth b Bs []) n (repeats env) rs /\
    triple_of np_quantile (1 - confidence env)%Qc (confidence env) (map (fun s => Fin (Spec.mean_of (map p s))) rs) tv /\
    triple_of np_quantile (1 - confidence env)%Qc (confidence env) (map (fun s => Fin (Spec.mean_of (map y s))) rs) te /\
    forall t, t < 3 -> get sp (k ++ [b; t]) = root (nth t tv NaN) /\ get rm (k ++ [b; t]) = root (nth t te NaN).
Proof.
  intros Harg Hsh Hax Hss HK HN Hnb C0 C1 Hr Hn Hd.
  destruct (boot_curves root argsort env rng n v e nb ax ns N Harg Hsh Hax Hss HK HN Hnb C0 C1 Hr) as (s & sp & rm & Es & Eb & S1 & S2 & G).
  exists s, sp, rm. split; [exact Es|]. split; [exact Eb|]. split; [exact S1|]. split; [exact S2|]. intros k L Hk HL. destruct (G k L Hk HL) as (Bs & (LB & PB & NB & SB & OB) & Gb).
  assert (InD : forall b x, In x (nth b Bs []) -> get v x = Fin (p x) /\ get e x = Fin (y x)).
  { intros b x Hx. apply Hd. apply (proj2 HL). apply (Permutation_in _ PB). apply in_concat. exists (nth b Bs []). split; [|exact Hx]. destruct (Nat.lt_ge_cases b (length Bs)) as [Hl|Hg]; [apply nth_In, Hl|].
    rewrite nth_overflow in Hx by exact Hg. destruct Hx. }
  exists Bs. split.
  - split; [exact LB|]. split; [exact PB|]. split; [exact NB|]. split; [exact SB|]. intros i j x0 y0 Hij Hx Hy. pose proof (OB i j x0 y0 Hij Hx Hy) as O.
    destruct (InD i x0 Hx) as (Ex & _). destruct (InD j y0 Hy) as (Ey & _). rewrite Ex, Ey in O. destruct O as [O|O]; [discriminate|apply qleb_le, O].
  - intros b Hb. destruct (Gb b Hb) as (rs & tv & te & R & T1 & T2 & Gt). cbv zeta in T1, T2. exists rs, tv, te. split; [exact R|].
    assert (M : forall (f : list nat -> Qc) (g : list nat -> num), (forall x, In x (nth b Bs []) -> g x = Fin (f x)) ->
       map (fun s => (if skip_nan env then nanmean else nmean) (map g s)) rs = map (fun s => Fin (Spec.mean_of (map f s))) rs).
    { intros f g Hf. apply map_ext_in. intros q Hq. destruct (proj2 R q Hq) as [Lq Iq]. rewrite (map_ext_in g (fun x => Fin (f x))) by (intros x Hx; apply Hf, Iq, Hx). rewrite <- (map_map f Fin), <- qmean_mean_of.
      assert (Nf : map f q <> []) by (destruct q; [cbn in Lq; lia|discriminate]). destruct (skip_nan env); [apply nanmean_fin|apply nmean_fin]; exact Nf. }
    rewrite (M p (get v)) in T1 by (intros x Hx; apply (InD b x Hx)). rewrite (M y (get e)) in T2 by (intros x Hx; apply (InD b x Hx)).
    split; [exact T1|]. split; [exact T2|exact Gt].
Qed.

(** ** Correlation *)
Lemma np_nanquantile_total l p : (0 <= p)%Qc -> (p <= 1)%Qc -> exists x, np_nanquantile l p = Ok x.
Proof.
  intros H0 H1. unfold np_nanquantile. assert (E : (qleb 0 p && qleb p 1)%bool = true) by (apply andb_true_intro; split; apply qleb_le; assumption). rewrite E. cbn [negb].
  destruct (filter _ l) eqn:F; eexists; reflexivity.
Qed.
Lemma special_triple_total e stats : stats <> [] -> (0 <= confidence e)%Qc -> (confidence e <= 1)%Qc ->
  exists v, special_triple e stats = Ok v /\ triple_skipping (skip_nan e) (1 - confidence e)%Qc (confidence e) stats v /\ length v = 3.
Proof.
  intros N C0 C1. assert (Q : forall p, (0 <= p)%Qc -> (p <= 1)%Qc -> exists x, (if skip_nan e then np_nanquantile else np_quantile) stats p = Ok x).
  { intros p P0 P1. destruct (skip_nan e); [apply np_nanquantile_total|apply np_quantile_total]; assumption. }
  assert (Y : (0 <= 1 - confidence e)%Qc /\ (1 - confidence e <= 1)%Qc) by (clear - C0 C1; split; qlra). destruct Y as [Y0 Y1].
  destruct (Q _ Y0 Y1) as [lo El]. destruct (Q _ C0 C1) as [hi Eh]. unfold special_triple. rewrite El. cbn [bind]. rewrite Eh. cbn [bind]. eexists. split; [reflexivity|]. split; [|reflexivity].
  exists lo, hi. split; [exact El|]. split; [exact Eh|reflexivity].
Qed.
Lemma func_corr_value S T n rng {A} (L : list A) (f o : A -> num) : L <> [] -> (0 <= confidence (w_boot S))%Qc -> (confidence (w_boot S) <= 1)%Qc -> 0 < repeats (w_boot S) ->
  exists v rs, func_corr_with S T n rng (map f L) (map o L) = Ok v /\ length v = 3 /\ resamples_of L n (repeats (w_boot S)) rs /\
    triple_skipping (skip_nan (w_boot S)) (1 - confidence (w_boot S))%Qc (confidence (w_boot S)) (map (fun s => w_corrcoef T (map f s) (map o s)) rs) v.
Proof.
  intros N C0 C1 Rp. unfold func_corr_with. rewrite map_length. set (e := w_boot S) in *.
  destruct (mapM_exists (fun r => idx <- choice (rng r) (seq 0 (length L)) n ;; Ok (w_corrcoef T (take NaN (map f L) idx) (take NaN (map o L) idx)))
    (fun _ c => exists s, (length s = n /\ forall x, In x s -> In x L) /\ c = w_corrcoef T (map f s) (map o s)) (seq 0 (repeats e))) as (cs & Ec & Qc).
  { intros r _. destruct L as [|d L0] eqn:EL; [contradiction|]. rewrite <- EL in *.
    assert (Hc : exists idx, choice (rng r) (seq 0 (length L)) n = Ok idx) by (rewrite EL; cbn [length seq choice]; eexists; reflexivity). destruct Hc as (idx & Ei). rewrite Ei. cbn [bind]. eexists. split; [reflexivity|].
    exists (map (fun i => nth i L d) idx). assert (Hi : forall i, In i idx -> i < length L) by (intros i Hi; apply (choice_in _ _ _ _ _ Ei), in_seq in Hi; lia). split; [split|].
    - rewrite map_length. apply (choice_length _ _ _ _ Ei).
    - intros x Hx. apply in_map_iff in Hx as (i & <- & Hx). apply nth_In, Hi, Hx.
    - assert (X : forall g : A -> num, take NaN (map g L) idx = map g (map (fun i => nth i L d) idx)).
      { intros g. unfold take. rewrite map_map. apply map_ext_in. intros i I. rewrite (nth_indep _ NaN (g d)) by (rewrite map_length; apply Hi, I). apply map_nth. }
      rewrite !X. reflexivity. }
  rewrite Ec. cbn [bind]. clear Ec.
  assert (X : exists rs, resamples_of L n (repeats e) rs /\ cs = map (fun s => w_corrcoef T (map f s) (map o s)) rs).
  { assert (Y : exists rs, length rs = length (seq 0 (repeats e)) /\ (forall s, In s rs -> length s = n /\ forall x, In x s -> In x L) /\ cs = map (fun s => w_corrcoef T (map f s) (map o s)) rs).
    { clear - Qc. induction Qc as [|r c l cs (s & Hs & ->) _ (rs & Lr & Ir & ->)]; [exists []; split; [reflexivity|split; [intros s []|reflexivity]]|].
      exists (s :: rs). split; [cbn; congruence|]. split; [|reflexivity]. intros s' [<-|I]; [exact Hs|apply Ir, I]. }
    destruct Y as (rs & Lr & Ir & E). rewrite seq_length in Lr. exists rs. split; [split; assumption|exact E]. }
  destruct X as (rs & R & ->). assert (Nr : map (fun s => w_corrcoef T (map f s) (map o s)) rs <> []) by (intros Z; apply map_eq_nil in Z; destruct R as [Lr _]; rewrite Z in Lr; cbn in Lr; lia).
  destruct (special_triple_total e _ Nr C0 C1) as (v & Ev & Tv & Lv). exists v, rs. split; [exact Ev|]. split; [exact Lv|]. split; [exact R|exact Tv].
Qed.
Lemma func_corr_length S T n rng f o v : func_corr_with S T n rng f o = Ok v -> length v = 3.
Proof.
  unfold func_corr_with. destruct (mapM _ _) as [cs|]; [|discriminate]. cbn [bind]. unfold special_triple.
  destruct ((if skip_nan (w_boot S) then np_nanquantile else np_quantile) cs _) as [lo|]; [|discriminate]. cbn [bind].
  destruct ((if skip_nan (w_boot S) then np_nanquantile else np_quantile) cs _) as [hi|]; [|discriminate]. cbn [bind]. intros E. injection E as <-. reflexivity.
Qed.
Lemma workflow_accepts_on {B} (d : B) func f o ax ns : shape f = shape o -> plain_axes (length (shape o)) ax ns -> 0 < prod (kept (length (shape o)) ns (shape o)) ->
  (forall i k, valid (kept (length (shape o)) ns (shape o)) k -> exists v, func i (map (get f) (group_list (shape o) ns k)) (map (get o) (group_list (shape o) ns k)) = Ok v) ->
  exists r, workflow d func f o ax = Ok r.
Proof.
  intros Hsh Hp Hpos Hf. rewrite (workflow_unfold d _ f o ax ns Hsh Hp). set (keep := kept (length (shape o)) ns (shape o)) in *.
  destruct (mapM_exists (slice_run func f o ns) (fun _ _ => True) (seq 0 (prod keep))) as (ret & E & _).
  { intros i Hi. apply in_seq in Hi. unfold slice_run. fold keep. destruct (Hf i (unflat keep i)) as [v Ev]; [apply unflat_valid; lia|]. exists v. split; [exact Ev|exact I]. }
  fold keep. rewrite E. cbn [bind]. pose proof (mapM_length _ _ _ E) as Hl. rewrite seq_length in Hl. destruct ret as [|r0 ret]; [cbn in Hl; lia|].
  destruct (moveaxis_front (of_list d (keep ++ [length r0]) (concat (r0 :: ret))) (-1) (length keep)) as (b & -> & _); [cbn [of_list shape]; rewrite app_length; cbn [length]; split; [lia|right; lia]|].
  cbn [bind]. eexists. reflexivity.
Qed.
Lemma Cells_perm2 sh ns k L L' : Cells sh ns k L -> Cells sh ns k L' -> Permutation L L'.
Proof. intros [N H] [N' H']. apply NoDup_Permutation; [exact N|exact N'|]. intros x. rewrite (H x), (H' x). reflexivity. Qed.
Lemma resamples_perm {A} (P P' : list A) n m rs : Permutation P P' -> resamples_of P n m rs -> resamples_of P' n m rs.
Proof. intros H [L R]. split; [exact L|]. intros s Hs. destruct (R s Hs) as [Ls Is]. split; [exact Ls|]. intros x Hx. apply (Permutation_in _ H), Is, Hx. Qed.
Lemma corr_boot_value S T n rng f o ax ns : shape f = shape o -> plain_axes (length (shape o)) ax ns -> (forall d, In d (shape o) -> 0 < d) ->
  (0 <= confidence (w_boot S))%Qc -> (confidence (w_boot S) <= 1)%Qc -> 0 < repeats (w_boot S) ->
  let e := w_boot S in let ks := kept (length (shape o)) ns (shape o) in
  exists r, corr_boot_with S T n rng f o ax = Ok r /\ shape r = 3 :: ks /\
  forall k L, Cells (shape o) ns k L -> valid ks k ->
    exists rs, resamples_of L n (repeats e) rs /\
      triple_skipping (skip_nan e) (1 - confidence e)%Qc (confidence e) (map (fun s => w_corrcoef T (map (get f) s) (map (get o) s)) rs) [get r (0 :: k); get r (1 :: k); get r (2 :: k)].
Proof.
  intros Hsh Hp Hs C0 C1 Rp e ks. destruct (plain_axes_facts _ _ _ Hp) as (Hn & Hlt & _). unfold corr_boot_with.
  assert (Hpos : 0 < prod ks) by (apply P_range.prod_pos; intros d I; unfold ks, kept in I; apply in_map_iff in I as (j & <- & J); apply Hs, nth_In; apply filter_In in J as [J _]; apply in_seq in J; lia).
  assert (Hg : forall k, group_list (shape o) ns k <> []).
  { intros k. unfold group_list. intros Z. apply map_eq_nil in Z. pose proof (indices_length (pick ns (shape o))) as Hil. rewrite Z in Hil. cbn in Hil.
    assert (Pp : 0 < prod (pick ns (shape o))) by (apply P_range.prod_pos; intros x Hx; apply in_map_iff in Hx as (j & <- & Hj); apply Hs, nth_In, Hlt, Hj). lia. }
  destruct (workflow_accepts_on NaN (fun i => func_corr_with S T n (rng i)) f o ax ns Hsh Hp Hpos) as (r & Er).
  { intros i k _. destruct (func_corr_value S T n (rng i) (group_list (shape o) ns k) (get f) (get o) (Hg k) C0 C1 Rp) as (v & rs & Ev & _). exists v. exact Ev. }
  destruct (workflow_spec NaN (fun i => func_corr_with S T n (rng i)) f o ax ns Hsh Hp 3) with (r := r) as (_ & Sr & G); [intros i x y v E; exact (func_corr_length S T n (rng i) x y v E)|exact Er|].
  exists r. split; [exact Er|]. split; [exact Sr|]. intros k L HC Vk. destruct (G k Vk) as (v & Ev & Gv). fold ks in Gv.
  destruct (func_corr_value S T n (rng (flat ks k)) (group_list (shape o) ns k) (get f) (get o) (Hg k) C0 C1 Rp) as (v' & rs & Ev' & Lv & R & Tr). fold ks in Ev. rewrite Ev' in Ev. injection Ev as ->.
  exists rs. split; [exact (resamples_perm _ _ _ _ _ (Cells_perm2 _ _ _ _ _ (group_list_Cells _ _ _ Hn Hlt Vk) HC) R)|].
  pose proof (Gv 0 ltac:(lia)) as G0. pose proof (Gv 1 ltac:(lia)) as G1. pose proof (Gv 2 ltac:(lia)) as G2. cbn [lead_ix Nat.eqb] in G0, G1, G2. rewrite G0, G1, G2.
  destruct v as [|a [|b [|c [|]]]]; try discriminate Lv. exact Tr.
Qed.
