(** Property C118: the bootstrapped spread-skill diagram and the bootstrapped correlation of the whole program; the
    diagram also of a verifier that saves its results. *)
From Coq Require Import String ZArith List Lia Bool Arith QArith Qround Qcanon Sorting.Permutation.
From Verif Require Import QcTac QSum Num NdArr Numpy NdAxes M_common M_boot M_determ M_ens M_special M_rel M_ss M_dist
  Spec Spec_rel Spec_ss P_boot P_boot2 P_rank P_dist P_special P_rel Props_avg Props_ss Props_rank
  Store M_state Spec_state P_state P_codec Spec_result P_result Props_state Props_result M_whole Spec_whole P_whole Props_whole M_whole2 M_whole3 M_whole4 P_whole4
  M_whole6 Spec_wboot3 P_wboot3.
From Verif Require Props_rel Props_ps Props_whole2 Props_whole3 Props_whole4 Props_wboot.
Import ListNotations.
Open Scope string_scope.
Open Scope list_scope.
Open Scope nat_scope.

(** ** Intervals *)
Definition keeps_order (root : num -> num) : Prop :=
  forall a b : Qc, (0 <= a)%Qc -> (a <= b)%Qc -> exists ra rb, root (Fin a) = Fin ra /\ root (Fin b) = Fin rb /\ (ra <= rb)%Qc.
Lemma means_inside (g : list nat -> Qc) rs lo hi : (forall s, In s rs -> s <> [] /\ forall ix, In ix s -> (lo <= g ix)%Qc /\ (g ix <= hi)%Qc) ->
  forall x, In x (map (fun s => Fin (Spec.mean_of (map g s))) rs) -> inside lo hi x.
Proof.
  intros H x I. apply in_map_iff in I as (s & <- & Hs). destruct (H s Hs) as [N B]. eexists. split; [reflexivity|].
  split; [apply Props_rel.mean_ge_all|apply Props_rel.mean_le_all]; try exact N; intros ix Hi; apply (B ix Hi).
Qed.
Lemma greatest (g : list nat -> Qc) l : l <> [] -> exists x, In x l /\ forall y, In y l -> (g y <= g x)%Qc.
Proof.
  induction l as [|a l IH]; [contradiction|]. intros _. destruct l as [|b l]; [exists a; split; [left; reflexivity|intros y [<-|[]]; apply Qcle_refl]|].
  destruct (IH ltac:(discriminate)) as (x & Hx & Mx). destruct (Qclt_le_dec (g x) (g a)) as [C|C].
  - exists a. split; [left; reflexivity|]. intros y [<-|Hy]; [apply Qcle_refl|]. eapply Qcle_trans; [apply Mx, Hy|apply Qclt_le_weak, C].
  - exists x. split; [right; exact Hx|]. intros y [<-|Hy]; [exact C|apply Mx, Hy].
Qed.
Lemma intervals root e n nb sh ns p y sp rm : boot_spread_skill root e n nb sh ns p y sp rm -> keeps_order root -> 0 < n -> 0 < repeats e ->
  (1 <= confidence e + confidence e)%Qc -> (confidence e <= 1)%Qc -> (forall ix, (0 <= p ix)%Qc /\ (0 <= y ix)%Qc) -> intervals_in_order nb sh ns sp rm.
Proof.
  intros (_ & _ & D) KO Pn Rp C0 C1 Pos k L Vk HL. destruct (D k L Vk HL) as (Bs & (LB & PB & NB & SB & OB) & G). clear D.
  assert (Y1 : (0 <= 1 - confidence e)%Qc) by (clear - C1; qlra). assert (Y2 : (1 - confidence e <= confidence e)%Qc) by (clear - C0; qlra).
  assert (Tr : forall (g : list nat -> Qc) b lo hi rs v, resamples_of (nth b Bs []) n (repeats e) rs -> (forall ix, In ix (nth b Bs []) -> (lo <= g ix)%Qc /\ (g ix <= hi)%Qc) ->
    triple_of np_quantile (1 - confidence e)%Qc (confidence e) (map (fun s => Fin (Spec.mean_of (map g s))) rs) v ->
    exists a m c, v = [Fin a; Fin m; Fin c] /\ (lo <= a)%Qc /\ (a <= c)%Qc /\ (c <= hi)%Qc /\ (lo <= m)%Qc /\ (m <= hi)%Qc).
  { intros g b lo hi rs v [Lr R] B T. refine (triple_bounds lo hi _ _ _ _ Y1 Y2 C1 _ (means_inside g rs lo hi _) T).
    - intros E. apply map_eq_nil in E. rewrite E in Lr. cbn in Lr. lia.
    - intros s Hs. destruct (R s Hs) as [Ls Is]. split; [intros ->; cbn in Ls; lia|]. intros ix Hi. apply B, Is, Hi. }
  assert (Nb : forall b, b < nb -> nth b Bs [] <> []) by (intros b Hb; apply NB, nth_In; lia).
  intros b Hb. destruct (G b Hb) as (rs & tv & te & R & T1 & T2 & Gt).
  destruct (greatest p _ (Nb b Hb)) as (x & Hx & Mx). destruct (greatest y _ (Nb b Hb)) as (x' & _ & Mx').
  destruct (Tr p b 0%Qc (p x) rs tv R ltac:(intros ix I; split; [apply Pos|apply Mx, I]) T1) as (a & m & c & -> & A1 & A2 & A3 & A4 & A5).
  destruct (Tr y b 0%Qc (y x') rs te R ltac:(intros ix I; split; [apply Pos|apply Mx', I]) T2) as (a' & m' & c' & -> & A6 & A7 & A8 & A9 & A10).
  destruct (KO a c A1 A2) as (l & u & El & Eu & Hlu). destruct (KO m m A4 (Qcle_refl m)) as (rm1 & _ & Em & _ & _).
  destruct (KO a' c' A6 A7) as (l' & u' & El' & Eu' & Hlu'). destruct (KO m' m' A9 (Qcle_refl m')) as (rm2 & _ & Em' & _ & _).
  destruct (Gt 0 ltac:(lia)) as [S0 R0], (Gt 1 ltac:(lia)) as [S1 R1], (Gt 2 ltac:(lia)) as [S2 R2]. cbn [nth] in S0, S1, S2, R0, R1, R2.
  exists l, rm1, u, l', rm2, u'. cbn [map]. split; [congruence|]. split; [congruence|]. split; [exact Hlu|]. split; [exact Hlu'|].
  intros b' Hbb Hb'. destruct (G b' Hb') as (rs2 & tv2 & te2 & R' & T3 & _ & Gt2). destruct (greatest p _ (Nb b' Hb')) as (x2 & _ & Mx2).
  destruct (Tr p b' (p x) (p x2) rs2 tv2 R' ltac:(intros ix I; split; [apply (OB b b' x ix (conj Hbb Hb') Hx I)|apply Mx2, I]) T3) as (a2 & m2 & c2 & -> & B1 & _ & _ & B4 & _).
  assert (Hc0 : (0 <= c)%Qc) by (eapply Qcle_trans; [exact A1|exact A2]).
  destruct (KO c a2 Hc0 (Qcle_trans _ _ _ A3 B1)) as (u1 & l2 & Eu1 & El2 & H1). destruct (KO m m2 A4 (Qcle_trans _ _ _ A5 B4)) as (m1 & mm & Em1 & Em2 & H2).
  destruct (Gt2 0 ltac:(lia)) as [Z0 _], (Gt2 1 ltac:(lia)) as [Z1 _]. cbn [nth] in Z0, Z1. exists l2, mm. split; [congruence|]. split; [congruence|].
  rewrite Eu in Eu1. injection Eu1 as <-. rewrite Em in Em1. injection Em1 as <-. split; assumption.
Qed.

Section Program.
Variable S : settings.
Variable W : laws.
Variable T : stats.
Variable gen_decomp : nat -> nat -> nat -> nat -> nat.
Variable gen_rel : nat -> nat -> nat -> nat -> nat -> nat.
Variable gen_ss : nat -> nat -> nat -> nat -> nat -> nat.
Variable gen_corr : nat -> nat -> nat -> nat -> nat.
Variable other : string -> list M_state.val -> res M_state.val.
Variable otherr : string -> list M_state.val -> nat -> res M_state.val.
Variable str_of : M_state.val -> string.
Variable dumps : M_state.val -> string.
Variable loads : string -> res M_state.val.
Variable expanduser : string -> string.
Variable resolve : string -> path.
Variable points : M_state.val -> M_state.val -> M_state.val -> res (list num).
Variable less_memory : bool.
Variable integrate_wdir : option path.
Variable cwd : path.
Variable rng : nat -> nat.

Notation slib := (stat_lib S T other).
Notation slibr := (stat_libr S T gen_ss gen_corr otherr).
Notation mlib := (more_lib S (prob_lib S W slib)).
Notation mlibr := (more_libr S gen_decomp gen_rel (prob_libr S W slibr)).
Notation lib := (whole_lib S mlib).
Notation libr := (whole_libr S mlibr).
Notation step := (M_state.step lib libr str_of dumps loads expanduser resolve points less_memory integrate_wdir cwd rng).
Notation faithful := (Props_whole.faithful str_of dumps loads expanduser).
Notation reached := (Props_whole.reached S mlib mlibr str_of dumps loads expanduser resolve points less_memory integrate_wdir cwd rng).
Notation answers := (Props_whole.answers S mlib mlibr str_of dumps loads expanduser resolve points less_memory integrate_wdir cwd rng).
Notation reached_boot := (Props_wboot.reached_boot S mlib mlibr str_of dumps loads expanduser resolve points less_memory integrate_wdir cwd rng).

(** ** What the calls compute, once the variances, the errors and the forecasts are known *)
Lemma ss_answer s nb n v e ax : faithful -> reached s ->
  variance_of lib points (ob s) = Ok v -> error_of lib points (ob s) "sub_sq" = Ok e -> a_boot (ob s) = VInt (Z.of_nat n) -> axes_of (a_avg (ob s)) = Some ax ->
  fst (step (OMetric (MSS (VInt (Z.of_nat nb))) None) s) =
  (sp <- ss_create_split (w_argsort T) (arr_of v) (arr_of e) nb ax ;;
   rmap (fun r => VTuple [val_of (fst r); val_of (snd r)]) (ss_boot_with (w_sqrt T) (w_boot S) (gen_ss (rng (pos s))) n (ss_bins sp) (ss_keep sp))).
Proof.
  intros FA RE Ev Ee B A. rewrite reached_boot; [|exact FA|exact RE|apply Forall_cons; [left; exact I|apply Forall_nil]|left; reflexivity].
  set (x := ob s) in *. cbn [Spec_result.result]. rewrite Ev. cbn [bind]. rewrite Ee. cbn [bind].
  change (lib "spread_skill_split" [v; e; VInt (Z.of_nat nb); a_avg x]) with (slib "spread_skill_split" [v; e; VInt (Z.of_nat nb); a_avg x]). unfold stat_lib at 1.
  change ("spread_skill_split" =? "spread_skill_split")%string with true. cbv iota. rewrite A. cbn [count_of]. destruct (Z.leb_spec 0 (Z.of_nat nb)); [|lia]. rewrite Nat2Z.id.
  destruct (ss_create_split (w_argsort T) (arr_of v) (arr_of e) nb ax) as [sp|] eqn:Es; [|reflexivity]. cbn [rmap bind].
  unfold with_boot. rewrite B. cbn [is_none app]. rewrite Nat.add_0_r.
  change (libr "post_binned_spread_skill" [bins_val sp; VInt (Z.of_nat n)] (rng (pos s))) with (slibr "post_binned_spread_skill" [bins_val sp; VInt (Z.of_nat n)] (rng (pos s))). unfold stat_libr.
  change ("post_binned_spread_skill" =? "post_binned_spread_skill")%string with true. cbv iota. cbn [bins_val bins_of count_of]. destruct (Z.leb_spec 0 (Z.of_nat n)); [|lia]. rewrite Nat2Z.id.
  rewrite keep_round, boot_round by (exact (split_bins _ _ _ _ _ _ Es)). reflexivity.
Qed.
Lemma corr_answer s f n ax : faithful -> reached s -> Props_whole4.forecast_is (ob s) f -> a_boot (ob s) = VInt (Z.of_nat n) -> axes_of (a_avg (ob s)) = Some ax ->
  fst (step (OMetric MCorr None) s) = rmap val_of (corr_boot_with S T n (gen_corr (rng (pos s))) (arr_of f) (arr_of (a_o (ob s))) ax).
Proof.
  intros FA RE Hf B A. rewrite reached_boot; [|exact FA|exact RE|apply Forall_nil|right; exact I]. set (x := ob s) in *. cbn [Spec_result.result].
  rewrite (proj2 (Props_whole4.forecast_point S W T other points x f Hf)). cbn [bind]. unfold with_boot. rewrite B. cbn [is_none app]. rewrite Nat.add_0_r.
  change (libr "corr" [f; a_o x; a_avg x; VInt (Z.of_nat n)] (rng (pos s))) with (slibr "corr" [f; a_o x; a_avg x; VInt (Z.of_nat n)] (rng (pos s))). unfold stat_libr.
  change ("corr" =? "corr")%string with true. cbv iota. rewrite A. cbn [count_of]. destruct (Z.leb_spec 0 (Z.of_nat n)); [|lia]. rewrite Nat2Z.id. reflexivity.
Qed.

(** ** Spread-skill diagram *)
Lemma boot_diagram_of s nb n v e ax ns N (p y : list nat -> Qc) : faithful -> reached s -> (forall l, argsorts l (w_argsort T l)) ->
  let x := ob s in let sh := arr_shape (a_o x) in let ks := kept (length sh) ns sh in
  variance_of lib points x = Ok v -> error_of lib points x "sub_sq" = Ok e -> arr_shape v = sh -> arr_shape e = sh ->
  (forall ix, valid sh ix -> reads v ix = Fin (p ix) /\ reads e ix = Fin (y ix)) ->
  a_boot x = VInt (Z.of_nat n) -> 0 < n -> axes_of (a_avg x) = Some ax -> axes_are (length sh) ax ns -> same_sign ax ->
  prod ks <> 0 -> prod sh = N * prod ks -> 1 <= nb <= N -> (0 <= confidence (w_boot S))%Qc -> (confidence (w_boot S) <= 1)%Qc -> 0 < repeats (w_boot S) ->
  exists sp rm, answers s (MSS (VInt (Z.of_nat nb))) (VTuple [sp; rm]) /\ boot_spread_skill (w_sqrt T) (w_boot S) n nb sh ns p y sp rm.
Proof.
  intros FA RE Harg x sh ks Ev Ee Sv Se D B Pn A X SS HK HN Hnb C0 C1 Rp.
  assert (Sv' : shape (arr_of v) = sh) by (rewrite arr_shape_of; exact Sv). assert (Se' : shape (arr_of e) = sh) by (rewrite arr_shape_of; exact Se).
  destruct (boot_value (w_sqrt T) (w_argsort T) (w_boot S) (gen_ss (rng (pos s))) n (arr_of v) (arr_of e) nb ax ns N p y Harg) as (sp0 & sp & rm & Es & Ec & S1 & S2 & G); rewrite ?Sv', ?Se'; try assumption; [reflexivity|].
  rewrite Sv' in S1, S2, G. fold ks in S1, S2, G. exists (val_of sp), (val_of rm). split.
  - unfold Props_whole.answers. rewrite (ss_answer s nb n v e ax FA RE Ev Ee B A), Es. cbn [bind]. rewrite Ec. reflexivity.
  - split; [exact S1|]. split; [exact S2|]. intros k L Vk HL. destruct (G k L Vk HL) as (Bs & OB & Gb). exists Bs. split; [exact OB|]. intros b Hb. destruct (Gb b Hb) as (rs & tv & te & R & T1 & T2 & Gt).
    exists rs, tv, te. split; [exact R|]. split; [exact T1|]. split; [exact T2|]. intros t Ht. destruct (Gt t Ht) as [G1 G2].
    assert (V : valid (ks ++ [nb; 3]) (k ++ [b; t])) by (apply Forall2_app; [exact Vk|constructor; [exact Hb|constructor; [exact Ht|constructor]]]).
    rewrite !reads_val by (rewrite ?S1, ?S2; exact V). split; assumption.
Qed.
(** an ensemble: the bins are ordered by the variances of the members *)
Theorem c118_spread_skill_ensemble : forall s n nb m ax ns N (M : list nat -> list Qc) (F O : list nat -> Qc), faithful -> reached s -> (forall l, argsorts l (w_argsort T l)) ->
  let x := ob s in let sh := arr_shape (a_o x) in let ks := kept (length sh) ns sh in let e := w_boot S in
  cl x = CEnsemble -> Props_ps.fits (arr_of (a_o x)) (arr_of (a_f x)) (int_of (a_eaxis x)) m -> 0 < nth m (arr_shape (a_f x)) 0 -> arr_shape (a_fc x) = sh ->
  (forall ix, Forall2 lt ix sh -> Spec.members_at m (arr_of (a_f x)) ix = map Fin (M ix) /\ reads (a_fc x) ix = Fin (F ix) /\ reads (a_o x) ix = Fin (O ix)) ->
  a_boot x = VInt (Z.of_nat n) -> 0 < n -> axes_of (a_avg x) = Some ax -> axes_are (length sh) ax ns -> same_sign ax ->
  prod ks <> 0 -> prod sh = N * prod ks -> 1 <= nb <= N -> (0 <= confidence e)%Qc -> (confidence e <= 1)%Qc -> 0 < repeats e ->
  let p := fun ix => Spec.mean_of (map (fun m => (m - Spec.mean_of (M ix)) * (m - Spec.mean_of (M ix)))%Qc (M ix)) in
  let y := fun ix => ((F ix - O ix) * (F ix - O ix))%Qc in
  exists sp rm, answers s (MSS (VInt (Z.of_nat nb))) (VTuple [sp; rm]) /\ boot_spread_skill (w_sqrt T) e n nb sh ns p y sp rm /\
    ((1 <= confidence e + confidence e)%Qc -> keeps_order (w_sqrt T) -> intervals_in_order nb sh ns sp rm).
Proof.
  intros s n nb m ax ns N M F O FA RE Harg x sh ks e0 C Fi Pos Sc D B Pn A X SS HK HN Hnb C0 C1 Rp p y.
  destruct (Props_whole4.ensemble_variance S W T other points x m C Fi) as (v & Ev & Sv & Gv).
  destruct (Props_whole4.square_errors S W T other points x (a_fc x) F O (Props_whole4.f_collapsed x C) Sc) as (e & Ee & Se & Ge); [intros ix V; exact (proj2 (D ix V))|].
  destruct (boot_diagram_of s nb n v e ax ns N p y FA RE Harg Ev Ee Sv Se) as (sp & rm & An & BD); try assumption.
  - intros ix V. split; [|apply Ge, V]. destruct (D ix V) as (Dm & _). rewrite (Gv ix V), Dm. apply nvar_fin.
    intros Z. rewrite Z in Dm. apply (f_equal (@length num)) in Dm. unfold Spec.members_at in Dm. rewrite map_length, seq_length, arr_shape_of in Dm. cbn in Dm. lia.
  - exists sp, rm. split; [exact An|]. split; [exact BD|]. intros C2 KO. apply (intervals _ _ _ _ _ _ _ _ _ _ BD KO Pn Rp C2 C1). intros ix. split; [apply spread_about_mean_nonneg|].
    unfold y. set (d := (F ix - O ix)%Qc). clearbody d. qnra.
Qed.
(** the Gaussian and the Gamma verifier: by the squares of sigma *)
Theorem c118_spread_skill_parametric : forall s mu sg n nb ax ns N (F D O : list nat -> Qc), faithful -> reached s -> (forall l, argsorts l (w_argsort T l)) ->
  let x := ob s in let sh := arr_shape (a_o x) in let ks := kept (length sh) ns sh in let e := w_boot S in
  cl x = CGaussian \/ cl x = CGamma -> field (a_f x) "mu" = Some mu -> field (a_f x) "sigma" = Some sg -> arr_shape mu = sh -> arr_shape sg = sh ->
  (forall ix, Forall2 lt ix sh -> reads mu ix = Fin (F ix) /\ reads sg ix = Fin (D ix) /\ reads (a_o x) ix = Fin (O ix)) ->
  a_boot x = VInt (Z.of_nat n) -> 0 < n -> axes_of (a_avg x) = Some ax -> axes_are (length sh) ax ns -> same_sign ax ->
  prod ks <> 0 -> prod sh = N * prod ks -> 1 <= nb <= N -> (0 <= confidence e)%Qc -> (confidence e <= 1)%Qc -> 0 < repeats e ->
  let p := fun ix => (D ix * D ix)%Qc in let y := fun ix => ((F ix - O ix) * (F ix - O ix))%Qc in
  exists sp rm, answers s (MSS (VInt (Z.of_nat nb))) (VTuple [sp; rm]) /\ boot_spread_skill (w_sqrt T) e n nb sh ns p y sp rm /\
    ((1 <= confidence e + confidence e)%Qc -> keeps_order (w_sqrt T) -> intervals_in_order nb sh ns sp rm).
Proof.
  intros s mu sg n nb ax ns N F D O FA RE Harg x sh ks e0 C Fm Fs Sm Ss V B Pn A X SS HK HN Hnb C0 C1 Rp p y.
  destruct (Props_whole4.square_errors S W T other points x mu F O (Props_whole4.f_mean x mu C Fm) Sm) as (e & Ee & Se & Ge); [intros ix H; destruct (V ix H) as (V1 & _ & V3); split; [exact V1|exact V3]|].
  destruct (boot_diagram_of s nb n (val_of (amap nsq (arr_of sg))) e ax ns N p y FA RE Harg) as (sp & rm & An & BD); try assumption.
  - unfold variance_of, part. fold x. rewrite Fs. destruct C as [-> | ->]; reflexivity.
  - fold x sh. rewrite <- Ss. apply arr_shape_of.
  - intros ix H. split; [|apply Ge, H]. rewrite reads_val by (cbn [amap shape]; rewrite arr_shape_of, Ss; exact H). cbn [amap get]. change (get (arr_of sg) ix) with (reads sg ix).
    destruct (V ix H) as (_ & -> & _). reflexivity.
  - exists sp, rm. split; [exact An|]. split; [exact BD|]. intros C2 KO. apply (intervals _ _ _ _ _ _ _ _ _ _ BD KO Pn Rp C2 C1). intros ix. unfold p, y. set (d := (F ix - O ix)%Qc). clearbody d. split; qnra.
Qed.

(** ** Correlation: lower bound, mean and upper bound of np.corrcoef of resamples of the cells of a slice; a cell drawn is
    drawn for the forecast and the observation. The correlation itself is not saved; the forecasts may be *)
Theorem c118_correlation : forall s f n ax ns,
  let x := ob s in let sh := arr_shape (a_o x) in let ks := kept (length sh) ns sh in let e := w_boot S in faithful -> reached s ->
  Props_whole4.forecast_is x f -> arr_shape f = sh -> a_boot x = VInt (Z.of_nat n) -> axes_of (a_avg x) = Some ax -> axes_are (length sh) ax ns -> P_special.plain ax -> (forall d, In d sh -> 0 < d) ->
  (0 <= confidence e)%Qc -> (confidence e <= 1)%Qc -> 0 < repeats e ->
  exists r, answers s MCorr r /\ arr_shape r = 3 :: ks /\
  forall k L, Forall2 lt k ks -> Cells sh ns k L ->
  exists rs, resamples_of L n (repeats e) rs /\
    triple_skipping (skip_nan e) (1 - confidence e)%Qc (confidence e) (map (fun s => w_corrcoef T (map (reads f) s) (map (reads (a_o x)) s)) rs)
      [reads r (0 :: k); reads r (1 :: k); reads r (2 :: k)].
Proof.
  intros s f n ax ns x sh ks e FA RE Hf Sf B A X PL Pos C0 C1 Rp.
  assert (So : shape (arr_of (a_o x)) = sh) by apply arr_shape_of. assert (Sf' : shape (arr_of f) = sh) by (rewrite arr_shape_of; exact Sf).
  destruct (corr_boot_value S T n (gen_corr (rng (pos s))) (arr_of f) (arr_of (a_o x)) ax ns) as (r & Er & Sr & G); rewrite ?So; try assumption; [apply plain_of; assumption|]. rewrite So in Sr, G. fold ks in Sr, G.
  exists (val_of r). split; [|split; [exact Sr|]].
  - unfold Props_whole.answers. rewrite (corr_answer s f n ax FA RE Hf B A). fold x. rewrite Er. reflexivity.
  - intros k L Vk HL. destruct (G k L HL Vk) as (rs & R & Tr). exists rs. split; [exact R|]. fold e in Tr.
    assert (V3 : forall q, q < 3 -> Forall2 lt (q :: k) (3 :: ks)) by (intros q Hq; constructor; assumption).
    rewrite !reads_val by (rewrite Sr; apply V3; lia). exact Tr.
Qed.
End Program.
Print Assumptions c118_spread_skill_ensemble.
Print Assumptions c118_spread_skill_parametric.
Print Assumptions c118_correlation.

(** ** Concrete programs: two cells, two boot samples *)
(** the integer part of the root keeps order *)
Definition int_root (v : num) : num := match v with Fin q => Fin (qz (Z.sqrt (Qfloor q))) | _ => v end.
Lemma int_root_order : keeps_order int_root.
Proof.
  intros a b H0 H. eexists. eexists. split; [reflexivity|]. split; [reflexivity|]. unfold qz, Qcle. cbn [this Q2Qc]. rewrite !Qred_correct. rewrite <- Zle_Qle.
  apply Z.sqrt_le_mono, Qfloor_resp_le, H.
Qed.
Definition b_stats : stats := {| w_argsort := argsort_ex; w_sqrt := int_root; w_corrcoef := Props_whole4.sign_ex |}.
Definition b_draw : nat -> nat -> nat -> nat -> nat := fun d i r j => r + j.
Definition b_draw5 : nat -> nat -> nat -> nat -> nat -> nat := fun d i c r j => d + i + c + r + j.
Notation b_other := (more_lib e_set (prob_lib e_set Props_whole3.g_laws (stat_lib e_set b_stats w_lib))).
Notation b_otherr := (more_libr e_set b_draw b_draw5 (prob_libr e_set Props_whole3.g_laws (stat_libr e_set b_stats b_draw5 b_draw w_libr))).
Notation b_lib := (whole_lib e_set b_other).
Notation b_libr := (whole_libr e_set b_otherr).
Notation b_answers := (Props_whole.answers e_set b_other b_otherr w_str w_dumps w_loads (fun s => s) w_resolve w_points false None [] (fun n => n)).
Notation b_reached := (Props_whole.reached e_set b_other b_otherr w_str w_dumps w_loads (fun s => s) w_resolve w_points false None [] (fun n => n)).
Notation b_step := (M_state.step b_lib b_libr w_str w_dumps w_loads (fun s => s) w_resolve w_points false None [] (fun n => n)).
Notation b_steps := (M_state.steps b_lib b_libr w_str w_dumps w_loads (fun s => s) w_resolve w_points false None [] (fun n => n)).
Lemma one_cell (g : list nat -> Qc) ix rs n reps v : 0 < n -> 0 < reps -> resamples_of [ix] n reps rs ->
  triple_of np_quantile (1 - confidence ex_env)%Qc (confidence ex_env) (map (fun s => Fin (Spec.mean_of (map g s))) rs) v -> v = [Fin (g ix); Fin (g ix); Fin (g ix)].
Proof.
  intros Pn Pr [L R] T. set (c := confidence ex_env) in *.
  assert (Y1 : (0 <= 1 - c)%Qc) by (vm_compute; discriminate). assert (Y2 : (1 - c <= c)%Qc) by (vm_compute; discriminate). assert (Y3 : (c <= 1)%Qc) by (vm_compute; discriminate).
  assert (Nr : map (fun s => Fin (Spec.mean_of (map g s))) rs <> []) by (intros E; apply map_eq_nil in E; rewrite E in L; cbn in L; lia).
  destruct (triple_bounds (g ix) (g ix) _ _ _ _ Y1 Y2 Y3 Nr
    (means_inside g rs (g ix) (g ix) ltac:(intros s Hs; destruct (R s Hs) as [Ls Rs]; split; [intros ->; cbn in Ls; lia|]; intros jx Hj; destruct (Rs jx Hj) as [<-|[]]; split; apply Qcle_refl)) T)
    as (a & m & b & -> & A1 & A2 & A3 & A4 & A5).
  assert (Ea : a = g ix) by (apply Qcle_antisym; [exact (Qcle_trans _ _ _ A2 A3)|exact A1]). assert (Eb : b = g ix) by (apply Qcle_antisym; [exact A3|exact (Qcle_trans _ _ _ A1 A2)]).
  assert (Em : m = g ix) by (apply Qcle_antisym; assumption). rewrite Ea, Eb, Em. reflexivity.
Qed.
(** one cell in each bin: all resamples are that cell *)
Lemma two_single_bins (p y : list nat -> Qc) n sp rm : Qclt (p [0]) (p [1]) -> 0 < n -> boot_spread_skill int_root ex_env n 2 [2] [0] p y sp rm ->
  forall b t, b < 2 -> t < 3 -> reads sp [b; t] = int_root (Fin (p [b])) /\ reads rm [b; t] = int_root (Fin (y [b])).
Proof.
  intros Lt Pn (_ & _ & D) b t Hb Ht. destruct (D [] [[0]; [1]] ltac:(constructor) cells_2) as (Bs & OB & G). apply Props_whole4.two_bins in OB; [|exact Lt]. subst Bs.
  destruct (G b Hb) as (rs & tv & te & R & T1 & T2 & Gt). destruct (Gt t Ht) as [G1 G2]. cbn [app] in G1, G2.
  assert (E : nth b [[[0]]; [[1]]] [] = [[b]]) by (destruct b as [|[|b]]; [reflexivity|reflexivity|lia]). rewrite E in R.
  apply (one_cell p [b] rs n 3) in T1; [|exact Pn|lia|exact R]. apply (one_cell y [b] rs n 3) in T2; [|exact Pn|lia|exact R]. subst tv te. rewrite G1, G2.
  destruct t as [|[|[|t]]]; try lia; split; reflexivity.
Qed.
(** an ensemble that saves its results, asked twice: members 1, 3, 1, 3 and 1, 5, 1, 5 (variances 1 and 4), collapsed 2
    and 3, observations 1 and 6 *)
Definition b_obj (f o : nat) : obj := mkObj CEnsemble (VArr [2; 4] f) (VArr [2] o) VNone (VInt 2) (VStr "w") (VBool true)
    VNone VNone (VFun 0) VNone VNone VNone VNone VNone VNone VNone.
Definition b_call : meth := MSS (VInt 2).
Definition b_shape (x : obj) (f o : nat) : Prop :=
  cl x = CEnsemble /\ a_f x = VArr [2; 4] f /\ a_o x = VArr [2] o /\ a_eaxis x = VInt (-1) /\ a_boot x = VInt 2 /\ a_avg x = VNone /\
  a_fc x = val_of (Arr [2] (fun ix => nmean (Spec.members_at 1 (arr_of (VArr [2; 4] f)) ix))).
Lemma b_constructed f o : exists x1 k1, M_state.construct b_lib (fun s => s) w_resolve (b_obj f o) w_used = (Ok x1, k1) /\ truthy (a_wd x1) = true /\ b_shape (put_wd VNone x1) f o.
Proof. do 2 eexists. split; [reflexivity|]. split; [reflexivity|]. repeat split. Qed.
Lemma b_case f o : content f = Props_whole3.nums [1; 3; 1; 3; 1; 5; 1; 5]%Z -> content o = Props_whole3.nums [1; 6]%Z ->
  exists x1 k1, M_state.construct b_lib (fun s => s) w_resolve (b_obj f o) w_used = (Ok x1, k1) /\ truthy (a_wd x1) = true /\
  let s := snd (b_steps [OMetric b_call None] (mkSt x1 k1 0 [])) in
  b_reached s /\ exists sp rm, b_answers s b_call (VTuple [sp; rm]) /\
    map (fun t => reads sp [0; t]) [0; 1; 2] = map Fin [qz 1; qz 1; qz 1] /\ map (fun t => reads sp [1; t]) [0; 1; 2] = map Fin [qz 2; qz 2; qz 2] /\
    map (fun t => reads rm [0; t]) [0; 1; 2] = map Fin [qz 1; qz 1; qz 1] /\ map (fun t => reads rm [1; t]) [0; 1; 2] = map Fin [qz 3; qz 3; qz 3] /\
    intervals_in_order 2 [2] [0] sp rm.
Proof.
  intros Hf Ho. destruct (b_constructed f o) as (x1 & k1 & E & Tx & Sx1). exists x1, k1. split; [exact E|]. split; [exact Tx|]. intros s.
  assert (K : key_ok b_call) by (repeat (apply Forall_cons; [left; constructor|]); apply Forall_nil).
  assert (F : Forall calm [OMetric b_call None]) by (constructor; [exact K|constructor]).
  assert (RE : b_reached s) by (left; exists (b_obj f o), w_used, x1, k1, [OMetric b_call None], 0; exact (conj (or_introl eq_refl) (conj w_used_wf (conj eq_refl (conj E (conj F eq_refl)))))).
  split; [exact RE|].
  assert (OS : put_wd VNone (ob s) = put_wd VNone x1).
  { destruct (construct_inv b_lib b_libr w_str w_dumps (fun s => s) w_resolve w_points false (b_obj f o) w_used x1 k1 w_used ltac:(reflexivity) ltac:(left; reflexivity) w_used_wf eq_refl E) as [IN _].
    destruct (calm_steps b_lib b_libr w_str w_dumps w_loads (fun s => s) w_resolve w_points false None [] (fun n => n) w_text w_pickle [OMetric b_call None]
      (mkSt x1 k1 0 []) (mkSt (put_wd VNone x1) w_used 0 []) F IN eq_refl) as [_ O1]. fold s in O1. rewrite <- O1. set (t := mkSt (put_wd VNone x1) w_used 0 []).
    assert (Q : ob (snd (b_step (OMetric b_call None) t)) = ob t) by (apply (c83_saving_off b_lib b_libr w_str w_dumps w_loads (fun s => s) w_resolve w_points false None [] (fun n => n) b_call None t (or_introl eq_refl) eq_refl K (or_introl eq_refl))).
    cbn [M_state.steps]. destruct (b_step (OMetric b_call None) t) as [r t1] eqn:Et. cbn [snd] in Q |- *. exact Q. }
  rewrite <- OS in Sx1. change (b_shape (ob s) f o) in Sx1. clear OS. clearbody s. destruct Sx1 as (C & Ef & Eo & Ee & Eb & Ea & Ec).
  assert (Af : arr_of (a_f (ob s)) = of_list NaN [2; 4] (Props_whole3.nums [1; 3; 1; 3; 1; 5; 1; 5]%Z)) by (rewrite Ef; cbn [arr_of]; rewrite Hf; reflexivity).
  assert (Ao : arr_of (a_o (ob s)) = of_list NaN [2] (Props_whole3.nums [1; 6]%Z)) by (rewrite Eo; cbn [arr_of]; rewrite Ho; reflexivity).
  assert (So : arr_shape (a_o (ob s)) = [2]) by (rewrite Eo; reflexivity). assert (Sf : arr_shape (a_f (ob s)) = [2; 4]) by (rewrite Ef; reflexivity).
  assert (Fi : Props_ps.fits (arr_of (a_o (ob s))) (arr_of (a_f (ob s))) (int_of (a_eaxis (ob s))) 1) by (rewrite Af, Ao, Ee; split; [split; [cbn; lia|right; reflexivity]|reflexivity]).
  set (M := fun ix : list nat => if Nat.eqb (hd 0 ix) 0 then [qz 1; qz 3; qz 1; qz 3] else [qz 1; qz 5; qz 1; qz 5]).
  set (G := fun ix : list nat => if Nat.eqb (hd 0 ix) 0 then qz 2 else qz 3). set (O := fun ix : list nat => if Nat.eqb (hd 0 ix) 0 then qz 1 else qz 6).
  assert (Dm : forall ix, Forall2 lt ix [2] -> Spec.members_at 1 (arr_of (a_f (ob s))) ix = map Fin (M ix)) by (rewrite Af; apply Props_whole3.two_cells; reflexivity).
  assert (Df : forall ix, Forall2 lt ix [2] -> reads (a_fc (ob s)) ix = Fin (G ix)).
  { intros ix V. rewrite Ec, reads_val by exact V. cbn [get]. rewrite <- Ef, (Dm ix V). revert ix V. apply Props_whole3.two_cells; vm_compute; f_equal; apply Qc_is_canon; reflexivity. }
  assert (Do : forall ix, Forall2 lt ix [2] -> reads (a_o (ob s)) ix = Fin (O ix)) by (unfold reads; rewrite Ao; apply Props_whole3.two_cells; reflexivity).
  assert (Sc : arr_shape (a_fc (ob s)) = [2]) by (rewrite Ec; reflexivity).
  destruct (c118_spread_skill_ensemble e_set Props_whole3.g_laws b_stats b_draw b_draw5 b_draw5 b_draw w_lib w_libr w_str w_dumps w_loads (fun s => s) w_resolve w_points false None [] (fun n => n)
    s 2 2 1 None [0] 2 M G O e_faithful RE argsort_ex_ok C Fi) as (sp & rm & A & BD & IO); rewrite ?So, ?Sf; try assumption.
  - cbn. lia.
  - intros ix V. exact (conj (Dm ix V) (conj (Df ix V) (Do ix V))).
  - lia.
  - rewrite Ea. reflexivity.
  - reflexivity.
  - exact I.
  - discriminate.
  - reflexivity.
  - lia.
  - vm_compute. discriminate.
  - vm_compute. discriminate.
  - cbn. lia.
  - rewrite So in BD, IO. exists sp, rm. split; [exact A|]. clear A.
    pose proof (fun H => two_single_bins _ _ 2 sp rm H ltac:(lia) BD) as V. specialize (V ltac:(vm_compute; reflexivity)). cbn [map].
    destruct (V 0 0 ltac:(lia) ltac:(lia)) as [-> ->], (V 0 1 ltac:(lia) ltac:(lia)) as [-> ->], (V 0 2 ltac:(lia) ltac:(lia)) as [-> ->],
      (V 1 0 ltac:(lia) ltac:(lia)) as [-> ->], (V 1 1 ltac:(lia) ltac:(lia)) as [-> ->], (V 1 2 ltac:(lia) ltac:(lia)) as [-> ->]. clear V BD.
    split; [vm_compute; reflexivity|]. split; [vm_compute; reflexivity|]. split; [vm_compute; reflexivity|]. split; [vm_compute; reflexivity|].
    apply IO; [vm_compute; discriminate|exact int_root_order].
Qed.
(** the Gaussian verifier: means 1 and 3, deviations 1 and 2, observations 2 and 0; both cells are drawn every time *)
Definition b_gauss (m s o : nat) : obj := put_boot (VInt 2) (Props_whole3.g_obj CGaussian (Props_whole3.g_dict m s) o VNone VNone false).
Lemma b_gaussian m s o : content m = Props_whole3.nums [1; 3]%Z -> content s = Props_whole3.nums [1; 2]%Z -> content o = Props_whole3.nums [2; 0]%Z ->
  let st := mkSt (b_gauss m s o) w_used 0 [] in
  (exists sp rm, b_answers st (MSS (VInt 2)) (VTuple [sp; rm]) /\
    map (fun t => reads sp [1; t]) [0; 1; 2] = map Fin [qz 2; qz 2; qz 2] /\ map (fun t => reads rm [1; t]) [0; 1; 2] = map Fin [qz 3; qz 3; qz 3]) /\
  (exists r, b_answers st MCorr r /\ arr_shape r = [3] /\ map (fun t => reads r [t]) [0; 1; 2] = map Fin [qz (-1); qz (-1); qz (-1)]).
Proof.
  intros Hm Hs Ho st0. assert (RE : b_reached st0) by (right; split; [left; reflexivity|reflexivity]).
  set (F := fun ix : list nat => if Nat.eqb (hd 0 ix) 0 then qz 1 else qz 3). set (D := fun ix : list nat => if Nat.eqb (hd 0 ix) 0 then qz 1 else qz 2). set (O := fun ix : list nat => if Nat.eqb (hd 0 ix) 0 then qz 2 else qz 0).
  assert (V : forall ix, Forall2 lt ix [2] -> reads (VArr [2] m) ix = Fin (F ix) /\ reads (VArr [2] s) ix = Fin (D ix) /\ reads (VArr [2] o) ix = Fin (O ix)).
  { unfold reads. cbn [arr_of]. rewrite Hm, Hs, Ho. apply Props_whole3.two_cells; repeat split. }
  split.
  - destruct (c118_spread_skill_parametric e_set Props_whole3.g_laws b_stats b_draw b_draw5 b_draw5 b_draw w_lib w_libr w_str w_dumps w_loads (fun s => s) w_resolve w_points false None [] (fun n => n)
      st0 (VArr [2] m) (VArr [2] s) 2 2 None [0] 2 F D O e_faithful RE argsort_ex_ok (or_introl eq_refl) eq_refl eq_refl eq_refl eq_refl V eq_refl ltac:(lia) eq_refl eq_refl I ltac:(discriminate) eq_refl ltac:(lia)
      ltac:(vm_compute; discriminate) ltac:(vm_compute; discriminate) ltac:(cbn; lia)) as (sp & rm & A & BD & _).
    exists sp, rm. split; [exact A|]. clear A. pose proof (fun H => two_single_bins _ _ 2 sp rm H ltac:(lia) BD) as G. specialize (G ltac:(vm_compute; reflexivity)). cbn [map].
    destruct (G 1 0 ltac:(lia) ltac:(lia)) as [-> ->], (G 1 1 ltac:(lia) ltac:(lia)) as [-> ->], (G 1 2 ltac:(lia) ltac:(lia)) as [-> ->]. split; vm_compute; reflexivity.
  - assert (Fi : Props_whole4.forecast_is (b_gauss m s o) (VArr [2] m)) by (apply (Props_whole4.f_mean (b_gauss m s o) (VArr [2] m)); [left; reflexivity|reflexivity]).
    destruct (c118_correlation e_set Props_whole3.g_laws b_stats b_draw b_draw5 b_draw5 b_draw w_lib w_libr w_str w_dumps w_loads (fun s => s) w_resolve w_points false None [] (fun n => n)
      st0 (VArr [2] m) 2 None [0] e_faithful RE Fi eq_refl eq_refl eq_refl eq_refl I ltac:(cbn; intros d [<-|[]]; lia) ltac:(vm_compute; discriminate) ltac:(vm_compute; discriminate) ltac:(cbn; lia)) as (r & A & Sr & _).
    exists r. split; [exact A|]. split; [exact Sr|]. unfold Props_whole.answers in A.
    rewrite (corr_answer e_set Props_whole3.g_laws b_stats b_draw b_draw5 b_draw5 b_draw w_lib w_libr w_str w_dumps w_loads (fun s => s) w_resolve w_points false None [] (fun n => n)
      st0 (VArr [2] m) 2 None e_faithful RE Fi eq_refl eq_refl) in A.
    cbn [ob st0 b_gauss put_boot Props_whole3.g_obj a_o arr_of] in A. change (pos st0) with 0 in A. rewrite Hm, Ho in A. clear - A.
    destruct (corr_boot_with e_set b_stats 2 (b_draw 0) (of_list NaN [2] (Props_whole3.nums [1; 3]%Z)) (of_list NaN [2] (Props_whole3.nums [2; 0]%Z)) None) as [q|] eqn:E; [|vm_compute in E; discriminate E].
    assert (Sq : shape q = [3]) by (apply (f_equal (fun r => match r with Ok a => shape a | _ => [] end)) in E; rewrite <- E; vm_compute; reflexivity).
    assert (Gq : map (fun t => get q [t]) [0; 1; 2] = map Fin [qz (-1); qz (-1); qz (-1)]).
    { apply (f_equal (fun r => match r with Ok a => map (fun t => get a [t]) [0; 1; 2] | _ => [] end)) in E. rewrite <- E. qcomp. }
    change (Ok (val_of q) = Ok r) in A. injection A as <-. cbn [map] in Gq |- *. rewrite !reads_val by (rewrite Sq; repeat constructor). exact Gq.
Qed.
Example c118_nonvacuous :
  (exists x1 k1, M_state.construct b_lib (fun s => s) w_resolve (b_obj (store (Props_whole3.nums [1; 3; 1; 3; 1; 5; 1; 5]%Z)) (store (Props_whole3.nums [1; 6]%Z))) w_used = (Ok x1, k1) /\ truthy (a_wd x1) = true /\
   let s := snd (b_steps [OMetric b_call None] (mkSt x1 k1 0 [])) in
   b_reached s /\ exists sp rm, b_answers s b_call (VTuple [sp; rm]) /\
    map (fun t => reads sp [0; t]) [0; 1; 2] = map Fin [qz 1; qz 1; qz 1] /\ map (fun t => reads sp [1; t]) [0; 1; 2] = map Fin [qz 2; qz 2; qz 2] /\
    map (fun t => reads rm [0; t]) [0; 1; 2] = map Fin [qz 1; qz 1; qz 1] /\ map (fun t => reads rm [1; t]) [0; 1; 2] = map Fin [qz 3; qz 3; qz 3] /\
    intervals_in_order 2 [2] [0] sp rm) /\
  let st := mkSt (b_gauss (store (Props_whole3.nums [1; 3]%Z)) (store (Props_whole3.nums [1; 2]%Z)) (store (Props_whole3.nums [2; 0]%Z))) w_used 0 [] in
  (exists sp rm, b_answers st (MSS (VInt 2)) (VTuple [sp; rm]) /\
    map (fun t => reads sp [1; t]) [0; 1; 2] = map Fin [qz 2; qz 2; qz 2] /\ map (fun t => reads rm [1; t]) [0; 1; 2] = map Fin [qz 3; qz 3; qz 3]) /\
  (exists r, b_answers st MCorr r /\ arr_shape r = [3] /\ map (fun t => reads r [t]) [0; 1; 2] = map Fin [qz (-1); qz (-1); qz (-1)]).
Proof. split; [apply b_case; apply content_store|apply b_gaussian; apply content_store]. Qed.
