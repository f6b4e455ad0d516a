(** Proofs about averaging and bootstrapping. *)
From Coq Require Import ZArith List Lia Bool Arith Permutation Sorted QArith Qcanon.
From Verif Require Import QcTac QSum Num NdArr Numpy M_common NdAxes M_boot M_determ Spec.
Import ListNotations.
Open Scope nat_scope.

(** ** Axes *)
Lemma nodupb_spec l : nodupb l = true <-> NoDup l.
Proof.
  induction l as [|x r IH]; cbn [nodupb]; [split; [constructor|reflexivity]|].
  rewrite andb_true_iff, negb_true_iff, IH. split.
  - intros [H1 H2]. constructor; [|exact H2]. intros C. apply existsb_eqb_in in C. congruence.
  - intros H. inversion H; subst. split; [|assumption].
    destruct (existsb (Nat.eqb x) r) eqn:E; [|reflexivity]. apply existsb_eqb_in in E. contradiction.
Qed.
Lemma axis_is_norm nd z n : axis_is nd z n <-> norm_axis nd z = Ok n.
Proof. split; [intros [H1 H2]; apply norm_axis_fun; assumption|apply norm_axis_ok]. Qed.
Lemma Forall2_mono {A B} (P Q : A -> B -> Prop) l1 l2 : (forall a b, P a b -> Q a b) -> Forall2 P l1 l2 -> Forall2 Q l1 l2.
Proof. intros H. induction 1; constructor; auto. Qed.
Lemma mapM_fwd {A B} (f : A -> res B) l ys : Forall2 (fun x y => f x = Ok y) l ys -> mapM f l = Ok ys.
Proof. induction 1 as [|x y r t Hx Hr IH]; cbn [mapM]; [reflexivity|]. rewrite Hx. cbn [bind]. rewrite IH. reflexivity. Qed.
Lemma mask_of_all nd : mask_of nd (seq 0 nd) = repeat true nd.
Proof.
  unfold mask_of. apply nth_ext with true true; [rewrite map_length, seq_length, repeat_length; reflexivity|].
  intros i Hi. rewrite map_length, seq_length in Hi.
  rewrite (nth_indep _ true (existsb (Nat.eqb 0) (seq 0 nd))) by (rewrite map_length, seq_length; exact Hi).
  rewrite (map_nth (fun i => existsb (Nat.eqb i) (seq 0 nd))), seq_nth by exact Hi. rewrite nth_repeat. cbn [Nat.add].
  apply existsb_eqb_in. apply in_seq. lia.
Qed.
Lemma np_axes_spec nd ax m : np_axes nd ax = Ok m <-> exists ns, axes_are nd ax ns /\ m = mask_of nd ns.
Proof.
  destruct ax as [l|]; cbn [np_axes axes_are]; split.
  - destruct (mapM (norm_axis nd) l) as [ns|] eqn:E; cbn [bind]; [|discriminate].
    destruct (nodupb ns) eqn:N; [|discriminate]. intros H. injection H as <-. exists ns. split; [|reflexivity].
    split; [|apply nodupb_spec, N]. apply mapM_inv in E. revert E. apply Forall2_mono.
    intros a b. apply axis_is_norm.
  - intros (ns & [H1 H2] & ->).
    rewrite (mapM_fwd _ l ns); [cbn [bind]|revert H1; apply Forall2_mono; intros a b; apply axis_is_norm].
    apply nodupb_spec in H2. rewrite H2. reflexivity.
  - intros H. injection H as <-. exists (seq 0 nd). split; [reflexivity|]. symmetry. apply mask_of_all.
  - intros (ns & -> & ->). rewrite mask_of_all. reflexivity.
Qed.
Lemma axes_are_lt nd ax ns x : axes_are nd ax ns -> In x ns -> x < nd.
Proof.
  destruct ax as [l|]; cbn [axes_are].
  - intros [H _]. induction H as [|z n l ns [Hz _] _ IH]; intros []; [congruence|auto].
  - intros -> H. apply in_seq in H. lia.
Qed.
Lemma axes_are_nodup nd ax ns : axes_are nd ax ns -> NoDup ns.
Proof. destruct ax as [l|]; cbn [axes_are]; [intros [_ H]; exact H|intros ->; apply seq_NoDup]. Qed.
Lemma kept_unsel nd ns ix : length ix = nd -> kept nd ns ix = unsel (mask_of nd ns) ix.
Proof. intros H. rewrite unsel_mask_pick by exact H. reflexivity. Qed.

(** ** Groups *)
Lemma NoDup_group sh m k : NoDup (group sh m k).
Proof. apply NoDup_filter, NoDup_indices. Qed.
Lemma group_Cells sh ns k : Cells sh ns k (group sh (mask_of (length sh) ns) k).
Proof.
  split; [apply NoDup_group|]. intros ix. rewrite in_group. split; intros [H1 H2]; (split; [exact H1|]);
    rewrite kept_unsel in * by (apply valid_length, H1); exact H2.
Qed.
Lemma Cells_perm sh ns k L : Cells sh ns k L -> Permutation (group sh (mask_of (length sh) ns) k) L.
Proof.
  intros [H1 H2]. destruct (group_Cells sh ns k) as [H3 H4].
  apply NoDup_Permutation; [exact H3|exact H1|]. intros ix. rewrite H2, H4. reflexivity.
Qed.

Lemma map_fin_ext {A} (g : A -> num) (x : A -> Qc) L : (forall a, In a L -> g a = Fin (x a)) -> map g L = map Fin (map x L).
Proof. intros H. rewrite map_map. apply map_ext_in, H. Qed.
Lemma qmean_mean_of xs : qmean xs = mean_of xs. Proof. reflexivity. Qed.

(** ** Averaging *)
Lemma avg_accepts e rng ax (a : arr num) :
  (exists r, boot_or_avg e rng ax None a = Ok r) <-> (exists ns, axes_are (length (shape a)) ax ns).
Proof.
  unfold boot_or_avg, np_nanmean, np_mean. split.
  - intros (r & H). destruct (np_axes (length (shape a)) ax) as [m|] eqn:E; [|destruct (skip_nan e); discriminate].
    apply np_axes_spec in E as (ns & H1 & _). exists ns. exact H1.
  - intros (ns & H). assert (E : np_axes (length (shape a)) ax = Ok (mask_of (length (shape a)) ns)).
    { apply np_axes_spec. exists ns. split; [exact H|reflexivity]. }
    rewrite E. cbn [bind]. destruct (skip_nan e); eexists; reflexivity.
Qed.
Lemma axes_are_fun nd ax ns1 ns2 : axes_are nd ax ns1 -> axes_are nd ax ns2 -> ns1 = ns2.
Proof.
  destruct ax as [l|]; cbn [axes_are]; [|congruence]. intros [H1 _]. revert ns2.
  induction H1 as [|z n l ns Hz Hl IH]; intros ns2 [H2 N2]; inversion H2; subst; [reflexivity|].
  inversion N2; subst. f_equal.
  - apply axis_is_norm in Hz, H1. congruence.
  - apply IH. split; assumption.
Qed.
(** The general form: entry [k] is the (nan)mean of the cells of the group. *)
Lemma avg_spec e rng ax a r ns :
  boot_or_avg e rng ax None a = Ok r -> axes_are (length (shape a)) ax ns ->
  shape r = kept (length (shape a)) ns (shape a) /\
  forall k L, Cells (shape a) ns k L ->
    get r k = (if skip_nan e then nanmean else nmean) (map (get a) L).
Proof.
  intros H Hns. assert (E : np_axes (length (shape a)) ax = Ok (mask_of (length (shape a)) ns)).
  { apply np_axes_spec. exists ns. split; [exact Hns|reflexivity]. }
  unfold boot_or_avg, np_nanmean, np_mean in H. rewrite E in H. cbn [bind] in H.
  assert (P : forall k L, Cells (shape a) ns k L -> Permutation (map (get a) (group (shape a) (mask_of (length (shape a)) ns) k)) (map (get a) L)).
  { intros k L HL. apply Permutation_map, Cells_perm, HL. }
  destruct (skip_nan e); injection H as <-; cbn [reduce shape get]; (split; [symmetry; apply kept_unsel; reflexivity|]);
    intros k L HL; specialize (P k L HL).
  - unfold nanmean. apply nmean_perm. revert P. generalize (map (get a) L), (map (get a) (group (shape a) (mask_of (length (shape a)) ns) k)).
    intros l1 l2 P. induction P as [|x ? ? _ IH|x y l|? ? ? _ IH1 _ IH2]; cbn [filter].
    + constructor.
    + destruct (negb (is_nan x)); [constructor|]; exact IH.
    + destruct (negb (is_nan x)), (negb (is_nan y)); try reflexivity. constructor.
    + etransitivity; eassumption.
  - apply nmean_perm, P.
Qed.

(** ** Columns of the reshaped array *)
Lemma column_spec {A} (b : arr A) S keep k :
  shape b = S ++ keep -> valid keep k ->
  map (fun r => get (reshape [prod S; prod keep] b) [r; flat keep k]) (seq 0 (prod S)) =
  map (fun s => get b (s ++ k)) (indices S).
Proof.
  intros Hb Hk. rewrite <- map_flat_indices, map_map. apply map_ext_in. intros s Hs. apply in_indices in Hs.
  unfold reshape; cbn [get]. f_equal. rewrite Hb.
  transitivity (unflat (S ++ keep) (flat (S ++ keep) (s ++ k))).
  - f_equal. rewrite flat_app by exact Hs. cbn [flat prod]. lia.
  - apply unflat_flat, valid_app; assumption.
Qed.
Lemma mapM_length {A B} (f : A -> res B) l ys : mapM f l = Ok ys -> length ys = length l.
Proof. intros H. apply mapM_inv in H. induction H; cbn; congruence. Qed.
Lemma mapM_nth {A B} (f : A -> res B) l ys i da db : mapM f l = Ok ys -> i < length l -> f (nth i l da) = Ok (nth i ys db).
Proof.
  intros H. apply mapM_inv in H. revert i. induction H as [|x y l ys Hx Hl IH]; intros i Hi; cbn [length] in Hi; [lia|].
  destruct i; cbn [nth]; [exact Hx|apply IH; lia].
Qed.
Lemma mapM_ext {A B} (f g : A -> res B) l : (forall x, In x l -> f x = g x) -> mapM f l = mapM g l.
Proof.
  induction l as [|x r IH]; intros H; [reflexivity|]. cbn [mapM]. rewrite (H x (or_introl eq_refl)), IH; [reflexivity|].
  intros y Hy. apply H. right. exact Hy.
Qed.
Lemma mapM_map {A B C} (f : B -> res C) (g : A -> B) l : mapM f (map g l) = mapM (fun x => f (g x)) l.
Proof. induction l as [|x r IH]; [reflexivity|]. cbn [map mapM]. rewrite IH. reflexivity. Qed.

(** what the axes argument means to the loop of boot_arr *)
Definition loop_axes (nd : nat) (ax : option (list Z)) : list Z :=
  match ax with None => all_axes nd | Some l => l end.
(** The spelling is harmless when the sorted axis numbers denote increasing axes. *)
Definition sorted_spelling (nd : nat) (ax : option (list Z)) (ns : list nat) : Prop :=
  Forall2 (fun z n => norm_axis nd z = Ok n) (zsort (loop_axes nd ax)) ns /\ StronglySorted lt ns.

Lemma boot_arr_unfold e rng (a : arr num) ax ns n :
  let nd := length (shape a) in let m := mask_of nd ns in
  let keep := unsel m (shape a) in
  sorted_spelling nd ax ns -> prod keep <> 0 ->
  boot_arr e rng a ax n =
  (cols <- mapM (fun k => boot_vec e (rng (flat keep k)) (map (get a) (group (shape a) m k)) n) (indices keep) ;;
   Ok (reshape (3 :: keep)
        (Arr [3; prod keep] (fun ix => match ix with [i; c] => nth i (nth c cols []) NaN | _ => NaN end)))).
Proof.
  intros nd m keep [Hsp Hs] HK.
  destruct (move_loop_spec a (zsort (loop_axes nd ax)) ns Hs Hsp) as (b & Eb & Tb). fold nd in Tb.
  assert (Hlt : forall x, In x ns -> x < nd).
  { clear -Hsp. induction Hsp as [|z n l ns Hz _ IH]; intros x []; [subst; apply norm_axis_ok in Hz; tauto|auto]. }
  assert (Hshape : shape b = sel m (shape a) ++ keep) by (apply (transposed_merge a b ns [] [] Hs Hlt Tb)).
  assert (Hml : length m = length (shape a)) by apply mask_of_length.
  unfold boot_arr. fold nd. fold (loop_axes nd ax). rewrite Eb. cbn [bind].
  assert (Hkeep : skipn (length ns) (shape b) = keep).
  { rewrite Hshape. replace (length ns) with (length (sel m (shape a))).
    - rewrite skipn_app, skipn_all, Nat.sub_diag. reflexivity.
    - unfold m. rewrite sel_mask_pick by reflexivity. rewrite sorted_filter_seq by assumption. apply pick_length. }
  rewrite Hkeep. destruct (prod keep) as [|K'] eqn:EK; [contradiction|]. rewrite <- EK.
  assert (HN : prod (shape b) / prod keep = prod (sel m (shape a))).
  { rewrite Hshape, prod_app. apply Nat.div_mul. lia. }
  rewrite HN. rewrite <- (map_flat_indices keep), mapM_map.
  rewrite (mapM_ext _ (fun k => boot_vec e (rng (flat keep k)) (map (get a) (group (shape a) m k)) n)); [reflexivity|].
  intros k Hk. apply in_indices in Hk. f_equal.
  rewrite (column_spec b (sel m (shape a)) keep k Hshape Hk).
  rewrite group_merge by assumption. rewrite map_map. apply map_ext_in. intros s Hs'. apply in_indices in Hs'.
  apply (transposed_merge a b ns s k Hs Hlt Tb); assumption.
Qed.

Lemma boot_arr_spec e rng (a : arr num) ax ns n r :
  let nd := length (shape a) in let m := mask_of nd ns in let keep := unsel m (shape a) in
  sorted_spelling nd ax ns -> prod keep <> 0 ->
  boot_arr e rng a ax n = Ok r ->
  shape r = 3 :: keep /\
  forall k, valid keep k -> exists v,
    boot_vec e (rng (flat keep k)) (map (get a) (group (shape a) m k)) n = Ok v /\
    forall i, i < 3 -> get r (i :: k) = nth i v NaN.
Proof.
  intros nd m keep Hsp HK H. unfold nd in Hsp. rewrite (boot_arr_unfold e rng a ax ns n Hsp HK) in H.
  fold nd m keep in H.
  destruct (mapM _ (indices keep)) as [cols|] eqn:Ec; [|discriminate]. cbn [bind] in H. injection H as <-.
  split; [reflexivity|]. intros k Hk. exists (nth (flat keep k) cols []).
  assert (Hf : flat keep k < length (indices keep)) by (rewrite indices_length; apply flat_lt, Hk).
  pose proof (mapM_nth _ _ _ (flat keep k) [] [] Ec Hf) as Hn. cbv beta in Hn.
  rewrite (nth_indices keep k []) in Hn by exact Hk. split; [exact Hn|].
  intros i Hi. unfold reshape; cbn [get shape].
  replace (unflat [3; prod keep] (flat (3 :: keep) (i :: k))) with [i; flat keep k]; [reflexivity|].
  transitivity (unflat [3; prod keep] (flat [3; prod keep] [i; flat keep k])).
  - symmetry. apply unflat_flat. constructor; [exact Hi|]. constructor; [apply flat_lt, Hk|constructor].
  - f_equal. cbn [flat prod]. lia.
Qed.

(** Sorting integers *)
Lemma zins_perm x l : Permutation (x :: l) (zins x l).
Proof.
  induction l as [|y r IH]; cbn [zins]; [reflexivity|]. destruct (Z.leb x y); [reflexivity|].
  rewrite perm_swap. constructor. exact IH.
Qed.
Lemma zsort_perm l : Permutation l (zsort l).
Proof. induction l as [|x r IH]; cbn [zsort]; [reflexivity|]. rewrite <- zins_perm. constructor. exact IH. Qed.
Lemma zins_sorted x l : StronglySorted Z.le l -> StronglySorted Z.le (zins x l).
Proof.
  induction 1 as [|y r Hr IH Hy]; cbn [zins]; [repeat constructor|].
  destruct (Z.leb_spec x y) as [H|H].
  - constructor; [constructor; assumption|]. constructor; [exact H|].
    eapply Forall_impl; [|exact Hy]. cbv beta. intros a Ha. lia.
  - constructor; [exact IH|]. apply Forall_forall. intros z Hz.
    apply (Permutation_in _ (Permutation_sym (zins_perm x r))) in Hz. destruct Hz as [<-|Hz]; [lia|].
    rewrite Forall_forall in Hy. apply Hy, Hz.
Qed.
Lemma zsort_sorted l : StronglySorted Z.le (zsort l).
Proof. induction l as [|x r IH]; cbn [zsort]; [constructor|apply zins_sorted, IH]. Qed.

(** All axis numbers non-negative, or all negative: the spelling is harmless. *)
Lemma sorted_norm nd l ns :
  StronglySorted Z.le l -> NoDup ns -> (Forall (fun z => 0 <= z)%Z l \/ Forall (fun z => z < 0)%Z l) ->
  Forall2 (fun z n => norm_axis nd z = Ok n) l ns -> StronglySorted lt ns.
Proof.
  intros Hs Hn Hsign H. revert Hs Hn Hsign. induction H as [|z n l ns Hz H IH]; intros Hs Hn Hsign; [constructor|].
  inversion Hs as [|? ? Hs' Hf]; subst. inversion Hn as [|? ? Hx Hn']; subst. constructor.
  - apply IH; try assumption. destruct Hsign as [S|S]; inversion S; subst; [left|right]; assumption.
  - apply Forall_forall. intros y Hy.
    assert (HyE : exists w, In w l /\ norm_axis nd w = Ok y).
    { clear -H Hy. induction H as [|w m l ns Hw H IH]; [destruct Hy|].
      destruct Hy as [->|Hy]; [exists w; split; [left; reflexivity|exact Hw]|].
      destruct (IH Hy) as (w' & Hw' & E). exists w'. split; [right; exact Hw'|exact E]. }
    destruct HyE as (w & Hw & Ew). rewrite Forall_forall in Hf. specialize (Hf w Hw).
    apply norm_axis_ok in Hz as [Hn1 Hz]. apply norm_axis_ok in Ew as [Hy1 Ew].
    assert (n <> y) by (intros ->; contradiction).
    destruct Hsign as [S|S]; inversion S as [|? ? S1 S2]; subst; rewrite Forall_forall in S2; specialize (S2 w Hw); cbv beta in *; lia.
Qed.
Lemma Forall2_perm {A B} (P : A -> B -> Prop) l1 l1' l2 :
  Permutation l1 l1' -> Forall2 P l1 l2 -> exists l2', Permutation l2 l2' /\ Forall2 P l1' l2'.
Proof.
  intros Hp. revert l2. induction Hp as [|x l l' _ IH|x y l|l l' l'' _ IH1 _ IH2]; intros l2 H.
  - exists l2. split; [reflexivity|exact H].
  - inversion H as [|? b ? bs Hx Hr]; subst. destruct (IH _ Hr) as (l2' & P1 & F1).
    exists (b :: l2'). split; [constructor; exact P1|constructor; assumption].
  - inversion H as [|? b1 ? bs1 H1 Hr]; subst. inversion Hr as [|? b2 ? bs2 H2 Hr2]; subst.
    exists (b2 :: b1 :: bs2). split; [apply perm_swap|repeat constructor; assumption].
  - destruct (IH1 _ H) as (m & P1 & F1). destruct (IH2 _ F1) as (m' & P2 & F2).
    exists m'. split; [etransitivity; eassumption|exact F2].
Qed.
Definition same_sign (ax : option (list Z)) : Prop :=
  match ax with None => True | Some l => Forall (fun z => 0 <= z)%Z l \/ Forall (fun z => z < 0)%Z l end.
Lemma Forall_perm {A} (P : A -> Prop) l l' : Permutation l l' -> Forall P l -> Forall P l'.
Proof. intros Hp H. apply Forall_forall. intros x Hx. rewrite Forall_forall in H. apply H. eapply Permutation_in; [symmetry; exact Hp|exact Hx]. Qed.
Lemma zsort_all_axes nd : Forall2 (fun z n => norm_axis nd z = Ok n) (zsort (all_axes nd)) (seq 0 nd).
Proof.
  assert (G : forall k s, s + k <= nd -> zsort (map Z.of_nat (seq s k)) = map Z.of_nat (seq s k)).
  { induction k as [|k IH]; intros s Hs; [reflexivity|]. cbn [seq map zsort]. rewrite IH by lia.
    destruct k; [reflexivity|]. cbn [seq map zins]. destruct (Z.leb_spec (Z.of_nat s) (Z.of_nat (S s))); [reflexivity|lia]. }
  unfold all_axes. rewrite G by lia.
  assert (F : forall k s, s + k <= nd -> Forall2 (fun z n => norm_axis nd z = Ok n) (map Z.of_nat (seq s k)) (seq s k)).
  { induction k as [|k IH]; intros s Hs; cbn [seq map]; [constructor|].
    constructor; [apply norm_axis_nat; lia|apply IH; lia]. }
  apply F. lia.
Qed.
Lemma seq_sorted s n : StronglySorted lt (seq s n).
Proof.
  revert s. induction n as [|n IH]; intros s; cbn [seq]; [constructor|]. constructor; [apply IH|].
  apply Forall_forall. intros x Hx. apply in_seq in Hx. lia.
Qed.
(** the denoted set of axes, sorted, is what the loop sees *)
Lemma same_sign_spelling nd ax ns : axes_are nd ax ns -> same_sign ax ->
  exists ns', Permutation ns ns' /\ sorted_spelling nd ax ns'.
Proof.
  destruct ax as [l|]; cbn [axes_are same_sign].
  - intros [H N] S. destruct (Forall2_perm (fun z n => norm_axis nd z = Ok n) l (zsort l) ns (zsort_perm l)) as (ns' & P & F).
    { revert H. apply Forall2_mono. intros a b. apply axis_is_norm. }
    exists ns'. split; [exact P|]. split; [exact F|].
    apply (sorted_norm nd (zsort l)); [apply zsort_sorted|eapply Permutation_NoDup; eassumption| |exact F].
    destruct S as [S|S]; [left|right]; apply (Forall_perm _ _ _ (zsort_perm l) S).
  - intros -> _. exists (seq 0 nd). split; [reflexivity|]. split; [apply zsort_all_axes|apply seq_sorted].
Qed.
Lemma existsb_perm {A} (f : A -> bool) l l' : Permutation l l' -> existsb f l = existsb f l'.
Proof.
  induction 1 as [|x a b _ IH|x y a|a b c _ IH1 _ IH2]; cbn [existsb]; try congruence.
  destruct (f x), (f y); reflexivity.
Qed.
Lemma mask_of_perm nd ns ns' : Permutation ns ns' -> mask_of nd ns = mask_of nd ns'.
Proof. intros P. unfold mask_of. apply map_ext. intros i. apply existsb_perm, P. Qed.
Lemma kept_perm nd ns ns' ix : Permutation ns ns' -> kept nd ns ix = kept nd ns' ix.
Proof.
  intros P. unfold kept. f_equal. apply filter_ext. intros j. rewrite (existsb_perm _ _ _ P). reflexivity.
Qed.

(** ** boot_vec *)
Definition stat_of (e : boot_env) (s : list num) : num := if skip_nan e then nanmean s else nmean s.
Lemma boot_vec_resamples e rng pop n v :
  boot_vec e rng pop n = Ok v ->
  exists rs, resamples_of pop n (repeats e) rs /\
    triple_of np_quantile ((1 - confidence e) / qz 2)%Qc (1 - (1 - confidence e) / qz 2)%Qc (map (stat_of e) rs) v.
Proof.
  unfold boot_vec. destruct (boot_means e rng pop n) as [means|] eqn:Em; [|discriminate]. cbn [bind].
  destruct (np_quantile means ((1 - confidence e) / qz 2)%Qc) as [lo|] eqn:El; [|discriminate]. cbn [bind].
  destruct (np_quantile means (1 - (1 - confidence e) / qz 2)%Qc) as [hi|] eqn:Eh; [|discriminate]. cbn [bind].
  intros H. injection H as <-. unfold boot_means in Em. apply mapM_inv in Em.
  assert (G : exists rs, means = map (stat_of e) rs /\ length rs = repeats e /\
              forall s, In s rs -> length s = n /\ forall x, In x s -> In x pop).
  { rewrite <- (seq_length (repeats e) 0). revert Em. generalize (seq 0 (repeats e)). clear El Eh. intros l Em.
    induction Em as [|r y l ys Hr Hl IH].
    - exists []. split; [reflexivity|]. split; [reflexivity|]. intros s [].
    - destruct IH as (rs & -> & Hlen & Hrs).
      destruct (choice (rng r) pop n) as [s|] eqn:Es; [|discriminate]. cbn [bind] in Hr. injection Hr as <-.
      exists (s :: rs). split; [reflexivity|]. split; [cbn; congruence|].
      intros s' [<-|Hs']; [|apply Hrs, Hs']. split; [eapply choice_length, Es|]. intros x. eapply choice_in, Es. }
  destruct G as (rs & -> & Hlen & Hrs). exists rs. split; [split; assumption|].
  exists lo, hi. repeat split; assumption.
Qed.

(** Every choice of resamples can be drawn. *)
Lemma choice_complete {A} (pop s : list A) : (forall x, In x s -> In x pop) -> pop <> [] ->
  exists rng, choice rng pop (length s) = Ok s.
Proof.
  intros H Hp. destruct pop as [|d r]; [contradiction|]. clear Hp.
  assert (G : exists f : nat -> nat, forall j, j < length s -> f j < length (d :: r) /\ nth (f j) (d :: r) d = nth j s d).
  { induction s as [|x s IH].
    - exists (fun _ => 0). intros j Hj. cbn in Hj. lia.
    - destruct IH as (f & Hf); [intros y Hy; apply H; right; exact Hy|].
      destruct (In_nth (d :: r) x d) as (i & Hi & Ei); [apply H; left; reflexivity|].
      exists (fun j => match j with 0 => i | S j' => f j' end). intros [|j] Hj; [split; assumption|].
      cbn [length] in Hj. apply Hf. lia. }
  destruct G as (f & Hf). exists f. unfold choice. f_equal.
  apply nth_ext with d d; [rewrite map_length, seq_length; reflexivity|].
  intros i Hi. rewrite map_length, seq_length in Hi. rewrite nth_map_in by (rewrite seq_length; exact Hi).
  rewrite seq_nth by exact Hi. cbn [Nat.add]. destruct (Hf i Hi) as [H1 H2]. rewrite Nat.mod_small by exact H1. exact H2.
Qed.
Lemma boot_means_complete e pop n rs : resamples_of pop n (repeats e) rs -> pop <> [] ->
  exists rng, boot_means e rng pop n = Ok (map (stat_of e) rs).
Proof.
  intros [Hl Hrs] Hp.
  assert (G : exists rng : nat -> nat -> nat, forall i, i < length rs -> choice (rng i) pop n = Ok (nth i rs [])).
  { clear Hl. induction rs as [|s rs IH].
    - exists (fun _ _ => 0). intros i Hi. cbn in Hi. lia.
    - destruct IH as (g & Hg); [intros s' Hs'; apply Hrs; right; exact Hs'|].
      destruct (Hrs s (or_introl eq_refl)) as [Hn Hin]. destruct (choice_complete pop s Hin Hp) as (f & Hf).
      rewrite Hn in Hf. exists (fun i => match i with 0 => f | S i' => g i' end).
      intros [|i] Hi; [exact Hf|]. cbn [length] in Hi. apply Hg. lia. }
  destruct G as (rng & Hrng). exists rng. unfold boot_means.
  rewrite <- Hl. rewrite (mapM_ext _ (fun i => Ok (stat_of e (nth i rs [])))).
  - rewrite (mapM_ok _ (fun i => stat_of e (nth i rs []))) by reflexivity. f_equal.
    rewrite <- (map_map (fun i => nth i rs []) (stat_of e)). f_equal.
    apply nth_ext with [] []; [rewrite map_length, seq_length; reflexivity|].
    intros i Hi. rewrite map_length, seq_length in Hi. rewrite nth_map_in by (rewrite seq_length; exact Hi).
    rewrite seq_nth by exact Hi. reflexivity.
  - intros i Hi. apply in_seq in Hi. rewrite Hrng by lia. reflexivity.
Qed.
