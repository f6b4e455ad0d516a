(** Lemmas for C91: the values between the two parts of the reliability diagram; shares of members and bins. *)
From Coq Require Import String ZArith List Lia Bool Arith QArith Qcanon.
From Verif Require Import QcTac QSum Num NdArr Numpy M_common M_boot M_special M_rel Spec Spec_prob P_rel Store M_state M_whole Spec_whole P_whole M_whole2.
Import ListNotations.
Open Scope nat_scope.

(** ** Encoding *)
Lemma to_int_qz z : to_int (Fin (qz z)) = z.
Proof.
  assert (F : forall k, Qround.Qfloor (this (qz k)) = k).
  { intros k. unfold qz, Q2Qc. cbn [this]. rewrite (Qred_correct (inject_Z k)). apply Qround.Qfloor_Z. }
  unfold to_int. destruct (qltb _ _); [|apply F].
  replace (- qz z)%Qc with (qz (- z)); [rewrite F; lia|]. unfold qz. apply Qc_is_canon. cbn. rewrite !Qred_correct, inject_Z_opp. reflexivity.
Qed.
Lemma ints_of_val (a : arr Z) : arr_eq (ints_of (ints_val a)) a.
Proof.
  split; [reflexivity|]. intros ix V. cbn [ints_of amap get shape] in *.
  change (get (arr_of (ints_val a)) ix) with (reads (ints_val a) ix). unfold ints_val. rewrite reads_val by exact V. apply to_int_qz.
Qed.
Lemma ravel_vec_of l : ravel (arr_of (vec_of l)) = l.
Proof. unfold vec_of. rewrite ravel_of_val. cbn [of_list]. apply (ravel_of_list NaN [length l] l). cbn. lia. Qed.
Lemma flat_in (sh : list nat) : forall ix, Forall2 lt ix sh -> flat sh ix < prod sh.
Proof. intros ix H. apply flat_lt, H. Qed.
Lemma arr_eq_refl {A} (a : arr A) : arr_eq a a. Proof. split; reflexivity. Qed.
Lemma col_reshape {A} (a b : arr A) n m i : arr_eq a b -> prod (shape a) = n * m -> i < m -> col (reshape [n; m] a) i = col (reshape [n; m] b) i.
Proof.
  intros [Hs Hg] P Hi. unfold col. cbn [shape hd reshape]. apply map_ext_in. intros r Hr. apply in_seq in Hr. cbn [get reshape]. rewrite <- Hs. apply Hg. apply unflat_valid. rewrite P.
  assert (V : valid [n; m] [r; i]) by (repeat constructor; lia). pose proof (flat_lt _ _ V) as L. cbn [prod] in L. lia.
Qed.
Lemma mapM_ext {A B} (f g : A -> res B) l : (forall x, In x l -> f x = g x) -> mapM f l = mapM g l.
Proof. intros H. induction l as [|a l IH]; cbn [mapM]; [reflexivity|]. rewrite (H a (or_introl eq_refl)), IH; [reflexivity|]. intros x I. apply H. right. exact I. Qed.
Lemma rel_agg_eq ids ids' p p' t t' bins : arr_eq ids ids' -> arr_eq p p' -> arr_eq t t' -> shape ids = shape t -> shape p = shape t ->
  rel_agg ids p t bins = rel_agg ids' p' t' bins.
Proof.
  intros I P T Si Sp. unfold rel_agg. rewrite <- (proj1 T). destruct (shape t) as [|n keep] eqn:E; cbn [tl hd].
  - rewrite (ravel_eq _ _ I), (ravel_eq _ _ P), (ravel_eq _ _ T). reflexivity.
  - destruct keep as [|m r]; [rewrite (ravel_eq _ _ I), (ravel_eq _ _ P), (ravel_eq _ _ T); reflexivity|]. set (keep := m :: r) in *.
    rewrite (mapM_ext _ (fun i => rel_slice (col (reshape [n; prod keep] ids') i) (col (reshape [n; prod keep] p') i) (col (reshape [n; prod keep] t') i) bins)); [reflexivity|].
    intros i Hi. apply in_seq in Hi. rewrite (col_reshape ids ids'), (col_reshape p p'), (col_reshape t t'); try assumption; try lia; rewrite ?Si, ?Sp, ?E; reflexivity.
Qed.
Lemma split_round s : match split_of (split_val s) with
  | Some (ids, f, o, bins) => shape (fst (fst (fst s))) = shape (snd (fst s)) -> shape (snd (fst (fst s))) = shape (snd (fst s)) ->
      rel_agg ids f o bins = rel_agg (fst (fst (fst s))) (snd (fst (fst s))) (snd (fst s)) (snd s)
  | None => False end.
Proof.
  destruct s as [[[ids f] o] bins]. cbn [split_val split_of fst snd]. intros Si Sf. rewrite ravel_vec_of.
  apply rel_agg_eq; first [apply ints_of_val|apply arr_of_val|assumption].
Qed.
Lemma rel_split_shapes f o nb ax ids f2 o2 bins : rel_split f o nb ax = Ok (ids, f2, o2, bins) -> shape ids = shape o2 /\ shape f2 = shape o2.
Proof.
  unfold rel_split. unfold passert. destruct (list_eqb _ _); [|discriminate]. cbn [bind]. destruct (move_loop _ _ f) as [ft|]; [|discriminate]. cbn [bind].
  destruct (move_loop _ _ o) as [ot|]; [|discriminate]. cbn [bind]. destruct ft as [f1 ta]. destruct (prod _); [discriminate|]. intros H. injection H as <- <- <- <-. split; reflexivity.
Qed.

(** ** Shares of at most nineteen members fall into different bins *)
Open Scope Qc_scope.
Lemma qn_div_le a b c d : (0 < b)%nat -> (0 < d)%nat -> qn a / qn b <= qn c / qn d -> (a * d <= c * b)%nat.
Proof.
  intros Hb Hd H. pose proof (qn_neq0 b Hb) as NB. pose proof (qn_neq0 d Hd) as ND. apply qn_le. rewrite !qn_mult.
  replace (qn a * qn d) with ((qn a / qn b) * (qn b * qn d)) by (field; auto). replace (qn c * qn b) with ((qn c / qn d) * (qn b * qn d)) by (field; auto).
  apply Qcmult_le_compat_r; [exact H|]. rewrite <- qn_mult. apply qn_nonneg.
Qed.
Lemma qn_div_lt a b c d : (0 < b)%nat -> (0 < d)%nat -> qn a / qn b < qn c / qn d -> (a * d < c * b)%nat.
Proof.
  intros Hb Hd H. pose proof (qn_neq0 b Hb) as NB. pose proof (qn_neq0 d Hd) as ND. apply qn_lt. rewrite !qn_mult.
  replace (qn a * qn d) with ((qn a / qn b) * (qn b * qn d)) by (field; auto). replace (qn c * qn b) with ((qn c / qn d) * (qn b * qn d)) by (field; auto).
  apply Qcmult_lt_compat_r; [|exact H]. rewrite <- qn_mult. apply qn_pos. nia.
Qed.
Lemma share_bins n i j b : (0 < n)%nat -> (n <= 19)%nat -> (i <= n)%nat -> (j <= n)%nat ->
  in_bin 20 (qn i / qn n) b -> in_bin 20 (qn j / qn n) b -> i = j.
Proof.
  intros Hn H19 Hi Hj (B & I1 & I2) (_ & J1 & J2).
  apply qn_div_le in I1; [|lia|lia]. apply qn_div_le in J1; [|lia|lia].
  destruct (Nat.eq_dec b 19) as [->|Nb]; [lia|].
  destruct I2 as [I2|I2]; [|lia]. destruct J2 as [J2|J2]; [|lia].
  apply qn_div_lt in I2; [|lia|lia]. apply qn_div_lt in J2; [|lia|lia]. nia.
Qed.
Lemma how_many_le {A} (p : A -> bool) l : (how_many p l <= length l)%nat.
Proof. unfold how_many. induction l as [|a l IH]; cbn; [lia|]. destruct (p a); cbn; lia. Qed.
Lemma share_bounds over t ms : ms <> [] -> 0 <= member_share over t ms /\ member_share over t ms <= 1.
Proof.
  intros N. unfold member_share. set (c := how_many _ _). assert (L : (0 < length ms)%nat) by (destruct ms; [contradiction|cbn; lia]).
  assert (C : (c <= length ms)%nat) by apply how_many_le. pose proof (qn_neq0 _ L). pose proof (qn_pos _ L).
  assert (I : 0 <= / qn (length ms)).
  { apply Qcnot_lt_le. intros Z. assert (X : / qn (length ms) * qn (length ms) < 0 * qn (length ms)) by (apply Qcmult_lt_compat_r; assumption).
    rewrite Qcmult_inv_l in X by assumption. rewrite Qcmult_0_l in X. discriminate X. }
  unfold Qcdiv. split.
  - replace 0 with (0 * / qn (length ms)) by ring. apply Qcmult_le_compat_r; [apply qn_nonneg|exact I].
  - replace 1 with (qn (length ms) * / qn (length ms)) by (apply Qcmult_inv_r; assumption). apply Qcmult_le_compat_r; [apply qn_le, C|exact I].
Qed.
