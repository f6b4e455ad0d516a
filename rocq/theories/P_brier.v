(** Proofs about the Brier decomposition of one slice. *)
From Coq Require Import ZArith List Lia Bool Arith Permutation QArith Qcanon.
From Verif Require Import QcTac QSum Num NdArr Numpy M_common Spec Spec_prob M_boot RTier M_special P_boot.
Import ListNotations.
Open Scope Qc_scope.

(** ** The decomposition identity for an arbitrary grouping *)
Section Groups.
  Context {A : Type}.
  Variables (S : list A) (bin : A -> nat).
  Let gm (g : A -> Qc) (b : nat) : Qc := qmeanf g (filter (fun y => Nat.eqb (bin y) b) S).
  Definition bm (g : A -> Qc) (x : A) : Qc := gm g (bin x).
  Lemma bm_bin_mean g x : bm g x = bin_mean bin g S x. Proof. reflexivity. Qed.
  Let nbins := Datatypes.S (list_max (map bin S)).
  Lemma bin_bound x : In x S -> (bin x < nbins)%nat.
  Proof.
    intros H. unfold nbins. apply Nat.lt_succ_r. pose proof (proj1 (list_max_le (map bin S) (list_max (map bin S))) (le_n _)) as F.
    rewrite Forall_forall in F. apply F. apply in_map, H.
  Qed.
  (** a sum over samples of a function of the bin and deviations from the bin mean *)
  Lemma bin_deviation g (h : nat -> Qc) : qsumf (fun x => (g x - bm g x) * h (bin x)) S = 0.
  Proof.
    rewrite <- (qsumf_partition _ bin nbins S bin_bound).
    rewrite (qsumf_ext _ (fun _ => 0)); [apply qsumf_zero|]. intros b _. set (T := filter (fun x => Nat.eqb (bin x) b) S).
    destruct T as [|t T'] eqn:ET; [reflexivity|]. assert (HT : T <> []) by (rewrite ET; discriminate). rewrite <- ET.
    rewrite (qsumf_ext _ (fun x => h b * (g x - gm g b))).
    - rewrite qsumf_scale, qsumf_minus, qsumf_const. pose proof (qmeanf_sum g T HT) as E. unfold gm. fold T. rewrite E. ring.
    - intros x Hx. unfold T in Hx. apply filter_In in Hx as [_ Hx]. apply Nat.eqb_eq in Hx. unfold bm. rewrite Hx. ring.
  Qed.
  Lemma bin_sum g : qsumf (bm g) S = qsumf g S.
  Proof.
    pose proof (bin_deviation g (fun _ => 1)) as H. rewrite (qsumf_ext _ (fun x => g x - bm g x)) in H by (intros; ring).
    rewrite qsumf_minus in H. change (qsumf g S - qsumf (bm g) S = 0) in H. qlra.
  Qed.
  Variables (f o : A -> Qc).
  Let F := bm f. Let O := bm o.
  Lemma square_split : qsumf (fun x => (f x - o x) * (f x - o x)) S
    = qsumf (fun x => (F x - O x) * (F x - O x)) S + qsumf (fun x => (o x - O x) * (o x - O x)) S
      + qsumf (fun x => (f x - F x) * (f x - F x)) S - qz 2 * qsumf (fun x => (f x - F x) * (o x - O x)) S.
  Proof.
    pose proof (bin_deviation f (fun b => gm f b - gm o b)) as D1. pose proof (bin_deviation o (fun b => gm f b - gm o b)) as D2.
    assert (E : qsumf (fun x => (f x - o x) * (f x - o x)) S
      = qsumf (fun x => (((F x - O x) * (F x - O x) + (o x - O x) * (o x - O x)) + ((f x - F x) * (f x - F x) - qz 2 * ((f x - F x) * (o x - O x))))
         + (qz 2 * ((f x - bm f x) * (gm f (bin x) - gm o (bin x))) - qz 2 * ((o x - bm o x) * (gm f (bin x) - gm o (bin x))))) S).
    { apply qsumf_ext. intros x _. unfold F, O, bm. change (qz 2) with (1 + 1). ring. }
    rewrite E. rewrite qsumf_plus, qsumf_plus, qsumf_plus, !qsumf_minus, !qsumf_scale, D1, D2. ring.
  Qed.
  (** the outcome variance inside bins *)
  Lemma inner_variance : qsumf (fun x => (o x - O x) * (o x - O x)) S = qsumf (fun x => o x * o x) S - qsumf (fun x => O x * O x) S.
  Proof.
    pose proof (bin_deviation o (gm o)) as D.
    rewrite (qsumf_ext _ (fun x => (o x * o x - O x * O x) - qz 2 * ((o x - bm o x) * gm o (bin x)))).
    - rewrite qsumf_minus, qsumf_minus, qsumf_scale, D. ring.
    - intros x _. unfold O, bm. change (qz 2) with (1 + 1). ring.
  Qed.
  Lemma resolution_sum ob : qsumf O S = qn (length S) * ob ->
    qsumf (fun x => (O x - ob) * (O x - ob)) S = qsumf (fun x => O x * O x) S - qn (length S) * (ob * ob).
  Proof.
    intros H. rewrite (qsumf_ext _ (fun x => (O x * O x - qz 2 * ob * O x) + ob * ob)).
    - rewrite qsumf_plus, qsumf_minus, qsumf_scale, qsumf_const. change (qsumf (fun x => O x) S) with (qsumf O S). rewrite H. change (qz 2) with (1 + 1). ring.
    - intros x _. change (qz 2) with (1 + 1). ring.
  Qed.
End Groups.

(** ** Bins *)
Lemma brier_bins_eq : brier_bins = map (fun i => Fin (qn i / qn 20)) (seq 1 19).
Proof. qcomp. Qed.
Lemma count_le_seq k n : (k <= n)%nat -> count (fun i => Nat.leb i k) (seq 1 n) = k.
Proof.
  intros H. replace n with (k + (n - k))%nat by lia. rewrite seq_app, count_app.
  rewrite (count_all _ (seq 1 k)), seq_length; [|intros x Hx; apply in_seq in Hx; apply Nat.leb_le; lia].
  rewrite count_none; [lia|]. intros x Hx. apply in_seq in Hx. apply Nat.leb_gt. lia.
Qed.
Lemma brier_digitize p k : in_bin 20 p k -> digitize brier_bins (Fin p) = k.
Proof.
  intros (Hk & Hlo & Hhi). unfold digitize. cbn [is_nan]. rewrite brier_bins_eq, count_map.
  rewrite (count_ext _ (fun i => Nat.leb i k)); [apply count_le_seq; lia|]. intros i Hi. apply in_seq in Hi. cbn [nle].
  assert (P : 0 < qn 20) by (apply qn_pos; lia).
  destruct (Nat.leb_spec i k) as [H|H].
  - apply qleb_le. eapply Qcle_trans; [|exact Hlo]. apply Qcdiv_le_iff; [exact P|]. unfold Qcdiv. rewrite <- Qcmult_assoc, Qcmult_inv_l, Qcmult_1_r by (apply qn_neq0; lia). apply qn_le, H.
  - apply qleb_gt. destruct Hhi as [Hhi|Hhi]; [|lia]. eapply Qclt_le_trans; [exact Hhi|].
    apply Qcdiv_le_iff; [exact P|]. unfold Qcdiv. rewrite <- Qcmult_assoc, Qcmult_inv_l, Qcmult_1_r by (apply qn_neq0; lia). apply qn_le. lia.
Qed.
Lemma in_bin_fun nb p k k' : in_bin nb p k -> in_bin nb p k' -> k = k'.
Proof.
  intros (H1 & H2 & H3) (H1' & H2' & H3').
  assert (P : 0 < qn nb) by (apply qn_pos; lia).
  assert (G : forall a b, (b < nb)%nat -> (qn b / qn nb <= p) -> (p < qn (S a) / qn nb \/ a = (nb - 1)%nat) -> (b <= a)%nat).
  { intros a b Hb Hl [Hh|Hh]; [|lia]. assert (X : qn b / qn nb < qn (S a) / qn nb) by (eapply Qcle_lt_trans; eassumption).
    apply (proj1 (Qcdiv_lt_iff _ _ _ P)) in X. unfold Qcdiv in X. rewrite <- Qcmult_assoc, Qcmult_inv_l, Qcmult_1_r in X by (apply qn_neq0; lia). apply qn_lt in X. lia. }
  pose proof (G k k' H1' H2' H3). pose proof (G k' k H1 H2 H3'). lia.
Qed.
Lemma in_bin_exists nb p : (0 < nb)%nat -> 0 <= p -> exists k, in_bin nb p k.
Proof.
  intros Hn H0. assert (P : 0 < qn nb) by (apply qn_pos; lia). set (h := p * qn nb).
  assert (Hh : 0 <= h) by (unfold h; qnra). destruct (qfloor_nat_spec h Hh) as [A B].
  destruct (le_lt_dec nb (qfloor_nat h)) as [L|L].
  - exists (nb - 1)%nat. split; [lia|]. split; [|right; reflexivity]. apply Qcdiv_le_iff; [exact P|]. fold h. eapply Qcle_trans; [|exact A]. apply qn_le. lia.
  - exists (qfloor_nat h). split; [exact L|]. split; [apply Qcdiv_le_iff; [exact P|]; exact A|]. left. apply Qclt_div_iff; [exact P|]. fold h. rewrite qn_S. qlra.
Qed.

(** ** The model on finite samples *)
Section Point.
  Context {A : Type}.
  Variables (S : list A) (p o : A -> Qc) (skip : bool).
  Let key x := digitize brier_bins (Fin (p x)).
  Let fs := map (fun x => Fin (p x)) S.
  Let os := map (fun x => Fin (o x)) S.
  Lemma brier_bin_spec b : brier_bin b fs os = map (fun x => (Fin (p x), Fin (o x))) (filter (fun x => Nat.eqb (key x) b) S).
  Proof.
    unfold brier_bin, fs, os, key. induction S as [|x l IH]; [reflexivity|]. cbn [map combine filter fst].
    destruct (Nat.eqb (digitize brier_bins (Fin (p x))) b); cbn [map]; rewrite <- IH; reflexivity.
  Qed.
  Lemma mean_any (g : A -> Qc) T : T <> [] -> (if skip then nanmean else nmean) (map (fun x => Fin (g x)) T) = Fin (qmeanf g T).
  Proof.
    intros H. rewrite <- (map_map g Fin). assert (map g T <> []) by (intros E; apply H; eapply map_eq_nil, E).
    destruct skip; [rewrite nanmean_fin|rewrite nmean_fin]; auto.
  Qed.
  Lemma fold_bins (G : list (num * num) -> num) (gq : nat -> Qc) nb start s0 :
    (forall b, filter (fun x => Nat.eqb (key x) b) S <> [] -> G (brier_bin b fs os) = Fin (gq b)) ->
    fold_left (fun acc b => let s := brier_bin b fs os in if Nat.eqb (length s) 0 then acc else nadd acc (nmul (nnat (length s)) (nsq (G s)))) (seq s0 nb) (Fin start)
    = Fin (start + qsumf (fun b => qsumf (fun x => gq (key x) * gq (key x)) (filter (fun x => Nat.eqb (key x) b) S)) (seq s0 nb)).
  Proof.
    intros HG. revert start s0. induction nb as [|nb IH]; intros start s0; cbn [seq fold_left].
    { rewrite qsumf_nil. f_equal. ring. }
    rewrite qsumf_cons. cbv zeta in *. set (T := filter (fun x => Nat.eqb (key x) s0) S) in *.
    assert (Hl : length (brier_bin s0 fs os) = length T) by (rewrite brier_bin_spec, map_length; reflexivity). rewrite Hl.
    destruct T as [|t T'] eqn:ET.
    - cbn [length Nat.eqb]. rewrite IH. rewrite qsumf_nil. f_equal. ring.
    - assert (HT : T <> []) by (rewrite ET; discriminate). rewrite <- ET in *. rewrite HG by exact HT.
      replace (Nat.eqb (length T) 0) with false by (rewrite ET; reflexivity).
      cbn [nnat nsq nmul nadd]. rewrite IH. f_equal.
      rewrite (qsumf_ext (fun x => gq (key x) * gq (key x)) (fun _ => gq s0 * gq s0) T).
      + rewrite qsumf_const. ring.
      + intros x Hx. unfold T in Hx. apply filter_In in Hx as [_ Hx]. apply Nat.eqb_eq in Hx. rewrite Hx. reflexivity.
  Qed.
  Lemma brier_point_fin : S <> [] ->
    let N := qn (length S) in let ob := qmeanf o S in
    brier_point skip fs os = Ok
      [Fin (qsumf (fun x => (bm S key p x - bm S key o x) * (bm S key p x - bm S key o x)) S / N);
       Fin (qsumf (fun x => (bm S key o x - ob) * (bm S key o x - ob)) S / N);
       Fin (ob * (1 - ob))].
  Proof.
    intros HS N ob. unfold brier_point. assert (Eo : (if skip then nanmean else nmean) os = Fin ob) by (apply mean_any, HS).
    destruct fs as [|f0 fr] eqn:Ef; [unfold fs in Ef; apply map_eq_nil in Ef; contradiction|]. rewrite <- Ef. rewrite Eo.
    assert (Hlen : length fs = length S) by (unfold fs; apply map_length). rewrite Hlen.
    set (nb := Datatypes.S (list_max (map (digitize brier_bins) fs))).
    assert (Hb : forall x, In x S -> (key x < nb)%nat).
    { intros x Hx. unfold nb, fs. rewrite map_map. apply (bin_bound S key), Hx. }
    assert (M : forall b, filter (fun x => Nat.eqb (key x) b) S <> [] ->
      (if skip then nanmean else nmean) (map fst (brier_bin b fs os)) = Fin (qmeanf p (filter (fun x => Nat.eqb (key x) b) S)) /\
      (if skip then nanmean else nmean) (map snd (brier_bin b fs os)) = Fin (qmeanf o (filter (fun x => Nat.eqb (key x) b) S))).
    { intros b Hne. rewrite brier_bin_spec, !map_map. cbn [fst snd]. split; apply mean_any, Hne. }
    cbv zeta in *.
    pose proof (fold_bins (fun s => nsub ((if skip then nanmean else nmean) (map fst s)) ((if skip then nanmean else nmean) (map snd s)))
      (fun b => qmeanf p (filter (fun x => Nat.eqb (key x) b) S) - qmeanf o (filter (fun x => Nat.eqb (key x) b) S)) nb 0 0) as E1.
    pose proof (fold_bins (fun s => nsub ((if skip then nanmean else nmean) (map snd s)) (Fin ob))
      (fun b => qmeanf o (filter (fun x => Nat.eqb (key x) b) S) - ob) nb 0 0) as E2.
    cbv zeta in E1, E2. rewrite E1, E2; [| |].
    - rewrite !(qsumf_partition _ key nb S Hb). rewrite !Qcplus_0_l. unfold nnat, ndiv. fold N.
      assert (HN : qeqb N 0 = false) by (apply qeqb_neq, qn_neq0, length_pos, HS). rewrite HN. cbn [nsub nopp nadd nmul].
      reflexivity.
    - intros b Hne. rewrite (proj2 (M b Hne)). reflexivity.
    - intros b Hne. rewrite (proj1 (M b Hne)), (proj2 (M b Hne)). reflexivity.
  Qed.
End Point.
