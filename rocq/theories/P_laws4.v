(** Lemmas for C117: mean, variance and errors of the members of one cell. *)
From Coq Require Import ZArith List Bool Arith QArith Qcanon Lia Permutation Lqa.
From Verif Require Import QcTac QSum Num Spec Spec_whole P_laws P_laws2.
Import ListNotations.
Open Scope Qc_scope.

Definition variance_q (ms : list Qc) : Qc := Spec.mean_of (map (fun m => (m - Spec.mean_of ms) * (m - Spec.mean_of ms)) ms).
Lemma mean_f {A} (f : A -> Qc) l : Spec.mean_of (map f l) = qmeanf f l.
Proof. rewrite mean_q. reflexivity. Qed.
Lemma mean_self l : Spec.mean_of l = qmeanf (fun m => m) l.
Proof. rewrite mean_q. unfold qmeanf. rewrite map_id. reflexivity. Qed.
Lemma error_mean y ms : ms <> [] -> Spec.mean_of (map (fun m => m - y) ms) = Spec.mean_of ms - y.
Proof. intros N. rewrite mean_f, (mean_self ms), (qmeanf_minus (fun m => m) (fun _ => y)), qmeanf_const by exact N. reflexivity. Qed.
Lemma square_mean y ms : ms <> [] -> Spec.mean_of (map (fun m => (m - y) * (m - y)) ms) = (Spec.mean_of ms - y) * (Spec.mean_of ms - y) + variance_q ms.
Proof.
  intros N. unfold variance_q. set (a := Spec.mean_of ms). rewrite !mean_f.
  assert (Z : qmeanf (fun m => m - a) ms = 0) by (rewrite (qmeanf_minus (fun m => m) (fun _ => a)), qmeanf_const, <- mean_self by exact N; unfold a; ring).
  rewrite (qmeanf_ext _ (fun m => ((m - a) * (m - a) + (qz 2 * (a - y)) * (m - a)) + (a - y) * (a - y))) by (intros m _; replace (qz 2) with (1 + 1) by (apply Qc_is_canon; reflexivity); ring).
  rewrite !qmeanf_plus, qmeanf_const, qmeanf_scale, Z by exact N. ring.
Qed.
Lemma distance_mean y ms : ms <> [] -> qdist (Spec.mean_of ms) y <= Spec.mean_of (map (fun m => qdist m y) ms).
Proof.
  intros N. rewrite mean_f.
  assert (U : Spec.mean_of ms - y <= qmeanf (fun m => qdist m y) ms).
  { rewrite <- (error_mean y ms N), mean_f. apply qmeanf_le; [exact N|]. intros m _. unfold qdist. destruct (qltb_spec m y); qlra. }
  assert (D : y - Spec.mean_of ms <= qmeanf (fun m => qdist m y) ms).
  { replace (y - Spec.mean_of ms) with (qmeanf (fun m => y - m) ms) by (rewrite (qmeanf_minus (fun _ => y) (fun m => m)), qmeanf_const, <- mean_self by exact N; reflexivity).
    apply qmeanf_le; [exact N|]. intros m _. unfold qdist. destruct (qltb_spec m y); qlra. }
  unfold qdist at 1. destruct (qltb _ _); assumption.
Qed.
Lemma variance_nonneg ms : ms <> [] -> 0 <= variance_q ms.
Proof. intros N. apply mean_nonneg; [exact N|]. intros; apply square_nonneg. Qed.
Lemma variance_zero ms : ms <> [] -> (variance_q ms = 0 <-> forall a b, In a ms -> In b ms -> a = b).
Proof.
  intros N. unfold variance_q. rewrite mean_pos_zero by (try exact N; intros; apply square_nonneg). split.
  - intros H a b Ha Hb. apply H in Ha. apply H in Hb. apply (proj1 (square_zero _)) in Ha. apply (proj1 (square_zero _)) in Hb.
    transitivity (Spec.mean_of ms); [|symmetry]; [replace a with (a - Spec.mean_of ms + Spec.mean_of ms) by ring; rewrite Ha|replace b with (b - Spec.mean_of ms + Spec.mean_of ms) by ring; rewrite Hb]; ring.
  - intros H a Ha. assert (E : Spec.mean_of ms = a) by (rewrite mean_q; apply qmean_const; [exact N|intros b Hb; apply (H b a Hb Ha)]). rewrite E. ring.
Qed.
(** at most a quarter of the square of the range *)
Lemma variance_range lo hi ms : ms <> [] -> (forall m, In m ms -> lo <= m /\ m <= hi) -> qz 4 * variance_q ms <= (hi - lo) * (hi - lo).
Proof.
  intros N B. set (a := Spec.mean_of ms).
  assert (E : qmeanf (fun m => (m - lo) * (hi - m)) ms = (a - lo) * (hi - a) - variance_q ms).
  { unfold variance_q. fold a. rewrite mean_f.
    assert (Z : qmeanf (fun m => m - a) ms = 0) by (rewrite (qmeanf_minus (fun m => m) (fun _ => a)), qmeanf_const, <- mean_self by exact N; unfold a; ring).
    rewrite (qmeanf_ext _ (fun m => (((a - lo) * (hi - a) + (hi + lo - a - a) * (m - a)) - (m - a) * (m - a)))) by (intros; ring).
    rewrite qmeanf_minus, qmeanf_plus, qmeanf_const, qmeanf_scale, Z by exact N. ring. }
  assert (P : 0 <= qmeanf (fun m => (m - lo) * (hi - m)) ms) by (apply qmeanf_nonneg; [exact N|]; intros m Hm; destruct (B m Hm); qnra).
  rewrite E in P. pose proof (square_nonneg (hi + lo - a - a)) as Q.
  replace (qz 4) with (1 + 1 + 1 + 1) by (apply Qc_is_canon; reflexivity).
  set (v := variance_q ms) in *. clearbody v a. clear -P Q.
  assert (I : (hi - lo) * (hi - lo) - (1 + 1 + 1 + 1) * v = (1 + 1 + 1 + 1) * ((a - lo) * (hi - a) - v) + (hi + lo - a - a) * (hi + lo - a - a)) by ring.
  set (p := (a - lo) * (hi - a) - v) in *. set (q := (hi + lo - a - a) * (hi + lo - a - a)) in *. set (w := (hi - lo) * (hi - lo)) in *. clearbody p q w.
  set (z := (1 + 1 + 1 + 1) * v) in *. clearbody z. assert (J : w = p + p + p + p + q + z) by (replace (p + p + p + p + q) with ((1 + 1 + 1 + 1) * p + q) by ring; rewrite <- I; ring). rewrite J. clear -P Q. qlra.
Qed.
Lemma variance_perm ms ms' : Permutation ms ms' -> variance_q ms = variance_q ms'.
Proof.
  intros P. unfold variance_q. assert (E : Spec.mean_of ms = Spec.mean_of ms') by (rewrite !mean_q; apply qmean_perm, P).
  rewrite E, !mean_q. apply qmean_perm, Permutation_map, P.
Qed.
Lemma variance_convert a b ms : ms <> [] -> variance_q (map (fun m => a * m + b) ms) = a * a * variance_q ms.
Proof.
  intros N. unfold variance_q. rewrite map_map.
  assert (E : Spec.mean_of (map (fun m => a * m + b) ms) = a * Spec.mean_of ms + b).
  { rewrite mean_f, (qmeanf_plus (fun m => a * m) (fun _ => b)), qmeanf_const, (qmeanf_scale (fun m => m)), <- mean_self by exact N. reflexivity. }
  rewrite E. apply mean_scaled. intros m _. ring.
Qed.
Lemma variance_repeat k ms : (0 < k)%nat -> ms <> [] -> variance_q (flat_map (fun m => repeat m k) ms) = variance_q ms.
Proof.
  intros K N. assert (E : forall f : Qc -> Qc, Spec.mean_of (map f (flat_map (fun m => repeat m k) ms)) = Spec.mean_of (map f ms)).
  { intros f. rewrite !mean_f, !qmeanf_eq, sum_repeat, length_repeat, qn_mult. apply length_pos in N. field. split; apply qn_neq0; assumption. }
  unfold variance_q. assert (Em : Spec.mean_of (flat_map (fun m => repeat m k) ms) = Spec.mean_of ms) by (pose proof (E (fun m => m)) as H; rewrite !map_id in H; exact H).
  rewrite Em. apply E.
Qed.
(** averaging over members and over cells can be done in either order *)
Lemma mean_swap {A B} (g : A -> B -> Qc) (l : list A) (k : list B) : l <> [] -> k <> [] ->
  Spec.mean_of (map (fun a => Spec.mean_of (map (g a) k)) l) = Spec.mean_of (map (fun b => Spec.mean_of (map (fun a => g a b) l)) k).
Proof.
  intros Nl Nk. rewrite !mean_f. rewrite (qmeanf_ext _ (fun a => qmeanf (g a) k)) by (intros; apply mean_f). rewrite (qmeanf_ext (fun b => Spec.mean_of _) (fun b => qmeanf (fun a => g a b) l)) by (intros; apply mean_f).
  rewrite !qmeanf_eq. rewrite (qsumf_ext _ (fun a => qsumf (g a) k / qn (length k))) by (intros; apply qmeanf_eq). rewrite (qsumf_ext (fun b => qmeanf _ l) (fun b => qsumf (fun a => g a b) l / qn (length l))) by (intros; apply qmeanf_eq).
  unfold Qcdiv. rewrite !qsumf_scale_r, (qsumf_swap g). ring.
Qed.
Lemma mean_nth (g : Qc -> Qc) ms c : length ms = c -> Spec.mean_of (map (fun j => g (nth j ms 0)) (seq 0 c)) = Spec.mean_of (map g ms).
Proof.
  intros <-. f_equal. rewrite <- (map_map (fun j => nth j ms 0) g). f_equal. induction ms as [|m ms IH]; [reflexivity|]. cbn [length seq map nth]. f_equal. rewrite <- seq_shift, map_map. exact IH.
Qed.
Lemma mean_plus {A} (f g : A -> Qc) l : Spec.mean_of (map (fun a => f a + g a) l) = Spec.mean_of (map f l) + Spec.mean_of (map g l).
Proof. rewrite !mean_f. apply qmeanf_plus. Qed.
Lemma mean_le {A} (f g : A -> Qc) l : l <> [] -> (forall a, In a l -> f a <= g a) -> Spec.mean_of (map f l) <= Spec.mean_of (map g l).
Proof. intros N H. rewrite !mean_f. apply qmeanf_le; assumption. Qed.
