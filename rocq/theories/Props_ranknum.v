(** Property C67, continued: names with several rank numbers. *)
From Coq Require Import ZArith NArith String Ascii QArith Qcanon List Bool Arith Lia.
From Verif Require Import QcTac Num NdArr M_io Spec_io Props_io.
Import ListNotations.
Open Scope nat_scope.

(** the rank numbers in a file name, from left to right, as they are written *)
Inductive numbers : list ascii -> list (list ascii) -> Prop :=
| numbers_none s : no_rank s -> numbers s []
| numbers_more pre d post l : no_rank pre -> d <> [] -> Forall digit d -> (forall c r, post = c :: r -> ~ digit c) -> numbers post l ->
    numbers (pre ++ rank ++ d ++ post) (d :: l).
(** a path with these numbers in the name of the file *)
Definition named (path : list ascii) (l : list (list ascii)) : Prop :=
  exists dir name, path = dir ++ name /\ (dir = [] \/ exists e, dir = e ++ ["/"%char]) /\ ~ In "/"%char name /\ numbers name l.

Lemma findall_numbers s l : numbers s l -> forall k, length s <= k -> findall k s = l.
Proof.
  induction 1 as [s N|pre d post l N Nd F P H IH]; intros k L; [apply findall_none, N|].
  revert k L. induction pre as [|x pre IHp]; intros k L.
  - destruct k as [|k]; [cbn in L; lia|]. unfold rank. cbn [app findall]. rewrite digits_app by assumption. destruct d as [|c d]; [elim Nd; reflexivity|]. rewrite IH; [reflexivity|]. cbn [app length] in L. rewrite !app_length in L. cbn [length] in L. rewrite app_length in L. lia.
  - destruct k as [|k]; [cbn in L; lia|]. rewrite findall_skip by (apply begins_app; [exact N|discriminate]). cbn [tl app]. apply IHp; [|cbn [app length] in L; lia].
    intros (a & c & b & E & D). apply N. exists (x :: a), c, b. rewrite E. auto.
Qed.
Lemma value_snoc d c : value (d ++ [c]) = (10 * value d + N.of_nat (nat_of_ascii c - 48))%N.
Proof. unfold value. rewrite fold_left_app. reflexivity. Qed.
Lemma value_inj d e : length d = length e -> Forall digit d -> Forall digit e -> value d = value e -> d = e.
Proof.
  revert e. induction d as [|c d IH] using rev_ind; intros e L Fd Fe V.
  - destruct e; [reflexivity|discriminate].
  - destruct e as [|c' e _] using rev_ind; [rewrite app_length in L; cbn in L; lia|]. rewrite !app_length in L. cbn [length] in L.
    apply Forall_app in Fd as [Fd Fc]. apply Forall_app in Fe as [Fe Fc']. apply Forall_inv in Fc. apply Forall_inv in Fc'. unfold digit in Fc, Fc'.
    rewrite !value_snoc in V. assert (V1 : value d = value e) by lia. assert (V2 : nat_of_ascii c = nat_of_ascii c') by lia.
    rewrite (IH e) by (auto; lia). f_equal. f_equal. rewrite <- (ascii_nat_embedding c), <- (ascii_nat_embedding c'), V2. reflexivity.
Qed.
Lemma concat_inj (l m : list (list ascii)) : map (@length _) l = map (@length _) m -> concat l = concat m -> l = m.
Proof.
  revert m. induction l as [|d l IH]; intros [|e m] L E; try discriminate; [reflexivity|]. cbn [map concat] in *. injection L as L1 L2.
  assert (X : d = e /\ concat l = concat m). { clear - L1 E. revert e L1 E. induction d as [|c d IH]; intros [|c' e] L1 E; try discriminate; [auto|]. cbn in *. injection E as -> E. destruct (IH e) as [-> ->]; auto. }
  destruct X as [-> X]. f_equal. apply IH; assumption.
Qed.
Lemma numbers_digits s l : numbers s l -> Forall digit (concat l).
Proof. induction 1; [constructor|]. cbn [concat]. apply Forall_app. auto. Qed.
Lemma start_of path l ds n a : named path l -> dim_len ds "num_stations" = Some n -> add_coords path "num_stations" ds = Ok a ->
  stations a = Some (map (fun k => (qz (Z.of_N (value (concat l))) + qn k / qn n)%Qc) (seq 0 n)).
Proof.
  intros (dir & name & -> & Hd & Hs & Nu) L. unfold add_coords. rewrite basename_app by assumption. rewrite (findall_numbers _ _ Nu) by apply Nat.le_refl.
  destruct (passert _) as [[]|e]; [|discriminate]. cbn [bind]. rewrite L, Nat.eqb_refl. intros E. injection E as <-. reflexivity.
Qed.
Lemma apart v w i n j m : v <> w -> i < n -> j < m -> (qz (Z.of_N v) + qn i / qn n)%Qc <> (qz (Z.of_N w) + qn j / qn m)%Qc.
Proof.
  assert (Lt : forall v w i n j m, (v < w)%N -> i < n -> j < m -> (qz (Z.of_N v) + qn i / qn n < qz (Z.of_N w) + qn j / qn m)%Qc).
  { clear. intros v w i n j m Hv Hi Hj. destruct (frac_bounds i n Hi) as [_ B1], (frac_bounds j m Hj) as [B2 _]. assert (Z : (qz (Z.of_N v) + 1 <= qz (Z.of_N w))%Qc). { change 1%Qc with (qz 1). rewrite <- qz_plus. apply (proj1 (qz_le _ _)). lia. }
    revert B1 B2 Z. generalize (qn i / qn n)%Qc (qn j / qn m)%Qc (qz (Z.of_N v)) (qz (Z.of_N w)). intros. qlra. }
  intros Nv Hi Hj E. destruct (N.lt_total v w) as [C|[C|C]]; [|contradiction|].
  - pose proof (Lt _ _ _ _ _ _ C Hi Hj) as X. rewrite E in X. revert X. generalize (qz (Z.of_N w) + qn j / qn m)%Qc. intros. qlra.
  - pose proof (Lt _ _ _ _ _ _ C Hj Hi) as X. rewrite E in X. revert X. generalize (qz (Z.of_N w) + qn j / qn m)%Qc. intros. qlra.
Qed.
(** When the numbers are written with the same widths (for instance with leading zeros), files with different numbers share no
    coordinate, whatever their numbers of stations.  Missing from the full statement: numbers of different widths, see
    c67_joined_refuted. *)
Theorem c67_same_widths_partial : forall p q l m ds1 ds2 n1 n2 a b x y, named p l -> named q m ->
  map (@length ascii) l = map (@length ascii) m -> l <> m ->
  dim_len ds1 "num_stations" = Some n1 -> dim_len ds2 "num_stations" = Some n2 ->
  add_coords p "num_stations" ds1 = Ok a -> add_coords q "num_stations" ds2 = Ok b -> stations a = Some x -> stations b = Some y ->
  length x = n1 /\ length y = n2 /\ forall c, In c x -> ~ In c y.
Proof.
  intros p q l m ds1 ds2 n1 n2 a b x y Np Nq W D L1 L2 E1 E2 S1 S2.
  rewrite (start_of _ _ _ _ _ Np L1 E1) in S1. injection S1 as <-. rewrite (start_of _ _ _ _ _ Nq L2 E2) in S2. injection S2 as <-.
  rewrite !map_length, !seq_length. split; [reflexivity|]. split; [reflexivity|]. intros c Hx Hy. apply in_map_iff in Hx as (i & <- & Hi), Hy as (j & E & Hj). apply in_seq in Hi, Hj. symmetry in E. revert E. apply apart; [|lia|lia].
  destruct Np as (dp & np & _ & _ & _ & Np), Nq as (dq & nq & _ & _ & _ & Nq). intros V. apply D, concat_inj; [exact W|]. apply value_inj; try (eapply numbers_digits; eassumption); [|exact V].
  clear - W. revert m W. induction l as [|d l IH]; intros [|e m] W; try discriminate; [reflexivity|]. cbn [concat map] in *. injection W as W1 W2. rewrite !app_length, (IH m W2), W1. reflexivity.
Qed.
Print Assumptions c67_same_widths_partial.
(** out/t-Rank01-Rank23.nc and out/t-Rank12-Rank03.nc *)
Example c67_same_widths_inhabited : named (chars "out/t-Rank01-Rank23.nc") [chars "01"; chars "23"] /\ named (chars "out/t-Rank12-Rank03.nc") [chars "12"; chars "03"] /\
  let ds := Dataset [("num_stations"%string, 2)] None in
  add_coords (chars "out/t-Rank01-Rank23.nc") "num_stations" ds = Ok (Dataset (dims ds) (Some [qz 123 + qn 0 / qn 2; qz 123 + qn 1 / qn 2]))%Qc /\
  add_coords (chars "out/t-Rank12-Rank03.nc") "num_stations" ds = Ok (Dataset (dims ds) (Some [qz 1203 + qn 0 / qn 2; qz 1203 + qn 1 / qn 2]))%Qc.
Proof.
  assert (H : forall c1 c2 c3 c4, digit c1 -> digit c2 -> digit c3 -> digit c4 -> ~ In "/"%char [c1; c2; c3; c4] ->
    named (chars "out/" ++ chars "t-" ++ rank ++ [c1; c2] ++ chars "-" ++ rank ++ [c3; c4] ++ chars ".nc") [[c1; c2]; [c3; c4]]).
  { intros c1 c2 c3 c4 D1 D2 D3 D4 S. exists (chars "out/"), (chars "t-" ++ rank ++ [c1; c2] ++ chars "-" ++ rank ++ [c3; c4] ++ chars ".nc"). split; [reflexivity|]. split; [right; exists (chars "out"); reflexivity|]. split.
    - unfold chars, rank. cbn. cbn in S. intuition (try discriminate).
    - apply (numbers_more (chars "t-") [c1; c2] (chars "-" ++ rank ++ [c3; c4] ++ chars ".nc")); [apply no_rank_short; cbn; lia|discriminate|repeat (apply Forall_cons; [assumption|]); apply Forall_nil|intros c r E; injection E as <- _; unfold digit; vm_compute; lia|].
      apply (numbers_more (chars "-") [c3; c4] (chars ".nc")); [apply no_rank_short; cbn; lia|discriminate|repeat (apply Forall_cons; [assumption|]); apply Forall_nil|intros c r E; injection E as <- _; unfold digit; vm_compute; lia|].
      apply numbers_none, no_rank_short. cbn. lia. }
  split; [apply (H "0" "1" "2" "3")%char; try (vm_compute; lia); cbn; intuition discriminate|].
  split; [apply (H "1" "2" "0" "3")%char; try (vm_compute; lia); cbn; intuition discriminate|]. split; reflexivity.
Qed.
