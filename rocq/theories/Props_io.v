(** Properties C55-C58 and C67: matrix files, station coordinates, names, settings. *)
From Coq Require Import ZArith NArith String Ascii QArith Qcanon List Bool Arith Lia DecimalString DecimalNat.
From Verif Require Import QcTac Num NdArr M_integ M_io Spec_io.
Import ListNotations.
Open Scope nat_scope.

(** ** C55 *)
Lemma until_app c a b : ~ contains c a -> until c (a ++ String c b)%string = Some (a, b).
Proof.
  induction a as [|x a IH]; intros N; cbn.
  - rewrite Ascii.eqb_refl. reflexivity.
  - destruct (Ascii.eqb_spec x c) as [->|D]; [elim N; left; reflexivity|]. rewrite IH by (intros H; apply N; right; exact H). reflexivity.
Qed.
Lemma after_app p s : after p (p ++ s)%string = Some s.
Proof. induction p as [|x p IH]; cbn; [destruct s; reflexivity|]. rewrite Ascii.eqb_refl. exact IH. Qed.
Lemma contains_app c a b : contains c (a ++ b)%string <-> contains c a \/ contains c b.
Proof. induction a as [|x a IH]; cbn; [tauto|]. rewrite IH. tauto. Qed.
Lemma sapp_assoc a b c : ((a ++ b) ++ c = a ++ (b ++ c))%string.
Proof. induction a as [|x a IH]; cbn; [reflexivity|]. rewrite IH. reflexivity. Qed.
Lemma uint_chars d c : contains c (NilEmpty.string_of_uint d) -> 48 <= nat_of_ascii c <= 57.
Proof. induction d as [|d IH|d IH|d IH|d IH|d IH|d IH|d IH|d IH|d IH|d IH]; cbn [NilEmpty.string_of_uint contains]; [intros []| | | | | | | | | |]; (intros [<-|H]; [vm_compute; lia|apply IH, H]). Qed.
Lemma natstr_chars n c : contains c (natstr n) -> 48 <= nat_of_ascii c <= 57.
Proof.
  unfold natstr, NilZero.string_of_uint. destruct (Nat.to_uint n) as [|d|d|d|d|d|d|d|d|d|d]; [intros [<-|[]]; vm_compute; lia| | | | | | | | | |]; apply uint_chars.
Qed.
Lemma number_natstr n : number (natstr n) = Some n.
Proof. unfold number, natstr. rewrite NilZero.usu by (rewrite <- (Unsigned.of_to n), Unsigned.to_of; apply DecimalFacts.unorm_nonnil). cbn. rewrite Unsigned.of_to. reflexivity. Qed.
Lemma entries_join l : Forall (fun s => ~ contains "," s) l -> entries (length l) (join ", " l) = Some l.
Proof.
  induction l as [|x l IH]; intros F; [reflexivity|]. inversion F as [|? ? Fx Fl]; subst. destruct l as [|y l]; [reflexivity|].
  cbn [length]. change (entries (S (S (length l))) ?s) with (obind (until "," s) (fun p => obind (after " " (snd p)) (fun s' => option_map (cons (fst p)) (entries (S (length l)) s')))).
  change (join ", " (x :: y :: l)) with (x ++ String "," (String " " (join ", " (y :: l))))%string. rewrite until_app by exact Fx. cbn [obind fst snd after Ascii.eqb Bool.eqb]. specialize (IH Fl). cbn [length] in IH. rewrite IH. reflexivity.
Qed.
Lemma join_chars c sep l : contains c (join sep l) -> contains c sep \/ exists x, In x l /\ contains c x.
Proof.
  induction l as [|x l IH]; [intros []|]. destruct l as [|y l]; [intros H; right; exists x; split; [left; reflexivity|exact H]|].
  change (join sep (x :: y :: l)) with (x ++ sep ++ join sep (y :: l))%string. rewrite !contains_app. intros [H|[H|H]]; [right; exists x; split; [left; reflexivity|exact H]|left; exact H|].
  destruct (IH H) as [X|(z & I & X)]; [left; exact X|right; exists z; split; [right; exact I|exact X]].
Qed.
Section C55.
Variable dirname : string -> string.
Variable str_of : num -> string.
(** how an entry is shown *)
Definition shown_entry (x : num) : string := match x with NaN => "nan"%string | _ => str_of x end.
Definition shown_matrix (mat : arr num) (r c : nat) : list (list string) := map (fun i => map (fun j => shown_entry (get mat [i; j])) (seq 0 c)) (seq 0 r).
Hypothesis str_plain : forall x, plain (str_of x).
Lemma shown_plain x : plain (shown_entry x).
Proof. destruct x; try apply str_plain. unfold plain. cbn. repeat split; intuition discriminate. Qed.
Lemma rows_text mat c s k b : rows k c (join "" (map (row_text str_of mat c) (seq b k)) ++ s)%string =
  Some (map (fun i => map (fun j => shown_entry (get mat [i; j])) (seq 0 c)) (seq b k), s).
Proof.
  revert b. induction k as [|k IH]; intros b; [reflexivity|]. cbn [seq map].
  assert (J : forall x l, join "" (x :: l) = (x ++ join "" l)%string). { intros x [|y l]; [|reflexivity]. cbn. induction x; cbn; congruence. }
  rewrite J. unfold row_text at 1. set (e := map _ (seq 0 c)).
  assert (Ee : e = map (fun j => shown_entry (get mat [b; j])) (seq 0 c)) by (apply map_ext; intros j; unfold shown_entry; destruct (get mat [b; j]); reflexivity).
  clearbody e. subst e. set (e := map _ _). rewrite !sapp_assoc. cbn [rows append]. rewrite after_app with (p := "("%string) || cbn [after Ascii.eqb Bool.eqb]. cbn [obind].
  rewrite until_app.
  - cbn [obind fst snd]. change (String "," (nl ++ join "" (map (row_text str_of mat c) (seq (S b) k)) ++ s)) with (String "," line_end ++ (join "" (map (row_text str_of mat c) (seq (S b) k)) ++ s))%string.
    rewrite after_app. cbn [obind]. replace c with (length e) at 1 by (unfold e; rewrite map_length, seq_length; reflexivity). rewrite entries_join; [|apply Forall_forall; intros x Hx; unfold e in Hx; apply in_map_iff in Hx as (j & <- & _); apply shown_plain].
    cbn [obind]. rewrite IH. reflexivity.
  - intros H. apply join_chars in H as [H|(x & Hx & H)]; [cbn in H; intuition discriminate|]. unfold e in Hx. apply in_map_iff in Hx as (j & <- & _). revert H. apply shown_plain.
Qed.
Lemma text_read mat r c : read_matrix (matrix_text str_of mat r c) = Some (r, c, shown_matrix mat r c).
Proof.
  unfold read_matrix, matrix_text. change ("[" ++ ?x)%string with (String "[" x). cbn [after Ascii.eqb Bool.eqb obind]. change (", " ++ ?x)%string with (String "," (String " " x)).
  rewrite until_app by (intros H; apply natstr_chars in H; vm_compute in H; lia). cbn [obind fst snd after Ascii.eqb Bool.eqb]. change ("]" ++ ?x)%string with (String "]" x).
  rewrite until_app by (intros H; apply natstr_chars in H; vm_compute in H; lia). cbn [obind fst snd].
  change (nl ++ "(" ++ nl ++ ?x)%string with ((line_end ++ "(" ++ line_end) ++ x)%string. rewrite after_app. cbn [obind]. rewrite !number_natstr. cbn [obind]. rewrite rows_text. reflexivity.
Qed.
(** What was written can be read back, and only the named file changes. *)
Theorem c55_round_trip : forall file mat overwrite fs b fs', write_matrix dirname str_of file mat overwrite fs = (Ok b, fs') ->
  b = true /\ (exists r c s, shape mat = [r; c] /\ fs' file = Text s /\ read_matrix s = Some (r, c, shown_matrix mat r c)) /\
  (forall q, q <> file -> fs' q = fs q) /\ (overwrite = false -> fs file = Absent).
Proof.
  intros file mat ov fs b fs' E. unfold write_matrix in E. destruct (shape mat) as [|r [|c [|]]] eqn:Es; try discriminate E.
  destruct (exists_file fs file && negb ov) eqn:X; [discriminate|]. unfold write_file in E.
  set (fs1 := fun q => if String.eqb q file then Text (matrix_text str_of mat r c) else fs q) in E.
  assert (Y : b = true /\ fs' = fs1) by (destruct (fs file); [destruct (fs (dirname file)); try discriminate E| |]; try discriminate E; injection E as <- <-; auto).
  destruct Y as [-> ->]. split; [reflexivity|]. split; [|split].
  - exists r, c, (matrix_text str_of mat r c). split; [reflexivity|]. split; [unfold fs1; rewrite String.eqb_refl; reflexivity|apply text_read].
  - intros q N. unfold fs1. destruct (String.eqb_spec q file); [contradiction|reflexivity].
  - intros ->. unfold exists_file in X. destruct (fs file); [reflexivity|discriminate X|discriminate X].
Qed.
(** A call that raises changes nothing. *)
Theorem c55_raised : forall file mat overwrite fs e fs', write_matrix dirname str_of file mat overwrite fs = (Raise e, fs') -> fs' = fs.
Proof.
  intros file mat ov fs e fs' E. unfold write_matrix in E. destruct (shape mat) as [|r [|c [|]]]; try (injection E as <- <-; reflexivity).
  destruct (_ && _); [injection E as <- <-; reflexivity|]. destruct (write_file _ _ _ _); [discriminate|injection E as <- <-; reflexivity].
Qed.
(** Without [overwrite] an existing file or folder is refused and nothing changes. *)
Theorem c55_kept : forall file mat fs r c, shape mat = [r; c] -> fs file <> Absent -> write_matrix dirname str_of file mat false fs = (Raise PlainException, fs).
Proof. intros file mat fs r c E N. unfold write_matrix, exists_file. rewrite E. destruct (fs file); [elim N; reflexivity|reflexivity|reflexivity]. Qed.
(** Every matrix can be written to a new name in a folder, and over a file with [overwrite]. *)
Theorem c55_accepts : forall file mat overwrite fs r c, shape mat = [r; c] ->
  (fs file = Absent /\ fs (dirname file) = Folder) \/ (overwrite = true /\ exists s, fs file = Text s) ->
  exists fs', write_matrix dirname str_of file mat overwrite fs = (Ok true, fs').
Proof.
  intros file mat ov fs r c E H. unfold write_matrix, exists_file, write_file. rewrite E. destruct H as [[-> ->]|[-> (s & ->)]]; eexists; reflexivity.
Qed.
End C55.
Print Assumptions c55_round_trip.
Print Assumptions c55_raised.
Print Assumptions c55_kept.
Print Assumptions c55_accepts.
(** a 2 x 2 matrix with a NaN, written and read; a matrix without columns; an existing file *)
Definition w_show (x : num) : string := match x with Fin q => pystr (Qnum (this q)) | PInf => "inf" | NInf => "-inf" | NaN => "nan" end%string.
Definition w_folder : files := fun p => if String.eqb p "d" then Folder else if String.eqb p "d/old" then Text "x" else Absent.
Definition w_mat : arr num := of_list NaN [2; 2] [Fin (qz (-3)); NaN; PInf; Fin (qz 12)].
Example c55_nonvacuous : exists fs' s, write_matrix (fun _ => "d"%string) w_show "d/new" w_mat false w_folder = (Ok true, fs') /\ fs' "d/new"%string = Text s /\
  read_matrix s = Some (2, 2, [["-3"; "nan"]; ["inf"; "12"]]%string) /\ read_matrix (matrix_text w_show (of_list NaN [2; 0] []) 2 0) = Some (2, 0, [[]; []]).
Proof. do 2 eexists. split; [vm_compute; reflexivity|]. split; [vm_compute; reflexivity|]. split; vm_compute; reflexivity. Qed.
Lemma w_show_plain x : plain (w_show x).
Proof.
  assert (U : forall d c, contains c (NilEmpty.string_of_uint d) -> 48 <= nat_of_ascii c <= 57) by apply uint_chars.
  assert (P : forall s, (forall c, contains c s -> 48 <= nat_of_ascii c <= 57 \/ nat_of_ascii c = 45) -> plain s).
  { intros s H. repeat split; intros C; apply H in C; vm_compute in C; lia. }
  destruct x; try (cbn; unfold plain; cbn; repeat split; intuition discriminate). apply P. intros c. unfold w_show, pystr. destruct (Z.to_int _) as [d|d]; cbn [NilZero.string_of_int].
  - unfold NilZero.string_of_uint. destruct d; try (intros H; left; apply (U _ _ H)). intros [<-|[]]. vm_compute. lia.
  - intros [<-|H]; [right; reflexivity|]. left. unfold NilZero.string_of_uint in H. destruct d; try apply (U _ _ H). destruct H as [<-|[]]. vm_compute. lia.
Qed.
Example c55_kept_nonvacuous : write_matrix (fun _ => "d"%string) w_show "d/old" w_mat false w_folder = (Raise PlainException, w_folder) /\
  exists fs', write_matrix (fun _ => "d"%string) w_show "d/old" w_mat true w_folder = (Ok true, fs') /\ fs' "d/old"%string <> w_folder "d/old"%string.
Proof. split; [vm_compute; reflexivity|]. eexists. split; [vm_compute; reflexivity|]. vm_compute. discriminate. Qed.

(** ** C56 *)
Lemma is_digit_spec c : is_digit c = true <-> digit c.
Proof. unfold is_digit, digit. rewrite andb_true_iff, !Nat.leb_le. tauto. Qed.
Lemma digits_app d post : Forall digit d -> (forall c r, post = c :: r -> ~ digit c) -> digits (d ++ post) = (d, post).
Proof.
  intros F N. induction F as [|c d Hc F IH]; cbn [app digits].
  - destruct post as [|c r]; [reflexivity|]. cbn. destruct (is_digit c) eqn:E; [|reflexivity]. apply is_digit_spec in E. elim (N c r eq_refl E).
  - apply is_digit_spec in Hc. rewrite Hc, IH. reflexivity.
Qed.
Lemma numeral_digits d n : numeral d n -> Forall digit d /\ value d = n.
Proof.
  induction 1 as [|d n c H [F V] Hc]; [split; [constructor|reflexivity]|]. split; [apply Forall_app; auto|]. unfold value in *. rewrite fold_left_app. cbn [fold_left]. rewrite V. reflexivity.
Qed.
(** whether the text begins with a match *)
Definition begins (s : list ascii) : bool :=
  match s with ("R" :: "a" :: "n" :: "k" :: c :: _)%char => is_digit c | _ => false end.
Lemma findall_skip k s : begins s = false -> findall (S k) s = findall k (tl s).
Proof.
  intros B. destruct s as [|a s]; [destruct k; reflexivity|]. unfold begins in B. cbn [findall tl].
  repeat match goal with
  | |- match ?a with Ascii _ _ _ _ _ _ _ _ => _ end = _ => destruct a
  | |- (if ?b then _ else _) = _ => destruct b; try reflexivity
  | |- match ?s with [] => _ | _ :: _ => _ end = _ => destruct s; try reflexivity
  end.
  destruct s as [|c t]; [reflexivity|]. cbn [digits]. cbn beta iota in B. rewrite B. reflexivity.
Qed.
Lemma no_rank_begins s : begins s = true -> exists c b, s = rank ++ c :: b /\ digit c.
Proof.
  unfold begins. intros B.
  repeat match type of B with
  | match ?a with Ascii _ _ _ _ _ _ _ _ => _ end = _ => destruct a
  | (if ?b then _ else _) = _ => destruct b; try discriminate B
  | match ?s with [] => _ | _ :: _ => _ end = _ => destruct s; try discriminate B
  end.
  do 2 eexists. split; [reflexivity|]. apply is_digit_spec. exact B.
Qed.
Lemma findall_none s : no_rank s -> forall k, findall k s = [].
Proof.
  intros N k. revert s N. induction k as [|k IH]; intros s N; [reflexivity|]. destruct (begins s) eqn:B.
  - apply no_rank_begins in B as (c & b & E & D). elim N. exists [], c, b. auto.
  - rewrite findall_skip by exact B. apply IH. intros (a & c & b & E & D). apply N. destruct s as [|x s]; [exists a, c, b; auto|]. exists (x :: a), c, b. cbn in *. rewrite E. auto.
Qed.
Lemma begins_app pre t : no_rank pre -> pre <> [] -> begins (pre ++ rank ++ t) = false.
Proof.
  intros N NE. destruct (begins (pre ++ rank ++ t)) eqn:B; [|reflexivity]. apply no_rank_begins in B as (c & b & E & D).
  destruct pre as [|a1 [|a2 [|a3 [|a4 [|a5 pre]]]]]; [elim NE; reflexivity| | | | |]; unfold rank in E; cbn in E; try discriminate E.
  - injection E as -> -> -> -> <- _. vm_compute in D. lia.
  - injection E as -> -> -> -> -> _. elim N. exists [], c, pre. auto.
Qed.
Lemma findall_rank k pre d post : no_rank pre -> d <> [] -> Forall digit d -> (forall c r, post = c :: r -> ~ digit c) -> no_rank post ->
  length (pre ++ rank ++ d ++ post) <= k -> findall k (pre ++ rank ++ d ++ post) = [d].
Proof.
  intros N Nd F P Np. revert k. induction pre as [|x pre IH]; intros k L.
  - destruct k as [|k]; [cbn in L; lia|]. unfold rank. cbn [app findall]. rewrite digits_app by assumption. destruct d as [|c d]; [elim Nd; reflexivity|]. rewrite findall_none by exact Np. reflexivity.
  - destruct k as [|k]; [cbn in L; lia|]. rewrite findall_skip by (apply begins_app; [exact N|discriminate]). cbn [tl app]. apply IH; [|cbn [app length] in L; lia].
    intros (a & c & b & E & D). apply N. exists (x :: a), c, b. rewrite E. auto.
Qed.
Lemma basename_app dir name : (dir = [] \/ exists e, dir = e ++ ["/"%char]) -> ~ In "/"%char name -> basename (dir ++ name) = name.
Proof.
  intros H N. assert (B : forall l, existsb (Ascii.eqb "/") l = true <-> In "/"%char l).
  { intros l. rewrite existsb_exists. split; [intros (x & I & E); apply Ascii.eqb_eq in E; congruence|intros I; exists "/"%char; auto]. }
  destruct H as [->|(e & ->)].
  - destruct name as [|c r]; [reflexivity|]. cbn [app basename]. destruct (existsb _ (c :: r)) eqn:E; [apply B in E; contradiction|reflexivity].
  - rewrite <- app_assoc. induction e as [|x e IH].
    + cbn [app]. cbn [basename]. rewrite (proj2 (B _)) by (left; reflexivity). destruct name as [|c r]; [reflexivity|]. cbn [basename]. destruct (existsb _ (c :: r)) eqn:E; [apply B in E; contradiction|reflexivity].
    + cbn [app]. cbn [basename]. rewrite (proj2 (B _)) by (right; apply in_or_app; right; left; reflexivity). exact IH.
Qed.
Lemma dim_len_of ds d n : dim_len ds d = Some n <-> dimension (dims ds) d n.
Proof.
  unfold dim_len, dimension. induction (dims ds) as [|[e m] l IH]; cbn [find fst].
  - split; [discriminate|]. intros ([|x a] & b & E & _); discriminate E.
  - destruct (String.eqb_spec e d) as [->|D].
    + cbn. split; [intros [= ->]; exists [], l; split; [reflexivity|intros []]|]. intros ([|x a] & b & E & N); [injection E as <- _; reflexivity|]. injection E as <- _. elim N. left; reflexivity.
    + rewrite IH. split; intros (a & b & E & N).
      * exists ((e, m) :: a), b. rewrite E. split; [reflexivity|]. intros [X|X]; [exact (D X)|exact (N X)].
      * destruct a as [|x a]; injection E as E1 E2; [congruence|]. exists a, b. split; [exact E2|]. intros X. apply N. right. exact X.
Qed.
Lemma dim_len_none ds d : dim_len ds d = None <-> ~ In d (map fst (dims ds)).
Proof.
  unfold dim_len. induction (dims ds) as [|[e m] l IH]; cbn [find fst map In]; [tauto|]. destruct (String.eqb_spec e d) as [->|D]; [cbn; split; [discriminate|intros N; elim N; auto]|]. rewrite IH. tauto.
Qed.
(** The stations of a file with one rank number [v] in its name get v, v + 1/n, ... *)
Theorem c56_coords : forall path v ds n, ranked path v -> dimension (dims ds) "num_stations" n ->
  exists ds' l, add_coords path "num_stations" ds = Ok ds' /\ stations ds' = Some l /\ dims ds' = dims ds /\ length l = n /\
  forall k, k < n -> nth k l 0%Qc = (qz (Z.of_N v) + qn k / qn n)%Qc.
Proof.
  intros path v ds n (dir & pre & d & post & -> & Hd & Hs & Nd & Nu & N1 & N2 & P) L. apply dim_len_of in L. destruct (numeral_digits _ _ Nu) as [F V].
  unfold add_coords. rewrite basename_app by assumption. rewrite findall_rank by (assumption || apply Nat.le_refl). cbn [length Nat.eqb negb passert bind concat]. rewrite app_nil_r, V, L, Nat.eqb_refl.
  do 2 eexists. split; [reflexivity|]. split; [reflexivity|]. split; [reflexivity|]. split; [rewrite map_length, seq_length; reflexivity|].
  intros k Hk. rewrite (nth_indep _ _ (qz (Z.of_N v) + qn 0 / qn n)%Qc) by (rewrite map_length, seq_length; exact Hk). rewrite (map_nth (fun k => (qz (Z.of_N v) + qn k / qn n)%Qc)), seq_nth by exact Hk. reflexivity.
Qed.
Lemma frac_bounds k n : k < n -> (0 <= qn k / qn n)%Qc /\ (qn k / qn n < 1)%Qc.
Proof.
  intros H. assert (P : (0 < qn n)%Qc) by (apply qn_pos; lia). split; [apply Qcdiv_nonneg; [apply qn_nonneg|exact P]|]. apply Qcdiv_lt_iff; [exact P|]. rewrite Qcmult_1_l. apply qn_lt. exact H.
Qed.
(** Stations of files with different rank numbers are ordered by rank number; stations of one file by position. *)
Theorem c56_ordered : forall p1 p2 v1 v2 ds1 ds2 n1 n2 a1 a2 l1 l2 k1 k2, ranked p1 v1 -> ranked p2 v2 ->
  dimension (dims ds1) "num_stations" n1 -> dimension (dims ds2) "num_stations" n2 ->
  add_coords p1 "num_stations" ds1 = Ok a1 -> add_coords p2 "num_stations" ds2 = Ok a2 -> stations a1 = Some l1 -> stations a2 = Some l2 ->
  k1 < n1 -> k2 < n2 ->
  ((v1 < v2)%N -> (nth k1 l1 0 < nth k2 l2 0)%Qc) /\ (v1 = v2 -> n1 = n2 -> k1 < k2 -> (nth k1 l1 0 < nth k2 l2 0)%Qc) /\
  (v1 <> v2 -> nth k1 l1 0%Qc <> nth k2 l2 0%Qc).
Proof.
  intros p1 p2 v1 v2 ds1 ds2 n1 n2 a1 a2 l1 l2 k1 k2 R1 R2 L1 L2 E1 E2 S1 S2 H1 H2.
  destruct (c56_coords p1 v1 ds1 n1 R1 L1) as (b1 & m1 & X1 & Y1 & _ & _ & G1). destruct (c56_coords p2 v2 ds2 n2 R2 L2) as (b2 & m2 & X2 & Y2 & _ & _ & G2).
  assert (b1 = a1) by congruence. assert (b2 = a2) by congruence. subst b1 b2. assert (m1 = l1) by congruence. assert (m2 = l2) by congruence. subst m1 m2. rewrite G1, G2 by assumption.
  assert (Lt : forall v w i n j m, (v < w)%N -> i < n -> j < m -> (qz (Z.of_N v) + qn i / qn n < qz (Z.of_N w) + qn j / qn m)%Qc).
  { intros v w i n j m Hv Hi Hj. destruct (frac_bounds i n Hi) as [_ B1], (frac_bounds j m Hj) as [B2 _]. assert (Z : (qz (Z.of_N v) + 1 <= qz (Z.of_N w))%Qc). { change 1%Qc with (qz 1). rewrite <- qz_plus. apply (proj1 (qz_le _ _)). lia. }
    revert B1 B2 Z. generalize (qn i / qn n)%Qc (qn j / qn m)%Qc (qz (Z.of_N v)) (qz (Z.of_N w)). intros. qlra. }
  split; [|split].
  - intros Hv. apply Lt; assumption.
  - intros <- <- Hk. assert (P : (0 < qn n1)%Qc) by (apply qn_pos; lia). assert (D : (qn k1 / qn n1 < qn k2 / qn n1)%Qc) by (apply Qcdiv_lt_iff; [exact P|]; rewrite Qcmult_comm, Qcmult_div_r by (apply qn_neq0; lia); apply qn_lt, Hk).
    revert D. generalize (qn k1 / qn n1)%Qc (qn k2 / qn n1)%Qc (qz (Z.of_N v1)). intros. qlra.
  - intros Nv E. destruct (N.lt_total v1 v2) as [C|[C|C]]; [|contradiction|].
    + pose proof (Lt _ _ _ _ _ _ C H1 H2) as X. rewrite E in X. revert X. generalize (qz (Z.of_N v2) + qn k2 / qn n2)%Qc. intros. qlra.
    + pose proof (Lt _ _ _ _ _ _ C H2 H1) as X. rewrite E in X. revert X. generalize (qz (Z.of_N v2) + qn k2 / qn n2)%Qc. intros. qlra.
Qed.
Print Assumptions c56_coords.
Print Assumptions c56_ordered.
(** A name without a rank number, or a dataset without the dimension, is refused. *)
Theorem c56_refused : forall path dim ds, no_rank (basename path) \/ ~ In dim (map fst (dims ds)) -> exists e, add_coords path dim ds = Raise e /\ e = AssertionError.
Proof.
  intros path dim ds [N|N]; [|apply dim_len_none in N]; exists AssertionError; (split; [|reflexivity]); unfold add_coords; [rewrite findall_none by exact N; reflexivity|].
  rewrite N. destruct (passert _) as [[]|e] eqn:P; [reflexivity|]. unfold passert in P. destruct (negb _); [discriminate P|]. injection P as <-. reflexivity.
Qed.
Print Assumptions c56_refused.
Definition chars := list_ascii_of_string.
Lemma w_ranked a d b n : ~ In "/"%char (a ++ rank ++ d ++ b) -> d <> [] -> numeral d n -> no_rank a -> no_rank b -> (forall c r, b = c :: r -> ~ digit c) -> ranked (chars "out/" ++ a ++ rank ++ d ++ b) n.
Proof. intros. exists (chars "out/"), a, d, b. split; [reflexivity|]. split; [right; exists (chars "out"); reflexivity|]. auto 10. Qed.
Lemma no_rank_short s : length s < 5 -> no_rank s.
Proof. intros L (a & c & b & -> & _). rewrite !app_length in L. cbn in L. lia. Qed.
(** files out/a-Rank07.nc and out/a-Rank12.nc *)
Example c56_nonvacuous : ranked (chars "out/a-Rank07.nc") 7 /\ ranked (chars "out/a-Rank12.nc") 12 /\
  add_coords (chars "out/a-Rank07.nc") "num_stations" (Dataset [("num_stations"%string, 2)] None) = Ok (Dataset [("num_stations"%string, 2)] (Some [qz 7 + qn 0 / qn 2; qz 7 + qn 1 / qn 2]))%Qc.
Proof.
  assert (H : forall c1 c2 n, digit c1 -> digit c2 -> c1 <> "/"%char -> c2 <> "/"%char -> n = (10 * (10 * 0 + N.of_nat (nat_of_ascii c1 - 48)) + N.of_nat (nat_of_ascii c2 - 48))%N -> ranked (chars "out/" ++ chars "a-" ++ rank ++ [c1; c2] ++ chars ".nc") n).
  { intros c1 c2 n D1 D2 S1 S2 ->. apply w_ranked.
    - unfold chars, rank. cbn. intuition (try discriminate); try congruence.
    - discriminate.
    - change [c1; c2] with (([] ++ [c1]) ++ [c2]). apply numeral_snoc; [apply numeral_snoc; [constructor|exact D1]|exact D2].
    - apply no_rank_short. cbn. lia.
    - apply no_rank_short. cbn. lia.
    - intros c r E. injection E as <- _. unfold digit. vm_compute. lia. }
  split; [apply (H "0" "7")%char; [vm_compute; lia|vm_compute; lia|discriminate|discriminate|reflexivity]|].
  split; [apply (H "1" "2")%char; [vm_compute; lia|vm_compute; lia|discriminate|discriminate|reflexivity]|]. reflexivity.
Qed.

(** ** C67: names with several rank numbers *)
(** The numbers are joined, so that different names give the same coordinates. *)
Theorem c67_joined_refuted : exists p q, findall (length p) p = [chars "1"; chars "23"] /\ findall (length q) q = [chars "12"; chars "3"] /\
  forall n, 0 < n -> exists ds a l, dim_len ds "num_stations" = Some n /\ add_coords p "num_stations" ds = Ok a /\ add_coords q "num_stations" ds = Ok a /\ stations a = Some l /\ length l = n.
Proof.
  exists (chars "t-Rank1-Rank23.nc"), (chars "t-Rank12-Rank3.nc"). split; [reflexivity|]. split; [reflexivity|]. intros n Hn. exists (Dataset [("num_stations"%string, n)] None). do 2 eexists. split; [reflexivity|].
  unfold add_coords. change (findall _ (basename (chars "t-Rank1-Rank23.nc"))) with [chars "1"; chars "23"]. change (findall _ (basename (chars "t-Rank12-Rank3.nc"))) with [chars "12"; chars "3"].
  cbn [length Nat.eqb negb passert bind]. change (dim_len _ "num_stations") with (Some n). cbv iota. rewrite Nat.eqb_refl. split; [reflexivity|]. split; [reflexivity|]. split; [reflexivity|]. rewrite map_length. apply seq_length.
Qed.
Print Assumptions c67_joined_refuted.

(** ** C57 *)
Lemma mapM_ok {A B} (f : A -> res B) g l : (forall x, In x l -> f x = Ok (g x)) -> mapM f l = Ok (map g l).
Proof. induction l as [|x l IH]; intros H; [reflexivity|]. cbn [mapM map]. rewrite H by (left; reflexivity). cbn [bind]. rewrite IH by (intros y Hy; apply H; right; exact Hy). reflexivity. Qed.
Lemma join_cons x l : join "" (x :: l) = (x ++ join "" l)%string.
Proof. destruct l; [|reflexivity]. cbn. induction x; cbn; congruence. Qed.
Definition cell_text (c : ascii) : string := if nat_of_ascii c =? 0 then EmptyString else String c EmptyString.
Lemma row_decode row : join "" (map cell_text row) = string_of_list_ascii (filter (fun c => negb (nat_of_ascii c =? 0)) row).
Proof.
  induction row as [|c row IH]; [reflexivity|]. cbn [map filter]. rewrite join_cons, IH. unfold cell_text. destruct (nat_of_ascii c =? 0); reflexivity.
Qed.
(** ASCII matrices decode to their rows without the NULs; other matrices raise. *)
Theorem c57_general : forall mat, (Forall (Forall (fun c => nat_of_ascii c < 128)) mat ->
    decode_name_matrix mat = Ok (map (fun row => string_of_list_ascii (filter (fun c => negb (nat_of_ascii c =? 0)) row)) mat)) /\
  (~ Forall (Forall (fun c => nat_of_ascii c < 128)) mat -> decode_name_matrix mat = Raise ValueError).
Proof.
  intros mat.
  assert (R1 : forall row, Forall (fun c => nat_of_ascii c < 128) row -> mapM astype_str row = Ok (map cell_text row)).
  { intros row F. apply mapM_ok. rewrite Forall_forall in F. intros c Hc. specialize (F c Hc). unfold astype_str, cell_text. destruct (nat_of_ascii c =? 0); [reflexivity|]. destruct (Nat.ltb_spec (nat_of_ascii c) 128); [reflexivity|lia]. }
  assert (R2 : forall row, ~ Forall (fun c => nat_of_ascii c < 128) row -> mapM astype_str row = Raise ValueError).
  { induction row as [|c row IH]; intros N; [elim N; constructor|]. cbn [mapM]. unfold astype_str at 1. destruct (Nat.eqb_spec (nat_of_ascii c) 0) as [Z|Z].
    - cbn [bind]. rewrite IH; [reflexivity|]. intros F. apply N. constructor; [lia|exact F].
    - destruct (Nat.ltb_spec (nat_of_ascii c) 128) as [L|L]; [|reflexivity]. cbn [bind]. rewrite IH; [reflexivity|]. intros F. apply N. constructor; assumption. }
  assert (D : forall row, Forall (fun c => nat_of_ascii c < 128) row \/ ~ Forall (fun c => nat_of_ascii c < 128) row).
  { intros row. destruct (Forall_dec (fun c => nat_of_ascii c < 128) (fun c => lt_dec _ _) row); auto. }
  unfold decode_name_matrix. split.
  - intros F. rewrite (mapM_ok (mapM astype_str) (map cell_text)) by (rewrite Forall_forall in F; intros row Hr; apply R1, F, Hr). cbn [rmap]. rewrite map_map. f_equal. apply map_ext. apply row_decode.
  - intros N. cut (mapM (mapM astype_str) mat = Raise ValueError); [intros ->; reflexivity|]. induction mat as [|row mat IH]; [elim N; constructor|]. cbn [mapM]. destruct (D row) as [F|F].
    + rewrite (R1 row F). cbn [bind]. rewrite IH; [reflexivity|]. intros G. apply N. constructor; assumption.
    + rewrite (R2 row F). reflexivity.
Qed.
(** Names padded with NULs to a common width come back. *)
Theorem c57_names : forall w names, Forall ascii_name names -> (forall s, In s names -> String.length s <= w) ->
  decode_name_matrix (map (padded w "000"%char) names) = Ok names /\ Forall (fun row => length row = w) (map (padded w "000"%char) names).
Proof.
  intros w names F L. rewrite Forall_forall in F.
  assert (Len : forall s, length (list_ascii_of_string s) = String.length s) by (induction s; cbn; congruence). split.
  - rewrite (proj1 (c57_general _)).
    + f_equal. rewrite map_map. rewrite <- (map_id names) at 2. apply map_ext_in. intros s Hs. unfold padded. rewrite filter_app.
      assert (E1 : filter (fun c => negb (nat_of_ascii c =? 0)) (repeat "000"%char (w - String.length s)) = []) by (induction (w - String.length s); [reflexivity|assumption]).
      assert (E2 : forall l, Forall (fun c => 0 < nat_of_ascii c < 128) l -> filter (fun c => negb (nat_of_ascii c =? 0)) l = l).
      { induction 1 as [|c l Hc _ IH]; [reflexivity|]. cbn [filter]. destruct (Nat.eqb_spec (nat_of_ascii c) 0); [lia|]. cbn [negb]. rewrite IH. reflexivity. }
      rewrite E1, E2 by (apply F, Hs). rewrite app_nil_r. apply string_of_list_ascii_of_string.
    + apply Forall_forall. intros row Hr. apply in_map_iff in Hr as (s & <- & Hs). unfold padded. apply Forall_app. split.
      * eapply Forall_impl; [|apply (F s Hs)]. cbn. lia.
      * apply Forall_forall. intros c Hc. apply repeat_spec in Hc. subst c. vm_compute. lia.
  - apply Forall_forall. intros row Hr. apply in_map_iff in Hr as (s & <- & Hs). unfold padded. rewrite app_length, repeat_length, Len. specialize (L s Hs). lia.
Qed.
Print Assumptions c57_general.
Print Assumptions c57_names.
Example c57_nonvacuous : Forall ascii_name ["temp"; ""; "wind u"]%string /\ decode_name_matrix (map (padded 8 "000"%char) ["temp"; ""; "wind u"]%string) = Ok ["temp"; ""; "wind u"]%string /\
  decode_name_matrix (map (padded 6 " "%char) ["temp"]%string) = Ok ["temp  "]%string /\ decode_name_matrix [["255"%char]] = Raise ValueError.
Proof. repeat split; vm_compute; repeat constructor. Qed.

(** ** C58 *)
Definition keys : list string := map fst defaults.
Lemma set_default_spec e kv j : set_default e kv j = match e j with Some v => Some v | None => if String.eqb j (fst kv) then Some (snd kv) else None end.
Proof.
  unfold set_default. destruct (e (fst kv)) as [v|] eqn:E.
  - destruct (e j) eqn:Ej; [reflexivity|]. destruct (String.eqb_spec j (fst kv)); congruence.
  - destruct (String.eqb_spec j (fst kv)) as [->|N]; [rewrite E; reflexivity|destruct (e j); reflexivity].
Qed.
Lemma fold_spec l e j : fold_left set_default l e j = match e j with Some v => Some v | None => option_map snd (find (fun kv => String.eqb j (fst kv)) l) end.
Proof.
  revert e. induction l as [|kv l IH]; intros e; [cbn; destruct (e j); reflexivity|]. cbn [fold_left find]. rewrite IH, set_default_spec.
  destruct (e j) as [v|]; [reflexivity|]. destruct (String.eqb j (fst kv)); reflexivity.
Qed.
(** Settings the user made are kept, the others get their defaults, and nothing else changes. *)
Theorem c58_import : forall e,
  (forall k v, e k = Some v -> import e k = Some v) /\
  (forall k v, In (k, v) defaults -> e k = None -> import e k = Some v) /\
  (forall k, ~ In k keys -> import e k = e k) /\
  (forall k, In k keys -> import e k <> None).
Proof.
  intros e. unfold import. split; [intros k v H; rewrite fold_spec, H; reflexivity|].
  assert (Fd : forall k v, In (k, v) defaults -> option_map snd (find (fun kv => String.eqb k (fst kv)) defaults) = Some v).
  { intros k v H. cbn in H. repeat (destruct H as [H|H]; [injection H as <- <-; vm_compute; reflexivity|]). contradiction. }
  split; [intros k v H N; rewrite fold_spec, N; apply Fd, H|]. split.
  - intros k N. rewrite fold_spec. destruct (e k) eqn:E; [reflexivity|]. destruct (find _ defaults) as [kv|] eqn:F; [|reflexivity]. apply find_some in F as [I Q]. apply String.eqb_eq in Q. elim N. subst k. apply in_map, I.
  - intros k H. rewrite fold_spec. destruct (e k); [discriminate|]. apply in_map_iff in H as ((k' & v) & <- & I). cbn [fst]. rewrite (Fd _ _ I). discriminate.
Qed.
(** Importing again changes nothing, and print_settings does not raise afterwards. *)
Theorem c58_again : forall e, (forall k, import (import e) k = import e k) /\ exists l, print_settings (import e) = Ok l /\ map fst l = keys.
Proof.
  intros e. split.
  - intros k. destruct (import e k) as [v|] eqn:E; [apply (proj1 (c58_import (import e))), E|]. destruct (in_dec string_dec k keys) as [I|N]; [elim (proj2 (proj2 (proj2 (c58_import e))) k I E)|]. rewrite (proj1 (proj2 (proj2 (c58_import (import e)))) k N). exact E.
  - unfold print_settings. pose proof (proj2 (proj2 (proj2 (c58_import e)))) as H. unfold keys in *. revert H. generalize (import e). intros e'. induction defaults as [|kv l IH]; intros H; [exists []; auto|].
    cbn [mapM map]. destruct (e' (fst kv)) as [v|] eqn:E; [|elim (H (fst kv)); [left; reflexivity|exact E]]. destruct IH as (l' & El & Ml); [intros k I; apply H; right; exact I|]. cbn [bind]. rewrite El. exists ((fst kv, v) :: l'). split; [reflexivity|]. cbn [map fst]. rewrite Ml. reflexivity.
Qed.
(** How the package reads its settings (os.environ lookups in the files of PyAnEn/): strtobool, int, float or the text. *)
Inductive reading := AsBool | AsInt | AsFloat | AsText.
Definition lookups : list (string * reading) :=
  [("pyanen_ens_to_prob_method", AsText);           (* utils_verify.py 150-173 *)
   ("pyanen_kde_bandwidth", AsFloat);               (* utils_verify.py 96 *)
   ("pyanen_kde_kernel", AsText);                   (* utils_verify.py 97 *)
   ("pyanen_kde_samples", AsInt);                   (* utils_verify.py 98 *)
   ("pyanen_kde_multiply_spread", AsInt);           (* utils_verify.py 99 *)
   ("pyanen_boot_confidence", AsFloat);             (* utils_ss.py 133, utils_special_boot.py 145, utils_verify.py 229, 256, 390 *)
   ("pyanen_boot_repeats", AsInt);                  (* utils_ss.py 132, utils_special_boot.py 144, utils_verify.py 228, 255, 389 *)
   ("pyanen_boot_samples", AsInt);                  (* utils_ss.py 131, utils_verify.py 227, 254, 388 *)
   ("pyanen_tqdm_disable", AsBool);                 (* VerifyEnsemble.py 98, utils_approximation.py 77, 262 and others *)
   ("pyanen_tqdm_leave", AsBool);                   (* VerifyEnsemble.py 99, utils_approximation.py 78 and others *)
   ("pyanen_tqdm_workers", AsInt);                  (* utils_approximation.py 81, 263, utils_verify.py 68, 147, utils_dist.py 32-261 *)
   ("pyanen_tqdm_map_axis", AsInt);                 (* utils_verify.py 73, utils_dist.py 34-275 *)
   ("pyanen_tqdm_chunksize", AsInt);                (* utils_approximation.py 82, utils_verify.py 74, utils_dist.py 33 *)
   ("pyanen_use_tensorflow_math", AsBool);          (* utils_crps.py 49 *)
   ("pyanen_skip_nan", AsBool);                     (* VerifyEnsemble.py 111, VerifyProb.py 110, Verify.py 108 and others *)
   ("pyanen_split_crps_ensemble_along_0", AsBool);  (* VerifyEnsemble.py 87 *)
   ("pyanen_integrate_range_multiplier", AsInt);    (* utils_approximation.py 283 *)
   ("pyanen_integrate_with_less_memory", AsBool);   (* utils_approximation.py 83 *)
   ("pyanen_integrate_wdir", AsText)]%string.       (* utils_approximation.py 85 *)
(** a decimal fraction: digits with one point *)
Definition decimal_fraction (s : string) : Prop := exists a b, s = (a ++ "." ++ b)%string /\ NilZero.uint_of_string a <> None /\ NilZero.uint_of_string b <> None /\ a <> ""%string /\ b <> ""%string.
Definition readable (r : reading) (s : string) : Prop :=
  match r with
  | AsBool => exists b, strtobool s = Ok b
  | AsInt => exists z, pystr z = s
  | AsFloat => decimal_fraction s
  | AsText => True
  end.
(** After the import no lookup raises a KeyError, and a setting the user did not make is readable as it is read. *)
Theorem c58_lookups : forall e k r, In (k, r) lookups -> exists v, import e k = Some v /\ (e k = None -> readable r v).
Proof.
  intros e k r H. assert (D : exists v, In (k, v) defaults /\ readable r v).
  { assert (Bt : readable AsBool "True") by (exists true; reflexivity). assert (Bf : readable AsBool "False") by (exists false; reflexivity).
    assert (I : forall z, readable AsInt (pystr z)) by (intros z; exists z; reflexivity).
    assert (F1 : readable AsFloat "0.01") by (exists "0"%string, "01"%string; repeat split; vm_compute; discriminate).
    assert (F2 : readable AsFloat "0.95") by (exists "0"%string, "95"%string; repeat split; vm_compute; discriminate).
    cbn in H. repeat (destruct H as [H|H]; [injection H as <- <-; eexists; (split; [cbn; repeat first [left; reflexivity|right]|first [exact Logic.I|exact Bt|exact Bf|exact F1|exact F2|
      exact (I 1000%Z)|exact (I 5%Z)|exact (I 300%Z)|exact (I 1%Z)|exact (I (-1)%Z)]])|]). contradiction. }
  destruct D as (v & I & R). destruct (e k) as [u|] eqn:E; [exists u; split; [apply (proj1 (c58_import e)), E|discriminate]|].
  exists v. split; [apply (proj1 (proj2 (c58_import e))); assumption|auto].
Qed.
(** A flag is true for six words and false for six others, in capitals or not; anything else, the empty text
    included, is refused. *)
Fixpoint spelled (s w : string) : Prop :=
  match s, w with
  | EmptyString, EmptyString => True
  | String c s, String d w => (c = d \/ (97 <= nat_of_ascii d <= 122 /\ nat_of_ascii c + 32 = nat_of_ascii d)) /\ spelled s w
  | _, _ => False
  end.
Lemma lower_spelled s w : (forall i c, String.get i w = Some c -> nat_of_ascii c < 65 \/ 90 < nat_of_ascii c) -> (lower s = w <-> spelled s w).
Proof.
  revert w. induction s as [|c s IH]; intros [|d w] H; cbn [lower spelled]; try (split; [discriminate|contradiction]); [tauto|].
  assert (Hd : nat_of_ascii d < 65 \/ 90 < nat_of_ascii d) by (apply (H 0); reflexivity). specialize (IH w (fun i => H (S i))).
  assert (L : lower_char c = d <-> c = d \/ (97 <= nat_of_ascii d <= 122 /\ nat_of_ascii c + 32 = nat_of_ascii d)).
  { unfold lower_char. destruct (Nat.leb_spec 65 (nat_of_ascii c)); [destruct (Nat.leb_spec (nat_of_ascii c) 90)|]; cbn [andb].
    - split.
      + intros <-. right. rewrite nat_ascii_embedding by lia. lia.
      + intros [->|[_ E]]; [lia|]. rewrite E. apply ascii_nat_embedding.
    - split; [auto|]. intros [E|[E1 E2]]; [exact E|lia].
    - split; [auto|]. intros [E|[E1 E2]]; [exact E|lia]. }
  rewrite <- IH, <- L. split; [intros E; injection E; auto|intros [-> ->]; reflexivity].
Qed.
Definition yes_words : list string := ["y"; "yes"; "t"; "true"; "on"; "1"]%string.
Definition no_words : list string := ["n"; "no"; "f"; "false"; "off"; "0"]%string.
Theorem c58_flag : forall s,
  (strtobool s = Ok true <-> exists w, In w yes_words /\ spelled s w) /\ (strtobool s = Ok false <-> exists w, In w no_words /\ spelled s w) /\
  (strtobool s = Raise ValueError <-> forall w, In w (yes_words ++ no_words) -> ~ spelled s w).
Proof.
  intros s.
  assert (P : forall w i c, In w (yes_words ++ no_words) -> String.get i w = Some c -> nat_of_ascii c < 65 \/ 90 < nat_of_ascii c).
  { intros w i c Hw. cbn in Hw. repeat (destruct Hw as [<-|Hw]; [do 6 (destruct i as [|i]; [intros E; cbn in E; try discriminate; injection E as <-; vm_compute; lia|]); discriminate|]). contradiction. }
  assert (X : forall l, (forall w, In w l -> In w (yes_words ++ no_words)) -> (existsb (String.eqb (lower s)) l = true <-> exists w, In w l /\ spelled s w)).
  { intros l Hl. rewrite existsb_exists. split; intros (w & Hw & H); exists w; (split; [exact Hw|]).
    - apply lower_spelled; [intros i c; apply P, Hl, Hw|]. apply String.eqb_eq, H.
    - apply String.eqb_eq, lower_spelled; [intros i c; apply P, Hl, Hw|exact H]. }
  assert (Y := X yes_words (fun w H => in_or_app _ _ w (or_introl H))). assert (N := X no_words (fun w H => in_or_app _ _ w (or_intror H))).
  assert (D : (exists w, In w yes_words /\ spelled s w) -> ~ exists w, In w no_words /\ spelled s w).
  { intros (w & Hw & S) (w' & Hw' & S'). apply lower_spelled in S; [|intros i c; apply P, in_or_app; left; exact Hw]. apply lower_spelled in S'; [|intros i c; apply P, in_or_app; right; exact Hw'].
    rewrite S in S'. cbn in Hw, Hw'. repeat (destruct Hw as [<-|Hw]; [repeat (destruct Hw' as [<-|Hw']; [discriminate|]); contradiction|]). contradiction. }
  unfold strtobool. change ["y"; "yes"; "t"; "true"; "on"; "1"]%string with yes_words. change ["n"; "no"; "f"; "false"; "off"; "0"]%string with no_words.
  destruct (existsb _ yes_words) eqn:E1; [|destruct (existsb _ no_words) eqn:E2].
  - pose proof (proj1 Y eq_refl) as H. split; [tauto|]. split; [split; [discriminate|intros C; elim (D H C)]|]. split; [discriminate|]. intros C. destruct H as (w & Hw & S). elim (C w); [apply in_or_app; left; exact Hw|exact S].
  - pose proof (proj1 N eq_refl) as H. split; [split; [discriminate|intros C; elim (D C H)]|]. split; [tauto|]. split; [discriminate|]. intros C. destruct H as (w & Hw & S). elim (C w); [apply in_or_app; right; exact Hw|exact S].
  - split; [split; [discriminate|intros C; apply Y in C; discriminate]|]. split; [split; [discriminate|intros C; apply N in C; discriminate]|]. split; [|reflexivity].
    intros _ w Hw S. apply in_app_iff in Hw as [Hw|Hw]; [assert (C : false = true) by (apply Y; exists w; auto)|assert (C : false = true) by (apply N; exists w; auto)]; discriminate.
Qed.
Print Assumptions c58_flag.
Example c58_flag_nonvacuous : strtobool "True" = Ok true /\ spelled "True" "true" /\ strtobool "OFF" = Ok false /\ strtobool "" = Raise ValueError /\ strtobool "2" = Raise ValueError.
Proof. repeat split; try reflexivity; try (left; reflexivity). right. cbn. lia. Qed.
(** The value of every setting the user did not make, as the package reads it. *)
Inductive setting_value := BoolS (b : bool) | IntS (z : Z) | FracS (whole frac : string) | TextS (s : string).
Definition reads (s : string) (v : setting_value) : Prop :=
  match v with
  | BoolS b => strtobool s = Ok b
  | IntS z => s = pystr z
  | FracS a b => s = (a ++ "." ++ b)%string
  | TextS t => s = t
  end.
Definition documented : list (string * setting_value) :=
  [("pyanen_ens_to_prob_method", TextS "moments"); ("pyanen_kde_bandwidth", FracS "0" "01");
   ("pyanen_kde_kernel", TextS "gaussian"); ("pyanen_kde_samples", IntS 1000);
   ("pyanen_kde_multiply_spread", IntS 5); ("pyanen_boot_confidence", FracS "0" "95");
   ("pyanen_boot_repeats", IntS 1000); ("pyanen_boot_samples", IntS 300);
   ("pyanen_tqdm_disable", BoolS true); ("pyanen_tqdm_leave", BoolS false); ("pyanen_tqdm_workers", IntS 1);
   ("pyanen_tqdm_map_axis", IntS (-1)); ("pyanen_tqdm_chunksize", IntS 1);
   ("pyanen_use_tensorflow_math", BoolS false); ("pyanen_skip_nan", BoolS false);
   ("pyanen_split_crps_ensemble_along_0", BoolS false); ("pyanen_integrate_range_multiplier", IntS 5);
   ("pyanen_integrate_with_less_memory", BoolS false); ("pyanen_integrate_wdir", TextS "")]%string.
Theorem c58_values : forall e,
  (forall k v, In (k, v) documented -> e k = None -> exists s, import e k = Some s /\ reads s v) /\
  (forall k s, e k = None -> import e k = Some s -> exists v, In (k, v) documented /\ reads s v).
Proof.
  intros e. destruct (c58_import e) as (_ & D & U & _).
  assert (F : Forall2 (fun kv d => fst kv = fst d /\ reads (snd kv) (snd d)) defaults documented)
    by (repeat constructor; reflexivity).
  assert (A : forall (l : list (string * string)) (l' : list (string * setting_value)),
    Forall2 (fun kv d => fst kv = fst d /\ reads (snd kv) (snd d)) l l' ->
    (forall k v, In (k, v) l' -> exists s, In (k, s) l /\ reads s v) /\
    (forall k s, In (k, s) l -> exists v, In (k, v) l' /\ reads s v)).
  { induction 1 as [|[k s] [k' v] l l' [E R] H [IH1 IH2]]; [split; intros ? ? []|]. cbn [fst snd] in *. subst k'. split.
    - intros k0 v0 [I|I]; [injection I as <- <-; exists s; split; [left; reflexivity|exact R]|].
      destruct (IH1 _ _ I) as (s0 & I0 & R0). exists s0. split; [right; exact I0|exact R0].
    - intros k0 s0 [I|I]; [injection I as <- <-; exists v; split; [left; reflexivity|exact R]|].
      destruct (IH2 _ _ I) as (v0 & I0 & R0). exists v0. split; [right; exact I0|exact R0]. }
  destruct (A _ _ F) as [A1 A2]. split.
  - intros k v I N. destruct (A1 k v I) as (s & Is & R). exists s. split; [exact (D k s Is N)|exact R].
  - intros k s N E. destruct (in_dec string_dec k keys) as [I|NI].
    + apply in_map_iff in I as ((k' & s') & E' & I). cbn in E'. subst k'.
      rewrite (D k s' I N) in E. injection E as <-. exact (A2 k s' I).
    + rewrite (U k NI), N in E. discriminate.
Qed.
Print Assumptions c58_values.
Print Assumptions c58_import.
Print Assumptions c58_again.
Print Assumptions c58_lookups.
Example c58_nonvacuous : let e := fun k => if String.eqb k "pyanen_boot_repeats" then Some "30"%string else if String.eqb k "HOME" then Some "/root"%string else None in
  (import e "pyanen_boot_repeats" = Some "30" /\ import e "pyanen_boot_samples" = Some "300" /\ import e "HOME" = Some "/root" /\ import e "PATH" = None)%string.
Proof. repeat split. Qed.
