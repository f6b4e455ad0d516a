(** Properties C86, C87: the files of one run opened together. *)
From Coq Require Import String Ascii List Bool Arith NArith ZArith QArith Qcanon Lia Permutation Sorted.
From Verif Require Import QcTac Num NdArr M_nc Spec_nc P_nc M_mfnc Spec_mfnc P_mfnc.
From Verif Require M_io Spec_io Props_io.
Import ListNotations.
Open Scope string_scope.
Open Scope list_scope.
Open Scope nat_scope.

(** Vocabulary ([Spec_mfnc]): [ready … R D r n l]: the files l belong to one run with rank numbers r and n stations each, R and D
    are the root group and the group to open; [placed r n l p v w]: w holds the values that v has in file p, with p's stations moved
    by [offset r n l p], the number of stations in all files of smaller rank. *)

(** ** C86 *)
(** The order in which the paths are listed (or found by glob) does not matter. *)
Theorem c86_any_order : forall V of_coord cf strict disk glob glob' expanduser s s' group decode,
  Permutation (listed glob expanduser s) (listed glob' expanduser s') ->
  open_mfdataset V of_coord cf strict disk glob expanduser s group decode = open_mfdataset V of_coord cf strict disk glob' expanduser s' group decode.
Proof. intros * P. unfold open_mfdataset. rewrite (sort_perm _ _ P). reflexivity. Qed.
Print Assumptions c86_any_order.
Lemma alike_dims {V} (D : path -> dataset V) r n l p q d : run D r n l -> In p l -> In q l -> in_dims d (D p) = in_dims d (D q).
Proof.
  intros R Hp Hq. assert (X : forall ds : dataset V, in_dims d ds = existsb (fun x => mem d (snd x)) (map (fun x => (fst x, v_dims (snd x))) ds)).
  { unfold in_dims. induction ds as [|x ds IH]; cbn; [reflexivity|rewrite IH; reflexivity]. }
  rewrite !X, (run_alike _ _ _ _ R p q Hp Hq). reflexivity.
Qed.
Lemma alike_cond {V} (D : path -> dataset V) r n l p q : run D r n l -> In p l -> In q l -> cond (D p) = cond (D q).
Proof. intros R Hp Hq. unfold cond. rewrite (alike_dims D r n l p q _ R Hp Hq), (alike_dims D r n l p q "num_test_times" R Hp Hq). reflexivity. Qed.
Lemma alike_names {V} (D : path -> dataset V) r n l p q : run D r n l -> In p l -> In q l -> map fst (D p) = map fst (D q).
Proof. intros R Hp Hq. pose proof (f_equal (map fst) (run_alike _ _ _ _ R p q Hp Hq)) as E. rewrite !map_map in E. exact E. Qed.
Lemma renvar_dims {V} c (v : variable V) : v_dims (renvar_if c v) = map (ren_if c) (v_dims v).
Proof. destruct c; [reflexivity|]. cbn. symmetry. apply map_id. Qed.
Lemma renvar_data {V} c (v : variable V) : v_data (renvar_if c v) = v_data v. Proof. destruct c; reflexivity. Qed.
Lemma epoch_data {V} a (v : variable V) : v_data (epoch_if a v) = v_data v /\ v_dims (epoch_if a v) = v_dims v /\ v_coord (epoch_if a v) = v_coord v.
Proof. unfold epoch_if. destruct (mem a time_names); auto. Qed.
Lemma new_names {V} (ds : dataset V) l : Forall2 (new_name ds) l (map (ren_if (cond ds)) l).
Proof. induction l; constructor; [apply new_name_ren|assumption]. Qed.
(** Every station of every file has its values, and its label, in one place: the files follow each other by rank number.
    What does not depend on the station is that of the file with the smallest rank number. *)
Theorem c86_stations_partial : forall V of_coord cf strict disk glob expanduser s group R D r n,
  ready strict disk group R D r n (listed glob expanduser s) ->
  let l := listed glob expanduser s in
  exists out, open_mfdataset V of_coord cf strict disk glob expanduser s group false = Ok out /\ NoDup (map fst out) /\
  (forall p a v, In p l -> In (a, v) (D p) -> In "num_stations" (v_dims v) \/ lowest r l p ->
     exists m w, new_name (D p) a m /\ In (m, w) out /\ Forall2 (new_name (D p)) (v_dims v) (v_dims w) /\ placed r n l p v w) /\
  (exists w, In ("num_stations", w) out /\ v_dims w = ["num_stations"] /\ v_coord w = true /\ shape (v_data w) = [list_sum (map n l)] /\
     forall p k, In p l -> k < n p -> get (v_data w) [offset r n l p + k] = of_coord (qz (Z.of_N (r p)) + qn k / qn (n p))%Qc).
Proof.
  intros * Rd l. pose proof (rdy_run _ _ _ _ _ _ _ _ Rd) as Rn. fold l in Rn.
  destruct (whole of_coord cf strict disk glob expanduser s group R D r n Rd) as (mid & p0 & H0 & L0 & E & Nm & No & X & _). fold l in H0, L0, X. set (c := cond (D p0)) in *.
  eexists. split; [exact E|]. split; [exact No|]. split.
  - intros p a v Hp Ha C. destruct (X p a v Hp) as (u & Lu & Pu & Du & _).
    + apply In_lookup; [eapply E_names; eassumption|apply in_or_app; left; exact Ha].
    + exact C.
    + destruct (epoch_data a u) as (E1 & E2 & _). exists (ren_if c a), (renvar_if c (epoch_if a u)).
      assert (Ec : c = cond (D p)) by (eapply alike_cond; eassumption). split; [rewrite Ec; apply new_name_ren|]. split; [apply in_map_iff; exists (a, epoch_if a u); split; [reflexivity|apply lookup_In, Lu]|].
      split; [rewrite renvar_dims, E2, Du, Ec; apply new_names|]. unfold placed. rewrite renvar_data, E1. exact Pu.
  - assert (Lp : forall p, In p l -> lookup (labelled_ds of_coord D r n p) "num_stations" = Some (lab of_coord r n p)) by (intros p Hp; apply In_lookup; [eapply E_names; eassumption|apply in_or_app; right; left; reflexivity]).
    assert (St : forall p, In "num_stations" (v_dims (lab of_coord r n p))) by (intros p; left; reflexivity).
    destruct (X p0 _ _ H0 (Lp p0 H0) (or_introl (St p0))) as (u & Lu & Pu & Du & Cu).
    exists (renvar_if c u). split; [apply in_map_iff; exists ("num_stations", u); split; [cbn [fst snd]; destruct c; reflexivity|apply lookup_In; exact Lu]|].
    split; [rewrite renvar_dims, Du; cbn; destruct c; reflexivity|].
    split; [|split].
    + destruct (Cu L0) as [Cu' _]. destruct c; exact Cu'.
    + rewrite renvar_data. destruct Pu as [Su _]. rewrite Su. reflexivity.
    + intros p k Hp Hk. rewrite renvar_data. destruct (X p _ _ Hp (Lp p Hp) (or_introl (St p))) as (u' & Lu' & [_ Pu'] & _). assert (u' = u) by (rewrite Lu in Lu'; injection Lu' as K; symmetry; exact K). subst u'.
      specialize (Pu' [k]). cbn [lab v_data v_dims of_list shape get along combine map fst snd] in Pu'. rewrite String.eqb_refl in Pu'. rewrite Pu'.
      * cbn [flat prod]. replace (k * 1 + 0) with k by lia. rewrite (nth_indep _ _ (of_coord (qz (Z.of_N (r p)) + qn 0 / qn (n p))%Qc)) by (rewrite map_length, lab_length; exact Hk). rewrite map_nth. unfold coords_at.
        rewrite (map_nth (fun k => (qz (Z.of_N (r p)) + qn k / qn (n p))%Qc)), seq_nth by exact Hk. reflexivity.
      * repeat constructor. rewrite lab_length. exact Hk.
Qed.
Print Assumptions c86_stations_partial.
(** The places are all different, and every place is taken: k is the place of exactly one station of one file. *)
Theorem c86_places : forall V (D : path -> dataset V) r n l, run D r n l ->
  (forall k, k < list_sum (map n l) -> exists p j, In p l /\ j < n p /\ k = offset r n l p + j) /\
  (forall p q i j, In p l -> In q l -> i < n p -> j < n q -> offset r n l p + i = offset r n l q + j -> p = q /\ i = j).
Proof.
  intros V D r n l R. split.
  - intros k Hk. destruct l as [|p1 l1] eqn:El; [elim (run_some _ _ _ _ R); reflexivity|]. rewrite <- El in *.
    destruct (run_stations _ _ _ _ R p1) as (_ & (a & v & _) & _); [rewrite El; left; reflexivity|].
    destruct (order_of (fun _ => get (v_data v) []) D r n l R) as (o & P & S & _).
    assert (Sp : exists x p y, o = x ++ p :: y /\ list_sum (map n x) <= k < list_sum (map n x) + n p).
    { rewrite (list_sum_perm _ _ (Permutation_map n P)) in Hk. clear - Hk. revert k Hk. induction o as [|p o IH]; intros k Hk; cbn [map list_sum fold_right] in Hk; [lia|].
      destruct (Nat.lt_ge_cases k (n p)) as [L|L]; [exists [], p, o; split; [reflexivity|cbn; lia]|]. destruct (IH (k - n p)) as (x & q & y & -> & B); [unfold list_sum; lia|].
      exists (p :: x), q, y. split; [reflexivity|]. cbn [map list_sum fold_right]. unfold list_sum in B. lia. }
    destruct Sp as (x & p & y & Eo & B). rewrite Eo in P, S. exists p, (k - list_sum (map n x)). split; [eapply Permutation_in; [symmetry; exact P|apply in_elt]|].
    rewrite (offset_split r n l x p y P S). lia.
  - assert (Lt : forall p q, In p l -> (r p < r q)%N -> offset r n l p + n p <= offset r n l q).
    { intros p q Hp Lpq. unfold offset. pose proof (run_distinct _ _ _ _ R) as N. clear R D.
      assert (G : forall l, list_sum (map n (filter (fun x => (r x <? r p)%N) l)) <= list_sum (map n (filter (fun x => (r x <? r q)%N) l))).
      { clear - Lpq. induction l as [|x l IH]; cbn [filter map]; [lia|]. destruct (N.ltb_spec (r x) (r p)), (N.ltb_spec (r x) (r q)); cbn [map list_sum fold_right]; unfold list_sum in *; try lia. }
      induction l as [|x l IH]; [elim Hp|]. cbn [filter]. specialize (G l). destruct Hp as [->|Hp].
      - rewrite N.ltb_irrefl. destruct (N.ltb_spec (r p) (r q)); [|lia]. cbn [map list_sum fold_right]. unfold list_sum in *. lia.
      - inversion N as [|? ? N1 N2]; subst. specialize (IH Hp N2). destruct (N.ltb_spec (r x) (r p)), (N.ltb_spec (r x) (r q)); cbn [map list_sum fold_right]; unfold list_sum in *; try lia. }
    assert (Inj : forall p q, In p l -> In q l -> r p = r q -> p = q).
    { pose proof (run_distinct _ _ _ _ R) as N. clear - N. intros p q Hp Hq E. induction l as [|x l IH]; [elim Hp|]. cbn [map] in N. inversion N as [|? ? N1 N2]; subst.
      destruct Hp as [->|Hp], Hq as [->|Hq]; auto; exfalso; apply N1; [rewrite E|rewrite <- E]; apply in_map; assumption. }
    intros p q i j Hp Hq Hi Hj E. destruct (N.lt_total (r p) (r q)) as [C|[C|C]].
    + specialize (Lt p q Hp C). lia.
    + apply Inj in C; [|assumption|assumption]. subst q. split; [reflexivity|lia].
    + specialize (Lt q p Hq C). lia.
Qed.
Print Assumptions c86_places.

(** ** C87 *)
(** Places of the stations missing in the group come from the root groups, in the order of the stations; lead times and test times
    without labels get those of the root group of one of the files; the five time variables have the units of the epoch; nothing else is added. *)
Theorem c87_completed_partial : forall V of_coord cf strict disk glob expanduser s group R D r n,
  ready strict disk group R D r n (listed glob expanduser s) ->
  let l := listed glob expanduser s in
  exists out, open_mfdataset V of_coord cf strict disk glob expanduser s group false = Ok out /\
  (forall p a x, In p l -> ~ In "Xs" (map fst (D p)) -> In a ["Xs"; "Ys"] -> In (a, x) (R p) ->
     exists w, In (a, w) out /\ v_dims w = ["num_stations"] /\ placed r n l p x w) /\
  (forall p d x, In p l -> In (d, x) root_label -> has_dim d (D p) -> ~ In d (map fst (D p)) ->
     exists q v m w, In q l /\ In (x, v) (R q) /\ new_name (D p) d m /\ In (m, w) out /\ v_dims w = [m] /\ v_coord w = true /\ v_data w = v_data v) /\
  (forall m w, In (m, w) out -> In m ["test_times"; "search_times"; "Times"; "num_test_times"; "num_times"] -> v_units w = Some "seconds since 1970-01-01") /\
  (forall p m w, In p l -> In (m, w) out -> exists a, new_name (D p) a m /\
     (In a (map fst (D p)) \/ a = "num_stations" \/ (In a ["num_flts"; "num_test_times"] /\ has_dim a (D p)) \/ (In a ["Xs"; "Ys"] /\ ~ In "Xs" (map fst (D p))))).
Proof.
  intros * Rd l. pose proof (rdy_run _ _ _ _ _ _ _ _ Rd) as Rn. fold l in Rn.
  destruct (whole of_coord cf strict disk glob expanduser s group R D r n Rd) as (mid & p0 & H0 & L0 & E & Nm & No & _ & Y & Z & T & U). fold l in H0, L0, Y, Z. set (c := cond (D p0)) in *.
  assert (Same : forall p d, In p l -> (has_dim d (D p) <-> has_dim d (D p0))) by (intros p d Hp; rewrite <- !has_dim_iff, (alike_dims D r n l p p0 d Rn Hp H0); reflexivity).
  eexists. split; [exact E|]. split; [|split; [|split]].
  - intros p a x Hp Nx Ha Hx. rewrite (alike_names D r n l p p0 Rn Hp H0) in Nx. destruct (Z a Ha Nx) as (u & Lu & Du & Pu). exists (renvar_if c u).
    split; [apply in_map_iff; exists (a, u); split; [|apply lookup_In, Lu]|].
    + cbn [fst snd]. cbn in Ha. destruct Ha as [<-|[<-|[]]]; destruct c; reflexivity.
    + split; [rewrite renvar_dims, Du; destruct c; reflexivity|]. unfold placed. rewrite renvar_data. exact (Pu p x Hp Hx).
  - intros p d x Hp Hd Hh Nd. rewrite (alike_names D r n l p p0 Rn Hp H0) in Nd. apply (Same p d Hp) in Hh. destruct (Y d x Hd Hh Nd) as (q & v & Hq & Hv & Lv).
    destruct (epoch_data d (Var [d] (v_data v) None true)) as (E1 & E2 & E3).
    exists q, v, (ren_if c d), (renvar_if c (epoch_if d (Var [d] (v_data v) None true))). split; [exact Hq|]. split; [exact Hv|].
    split; [unfold c; rewrite (alike_cond D r n l p0 p Rn H0 Hp); apply new_name_ren|]. split; [apply in_map_iff; eexists; split; [|apply lookup_In, Lv]; reflexivity|].
    split; [rewrite renvar_dims, E2; reflexivity|]. split; [|rewrite renvar_data, E1; reflexivity]. destruct c; exact E3.
  - intros m w Hm Ht. apply in_map_iff in Hm as ([a u] & Em & Hu). cbn [fst snd] in Em. injection Em as <- <-.
    assert (Ha : In a time_names).
    { destruct c; cbn [ren_if] in Ht; [|exact Ht]. unfold ren in Ht. destruct (String.eqb_spec a "num_test_times") as [Ea|_]; [rewrite Ea; cbn; tauto|exact Ht]. }
    pose proof (T a u (In_lookup _ _ _ Nm Hu) Ha) as K. destruct c; exact K.
  - intros p m w Hp Hm. apply in_map_iff in Hm as ([a u] & Em & Hu). cbn [fst snd] in Em. injection Em as <- <-. exists a.
    split; [unfold c; rewrite (alike_cond D r n l p0 p Rn H0 Hp); apply new_name_ren|]. rewrite (alike_names D r n l p p0 Rn Hp H0), (Same p a Hp). apply U. apply (in_map fst _ (a, u)), Hu.
Qed.
Print Assumptions c87_completed_partial.
(** Decoding changes values only by their units, if the files have no units themselves. *)
Lemma decode_none {V} (cf : string -> V -> V) ds : (forall a v, In (a, v) ds -> v_units v = None) -> decode_cf cf ds = ds.
Proof.
  intros H. unfold decode_cf. rewrite <- (map_id ds) at 2. apply map_ext_in. intros [a v] Hv. cbn [fst snd]. unfold decode_var. rewrite (H a v Hv). reflexivity.
Qed.
Theorem c87_decoded : forall V of_coord cf strict disk glob expanduser s group,
  (forall p f ds, In p (listed glob expanduser s) -> disk p = Some f -> (group = None /\ ds = nc_root V f \/ exists g, group = Some g /\ In (g, ds) (nc_groups V f)) ->
     forall a v, In (a, v) ds -> v_units v = None) ->
  open_mfdataset V of_coord cf strict disk glob expanduser s group true = rmap (decode_cf cf) (open_mfdataset V of_coord cf strict disk glob expanduser s group false).
Proof.
  intros * H. unfold open_mfdataset. cbv zeta. set (l := sort_paths (listed glob expanduser s)).
  assert (O : forall p, In p l -> open_file V cf disk group true p = open_file V cf disk group false p).
  { intros p Hp. unfold open_file. destruct (disk p) as [f|] eqn:Ef; [|reflexivity]. assert (Hp' : In p (listed glob expanduser s)) by (eapply Permutation_in; [symmetry; apply sort_permutation|exact Hp]).
    destruct group as [g|].
    - destruct (find (fun x => String.eqb (fst x) g) (nc_groups V f)) as [[g' ds]|] eqn:Eg; [|reflexivity]. apply find_some in Eg as [Ig Eg]. cbn in Eg. apply String.eqb_eq in Eg. subst g'. cbn [option_map snd]. f_equal. apply decode_none.
      eapply H; [exact Hp'|exact Ef|]. right. exists g. auto.
    - f_equal. apply decode_none. eapply H; [exact Hp'|exact Ef|]. left. auto. }
  assert (X : xr_open_mf V of_coord cf disk l group true = xr_open_mf V of_coord cf disk l group false).
  { unfold xr_open_mf. assert (M : forall k, (forall p, In p k -> In p l) -> mapM (open_file V cf disk group true) k = mapM (open_file V cf disk group false) k).
    { induction k as [|p k IH]; intros S; [reflexivity|]. cbn [mapM]. rewrite (O p) by (apply S; left; reflexivity). rewrite IH by (intros q Hq; apply S; right; exact Hq). reflexivity. }
    rewrite (M l (fun p Hp => Hp)). reflexivity. }
  rewrite X. destruct (xr_open_mf V of_coord cf disk l group false) as [ds0|e]; [|reflexivity]. cbn [bind]. destruct l as [|p l']; [reflexivity|]. destruct (disk p) as [f|]; [|reflexivity].
  destruct (root_labels _ _ _ _) as [ds1|e]; [|reflexivity]. cbn [bind]. destruct (locations _ _ _ _ _ _ _) as [ds2|e]; [|reflexivity]. cbn [bind]. destruct (rename_times _); reflexivity.
Qed.
Print Assumptions c87_decoded.
(** With an xarray that refuses concat_dim here, no group without places can be opened, even if all files are ready. *)
Lemma root_labels_names {V} names (root ds ds' : dataset V) a : root_labels V names root ds = Ok ds' -> In a (map fst ds') -> In a (map fst ds) \/ In a names.
Proof.
  revert ds. induction names as [|d names IH]; intros ds; cbn [root_labels].
  - intros [= <-]. auto.
  - destruct (_ && _).
    + destruct (find _ coords_dict) as [[k x]|]; [|discriminate]. destruct (lookup root x) as [v|]; [|discriminate]. destruct (_ && _); [|discriminate]. intros E Ha. apply (IH _ E) in Ha as [Ha|Ha]; [|right; right; exact Ha].
      destruct (in_dec string_dec d (map fst ds)) as [I|I].
      * rewrite assign_names_old in Ha by exact I. auto.
      * rewrite assign_names_new in Ha by exact I. apply in_app_or in Ha as [Ha|[Ha|[]]]; [auto|]. right. left. exact Ha.
    + intros E Ha. apply (IH _ E) in Ha as [Ha|Ha]; [auto|right; right; exact Ha].
Qed.
Theorem c87_strict_refuted : forall V of_coord cf disk glob expanduser s group R D r n,
  ready false disk group R D r n (listed glob expanduser s) -> (forall p, In p (listed glob expanduser s) -> ~ In "Xs" (map fst (D p))) ->
  (exists out, open_mfdataset V of_coord cf false disk glob expanduser s group false = Ok out) /\
  open_mfdataset V of_coord cf true disk glob expanduser s group false = Raise ValueError.
Proof.
  intros * Rd Nx. destruct (c86_stations_partial V of_coord cf false disk glob expanduser s group R D r n Rd) as (out & E & _). split; [exists out; exact E|].
  pose proof (ready_perm _ _ _ _ _ _ _ _ _ (sort_permutation _) Rd) as Rd'. unfold open_mfdataset in *. cbv zeta in *. set (l := sort_paths (listed glob expanduser s)) in *.
  destruct (xr_opened of_coord cf disk group R D r n l (rdy_run _ _ _ _ _ _ _ _ Rd') (rdy_holds _ _ _ _ _ _ _ _ Rd')) as (ds0 & p0 & E0 & H0 & _ & F0 & _). rewrite E0 in *. cbn [bind] in *.
  destruct l as [|p l'] eqn:El; [elim H0|]. rewrite <- El in *. destruct (disk p) as [f|]; [|discriminate E]. destruct (root_labels _ _ _ _) as [ds1|e] eqn:E1; [|discriminate E]. cbn [bind] in *.
  unfold locations. destruct (in_ds "Xs" ds1) eqn:Ex; [|reflexivity]. exfalso. apply mem_In in Ex. apply (root_labels_names _ _ _ _ _ E1) in Ex as [Ex|Ex]; [|cbn in Ex; intuition discriminate].
  rewrite (like_names _ _ F0) in Ex. unfold labelled_ds in Ex. rewrite map_app in Ex. apply in_app_or in Ex as [Ex|[Ex|[]]]; [|discriminate].
  apply (Nx p0); [|exact Ex]. eapply Permutation_in; [symmetry; apply sort_permutation|]. exact H0.
Qed.
Print Assumptions c87_strict_refuted.

(** ** Example: two files, Rank10 with one station and Rank2 with two; the analogs are in a group *)
Inductive item := Whole (k : nat) | Coord (a : Z) (b : positive) | Day (k : nat).
Definition item_coord (q : Qc) : item := Coord (Qnum (this q)) (Qden (this q)).
Definition item_cf (u : string) (x : item) : item := match x with Whole k => Day k | _ => x end.
Definition items (sh : list nat) (l : list nat) : arr item := of_list (Whole 0) sh (map Whole l).
Definition w_root (xs ys : list nat) : dataset item :=
  [("Xs", Var ["num_stations"] (items [length xs] xs) None false); ("Ys", Var ["num_stations"] (items [length ys] ys) None false);
   ("FLTs", Var ["num_flts"] (items [2] [0; 3600]) None false); ("test_times", Var ["num_test_times"] (items [2] [70; 80]) None false)].
Definition w_analogs (ns : nat) (l : list nat) : dataset item :=
  [("analogs", Var ["num_flts"; "num_stations"; "num_test_times"] (items [2; ns; 2] l) None false)].
Definition chars := list_ascii_of_string.
Definition w_p10 : path := chars "out/a-Rank10.nc".
Definition w_p2 : path := chars "out/a-Rank2.nc".
Definition is_p10 (p : path) : bool := if list_eq_dec ascii_dec p w_p10 then true else false.
Definition w_R (p : path) : dataset item := if is_p10 p then w_root [7] [8] else w_root [1; 2] [3; 4].
Definition w_D (p : path) : dataset item := if is_p10 p then w_analogs 1 [11; 12; 13; 14] else w_analogs 2 [21; 22; 23; 24; 25; 26; 27; 28].
Definition w_r (p : path) : N := if is_p10 p then 10 else 2.
Definition w_n (p : path) : nat := if is_p10 p then 1 else 2.
Definition w_disk (p : path) : option (ncfile item) := Some (NcFile item (w_R p) [("Analogs", w_D p)]).
Definition w_source : source := Paths [w_p2; w_p10].
Lemma w_listed : listed (fun _ => []) (fun p => p) w_source = [w_p2; w_p10]. Proof. reflexivity. Qed.
Lemma w_ranked d m : Forall (fun c => 48 <= nat_of_ascii c <= 57) d -> d <> [] -> Spec_io.numeral d m -> Spec_io.ranked (chars "out/" ++ chars "a-" ++ Spec_io.rank ++ d ++ chars ".nc") m.
Proof.
  intros F Nd Nu. exists (chars "out/"), (chars "a-"), d, (chars ".nc"). split; [reflexivity|]. split; [right; exists (chars "out"); reflexivity|]. split.
  - intros K. apply in_app_or in K as [K|K]; [cbn in K; intuition discriminate|]. apply in_app_or in K as [K|K]; [cbn in K; intuition discriminate|]. apply in_app_or in K as [K|K]; [|cbn in K; intuition discriminate].
    rewrite Forall_forall in F. apply F in K. vm_compute in K. lia.
  - split; [exact Nd|]. split; [exact Nu|]. split; [apply Props_io.no_rank_short; cbn; lia|]. split; [apply Props_io.no_rank_short; cbn; lia|]. intros c r E. injection E as <- _. unfold Spec_io.digit. vm_compute. lia.
Qed.
Lemma w_rank p : In p [w_p2; w_p10] -> Spec_io.ranked p (w_r p).
Proof.
  intros [<-|[<-|[]]].
  - change (w_r w_p2) with (10 * 0 + N.of_nat (nat_of_ascii "2" - 48))%N. apply (w_ranked ["2"%char]); [repeat constructor; vm_compute; lia|discriminate|]. apply (Spec_io.numeral_snoc [] 0); [constructor|unfold Spec_io.digit; vm_compute; lia].
  - change (w_r w_p10) with (10 * (10 * 0 + N.of_nat (nat_of_ascii "1" - 48)) + N.of_nat (nat_of_ascii "0" - 48))%N. apply (w_ranked ["1"; "0"]%char); [repeat constructor; vm_compute; lia|discriminate|].
    change ["1"; "0"]%char with (([] ++ ["1"%char]) ++ ["0"%char]). apply Spec_io.numeral_snoc; [apply Spec_io.numeral_snoc; [constructor|]|]; unfold Spec_io.digit; vm_compute; lia.
Qed.
(** the rules for data sets, decided *)
Definition lengths_ok (D : path -> dataset item) (l : list path) : bool := sizes_agree item (map D l).
Lemma lengths_of D l : lengths_ok D l = true -> forall p q a v b w i j d, In p l -> In q l -> In (a, v) (D p) -> In (b, w) (D q) -> d <> stations_dim ->
  (forall p a v, In p l -> In (a, v) (D p) -> length (shape (v_data v)) = length (v_dims v)) ->
  nth_error (v_dims v) i = Some d -> nth_error (v_dims w) j = Some d -> nth_error (shape (v_data v)) i = nth_error (shape (v_data w)) j.
Proof.
  intros A p q a v b w i j d Hp Hq Ha Hb Nd L Hi Hj. unfold lengths_ok, sizes_agree in A. rewrite forallb_forall in A.
  destruct (nth_in_sizes (D p) a v i d Ha (L p a v Hp Ha) Hi) as (k & K1 & K2), (nth_in_sizes (D q) b w j d Hb (L q b w Hq Hb) Hj) as (k' & K1' & K2').
  assert (X : forall p k, In p l -> In (d, k) (sizes (D p)) -> In (d, k) (flat_map (rest item) (map D l))).
  { intros x y Hx Hy. apply in_flat_map. exists (D x). split; [apply in_map, Hx|]. apply filter_In. split; [exact Hy|]. cbn [fst]. apply negb_true_iff, String.eqb_neq, Nd. }
  specialize (A (d, k) (X p k Hp K2)). rewrite forallb_forall in A. specialize (A (d, k') (X q k' Hq K2')). cbn [fst snd] in A. rewrite String.eqb_refl in A. cbn in A. apply Nat.eqb_eq in A. congruence.
Qed.
Ltac entries H := cbn in H; repeat (destruct H as [H|H]; [injection H as; subst|]); try contradiction.
Lemma w_run D : D = w_R \/ D = w_D -> run D w_r w_n [w_p2; w_p10].
Proof.
  intros C. assert (Sh : forall p a v, In p [w_p2; w_p10] -> In (a, v) (D p) -> length (shape (v_data v)) = length (v_dims v) /\ NoDup (v_dims v)).
  { intros p a v Hp H. destruct C; subst D; destruct Hp as [<-|[<-|[]]]; entries H; (split; [reflexivity|repeat constructor; cbn; intuition discriminate]). }
  constructor.
  - discriminate.
  - apply w_rank.
  - repeat constructor; cbn; intuition discriminate.
  - intros p Hp. destruct C; subst D; destruct Hp as [<-|[<-|[]]]; (split; [repeat constructor; cbn; intuition discriminate|cbn; intuition discriminate]).
  - intros p q Hp Hq. destruct C; subst D; destruct Hp as [<-|[<-|[]]], Hq as [<-|[<-|[]]]; reflexivity.
  - exact Sh.
  - intros p Hp. split; [destruct Hp as [<-|[<-|[]]]; cbn; lia|]. split; [apply has_dim_iff; destruct C; subst D; destruct Hp as [<-|[<-|[]]]; reflexivity|].
    intros a v i H. destruct C; subst D; destruct Hp as [<-|[<-|[]]]; entries H; destruct i as [|[|[|i]]]; cbn; try discriminate; try reflexivity; destruct i; discriminate.
  - intros p q a v b w i j d Hp Hq Ha Hb Nd. refine (lengths_of D [w_p2; w_p10] _ p q a v b w i j d Hp Hq Ha Hb Nd _); [destruct C; subst D; vm_compute; reflexivity|]. intros p' a' v' Hp' H'. exact (proj1 (Sh p' a' v' Hp' H')).
Qed.
Lemma w_ready : ready false w_disk (Some "Analogs") w_R w_D w_r w_n [w_p2; w_p10].
Proof.
  constructor.
  - apply w_run. auto.
  - intros p _. exists [("Analogs", w_D p)]. split; [reflexivity|]. split; [repeat constructor; intros []|left; reflexivity].
  - intros p q Hp Hq. split; [destruct Hp as [<-|[<-|[]]]; repeat constructor; cbn; intuition discriminate|]. intros d x Hd _.
    assert (Hl : forall a u i, In (a, u) (w_D q) -> nth_error (v_dims u) i = Some d -> d <> "num_stations" -> nth_error (shape (v_data u)) i = Some 2).
    { intros a u i H. destruct Hq as [<-|[<-|[]]]; entries H; destruct i as [|[|[|i]]]; cbn; intros; try congruence; destruct i; discriminate. }
    assert (d <> "num_stations") by (cbn in Hd; intuition congruence).
    cbn in Hd. destruct Hd as [Hd|[Hd|[]]]; injection Hd as <- <-; do 2 eexists; (split; [destruct Hp as [<-|[<-|[]]]; cbn; eauto 6|]); (split; [reflexivity|]); intros; eapply Hl; eassumption.
  - intros p Hp. right. split; [reflexivity|]. split; [apply w_run; auto|]. split; [destruct Hp as [<-|[<-|[]]]; cbn; intuition discriminate|].
    destruct Hp as [<-|[<-|[]]]; do 2 eexists; (split; [left; reflexivity|]); (split; [reflexivity|]); (split; [right; left; reflexivity|]); reflexivity.
  - intros p a v Hp H Hd. exfalso. apply has_dim_iff in Hd. destruct Hp as [<-|[<-|[]]]; entries H; vm_compute in Hd; discriminate.
  - intros p Hp H. exfalso. destruct Hp as [<-|[<-|[]]]; cbn in H; intuition discriminate.
Qed.
Definition shown (r : res (dataset item)) : list (string * (list string * list nat * list item * option string)) :=
  match r with Ok ds => map (fun p => (fst p, (v_dims (snd p), shape (v_data (snd p)), ravel (v_data (snd p)), v_units (snd p)))) ds | Raise _ => [] end.
Definition w_open (strict decode : bool) (s : source) : res (dataset item) := open_mfdataset item item_coord item_cf strict w_disk (fun _ => []) (fun p => p) s (Some "Analogs") decode.
Definition secs : option string := Some "seconds since 1970-01-01".
Example c86_nonvacuous : ready false w_disk (Some "Analogs") w_R w_D w_r w_n (listed (fun _ => []) (fun p => p) w_source) /\
  sort_paths [w_p2; w_p10] = [w_p10; w_p2] /\ offset w_r w_n [w_p2; w_p10] w_p10 = 2 /\
  shown (w_open false false w_source) =
  [("analogs", (["num_flts"; "num_stations"; "num_times"], [2; 3; 2], map Whole [21; 22; 23; 24; 11; 12; 25; 26; 27; 28; 13; 14], None));
   ("num_stations", (["num_stations"], [3], [Coord 2 1; Coord 5 2; Coord 10 1], None));
   ("num_flts", (["num_flts"], [2], map Whole [0; 3600], None)); ("num_times", (["num_times"], [2], map Whole [70; 80], secs));
   ("Xs", (["num_stations"], [3], map Whole [1; 2; 7], None)); ("Ys", (["num_stations"], [3], map Whole [3; 4; 8], None))] /\
  w_open false false (Paths [w_p10; w_p2]) = w_open false false w_source.
Proof. split; [apply w_ready|]. split; [reflexivity|]. split; [reflexivity|]. split; [vm_compute; reflexivity|]. apply c86_any_order. apply perm_swap. Qed.
Example c87_nonvacuous : w_open true false w_source = Raise ValueError /\
  map (fun p => fst (snd p)) (filter (fun p => String.eqb (fst p) "num_times") (shown (w_open false true w_source))) = [(["num_times"], [2], [Day 70; Day 80])].
Proof. split; [vm_compute; reflexivity|vm_compute; reflexivity]. Qed.

(** ** Two files with the same rank number: the one with the larger path takes the place of the other, without an error. *)
Definition w_a : path := chars "run1/a-Rank2.nc".
Definition w_b : path := chars "run2/a-Rank2.nc".
Definition w_disk2 (p : path) : option (ncfile item) :=
  Some (NcFile item (if list_eq_dec ascii_dec p w_a then w_root [1; 2] [3; 4] else w_root [5] [6]) []).
Theorem c86_same_rank_refuted : ~ (forall V of_coord cf strict disk glob expanduser s group R D n out,
  let l := listed glob expanduser s in
  (forall p, In p l -> holds disk group p (R p) (D p) /\ (exists r, Spec_io.ranked p r) /\ forall a v i, In (a, v) (D p) -> nth_error (v_dims v) i = Some "num_stations" -> nth_error (shape (v_data v)) i = Some (n p)) ->
  open_mfdataset V of_coord cf strict disk glob expanduser s group false = Ok out ->
  forall a w, In (a, w) out -> v_dims w = ["num_stations"] -> shape (v_data w) = [list_sum (map n l)]).
Proof.
  intros H.
  set (R := fun p => if list_eq_dec ascii_dec p w_a then w_root [1; 2] [3; 4] else w_root [5] [6]).
  set (n := fun p => if list_eq_dec ascii_dec p w_a then 2 else 1).
  destruct (open_mfdataset item item_coord item_cf false w_disk2 (fun _ => []) (fun p => p) (Paths [w_a; w_b]) None false) as [out|e] eqn:E.
  2:{ assert (K : match open_mfdataset item item_coord item_cf false w_disk2 (fun _ => []) (fun p => p) (Paths [w_a; w_b]) None false with Ok _ => true | Raise _ => false end = true) by (vm_compute; reflexivity). rewrite E in K. discriminate K. }
  assert (S : match find (fun p => String.eqb (fst p) "Xs") out with Some (_, w) => Some (v_dims w, shape (v_data w)) | None => None end = Some (["num_stations"], [1])).
  { pose proof (f_equal (fun r => match r with Ok out => match find (fun p => String.eqb (fst p) "Xs") out with Some (_, w) => Some (v_dims w, shape (v_data w)) | None => None end | Raise _ => None end) E) as K. cbv beta iota in K. rewrite <- K. vm_compute. reflexivity. }
  destruct (find _ out) as [[a w]|] eqn:F; [|discriminate S]. injection S as S1 S2. apply find_some in F as [F _].
  specialize (H item item_coord item_cf false w_disk2 (fun _ => []) (fun p => p) (Paths [w_a; w_b]) None R R n out). cbv zeta in H.
  assert (Rk : forall d, d = "run1/" \/ d = "run2/" -> Spec_io.ranked (chars d ++ chars "a-" ++ Spec_io.rank ++ ["2"%char] ++ chars ".nc") 2).
  { intros d Hd. exists (chars d), (chars "a-"), ["2"%char], (chars ".nc"). split; [reflexivity|]. split; [right; destruct Hd as [Hd|Hd]; subst d; [exists (chars "run1")|exists (chars "run2")]; reflexivity|].
    split; [cbn; intuition discriminate|]. split; [discriminate|]. split; [change 2%N with (10 * 0 + N.of_nat (nat_of_ascii "2" - 48))%N; apply (Spec_io.numeral_snoc [] 0); [constructor|unfold Spec_io.digit; vm_compute; lia]|].
    split; [apply Props_io.no_rank_short; cbn; lia|]. split; [apply Props_io.no_rank_short; cbn; lia|]. intros c r K. injection K as <- _. unfold Spec_io.digit. vm_compute. lia. }
  assert (X : shape (v_data w) = [3]).
  { apply (H) with (a := a); [|exact E|exact F|exact S1]. intros p Hp. split; [exists []; split; reflexivity|]. split.
    - exists 2%N. destruct Hp as [<-|[<-|[]]]; [apply (Rk "run1/")|apply (Rk "run2/")]; auto.
    - intros b v i Hb. destruct Hp as [<-|[<-|[]]]; entries Hb; destruct i as [|[|i]]; cbn; intros; try discriminate; try reflexivity; destruct i; discriminate. }
  rewrite X in S2. discriminate S2.
Qed.
Print Assumptions c86_same_rank_refuted.
