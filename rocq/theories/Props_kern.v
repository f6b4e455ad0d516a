(** C124: probabilities from a kernel density estimate with any kernel. *)
From Coq Require Import String Reals List Bool Arith ZArith Lra Lia Psatz.
From Coquelicot Require Import Coquelicot.
From Verif Require Import Num R_gauss M_kde P_kde Props_kde M_kern Spec_kern P_kern.
Import ListNotations.
Open Scope R_scope.

(** ** Every kernel is a symmetric density, with the distribution function of the specification *)
Theorem c124_kernels : forall k, let f u := kernel_at k (Rabs u) in let F := kernel_cdf k in
  (forall u, 0 <= f u <= 1) /\ integral_of f F /\ (forall u, F (- u) = 1 - F u) /\ (forall u v, u <= v -> F u <= F v) /\ (forall u, 0 <= F u <= 1) /\
  (forall eps, 0 < eps -> exists u0, (forall u, u0 <= u -> 1 - eps < F u) /\ (forall u, u <= - u0 -> F u < eps)) /\
  (bounded_kernel k -> forall u, 1 <= u -> f u = 0 /\ f (- u) = 0 /\ F u = 1 /\ F (- u) = 0).
Proof.
  intros k f F. split; [intros u; split; [apply K_pos|apply K_one]|]. split; [apply cdf_integral|]. split; [apply cdf_sym|]. split; [apply cdf_mono|]. split; [apply cdf_range|]. split.
  - intros eps E. destruct (upper_lim k eps E) as (u0 & P & L). exists u0. assert (A : forall u, u0 <= u -> 1 - eps < F u) by (intros u U; unfold F; rewrite cdf_right by lra; apply L, U).
    split; [exact A|]. intros u U. specialize (A (- u) ltac:(lra)). unfold F in *. rewrite cdf_sym in A. lra.
  - intros B u U. assert (G : f u = 0) by (unfold f; rewrite Rabs_right by lra; destruct k; try contradiction; cbn [kernel_at]; destruct (Rlt_dec u 1); lra).
    assert (G1 : F u = 1) by (unfold F; rewrite cdf_right by lra; destruct k; try contradiction; cbn [upper_half]; destruct (Rlt_dec u 1); lra).
    split; [exact G|]. split; [unfold f in *; rewrite Rabs_Ropp; exact G|]. split; [exact G1|]. unfold F in *. rewrite cdf_sym, G1. ring.
Qed.
Print Assumptions c124_kernels.

(** ** At thresholds above the lower end: the mass between lower end and threshold, up to an error that vanishes with the number of samples *)
Theorem c124_integral : forall name k h n mult ens a t, kernel_of name = Some k -> 0 < h -> (2 <= n)%nat -> lower_end mult ens a -> a <= t ->
  exists p, ens_to_prob_kern name h n mult (t :: ens) = Ok p /\ 0 <= p /\
    Rabs (p - (kern_mixture k h ens t - kern_mixture k h ens a)) <= 3 / h * ((t - a) / INR (n - 1)) /\ p <= 1 + 3 / h * ((t - a) / INR (n - 1)).
Proof.
  intros name k h n mult ens a t Hk H N L T. destruct (lower_end_from _ _ _ L) as [He ->]. set (a := kde_from mult ens) in *.
  exists (kern_value k h ens n a t). split; [apply kern_ok; assumption|]. pose proof (kern_value_error k h H ens He n a t N T) as B.
  assert (Pn : 0 < INR (n - 1)) by (apply lt_0_INR; lia). split; [|split; [exact B|]].
  - apply Rmult_le_pos; [|unfold Rdiv; apply Rmult_le_pos; [lra|left; apply Rinv_0_lt_compat; auto]]. apply rsum_nonneg. intros x I. apply in_map_iff in I as (y & <- & _). apply kern_density_range; assumption.
  - assert (M : forall x, 0 <= kern_mixture k h ens x <= 1).
    { intros x. rewrite mixture_avg. split; [rewrite <- (avg_const ens He 0)|rewrite <- (avg_const ens He 1)]; apply avg_le; try assumption; intros; apply cdf_range. }
    pose proof (M t). pose proof (M a). pose proof (Rle_abs (kern_value k h ens n a t - (kern_mixture k h ens t - kern_mixture k h ens a))). lra.
Qed.
Print Assumptions c124_integral.

(** ** Kernels of bounded reach whose reach ends above the lower end: nothing is lost, and no result is negative *)
Theorem c124_bounded : forall name k h n mult ens a t lo hi, kernel_of name = Some k -> bounded_kernel k -> 0 < h -> (2 <= n)%nat -> lower_end mult ens a ->
  (forall e, In e ens -> lo <= e <= hi) -> a <= lo - h ->
  exists p, ens_to_prob_kern name h n mult (t :: ens) = Ok p /\
    (t <= a -> p = 0) /\ (a <= t -> Rabs (p - kern_mixture k h ens t) <= 3 / h * ((t - a) / INR (n - 1))) /\ (hi + h <= t -> Rabs (p - 1) <= 3 / h * ((t - a) / INR (n - 1))).
Proof.
  intros name k h n mult ens a t lo hi Hk Bk H N L R A. destruct (lower_end_from _ _ _ L) as [He Ea]. pose proof (c124_kernels k) as (_ & _ & _ & _ & _ & _ & Z). specialize (Z Bk).
  pose proof (Rinv_0_lt_compat _ H) as I.
  assert (Far : forall x e, x <= a -> In e ens -> 1 <= - place h x e) by (intros x e X Ie; destruct (R e Ie); unfold place; apply (Rmult_le_reg_r h); [exact H|]; replace (- ((x - e) / h) * h) with (e - x) by (field; lra); lra).
  assert (D0 : forall x, x <= a -> kern_density k h ens x = 0).
  { intros x X. rewrite density_avg by exact H. rewrite <- (avg_const ens He 0) at 1. apply avg_ext. intros e Ie. destruct (Z _ (Far x e X Ie)) as (_ & G & _). rewrite Ropp_involutive in G. rewrite G. unfold Rdiv. ring. }
  assert (M0 : kern_mixture k h ens a = 0).
  { rewrite mixture_avg, <- (avg_const ens He 0). apply avg_ext. intros e Ie. destruct (Z _ (Far a e ltac:(lra) Ie)) as (_ & _ & _ & G). rewrite Ropp_involutive in G. exact G. }
  exists (kern_value k h ens n a t). split; [rewrite Ea; apply kern_ok; assumption|]. pose proof (kern_value_error k h H ens He n a t N) as B. rewrite M0, Rminus_0_r in B. split; [|split; [exact B|]].
  - intros T. unfold kern_value. assert (Pn : 0 < INR (n - 1)) by (apply lt_0_INR; lia). assert (Q : rsum (map (kern_density k h ens) (linspace a t n)) = 0); [|rewrite Q; ring].
    assert (E : forall l, (forall x, In x l -> x <= a) -> rsum (map (kern_density k h ens) l) = 0) by (induction l as [|x l IH]; intros X; cbn [map rsum]; [reflexivity|rewrite (D0 x), IH by (intros; apply X; cbn; auto); ring]).
    apply E. intros x Ix. unfold linspace in Ix. apply in_map_iff in Ix as (j & <- & _). assert (0 <= INR j * ((a - t) / INR (n - 1))) by (apply Rmult_le_pos; [apply pos_INR|unfold Rdiv; apply Rmult_le_pos; [lra|left; apply Rinv_0_lt_compat; auto]]).
    replace ((t - a) / INR (n - 1)) with (- ((a - t) / INR (n - 1))) by (field; lra). lra.
  - intros T. assert (exists e, In e ens) as [e0 I0] by (destruct ens as [|e l]; [congruence|exists e; left; reflexivity]). destruct (R e0 I0). assert (T' : a <= t) by lra.
    assert (M1 : kern_mixture k h ens t = 1); [|rewrite M1 in B; exact (B T')]. rewrite mixture_avg, <- (avg_const ens He 1). apply avg_ext. intros e Ie.
    assert (1 <= place h t e) as G by (destruct (R e Ie); unfold place; apply (Rmult_le_reg_r h); [exact H|]; replace ((t - e) / h * h) with (t - e) by (field; lra); lra). apply (Z _ G).
Qed.
Print Assumptions c124_bounded.

(** ** Members that agree: half of the mass lies below the lower end, so no kernel gives much more than one half *)
Theorem c124_agreeing_members : forall name k h n mult ens v t, kernel_of name = Some k -> 0 < h -> (2 <= n)%nat -> ens <> [] -> (forall e, In e ens -> e = v) -> v <= t ->
  exists p, ens_to_prob_kern name h n mult (t :: ens) = Ok p /\ Rabs (p - (kernel_cdf k ((t - v) / h) - / 2)) <= 3 / h * ((t - v) / INR (n - 1)) /\ p <= / 2 + 3 / h * ((t - v) / INR (n - 1)).
Proof.
  intros name k h n mult ens v t Hk H N He V T. pose proof (kde_from_const mult v ens He V) as Ea. exists (kern_value k h ens n v t). split; [rewrite <- Ea; apply kern_ok; assumption|].
  pose proof (kern_value_error k h H ens He n v t N T) as B.
  assert (M : forall x, kern_mixture k h ens x = kernel_cdf k ((x - v) / h)) by (intros x; rewrite mixture_avg, <- (avg_const ens He (kernel_cdf k ((x - v) / h))); apply avg_ext; intros e Ie; rewrite (V e Ie); reflexivity).
  rewrite !M in B. replace ((v - v) / h) with 0 in B by (field; lra). rewrite (cdf_right k 0), upper_0 in B by lra. split; [exact B|].
  pose proof (cdf_range k ((t - v) / h)). pose proof (Rle_abs (kern_value k h ens n v t - (kernel_cdf k ((t - v) / h) - / 2))). lra.
Qed.
Print Assumptions c124_agreeing_members.

(** ** The default kernel is that of C74; names of other kernels, empty ensembles, bandwidths and numbers of samples that are too small are rejected *)
Theorem c124_names : forall h n mult col, (col <> [] -> ens_to_prob_kern "gaussian" h n mult col = ens_to_prob_kde h n mult col) /\
  (forall name k, kernel_of name = Some k <-> In (name, k) [("gaussian", Gaussian); ("tophat", Tophat); ("epanechnikov", Epanechnikov); ("exponential", Exponential); ("linear", Linear); ("cosine", Cosine)]%string) /\
  (forall name t ens, kernel_of name = None \/ ens = [] \/ h <= 0 -> ens_to_prob_kern name h n mult (t :: ens) = Raise ValueError) /\
  (forall name k t ens, kernel_of name = Some k -> ens <> [] -> 0 < h -> (n < 2)%nat -> ens_to_prob_kern name h n mult (t :: ens) = Raise IndexError).
Proof.
  intros h n mult col. split; [|split; [|split]].
  - intros C. destruct col as [|t [|e l]]; [congruence|reflexivity|]. unfold ens_to_prob_kern, ens_to_prob_kde. cbn [kernel_of String.eqb Ascii.eqb Bool.eqb]. destruct (Rle_dec h 0) as [|Hp]; [reflexivity|].
    assert (E : forall x, kern_density Gaussian h (e :: l) x = kde_density h (e :: l) x).
    { intros x. unfold kern_density, kde_density. f_equal. f_equal. apply map_ext. intros y. f_equal. cbn [kernel_at]. unfold npdf.
      replace (Rabs (x - y) / h * (Rabs (x - y) / h)) with ((x - y) / h * ((x - y) / h)); [reflexivity|]. destruct (Rcase_abs (x - y)) as [G|G]; [rewrite (Rabs_left _ G)|rewrite (Rabs_right _ G)]; field; lra. }
    destruct (linspace _ _ _) as [|x0 [|x1 r]]; try reflexivity. rewrite (map_ext _ _ E). reflexivity.
  - intros name k. unfold kernel_of. split.
    + repeat match goal with |- context [String.eqb name ?s] => destruct (String.eqb_spec name s) as [->|] end; intros Q; try discriminate; injection Q as <-; cbn; tauto.
    + intros I. repeat (destruct I as [I|I]; [injection I as <- <-; reflexivity|]). destruct I.
  - intros name t ens C. unfold ens_to_prob_kern. destruct (kernel_of name) as [k|]; [|reflexivity]. destruct ens as [|e l]; [reflexivity|]. destruct C as [C|[C|C]]; try discriminate. destruct (Rle_dec h 0); [reflexivity|lra].
  - intros name k t ens Hk He H N. unfold ens_to_prob_kern. rewrite Hk. destruct ens as [|e l]; [congruence|]. destruct (Rle_dec h 0); [lra|]. destruct n as [|[|n]]; [reflexivity|reflexivity|lia].
Qed.
Print Assumptions c124_names.

(** Members 0 and 1, reach 1, lower end -5: the linear kernel puts half of the mass below 1/2, all of it below 2 and nothing below -5; members that agree. *)
Example c124_case :
  lower_end 5 [0; 1] (-5) /\ kernel_of "linear" = Some Linear /\ kern_mixture Linear 1 [0; 1] (/ 2) = / 2 /\
  (exists p, ens_to_prob_kern "linear" 1 1000 5 [/ 2; 0; 1] = Ok p /\ Rabs (p - / 2) <= 3 / 1 * ((/ 2 - -5) / INR (1000 - 1))) /\
  (exists p, ens_to_prob_kern "tophat" 1 1000 5 [-6; 0; 1] = Ok p /\ p = 0) /\
  (exists p, ens_to_prob_kern "cosine" 1 1000 5 [2; 0; 1] = Ok p /\ Rabs (p - 1) <= 3 / 1 * ((2 - -5) / INR (1000 - 1))) /\
  (exists p, ens_to_prob_kern "exponential" 1 1000 5 [1; 0; 0; 0] = Ok p /\ p <= / 2 + 3 / 1 * ((1 - 0) / INR (1000 - 1))) /\
  ens_to_prob_kern "triangular" 1 1000 5 [1; 0; 0; 0] = Raise ValueError.
Proof.
  assert (L : lower_end 5 [0; 1] (-5)).
  { exists 0, 1. split; [left; auto|split; [right; left; auto|split; [|lra]]]. intros e [<-|[<-|[]]]; lra. }
  assert (R : forall e, In e [0; 1] -> 0 <= e <= 1) by (intros e [<-|[<-|[]]]; lra). assert (N : (2 <= 1000)%nat) by (apply Nat.leb_le; reflexivity).
  assert (M : kern_mixture Linear 1 [0; 1] (/ 2) = / 2).
  { unfold kern_mixture. cbn [map rsum length INR]. replace ((/ 2 - 1) / 1) with (- ((/ 2 - 0) / 1)) by field. rewrite cdf_sym. field. }
  split; [exact L|]. split; [reflexivity|]. split; [exact M|]. split; [|split; [|split; [|split]]].
  - destruct (c124_bounded "linear" Linear 1 1000 5 [0; 1] (-5) (/ 2) 0 1 eq_refl I ltac:(lra) N L R ltac:(lra)) as (p & E & _ & B & _). exists p. split; [exact E|]. rewrite M in B. apply B. lra.
  - destruct (c124_bounded "tophat" Tophat 1 1000 5 [0; 1] (-5) (-6) 0 1 eq_refl I ltac:(lra) N L R ltac:(lra)) as (p & E & Z & _). exists p. split; [exact E|]. apply Z. lra.
  - destruct (c124_bounded "cosine" Cosine 1 1000 5 [0; 1] (-5) 2 0 1 eq_refl I ltac:(lra) N L R ltac:(lra)) as (p & E & _ & _ & B). exists p. split; [exact E|]. apply B. lra.
  - destruct (c124_agreeing_members "exponential" Exponential 1 1000 5 [0; 0; 0] 0 1 eq_refl ltac:(lra) N ltac:(discriminate) ltac:(intros e [<-|[<-|[<-|[]]]]; reflexivity) ltac:(lra)) as (p & E & _ & B). exists p. auto.
  - apply (c124_names 1 1000 5 []). left. reflexivity.
Qed.
