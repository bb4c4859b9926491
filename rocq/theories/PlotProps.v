(** C113: what the plotting routines draw. *)
From Verif Require Import Prelude RealizationModel RealizationSpec RealizationProofs RealizationProps SampleModel SampleProps PlotModel.

(** ** Specification *)
(** the halos a mass function is asked for, in words of the documentation: all, those at a redshift, the field halos in an interval *)
Definition mf_selected (z : zarg) (h : Halo) : Prop :=
  match z with
  | ZNone => True
  | ZNum z => h_z h = z
  | ZPair a b => h_sub h = false /\ a <= h_z h < b
  | _ => False
  end.
(** [n] halos among [hs] satisfy P *)
Definition number (hp : heap) (P : Halo -> Prop) (hs : list ref) (n : nat) : Prop :=
  exists l, kept (fun r => P (hp r)) hs l /\ List.length l = n.
(** i-th of the masses that divide 10^lo .. 10^hi into n equal steps of the logarithm *)
Definition mass_step (lo hi : R) (n i : nat) : R := Rpower 10 (lo + INR i * (hi - lo) / INR n).
Definition zsum (l : list Z) : Z := fold_right Z.add 0%Z l.

(** ** Lemmas *)
Lemma count_map {A} (f : R -> bool) (g : A -> R) l : count f (map g l) = List.length (filter (fun a => f (g a)) l).
Proof. unfold count. induction l as [|a l IH]; simpl; [reflexivity|]. destruct (f (g a)); simpl; congruence. Qed.
Lemma number_filter hp P (p : ref -> bool) hs : (forall r, In r hs -> (p r = true <-> P (hp r))) -> number hp P hs (List.length (filter p hs)).
Proof. intros H. exists (filter p hs). split; [apply kept_filter; exact H|reflexivity]. Qed.
Lemma filter_filter {A} (p q : A -> bool) l : filter p (filter q l) = filter (fun a => q a && p a) l.
Proof. induction l as [|a l IH]; simpl; [reflexivity|]. destruct (q a); simpl; [destruct (p a); simpl; congruence|exact IH]. Qed.

Definition mf_sel (hp : heap) (z : zarg) (r : ref) : bool :=
  match z with
  | ZNone => true
  | ZNum z => Reqb (h_z (hp r)) z
  | ZPair a b => if h_sub (hp r) then false else Rleb a (h_z (hp r)) && Rltb (h_z (hp r)) b
  | _ => false
  end.
Lemma mf_sel_ok hp z r : mf_sel hp z r = true <-> mf_selected z (hp r).
Proof.
  destruct z; cbn; try (split; [discriminate|tauto]); [tauto|apply Reqb_true|].
  destruct (h_sub (hp r)); [split; [discriminate|intros [H _]; discriminate]|]. rewrite andb_true_iff, Rleb_true, Rltb_true. tauto.
Qed.
Lemma filter_true {A} (l : list A) : filter (fun _ => true) l = l.
Proof. induction l; simpl; congruence. Qed.
Lemma mf_masses_ok hp rz z : in_sync hp rz ->
  (z = ZLens \/ z = ZOther -> mf_masses hp rz z = Err EException) /\
  (z <> ZLens -> z <> ZOther -> mf_masses hp rz z = Ok (map (fun r => h_mass (hp r)) (filter (mf_sel hp z) (rz_halos rz)))).
Proof.
  intros IS. split; [intros [-> | ->]; reflexivity|]. intros A B. destruct z; try congruence; cbn [mf_masses mf_sel].
  - rewrite filter_true. f_equal. apply (sync_mass _ _ IS).
  - f_equal. unfold realization_at_z. unfold halos_at_z. pose proof (halos_at_z_fst hp z (rz_halos rz) 0) as F.
    destruct (halos_at_z_from hp z 0 (rz_halos rz)) as [hs ix]. cbn in F |- *. rewrite F. reflexivity.
  - reflexivity.
Qed.

Lemma diff_nth l i : (S i < List.length l)%nat -> nth i (diff l) 0%Z = (nth (S i) l 0%Z - nth i l 0%Z)%Z.
Proof.
  revert i. induction l as [|a l IH]; intros i H; [cbn in H; lia|]. destruct l as [|b l]; [cbn in H; lia|].
  destruct i as [|i]; [reflexivity|]. change (nth i (diff (b :: l)) 0%Z = (nth (S i) (b :: l) 0%Z - nth i (b :: l) 0%Z)%Z).
  apply IH. cbn in H |- *. lia.
Qed.
Lemma diff_length l : List.length (diff l) = (List.length l - 1)%nat.
Proof. induction l as [|a l IH]; [reflexivity|]. destruct l as [|b l]; [reflexivity|]. cbn [diff List.length] in *. rewrite IH. lia. Qed.
Lemma diff_sum a l : zsum (diff (a :: l)) = (last (a :: l) 0 - a)%Z.
Proof.
  revert a. induction l as [|b l IH]; intros a; [cbn; lia|]. change (zsum ((b - a)%Z :: diff (b :: l)) = (last (b :: l) 0 - a)%Z).
  cbn [zsum fold_right]. fold (zsum (diff (b :: l))). rewrite IH. lia.
Qed.
Lemma removelast_map_seq {A} (f : nat -> A) k n : removelast (map f (seq k (S n))) = map f (seq k n).
Proof. replace (seq k (S n)) with (seq k n ++ [(k + n)%nat]) by (symmetry; apply seq_S). rewrite map_app. cbn [map]. apply removelast_last. Qed.

Lemma logspace_step lo hi n i : (2 <= n)%nat -> logspace lo hi n i = mass_step lo hi (n - 1) i.
Proof. intros H. unfold logspace, mass_step. f_equal. field. apply not_0_INR. lia. Qed.
Lemma step_mono lo hi n i j : lo < hi -> (0 < n)%nat -> (i < j)%nat -> mass_step lo hi n i < mass_step lo hi n j.
Proof.
  intros A N I. unfold mass_step. apply Rpower_lt; [lra|]. apply Rplus_lt_compat_l. apply lt_INR in I.
  apply Rmult_lt_compat_r; [apply Rinv_0_lt_compat, lt_0_INR; exact N|]. apply Rmult_lt_compat_r; lra.
Qed.
Lemma step_mono_le lo hi n i j : lo < hi -> (0 < n)%nat -> (i <= j)%nat -> mass_step lo hi n i <= mass_step lo hi n j.
Proof. intros A N I. apply le_lt_eq_dec in I as [I | ->]; [left; apply step_mono; auto|lra]. Qed.
Lemma step_0 lo hi n : mass_step lo hi n 0 = Rpower 10 lo.
Proof. unfold mass_step. f_equal. cbn. lra. Qed.
Lemma step_n lo hi n : (0 < n)%nat -> mass_step lo hi n n = Rpower 10 hi.
Proof. intros N. unfold mass_step. f_equal. field. apply not_0_INR. lia. Qed.
Lemma increasing_map (f : nat -> R) k n : (forall i j, (i <= j)%nat -> f i <= f j) -> increasing (map f (seq k n)) = true.
Proof.
  intros H. revert k. induction n as [|n IH]; intros k; [reflexivity|]. specialize (IH (S k)). destruct n as [|n]; [reflexivity|].
  cbn [seq map increasing] in *. rewrite IH, andb_true_r. apply Rleb_true, H. lia.
Qed.

(** the histogram in closed form *)
Lemma histogram_steps (f : nat -> R) n values : (forall i j, (i <= j)%nat -> f i <= f j) ->
  exists h, histogram_edges values (map f (seq 0 (S n))) = Ok h /\ List.length h = n /\
  (forall i, (i < n)%nat -> nth i h 0%Z = Z.of_nat (count (fun v => Rleb (f i) v && (if (i =? n - 1)%nat then Rleb v (f (S i)) else Rltb v (f (S i)))) values)) /\
  ((0 < n)%nat -> zsum h = Z.of_nat (count (fun v => Rleb (f 0%nat) v && Rleb v (f n)) values)).
Proof.
  intros H. set (c := cumulated values (map f (seq 0 (S n)))).
  assert (CL : List.length c = S n) by (unfold c, cumulated; rewrite removelast_map_seq, app_length, !map_length, seq_length; cbn; lia).
  assert (CN : forall i, (i <= n)%nat -> nth i c 0%Z = Z.of_nat (count (fun v => if (i =? n)%nat then Rleb v (f i) else Rltb v (f i)) values)).
  { intros i Hi. unfold c, cumulated. rewrite removelast_map_seq. destruct (i =? n)%nat eqn:E.
    - apply Nat.eqb_eq in E. subst i. rewrite app_nth2; rewrite !map_length, seq_length; [|lia]. replace (n - n)%nat with 0%nat by lia. cbn [nth].
      rewrite seq_last_map. reflexivity.
    - apply Nat.eqb_neq in E. rewrite app_nth1; [|rewrite !map_length, seq_length; lia].
      rewrite map_map. erewrite nth_indep; [|rewrite map_length, seq_length; lia]. rewrite map_nth with (d := 0%nat), seq_nth by lia. reflexivity. }
  exists (diff c). split; [|split; [|split]].
  - unfold histogram_edges. rewrite increasing_map by exact H. cbn [negb]. fold c. cbn [seq map]. reflexivity.
  - rewrite diff_length. lia.
  - intros i Hi. rewrite diff_nth by lia. rewrite !CN by lia. replace (i =? n)%nat with false by (symmetry; apply Nat.eqb_neq; lia).
    assert (HI : f i <= f (S i)) by (apply H; lia).
    rewrite (count_split (fun v => Rltb v (f i)) (fun v => Rleb (f i) v && (if (i =? n - 1)%nat then Rleb v (f (S i)) else Rltb v (f (S i))))
       (fun v => if (S i =? n)%nat then Rleb v (f (S i)) else Rltb v (f (S i)))); [lia|].
    intros v _. replace (S i =? n)%nat with (i =? n - 1)%nat by (destruct (i =? n - 1)%nat eqn:E; symmetry; [apply Nat.eqb_eq in E; apply Nat.eqb_eq; lia|apply Nat.eqb_neq in E; apply Nat.eqb_neq; lia]).
    unfold Rltb, Rleb. destruct (i =? n - 1)%nat; destruct (Rlt_dec v (f i)), (Rle_dec (f i) v), (Rle_dec v (f (S i))), (Rlt_dec v (f (S i))); cbn; split; auto; lra.
  - intros N. destruct c as [|a t] eqn:EC; [cbn in CL; lia|]. rewrite diff_sum.
    assert (L : last (a :: t) 0%Z = nth n (a :: t) 0%Z).
    { clear -CL. cbn in CL. injection CL as CL. revert a t CL. induction n as [|n IH]; intros a t CL; [destruct t; [reflexivity|discriminate]|].
      destruct t as [|b t]; [discriminate|]. cbn [List.length] in CL. change (last (b :: t) 0%Z = nth n (b :: t) 0%Z). apply IH. lia. }
    rewrite L, CN by lia. rewrite Nat.eqb_refl. specialize (CN 0%nat ltac:(lia)). cbn [nth] in CN. rewrite CN.
    replace (0 =? n)%nat with false by (symmetry; apply Nat.eqb_neq; lia). assert (HI : f 0%nat <= f n) by (apply H; lia).
    rewrite (count_split (fun v => Rltb v (f 0%nat)) (fun v => Rleb (f 0%nat) v && Rleb v (f n)) (fun v => Rleb v (f n))); [lia|].
    intros v _. unfold Rltb, Rleb. destruct (Rlt_dec v (f 0%nat)), (Rle_dec (f 0%nat) v), (Rle_dec v (f n)); cbn; split; auto; lra.
Qed.

(** ** The halo mass function *)
(** The curve has one point per mass bin, at its lower edge, whose height is the number of halos of the realization that are selected and lie in
    the bin; the last bin includes its upper edge, every selected halo between the two limits is counted once. *)
Theorem C113_mass_function : forall hp rz z lo hi n, in_sync hp rz -> lo < hi -> (2 <= n)%nat ->
  (z = ZLens \/ z = ZOther -> plot_halo_mass_function hp rz z lo hi n = Err EException) /\
  (z <> ZLens -> z <> ZOther -> exists e h, plot_halo_mass_function hp rz z lo hi n = Ok (e, h) /\ List.length e = (n - 1)%nat /\ List.length h = (n - 1)%nat /\
    (forall i, (i < n - 1)%nat -> nth i e 0 = mass_step lo hi (n - 1) i /\ exists k, nth i h 0%Z = Z.of_nat k /\
       number hp (fun x => mf_selected z x /\ mass_step lo hi (n - 1) i <= h_mass x /\
         (if (i =? n - 2)%nat then h_mass x <= mass_step lo hi (n - 1) (S i) else h_mass x < mass_step lo hi (n - 1) (S i))) (rz_halos rz) k) /\
    exists k, zsum h = Z.of_nat k /\ number hp (fun x => mf_selected z x /\ Rpower 10 lo <= h_mass x <= Rpower 10 hi) (rz_halos rz) k).
Proof.
  intros hp rz z lo hi n IS LH N2. destruct (mf_masses_ok hp rz z IS) as (M1 & M2). unfold plot_halo_mass_function. split.
  - intros Z. rewrite (M1 Z). reflexivity.
  - intros Z1 Z2. rewrite (M2 Z1 Z2). cbn [bind].
    replace (map (logspace lo hi n) (seq 0 n)) with (map (mass_step lo hi (n - 1)) (seq 0 (S (n - 1)))) by
      (replace (S (n - 1)) with n by lia; apply map_ext; intros i; symmetry; apply logspace_step; exact N2).
    destruct (histogram_steps (mass_step lo hi (n - 1)) (n - 1) (map (fun r => h_mass (hp r)) (filter (mf_sel hp z) (rz_halos rz)))) as (h & E & L & B & S0).
    { intros i j I. apply step_mono_le; [exact LH|lia|exact I]. }
    rewrite E. cbn [bind]. rewrite removelast_map_seq. eexists. exists h. split; [reflexivity|]. split; [rewrite map_length, seq_length; reflexivity|].
    split; [exact L|]. split.
    + intros i Hi. split.
      * erewrite nth_indep; [|rewrite map_length, seq_length; lia]. rewrite map_nth with (d := 0%nat), seq_nth by lia. reflexivity.
      * eexists. split; [rewrite B by exact Hi; reflexivity|]. rewrite count_map, filter_filter. apply number_filter. intros r _.
        rewrite andb_true_iff, mf_sel_ok, andb_true_iff, Rleb_true. replace (n - 2)%nat with (n - 1 - 1)%nat by lia.
        destruct (i =? n - 1 - 1)%nat; rewrite ?Rleb_true, ?Rltb_true; tauto.
    + eexists. split; [rewrite S0 by lia; reflexivity|]. rewrite count_map, filter_filter. apply number_filter. intros r _.
      rewrite andb_true_iff, mf_sel_ok, andb_true_iff, !Rleb_true, step_0, step_n by lia. tauto.
Qed.

(** ** The concentration-mass relation *)
(** [v] is a median of [l]: at least half of the values are not above it and at least half not below *)
Definition is_median (v : R) (l : list R) : Prop :=
  (List.length l <= 2 * count (fun x => Rleb x v) l)%nat /\ (List.length l <= 2 * count (fun x => Rleb v x) l)%nat.
(** population standard deviation *)
Definition is_std (s : R) (l : list R) : Prop :=
  0 <= s /\ INR (List.length l) * s ^ 2 = rsum (map (fun x => (x - rsum l / INR (List.length l)) ^ 2) l).
(** the halos the relation uses *)
Definition cm_selected (z : zarg) (h : Halo) : Prop :=
  match z with
  | ZLens => h_sub h = true
  | ZNum z => h_sub h = true /\ h_z h = z
  | ZPair a b => a <= h_z h < b
  | _ => False
  end.

Lemma rinsert_perm a l : Permutation (rinsert a l) (a :: l).
Proof. induction l as [|b l IH]; cbn; [reflexivity|]. destruct (Rleb a b); [reflexivity|]. rewrite IH. apply perm_swap. Qed.
Lemma rsort_perm l : Permutation (rsort l) l.
Proof. induction l as [|a l IH]; cbn; [reflexivity|]. rewrite rinsert_perm. apply perm_skip, IH. Qed.
Lemma rinsert_sorted a l : StronglySorted Rle l -> StronglySorted Rle (rinsert a l).
Proof.
  induction 1 as [|b l S IH F]; cbn; [repeat constructor|]. destruct (Rleb a b) eqn:E.
  - apply Rleb_true in E. constructor; [constructor; assumption|]. constructor; [exact E|]. eapply Forall_impl; [|exact F]. cbn. intros c Hc. lra.
  - apply Rleb_false in E. constructor; [exact IH|]. apply Forall_forall. intros x Hx. apply (Permutation_in _ (rinsert_perm a l)) in Hx.
    destruct Hx as [<-|Hx]; [lra|]. rewrite Forall_forall in F. apply F. exact Hx.
Qed.
Lemma rsort_sorted l : StronglySorted Rle (rsort l).
Proof. induction l; cbn; [constructor|apply rinsert_sorted; assumption]. Qed.
Lemma count_perm f l l' : Permutation l l' -> count f l = count f l'.
Proof. unfold count. induction 1; cbn; auto; [destruct (f x); cbn; congruence|destruct (f x), (f y); reflexivity|congruence]. Qed.
Lemma sorted_nth_le l i j : StronglySorted Rle l -> (i <= j < List.length l)%nat -> nth i l 0 <= nth j l 0.
Proof.
  intros S. revert i j. induction S as [|a l S IH F]; intros i j H; [cbn in H; lia|]. destruct i as [|i], j as [|j]; cbn in *; try lia; try lra.
  - rewrite Forall_forall in F. apply F. apply nth_In. lia.
  - apply IH. lia.
Qed.
Lemma count_ge_prefix f l k : (k <= List.length l)%nat -> (forall i, (i < k)%nat -> f (nth i l 0) = true) -> (k <= count f l)%nat.
Proof.
  revert k. induction l as [|a l IH]; intros k L H; [cbn in L; lia|]. destruct k as [|k]; [lia|]. unfold count in *. cbn [filter].
  pose proof (H 0%nat ltac:(lia)) as H0. cbn [nth] in H0. rewrite H0. cbn [List.length] in *.
  specialize (IH k ltac:(lia) (fun i Hi => H (S i) ltac:(lia))). lia.
Qed.
Lemma count_ge_suffix f l k : (k <= List.length l)%nat -> (forall i, (k <= i < List.length l)%nat -> f (nth i l 0) = true) -> (List.length l - k <= count f l)%nat.
Proof.
  revert k. induction l as [|a l IH]; intros k L H; [cbn; lia|]. unfold count in *. cbn [filter]. destruct k as [|k].
  - pose proof (H 0%nat ltac:(cbn; lia)) as H0. cbn [nth] in H0. rewrite H0. cbn [List.length] in *.
    specialize (IH 0%nat ltac:(lia) (fun i Hi => H (S i) ltac:(lia))). lia.
  - specialize (IH k ltac:(cbn in L; lia) (fun i Hi => H (S i) ltac:(cbn; lia))). destruct (f a); cbn; lia.
Qed.
Lemma median_ok l : match np_median l with None => l = [] | Some v => l <> [] /\ is_median v l end.
Proof.
  unfold np_median. pose proof (rsort_perm l) as P. pose proof (rsort_sorted l) as S. pose proof (Permutation_length P) as L.
  set (s := rsort l) in *. clearbody s. destruct (List.length s =? 0)%nat eqn:E.
  - apply Nat.eqb_eq in E. rewrite E in L. destruct l; [reflexivity|discriminate].
  - apply Nat.eqb_neq in E. set (n := List.length s) in *. pose proof (Nat.div_mod n 2 ltac:(lia)) as D.
    assert (G : forall v, (exists k, (k < n)%nat /\ nth k s 0 <= v /\ (n <= 2 * (k + 1))%nat) -> (exists k, (k < n)%nat /\ v <= nth k s 0 /\ (n <= 2 * (n - k))%nat) -> l <> [] /\ is_median v l).
    { intros v (k1 & A1 & A2 & A3) (k2 & B1 & B2 & B3). split; [intros ->; cbn in L; lia|]. unfold is_median. rewrite <- L, <- !(count_perm _ _ _ P). fold n. split.
      - assert (k1 + 1 <= count (fun x => Rleb x v) s)%nat; [|lia]. apply count_ge_prefix; [fold n; lia|]. intros i Hi. apply Rleb_true.
        pose proof (sorted_nth_le s i k1 S ltac:(fold n; lia)). lra.
      - pose proof (count_ge_suffix (fun x => Rleb v x) s k2 ltac:(fold n; lia)) as Q. fold n in Q. specialize (Q ltac:(intros i Hi; apply Rleb_true; pose proof (sorted_nth_le s k2 i S ltac:(fold n; lia)); lra)). lia. }
    destruct (Nat.even n) eqn:Ev.
    + apply Nat.even_spec in Ev. destruct Ev as [k Hk]. replace (n / 2)%nat with k by (rewrite Hk, Nat.mul_comm, Nat.div_mul; lia).
      pose proof (sorted_nth_le s (k - 1) k S ltac:(fold n; lia)). apply G; [exists (k - 1)%nat|exists k]; (split; [lia|]; split; [lra|lia]).
    + assert (M1 : (n mod 2 < 2)%nat) by (apply Nat.mod_upper_bound; lia).
      assert (n mod 2 <> 0)%nat. { intros M. assert (Nat.even n = true); [|congruence]. apply Nat.even_spec. exists (n / 2)%nat. lia. }
      apply G; exists (n / 2)%nat; (split; [lia|]; split; [lra|lia]).
Qed.
Lemma std_ok l : match np_std l with None => l = [] | Some s => l <> [] /\ is_std s l end.
Proof.
  destruct l as [|a l]; [reflexivity|]. cbn [np_std]. split; [discriminate|]. split; [apply sqrt_pos|]. set (L := a :: l).
  assert (P : 0 < INR (List.length L)) by (apply lt_0_INR; cbn; lia). unfold rmean. rewrite map_length.
  set (q := rsum (map (fun x => (x - rsum L / INR (List.length L)) ^ 2) L)).
  assert (0 <= q). { unfold q. apply rsum_nonneg. intros x Hx. apply in_map_iff in Hx. destruct Hx as (y & <- & _). apply pow2_ge_0. }
  change (sqrt (q / INR (List.length L)) ^ 2) with (sqrt (q / INR (List.length L)) * (sqrt (q / INR (List.length L)) * 1)).
  rewrite Rmult_1_r, sqrt_sqrt by (apply Rmult_le_pos; [assumption|left; apply Rinv_0_lt_compat; exact P]). field. lra.
Qed.

(** Each point of the curve is the median concentration, with its standard deviation, of the selected halos in the mass bin that starts at the
    abscissa; a bin without halos gives no number. *)
Theorem C113_concentration : forall hp conc rz z lo hi n, (1 <= n)%nat ->
  (z = ZNone \/ z = ZOther -> plot_concentration_mass_relation hp conc rz z lo hi n = Err EException) /\
  (z <> ZNone -> z <> ZOther -> exists pts, plot_concentration_mass_relation hp conc rz z lo hi n = Ok pts /\ List.length pts = n /\
    forall i, (i < n)%nat -> exists med std l, nth i pts (0, None, None) = (mass_step lo hi n i, med, std) /\
      kept (fun r => cm_selected z (hp r) /\ mass_step lo hi n i <= h_mass (hp r) < mass_step lo hi n (S i)) (rz_halos rz) l /\
      (l = [] -> med = None /\ std = None) /\
      (l <> [] -> exists v s, med = Some v /\ std = Some s /\ is_median v (map conc l) /\ is_std s (map conc l))).
Proof.
  intros hp conc rz z lo hi n N. unfold plot_concentration_mass_relation. split; [intros [-> | ->]; reflexivity|]. intros Z1 Z2.
  set (q := fun r => match z with ZLens => h_sub (hp r) | ZNum z => h_sub (hp r) && Reqb (h_z (hp r)) z | ZPair a b => Rleb a (h_z (hp r)) && Rltb (h_z (hp r)) b | _ => false end).
  assert (Q : cm_halos hp rz z = Ok (filter q (rz_halos rz))) by (destruct z; try congruence; reflexivity). rewrite Q. cbn [bind].
  assert (QS : forall r, q r = true <-> cm_selected z (hp r)).
  { intros r. unfold q. destruct z; cbn [cm_selected]; try (split; [discriminate|tauto]); rewrite ?andb_true_iff, ?Rleb_true, ?Rltb_true, ?Reqb_true; tauto. }
  eexists. split; [reflexivity|]. split; [rewrite map_length, seq_length; reflexivity|]. intros i Hi.
  match goal with |- context [map ?F (seq 0 n)] => rewrite (nth_indep (map F (seq 0 n)) _ (F 0%nat)) by (rewrite map_length, seq_length; lia); rewrite (map_nth F) end.
  rewrite seq_nth by lia. cbn [plus]. rewrite !logspace_step by lia. replace (n + 1 - 1)%nat with n by lia. cbn zeta.
  rewrite filter_filter. set (l := filter _ (rz_halos rz)). exists (np_median (map conc l)), (np_std (map conc l)), l. split; [reflexivity|].
  pose proof (median_ok (map conc l)) as HM. pose proof (std_ok (map conc l)) as HS. split; [|split].
  - apply kept_filter. intros r _. rewrite andb_true_iff, QS, andb_true_iff, Rleb_true, Rltb_true. tauto.
  - intros ->. split; reflexivity.
  - intros NE. assert (map conc l <> []) by (destruct l; [congruence|discriminate]).
    destruct (np_median (map conc l)) as [v|]; [|contradiction]. destruct (np_std (map conc l)) as [s|]; [|contradiction].
    exists v, s. split; [reflexivity|]. split; [reflexivity|]. split; [apply HM|apply HS].
Qed.
(** The documentation offers a redshift as the place where the relation is evaluated; line-of-sight halos at that redshift are left out, so at a
    redshift without subhalos all points are missing whatever halos are there. *)
Theorem C113_concentration_refuted :
  (forall hp conc rz z lo hi n pts, (1 <= n)%nat -> (forall r, In r (rz_halos rz) -> h_z (hp r) = z -> h_sub (hp r) = false) ->
    plot_concentration_mass_relation hp conc rz (ZNum z) lo hi n = Ok pts -> Forall (fun p => snd (fst p) = None /\ snd p = None) pts) /\
  (exists hp rz z lo hi n, (1 <= n)%nat /\ (forall r, In r (rz_halos rz) -> h_z (hp r) = z -> h_sub (hp r) = false) /\
     exists r, In r (rz_halos rz) /\ h_z (hp r) = z /\ Rpower 10 lo <= h_mass (hp r) < Rpower 10 hi).
Proof.
  split.
  - intros hp conc rz z lo hi n pts N NS E. destruct (C113_concentration hp conc rz (ZNum z) lo hi n N) as [_ H].
    destruct (H ltac:(discriminate) ltac:(discriminate)) as (pts' & E' & L & HP). rewrite E in E'. injection E' as <-. apply Forall_forall. intros p Hp.
    apply (In_nth _ _ (0, None, None)) in Hp. destruct Hp as (i & Hi & <-). rewrite L in Hi. destruct (HP i Hi) as (med & std & l & -> & K & K0 & _).
    cbn [fst snd]. apply K0. destruct l as [|r l]; [reflexivity|]. exfalso. pose proof (proj1 (kept_In _ _ _ r K) (or_introl eq_refl)) as (A & (B & C) & _).
    rewrite (NS r A C) in B. discriminate.
  - exists demo_heap, demo, 1, 0, 1, 1%nat. split; [lia|]. split; [|exists 2%nat; split; [cbn; tauto|]; split; [reflexivity|]].
    + intros r Hr Hz. cbn in Hr. destruct Hr as [<-|[<-|[<-|[<-|[]]]]]; cbn in *; try reflexivity; lra.
    + rewrite Rpower_O, Rpower_1 by lra. cbn. lra.
Qed.

(** ** The subhalo mass function *)
(** the mass on the horizontal axis: at infall, or bound; [1] stands for a missing bound mass and is never used *)
Definition mass_of (bound : bool) (h : Halo) : R := if bound then match h_bound h with Some b => b | None => 1 end else h_mass h.
Lemma log_le a m : 0 < m -> (a <= ln m / ln 10 <-> Rpower 10 a <= m).
Proof.
  intros M. assert (L10 : 0 < ln 10) by (rewrite <- ln_1; apply ln_increasing; lra). unfold Rpower. split; intros H.
  - rewrite <- (exp_ln m M). destruct (Rle_lt_or_eq_dec _ _ H) as [K|K].
    + left. apply exp_increasing. apply (Rmult_lt_compat_r (ln 10)) in K; [|exact L10]. replace (ln m / ln 10 * ln 10) with (ln m) in K by (field; lra). exact K.
    + right. f_equal. rewrite K. field. lra.
  - apply Rnot_lt_le. intros K. apply (Rmult_lt_compat_r (ln 10)) in K; [|exact L10]. replace (ln m / ln 10 * ln 10) with (ln m) in K by (field; lra).
    apply exp_increasing in K. rewrite exp_ln in K by exact M. lra.
Qed.
Lemma log_lt a m : 0 < m -> (ln m / ln 10 < a <-> m < Rpower 10 a).
Proof. intros M. pose proof (log_le a m M) as [A B]. split; intros H; apply Rnot_le_lt; intros K; [apply B in K|apply A in K]; lra. Qed.
Lemma log_ge a m : 0 < m -> (ln m / ln 10 <= a <-> m <= Rpower 10 a).
Proof.
  intros M. assert (L10 : 0 < ln 10) by (rewrite <- ln_1; apply ln_increasing; lra). unfold Rpower. split; intros H.
  - rewrite <- (exp_ln m M). destruct (Rle_lt_or_eq_dec _ _ H) as [K|K].
    + left. apply exp_increasing. apply (Rmult_lt_compat_r (ln 10)) in K; [|exact L10]. replace (ln m / ln 10 * ln 10) with (ln m) in K by (field; lra). exact K.
    + right. f_equal. rewrite <- K. field. lra.
  - apply Rnot_lt_le. intros K. apply (Rmult_lt_compat_r (ln 10)) in K; [|exact L10]. replace (ln m / ln 10 * ln 10) with (ln m) in K by (field; lra).
    apply exp_increasing in K. rewrite exp_ln in K by exact M. lra.
Qed.
Lemma median_between v l a b : l <> [] -> is_median v l -> (forall x, In x l -> a <= x <= b) -> a <= v <= b.
Proof.
  intros NE [M1 M2] H. assert (L : (0 < List.length l)%nat) by (destruct l; [congruence|cbn; lia]).
  assert (E : forall f : R -> bool, (0 < count f l)%nat -> exists x, In x l /\ f x = true).
  { intros f Hf. unfold count in Hf. destruct (filter f l) as [|x t] eqn:Q; [cbn in Hf; lia|]. exists x. apply filter_In. rewrite Q. left. reflexivity. }
  destruct (E _ ltac:(assert (0 < count (fun x => Rleb x v) l)%nat by lia; eassumption)) as (x & I1 & H1).
  destruct (E _ ltac:(assert (0 < count (fun x => Rleb v x) l)%nat by lia; eassumption)) as (y & I2 & H2).
  apply Rleb_true in H1, H2. pose proof (H _ I1). pose proof (H _ I2). lra.
Qed.
Lemma rsum_const l k : (forall x, In x l -> x = k) -> rsum l = INR (List.length l) * k.
Proof.
  induction l as [|a l IH]; intros H; [cbn; lra|]. cbn [rsum fold_right List.length]. fold (rsum l). rewrite S_INR, (H a) by (left; reflexivity).
  rewrite IH by (intros x Hx; apply H; right; exact Hx). lra.
Qed.
Lemma std_const s l k : l <> [] -> is_std s l -> (forall x, In x l -> x = k) -> s = 0.
Proof.
  intros NE [S0 E] H. assert (P : 0 < INR (List.length l)) by (apply lt_0_INR; destruct l; [congruence|cbn; lia]).
  rewrite (rsum_const l k H) in E. rewrite (rsum_const _ 0) in E.
  - assert (s ^ 2 = 0) by nra. nra.
  - intros x Hx. apply in_map_iff in Hx. destruct Hx as (y & <- & Hy). rewrite (H y Hy). field. lra.
Qed.
Lemma seq_nth_map {A B} (f : A -> B) l d : map (fun i => f (nth i l d)) (seq 0 (List.length l)) = map f l.
Proof.
  induction l as [|a l IH]; [reflexivity|]. cbn [List.length seq map nth]. f_equal. rewrite <- seq_shift, map_map. exact IH.
Qed.

(** One point per bin, at the centre of the bin in log10 mass; the height lies between zero and the number of subhalos, and is the exact number of
    subhalos in the bin, without scatter, when the resampled indices are permutations. *)
Theorem C113_subhalo_mass_function : forall hp rz lo hi bound n draws N, lo < hi -> (1 <= n)%nat -> draws <> [] ->
  (forall r, In r (rz_halos rz) -> h_sub (hp r) = true -> 0 < mass_of bound (hp r) /\ (bound = true -> h_bound (hp r) <> None)) ->
  number hp (fun h => h_sub h = true) (rz_halos rz) N -> (forall d, In d draws -> List.length d = N) ->
  exists pts, plot_subhalo_mass_functon hp rz lo hi bound n draws = Ok pts /\ List.length pts = n /\
    forall i, (i < n)%nat -> exists v s, nth i pts (0, None, None) = (lo + (INR i + 1 / 2) * (hi - lo) / INR n, Some v, Some s) /\ 0 <= v <= INR N /\ 0 <= s /\
      ((forall d, In d draws -> Permutation d (seq 0 N)) -> s = 0 /\ exists k, v = INR k /\
         number hp (fun h => h_sub h = true /\ mass_step lo hi n i <= mass_of bound h /\
           (if (i =? n - 1)%nat then mass_of bound h <= mass_step lo hi n (S i) else mass_of bound h < mass_step lo hi n (S i))) (rz_halos rz) k).
Proof.
  intros hp rz lo hi bound n draws N LH Hn DN HB (subs & KS & LS) DL.
  assert (ES : subs = filter (fun r => h_sub (hp r)) (rz_halos rz)) by (eapply kept_fun; [exact KS|apply kept_filter; intros; reflexivity]). subst subs.
  set (subs := filter (fun r => h_sub (hp r)) (rz_halos rz)) in *.
  assert (HS : forall r, In r subs -> 0 < mass_of bound (hp r) /\ (bound = true -> h_bound (hp r) <> None)).
  { intros r Hr. apply filter_In in Hr. apply HB; apply Hr. }
  assert (EM : smf_masses hp rz bound = Ok (map (fun r => mass_of bound (hp r)) subs)).
  { unfold smf_masses. apply mapM_Ok. intros r Hr. destruct (HS r Hr) as [_ B]. unfold mass_of. destruct bound; [|reflexivity].
    destruct (h_bound (hp r)); [reflexivity|]. exfalso. apply B; reflexivity. }
  unfold plot_subhalo_mass_functon. rewrite EM. cbn [bind]. destruct draws as [|d0 ds]; [congruence|]. set (draws := d0 :: ds) in *.
  set (masses := map (fun r => mass_of bound (hp r)) subs). assert (LM : List.length masses = N) by (unfold masses; rewrite map_length; exact LS).
  eexists. split; [reflexivity|]. split; [rewrite map_length, seq_length; reflexivity|]. intros i Hi.
  match goal with |- context [map ?F (seq 0 n)] => rewrite (nth_indep (map F (seq 0 n)) _ (F 0%nat)) by (rewrite map_length, seq_length; lia); rewrite (map_nth F) end.
  rewrite seq_nth by lia. cbn [plus]. cbn zeta.
  assert (HR : hist_range lo hi = (lo, hi)). { unfold hist_range. destruct (Reqb lo hi) eqn:E; [apply Reqb_true in E; lra|reflexivity]. }
  assert (HX : forall j, (j <= n)%nat -> nth j (snd (np_histogram [] lo hi n)) 0 = edge lo hi n j).
  { intros j Hj. unfold np_histogram. rewrite HR. cbn [snd]. rewrite (nth_indep _ 0 (edge lo hi n 0)) by (rewrite map_length, seq_length; lia).
    rewrite (map_nth (edge lo hi n)), seq_nth by lia. reflexivity. }
  rewrite !HX by lia.
  set (column := map (fun row => nth i row 0) (map (bootstrap_row masses lo hi n) draws)).
  assert (CE : column = map (fun d => INR (count (in_bin lo hi n i) (map (fun k => ln (nth k masses 1) / ln 10) d))) draws).
  { unfold column. rewrite map_map. apply map_ext. intros d. unfold bootstrap_row, np_histogram. rewrite HR. cbn [fst].
    match goal with |- context [map ?F (seq 0 n)] => rewrite (nth_indep (map F (seq 0 n)) _ (F 0%nat)) by (rewrite map_length, seq_length; lia); rewrite (map_nth F) end.
    rewrite seq_nth by lia. reflexivity. }
  assert (CN : column <> []) by (rewrite CE; discriminate).
  pose proof (median_ok column) as MO. pose proof (std_ok column) as SO.
  destruct (np_median column) as [v|]; [|contradiction]. destruct (np_std column) as [s|]; [|contradiction]. destruct MO as [_ MO]. destruct SO as [_ SO].
  exists v, s. split; [|split; [|split]].
  - f_equal. f_equal. unfold edge. rewrite S_INR. cbn [INR]. field. apply not_0_INR. lia.
  - apply (median_between v column); [exact CN|exact MO|]. intros x Hx. rewrite CE in Hx. apply in_map_iff in Hx. destruct Hx as (d & <- & Hd). split; [apply pos_INR|].
    apply le_INR. rewrite <- (DL d Hd), <- (map_length (fun k => ln (nth k masses 1) / ln 10) d). apply count_le.
  - apply SO.
  - intros HP. set (k := count (in_bin lo hi n i) (map (fun m => ln m / ln 10) masses)).
    assert (CK : forall x, In x column -> x = INR k).
    { intros x Hx. rewrite CE in Hx. apply in_map_iff in Hx. destruct Hx as (d & <- & Hd). f_equal. unfold k.
      rewrite <- (seq_nth_map (fun m => ln m / ln 10) masses 1), LM. apply count_perm. apply Permutation_map. apply HP. exact Hd. }
    split; [eapply std_const; [exact CN|exact SO|exact CK]|]. exists k. split.
    + assert (INR k <= v <= INR k); [|lra]. apply (median_between v column); [exact CN|exact MO|]. intros x Hx. rewrite (CK x Hx). lra.
    + unfold k, masses. rewrite map_map, count_map. unfold subs. rewrite filter_filter.
      rewrite (filter_ext_in _ (fun r => h_sub (hp r) && (Rleb (mass_step lo hi n i) (mass_of bound (hp r)) &&
        (if (i =? n - 1)%nat then Rleb (mass_of bound (hp r)) (mass_step lo hi n (S i)) else Rltb (mass_of bound (hp r)) (mass_step lo hi n (S i)))))).
      * apply number_filter. intros r _. rewrite andb_true_iff, andb_true_iff, Rleb_true. destruct (i =? n - 1)%nat; rewrite ?Rleb_true, ?Rltb_true; tauto.
      * intros r Hr. destruct (h_sub (hp r)) eqn:SB; [|reflexivity]. cbn [andb]. destruct (HB r Hr SB) as [PM _]. unfold in_bin.
        assert (EE : forall j, Rpower 10 (edge lo hi n j) = mass_step lo hi n j) by (intros j; unfold edge, mass_step; f_equal; field; apply not_0_INR; lia).
        f_equal; [|destruct (i =? n - 1)%nat]; apply eq_true_iff_eq; rewrite ?Rleb_true, ?Rltb_true, <- EE; [apply log_le|apply log_ge|apply log_lt]; exact PM.
Qed.

(** ** Positions of subhalos *)
(** an azimuthal average of a constant image is that constant *)
Definition averages (average : nat -> (nat -> nat -> R) -> list R * list R) : Prop :=
  forall n img k, (1 <= n)%nat -> (forall i j, (i < n)%nat -> (j < n)%nat -> img i j = k) -> Forall (fun v => v = k) (fst (average n img)).
Lemma no_half_square n : forall p, (n * n = 2 * (p * p))%nat -> n = 0%nat.
Proof.
  induction n as [n IH] using (well_founded_induction lt_wf). intros p H. destruct (Nat.eq_dec n 0) as [Z|Z]; [exact Z|]. exfalso.
  assert (EN : Nat.Even n). { destruct (Nat.Even_or_Odd n) as [E|[k Hk]]; [exact E|]. exfalso. subst n. nia. }
  destruct EN as [k Hk]. subst n. assert (HP : (p * p = 2 * (k * k))%nat) by nia.
  assert (p < 2 * k)%nat by nia. pose proof (IH p ltac:(lia) k HP). subst p. nia.
Qed.
(** The vertical axis is labelled as a number density per square arcsecond.  A realization with the same number of subhalos in every pixel gives this
    number, which is the density times the pixel area.  The horizontal axis is scaled by the number of rings; the true size of a pixel is never
    reproduced exactly. *)
Theorem C113_spatial_refuted : forall average hp rz rmax lo hi n k, averages average -> 0 < rmax -> (1 <= n)%nat -> 0 < k ->
  (forall i j, (i < n)%nat -> (j < n)%nat -> pixel hp rz lo hi (rmax / sqrt 2) n i j = k) ->
  let side := 2 * (rmax / sqrt 2) / INR n in
  Forall (fun v => v = k / (side * side) <-> side = 1) (snd (plot_subhalo_spatial_distribution hp average rz rmax lo hi n)) /\
  forall rings, rmax / INR rings <> side.
Proof.
  intros average hp rz rmax lo hi n k AV R0 N K HP side. assert (PN : 0 < INR n) by (apply lt_0_INR; lia). assert (PS2 : 0 < sqrt 2) by (apply sqrt_lt_R0; lra).
  assert (PS : 0 < side) by (unfold side; apply Rdiv_lt_0_compat; [|exact PN]; assert (0 < rmax / sqrt 2) by (apply Rdiv_lt_0_compat; lra); lra). split.
  - unfold plot_subhalo_spatial_distribution. pose proof (AV n (pixel hp rz lo hi (rmax / sqrt 2) n) k N HP) as F.
    destruct (average n _) as [prof rb]. cbn [fst snd] in *. eapply Forall_impl; [|exact F]. cbn beta. intros v ->. split; intros H.
    + assert (E : k * (side * side) = k * 1). { rewrite H at 1. field. lra. } apply Rmult_eq_reg_l in E; [|lra].
      assert ((side - 1) * (side + 1) = 0) as Z by lra. apply Rmult_integral in Z. lra.
    + rewrite H. field.
  - intros rings E. assert (PR : 0 < INR rings).
    { destruct rings as [|m]; [|apply lt_0_INR; lia]. exfalso. cbn [INR] in E. unfold Rdiv in E at 1. rewrite Rinv_0 in E. lra. }
    unfold side in E. assert (Q : INR n * sqrt 2 = 2 * INR rings).
    { apply (Rmult_eq_reg_l (rmax / (INR rings * (INR n * sqrt 2)))).
      - replace (rmax / (INR rings * (INR n * sqrt 2)) * (INR n * sqrt 2)) with (rmax / INR rings) by (field; lra).
        replace (rmax / (INR rings * (INR n * sqrt 2)) * (2 * INR rings)) with (2 * (rmax / sqrt 2) / INR n) by (field; lra). exact E.
      - apply Rgt_not_eq. apply Rdiv_lt_0_compat; [exact R0|]. apply Rmult_lt_0_compat; [exact PR|]. apply Rmult_lt_0_compat; assumption. }
    assert (Q2 : INR n * INR n = 2 * (INR rings * INR rings)).
    { assert (SS : sqrt 2 * sqrt 2 = 2) by (apply sqrt_sqrt; lra). assert (INR n * sqrt 2 * (INR n * sqrt 2) = 2 * INR rings * (2 * INR rings)) as H by (rewrite Q; reflexivity).
      replace (INR n * sqrt 2 * (INR n * sqrt 2)) with (INR n * INR n * (sqrt 2 * sqrt 2)) in H by ring. rewrite SS in H. lra. }
    rewrite <- !mult_INR in Q2. change 2 with (INR 2) in Q2. rewrite <- mult_INR in Q2. apply INR_eq in Q2. apply no_half_square in Q2. lia.
Qed.

(** ** Bound mass fractions *)
(** One point per subhalo in the mass range, in order: its attribute and its bound mass over its infall mass.  Field halos are never asked for a
    bound mass. *)
Theorem C113_bound_fractions : forall hp attr rz lo hi,
  (forall r, In r (rz_halos rz) -> h_sub (hp r) = true -> Rpower 10 lo <= h_mass (hp r) < Rpower 10 hi -> h_bound (hp r) <> None) ->
  exists pts l, bound_fraction_points hp attr rz lo hi = Ok pts /\
    kept (fun r => h_sub (hp r) = true /\ Rpower 10 lo <= h_mass (hp r) < Rpower 10 hi) (rz_halos rz) l /\
    Forall2 (fun r p => exists b, h_bound (hp r) = Some b /\ p = (attr r, b / h_mass (hp r))) l pts.
Proof.
  intros hp attr rz lo hi HB. unfold bound_fraction_points, sd_halos. rewrite filter_filter. set (l := filter _ (rz_halos rz)).
  assert (K : kept (fun r => h_sub (hp r) = true /\ Rpower 10 lo <= h_mass (hp r) < Rpower 10 hi) (rz_halos rz) l).
  { apply kept_filter. intros r _. unfold in_mass_range. rewrite !andb_true_iff, Rleb_true, Rltb_true. tauto. }
  assert (HL : forall r, In r l -> exists b, h_bound (hp r) = Some b).
  { intros r Hr. apply (kept_In _ _ _ r K) in Hr. destruct Hr as (A & B & C). specialize (HB r A B C). destruct (h_bound (hp r)) as [b|]; [eauto|congruence]. }
  clearbody l. exists (map (fun r => (attr r, match h_bound (hp r) with Some b => b | None => 0 end / h_mass (hp r))) l), l. split; [|split; [exact K|]].
  - apply mapM_Ok. intros r Hr. destruct (HL r Hr) as [b ->]. reflexivity.
  - clear K HB. induction l as [|r l IH]; constructor; [|apply IH; intros x Hx; apply HL; right; exact Hx].
    destruct (HL r (or_introl eq_refl)) as [b Hb]. exists b. rewrite Hb. split; reflexivity.
Qed.

(** ** Realization.plot *)
(** Every halo of the realization is drawn exactly once, from the observer to the source, at its comoving distance and its transverse comoving
    position; its colour index stays in [0.1, 0.9] and does not decrease with mass, its marker has positive size. *)
Theorem C113_plot : forall hp rz D, in_sync hp rz ->
  exists order, Permutation order (rz_halos rz) /\ StronglySorted (fun a b => h_z (hp a) <= h_z (hp b)) order /\
    plot_points hp D rz = map (fun r => (D (h_z (hp r)), h_x (hp r) * D (h_z (hp r)) / 206265, h_y (hp r) * D (h_z (hp r)) / 206265)) order.
Proof.
  intros hp rz D IS. exists (zsort hp (rz_uniq rz) (fun _ => true) (rz_halos rz)). split; [|split].
  - apply zsort_perm; [apply (sync_uniq_sorted _ _ IS)|]. intros r Hr. apply (sync_uniq _ _ IS). eauto.
  - apply concat_sorted. apply (sync_uniq_sorted _ _ IS).
  - assert (PL : forall z, fst (halos_at_z hp rz z) = filter (fun r => Reqb (h_z (hp r)) z && true) (rz_halos rz)).
    { intros z. unfold halos_at_z. rewrite halos_at_z_fst. apply filter_ext. intros r. rewrite andb_true_r. reflexivity. }
    assert (EP : plot_halos hp rz = zsort hp (rz_uniq rz) (fun _ => true) (rz_halos rz)).
    { unfold plot_halos, zsort. rewrite flat_map_concat_map. f_equal. apply map_ext. exact PL. }
    assert (EC : forall f : Halo -> R, flat_map (fun z => map (fun r => f (hp r) * D z) (fst (halos_at_z hp rz z))) (rz_uniq rz) =
                   map (fun r => f (hp r) * D (h_z (hp r))) (zsort hp (rz_uniq rz) (fun _ => true) (rz_halos rz))).
    { intros f. unfold zsort. rewrite flat_map_concat_map, concat_map, map_map. f_equal. apply map_ext. intros z. rewrite PL. apply map_ext_in.
      intros r Hr. apply filter_In in Hr. destruct Hr as [_ Hr]. rewrite andb_true_r in Hr. apply Reqb_true in Hr. rewrite Hr. reflexivity. }
    unfold plot_points. rewrite EP, (EC h_x), (EC h_y). rewrite !map_map. rewrite !combine_map2. reflexivity.
Qed.
Theorem C113_plot_style : forall norm scaling m m', 0 < m -> m <= m' ->
  0.1 <= plot_colour norm m <= 0.9 /\ plot_colour norm m <= plot_colour norm m' /\ 0 < plot_size norm scaling m /\
  (0 <= scaling -> plot_size norm scaling m <= plot_size norm scaling m') /\ plot_size norm 1 m = 24 * m / Rpower 10 norm.
Proof.
  intros norm scaling m m' M LE. unfold plot_colour, plot_size.
  assert (L10 : 0 < ln 10) by (rewrite <- ln_1; apply ln_increasing; lra).
  assert (LM : ln m / ln 10 <= ln m' / ln 10).
  { apply Rmult_le_compat_r; [left; apply Rinv_0_lt_compat; exact L10|]. destruct LE as [L | ->]; [left; apply ln_increasing; assumption|lra]. }
  assert (PT : 0 < Rpower 10 norm) by apply exp_pos. assert (PQ : 0 < m / Rpower 10 norm) by (apply Rdiv_lt_0_compat; assumption).
  set (a := ln m / ln 10) in *. set (b := ln m' / ln 10) in *. clearbody a b. split; [|split; [|split; [|split]]].
  - unfold Rmin, Rmax. repeat destruct (Rle_dec _ _); lra.
  - unfold Rmin, Rmax. repeat destruct (Rle_dec _ _); lra.
  - apply Rmult_lt_0_compat; [lra|apply exp_pos].
  - intros S0. apply Rmult_le_compat_l; [lra|]. apply Rle_Rpower_l; [exact S0|]. split; [exact PQ|]. apply Rmult_le_compat_r; [left; apply Rinv_0_lt_compat; exact PT|exact LE].
  - rewrite Rpower_1 by exact PQ. field. lra.
Qed.

(** ** Concrete cases *)
Example C113_mass_function_nonvacuous : in_sync demo_heap demo /\ exists e h, plot_halo_mass_function demo_heap demo (ZPair 0 2) 0 1 2 = Ok (e, h) /\ zsum h = 2%Z.
Proof.
  split; [exact demo_sync|]. destruct (C113_mass_function demo_heap demo (ZPair 0 2) 0 1 2 demo_sync ltac:(lra) ltac:(lia)) as [_ H].
  destruct (H ltac:(discriminate) ltac:(discriminate)) as (e & h & E & _ & _ & _ & k & EK & l & KL & <-). exists e, h. split; [exact E|]. rewrite EK.
  assert (EL : l = [2; 3]%nat); [|subst l; reflexivity]. rewrite Rpower_O, Rpower_1 in KL by lra. eapply kept_fun; [exact KL|].
  apply kept_drop; [cbn; intros [[A _] _]; discriminate|]. apply kept_drop; [cbn; intros [[A _] _]; discriminate|].
  apply kept_take; [cbn; split; [split; [reflexivity|lra]|lra]|]. apply kept_take; [cbn; split; [split; [reflexivity|lra]|lra]|]. constructor.
Qed.
Example C113_concentration_nonvacuous : exists v s, plot_concentration_mass_relation demo_heap (fun r => 10 + INR r) demo ZLens 0 3 1 = Ok [(mass_step 0 3 1 0, Some v, Some s)] /\
  is_median v [10; 11] /\ is_std s [10; 11].
Proof.
  destruct (C113_concentration demo_heap (fun r => 10 + INR r) demo ZLens 0 3 1 ltac:(lia)) as [_ H].
  destruct (H ltac:(discriminate) ltac:(discriminate)) as (pts & E & L & B). destruct (B 0%nat ltac:(lia)) as (med & std & l & EN & K & _ & HN).
  assert (P3 : Rpower 10 3 = 1000) by (replace 3 with (INR 3) by (cbn; lra); rewrite Rpower_pow by lra; ring).
  assert (EL : l = [0; 1]%nat).
  { rewrite (step_n 0 3 1 ltac:(lia)), step_0, Rpower_O, P3 in K by lra. eapply kept_fun; [exact K|].
    apply kept_take; [cbn; split; [reflexivity|lra]|]. apply kept_take; [cbn; split; [reflexivity|lra]|].
    apply kept_drop; [cbn; intros [A _]; discriminate|]. apply kept_drop; [cbn; intros [A _]; discriminate|]. constructor. }
  subst l. destruct (HN ltac:(discriminate)) as (v & s & -> & -> & M & S0). exists v, s. destruct pts as [|p [|q t]]; try discriminate. cbn in EN. subst p. split; [exact E|].
  cbn in M, S0. replace (10 + 0) with 10 in M, S0 by lra. replace (10 + 1) with 11 in M, S0 by lra. split; assumption.
Qed.
Example C113_subhalo_mass_function_nonvacuous : number demo_heap (fun h => h_sub h = true) (rz_halos demo) 2 /\ Permutation [1; 0]%nat (seq 0 2) /\
  exists pts s, plot_subhalo_mass_functon demo_heap demo 0 2 true 1 [[1; 0]; [0; 1]]%nat = Ok pts /\ nth 0 pts (0, None, None) = (0 + (INR 0 + 1 / 2) * (2 - 0) / INR 1, Some (INR 2), Some s).
Proof.
  assert (N : number demo_heap (fun h => h_sub h = true) (rz_halos demo) 2).
  { exists [0; 1]%nat. split; [|reflexivity]. repeat (apply kept_take; [reflexivity|]). apply kept_drop; [discriminate|]. apply kept_drop; [discriminate|]. constructor. }
  assert (P : Permutation [1; 0]%nat (seq 0 2)) by apply perm_swap. split; [exact N|]. split; [exact P|].
  destruct (C113_subhalo_mass_function demo_heap demo 0 2 true 1 [[1; 0]; [0; 1]]%nat 2 ltac:(lra) ltac:(lia) ltac:(discriminate)) as (pts & E & _ & B).
  - intros r Hr Hs. cbn in Hr. destruct Hr as [<-|[<-|[<-|[<-|[]]]]]; cbn in *; try discriminate; (split; [lra|intros _; discriminate]).
  - exact N.
  - intros d [<-|[<-|[]]]; reflexivity.
  - exists pts. destruct (B 0%nat ltac:(lia)) as (v & s & EN & _ & _ & HP). destruct HP as (_ & k & -> & l & KL & <-).
    { intros d [<-|[<-|[]]]; [exact P|reflexivity]. }
    exists s. split; [exact E|]. rewrite EN. assert (EL : l = [0; 1]%nat); [|subst l; reflexivity].
    assert (P2 : Rpower 10 2 = 100) by (replace 2 with (INR 2) by (cbn; lra); rewrite Rpower_pow by lra; cbn; lra).
    rewrite (step_n 0 2 1 ltac:(lia)), step_0, Rpower_O, P2 in KL by lra. eapply kept_fun; [exact KL|].
    apply kept_take; [cbn; split; [reflexivity|lra]|]. apply kept_take; [cbn; split; [reflexivity|lra]|].
    apply kept_drop; [cbn; intros [A _]; discriminate|]. apply kept_drop; [cbn; intros [A _]; discriminate|]. constructor.
Qed.
(** one pixel that contains the two subhalos *)
Definition demo_average (n : nat) (img : nat -> nat -> R) : list R * list R := ([img 0%nat 0%nat], [0]).
Example C113_spatial_refuted_nonvacuous : averages demo_average /\
  pixel demo_heap demo 0 3 (4 / sqrt 2) 1 0 0 = 2.
Proof.
  split; [intros n img k N H; constructor; [apply H; lia|constructor]|].
  assert (P3 : Rpower 10 3 = 1000) by (replace 3 with (INR 3) by (cbn; lra); rewrite Rpower_pow by lra; ring).
  assert (S1 : 1 <= 4 / sqrt 2).
  { assert (0 < sqrt 2) by (apply sqrt_lt_R0; lra). assert (sqrt 2 * sqrt 2 = 2) by (apply sqrt_sqrt; lra). assert (sqrt 2 <= 2) by nra.
    apply (Rmult_le_reg_r (sqrt 2)); [assumption|]. replace (4 / sqrt 2 * sqrt 2) with 4 by (field; lra). lra. }
  unfold pixel, sd_halos. cbn [rz_halos demo from_halos filter demo_heap h_sub demo_halo]. unfold in_mass_range. cbn [demo_heap demo_halo h_mass filter].
  rewrite Rpower_O, P3 by lra.
  rewrite !(proj2 (Rleb_true 1 _)) by lra. rewrite !(proj2 (Rltb_true _ 1000)) by lra. cbn [andb filter demo_heap demo_halo h_x h_y].
  assert (IB : forall v, 0 <= v <= 1 -> in_bin (- (4 / sqrt 2)) (4 / sqrt 2) 1 0 v = true).
  { intros v Hv. unfold in_bin, edge. cbn [Nat.sub Nat.eqb INR]. rewrite andb_true_iff, !Rleb_true. lra. }
  rewrite !IB by lra. cbn. lra.
Qed.
Example C113_bound_fractions_nonvacuous : exists pts, bound_fraction_points demo_heap (fun _ => 10) demo 0 1 = Ok pts /\ pts = [(10, 2 / 5)].
Proof.
  destruct (C113_bound_fractions demo_heap (fun _ => 10) demo 0 1) as (pts & l & E & K & F).
  - intros r Hr Hs _. cbn in Hr. destruct Hr as [<-|[<-|[<-|[<-|[]]]]]; cbn in *; discriminate.
  - exists pts. split; [exact E|]. rewrite Rpower_O, Rpower_1 in K by lra. assert (EL : l = [1]%nat).
    { eapply kept_fun; [exact K|]. apply kept_drop; [cbn; intros [_ A]; lra|]. apply kept_take; [cbn; split; [reflexivity|lra]|].
      apply kept_drop; [cbn; intros [A _]; discriminate|]. apply kept_drop; [cbn; intros [A _]; discriminate|]. constructor. }
    subst l. inversion F as [|? ? ? ? (b & B1 & B2) F']. subst. inversion F'. subst. cbn in B1. injection B1 as <-. reflexivity.
Qed.
Example C113_plot_nonvacuous : in_sync demo_heap demo /\ exists p, List.length (plot_points demo_heap (fun z => 1000 * z) demo) = 4%nat /\ In p (plot_points demo_heap (fun z => 1000 * z) demo).
Proof.
  split; [exact demo_sync|]. destruct (C113_plot demo_heap demo (fun z => 1000 * z) demo_sync) as (o & P & _ & E). rewrite E.
  pose proof (Permutation_length P) as L. change (List.length (rz_halos demo)) with 4%nat in L. destruct o as [|r o]; [discriminate|]. eexists. rewrite map_length. split; [exact L|left; reflexivity].
Qed.
Example C113_plot_style_nonvacuous : plot_colour 6 1 = 0.1 /\ plot_size 0 1 2 = 48.
Proof.
  split; [unfold plot_colour; rewrite ln_1; unfold Rmin, Rmax; repeat destruct (Rle_dec _ _); lra|].
  destruct (C113_plot_style 0 1 2 2 ltac:(lra) ltac:(lra)) as (_ & _ & _ & _ & E). rewrite E, Rpower_O by lra. field.
Qed.

Print Assumptions C113_mass_function.
Print Assumptions C113_concentration.
Print Assumptions C113_concentration_refuted.
Print Assumptions C113_subhalo_mass_function.
Print Assumptions C113_spatial_refuted.
Print Assumptions C113_bound_fractions.
Print Assumptions C113_plot.
Print Assumptions C113_plot_style.
