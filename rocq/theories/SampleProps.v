(** C100: inverse transform sampling from given samples (ITSampling). *)
From Verif Require Import Prelude Interp SampleModel.

(** ** Specification *)
(** fraction of the samples that lie strictly below t *)
Definition below (t : R) (samples : list R) : R := INR (List.length (filter (fun s => Rltb s t) samples)) / INR (List.length samples).
Definition is_min (a : R) (l : list R) : Prop := In a l /\ forall x, In x l -> a <= x.
Definition is_max (b : R) (l : list R) : Prop := In b l /\ forall x, In x l -> x <= b.
(** deviates np.random.uniform(umin, umax) can return, except the end point umin itself (probability zero) *)
Definition deviate (s : sampler) (u : R) : Prop := sp_umin s < u <= sp_umax s.

(** ** Lemmas *)
Lemma np_min_spec l a : np_min l = Ok a -> is_min a l.
Proof.
  destruct l as [|x t]; simpl; [discriminate|]. intros [= <-].
  assert (G : forall t x, (fold_left Rmin t x = x \/ In (fold_left Rmin t x) t) /\ fold_left Rmin t x <= x /\ forall y, In y t -> fold_left Rmin t x <= y).
  { clear. induction t as [|y t IH]; intros x; simpl; [repeat split; auto; try lra; tauto|].
    destruct (IH (Rmin x y)) as (A & B & C). pose proof (Rmin_l x y). pose proof (Rmin_r x y). repeat split.
    - destruct A as [A|A]; [|auto]. rewrite A. unfold Rmin. destruct (Rle_dec x y); auto.
    - lra.
    - intros z [<-|Hz]; [lra | auto]. }
  destruct (G t x) as (A & B & C). split; [simpl; destruct A; auto|]. intros y [<-|Hy]; auto.
Qed.
Lemma np_max_spec l a : np_max l = Ok a -> is_max a l.
Proof.
  destruct l as [|x t]; simpl; [discriminate|]. intros [= <-].
  assert (G : forall t x, (fold_left Rmax t x = x \/ In (fold_left Rmax t x) t) /\ x <= fold_left Rmax t x /\ forall y, In y t -> y <= fold_left Rmax t x).
  { clear. induction t as [|y t IH]; intros x; simpl; [repeat split; auto; try lra; tauto|].
    destruct (IH (Rmax x y)) as (A & B & C). pose proof (Rmax_l x y). pose proof (Rmax_r x y). repeat split.
    - destruct A as [A|A]; [|auto]. rewrite A. unfold Rmax. destruct (Rle_dec x y); auto.
    - lra.
    - intros z [<-|Hz]; [lra | auto]. }
  destruct (G t x) as (A & B & C). split; [simpl; destruct A; auto|]. intros y [<-|Hy]; auto.
Qed.
Lemma is_max_unique a b l : is_max a l -> is_max b l -> a = b.
Proof. intros [A B] [C D]. pose proof (B _ C). pose proof (D _ A). lra. Qed.
Lemma np_max_is l m : is_max m l -> np_max l = Ok m.
Proof.
  intros H. destruct (np_max l) as [m'|e] eqn:E.
  - f_equal. eapply is_max_unique; [apply np_max_spec; eauto | auto].
  - destruct l; simpl in E; [destruct H as [[] _] | discriminate].
Qed.

Lemma cumsum_map (f : nat -> R) m k acc : cumsum_from acc (map f (seq k m)) = map (fun i => acc + rsum (map f (seq k (S i - k)))) (seq k m).
Proof.
  revert k acc. induction m as [|m IH]; intros k acc; [reflexivity|].
  cbn [seq map cumsum_from]. f_equal.
  - replace (S k - k)%nat with 1%nat by lia. simpl. lra.
  - rewrite IH. apply map_ext_in. intros i I. apply in_seq in I. replace (S i - k)%nat with (S (S i - S k)) by lia. simpl. lra.
Qed.

Lemma count_split (f g h : R -> bool) l : (forall s, In s l -> h s = (f s || g s) /\ (f s && g s) = false) -> count h l = (count f l + count g l)%nat.
Proof.
  intros H. unfold count. induction l as [|s l IH]; [reflexivity|]. simpl.
  destruct (H s (or_introl eq_refl)) as [A B]. rewrite A. specialize (IH (fun x Hx => H x (or_intror Hx))).
  destruct (f s), (g s); simpl in *; try discriminate; lia.
Qed.
Lemma count_ext f g l : (forall s, In s l -> f s = g s) -> count f l = count g l.
Proof. intros H. unfold count. f_equal. apply filter_ext_in. auto. Qed.
Lemma count_le f l : (count f l <= List.length l)%nat.
Proof. unfold count. induction l; simpl; [lia|]. destruct (f a); simpl; lia. Qed.
Lemma count_mono (f g : R -> bool) l : (forall s, In s l -> f s = true -> g s = true) -> (count f l <= count g l)%nat.
Proof.
  intros H. unfold count. induction l as [|s l IH]; [simpl; lia|]. simpl.
  pose proof (H s (or_introl eq_refl)) as A. specialize (IH (fun x Hx => H x (or_intror Hx))).
  destruct (f s). rewrite A by auto. simpl; lia. destruct (g s); simpl; lia.
Qed.

Lemma edge_incr a b n i j : a < b -> (0 < n)%nat -> (i < j)%nat -> edge a b n i < edge a b n j.
Proof.
  intros A N I. unfold edge. assert (0 < (b - a) / INR n) by (apply Rdiv_lt_0_compat; [lra | apply lt_0_INR; auto]).
  apply lt_INR in I. nra.
Qed.
Lemma edge_incr_le a b n i j : a < b -> (0 < n)%nat -> (i <= j)%nat -> edge a b n i <= edge a b n j.
Proof. intros A N I. apply le_lt_eq_dec in I as [I|<-]; [left; apply edge_incr; auto | lra]. Qed.
Lemma edge_0 a b n : edge a b n 0 = a.
Proof. unfold edge. simpl. lra. Qed.
Lemma edge_n a b n : (0 < n)%nat -> edge a b n n = b.
Proof. intros N. unfold edge. field. apply not_0_INR. lia. Qed.

(** the counts of the first bins add up to the number of samples below the next edge *)
Definition upto (a b : R) (n i : nat) (s : R) : bool := if (i =? n - 1)%nat then true else Rltb s (edge a b n (S i)).
Lemma bins_sum a b n samples i : a < b -> (0 < n)%nat -> (i < n)%nat -> (forall s, In s samples -> a <= s <= b) ->
  rsum (map (fun j => INR (count (in_bin a b n j) samples)) (seq 0 (S i))) = INR (count (upto a b n i) samples).
Proof.
  intros AB N I S0. induction i as [|i IH].
  - simpl. rewrite Rplus_0_r. f_equal. apply count_ext. intros s Hs. specialize (S0 s Hs). unfold in_bin, upto. rewrite edge_0.
    rewrite (proj2 (Rleb_true a s)) by lra. rewrite andb_true_l. destruct (0 =? n - 1)%nat eqn:E; auto.
    apply Rleb_true. apply Nat.eqb_eq in E. replace 1%nat with n by lia. rewrite edge_n by auto. lra.
  - replace (seq 0 (S (S i))) with (seq 0 (S i) ++ [S i]) by (symmetry; apply (seq_S (S i) 0)).
    rewrite map_app, rsum_app, IH by lia. simpl. rewrite Rplus_0_r, <- plus_INR. f_equal. symmetry. apply count_split.
    intros s Hs. specialize (S0 s Hs). unfold upto, in_bin.
    replace (i =? n - 1)%nat with false by (symmetry; apply Nat.eqb_neq; lia).
    assert (EI : edge a b n (S i) <= edge a b n (S (S i))) by (apply edge_incr_le; auto; lia).
    destruct (S i =? n - 1)%nat eqn:E.
    + apply Nat.eqb_eq in E. replace (edge a b n (S (S i))) with b by (replace (S (S i)) with n by lia; rewrite edge_n; auto).
      rewrite (proj2 (Rleb_true s b)) by lra. rewrite andb_true_r.
      unfold Rltb, Rleb. destruct (Rlt_dec s (edge a b n (S i))), (Rle_dec (edge a b n (S i)) s); simpl; split; auto; lra.
    + unfold Rltb, Rleb. destruct (Rlt_dec s (edge a b n (S i))), (Rle_dec (edge a b n (S i)) s), (Rlt_dec s (edge a b n (S (S i)))); simpl; split; auto; lra.
Qed.

(** the table of a sampler in closed form *)
Definition wid (a b : R) : R := (b - a) / 150.
Definition cdf_at (a b : R) (samples : list R) (i : nat) : R := INR (count (upto a b 150 i) samples) / INR (List.length samples).
Definition mid_at (a b : R) (i : nat) : R := a + INR i * wid a b + wid a b / 2.

Lemma upto_mono a b n i j s : a < b -> (0 < n)%nat -> (i <= j < n)%nat -> upto a b n i s = true -> upto a b n j s = true.
Proof.
  intros AB N IJ. unfold upto. destruct (j =? n - 1)%nat eqn:E; auto. apply Nat.eqb_neq in E.
  replace (i =? n - 1)%nat with false by (symmetry; apply Nat.eqb_neq; lia).
  intros H. apply Rltb_true in H. apply Rltb_true. assert (edge a b n (S i) <= edge a b n (S j)) by (apply edge_incr_le; auto; lia). lra.
Qed.
Lemma cdf_mono a b l i j : a < b -> l <> [] -> (i <= j < 150)%nat -> cdf_at a b l i <= cdf_at a b l j.
Proof.
  intros AB NE IJ. unfold cdf_at. assert (0 < INR (List.length l)) by (apply lt_0_INR; destruct l; [congruence | simpl; lia]).
  apply Rmult_le_compat_r; [left; apply Rinv_0_lt_compat; auto|]. apply le_INR, count_mono. intros s _. apply upto_mono; auto; lia.
Qed.
Lemma cdf_last a b l : l <> [] -> cdf_at a b l 149 = 1.
Proof.
  intros NE. unfold cdf_at. replace (count (upto a b 150 149) l) with (List.length l).
  - field. apply not_0_INR. destruct l; [congruence | simpl; lia].
  - unfold count, upto. simpl. induction l; simpl; auto. f_equal. destruct l; auto. apply IHl. discriminate.
Qed.

Lemma seq_last_map {A} (f : nat -> A) n d : last (map f (seq 0 (S n))) d = f n.
Proof. replace (S n) with (n + 1)%nat by lia. rewrite seq_app, map_app. simpl. apply last_last. Qed.

Lemma combine_map2 {A B C} (f : C -> A) (g : C -> B) l : combine (map f l) (map g l) = map (fun i => (f i, g i)) l.
Proof. induction l; simpl; congruence. Qed.
(** from_samples, in closed form; [a], [b] are the ends of the histogram *)
Lemma from_samples_table samples a b : np_min samples = Ok a -> np_max samples = Ok b ->
  let a' := fst (hist_range a b) in let b' := snd (hist_range a b) in
  a' < b' /\ (forall s, In s samples -> a' <= s <= b') /\ samples <> [] /\
  from_samples samples = Ok (mkSampler (map (fun i => (cdf_at a' b' samples i, mid_at a' b' i)) (seq 0 150)) (cdf_at a' b' samples 0) 1).
Proof.
  intros MA MB a' b'.
  pose proof (np_min_spec _ _ MA) as [IA LA]. pose proof (np_max_spec _ _ MB) as [IB LB].
  assert (AB : a' < b' /\ a' <= a /\ b <= b').
  { unfold a', b', hist_range. pose proof (LA _ IB). destruct (Reqb a b) eqn:E; simpl.
    - apply Reqb_true in E. lra. - apply Reqb_false in E. lra. }
  destruct AB as (AB & A1 & B1).
  assert (RG : forall s, In s samples -> a' <= s <= b') by (intros s Hs; pose proof (LA s Hs); pose proof (LB s Hs); lra).
  assert (NE : samples <> []) by (intros ->; destruct IA).
  assert (NP : 0 < INR (List.length samples)) by (apply lt_0_INR; destruct samples; [congruence | simpl; lia]).
  repeat (split; [assumption|]).
  unfold from_samples. rewrite MA, MB. unfold bind. unfold np_histogram.
  replace (hist_range a b) with (a', b') by (unfold a', b'; destruct (hist_range a b); reflexivity).
  set (N := INR (List.length samples)) in *.
  assert (CS : np_cumsum (map (fun i => INR (count (in_bin a' b' 150 i) samples)) (seq 0 150)) = map (fun i => cdf_at a' b' samples i * N) (seq 0 150)).
  { unfold np_cumsum. rewrite cumsum_map. apply map_ext_in. intros i I. apply in_seq in I. rewrite Rplus_0_l, Nat.sub_0_r.
    rewrite bins_sum; auto; try lia. unfold cdf_at. fold N. field. lra. }
  rewrite CS.
  assert (MX : np_max (map (fun i => cdf_at a' b' samples i * N) (seq 0 150)) = Ok N).
  { apply np_max_is. split.
    - apply in_map_iff. exists 149%nat. split; [rewrite cdf_last by auto; ring | apply in_seq; lia].
    - intros x I. apply in_map_iff in I as (i & <- & I). apply in_seq in I.
      pose proof (cdf_mono a' b' samples i 149 AB NE ltac:(lia)) as Q. rewrite cdf_last in Q by auto. nra. }
  rewrite MX. rewrite map_map.
  assert (E1 : map (fun i => cdf_at a' b' samples i * N / N) (seq 0 150) = map (cdf_at a' b' samples) (seq 0 150)) by (apply map_ext; intros; field; lra).
  rewrite E1. unfold it_sampling.
  assert (MX1 : np_max (map (cdf_at a' b' samples) (seq 0 150)) = Ok 1).
  { apply np_max_is. split.
    - apply in_map_iff. exists 149%nat. split; [apply cdf_last; auto | apply in_seq; lia].
    - intros x I. apply in_map_iff in I as (i & <- & I). apply in_seq in I.
      pose proof (cdf_mono a' b' samples i 149 AB NE ltac:(lia)) as Q. rewrite cdf_last in Q by auto. lra. }
  rewrite MX1. unfold bind. rewrite map_map.
  assert (E2 : map (fun i => cdf_at a' b' samples i / 1) (seq 0 150) = map (cdf_at a' b' samples) (seq 0 150)) by (apply map_ext; intros; field).
  rewrite E2.
  assert (X0 : nth 1 (map (edge a' b' 150) (seq 0 151)) 0 - nth 0 (map (edge a' b' 150) (seq 0 151)) 0 = wid a' b').
  { cbn [seq map nth]. unfold edge, wid. simpl (INR 0). simpl (INR 1). replace (INR 150) with 150 by (simpl; lra). lra. }
  rewrite X0.
  assert (X1 : map (fun e => e + wid a' b' / 2) (removelast (map (edge a' b' 150) (seq 0 151))) = map (mid_at a' b') (seq 0 150)).
  { replace (seq 0 151) with (seq 0 150 ++ [150%nat]) by (symmetry; apply (seq_S 150 0)).
    rewrite map_app. cbn [map]. rewrite removelast_last, map_map. apply map_ext. intros i. unfold mid_at, edge, wid. replace (INR 150) with 150 by (simpl; lra). reflexivity. }
  rewrite X1, combine_map2, (seq_last_map (cdf_at a' b' samples) 149), cdf_last by auto. reflexivity.
Qed.

(** linear interpolation in a table whose abscissae may repeat *)
Lemma interp_piece (C X : nat -> R) m k u : (forall i, (k <= i < k + m)%nat -> C i <= C (S i)) -> C k < u <= C (k + m)%nat ->
  exists i, (k <= i < k + m)%nat /\ C i < u <= C (S i) /\
    interp_from (C k) (X k) (map (fun i => (C i, X i)) (seq (S k) m)) u = X i + (X (S i) - X i) / (C (S i) - C i) * (u - C i).
Proof.
  revert k. induction m as [|m IH]; intros k M U.
  - rewrite Nat.add_0_r in U. lra.
  - cbn [seq map interp_from]. destruct (Rleb u (C (S k))) eqn:E.
    + apply Rleb_true in E. exists k. repeat split; try lia; lra.
    + apply Rleb_false in E. destruct (IH (S k)) as (i & I & B & V).
      * intros i I. apply M. lia.
      * replace (S k + m)%nat with (k + S m)%nat by lia. lra.
      * exists i. split; [lia|]. split; [lra|]. exact V.
Qed.

Lemma interp_seq (C X : nat -> R) m u : C 0%nat <= u -> u <= C (S m) ->
  interp1d (map (fun i => (C i, X i)) (seq 0 (S (S m)))) u = Ok (interp_from (C 0%nat) (X 0%nat) (map (fun i => (C i, X i)) (seq 1 (S m))) u).
Proof.
  intros A B. change (map (fun i => (C i, X i)) (seq 0 (S (S m)))) with ((C 0%nat, X 0%nat) :: map (fun i => (C i, X i)) (seq 1 (S m))).
  unfold interp1d. rewrite (proj2 (Rltb_false u _)) by lra.
  assert (L : last (map (fun i => (C i, X i)) (seq 1 (S m))) (C 0%nat, X 0%nat) = (C (S m), X (S m))) by (rewrite seq_S, map_app; apply last_last).
  rewrite L. cbn [fst]. rewrite (proj2 (Rltb_false _ u)) by lra. reflexivity.
Qed.
Lemma piece_between x0 x1 c0 c1 u : c0 < u <= c1 -> x0 < x1 -> x0 < x0 + (x1 - x0) / (c1 - c0) * (u - c0) <= x1.
Proof.
  intros U X. assert (D : 0 < c1 - c0) by lra. set (t := (u - c0) / (c1 - c0)).
  assert (T : 0 < t <= 1).
  { unfold t. split; [apply Rdiv_lt_0_compat; lra|]. apply (Rmult_le_reg_r (c1 - c0)); auto. unfold Rdiv. rewrite Rmult_assoc, Rinv_l by lra. lra. }
  replace ((x1 - x0) / (c1 - c0) * (u - c0)) with ((x1 - x0) * t) by (unfold t; field; lra). nra.
Qed.

Lemma mid_incr a b i j : a < b -> (i < j)%nat -> mid_at a b i < mid_at a b j.
Proof. intros AB I. unfold mid_at, wid. apply lt_INR in I. nra. Qed.

(** one draw *)
Lemma one_draw samples a b s u : np_min samples = Ok a -> np_max samples = Ok b -> from_samples samples = Ok s -> deviate s u ->
  let a' := fst (hist_range a b) in let b' := snd (hist_range a b) in
  exists i y, (i < 149)%nat /\ cdf_at a' b' samples i < u <= cdf_at a' b' samples (S i) /\
    interp1d (sp_table s) u = Ok y /\ mid_at a' b' i < y <= mid_at a' b' (S i) /\
    y = mid_at a' b' i + (mid_at a' b' (S i) - mid_at a' b' i) / (cdf_at a' b' samples (S i) - cdf_at a' b' samples i) * (u - cdf_at a' b' samples i).
Proof.
  intros MA MB F [U1 U2] a' b'. destruct (from_samples_table samples a b MA MB) as (AB & RG & NE & T). fold a' b' in AB, RG, T.
  rewrite T in F. injection F as <-. simpl in U1, U2.
  destruct (interp_piece (cdf_at a' b' samples) (mid_at a' b') 149 0 u) as (i & I & B & V).
  - intros i I. apply cdf_mono; auto. lia.
  - simpl plus. rewrite cdf_last by auto. lra.
  - exists i. eexists. split; [lia|]. split; [exact B|]. split; [|split; [|reflexivity]].
    + rewrite <- V. apply (interp_seq (cdf_at a' b' samples) (mid_at a' b') 148); [lra|]. rewrite cdf_last by auto. lra.
    + apply piece_between; auto. apply mid_incr; auto.
Qed.

(** ** C100 *)

(** Building the sampler succeeds exactly when there are samples; deviates run from the fraction of samples in the first of 150
    bins to one; every deviate gives a value, one per deviate. *)
Theorem C100_defined samples us : samples <> [] -> exists s, from_samples samples = Ok s /\ 0 <= sp_umin s <= 1 /\ sp_umax s = 1 /\
  (List.Forall (deviate s) us -> exists ys, draw s us = Ok ys /\ List.length ys = List.length us).
Proof.
  intros NE.
  destruct (np_min samples) as [a|] eqn:MA; [|destruct samples; [congruence | discriminate]].
  destruct (np_max samples) as [b|] eqn:MB; [|destruct samples; [congruence | discriminate]].
  destruct (from_samples_table samples a b MA MB) as (AB & RG & _ & T). eexists. split; [exact T|]. simpl.
  set (a' := fst _) in *. set (b' := snd _) in *. split; [|split; [reflexivity|]].
  - split.
    + unfold cdf_at. apply Rmult_le_pos; [apply pos_INR|]. left. apply Rinv_0_lt_compat, lt_0_INR. destruct samples; [congruence | simpl; lia].
    + pose proof (cdf_mono a' b' samples 0 149 AB NE ltac:(lia)) as Q. rewrite cdf_last in Q by auto. auto.
  - intros D. set (s := mkSampler _ _ _) in *.
    assert (G : exists ys, draw s us = Ok ys).
    { unfold draw. clearbody s. induction D as [|u us D1 D2 IH]; [exists []; reflexivity|]. cbn [mapM].
      destruct (one_draw samples a b s u MA MB T D1) as (i & y & _ & _ & E & _). rewrite E. destruct IH as [ys ->]. exists (y :: ys). reflexivity. }
    destruct G as [ys G]. exists ys. split; auto. unfold draw in G. apply mapM_length in G. auto.
Qed.
Theorem C100_empty : from_samples [] = Err EValueError.
Proof. reflexivity. Qed.

Lemma draw_in s us ys y : draw s us = Ok ys -> In y ys -> exists u, In u us /\ interp1d (sp_table s) u = Ok y.
Proof.
  unfold draw. rewrite mapM_Forall2. intros F. induction F as [|u y' us ys E F IH]; [intros []|].
  intros [<-|I]; [exists u; split; [left|]; auto|]. destruct (IH I) as (u' & A & B). exists u'. split; [right|]; auto.
Qed.

(** No draw leaves the range of the samples. *)
Theorem C100_range samples a b s us ys y : is_min a samples -> is_max b samples -> a < b -> from_samples samples = Ok s ->
  List.Forall (deviate s) us -> draw s us = Ok ys -> In y ys -> a < y < b.
Proof.
  intros IA IB AB F D E I.
  assert (MB : np_max samples = Ok b) by (apply np_max_is; auto).
  destruct (np_min samples) as [a0|] eqn:MA; [|destruct samples; [destruct IA as [[] _] | discriminate]].
  assert (a0 = a). { pose proof (np_min_spec _ _ MA) as [P Q]. destruct IA as [P' Q']. pose proof (Q _ P'). pose proof (Q' _ P). lra. } subst a0.
  destruct (draw_in _ _ _ _ E I) as (u & Hu & EU). rewrite Forall_forall in D. specialize (D u Hu).
  destruct (one_draw samples a b s u MA MB F D) as (i & y' & I1 & _ & EY & YB & _). rewrite EU in EY. injection EY as <-.
  unfold hist_range in YB. destruct (Reqb a b) eqn:Q; [apply Reqb_true in Q; lra|]. simpl fst in YB. simpl snd in YB.
  pose proof (mid_incr a b i (S i) AB ltac:(lia)).
  assert (mid_at a b 0 <= mid_at a b i) by (destruct i; [lra | left; apply mid_incr; auto; lia]).
  assert (mid_at a b (S i) <= mid_at a b 149) by (destruct (Nat.eq_dec (S i) 149) as [->|]; [lra | left; apply mid_incr; auto; lia]).
  assert (a < mid_at a b 0) by (unfold mid_at, wid; simpl; lra).
  assert (mid_at a b 149 < b) by (unfold mid_at, wid; replace (INR 149) with 149 by (simpl; lra); lra).
  lra.
Qed.

Lemma count_below a b l i t : a < b -> (forall s, In s l -> a <= s <= b) -> (i < 150)%nat ->
  (edge a b 150 (S i) <= t -> (i = 149%nat -> b < t) -> cdf_at a b l i <= below t l).
Proof.
  intros AB RG I E L. unfold cdf_at, below. apply Rmult_le_compat_r.
  - destruct l; [simpl; rewrite Rinv_0; lra|]. left. apply Rinv_0_lt_compat, lt_0_INR. simpl. lia.
  - apply le_INR. apply count_mono. intros s Hs H. specialize (RG s Hs). apply Rltb_true. unfold upto in H.
    destruct (i =? 150 - 1)%nat eqn:Q; [apply Nat.eqb_eq in Q; specialize (L Q); lra|]. apply Rltb_true in H. lra.
Qed.
Lemma count_above a b l i t : a < b -> (i < 149)%nat -> t <= edge a b 150 (S i) -> below t l <= cdf_at a b l i.
Proof.
  intros AB I E. unfold cdf_at, below. apply Rmult_le_compat_r.
  - destruct l; [simpl; rewrite Rinv_0; lra|]. left. apply Rinv_0_lt_compat, lt_0_INR. simpl. lia.
  - apply le_INR. apply count_mono. intros s Hs H. unfold upto. replace (i =? 150 - 1)%nat with false by (symmetry; apply Nat.eqb_neq; lia).
    apply Rltb_true in H. apply Rltb_true. lra.
Qed.
Lemma mid_edge a b i : mid_at a b i = edge a b 150 (S i) - wid a b / 2.
Proof. unfold mid_at, edge, wid. replace (INR 150) with 150 by (simpl; lra). rewrite S_INR. field. Qed.

(** The value drawn for u is the u-quantile of the samples up to the width of a bin: the fraction of samples below it, moved down by
    half a bin, is less than u, and the fraction below it, moved up by a bin and a half, is at least u. *)
Theorem C100_quantile samples a b s u y : is_min a samples -> is_max b samples -> a < b -> from_samples samples = Ok s ->
  deviate s u -> draw s [u] = Ok [y] -> let w := (b - a) / 150 in below (y - w / 2) samples < u <= below (y + 3 * w / 2) samples.
Proof.
  intros IA IB AB F D E w.
  assert (MB : np_max samples = Ok b) by (apply np_max_is; auto).
  destruct (np_min samples) as [a0|] eqn:MA; [|destruct samples; [destruct IA as [[] _] | discriminate]].
  assert (a0 = a). { pose proof (np_min_spec _ _ MA) as [P Q]. destruct IA as [P' Q']. pose proof (Q _ P'). pose proof (Q' _ P). lra. } subst a0.
  destruct (one_draw samples a b s u MA MB F D) as (i & y' & I1 & UB & EY & YB & _).
  assert (y' = y). { unfold draw in E. simpl in E. rewrite EY in E. simpl in E. congruence. } subst y'.
  destruct (from_samples_table samples a b MA MB) as (_ & RG & NE & _).
  unfold hist_range in *. destruct (Reqb a b) eqn:Q; [apply Reqb_true in Q; lra|]. simpl fst in *. simpl snd in *.
  rewrite !mid_edge in YB. change (wid a b) with w in YB.
  assert (W : edge a b 150 (S (S i)) = edge a b 150 (S i) + w).
  { unfold edge, w. replace (INR 150) with 150 by (simpl; lra). rewrite !S_INR. field. }
  assert (0 < w) by (unfold w; lra).
  split.
  - apply Rle_lt_trans with (cdf_at a b samples i); [|lra]. apply count_above; auto; lra.
  - apply Rle_trans with (cdf_at a b samples (S i)); [lra|]. apply count_below; auto; try lia; try lra.
    intros J. assert (edge a b 150 (S (S i)) = b) by (rewrite J; apply edge_n; lia). lra.
Qed.

(** Larger deviates give larger values. *)
Theorem C100_monotone samples s u u' y y' : from_samples samples = Ok s -> deviate s u -> deviate s u' -> u <= u' ->
  draw s [u; u'] = Ok [y; y'] -> y <= y'.
Proof.
  intros F D D' U E.
  destruct (np_min samples) as [a|] eqn:MA; [|unfold from_samples in F; rewrite MA in F; discriminate].
  destruct (np_max samples) as [b|] eqn:MB; [|unfold from_samples in F; rewrite MA, MB in F; discriminate].
  destruct (one_draw samples a b s u MA MB F D) as (i & v & I & UB & EY & YB & V).
  destruct (one_draw samples a b s u' MA MB F D') as (i' & v' & I' & UB' & EY' & YB' & V').
  assert (v = y /\ v' = y') as [-> ->]. { unfold draw in E. simpl in E. rewrite EY, EY' in E. simpl in E. split; congruence. }
  destruct (from_samples_table samples a b MA MB) as (AB & RG & NE & _). set (a' := fst _) in *. set (b' := snd _) in *.
  destruct (lt_eq_lt_dec i i') as [[L|L]|L].
  - assert (mid_at a' b' (S i) <= mid_at a' b' i') by (destruct (Nat.eq_dec (S i) i') as [->|]; [lra | left; apply mid_incr; auto; lia]). lra.
  - subst i'. rewrite V, V'. apply Rplus_le_compat_l. apply Rmult_le_compat_l; [|lra].
    left. apply Rdiv_lt_0_compat; [|lra]. pose proof (mid_incr a' b' i (S i) AB ltac:(lia)). lra.
  - exfalso. pose proof (cdf_mono a' b' samples (S i') i AB NE ltac:(lia)). lra.
Qed.

(** If all samples agree the draws agree with them to 1/300. *)
Theorem C100_constant c n s u y : from_samples (repeat c (S n)) = Ok s -> deviate s u -> draw s [u] = Ok [y] -> Rabs (y - c) <= 1 / 300.
Proof.
  intros F D E. set (l := repeat c (S n)) in *.
  assert (CI : forall x, In x l -> x = c) by (intros x; apply repeat_spec).
  assert (IC : In c l) by (left; auto).
  destruct (np_min l) as [a|] eqn:MA; [|discriminate].
  destruct (np_max l) as [b|] eqn:MB; [|discriminate].
  pose proof (np_min_spec _ _ MA) as [P _]. pose proof (np_max_spec _ _ MB) as [P' _]. apply CI in P. apply CI in P'. subst a b.
  destruct (one_draw l c c s u MA MB F D) as (i & v & I & UB & EY & YB & V).
  assert (v = y) as ->. { unfold draw in E. simpl in E. rewrite EY in E. simpl in E. congruence. }
  unfold hist_range in *. rewrite Reqb_refl in *. simpl fst in *. simpl snd in *.
  set (a := c - 1 / 2) in *. set (b := c + 1 / 2) in *.
  assert (W : wid a b = 1 / 150) by (unfold wid, a, b; field).
  assert (CD : forall i, (i < 149)%nat -> cdf_at a b l i = if Rltb c (edge a b 150 (S i)) then 1 else 0).
  { intros j J. unfold cdf_at. assert (0 < INR (List.length l)) by (apply lt_0_INR; unfold l; simpl; lia).
    assert (K : count (upto a b 150 j) l = if Rltb c (edge a b 150 (S j)) then List.length l else 0%nat).
    { unfold count, upto. replace (j =? 150 - 1)%nat with false by (symmetry; apply Nat.eqb_neq; lia).
      clear -CI. induction l as [|x t IH]; simpl; [destruct (Rltb _ _); auto|]. rewrite (CI x) by (left; auto).
      rewrite <- (CI x (or_introl eq_refl)) at 1. rewrite (CI x (or_introl eq_refl)).
      specialize (IH (fun z Hz => CI z (or_intror Hz))). destruct (Rltb c _); simpl; auto. }
    rewrite K. destruct (Rltb c _); [field; lra | change (INR 0) with 0; unfold Rdiv; ring]. }
  assert (E1 : forall j, edge a b 150 j = c - 1 / 2 + INR j / 150) by (intros j; unfold edge, a, b; replace (INR 150) with 150 by (simpl; lra); field).
  rewrite !mid_edge, W, !E1 in YB.
  assert (i = 74)%nat.
  { rewrite (CD i) in UB by lia. rewrite E1 in UB.
    destruct (Rltb c (c - 1 / 2 + INR (S i) / 150)) eqn:Q.
    { assert (cdf_at a b l (S i) <= 1). { rewrite <- (cdf_last a b l); [apply cdf_mono; [unfold a, b; lra | discriminate | lia] | discriminate]. } lra. }
    apply Rltb_false in Q.
    assert (L1 : (S i <= 75)%nat). { apply INR_le. replace (INR 75) with 75 by (simpl; lra). lra. }
    destruct (Nat.eq_dec i 74); auto. exfalso.
    rewrite (CD (S i)) in UB by lia. rewrite E1 in UB. destruct (Rltb c (c - 1 / 2 + INR (S (S i)) / 150)) eqn:Q2; [|lra].
    apply Rltb_true in Q2. assert (INR (S (S i)) <= 75). { replace 75 with (INR 75) by (simpl; lra). apply le_INR. lia. } lra. }
  subst i. replace (INR 75) with 75 in YB by (simpl; lra). replace (INR 76) with 76 in YB by (simpl; lra).
  apply Rabs_le. lra.
Qed.

(** The constructor normalises: scaling the cumulative counts changes nothing. *)
Theorem C100_scale x cdf k : 0 < k -> (exists c, In c cdf /\ 0 < c) -> it_sampling x (map (fun c => k * c) cdf) = it_sampling x cdf.
Proof.
  intros K (c & I & P). unfold it_sampling.
  destruct (np_max cdf) as [m|] eqn:M; [|destruct cdf; [destruct I | discriminate]].
  pose proof (np_max_spec _ _ M) as [A B]. pose proof (B c I).
  assert (M' : np_max (map (fun c => k * c) cdf) = Ok (k * m)).
  { apply np_max_is. split; [apply in_map_iff; exists m; auto|]. intros z Z. apply in_map_iff in Z as (z' & <- & Z). apply Rmult_le_compat_l; [lra | auto]. }
  rewrite M'. simpl. rewrite map_map.
  assert (E : map (fun c => k * c / (k * m)) cdf = map (fun c => c / m) cdf) by (apply map_ext; intros; field; lra).
  rewrite E. reflexivity.
Qed.

(** The draws need not be distributed like the samples: the deviates start at the fraction of samples in the first bin, so that part
    of the distribution is never drawn.  Of a hundred samples ninety-nine are zero, yet every draw is above 0.98. *)
Lemma first_bin : exists s, from_samples (repeat 0 99 ++ [1]) = Ok s /\ sp_umin s = 99 / 100.
Proof.
  assert (MA : np_min (repeat 0 99 ++ [1]) = Ok 0).
  { destruct (np_min (repeat 0 99 ++ [1])) eqn:E; [|discriminate]. pose proof (np_min_spec _ _ E) as [I L]. f_equal.
    assert (a <= 0) by (apply L; apply in_or_app; left; simpl; auto).
    apply in_app_or in I as [I|[I|[]]]; [apply repeat_spec in I; auto | lra]. }
  assert (MB : np_max (repeat 0 99 ++ [1]) = Ok 1).
  { apply np_max_is. split; [apply in_or_app; right; left; auto|]. intros x I. apply in_app_or in I as [I|[I|[]]]; [apply repeat_spec in I|]; lra. }
  destruct (from_samples_table _ 0 1 MA MB) as (_ & _ & _ & T). eexists. split; [exact T|]. cbn [sp_umin].
  assert (Q : hist_range 0 1 = (0, 1)) by (unfold hist_range; destruct (Reqb 0 1) eqn:Q; auto; apply Reqb_true in Q; lra).
  rewrite Q. cbn [fst snd]. unfold cdf_at. rewrite app_length, repeat_length. cbn [List.length].
  assert (C : count (upto 0 1 150 0) (repeat 0 99 ++ [1]) = 99%nat).
  { unfold count. rewrite filter_app, app_length.
    assert (A : forall n, filter (upto 0 1 150 0) (repeat 0 n) = repeat 0 n).
    { assert (U : upto 0 1 150 0 0 = true) by (unfold upto; simpl Nat.eqb; apply Rltb_true; unfold edge; simpl; lra).
      induction n; auto. change (repeat 0 (S n)) with (0 :: repeat 0 n). cbn [filter]. rewrite U, IHn. reflexivity. }
    rewrite A, repeat_length. cbn [filter]. assert (U : upto 0 1 150 0 1 = false) by (unfold upto; simpl Nat.eqb; apply Rltb_false; unfold edge; simpl; lra).
    rewrite U. reflexivity. }
  rewrite C. replace (99 + 1)%nat with 100%nat by lia. simpl. lra.
Qed.
Lemma filter_repeat_le f n : (List.length (filter f (repeat 0%R n)) <= n)%nat.
Proof. pose proof (count_le f (repeat 0 n)) as K. rewrite repeat_length in K. exact K. Qed.
Theorem C100_first_bin_refuted : exists samples s, List.length samples = 100%nat /\ below 0.01 samples = 99 / 100 /\ from_samples samples = Ok s /\
  forall u y, deviate s u -> draw s [u] = Ok [y] -> 0.98 < y.
Proof.
  destruct first_bin as (s & F & U). exists (repeat 0 99 ++ [1]), s.
  assert (BL : forall n, filter (fun s => Rltb s 0.01) (repeat 0 n) = repeat 0 n).
  { assert (Q : Rltb 0 0.01 = true) by (apply Rltb_true; lra). induction n; auto. change (repeat 0 (S n)) with (0 :: repeat 0 n). cbn [filter]. rewrite Q, IHn. reflexivity. }
  split; [rewrite app_length, repeat_length; reflexivity|]. split; [|split; [exact F|]].
  - unfold below. rewrite filter_app, !app_length, BL, repeat_length. cbn [filter]. rewrite (proj2 (Rltb_false 1 0.01)) by lra. cbn [List.length].
    replace (99 + 0)%nat with 99%nat by lia. replace (99 + 1)%nat with 100%nat by lia. simpl. lra.
  - intros u y D E. pose proof D as [D1 D2]. rewrite U in D1.
    assert (IA : is_min 0 (repeat 0 99 ++ [1])).
    { split; [apply in_or_app; left; left; auto|]. intros x I. apply in_app_or in I as [I|[I|[]]]; [apply repeat_spec in I|]; lra. }
    assert (IB : is_max 1 (repeat 0 99 ++ [1])).
    { split; [apply in_or_app; right; left; auto|]. intros x I. apply in_app_or in I as [I|[I|[]]]; [apply repeat_spec in I|]; lra. }
    destruct (C100_quantile _ 0 1 s u y IA IB ltac:(lra) F D E) as [_ Q]. cbv zeta in Q.
    destruct (Rlt_le_dec 0.98 y) as [L|L]; auto. exfalso.
    assert (B : below (y + 3 * ((1 - 0) / 150) / 2) (repeat 0 99 ++ [1]) <= 99 / 100).
    { unfold below. rewrite filter_app, !app_length, repeat_length. cbn [filter]. rewrite (proj2 (Rltb_false 1 _)) by lra. cbn [List.length].
      replace (99 + 1)%nat with 100%nat by lia. replace (INR 100) with 100 by (simpl; lra).
      assert (INR (List.length (filter (fun s0 => Rltb s0 (y + 3 * ((1 - 0) / 150) / 2)) (repeat 0 99)) + 0) <= 99).
      { replace 99 with (INR 99) by (simpl; lra). apply le_INR. rewrite Nat.add_0_r.
        apply filter_repeat_le. }
      lra. }
    lra.
Qed.

(** ** The hypotheses are met *)
Example C100_defined_nonvacuous : exists s, from_samples [0; 1; 1; 2] = Ok s /\ is_min 0 [0; 1; 1; 2] /\ is_max 2 [0; 1; 1; 2] /\ sp_umax s = 1.
Proof.
  destruct (C100_defined [0; 1; 1; 2] [] ltac:(discriminate)) as (s & F & _ & U & _). exists s. repeat split; auto; simpl; auto;
    intros x [<-|[<-|[<-|[<-|[]]]]]; lra.
Qed.
Example C100_range_nonvacuous : exists s ys, from_samples (repeat 0 99 ++ [1]) = Ok s /\ List.Forall (deviate s) [0.995; 1] /\ draw s [0.995; 1] = Ok ys /\ List.length ys = 2%nat.
Proof.
  destruct first_bin as (s & F & U).
  destruct (C100_defined (repeat 0 99 ++ [1]) [0.995; 1] ltac:(discriminate)) as (s' & F' & _ & U' & H). rewrite F in F'. injection F' as <-.
  assert (D : List.Forall (deviate s) [0.995; 1]) by (repeat constructor; rewrite ?U, ?U'; lra).
  destruct (H D) as (ys & E & L). exists s, ys. auto.
Qed.
Example C100_scale_nonvacuous : exists c, In c [0; 1; 3] /\ 0 < c.
Proof. exists 3. simpl. split; [auto | lra]. Qed.

Print Assumptions C100_defined.
Print Assumptions C100_empty.
Print Assumptions C100_range.
Print Assumptions C100_quantile.
Print Assumptions C100_monotone.
Print Assumptions C100_constant.
Print Assumptions C100_scale.
Print Assumptions C100_first_bin_refuted.
