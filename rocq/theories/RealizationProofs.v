(** Proofs about the model of [Realization]. *)
From Verif Require Import Prelude RealizationModel RealizationSpec.

(* ---------- kept ---------- *)
Lemma kept_filter {A} (P : A -> Prop) (p : A -> bool) l :
  (forall a, In a l -> (p a = true <-> P a)) -> kept P l (List.filter p l).
Proof.
  induction l as [|a l IH]; simpl; intros H; [constructor|].
  pose proof (H a (or_introl eq_refl)) as Ha.
  destruct (p a) eqn:E.
  - apply kept_take; [tauto|]. apply IH; auto.
  - apply kept_drop; [intros HP; apply Ha in HP; discriminate|]. apply IH; auto.
Qed.
Lemma kept_fun {A} (P : A -> Prop) l l1 l2 : kept P l l1 -> kept P l l2 -> l1 = l2.
Proof.
  intros H; revert l2; induction H; intros l2 H2; inversion H2; subst; auto; try contradiction.
  f_equal; auto.
Qed.
Lemma kept_In {A} (P : A -> Prop) l l' a : kept P l l' -> (In a l' <-> In a l /\ P a).
Proof.
  induction 1 as [|b l l' HP H IH|b l l' HP H IH]; simpl; [tauto| |].
  - rewrite IH. split; [intros [->|]; tauto|]. intros [[->|?] ?]; tauto.
  - rewrite IH. split; [tauto|]. intros [[->|?] ?]; tauto.
Qed.
Lemma kept_ext {A} (P Q : A -> Prop) l l' :
  (forall a, In a l -> (P a <-> Q a)) -> kept P l l' -> kept Q l l'.
Proof.
  intros E H; induction H as [|b l l' HP H IH|b l l' HP H IH]; constructor;
    try (apply IH; intros; apply E; right; auto);
    pose proof (E b (or_introl eq_refl)); tauto.
Qed.
Lemma kept_count {A} (dec : forall x y : A, {x = y} + {x <> y}) (P : A -> Prop) l l' a :
  kept P l l' -> (P a -> count_occ dec l' a = count_occ dec l a) /\ (~ P a -> ~ In a l').
Proof.
  intros K; split.
  - intros HP. induction K as [|b l l' Hb K IH|b l l' Hb K IH]; simpl; auto.
    + destruct (dec b a); lia.
    + destruct (dec b a); [subst; contradiction|auto].
  - intros HP Hin. apply (kept_In _ _ _ _ K) in Hin. tauto.
Qed.
Lemma kept_all {A} (P : A -> Prop) l : (forall a, In a l -> P a) -> kept P l l.
Proof. induction l; constructor; simpl in *; auto. Qed.
Lemma kept_none {A} (P : A -> Prop) l : (forall a, In a l -> ~ P a) -> kept P l [].
Proof. induction l; constructor; simpl in *; auto. Qed.

(* ---------- C01 ---------- *)
Lemma partition_lemma hp rz :
  kept (fun r => h_sub (hp r) = true) (rz_halos rz) (subhalos hp rz) /\
  kept (fun r => h_sub (hp r) = false) (rz_halos rz) (field_halos hp rz) /\
  Permutation (subhalos hp rz ++ field_halos hp rz) (rz_halos rz).
Proof.
  split; [|split].
  - apply kept_filter. tauto.
  - apply kept_filter. intros; destruct (h_sub (hp a)); simpl; split; congruence.
  - unfold subhalos, field_halos.
    induction (rz_halos rz) as [|a l IH]; simpl; auto.
    destruct (h_sub (hp a)); simpl; auto.
    rewrite <- Permutation_middle. auto.
Qed.

(* ---------- np_unique ---------- *)
Lemma insert_uniq_in a l x : In x (insert_uniq a l) <-> x = a \/ In x l.
Proof.
  induction l as [|b t IH]; simpl; [intuition congruence|].
  destruct (Reqb a b) eqn:E.
  - apply Reqb_true in E; subst. simpl; intuition.
  - destruct (Rltb a b); simpl; [intuition|]. rewrite IH. intuition.
Qed.
Lemma insert_uniq_sorted a l : StronglySorted Rlt l -> StronglySorted Rlt (insert_uniq a l).
Proof.
  induction 1 as [|b t Hs IH Hf]; simpl; [repeat constructor|].
  destruct (Reqb a b) eqn:E; [constructor; auto|].
  destruct (Rltb a b) eqn:E2.
  - apply Rltb_true in E2. constructor; [constructor; auto|]. constructor; auto.
    eapply Forall_impl; [|exact Hf]. intros; simpl in *; lra.
  - apply Rltb_false in E2. apply Reqb_false in E.
    constructor; auto. apply Forall_forall. intros x Hx. apply insert_uniq_in in Hx.
    destruct Hx as [->|Hx]; [lra|]. rewrite Forall_forall in Hf; auto.
Qed.
Lemma np_unique_in l x : In x (np_unique l) <-> In x l.
Proof. induction l; simpl; [tauto|]. rewrite insert_uniq_in, IHl. intuition. Qed.
Lemma np_unique_sorted l : StronglySorted Rlt (np_unique l).
Proof. induction l; simpl; [constructor|apply insert_uniq_sorted; auto]. Qed.

(* ---------- in_sync is established by from_halos ---------- *)
Lemma from_halos_sync hp hs s c cx cy : in_sync hp (from_halos hp hs s c cx cy).
Proof.
  constructor; simpl; auto.
  - apply np_unique_sorted.
  - intros z. rewrite np_unique_in, in_map_iff. split; intros [r [H1 H2]]; eauto.
Qed.

(* ---------- where / pick ---------- *)
Lemma pick_app {A} (l : list A) i j : pick l (i ++ j) = do a <- pick l i; do b <- pick l j; Ok (a ++ b).
Proof.
  induction i as [|k i IH]; simpl.
  - destruct (pick l j); reflexivity.
  - destruct (nth_error l k); simpl; auto. rewrite IH. destruct (pick l i); simpl; auto.
    destruct (pick l j); reflexivity.
Qed.
Lemma where_spec {A} (p : A -> bool) (l1 l2 : list A) :
  pick (l1 ++ l2) (where_from (List.length l1) (map p l2)) = Ok (List.filter p l2).
Proof.
  revert l1; induction l2 as [|a l2 IH]; simpl; intros l1; auto.
  specialize (IH (l1 ++ [a])). rewrite <- app_assoc in IH. simpl in IH.
  rewrite app_length in IH. simpl in IH. rewrite Nat.add_1_r in IH.
  destruct (p a); simpl; auto.
  rewrite nth_error_app2, Nat.sub_diag by lia. simpl. rewrite IH. reflexivity.
Qed.
Lemma pick_where {A} (p : A -> bool) (l : list A) : pick l (np_where (map p l)) = Ok (List.filter p l).
Proof. exact (where_spec p [] l). Qed.

Lemma where_from_bound k m i : In i (where_from k m) -> (k <= i)%nat.
Proof.
  revert k; induction m as [|b m IH]; simpl; intros k; [tauto|].
  destruct b; simpl; intros; [destruct H as [->|H]; [lia|]|]; apply IH in H; lia.
Qed.
Lemma where_from_sorted k m : StronglySorted lt (where_from k m).
Proof.
  revert k; induction m as [|b m IH]; simpl; intros k; [constructor|].
  destruct b; auto. constructor; auto. apply Forall_forall. intros i Hi.
  apply where_from_bound in Hi; lia.
Qed.
Lemma where_from_in {A} (p : A -> bool) (l : list A) : forall k i,
  In i (where_from k (map p l)) <-> (k <= i)%nat /\ exists a, nth_error l (i - k) = Some a /\ p a = true.
Proof.
  induction l as [|b l IH]; simpl; intros k i.
  - split; [tauto|]. intros [_ [a [H _]]]. destruct (i - k)%nat; discriminate.
  - assert (IHk := IH (S k) i).
    assert (Hs : (k < i)%nat -> nth_error (b :: l) (i - k) = nth_error l (i - S k)).
    { intros. replace (i - k)%nat with (S (i - S k))%nat by lia. reflexivity. }
    destruct (Nat.eq_dec i k) as [->|n].
    + rewrite Nat.sub_diag. simpl. destruct (p b) eqn:E; simpl.
      * split; [intros _|auto]. split; [lia|]. exists b; auto.
      * rewrite IHk. split; [lia|]. intros [_ [a [H1 H2]]]. congruence.
    + destruct (p b) eqn:E; simpl; rewrite IHk; split.
      * intros [->|[H1 H2]]; [lia|]. split; [lia|]. rewrite Hs by lia. auto.
      * intros [H1 H2]. rewrite Hs in H2 by lia. right; split; [lia|auto].
      * intros [H1 H2]. split; [lia|]. rewrite Hs by lia. auto.
      * intros [H1 H2]. rewrite Hs in H2 by lia. split; [lia|auto].
Qed.

Lemma insert_nat_sorted_head a l : Forall (lt a) l -> insert_nat a l = a :: l.
Proof.
  destruct l as [|b l]; simpl; auto. intros H. inversion H; subst.
  destruct (Nat.eqb a b) eqn:E; [apply Nat.eqb_eq in E; lia|].
  destruct (Nat.ltb a b) eqn:E2; auto. apply Nat.ltb_ge in E2; lia.
Qed.
Lemma insert_sorted_id l : StronglySorted lt l -> fold_right insert_nat [] l = l.
Proof. induction 1; simpl; auto. rewrite IHStronglySorted. apply insert_nat_sorted_head; auto. Qed.
Lemma sorted_filter {A} (R : A -> A -> Prop) p l : StronglySorted R l -> StronglySorted R (List.filter p l).
Proof.
  induction 1 as [|a l Hs IH Hf]; simpl; [constructor|].
  destruct (p a); auto. constructor; auto. apply Forall_forall. intros x Hx.
  apply filter_In in Hx. rewrite Forall_forall in Hf. apply Hf; tauto.
Qed.

Lemma filter_where {A} (p q : A -> bool) (l : list A) : forall k (f : nat -> bool),
  (forall i a, nth_error l i = Some a -> f (k + i)%nat = q a) ->
  List.filter f (where_from k (map p l)) = where_from k (map (fun a => p a && q a) l).
Proof.
  induction l as [|a l IH]; simpl; intros k f H; auto.
  assert (Hk : f k = q a). { replace k with (k + 0)%nat by lia. apply H. reflexivity. }
  assert (IHk : List.filter f (where_from (S k) (map p l)) = where_from (S k) (map (fun a => p a && q a) l)).
  { apply IH. intros i b Hb. replace (S k + i)%nat with (k + S i)%nat by lia. apply H. exact Hb. }
  destruct (p a); simpl; auto. rewrite Hk. destruct (q a); simpl; rewrite IHk; auto.
Qed.

Lemma intersect_where {A} (p q : A -> bool) (l : list A) :
  intersect1d (np_where (map p l)) (np_where (map q l)) = np_where (map (fun a => p a && q a) l).
Proof.
  unfold intersect1d, np_where. rewrite insert_sorted_id by (apply sorted_filter, where_from_sorted).
  apply filter_where. simpl. intros i a Ha.
  destruct (q a) eqn:E.
  - apply existsb_exists. exists i. split; [|apply Nat.eqb_refl].
    apply where_from_in. split; [lia|]. exists a. rewrite Nat.sub_0_r. auto.
  - destruct (existsb _ _) eqn:E2; auto. apply existsb_exists in E2. destruct E2 as [j [H1 H2]].
    apply Nat.eqb_eq in H2; subst j. apply where_from_in in H1. rewrite Nat.sub_0_r in H1.
    destruct H1 as [_ [b [H3 H4]]]. congruence.
Qed.

Lemma rank_where {A} (p : A -> bool) (l : list A) : forall k v, (k <= v)%nat ->
  List.length (List.filter (fun a => Nat.ltb a v) (where_from k (map p l)))
  = List.length (List.filter p (firstn (v - k) l)).
Proof.
  induction l as [|a l IH]; simpl; intros k v Hk.
  - destruct (v - k)%nat; reflexivity.
  - destruct (Nat.eq_dec k v) as [->|n].
    + rewrite Nat.sub_diag. simpl.
      assert (E : forall m j, (v <= j)%nat -> List.filter (fun a => Nat.ltb a v) (where_from j m) = []).
      { induction m as [|b m IHm]; simpl; intros j Hj; auto.
        destruct b; simpl; auto. destruct (Nat.ltb j v) eqn:E; [apply Nat.ltb_lt in E; lia|auto]. }
      destruct (p a); simpl; rewrite ?E by lia; auto.
      destruct (Nat.ltb v v) eqn:E2; [apply Nat.ltb_lt in E2; lia|auto].
    + replace (v - k)%nat with (S (v - S k))%nat by lia. simpl.
      destruct (p a); simpl; [|apply IH; lia].
      destruct (Nat.ltb k v) eqn:E2; [|apply Nat.ltb_ge in E2; lia]. simpl. f_equal. apply IH; lia.
Qed.

Lemma pick_ranked {A} (p q : A -> bool) (l1 l2 : list A) :
  pick (List.filter p (l1 ++ l2))
       (map (searchsorted (np_where (map p (l1 ++ l2)))) (where_from (List.length l1) (map (fun a => p a && q a) l2)))
  = Ok (List.filter (fun a => p a && q a) l2).
Proof.
  revert l1; induction l2 as [|a l2 IH]; intros l1; simpl; auto.
  specialize (IH (l1 ++ [a])). rewrite <- app_assoc in IH. simpl in IH.
  rewrite app_length in IH; simpl in IH; rewrite Nat.add_1_r in IH.
  destruct (p a && q a) eqn:E; [|exact IH]. cbn [map pick].
  apply andb_true_iff in E. destruct E as [Ep Eq].
  unfold searchsorted at 1, np_where at 1. rewrite rank_where by lia. rewrite Nat.sub_0_r.
  rewrite firstn_app, Nat.sub_diag, firstn_all. simpl firstn. rewrite app_nil_r.
  rewrite filter_app. rewrite nth_error_app2, Nat.sub_diag by lia. simpl. rewrite Ep. simpl.
  rewrite filter_app in IH. simpl in IH. rewrite Ep in IH. rewrite IH. reflexivity.
Qed.

Lemma halos_at_z_fst hp z : forall hs k, fst (halos_at_z_from hp z k hs) = List.filter (fun r => Reqb (h_z (hp r)) z) hs.
Proof.
  induction hs as [|r t IH]; simpl; intros k; auto. specialize (IH (S k)).
  destruct (halos_at_z_from hp z (S k) t) as [h ix]. simpl in IH.
  destruct (Reqb (h_z (hp r)) z); simpl; congruence.
Qed.
Lemma halos_at_z_snd hp z : forall hs k,
  snd (halos_at_z_from hp z k hs) = where_from k (map (fun r => Reqb (h_z (hp r)) z) hs).
Proof.
  induction hs as [|r t IH]; simpl; intros k; auto. specialize (IH (S k)).
  destruct (halos_at_z_from hp z (S k) t) as [h ix]. simpl in IH.
  destruct (Reqb (h_z (hp r)) z); simpl; congruence.
Qed.

Lemma plane_select_lemma hp rz (q : ref -> bool) z :
  rz_reds rz = map (fun r => h_z (hp r)) (rz_halos rz) ->
  plane_select hp rz (np_where (map q (rz_halos rz))) z
  = Ok (List.filter (fun r => Reqb (h_z (hp r)) z && q r) (rz_halos rz)).
Proof.
  intros Hz. unfold plane_select, halos_at_z. rewrite halos_at_z_fst, Hz, map_map.
  rewrite intersect_where. exact (pick_ranked (fun r => Reqb (h_z (hp r)) z) q [] (rz_halos rz)).
Qed.

Lemma mapM_Ok {A B} (f : A -> result B) (g : A -> B) l :
  (forall a, In a l -> f a = Ok (g a)) -> mapM f l = Ok (map g l).
Proof.
  induction l as [|a l IH]; simpl; intros H; auto.
  rewrite H by auto. simpl. rewrite IH by auto. reflexivity.
Qed.

(* sorted by z with given planes *)
Definition zsort (hp : heap) (us : list R) (q : ref -> bool) (hs : list ref) : list ref :=
  List.concat (map (fun z => List.filter (fun r => Reqb (h_z (hp r)) z && q r) hs) us).

Lemma concat_sorted hp (q : ref -> bool) hs us :
  StronglySorted Rlt us -> StronglySorted (fun a b => h_z (hp a) <= h_z (hp b)) (zsort hp us q hs).
Proof.
  intros H; induction H as [|z us Hs IH Hf]; unfold zsort in *; simpl; [constructor|].
  set (pl := List.filter (fun r => Reqb (h_z (hp r)) z && q r) hs).
  assert (Hpl : forall r, In r pl -> h_z (hp r) = z).
  { intros r Hr. apply filter_In in Hr. destruct Hr as [_ Hr]. apply andb_true_iff in Hr.
    apply Reqb_true. tauto. }
  clearbody pl. induction pl as [|r pl IHp]; simpl; auto.
  constructor; [apply IHp; intros; apply Hpl; right; auto|].
  apply Forall_forall. intros x Hx. rewrite (Hpl r) by (left; auto).
  apply in_app_iff in Hx. destruct Hx as [Hx|Hx].
  - rewrite (Hpl x); [lra|right; auto].
  - apply in_concat in Hx. destruct Hx as [l [Hl Hx]]. apply in_map_iff in Hl. destruct Hl as [z' [<- Hz']].
    apply filter_In in Hx. destruct Hx as [_ Hx]. apply andb_true_iff in Hx. destruct Hx as [Hx _].
    apply Reqb_true in Hx. rewrite Forall_forall in Hf. specialize (Hf z' Hz'). lra.
Qed.

Lemma filter_filter {A} (p q : A -> bool) l : List.filter p (List.filter q l) = List.filter (fun a => q a && p a) l.
Proof.
  induction l as [|a l IH]; simpl; auto. destruct (q a); simpl; [|auto]. destruct (p a); rewrite IH; auto.
Qed.
Lemma filter_false {A} (p : A -> bool) l : (forall a, In a l -> p a = false) -> List.filter p l = [].
Proof. induction l as [|a l IH]; simpl; intros H; auto. rewrite H by auto. apply IH; auto. Qed.

Lemma zsort_plane hp q hs us z :
  StronglySorted Rlt us ->
  List.filter (fun r => Reqb (h_z (hp r)) z) (zsort hp us q hs)
  = if existsb (Reqb z) us then List.filter (fun r => Reqb (h_z (hp r)) z && q r) hs else [].
Proof.
  intros H; induction H as [|z1 us Hs IH Hf]; unfold zsort in *; simpl; auto.
  rewrite filter_app, IH, filter_filter.
  destruct (Reqb z z1) eqn:E.
  - apply Reqb_true in E; subst z1. simpl.
    assert (existsb (Reqb z) us = false) as ->.
    { destruct (existsb _ _) eqn:E2; auto. apply existsb_exists in E2. destruct E2 as [z2 [H1 H2]].
      apply Reqb_true in H2; subst. rewrite Forall_forall in Hf. specialize (Hf z2 H1). lra. }
    rewrite app_nil_r. apply filter_ext_In. intros a _. destruct (Reqb (h_z (hp a)) z), (q a); auto.
  - simpl. rewrite filter_false; auto.
    intros a _. destruct (Reqb (h_z (hp a)) z1) eqn:E1; simpl; auto.
    apply Reqb_true in E1. rewrite E1. rewrite Reqb_sym, E. destruct (q a); auto.
Qed.

Lemma count_filter_plane hp l r :
  count_occ Nat.eq_dec (List.filter (fun r' => Reqb (h_z (hp r')) (h_z (hp r))) l) r = count_occ Nat.eq_dec l r.
Proof.
  induction l as [|a l IH]; simpl; auto.
  destruct (Reqb (h_z (hp a)) (h_z (hp r))) eqn:E; simpl; destruct (Nat.eq_dec a r); auto.
  subst. rewrite Reqb_refl in E. discriminate.
Qed.

Lemma zsort_spec hp us (q : ref -> bool) (P : Halo -> Prop) hs :
  StronglySorted Rlt us ->
  (forall z, In z us <-> exists r, In r hs /\ h_z (hp r) = z) ->
  (forall r, In r hs -> (q r = true <-> P (hp r))) ->
  plane_sorted_selection hp P hs (zsort hp us q hs).
Proof.
  intros Hs Hu Hq.
  assert (Hpl : forall z, List.filter (fun r => Reqb (h_z (hp r)) z) (zsort hp us q hs)
                = List.filter (fun r => Reqb (h_z (hp r)) z && q r) hs).
  { intros z. rewrite zsort_plane by auto. destruct (existsb (Reqb z) us) eqn:E; auto.
    symmetry. apply filter_false. intros a Ha. destruct (Reqb (h_z (hp a)) z) eqn:E2; auto.
    apply Reqb_true in E2. assert (In z us) by (apply Hu; eauto).
    assert (existsb (Reqb z) us = true) by (apply existsb_exists; exists z; split; auto; apply Reqb_refl).
    congruence. }
  assert (K1 : forall z, kept (fun r => h_z (hp r) = z) (zsort hp us q hs)
                 (List.filter (fun r => Reqb (h_z (hp r)) z) (zsort hp us q hs))).
  { intros z. apply kept_filter. intros. apply Reqb_true. }
  assert (K2 : forall z, kept (fun r => h_z (hp r) = z /\ P (hp r)) hs
                 (List.filter (fun r => Reqb (h_z (hp r)) z && q r) hs)).
  { intros z. apply kept_filter. intros a Ha. rewrite andb_true_iff, Reqb_true, Hq by auto. tauto. }
  constructor.
  - apply concat_sorted; auto.
  - intros z. eexists; split; [apply K1|]. rewrite Hpl. apply K2.
  - intros r.
    destruct (kept_count Nat.eq_dec _ _ _ r (K2 (h_z (hp r)))) as [C1 C2].
    split.
    + intros HP. rewrite <- C1 by auto. rewrite <- Hpl. symmetry. apply count_filter_plane.
    + intros HP Hin. apply C2; [tauto|]. rewrite <- Hpl. apply filter_In. split; auto. apply Reqb_refl.
Qed.

(** A plane-sorted selection is unique. *)
Lemma sorted_by_planes_eq (hp : heap) : forall l1 l2,
  StronglySorted (fun a b => h_z (hp a) <= h_z (hp b)) l1 ->
  StronglySorted (fun a b => h_z (hp a) <= h_z (hp b)) l2 ->
  (forall z, List.filter (fun r => Reqb (h_z (hp r)) z) l1 = List.filter (fun r => Reqb (h_z (hp r)) z) l2) ->
  l1 = l2.
Proof.
  induction l1 as [|a l1 IH]; intros l2 H1 H2 H.
  - destruct l2 as [|b l2]; auto. specialize (H (h_z (hp b))). simpl in H. rewrite Reqb_refl in H. discriminate.
  - destruct l2 as [|b l2].
    { specialize (H (h_z (hp a))). simpl in H. rewrite Reqb_refl in H. discriminate. }
    inversion H1 as [|? ? S1 F1]; subst. inversion H2 as [|? ? S2 F2]; subst.
    assert (Ein : forall l x z, In x (List.filter (fun r => Reqb (h_z (hp r)) z) l) <-> In x l /\ h_z (hp x) = z).
    { intros. rewrite filter_In, Reqb_true. tauto. }
    assert (Hab : h_z (hp a) = h_z (hp b)).
    { apply Rle_antisym.
      - assert (Hb : In b (a :: l1)).
        { apply (Ein _ b (h_z (hp b))). rewrite H. apply Ein. split; [left|]; auto. }
        destruct Hb as [->|Hb]; [lra|]. rewrite Forall_forall in F1. auto.
      - assert (Ha : In a (b :: l2)).
        { apply (Ein _ a (h_z (hp a))). rewrite <- H. apply Ein. split; [left|]; auto. }
        destruct Ha as [->|Ha]; [lra|]. rewrite Forall_forall in F2. auto. }
    assert (Ea := H (h_z (hp a))). simpl in Ea. rewrite Reqb_refl, Hab, Reqb_refl in Ea.
    injection Ea as -> _. f_equal. apply IH; auto.
    intros z. specialize (H z). simpl in H. destruct (Reqb (h_z (hp b)) z); [injection H; auto|auto].
Qed.

Lemma pss_unique hp P hs l1 l2 :
  plane_sorted_selection hp P hs l1 -> plane_sorted_selection hp P hs l2 -> l1 = l2.
Proof.
  intros [S1 P1 _] [S2 P2 _]. apply (sorted_by_planes_eq hp); auto.
  intros z. destruct (P1 z) as [p1 [A1 B1]], (P2 z) as [p2 [A2 B2]].
  assert (p1 = p2) by (eapply kept_fun; eauto). subst.
  transitivity p2.
  - eapply kept_fun; [|exact A1]. apply kept_filter. intros; apply Reqb_true.
  - symmetry. eapply kept_fun; [|exact A2]. apply kept_filter. intros; apply Reqb_true.
Qed.

(* ---------- the cut ---------- *)
Lemma w_eff_spec DC zs g wmin z : w_eff zs DC g wmin z = spec_weight DC zs g wmin z.
Proof.
  unfold w_eff, spec_weight, np_clip. destruct g; auto. cbv zeta.
  set (w0 := DC z * (DC zs - DC z) / (DC zs / 2) ^ 2).
  unfold Rmax; destruct (Rle_dec w0 wmin); unfold Rmin;
  match goal with |- context [Rle_dec ?a ?b] => destruct (Rle_dec a b) end;
  repeat match goal with |- context [Rlt_dec ?a ?b] => destruct (Rlt_dec a b) end; lra.
Qed.

Lemma kpc_distance a b k : sqrt ((a * k) ^ 2 + (b * k) ^ 2) = sqrt (a ^ 2 + b ^ 2) * Rabs k.
Proof.
  replace ((a * k) ^ 2 + (b * k) ^ 2) with ((a ^ 2 + b ^ 2) * k ^ 2) by ring.
  rewrite sqrt_mult_alt by (apply Rplus_le_le_0_compat; apply pow2_ge_0).
  replace (k ^ 2) with (Rsqr k) by (unfold Rsqr; ring). rewrite sqrt_Rsqr_abs. reflexivity.
Qed.

Lemma ray_hit_spec zs DC u ap g wmin h fx fy :
  u <> OtherUnits ->
  ray_hit zs DC u ap g wmin (h_x h) (h_y h) (h_z h) (fx, fy) = true <->
  ray_distance DC u h fx fy <= ap * spec_weight DC zs g wmin (h_z h).
Proof.
  intros Hu. unfold ray_hit, ray_distance, dist2. simpl fst. simpl snd. rewrite w_eff_spec.
  destruct u; [| |congruence]; rewrite Rleb_true; [tauto|].
  set (dx := h_x h - fx (DC (h_z h))). set (dy := h_y h - fy (DC (h_z h))).
  replace (dx * ARCSEC_TO_RAD * DC (h_z h) * 1000) with (dx * (ARCSEC_TO_RAD * DC (h_z h) * 1000)) by ring.
  replace (dy * ARCSEC_TO_RAD * DC (h_z h) * 1000) with (dy * (ARCSEC_TO_RAD * DC (h_z h) * 1000)) by ring.
  rewrite kpc_distance. rewrite !Rabs_mult.
  replace (Rabs ARCSEC_TO_RAD) with (PI / (180 * 3600)).
  2:{ unfold ARCSEC_TO_RAD. rewrite Rabs_pos_eq; auto. apply Rmult_le_pos; [pose proof PI_RGT_0; lra|].
      left. apply Rinv_0_lt_compat. lra. }
  rewrite (Rabs_pos_eq 1000) by lra.
  split; intros H; eapply Rle_trans; [|exact H| |exact H]; right; ring.
Qed.

Lemma combine_nth_error {A B} (l1 : list A) (l2 : list B) x :
  In x (combine l1 l2) <-> exists i, nth_error l1 i = Some (fst x) /\ nth_error l2 i = Some (snd x).
Proof.
  revert l2; induction l1 as [|a l1 IH]; intros [|b l2]; simpl.
  - split; [tauto|]. intros [i [H _]]. destruct i; discriminate.
  - split; [tauto|]. intros [i [H _]]. destruct i; discriminate.
  - split; [tauto|]. intros [i [_ H]]. destruct i; discriminate.
  - rewrite IH. split.
    + intros [<-|[i H]]; [exists 0%nat; auto|exists (S i); auto].
    + intros [[|i] H]; simpl in H; [left|right; eauto]. destruct H as [H1 H2].
      destruct x; simpl in *; congruence.
Qed.

Lemma filter_mask_sync (thr : R) hit (hp : heap) (hs : list ref) :
  filter_mask thr hit (map (fun r => h_mass (hp r)) hs) (map (fun r => h_x (hp r)) hs)
              (map (fun r => h_y (hp r)) hs) (map (fun r => h_z (hp r)) hs)
  = map (fun r => if Rleb thr (Rabs (h_mass (hp r))) then true
                  else hit (h_x (hp r)) (h_y (hp r)) (h_z (hp r))) hs.
Proof. induction hs as [|a l IH]; simpl; auto. rewrite IH; auto. Qed.

Lemma existsb_false {A} (p : A -> bool) l : existsb p l = false -> forall a, In a l -> p a = false.
Proof.
  intros H a Ha. destruct (p a) eqn:E; auto.
  assert (existsb p l = true) by (apply existsb_exists; eauto). congruence.
Qed.

Lemma filter_lemma zs DC hp rz ap lm rx ry u g wmin :
  in_sync hp rz -> List.length rx = List.length ry -> rx <> [] -> u <> OtherUnits ->
  exists rz', rfilter zs DC hp rz ap lm rx ry u g wmin = Ok rz' /\
    plane_sorted_selection hp (passes_cut DC zs ap lm rx ry u g wmin) (rz_halos rz) (rz_halos rz') /\
    in_sync hp rz' /\ same_setup rz rz' /\ rz_shifted rz' = false.
Proof.
  intros Hs Hl Hne Hu.
  destruct Hs as [S1 S2 S3 S4 S5 S6 S7].
  unfold rfilter. rewrite S1, S2, S3, S4.
  set (need := existsb _ _).
  assert (Hrays : exists rays, (if need then
                  match rx, ry with
                  | [], _ => Err EValueError
                  | _, [] => Err EValueError
                  | _, _ => do rays <- bcast rx ry;
                            match u with OtherUnits => Err EException | _ => Ok rays end
                  end
                else Ok []) = Ok rays /\ (need = true -> rays = combine rx ry)).
  { destruct need.
    - destruct rx as [|f rx]; [congruence|]. destruct ry as [|f' ry]; [discriminate|].
      exists (combine (f :: rx) (f' :: ry)). split; auto. unfold bcast. rewrite Hl, Nat.eqb_refl. simpl.
      destruct u; auto; congruence.
    - exists []. split; auto; discriminate. }
  destruct Hrays as [rays [-> Hr]]. cbn [bind].
  rewrite filter_mask_sync.
  set (q := fun r => if Rleb (Rpower 10 lm) (Rabs (h_mass (hp r))) then true else _).
  rewrite (mapM_Ok _ (fun z => List.filter (fun r => Reqb (h_z (hp r)) z && q r) (rz_halos rz))).
  2:{ intros z _. apply plane_select_lemma; auto. }
  cbn [bind]. eexists; split; [reflexivity|].
  assert (Hq : forall r, In r (rz_halos rz) -> (q r = true <-> passes_cut DC zs ap lm rx ry u g wmin (hp r))).
  { intros r Hr1. unfold q, passes_cut.
    destruct (Rleb (Rpower 10 lm) (Rabs (h_mass (hp r)))) eqn:E.
    - apply Rleb_true in E. tauto.
    - assert (need = true).
      { apply existsb_exists. exists (h_mass (hp r)). split; [apply in_map_iff; eauto|]. rewrite E; auto. }
      rewrite Hr by auto. apply Rleb_false in E. rewrite existsb_exists. split.
      + intros [[fx fy] [H1 H2]]. right. apply combine_nth_error in H1. destruct H1 as [i [H3 H4]].
        exists i, fx, fy. simpl in *. repeat split; auto. apply ray_hit_spec in H2; auto.
      + intros [H1|[i [fx [fy [H1 [H2 H3]]]]]]; [lra|]. exists (fx, fy). split.
        * apply combine_nth_error. eauto.
        * apply ray_hit_spec; auto. }
  split; [|split; [apply from_halos_sync|split; [repeat split|reflexivity]]].
  simpl rz_halos. exact (zsort_spec hp (rz_uniq rz) q _ (rz_halos rz) S6 S7 Hq).
Qed.

Lemma filter_units_lemma zs DC hp rz ap lm rx ry g wmin :
  in_sync hp rz -> List.length rx = List.length ry -> rx <> [] ->
  (rfilter zs DC hp rz ap lm rx ry OtherUnits g wmin = Err EException <->
   exists r, In r (rz_halos rz) /\ Rabs (h_mass (hp r)) < Rpower 10 lm).
Proof.
  intros Hs Hl Hne. destruct Hs as [S1 S2 S3 S4 S5 S6 S7].
  unfold rfilter. rewrite S1, S2, S3, S4.
  set (need := existsb _ _).
  assert (Hn : need = true <-> exists r, In r (rz_halos rz) /\ Rabs (h_mass (hp r)) < Rpower 10 lm).
  { unfold need. rewrite existsb_exists. split.
    - intros [m [H1 H2]]. apply in_map_iff in H1. destruct H1 as [r [<- H1]]. exists r. split; auto.
      apply negb_true_iff, Rleb_false in H2. auto.
    - intros [r [H1 H2]]. exists (h_mass (hp r)). split; [apply in_map_iff; eauto|].
      apply negb_true_iff, Rleb_false. auto. }
  rewrite <- Hn. destruct need.
  - destruct rx as [|f rx]; [congruence|]. destruct ry as [|f' ry]; [discriminate|].
    unfold bcast. rewrite Hl, Nat.eqb_refl. simpl. tauto.
  - cbn [bind]. rewrite filter_mask_sync.
    rewrite (mapM_Ok _ (fun z => List.filter (fun r => Reqb (h_z (hp r)) z &&
               (fun r => if Rleb (Rpower 10 lm) (Rabs (h_mass (hp r))) then true else
                 existsb (ray_hit zs DC OtherUnits ap g wmin (h_x (hp r)) (h_y (hp r)) (h_z (hp r))) []) r) (rz_halos rz))).
    + simpl. split; discriminate.
    + intros z _. apply plane_select_lemma; auto.
Qed.

(* ---------- C03 ---------- *)
Lemma kept_filter_eq {A} (P : A -> Prop) (p : A -> bool) l l' :
  (forall a, p a = true <-> P a) -> kept P l l' -> l' = List.filter p l.
Proof. intros H K. eapply kept_fun; [exact K|]. apply kept_filter. intros; apply H. Qed.

Lemma pss_idem hp P hs l : plane_sorted_selection hp P hs l -> plane_sorted_selection hp P l l.
Proof.
  intros [S1 P1 C1].
  assert (HP : forall r, In r l -> P (hp r)).
  { intros r Hr. destruct (P1 (h_z (hp r))) as [pl [K1 K2]].
    assert (In r pl) by (apply (kept_In _ _ _ _ K1); auto).
    apply (kept_In _ _ _ _ K2) in H. tauto. }
  constructor; auto.
  - intros z. destruct (P1 z) as [pl [K1 K2]]. exists pl. split; auto.
    eapply kept_ext; [|exact K1]. intros a Ha. specialize (HP a Ha). simpl. tauto.
Qed.
Lemma filter_idem_lemma zs DC hp rz ap lm rx ry u g wmin rz1 :
  in_sync hp rz -> List.length rx = List.length ry -> rx <> [] -> u <> OtherUnits ->
  rfilter zs DC hp rz ap lm rx ry u g wmin = Ok rz1 ->
  exists rz2, rfilter zs DC hp rz1 ap lm rx ry u g wmin = Ok rz2 /\ rz_halos rz2 = rz_halos rz1.
Proof.
  intros Hs Hl Hne Hu H1.
  destruct (filter_lemma zs DC hp rz ap lm rx ry u g wmin Hs Hl Hne Hu) as [rz' [E [H2 [H3 _]]]].
  rewrite E in H1; injection H1 as ->.
  destruct (filter_lemma zs DC hp rz1 ap lm rx ry u g wmin H3 Hl Hne Hu) as [rz2 [E2 [H4 _]]].
  exists rz2; split; auto.
  eapply pss_unique; [exact H4|]. eapply pss_idem; eauto.
Qed.

Lemma spec_weight_nonneg DC zs g wmin z : 0 <= wmin -> 0 <= spec_weight DC zs g wmin z.
Proof.
  intros. unfold spec_weight. destruct g; [|lra].
  repeat match goal with |- context [Rlt_dec ?a ?b] => destruct (Rlt_dec a b) end; lra.
Qed.
Lemma Rpower10_le a b : a <= b -> Rpower 10 a <= Rpower 10 b.
Proof. intros; apply Rle_Rpower; lra. Qed.
Lemma filter_mono_lemma zs DC hp rz ap ap' lm lm' rx ry u g wmin rz1 rz2 :
  in_sync hp rz -> List.length rx = List.length ry -> rx <> [] -> u <> OtherUnits ->
  0 <= wmin -> ap <= ap' -> lm' <= lm ->
  rfilter zs DC hp rz ap lm rx ry u g wmin = Ok rz1 ->
  rfilter zs DC hp rz ap' lm' rx ry u g wmin = Ok rz2 ->
  forall r, In r (rz_halos rz1) -> In r (rz_halos rz2).
Proof.
  intros Hs Hl Hne Hu Hw Ha Hm H1 H2 r Hr.
  destruct (filter_lemma zs DC hp rz ap lm rx ry u g wmin Hs Hl Hne Hu) as [? [E [P1 _]]].
  rewrite E in H1; injection H1 as ->.
  destruct (filter_lemma zs DC hp rz ap' lm' rx ry u g wmin Hs Hl Hne Hu) as [? [E2 [P2 _]]].
  rewrite E2 in H2; injection H2 as ->.
  assert (HP : In r (rz_halos rz) /\ passes_cut DC zs ap lm rx ry u g wmin (hp r)).
  { destruct (pss_plane _ _ _ _ P1 (h_z (hp r))) as [pl [K1 K2]].
    assert (In r pl) by (apply (kept_In _ _ _ _ K1); auto). apply (kept_In _ _ _ _ K2) in H. tauto. }
  destruct HP as [Hin HP].
  assert (HP' : passes_cut DC zs ap' lm' rx ry u g wmin (hp r)).
  { destruct HP as [HP|[i [fx [fy [H3 [H4 H5]]]]]].
    - left. pose proof (Rpower10_le _ _ Hm). lra.
    - right. exists i, fx, fy. repeat split; auto.
      pose proof (spec_weight_nonneg DC zs g wmin (h_z (hp r)) Hw).
      assert (ap * spec_weight DC zs g wmin (h_z (hp r)) <= ap' * spec_weight DC zs g wmin (h_z (hp r)))
        by (apply Rmult_le_compat_r; auto). lra. }
  destruct (pss_plane _ _ _ _ P2 (h_z (hp r))) as [pl [K1 K2]].
  assert (In r pl) by (apply (kept_In _ _ _ _ K2); auto).
  apply (kept_In _ _ _ _ K1) in H. tauto.
Qed.

(* ---------- C04 ---------- *)
Lemma fsub_mask_sync ap thr cs (hp : heap) (hs : list ref) :
  fsub_mask ap thr cs (map (fun r => h_mass (hp r)) hs) (map (fun r => h_x (hp r)) hs)
            (map (fun r => h_y (hp r)) hs) (map (fun r => h_sub (hp r)) hs)
  = map (fun r => negb (h_sub (hp r)) || Rltb thr (Rabs (h_mass (hp r)))
       || existsb (fun p => Rltb (sqrt ((h_x (hp r) - fst p) ^ 2 + (h_y (hp r) - snd p) ^ 2)) ap) cs) hs.
Proof. induction hs as [|a l IH]; simpl; auto. rewrite IH; auto. Qed.

Lemma filter_subhalos_lemma hp rz ap lm cs :
  in_sync hp rz ->
  exists rz', filter_subhalos hp rz ap lm cs = Ok rz' /\
    kept (fun r => h_sub (hp r) = false \/ Rpower 10 lm < Rabs (h_mass (hp r)) \/
                   exists x y, In (x, y) cs /\ dist2 (h_x (hp r)) (h_y (hp r)) x y < ap)
         (rz_halos rz) (rz_halos rz') /\ in_sync hp rz' /\ same_setup rz rz' /\ rz_shifted rz' = false.
Proof.
  intros [S1 S2 S3 S4 S5 S6 S7]. unfold filter_subhalos. rewrite S1, S2, S3, S5, fsub_mask_sync, pick_where.
  simpl. eexists; split; [reflexivity|]. simpl.
  split; [|split; [apply from_halos_sync|split; [repeat split|reflexivity]]].
  apply kept_filter. intros r _. rewrite !orb_true_iff, negb_true_iff, Rltb_true, existsb_exists. unfold dist2. split.
  - intros [[H|H]|[[x y] [H1 H2]]]; auto. right; right. apply Rltb_true in H2. simpl in H2. eauto.
  - intros [H|[H|[x [y [H1 H2]]]]]; auto. right. exists (x, y). split; auto. apply Rltb_true. auto.
Qed.

(* ---------- C05 ---------- *)
Lemma fbm_loop_ok hp m hs :
  (forall r, In r hs -> h_sub (hp r) = true -> h_bound (hp r) <> None) ->
  fbm_loop hp m hs = Ok (List.filter (fun r => if h_sub (hp r) then match h_bound (hp r) with Some b => Rleb m b | None => false end else true) hs).
Proof.
  induction hs as [|a l IH]; simpl; intros H; auto.
  rewrite IH by (intros; apply H; auto).
  destruct (h_sub (hp a)) eqn:E; simpl; auto.
  destruct (h_bound (hp a)) eqn:E2; [|exfalso; apply (H a); auto].
  simpl. destruct (Rleb m r); auto.
Qed.
Lemma fbm_loop_err hp m hs :
  (exists r, In r hs /\ h_sub (hp r) = true /\ h_bound (hp r) = None) -> is_err (fbm_loop hp m hs).
Proof.
  induction hs as [|a l IH]; simpl; intros [r [H1 [H2 H3]]]; [tauto|].
  destruct H1 as [->|H1].
  - rewrite H2, H3. eexists; eauto.
  - destruct IH as [e He]; [eauto|]. rewrite He.
    destruct (h_sub (hp a)); [destruct (h_bound (hp a))|]; simpl; eexists; eauto.
Qed.

Lemma filter_bound_lemma hp rz m :
  ((forall r, In r (rz_halos rz) -> h_sub (hp r) = true -> h_bound (hp r) <> None) ->
   exists rz', filter_bound_mass hp rz m = Ok rz' /\
     kept (fun r => h_sub (hp r) = true -> exists b, h_bound (hp r) = Some b /\ m <= b) (rz_halos rz) (rz_halos rz') /\
     rz_shifted rz' = rz_shifted rz /\ in_sync hp rz' /\ same_setup rz rz') /\
  (is_err (filter_bound_mass hp rz m) <->
   exists r, In r (rz_halos rz) /\ h_sub (hp r) = true /\ h_bound (hp r) = None).
Proof.
  assert (A : (forall r, In r (rz_halos rz) -> h_sub (hp r) = true -> h_bound (hp r) <> None) ->
   exists rz', filter_bound_mass hp rz m = Ok rz' /\
     kept (fun r => h_sub (hp r) = true -> exists b, h_bound (hp r) = Some b /\ m <= b) (rz_halos rz) (rz_halos rz') /\
     rz_shifted rz' = rz_shifted rz /\ in_sync hp rz' /\ same_setup rz rz').
  { intros H. unfold filter_bound_mass. rewrite fbm_loop_ok by auto. simpl. eexists; split; [reflexivity|]. simpl.
    split; [|split; [reflexivity|split]].
    - apply kept_filter. intros a Ha. specialize (H a Ha).
      destruct (h_sub (hp a)); [|split; auto; discriminate].
      destruct (h_bound (hp a)) as [b|]; [|exfalso; apply H; auto].
      rewrite Rleb_true. split; [eauto|]. intros H1. destruct (H1 eq_refl) as [b' [H2 H3]]. congruence.
    - destruct (from_halos_sync hp (List.filter (fun r => if h_sub (hp r) then match h_bound (hp r) with Some b => Rleb m b | None => false end else true) (rz_halos rz)) (rz_sheet rz) (rz_classes rz) (rz_cx rz) (rz_cy rz)); constructor; auto.
    - repeat split. }
  split; auto. split.
  - intros [e He].
    destruct (existsb (fun r => h_sub (hp r) && match h_bound (hp r) with None => true | _ => false end) (rz_halos rz)) eqn:E.
    + apply existsb_exists in E. destruct E as [r [H1 H2]]. apply andb_true_iff in H2. destruct H2 as [H2 H3].
      exists r; repeat split; auto. destruct (h_bound (hp r)); [discriminate|auto].
    + destruct A as [rz' [H _]]; [|congruence]. intros r H1 H2 H3.
      pose proof (existsb_false _ _ E r H1) as H4. simpl in H4. rewrite H2, H3 in H4. discriminate.
  - intros H. apply (fbm_loop_err hp m) in H. destruct H as [e He]. unfold filter_bound_mass. rewrite He. eexists; reflexivity.
Qed.

(* ---------- C06 ---------- *)
Lemma zmem_true t l : zmem t l = true <-> In t l.
Proof.
  unfold zmem. rewrite existsb_exists. split.
  - intros [x [H1 H2]]. apply Z.eqb_eq in H2; subst; auto.
  - intros; exists t; split; auto. apply Z.eqb_refl.
Qed.

Definition join_hs (hp : heap) (A B : list ref) : list ref :=
  let short := if (List.length B <=? List.length A)%nat then B else A in
  let long := if (List.length B <=? List.length A)%nat then A else B in
  short ++ List.filter (fun r => negb (zmem (h_tag (hp r)) (tags hp short))) long.
Lemma join_halos hp a b c : rz_halos (join hp a b c) = join_hs hp (rz_halos a) (rz_halos b).
Proof.
  unfold join, join_hs. unfold tags at 1 2. rewrite !map_length.
  destruct (List.length (rz_halos b) <=? List.length (rz_halos a))%nat; reflexivity.
Qed.
Lemma tags_nodup_inj hp l r s : NoDup (tags hp l) -> In r l -> In s l -> h_tag (hp r) = h_tag (hp s) -> r = s.
Proof.
  induction l as [|a l IH]; simpl; [tauto|]. intros H. inversion H; subst.
  intros [->|H1] [->|H2'] E; auto.
  - exfalso. apply H2. rewrite E. apply (in_map (fun r => h_tag (hp r))); auto.
  - exfalso. apply H2. rewrite <- E. apply (in_map (fun r => h_tag (hp r))); auto.
Qed.
Lemma NoDup_app_intro {A} (l1 l2 : list A) :
  NoDup l1 -> NoDup l2 -> (forall a, In a l1 -> ~ In a l2) -> NoDup (l1 ++ l2).
Proof.
  induction 1 as [|a l1 Hn H IH]; simpl; intros H2 Hd; auto. constructor.
  - rewrite in_app_iff. intros [H3|H3]; [auto|]. apply (Hd a); auto.
  - apply IH; auto.
Qed.
Lemma NoDup_map_filter {A B} (f : A -> B) p l : NoDup (map f l) -> NoDup (map f (List.filter p l)).
Proof.
  induction l as [|a l IH]; simpl; intros H; auto. inversion H; subst.
  destruct (p a); simpl; auto. constructor; auto. intros Hin. apply H2.
  apply in_map_iff in Hin. destruct Hin as [x [Hx Hx2]]. apply filter_In in Hx2. rewrite <- Hx. apply in_map; tauto.
Qed.

Lemma in_tags (hp : heap) (l : list ref) r : In r l -> In (h_tag (hp r)) (map (fun r => h_tag (hp r)) l).
Proof. apply (in_map (fun r => h_tag (hp r))). Qed.
Lemma join_gen hp S L :
  NoDup (tags hp S) -> NoDup (tags hp L) ->
  let out := S ++ List.filter (fun r => negb (zmem (h_tag (hp r)) (tags hp S))) L in
  NoDup (tags hp out) /\ (forall r, In r out -> In r S \/ In r L) /\
  (forall t, In t (tags hp out) <-> In t (tags hp S) \/ In t (tags hp L)) /\
  (List.length out + List.length (List.filter (fun t => zmem t (tags hp S)) (tags hp L)) =
   List.length S + List.length L)%nat.
Proof.
  intros HS HL out. split; [|split; [|split]].
  - unfold out, tags. rewrite map_app. apply NoDup_app_intro; auto.
    + apply NoDup_map_filter; auto.
    + intros t Ht Hf. apply in_map_iff in Hf. destruct Hf as [r [<- Hr]]. apply filter_In in Hr.
      destruct Hr as [_ Hr]. apply negb_true_iff in Hr.
      rewrite (proj2 (zmem_true _ _) Ht) in Hr. discriminate.
  - intros r Hr. unfold out in Hr. apply in_app_iff in Hr. destruct Hr as [Hr|Hr]; auto.
    apply filter_In in Hr. tauto.
  - intros t. unfold out, tags. rewrite map_app, in_app_iff. split.
    + intros [H|H]; auto. apply in_map_iff in H. destruct H as [r [<- Hr]]. apply filter_In in Hr.
      right. apply in_tags; tauto.
    + intros [H|H]; auto. destruct (zmem t (map (fun r => h_tag (hp r)) S)) eqn:E.
      * left. apply zmem_true; auto.
      * right. apply in_map_iff in H. destruct H as [r [<- Hr]]. apply in_tags. apply filter_In.
        split; auto. rewrite E. auto.
  - unfold out. rewrite app_length. change (tags hp L) with (map (fun r => h_tag (hp r)) L). rewrite filter_map_comm, map_length.
    pose proof (filter_negb_length (fun r => zmem (h_tag (hp r)) (tags hp S)) L). lia.
Qed.

Lemma filter_mem_swap hp A B :
  NoDup (tags hp A) -> NoDup (tags hp B) ->
  List.length (List.filter (fun t => zmem t (tags hp A)) (tags hp B))
  = List.length (List.filter (fun t => zmem t (tags hp B)) (tags hp A)).
Proof.
  intros HA HB. apply Permutation_length. apply NoDup_Permutation.
  - apply NoDup_filter; auto.
  - apply NoDup_filter; auto.
  - intros t. rewrite !filter_In, !zmem_true. tauto.
Qed.

Lemma join_lemma hp a b c :
  tags_distinct hp a -> tags_distinct hp b ->
  let j := join hp a b c in
  tags_distinct hp j /\
  (forall t, tag_in hp t j <-> tag_in hp t a \/ tag_in hp t b) /\
  (forall r, In r (rz_halos j) -> In r (rz_halos a) \/ In r (rz_halos b)) /\
  (forall common, NoDup common -> (forall t, In t common <-> tag_in hp t a /\ tag_in hp t b) ->
     List.length (rz_halos j) + List.length common = List.length (rz_halos a) + List.length (rz_halos b))%nat /\
  rz_classes j = (if c then rz_classes a ++ rz_classes b else rz_classes a) /\
  rz_shifted j = false /\ in_sync hp j.
Proof.
  intros HA HB j.
  assert (Htag : forall t rz, tag_in hp t rz <-> In t (tags hp (rz_halos rz))).
  { intros. unfold tag_in, tags. rewrite in_map_iff. split; intros [r [H1 H2]]; eauto. }
  assert (Hj : rz_halos j = join_hs hp (rz_halos a) (rz_halos b)) by apply join_halos.
  assert (G : NoDup (tags hp (rz_halos j)) /\
     (forall r, In r (rz_halos j) -> In r (rz_halos a) \/ In r (rz_halos b)) /\
     (forall t, In t (tags hp (rz_halos j)) <-> In t (tags hp (rz_halos a)) \/ In t (tags hp (rz_halos b))) /\
     (List.length (rz_halos j) + List.length (List.filter (fun t => zmem t (tags hp (rz_halos a))) (tags hp (rz_halos b)))
       = List.length (rz_halos a) + List.length (rz_halos b))%nat).
  { rewrite Hj. unfold join_hs.
    destruct (List.length (rz_halos b) <=? List.length (rz_halos a))%nat.
    - destruct (join_gen hp (rz_halos b) (rz_halos a) HB HA) as [G1 [G2 [G3 G4]]].
      split; [auto|split; [|split]].
      + intros r Hr. apply G2 in Hr. tauto.
      + intros t. rewrite G3. tauto.
      + rewrite filter_mem_swap by auto. lia.
    - destruct (join_gen hp (rz_halos a) (rz_halos b) HA HB) as [G1 [G2 [G3 G4]]].
      split; [auto|split; [|split]]; auto. }
  destruct G as [G1 [G2 [G3 G4]]].
  split; [exact G1|]. split; [intros t; rewrite !Htag; apply G3|].
  split; [exact G2|]. split; [|split; [|split]].
  - intros common Hc Hin.
    assert (List.length common = List.length (List.filter (fun t => zmem t (tags hp (rz_halos a))) (tags hp (rz_halos b)))).
    { apply Permutation_length, NoDup_Permutation; auto.
      - apply NoDup_filter; auto.
      - intros t. rewrite Hin, filter_In, zmem_true, !Htag. tauto. }
    lia.
  - unfold j, join. destruct (_ <=? _)%nat; destruct c; reflexivity.
  - unfold j, join. destruct (_ <=? _)%nat; destruct c; reflexivity.
  - unfold j, join. destruct (_ <=? _)%nat; apply from_halos_sync.
Qed.

Lemma join_part_lemma hp a b c :
  tags_distinct hp a -> tags_distinct hp b ->
  (forall r, In r (rz_halos b) -> In r (rz_halos a)) ->
  Permutation (rz_halos (join hp a b c)) (rz_halos a).
Proof.
  intros HA HB Hsub. destruct (join_lemma hp a b c HA HB) as [G1 [G2 [G3 _]]].
  apply NoDup_Permutation.
  - eapply NoDup_map_inv; exact G1.
  - eapply NoDup_map_inv; exact HA.
  - intros r. split.
    + intros Hr. destruct (G3 r Hr); auto.
    + intros Hr. assert (Ht : tag_in hp (h_tag (hp r)) (join hp a b c)) by (apply G2; left; exists r; auto).
      destruct Ht as [s [Hs Es]]. assert (Hs2 : In s (rz_halos a)) by (destruct (G3 s Hs); auto).
      replace r with s; auto. apply (tags_nodup_inj hp (rz_halos a)); auto.
Qed.

(* ---------- C07 ---------- *)
Lemma split_lemma hp rz z :
  let '(a, b) := split_at_z hp rz z in
  kept (fun r => h_z (hp r) <= z) (rz_halos rz) (rz_halos a) /\
  kept (fun r => z < h_z (hp r)) (rz_halos rz) (rz_halos b) /\
  Permutation (rz_halos a ++ rz_halos b) (rz_halos rz) /\
  in_sync hp a /\ in_sync hp b /\ same_setup rz a /\ same_setup rz b /\
  rz_shifted a = false /\ rz_shifted b = false.
Proof.
  simpl. repeat split; try apply from_halos_sync.
  - apply kept_filter. intros; apply Rleb_true.
  - apply kept_filter. intros; rewrite negb_true_iff. apply Rleb_false.
  - apply Permutation_sym, filter_negb_perm.
Qed.

Lemma kept_sub {A} (P : A -> Prop) l l' a : kept P l l' -> In a l' -> In a l.
Proof. intros K H. apply (kept_In _ _ _ _ K) in H. tauto. Qed.
Lemma kept_nodup_map {A B} (f : A -> B) (P : A -> Prop) l l' : kept P l l' -> NoDup (map f l) -> NoDup (map f l').
Proof.
  induction 1 as [|a l l' HP K IH|a l l' HP K IH]; simpl; intros H; auto; inversion H; subst; auto.
  constructor; auto. intros Hin. apply H2. apply in_map_iff in Hin. destruct Hin as [x [E Hx]].
  rewrite <- E. apply in_map. eapply kept_sub; eauto.
Qed.
Lemma split_rejoin_lemma hp rz z c :
  tags_distinct hp rz ->
  let '(a, b) := split_at_z hp rz z in Permutation (rz_halos (join hp a b c)) (rz_halos rz).
Proof.
  intros H. pose proof (split_lemma hp rz z) as S. destruct (split_at_z hp rz z) as [a b].
  destruct S as [K1 [K2 [Pm _]]].
  assert (HA : tags_distinct hp a) by (eapply kept_nodup_map; eauto).
  assert (HB : tags_distinct hp b) by (eapply kept_nodup_map; eauto).
  destruct (join_lemma hp a b c HA HB) as [G1 [G2 [G3 _]]].
  apply NoDup_Permutation.
  - eapply NoDup_map_inv; exact G1.
  - eapply NoDup_map_inv; exact H.
  - intros r. split.
    + intros Hr. destruct (G3 r Hr); [apply (kept_sub _ _ _ _ K1)|apply (kept_sub _ _ _ _ K2)]; auto.
    + intros Hr. assert (Hab : In r (rz_halos a) \/ In r (rz_halos b)).
      { apply in_app_iff. eapply Permutation_in; [apply Permutation_sym; exact Pm|auto]. }
      assert (Ht : tag_in hp (h_tag (hp r)) (join hp a b c)).
      { apply G2. destruct Hab; [left|right]; exists r; auto. }
      destruct Ht as [s [Hs Es]]. replace r with s; auto.
      apply (tags_nodup_inj hp (rz_halos rz)); [exact H| | auto | auto].
      destruct (G3 s Hs); [apply (kept_sub _ _ _ _ K1)|apply (kept_sub _ _ _ _ K2)]; auto.
Qed.

(* ---------- C08 ---------- *)
Lemma count_if_length p hs : count_if p hs = List.length (List.filter p hs).
Proof. induction hs as [|a l IH]; simpl; auto. destruct (p a); simpl; lia. Qed.
Lemma counts_lemma hp rz z :
  (number_before hp rz z + number_at hp rz z + number_after hp rz z = List.length (rz_halos rz))%nat.
Proof.
  unfold number_before, number_at, number_after.
  induction (rz_halos rz) as [|a l IH]; simpl; auto.
  unfold Rltb, Reqb in *.
  destruct (Rlt_dec (h_z (hp a)) z), (Req_EM_T (h_z (hp a)) z), (Rlt_dec z (h_z (hp a))); try lra; lia.
Qed.
Lemma count_before_lemma hp rz z :
  exists l, kept (fun r => h_z (hp r) < z) (rz_halos rz) l /\ number_before hp rz z = List.length l.
Proof. eexists; split; [|apply count_if_length]. apply kept_filter. intros; apply Rltb_true. Qed.
Lemma count_after_lemma hp rz z :
  exists l, kept (fun r => z < h_z (hp r)) (rz_halos rz) l /\ number_after hp rz z = List.length l.
Proof. eexists; split; [|apply count_if_length]. apply kept_filter. intros; apply Rltb_true. Qed.
Lemma count_at_lemma hp rz z :
  exists l, kept (fun r => h_z (hp r) = z) (rz_halos rz) l /\ number_at hp rz z = List.length l.
Proof. eexists; split; [|apply count_if_length]. apply kept_filter. intros; apply Reqb_true. Qed.

Lemma halos_at_z_lemma hp rz z :
  kept (fun r => h_z (hp r) = z) (rz_halos rz) (fst (halos_at_z hp rz z)) /\
  StronglySorted lt (snd (halos_at_z hp rz z)) /\
  Forall2 (fun r i => nth_error (rz_halos rz) i = Some r) (fst (halos_at_z hp rz z)) (snd (halos_at_z hp rz z)).
Proof.
  unfold halos_at_z. rewrite halos_at_z_fst, halos_at_z_snd. split; [|split].
  - apply kept_filter. intros; apply Reqb_true.
  - apply where_from_sorted.
  - set (p := fun r => Reqb (h_z (hp r)) z). generalize (rz_halos rz) as hs.
    intros hs. change hs with ([] ++ hs) at 1. change 0%nat with (List.length (@nil ref)).
    generalize (@nil ref) as l1.
    induction hs as [|a hs IH]; simpl; intros l1; [constructor|].
    specialize (IH (l1 ++ [a])). rewrite <- app_assoc, app_length in IH. simpl in IH. rewrite Nat.add_1_r in IH.
    destruct (p a); auto. constructor; auto. rewrite nth_error_app2, Nat.sub_diag by lia. reflexivity.
Qed.

Lemma range_loop_lemma hp x y rmax (Q : ref -> nat -> Prop) : forall hs ix,
  Forall2 Q hs ix -> StronglySorted lt ix ->
  kept (fun r => dist2 (h_x (hp r)) (h_y (hp r)) x y < rmax) hs (fst (range_loop hp x y rmax hs ix)) /\
  StronglySorted lt (snd (range_loop hp x y rmax hs ix)) /\
  (forall i, In i (snd (range_loop hp x y rmax hs ix)) -> In i ix) /\
  Forall2 Q (fst (range_loop hp x y rmax hs ix)) (snd (range_loop hp x y rmax hs ix)).
Proof.
  induction hs as [|r hs IH]; intros ix F S; inversion F as [|? i ? ix' HQ F']; subst; simpl.
  - repeat split; auto; constructor.
  - inversion S as [|? ? S' Fa]; subst. specialize (IH _ F' S').
    destruct (range_loop hp x y rmax hs ix') as [h k]. simpl in IH. destruct IH as [K [S2 [I2 F2]]].
    destruct (Rltb _ rmax) eqn:E; simpl.
    + apply Rltb_true in E. repeat split; auto.
      * constructor; auto.
      * constructor; auto. apply Forall_forall. intros j Hj. rewrite Forall_forall in Fa. auto.
      * intros j [->|Hj]; auto.
    + apply Rltb_false in E. repeat split; auto. constructor; auto. apply Rle_not_lt. exact E.
Qed.

Lemma kept_compose {A} (P Q : A -> Prop) l l1 l2 : kept P l l1 -> kept Q l1 l2 -> kept (fun a => P a /\ Q a) l l2.
Proof.
  intros K; revert l2; induction K as [|a l l' HP K IH|a l l' HP K IH]; intros l2 K2.
  - inversion K2; constructor.
  - inversion K2; subst; [apply kept_take|apply kept_drop]; auto; tauto.
  - apply kept_drop; auto; tauto.
Qed.

Lemma realization_at_z_lemma hp rz z cut sheet :
  let '(rz', ix) := realization_at_z hp rz z cut sheet in
  kept (fun r => h_z (hp r) = z /\ match cut with Some (x, y, rmax) => dist2 (h_x (hp r)) (h_y (hp r)) x y < rmax | None => True end)
       (rz_halos rz) (rz_halos rz') /\
  StronglySorted lt ix /\
  Forall2 (fun r i => nth_error (rz_halos rz) i = Some r) (rz_halos rz') ix /\
  in_sync hp rz' /\ rz_sheet rz' = sheet /\ rz_shifted rz' = false.
Proof.
  unfold realization_at_z. destruct (halos_at_z_lemma hp rz z) as [K [S F]].
  destruct (halos_at_z hp rz z) as [hs ix]. simpl in *.
  destruct cut as [[[x y] rmax]|].
  - destruct (range_loop_lemma hp x y rmax _ hs ix F S) as [K2 [S2 [_ F2]]].
    destruct (range_loop hp x y rmax hs ix) as [hs' ix']. simpl in *.
    repeat split; auto; try apply from_halos_sync. eapply kept_compose; eauto.
  - repeat split; auto; try apply from_halos_sync. eapply kept_ext; [|exact K]. intros; simpl; tauto.
Qed.

(* ---------- C09 ---------- *)
Lemma bound_sum_spec (hp : heap) zl : forall hs,
  (forall r, In r hs -> h_z (hp r) = zl) ->
  (forall r, In r hs -> h_sub (hp r) = true -> h_bound (hp r) <> None) ->
  exists vs, Forall2 (fun r v => plane_mass zl (hp r) = Some v) hs vs /\ bound_sum hp hs = Ok (rsum vs).
Proof.
  induction hs as [|r t IH]; intros Hz Hb; [exists []; split; auto; constructor|].
  destruct IH as [vs [F E]]; [intros; apply Hz; right; auto|intros; apply Hb; auto; right; auto|].
  simpl. unfold plane_mass. pose proof (Hz r (or_introl eq_refl)) as Hr.
  destruct (h_sub (hp r)) eqn:Es.
  - destruct (h_bound (hp r)) as [b|] eqn:Eb; [|exfalso; apply (Hb r); auto; left; auto].
    rewrite E. exists (b :: vs). split; auto. constructor; auto. destruct (Req_EM_T (h_z (hp r)) zl); [|contradiction]. rewrite Es; auto.
  - rewrite E. exists (h_mass (hp r) :: vs). split; auto. constructor; auto.
    destruct (Req_EM_T (h_z (hp r)) zl); [|contradiction]. rewrite Es; auto.
Qed.
Lemma cached_sum_spec (hp : heap) z (hs : list ref) :
  cached_sum z (map (fun r => h_mass (hp r)) hs) (map (fun r => h_z (hp r)) hs)
  = rsum (map (fun r => h_mass (hp r)) (List.filter (fun r => Reqb (h_z (hp r)) z) hs)).
Proof. induction hs as [|a l IH]; simpl; auto. destruct (Reqb (h_z (hp a)) z); simpl; rewrite IH; lra. Qed.

Lemma mass_at_z_lemma zl hp rz z :
  in_sync hp rz ->
  (forall r, In r (rz_halos rz) -> h_sub (hp r) = true -> h_z (hp r) = zl -> h_bound (hp r) <> None) ->
  exists pl vs, kept (fun r => h_z (hp r) = z) (rz_halos rz) pl /\
    Forall2 (fun r v => plane_mass zl (hp r) = Some v) pl vs /\
    mass_at_z_exact zl hp rz z = Ok (rsum vs).
Proof.
  intros Hs Hb. unfold mass_at_z_exact. destruct (Reqb z zl) eqn:E.
  - apply Reqb_true in E; subst z. destruct (halos_at_z_lemma hp rz zl) as [K _].
    destruct (bound_sum_spec hp zl (fst (halos_at_z hp rz zl))) as [vs [F E2]].
    + intros r Hr. apply (kept_In _ _ _ _ K) in Hr. tauto.
    + intros r Hr Hs2. apply (kept_In _ _ _ _ K) in Hr. destruct Hr; apply Hb; auto.
    + exists (fst (halos_at_z hp rz zl)), vs. auto.
  - apply Reqb_false in E. rewrite (sync_mass _ _ Hs), (sync_z _ _ Hs), cached_sum_spec.
    set (pl := List.filter (fun r => Reqb (h_z (hp r)) z) (rz_halos rz)).
    exists pl, (map (fun r => h_mass (hp r)) pl). split; [|split; auto].
    + apply kept_filter; intros; apply Reqb_true.
    + assert (Hpl : forall r, In r pl -> h_z (hp r) <> zl).
      { intros r Hr. apply filter_In in Hr. destruct Hr as [_ Hr]. apply Reqb_true in Hr. congruence. }
      induction pl as [|r pl IH]; simpl; constructor.
      * unfold plane_mass. destruct (Req_EM_T (h_z (hp r)) zl); auto. exfalso. apply (Hpl r); auto. left; auto.
      * apply IH. intros; apply Hpl; right; auto.
Qed.

(* total over planes *)
Lemma zsort_perm hp us hs :
  StronglySorted Rlt us -> (forall r, In r hs -> In (h_z (hp r)) us) ->
  Permutation (zsort hp us (fun _ => true) hs) hs.
Proof.
  intros Hs Hin. rewrite (Permutation_count_occ Nat.eq_dec). intros r.
  rewrite <- (count_filter_plane hp (zsort _ _ _ _)). rewrite zsort_plane by auto.
  destruct (existsb (Reqb (h_z (hp r))) us) eqn:E.
  - erewrite filter_ext_In; [apply count_filter_plane|]. intros; simpl. apply andb_true_r.
  - simpl. symmetry. apply count_occ_not_In. intros Hr. apply Hin in Hr.
    assert (existsb (Reqb (h_z (hp r))) us = true) by (apply existsb_exists; eexists; split; eauto; apply Reqb_refl).
    congruence.
Qed.

Definition pm (zl : R) (h : Halo) : R := match plane_mass zl h with Some v => v | None => 0 end.
Lemma forall2_pm zl (hp : heap) : forall pl vs, Forall2 (fun r v => plane_mass zl (hp r) = Some v) pl vs -> vs = map (fun r => pm zl (hp r)) pl.
Proof. induction 1 as [|r v pl vs H F IH]; simpl; auto. unfold pm at 1. rewrite H, IH; auto. Qed.

Lemma mass_total_lemma zl hp rz :
  in_sync hp rz ->
  (forall r, In r (rz_halos rz) -> h_sub (hp r) = true -> h_z (hp r) = zl -> h_bound (hp r) <> None) ->
  exists ms vs, mapM (mass_at_z_exact zl hp rz) (rz_uniq rz) = Ok ms /\
    Forall2 (fun r v => plane_mass zl (hp r) = Some v) (rz_halos rz) vs /\ rsum ms = rsum vs.
Proof.
  intros Hs Hb.
  set (plane z := List.filter (fun r => Reqb (h_z (hp r)) z && true) (rz_halos rz)).
  assert (Hp : forall z, mass_at_z_exact zl hp rz z = Ok (rsum (map (fun r => pm zl (hp r)) (plane z)))).
  { intros z. destruct (mass_at_z_lemma zl hp rz z Hs Hb) as [pl [vs [K [F E]]]]. rewrite E. f_equal.
    rewrite (forall2_pm _ _ _ _ F). do 2 f_equal. eapply kept_fun; [exact K|]. apply kept_filter. intros.
    rewrite andb_true_r. apply Reqb_true. }
  exists (map (fun z => rsum (map (fun r => pm zl (hp r)) (plane z))) (rz_uniq rz)), (map (fun r => pm zl (hp r)) (rz_halos rz)).
  split; [apply mapM_Ok; auto|]. split.
  - assert (G : forall hs, (forall r, In r hs -> In r (rz_halos rz)) ->
      Forall2 (fun r v => plane_mass zl (hp r) = Some v) hs (map (fun r => pm zl (hp r)) hs)).
    { induction hs as [|r hs IH]; simpl; intros H; constructor.
      - unfold pm, plane_mass. assert (Hr := H r (or_introl eq_refl)).
        destruct (Req_EM_T (h_z (hp r)) zl); auto. destruct (h_sub (hp r)) eqn:E; auto.
        destruct (h_bound (hp r)) eqn:E2; auto. exfalso. eapply Hb; eauto.
      - apply IH. intros; apply H; right; auto. }
    apply G; auto.
  - assert (Pm : Permutation (zsort hp (rz_uniq rz) (fun _ => true) (rz_halos rz)) (rz_halos rz)).
    { apply zsort_perm; [apply (sync_uniq_sorted _ _ Hs)|]. intros r Hr. apply (sync_uniq _ _ Hs). eauto. }
    rewrite <- (rsum_perm _ _ (Permutation_map (fun r => pm zl (hp r)) Pm)).
    unfold zsort, plane. generalize (rz_uniq rz). induction l as [|z l IH]; simpl; auto.
    rewrite map_app, rsum_app, IH. reflexivity.
Qed.

(* ---------- C10 ---------- *)
Lemma combine_app {A B} (a a' : list A) (b b' : list B) :
  List.length a = List.length b -> combine (a ++ a') (b ++ b') = combine a b ++ combine a' b'.
Proof.
  revert b; induction a as [|x a IH]; intros [|y b]; simpl; intros H; try discriminate; auto.
  rewrite IH; auto.
Qed.
Lemma combine_repeat {A} (a : list A) (z : R) : combine a (repeat z (List.length a)) = map (fun x => (x, z)) a.
Proof. induction a; simpl; congruence. Qed.
Lemma combine_map_l {A B C} (f : A -> C) (a : list A) (b : list B) :
  combine (map f a) b = map (fun p => (f (fst p), snd p)) (combine a b).
Proof. revert b; induction a; intros [|y b]; simpl; congruence. Qed.

Lemma lq_loop_spec (hp : heap) hs :
  (forall r, In r hs -> List.length (h_ids (hp r)) = List.length (h_kwargs (hp r))) ->
  let '(ids, zs, ks, ni) := lq_loop hp hs in
  List.length ids = List.length zs /\ List.length ids = List.length ks /\
  combine (combine ids zs) ks = flat_map (fun r => halo_entries (hp r)) hs /\
  ni = last_interp (map (fun r => h_interp (hp r)) hs).
Proof.
  induction hs as [|r t IH]; simpl; intros H; auto.
  assert (H' : forall r, In r t -> List.length (h_ids (hp r)) = List.length (h_kwargs (hp r))) by auto.
  specialize (IH H'). destruct (lq_loop hp t) as [[[ids zs] ks] ni]. destruct IH as [L1 [L2 [E N]]].
  specialize (H r (or_introl eq_refl)).
  rewrite !app_length, repeat_length. repeat split; try lia.
  - rewrite combine_app by (rewrite repeat_length; auto).
    rewrite combine_app.
    2:{ rewrite combine_length, repeat_length, Nat.min_id. auto. }
    rewrite E. f_equal. unfold halo_entries. rewrite combine_repeat, combine_map_l. reflexivity.
  - rewrite N. reflexivity.
Qed.

Definition same_len3 {A B C} (t : list A * list B * list C) : Prop :=
  let '(a, b, c) := t in List.length a = List.length b /\ List.length a = List.length c.

Lemma class_sheets_len a cs :
  (forall c, In (Some c) cs -> forall k l h z1 z2 u, same_len3 (rc_sheets c k l h z1 z2 u)) ->
  same_len3 (class_sheets a cs).
Proof.
  induction cs as [|[c|] cs IH]; simpl; intros H; auto.
  assert (H1 := H c (or_introl eq_refl) (if String.eqb (rc_name c) "SUBHALOS" then sa_kappa_sub a else sa_kappa a)
                  (sa_mlow a) (sa_mhigh a) (sa_zmin a) (sa_zmax a) (sa_class_ranges a)).
  assert (H2 : same_len3 (class_sheets a cs)) by (apply IH; intros; apply H; auto).
  destruct (rc_sheets c _ _ _ _ _ _) as [[k p] z]. destruct (class_sheets a cs) as [[k' p'] z'].
  simpl in *. rewrite !app_length. lia.
Qed.
Lemma fill_centers_spec DC cx cy : forall zs ps ks,
  List.length ks = List.length ps -> List.length ks = List.length zs ->
  exists ks', fill_centers DC cx cy ks ps zs = Ok ks' /\ List.length ks' = List.length ks /\
   ks' = map (fun t => centred (cx (DC (snd t))) (cy (DC (snd t))) (snd (fst t)) (fst (fst t))) (combine (combine ks ps) zs).
Proof.
  induction zs as [|z zs IH]; intros [|p ps] [|k ks]; simpl; intros H1 H2; try discriminate.
  - exists []; auto.
  - destruct (IH ps ks) as [ks' [E [L M]]]; try lia. rewrite E. simpl. eexists; split; [reflexivity|].
    split; [simpl; lia|]. rewrite M. f_equal.
Qed.

Lemma exact_sheets_spec zl sc area hp rz :
  in_sync hp rz ->
  (forall r, In r (rz_halos rz) -> h_sub (hp r) = true -> h_z (hp r) = zl -> h_bound (hp r) <> None) ->
  exists ms, mapM (mass_at_z_exact zl hp rz) (rz_uniq rz) = Ok ms /\
   exact_sheets zl sc area hp rz =
   Ok (map (fun p => [("kappa"%string, - snd p / sc (fst p) (area (fst p)))]) (combine (rz_uniq rz) ms),
       repeat "CONVERGENCE"%string (List.length (rz_uniq rz)), rz_uniq rz) /\
   List.length ms = List.length (rz_uniq rz).
Proof.
  intros Hs Hb. destruct (mass_total_lemma zl hp rz Hs Hb) as [ms [vs [E _]]].
  exists ms. split; auto. unfold exact_sheets. generalize (rz_uniq rz) ms E. clear.
  assert (G : forall us ms, mapM (mass_at_z_exact zl hp rz) us = Ok ms ->
    List.length ms = List.length us /\
    mapM (fun z => do m <- mass_at_z_exact zl hp rz z; Ok [("kappa"%string, - m / sc z (area z))]) us
    = Ok (map (fun p => [("kappa"%string, - snd p / sc (fst p) (area (fst p)))]) (combine us ms))).
  { induction us as [|z us IH]; simpl; intros ms H.
    - injection H as <-. auto.
    - destruct (mass_at_z_exact zl hp rz z) as [m|]; [|discriminate]. simpl in *.
      destruct (mapM (mass_at_z_exact zl hp rz) us) as [ms'|]; [|discriminate]. simpl in H. injection H as <-.
      destruct (IH ms' eq_refl) as [L M]. rewrite M. simpl. split; [lia|reflexivity]. }
  intros us ms E. destruct (G us ms E) as [L M]. rewrite M. simpl. split; auto.
  rewrite map_length, combine_length. rewrite L, Nat.min_id. reflexivity.
Qed.

Lemma sheets_ok zl DC sc area hp rz a :
  in_sync hp rz ->
  (forall r, In r (rz_halos rz) -> h_sub (hp r) = true -> h_z (hp r) = zl -> h_bound (hp r) <> None) ->
  (forall c, In (Some c) (rz_classes rz) -> forall k l h z1 z2 u, same_len3 (rc_sheets c k l h z1 z2 u)) ->
  exists t, mass_sheet_correction zl DC sc area hp rz a = Ok t /\ same_len3 t.
Proof.
  intros Hs Hb Hc. unfold mass_sheet_correction.
  assert (G : exists t, (if sa_exact a then exact_sheets zl sc area hp rz else Ok (class_sheets a (rz_classes rz))) = Ok t /\ same_len3 t).
  { destruct (sa_exact a).
    - destruct (exact_sheets_spec zl sc area hp rz Hs Hb) as [ms [_ [E L]]]. rewrite E. eexists; split; [reflexivity|].
      simpl. rewrite map_length, combine_length, L, Nat.min_id, repeat_length. auto.
    - eexists; split; [reflexivity|]. apply class_sheets_len; auto. }
  destruct G as [[[ks ps] zs] [-> [L1 L2]]]. simpl.
  destruct (fill_centers_spec DC (rz_cx rz) (rz_cy rz) zs ps ks L1 L2) as [ks' [-> [L3 _]]]. simpl.
  eexists; split; [reflexivity|]. simpl. lia.
Qed.

Lemma lensing_lemma zl DC sc area hp rz add a :
  in_sync hp rz ->
  (forall r, In r (rz_halos rz) -> List.length (h_ids (hp r)) = List.length (h_kwargs (hp r))) ->
  (forall r, In r (rz_halos rz) -> h_sub (hp r) = true -> h_z (hp r) = zl -> h_bound (hp r) <> None) ->
  (forall c, In (Some c) (rz_classes rz) -> forall k l h z1 z2 u, same_len3 (rc_sheets c k l h z1 z2 u)) ->
  exists names zs ks ni sk sp sz,
    lensing_quantities zl DC sc area hp rz add a = Ok (names, zs, ks, ni) /\
    (if rz_sheet rz && add then mass_sheet_correction zl DC sc area hp rz a = Ok (sk, sp, sz)
     else sk = [] /\ sp = [] /\ sz = []) /\
    List.length names = List.length zs /\ List.length names = List.length ks /\
    combine (combine names zs) ks =
      flat_map (fun r => halo_entries (hp r)) (rz_halos rz) ++ combine (combine sp sz) sk /\
    ni = last_interp (map (fun r => h_interp (hp r)) (rz_halos rz)).
Proof.
  intros Hs Hk Hb Hc. unfold lensing_quantities.
  pose proof (lq_loop_spec hp (rz_halos rz) Hk) as Q.
  destruct (lq_loop hp (rz_halos rz)) as [[[ids zs] ks] ni]. destruct Q as [L1 [L2 [E N]]].
  destruct (rz_sheet rz && add).
  - destruct (sheets_ok zl DC sc area hp rz a Hs Hb Hc) as [[[k2 p2] z2] [-> [L3 L4]]]. simpl.
    exists (ids ++ p2), (zs ++ z2), (ks ++ k2), ni, k2, p2, z2.
    rewrite !app_length. repeat split; auto; try lia.
    rewrite combine_app by auto. rewrite combine_app, E; auto. rewrite combine_length. lia.
  - exists ids, zs, ks, ni, [], [], []. repeat split; auto. simpl. rewrite app_nil_r. auto.
Qed.

(* ---------- C11 ---------- *)
Lemma kwget_set_same k v d : kw_get (kwset k v d) k = Some v.
Proof.
  unfold kw_get. induction d as [|[k' w] d IH]; simpl.
  - rewrite String.eqb_refl. auto.
  - destruct (String.eqb k' k) eqn:E; simpl; rewrite E; auto.
Qed.
Lemma kwget_set_other k k2 v d : k2 <> k -> kw_get (kwset k v d) k2 = kw_get d k2.
Proof.
  intros Hn. unfold kw_get. induction d as [|[k' w] d IH]; simpl.
  - destruct (String.eqb k k2) eqn:E; auto. apply String.eqb_eq in E. congruence.
  - destruct (String.eqb k' k) eqn:E; simpl.
    + apply String.eqb_eq in E; subst k'. destruct (String.eqb k k2) eqn:E2; auto.
      apply String.eqb_eq in E2. congruence.
    + destruct (String.eqb k' k2); auto.
Qed.

Lemma exact_mode_lemma zl DC sc area hp rz a :
  in_sync hp rz -> sa_exact a = true ->
  (forall r, In r (rz_halos rz) -> h_sub (hp r) = true -> h_z (hp r) = zl -> h_bound (hp r) <> None) ->
  (forall z, In z (rz_uniq rz) -> sc z (area z) <> 0) ->
  exists ks ps, mass_sheet_correction zl DC sc area hp rz a = Ok (ks, ps, rz_uniq rz) /\
    ps = map (fun _ => "CONVERGENCE"%string) (rz_uniq rz) /\
    Forall2 (fun z k => exists m kappa, mass_at_z_exact zl hp rz z = Ok m /\
               kw_get k "kappa" = Some kappa /\ kappa * sc z (area z) = - m /\
               kw_get k "ra_0" = Some (rz_cx rz (DC z)) /\ kw_get k "dec_0" = Some (rz_cy rz (DC z))) (rz_uniq rz) ks.
Proof.
  intros Hs Ha Hb Hsc. unfold mass_sheet_correction. rewrite Ha.
  destruct (exact_sheets_spec zl sc area hp rz Hs Hb) as [ms [Em [E L]]]. rewrite E. cbn [bind].
  set (ks := map _ (combine (rz_uniq rz) ms)).
  assert (Lk : List.length ks = List.length (rz_uniq rz)).
  { unfold ks. rewrite map_length, combine_length, L, Nat.min_id. auto. }
  destruct (fill_centers_spec DC (rz_cx rz) (rz_cy rz) (rz_uniq rz) (repeat "CONVERGENCE"%string (List.length (rz_uniq rz))) ks) as [ks' [-> [L3 M]]].
  { rewrite repeat_length. auto. } { auto. }
  cbn [bind]. exists ks', (repeat "CONVERGENCE"%string (List.length (rz_uniq rz))).
  split; [reflexivity|]. split; [clear; induction (rz_uniq rz); simpl; congruence|].
  rewrite M. unfold ks. clear - Em Hsc.
  revert ms Em. generalize (rz_uniq rz) Hsc. clear Hsc.
  induction l as [|z us IH]; intros Hsc ms Em; simpl in Em.
  - injection Em as <-. simpl. constructor.
  - destruct (mass_at_z_exact zl hp rz z) as [m|] eqn:Ez; [|discriminate]. simpl in *.
    destruct (mapM (mass_at_z_exact zl hp rz) us) as [ms'|]; [|discriminate]. simpl in Em. injection Em as <-.
    simpl. constructor.
    + exists m, (- m / sc z (area z)). split; auto.
      assert (sc z (area z) <> 0) by auto.
      repeat split; try (field; auto); reflexivity.
    + apply IH; auto.
Qed.

(** convergence times critical mass, summed over the sheets *)
Lemma exact_total_lemma zl DC sc area hp rz a :
  in_sync hp rz -> sa_exact a = true ->
  (forall r, In r (rz_halos rz) -> h_sub (hp r) = true -> h_z (hp r) = zl -> h_bound (hp r) <> None) ->
  (forall z, In z (rz_uniq rz) -> sc z (area z) <> 0) ->
  exists ks ps vs removed, mass_sheet_correction zl DC sc area hp rz a = Ok (ks, ps, rz_uniq rz) /\
    Forall2 (fun r v => plane_mass zl (hp r) = Some v) (rz_halos rz) vs /\
    Forall2 (fun zk m => exists kappa, kw_get (snd zk) "kappa" = Some kappa /\ m = - (kappa * sc (fst zk) (area (fst zk))))
            (combine (rz_uniq rz) ks) removed /\
    rsum removed = rsum vs.
Proof.
  intros Hs Ha Hb Hsc.
  destruct (exact_mode_lemma zl DC sc area hp rz a Hs Ha Hb Hsc) as [ks [ps [E [_ F]]]].
  destruct (mass_total_lemma zl hp rz Hs Hb) as [ms [vs [Em [Fv Es]]]].
  exists ks, ps, vs, ms. repeat split; auto.
  clear - F Em. revert ms Em. induction F as [|z k us ks H F IH]; simpl; intros ms Em.
  - injection Em as <-. constructor.
  - destruct H as [m [kap [Ez [Hk [Hkap _]]]]]. rewrite Ez in Em. simpl in Em.
    destruct (mapM (mass_at_z_exact zl hp rz) us) as [ms'|]; [|discriminate]. simpl in Em. injection Em as <-.
    constructor; auto. exists kap. simpl. split; auto. lra.
Qed.

Lemma class_mode_lemma zl DC sc area hp rz a :
  sa_exact a = false ->
  (forall c, In (Some c) (rz_classes rz) -> forall k l h z1 z2 u, same_len3 (rc_sheets c k l h z1 z2 u)) ->
  exists ks ks' ps zs, mass_sheet_correction zl DC sc area hp rz a = Ok (ks', ps, zs) /\
    ks = flat_map (fun c => fst (fst (class_output a c))) (rz_classes rz) /\
    ps = flat_map (fun c => snd (fst (class_output a c))) (rz_classes rz) /\
    zs = flat_map (fun c => snd (class_output a c)) (rz_classes rz) /\
    ks' = map (fun t => centred (rz_cx rz (DC (snd t))) (rz_cy rz (DC (snd t))) (snd (fst t)) (fst (fst t)))
              (combine (combine ks ps) zs) /\
    List.length ks' = List.length ks.
Proof.
  intros Ha Hc. unfold mass_sheet_correction. rewrite Ha. cbn [bind].
  pose proof (class_sheets_len a (rz_classes rz) Hc) as L.
  assert (G : class_sheets a (rz_classes rz) =
     (flat_map (fun c => fst (fst (class_output a c))) (rz_classes rz),
      flat_map (fun c => snd (fst (class_output a c))) (rz_classes rz),
      flat_map (fun c => snd (class_output a c)) (rz_classes rz))).
  { clear. induction (rz_classes rz) as [|[c|] cs IH]; simpl; auto.
    rewrite IH. destruct (rc_sheets c _ _ _ _ _ _) as [[k p] z]. reflexivity. }
  rewrite G in *. destruct L as [L1 L2].
  destruct (fill_centers_spec DC (rz_cx rz) (rz_cy rz) _ _ _ L1 L2) as [ks' [E [L3 M]]].
  rewrite E. cbn [bind]. do 4 eexists. split; [reflexivity|]. repeat split; auto.
Qed.

(* ---------- C12-C15 ---------- *)
Lemma shift_sel_spec (hp : heap) zmin hs :
  fst (shift_sel hp zmin hs) = List.filter (fun r => h_fixed (hp r) || Rleb zmin (h_z (hp r))) hs /\
  snd (shift_sel hp zmin hs) = List.filter (fun r => negb (h_fixed (hp r)) && Rleb zmin (h_z (hp r))) hs.
Proof.
  induction hs as [|r t IH]; simpl; auto. destruct (shift_sel hp zmin t) as [o m]. simpl in IH.
  destruct IH as [I1 I2]. destruct (h_fixed (hp r)); simpl.
  - split; congruence.
  - destruct (Rltb (h_z (hp r)) zmin) eqn:E.
    + apply Rltb_true in E. assert (Rleb zmin (h_z (hp r)) = false) as -> by (apply Rleb_false; lra). simpl. split; congruence.
    + apply Rltb_false in E. assert (Rleb zmin (h_z (hp r)) = true) as -> by (apply Rleb_true; lra). simpl. split; congruence.
Qed.

Lemma fold_move_other (deltas : list (ref * (R * R))) : forall (hp : heap) r,
  ~ In r (map fst deltas) ->
  fold_left (fun h '(r, (dx, dy)) => upd h r (move (h r) dx dy)) deltas hp r = hp r.
Proof.
  induction deltas as [|[r' [dx dy]] t IH]; simpl; intros hp r H; auto.
  rewrite IH by tauto. unfold upd. destruct (Nat.eqb r r') eqn:E; auto. apply Nat.eqb_eq in E. subst; tauto.
Qed.
Lemma fold_move_in (deltas : list (ref * (R * R))) : forall (hp : heap) r dx dy,
  NoDup (map fst deltas) -> In (r, (dx, dy)) deltas ->
  fold_left (fun h '(r, (dx, dy)) => upd h r (move (h r) dx dy)) deltas hp r = move (hp r) dx dy.
Proof.
  induction deltas as [|[r' [dx' dy']] t IH]; simpl; intros hp r dx dy Hn Hin; [tauto|].
  inversion Hn; subst. destruct Hin as [Hin|Hin].
  - inversion Hin; subst. rewrite fold_move_other by auto. unfold upd. rewrite Nat.eqb_refl. auto.
  - erewrite IH; eauto. unfold upd. destruct (Nat.eqb r r') eqn:E; auto. apply Nat.eqb_eq in E; subst r'.
    exfalso. apply H1. change r with (fst (r, (dx, dy))). apply in_map; auto.
Qed.

Lemma move_displaced h dx dy : displaced h (move h dx dy) dx dy.
Proof. unfold displaced, move; simpl. repeat split. Qed.

Lemma shift_lemma DC hp rz rx ry zmin :
  rz_shifted rz = false -> NoDup (rz_halos rz) ->
  let '(hp', rz') := shift DC hp rz rx ry zmin in
  kept (fun r => h_fixed (hp r) = true \/ zmin <= h_z (hp r)) (rz_halos rz) (rz_halos rz') /\
  (forall r, In r (rz_halos rz) -> h_fixed (hp r) = false -> zmin <= h_z (hp r) ->
     displaced (hp r) (hp' r) (rx (DC (h_z (hp r)))) (ry (DC (h_z (hp r))))) /\
  (forall r, ~ In r (rz_halos rz) \/ h_fixed (hp r) = true \/ h_z (hp r) < zmin -> hp' r = hp r) /\
  rz_shifted rz' = true /\ in_sync hp' rz' /\ rz_cx rz' = rx /\ rz_cy rz' = ry /\
  rz_classes rz' = rz_classes rz /\ rz_sheet rz' = rz_sheet rz.
Proof.
  intros Hf Hn. unfold shift. rewrite Hf.
  destruct (shift_sel_spec hp zmin (rz_halos rz)) as [S1 S2].
  destruct (shift_sel hp zmin (rz_halos rz)) as [out mv]. simpl in S1, S2. subst out mv.
  set (deltas := map _ _).
  assert (Hfst : map fst deltas = List.filter (fun r => negb (h_fixed (hp r)) && Rleb zmin (h_z (hp r))) (rz_halos rz)).
  { unfold deltas. rewrite map_map. simpl. apply map_id. }
  assert (Hnd : NoDup (map fst deltas)) by (rewrite Hfst; apply NoDup_filter; auto).
  split; [|split; [|split; [|split; [reflexivity|split; [|repeat split]]]]].
  - simpl. apply kept_filter. intros r _. rewrite orb_true_iff, Rleb_true. tauto.
  - intros r Hr Hx Hz. rewrite (fold_move_in deltas hp r (rx (DC (h_z (hp r)))) (ry (DC (h_z (hp r))))); auto.
    + apply move_displaced.
    + unfold deltas. apply in_map_iff. exists r. split; auto. apply filter_In. split; auto.
      rewrite Hx. simpl. apply Rleb_true. auto.
  - intros r Hr. apply fold_move_other. rewrite Hfst, filter_In, andb_true_iff, negb_true_iff, Rleb_true.
    intros [H1 [H2 H3]]. destruct Hr as [Hr|[Hr|Hr]]; [tauto|congruence|lra].
  - match goal with |- in_sync ?h _ => set (hp' := h) end.
    destruct (from_halos_sync hp' (List.filter (fun r => h_fixed (hp r) || Rleb zmin (h_z (hp r))) (rz_halos rz)) (rz_sheet rz) (rz_classes rz) rx ry).
    constructor; auto.
Qed.

Lemma shift_again_lemma DC (calls : list ((R -> R) * (R -> R) * R)) : forall hp rz,
  rz_shifted rz = true ->
  fold_left (fun s '(rx, ry, zmin) => shift DC (fst s) (snd s) rx ry zmin) calls (hp, rz) = (hp, rz).
Proof.
  induction calls as [|[[rx ry] zm] t IH]; simpl; intros hp rz H; auto.
  unfold shift at 2. rewrite H. auto.
Qed.
Lemma shift_flag DC hp rz rx ry zmin : rz_shifted (snd (shift DC hp rz rx ry zmin)) = true.
Proof.
  unfold shift. destruct (rz_shifted rz) eqn:E; auto. destruct (shift_sel hp zmin (rz_halos rz)). reflexivity.
Qed.

Lemma double_shift_lemma DC hp rz rx ry zmin r (mid : heap -> Realz -> Realz) :
  rz_shifted rz = false -> NoDup (rz_halos rz) ->
  In r (rz_halos rz) -> h_fixed (hp r) = false -> zmin <= h_z (hp r) ->
  let '(hp1, rz1) := shift DC hp rz rx ry zmin in
  let rz2 := mid hp1 rz1 in
  rz_shifted rz2 = false -> NoDup (rz_halos rz2) -> In r (rz_halos rz2) ->
  let '(hp2, rz3) := shift DC hp1 rz2 rx ry zmin in
  displaced (hp r) (hp2 r) (2 * rx (DC (h_z (hp r)))) (2 * ry (DC (h_z (hp r)))).
Proof.
  intros Hf Hn Hr Hx Hz. pose proof (shift_lemma DC hp rz rx ry zmin Hf Hn) as S.
  destruct (shift DC hp rz rx ry zmin) as [hp1 rz1]. destruct S as [_ [S2 _]].
  specialize (S2 r Hr Hx Hz). intros rz2 Hf2 Hn2 Hr2.
  pose proof (shift_lemma DC hp1 rz2 rx ry zmin Hf2 Hn2) as S.
  destruct (shift DC hp1 rz2 rx ry zmin) as [hp2 rz3]. destruct S as [_ [T2 _]].
  destruct S2 as [A1 [A2 [A3 [A4 [A5 [A6 [A7 [A8 [A9 [A10 [A11 A12]]]]]]]]]]].
  specialize (T2 r Hr2). rewrite A8, A4 in T2. specialize (T2 Hx Hz).
  destruct T2 as [B1 [B2 [B3 [B4 [B5 [B6 [B7 [B8 [B9 [B10 [B11 B12]]]]]]]]]]].
  unfold displaced. repeat split; try congruence.
  - rewrite B1, A1. lra.
  - rewrite B2, A2. lra.
Qed.

(* ---------- C16 ---------- *)
Lemma req_lemma hp a b : req hp a b = true <-> (forall t, tag_in hp t b -> tag_in hp t a).
Proof.
  unfold req. rewrite forallb_forall. unfold tag_in. split.
  - intros H t [r [Hr <-]]. specialize (H (h_tag (hp r)) (in_tags hp _ _ Hr)).
    apply zmem_true in H. unfold tags in H. apply in_map_iff in H. destruct H as [s [E Hs]]. exists s; auto.
  - intros H t Ht. apply in_map_iff in Ht. destruct Ht as [r [<- Hr]].
    destruct (H (h_tag (hp r))) as [s [Hs E]]; [eauto|]. apply zmem_true. rewrite <- E. apply in_tags; auto.
Qed.

(* ---------- histories ---------- *)
Lemma step_status zs DC hp rz o hp' rz' :
  step zs DC (hp, rz) o = Ok (hp', rz') -> rz_shifted rz' = status_after (rz_shifted rz) o.
Proof.
  destruct o; simpl.
  - intros H; injection H as H. pose proof (shift_flag DC hp rz rx ry zmin) as F. rewrite H in F. auto.
  - unfold filter_bound_mass. destruct (fbm_loop hp m (rz_halos rz)); simpl; [|discriminate].
    intros H; injection H as <- <-. reflexivity.
  - destruct (rfilter zs DC hp rz ap lm rx ry u geomw wmin) eqn:E; simpl; [|discriminate].
    intros H; injection H as <- <-. revert E. unfold rfilter.
    match goal with |- (do rays <- ?x; _) = _ -> _ => destruct x; simpl; [|discriminate] end.
    match goal with |- (do rays <- ?x; _) = _ -> _ => destruct x; simpl; [|discriminate] end.
    intros H; injection H as <-. reflexivity.
  - unfold filter_subhalos. destruct (pick _ _); simpl; [|discriminate]. intros H; injection H as <- <-. reflexivity.
  - intros H; injection H as <- <-. unfold join. destruct (_ <=? _)%nat; destruct jc; reflexivity.
  - intros H; injection H as <- <-. reflexivity.
  - intros H; injection H as <- <-. reflexivity.
  - unfold realization_at_z. destruct (halos_at_z hp rz z) as [hs ix]. destruct cut as [[[x y] m]|].
    + destruct (range_loop hp x y m hs ix). intros H; injection H as <- <-. reflexivity.
    + intros H; injection H as <- <-. reflexivity.
Qed.
Lemma run_status zs DC : forall os hp rz hp' rz',
  run zs DC (hp, rz) os = Ok (hp', rz') -> rz_shifted rz' = fold_left status_after os (rz_shifted rz).
Proof.
  induction os as [|o os IH]; intros hp rz hp' rz' H; [injection H as <- <-; auto|].
  cbn [run] in H. destruct (step zs DC (hp, rz) o) as [[hp1 rz1]|] eqn:E; cbn [bind] in H; [|discriminate].
  cbn [fold_left]. rewrite <- (step_status zs DC hp rz o hp1 rz1 E). eauto.
Qed.

Lemma displaced_refl h : displaced h h 0 0.
Proof. unfold displaced. repeat split; lra. Qed.

Lemma fbm_keep hp m hs l : fbm_loop hp m hs = Ok l -> (NoDup hs -> NoDup l) /\ (forall r, In r l -> In r hs).
Proof.
  revert l; induction hs as [|a hs IH]; simpl; intros l H; [injection H as <-; auto|].
  destruct (fbm_loop hp m hs) as [rest|]; [|destruct (h_sub (hp a)); [destruct (h_bound (hp a))|]; simpl in H; discriminate].
  destruct (IH rest eq_refl) as [I1 I2].
  destruct (h_sub (hp a)).
  - destruct (h_bound (hp a)); [|discriminate]. simpl in H. injection H as <-. destruct (Rleb m r).
    + split; [intros Hn; inversion Hn; constructor; auto|]. intros x [->|Hx]; auto.
    + split; [intros Hn; inversion Hn; auto|]. auto.
  - simpl in H. injection H as <-.
    split; [intros Hn; inversion Hn; constructor; auto|]. intros x [->|Hx]; auto.
Qed.

Lemma run_shifted_frozen zs DC : forall os hp rz hp' rz',
  Forall keeps_status os -> rz_shifted rz = true ->
  run zs DC (hp, rz) os = Ok (hp', rz') -> hp' = hp.
Proof.
  induction os as [|o os IH]; simpl; intros hp rz hp' rz' F Hs H; [injection H as <- <-; auto|].
  inversion F as [|? ? F1 F2]; subst. destruct o; simpl in F1; try contradiction; simpl in H.
  - unfold shift in H. rewrite Hs in H. eapply IH; eauto.
  - unfold filter_bound_mass in H. destruct (fbm_loop hp m (rz_halos rz)); simpl in H; [|discriminate].
    eapply IH; [auto| |exact H]. simpl. auto.
Qed.

Lemma run_at_most_once zs DC : forall os hp rz hp' rz',
  Forall keeps_status os -> rz_shifted rz = false -> NoDup (rz_halos rz) ->
  run zs DC (hp, rz) os = Ok (hp', rz') ->
  forall r, hp' r = hp r \/
    exists rx ry, first_shift os = Some (rx, ry) /\ In r (rz_halos rz) /\ h_fixed (hp r) = false /\
      displaced (hp r) (hp' r) (rx (DC (h_z (hp r)))) (ry (DC (h_z (hp r)))).
Proof.
  induction os as [|o os IH]; simpl; intros hp rz hp' rz' F Hs Hn H r; [injection H as <- <-; auto|].
  inversion F as [|? ? F1 F2]; subst. destruct o; simpl in F1; try contradiction; simpl in H.
  - pose proof (shift_lemma DC hp rz rx ry zmin Hs Hn) as S.
    destruct (shift DC hp rz rx ry zmin) as [hp1 rz1] eqn:E. destruct S as [_ [S2 [S3 [S4 _]]]].
    assert (hp' = hp1) by (eapply run_shifted_frozen; eauto). subst hp'.
    destruct (in_dec Nat.eq_dec r (rz_halos rz)) as [Hi|Hi]; [|left; auto].
    destruct (h_fixed (hp r)) eqn:Hfx; [left; auto|].
    destruct (Rlt_dec (h_z (hp r)) zmin); [left; auto|].
    right. exists rx, ry. repeat split; auto; apply S2; auto; lra.
  - unfold filter_bound_mass in H. destruct (fbm_loop hp m (rz_halos rz)) as [l|] eqn:E; simpl in H; [|discriminate].
    destruct (fbm_keep hp m _ _ E) as [K1 K2].
    destruct (IH hp (set_shifted (rz_shifted rz) (rebuild hp rz l)) hp' rz' F2 Hs (K1 Hn) H r) as [G|[rx [ry [G1 [G2 [G3 G4]]]]]]; auto.
    right. exists rx, ry. repeat split; auto; apply G4.
Qed.
