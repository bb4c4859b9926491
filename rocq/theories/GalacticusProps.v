(** C63: reading Galacticus files; C64: node filters. *)
From Verif Require Import Prelude RealizationSpec RealizationProofs MassFnModel GalacticusModel.
From Coq Require Import String ZArith.
Local Open Scope string_scope.
Local Open Scope R_scope.
Local Open Scope list_scope.

(** ** Specification *)
(** Node [i] lies in tree [n]: the trees occupy consecutive ranges that begin at the start indices. *)
Definition in_tree (starts : list nat) (i n : nat) : Prop :=
  (exists s, nth_error starts n = Some s /\ (s <= i)%nat) /\ (forall s, nth_error starts (S n) = Some s -> (i < s)%nat).
(** The start indices of a file: the first is zero and they do not decrease. *)
Definition starts_ok (starts : list nat) : Prop :=
  nth_error starts 0 = Some 0%nat /\ forall n s s', nth_error starts n = Some s -> nth_error starts (S n) = Some s' -> (s <= s')%nat.

(** ** Lemmas *)
Lemma nth_error_fill {A} (arr : list A) a b v i :
  nth_error (fill arr a b v) i = match nth_error arr i with
    | Some x => Some (if andb (Nat.leb a i) (match b with Some s => Nat.ltb i s | None => true end) then v else x) | None => None end.
Proof.
  unfold fill. rewrite nth_error_map. destruct (nth_error arr i) as [x|] eqn:E.
  - assert (N : nth_error (enumerate arr) i = Some (i, x)).
    { unfold enumerate. clear a b v. assert (G : forall l k i, nth_error l i = Some x -> nth_error (enum_from k l) i = Some ((k + i)%nat, x)).
      { induction l as [|y l IH]; intros k [|j]; cbn; try discriminate; [intros H; injection H as ->; do 2 f_equal; lia|]. intros H. rewrite (IH (S k) j H). do 2 f_equal. lia. }
      exact (G arr 0%nat i E). }
    rewrite N. reflexivity.
  - assert (N : nth_error (enumerate arr) i = None). { apply nth_error_None. unfold enumerate. rewrite enum_from_length. apply nth_error_None. exact E. }
    rewrite N. reflexivity.
Qed.
Lemma fill_length {A} (arr : list A) a b v : List.length (fill arr a b v) = List.length arr.
Proof. unfold fill. rewrite map_length. apply enum_from_length. Qed.

Lemma starts_mono st : starts_ok st -> forall n m s s', (n <= m)%nat -> nth_error st n = Some s -> nth_error st m = Some s' -> (s <= s')%nat.
Proof.
  intros [_ M] n m. induction m as [|m IH]; intros s s' L E E'.
  - replace n with 0%nat in E by lia. rewrite E in E'. injection E' as ->. lia.
  - destruct (Nat.eq_dec n (S m)) as [->|Ne]; [rewrite E in E'; injection E' as ->; lia|].
    destruct (nth_error st m) as [t|] eqn:Et.
    + pose proof (IH s t ltac:(lia) E eq_refl). pose proof (M m t s' Et E'). lia.
    + apply nth_error_None in Et. assert (nth_error st (S m) <> None) by (rewrite E'; discriminate). apply nth_error_Some in H. lia.
Qed.
Lemma in_tree_unique st i n m : starts_ok st -> in_tree st i n -> in_tree st i m -> n = m.
Proof.
  intros SO [[s [E L]] U] [[s' [E' L']] U'].
  assert (G : forall a b sa sb, nth_error st a = Some sa -> nth_error st b = Some sb -> (forall s, nth_error st (S a) = Some s -> (i < s)%nat) -> (sb <= i)%nat -> ~ (a < b)%nat).
  { intros a b sa sb Ea Eb Ua Lb Hab. destruct (nth_error st (S a)) as [t|] eqn:Et.
    - pose proof (Ua t eq_refl). pose proof (starts_mono st SO (S a) b t sb ltac:(lia) Et Eb). lia.
    - apply nth_error_None in Et. assert (X : nth_error st b <> None) by (rewrite Eb; discriminate). apply nth_error_Some in X. lia. }
  pose proof (G n m s s' E E' U L'). pose proof (G m n s' s E' E U' L). lia.
Qed.

(** The loop over [seq (S k) len] writes trees k, ..., k + len - 1. *)
Lemma tree_loop_spec ti st : starts_ok st -> (List.length st <= List.length ti)%nat -> forall len k ord idx,
  (k + len < List.length st)%nat -> exists ord' idx', tree_loop ti st (seq (S k) len) ord idx = Ok (ord', idx') /\
  List.length ord' = List.length ord /\ List.length idx' = List.length idx /\
  forall i, (exists n, (k <= n < k + len)%nat /\ in_tree st i n /\
               (forall x, nth_error ord i = Some x -> nth_error ord' i = Some (Z.of_nat n)) /\ (forall x, nth_error idx i = Some x -> nth_error idx' i = nth_error ti n))
         \/ ((forall n, (k <= n < k + len)%nat -> ~ in_tree st i n) /\ nth_error ord' i = nth_error ord i /\ nth_error idx' i = nth_error idx i).
Proof.
  intros SO LT. induction len as [|len IH]; intros k ord idx B.
  - exists ord, idx. split; [reflexivity|]. split; [reflexivity|]. split; [reflexivity|]. intros i. right. split; [intros n Hn; lia|]. split; reflexivity.
  - cbn [seq tree_loop]. replace (S k - 1)%nat with k by lia.
    destruct (nth_error st k) as [a|] eqn:Ea; [|apply nth_error_None in Ea; lia].
    destruct (nth_error st (S k)) as [b|] eqn:Eb; [|apply nth_error_None in Eb; lia].
    destruct (nth_error ti k) as [v|] eqn:Ev; [|apply nth_error_None in Ev; lia].
    destruct (IH (S k) (fill ord a (Some b) (Z.of_nat k)) (fill idx a (Some b) v) ltac:(lia)) as (ord' & idx' & E & L1 & L2 & H).
    rewrite fill_length in L1, L2. exists ord', idx'. split; [exact E|]. split; [exact L1|]. split; [exact L2|]. intros i.
    destruct (H i) as [(n & Hn & T & O & I)|(N & O & I)].
    + left. exists n. split; [lia|]. split; [exact T|]. split.
      * intros x Hx. eapply O. rewrite nth_error_fill, Hx. reflexivity.
      * intros x Hx. eapply I. rewrite nth_error_fill, Hx. reflexivity.
    + rewrite nth_error_fill in O, I. destruct (Nat.leb a i && Nat.ltb i b)%bool eqn:C.
      * apply andb_true_iff in C. destruct C as [C1 C2]. apply Nat.leb_le in C1. apply Nat.ltb_lt in C2.
        left. exists k. split; [lia|]. split; [split; [exists a; split; assumption|intros s Es; rewrite Eb in Es; injection Es as <-; exact C2]|].
        split; intros x Hx; [rewrite O, Hx; reflexivity|rewrite I, Hx, Ev; reflexivity].
      * right. split; [|split; [rewrite O; destruct (nth_error ord i); reflexivity|rewrite I; destruct (nth_error idx i); reflexivity]].
        intros n Hn T. destruct (Nat.eq_dec n k) as [->|Ne]; [|apply (N n); [lia|exact T]].
        destruct T as [[s [Es Ls]] U]. rewrite Ea in Es. injection Es as <-. pose proof (U b Eb). apply andb_false_iff in C. destruct C as [C|C]; [apply Nat.leb_gt in C|apply Nat.ltb_ge in C]; lia.
Qed.

(** ** C63 *)
(** Every node gets the order and the index of the one tree whose range contains it, and its own position as id. *)
Theorem C63_tree_of_node : forall o, starts_ok (o_start o) -> (2 <= List.length (o_start o) <= List.length (o_index o))%nat ->
  let total := fold_right Nat.add 0%nat (o_count o) in
  exists index order, read_custom o = Ok (("custom_treeIndex", CI index) :: ("custom_treeOutputOrder", CI order) :: ("id", CI (map Z.of_nat (seq 0 total))) :: nil) /\
    List.length index = total /\ List.length order = total /\
    forall i, (i < total)%nat -> exists n, in_tree (o_start o) i n /\ (forall n', in_tree (o_start o) i n' -> n' = n) /\
      nth_error order i = Some (Z.of_nat n) /\ nth_error index i = nth_error (o_index o) n.
Proof.
  intros o SO L total. unfold read_custom. fold total. set (st := o_start o) in *. set (T := List.length st) in *.
  destruct (tree_loop_spec (o_index o) st SO ltac:(fold T; lia) (T - 1) 0 (repeat 0%Z total) (repeat 0%Z total) ltac:(fold T; lia)) as (ord & idx & E & L1 & L2 & H).
  rewrite E. cbn [bind fst snd]. assert (B : Nat.leb T 1 = false) by (apply Nat.leb_gt; lia). rewrite B.
  destruct (nth_error st (T - 1)) as [stop|] eqn:Es; [|apply nth_error_None in Es; fold T in Es; lia].
  destruct (nth_error (o_index o) (T - 1)) as [v|] eqn:Ev; [|apply nth_error_None in Ev; lia].
  eexists _, _. split; [reflexivity|]. rewrite !fill_length, L1, L2, repeat_length. split; [reflexivity|]. split; [reflexivity|].
  intros i Hi. rewrite repeat_length in *. assert (Io : exists x, nth_error ord i = Some x) by (destruct (nth_error ord i) eqn:X; [eauto|apply nth_error_None in X; lia]).
  assert (Ii : exists x, nth_error idx i = Some x) by (destruct (nth_error idx i) eqn:X; [eauto|apply nth_error_None in X; lia]).
  destruct Io as [xo Xo]. destruct Ii as [xi Xi].
  assert (R0 : nth_error (repeat 0%Z total) i = Some 0%Z). { destruct (nth_error (repeat 0%Z total) i) as [z|] eqn:Z0; [apply nth_error_In, repeat_spec in Z0; congruence|apply nth_error_None in Z0; rewrite repeat_length in Z0; lia]. }
  destruct (le_lt_dec stop i) as [Hs|Hs].
  - assert (TT : in_tree st i (T - 1)). { split; [exists stop; split; assumption|]. intros s X. assert (Y : nth_error st (S (T - 1)) <> None) by (rewrite X; discriminate). apply nth_error_Some in Y. fold T in Y. lia. }
    exists (T - 1)%nat. split; [exact TT|]. split; [intros n' N; apply (in_tree_unique st i); assumption|].
    rewrite !nth_error_fill, Xo, Xi, Ev. apply Nat.leb_le in Hs. rewrite Hs. cbn [andb]. split; reflexivity.
  - destruct (H i) as [(n & Hn & T' & O & I)|(N & _ & _)].
    + exists n. split; [exact T'|]. split; [intros n' N; apply (in_tree_unique st i); assumption|].
      rewrite !nth_error_fill, (O _ R0). pose proof (I _ R0) as I'. rewrite I'. assert (X : Nat.leb stop i = false) by (apply Nat.leb_gt; exact Hs). rewrite X. cbn [andb].
      split; [reflexivity|]. destruct (nth_error (o_index o) n); reflexivity.
    + exfalso. (* some tree contains i *)
      assert (G : forall m s, (m <= T - 1)%nat -> nth_error st m = Some s -> (i < s)%nat -> exists n, (n < m)%nat /\ in_tree st i n).
      { induction m as [|m IH]; intros s Hm Hs' Li; [destruct SO as [S0 _]; rewrite S0 in Hs'; injection Hs' as <-; lia|].
        destruct (nth_error st m) as [t|] eqn:Et; [|apply nth_error_None in Et; fold T in Et; lia].
        destruct (le_lt_dec t i) as [Ht|Ht].
        - exists m. split; [lia|]. split; [exists t; split; assumption|]. intros s2 E2. rewrite Hs' in E2. injection E2 as <-. exact Li.
        - destruct (IH t ltac:(lia) eq_refl Ht) as (n & Hn & Tn). exists n. split; [lia|exact Tn]. }
      destruct (G (T - 1)%nat stop ltac:(lia) Es Hs) as (n & Hn & Tn). apply (N n); [lia|exact Tn].
Qed.
Definition demo_out : h5out := {| o_index := (7 :: 9 :: 12 :: nil)%Z; o_start := (0 :: 2 :: 2 :: nil)%nat; o_count := (2 :: 0 :: 3 :: nil)%nat; o_nodes := ("a", Dataset (CF (1 :: 2 :: 3 :: 4 :: 5 :: nil))) :: ("b", Dataset (CF (1 :: nil))) :: ("g", SubGroup) :: nil |}.
Example C63_tree_of_node_nonvacuous : starts_ok (o_start demo_out) /\ (2 <= List.length (o_start demo_out) <= List.length (o_index demo_out))%nat /\
  read_custom demo_out = Ok (("custom_treeIndex", CI (7 :: 7 :: 12 :: 12 :: 12 :: nil)%Z) :: ("custom_treeOutputOrder", CI (0 :: 0 :: 2 :: 2 :: 2 :: nil)%Z) :: ("id", CI (0 :: 1 :: 2 :: 3 :: 4 :: nil)%Z) :: nil).
Proof.
  split; [|split; [cbn; lia|reflexivity]]. split; [reflexivity|]. intros n s s'. destruct n as [|[|[|n]]]; cbn; intros E E'; try discriminate; try (injection E as <-; injection E' as <-; lia).
Qed.

(** A file with a single merger tree cannot be read at all. *)
Theorem C63_single_tree_refuted : forall o, (List.length (o_start o) <= 1)%nat -> read_custom o = Err EUnboundLocal.
Proof.
  intros o L. unfold read_custom. replace (List.length (o_start o) - 1)%nat with 0%nat by lia. cbn [seq tree_loop bind].
  apply Nat.leb_le in L. rewrite L. reflexivity.
Qed.
Example C63_single_tree_nonvacuous : read_custom {| o_index := (7 :: nil)%Z; o_start := (0 :: nil)%nat; o_count := (2 :: nil)%nat; o_nodes := nil |} = Err EUnboundLocal.
Proof. reflexivity. Qed.

(** The output that is read by default. *)
Lemma zmax_spec l m : In (zmax l m) (m :: l) /\ forall x, In x (m :: l) -> (x <= zmax l m)%Z.
Proof.
  revert m. induction l as [|a l IH]; intros m; cbn [zmax]; [split; [left; reflexivity|intros x [<-|[]]; lia]|].
  destruct (IH (Z.max m a)) as [I U]. split.
  - destruct I as [I|I]; [|right; right; exact I]. rewrite <- I. destruct (Z.max_spec m a) as [[_ ->]|[_ ->]]; [right; left; reflexivity|left; reflexivity].
  - pose proof (U (Z.max m a) (or_introl eq_refl)) as M. intros x [<-|[<-|X]]; [lia|lia|apply U; right; exact X].
Qed.
Lemma read_output_indices_in to_int keys n : In n (read_output_indices to_int keys) <->
  exists k, In k keys /\ substring 0 6 k = "Output" /\ to_int (substring 6 (String.length k - 6) k) = Some n.
Proof.
  induction keys as [|k t IH]; cbn [read_output_indices]; [split; [intros []|intros (k & [] & _)]|].
  destruct (String.eqb (substring 0 6 k) "Output") eqn:E; cbn [negb].
  - apply String.eqb_eq in E. destruct (to_int _) as [z|] eqn:Z0.
    + split.
      * intros [<-|H]; [exists k; split; [left; reflexivity|]; split; assumption|]. apply IH in H. destruct H as (k' & I & H). exists k'. split; [right; exact I|exact H].
      * intros (k' & [<-|I] & S' & N); [left; congruence|right; apply IH; exists k'; split; [exact I|]; split; assumption].
    + rewrite IH. split; intros (k' & I & S' & N); [exists k'; split; [right; exact I|split; assumption]|]. destruct I as [<-|I]; [congruence|]. exists k'. split; [exact I|split; assumption].
  - apply String.eqb_neq in E. rewrite IH. split; intros (k' & I & S' & N); [exists k'; split; [right; exact I|split; assumption]|]. destruct I as [<-|I]; [congruence|]. exists k'. split; [exact I|split; assumption].
Qed.
(** Without an output number the output with the largest number is read; without any numbered output the result is None. *)
Theorem C63_latest_output : forall to_int to_str f params only,
  let numbered n := exists k, In k (map fst f) /\ substring 0 6 k = "Output" /\ to_int (substring 6 (String.length k - 6) k) = Some n in
  ((forall n, ~ numbered n) /\ read_nodedata to_int to_str f None params only = Ok None) \/
  (exists n, numbered n /\ (forall n', numbered n' -> (n' <= n)%Z) /\
     read_nodedata to_int to_str f None params only = read_nodedata to_int to_str f (Some n) params only).
Proof.
  intros to_int to_str f params only numbered. unfold read_nodedata. destruct (read_output_indices to_int (map fst f)) as [|n t] eqn:E.
  - left. split; [|reflexivity]. intros n H. apply read_output_indices_in in H. rewrite E in H. destruct H.
  - right. destruct (zmax_spec t n) as [I U]. exists (zmax t n). split; [apply read_output_indices_in; rewrite E; exact I|]. split; [|reflexivity].
    intros n' H. apply read_output_indices_in in H. rewrite E in H. apply U. exact H.
Qed.
Example C63_latest_output_nonvacuous : let ti s := if String.eqb s "1" then Some 1%Z else if String.eqb s "10" then Some 10%Z else None in
  read_nodedata ti (fun n => if Z.eqb n 10 then "10" else "1") (("Output1", demo_out) :: ("Output10", demo_out) :: ("Outputx", demo_out) :: nil) None (Some ("a" :: "b" :: nil)) true
  = Ok (Some (("a", CF (1 :: 2 :: 3 :: 4 :: 5 :: nil)) :: ("custom_treeIndex", CI (7 :: 7 :: 12 :: 12 :: 12 :: nil)%Z) :: ("custom_treeOutputOrder", CI (0 :: 0 :: 2 :: 2 :: 2 :: nil)%Z) :: ("id", CI (0 :: 1 :: 2 :: 3 :: 4 :: nil)%Z) :: nil)).
Proof. reflexivity. Qed.

(** With nodes_only every column that is returned has one entry per node, and all requested data sets with one entry per
    node are returned unchanged. *)
Lemma dset_in_In d kv p : In p (dset_in d kv) <-> p = kv \/ (In p d /\ fst p <> fst kv).
Proof.
  unfold dset_in. destruct (existsb _ d) eqn:E.
  - rewrite in_map_iff. apply existsb_exists in E. destruct E as (q & Iq & Eq). apply String.eqb_eq in Eq. split.
    + intros (x & <- & Ix). destruct (String.eqb (fst kv) (fst x)) eqn:X; [left; reflexivity|right]. apply String.eqb_neq in X. split; [exact Ix|congruence].
    + intros [->|[I N]]; [exists q; rewrite Eq, String.eqb_refl; split; [reflexivity|exact Iq]|]. exists p. assert (X : String.eqb (fst kv) (fst p) = false) by (apply String.eqb_neq; congruence). rewrite X. split; [reflexivity|exact I].
  - rewrite in_app_iff. split.
    + intros [I|[<-|[]]]; [|left; reflexivity]. right. split; [exact I|]. intros X. assert (Y : existsb (fun q => String.eqb (fst kv) (fst q)) d = true); [|congruence].
      apply existsb_exists. exists p. split; [exact I|]. rewrite X. apply String.eqb_refl.
    + intros [->|[I _]]; [right; left; reflexivity|left; exact I].
Qed.
Theorem C63_columns : forall to_int to_str f n params d,
  read_nodedata to_int to_str f (Some n) params true = Ok (Some d) ->
  exists o, hget f ("Output" ++ to_str n)%string = Ok o /\
    let total := fold_right Nat.add 0%nat (o_count o) in
    (forall k c, In (k, c) d -> col_len c = total) /\
    (forall k c, k <> "custom_treeIndex" -> k <> "custom_treeOutputOrder" -> k <> "id" ->
       (In (k, c) d <-> In (k, Dataset c) (o_nodes o) /\ col_len c = total /\ (forall l, params = Some l -> In k l))).
Proof.
  intros to_int to_str f n params d. unfold read_nodedata. destruct (hget f _) as [o|] eqn:E; [|discriminate]. cbn [bind].
  destruct (read_custom o) as [c|] eqn:EC; [|discriminate]. cbn [bind]. intros H. injection H as <-. exists o. split; [reflexivity|]. cbv zeta. set (total := fold_right Nat.add 0%nat (o_count o)).
  assert (CC : exists a b, c = ("custom_treeIndex", CI a) :: ("custom_treeOutputOrder", CI b) :: ("id", CI (map Z.of_nat (seq 0 total))) :: nil /\ List.length a = total /\ List.length b = total).
  { unfold read_custom in EC. fold total in EC.
    assert (LL : forall ns ord idx p, tree_loop (o_index o) (o_start o) ns ord idx = Ok p -> List.length (fst p) = List.length ord /\ List.length (snd p) = List.length idx).
    { induction ns as [|m ns IH]; intros ord idx p; cbn [tree_loop]; [intros X; injection X as <-; split; reflexivity|].
      destruct (nth_error (o_start o) (m - 1)); [|discriminate]. destruct (nth_error (o_start o) m); [|discriminate]. destruct (nth_error (o_index o) (m - 1)); [|discriminate].
      intros X. apply IH in X. rewrite !fill_length in X. exact X. }
    destruct (tree_loop _ _ _ _ _) as [p|] eqn:EL; [|discriminate]. cbn [bind] in EC. apply LL in EL. rewrite repeat_length in EL.
    destruct (Nat.leb _ 1); [discriminate|]. destruct (nth_error (o_start o) _); [|discriminate]. destruct (nth_error (o_index o) _); [|discriminate].
    injection EC as <-. eexists _, _. split; [reflexivity|]. rewrite !fill_length. exact (conj (proj2 EL) (proj1 EL)). }
  destruct CC as (a & b & -> & La & Lb).
  assert (D : forall k c, In (k, c) (dunion (read_columns o params true) (("custom_treeIndex", CI a) :: ("custom_treeOutputOrder", CI b) :: ("id", CI (map Z.of_nat (seq 0 total))) :: nil)) <->
    (k, c) = ("custom_treeIndex", CI a) \/ (k, c) = ("custom_treeOutputOrder", CI b) \/ (k, c) = ("id", CI (map Z.of_nat (seq 0 total))) \/
    (In (k, c) (read_columns o params true) /\ k <> "custom_treeIndex" /\ k <> "custom_treeOutputOrder" /\ k <> "id")).
  { intros k c. unfold dunion. cbn [fold_left]. rewrite !dset_in_In. cbn [fst]. split.
    - intros [X|[[X|[[X|[I N1]] N2]] N3]]; [right; right; left; exact X|right; left; exact X|left; exact X|right; right; right; split; [exact I|]; split; [exact N1|]; split; assumption].
    - intros [X|[X|[X|(I & N1 & N2 & N3)]]]; [injection X as -> ->|injection X as -> ->|left; exact X|].
      + right. split; [|discriminate]. right. split; [|discriminate]. left. reflexivity.
      + right. split; [|discriminate]. left. reflexivity.
      + right. split; [|exact N3]. right. split; [|exact N2]. right. split; [exact I|exact N1]. }
  assert (RC : forall k c, In (k, c) (read_columns o params true) <-> In (k, Dataset c) (o_nodes o) /\ col_len c = total /\ (forall l, params = Some l -> In k l)).
  { intros k c. unfold read_columns. fold total. rewrite in_flat_map. assert (W : wanted params k = true <-> forall l, params = Some l -> In k l).
    { unfold wanted. destruct params as [l|]; [|split; [intros _ l; discriminate|reflexivity]]. rewrite existsb_exists. split.
      - intros (x & I & X) l' X'. injection X' as <-. apply String.eqb_eq in X. subst x. exact I.
      - intros I. exists k. split; [apply I; reflexivity|apply String.eqb_refl]. }
    split.
    - intros ((k' & v) & I & J). cbn [fst snd] in J. destruct v as [c'|]; [|destruct J]. destruct (wanted params k' && _)%bool eqn:B; [|destruct J].
      destruct J as [J|[]]. injection J as -> ->. apply andb_true_iff in B. destruct B as [B1 B2]. cbn [negb orb] in B2. apply Nat.eqb_eq in B2. split; [exact I|]. split; [exact B2|apply W; exact B1].
    - intros (I & L & P). exists (k, Dataset c). split; [exact I|]. cbn [fst snd]. apply W in P. rewrite P. cbn [negb orb andb]. rewrite L, Nat.eqb_refl. left. reflexivity. }
  split.
  - intros k c I. apply D in I. destruct I as [X|[X|[X|(I & _)]]]; [injection X as -> ->; exact La|injection X as -> ->; exact Lb|injection X as -> ->; cbn [col_len]; rewrite map_length; apply seq_length|]. apply RC in I. apply I.
  - intros k c N1 N2 N3. rewrite D. split.
    + intros [X|[X|[X|(I & _)]]]; [injection X as -> ->; congruence|injection X as -> ->; congruence|injection X as -> ->; congruence|]. apply RC. exact I.
    + intros I. right. right. right. split; [apply RC; exact I|]. split; [exact N1|]. split; assumption.
Qed.
Example C63_columns_nonvacuous : exists d, read_nodedata (fun _ => None) (fun _ => "1") (("Output1", demo_out) :: nil) (Some 1%Z) None true = Ok (Some d) /\ List.length d = 4%nat.
Proof. eexists. split; reflexivity. Qed.

Print Assumptions C63_tree_of_node.
Print Assumptions C63_single_tree_refuted.
Print Assumptions C63_latest_output.
Print Assumptions C63_columns.
