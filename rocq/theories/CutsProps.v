(** C122: cutting a realization is order-independent and may be done before or after joining.
    The calls of [Realization] that discard halos ([filter], [filter_subhalos], [filter_bound_mass] and
    the two halves of [split_at_z]) are chained here in arbitrary sequences, as scripts do. *)
From Verif Require Import Prelude RealizationModel RealizationSpec RealizationProofs RealizationProps.

(** ** Model: one cut, and a chain of cuts. *)

(** single_realization.py 150-172 (filter_bound_mass), 212-232 (filter_subhalos), 510-535 (split_at_z; the
    first or the second realization it returns), 234-320 (filter): one call and its arguments. *)
Inductive cut : Type :=
| CRays (ap lm : R) (rx ry : list (R -> R)) (u : units) (g : bool) (wmin : R)
| CSub (ap lm : R) (cs : list (R * R))
| CBound (m : R)
| CFront (z : R)
| CBehind (z : R).

(** The call on a realization, with the functions of RealizationModel (same source lines). *)
Definition apply_cut (zs : R) (DC : R -> R) (hp : heap) (rz : Realz) (c : cut) : result Realz :=
  match c with
  | CRays ap lm rx ry u g wmin => rfilter zs DC hp rz ap lm rx ry u g wmin
  | CSub ap lm cs => filter_subhalos hp rz ap lm cs
  | CBound m => filter_bound_mass hp rz m
  | CFront z => Ok (fst (split_at_z hp rz z))
  | CBehind z => Ok (snd (split_at_z hp rz z))
  end.
(** [realization.cut1(...).cut2(...)...]: the chain of calls; the first exception ends it. *)
Fixpoint apply_cuts (zs : R) (DC : R -> R) (hp : heap) (rz : Realz) (cs : list cut) : result Realz :=
  match cs with
  | [] => Ok rz
  | c :: t => do rz' <- apply_cut zs DC hp rz c; apply_cuts zs DC hp rz' t
  end.

(** ** Specification *)

(** What a single halo must satisfy to survive one cut; no reference to the other halos. *)
Definition survives (zs : R) (DC : R -> R) (c : cut) (h : Halo) : Prop :=
  match c with
  | CRays ap lm rx ry u g wmin => passes_cut DC zs ap lm rx ry u g wmin h
  | CSub ap lm cs => h_sub h = false \/ Rpower 10 lm < Rabs (h_mass h) \/
                     exists x y, In (x, y) cs /\ dist2 (h_x h) (h_y h) x y < ap
  | CBound m => h_sub h = true -> exists b, h_bound h = Some b /\ m <= b
  | CFront z => h_z h <= z
  | CBehind z => z < h_z h
  end.
(** Well-formed arguments: as many x as y ray functions, at least one, and known units. *)
Definition well_formed (c : cut) : Prop :=
  match c with
  | CRays _ _ rx ry u _ _ => List.length rx = List.length ry /\ rx <> [] /\ u <> OtherUnits
  | _ => True
  end.
(** Every subhalo of the realization knows its bound mass. *)
Definition bound_known (hp : heap) (rz : Realz) : Prop :=
  forall r, In r (rz_halos rz) -> h_sub (hp r) = true -> h_bound (hp r) <> None.

(** ** Lemmas *)

Lemma survives_dec zs DC c h : survives zs DC c h \/ ~ survives zs DC c h.
Proof. apply Classical_Prop.classic. Qed.

Lemma one_cut zs DC hp rz c :
  in_sync hp rz -> bound_known hp rz -> well_formed c ->
  exists rz', apply_cut zs DC hp rz c = Ok rz' /\ in_sync hp rz' /\ same_setup rz rz' /\
    (forall r, (survives zs DC c (hp r) ->
                count_occ Nat.eq_dec (rz_halos rz') r = count_occ Nat.eq_dec (rz_halos rz) r) /\
               (~ survives zs DC c (hp r) -> ~ In r (rz_halos rz'))).
Proof.
  intros HS HB HW. destruct c as [ap lm rx ry u g wmin|ap lm cs|m|z|z]; cbn [apply_cut survives well_formed] in *.
  - destruct HW as [W1 [W2 W3]].
    destruct (C02_filter_exact zs DC hp rz ap lm rx ry u g wmin HS W1 W2 W3) as [rz' [E [[_ _ C] [I [SS _]]]]].
    exists rz'. auto.
  - destruct (C04_filter_subhalos hp rz ap lm cs HS) as [rz' [E [K [I [SS _]]]]].
    exists rz'. split; [exact E|]. split; [exact I|]. split; [exact SS|].
    intros r. apply (kept_count Nat.eq_dec _ _ _ r K).
  - destruct (proj1 (C05_filter_bound_mass hp rz m) HB) as [rz' [E [K [_ [I SS]]]]].
    exists rz'. split; [exact E|]. split; [exact I|]. split; [exact SS|].
    intros r. apply (kept_count Nat.eq_dec _ _ _ r K).
  - pose proof (C07_split hp rz z) as H. destruct (split_at_z hp rz z) as [a b].
    destruct H as [K [_ [_ [I [_ [SS _]]]]]]. exists a. simpl.
    split; [reflexivity|]. split; [exact I|]. split; [exact SS|].
    intros r. apply (kept_count Nat.eq_dec _ _ _ r K).
  - pose proof (C07_split hp rz z) as H. destruct (split_at_z hp rz z) as [a b].
    destruct H as [_ [K [_ [_ [I [_ [SS _]]]]]]]. exists b. simpl.
    split; [reflexivity|]. split; [exact I|]. split; [exact SS|].
    intros r. apply (kept_count Nat.eq_dec _ _ _ r K).
Qed.

Lemma cuts_gen zs DC hp cs : forall rz,
  in_sync hp rz -> bound_known hp rz -> Forall well_formed cs ->
  exists rz', apply_cuts zs DC hp rz cs = Ok rz' /\ in_sync hp rz' /\ same_setup rz rz' /\
    (forall r, (Forall (fun c => survives zs DC c (hp r)) cs ->
                count_occ Nat.eq_dec (rz_halos rz') r = count_occ Nat.eq_dec (rz_halos rz) r) /\
               (~ Forall (fun c => survives zs DC c (hp r)) cs -> ~ In r (rz_halos rz'))).
Proof.
  induction cs as [|c cs IH]; intros rz HS HB HW.
  - exists rz. split; [reflexivity|]. split; [exact HS|]. split; [repeat split|].
    intros r. split; [reflexivity|]. intros H. exfalso. apply H. constructor.
  - inversion HW as [|? ? W1 W2]; subst.
    destruct (one_cut zs DC hp rz c HS HB W1) as [rz1 [E1 [I1 [S1 C1]]]].
    assert (HB1 : bound_known hp rz1).
    { intros r Hr. apply HB. destruct (survives_dec zs DC c (hp r)) as [D|D].
      - apply (count_occ_In Nat.eq_dec). rewrite <- (proj1 (C1 r) D). apply (count_occ_In Nat.eq_dec). exact Hr.
      - exfalso. exact (proj2 (C1 r) D Hr). }
    destruct (IH rz1 I1 HB1 W2) as [rz2 [E2 [I2 [S2 C2]]]].
    exists rz2. simpl. rewrite E1. simpl. split; [exact E2|]. split; [exact I2|]. split.
    { destruct S1 as [A1 [A2 [A3 A4]]]. destruct S2 as [B1 [B2 [B3 B4]]].
      repeat split; congruence. }
    intros r. destruct (C2 r) as [Y2 N2]. destruct (C1 r) as [Y1 N1]. split.
    + intros H. inversion H; subst. rewrite Y2, Y1; auto.
    + intros H Hin. destruct (Classical_Prop.classic (Forall (fun c0 => survives zs DC c0 (hp r)) cs)) as [D|D].
      * destruct (survives_dec zs DC c (hp r)) as [D'|D']; [apply H; constructor; auto|].
        apply (N1 D'). apply (count_occ_In Nat.eq_dec). rewrite <- (Y2 D). apply (count_occ_In Nat.eq_dec). exact Hin.
      * exact (N2 D Hin).
Qed.

Lemma cuts_In zs DC hp cs rz rz' :
  in_sync hp rz -> bound_known hp rz -> Forall well_formed cs -> apply_cuts zs DC hp rz cs = Ok rz' ->
  (forall r, In r (rz_halos rz') <-> In r (rz_halos rz) /\ Forall (fun c => survives zs DC c (hp r)) cs) /\
  (forall r, (count_occ Nat.eq_dec (rz_halos rz') r <= count_occ Nat.eq_dec (rz_halos rz) r)%nat).
Proof.
  intros HS HB HW E. destruct (cuts_gen zs DC hp cs rz HS HB HW) as [rz2 [E2 [_ [_ C]]]].
  rewrite E in E2. injection E2 as <-. split; intros r; destruct (C r) as [Y N];
    destruct (Classical_Prop.classic (Forall (fun c => survives zs DC c (hp r)) cs)) as [D|D].
  - rewrite !(count_occ_In Nat.eq_dec). rewrite (Y D). tauto.
  - split; [intros H; destruct (N D H)|tauto].
  - rewrite (Y D). lia.
  - apply N in D. apply (count_occ_not_In Nat.eq_dec) in D. lia.
Qed.

Lemma tags_inj hp rz : tags_distinct hp rz ->
  forall r s, In r (rz_halos rz) -> In s (rz_halos rz) -> h_tag (hp r) = h_tag (hp s) -> r = s.
Proof.
  unfold tags_distinct. generalize (rz_halos rz). intros l H r s.
  induction l as [|a l IH]; simpl in *; [tauto|].
  inversion H as [|? ? H1 H2]; subst. intros [->|Hr] [->|Hs] E; auto.
  - exfalso. apply H1. rewrite E. apply (in_map (fun r => h_tag (hp r))). exact Hs.
  - exfalso. apply H1. rewrite <- E. apply (in_map (fun r => h_tag (hp r))). exact Hr.
Qed.
Lemma tags_nodup hp rz : tags_distinct hp rz -> NoDup (rz_halos rz).
Proof. apply NoDup_map_inv. Qed.
Lemma tags_sub hp rz rz' : tags_distinct hp rz ->
  (forall r, (count_occ Nat.eq_dec (rz_halos rz') r <= count_occ Nat.eq_dec (rz_halos rz) r)%nat) ->
  tags_distinct hp rz'.
Proof.
  intros D C.
  assert (N : NoDup (rz_halos rz')).
  { apply (NoDup_count_occ Nat.eq_dec). intros r. pose proof (tags_nodup _ _ D) as N.
    rewrite (NoDup_count_occ Nat.eq_dec) in N. specialize (N r). specialize (C r). lia. }
  assert (I : forall r, In r (rz_halos rz') -> In r (rz_halos rz)).
  { intros r Hr. apply (count_occ_In Nat.eq_dec) in Hr. apply (count_occ_In Nat.eq_dec). specialize (C r). lia. }
  pose proof (tags_inj _ _ D) as J. unfold tags_distinct. clear C D.
  revert N I. generalize (rz_halos rz'). induction l as [|a l IH]; simpl; intros N I; [constructor|].
  inversion N; subst. constructor.
  - intros H. apply in_map_iff in H. destruct H as [s [E Hs]].
    assert (s = a) by (apply J; auto). subst. contradiction.
  - apply IH; auto.
Qed.

(** Two realizations whose common tags denote the same halo object. *)
Definition same_objects (hp : heap) (a b : Realz) : Prop :=
  forall r s, In r (rz_halos a) -> In s (rz_halos b) -> h_tag (hp r) = h_tag (hp s) -> r = s.

Lemma join_In hp a b c : tags_distinct hp a -> tags_distinct hp b -> same_objects hp a b ->
  forall r, In r (rz_halos (join hp a b c)) <-> In r (rz_halos a) \/ In r (rz_halos b).
Proof.
  intros DA DB SO r. destruct (C06_join_union hp a b c DA DB) as [_ [T [I _]]]. split; [apply I|].
  intros H. assert (Ht : tag_in hp (h_tag (hp r)) (join hp a b c)).
  { apply T. destruct H as [H|H]; [left|right]; exists r; auto. }
  destruct Ht as [s [Hs Es]]. assert (s = r); [|subst; exact Hs].
  destruct (I s Hs) as [Is|Is]; destruct H as [H|H].
  - apply (tags_inj hp a DA); auto.
  - apply (SO s r); auto.
  - symmetry. apply (SO r s); auto.
  - apply (tags_inj hp b DB); auto.
Qed.

(** ** Theorems *)

(** C122. A chain of cuts of any length succeeds and keeps exactly the halos that survive each of the cuts
    on their own, with their original multiplicity; arrays and setup stay consistent. *)
Theorem C122_chain : forall zs DC hp rz cs,
  in_sync hp rz -> bound_known hp rz -> Forall well_formed cs ->
  exists rz', apply_cuts zs DC hp rz cs = Ok rz' /\ in_sync hp rz' /\ same_setup rz rz' /\
    forall r,
      ((forall c, In c cs -> survives zs DC c (hp r)) ->
       count_occ Nat.eq_dec (rz_halos rz') r = count_occ Nat.eq_dec (rz_halos rz) r) /\
      ((exists c, In c cs /\ ~ survives zs DC c (hp r)) -> ~ In r (rz_halos rz')).
Proof.
  intros zs DC hp rz cs HS HB HW. destruct (cuts_gen zs DC hp cs rz HS HB HW) as [rz' [E [I [SS C]]]].
  exists rz'. split; [exact E|]. split; [exact I|]. split; [exact SS|].
  intros r. destruct (C r) as [Y N]. split.
  - intros H. apply Y. apply Forall_forall. exact H.
  - intros [c [Hc Hn]]. apply N. rewrite Forall_forall. intros H. exact (Hn (H c Hc)).
Qed.

(** Any reordering of the cuts gives the same halos. *)
Theorem C122_order : forall zs DC hp rz cs cs',
  in_sync hp rz -> bound_known hp rz -> Forall well_formed cs -> Permutation cs cs' ->
  exists a b, apply_cuts zs DC hp rz cs = Ok a /\ apply_cuts zs DC hp rz cs' = Ok b /\
    Permutation (rz_halos a) (rz_halos b).
Proof.
  intros zs DC hp rz cs cs' HS HB HW P.
  assert (HW' : Forall well_formed cs').
  { rewrite Forall_forall in *. intros c Hc. apply HW. eapply Permutation_in; [symmetry; exact P|exact Hc]. }
  destruct (cuts_gen zs DC hp cs rz HS HB HW) as [a [E [_ [_ C]]]].
  destruct (cuts_gen zs DC hp cs' rz HS HB HW') as [b [E' [_ [_ C']]]].
  exists a, b. split; [exact E|]. split; [exact E'|].
  apply (Permutation_count_occ Nat.eq_dec). intros r. destruct (C r) as [Y N]. destruct (C' r) as [Y' N'].
  assert (EQ : Forall (fun c => survives zs DC c (hp r)) cs <-> Forall (fun c => survives zs DC c (hp r)) cs').
  { rewrite !Forall_forall. split; intros H c Hc; apply H;
    [apply (Permutation_in c (Permutation_sym P) Hc)|apply (Permutation_in c P Hc)]. }
  destruct (Classical_Prop.classic (Forall (fun c => survives zs DC c (hp r)) cs)) as [D|D].
  - rewrite Y, Y'; tauto.
  - assert (D' := D). rewrite EQ in D'. apply N in D. apply N' in D'.
    apply (count_occ_not_In Nat.eq_dec) in D. apply (count_occ_not_In Nat.eq_dec) in D'. congruence.
Qed.

(** Repeating a chain of cuts on its own result changes nothing but (possibly) the listing order. *)
Theorem C122_repeat : forall zs DC hp rz cs rz',
  in_sync hp rz -> bound_known hp rz -> Forall well_formed cs ->
  apply_cuts zs DC hp rz cs = Ok rz' ->
  exists rz'', apply_cuts zs DC hp rz' cs = Ok rz'' /\ Permutation (rz_halos rz'') (rz_halos rz').
Proof.
  intros zs DC hp rz cs rz' HS HB HW E.
  destruct (cuts_gen zs DC hp cs rz HS HB HW) as [a [E1 [I1 [_ _]]]].
  rewrite E in E1. injection E1 as <-.
  destruct (cuts_In zs DC hp cs rz rz' HS HB HW E) as [M _].
  assert (HB' : bound_known hp rz') by (intros r Hr; apply HB; apply M; exact Hr).
  destruct (cuts_gen zs DC hp cs rz' I1 HB' HW) as [b [E2 [_ [_ C]]]].
  exists b. split; [exact E2|]. apply (Permutation_count_occ Nat.eq_dec). intros r. destruct (C r) as [Y N].
  destruct (Classical_Prop.classic (Forall (fun c => survives zs DC c (hp r)) cs)) as [D|D]; [auto|].
  pose proof (N D) as D1. apply (count_occ_not_In Nat.eq_dec) in D1.
  assert (D2 : ~ In r (rz_halos rz')) by (rewrite M; tauto). apply (count_occ_not_In Nat.eq_dec) in D2. congruence.
Qed.

(** Cutting a joined realization gives the halos of the joined cuts, whatever the chain of cuts. *)
Theorem C122_join : forall zs DC hp a b k k' cs,
  in_sync hp a -> in_sync hp b -> bound_known hp a -> bound_known hp b -> Forall well_formed cs ->
  tags_distinct hp a -> tags_distinct hp b -> same_objects hp a b ->
  exists a' b' j, apply_cuts zs DC hp a cs = Ok a' /\ apply_cuts zs DC hp b cs = Ok b' /\
    apply_cuts zs DC hp (join hp a b k) cs = Ok j /\
    Permutation (rz_halos j) (rz_halos (join hp a' b' k')).
Proof.
  intros zs DC hp a b k k' cs IA IB BA BB HW DA DB SO.
  destruct (cuts_gen zs DC hp cs a IA BA HW) as [a' [Ea _]].
  destruct (cuts_gen zs DC hp cs b IB BB HW) as [b' [Eb _]].
  destruct (C06_join_union hp a b k DA DB) as [DJ [_ [_ [_ [_ [_ IJ]]]]]].
  pose proof (join_In hp a b k DA DB SO) as JI.
  assert (BJ : bound_known hp (join hp a b k)).
  { intros r Hr. apply JI in Hr. destruct Hr; [apply BA|apply BB]; assumption. }
  destruct (cuts_gen zs DC hp cs _ IJ BJ HW) as [j [Ej _]].
  exists a', b', j. split; [exact Ea|]. split; [exact Eb|]. split; [exact Ej|].
  destruct (cuts_In _ _ _ _ _ _ IA BA HW Ea) as [MA CA].
  destruct (cuts_In _ _ _ _ _ _ IB BB HW Eb) as [MB CB].
  destruct (cuts_In _ _ _ _ _ _ IJ BJ HW Ej) as [MJ CJ].
  pose proof (tags_sub _ _ _ DA CA) as DA'. pose proof (tags_sub _ _ _ DB CB) as DB'.
  pose proof (tags_sub _ _ _ DJ CJ) as DJ'.
  assert (SO' : same_objects hp a' b').
  { intros r s Hr Hs. apply SO; [apply MA; exact Hr|apply MB; exact Hs]. }
  destruct (C06_join_union hp a' b' k' DA' DB') as [DJ2 _].
  apply NoDup_Permutation; [eapply tags_nodup; exact DJ'|eapply tags_nodup; exact DJ2|].
  intros r. rewrite MJ, JI, (join_In hp a' b' k' DA' DB' SO'), MA, MB. tauto.
Qed.

(** The hypothesis on equal tags is needed: if two different halo objects carry the same tag, joining first
    loses one of them and the cut may then drop the other. *)
Definition twin_heap : heap := fun r =>
  match r with
  | 0%nat => demo_halo 100 0 0 (1/2) 10 true false (Some 50)
  | _ => demo_halo 7 0 0 1 10 false false None
  end.
Definition twin (r : nat) : Realz := from_halos twin_heap [r] true [None] (fun _ => 0) (fun _ => 0).
Theorem C122_equal_tags_refuted : exists hp a b z a' b' j,
  tags_distinct hp a /\ tags_distinct hp b /\
  apply_cuts 3 (fun z => z) hp a [CFront z] = Ok a' /\ apply_cuts 3 (fun z => z) hp b [CFront z] = Ok b' /\
  apply_cuts 3 (fun z => z) hp (join hp a b false) [CFront z] = Ok j /\
  rz_halos j = [] /\ rz_halos (join hp a' b' false) = [0]%nat.
Proof.
  exists twin_heap, (twin 0), (twin 1), (1/2). do 3 eexists.
  split; [repeat constructor; simpl; tauto|]. split; [repeat constructor; simpl; tauto|].
  split; [reflexivity|]. split; [reflexivity|]. split; [reflexivity|].
  unfold split_at_z. cbn -[Rleb].
  rewrite (proj2 (Rleb_true (1/2) (1/2))) by lra. rewrite (proj2 (Rleb_false 1 (1/2))) by lra. split; reflexivity.
Qed.

(** On [demo]: a chain of three different cuts (bound mass at least 10, not behind z = 1/2, subhalos heavier
    than 10) in two orders; halos 0 and 3 survive. *)
Example C122_example :
  in_sync demo_heap demo /\ bound_known demo_heap demo /\
  Forall well_formed [CBound 10; CFront (1/2); CSub 1 1 []] /\
  exists a b, apply_cuts 3 (fun z => z) demo_heap demo [CBound 10; CFront (1/2); CSub 1 1 []] = Ok a /\
    apply_cuts 3 (fun z => z) demo_heap demo [CSub 1 1 []; CBound 10; CFront (1/2)] = Ok b /\
    Permutation (rz_halos a) (rz_halos b) /\ In 0%nat (rz_halos a) /\ In 3%nat (rz_halos a) /\
    ~ In 1%nat (rz_halos a) /\ ~ In 2%nat (rz_halos a).
Proof.
  assert (HW : Forall well_formed [CBound 10; CFront (1/2); CSub 1 1 []]) by (repeat constructor).
  split; [exact demo_sync|]. split; [exact demo_bound|]. split; [exact HW|].
  destruct (C122_order 3 (fun z => z) demo_heap demo [CBound 10; CFront (1/2); CSub 1 1 []]
              [CSub 1 1 []; CBound 10; CFront (1/2)] demo_sync demo_bound HW) as [a [b [Ea [Eb P]]]].
  { symmetry. change [CBound 10; CFront (1/2); CSub 1 1 []] with ([CBound 10; CFront (1/2)] ++ [CSub 1 1 []]).
    apply Permutation_cons_append. }
  exists a, b. split; [exact Ea|]. split; [exact Eb|]. split; [exact P|].
  destruct (cuts_In _ _ _ _ _ _ demo_sync demo_bound HW Ea) as [M _].
  rewrite !M. change (rz_halos demo) with [0; 1; 2; 3]%nat.
  split; [|split; [|split]].
  - split; [simpl; auto|]. constructor; [|constructor; [|constructor; [|constructor]]]; simpl.
    + intros _. exists 50. split; [reflexivity|lra].
    + lra.
    + right. left. rewrite Rpower_1 by lra. rewrite Rabs_pos_eq; lra.
  - split; [simpl; auto|]. constructor; [|constructor; [|constructor; [|constructor]]]; simpl.
    + discriminate.
    + lra.
    + left. reflexivity.
  - intros [_ H]. inversion H as [|? ? H1 _]; subst. simpl in H1. destruct (H1 eq_refl) as [x [Ex Hx]].
    injection Ex as <-. lra.
  - intros [_ H]. inversion H as [|? ? _ H1]; subst. inversion H1 as [|? ? H2 _]; subst. simpl in H2. lra.
Qed.
(** The hypotheses of [C122_join] are met by [demo] and a part of it sharing halo objects. *)
Example C122_join_example :
  let part := from_halos demo_heap [1; 3]%nat true [None] (fun _ => 0) (fun _ => 0) in
  in_sync demo_heap part /\ bound_known demo_heap part /\ tags_distinct demo_heap demo /\
  tags_distinct demo_heap part /\ same_objects demo_heap demo part.
Proof.
  cbv zeta. split; [apply from_halos_sync|]. split.
  { intros r Hr. apply demo_bound. simpl in *. tauto. }
  split; [exact demo_tags|]. split.
  { unfold tags_distinct; simpl. repeat constructor; simpl; intuition discriminate. }
  intros r s Hr Hs. apply (tags_inj _ _ demo_tags); [exact Hr|]. simpl in *. tauto.
Qed.

(** ** Cuts before and after the shift along a ray *)

(** The same cut with its rays carried along by the shift (the other cuts here ignore positions). *)
Definition carried (rx ry : R -> R) (c : cut) : cut :=
  match c with
  | CRays ap lm xs ys u g wmin =>
      CRays ap lm (map (fun f d => f d + rx d) xs) (map (fun f d => f d + ry d) ys) u g wmin
  | _ => c
  end.
(** Cuts along rays, by bound mass or by redshift; not [filter_subhalos], whose coordinates are fixed points. *)
Definition along_rays (c : cut) : Prop := match c with CSub _ _ _ => False | _ => True end.

Lemma one_cut_flag zs DC hp rz c rz' :
  in_sync hp rz -> bound_known hp rz -> well_formed c ->
  apply_cut zs DC hp rz c = Ok rz' -> rz_shifted rz = false -> rz_shifted rz' = false.
Proof.
  intros HS HB HW E F. destruct c as [ap lm rx ry u g wmin|ap lm cs|m|z|z]; cbn [apply_cut well_formed] in *.
  - destruct HW as [W1 [W2 W3]].
    destruct (C02_filter_exact zs DC hp rz ap lm rx ry u g wmin HS W1 W2 W3) as [a [E' [_ [_ [_ G]]]]].
    rewrite E in E'. injection E' as <-. exact G.
  - destruct (C04_filter_subhalos hp rz ap lm cs HS) as [a [E' [_ [_ [_ G]]]]].
    rewrite E in E'. injection E' as <-. exact G.
  - destruct (proj1 (C05_filter_bound_mass hp rz m) HB) as [a [E' [_ [G _]]]].
    rewrite E in E'. injection E' as <-. congruence.
  - pose proof (C07_split hp rz z) as H. destruct (split_at_z hp rz z) as [a b]. injection E as <-. apply H.
  - pose proof (C07_split hp rz z) as H. destruct (split_at_z hp rz z) as [a b]. injection E as <-. apply H.
Qed.
Lemma cuts_flag zs DC hp cs : forall rz rz',
  in_sync hp rz -> bound_known hp rz -> Forall well_formed cs ->
  apply_cuts zs DC hp rz cs = Ok rz' -> rz_shifted rz = false -> rz_shifted rz' = false.
Proof.
  induction cs as [|c cs IH]; simpl; intros rz rz' HS HB HW E F; [injection E as <-; exact F|].
  inversion HW as [|? ? W1 W2]; subst.
  destruct (one_cut zs DC hp rz c HS HB W1) as [rz1 [E1 [I1 [_ C1]]]].
  rewrite E1 in E. simpl in E.
  refine (IH rz1 rz' I1 _ W2 E (one_cut_flag zs DC hp rz c rz1 HS HB W1 E1 F)).
  intros r Hr. apply HB. destruct (survives_dec zs DC c (hp r)) as [D|D].
  - apply (count_occ_In Nat.eq_dec). rewrite <- (proj1 (C1 r) D). apply (count_occ_In Nat.eq_dec). exact Hr.
  - exfalso. exact (proj2 (C1 r) D Hr).
Qed.

Lemma carried_ray DC u h h' fx fy rx ry :
  displaced h h' (rx (DC (h_z h))) (ry (DC (h_z h))) ->
  ray_distance DC u h' (fun d => fx d + rx d) (fun d => fy d + ry d) = ray_distance DC u h fx fy.
Proof.
  intros [X [Y [_ [Z _]]]]. unfold ray_distance, dist2. rewrite X, Y, Z.
  replace (h_x h + rx (DC (h_z h)) - (fx (DC (h_z h)) + rx (DC (h_z h)))) with (h_x h - fx (DC (h_z h))) by ring.
  replace (h_y h + ry (DC (h_z h)) - (fy (DC (h_z h)) + ry (DC (h_z h)))) with (h_y h - fy (DC (h_z h))) by ring.
  reflexivity.
Qed.
Lemma nth_error_map_inv {A B} (f : A -> B) l i b :
  nth_error (map f l) i = Some b <-> exists a, nth_error l i = Some a /\ f a = b.
Proof.
  rewrite nth_error_map. destruct (nth_error l i) as [a|]; simpl; split.
  - intros H. injection H as <-. eauto.
  - intros [a' [H1 H2]]. congruence.
  - discriminate.
  - intros [a' [H1 _]]. discriminate.
Qed.
Lemma carried_survives zs DC rx ry c h h' : along_rays c ->
  displaced h h' (rx (DC (h_z h))) (ry (DC (h_z h))) ->
  (survives zs DC (carried rx ry c) h' <-> survives zs DC c h).
Proof.
  intros A D. assert (D' := D). destruct D' as [_ [_ [M [Z [_ [_ [Sb [_ [B _]]]]]]]]].
  destruct c as [ap lm xs ys u g wmin|ap lm cs|m|z|z]; cbn [survives carried along_rays] in *.
  - unfold passes_cut. rewrite M, Z. split; (intros [H|[i [fx [fy [H1 [H2 H3]]]]]]; [left; exact H|right]).
    + apply nth_error_map_inv in H1. apply nth_error_map_inv in H2.
      destruct H1 as [gx [H1 <-]]. destruct H2 as [gy [H2 <-]].
      exists i, gx, gy. rewrite (carried_ray DC u h h' gx gy rx ry D) in H3. auto.
    + exists i, (fun d => fx d + rx d), (fun d => fy d + ry d).
      rewrite (carried_ray DC u h h' fx fy rx ry D). repeat split; auto.
      * apply nth_error_map_inv. exists fx. auto.
      * apply nth_error_map_inv. exists fy. auto.
  - contradiction.
  - rewrite Sb, B. tauto.
  - rewrite Z. tauto.
  - rewrite Z. tauto.
Qed.
Lemma carried_wf rx ry c : well_formed c -> well_formed (carried rx ry c).
Proof.
  destruct c; simpl; auto. intros [A [B C]]. rewrite !map_length. split; [exact A|]. split; [|exact C].
  destruct rx0; [congruence|discriminate].
Qed.
Lemma displaced_fun h a b dx dy : displaced h a dx dy -> displaced h b dx dy -> a = b.
Proof.
  intros [A1 [A2 [A3 [A4 [A5 [A6 [A7 [A8 [A9 [A10 [A11 A12]]]]]]]]]]]
         [B1 [B2 [B3 [B4 [B5 [B6 [B7 [B8 [B9 [B10 [B11 B12]]]]]]]]]]].
  destruct a, b; simpl in *. subst. congruence.
Qed.

(** Every halo takes part in the shift: none has a fixed position, none lies in front of the minimum redshift. *)
Definition all_move (hp : heap) (rz : Realz) (zmin : R) : Prop :=
  forall r, In r (rz_halos rz) -> h_fixed (hp r) = false /\ zmin <= h_z (hp r).

(** Cutting around the light rays and then shifting gives the same halo objects, in the same final states, as
    shifting first and cutting around the rays carried along. *)
Theorem C122_shift : forall zs DC hp rz rx ry zmin cs,
  in_sync hp rz -> bound_known hp rz -> Forall well_formed cs -> Forall along_rays cs ->
  rz_shifted rz = false -> NoDup (rz_halos rz) -> all_move hp rz zmin ->
  exists a b, apply_cuts zs DC hp rz cs = Ok a /\
    apply_cuts zs DC (fst (shift DC hp rz rx ry zmin)) (snd (shift DC hp rz rx ry zmin)) (map (carried rx ry) cs) = Ok b /\
    Permutation (rz_halos (snd (shift DC hp a rx ry zmin))) (rz_halos b) /\
    forall r, In r (rz_halos b) ->
      fst (shift DC hp a rx ry zmin) r = fst (shift DC hp rz rx ry zmin) r.
Proof.
  intros zs DC hp rz rx ry zmin cs HS HB HW HR F N AM.
  destruct (cuts_gen zs DC hp cs rz HS HB HW) as [a [Ea _]].
  destruct (cuts_In zs DC hp cs rz a HS HB HW Ea) as [MA CA].
  assert (Na : NoDup (rz_halos a)).
  { apply (NoDup_count_occ Nat.eq_dec). intros r. rewrite (NoDup_count_occ Nat.eq_dec) in N.
    specialize (N r). specialize (CA r). lia. }
  pose proof (cuts_flag zs DC hp cs rz a HS HB HW Ea F) as Fa.
  pose proof (C13_shift_effect DC hp rz rx ry zmin F N) as S1.
  pose proof (C13_shift_effect DC hp a rx ry zmin Fa Na) as S2.
  destruct (shift DC hp rz rx ry zmin) as [hp1 rz1]. destruct (shift DC hp a rx ry zmin) as [hp2 rz2] eqn:E2.
  destruct S1 as [K1 [D1 [_ [_ [I1 _]]]]]. destruct S2 as [K2 [D2 _]]. cbn [fst snd].
  assert (M1 : forall r, In r (rz_halos rz1) <-> In r (rz_halos rz)).
  { intros r. rewrite (kept_In _ _ _ r K1). split; [tauto|]. intros H. split; [exact H|]. right. apply AM; exact H. }
  assert (M2 : forall r, In r (rz_halos rz2) <-> In r (rz_halos a)).
  { intros r. rewrite (kept_In _ _ _ r K2). split; [tauto|]. intros H. split; [exact H|]. right. apply AM. apply MA; exact H. }
  assert (B1 : bound_known hp1 rz1).
  { intros r Hr Hs. apply M1 in Hr. destruct (AM r Hr) as [A1 A2].
    destruct (D1 r Hr A1 A2) as [_ [_ [_ [_ [_ [_ [Sb [_ [B _]]]]]]]]].
    rewrite B. apply HB; [exact Hr|]. congruence. }
  assert (W1 : Forall well_formed (map (carried rx ry) cs)).
  { rewrite Forall_forall in *. intros c Hc. apply in_map_iff in Hc. destruct Hc as [c0 [<- Hc]].
    apply carried_wf. auto. }
  destruct (cuts_gen zs DC hp1 _ rz1 I1 B1 W1) as [b [Eb _]].
  destruct (cuts_In zs DC hp1 _ rz1 b I1 B1 W1 Eb) as [MB CB].
  assert (Nk : forall (P : ref -> Prop) l l', kept P l l' -> NoDup l -> NoDup l').
  { clear. intros P l l' K. induction K as [|x l l' Px K IH|x l l' Px K IH]; intros Nl; inversion Nl; subst; auto.
    constructor; auto. intros H. apply (kept_In _ _ _ _ K) in H. tauto. }
  assert (N1 : NoDup (rz_halos rz1)) by (eapply Nk; eauto).
  assert (N2 : NoDup (rz_halos rz2)) by (eapply Nk; eauto).
  assert (Nb : NoDup (rz_halos b)).
  { apply (NoDup_count_occ Nat.eq_dec). intros r. rewrite (NoDup_count_occ Nat.eq_dec) in N1.
    specialize (N1 r). specialize (CB r). lia. }
  assert (Q : forall r, In r (rz_halos b) <-> In r (rz_halos a)).
  { intros r. rewrite MB, M1, MA. split; intros [Hr H]; (split; [exact Hr|]);
      destruct (AM r Hr) as [A1 A2]; specialize (D1 r Hr A1 A2);
      rewrite Forall_forall in H, HR |- *; intros c Hc.
    - apply (carried_survives zs DC rx ry c _ _ (HR c Hc) D1). apply H. apply in_map. exact Hc.
    - apply in_map_iff in Hc. destruct Hc as [c0 [<- Hc]].
      apply (carried_survives zs DC rx ry c0 _ _ (HR c0 Hc) D1). apply H. exact Hc. }
  exists a, b. rewrite E2. cbn [fst snd]. split; [exact Ea|]. split; [exact Eb|]. split.
  - apply NoDup_Permutation; [exact N2|exact Nb|]. intros r. rewrite M2, Q. tauto.
  - intros r Hr. apply Q in Hr. assert (Hr' : In r (rz_halos rz)) by (apply MA; exact Hr).
    destruct (AM r Hr') as [A1 A2]. eapply displaced_fun; [apply D2|apply D1]; auto.
Qed.
(** Halos 0-2 of [demo] all move; a chain of a ray cut and a bound mass cut meets the other hypotheses. *)
Example C122_shift_example :
  let rz := from_halos demo_heap [0; 1; 2]%nat true [None] (fun _ => 0) (fun _ => 0) in
  let cs := [CRays (1/10) 1 [(fun _ => 1)] [(fun _ => 0)] ANGLES false (1/10); CBound 2] in
  in_sync demo_heap rz /\ bound_known demo_heap rz /\ Forall well_formed cs /\ Forall along_rays cs /\
  rz_shifted rz = false /\ NoDup (rz_halos rz) /\ all_move demo_heap rz 0 /\
  survives 3 (fun z => z) (CBound 2) (demo_heap 1%nat) /\
  survives 3 (fun z => z) (CRays (1/10) 1 [(fun _ => 1)] [(fun _ => 0)] ANGLES false (1/10)) (demo_heap 1%nat).
Proof.
  cbv zeta. split; [apply from_halos_sync|]. split.
  { intros r Hr. apply demo_bound. simpl in *. tauto. }
  split; [repeat constructor; simpl; discriminate|]. split; [repeat constructor|]. split; [reflexivity|].
  split; [repeat constructor; simpl; intuition discriminate|]. split.
  { intros r [<-|[<-|[<-|[]]]]; simpl; split; auto; lra. }
  split.
  - intros _. exists 2. split; [reflexivity|lra].
  - right. exists 0%nat, (fun _ => 1), (fun _ => 0). split; [reflexivity|]. split; [reflexivity|].
    unfold ray_distance, dist2, spec_weight. simpl.
    replace ((1 - 1) * ((1 - 1) * 1) + (0 - 0) * ((0 - 0) * 1)) with 0 by ring. rewrite sqrt_0. lra.
Qed.
(** A halo with fixed position stays behind: cutting first keeps it, shifting first makes the same cut drop it. *)
Theorem C122_shift_fixed_refuted : exists hp rz rx ry cs a b r,
  in_sync hp rz /\ bound_known hp rz /\ Forall well_formed cs /\ Forall along_rays cs /\
  rz_shifted rz = false /\ NoDup (rz_halos rz) /\
  apply_cuts 3 (fun z => z) hp rz cs = Ok a /\
  apply_cuts 3 (fun z => z) (fst (shift (fun z => z) hp rz rx ry 0)) (snd (shift (fun z => z) hp rz rx ry 0))
    (map (carried rx ry) cs) = Ok b /\
  h_fixed (hp r) = true /\ In r (rz_halos (snd (shift (fun z => z) hp a rx ry 0))) /\ ~ In r (rz_halos b).
Proof.
  set (rz := from_halos demo_heap [3]%nat true [None] (fun _ => 0) (fun _ => 0)).
  set (cs := [CRays (1/10) 1 [(fun _ => 4)] [(fun _ => 0)] ANGLES false (1/10)]).
  set (rx := fun _ : R => 1). set (ry := fun _ : R => 0).
  assert (IS : in_sync demo_heap rz) by apply from_halos_sync.
  assert (BK : bound_known demo_heap rz).
  { intros r Hr. apply demo_bound. unfold rz in Hr. simpl in *. tauto. }
  assert (W : Forall well_formed cs).
  { constructor; [|constructor]. simpl. split; [reflexivity|split; discriminate]. }
  assert (W' : Forall well_formed (map (carried rx ry) cs)).
  { constructor; [|constructor]. simpl. split; [reflexivity|split; discriminate]. }
  assert (ND : NoDup (rz_halos rz)) by (repeat constructor; simpl; tauto).
  destruct (cuts_gen 3 (fun z => z) demo_heap cs rz IS BK W) as [a [Ea _]].
  destruct (cuts_In _ _ _ _ _ _ IS BK W Ea) as [MA CA].
  pose proof (cuts_flag _ _ _ _ _ _ IS BK W Ea eq_refl) as Fa.
  assert (Na : NoDup (rz_halos a)).
  { apply (NoDup_count_occ Nat.eq_dec). intros r. rewrite (NoDup_count_occ Nat.eq_dec) in ND.
    specialize (ND r). specialize (CA r). lia. }
  pose proof (C13_shift_effect (fun z => z) demo_heap rz rx ry 0 eq_refl ND) as S1.
  pose proof (C13_shift_effect (fun z => z) demo_heap a rx ry 0 Fa Na) as S2.
  destruct (shift (fun z => z) demo_heap rz rx ry 0) as [hp1 rz1] eqn:E1.
  destruct (shift (fun z => z) demo_heap a rx ry 0) as [hp2 rz2] eqn:E2.
  destruct S1 as [K1 [_ [D1 [_ [I1 _]]]]]. destruct S2 as [K2 _].
  assert (H3 : hp1 3%nat = demo_heap 3%nat) by (apply D1; right; left; reflexivity).
  assert (B1 : bound_known hp1 rz1).
  { intros r Hr Hs. apply (kept_In _ _ _ _ K1) in Hr. destruct Hr as [[<-|[]] _]. rewrite H3 in Hs. discriminate. }
  destruct (cuts_gen 3 (fun z => z) hp1 _ rz1 I1 B1 W') as [b [Eb _]].
  destruct (cuts_In _ _ _ _ _ _ I1 B1 W' Eb) as [MB _].
  exists demo_heap, rz, rx, ry, cs, a, b, 3%nat. rewrite E1, E2. cbn [fst snd].
  split; [exact IS|]. split; [exact BK|]. split; [exact W|]. split; [repeat constructor|]. split; [reflexivity|].
  split; [exact ND|]. split; [exact Ea|]. split; [exact Eb|]. split; [reflexivity|]. split.
  - apply (kept_In _ _ _ _ K2). split; [|left; reflexivity]. apply MA. split; [left; reflexivity|].
    constructor; [|constructor]. right. exists 0%nat, (fun _ => 4), (fun _ => 0).
    split; [reflexivity|]. split; [reflexivity|]. unfold ray_distance, dist2, spec_weight. simpl.
    replace ((4 - 4) * ((4 - 4) * 1) + (0 - 0) * ((0 - 0) * 1)) with 0 by ring. rewrite sqrt_0. lra.
  - rewrite MB. intros [_ H]. inversion H as [|? ? H1 _]; subst. rewrite H3 in H1.
    destruct H1 as [H1|[i [fx [fy [X [Y H1]]]]]].
    + rewrite Rpower_1 in H1 by lra. simpl in H1. rewrite Rabs_pos_eq in H1; lra.
    + destruct i as [|i]; [|destruct i; discriminate]. simpl in X, Y. injection X as <-. injection Y as <-.
      unfold ray_distance, dist2, spec_weight, rx, ry in H1. simpl in H1.
      replace ((4 - (4 + 1)) * ((4 - (4 + 1)) * 1) + (0 - (0 + 0)) * ((0 - (0 + 0)) * 1)) with 1 in H1 by ring.
      rewrite sqrt_1 in H1. lra.
Qed.

(** ** Several rays (C03) *)

Lemma passes_rays DC zs ap lm rx ry u g wmin h : List.length rx = List.length ry ->
  (passes_cut DC zs ap lm rx ry u g wmin h <->
   Rpower 10 lm <= Rabs (h_mass h) \/
   exists f, In f (combine rx ry) /\
     ray_distance DC u h (fst f) (snd f) <= ap * spec_weight DC zs g wmin (h_z h)).
Proof.
  intros HL. unfold passes_cut. split; (intros [H|H]; [left; exact H|right]).
  - destruct H as [i [fx [fy [H1 [H2 H3]]]]]. exists (fx, fy). split; [|exact H3].
    clear H3 HL. revert ry i H1 H2. induction rx as [|a rx IH]; intros [|b ry] [|i] H1 H2; simpl in *; try discriminate.
    + left. congruence.
    + right. eauto.
  - destruct H as [[fx fy] [H1 H3]]. simpl in H3.
    assert (E : exists i, nth_error rx i = Some fx /\ nth_error ry i = Some fy).
    { clear H3. revert ry HL H1. induction rx as [|a rx IH]; intros [|b ry] HL H1; simpl in *; try tauto; try discriminate.
      destruct H1 as [H1|H1].
      - injection H1 as -> ->. exists 0%nat. split; reflexivity.
      - destruct (IH ry ltac:(lia) H1) as [i Hi]. exists (S i). exact Hi. }
    destruct E as [i [E1 E2]]. exists i, fx, fy. auto.
Qed.
Lemma pss_In hp P hs out : (forall h, P h \/ ~ P h) -> plane_sorted_selection hp P hs out ->
  forall r, In r out <-> In r hs /\ P (hp r).
Proof.
  intros D [_ _ C] r. destruct (C r) as [Y N]. destruct (D (hp r)) as [H|H].
  - rewrite !(count_occ_In Nat.eq_dec), (Y H). tauto.
  - split; [intros HH; destruct (N H HH)|tauto].
Qed.

(** Filtering around several rays keeps a halo iff filtering around some part of the rays keeps it. *)
Theorem C03_ray_union : forall zs DC hp rz ap lm rx1 ry1 rx2 ry2 u g wmin,
  in_sync hp rz -> List.length rx1 = List.length ry1 -> List.length rx2 = List.length ry2 ->
  rx1 <> [] -> rx2 <> [] -> u <> OtherUnits ->
  exists a b c, rfilter zs DC hp rz ap lm rx1 ry1 u g wmin = Ok a /\
    rfilter zs DC hp rz ap lm rx2 ry2 u g wmin = Ok b /\
    rfilter zs DC hp rz ap lm (rx1 ++ rx2) (ry1 ++ ry2) u g wmin = Ok c /\
    forall r, In r (rz_halos c) <-> In r (rz_halos a) \/ In r (rz_halos b).
Proof.
  intros zs DC hp rz ap lm rx1 ry1 rx2 ry2 u g wmin I L1 L2 N1 N2 U.
  destruct (C02_filter_exact zs DC hp rz ap lm rx1 ry1 u g wmin I L1 N1 U) as [a [Ea [Sa _]]].
  destruct (C02_filter_exact zs DC hp rz ap lm rx2 ry2 u g wmin I L2 N2 U) as [b [Eb [Sb _]]].
  assert (L : List.length (rx1 ++ rx2) = List.length (ry1 ++ ry2)) by (rewrite !app_length; lia).
  assert (N : rx1 ++ rx2 <> []) by (destruct rx1; [congruence|discriminate]).
  destruct (C02_filter_exact zs DC hp rz ap lm (rx1 ++ rx2) (ry1 ++ ry2) u g wmin I L N U) as [c [Ec [Sc _]]].
  exists a, b, c. split; [exact Ea|]. split; [exact Eb|]. split; [exact Ec|]. intros r.
  rewrite (pss_In _ _ _ _ (fun h => Classical_Prop.classic _) Sa), (pss_In _ _ _ _ (fun h => Classical_Prop.classic _) Sb),
          (pss_In _ _ _ _ (fun h => Classical_Prop.classic _) Sc).
  rewrite !passes_rays by assumption.
  assert (CA : combine (rx1 ++ rx2) (ry1 ++ ry2) = combine rx1 ry1 ++ combine rx2 ry2).
  { clear -L1. revert ry1 L1. induction rx1 as [|x rx1 IH]; intros [|y ry1] H; simpl in *; try discriminate; auto.
    rewrite IH by lia. reflexivity. }
  rewrite CA. split.
  - intros [H [M|[f [F D]]]]; [left; split; auto|]. apply in_app_iff in F.
    destruct F as [F|F]; [left|right]; (split; [exact H|]; right; exists f; auto).
  - intros [[H [M|[f [F D]]]]|[H [M|[f [F D]]]]]; (split; [exact H|]); auto;
      right; exists f; (split; [apply in_app_iff; auto|exact D]).
Qed.
(** The order in which the rays are listed is irrelevant, and so is listing a ray twice. *)
Theorem C03_ray_order : forall zs DC hp rz ap lm rx1 ry1 rx2 ry2 u g wmin,
  in_sync hp rz -> List.length rx1 = List.length ry1 -> List.length rx2 = List.length ry2 ->
  rx1 <> [] -> rx2 <> [] -> u <> OtherUnits ->
  (forall f, In f (combine rx1 ry1) <-> In f (combine rx2 ry2)) ->
  exists a b, rfilter zs DC hp rz ap lm rx1 ry1 u g wmin = Ok a /\
    rfilter zs DC hp rz ap lm rx2 ry2 u g wmin = Ok b /\ Permutation (rz_halos a) (rz_halos b).
Proof.
  intros zs DC hp rz ap lm rx1 ry1 rx2 ry2 u g wmin I L1 L2 N1 N2 U E.
  destruct (C02_filter_exact zs DC hp rz ap lm rx1 ry1 u g wmin I L1 N1 U) as [a [Ea [[_ _ Ca] _]]].
  destruct (C02_filter_exact zs DC hp rz ap lm rx2 ry2 u g wmin I L2 N2 U) as [b [Eb [[_ _ Cb] _]]].
  exists a, b. split; [exact Ea|]. split; [exact Eb|]. apply (Permutation_count_occ Nat.eq_dec). intros r.
  destruct (Ca r) as [Ya Na]. destruct (Cb r) as [Yb Nb].
  assert (Q : passes_cut DC zs ap lm rx1 ry1 u g wmin (hp r) <-> passes_cut DC zs ap lm rx2 ry2 u g wmin (hp r)).
  { rewrite !passes_rays by assumption. split; (intros [M|[f [F D]]]; [left; exact M|right; exists f; split; [apply E; exact F|exact D]]). }
  destruct (Classical_Prop.classic (passes_cut DC zs ap lm rx1 ry1 u g wmin (hp r))) as [D|D].
  - rewrite Ya, Yb; tauto.
  - assert (D' := D). rewrite Q in D'. apply Na in D. apply Nb in D'.
    apply (count_occ_not_In Nat.eq_dec) in D. apply (count_occ_not_In Nat.eq_dec) in D'. congruence.
Qed.
(** Two different rays on [demo], in both orders. *)
Example C03_rays_example :
  let f := fun _ : R => 10 in let g := fun _ : R => 1 in let o := fun _ : R => 0 in
  in_sync demo_heap demo /\ [f; g] <> [] /\ List.length [f; g] = List.length [f; o] /\
  (forall p, In p (combine [f; g] [f; o]) <-> In p (combine [g; f] [o; f])) /\ ANGLES <> OtherUnits.
Proof.
  cbv zeta. split; [exact demo_sync|]. split; [discriminate|]. split; [reflexivity|].
  split; [intros p; simpl; tauto|discriminate].
Qed.

Print Assumptions C122_chain.
Print Assumptions C122_order.
Print Assumptions C122_repeat.
Print Assumptions C122_join.
Print Assumptions C122_equal_tags_refuted.
Print Assumptions C122_shift.
Print Assumptions C122_shift_fixed_refuted.
Print Assumptions C03_ray_union.
Print Assumptions C03_ray_order.
