(** precompute_concentrations: each halo without a concentration gets the scalar one. *)
From Verif Require Import Prelude MassFnModel ConcModel ConcProofs ConcProofs2.
Local Open Scope R_scope.
Local Open Scope list_scope.

Lemma key_eqb_true a b : key_eqb a b = true -> a = b.
Proof.
  destruct a as [n x], b as [n' x']; unfold key_eqb; cbn. intros H. apply andb_true_iff in H as [H1 H2].
  apply Nat.eqb_eq in H1. apply Reqb_true in H2. congruence.
Qed.

Lemma NoDup_app_remove_l {A} (l l' : list A) : NoDup (l ++ l') -> NoDup l'.
Proof. induction l as [|a t IH]; cbn; auto. intros H; inversion_clear H; auto. Qed.
Lemma NoDup_app_remove_r {A} (l l' : list A) : NoDup (l ++ l') -> NoDup l.
Proof.
  induction l as [|a t IH]; cbn; intros H; [constructor|]. inversion_clear H as [|? ? Hi Hn].
  constructor; auto. rewrite in_app_iff in Hi. tauto.
Qed.
Definition members (gs : list (key * list nat)) : list nat := List.concat (map snd gs).
Lemma add_group_members k i gs x : In x (members (add_group k i gs)) <-> x = i \/ In x (members gs).
Proof.
  unfold members. induction gs as [|[k' l] t IH]; cbn. intuition.
  destruct (key_eqb k' k); cbn; rewrite !in_app_iff; cbn. intuition. rewrite IH. intuition.
Qed.
Lemma add_group_NoDup k i gs : ~ In i (members gs) -> NoDup (members gs) -> NoDup (members (add_group k i gs)).
Proof.
  unfold members. induction gs as [|[k' l] t IH]; cbn; intros Hi Hn. repeat constructor; auto.
  rewrite in_app_iff in Hi. destruct (key_eqb k' k); cbn.
  - rewrite <- app_assoc. cbn. apply NoDup_Add with (a := i) (l := l ++ List.concat (map snd t)).
    apply Add_app. split; auto. rewrite in_app_iff; auto.
  - pose proof (NoDup_app_remove_l _ _ Hn) as N2.
    assert (IH' : NoDup (List.concat (map snd (add_group k i t)))) by (apply IH; auto).
    assert (A : forall x, In x (List.concat (map snd (add_group k i t))) <-> x = i \/ In x (List.concat (map snd t))) by (intros; apply add_group_members).
    clear IH N2. induction l as [|a l IHl]; cbn; auto. cbn in Hn. inversion_clear Hn. constructor.
    + rewrite in_app_iff in *. rewrite A. cbn in Hi. intuition.
    + apply IHl; auto. cbn in Hi; intuition.
Qed.
Lemma add_group_key k i gs g x : In g (add_group k i gs) -> In x (snd g) -> (x = i /\ fst g = k) \/ (exists g', In g' gs /\ fst g' = fst g /\ In x (snd g')).
Proof.
  induction gs as [|[k' l] t IH]; cbn.
  - intros [<-|[]]; cbn. intros [<-|[]]; auto.
  - destruct (key_eqb k' k) eqn:E; cbn.
    + intros [<-|H]; cbn. rewrite in_app_iff; cbn. intros [H|[<-|[]]]. right; exists (k', l); auto.
      left; split; auto. now apply key_eqb_true.
      intros; right; exists g; auto.
    + intros [<-|H] Hx; cbn in *. right; exists (k', l); auto. destruct (IH H Hx) as [A|(g' & A & B & C)]; auto.
      right; exists g'; auto.
Qed.

Lemma group_spec hs : forall pre gs,
  (forall i, In i (members gs) <-> (i < List.length pre)%nat /\ kh_c (nth i (pre ++ hs) dummy_halo) = None) ->
  NoDup (members gs) ->
  (forall g i, In g gs -> In i (snd g) -> let h := nth i (pre ++ hs) dummy_halo in fst g = (kh_class h, kh_z h)) ->
  let r := group_halos (List.length pre) hs gs in
  (forall i, In i (members r) <-> (i < List.length (pre ++ hs))%nat /\ kh_c (nth i (pre ++ hs) dummy_halo) = None) /\
  NoDup (members r) /\
  (forall g i, In g r -> In i (snd g) -> let h := nth i (pre ++ hs) dummy_halo in fst g = (kh_class h, kh_z h)).
Proof.
  induction hs as [|h t IH]; intros pre gs H1 H2 H3; cbn [group_halos].
  - rewrite app_nil_r in *. cbn zeta. auto.
  - assert (E : pre ++ h :: t = (pre ++ [h]) ++ t) by now rewrite <- app_assoc.
    assert (Eh : nth (List.length pre) (pre ++ h :: t) dummy_halo = h) by (rewrite app_nth2, Nat.sub_diag; auto).
    replace (S (List.length pre)) with (List.length (pre ++ [h])) by (rewrite app_length; cbn; lia).
    assert (Ni : ~ In (List.length pre) (members gs)) by (rewrite H1; lia).
    rewrite E in *. destruct (kh_c h) eqn:C.
    + apply IH; auto. intros i. rewrite H1, app_length; cbn. split; [intros []; split; auto; lia|].
      intros [L N]. split; auto. destruct (Nat.eq_dec i (List.length pre)) as [->|]; [|lia]. rewrite Eh in N. congruence.
    + apply IH.
      * intros i. rewrite add_group_members, H1, app_length; cbn. split.
        intros [->|[]]; split; auto; try lia. now rewrite Eh. intros [L N].
        destruct (Nat.eq_dec i (List.length pre)) as [->|]; auto. right; split; auto; lia.
      * apply add_group_NoDup; auto.
      * intros g i Hg Hi. destruct (add_group_key _ _ _ _ _ Hg Hi) as [[-> ->]|(g' & A & B & D)].
        cbn zeta. now rewrite Eh. rewrite <- B. apply H3; auto.
Qed.

Lemma set_at_length i c hs : List.length (set_at i c hs) = List.length hs.
Proof. revert i; induction hs as [|h t IH]; intros [|i]; cbn; auto. Qed.
Lemma set_at_nth i c hs j : nth_error (set_at i c hs) j =
  if Nat.eqb i j then option_map (fun h => with_c h c) (nth_error hs j) else nth_error hs j.
Proof.
  revert i j; induction hs as [|h t IH]; intros [|i] [|j]; cbn; auto; try (now destruct (Nat.eqb _ _)).
Qed.
Lemma set_many_length l hs : List.length (set_many l hs) = List.length hs.
Proof. revert hs; induction l as [|[i c] t IH]; intros hs; cbn; auto. rewrite IH. apply set_at_length. Qed.
Lemma set_many_out l hs j : ~ In j (map fst l) -> nth_error (set_many l hs) j = nth_error hs j.
Proof.
  revert hs; induction l as [|[i c] t IH]; intros hs H; cbn; auto. cbn in H.
  rewrite IH by tauto. rewrite set_at_nth. destruct (Nat.eqb_spec i j); auto. tauto.
Qed.
Lemma set_many_in l hs j c h : NoDup (map fst l) -> In (j, c) l -> nth_error hs j = Some h -> nth_error (set_many l hs) j = Some (with_c h c).
Proof.
  revert hs; induction l as [|[i d] t IH]; intros hs N Hin E; cbn; [destruct Hin|]. cbn in N. inversion_clear N as [|? ? Hi Hn].
  destruct Hin as [X|Hin].
  - injection X as -> ->. rewrite set_many_out by auto. rewrite set_at_nth, Nat.eqb_refl, E. reflexivity.
  - apply IH; auto. rewrite set_at_nth. destruct (Nat.eqb_spec i j); auto. subst. exfalso. apply Hi.
    apply in_map_iff. exists (j, c); auto.
Qed.

(** what a halo should be afterwards *)
Definition scalar_of (classes : nat -> kclass) (h : khalo) : result R :=
  nfw_concentration (classes (kh_class h)) (kh_mass h) (kh_z h) (kh_dev h).

Lemma group_values classes all g hs hs' :
  (forall i, In i (snd g) -> let h := nth i all dummy_halo in fst g = (kh_class h, kh_z h)) ->
  run_group classes all g hs = Ok hs' ->
  exists cs, Forall2 (fun i c => scalar_of classes (nth i all dummy_halo) = Ok c) (snd g) cs /\ hs' = set_many (combine (snd g) cs) hs.
Proof.
  intros K H. unfold run_group in H. cbv zeta in H. match type of H with context [@map ?A ?B ?f ?l] => remember (@map A B f l) as q eqn:Eq end.
  match type of H with bind ?m _ = _ => assert (X : forall cs, m = Ok cs <-> mapM (fun p => nfw_concentration (classes (fst (fst g))) (fst p) (snd (fst g)) (snd p)) q = Ok cs) end.
  { intros cs. clear Eq H. destruct q as [|p [|p' q]]; [apply (batch_scalar _ [])| |apply (batch_scalar _ (p :: p' :: q))]. cbn.
    destruct (nfw_concentration (classes (fst (fst g))) (fst p) (snd (fst g)) (snd p)); cbn; reflexivity. }
  match type of H with bind ?m _ = _ => destruct m as [cs|e] eqn:E end; cbn [bind] in H; [|discriminate].
  assert (hs' = set_many (combine (snd g) cs) hs) by congruence. exists cs; split; auto.
  pose proof (proj1 (X cs) eq_refl) as E'. clear E; rename E' into E. rewrite Eq, mapM_map in E. cbn [fst snd] in E. apply mapM_Forall2 in E.
  clear - E K. destruct g as [k l]; cbn in *. revert E K; induction 1; intros K; constructor.
  - specialize (K x (or_introl eq_refl)). cbn in K. subst k. exact H.
  - apply IHE. intros; apply K; now right.
Qed.

Lemma Forall2_combine_In {A B} (P : A -> B -> Prop) l l' a : Forall2 P l l' -> In a l -> exists b, In (a, b) (combine l l') /\ P a b.
Proof. induction 1; cbn; [tauto|]. intros [->|H1]. eauto. destruct (IHForall2 H1) as (b & ? & ?); eauto. Qed.
Lemma map_fst_combine {A B} (P : A -> B -> Prop) l l' : Forall2 P l l' -> map fst (combine l l') = l.
Proof. induction 1; cbn; f_equal; auto. Qed.

Lemma run_groups_spec classes all gs : forall hs hs',
  NoDup (members gs) ->
  (forall g i, In g gs -> In i (snd g) -> let h := nth i all dummy_halo in fst g = (kh_class h, kh_z h)) ->
  run_groups classes all gs hs = Ok hs' ->
  List.length hs' = List.length hs /\
  (forall j, ~ In j (members gs) -> nth_error hs' j = nth_error hs j) /\
  (forall j h, In j (members gs) -> nth_error hs j = Some h ->
    exists c, scalar_of classes (nth j all dummy_halo) = Ok c /\ nth_error hs' j = Some (with_c h c)).
Proof.
  induction gs as [|g t IH]; intros hs hs' N K H; cbn [run_groups] in H.
  - injection H as <-. repeat split; auto. intros ? ? [].
  - destruct (run_group classes all g hs) as [h1|e] eqn:E; cbn [bind] in H; [|discriminate].
    destruct (group_values _ _ _ _ _ (fun i => K g i (or_introl eq_refl)) E) as (cs & F & ->).
    unfold members in N. cbn in N. fold (members t) in N.
    assert (N1 : NoDup (snd g)) by (eapply NoDup_app_remove_r; eauto).
    assert (D : forall x, In x (snd g) -> ~ In x (members t)).
    { clear - N. induction (snd g) as [|a l IHl]; cbn in *; [tauto|]. inversion_clear N. intros x [->|Hx] Hm. apply H. rewrite in_app_iff; auto. eapply IHl; eauto. }
    destruct (IH _ _ (NoDup_app_remove_l _ _ N) (fun g i Hg => K g i (or_intror Hg)) H) as (L & O & I).
    rewrite set_many_length in L. split; auto. unfold members at 1 2; cbn; fold (members t).
    pose proof (map_fst_combine _ _ _ F) as M. split.
    + intros j Hj. rewrite in_app_iff in Hj. rewrite O by tauto. apply set_many_out. rewrite M. tauto.
    + intros j h Hj Eh. rewrite in_app_iff in Hj. destruct Hj as [Hj|Hj].
      * destruct (Forall2_combine_In _ _ _ _ F Hj) as (c & Hc & Hs). exists c; split; auto.
        rewrite O by (apply D; auto). apply set_many_in; auto. now rewrite M.
      * apply I; auto. rewrite set_many_out; auto. rewrite M. intros X. eapply D; eauto.
Qed.

Lemma run_groups_ok classes all gs : forall hs,
  (forall g i, In g gs -> In i (snd g) -> let h := nth i all dummy_halo in fst g = (kh_class h, kh_z h) /\ exists c, scalar_of classes h = Ok c) ->
  exists hs', run_groups classes all gs hs = Ok hs'.
Proof.
  induction gs as [|g t IH]; intros hs K; cbn [run_groups]. eauto.
  assert (G : exists h1, run_group classes all g hs = Ok h1).
  { unfold run_group. cbv zeta. match goal with |- context [@map ?A ?B ?f ?l] => remember (@map A B f l) as q eqn:Eq end.
    assert (exists cs, mapM (fun p => nfw_concentration (classes (fst (fst g))) (fst p) (snd (fst g)) (snd p)) q = Ok cs) as [cs E].
    { rewrite Eq, mapM_map. cbn [fst snd]. pose proof (fun i => K g i (or_introl eq_refl)) as Kg. cbn zeta in Kg. clear - Kg.
      induction (snd g) as [|i l IHl]; cbn. eauto. destruct (Kg i (or_introl eq_refl)) as [Ek [c Ec]].
      unfold scalar_of in Ec. replace (nfw_concentration (classes (fst (fst g))) (kh_mass (nth i all dummy_halo)) (snd (fst g)) (kh_dev (nth i all dummy_halo)))
        with (Ok c) by (rewrite Ek; symmetry; exact Ec). cbn. destruct IHl as [cs ->]. intros; apply Kg; now right. cbn; eauto. }
    clear Eq. destruct q as [|p [|p' q]].
    - rewrite (proj2 (batch_scalar _ _ _ _) E). cbn; eauto.
    - cbn in E. destruct (nfw_concentration (classes (fst (fst g))) (fst p) (snd (fst g)) (snd p)); cbn in *; [eauto|discriminate].
    - rewrite (proj2 (batch_scalar _ _ _ _) E). cbn; eauto. }
  destruct G as [h1 ->]. cbn [bind]. apply IH. intros g' i Hg. apply K; now right.
Qed.

Lemma F2_nth {A B} (P : A -> B -> Prop) l l' : List.length l = List.length l' ->
  (forall i a b, nth_error l i = Some a -> nth_error l' i = Some b -> P a b) -> Forall2 P l l'.
Proof.
  revert l'; induction l as [|a t IH]; intros [|b t'] L H; try discriminate L; constructor.
  apply (H 0%nat); reflexivity. apply IH. cbn in L; lia. intros i; apply (H (S i)).
Qed.

Lemma precompute_spec classes hs hs' : precompute_concentrations classes hs = Ok hs' ->
  Forall2 (fun h h' => match kh_c h with Some _ => h' = h | None => exists c, scalar_of classes h = Ok c /\ h' = with_c h c end) hs hs'.
Proof.
  unfold precompute_concentrations. intros H.
  destruct (group_spec hs [] []) as (A & B & C). cbn. intros; split; [tauto|lia]. constructor. intros ? ? [].
  cbn [List.length app] in A, B, C. destruct (run_groups_spec _ _ _ _ _ B C H) as (L & O & I).
  apply F2_nth; auto. intros i h h' E E'.
  assert (Li : (i < List.length hs)%nat) by (apply nth_error_Some; congruence).
  assert (En : nth i hs dummy_halo = h) by (apply nth_error_nth; auto).
  destruct (kh_c h) eqn:Ec.
  - rewrite O in E'. congruence. rewrite A, En. intros [_ X]; congruence.
  - destruct (I i h) as (c & Hc & X); auto. apply A. rewrite En; auto. rewrite En in Hc. exists c; split; auto. congruence.
Qed.
Lemma precompute_ok classes hs : (forall h, In h hs -> kh_c h = None -> exists c, scalar_of classes h = Ok c) ->
  exists hs', precompute_concentrations classes hs = Ok hs'.
Proof.
  intros H. unfold precompute_concentrations.
  destruct (group_spec hs [] []) as (A & B & C). cbn. intros; split; [tauto|lia]. constructor. intros ? ? [].
  cbn [List.length app] in A, B, C. apply run_groups_ok. intros g i Hg Hi h. split; [apply C; auto|].
  assert (M : In i (members (group_halos 0 hs []))). { unfold members. apply in_concat. exists (snd g). split; auto. now apply in_map. }
  apply A in M as [L N]. apply H; auto. apply nth_In; auto.
Qed.
