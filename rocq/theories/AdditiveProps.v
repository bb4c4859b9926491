(** C123: what a realization reports is additive over its halos, so a realization may be taken apart
    ([split_at_z], cuts) and its parts used separately; and the one thing that is not additive, the sheets
    contributed by the rendering classes. *)
From Verif Require Import Prelude RealizationModel RealizationSpec RealizationProofs RealizationProps.

(** ** Specification *)

(** The halos of [rz] are those of [a] together with those of [b]. *)
Definition parts (rz a b : Realz) : Prop := Permutation (rz_halos a ++ rz_halos b) (rz_halos rz).
(** Every subhalo in the lens plane knows its bound mass. *)
Definition lens_bound_known (zl : R) (hp : heap) (rz : Realz) : Prop :=
  forall r, In r (rz_halos rz) -> h_sub (hp r) = true -> h_z (hp r) = zl -> h_bound (hp r) <> None.
(** Every halo lists as many lens profiles as keyword dictionaries. *)
Definition ids_match (hp : heap) (rz : Realz) : Prop :=
  forall r, In r (rz_halos rz) -> List.length (h_ids (hp r)) = List.length (h_kwargs (hp r)).
(** Rendering classes return three lists of equal length. *)
Definition classes_aligned (rz : Realz) : Prop :=
  forall c, In (Some c) (rz_classes rz) -> forall k l h z1 z2 u, same_len3 (rc_sheets c k l h z1 z2 u).
(** The lens-model entries (name, redshift, keywords) in the three lists of [lensing_quantities]. *)
Definition entries (q : list string * list R * list kw * option Z) : list (string * R * kw) :=
  let '(names, zs, ks, _) := q in combine (combine names zs) ks.

(** ** Lemmas *)
Lemma kept_parts {A} (P : A -> Prop) (la lb l ka kb k : list A) :
  (forall x, P x \/ ~ P x) ->
  Permutation (la ++ lb) l -> kept P la ka -> kept P lb kb -> kept P l k -> Permutation (ka ++ kb) k.
Proof.
  intros Dec Hp Ka Kb Kl.
  assert (App : kept P (la ++ lb) (ka ++ kb)).
  { clear -Ka Kb. induction Ka; simpl; [exact Kb|constructor; auto|constructor; auto]. }
  clear Ka Kb. revert k Kl ka kb App.
  assert (G : forall l1 l2, Permutation l1 l2 -> forall k1 k2, kept P l1 k1 -> kept P l2 k2 -> Permutation k1 k2).
  { clear -Dec. induction 1 as [|x l l' H IH|x y l|l l' l'' H1 IH1 H2 IH2]; intros k1 k2 K1 K2.
    - inversion K1; inversion K2; subst. constructor.
    - inversion K1; inversion K2; subst; try contradiction; [constructor|]; auto.
    - inversion K1 as [|? ? ? ? K1'|? ? ? ? K1']; inversion K2 as [|? ? ? ? K2'|? ? ? ? K2']; subst;
        inversion K1'; inversion K2'; subst; try contradiction;
        match goal with A : kept P l ?u, B : kept P l ?v |- _ => assert (u = v) by (eapply kept_fun; eauto); subst end;
        try constructor; apply Permutation_refl.
    - assert (E : exists k, kept P l' k).
      { clear -Dec. induction l' as [|a l' [k IH]]; [exists []; constructor|].
        destruct (Dec a); [exists (a :: k)|exists k]; constructor; auto. }
      destruct E as [k K]. eapply Permutation_trans; [eapply IH1|eapply IH2]; eauto. }
  intros k Kl ka kb App. eapply G; eauto.
Qed.
Lemma plane_sum zl (hp : heap) l l' vs vs' :
  Permutation l l' ->
  Forall2 (fun r v => plane_mass zl (hp r) = Some v) l vs ->
  Forall2 (fun r v => plane_mass zl (hp r) = Some v) l' vs' -> rsum vs = rsum vs'.
Proof.
  intros P F F'.
  assert (G : forall l vs, Forall2 (fun r v => plane_mass zl (hp r) = Some v) l vs ->
            vs = map (fun r => match plane_mass zl (hp r) with Some v => v | None => 0 end) l).
  { induction 1 as [|r v l0 vs0 E H IH]; simpl; [reflexivity|]. rewrite E, IH. reflexivity. }
  rewrite (G _ _ F), (G _ _ F'). apply rsum_perm. apply Permutation_map. exact P.
Qed.
Lemma parts_In rz a b r : parts rz a b -> In r (rz_halos rz) <-> In r (rz_halos a) \/ In r (rz_halos b).
Proof.
  intros P. rewrite <- in_app_iff. split; apply Permutation_in; [symmetry|]; exact P.
Qed.

(** ** Theorems *)

(** C123. Counts in front of, at and behind any redshift add up over the parts. *)
Theorem C123_counts : forall hp rz a b z,
  parts rz a b ->
  (number_before hp rz z = number_before hp a z + number_before hp b z /\
   number_at hp rz z = number_at hp a z + number_at hp b z /\
   number_after hp rz z = number_after hp a z + number_after hp b z)%nat.
Proof.
  intros hp rz a b z P.
  assert (G : forall Q : ref -> Prop, (forall x, Q x \/ ~ Q x) -> forall la lb l,
     kept Q (rz_halos a) la -> kept Q (rz_halos b) lb -> kept Q (rz_halos rz) l ->
     List.length l = (List.length la + List.length lb)%nat).
  { intros Q D la lb l Ka Kb K. rewrite <- app_length. symmetry. apply Permutation_length.
    eapply kept_parts; eauto. }
  destruct (C08_count_before hp rz z) as [l1 [K1 ->]]. destruct (C08_count_before hp a z) as [l2 [K2 ->]].
  destruct (C08_count_before hp b z) as [l3 [K3 ->]].
  destruct (C08_count_at hp rz z) as [m1 [L1 ->]]. destruct (C08_count_at hp a z) as [m2 [L2 ->]].
  destruct (C08_count_at hp b z) as [m3 [L3 ->]].
  destruct (C08_count_after hp rz z) as [n1 [M1 ->]]. destruct (C08_count_after hp a z) as [n2 [M2 ->]].
  destruct (C08_count_after hp b z) as [n3 [M3 ->]].
  split; [|split]; (eapply G; [|eassumption|eassumption|eassumption]); intros x.
  - destruct (Rlt_dec (h_z (hp x)) z); auto.
  - destruct (Req_EM_T (h_z (hp x)) z); auto.
  - destruct (Rlt_dec z (h_z (hp x))); auto.
Qed.

(** The mass of every plane is the sum of what the parts have there. *)
Theorem C123_plane_mass : forall zl hp rz a b z,
  in_sync hp rz -> in_sync hp a -> in_sync hp b -> lens_bound_known zl hp rz -> parts rz a b ->
  exists ma mb, mass_at_z_exact zl hp a z = Ok ma /\ mass_at_z_exact zl hp b z = Ok mb /\
    mass_at_z_exact zl hp rz z = Ok (ma + mb).
Proof.
  intros zl hp rz a b z I IA IB L P.
  assert (LA : lens_bound_known zl hp a) by (intros r Hr; apply L; apply (parts_In _ _ _ _ P); auto).
  assert (LB : lens_bound_known zl hp b) by (intros r Hr; apply L; apply (parts_In _ _ _ _ P); auto).
  destruct (C09_mass_at_z zl hp rz z I L) as [pl [vs [K [F E]]]].
  destruct (C09_mass_at_z zl hp a z IA LA) as [pa [va [Ka [Fa Ea]]]].
  destruct (C09_mass_at_z zl hp b z IB LB) as [pb [vb [Kb [Fb Eb]]]].
  exists (rsum va), (rsum vb). split; [exact Ea|]. split; [exact Eb|]. rewrite E. f_equal.
  rewrite <- rsum_app. symmetry. eapply plane_sum; [|apply Forall2_app; eassumption|exact F].
  eapply (kept_parts (fun r => h_z (hp r) = z)); [|exact P| | |]; try eassumption.
  intros r. destruct (Req_EM_T (h_z (hp r)) z); auto.
Qed.

(** Without sheets, the lens models of the parts together are those of the whole. *)
Theorem C123_lens_models : forall zl DC sc area hp rz a b args,
  in_sync hp rz -> in_sync hp a -> in_sync hp b -> lens_bound_known zl hp rz -> ids_match hp rz ->
  classes_aligned rz -> classes_aligned a -> classes_aligned b -> parts rz a b ->
  exists q qa qb,
    lensing_quantities zl DC sc area hp rz false args = Ok q /\
    lensing_quantities zl DC sc area hp a false args = Ok qa /\
    lensing_quantities zl DC sc area hp b false args = Ok qb /\
    Permutation (entries qa ++ entries qb) (entries q).
Proof.
  intros zl DC sc area hp rz a b args I IA IB L M C CA CB P.
  assert (LA : lens_bound_known zl hp a) by (intros r Hr; apply L; apply (parts_In _ _ _ _ P); auto).
  assert (LB : lens_bound_known zl hp b) by (intros r Hr; apply L; apply (parts_In _ _ _ _ P); auto).
  assert (MA : ids_match hp a) by (intros r Hr; apply M; apply (parts_In _ _ _ _ P); auto).
  assert (MB : ids_match hp b) by (intros r Hr; apply M; apply (parts_In _ _ _ _ P); auto).
  destruct (C10_lensing_aligned zl DC sc area hp rz false args I M L C)
    as [n [z [k [ni [sk [sp [sz [E [S [_ [_ [Q _]]]]]]]]]]]].
  destruct (C10_lensing_aligned zl DC sc area hp a false args IA MA LA CA)
    as [n1 [z1 [k1 [ni1 [sk1 [sp1 [sz1 [E1 [S1 [_ [_ [Q1 _]]]]]]]]]]]].
  destruct (C10_lensing_aligned zl DC sc area hp b false args IB MB LB CB)
    as [n2 [z2 [k2 [ni2 [sk2 [sp2 [sz2 [E2 [S2 [_ [_ [Q2 _]]]]]]]]]]]].
  rewrite Bool.andb_false_r in S, S1, S2.
  destruct S as [-> [-> ->]]. destruct S1 as [-> [-> ->]]. destruct S2 as [-> [-> ->]].
  exists (n, z, k, ni), (n1, z1, k1, ni1), (n2, z2, k2, ni2).
  split; [exact E|]. split; [exact E1|]. split; [exact E2|]. unfold entries. rewrite Q, Q1, Q2. simpl.
  rewrite !app_nil_r. rewrite <- flat_map_app. apply Permutation_flat_map. exact P.
Qed.

(** With the sheets of the rendering classes, both halves of a split carry all of them: the lens models of
    the two halves contain every sheet of the whole twice. *)
Theorem C123_split_sheets : forall zl DC sc area hp rz z args,
  in_sync hp rz -> lens_bound_known zl hp rz -> ids_match hp rz -> classes_aligned rz ->
  rz_sheet rz = true -> sa_exact args = false ->
  exists q qa qb halos sheets ks ps zs,
    lensing_quantities zl DC sc area hp rz true args = Ok q /\
    lensing_quantities zl DC sc area hp (fst (split_at_z hp rz z)) true args = Ok qa /\
    lensing_quantities zl DC sc area hp (snd (split_at_z hp rz z)) true args = Ok qb /\
    mass_sheet_correction zl DC sc area hp rz args = Ok (ks, ps, zs) /\
    sheets = combine (combine ps zs) ks /\
    halos = flat_map (fun r => halo_entries (hp r)) (rz_halos rz) /\
    entries q = halos ++ sheets /\
    Permutation (entries qa ++ entries qb) (halos ++ sheets ++ sheets).
Proof.
  intros zl DC sc area hp rz z args I L M C Sh Ex.
  pose proof (C07_split hp rz z) as H. destruct (split_at_z hp rz z) as [a b]. cbn [fst snd].
  destruct H as [_ [_ [P [IA [IB [SA [SB _]]]]]]]. change (parts rz a b) in P.
  assert (LA : lens_bound_known zl hp a) by (intros r Hr; apply L; apply (parts_In _ _ _ _ P); auto).
  assert (LB : lens_bound_known zl hp b) by (intros r Hr; apply L; apply (parts_In _ _ _ _ P); auto).
  assert (MA : ids_match hp a) by (intros r Hr; apply M; apply (parts_In _ _ _ _ P); auto).
  assert (MB : ids_match hp b) by (intros r Hr; apply M; apply (parts_In _ _ _ _ P); auto).
  assert (CA : classes_aligned a) by (unfold classes_aligned; destruct SA as [_ [<- _]]; exact C).
  assert (CB : classes_aligned b) by (unfold classes_aligned; destruct SB as [_ [<- _]]; exact C).
  assert (G : forall x, same_setup rz x ->
     mass_sheet_correction zl DC sc area hp x args = mass_sheet_correction zl DC sc area hp rz args).
  { intros x [_ [E2 [E3 E4]]]. unfold mass_sheet_correction. rewrite Ex, <- E2, <- E3, <- E4. reflexivity. }
  destruct (C10_lensing_aligned zl DC sc area hp rz true args I M L C)
    as [n [z0 [k [ni [sk [sp [sz [E [S [_ [_ [Q _]]]]]]]]]]]].
  destruct (C10_lensing_aligned zl DC sc area hp a true args IA MA LA CA)
    as [n1 [z1 [k1 [ni1 [sk1 [sp1 [sz1 [E1 [S1 [_ [_ [Q1 _]]]]]]]]]]]].
  destruct (C10_lensing_aligned zl DC sc area hp b true args IB MB LB CB)
    as [n2 [z2 [k2 [ni2 [sk2 [sp2 [sz2 [E2 [S2 [_ [_ [Q2 _]]]]]]]]]]]].
  assert (ShA : rz_sheet a = true) by (destruct SA; congruence).
  assert (ShB : rz_sheet b = true) by (destruct SB; congruence).
  rewrite Sh in S. rewrite ShA in S1. rewrite ShB in S2. simpl in S, S1, S2.
  rewrite (G a SA), S in S1. rewrite (G b SB), S in S2.
  injection S1 as <- <- <-. injection S2 as <- <- <-.
  exists (n, z0, k, ni), (n1, z1, k1, ni1), (n2, z2, k2, ni2),
    (flat_map (fun r => halo_entries (hp r)) (rz_halos rz)), (combine (combine sp sz) sk), sk, sp, sz.
  split; [exact E|]. split; [exact E1|]. split; [exact E2|]. split; [exact S|]. split; [reflexivity|].
  split; [reflexivity|]. unfold entries. split; [exact Q|]. rewrite Q1, Q2.
  assert (PF := Permutation_flat_map (fun r => halo_entries (hp r)) P). rewrite flat_map_app in PF.
  rewrite <- PF, <- !app_assoc. apply Permutation_app_head.
  rewrite !app_assoc. apply Permutation_app_tail. apply Permutation_app_comm.
Qed.

(** ** Instances *)

(** The two halves of a split of [demo] are parts of it and meet every hypothesis above. *)
Example C123_example :
  let a := fst (split_at_z demo_heap demo (1/2)) in let b := snd (split_at_z demo_heap demo (1/2)) in
  parts demo a b /\ in_sync demo_heap demo /\ in_sync demo_heap a /\ in_sync demo_heap b /\
  lens_bound_known (1/2) demo_heap demo /\ ids_match demo_heap demo /\
  classes_aligned demo /\ classes_aligned a /\ classes_aligned b /\ rz_sheet demo = true /\
  rz_halos demo = [0; 1; 2; 3]%nat.
Proof.
  cbv zeta. pose proof (C07_split demo_heap demo (1/2)) as H.
  assert (C : classes_aligned demo) by (intros c [H0|[]]; discriminate).
  destruct (split_at_z demo_heap demo (1/2)) as [a b]. cbn [fst snd].
  destruct H as [_ [_ [P [IA [IB [SA [SB _]]]]]]].
  split; [exact P|]. split; [exact demo_sync|]. split; [exact IA|]. split; [exact IB|].
  split; [intros r H1 H2 _; apply demo_bound; auto|].
  split; [simpl; intros r [<-|[<-|[<-|[<-|[]]]]]; reflexivity|]. split; [exact C|].
  split; [unfold classes_aligned; destruct SA as [_ [<- _]]; exact C|].
  split; [unfold classes_aligned; destruct SB as [_ [<- _]]; exact C|]. split; reflexivity.
Qed.

(** A realization with one rendering class that contributes one negative sheet in the lens plane. *)
Definition sheet_class : RClass :=
  {| rc_name := "LINE_OF_SIGHT"%string;
     rc_sheets := fun _ _ _ _ _ _ => ([[("kappa"%string, -1)]], ["CONVERGENCE"%string], [1/2]) |}.
Definition sheeted : Realz := from_halos demo_heap [0; 2]%nat true [Some sheet_class] (fun _ => 0) (fun _ => 0).
(** Hence using both halves of a split in place of the whole is wrong as soon as a class contributes a sheet. *)
Theorem C123_halves_refuted : exists zl DC sc area hp rz z args q qa qb,
  in_sync hp rz /\ lens_bound_known zl hp rz /\ ids_match hp rz /\ classes_aligned rz /\
  lensing_quantities zl DC sc area hp rz true args = Ok q /\
  lensing_quantities zl DC sc area hp (fst (split_at_z hp rz z)) true args = Ok qa /\
  lensing_quantities zl DC sc area hp (snd (split_at_z hp rz z)) true args = Ok qb /\
  ~ Permutation (entries qa ++ entries qb) (entries q).
Proof.
  set (args := mkSheetArgs false 1 1 7 10 None None false).
  assert (I : in_sync demo_heap sheeted) by apply from_halos_sync.
  assert (L : lens_bound_known (1/2) demo_heap sheeted).
  { intros r Hr H2 _. apply demo_bound; auto. simpl in *. tauto. }
  assert (M : ids_match demo_heap sheeted) by (simpl; intros r [<-|[<-|[]]]; reflexivity).
  assert (C : classes_aligned sheeted).
  { intros c [H|[]]; injection H as <-. intros. simpl. repeat split. }
  destruct (C123_split_sheets (1/2) (fun z => z) (fun _ _ => 1) (fun _ => 1) demo_heap sheeted (1/2) args I L M C
              eq_refl eq_refl) as [q [qa [qb [hs [sh [ks [ps [zs [E [Ea [Eb [S [Esh [_ [Q P]]]]]]]]]]]]]]].
  exists (1/2), (fun z => z), (fun _ _ => 1), (fun _ => 1), demo_heap, sheeted, (1/2), args, q, qa, qb.
  repeat (split; [assumption|]). rewrite P, Q. intros PP. apply Permutation_length in PP.
  rewrite !app_length in PP. assert (Z : List.length sh = 1%nat); [|lia].
  subst sh. cbv in S. injection S as <- <- <-. reflexivity.
Qed.

Print Assumptions C123_counts.
Print Assumptions C123_plane_mass.
Print Assumptions C123_lens_models.
Print Assumptions C123_split_sheets.
Print Assumptions C123_halves_refuted.
