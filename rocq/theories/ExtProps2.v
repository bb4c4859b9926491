(** C39-C42: core collapse by mass, collapsed halos, cored halos, galaxies. *)
From Verif Require Import Prelude MassFnModel MassFnSpec ExtModel ExtSpec ExtProofs ExtProofs2 ExtProofs3 ExtProps.
From Coq Require Import Sorting.Sorted.
Local Open Scope string_scope.
Local Open Scope R_scope.
Local Open Scope list_scope.

(** ** C39 *)
(** The positions returned are increasing and are exactly those of the halos that collapse; the halo number [i] uses the
    [i]-th random number drawn; nothing else changes. *)
Theorem C39_selected : forall e rz msub mfield psub pfield s idx s',
  core_collapse_by_mass e rz msub mfield psub pfield s = Ok (idx, s') ->
  StronglySorted lt idx /\
  (forall i, In i idx <-> collapses s (xr_halos rz) msub mfield psub pfield i (xe_u e (xs_u s + i))) /\
  xs_u s' = (xs_u s + List.length (xr_halos rz))%nat /\ xs_h s' = xs_h s /\ xs_d s' = xs_d s /\ xs_n s' = xs_n s.
Proof.
  intros * H. unfold core_collapse_by_mass in H. destruct (negb _); [discriminate|]. destruct (negb _); [discriminate|].
  destruct (collapse_loop_spec _ _ _ _ _ _ _ _ _ _ H) as (-> & SS & _ & MEM). split; [exact SS|]. split; [exact MEM|]. auto.
Qed.
(** Every bin needs exactly one probability; nothing else can go wrong. *)
Theorem C39_succeeds : forall e rz msub mfield psub pfield s, valid s (xr_halos rz) ->
  (List.length msub = List.length psub /\ List.length mfield = List.length pfield <->
   returns (core_collapse_by_mass e rz msub mfield psub pfield s)) /\
  (List.length msub <> List.length psub \/ List.length mfield <> List.length pfield ->
   core_collapse_by_mass e rz msub mfield psub pfield s = Err EAssertionError).
Proof.
  intros * V. unfold core_collapse_by_mass. split.
  - split.
    + intros (L1 & L2). rewrite L1, L2, !Nat.eqb_refl. cbn [negb]. destruct (collapse_loop_total e msub mfield psub pfield L1 L2 (xr_halos rz) 0 s V) as (idx & s' & E).
      exists (idx, s'). exact E.
    + intros (x & E). destruct (Nat.eqb (List.length msub) _) eqn:E1; [|discriminate]. cbn [negb] in E. destruct (Nat.eqb (List.length mfield) _) eqn:E2; [|discriminate].
      apply Nat.eqb_eq in E1, E2. auto.
  - intros NE. destruct (Nat.eqb (List.length msub) _) eqn:E1; [|reflexivity]. cbn [negb]. destruct (Nat.eqb (List.length mfield) _) eqn:E2; [|reflexivity].
    apply Nat.eqb_eq in E1, E2. tauto.
Qed.
(** With all probabilities 1 exactly the TNFW halos inside a bin collapse, with all probabilities 0 none does (random
    numbers in (0,1)). *)
Theorem C39_certain : forall e rz msub mfield psub pfield s idx s',
  core_collapse_by_mass e rz msub mfield psub pfield s = Ok (idx, s') -> (forall k, 0 < xe_u e k < 1) ->
  ((forall p, In p (psub ++ pfield) -> p = PNum 1) ->
   forall i, In i idx <-> exists r h k, nth_error (xr_halos rz) i = Some r /\ nth_error (xs_h s) r = Some h /\ xh_mdef h = "TNFW" /\
     first_bin (mass_in (xh_mass h)) (if xh_sub h then msub else mfield) k) /\
  ((forall p, In p (psub ++ pfield) -> p = PNum 0) -> idx = []).
Proof.
  intros * H U. destruct (C39_selected _ _ _ _ _ _ _ _ _ H) as (_ & MEM & _).
  assert (LEN : List.length msub = List.length psub /\ List.length mfield = List.length pfield).
  { unfold core_collapse_by_mass in H. destruct (Nat.eqb (List.length msub) _) eqn:E1; [|discriminate]. cbn [negb] in H. destruct (Nat.eqb (List.length mfield) _) eqn:E2; [|discriminate].
    apply Nat.eqb_eq in E1, E2. auto. }
  split.
  - intros P1 i. rewrite MEM. split.
    + intros (r & h & k & p & A & B & C & D & _). exists r, h, k. auto.
    + intros (r & h & k & A & B & C & D). pose proof D as ((b & EB & _) & _). apply nth_error_lt in EB.
      assert (LK : (k < List.length (if xh_sub h then psub else pfield))%nat) by (destruct (xh_sub h); lia).
      apply nth_error_Some in LK. destruct (nth_error (if xh_sub h then psub else pfield) k) as [p|] eqn:EP; [|congruence].
      assert (p = PNum 1) as -> by (apply P1, in_or_app; apply nth_error_In in EP; destruct (xh_sub h); auto).
      exists r, h, k, (PNum 1). repeat (split; [assumption|]). cbn. specialize (U (xs_u s + i)%nat). lra.
  - intros P0. destruct idx as [|i t]; [reflexivity|]. exfalso. destruct (proj1 (MEM i) (or_introl eq_refl)) as (r & h & k & p & A & B & C & D & EP & F).
    assert (p = PNum 0) as -> by (apply P0, in_or_app; apply nth_error_In in EP; destruct (xh_sub h); auto). cbn in F. specialize (U (xs_u s + i)%nat). lra.
Qed.
Example C39_nonvacuous : exists idx s', core_collapse_by_mass demo_e (demo_rz [0; 1; 2]%nat) [(6, 7.5); (7, 9)] [(6, 9)] [PNum 1; PNum 0] [PFun (fun _ => 0.4)] demo_s = Ok (idx, s') /\ idx = [0]%nat.
Proof.
  destruct (C39_succeeds demo_e (demo_rz [0; 1; 2]%nat) [(6, 7.5); (7, 9)] [(6, 9)] [PNum 1; PNum 0] [PFun (fun _ => 0.4)] demo_s) as ((H & _) & _).
  { repeat constructor. }
  destruct (H (conj eq_refl eq_refl)) as ((idx & s') & E). exists idx, s'. split; [exact E|].
  destruct (C39_selected _ _ _ _ _ _ _ _ _ E) as (SS & MEM & _).
  assert (M : forall i, In i idx <-> i = 0%nat).
  { intros i. rewrite MEM. split.
    - intros (r & h & k & p & A & B & C & D & EP & F). destruct i as [|[|[|i]]]; [reflexivity| | |cbn in A; destruct i; discriminate].
      + injection A as <-. injection B as <-. cbn in D, EP. destruct k as [|[|k]]; [|discriminate|discriminate]. cbn in EP. injection EP as <-. cbn in F. lra.
      + injection A as <-. injection B as <-. discriminate.
    - intros ->. exists 0%nat, (demo_halo "TNFWSubhalo" "TNFW" 7 true 2 1), 0%nat, (PNum 1). cbn. repeat (split; [reflexivity|]). split; [|split; [reflexivity|lra]].
      split; [|intros j b L; lia]. exists (6, 7.5). split; [reflexivity|]. split; [left|]; unfold ten_to; apply Rpower_lt; cbn; lra. }
  destruct idx as [|a t]; [exfalso; apply (proj2 (M 0%nat) eq_refl)|]. assert (a = 0%nat) as -> by (apply M; now left).
  destruct t as [|b t]; [reflexivity|]. exfalso. assert (b = 0%nat) by (apply M; right; now left). subst b. inversion SS as [|? ? _ FA]; subst. inversion FA; lia.
Qed.

(** ** C40 *)
Lemma profile_checked e rz idx profile kw s x : add_core_collapsed_halos e rz idx profile kw s = Ok x ->
  In profile ["GNFW"; "SPL_CORE"; "TNFWC"; "CC_COMPOSITE"].
Proof.
  unfold add_core_collapsed_halos. destruct (existsb (String.eqb profile) _) eqn:E; [|discriminate]. intros _. apply existsb_exists in E as (y & I & E). apply String.eqb_eq in E. now subst.
Qed.
(** The halo at position [j] of the old realization is at position [j] of the new one. *)
Definition kept_or (P : nat -> nat -> nat -> xhalo -> xhalo -> Prop) (chosen : nat -> xhalo -> Prop) (s s' : xstate) (hs hs' : list nat) : Prop :=
  List.length hs' = List.length hs /\
  forall j r, nth_error hs j = Some r -> exists r' h h', nth_error hs' j = Some r' /\ nth_error (xs_h s) r = Some h /\ nth_error (xs_h s') r' = Some h' /\
    same_halo h h' /\ (~ chosen j h -> r' = r /\ h' = h) /\ (chosen j h -> (List.length (xs_h s) <= r')%nat /\ P j r r' h h').

(** TNFWC and CC_COMPOSITE: exactly the listed halos are replaced, by the profile asked for; no object and no dictionary
    that existed before is changed. *)
Theorem C40_collapsed_sidm : forall e rz idx profile kw s rz' s', profile = "TNFWC" \/ profile = "CC_COMPOSITE" ->
  add_core_collapsed_halos e rz idx profile kw s = Ok (rz', s') -> valid s (xr_halos rz) ->
  same_setting rz rz' /\ xr_shifted rz' = xr_shifted rz /\ halos_grow s s' /\ dicts_grow s s' /\
  kept_or (fun j r r' h h' => xh_mdef h = "TNFW" /\ exists p rt, collapse_request profile kw p /\ xe_rt e r = Ok rt /\ static_outcome e p rt s s' r r' h)
          (fun j h => listed idx j) s s' (xr_halos rz) (xr_halos rz').
Proof.
  intros * P H V. unfold add_core_collapsed_halos in H. destruct (negb _) in H; [discriminate|].
  apply sbind_Ok in H as (hs' & s1 & Hm & H). injection H as <- <-. split; [repeat split|]. split; [reflexivity|]. rewrite collapse_list_mapSi in Hm.
  set (Q := fun (i : nat) (s s' : xstate) (r r' : nat) => exists h h', nth_error (xs_h s) r = Some h /\ nth_error (xs_h s') r' = Some h' /\
    same_halo h h' /\ (~ listed idx i -> r' = r /\ h' = h) /\ (listed idx i -> (List.length (xs_h s) <= r')%nat /\ xh_mdef h = "TNFW" /\ exists p rt, collapse_request profile kw p /\ xe_rt e r = Ok rt /\ static_outcome e p rt s s' r r' h)).
  assert (STEP : forall i r s r' s', (r < List.length (xs_h s))%nat -> collapse_step e profile kw idx i r s = Ok (r', s') -> grow s s' /\ Q i s s' r r').
  { intros i r t r' t' L K. unfold collapse_step in K. destruct (is_in i idx) eqn:IN.
    - apply is_in_true in IN. destruct (collapse_one_sidm _ _ _ _ _ _ _ P K) as (G & h & p & E & RQ & O & EM). split; [exact G|].
      destruct (sidm_same_halo _ _ _ _ _ _ _ _ _ O) as (h' & E' & SH). exists h, h'. split; [exact E|]. split; [exact E'|]. split; [exact SH|].
      split; [contradiction|]. intros _. destruct O as (rt & ERT & O). destruct RQ as (T1 & T2 & T3). rewrite T1, T2 in O. destruct O as (_ & O).
      split; [destruct O as [(_ & x & h2 & _ & (A & _))|(_ & a & b & c & d & g & h2 & _ & _ & (A & _))]; exact A|].
      split; [exact EM|]. exists p, rt. split; [split; auto|]. auto.
    - injection K as <- <-. split; [apply grow_refl|]. apply nth_error_Some in L. destruct (nth_error (xs_h t) r) as [h|] eqn:E; [|congruence].
      exists h, h. split; [exact E|]. split; [exact E|]. split; [apply same_halo_refl|]. split; [auto|]. intros I. apply is_in_true in I. congruence. }
  destruct (mapSi_loop grow Q _ grow_refl grow_trans (fun a b G => halos_length _ _ (proj1 G)) STEP s) with (hs := xr_halos rz) (i := 0%nat) (s := s) (hs' := hs') (s1 := s1) as (G & LEN & MEM); [|exact V|apply grow_refl|exact Hm|].
  { intros i0 t0 t' t1 r r' LR (h & h' & E & E' & SH & N1 & N2) Ga Gb. exists h, h'.
    split; [eapply halos_back; [apply Ga|exact LR|exact E]|]. split; [eapply halos_nth; [apply Gb|exact E']|]. split; [exact SH|]. split; [exact N1|].
    intros I. destruct (N2 I) as (A & B & p & rt & C & D & F). pose proof (halos_length _ _ (proj1 Ga)) as LL. split; [lia|]. split; [exact B|]. exists p, rt. split; [exact C|]. split; [exact D|].
    destruct F as [(F1 & x & h2 & F2 & RP)|(F1 & a & b & c & d & g & h2 & F2 & F3 & RP)].
    - left. split; [exact F1|]. exists x, h2. split; [exact F2|]. eapply replaced_stable; [exact RP|exact LL|apply grow_later; exact Gb].
    - right. split; [exact F1|]. exists a, b, c, d, g, h2. split; [exact F2|]. split; [exact F3|]. eapply replaced_stable; [exact RP|exact LL|apply grow_later; exact Gb]. }
  split; [apply G|]. split; [apply G|]. split; [exact LEN|].
  intros j r EJ. destruct (MEM j r EJ) as (r' & E' & (h & h' & Q1)). exists r', h, h'. split; [exact E'|]. exact Q1.
Qed.

Lemma general_step e profile kw idx : profile = "GNFW" \/ profile = "SPL_CORE" -> forall i r s r' s', (r < List.length (xs_h s))%nat ->
  collapse_step e profile kw idx i r s = Ok (r', s') ->
  halos_grow s s' /\ exists h, nth_error (xs_h s) r = Some h /\
    (~ listed idx i -> r' = r /\ s' = s) /\ (listed idx i -> updated s s' (xh_args h) kw /\ exists h', general_profile profile s s' r r' h h').
Proof.
  intros P i r s r' s' L K. unfold collapse_step in K. destruct (is_in i idx) eqn:IN.
  - apply is_in_true in IN. destruct (collapse_one_general _ _ _ _ _ _ _ P K) as (h & h' & E & G & U & GP). split; [exact G|]. exists h. split; [exact E|].
    split; [contradiction|]. intros _. split; [exact U|eauto].
  - injection K as <- <-. split; [apply halos_refl|]. apply nth_error_Some in L. destruct (nth_error (xs_h s) r) as [h|] eqn:E; [|congruence].
    exists h. split; [reflexivity|]. split; [auto|]. intros I. apply is_in_true in I. congruence.
Qed.
(** dictionary [a] belongs to a listed halo *)
Definition used_by_listed (s : xstate) (idx : list Z) (i : nat) (hs : list nat) (a : nat) : Prop :=
  exists j r h, nth_error hs j = Some r /\ nth_error (xs_h s) r = Some h /\ listed idx (i + j)%nat /\ xh_args h = a.
Lemma updated_nth s s' i kw a d : updated s s' i kw -> nth_error (xs_d s) a = Some d ->
  nth_error (xs_d s') a = Some (if Nat.eqb a i then dict_update d kw else d).
Proof.
  intros (d0 & E0 & ->) E. destruct (Nat.eqb_spec a i) as [->|N].
  - replace d0 with d by congruence. apply nth_error_replace_eq. eapply nth_error_lt; eauto.
  - rewrite nth_error_replace_neq by auto. exact E.
Qed.
Lemma general_dicts e profile kw idx s : profile = "GNFW" \/ profile = "SPL_CORE" -> forall hs i s1 hs' s2,
  valid s hs -> halos_grow s s1 -> mapSi (collapse_step e profile kw idx) i hs s1 = Ok (hs', s2) ->
  List.length (xs_d s2) = List.length (xs_d s1) /\
  forall a d1, nth_error (xs_d s1) a = Some d1 -> exists d2, nth_error (xs_d s2) a = Some d2 /\
    (~ used_by_listed s idx i hs a -> d2 = d1) /\ (used_by_listed s idx i hs a -> overridden d1 kw d2) /\
    (forall d0, overridden d0 kw d1 -> overridden d0 kw d2).
Proof.
  intros P. induction hs as [|r t IH]; intros i s1 hs' s2 V G H; cbn [mapSi] in H.
  - injection H as <- <-. split; [reflexivity|]. intros a d1 E. exists d1. split; [exact E|]. split; [reflexivity|]. split; [|auto]. intros (j & r & h & X & _). destruct j; discriminate.
  - apply sbind_Ok in H as (r' & s3 & Hr & H). apply sbind_Ok in H as (t' & s4 & Ht & H). injection H as <- <-.
    inversion V as [|? ? L V']; subst. pose proof (halos_length _ _ G) as LL.
    destruct (general_step e profile kw idx P i r s1 r' s3 ltac:(lia) Hr) as (G1 & h & E & N1 & N2).
    pose proof (halos_back _ _ _ _ G L E) as E0.
    destruct (IH (S i) s3 t' s4 V' (halos_trans _ _ _ G G1) Ht) as (LD & MEM).
    assert (TL : forall a, used_by_listed s idx (S i) t a -> used_by_listed s idx i (r :: t) a).
    { intros a (j & r0 & h0 & A & B & C & D). exists (S j), r0, h0. cbn. replace (i + S j)%nat with (S i + j)%nat by lia. auto. }
    destruct (in_dec Z.eq_dec (Z.of_nat i) idx) as [IN|IN].
    + destruct (N2 IN) as (UP & _). split.
      { rewrite LD. destruct UP as (d0 & _ & ->). apply replace_at_length. }
      intros a d1 EA. pose proof (updated_nth _ _ _ _ _ _ UP EA) as EB. destruct (MEM _ _ EB) as (d2 & E2 & M1 & M2 & M3). exists d2. split; [exact E2|].
      destruct (Nat.eqb_spec a (xh_args h)) as [->|NE].
      * assert (UL : used_by_listed s idx i (r :: t) (xh_args h)) by (exists 0%nat, r, h; cbn; rewrite Nat.add_0_r; auto).
        split; [contradiction|]. split; [intros _; apply M3, dict_update_spec|]. intros d0 O. apply M3, overridden_again, O.
      * split; [intros NU; apply M1; intros X; apply NU, TL, X|]. split; [|exact M3]. intros (j & r0 & h0 & A & B & C & D). destruct j as [|j]; cbn in A.
        -- injection A as <-. replace h0 with h in * by congruence. congruence.
        -- apply M2. exists j, r0, h0. replace (S i + j)%nat with (i + S j)%nat by lia. auto.
    + destruct (N1 IN) as (_ & ->). split; [exact LD|]. intros a d1 EA. destruct (MEM _ _ EA) as (d2 & E2 & M1 & M2 & M3). exists d2. split; [exact E2|].
      split; [intros NU; apply M1; intros X; apply NU, TL, X|]. split; [|exact M3]. intros (j & r0 & h0 & A & B & C & D). destruct j as [|j]; cbn in A.
      * rewrite Nat.add_0_r in C. contradiction.
      * apply M2. exists j, r0, h0. replace (S i + j)%nat with (i + S j)%nat by lia. auto.
Qed.

(** GNFW and SPL_CORE: exactly the listed halos are replaced, but the keywords are written into the dictionary of the
    replaced halos, which other halos may share. *)
Theorem C40_collapsed_general : forall e rz idx profile kw s rz' s', profile = "GNFW" \/ profile = "SPL_CORE" ->
  add_core_collapsed_halos e rz idx profile kw s = Ok (rz', s') -> valid s (xr_halos rz) ->
  same_setting rz rz' /\ xr_shifted rz' = xr_shifted rz /\ halos_grow s s' /\
  kept_or (fun j r r' h h' => general_profile profile s s' r r' h h') (fun j h => listed idx j) s s' (xr_halos rz) (xr_halos rz') /\
  forall a d, nth_error (xs_d s) a = Some d -> exists d', nth_error (xs_d s') a = Some d' /\
    ((exists j r h, nth_error (xr_halos rz) j = Some r /\ nth_error (xs_h s) r = Some h /\ listed idx j /\ xh_args h = a) -> overridden d kw d') /\
    (~ (exists j r h, nth_error (xr_halos rz) j = Some r /\ nth_error (xs_h s) r = Some h /\ listed idx j /\ xh_args h = a) -> d' = d).
Proof.
  intros * P H V. unfold add_core_collapsed_halos in H. destruct (negb _) in H; [discriminate|].
  apply sbind_Ok in H as (hs' & s1 & Hm & H). injection H as <- <-. split; [repeat split|]. split; [reflexivity|]. rewrite collapse_list_mapSi in Hm.
  set (Q := fun (i : nat) (s s' : xstate) (r r' : nat) => exists h h', nth_error (xs_h s) r = Some h /\ nth_error (xs_h s') r' = Some h' /\
    same_halo h h' /\ (~ listed idx i -> r' = r /\ h' = h) /\ (listed idx i -> (List.length (xs_h s) <= r')%nat /\ general_profile profile s s' r r' h h')).
  assert (STEP : forall i r s r' s', (r < List.length (xs_h s))%nat -> collapse_step e profile kw idx i r s = Ok (r', s') -> halos_grow s s' /\ Q i s s' r r').
  { intros i r t r' t' L K. destruct (general_step e profile kw idx P i r t r' t' L K) as (G & h & E & N1 & N2). split; [exact G|].
    destruct (in_dec Z.eq_dec (Z.of_nat i) idx) as [IN|IN].
    - destruct (N2 IN) as (_ & h' & GP). exists h, h'. split; [exact E|]. split; [apply GP|]. split; [apply GP|]. split; [contradiction|]. intros _. split; [apply GP|exact GP].
    - destruct (N1 IN) as (-> & ->). exists h, h. split; [exact E|]. split; [exact E|]. split; [apply same_halo_refl|]. split; [auto|contradiction]. }
  destruct (mapSi_loop halos_grow Q _ halos_refl halos_trans halos_length STEP s) with (hs := xr_halos rz) (i := 0%nat) (s := s) (hs' := hs') (s1 := s1) as (G & LEN & MEM); [|exact V|apply halos_refl|exact Hm|].
  { intros i0 t0 t' t1 r r' LR (h & h' & E & E' & SH & N1 & N2) Ga Gb. exists h, h'.
    split; [eapply halos_back; [apply Ga|exact LR|exact E]|]. split; [eapply halos_nth; [apply Gb|exact E']|]. split; [exact SH|]. split; [exact N1|].
    intros I. destruct (N2 I) as (A & B1 & B2 & B3). pose proof (halos_length _ _ Ga) as LL. split; [lia|]. split; [lia|]. split; [eapply halos_nth; [exact Gb|exact B2]|exact B3]. }
  split; [exact G|]. split; [split; [exact LEN|]|].
  - intros j r EJ. destruct (MEM j r EJ) as (r' & E' & (h & h' & Q1)). exists r', h, h'. split; [exact E'|]. exact Q1.
  - intros a d E. destruct (general_dicts e profile kw idx s P _ _ _ _ _ V (halos_refl s) Hm) as (_ & MD). destruct (MD a d E) as (d' & E' & M1 & M2 & _).
    exists d'. split; [exact E'|]. split; [exact M2|exact M1].
Qed.
Theorem C40_unknown_profile : forall e rz idx profile kw s, ~ In profile ["GNFW"; "SPL_CORE"; "TNFWC"; "CC_COMPOSITE"] ->
  add_core_collapsed_halos e rz idx profile kw s = Err EException.
Proof.
  intros * N. unfold add_core_collapsed_halos. destruct (existsb (String.eqb profile) _) eqn:E; [|reflexivity].
  exfalso. apply N. apply existsb_exists in E as (y & I & E). apply String.eqb_eq in E. now subst.
Qed.
Definition demo_kw : xdict := [("gamma_inner", VNum 2.5); ("gamma_outer", VNum 3); ("x_match", VStr "c")].
Lemma demo_collapse : add_core_collapsed_halos demo_e (demo_rz [0; 1]%nat) [0%Z] "GNFW" demo_kw demo_s =
  Ok (demo_rz [3; 1]%nat, mkS (xs_h demo_s ++ [make (demo_halo "TNFWSubhalo" "TNFW" 7 true 2 1) "GeneralNFWSubhalo" "PSEUDO_DPL" (Some 10) 0]) [demo_kw] 0 0).
Proof.
  unfold add_core_collapsed_halos. cbn [existsb]. replace (String.eqb "GNFW" "GNFW") with true by reflexivity. cbn [orb negb].
  cbn [xr_halos demo_rz collapse_list is_in existsb Z.of_nat]. replace (0 =? 0)%Z with true by reflexivity. cbn [orb].
  unfold collapse_one. unfold sbind at 1. unfold sbind at 1. unfold sbind at 1. unfold get. cbn [nth_error xs_h demo_s]. cbn beta iota.
  replace (String.eqb "GNFW" "TNFWC") with false by reflexivity. replace (String.eqb "GNFW" "CC_COMPOSITE") with false by reflexivity. replace (String.eqb "GNFW" "GNFW") with true by reflexivity.
  cbn [xh_cls demo_halo]. replace (has_classes "TNFWSubhalo") with true by reflexivity. cbn [negb]. unfold sbind at 1. unfold update_dict. cbn [xh_args demo_halo nth_error xs_d xs_h xs_u xs_n].
  unfold alloc. cbn [xh_z make demo_halo xh_sub xh_args xh_r3d]. replace (Rltb 0 0.5) with true by (symmetry; apply Rltb_true; lra). reflexivity.
Qed.
Example C40_collapsed_general_nonvacuous : exists rz' s', add_core_collapsed_halos demo_e (demo_rz [0; 1]%nat) [0%Z] "GNFW" demo_kw demo_s = Ok (rz', s') /\ valid demo_s [0; 1]%nat.
Proof. eexists. eexists. split; [exact demo_collapse|]. repeat constructor. Qed.
Example C40_collapsed_sidm_nonvacuous : exists rz' s', add_core_collapsed_halos demo_e (demo_rz [0; 1]%nat) [1%Z; 7%Z] "TNFWC" [("x_core_halo", VNum 0.1)] demo_s = Ok (rz', s').
Proof.
  unfold add_core_collapsed_halos. replace (existsb (String.eqb "TNFWC") _) with true by reflexivity. cbn [negb]. 
  cbn [xr_halos demo_rz collapse_list]. replace (is_in 0 [1%Z; 7%Z]) with false by reflexivity. replace (is_in 1 [1%Z; 7%Z]) with true by reflexivity.
  unfold sbind at 1. unfold sbind at 1. unfold ret at 1. unfold sbind at 1. unfold sbind at 1. unfold collapse_one. unfold sbind at 1. unfold get. cbn [nth_error xs_h demo_s]. cbn beta iota.
  replace (String.eqb "TNFWC" "TNFWC") with true by reflexivity. unfold sbind at 1. cbn [kw_opt dict_get lift]. replace (String.eqb "x_core_halo" "x_core_halo") with true by reflexivity. cbn [lift].
  unfold toSIDM_single_halo. unfold sbind at 1. unfold get. cbn [nth_error xs_h demo_s]. cbn beta iota. cbn [xh_mdef demo_halo]. replace (String.eqb "TNFW" "TNFW") with true by reflexivity. cbn [negb].
  cbn [xe_rt xe_c demo_e lift sd_tc sd_toc sd_profile sd_xcore]. unfold sbind at 1. unfold lift. unfold sbind at 1.
  replace (String.eqb "TNFWC" "CC_COMPOSITE") with false by reflexivity. replace (String.eqb "TNFWC" "TNFWC") with true by reflexivity.
  unfold sbind at 1. unfold alloc_dict. unfold sbind at 1. unfold build. cbn [xh_sub demo_halo]. unfold sbind at 1. unfold alloc. cbn [xh_z make demo_halo].
  unfold ret. cbn. unfold sbind. replace (Rltb 0 0.5) with true by (symmetry; apply Rltb_true; lra). cbn. eexists. eexists. reflexivity.
Qed.
(** A halo that is not listed can end up with the keywords of the collapsed halos in its arguments, and a collapsed
    subhalo has lost its infall redshift and its normalisation. *)
Theorem C40_isolation_refuted : exists e rz idx profile kw s rz' s' r h, add_core_collapsed_halos e rz idx profile kw s = Ok (rz', s') /\
  valid s (xr_halos rz) /\ ~ listed idx 1 /\ nth_error (xr_halos rz) 1 = Some r /\ nth_error (xr_halos rz') 1 = Some r /\ nth_error (xs_h s') r = Some h /\
  (forall d, nth_error (xs_d s) (xh_args h) = Some d -> dict_get "gamma_inner" d = None) /\
  (forall d, nth_error (xs_d s') (xh_args h) = Some d -> dict_get "gamma_inner" d = Some (VNum 2.5)).
Proof.
  exists demo_e, (demo_rz [0; 1]%nat), [0%Z], "GNFW", demo_kw, demo_s. eexists. eexists. exists 1%nat, (demo_halo "TNFWFieldHalo" "TNFW" 8 false 1 2).
  split; [exact demo_collapse|]. split; [repeat constructor|]. split; [intros [X|[]]; discriminate|]. repeat (split; [reflexivity|]).
  split; intros d E; cbn in E; injection E as <-; reflexivity.
Qed.

(** ** C41 *)
(** CNFW: exactly the listed halos are replaced by cored NFW halos. *)
Theorem C41_cnfw : forall e rz idx beta s rz' s',
  add_cored_halos e rz idx beta "CNFW" s = Ok (rz', s') -> valid s (xr_halos rz) ->
  same_setting rz rz' /\ xr_shifted rz' = xr_shifted rz /\ halos_grow s s' /\ dicts_grow s s' /\
  kept_or (fun j r r' h h' => cored e beta s s' r r' h h') (fun j h => listed idx j) s s' (xr_halos rz) (xr_halos rz').
Proof.
  intros * H V. unfold add_cored_halos in H. apply sbind_Ok in H as (args & s0 & Ha & H). apply sbind_Ok in H as (hs' & s1 & Hm & H). injection H as <- <-.
  split; [repeat split|]. split; [reflexivity|]. rewrite cored_list_mapSi in Hm.
  assert (G0 : grow s s0 /\ xs_h s0 = xs_h s /\ nth_error (xs_d s0) args = Some [("beta", VNum beta)]).
  { injection Ha as <- <-. split; [split; [exists []; cbn; now rewrite app_nil_r|eexists; reflexivity]|]. split; [reflexivity|apply nth_error_snoc]. }
  destruct G0 as (G0 & EH & ED).
  set (Q := fun (i : nat) (s s' : xstate) (r r' : nat) => exists h h', nth_error (xs_h s) r = Some h /\ nth_error (xs_h s') r' = Some h' /\
    same_halo h h' /\ (~ listed idx i -> r' = r /\ h' = h) /\ (listed idx i -> (List.length (xs_h s) <= r')%nat /\ xh_cls h' = "CoreNFWHalo" /\ xh_mdef h' = "CNFW" /\
       xh_args h' = args /\ xh_r3d h' = None /\ xh_fixed h' = false /\ xh_norm h' = 1 /\
       (xh_sub h = true -> xh_zinf h' = Some (xe_zinf e r) /\ exists b, xe_bound e r = Ok b /\ xh_bound h' = Some b) /\
       (xh_sub h = false -> xh_zinf h' = None /\ xh_bound h' = None))).
  assert (STEP : forall i r s r' s', (r < List.length (xs_h s))%nat -> cored_step e "CNFW" beta args idx i r s = Ok (r', s') -> grow s s' /\ Q i s s' r r').
  { intros i r t r' t' L K. destruct (cored_step_cnfw _ _ _ _ _ _ _ _ _ K) as (G & h & E & N1 & N2). split; [exact G|].
    destruct (in_dec Z.eq_dec (Z.of_nat i) idx) as [IN|IN].
    - destruct (N2 IN) as (h' & A & B & C & D). exists h, h'. split; [exact E|]. split; [exact B|]. split; [exact C|]. split; [contradiction|]. intros _. split; [exact A|exact D].
    - exists h, h. pose proof (N1 IN) as ->. split; [exact E|]. split; [eapply halos_nth; [apply G|exact E]|]. split; [apply same_halo_refl|]. split; [auto|contradiction]. }
  destruct (mapSi_loop grow Q _ grow_refl grow_trans (fun a b G => halos_length _ _ (proj1 G)) STEP s) with (hs := xr_halos rz) (i := 0%nat) (s := s0) (hs' := hs') (s1 := s1) as (G & LEN & MEM); [|exact V|exact G0|exact Hm|].
  { intros i0 t0 t' t1 r r' LR (h & h' & E & E' & SH & N1 & N2) Ga Gb. exists h, h'.
    split; [eapply halos_back; [apply Ga|exact LR|exact E]|]. split; [eapply halos_nth; [apply Gb|exact E']|]. split; [exact SH|]. split; [exact N1|].
    intros I. destruct (N2 I) as (A & B). pose proof (halos_length _ _ (proj1 Ga)) as LL. split; [lia|exact B]. }
  pose proof (grow_trans _ _ _ G0 G) as GG. split; [apply GG|]. split; [apply GG|]. split; [exact LEN|].
  intros j r EJ. destruct (MEM j r EJ) as (r' & E' & (h & h' & A & B & C & N1 & N2)). exists r', h, h'. split; [exact E'|]. split; [exact A|]. split; [exact B|]. split; [exact C|]. split; [exact N1|].
  intros I. destruct (N2 I) as (L & D1 & D2 & D3 & D4 & D5 & D6 & D7 & D8). split; [exact L|]. split; [exact L|]. split; [exact B|]. split; [exact C|]. split; [exact D1|]. split; [exact D2|].
  split; [rewrite D3; eapply dicts_nth; [apply G|exact ED]|]. auto 10.
Qed.
(** With any other profile name every halo is replaced, whatever the list: the list is ignored, and so is the name. *)
Theorem C41_list_ignored_refuted :
  (forall e rz idx beta profile s rz' s', profile <> "CNFW" ->
    add_cored_halos e rz idx beta profile s = Ok (rz', s') -> valid s (xr_halos rz) ->
    same_setting rz rz' /\ xr_shifted rz' = xr_shifted rz /\ halos_grow s s' /\ dicts_grow s s' /\
    kept_or (fun j r r' h h' => xh_mdef h = "TNFW" /\ exists rt, xe_rt e r = Ok rt /\ replaced e "TNFWCHaloParametric" "TNFWC" (tnfwc_args e r rt (VNum beta)) s s' r r' h h')
            (fun j h => True) s s' (xr_halos rz) (xr_halos rz')) /\
  (forall e rz idx idx' beta profile profile' s, profile <> "CNFW" -> profile' <> "CNFW" -> add_cored_halos e rz idx beta profile s = add_cored_halos e rz idx' beta profile' s) /\
  exists e rz beta s rz' s', add_cored_halos e rz [] beta "TNFWC" s = Ok (rz', s') /\ valid s (xr_halos rz) /\ xr_halos rz = [1]%nat /\ xr_halos rz' = [3]%nat.
Proof.
  split; [|split].
  - intros * NP H V. unfold add_cored_halos in H. apply sbind_Ok in H as (args & s0 & Ha & H). apply sbind_Ok in H as (hs' & s1 & Hm & H). injection H as <- <-.
    split; [repeat split|]. split; [reflexivity|]. rewrite cored_list_mapSi in Hm.
    assert (G0 : grow s s0). { injection Ha as <- <-. split; [exists []; cbn; now rewrite app_nil_r|eexists; reflexivity]. }
    set (Q := fun (i : nat) (s s' : xstate) (r r' : nat) => exists h h', nth_error (xs_h s) r = Some h /\ xh_mdef h = "TNFW" /\
       exists rt, xe_rt e r = Ok rt /\ replaced e "TNFWCHaloParametric" "TNFWC" (tnfwc_args e r rt (VNum beta)) s s' r r' h h').
    assert (STEP : forall i r s r' s', (r < List.length (xs_h s))%nat -> cored_step e profile beta args idx i r s = Ok (r', s') -> grow s s' /\ Q i s s' r r').
    { intros i r t r' t' L K. destruct (cored_step_other _ _ _ _ _ _ _ _ _ _ NP K) as (G & h & rt & h' & A & B & C & D). split; [exact G|]. exists h, h'. eauto 6. }
    destruct (mapSi_loop grow Q _ grow_refl grow_trans (fun a b G => halos_length _ _ (proj1 G)) STEP s) with (hs := xr_halos rz) (i := 0%nat) (s := s0) (hs' := hs') (s1 := s1) as (G & LEN & MEM); [|exact V|exact G0|exact Hm|].
    { intros i0 t0 t' t1 r r' LR (h & h' & E & EM & rt & ERT & RP) Ga Gb. exists h, h'. split; [eapply halos_back; [apply Ga|exact LR|exact E]|]. split; [exact EM|]. exists rt. split; [exact ERT|].
      eapply replaced_stable; [exact RP|apply halos_length, Ga|apply grow_later; exact Gb]. }
    pose proof (grow_trans _ _ _ G0 G) as GG. split; [apply GG|]. split; [apply GG|]. split; [exact LEN|].
    intros j r EJ. destruct (MEM j r EJ) as (r' & E' & (h & h' & A & B & rt & C & RP)). exists r', h, h'. split; [exact E'|]. split; [exact A|]. pose proof RP as (R1 & R2 & R3 & _). split; [exact R2|]. split; [exact R3|].
    split; [tauto|]. intros _. split; [exact R1|]. split; [exact B|]. eauto.
  - intros * N1 N2. unfold add_cored_halos. apply sbind_ext. intros args s0. unfold sbind. rewrite !cored_list_mapSi.
    assert (X : forall hs i s, mapSi (cored_step e profile beta args idx) i hs s = mapSi (cored_step e profile' beta args idx') i hs s).
    { induction hs as [|r t IH]; intros i s2; cbn [mapSi]; [reflexivity|].
      replace (cored_step e profile beta args idx i r) with (cored_step e profile' beta args idx' i r).
      - apply sbind_ext. intros r' s3. unfold sbind. rewrite IH. reflexivity.
      - unfold cored_step. rewrite (proj2 (String.eqb_neq _ _) N1), (proj2 (String.eqb_neq _ _) N2). reflexivity. }
    rewrite X. reflexivity.
  - exists demo_e, (demo_rz [1]%nat), 0.1, demo_s.
    unfold add_cored_halos. unfold sbind at 1. unfold alloc_dict. cbn [xr_halos demo_rz cored_list]. unfold sbind at 1. unfold sbind at 1. unfold get. cbn [nth_error xs_h demo_s]. cbn beta iota.
    unfold sbind at 1. unfold lift. cbn [xe_c demo_e]. replace (String.eqb "TNFWC" "CNFW") with false by reflexivity.
    unfold sbind at 1. unfold toSIDM_single_halo. unfold sbind at 1. unfold get. cbn [nth_error xs_h demo_s]. cbn beta iota. cbn [xh_mdef demo_halo]. replace (String.eqb "TNFW" "TNFW") with true by reflexivity. cbn [negb].
    cbn [xe_rt xe_c demo_e sd_tc sd_toc sd_profile sd_xcore]. unfold sbind at 1. unfold lift. unfold sbind at 1.
    replace (String.eqb "TNFWC" "CC_COMPOSITE") with false by reflexivity. replace (String.eqb "TNFWC" "TNFWC") with true by reflexivity.
    unfold sbind at 1. unfold alloc_dict. unfold sbind at 1. unfold build. cbn [xh_sub demo_halo]. unfold sbind, alloc. cbn [xh_z make demo_halo].
    replace (Rltb 0 0.5) with true by (symmetry; apply Rltb_true; lra). cbn. eexists. eexists. split; [reflexivity|]. split; [repeat constructor|]. split; reflexivity.
Qed.
Example C41_cnfw_nonvacuous : exists rz' s', add_cored_halos demo_e (demo_rz [0; 1; 2]%nat) [0%Z; 1%Z] 0.1 "CNFW" demo_s = Ok (rz', s') /\ xr_halos rz' = [3; 4; 2]%nat.
Proof.
  unfold add_cored_halos. unfold sbind at 1. unfold alloc_dict. cbn [xr_halos demo_rz cored_list]. unfold sbind, get, lift, is_in, alloc. cbn.
  assert (C : Rltb 0 0.5 = true) by (apply Rltb_true; lra). repeat (rewrite C; cbn). eexists. eexists. split; reflexivity.
Qed.

(** ** C42 *)
(** Exactly the halos of at least the threshold mass become galaxies. *)
Theorem C42_injection : forall rz threshold model s rz' s',
  SIS_injection rz threshold model s = Ok (rz', s') -> valid s (xr_halos rz) ->
  same_setting rz rz' /\ halos_grow s s' /\ dicts_grow s s' /\
  kept_or (fun j r r' h h' => (model = "GNFW" \/ model = "SIS") /\ galaxy model s s' r r' h h') (fun j h => threshold <= xh_mass h) s s' (xr_halos rz) (xr_halos rz').
Proof.
  intros * H V. unfold SIS_injection in H. apply sbind_Ok in H as (hs' & s1 & Hm & H). injection H as <- <-. split; [repeat split|]. rewrite (mapS_mapSi _ _ 0%nat) in Hm.
  set (Q := fun (i : nat) (s s' : xstate) (r r' : nat) => exists h h', nth_error (xs_h s) r = Some h /\ nth_error (xs_h s') r' = Some h' /\ same_halo h h' /\
    (~ threshold <= xh_mass h -> r' = r /\ h' = h) /\ (threshold <= xh_mass h -> (List.length (xs_h s) <= r')%nat /\ (model = "GNFW" \/ model = "SIS") /\ galaxy model s s' r r' h h')).
  assert (STEP : forall i r s r' s', (r < List.length (xs_h s))%nat -> (fun _ : nat => sis_one model threshold) i r s = Ok (r', s') -> grow s s' /\ Q i s s' r r').
  { intros i r t r' t' L K. destruct (sis_spec _ _ _ _ _ _ K) as (G & h & E & N1 & N2). split; [exact G|]. destruct (Rle_dec threshold (xh_mass h)) as [T|T].
    - destruct (N2 T) as (M & h' & GA). exists h, h'. split; [exact E|]. split; [apply GA|]. split; [apply GA|]. split; [contradiction|]. intros _. split; [apply GA|]. auto.
    - exists h, h. pose proof (N1 ltac:(lra)) as ->. split; [exact E|]. split; [eapply halos_nth; [apply G|exact E]|]. split; [apply same_halo_refl|]. split; [auto|contradiction]. }
  destruct (mapSi_loop grow Q _ grow_refl grow_trans (fun a b G => halos_length _ _ (proj1 G)) STEP s) with (hs := xr_halos rz) (i := 0%nat) (s := s) (hs' := hs') (s1 := s1) as (G & LEN & MEM); [|exact V|apply grow_refl|exact Hm|].
  { intros i0 t0 t' t1 r r' LR (h & h' & E & E' & SH & N1 & N2) Ga Gb. exists h, h'.
    split; [eapply halos_back; [apply Ga|exact LR|exact E]|]. split; [eapply halos_nth; [apply Gb|exact E']|]. split; [exact SH|]. split; [exact N1|].
    intros I. destruct (N2 I) as (A & B & (C1 & C2 & C3 & C4 & C5 & C6 & C7 & C8)). pose proof (halos_length _ _ (proj1 Ga)) as LL. split; [lia|]. split; [exact B|].
    split; [lia|]. split; [eapply halos_nth; [apply Gb|exact C2]|]. repeat (split; [assumption|]). split; [|exact C8]. intros M. destruct (C7 M) as (D1 & D2 & D3). split; [exact D1|]. split; [exact D2|]. eapply dicts_nth; [apply Gb|exact D3]. }
  split; [apply G|]. split; [apply G|]. split; [exact LEN|].
  intros j r EJ. destruct (MEM j r EJ) as (r' & E' & (h & h' & Q1)). exists r', h, h'. split; [exact E'|]. exact Q1.
Qed.
(** An unknown model is refused as soon as a galaxy is needed, and only then. *)
Theorem C42_unknown_model : forall rz threshold model s, model <> "GNFW" -> model <> "SIS" -> valid s (xr_halos rz) ->
  (SIS_injection rz threshold model s = Err EException <-> exists r h, In r (xr_halos rz) /\ nth_error (xs_h s) r = Some h /\ threshold <= xh_mass h) /\
  (returns (SIS_injection rz threshold model s) <-> forall r h, In r (xr_halos rz) -> nth_error (xs_h s) r = Some h -> xh_mass h < threshold).
Proof.
  intros * N1 N2 V.
  assert (G : forall hs, valid s hs -> (mapS (sis_one model threshold) hs s = Err EException /\ (exists r h, In r hs /\ nth_error (xs_h s) r = Some h /\ threshold <= xh_mass h)) \/
     (mapS (sis_one model threshold) hs s = Ok (hs, s) /\ (forall r h, In r hs -> nth_error (xs_h s) r = Some h -> xh_mass h < threshold))).
  { induction hs as [|r t IH]; intros Vh; [right; split; [reflexivity|intros r h []]|]. inversion Vh as [|? ? L V']; subst.
    apply nth_error_Some in L. destruct (nth_error (xs_h s) r) as [h|] eqn:E; [|congruence].
    assert (SO : sis_one model threshold r s = if Rleb threshold (xh_mass h) then Err EException else Ok (r, s)).
    { unfold sis_one, sbind, get. rewrite E, (proj2 (String.eqb_neq _ _) N1), (proj2 (String.eqb_neq _ _) N2). destruct (Rleb threshold (xh_mass h)); reflexivity. }
    assert (ST : mapS (sis_one model threshold) (r :: t) s = if Rleb threshold (xh_mass h) then Err EException else
              match mapS (sis_one model threshold) t s with Ok (t', s') => Ok (r :: t', s') | Err e => Err e end).
    { cbn [mapS]. unfold sbind. rewrite SO. destruct (Rleb threshold (xh_mass h)); [reflexivity|]. destruct (mapS _ t s) as [[? ?]|]; reflexivity. }
    rewrite ST. clear ST SO. destruct (Rleb threshold (xh_mass h)) eqn:T.
    - left. apply Rleb_true in T. split; [reflexivity|]. exists r, h. split; [now left|auto].
    - apply Rleb_false in T. destruct (IH V') as [(A & r0 & h0 & I & B)|(A & B)]; rewrite A.
      + left. split; [reflexivity|]. exists r0, h0. split; [now right|exact B].
      + right. split; [reflexivity|]. intros r0 h0 [<-|I] E0; [replace h0 with h by congruence; exact T|eauto]. }
  unfold SIS_injection. unfold sbind. destruct (G _ V) as [(A & B)|(A & B)]; rewrite A.
  - split; [split; auto|]. split; [intros (x & X); discriminate|]. intros N. destruct B as (r & h & I & E & T). specialize (N r h I E). lra.
  - split; [split; [discriminate|]|split; [auto|intros _; eexists; reflexivity]]. intros (r & h & I & E & T). specialize (B r h I E). lra.
Qed.
(** The new realization does not remember that the halo positions have already been shifted. *)
Theorem C42_shift_forgotten_refuted :
  (forall rz threshold model s rz' s', SIS_injection rz threshold model s = Ok (rz', s') -> xr_shifted rz' = false) /\
  exists rz threshold model s rz' s', xr_shifted rz = true /\ SIS_injection rz threshold model s = Ok (rz', s') /\ xr_shifted rz' = false /\ xr_halos rz' = [0; 3]%nat.
Proof.
  split; [intros * H; unfold SIS_injection in H; apply sbind_Ok in H as (hs' & s1 & _ & H); injection H as <- _; reflexivity|].
  exists (demo_rz [0; 1]%nat), (ten_to 8), "GNFW", demo_s.
  assert (A : Rleb (ten_to 8) (ten_to 7) = false) by (apply Rleb_false; unfold ten_to; apply Rpower_lt; lra).
  assert (B : Rleb (ten_to 8) (ten_to 8) = true) by (apply Rleb_true; lra). assert (C : Rltb 0 0.5 = true) by (apply Rltb_true; lra).
  eexists. eexists. split; [reflexivity|]. unfold SIS_injection. cbn [xr_halos demo_rz mapS]. unfold sis_one, sbind, get, alloc. cbn [nth_error xs_h demo_s demo_halo xh_mass].
  repeat first [rewrite A | rewrite B | rewrite C | progress cbn]. split; [reflexivity|]. split; reflexivity.
Qed.
Example C42_injection_nonvacuous : exists rz' s', SIS_injection (demo_rz [0; 1]%nat) (ten_to 8) "SIS" demo_s = Ok (rz', s') /\ valid demo_s [0; 1]%nat /\ xr_halos rz' = [0; 3]%nat.
Proof.
  assert (A : Rleb (ten_to 8) (ten_to 7) = false) by (apply Rleb_false; unfold ten_to; apply Rpower_lt; lra).
  assert (B : Rleb (ten_to 8) (ten_to 8) = true) by (apply Rleb_true; lra). assert (C : Rltb 0 0.5 = true) by (apply Rltb_true; lra).
  eexists. eexists. unfold SIS_injection. cbn [xr_halos demo_rz mapS]. unfold sis_one, sbind, get. cbn [nth_error xs_h demo_s demo_halo xh_mass]. unfold alloc.
  repeat first [rewrite A | rewrite B | rewrite C | progress cbn]. split; [reflexivity|]. split; [repeat constructor|reflexivity].
Qed.
Example C42_unknown_model_nonvacuous : valid demo_s (xr_halos (demo_rz [0; 1]%nat)) /\ exists r h, In r (xr_halos (demo_rz [0; 1]%nat)) /\ nth_error (xs_h demo_s) r = Some h /\ ten_to 8 <= xh_mass h.
Proof. split; [repeat constructor|]. exists 1%nat, (demo_halo "TNFWFieldHalo" "TNFW" 8 false 1 2). cbn. split; [auto|]. split; [reflexivity|lra]. Qed.

Print Assumptions C39_selected.
Print Assumptions C39_succeeds.
Print Assumptions C39_certain.
Print Assumptions C40_collapsed_sidm.
Print Assumptions C40_collapsed_general.
Print Assumptions C40_unknown_profile.
Print Assumptions C40_isolation_refuted.
Print Assumptions C41_cnfw.
Print Assumptions C41_list_ignored_refuted.
Print Assumptions C42_injection.
Print Assumptions C42_unknown_model.
Print Assumptions C42_shift_forgotten_refuted.
