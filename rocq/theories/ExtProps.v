(** C38-C42: the extensions that replace halos of a realization by other profiles. *)
From Verif Require Import Prelude MassFnModel MassFnSpec ExtModel ExtSpec ExtProofs ExtProofs2 ExtProofs3.
From Coq Require Import Sorting.Sorted.
Local Open Scope string_scope.
Local Open Scope R_scope.
Local Open Scope list_scope.

Lemma sidm_same_halo e p u u' s s' r r' h : sidm_outcome e p u u' s s' r r' h -> exists h', nth_error (xs_h s') r' = Some h' /\ same_halo h h'.
Proof.
  assert (RP : forall cls mdef d h', replaced e cls mdef d s s' r r' h h' -> exists h', nth_error (xs_h s') r' = Some h' /\ same_halo h h').
  { intros cls mdef d h' (_ & A & B & _). eauto. }
  assert (KA : forall a t, kept_aged s' r r' h a t -> exists h', nth_error (xs_h s') r' = Some h' /\ same_halo h h').
  { intros a t (-> & h' & A & B & _). exists h'. split; [exact A|now apply same_object_halo]. }
  assert (AG : forall q l a t Q, aged_outcome e q l a t u u' s' r r' h Q -> (forall h', Q h' -> exists h', nth_error (xs_h s') r' = Some h' /\ same_halo h h') ->
            exists h', nth_error (xs_h s') r' = Some h' /\ same_halo h h').
  { intros q l a t Q [(_ & _ & K)|(_ & _ & [(_ & K)|(_ & h' & K)])] HQ; eauto. }
  assert (TM : forall rt, timed_outcome e p rt u u' s s' r r' h -> exists h', nth_error (xs_h s') r' = Some h' /\ same_halo h h').
  { intros rt (tc & l & _ & [(_ & _ & A)|[(_ & _ & A)|(_ & A)]]); (eapply AG; [exact A|]); intros h'.
    - apply RP.
    - intros (_ & X). eapply RP; eauto.
    - intros (a & b & c & d & g & _ & _ & X). eapply RP; eauto. }
  intros (rt & _ & O). destruct (sd_tc p); [eauto|]. destruct (sd_toc p); [eauto|].
  destruct O as (_ & [(_ & x & h' & _ & X)|(_ & a & b & c & d & g & h' & _ & _ & X)]); eapply RP; eauto.
Qed.
Lemma treated_same_halo e c tc u u' s s' r r' h : treated e c tc u u' s s' r r' h -> exists h', nth_error (xs_h s') r' = Some h' /\ same_halo h h'.
Proof.
  intros [(_ & O)|(_ & _ & -> & _ & E)]; [eapply sidm_same_halo; eauto|]. exists h. split; [exact E|apply same_halo_refl].
Qed.

(** ** C38 *)
(** Every halo in turn: the first bin containing it gives its collapse time, TNFW halos are converted with it. *)
Theorem C38_timescale : forall e rz c log_tc sigma s rz' s',
  toSIDM_from_timescale e rz c log_tc sigma s = Ok (rz', s') -> valid s (xr_halos rz) -> NoDup (xr_halos rz) ->
  same_setting rz rz' /\ xr_shifted rz' = xr_shifted rz /\ undisturbed s s' /\ matched s s' (xr_halos rz) (xr_halos rz') /\
  in_turn (fun k k' r r' => exists h i tc, nth_error (xs_h s) r = Some h /\ first_bin (lies_in (xh_mass h)) (cv_bins c) i /\
             timescale_of e log_tc sigma i (snd k) (snd k') tc /\ treated e c tc (fst k) (fst k') s s' r r' h)
          (drawn s) (drawn s') (xr_halos rz) (xr_halos rz').
Proof.
  intros * H V ND. unfold toSIDM_from_timescale in H. apply sbind_Ok in H as (hs' & s1 & Hm & H). injection H as <- <-.
  split; [repeat split|]. split; [reflexivity|]. cbn [xr_halos x_keep_shift x_rebuild].
  pose proof (mapS_frame _ _ (fun r s r' s' h => timescale_spec e c log_tc sigma r s r' s' h) (timescale_stable e c log_tc sigma) s _ _ _ _ Hm ND V (Nat.le_refl _) (fun _ _ => eq_refl)) as (T & _ & U).
  split; [exact U|]. split.
  { clear - T. induction T as [|k k1 k2 r r' t t' (h & E & i & tc & _ & _ & TR) T IH]; constructor; [|exact IH].
    destruct (treated_same_halo _ _ _ _ _ _ _ _ _ _ TR) as (h' & E' & SH). eauto. }
  clear - T. induction T as [|k k1 k2 r r' t t' (h & E & i & tc & A & B & C) T IH]; econstructor; [|exact IH]. exists h, i, tc. auto.
Qed.

(** The collapse time from the cross section of the bin and the NFW parameters of the halo. *)
Theorem C38_cross_section : forall e rz c log_sigma tfun s rz' s',
  toSIDM_from_cross_section e rz c log_sigma tfun s = Ok (rz', s') -> valid s (xr_halos rz) -> NoDup (xr_halos rz) ->
  same_setting rz rz' /\ xr_shifted rz' = xr_shifted rz /\ undisturbed s s' /\ matched s s' (xr_halos rz) (xr_halos rz') /\
  in_turn (fun k k' r r' => exists h i l rhos rs r200, nth_error (xs_h s) r = Some h /\ first_bin (lies_in (xh_mass h)) (cv_bins c) i /\
             nth_error log_sigma i = Some l /\ xe_nfw e r = Ok (rhos, rs, r200) /\ snd k' = snd k /\
             treated e c (match tfun with Some f => f rhos rs (ten_to l) | None => collapse_time rhos rs (ten_to l) end) (fst k) (fst k') s s' r r' h)
          (drawn s) (drawn s') (xr_halos rz) (xr_halos rz').
Proof.
  intros * H V ND. unfold toSIDM_from_cross_section in H. apply sbind_Ok in H as (hs' & s1 & Hm & H). injection H as <- <-.
  split; [repeat split|]. split; [reflexivity|]. cbn [xr_halos x_keep_shift x_rebuild].
  pose proof (mapS_frame _ _ (fun r s r' s' h => cross_spec e c log_sigma tfun r s r' s' h) (cross_stable e c log_sigma tfun) s _ _ _ _ Hm ND V (Nat.le_refl _) (fun _ _ => eq_refl)) as (T & _ & U).
  split; [exact U|]. split.
  { clear - T. induction T as [|k k1 k2 r r' t t' (h & E & i & l & a & b & d & _ & _ & _ & _ & TR) T IH]; constructor; [|exact IH].
    destruct (treated_same_halo _ _ _ _ _ _ _ _ _ _ TR) as (h' & E' & SH). eauto. }
  clear - T. induction T as [|k k1 k2 r r' t t' (h & E & i & l & a & b & d & A & B & C & D & F) T IH]; econstructor; [|exact IH].
  exists h, i, l, a, b, d. auto 10.
Qed.

(** Number, order and identity of the halos survive even when an object occurs twice in the realization. *)
Theorem C38_identity : forall e rz c s rz' s',
  (exists log_tc sigma, toSIDM_from_timescale e rz c log_tc sigma s = Ok (rz', s')) \/
  (exists log_sigma tfun, toSIDM_from_cross_section e rz c log_sigma tfun s = Ok (rz', s')) \/
  (exists p, toSIDM_halo_list e rz p (xr_halos rz) s = Ok (rz', s')) ->
  valid s (xr_halos rz) ->
  same_setting rz rz' /\ xr_shifted rz' = xr_shifted rz /\ undisturbed s s' /\ matched s s' (xr_halos rz) (xr_halos rz').
Proof.
  intros * H V.
  assert (G : forall f hs', mapS f (xr_halos rz) s = Ok (hs', s') ->
    (forall r s r' s' h, nth_error (xs_h s) r = Some h -> f r s = Ok (r', s') -> frame s s' r /\ exists h', nth_error (xs_h s') r' = Some h' /\ same_halo h h') ->
    (forall r s r' s', f r s = Ok (r', s') -> exists h, nth_error (xs_h s) r = Some h) ->
    undisturbed s s' /\ matched s s' (xr_halos rz) hs').
  { intros f hs' Hm HS HG. refine (mapS_matched f _ s _ s hs' s' Hm V (undisturbed_refl s)).
    intros r s1 r' s2 K. destruct (HG _ _ _ _ K) as (h & E). destruct (HS _ _ _ _ _ E K) as (F & h' & E' & SH). split; [eapply frame_undisturbed; eauto|eauto]. }
  destruct H as [(lt & sg & H)|[(ls & tf & H)|(p & H)]].
  - unfold toSIDM_from_timescale in H. apply sbind_Ok in H as (hs' & s1 & Hm & H). injection H as <- <-. split; [repeat split|]. split; [reflexivity|].
    refine (G _ _ Hm _ _).
    + intros r t r' t' h E K. destruct (timescale_spec _ _ _ _ _ _ _ _ _ E K) as (F & i & tc & _ & _ & TR). split; [exact F|]. eapply treated_same_halo; eauto.
    + intros r t r' t' K. unfold timescale_step in K. apply sbind_Ok in K as (h & t1 & Kg & _). apply get_Ok in Kg as (E & _). eauto.
  - unfold toSIDM_from_cross_section in H. apply sbind_Ok in H as (hs' & s1 & Hm & H). injection H as <- <-. split; [repeat split|]. split; [reflexivity|].
    refine (G _ _ Hm _ _).
    + intros r t r' t' h E K. destruct (cross_spec _ _ _ _ _ _ _ _ _ E K) as (F & i & l & a & b & d & _ & _ & _ & _ & TR). split; [exact F|]. eapply treated_same_halo; eauto.
    + intros r t r' t' K. unfold cross_section_step in K. apply sbind_Ok in K as (h & t1 & Kg & _). apply get_Ok in Kg as (E & _). eauto.
  - unfold toSIDM_halo_list in H. apply sbind_Ok in H as (hs' & s1 & Hm & H). injection H as <- <-. split; [repeat split|]. split; [reflexivity|].
    refine (G _ _ Hm _ _).
    + intros r t r' t' h E K. destruct (single_spec _ _ _ _ _ _ _ E K) as (_ & F & _ & O). split; [exact F|]. eapply sidm_same_halo; eauto.
    + intros r t r' t' K. unfold toSIDM_single_halo in K. apply sbind_Ok in K as (h & t1 & Kg & _). apply get_Ok in Kg as (E & _). eauto.
Qed.

(** A halo outside all bins, or an 'NFW' halo, makes the conversion fail. *)
Theorem C38_raises : forall e rz c s r h, valid s (xr_halos rz) -> NoDup (xr_halos rz) ->
  In r (xr_halos rz) -> nth_error (xs_h s) r = Some h ->
  (forall b, In b (cv_bins c) -> ~ lies_in (xh_mass h) b) \/ xh_mdef h = "NFW" ->
  (forall log_tc sigma, is_err (toSIDM_from_timescale e rz c log_tc sigma s)) /\
  (forall log_sigma tfun, is_err (toSIDM_from_cross_section e rz c log_sigma tfun s)).
Proof.
  intros * V ND I E BAD.
  assert (NB : forall tc i u u' s' r', first_bin (lies_in (xh_mass h)) (cv_bins c) i -> treated e c tc u u' s s' r r' h -> False).
  { intros tc i u u' s' r' ((b & EB & LI) & _) TR. destruct BAD as [N|N]; [apply (N b); [eapply nth_error_In; eauto|exact LI]|].
    destruct TR as [(X & _)|(_ & X & _)]; [rewrite N in X; discriminate|contradiction]. }
  split.
  - intros lt sg. destruct (toSIDM_from_timescale e rz c lt sg s) as [[rz' s']|] eqn:H; [exfalso|eexists; reflexivity].
    destruct (C38_timescale _ _ _ _ _ _ _ _ H V ND) as (_ & _ & _ & _ & T). revert I. clear - T E NB. induction T as [|k k1 k2 r0 r' t t' (h0 & i & tc & E0 & A & _ & C) T IH]; intros I; [exact I|].
    destruct I as [->|I]; [|auto]. replace h0 with h in * by congruence. eapply NB; eauto.
  - intros lt sg. destruct (toSIDM_from_cross_section e rz c lt sg s) as [[rz' s']|] eqn:H; [exfalso|eexists; reflexivity].
    destruct (C38_cross_section _ _ _ _ _ _ _ _ H V ND) as (_ & _ & _ & _ & T). revert I. clear - T E NB. induction T as [|k k1 k2 r0 r' t t' (h0 & i & l & a & b & d & E0 & A & _ & _ & _ & C) T IH]; intros I; [exact I|].
    destruct I as [->|I]; [|auto]. replace h0 with h in * by congruence. eapply NB; eauto.
Qed.

(** Otherwise the conversions succeed: every halo lies in a bin with a parameter, no halo is 'NFW', the halo properties
    needed can be evaluated. *)
Definition returns {A} (m : result A) : Prop := exists a, m = Ok a.
Definition convertible (e : xenv) (c : convert) (params : list R) (s : xstate) (r : nat) : Prop :=
  exists h, nth_error (xs_h s) r = Some h /\ 0 < xh_z h /\ xh_mdef h <> "NFW" /\
    (exists i l, first_bin (lies_in (xh_mass h)) (cv_bins c) i /\ nth_error params i = Some l) /\
    returns (xe_rt e r) /\ returns (xe_c e r) /\ returns (xe_bound e r) /\ returns (xe_nfw e r).
Lemma convert_total e c tc r s s0 h h0 :
  nth_error (xs_h s) r = Some h -> same_object h0 h -> nth_error (xs_h s0) r = Some h0 -> 0 < xh_z h0 -> xh_mdef h0 <> "NFW" ->
  cv_profile c = "TNFWC" \/ cv_profile c = "CC_COMPOSITE" ->
  returns (xe_rt e r) -> returns (xe_c e r) -> returns (xe_bound e r) -> returns (xe_nfw e r) ->
  exists r' s', (if (String.eqb (xh_mdef h) "TNFW" || String.eqb (xh_mdef h) "NFW")%bool then toSIDM_single_halo e (conv_sidm c tc) r else ret r) s = Ok (r', s').
Proof.
  intros E ((_ & _ & _ & EZ & _) & _ & EM & _) E0 Z NN P A B C D. rewrite <- EM in NN. rewrite (proj2 (String.eqb_neq _ _) NN), Bool.orb_false_r.
  destruct (String.eqb (xh_mdef h) "TNFW") eqn:T; [|unfold ret; eauto]. apply String.eqb_eq in T.
  destruct A as (? & A), B as (? & B), C as (? & C), D as (? & D).
  eapply single_total; try eassumption; try reflexivity. now rewrite EZ.
Qed.
Theorem C38_succeeds : forall e rz c params s,
  cv_profile c = "TNFWC" \/ cv_profile c = "CC_COMPOSITE" ->
  (forall r, In r (xr_halos rz) -> convertible e c params s r) ->
  (exists rz' s', toSIDM_from_timescale e rz c params None s = Ok (rz', s')) /\
  (forall sg, List.length sg = List.length params -> Forall (fun x => 0 <= x) sg -> exists rz' s', toSIDM_from_timescale e rz c params (Some sg) s = Ok (rz', s')) /\
  (forall tfun, exists rz' s', toSIDM_from_cross_section e rz c params tfun s = Ok (rz', s')).
Proof.
  intros * P CV.
  assert (G : forall f, (forall r s1, In r (xr_halos rz) -> undisturbed s s1 -> exists r' s', f r s1 = Ok (r', s')) -> (forall r s r' s', f r s = Ok (r', s') -> undisturbed s s') ->
    exists rz' s', (go hs' <- mapS f (xr_halos rz); ret (x_keep_shift rz (x_rebuild rz hs'))) s = Ok (rz', s')).
  { intros f T U. destruct (mapS_total f s (xr_halos rz) s T U (undisturbed_refl s)) as (hs' & s' & X). unfold sbind. rewrite X. unfold ret. eauto. }
  assert (FE : forall r h s1 i, first_bin (lies_in (xh_mass h)) (cv_bins c) i -> nth_error (xs_h s) r = Some h -> undisturbed s s1 ->
    exists h1, nth_error (xs_h s1) r = Some h1 /\ same_object h h1 /\ find_bin (in_bin (xh_mass h1)) 0 (cv_bins c) = Some i).
  { intros r h s1 i FI E U. destruct (proj1 U r h E) as (h1 & E1 & SO). exists h1. split; [exact E1|]. split; [exact SO|].
    replace (xh_mass h1) with (xh_mass h) by (symmetry; apply SO). apply (find_bin_first _ _ _ (in_bin_true (xh_mass h)) 0%nat i FI). }
  assert (UT : forall lt sg r s r' s', timescale_step e c lt sg r s = Ok (r', s') -> undisturbed s s').
  { intros lt sg r t r' t' K. pose proof K as K2. unfold timescale_step in K2. apply sbind_Ok in K2 as (h & t1 & Kg & _). apply get_Ok in Kg as (E & _).
    destruct (timescale_spec _ _ _ _ _ _ _ _ _ E K) as (F & _). eapply frame_undisturbed; eauto. }
  split; [|split].
  - apply G; [|apply UT]. intros r s1 I U. destruct (CV r I) as (h & E & Z & NN & (i & l & FI & EL) & A & B & C & D).
    destruct (FE r h s1 i FI E U) as (h1 & E1 & SO & FB). unfold timescale_step. unfold sbind at 1. unfold get. rewrite E1. rewrite FB.
    unfold sbind at 1. unfold sbind at 1. unfold lift, at_index. rewrite EL. unfold ret at 1. eapply convert_total; eauto.
  - intros sg LS NNg. apply G; [|apply UT]. intros r s1 I U. destruct (CV r I) as (h & E & Z & NN & (i & l & FI & EL) & A & B & C & D).
    destruct (FE r h s1 i FI E U) as (h1 & E1 & SO & FB). unfold timescale_step. unfold sbind at 1. unfold get. rewrite E1. rewrite FB.
    assert (LI : (i < List.length sg)%nat) by (rewrite LS; eapply nth_error_lt; eauto). apply nth_error_Some in LI. destruct (nth_error sg i) as [sd|] eqn:ES; [|congruence].
    assert (SD : 0 <= sd) by (rewrite Forall_forall in NNg; apply NNg; eapply nth_error_In; eauto).
    unfold sbind at 1. unfold sbind at 1. unfold lift at 1. unfold at_index at 1. rewrite EL. unfold sbind at 1. unfold lift, at_index. rewrite ES. unfold sbind at 1. unfold normal.
    replace (Rltb sd 0) with false by (symmetry; apply Rltb_false; lra). unfold ret at 1. 
    eapply convert_total; [exact E1|exact SO|exact E|..]; auto.
  - intros tf. apply G.
    + intros r s1 I U. destruct (CV r I) as (h & E & Z & NN & (i & l & FI & EL) & A & B & C & D).
      destruct (FE r h s1 i FI E U) as (h1 & E1 & SO & FB). unfold cross_section_step. unfold sbind at 1. unfold get. rewrite E1. rewrite FB.
      unfold sbind at 1. unfold lift at 1. unfold at_index. rewrite EL. pose proof D as D'. destruct D as ([[rhos rs] r200] & EN). unfold sbind at 1. unfold lift. rewrite EN.
      cbv zeta. eapply convert_total; eauto.
    + intros r t r' t' K. pose proof K as K2. unfold cross_section_step in K2. apply sbind_Ok in K2 as (h & t1 & Kg & _). apply get_Ok in Kg as (E & _).
      destruct (cross_spec _ _ _ _ _ _ _ _ _ E K) as (F & _). eapply frame_undisturbed; eauto.
Qed.

(** A demonstration population: a rescaled subhalo and a field halo with TNFW profile, a black hole, all sharing one
    argument dictionary; infall at redshift 2, ages linear in redshift, all uniform numbers 1/2. *)
Definition demo_halo cls mdef logm sub norm tag : xhalo :=
  mkX cls mdef (ten_to logm) 0.1 0.2 (Some 10) 0.5 sub true norm tag 0 None None None None.
Definition demo_s : xstate :=
  mkS [demo_halo "TNFWSubhalo" "TNFW" 7 true 2 1; demo_halo "TNFWFieldHalo" "TNFW" 8 false 1 2; demo_halo "BlackHole" "PT_MASS" 7 false 1 3] [[]] 0 0.
Definition demo_e : xenv :=
  {| xe_c := fun _ => Ok 10; xe_rt := fun _ => Ok 5; xe_nfw := fun r => if Nat.eqb r 2 then Err EAttributeError else Ok (1, 1, 10);
     xe_zeval := fun _ => 2; xe_zinf := fun _ => 2; xe_bound := fun _ => Ok 1; xe_m200 := fun _ => 3; xe_rmatch := fun _ _ => 1;
     xe_mass3d := fun _ r => r; xe_age := fun z zf => zf - z; xe_u := fun _ => 1/2; xe_n := fun _ => 0 |}.
Definition demo_c : convert := mkConv [(6, 7.5); (7, 9)] 0 true None 1 "TNFWC" 2.5 2 (-2) 1.
Definition demo_rz (hs : list nat) : xreal := mkXR hs true true [] (fun _ => 0) (fun _ => 0).
Lemma log_ten_to x : ln (ten_to x) / ln 10 = x.
Proof. unfold ten_to, Rpower. rewrite ln_exp. field. assert (0 < ln 10) by (rewrite <- ln_1; apply ln_increasing; lra). lra. Qed.
Lemma ten_to_pos x : 0 < ten_to x. Proof. apply exp_pos. Qed.
Lemma demo_lies x b : lies_in (ten_to x) b <-> fst b <= x < snd b.
Proof. unfold lies_in. rewrite log_ten_to. pose proof (ten_to_pos x). tauto. Qed.
Lemma demo_bin0 : first_bin (lies_in (ten_to 7)) (cv_bins demo_c) 0.
Proof. split; [exists (6, 7.5); split; [reflexivity|apply demo_lies; cbn; lra]|]. intros j b L; lia. Qed.
Lemma demo_bin1 : first_bin (lies_in (ten_to 8)) (cv_bins demo_c) 1.
Proof.
  split; [exists (7, 9); split; [reflexivity|apply demo_lies; cbn; lra]|]. intros [|j] b L E; [|lia]. cbn in E. injection E as <-. rewrite demo_lies. cbn. lra.
Qed.
Lemma demo_convertible r : (r < 2)%nat -> convertible demo_e demo_c [1; 0] demo_s r.
Proof.
  intros L. destruct r as [|[|r]]; [| |lia]; (eexists; split; [reflexivity|]); (split; [cbn; lra|]); (split; [discriminate|]);
    (split; [|repeat split; eexists; reflexivity]).
  - exists 0%nat, 1. split; [exact demo_bin0|reflexivity].
  - exists 1%nat, 0. split; [exact demo_bin1|reflexivity].
Qed.
Example C38_timescale_nonvacuous : exists rz' s', toSIDM_from_timescale demo_e (demo_rz [0; 1]%nat) demo_c [1; 0] None demo_s = Ok (rz', s') /\
  valid demo_s [0; 1]%nat /\ NoDup [0; 1]%nat.
Proof.
  destruct (C38_succeeds demo_e (demo_rz [0; 1]%nat) demo_c [1; 0] demo_s (or_introl eq_refl)) as ((rz' & s' & E) & _).
  { intros r I. apply demo_convertible. cbn in I. lia. }
  exists rz', s'. split; [exact E|]. split; [repeat constructor|]. repeat constructor; cbn; lia.
Qed.
Example C38_cross_section_nonvacuous : exists rz' s', toSIDM_from_cross_section demo_e (demo_rz [0; 1]%nat) demo_c [1; 0] None demo_s = Ok (rz', s').
Proof.
  destruct (C38_succeeds demo_e (demo_rz [0; 1]%nat) demo_c [1; 0] demo_s (or_introl eq_refl)) as (_ & _ & H).
  { intros r I. apply demo_convertible. cbn in I. lia. }
  apply H.
Qed.
Example C38_identity_nonvacuous : valid demo_s (xr_halos (demo_rz [1; 0; 1]%nat)) /\
  exists rz' s', toSIDM_from_timescale demo_e (demo_rz [1; 0; 1]%nat) demo_c [1; 0] (Some [0.1; 0.2]) demo_s = Ok (rz', s').
Proof.
  destruct (C38_succeeds demo_e (demo_rz [1; 0; 1]%nat) demo_c [1; 0] demo_s (or_introl eq_refl)) as (_ & H & _).
  { intros r I. apply demo_convertible. cbn in I. lia. }
  split; [repeat constructor|]. apply H; [reflexivity|]. repeat constructor; lra.
Qed.
Example C38_raises_nonvacuous : nth_error (xs_h demo_s) 1 = Some (demo_halo "TNFWFieldHalo" "TNFW" 8 false 1 2) /\
  forall b, In b (cv_bins (mkConv [(6, 7.5)] 0 true None 1 "TNFWC" 2.5 2 (-2) 1)) -> ~ lies_in (ten_to 8) b.
Proof. split; [reflexivity|]. intros b [<-|[]]. rewrite demo_lies. cbn. lra. Qed.
Example C38_succeeds_nonvacuous : forall r, In r [0; 1]%nat -> convertible demo_e demo_c [1; 0] demo_s r.
Proof. intros r I. apply demo_convertible. cbn in I. lia. Qed.

(** A population with an object without NFW parameters (a black hole) can be converted with collapse times but not with
    cross sections. *)
Theorem C38_cross_section_refuted :
  (forall e rz c s r, valid s (xr_halos rz) -> NoDup (xr_halos rz) -> In r (xr_halos rz) -> is_err (xe_nfw e r) ->
     forall log_sigma tfun, is_err (toSIDM_from_cross_section e rz c log_sigma tfun s)) /\
  exists e rz c params s, valid s (xr_halos rz) /\ NoDup (xr_halos rz) /\
    returns (toSIDM_from_timescale e rz c params None s) /\ forall tfun, is_err (toSIDM_from_cross_section e rz c params tfun s).
Proof.
  assert (G : forall e rz c s r, valid s (xr_halos rz) -> NoDup (xr_halos rz) -> In r (xr_halos rz) -> is_err (xe_nfw e r) ->
     forall log_sigma tfun, is_err (toSIDM_from_cross_section e rz c log_sigma tfun s)).
  { intros * V ND I (x & EX) ls tf. destruct (toSIDM_from_cross_section e rz c ls tf s) as [[rz' s']|] eqn:H; [exfalso|eexists; reflexivity].
    destruct (C38_cross_section _ _ _ _ _ _ _ _ H V ND) as (_ & _ & _ & _ & T). revert I. clear - T EX.
    induction T as [|k k1 k2 r0 r' t t' (h0 & i & l & a & b & d & _ & _ & _ & A & _) T IH]; intros I; [exact I|].
    destruct I as [->|I]; [congruence|auto]. }
  split; [exact G|].
  exists demo_e, (demo_rz [2]%nat), demo_c, [1; 0], demo_s.
  assert (V : valid demo_s (xr_halos (demo_rz [2]%nat))) by (repeat constructor). assert (ND : NoDup (xr_halos (demo_rz [2]%nat))) by (repeat constructor; cbn; lia).
  split; [exact V|]. split; [exact ND|]. split; [|intros tf; apply (G _ _ _ _ 2%nat V ND); [now left|eexists; reflexivity]].
  unfold toSIDM_from_timescale. cbn [xr_halos demo_rz mapS]. unfold timescale_step. unfold sbind at 1. unfold sbind at 1. unfold sbind at 1. unfold get. cbn [nth_error xs_h demo_s]. cbn beta iota. change (xh_mass (demo_halo "BlackHole" "PT_MASS" 7 false 1 3)) with (ten_to 7).
  rewrite (find_bin_first _ _ _ (in_bin_true (ten_to 7)) 0%nat 0%nat demo_bin0). cbn. eexists. reflexivity.
Qed.

(** The converted object starts with normalisation 1 and a free position: a rescaled halo loses its factor. *)
Theorem C38_normalisation_refuted :
  (forall e p s s' r r' h, sidm_outcome e p (xs_u s) (xs_u s') s s' r r' h -> (List.length (xs_h s) <= r')%nat ->  (r < List.length (xs_h s))%nat ->
     exists h', nth_error (xs_h s') r' = Some h' /\ xh_norm h' = 1 /\ xh_fixed h' = false) /\
  exists e rz c params s rz' s' r r' h h', toSIDM_from_timescale e rz c params None s = Ok (rz', s') /\ xr_halos rz = [r] /\ xr_halos rz' = [r'] /\
    nth_error (xs_h s) r = Some h /\ nth_error (xs_h s') r' = Some h' /\ xh_norm h = 2 /\ xh_fixed h = true /\ xh_norm h' = 1 /\ xh_fixed h' = false.
Proof.
  split.
  - intros * (rt & _ & O) L1 L2.
    assert (RP : forall cls mdef d h', replaced e cls mdef d s s' r r' h h' -> exists h', nth_error (xs_h s') r' = Some h' /\ xh_norm h' = 1 /\ xh_fixed h' = false).
    { intros cls mdef d h' (_ & A & _ & _ & _ & _ & B & C & _). eauto. }
    assert (AG : forall q l a t Q, aged_outcome e q l a t (xs_u s) (xs_u s') s' r r' h Q -> (forall h', Q h' -> exists h', nth_error (xs_h s') r' = Some h' /\ xh_norm h' = 1 /\ xh_fixed h' = false) ->
            exists h', nth_error (xs_h s') r' = Some h' /\ xh_norm h' = 1 /\ xh_fixed h' = false).
    { intros q l a t Q [(_ & _ & (K & _))|(_ & _ & [(_ & (K & _))|(_ & h' & K)])] HQ; try lia. eauto. }
    assert (TM : timed_outcome e p rt (xs_u s) (xs_u s') s s' r r' h -> exists h', nth_error (xs_h s') r' = Some h' /\ xh_norm h' = 1 /\ xh_fixed h' = false).
    { intros (tc & l & _ & [(_ & _ & A)|[(_ & _ & A)|(_ & A)]]); (eapply AG; [exact A|]); intros h'.
      - apply RP.
      - intros (_ & X). eapply RP; eauto.
      - intros (a & b & c & d & g & _ & _ & X). eapply RP; eauto. }
    destruct (sd_tc p); [auto|]. destruct (sd_toc p); [auto|].
    destruct O as (_ & [(_ & x & h' & _ & X)|(_ & a & b & c & d & g & h' & _ & _ & X)]); eapply RP; eauto.
  - destruct (C38_succeeds demo_e (demo_rz [0]%nat) demo_c [1; 0] demo_s (or_introl eq_refl)) as ((rz' & s' & E) & _).
    { intros r I. apply demo_convertible. cbn in I. lia. }
    exists demo_e, (demo_rz [0]%nat), demo_c, [1; 0], demo_s, rz', s'.
    assert (V : valid demo_s (xr_halos (demo_rz [0]%nat))) by (repeat constructor). assert (ND : NoDup (xr_halos (demo_rz [0]%nat))) by (repeat constructor; cbn; lia).
    destruct (C38_timescale _ _ _ _ _ _ _ _ E V ND) as (_ & _ & _ & _ & T).
    cbn [xr_halos demo_rz] in T. inversion T as [|k k1 k2 r r' t t' (h & i & tc & EH & FI & TS & TR) T2]; subst. inversion T2; subst.
    injection EH as <-. assert (i = 0%nat) as ->.
    { pose proof (find_bin_first _ _ _ (in_bin_true _) 0%nat _ FI) as A. pose proof (find_bin_first _ _ _ (in_bin_true _) 0%nat _ demo_bin0) as B. cbn [xh_mass demo_halo Nat.add] in A, B. congruence. }
    destruct TS as (_ & l & EL & ->). injection EL as <-.
    destruct TR as [(_ & (rt & ERT & O))|(X & _)]; [|now cbn in X]. cbn [sd_tc conversion] in O.
    destruct O as (tc & lam & TO & [(_ & _ & A)|[(_ & X & _)|(X & _)]]); [|discriminate|discriminate].
    destruct TO as (TO & _). destruct (TO (or_introl eq_refl)) as (ETC & EL & _). injection ETC as <-. specialize (EL eq_refl). injection EL as <-.
    assert (T10 : ten_to 1 = 10) by (unfold ten_to; apply Rpower_1; lra). assert (T0 : ten_to 0 = 1) by (unfold ten_to; apply Rpower_O; lra).
    assert (AG : age_of demo_e (demo_halo "TNFWSubhalo" "TNFW" 7 true 2 1) (xe_zeval demo_e 0) (ten_to 0) / ten_to 1 = 0.95).
    { unfold age_of. cbn. rewrite T10, T0, Rmin_left by lra. lra. }
    change (cv_log_scaling demo_c) with 0 in A. rewrite AG in A. destruct A as [(X & _)|(_ & _ & [(X & _)|(_ & h' & RP)])]; [cbn in X; lra|cbn in X; lra|].
    destruct RP as (_ & B & _ & _ & _ & _ & C & D & _). exists 0%nat, r', (demo_halo "TNFWSubhalo" "TNFW" 7 true 2 1), h'.
    split; [exact E|]. split; [reflexivity|]. split; [congruence|]. split; [reflexivity|]. split; [exact B|]. auto.
Qed.

(** Asking for an age of [q] collapse times: every TNFW halo ends up at exactly [q] collapse times, provided the time from
    redshift 10 to the halo is the sum of the times before and after infall. *)
Theorem C38_requested_age : forall e p q r s r' s' h,
  toSIDM_single_halo e p r s = Ok (r', s') -> nth_error (xs_h s) r = Some h ->
  sd_toc p = Some q -> sd_profile p = "TNFWC" -> q <> 0 -> xe_age e (xh_z h) 10 <> 0 ->
  (xh_sub h = true -> xe_age e (Rmin (xe_zeval e r) 10) 10 + xe_age e (xh_z h) (Rmin (xe_zeval e r) 10) = xe_age e (xh_z h) 10) ->
  exists rt, xe_rt e r = Ok rt /\ let age := xe_age e (xh_z h) 10 in
    (sd_evolving p = true -> aged_outcome e (sd_prob p) (sd_cut p) age q (xs_u s) (xs_u s') s' r r' h
       (replaced e "TNFWCHaloEvolving" "TNFWC" (evolving_args e r rt (age / q) 1) s s' r r' h)) /\
    (sd_evolving p = false -> aged_outcome e (sd_prob p) (sd_threshold p) age q (xs_u s) (xs_u s') s' r r' h
       (fun h' => xh_evo h' = Some (age, q) /\ replaced e "TNFWCHaloParametric" "TNFWC" (tnfwc_args e r rt (onum (sd_xcore p))) s s' r r' h h')).
Proof.
  intros * H E EQ EP Q0 A0 ADD. destruct (single_spec _ _ _ _ _ _ _ E H) as (_ & _ & _ & (rt & ERT & O)). exists rt. split; [exact ERT|]. intros age.
  rewrite EQ in O. assert (T : timed_outcome e p rt (xs_u s) (xs_u s') s s' r r' h) by (destruct (sd_tc p); exact O). clear O.
  destruct T as (tc & l & (_ & T2) & OUT). destruct (T2 q EQ EP) as (-> & ->). cbv zeta in OUT.
  assert (AG : age_of e h (xe_zeval e r) 1 = age). { unfold age_of, age. destruct (xh_sub h); [|reflexivity]. rewrite Rmult_1_l. auto. }
  rewrite AG in OUT. fold age in OUT. replace (age / (age / q)) with q in OUT by (unfold age; field; split; assumption).
  split; intros EV.
  - destruct OUT as [(_ & _ & X)|[(_ & X & _)|(X & _)]]; [exact X|congruence|congruence].
  - destruct OUT as [(_ & X & _)|[(_ & _ & X)|(X & _)]]; [congruence|exact X|congruence].
Qed.
Example C38_requested_age_nonvacuous : exists p r' s' h, toSIDM_single_halo demo_e p 0 demo_s = Ok (r', s') /\ nth_error (xs_h demo_s) 0 = Some h /\
  sd_toc p = Some 0.5 /\ sd_profile p = "TNFWC" /\ xe_age demo_e (xh_z h) 10 <> 0 /\ xh_sub h = true /\
  xe_age demo_e (Rmin (xe_zeval demo_e 0) 10) 10 + xe_age demo_e (xh_z h) (Rmin (xe_zeval demo_e 0) 10) = xe_age demo_e (xh_z h) 10.
Proof.
  set (p := mkSidm None None None 0.15 true 1 "TNFWC" 2.6 1.6 (-1.9) (Some 0.5) 1).
  assert (X : exists r' s', toSIDM_single_halo demo_e p 0 demo_s = Ok (r', s')).
  { unfold toSIDM_single_halo. unfold sbind at 1. unfold get. cbn [nth_error xs_h demo_s]. cbn beta iota. cbn [xh_mdef demo_halo].
    replace (String.eqb "TNFW" "TNFW") with true by reflexivity. cbn [negb]. unfold sbind at 1. unfold lift at 1. cbn [xe_rt demo_e]. unfold sbind at 1. unfold lift at 1. cbn [xe_c demo_e].
    cbn [p sd_tc sd_toc sd_profile sd_evolving]. replace (String.eqb "TNFWC" "TNFWC") with true by reflexivity. cbn [xh_z xh_sub demo_halo].
    replace (Rltb 0 0.5) with true by (symmetry; apply Rltb_true; lra). cbn [negb]. unfold sbind at 1. unfold lift at 1. cbn [xe_bound demo_e]. unfold sbind at 1. unfold lift at 1. cbn [halo_effective_age xh_sub demo_halo].
    unfold sbind at 1. unfold lift at 1. cbn [t_over_tc]. apply decide_total. intros s2. unfold sbind at 1. unfold alloc_dict. unfold sbind at 1.
    match goal with |- context [build ?a ?b ?c ?d ?f] => destruct (build_total a b c d f 1 eq_refl) as (x & s3 & EB); [cbn; lra|rewrite EB] end. unfold ret. eauto. }
  destruct X as (r' & s' & X). exists p, r', s', (demo_halo "TNFWSubhalo" "TNFW" 7 true 2 1). split; [exact X|]. split; [reflexivity|]. split; [reflexivity|]. split; [reflexivity|].
  cbn. rewrite Rmin_left by lra. split; [lra|]. split; [reflexivity|lra].
Qed.

Print Assumptions C38_timescale.
Print Assumptions C38_cross_section.
Print Assumptions C38_identity.
Print Assumptions C38_raises.
Print Assumptions C38_succeeds.
Print Assumptions C38_cross_section_refuted.
Print Assumptions C38_normalisation_refuted.
Print Assumptions C38_requested_age.
