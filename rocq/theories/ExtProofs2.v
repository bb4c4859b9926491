(** Lists of halos: the conversions of whole realizations. *)
From Verif Require Import Prelude MassFnModel MassFnSpec ExtModel ExtSpec ExtProofs.
Local Open Scope string_scope.
Local Open Scope R_scope.
Local Open Scope list_scope.

(** [s1] comes after [s'] without touching object [r] nor objects created after [s0]. *)
Definition later (s0 : xstate) (r : nat) (s' s1 : xstate) : Prop :=
  (forall k h, nth_error (xs_h s') k = Some h -> k = r \/ (List.length (xs_h s0) <= k)%nat -> nth_error (xs_h s1) k = Some h) /\
  (forall i d, nth_error (xs_d s') i = Some d -> nth_error (xs_d s1) i = Some d).
Definition step_prop := draws -> draws -> xstate -> xstate -> nat -> nat -> xhalo -> Prop.
(** A step property survives looking at it from an earlier start and a later end. *)
Definition stable (P : step_prop) : Prop :=
  forall k k' s0 s s' s1 r r' h, P k k' s s' r r' h -> (List.length (xs_h s0) <= List.length (xs_h s))%nat -> later s0 r s' s1 ->
    P k k' s0 s1 r r' h.

Lemma mapS_frame (f : nat -> M nat) (P : step_prop) :
  (forall r s r' s' h, nth_error (xs_h s) r = Some h -> f r s = Ok (r', s') -> frame s s' r /\ P (drawn s) (drawn s') s s' r r' h) ->
  stable P ->
  forall s0 hs s hs' s1,
    mapS f hs s = Ok (hs', s1) -> NoDup hs -> valid s0 hs -> (List.length (xs_h s0) <= List.length (xs_h s))%nat ->
    (forall r, In r hs -> nth_error (xs_h s) r = nth_error (xs_h s0) r) ->
    in_turn (fun k k' r r' => exists h, nth_error (xs_h s0) r = Some h /\ P k k' s0 s1 r r' h) (drawn s) (drawn s1) hs hs' /\
    (forall k h, nth_error (xs_h s) k = Some h -> ~ In k hs -> nth_error (xs_h s1) k = Some h) /\
    undisturbed s s1.
Proof.
  intros HF ST s0. induction hs as [|r t IH]; intros s hs' s1 H ND V B SAME; cbn [mapS] in H.
  - injection H as <- <-. split; [constructor|]. split; [auto|apply undisturbed_refl].
  - apply sbind_Ok in H as (r' & s2 & Hr & H). apply sbind_Ok in H as (t' & s3 & Ht & H). injection H as <- <-.
    inversion ND as [|? ? NI ND']; subst. inversion V as [|? ? L V']; subst.
    destruct (nth_error (xs_h s0) r) as [h|] eqn:EH; [|apply nth_error_None in EH; lia].
    assert (EH' : nth_error (xs_h s) r = Some h) by (rewrite SAME; [exact EH|now left]).
    destruct (HF r s r' s2 h EH' Hr) as (F & PP). pose proof F as (F1 & F2 & F3 & F4 & F5 & F6 & F7).
    destruct (IH s2 t' s3 Ht ND' V') as (I1 & I2 & I3).
    { lia. }
    { intros k I. rewrite <- SAME by (now right). assert (k <> r) by (intros ->; contradiction).
      assert (LK : (k < List.length (xs_h s))%nat).
      { assert (LK0 : (k < List.length (xs_h s0))%nat) by (unfold valid in V'; rewrite Forall_forall in V'; auto). lia. }
      apply nth_error_Some in LK. destruct (nth_error (xs_h s) k) as [hk|] eqn:EK; [|congruence]. now apply F1. }
    split. { econstructor; [|exact I1]. exists h. split; [exact EH|]. eapply ST; [exact PP|exact B|].
      split; [|exact (proj2 I3)]. intros k hk EK [->|G]; [apply I2; auto|]. apply I2; [exact EK|]. intros I. unfold valid in V'. rewrite Forall_forall in V'. specialize (V' k I). lia. }
    split. { intros k hk EK NIk. apply I2; [|intros I; apply NIk; now right]. apply F1; [exact EK|]. intros ->. apply NIk. now left. }
    eapply undisturbed_trans; [eapply frame_undisturbed; exact F|exact I3].
Qed.

Lemma undisturbed_trans_halo s0 s s1 r r' h h' :
  undisturbed s0 s -> nth_error (xs_h s) r = Some h -> nth_error (xs_h s1) r' = Some h' -> same_halo h h' -> (r < List.length (xs_h s0))%nat ->
  exists h0, nth_error (xs_h s0) r = Some h0 /\ same_halo h0 h'.
Proof.
  intros U E E' SH L. apply nth_error_Some in L. destruct (nth_error (xs_h s0) r) as [h0|] eqn:E0; [|congruence].
  exists h0. split; [reflexivity|]. destruct (proj1 U r h0 E0) as (h1 & E1 & S1). replace h1 with h in * by congruence.
  eapply same_halo_trans; [apply same_object_halo; exact S1|exact SH].
Qed.
(** Identity only: no assumption on repeated objects. *)
Lemma mapS_matched (f : nat -> M nat) :
  (forall r s r' s', f r s = Ok (r', s') -> undisturbed s s' /\
     exists h h', nth_error (xs_h s) r = Some h /\ nth_error (xs_h s') r' = Some h' /\ same_halo h h') ->
  forall s0 hs s hs' s1, mapS f hs s = Ok (hs', s1) -> valid s0 hs -> undisturbed s0 s -> undisturbed s s1 /\ matched s0 s1 hs hs'.
Proof.
  intros HF s0. induction hs as [|r t IH]; intros s hs' s1 H V U; cbn [mapS] in H.
  - injection H as <- <-. split; [apply undisturbed_refl|constructor].
  - apply sbind_Ok in H as (r' & s2 & Hr & H). apply sbind_Ok in H as (t' & s3 & Ht & H). injection H as <- <-.
    destruct (HF _ _ _ _ Hr) as (U1 & h & h' & E & E' & SH). inversion V as [|? ? L V']; subst.
    destruct (IH s2 t' s3 Ht V') as (U2 & MT); [eapply undisturbed_trans; eauto|].
    split; [eapply undisturbed_trans; eauto|]. constructor; [|exact MT].
    destruct (proj1 U2 r' h' E') as (h3 & E3 & S3).
    destruct (undisturbed_trans_halo s0 s s3 r r' h h3 U E E3) as (h0 & E0 & SH0); [eapply same_halo_trans; [exact SH|apply same_object_halo; exact S3]|exact L|].
    exists h0, h3. auto.
Qed.

(** ** Stability of the outcomes *)
Lemma replaced_stable e cls mdef d s0 s s' s1 r r' h h' :
  replaced e cls mdef d s s' r r' h h' -> (List.length (xs_h s0) <= List.length (xs_h s))%nat -> later s0 r s' s1 ->
  replaced e cls mdef d s0 s1 r r' h h'.
Proof.
  unfold replaced. intros (A & B & C & D & E & F & G & H & I & J & K & L) LE (L1 & L2).
  split; [lia|]. split; [apply L1; [exact B|right; lia]|]. repeat (split; [assumption|]). apply L2. exact L.
Qed.
Lemma kept_aged_stable s0 s' s1 r r' h a t : kept_aged s' r r' h a t -> later s0 r s' s1 -> kept_aged s1 r r' h a t.
Proof.
  intros (-> & h' & E & S & V) (L1 & L2). split; [reflexivity|]. exists h'. split; [apply L1; auto|]. auto.
Qed.
Lemma aged_stable e prob limit age toc u u' s0 s' s1 r r' h (Q Q' : xhalo -> Prop) :
  aged_outcome e prob limit age toc u u' s' r r' h Q -> later s0 r s' s1 -> (forall h', Q h' -> Q' h') ->
  aged_outcome e prob limit age toc u u' s1 r r' h Q'.
Proof.
  intros [(A & B & C)|(A & B & [(C & D)|(C & h' & D)])] L K.
  - left. split; [exact A|]. split; [exact B|]. eapply kept_aged_stable; eauto.
  - right. split; [exact A|]. split; [exact B|]. left. split; [exact C|]. eapply kept_aged_stable; eauto.
  - right. split; [exact A|]. split; [exact B|]. right. split; [exact C|]. exists h'. auto.
Qed.
Lemma sidm_stable e p u u' s0 s s' s1 r r' h :
  sidm_outcome e p u u' s s' r r' h -> (List.length (xs_h s0) <= List.length (xs_h s))%nat -> later s0 r s' s1 ->
  sidm_outcome e p u u' s0 s1 r r' h.
Proof.
  intros (rt & ERT & O) LE LT. exists rt. split; [exact ERT|].
  assert (T : timed_outcome e p rt u u' s s' r r' h -> timed_outcome e p rt u u' s0 s1 r r' h).
  { intros (tc & l & T & [(A & B & C)|[(A & B & C)|(A & C)]]); exists tc, l; (split; [exact T|]).
    - left. split; [exact A|]. split; [exact B|]. eapply aged_stable; [exact C|exact LT|]. intros h' RP. eapply replaced_stable; eauto.
    - right. left. split; [exact A|]. split; [exact B|]. eapply aged_stable; [exact C|exact LT|]. intros h' (EV & RP). split; [exact EV|]. eapply replaced_stable; eauto.
    - right. right. split; [exact A|]. eapply aged_stable; [exact C|exact LT|]. intros h' (a & b & c & d & g & X & Y & RP). exists a, b, c, d, g.
      split; [exact X|]. split; [exact Y|]. eapply replaced_stable; eauto. }
  destruct (sd_tc p); [auto|]. destruct (sd_toc p); [auto|]. destruct O as (U & [(A & xc & h' & X & RP)|(A & a & b & c & d & g & h' & X & Y & RP)]); (split; [exact U|]).
  - left. split; [exact A|]. exists xc, h'. split; [exact X|]. eapply replaced_stable; eauto.
  - right. split; [exact A|]. exists a, b, c, d, g, h'. split; [exact X|]. split; [exact Y|]. eapply replaced_stable; eauto.
Qed.

(** ** Bins *)
Lemma in_bin_true m b : in_bin m b = true <-> lies_in m b.
Proof.
  unfold in_bin, lies_in, log10. rewrite !Bool.andb_true_iff, Rltb_true, Rltb_true, Rleb_true. tauto.
Qed.
Lemma find_bin_Some (f : R * R -> bool) inside bins : (forall b, f b = true <-> inside b) ->
  forall k i, find_bin f k bins = Some i -> exists j, i = (k + j)%nat /\ first_bin inside bins j.
Proof.
  intros HF. induction bins as [|b t IH]; intros k i H; cbn in H; [discriminate|].
  destruct (f b) eqn:E.
  - injection H as <-. exists 0%nat. split; [lia|]. split; [exists b; split; [reflexivity|now apply HF]|]. intros j b0 L; lia.
  - destruct (IH _ _ H) as (j & -> & ((b1 & E1 & I1) & N)). exists (S j). split; [lia|]. split; [exists b1; auto|].
    intros [|j'] b0 L E0; cbn in E0; [injection E0 as <-; rewrite <- HF; congruence|]. apply (N j'); [lia|exact E0].
Qed.
Lemma find_bin_first (f : R * R -> bool) inside bins : (forall b, f b = true <-> inside b) ->
  forall k j, first_bin inside bins j -> find_bin f k bins = Some (k + j)%nat.
Proof.
  intros HF. induction bins as [|b t IH]; intros k j ((b1 & E1 & I1) & N); [destruct j; discriminate|].
  destruct j as [|j]; cbn in E1.
  - injection E1 as ->. cbn. replace (f b1) with true by (symmetry; now apply HF). f_equal. lia.
  - cbn. destruct (f b) eqn:E; [exfalso; apply (N 0%nat b); [lia|reflexivity|now apply HF]|].
    rewrite (IH (S k) j); [f_equal; lia|]. split; [exists b1; auto|]. intros j' b0 L E0. apply (N (S j') b0); [lia|exact E0].
Qed.
Lemma find_bin_None (f : R * R -> bool) inside bins : (forall b, f b = true <-> inside b) ->
  forall k, find_bin f k bins = None <-> (forall b, In b bins -> ~ inside b).
Proof.
  intros HF. induction bins as [|b t IH]; intros k; cbn; [split; auto; contradiction|].
  destruct (f b) eqn:E.
  - split; [discriminate|]. intros N. exfalso. apply (N b); [now left|now apply HF].
  - rewrite IH. split; [intros N b0 [<-|I]; [rewrite <- HF; congruence|auto]|auto].
Qed.

(** ** One pass of the two conversion loops *)
Lemma conv_eq c tc : conv_sidm c tc = conversion c tc. Proof. reflexivity. Qed.
Lemma at_index_Ok {A} (l : list A) i a : at_index l i = Ok a <-> nth_error l i = Some a.
Proof. unfold at_index. destruct (nth_error l i); split; intros H; try discriminate; injection H as <-; reflexivity. Qed.
Lemma collapse_time_eq rhos rs sigma : sidm_collapse_timescale rhos rs sigma = collapse_time rhos rs sigma.
Proof.
  unfold sidm_collapse_timescale, collapse_time. f_equal. unfold Rdiv. f_equal. f_equal. f_equal. f_equal. ring.
Qed.

Definition timescale_prop (e : xenv) (c : convert) (log_tc : list R) (sigma : option (list R)) : step_prop :=
  fun k k' s s' r r' h => exists i tc, first_bin (lies_in (xh_mass h)) (cv_bins c) i /\
    timescale_of e log_tc sigma i (snd k) (snd k') tc /\ treated e c tc (fst k) (fst k') s s' r r' h.
Definition cross_prop (e : xenv) (c : convert) (log_sigma : list R) (tfun : option (R -> R -> R -> R)) : step_prop :=
  fun k k' s s' r r' h => exists i l rhos rs r200, first_bin (lies_in (xh_mass h)) (cv_bins c) i /\
    nth_error log_sigma i = Some l /\ xe_nfw e r = Ok (rhos, rs, r200) /\ snd k' = snd k /\
    treated e c (match tfun with Some f => f rhos rs (ten_to l) | None => collapse_time rhos rs (ten_to l) end) (fst k) (fst k') s s' r r' h.

Lemma treat_spec e c tc r s r' s' h :
  nth_error (xs_h s) r = Some h ->
  (if (String.eqb (xh_mdef h) "TNFW" || String.eqb (xh_mdef h) "NFW")%bool then toSIDM_single_halo e (conv_sidm c tc) r else ret r) s = Ok (r', s') ->
  frame s s' r /\ xs_n s' = xs_n s /\ treated e c tc (xs_u s) (xs_u s') s s' r r' h.
Proof.
  intros E H. destruct (String.eqb (xh_mdef h) "TNFW") eqn:E1; cbn [orb] in H.
  - apply String.eqb_eq in E1. destruct (single_spec _ _ _ _ _ _ _ E H) as (_ & F & N & O). split; [exact F|]. split; [exact N|]. left. auto.
  - destruct (String.eqb (xh_mdef h) "NFW") eqn:E2.
    + destruct (single_spec _ _ _ _ _ _ _ E H) as (X & _). rewrite X in E1. discriminate.
    + injection H as <- <-. split; [apply frame_refl|]. split; [reflexivity|]. right. apply String.eqb_neq in E1. apply String.eqb_neq in E2. auto.
Qed.
Lemma treated_stable e c tc u u' s0 s s' s1 r r' h :
  treated e c tc u u' s s' r r' h -> (List.length (xs_h s0) <= List.length (xs_h s))%nat -> later s0 r s' s1 -> treated e c tc u u' s0 s1 r r' h.
Proof.
  intros [(A & O)|(A & B & C & D & E)] LE LT.
  - left. split; [exact A|]. eapply sidm_stable; eauto.
  - right. repeat (split; [assumption|]). apply LT; auto.
Qed.
Lemma timescale_stable e c lt sg : stable (timescale_prop e c lt sg).
Proof. intros k k' s0 s s' s1 r r' h (i & tc & A & B & C) LE LT. exists i, tc. split; [exact A|]. split; [exact B|]. eapply treated_stable; eauto. Qed.
Lemma cross_stable e c lt f : stable (cross_prop e c lt f).
Proof.
  intros k k' s0 s s' s1 r r' h (i & l & rhos & rs & r200 & A & B & C & D & E) LE LT. exists i, l, rhos, rs, r200.
  repeat (split; [assumption|]). eapply treated_stable; eauto.
Qed.
Lemma timescale_spec e c lt sg r s r' s' h :
  nth_error (xs_h s) r = Some h -> timescale_step e c lt sg r s = Ok (r', s') ->
  frame s s' r /\ timescale_prop e c lt sg (drawn s) (drawn s') s s' r r' h.
Proof.
  intros E H. unfold timescale_step in H. apply sbind_Ok in H as (h0 & s0 & Ha & H). apply get_Ok in Ha as (E0 & ->).
  replace h0 with h in * by congruence. clear h0 E0.
  destruct (find_bin (in_bin (xh_mass h)) 0 (cv_bins c)) as [i|] eqn:FB; [|discriminate].
  destruct (find_bin_Some _ _ _ (in_bin_true (xh_mass h)) _ _ FB) as (j & EJ & FI). cbn in EJ. subst j.
  apply sbind_Ok in H as (tc & s0 & Ha & H).
  assert (TT : xs_h s0 = xs_h s /\ xs_d s0 = xs_d s /\ xs_u s0 = xs_u s /\ timescale_of e lt sg i (xs_n s) (xs_n s0) tc).
  { destruct sg as [sg|].
    - apply sbind_Ok in Ha as (l & s3 & Hl & Ha). apply lift_Ok in Hl as (Hl & ->). apply at_index_Ok in Hl.
      apply sbind_Ok in Ha as (sd & s3 & Hs & Ha). apply lift_Ok in Hs as (Hs & ->). apply at_index_Ok in Hs.
      apply sbind_Ok in Ha as (x & s3 & Hn & Ha). injection Ha as <- <-. unfold normal in Hn. destruct (Rltb sd 0) eqn:EN; [discriminate|].
      apply Rltb_false in EN. injection Hn as <- <-. split; [reflexivity|]. split; [reflexivity|]. split; [reflexivity|]. split; [reflexivity|].
      exists l, sd. split; [exact Hl|]. split; [exact Hs|]. split; [lra|reflexivity].
    - apply sbind_Ok in Ha as (l & s3 & Hl & Ha). apply lift_Ok in Hl as (Hl & ->). apply at_index_Ok in Hl. injection Ha as <- <-.
      split; [reflexivity|]. split; [reflexivity|]. split; [reflexivity|]. split; [reflexivity|]. exists l. auto. }
  destruct TT as (T1 & T2 & T3 & T4).
  assert (E0 : nth_error (xs_h s0) r = Some h) by (rewrite T1; exact E).
  destruct (treat_spec _ _ _ _ _ _ _ _ E0 H) as (F & N & T).
  split.
  { destruct F as (F1 & F2 & F3 & F4 & F5 & F6 & F7). assert ((xs_n s <= xs_n s0)%nat) by (destruct sg; destruct T4 as (T4 & _); lia).
    rewrite T1, T2, T3 in *. unfold frame. split; [exact F1|]. split; [exact F2|]. split; [exact F3|]. lia. }
  exists i, tc. split; [exact FI|]. split; [unfold drawn; cbn [snd]; rewrite N; exact T4|]. cbn [fst drawn]. rewrite <- T3.
  unfold treated, sidm_outcome, timed_outcome, static_outcome, replaced in *. rewrite T1 in *. exact T.
Qed.
Lemma cross_spec e c ls f r s r' s' h :
  nth_error (xs_h s) r = Some h -> cross_section_step e c ls f r s = Ok (r', s') ->
  frame s s' r /\ cross_prop e c ls f (drawn s) (drawn s') s s' r r' h.
Proof.
  intros E H. unfold cross_section_step in H. apply sbind_Ok in H as (h0 & s0 & Ha & H). apply get_Ok in Ha as (E0 & ->).
  replace h0 with h in * by congruence. clear h0 E0.
  destruct (find_bin (in_bin (xh_mass h)) 0 (cv_bins c)) as [i|] eqn:FB; [|discriminate].
  destruct (find_bin_Some _ _ _ (in_bin_true (xh_mass h)) _ _ FB) as (j & EJ & FI). cbn in EJ. subst j.
  apply sbind_Ok in H as (l & s0 & Ha & H). apply lift_Ok in Ha as (Hl & ->). apply at_index_Ok in Hl.
  apply sbind_Ok in H as (nf & s0 & Ha & H). apply lift_Ok in Ha as (Hn & ->). destruct nf as [[rhos rs] r200]. cbv zeta in H.
  destruct (treat_spec _ _ _ _ _ _ _ _ E H) as (F & N & T). split; [exact F|].
  exists i, l, rhos, rs, r200. split; [exact FI|]. split; [exact Hl|]. split; [exact Hn|]. split; [exact N|].
  destruct f; [exact T|]. rewrite <- collapse_time_eq. exact T.
Qed.

(** ** Success *)
Lemma mapS_total (f : nat -> M nat) s0 : forall hs s,
  (forall r s, In r hs -> undisturbed s0 s -> exists r' s', f r s = Ok (r', s')) ->
  (forall r s r' s', f r s = Ok (r', s') -> undisturbed s s') ->
  undisturbed s0 s -> exists hs' s', mapS f hs s = Ok (hs', s').
Proof.
  induction hs as [|r t IH]; intros s T U US; cbn [mapS].
  - exists [], s. reflexivity.
  - destruct (T r s (or_introl eq_refl) US) as (r' & s1 & E1). pose proof (U _ _ _ _ E1) as U1.
    destruct (IH s1) as (t' & s2 & E2); [intros; apply T; [now right|auto]|exact U|eapply undisturbed_trans; eauto|].
    exists (r' :: t'), s2. unfold sbind. rewrite E1, E2. reflexivity.
Qed.
Lemma alloc_total h s : 0 < xh_z h -> exists r s', alloc h s = Ok (r, s').
Proof. intros Z. unfold alloc. replace (Rltb 0 (xh_z h)) with true by (symmetry; now apply Rltb_true). eauto. Qed.
Lemma build_total e r h h' s b : xe_bound e r = Ok b -> 0 < xh_z h' -> exists x s', build e r h h' s = Ok (x, s').
Proof.
  intros B Z. unfold build. destruct (xh_sub h).
  - unfold sbind, lift. rewrite B. destruct (alloc_total (with_bound b (with_zinf (xe_zeval e r) h')) s Z) as (r' & s' & E). rewrite E. eexists; eexists; reflexivity.
  - unfold sbind. destruct (alloc_total h' s Z) as (r' & s' & E). rewrite E. eexists; eexists; reflexivity.
Qed.
Lemma decide_total e p r h age toc cut m s : (forall s, exists x s', m s = Ok (x, s')) -> exists x s', decide e p r h age toc cut m s = Ok (x, s').
Proof.
  intros T. unfold decide. destruct (Rltb toc cut); [unfold sbind, put, ret; eauto|]. unfold sbind, rand. destruct (Rltb (sd_prob p) _); [unfold put, ret; eauto|apply T].
Qed.
Lemma single_total e p r s h rt c b nf tc l :
  nth_error (xs_h s) r = Some h -> xh_mdef h = "TNFW" -> 0 < xh_z h -> xe_rt e r = Ok rt -> xe_c e r = Ok c -> xe_bound e r = Ok b -> xe_nfw e r = Ok nf ->
  sd_tc p = Some tc -> sd_toc p = None -> sd_scaling p = Some l -> sd_profile p = "TNFWC" \/ sd_profile p = "CC_COMPOSITE" ->
  exists r' s', toSIDM_single_halo e p r s = Ok (r', s').
Proof.
  intros E EM Z ERT EC EB EN ETC ETO EL EP. unfold toSIDM_single_halo. unfold sbind at 1. unfold get at 1. rewrite E. cbn beta iota.
  rewrite EM. replace (String.eqb "TNFW" "TNFW") with true by reflexivity. cbn [negb].
  unfold sbind at 1. unfold lift at 1. rewrite ERT. cbn beta iota. unfold sbind at 1. unfold lift at 1. rewrite EC. cbn beta iota. rewrite ETC, ETO. cbn beta iota zeta.
  assert (ZT : Rltb 0 (xh_z h) = true) by now apply Rltb_true.
  assert (AGE : exists age, halo_effective_age e h (xe_zeval e r) (if xh_sub h then sd_scaling p else Some 1) = Ok age).
  { unfold halo_effective_age. destruct (xh_sub h); [rewrite EL|]; eauto. }
  destruct AGE as (age & EA).
  assert (BB : exists q, (if xh_sub h then lift (xe_bound e r) else ret 0) s = Ok (q, s)).
  { destruct (xh_sub h); [unfold lift; rewrite EB|]; unfold ret; eauto. }
  destruct BB as (q & EQ).
  assert (BD : forall d cls mdef evo s, exists x s', (go a <- alloc_dict d; go x <- build e r h (match evo with Some (a0, t) => with_evo a0 t (make h cls mdef (xh_r3d h) a) | None => make h cls mdef (xh_r3d h) a end); ret (fst x)) s = Ok (x, s')).
  { intros d cls mdef evo s2. unfold sbind, alloc_dict. 
    destruct (build_total e r h (match evo with Some (a0, t) => with_evo a0 t (make h cls mdef (xh_r3d h) (List.length (xs_d s2))) | None => make h cls mdef (xh_r3d h) (List.length (xs_d s2)) end) (mkS (xs_h s2) (xs_d s2 ++ [d]) (xs_u s2) (xs_n s2)) b EB) as (x & s3 & EX).
    { destruct evo as [[? ?]|]; exact Z. }
    rewrite EX. unfold ret. eauto. }
  destruct EP as [EP|EP]; rewrite EP.
  - replace (String.eqb "TNFWC" "TNFWC") with true by reflexivity. rewrite ZT. cbn [negb].
    unfold sbind at 1. rewrite EQ. unfold sbind at 1. unfold lift at 1. rewrite EA.
    unfold sbind at 1. unfold lift at 1. cbn [t_over_tc]. destruct (sd_evolving p); apply decide_total; intros s2.
    + apply (BD _ _ _ None).
    + apply (BD _ _ _ (Some (age, age / tc))).
  - replace (String.eqb "CC_COMPOSITE" "TNFWC") with false by reflexivity. replace (String.eqb "CC_COMPOSITE" "CC_COMPOSITE") with true by reflexivity.
    unfold sbind at 1. unfold lift at 1. rewrite EN. destruct nf as [[? ?] ?]. cbn beta iota. rewrite ZT. cbn [negb].
    unfold sbind at 1. rewrite EQ. unfold sbind at 1. unfold lift at 1. rewrite EA.
    unfold sbind at 1. unfold lift at 1. cbn [t_over_tc]. apply decide_total. intros s2. apply (BD _ _ _ None).
Qed.
