(** Lemmas about the store and the single-halo conversion. *)
From Verif Require Import Prelude MassFnModel ExtModel ExtSpec.
Local Open Scope string_scope.
Local Open Scope R_scope.
Local Open Scope list_scope.

Lemma sbind_Ok {A B} (m : M A) (f : A -> M B) s x : sbind m f s = Ok x -> exists a s1, m s = Ok (a, s1) /\ f a s1 = Ok x.
Proof. unfold sbind. destruct (m s) as [[a s1]|]; [eauto|discriminate]. Qed.
Lemma lift_Ok {A} (m : result A) s a s1 : lift m s = Ok (a, s1) -> m = Ok a /\ s1 = s.
Proof. unfold lift. destruct m; [|discriminate]. intros E; injection E as -> ->. auto. Qed.
Lemma get_Ok r s h s1 : get r s = Ok (h, s1) -> nth_error (xs_h s) r = Some h /\ s1 = s.
Proof. unfold get. destruct (nth_error (xs_h s) r) eqn:E; [|discriminate]. intros X; injection X as -> ->. auto. Qed.
Ltac sstep H :=
  let a := fresh "a" in let s1 := fresh "s" in let Ha := fresh "Ha" in
  apply sbind_Ok in H; destruct H as (a & s1 & Ha & H).

Lemma same_halo_refl h : same_halo h h. Proof. repeat split. Qed.
Lemma same_halo_trans a b c : same_halo a b -> same_halo b c -> same_halo a c.
Proof. unfold same_halo. intuition congruence. Qed.
Lemma same_object_refl h : same_object h h. Proof. repeat split. Qed.
Lemma same_object_trans a b c : same_object a b -> same_object b c -> same_object a c.
Proof. unfold same_object, same_halo. intuition congruence. Qed.
Lemma same_object_halo a b : same_object a b -> same_halo a b. Proof. intros H; apply H. Qed.

(** One step that handles the object [r]: other objects are untouched, [r] is the same object, dictionaries are only added. *)
Definition frame (s s' : xstate) (r : nat) : Prop :=
  (forall k h, nth_error (xs_h s) k = Some h -> k <> r -> nth_error (xs_h s') k = Some h) /\
  (forall h, nth_error (xs_h s) r = Some h -> exists h', nth_error (xs_h s') r = Some h' /\ same_object h h') /\
  (forall i d, nth_error (xs_d s) i = Some d -> nth_error (xs_d s') i = Some d) /\
  (List.length (xs_h s) <= List.length (xs_h s'))%nat /\ (List.length (xs_d s) <= List.length (xs_d s'))%nat /\
  (xs_u s <= xs_u s')%nat /\ (xs_n s <= xs_n s')%nat.
Lemma frame_refl s r : frame s s r.
Proof.
  split; [auto|]. split; [intros h E; exists h; split; [exact E|apply same_object_refl]|]. split; [auto|]. lia.
Qed.
Lemma frame_undisturbed s s' r : frame s s' r -> undisturbed s s'.
Proof.
  intros (A & B & C & _). split; [|exact C]. intros k h E. destruct (Nat.eq_dec k r) as [->|N]; [exact (B h E)|].
  exists h. split; [exact (A k h E N)|apply same_object_refl].
Qed.
Lemma undisturbed_refl s : undisturbed s s.
Proof. split; [intros r h E; exists h; split; [exact E|apply same_object_refl]|auto]. Qed.
Lemma undisturbed_trans a b c : undisturbed a b -> undisturbed b c -> undisturbed a c.
Proof.
  intros (A & B) (C & D). split; [|auto]. intros r h E. destruct (A r h E) as (h1 & E1 & S1). destruct (C r h1 E1) as (h2 & E2 & S2).
  exists h2. split; [exact E2|]. eapply same_object_trans; eauto.
Qed.
Lemma undisturbed_length a b : undisturbed a b -> (List.length (xs_h a) <= List.length (xs_h b))%nat.
Proof.
  intros (A & _). destruct (le_lt_dec (List.length (xs_h a)) (List.length (xs_h b))) as [L|L]; [exact L|].
  exfalso. destruct (nth_error (xs_h a) (List.length (xs_h b))) eqn:E.
  - destruct (A _ _ E) as (h' & E' & _). assert (nth_error (xs_h b) (List.length (xs_h b)) <> None) by congruence.
    apply nth_error_Some in H. lia.
  - apply nth_error_None in E. lia.
Qed.
Lemma frame_trans a b c r : frame a b r -> frame b c r -> frame a c r.
Proof.
  intros (A1 & A2 & A3 & A4 & A5 & A6 & A7) (B1 & B2 & B3 & B4 & B5 & B6 & B7).
  split; [intros k h E N; apply B1; [apply A1; auto|auto]|].
  split. { intros h E. destruct (A2 h E) as (h1 & E1 & S1). destruct (B2 h1 E1) as (h2 & E2 & S2). exists h2. split; [auto|]. eapply same_object_trans; eauto. }
  split; [auto|]. lia.
Qed.

Lemma nth_error_replace_eq {A} i (a : A) l : (i < List.length l)%nat -> nth_error (replace_at i a l) i = Some a.
Proof. revert i; induction l as [|b t IH]; intros [|i] L; cbn in *; try lia; auto. apply IH. lia. Qed.
Lemma nth_error_replace_neq {A} i j (a : A) l : i <> j -> nth_error (replace_at i a l) j = nth_error l j.
Proof. revert i j; induction l as [|b t IH]; intros [|i] [|j] N; cbn; auto; try congruence; try lia. Qed.
Lemma replace_at_length {A} i (a : A) l : List.length (replace_at i a l) = List.length l.
Proof. revert i; induction l as [|b t IH]; intros [|i]; cbn; auto. Qed.
Lemma nth_error_snoc {A} (l : list A) a : nth_error (l ++ [a]) (List.length l) = Some a.
Proof. rewrite nth_error_app2 by lia. rewrite Nat.sub_diag. reflexivity. Qed.
Lemma nth_error_keep {A} (l : list A) m i a : nth_error l i = Some a -> nth_error (l ++ m) i = Some a.
Proof. intros E. rewrite nth_error_app1; [exact E|]. apply nth_error_Some. congruence. Qed.
Lemma nth_error_lt {A} (l : list A) i a : nth_error l i = Some a -> (i < List.length l)%nat.
Proof. intros E. apply nth_error_Some. congruence. Qed.

Lemma alloc_Ok h s r s1 : alloc h s = Ok (r, s1) ->
  r = List.length (xs_h s) /\ s1 = mkS (xs_h s ++ [h]) (xs_d s) (xs_u s) (xs_n s) /\ 0 < xh_z h.
Proof.
  unfold alloc. destruct (Rltb 0 (xh_z h)) eqn:E; [|discriminate]. intros X; injection X as <- <-.
  apply Rltb_true in E. auto.
Qed.
Lemma alloc_frame h s r s1 k : alloc h s = Ok (r, s1) -> frame s s1 k.
Proof.
  intros E. apply alloc_Ok in E as (-> & -> & _). split; [intros; now apply nth_error_keep|].
  split; [intros h0 E; exists h0; split; [now apply nth_error_keep|apply same_object_refl]|].
  split; [auto|]. cbn. rewrite app_length. lia.
Qed.
Lemma alloc_dict_frame d s r s1 k : alloc_dict d s = Ok (r, s1) -> frame s s1 k.
Proof.
  intros E. injection E as <- <-. split; [auto|]. split; [intros h0 E; exists h0; split; [exact E|apply same_object_refl]|].
  split; [intros; now apply nth_error_keep|]. cbn. rewrite app_length. lia.
Qed.

(** the object produced by [build] *)
Lemma build_spec e r h h' s x s1 :
  build e r h h' s = Ok (x, s1) ->
  fst x = List.length (xs_h s) /\ frame s s1 r /\ xs_d s1 = xs_d s /\ xs_u s1 = xs_u s /\ xs_n s1 = xs_n s /\
  exists h2, nth_error (xs_h s1) (fst x) = Some h2 /\
    (xh_sub h = true -> exists b, xe_bound e r = Ok b /\ h2 = with_bound b (with_zinf (xe_zeval e r) h')) /\
    (xh_sub h = false -> h2 = h').
Proof.
  unfold build. intros H. destruct (xh_sub h) eqn:SUB.
  - sstep H. apply lift_Ok in Ha as (EB & ->). sstep H. pose proof (alloc_frame _ _ _ _ r Ha) as F.
    apply alloc_Ok in Ha as (-> & -> & _). injection H as <- <-. cbn [fst].
    split; [reflexivity|]. split; [exact F|]. split; [reflexivity|]. split; [reflexivity|]. split; [reflexivity|].
    eexists. split; [cbn; apply nth_error_snoc|]. split; [intros _; eauto|discriminate].
  - sstep H. pose proof (alloc_frame _ _ _ _ r Ha) as F. apply alloc_Ok in Ha as (-> & -> & _). injection H as <- <-. cbn [fst].
    split; [reflexivity|]. split; [exact F|]. split; [reflexivity|]. split; [reflexivity|]. split; [reflexivity|].
    eexists. split; [cbn; apply nth_error_snoc|]. split; [discriminate|auto].
Qed.

(** allocate the arguments, then the object *)
Lemma make_spec e r h cls mdef r3d d s x s2 evo :
  (go a <- alloc_dict d; go y <- build e r h (match evo with Some (a0, t) => with_evo a0 t (make h cls mdef r3d a) | None => make h cls mdef r3d a end); ret (fst y)) s = Ok (x, s2) ->
  r3d = xh_r3d h ->
  frame s s2 r /\ xs_u s2 = xs_u s /\ xs_n s2 = xs_n s /\ exists h2, replaced e cls mdef d s s2 r x h h2 /\ xh_evo h2 = evo.
Proof.
  intros H ER. sstep H. pose proof (alloc_dict_frame _ _ _ _ r Ha) as F1. injection Ha as <- <-.
  apply sbind_Ok in H as (y & s1 & Ha & H). injection H as <- <-. destruct (build_spec _ _ _ _ _ _ _ Ha) as (EX & F2 & ED & EU & EN & h2 & E2 & HS & HF).
  split; [eapply frame_trans; eauto|]. split; [rewrite EU; reflexivity|]. split; [rewrite EN; reflexivity|]. exists h2. rewrite EX in *. cbn [xs_h] in *.
  assert (AD : nth_error (xs_d s1) (List.length (xs_d s)) = Some d) by (rewrite ED; cbn; apply nth_error_snoc).
  destruct (xh_sub h) eqn:SUB.
  - destruct (HS eq_refl) as (b & EB & ->). unfold replaced. rewrite SUB.
    destruct evo as [[a0 t]|]; cbn; (split; [|reflexivity]); (split; [apply Nat.le_refl|]); (split; [exact E2|]); (split; [repeat split; auto|]);
      repeat (split; [solve [reflexivity | congruence]|]); (split; [intros _; split; [reflexivity|]; eauto|]); (split; [discriminate|exact AD]).
  - rewrite (HF eq_refl) in *. unfold replaced. rewrite SUB.
    destruct evo as [[a0 t]|]; cbn; (split; [|reflexivity]); (split; [apply Nat.le_refl|]); (split; [exact E2|]); (split; [repeat split; auto|]);
      repeat (split; [solve [reflexivity | congruence]|]); (split; [auto|exact AD]).
Qed.

Lemma put_aged_spec r h age toc s s1 u :
  nth_error (xs_h s) r = Some h -> put r (with_evo age toc h) s = Ok (u, s1) ->
  frame s s1 r /\ kept_aged s1 r r h age toc /\ xs_u s1 = xs_u s /\ xs_n s1 = xs_n s.
Proof.
  intros E P. injection P as _ <-. pose proof (nth_error_lt _ _ _ E) as L.
  assert (E1 : nth_error (replace_at r (with_evo age toc h) (xs_h s)) r = Some (with_evo age toc h)) by now apply nth_error_replace_eq.
  assert (SO : same_object h (with_evo age toc h)) by (repeat split).
  split. { split; [intros k h0 E0 N; cbn; rewrite nth_error_replace_neq; auto|].
    split; [intros h0 E0; exists (with_evo age toc h); replace h0 with h by congruence; split; [exact E1|exact SO]|].
    split; [auto|]. cbn. rewrite replace_at_length. lia. }
  split; [split; [reflexivity|]; exists (with_evo age toc h); repeat split; auto|]. split; reflexivity.
Qed.

Lemma decide_spec e p r h age toc cut (m : M nat) s x s1 :
  nth_error (xs_h s) r = Some h -> decide e p r h age toc cut m s = Ok (x, s1) ->
  (toc < cut /\ kept_aged s1 r x h age toc /\ frame s s1 r /\ xs_u s1 = xs_u s /\ xs_n s1 = xs_n s) \/
  (cut <= toc /\ sd_prob p < xe_u e (xs_u s) /\ kept_aged s1 r x h age toc /\ frame s s1 r /\ xs_u s1 = S (xs_u s) /\ xs_n s1 = xs_n s) \/
  (cut <= toc /\ xe_u e (xs_u s) <= sd_prob p /\ m (mkS (xs_h s) (xs_d s) (S (xs_u s)) (xs_n s)) = Ok (x, s1)).
Proof.
  intros E H. unfold decide in H. destruct (Rltb toc cut) eqn:C.
  - apply Rltb_true in C. left. sstep H. injection H as <- <-. destruct (put_aged_spec _ _ _ _ _ _ _ E Ha) as (F & K & U & N). auto.
  - apply Rltb_false in C. right. sstep H. injection Ha as <- <-. destruct (Rltb (sd_prob p) (xe_u e (xs_u s))) eqn:P.
    + apply Rltb_true in P. left. sstep H. injection H as <- <-.
      destruct (put_aged_spec r h age toc (mkS (xs_h s) (xs_d s) (S (xs_u s)) (xs_n s)) _ _ E Ha) as (F & K & U & N).
      split; [exact C|]. split; [exact P|]. split; [exact K|]. split; [|split; [exact U|exact N]].
      eapply frame_trans; [|exact F]. split; [auto|]. split; [intros h0 E0; exists h0; split; [exact E0|apply same_object_refl]|]. split; [auto|]. cbn. lia.
    + apply Rltb_false in P. right. auto.
Qed.
Lemma rand_frame s r : frame s (mkS (xs_h s) (xs_d s) (S (xs_u s)) (xs_n s)) r.
Proof. split; [auto|]. split; [intros h0 E0; exists h0; split; [exact E0|apply same_object_refl]|]. split; [auto|]. cbn. lia. Qed.
Lemma replaced_rand e cls mdef d s s' r x h h2 :
  replaced e cls mdef d (mkS (xs_h s) (xs_d s) (S (xs_u s)) (xs_n s)) s' r x h h2 -> replaced e cls mdef d s s' r x h h2.
Proof. exact (fun H => H). Qed.

Lemma age_of_model e h z l : halo_effective_age e h z (Some l) = Ok (age_of e h z l).
Proof.
  unfold halo_effective_age, age_of, effective_age. destruct (xh_sub h); [|reflexivity].
  destruct (Rltb 10 z) eqn:E; [apply Rltb_true in E; rewrite Rmin_right by lra|apply Rltb_false in E; rewrite Rmin_left by lra]; reflexivity.
Qed.

Lemma cc_class_spec g : composite_class g (cc_class g) (cc_gamma g).
Proof.
  unfold composite_class, cc_class, cc_gamma. destruct (Reqb g (-1)) eqn:E; [apply Reqb_true in E; left; auto|apply Reqb_false in E; right; auto].
Qed.

Lemma decide_outcome e p r h age toc cut m s x s1 (Q : xhalo -> Prop) :
  nth_error (xs_h s) r = Some h -> decide e p r h age toc cut m s = Ok (x, s1) ->
  (forall s2, m (mkS (xs_h s) (xs_d s) (S (xs_u s)) (xs_n s)) = Ok (x, s2) ->
     frame (mkS (xs_h s) (xs_d s) (S (xs_u s)) (xs_n s)) s2 r /\ xs_u s2 = S (xs_u s) /\ xs_n s2 = xs_n s /\ (s2 = s1 -> exists h', Q h')) ->
  frame s s1 r /\ xs_n s1 = xs_n s /\ aged_outcome e (sd_prob p) cut age toc (xs_u s) (xs_u s1) s1 r x h Q.
Proof.
  intros E D K. destruct (decide_spec e p r h age toc cut m s x s1 E D) as [(A & B & F & U & N)|[(A & B & C & F & U & N)|(A & B & C)]].
  - split; [exact F|]. split; [exact N|]. left. auto.
  - split; [exact F|]. split; [exact N|]. right. split; [exact A|]. split; [exact U|]. left. auto.
  - destruct (K s1 C) as (F & U & N & HQ). split; [eapply frame_trans; [apply rand_frame|exact F]|]. split; [exact N|]. right. split; [exact A|].
    split; [exact U|]. right. split; [exact B|]. auto.
Qed.

Lemma single_spec e p r s r' s' h :
  nth_error (xs_h s) r = Some h -> toSIDM_single_halo e p r s = Ok (r', s') ->
  xh_mdef h = "TNFW" /\ frame s s' r /\ xs_n s' = xs_n s /\ sidm_outcome e p (xs_u s) (xs_u s') s s' r r' h.
Proof.
  intros E H. unfold toSIDM_single_halo in H. apply sbind_Ok in H as (h0 & s0 & Ha & H). apply get_Ok in Ha as (E0 & ->).
  replace h0 with h in * by congruence. clear h0 E0.
  destruct (String.eqb (xh_mdef h) "TNFW") eqn:EM; cbn [negb] in H; [|discriminate]. apply String.eqb_eq in EM. split; [exact EM|].
  apply sbind_Ok in H as (rt & s0 & Ha & H). apply lift_Ok in Ha as (ERT & ->).
  apply sbind_Ok in H as (c0 & s0 & Ha & H). apply lift_Ok in Ha as (EC & ->).
  assert (TIMED : sd_tc p <> None \/ sd_toc p <> None ->
      (if String.eqb (sd_profile p) "TNFWC" then
        let tc := match sd_toc p with None => sd_tc p | Some q => Some (xe_age e (xh_z h) 10 / q) end in
        let lambda := match sd_toc p with None => if xh_sub h then sd_scaling p else Some 1 | Some _ => Some 1 end in
        if negb (Rltb 0 (xh_z h)) then fail EAssertionError else
        go _ <- (if xh_sub h then lift (xe_bound e r) else ret 0);
        go age <- lift (halo_effective_age e h (xe_zeval e r) lambda);
        go toc <- lift (t_over_tc age tc);
        if sd_evolving p then
          decide e p r h age toc (sd_cut p)
            (go a <- alloc_dict [("sidm_timescale", onum tc); ("lambda_t", onum lambda);
                                 ("mass_conservation", VNum (xe_m200 e r)); ("rt_kpc", VNum rt)];
             go x <- build e r h (make h "TNFWCHaloEvolving" "TNFWC" (xh_r3d h) a); ret (fst x))
        else
          decide e p r h age toc (sd_threshold p)
            (go a <- alloc_dict [("x_core_halo", onum (sd_xcore p)); ("mass_conservation", VNum (xe_m200 e r)); ("rt_kpc", VNum rt)];
             go x <- build e r h (with_evo age toc (make h "TNFWCHaloParametric" "TNFWC" (xh_r3d h) a)); ret (fst x))
      else if String.eqb (sd_profile p) "CC_COMPOSITE" then
        go (_, rs, r200) <- lift (xe_nfw e r);
        let lambda := if xh_sub h then sd_scaling p else Some 1 in
        if negb (Rltb 0 (xh_z h)) then fail EAssertionError else
        go _ <- (if xh_sub h then lift (xe_bound e r) else ret 0);
        go age <- lift (halo_effective_age e h (xe_zeval e r) lambda);
        go toc <- lift (t_over_tc age (sd_tc p));
        decide e p r h age toc (sd_threshold p)
          (go a <- alloc_dict (cc_args e p r rt rs r200 (cc_gamma (sd_gamma p))
                               ++ [("sidm_timescale", onum (sd_tc p)); ("lambda_t", onum lambda)]);
           go x <- build e r h (make h (cc_class (sd_gamma p)) "CORE_COLLAPSED" (xh_r3d h) a); ret (fst x))
      else fail EValueError) s = Ok (r', s') ->
      frame s s' r /\ xs_n s' = xs_n s /\ timed_outcome e p rt (xs_u s) (xs_u s') s s' r r' h).
  { clear H. intros NN H. destruct (String.eqb (sd_profile p) "TNFWC") eqn:EP.
    - apply String.eqb_eq in EP. cbv zeta in H.
      destruct (Rltb 0 (xh_z h)); cbn [negb] in H; [|discriminate].
      apply sbind_Ok in H as (b & s0 & Ha & H).
      assert (s0 = s) as -> by (destruct (xh_sub h); [apply lift_Ok in Ha as (_ & ->)|injection Ha as _ <-]; reflexivity). clear Ha.
      apply sbind_Ok in H as (age & s0 & Ha & H). apply lift_Ok in Ha as (EA & ->).
      apply sbind_Ok in H as (toc & s0 & Ha & H). apply lift_Ok in Ha as (ET & ->).
      set (tc := match sd_toc p with None => sd_tc p | Some q => Some (xe_age e (xh_z h) 10 / q) end) in *.
      set (lam := match sd_toc p with None => if xh_sub h then sd_scaling p else Some 1 | Some _ => Some 1 end) in *.
      unfold t_over_tc in ET. destruct tc as [t|] eqn:ETC; [|discriminate]. injection ET as <-.
      assert (HL : exists l, (lam = Some l \/ (xh_sub h = false /\ l = 1)) /\ age = age_of e h (xe_zeval e r) l /\ (xh_sub h = false -> l = 1) /\ (onum lam = VNum l)).
      { destruct lam as [l|] eqn:EL.
        - rewrite age_of_model in EA. injection EA as <-. exists l. split; [auto|]. split; [reflexivity|]. split; [|reflexivity].
          intros SF. subst lam. rewrite SF in EL. destruct (sd_toc p); injection EL as <-; reflexivity.
        - subst lam. destruct (sd_toc p); [discriminate|]. destruct (xh_sub h) eqn:SUB; [|discriminate].
          unfold halo_effective_age in EA. rewrite SUB in EA. discriminate. }
      destruct HL as (l & HL & -> & HL1 & EOL).
      assert (P1 : sd_toc p = None \/ sd_profile p = "CC_COMPOSITE" -> sd_tc p = Some t /\ (xh_sub h = true -> sd_scaling p = Some l) /\ (xh_sub h = false -> l = 1)).
      { intros [N|N]; [|congruence]. subst tc lam. rewrite N in *. split; [exact ETC|]. split; [|exact HL1]. intros SB. rewrite SB in *. destruct HL as [HL|(HL & _)]; [exact HL|discriminate]. }
      assert (P2 : forall q, sd_toc p = Some q -> sd_profile p = "TNFWC" -> t = xe_age e (xh_z h) 10 / q /\ l = 1).
      { intros q N _. subst tc lam. rewrite N in *. injection ETC as <-. split; [reflexivity|]. destruct HL as [HL|(_ & HL)]; [injection HL as <-; reflexivity|exact HL]. }
      destruct (sd_evolving p) eqn:EV.
      + edestruct (decide_outcome e p r h _ _ _ _ s r' s' (replaced e "TNFWCHaloEvolving" "TNFWC" (evolving_args e r rt t l) s s' r r' h) E H) as (F & N & O).
        { intros s2 X. apply (make_spec e r h _ _ _ _ _ _ _ None) in X; [|reflexivity]. destruct X as (F & U & N & h2 & RP & _). split; [exact F|]. split; [exact U|]. split; [exact N|].
          intros ->. exists h2. rewrite EOL in RP. exact RP. }
        split; [exact F|]. split; [exact N|]. exists t, l. split; [split; [exact P1|exact P2]|]. left. split; [exact EP|]. split; [exact EV|]. exact O.
      + edestruct (decide_outcome e p r h _ _ _ _ s r' s' (fun h' => xh_evo h' = Some (age_of e h (xe_zeval e r) l, age_of e h (xe_zeval e r) l / t) /\ replaced e "TNFWCHaloParametric" "TNFWC" (tnfwc_args e r rt (onum (sd_xcore p))) s s' r r' h h') E H) as (F & N & O).
        { intros s2 X. apply (make_spec e r h _ _ _ _ _ _ _ (Some (age_of e h (xe_zeval e r) l, age_of e h (xe_zeval e r) l / t))) in X; [|reflexivity]. destruct X as (F & U & N & h2 & RP & EE). split; [exact F|]. split; [exact U|]. split; [exact N|].
          intros ->. exists h2. split; [exact EE|exact RP]. }
        split; [exact F|]. split; [exact N|]. exists t, l. split; [split; [exact P1|exact P2]|]. right. left. split; [exact EP|]. split; [exact EV|]. exact O.
    - destruct (String.eqb (sd_profile p) "CC_COMPOSITE") eqn:EP2; [|discriminate]. apply String.eqb_eq in EP2.
      apply sbind_Ok in H as (nf & s0 & Ha & H). apply lift_Ok in Ha as (ENF & ->). destruct nf as [[rhos rs] r200]. cbv zeta in H.
      destruct (Rltb 0 (xh_z h)); cbn [negb] in H; [|discriminate].
      apply sbind_Ok in H as (b & s0 & Ha & H).
      assert (s0 = s) as -> by (destruct (xh_sub h); [apply lift_Ok in Ha as (_ & ->)|injection Ha as _ <-]; reflexivity). clear Ha.
      apply sbind_Ok in H as (age & s0 & Ha & H). apply lift_Ok in Ha as (EA & ->).
      apply sbind_Ok in H as (toc & s0 & Ha & H). apply lift_Ok in Ha as (ET & ->).
      unfold t_over_tc in ET. destruct (sd_tc p) as [t|] eqn:ETC; [|discriminate]. injection ET as <-.
      assert (HL : exists l, (xh_sub h = true -> sd_scaling p = Some l) /\ age = age_of e h (xe_zeval e r) l /\ (xh_sub h = false -> l = 1) /\
                    onum (if xh_sub h then sd_scaling p else Some 1) = VNum l).
      { destruct (xh_sub h) eqn:SUB.
        - destruct (sd_scaling p) as [l|] eqn:EL; [|unfold halo_effective_age in EA; rewrite SUB in EA; discriminate].
          rewrite age_of_model in EA. injection EA as <-. exists l. repeat split; auto. discriminate.
        - rewrite age_of_model in EA. injection EA as <-. exists 1. repeat split; auto. discriminate. }
      destruct HL as (l & HL & -> & HL1 & EOL).
      edestruct (decide_outcome e p r h _ _ _ _ s r' s' (fun h' => exists rhos rs r200 cls g, xe_nfw e r = Ok (rhos, rs, r200) /\ composite_class (sd_gamma p) cls g /\
                replaced e cls "CORE_COLLAPSED" (composite_args e p r rt r200 g ++ [("sidm_timescale", VNum t); ("lambda_t", VNum l)]) s s' r r' h h') E H) as (F & N & O).
      { intros s2 X. apply (make_spec e r h _ _ _ _ _ _ _ None) in X; [|reflexivity]. destruct X as (F & U & N & h2 & RP & _). split; [exact F|]. split; [exact U|]. split; [exact N|].
        intros ->. exists h2, rhos, rs, r200, (cc_class (sd_gamma p)), (cc_gamma (sd_gamma p)). split; [exact ENF|]. split; [apply cc_class_spec|].
        rewrite EOL in RP. exact RP. }
      split; [exact F|]. split; [exact N|]. exists t, l. split; [split; [intros _; split; [exact ETC|]; split; [exact HL|exact HL1]|intros q _ NQ; congruence]|].
      right. right. split; [exact EP2|]. exact O. }
  cut (frame s s' r /\ xs_n s' = xs_n s /\ match sd_tc p, sd_toc p with None, None => xs_u s' = xs_u s /\ static_outcome e p rt s s' r r' h | _, _ => timed_outcome e p rt (xs_u s) (xs_u s') s s' r r' h end).
  { intros (F & N & O). split; [exact F|]. split; [exact N|]. exists rt. split; [exact ERT|exact O]. }
  revert H TIMED. destruct (sd_tc p) as [t|] eqn:ETC; [intros H TIMED; apply TIMED; [left; discriminate|exact H]|].
  destruct (sd_toc p) as [q|] eqn:ETQ; [intros H TIMED; apply TIMED; [right; discriminate|exact H]|]. intros H _.
  destruct (String.eqb (sd_profile p) "CC_COMPOSITE") eqn:EP.
  - apply String.eqb_eq in EP. apply sbind_Ok in H as (nf & s0 & Ha & H). apply lift_Ok in Ha as (ENF & ->). destruct nf as [[rhos rs] r200].
    apply (make_spec e r h _ _ _ _ _ _ _ None) in H; [|reflexivity]. destruct H as (F & U & N & h2 & RP & _). split; [exact F|]. split; [exact N|]. split; [exact U|]. right. split; [exact EP|].
    exists rhos, rs, r200, (cc_class (sd_gamma p)), (cc_gamma (sd_gamma p)), h2. split; [exact ENF|]. split; [apply cc_class_spec|exact RP].
  - destruct (String.eqb (sd_profile p) "TNFWC") eqn:EP2; [|discriminate]. apply String.eqb_eq in EP2.
    destruct (sd_xcore p) as [xc|] eqn:EXC; [|discriminate].
    apply (make_spec e r h _ _ _ _ _ _ _ None) in H; [|reflexivity]. destruct H as (F & U & N & h2 & RP & _). split; [exact F|]. split; [exact N|]. split; [exact U|]. left. split; [exact EP2|].
    exists xc, h2. split; [exact EXC|exact RP].
Qed.
