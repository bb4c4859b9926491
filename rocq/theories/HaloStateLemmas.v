(** The statements of [HaloStateProps], derived from the invariants and frame lemmas. *)
From Verif Require Import Prelude HaloStateModel HaloStateSpec HaloStateProofs HaloFrame.
#[local] Arguments pow : simpl never.

Lemma rescale_all_app l c s : rescale_all (l ++ [c]) s =
  rescale_normalization (fst (fst c)) (snd (fst c)) (snd c) (rescale_all l s).
Proof. unfold rescale_all. rewrite fold_left_app. reflexivity. Qed.

Lemma rprod_app l a : rprod (l ++ [a]) = rprod l * a.
Proof. induction l as [|b l IH]; simpl; [lra|rewrite IH; lra]. Qed.

Definition any_logged (l : list call) : Prop := exists c, In c l /\ snd c = true.

Lemma once_logged s : s_once s = false -> forall l, s_once (rescale_all l s) = true <-> any_logged l.
Proof.
  intros Hs. induction l as [|[[f fo] lg] l IH] using rev_ind.
  - simpl. rewrite Hs. split; [discriminate|]. intros (c & [] & _).
  - rewrite rescale_all_app. simpl.
    assert (X : any_logged (l ++ [(f, fo, lg)]) <-> any_logged l \/ lg = true).
    { unfold any_logged. split.
      - intros (c & Hin & Hc). apply in_app_iff in Hin. destruct Hin as [Hin|[<-|[]]]; [left; eauto|right; exact Hc].
      - intros [(c & Hin & Hc)|Hc]; [exists c; rewrite in_app_iff; auto|].
        exists (f, fo, lg). rewrite in_app_iff. simpl; auto. }
    rewrite X, <- IH. unfold rescale_normalization.
    destruct fo; simpl; [destruct lg; intuition congruence|].
    destruct (s_once (rescale_all l s)) eqn:Eo; [rewrite Eo; tauto|]. simpl. destruct lg; intuition congruence.
Qed.

Lemma effective_app_old l c i : (i < List.length l)%nat -> effective (l ++ [c]) i <-> effective l i.
Proof.
  intros Hi. unfold effective. rewrite nth_error_app1 by assumption.
  split; intros (f & fo & lg & H1 & H2); exists f, fo, lg; (split; [exact H1|]); destruct H2 as [H2|H2]; auto;
  right; intros j f' fo' lg' Hj; specialize (H2 j f' fo' lg' Hj); rewrite nth_error_app1 in * by lia; auto.
Qed.
Lemma effective_app_new l f fo lg : effective (l ++ [(f, fo, lg)]) (List.length l) <-> fo = true \/ ~ any_logged l.
Proof.
  unfold effective. rewrite nth_error_app2, Nat.sub_diag by lia. simpl. split.
  - intros (f' & fo' & lg' & H1 & H2). injection H1 as <- <- <-. destruct H2 as [H2|H2]; [auto|].
    right. intros ([[f' fo'] lg'] & Hin & Hc). apply In_nth_error in Hin. destruct Hin as [j Hj].
    assert (Hjl : (j < List.length l)%nat) by (apply nth_error_Some; unfold call in *; congruence).
    specialize (H2 j f' fo' lg' Hjl). rewrite nth_error_app1 in H2 by assumption. simpl in Hc. rewrite H2 in Hc; auto. discriminate.
  - intros H. exists f, fo, lg. split; [reflexivity|]. destruct H as [H|H]; [auto|]. right.
    intros j f' fo' lg' Hj Hn. rewrite nth_error_app1 in Hn by assumption.
    destruct lg'; auto. exfalso. apply H. exists (f', fo', true). split; [eapply nth_error_In; exact Hn|reflexivity].
Qed.

Lemma rescale_lemma s l : s_once s = false ->
  exists gs, contributions l gs /\ s_norm (rescale_all l s) = s_norm s * rprod gs.
Proof.
  intros Hs. induction l as [|[[f fo] lg] l IH] using rev_ind.
  - exists []. split; [split; [reflexivity|intros i f fo lg; destruct i; discriminate]|simpl; lra].
  - destruct IH as (gs & (Hl & Hg) & Hn).
    set (g := if fo then f else if s_once (rescale_all l s) then 1 else f).
    exists (gs ++ [g]). split.
    + split; [rewrite !app_length; simpl; lia|]. intros i f' fo' lg' Hi.
      destruct (Nat.lt_ge_cases i (List.length l)) as [Hlt|Hge].
      * rewrite nth_error_app1 in Hi by assumption. rewrite (nth_error_app1 gs) by lia.
        rewrite effective_app_old by assumption. eapply Hg; eassumption.
      * assert (i = List.length l) as ->.
        { assert (i < List.length (l ++ [(f, fo, lg)]))%nat by (apply nth_error_Some; unfold call in *; congruence).
          rewrite app_length in *; simpl in *; lia. }
        rewrite nth_error_app2, Nat.sub_diag in Hi by lia. injection Hi as <- <- <-.
        rewrite (nth_error_app2 gs), Hl, Nat.sub_diag by lia. simpl. rewrite effective_app_new.
        rewrite <- (once_logged s Hs l). unfold g.
        destruct fo; [split; intros; auto; tauto|].
        destruct (s_once (rescale_all l s)); split; intros; auto; intuition congruence.
    + rewrite rescale_all_app, rprod_app. simpl. unfold rescale_normalization, g.
      destruct fo; simpl; [rewrite Hn; lra|].
      destruct (s_once (rescale_all l s)); simpl; rewrite Hn; lra.
Qed.

Lemma rescale_caches f fo lg s :
  (fo = true \/ s_once s = false ->
     let s' := rescale_normalization f fo lg s in
     s_phys s' = None /\ s_kw s' = None /\ s_nfw s' = None /\ s_norm s' = s_norm s * f /\
     s_x s' = s_x s /\ s_y s' = s_y s /\ s_zinf s' = s_zinf s /\ s_zeval s' = s_zeval s /\ s_c s' = s_c s /\
     s_tsi s' = s_tsi s /\ s_pargs s' = s_pargs s /\ s_vmax s' = s_vmax s /\ s_mb s' = s_mb s) /\
  (fo = false -> s_once s = true -> rescale_normalization f fo lg s = s).
Proof.
  unfold rescale_normalization. split.
  - intros [->|H]; [|rewrite H; destruct fo]; simpl; repeat split.
  - intros -> ->. reflexivity.
Qed.

Section L.
Variable E : Env.
Variable H : Static.
Hypothesis age : ages_ok E.
Variables x y : R.

Lemma fresh_inv qs : Inv E H x y (reads E H qs (fresh x y)).
Proof. apply inv_reads; [exact age|]. apply inv_fresh. Qed.

Lemma lensing_indep qs : value (lenstronomy_params E H) (reads E H qs (fresh x y)) =
                         value (lenstronomy_params E H) (fresh x y).
Proof.
  unfold value. destruct (inv_kw E H age x y _ (fresh_inv qs)) as (s1 & E1 & _).
  destruct (inv_kw E H age x y _ (fresh_inv [])) as (s2 & E2 & _). simpl in E2. rewrite E1, E2. reflexivity.
Qed.
Lemma phys_indep qs : value (params_physical E H) (reads E H qs (fresh x y)) =
                      value (params_physical E H) (fresh x y).
Proof.
  unfold value. destruct (inv_phys E H age x y _ (fresh_inv qs)) as (s1 & E1 & _).
  destruct (inv_phys E H age x y _ (fresh_inv [])) as (s2 & E2 & _). simpl in E2. rewrite E1, E2. reflexivity.
Qed.
Lemma vmax_indep qs : value (vmax_nfw E H) (reads E H qs (fresh x y)) = value (vmax_nfw E H) (fresh x y).
Proof.
  unfold value. destruct (inv_vmax E H age x y _ (fresh_inv qs)) as (s1 & E1 & _).
  destruct (inv_vmax E H age x y _ (fresh_inv [])) as (s2 & E2 & _). simpl in E2. rewrite E1, E2. reflexivity.
Qed.
Lemma density_indep qs r : value (density_profile_3d E H r) (reads E H qs (fresh x y)) =
                           value (density_profile_3d E H r) (fresh x y).
Proof.
  unfold value. destruct (inv_density E H age x y r _ (fresh_inv qs)) as (s1 & E1 & _).
  destruct (inv_density E H age x y r _ (fresh_inv [])) as (s2 & E2 & _). simpl in E2. rewrite E1, E2. reflexivity.
Qed.
Lemma mb_indep qs : value (bound_mass_galacticus_definition E H) (reads E H qs (fresh x y)) =
                    value (bound_mass_galacticus_definition E H) (fresh x y).
Proof.
  unfold value. destruct (inv_mbdef E H age x y _ (fresh_inv qs)) as (s1 & E1 & _).
  destruct (inv_mbdef E H age x y _ (fresh_inv [])) as (s2 & E2 & _). simpl in E2. rewrite E1, E2. reflexivity.
Qed.
Lemma basic_indep qs :
  value (conc E H) (reads E H qs (fresh x y)) = value (conc E H) (fresh x y) /\
  value (z_infall E H) (reads E H qs (fresh x y)) = value (z_infall E H) (fresh x y) /\
  value (z_eval E H) (reads E H qs (fresh x y)) = value (z_eval E H) (fresh x y) /\
  value (time_since_infall E H) (reads E H qs (fresh x y)) = value (time_since_infall E H) (fresh x y) /\
  value (nfw_params E H) (reads E H qs (fresh x y)) = value (nfw_params E H) (fresh x y) /\
  value (profile_args E H) (reads E H qs (fresh x y)) = value (profile_args E H) (fresh x y).
Proof.
  assert (G : forall A (m : M A) r, getter E H m r -> value m (reads E H qs (fresh x y)) = value m (fresh x y)).
  { intros A m r G. unfold value. destruct (inv_get E H x y _ _ _ G (fresh_inv qs)) as (s1 & E1 & _).
    destruct (inv_get E H x y _ _ _ G (fresh_inv [])) as (s2 & E2 & _). simpl in E2. rewrite E1, E2. reflexivity. }
  repeat split.
  - exact (G _ _ _ (get_conc E H)).
  - exact (G _ _ _ (get_z_infall E H)).
  - exact (G _ _ _ (get_z_eval E H)).
  - exact (G _ _ _ (get_time E H age)).
  - exact (G _ _ _ (get_nfw E H)).
  - unfold value. destruct (inv_pargs E H age x y _ (fresh_inv qs)) as (s1 & E1 & _).
    destruct (inv_pargs E H age x y _ (fresh_inv [])) as (s2 & E2 & _). simpl in E2. rewrite E1, E2. reflexivity.
Qed.

Lemma Ok_inj {A} {a b : A} : Ok a = Ok b -> a = b.
Proof. congruence. Qed.
(** the factor applied by the truncation model *)
Lemma st0_some m r o : st0 E H m = (r, o) -> exists rhos rs r200 f,
  nfw0 E H = (rhos, rs, r200) /\ e_rte E m (h_mass H) r200 (c0 E H) = (r, f) /\ o = Some f.
Proof.
  unfold st0. destruct (nfw0 E H) as [[rhos rs] r200]. destruct (e_rte E m (h_mass H) r200 (c0 E H)) as [r' f] eqn:Ee.
  intros X; injection X as <- <-. exists rhos, rs, r200, f. auto.
Qed.
Lemma rt0_cases rt o : rt0 E H = Ok (rt, o) ->
  (rescaling (h_kind H) = true -> exists m, st0 E H m = (rt, o)) /\ (rescaling (h_kind H) = false -> o = None).
Proof.
  unfold rt0, tr0. intros X. split; intros Hk.
  - destruct (h_sub H), (h_kind H); try discriminate Hk; simpl in X; try (destruct (mb0 E H); simpl in X);
    repeat match type of X with context [loss0 E H ?a ?b ?c] => destruct (loss0 E H a b c); simpl in X end;
    try discriminate X; assert (X' := Ok_inj X); eauto.
  - destruct (h_sub H), (h_kind H); try discriminate Hk; simpl in X;
    repeat match type of X with context [loss0 E H ?a ?b ?c] => destruct (loss0 E H a b c); simpl in X end;
    try discriminate X; injection X as _ X; symmetry; exact X.
Qed.

Lemma phys_value qs p : value (params_physical E H) (reads E H qs (fresh x y)) = Ok p ->
  exists c z, value (conc E H) (fresh x y) = Ok c /\ value (z_eval E H) (fresh x y) = Ok z /\
    let '(rhos, rs, r200) := e_nfw E (h_mass H) c z in
    p_rs p = rs /\ p_r200 p = r200 /\
    if rescaling (h_kind H)
    then exists m_bound f, e_rte E m_bound (h_mass H) r200 c = (p_rt p, f) /\ p_rhos p = rhos * f
    else p_rhos p = rhos.
Proof.
  unfold value. destruct (inv_phys E H age x y _ (fresh_inv qs)) as (s1 & E1 & _). rewrite E1.
  destruct (rt0 E H) as [[rt o]|e] eqn:Er; simpl; [|discriminate]. intros X; injection X as <-.
  exists (c0 E H), (ze0 E H).
  destruct (inv_get E H x y _ _ _ (get_conc E H) (fresh_inv [])) as (s2 & E2 & _). simpl in E2. rewrite E2.
  destruct (inv_get E H x y _ _ _ (get_z_eval E H) (fresh_inv [])) as (s3 & E3 & _). simpl in E3. rewrite E3.
  split; [reflexivity|]. split; [reflexivity|].
  change (e_nfw E (h_mass H) (c0 E H) (ze0 E H)) with (nfw0 E H). unfold phys0.
  destruct (rt0_cases rt o Er) as [R1 R2].
  destruct (rescaling (h_kind H)).
  - destruct (R1 eq_refl) as [m Hm]. destruct (st0_some _ _ _ Hm) as (rhos & rs & r200 & f & Hn & He & ->).
    rewrite Hn. simpl. repeat split. exists m, f. split; [exact He|]. lra.
  - rewrite (R2 eq_refl). destruct (nfw0 E H) as [[rhos rs] r200]. simpl. repeat split. lra.
Qed.

(** state after a truncating query that did not fail *)
Lemma truncated_state q s : Inv E H x y s -> truncating q = true -> fst (ask E H q s) = Ok tt ->
  s_pargs (snd (ask E H q s)) <> None.
Proof.
  intros HI Hq Ho.
  pose proof (inv_ask E H age x y q s HI) as HI'.
  assert (X : exists p, rt0 E H = Ok p).
  { destruct (rt0 E H) as [p|e] eqn:Er; [eauto|exfalso].
    destruct q; try discriminate Hq; unfold ask, unit_of, mbind in Ho.
    - destruct (inv_pargs E H age x y s HI) as (s1 & E1 & _). rewrite E1 in Ho. unfold pa0 in Ho. rewrite Er in Ho. discriminate.
    - destruct (inv_phys E H age x y s HI) as (s1 & E1 & _). rewrite E1, Er in Ho. discriminate.
    - destruct (inv_kw E H age x y s HI) as (s1 & E1 & _). rewrite E1, Er in Ho. discriminate.
    - destruct (inv_vmax E H age x y s HI) as (s1 & E1 & _). rewrite E1, Er in Ho. discriminate.
    - destruct (inv_bound E H age x y s HI) as (s1 & E1 & _). rewrite E1, Er in Ho. destruct (h_sub H); discriminate.
    - destruct (inv_m3d E H age x y rmax s HI) as (s1 & E1 & _). rewrite E1, Er in Ho. discriminate.
    - destruct (inv_density E H age x y r s HI) as (s1 & E1 & _). rewrite E1, Er in Ho. discriminate. }
  destruct X as [p Er].
  (* if pargs were still None, a fresh profile_args query could not have been made *)
  assert (P : forall A (m : M A) (k : R * R -> M A) s, s_pargs s = None -> m = mbind (profile_args E H) k -> True) by auto.
  clear P.
  destruct q; try discriminate Hq; unfold ask; rewrite unit_snd; unfold ask, unit_of, mbind in Ho.
  - destruct (inv_pargs E H age x y s HI) as (s1 & E1 & _ & A1 & _). rewrite E1. simpl. rewrite Er in A1.
    destruct p as [rt o]. destruct A1 as [A1 _]. congruence.
  - destruct (inv_phys E H age x y s HI) as (s1 & E1 & _ & A1). rewrite E1. simpl. destruct (A1 p Er) as [A _]. congruence.
  - destruct (inv_kw E H age x y s HI) as (s1 & E1 & _ & A1). rewrite E1. simpl. apply (A1 p Er).
  - destruct (s_pargs s) as [a|] eqn:Ea.
    + destruct (k_ask E H QVmax s a Ea) as (B & _). unfold ask in B. rewrite unit_snd in B. congruence.
    + assert (Ev : s_vmax s = None).
      { destruct HI as (_ & _ & _ & _ & _ & [Hc|(rt & o & _ & Hp & _)]); [tauto|congruence]. }
      unfold vmax_nfw. rewrite bind_gets, Ev.
      destruct (inv_get E H x y _ _ s (get_nfw E H) HI) as (s1 & E1 & I1 & S1). rewrite (bind_ok _ _ _ _ _ E1).
      destruct (nfw0 E H) as [[rhos rs] r200].
      destruct (inv_pargs E H age x y s1 I1) as (s2 & E2 & _ & A2 & _). unfold pa0 in E2. rewrite Er in E2, A2.
      destruct p as [rt o]. simpl in E2. rewrite (bind_ok _ _ _ _ _ E2), bind_gets, bind_modify. simpl.
      destruct A2 as [A2 _]. congruence.
  - unfold bound_mass in *. destruct (h_sub H); simpl in *; [|discriminate].
    rewrite bind_gets in *. destruct (s_kw s) as [k|] eqn:Ek.
    + rewrite bind_ret. destruct (inv_get E H x y _ _ s (get_conc E H) HI) as (s1 & E1 & I1 & S1).
      rewrite (bind_ok _ _ _ _ _ E1), bind_gets. simpl.
      destruct S1 as (A1 & A2 & A3 & A4 & A5 & _). rewrite A5.
      destruct HI as (_ & _ & _ & _ & _ & [Hc|(rt & o & _ & Hp & _)]); [|congruence].
      destruct Hc as (_ & _ & _ & _ & Hc & _). congruence.
    + destruct (inv_phys E H age x y s HI) as (s1 & E1 & I1 & A1). rewrite Er in E1. simpl in E1.
      assert (E1' : (let* p := params_physical E H in ret (p_rt p / p_rs p)) s =
              (Ok (p_rt (phys0 E H (fst p) (snd p)) / p_rs (phys0 E H (fst p) (snd p))), s1))
        by (rewrite (bind_ok _ _ _ _ _ E1); reflexivity).
      rewrite (bind_ok _ _ _ _ _ E1').
      destruct (inv_get E H x y _ _ s1 (get_conc E H) I1) as (s2 & E2 & I2 & S2). rewrite (bind_ok _ _ _ _ _ E2), bind_gets.
      simpl. destruct S2 as (B1 & B2 & B3 & B4 & B5 & _). rewrite B5. destruct (A1 p Er) as [A _]. congruence.
  - unfold mass_3d.
    assert (G : exists s1 v, (match rmax with Some r => ret r | None =>
      let* p := nfw_params E H in let* c := conc E H in ret (snd (fst p) * c) end) s = (Ok v, s1) /\ Inv E H x y s1).
    { destruct rmax as [r|].
      - exists s, r. split; [reflexivity|exact HI].
      - assert (G : getter E H (let* p := nfw_params E H in let* c := conc E H in ret (snd (fst p) * c))
                      (Ok (snd (fst (nfw0 E H)) * c0 E H))).
        { eapply getter_bind; [apply get_nfw|]. eapply getter_bind; [apply get_conc|apply getter_ret]. }
        destruct (inv_get E H x y _ _ s G HI) as (s1 & E1 & I1 & _). eauto. }
    destruct G as (s1 & v & E1 & I1). rewrite (bind_ok _ _ _ _ _ E1).
    destruct (inv_get E H x y _ _ s1 (get_nfw E H) I1) as (s2 & E2 & I2 & S2). rewrite (bind_ok _ _ _ _ _ E2).
    destruct (inv_get E H x y _ _ s2 (get_nfw E H) I2) as (s3 & E3 & I3 & S3). cbv zeta. rewrite (bind_ok _ _ _ _ _ E3).
    rewrite bind_gets. destruct (inv_pargs E H age x y s3 I3) as (s4 & E4 & _ & A4 & _).
    unfold pa0 in E4. rewrite Er in E4, A4. destruct p as [rt o]. simpl in E4.
    rewrite (bind_ok _ _ _ _ _ E4). simpl. destruct A4 as [A4 _]. congruence.
  - unfold density_profile_3d. destruct (inv_pargs E H age x y s HI) as (s1 & E1 & I1 & A1 & _).
    unfold pa0 in E1. rewrite Er in E1, A1. destruct p as [rt o]. simpl in E1. rewrite (bind_ok _ _ _ _ _ E1).
    destruct (inv_get E H x y _ _ s1 (get_nfw E H) I1) as (s2 & E2 & I2 & S2). rewrite (bind_ok _ _ _ _ _ E2).
    destruct (nfw0 E H) as [[rhos rs] r200]. simpl.
    destruct S2 as (B1 & B2 & B3 & B4 & B5 & _). rewrite B5. destruct A1 as [A1 _]. congruence.
Qed.

Lemma reads_pargs qs : forall s, s_pargs s <> None -> s_pargs (reads E H qs s) <> None.
Proof.
  induction qs as [|q qs IH]; simpl; intros s Hs; auto. apply IH. destruct (s_pargs s) as [a|] eqn:Ea; [|congruence].
  destruct (k_ask E H q s a Ea) as (B & _). congruence.
Qed.

Lemma reads_app l1 l2 s : reads E H (l1 ++ l2) s = reads E H l2 (reads E H l1 s).
Proof. unfold reads. apply fold_left_app. Qed.

Lemma truncated_pargs qs : truncated_before E H x y qs -> s_pargs (reads E H qs (fresh x y)) <> None.
Proof.
  intros (l1 & q & l2 & -> & Hq & Ho). rewrite reads_app. simpl. apply reads_pargs.
  apply truncated_state; auto. apply fresh_inv.
Qed.

Lemma m3d_after qs qs' r : truncated_before E H x y qs -> truncated_before E H x y qs' ->
  value (mass_3d E H r) (reads E H qs (fresh x y)) = value (mass_3d E H r) (reads E H qs' (fresh x y)).
Proof.
  intros H1 H2. apply truncated_pargs in H1, H2. unfold value.
  destruct (inv_m3d E H age x y r _ (fresh_inv qs)) as (s1 & E1 & _). rewrite E1.
  destruct (inv_m3d E H age x y r _ (fresh_inv qs')) as (s2 & E2 & _). rewrite E2.
  destruct (s_pargs (reads E H qs (fresh x y))); [|congruence].
  destruct (s_pargs (reads E H qs' (fresh x y))); [|congruence]. reflexivity.
Qed.
Lemma m3d_plain qs r : rescaling (h_kind H) = false ->
  value (mass_3d E H r) (reads E H qs (fresh x y)) = value (mass_3d E H r) (fresh x y).
Proof.
  intros Hk. unfold value.
  destruct (inv_m3d E H age x y r _ (fresh_inv qs)) as (s1 & E1 & _). rewrite E1.
  destruct (inv_m3d E H age x y r _ (fresh_inv [])) as (s2 & E2 & _). simpl in E2. rewrite E2.
  destruct (rt0 E H) as [[rt o]|e] eqn:Er; [|reflexivity]. simpl.
  destruct (rt0_cases rt o Er) as [_ R2]. rewrite (R2 Hk).
  destruct (s_pargs (reads E H qs (fresh x y))); reflexivity.
Qed.

Lemma reads_nk qs : (forall q, In q qs -> q <> QLensing) -> forall s, s_kw s = None -> s_kw (reads E H qs s) = None.
Proof.
  induction qs as [|q qs IH]; simpl; intros Hq s Hs; auto.
  apply IH; [intros; apply Hq; auto|]. apply nk_ask; auto.
Qed.
Lemma bound_no_lensing qs : (forall q, In q qs -> q <> QLensing) ->
  value (bound_mass E H) (reads E H qs (fresh x y)) = value (bound_mass E H) (fresh x y).
Proof.
  intros Hq. pose proof (reads_nk qs Hq (fresh x y) eq_refl) as Hk. unfold value.
  destruct (inv_bound E H age x y _ (fresh_inv qs)) as (s1 & E1 & _). rewrite E1, Hk.
  destruct (inv_bound E H age x y _ (fresh_inv [])) as (s2 & E2 & _). simpl in E2. rewrite E2. reflexivity.
Qed.
End L.

(** ** C20 *)
Section L20.
Variable E : Env.
Variable H : Static.

Lemma act_d o s : no_set o -> Rd s (act E H o s).
Proof.
  destruct o; simpl; intros Ho; [apply d_ask|contradiction|apply d_rescale|].
  unfold Rd, drawn_once; simpl; auto.
Qed.
Lemma act_keep o s :
  (forall v, s_zeval s = Some v -> s_zeval (act E H o s) = Some v) /\
  (forall v, s_tsi s = Some v -> s_tsi (act E H o s) = Some v) /\
  (forall v, s_c s = Some v -> s_c (act E H o s) = Some v) /\
  (drawn_once s -> drawn_once (act E H o s)).
Proof.
  destruct o as [q|z|f fo lg|a b].
  - destruct (act_d (ORead q) s I) as (A1 & A2 & A3 & A4 & A5); auto.
  - simpl. unfold set_infall_redshift. destruct (h_sub H); simpl; auto.
    unfold drawn_once; simpl. repeat split; auto; try congruence; intuition.
  - destruct (act_d (ORescale f fo lg) s I) as (A1 & A2 & A3 & A4 & A5); auto.
  - destruct (act_d (OMove a b) s I) as (A1 & A2 & A3 & A4 & A5); auto.
Qed.
Lemma history_keep l : forall s,
  (forall v, s_zeval s = Some v -> s_zeval (history E H l s) = Some v) /\
  (forall v, s_tsi s = Some v -> s_tsi (history E H l s) = Some v) /\
  (forall v, s_c s = Some v -> s_c (history E H l s) = Some v) /\
  (drawn_once s -> drawn_once (history E H l s)).
Proof.
  induction l as [|o l IH]; simpl; intros s; auto.
  destruct (act_keep o s) as (A1 & A2 & A3 & A4). destruct (IH (act E H o s)) as (B1 & B2 & B3 & B4). auto 10.
Qed.
Lemma history_zinf l : Forall no_set l -> forall s v, s_zinf s = Some v -> s_zinf (history E H l s) = Some v.
Proof.
  induction 1 as [|o l Ho Hl IH]; simpl; intros s v Hv; auto. apply IH. apply (act_d o s Ho). exact Hv.
Qed.
Lemma drawn_fresh x y : drawn_once (fresh x y).
Proof. unfold drawn_once; simpl; auto. Qed.

Lemma zinf_value s v : fst (z_infall E H s) = Ok v -> s_zinf (snd (z_infall E H s)) = Some v.
Proof. destruct (zinf_ok E H s) as (w & s' & E1 & Hw). rewrite E1. simpl. intros X; injection X as <-; exact Hw. Qed.
Lemma conc_value s v : fst (conc E H s) = Ok v -> s_c (snd (conc E H s)) = Some v.
Proof. destruct (conc_ok E H s) as (w & s' & E1 & Hw). rewrite E1. simpl. intros X; injection X as <-; exact Hw. Qed.
Lemma zeval_value s v : fst (z_eval E H s) = Ok v -> s_zeval (snd (z_eval E H s)) = Some v.
Proof. destruct (zeval_ok E H s) as (w & s' & E1 & Hw). rewrite E1. simpl. intros X; injection X as <-; exact Hw. Qed.
Lemma time_value s v : fst (time_since_infall E H s) = Ok (Some v) -> s_tsi (snd (time_since_infall E H s)) = Some v.
Proof.
  unfold time_since_infall. destruct (h_sub H); simpl; [|discriminate]. rewrite bind_gets.
  destruct (s_tsi s) as [t|] eqn:Et; [simpl; congruence|].
  destruct (zinf_ok E H s) as (w & s' & E1 & Hw). rewrite (bind_ok _ _ _ _ _ E1), bind_modify.
  destruct (Rleb 0 (e_age E (h_z H) w)); simpl; congruence.
Qed.

(** ** C21 *)
Lemma history_xy_reads qs : forall s, s_x (reads E H qs s) = s_x s /\ s_y (reads E H qs s) = s_y s.
Proof.
  induction qs as [|q qs IH]; simpl; intros s; auto. destruct (IH (snd (ask E H q s))) as [A B].
  destruct (xy_ask E H q s) as [C D]. split; congruence.
Qed.
Lemma act_nk o s : no_lensing o -> s_kw s = None -> s_kw (act E H o s) = None.
Proof.
  destruct o; simpl; intros Ho Hs.
  - apply nk_ask; [|exact Hs]. intros ->. contradiction.
  - unfold set_infall_redshift. destruct (h_sub H); simpl; auto.
  - apply nk_rescale; exact Hs.
  - exact Hs.
Qed.
Lemma history_nk l : Forall no_lensing l -> forall s, s_kw s = None -> s_kw (history E H l s) = None.
Proof. induction 1 as [|o l Ho Hl IH]; simpl; intros s Hs; auto. apply IH, act_nk; auto. Qed.

Lemma history_position l : forall s, (s_x (history E H l s), s_y (history E H l s)) = position l (s_x s, s_y s).
Proof.
  induction l as [|o l IH]; simpl; intros s; auto. rewrite IH. destruct o as [q|z|f fo lg|a b]; simpl.
  - destruct (xy_ask E H q s) as [-> ->]. reflexivity.
  - unfold set_infall_redshift. destruct (h_sub H); reflexivity.
  - destruct (xy_rescale f fo lg s) as [-> ->]. reflexivity.
  - reflexivity.
Qed.
Lemma kw_built s k : s_kw s = None -> value (lenstronomy_params E H) s = Ok k ->
  k_x k = e_round E 4 (s_x s) /\ k_y k = e_round E 4 (s_y s).
Proof.
  unfold value, lenstronomy_params. intros Hk. rewrite bind_gets, Hk.
  pose proof (xy_pargs E H s) as X1. destruct (profile_args E H s) as [[a|e] s1] eqn:E1.
  - rewrite (bind_ok _ _ _ _ _ E1). pose proof (xy_nfw E H s1) as X2.
    destruct (nfw_params E H s1) as [[p|e] s2] eqn:E2.
    + rewrite (bind_ok _ _ _ _ _ E2). destruct p as [[rhos rs] r200].
      destruct (e_angle E (rhos * 10 ^ 9) (rs * / 10 ^ 3) (h_z H)) as [Rs th].
      cbv beta iota delta [mbind gets modify ret]. simpl. intros X; injection X as <-. simpl.
      destruct X1 as [X1 X1'], X2 as [X2 X2']. simpl in *. rewrite X2, X2', X1, X1'. auto.
    + rewrite (bind_err _ _ _ _ _ E2). discriminate.
  - rewrite (bind_err _ _ _ _ _ E1). discriminate.
Qed.
Lemma kw_stored s k : value (lenstronomy_params E H) s = Ok k -> (s_kw s <> None -> s_pargs s <> None) ->
  let s' := snd (lenstronomy_params E H s) in s_kw s' = Some k /\ s_pargs s' <> None.
Proof.
  unfold value, lenstronomy_params. rewrite bind_gets. destruct (s_kw s) as [k0|] eqn:Ek.
  - simpl. intros X W; injection X as <-. split; [exact Ek|apply W; discriminate].
  - intros X _. destruct (profile_args E H s) as [[a|e] s1] eqn:E1.
    + rewrite (bind_ok _ _ _ _ _ E1) in X |- *. pose proof (pargs_set _ _ _ _ _ E1) as P1.
      pose proof (f_nfw E H s1) as (_ & _ & P2 & _).
      destruct (nfw_params E H s1) as [[p|e] s2] eqn:E2.
      * rewrite (bind_ok _ _ _ _ _ E2) in X |- *. destruct p as [[rhos rs] r200].
        destruct (e_angle E (rhos * 10 ^ 9) (rs * / 10 ^ 3) (h_z H)) as [Rs th].
        cbv beta iota delta [mbind gets modify ret] in X |- *. simpl in X, P2 |- *. injection X as <-.
        split; [reflexivity|congruence].
      * rewrite (bind_err _ _ _ _ _ E2) in X. discriminate.
    + rewrite (bind_err _ _ _ _ _ E1) in X. discriminate.
Qed.
Lemma act_kw_stays o s k : no_rescale o -> s_pargs s <> None -> s_kw s = Some k ->
  s_pargs (act E H o s) <> None /\ s_kw (act E H o s) = Some k.
Proof.
  intros Ho Hp Hk. destruct o as [q|z|f fo lg|a b]; simpl in *; try contradiction.
  - destruct (s_pargs s) as [a|] eqn:Ea; [|congruence].
    destruct (k_ask E H q s a Ea) as (B1 & _ & _ & B2 & _). split; [congruence|auto].
  - unfold set_infall_redshift. destruct (h_sub H); simpl; auto.
  - auto.
Qed.
Lemma history_kw_stays l : Forall no_rescale l -> forall s k, s_pargs s <> None -> s_kw s = Some k ->
  s_kw (history E H l s) = Some k.
Proof.
  induction 1 as [|o l Ho Hl IH]; simpl; intros s k Hp Hk; auto.
  destruct (act_kw_stays o s k Ho Hp Hk). eapply IH; eassumption.
Qed.
Lemma kw_cached s k : s_kw s = Some k -> lenstronomy_params E H s = (Ok k, s).
Proof. intros Hk. unfold lenstronomy_params. rewrite bind_gets, Hk. reflexivity. Qed.
Lemma stale_lemma x y l1 l2 k : Forall no_rescale l2 ->
  value (lenstronomy_params E H) (history E H l1 (fresh x y)) = Ok k ->
  value (lenstronomy_params E H) (history E H l2 (act E H (ORead QLensing) (history E H l1 (fresh x y)))) = Ok k.
Proof.
  intros Hl Hk. set (s := history E H l1 (fresh x y)) in *.
  assert (W : s_kw s <> None -> s_pargs s <> None).
  { destruct (w_history E H l1 (fresh x y)) as [_ W]. apply W. simpl. congruence. }
  destruct (kw_stored s k Hk W) as [A B]. simpl. rewrite unit_snd.
  pose proof (history_kw_stays l2 Hl _ k B A) as C. unfold value. rewrite (kw_cached _ _ C). reflexivity.
Qed.
End L20.

(** ** Forced rescaling seen through the queries *)
Section L18.
Variable E : Env.
Variable H : Static.
Hypothesis age : ages_ok E.
Variables x y : R.

Definition kwN (g rt : R) : LensKw :=
  let '(rhos, rs, _) := nfw0 E H in
  let '(Rs, theta) := e_angle E (rhos * 10 ^ 9) (rs * / 10 ^ 3) (h_z H) in
  mkLensKw (g * e_round E 10 theta) (e_round E 10 Rs) (e_round E 4 x) (e_round E 4 y)
           (e_round E 10 (rt / e_kpc E (h_z H))).
Definition physN (g rt : R) : Phys :=
  let '(rhos, rs, r200) := nfw0 E H in mkPhys (rhos * g) rs r200 rt.
Definition J rt (s : St) : Prop :=
  Inv0 E H s /\ s_x s = x /\ s_y s = y /\ s_pargs s = Some (c0 E H, rt) /\
  (s_kw s = None \/ s_kw s = Some (kwN (s_norm s) rt)) /\
  (s_phys s = None \/ s_phys s = Some (physN (s_norm s) rt)).

Lemma pargs_hit s a : s_pargs s = Some a -> profile_args E H s = (Ok a, s).
Proof. intros Hp. unfold profile_args. rewrite bind_gets, Hp. reflexivity. Qed.
Lemma J_kw rt s : J rt s -> value (lenstronomy_params E H) s = Ok (kwN (s_norm s) rt).
Proof.
  intros (I0 & Hx & Hy & Hp & [Hk|Hk] & _); [|unfold value; rewrite (kw_cached _ _ _ _ Hk); reflexivity].
  unfold value, lenstronomy_params. rewrite bind_gets, Hk, (bind_ok _ _ _ _ _ (pargs_hit s _ Hp)).
  destruct (get_nfw E H s I0) as (s1 & E1 & I1 & S1 & _). rewrite (bind_ok _ _ _ _ _ E1). unfold kwN.
  destruct (nfw0 E H) as [[rhos rs] r200].
  destruct (e_angle E (rhos * 10 ^ 9) (rs * / 10 ^ 3) (h_z H)) as [Rs th].
  destruct S1 as (A1 & A2 & A3 & _). cbv beta iota delta [mbind gets modify ret]. simpl.
  rewrite A1, A2, A3, Hx, Hy. reflexivity.
Qed.
Lemma J_phys rt s : J rt s -> value (params_physical E H) s = Ok (physN (s_norm s) rt).
Proof.
  intros (I0 & Hx & Hy & Hp & _ & [Hk|Hk]); unfold value, params_physical; rewrite bind_gets, Hk; [|reflexivity].
  rewrite (bind_ok _ _ _ _ _ (pargs_hit s _ Hp)).
  destruct (get_nfw E H s I0) as (s1 & E1 & I1 & S1 & _). rewrite (bind_ok _ _ _ _ _ E1). unfold physN.
  destruct (nfw0 E H) as [[rhos rs] r200].
  destruct S1 as (A1 & A2 & A3 & _). cbv beta iota delta [mbind gets modify ret]. simpl. rewrite A3. reflexivity.
Qed.
Lemma J_forced rt f lg s : J rt s -> J rt (rescale_normalization f true lg s).
Proof.
  intros (I0 & Hx & Hy & Hp & _). unfold J, Inv0, rescale_normalization, apply_rescale in *. simpl. tauto.
Qed.
Lemma J_reads qs : s_pargs (reads E H qs (fresh x y)) <> None ->
  exists rt, J rt (reads E H qs (fresh x y)).
Proof.
  intros Hp. destruct (fresh_inv E H age x y qs) as (I0 & _ & Hx & Hy & _ & [Hc|(rt & o & Hr & Hc & Hn & Hph & Hk & _)]); [tauto|].
  exists rt. unfold J. do 3 (split; [assumption|]). split; [assumption|]. unfold kwN, physN, kw0, phys0 in *. rewrite Hn. auto.
Qed.

Lemma forced_seen qs l k p : Forall (fun c => snd (fst c) = true) l -> truncated_before E H x y qs ->
  value (lenstronomy_params E H) (reads E H qs (fresh x y)) = Ok k ->
  value (params_physical E H) (reads E H qs (fresh x y)) = Ok p ->
  let s' := rescale_all l (reads E H qs (fresh x y)) in
  let g := rprod (map (fun c => fst (fst c)) l) in
  value (lenstronomy_params E H) s' = Ok (mkLensKw (g * k_alpha k) (k_Rs k) (k_x k) (k_y k) (k_rtrunc k)) /\
  value (params_physical E H) s' = Ok (mkPhys (g * p_rhos p) (p_rs p) (p_r200 p) (p_rt p)).
Proof.
  intros Hl Ht Hk Hp. apply (truncated_pargs E H age) in Ht. destruct (J_reads qs Ht) as [rt HJ].
  rewrite (J_kw _ _ HJ) in Hk. rewrite (J_phys _ _ HJ) in Hp. apply Ok_inj in Hk, Hp. subst k p.
  set (s := reads E H qs (fresh x y)) in *. clearbody s. clear Ht.
  assert (G : J rt (rescale_all l s) /\ s_norm (rescale_all l s) = s_norm s * rprod (map (fun c => fst (fst c)) l)).
  { induction l as [|[[f fo] lg] l IH] using rev_ind; [simpl; split; [exact HJ|lra]|].
    apply Forall_app in Hl. destruct Hl as [Hl Hc]. inversion Hc as [|? ? Hc1 _]; subst. simpl in Hc1. subst fo.
    destruct (IH Hl) as [IJ IN]. rewrite rescale_all_app, map_app. simpl map. rewrite rprod_app. simpl. split; [apply J_forced; exact IJ|].
    rewrite IN. lra. }
  destruct G as [GJ GN]. cbv zeta. rewrite (J_kw _ _ GJ), (J_phys _ _ GJ), GN. unfold kwN, physN.
  destruct (nfw0 E H) as [[rhos rs] r200].
  destruct (e_angle E (rhos * 10 ^ 9) (rs * / 10 ^ 3) (h_z H)) as [Rs th]. simpl.
  split; f_equal; f_equal; ring.
Qed.
End L18.
