(** C85: warming the caches of a realization in one batch changes no answer. *)
From Verif Require Import Prelude HaloStateModel HaloStateSpec HaloStateProofs HaloFrame HaloStateLemmas HaloStateProps
  BatchModel BatchSpec BatchProofs.

Lemma bool_split h : (sub_sel h = true <-> b_mdef h = "TNFW"%string /\ h_sub (b_static h) = true /\ s_pargs (b_state h) = None) /\
  (field_sel h = true <-> b_mdef h = "TNFW"%string /\ h_sub (b_static h) = false /\ s_pargs (b_state h) = None).
Proof.
  unfold sub_sel, field_sel, is_sub, unwarmed. rewrite !andb_true_iff, String.eqb_eq, negb_true_iff.
  destruct (s_pargs (b_state h)); intuition congruence.
Qed.
Lemma Forall2_flip {A B} (P : A -> B -> Prop) l l' : Forall2 P l l' -> Forall2 (fun b a => P a b) l' l.
Proof. induction 1; constructor; assumption. Qed.
Lemma Forall2_In_l' {A B} (P : A -> B -> Prop) l l' a : Forall2 P l l' -> In a l -> exists b, In b l' /\ P a b.
Proof.
  induction 1 as [|x y t t' Hxy F IH]; [intros []|]. intros [->|Hin]; [exists y; cbn; auto|].
  destruct (IH Hin) as (b & X & Y). exists b; cbn; auto.
Qed.
(** ** What it does *)
(** On realizations made with the classes of the dictionary, whatever was done to the halos before: every truncated NFW halo
    without a profile is left exactly as if the user had asked for these quantities, every other halo is left alone. *)
Theorem C85_exact : forall E k hs, ages_ok E -> Forall (used E) hs -> own_classes k hs -> field_ok hs -> no_zinfall hs ->
  exists hs', precompute_realization E k hs = (None, hs') /\ Forall2 (warmed E) hs hs'.
Proof.
  intros E k hs age Hu Ho Hf Hz. rewrite Forall_forall in Hu.
  set (f1 := warm E sub_qs (fun h => andb (sub_sel h) (supported_sub (h_kind (b_static h))))).
  assert (S1 : (match truncation_for k true with
           | Some t => if supported_sub t then precompute_tnfw_subhalos E t (fun h => String.eqb (b_mdef h) "TNFW") hs else (None, hs)
           | None => (None, hs) end) = (None, map f1 hs)).
  { assert (None1 : (forall h, In h hs -> sub_sel h = true -> supported_sub (h_kind (b_static h)) = false) -> map f1 hs = hs).
    { intros X. rewrite <- (map_id hs) at 2. apply map_ext_in. intros h Hin. unfold f1, warm.
      destruct (sub_sel h) eqn:Es; cbn [andb]; [rewrite (X h Hin Es)|]; reflexivity. }
    destruct (truncation_for k true) as [t|] eqn:Et.
    - destruct (supported_sub t) eqn:Esup.
      + destruct (existsb sub_sel hs) eqn:Ex.
        * apply existsb_exists in Ex. destruct Ex as (h0 & Hin0 & Es0).
          destruct (bool_split h0) as [B0 _]. apply B0 in Es0. destruct Es0 as (M0 & S0 & _).
          pose proof (Ho h0 Hin0 M0) as K0. rewrite S0, Et in K0. injection K0 as K0.
          specialize (Hz h0 Hin0 M0 S0). rewrite <- K0 in Hz. destruct t; try discriminate.
          rewrite subs_exact; [|exact age|intros h Hin; apply used_ok; auto|].
          -- f_equal. apply map_ext_in. intros h Hin. unfold f1, warm. destruct (sub_sel h) eqn:Es; [|reflexivity].
             destruct (bool_split h) as [B _]. apply B in Es. destruct Es as (M & S & _). pose proof (Ho h Hin M) as K.
             rewrite S, Et in K. injection K as K. rewrite <- K. reflexivity.
          -- intros h Hin Es. destruct (bool_split h) as [B _]. apply B in Es. destruct Es as (M & S & _). pose proof (Ho h Hin M) as K.
             rewrite S, Et in K. injection K as K. congruence.
        * unfold precompute_tnfw_subhalos. change (fun h => (b_mdef h =? "TNFW")%string && (is_sub h && unwarmed h))%bool with sub_sel.
          rewrite Ex. cbn [negb]. rewrite None1; [reflexivity|]. intros h Hin Es. exfalso.
          assert (existsb sub_sel hs = true) by (apply existsb_exists; eauto). congruence.
      + rewrite None1; [reflexivity|]. intros h Hin Es. destruct (bool_split h) as [B _]. apply B in Es. destruct Es as (M & S & _).
        pose proof (Ho h Hin M) as K. rewrite S, Et in K. injection K as K. congruence.
    - rewrite None1; [reflexivity|]. intros h Hin Es. destruct (bool_split h) as [B _]. apply B in Es. destruct Es as (M & S & _).
      pose proof (Ho h Hin M) as K. rewrite S, Et in K. discriminate. }
  unfold precompute_realization. rewrite S1.
  assert (S2 : (match truncation_for k false with
      | Some t => precompute_tnfw_field_halos E t (fun h => String.eqb (b_mdef h) "TNFW") (map f1 hs)
      | None => (None, map f1 hs) end) = (None, map (warm E field_qs field_sel) (map f1 hs))).
  { assert (In1 : forall h, In h (map f1 hs) -> field_sel h = true -> In h hs).
    { intros h Hin Ef. apply in_map_iff in Hin. destruct Hin as (h0 & <- & Hin). revert Ef. unfold f1, warm.
      destruct (sub_sel h0) eqn:Es; cbn [andb]; [|auto]. destruct (supported_sub _); [|auto]. intros Ef.
      destruct (bool_split h0) as [B _]. apply B in Es. unfold field_sel, is_sub, with_state in Ef. cbn in Ef.
      destruct Es as (_ & X & _). rewrite X in Ef. cbn in Ef. rewrite andb_false_r in Ef. discriminate. }
    destruct (truncation_for k false) as [t|] eqn:Et.
    - apply fields_exact.
      + intros h Hin Ef. apply used_ok. auto.
      + intros h Hin Ef. specialize (In1 h Hin Ef). destruct (bool_split h) as [_ B]. apply B in Ef. destruct Ef as (M & S & _).
        pose proof (Ho h In1 M) as K. rewrite S, Et in K. injection K as K. split; [congruence|]. rewrite K. apply (Hf h); auto.
    - f_equal. rewrite <- (map_id (map f1 hs)) at 1. apply map_ext_in. intros h Hin. unfold warm. destruct (field_sel h) eqn:Ef; [|reflexivity].
      specialize (In1 h Hin Ef). destruct (bool_split h) as [_ B]. apply B in Ef. destruct Ef as (M & S & _).
      pose proof (Ho h In1 M) as K. rewrite S, Et in K. discriminate. }
  eexists. split; [exact S2|]. rewrite map_map. apply F2_map. intros h Hin.
  destruct (bool_split h) as [B1 B2]. unfold warmed, warm_up, f1. 
  destruct (s_pargs (b_state h)) as [pa|] eqn:Ep.
  - unfold warm. destruct (sub_sel h) eqn:Es; [exfalso; intuition congruence|]. cbn [andb].
    destruct (field_sel h) eqn:Ef; [exfalso; intuition congruence|reflexivity].
  - destruct (String.eqb (b_mdef h) "TNFW") eqn:Em.
    + apply String.eqb_eq in Em. destruct (h_sub (b_static h)) eqn:Eh.
      * assert (Es : sub_sel h = true) by (apply B1; auto). pose proof (Hz h Hin Em Eh) as Z.
        destruct (h_kind (b_static h)) eqn:Ek; try discriminate;
          unfold warm; rewrite Es; cbn [andb supported_sub]; rewrite ?Ek; cbn [andb supported_sub].
        8: { assert (X : field_sel (with_state h (reads E (b_static h) sub_qs (b_state h))) = false).
             { unfold field_sel, is_sub, with_state. cbn. rewrite Eh. cbn. apply andb_false_r. }
             rewrite X. repeat split. }
        all: destruct (field_sel h) eqn:Ef; [exfalso; intuition congruence|reflexivity].
      * assert (Es : sub_sel h = false) by (destruct (sub_sel h); [exfalso; intuition congruence|reflexivity]).
        assert (Ef : field_sel h = true) by (apply B2; auto).
        unfold warm. rewrite Es. cbn [andb]. rewrite Ef. repeat split.
    + unfold warm. assert (Es : sub_sel h = false) by (unfold sub_sel; rewrite Em; reflexivity).
      assert (Ef : field_sel h = false) by (unfold field_sel; rewrite Em; reflexivity). rewrite Es. cbn [andb]. rewrite Ef. reflexivity.
Qed.

(** ** No answer changes *)
Lemma same_answers_queried E H x y qs qs' : ages_ok E -> forall m b b',
  same_answers E (mkB m H (reads E H qs (fresh x y)) b) (mkB m H (reads E H qs' (fresh x y)) b').
Proof.
  intros age m b b'. unfold same_answers. cbn.
  assert (X : forall r, _) by (intros r; exact (C19_history_independent E H x y qs r age)).
  assert (X' : forall r, _) by (intros r; exact (C19_history_independent E H x y qs' r age)).
  cbv zeta in X, X'. pose proof (X 0) as Y. pose proof (X' 0) as Y'.
  destruct Y as (A1 & A2 & A3 & A4 & A5 & A6 & A7 & A8 & A9 & _ & A11).
  destruct Y' as (B1 & B2 & B3 & B4 & B5 & B6 & B7 & B8 & B9 & _ & B11).
  do 9 (split; [congruence|]). split; [|congruence].
  intros r. destruct (X r) as (_ & _ & _ & _ & _ & _ & _ & _ & _ & C & _).
  destruct (X' r) as (_ & _ & _ & _ & _ & _ & _ & _ & _ & C' & _). congruence.
Qed.
Lemma F2_in {A B} (P Q : A -> B -> Prop) l l' : Forall2 P l l' -> (forall a b, In a l -> P a b -> Q a b) -> Forall2 Q l l'.
Proof.
  induction 1 as [|a b t t' H1 H2 IH]; intros HQ; constructor.
  - apply HQ; [left; reflexivity|exact H1].
  - apply IH. intros; apply HQ; [right|]; assumption.
Qed.
(** If the halos were only queried, the warm-up succeeds and every later query gives the same answer as without it. *)
Theorem C85_transparent : forall E k hs, ages_ok E -> Forall (queried E) hs -> own_classes k hs -> field_ok hs -> no_zinfall hs ->
  exists hs', precompute_realization E k hs = (None, hs') /\
    Forall2 (fun h h' => same_object h h' /\ same_answers E h h' /\ queried E h') hs hs'.
Proof.
  intros E k hs age Hq Ho Hf Hz.
  destruct (C85_exact E k hs age) as (hs' & E1 & F1); try assumption.
  { eapply Forall_impl; [|exact Hq]. apply queried_used. }
  exists hs'. split; [exact E1|]. rewrite Forall_forall in Hq.
  eapply F2_in; [exact F1|]. intros h h' Hin Hw. specialize (Hq h Hin). unfold warmed in Hw.
  destruct (warm_up h) as [qs|].
  - destruct Hw as [(So1 & So2 & So3) Hw]. split; [repeat split; assumption|].
    destruct Hq as (x & y & l & Hs). rewrite Hs in Hw. rewrite <- reads_app in Hw.
    destruct h as [m H s b], h' as [m' H' s' b']. cbn in *. subst. split.
    + apply same_answers_queried. exact age.
    + exists x, y, (l ++ qs). reflexivity.
  - subst h'. split; [repeat split|]. split; [|exact Hq]. unfold same_answers. repeat (split; [reflexivity|]). split; reflexivity.
Qed.
(** Warming up twice is warming up once. *)
Theorem C85_idempotent : forall E k hs, ages_ok E -> Forall (used E) hs -> own_classes k hs -> field_ok hs -> no_zinfall hs ->
  exists hs', precompute_realization E k hs = (None, hs') /\ precompute_realization E k hs' = (None, hs').
Proof.
  intros E k hs age Hu Ho Hf Hz.
  destruct (C85_exact E k hs age Hu Ho Hf Hz) as (hs' & E1 & F1).
  exists hs'. split; [exact E1|]. rewrite Forall_forall in Hu.
  assert (P : forall h', In h' hs' -> exists h, In h hs /\ same_object h h' /\ used E h' /\ warm_up h' = None).
  { clear E1. assert (F2 : Forall2 (fun h h' => In h hs /\ warmed E h h') hs hs') by (eapply F2_in; [exact F1|]; auto).
    clear F1. intros h' Hin. apply Forall2_flip in F2.
    destruct (Forall2_In_l' _ _ _ h' F2 Hin) as (h & _ & Hh & Hw). exists h. split; [exact Hh|].
    unfold warmed in Hw. destruct (warm_up h) as [qs|] eqn:Ew.
    - destruct Hw as [(A & B & C) Hw]. split; [repeat split; assumption|].
      assert (X : h' = with_state h (reads E (b_static h) qs (b_state h))) by (destruct h, h'; cbn in *; subst; reflexivity).
      split; [rewrite X; apply used_reads; auto|].
      assert (N : s_pargs (b_state h') <> None).
      { unfold warm_up in Ew. destruct (s_pargs (b_state h)) eqn:Ep; [discriminate|].
        destruct (String.eqb (b_mdef h) "TNFW") eqn:Em; [|discriminate]. apply String.eqb_eq in Em.
        assert (U : unwarmed h = true) by (unfold unwarmed; rewrite Ep; reflexivity).
        destruct (h_sub (b_static h)) eqn:Eh.
        - destruct (h_kind (b_static h)) eqn:Ek; try discriminate. injection Ew as <-. rewrite Hw. eapply sub_pargs; eauto.
        - injection Ew as <-. rewrite Hw. apply field_pargs; auto. }
      unfold warm_up. destruct (s_pargs (b_state h')); [reflexivity|congruence].
    - subst h'. split; [repeat split|]. auto. }
  destruct (C85_exact E k hs' age) as (hs'' & E2 & F3).
  - rewrite Forall_forall. intros h' Hin. destruct (P h' Hin) as (h & _ & _ & X & _). exact X.
  - intros h' Hin Hm. destruct (P h' Hin) as (h & Hh & (A & B & _) & _). rewrite A in Hm. rewrite B. apply Ho; assumption.
  - intros h' Hin Hm. destruct (P h' Hin) as (h & Hh & (A & B & _) & _). rewrite A in Hm. rewrite B. apply Hf; assumption.
  - intros h' Hin Hm. destruct (P h' Hin) as (h & Hh & (A & B & _) & _). rewrite A in Hm. rewrite B. apply Hz; assumption.
  - rewrite E2. f_equal. clear E2 E1 F1.
    induction F3 as [|h' h'' t t' W F3 IH]; [reflexivity|]. f_equal.
    + unfold warmed in W. destruct (P h' (or_introl eq_refl)) as (_ & _ & _ & _ & X). rewrite X in W. exact W.
    + apply IH. intros x Hx. apply P. right; exact Hx.
Qed.

(** ** The two deviations *)
(** A class TruncationGalacticusZinfall: the batch derives the truncation from the (cached or newly drawn) bound mass, the
    object itself from a second evaluation of the random mass-loss model.  With a mass-loss model that is not random nothing
    changes... *)
Lemma zinfall_inv E H x y chost s : ages_ok E -> deterministic_loss E -> h_sub H = true -> h_kind H = KZinfall chost ->
  Inv E H x y s -> s_pargs s = None ->
  exists s', seq H [b_infall E; b_time E; b_conc E; b_mbound E (KZinfall chost); b_store E] s = (Ok tt, s') /\ Inv E H x y s'.
Proof.
  intros age det Hs Hk HI Hp. unfold seq. cbn [fold_right].
  destruct (b_infall_ask E H s) as (z & E1 & Z1). rewrite (bind_ok _ _ _ _ _ E1).
  assert (I1 : Inv E H x y (snd (ask E H QZInfall s))) by (apply inv_ask; assumption).
  assert (P1 : s_pargs (snd (ask E H QZInfall s)) = None).
  { cbn [ask]. rewrite unit_snd. destruct (f_zinf E H s) as (_ & _ & X & _). rewrite X. exact Hp. }
  set (s1 := snd (ask E H QZInfall s)) in *. clearbody s1. clear E1 Hp HI s.
  destruct (b_time_ask E H age s1 z Hs Z1) as (t & E2 & T2 & Z2). rewrite (bind_ok _ _ _ _ _ E2).
  assert (I2 : Inv E H x y (snd (ask E H QTime s1))) by (apply inv_ask; assumption).
  assert (P2 : s_pargs (snd (ask E H QTime s1)) = None).
  { cbn [ask]. rewrite unit_snd. destruct (f_time E H s1) as (_ & _ & X & _). rewrite X. exact P1. }
  set (s2 := snd (ask E H QTime s1)) in *. clearbody s2. clear E2 P1 I1 Z1 s1.
  destruct (b_conc_ask E H s2) as (c & E3 & C3). rewrite (bind_ok _ _ _ _ _ E3).
  assert (I3 : Inv E H x y (snd (ask E H QC s2))) by (apply inv_ask; assumption).
  assert (K3 : s_zinf (snd (ask E H QC s2)) = Some z /\ s_pargs (snd (ask E H QC s2)) = None).
  { cbn [ask]. rewrite unit_snd. destruct (conc_keeps E H s2) as (_ & _ & B & A). rewrite B. auto. }
  destruct K3 as [Z3 P3]. set (s3 := snd (ask E H QC s2)) in *. clearbody s3. clear E3 P2 I2 T2 Z2 s2.
  (* bound mass *)
  destruct (inv_mbdef E H age x y s3 I3) as (s4 & E4 & I4 & S4).
  assert (M4 : exists mb, mb0 E H = Ok mb /\ b_mbound E (KZinfall chost) H s3 = (Ok tt, s4) /\ s_mb s4 = Some mb /\ s_c s4 = Some c).
  { assert (X : exists mb, mb0 E H = Ok mb) by (unfold mb0; rewrite Hk; cbn; eauto). destruct X as (mb & Hmb).
    exists mb. split; [exact Hmb|]. unfold mbdef0 in E4. rewrite Hs, Hk, Hmb in E4. revert E4.
    unfold b_mbound. rewrite (bind_ok _ _ _ _ _ (c_hit E H _ _ C3)).
    assert (Y : (let* zi := z_infall E H in ret (Some (zi - e_zlens E))) s3 = (Ok (Some (z - e_zlens E)), s3))
      by (rewrite (bind_ok _ _ _ _ _ (zi_hit E H _ _ Z3)); reflexivity).
    rewrite (bind_ok _ _ _ _ _ Y), bind_gets.
    unfold bound_mass_galacticus_definition. rewrite Hs, Hk. cbn [negb]. rewrite bind_gets.
    destruct (s_mb s3) as [m|] eqn:Em.
    - unfold ret. intros X. injection X as X1 X2. subst. split; [reflexivity|]. split; [congruence|exact C3].
    - unfold calculate_mbound. rewrite Hk.
      assert (W : (let* c := conc E H in let* zi := z_infall E H in let* ml := mass_loss E SBound (log10 c) (Some (zi - e_zlens E)) chost in
         ret (h_mass H * pow10 ml)) s3 = (Ok (h_mass H * pow10 (e_loss E SBound (n_mb s3) (log10 c) (z - e_zlens E) chost)), tick_mb s3)).
      { rewrite (bind_ok _ _ _ _ _ (c_hit E H _ _ C3)), (bind_ok _ _ _ _ _ (zi_hit E H _ _ Z3)). reflexivity. }
      rewrite (bind_ok _ _ _ _ _ W), bind_modify. unfold ret. intros X. injection X as X1 X2. subst s4.
      split; [reflexivity|]. split; [cbn; congruence|exact C3]. }
  destruct M4 as (mb & Hmb & B4 & M4 & C4). rewrite (bind_ok _ _ _ _ _ B4).
  assert (P4 : s_pargs s4 = None) by (destruct S4 as (_ & _ & _ & _ & X & _); congruence).
  (* store *)
  destruct (inv_get E H x y _ _ s4 (get_z_eval E H) I4) as (s5 & E5 & I5 & S5).
  pose proof (zeval_keeps E H s4) as K. rewrite E5 in K. cbn [snd] in K. destruct K as (_ & K2 & K3 & K4 & _).
  assert (C5 : s_c s5 = Some c) by congruence.
  assert (Cc : c = c0 E H).
  { destruct I5 as ((_ & _ & _ & [[X _]|[X _]] & _) & _); congruence. }
  pose proof I5 as (J0 & JM & Jx & Jy & Jn & [(Q1 & Q2 & Q3 & Q4 & Q5 & Q6 & Q7)|(rt & o & _ & Q & _)]); [|congruence].
  unfold mbind at 1, b_store. rewrite bind_gets, M4, (bind_ok _ _ _ _ _ E5), (bind_ok _ _ _ _ _ (c_hit E H _ _ C5)). cbv zeta.
  rewrite Cc. fold (nfw0 E H). destruct (e_rte E mb (h_mass H) (snd (nfw0 E H)) (c0 E H)) as [r f] eqn:Er.
  rewrite !bind_modify. eexists. split; [reflexivity|].
  unfold rescale_normalization. rewrite Q3. unfold Inv. cbn.
  destruct J0 as (J1 & J2 & J3 & J4 & J5).
  split; [unfold Inv0; cbn; tauto|]. split; [exact JM|]. repeat (split; [assumption|]).
  right. exists r, (Some f).
  assert (R0 : rt0 E H = Ok (r, Some f)).
  { unfold rt0, tr0. rewrite Hs, Hk. unfold mb0 in Hmb. rewrite Hk in Hmb. cbn in Hmb |- *.
    assert (L : h_mass H * pow10 (e_loss E STrunc 0 (log10 (c0 E H)) (zi0 E H - e_zlens E) chost) = mb).
    { rewrite (det STrunc 0%nat SBound 0%nat). injection Hmb as X. exact X. }
    rewrite L. unfold st0. destruct (nfw0 E H) as [[rho rs] r200]. cbn in Er. rewrite Er. reflexivity. }
  split; [exact R0|]. split; [reflexivity|]. cbn [factor]. rewrite Q2. split; [reflexivity|]. repeat (split; [left; reflexivity|]). left. exact Q6.
Qed.
Lemma same_answers_inv E H x y s s' m b b' : ages_ok E -> Inv E H x y s -> Inv E H x y s' ->
  same_answers E (mkB m H s b) (mkB m H s' b').
Proof.
  intros age I I'. unfold same_answers, value. cbn [b_static b_state]. cbv beta zeta.
  assert (G : forall A (q : M A) r, getter E H q r -> fst (q s') = fst (q s)).
  { intros A q r G. destruct (inv_get E H x y _ _ _ G I) as (s1 & E1 & _).
    destruct (inv_get E H x y _ _ _ G I') as (s2 & E2 & _). rewrite E1, E2. reflexivity. }
  split; [destruct (inv_kw E H age x y _ I) as (a & E1 & _); destruct (inv_kw E H age x y _ I') as (a' & E2 & _); rewrite E1, E2; reflexivity|].
  split; [destruct (inv_phys E H age x y _ I) as (a & E1 & _); destruct (inv_phys E H age x y _ I') as (a' & E2 & _); rewrite E1, E2; reflexivity|].
  split; [destruct (inv_pargs E H age x y _ I) as (a & E1 & _); destruct (inv_pargs E H age x y _ I') as (a' & E2 & _); rewrite E1, E2; reflexivity|].
  split; [exact (G _ _ _ (get_nfw E H))|]. split; [exact (G _ _ _ (get_conc E H))|]. split; [exact (G _ _ _ (get_z_infall E H))|].
  split; [exact (G _ _ _ (get_z_eval E H))|]. split; [exact (G _ _ _ (get_time E H age))|].
  split; [destruct (inv_vmax E H age x y _ I) as (a & E1 & _); destruct (inv_vmax E H age x y _ I') as (a' & E2 & _); rewrite E1, E2; reflexivity|].
  split; [intros r; destruct (inv_density E H age x y r _ I) as (a & E1 & _); destruct (inv_density E H age x y r _ I') as (a' & E2 & _);
    rewrite E1, E2; reflexivity|].
  destruct (inv_mbdef E H age x y _ I) as (a & E1 & _). destruct (inv_mbdef E H age x y _ I') as (a' & E2 & _). rewrite E1, E2. reflexivity.
Qed.
Lemma F2_exists {A B} (P Q : A -> B -> Prop) l : (forall a, In a l -> exists b, P a b /\ Q a b) -> exists l', Forall2 P l l' /\ Forall2 Q l l'.
Proof.
  induction l as [|a t IH]; intros HE; [exists []; split; constructor|].
  destruct (HE a (or_introl eq_refl)) as (b & X & Y). destruct IH as (l' & F1 & F2); [intros x Hx; apply HE; right; exact Hx|].
  exists (b :: l'). split; constructor; assumption.
Qed.
Definition zi_pass (E : Env) (h h' : bhalo) : Prop :=
  same_object h h' /\ (sub_sel h = false -> h' = h) /\ same_answers E h h'.
Lemma same_answers_refl E h : same_answers E h h.
Proof. unfold same_answers. repeat (split; [reflexivity|]). split; reflexivity. Qed.
Lemma subs_zinfall E chost hs : ages_ok E -> deterministic_loss E -> Forall (queried E) hs ->
  (forall h, In h hs -> sub_sel h = true -> h_kind (b_static h) = KZinfall chost) ->
  exists hs', precompute_tnfw_subhalos E (KZinfall chost) (fun h => String.eqb (b_mdef h) "TNFW") hs = (None, hs') /\ Forall2 (zi_pass E) hs hs'.
Proof.
  intros age det Hq Hk. rewrite Forall_forall in Hq. unfold precompute_tnfw_subhalos.
  change (fun h => (b_mdef h =? "TNFW")%string && (is_sub h && unwarmed h))%bool with sub_sel.
  destruct (existsb sub_sel hs) eqn:Ex; cbn [negb].
  - destruct (F2_exists (steps (map (fun m => (sub_sel, m)) [b_infall E; b_time E; b_conc E; b_mbound E (KZinfall chost); b_store E]))
      (zi_pass E) hs) as (hs' & F1 & F2).
    { intros h Hin. destruct (sub_sel h) eqn:Es.
      - destruct (bool_split h) as [B _]. pose proof (proj1 B Es) as (Bm & Bs & Bp).
        destruct (Hq h Hin) as (x & y & qs & Hs).
        assert (I : Inv E (b_static h) x y (b_state h)) by (rewrite Hs; apply fresh_inv; exact age).
        destruct (zinfall_inv E (b_static h) x y chost (b_state h) age det Bs (Hk h Hin Es) I Bp) as (s' & R & I').
        exists (with_state h s'). split.
        + rewrite <- (state_id h) at 1. apply steps_seq with (H := b_static h).
          * intros s Hps. destruct (bool_split (with_state h s)) as [B' _]. apply B'. cbn. repeat split; congruence.
          * reflexivity.
          * cbn [good]. pose proof (kp_infall E (b_static h)). pose proof (kp_time E (b_static h)). pose proof (kp_conc E (b_static h)).
            pose proof (kp_mbound E (b_static h) (KZinfall chost)). tauto.
          * reflexivity.
          * exact R.
        + split; [repeat split|]. split; [congruence|]. rewrite <- (state_id h) at 1.
          exact (same_answers_inv E (b_static h) x y (b_state h) s' (b_mdef h) (b_bound h) (b_bound h) age I I').
      - exists h. split; [apply steps_skip; exact Es|]. split; [repeat split|]. split; [reflexivity|apply same_answers_refl]. }
    exists hs'. split; [|exact F2]. apply loops_ok in F1. cbn [map] in F1.
    change [(sub_sel, b_infall E); (sub_sel, b_time E); (sub_sel, b_conc E); (sub_sel, b_mbound E (KZinfall chost)); (sub_sel, b_store E)]
      with ([(sub_sel, b_infall E); (sub_sel, b_time E); (sub_sel, b_conc E)] ++ [(sub_sel, b_mbound E (KZinfall chost)); (sub_sel, b_store E)]) in F1.
    rewrite loops_app in F1. cbn [supported_sub].
    destruct (loops [(sub_sel, b_infall E); (sub_sel, b_time E); (sub_sel, b_conc E)] hs) as [[e|] hs1]; [discriminate|exact F1].
  - exists hs. split; [reflexivity|]. clear. induction hs; constructor; [|assumption]. split; [repeat split|]. split; [reflexivity|apply same_answers_refl].
Qed.
Lemma F2_trans {A} (P Q S : A -> A -> Prop) l1 l2 l3 : (forall a b c, In a l1 -> P a b -> Q b c -> S a c) ->
  Forall2 P l1 l2 -> Forall2 Q l2 l3 -> Forall2 S l1 l3.
Proof.
  intros HS F1. revert l3. induction F1 as [|a b t t' H1 F1 IH]; intros l3 F2; inversion F2; subst; constructor.
  - eapply HS; [left; reflexivity|eassumption|eassumption].
  - apply IH; [|assumption]. intros; eapply HS; [right|..]; eassumption.
Qed.
Theorem C85_zinfall : forall E k hs, ages_ok E -> deterministic_loss E -> Forall (queried E) hs -> own_classes k hs -> field_ok hs ->
  exists hs', precompute_realization E k hs = (None, hs') /\ Forall2 (fun h h' => same_object h h' /\ same_answers E h h') hs hs'.
Proof.
  intros E k hs age det Hq Ho Hf.
  destruct (existsb (fun h => andb (sub_sel h) (is_zinfall (h_kind (b_static h)))) hs) eqn:Ex.
  - apply existsb_exists in Ex. destruct Ex as (h0 & Hin0 & E0). apply andb_true_iff in E0. destruct E0 as [Es0 Ez0].
    destruct (bool_split h0) as [B0 _]. apply B0 in Es0. destruct Es0 as (M0 & S0 & _).
    pose proof (Ho h0 Hin0 M0) as K0. rewrite S0 in K0. destruct (h_kind (b_static h0)) eqn:Ek0; try discriminate.
    destruct (subs_zinfall E chost hs age det Hq) as (hs1 & E1 & F1).
    { intros h Hin Es. destruct (bool_split h) as [B _]. apply B in Es. destruct Es as (M & S & _). pose proof (Ho h Hin M) as K.
      rewrite S, K0 in K. injection K as K. congruence. }
    unfold precompute_realization. rewrite K0. cbn [supported_sub]. rewrite E1.
    assert (In1 : forall h, In h hs1 -> field_sel h = true -> In h hs).
    { intros h Hin Ef. apply Forall2_flip in F1. destruct (Forall2_In_l' _ _ _ h F1 Hin) as (h1 & Hin1 & (So1 & So2 & _) & Hid & _).
      destruct (sub_sel h1) eqn:Es1; [|rewrite (Hid eq_refl); exact Hin1]. exfalso.
      destruct (bool_split h1) as [B _]. apply B in Es1. destruct (bool_split h) as [_ B']. apply B' in Ef. destruct Es1 as (_ & X & _), Ef as (_ & Y & _). congruence. }
    rewrite Forall_forall in Hq.
    assert (S2 : exists hs', match truncation_for k false with
      | Some t => precompute_tnfw_field_halos E t (fun h => String.eqb (b_mdef h) "TNFW") hs1 | None => (None, hs1) end = (None, hs') /\
        Forall2 (fun h h' => h' = warm E field_qs (fun h => andb (field_sel h) (match truncation_for k false with Some _ => true | None => false end)) h) hs1 hs').
    { destruct (truncation_for k false) as [t|] eqn:Et.
      - rewrite fields_exact.
        + eexists. split; [reflexivity|]. apply F2_map. intros h Hin. unfold warm. rewrite andb_true_r. reflexivity.
        + intros h Hin Ef. apply used_ok. apply queried_used. auto.
        + intros h Hin Ef. specialize (In1 h Hin Ef). destruct (bool_split h) as [_ B]. apply B in Ef. destruct Ef as (M & S & _).
          pose proof (Ho h In1 M) as K. rewrite S, Et in K. injection K as K. split; [congruence|]. rewrite K. apply (Hf h); auto.
      - exists hs1. split; [reflexivity|]. clear. induction hs1; constructor; [|assumption]. unfold warm. rewrite andb_false_r. reflexivity. }
    destruct S2 as (hs' & E2 & F2). exists hs'. split; [exact E2|].
    eapply F2_trans; [|exact F1|exact F2]. intros a b c Hin (So & Hid & Sa) ->. unfold warm.
    destruct (sub_sel a) eqn:Es.
    + assert (X : field_sel b = false).
      { destruct (field_sel b) eqn:Ef; [|reflexivity]. exfalso. destruct So as (_ & So & _).
        destruct (bool_split a) as [B _]. apply B in Es. destruct (bool_split b) as [_ B']. apply B' in Ef.
        destruct Es as (_ & X & _), Ef as (_ & Y & _). congruence. }
      rewrite X. auto.
    + rewrite (Hid eq_refl). destruct (andb (field_sel a) _); [|split; [repeat split|apply same_answers_refl]].
      split; [repeat split|]. destruct (Hq a Hin) as (x & y & qs & Hs). destruct a as [m H s bo]. cbn [b_static b_state] in *. subst s. unfold with_state. cbn [b_static b_state b_mdef b_bound].
      rewrite <- reads_app. apply same_answers_queried. exact age.
  - destruct (existsb (fun h => andb (String.eqb (b_mdef h) "TNFW") (andb (is_sub h) (is_zinfall (h_kind (b_static h))))) hs) eqn:Ey.
    + (* every such subhalo is warmed already: nothing to do for subhalos *)
      apply existsb_exists in Ey. destruct Ey as (h0 & Hin0 & E0). apply andb_true_iff in E0. destruct E0 as [Em0 E0].
      apply andb_true_iff in E0. destruct E0 as [Es0 Ez0]. apply String.eqb_eq in Em0.
      pose proof (Ho h0 Hin0 Em0) as K0. unfold is_sub in Es0. rewrite Es0 in K0. destruct (h_kind (b_static h0)) eqn:Ek0; try discriminate.
      unfold precompute_realization. rewrite K0. cbn [supported_sub].
      assert (N : existsb sub_sel hs = false).
      { destruct (existsb sub_sel hs) eqn:N; [|reflexivity]. exfalso. apply existsb_exists in N. destruct N as (h & Hin & Es).
        assert (existsb (fun h => andb (sub_sel h) (is_zinfall (h_kind (b_static h)))) hs = true); [|congruence].
        apply existsb_exists. exists h. split; [exact Hin|]. rewrite Es. cbn [andb].
        destruct (bool_split h) as [B _]. apply B in Es. destruct Es as (M & S & _). pose proof (Ho h Hin M) as K. rewrite S, K0 in K.
        injection K as K. rewrite <- K. reflexivity. }
      unfold precompute_tnfw_subhalos. change (fun h => (b_mdef h =? "TNFW")%string && (is_sub h && unwarmed h))%bool with sub_sel. rewrite N. cbn [negb].
      rewrite Forall_forall in Hq.
      destruct (truncation_for k false) as [t|] eqn:Et.
      * rewrite fields_exact.
        -- eexists. split; [reflexivity|]. apply F2_map. intros h Hin. unfold warm. destruct (field_sel h); [|split; [repeat split|apply same_answers_refl]].
           split; [repeat split|]. destruct (Hq h Hin) as (x & y & qs & Hs). destruct h as [m H s bo]. cbn [b_static b_state] in *. subst s. unfold with_state. cbn [b_static b_state b_mdef b_bound].
           rewrite <- reads_app. apply same_answers_queried. exact age.
        -- intros h Hin Ef. apply used_ok. apply queried_used. auto.
        -- intros h Hin Ef. destruct (bool_split h) as [_ B]. apply B in Ef. destruct Ef as (M & S & _).
           pose proof (Ho h Hin M) as K. rewrite S, Et in K. injection K as K. split; [congruence|]. rewrite K. apply (Hf h); auto.
      * exists hs. split; [reflexivity|]. clear. induction hs; constructor; [|assumption]. split; [repeat split|apply same_answers_refl].
    + destruct (C85_transparent E k hs age Hq Ho Hf) as (hs' & E1 & F1).
      * intros h Hin M S. destruct (is_zinfall (h_kind (b_static h))) eqn:Ez; [|reflexivity]. exfalso.
        assert (existsb (fun h => andb (String.eqb (b_mdef h) "TNFW") (andb (is_sub h) (is_zinfall (h_kind (b_static h))))) hs = true); [|congruence].
        apply existsb_exists. exists h. split; [exact Hin|]. rewrite M. unfold is_sub. rewrite S, Ez. reflexivity.
      * exists hs'. split; [exact E1|]. eapply F2_in; [exact F1|]. intros a b _ (X & Y & _). auto.
Qed.

(** ... but with a random one it does: an environment in which the two evaluations differ *)
Definition batch_env : Env :=
  mkEnv (fun _ c _ => (4, 2, 2 * c)) (fun a b _ => (b * 1000 / 3, a / 10 ^ 9)) (fun _ => 3) demo_round
        (fun rho rs => rho * rs) (fun _ _ rho _ => rho) (fun tau _ => tau) (fun _ _ => 1)
        (fun m _ _ _ => (m, 1 / 2)) (fun _ _ => 1) (fun _ _ _ => 1) (fun _ _ => 10) (1 / 2) (fun _ _ => 0)
        (fun n _ => 2 + INR n) (fun n _ _ => 10 + INR n) (fun st _ _ _ _ => match st with SBound => 0 | STrunc => -1 end)
        (fun _ _ => -1) (fun _ m _ => m).
Lemma batch_ages : ages_ok batch_env. Proof. intros z zf; simpl; lra. Qed.
Definition one_class (t : tkind) : halo_kwargs := {| hk_all := Some t; hk_sub := None; hk_field := None |}.
Definition new_sub (t : tkind) : bhalo := mkB "TNFW" (mkStatic 8 50 (1 / 2) true t) (fresh 1 2) None.
Definition new_field (t : tkind) : bhalo := mkB "TNFW" (mkStatic 8 50 (1 / 2) false t) (fresh 1 2) None.
Lemma new_sub_queried E t : queried E (new_sub t). Proof. exists 1, 2, []. reflexivity. Qed.
Lemma new_field_queried E t : queried E (new_field t). Proof. exists 1, 2, []. reflexivity. Qed.
Ltac crunchb := cbv -[Rmult Rplus Rdiv Rinv Rminus Ropp IZR INR pow demo_round Rpower exp ln log10 pow10 not Rleb].
Lemma pow10_m1 : pow10 (-1) < pow10 0.
Proof. unfold pow10. apply Rpower_lt; lra. Qed.
Theorem C85_zinfall_refuted : exists E k h h' a a', ages_ok E /\ queried E h /\ own_classes k [h] /\ field_ok [h] /\
  precompute_realization E k [h] = (None, [h']) /\
  value (profile_args E (b_static h)) (b_state h) = Ok a /\ value (profile_args E (b_static h')) (b_state h') = Ok a' /\ a <> a'.
Proof.
  exists batch_env, (one_class (KZinfall 5)), (new_sub (KZinfall 5)). eexists. eexists. eexists.
  split; [exact batch_ages|]. split; [apply new_sub_queried|].
  split; [intros h [<-|[]] _; reflexivity|]. split; [intros h [<-|[]] _ X; discriminate|].
  assert (A : Rleb 0 1 = true) by (apply Rleb_true; lra).
  split.
  { crunchb. rewrite A. reflexivity. }
  split; [crunchb; reflexivity|]. split; [crunchb; reflexivity|].
  intros X. injection X as X. pose proof pow10_m1. lra.
Qed.

(** The classes are taken from the dictionary, not from the halos: a realization joined from two with different truncation
    models is truncated wrongly. *)
Theorem C85_classes_refuted : exists E k h h' a a', ages_ok E /\ deterministic_loss E /\ queried E h /\
  precompute_realization E k [h] = (None, [h']) /\
  value (profile_args E (b_static h)) (b_state h) = Ok a /\ value (profile_args E (b_static h')) (b_state h') = Ok a' /\ a <> a'.
Proof.
  exists demo_env, (one_class (KGalacticus 5)), (new_sub (KConstant 3)). eexists. eexists. eexists.
  split; [exact demo_ages|]. split; [intros st n st' n' a b c; reflexivity|]. split; [apply new_sub_queried|].
  assert (A : Rleb 0 1 = true) by (apply Rleb_true; lra).
  split.
  { crunchb. rewrite A. reflexivity. }
  split; [crunchb; reflexivity|]. split; [crunchb; reflexivity|]. intros X. injection X as X. lra.
Qed.

(** ** Bound masses *)
(** The batch stores, for every subhalo without one, the bound mass that the halo reports... *)
Lemma rt0_sub E H : h_sub H = true -> exists p, rt0 E H = Ok p.
Proof. intros Hs. unfold rt0, tr0, mb0, t0. rewrite Hs. destruct (h_kind H); cbn; eauto. Qed.
Theorem C85_bound_masses : forall E hs, ages_ok E -> Forall (queried E) hs ->
  exists hs', precompute_tnfw_bound_masses E hs = (None, hs') /\
    Forall2 (fun h h' => b_mdef h' = b_mdef h /\ b_static h' = b_static h /\ same_answers E h h' /\
      (h_sub (b_static h) = true -> b_bound h = None -> exists v, b_bound h' = Some v /\
         (s_kw (b_state h) = None -> value (bound_mass E (b_static h)) (b_state h) = Ok v)) /\
      (h_sub (b_static h) = false \/ b_bound h <> None -> h' = h)) hs hs'.
Proof.
  intros E hs age. induction hs as [|h t IH]; intros Hq; [exists []; split; constructor|].
  inversion Hq as [|? ? Hh Ht]; subst. destruct (IH Ht) as (t' & E1 & F1). cbn [precompute_tnfw_bound_masses].
  destruct (andb (is_sub h) (match b_bound h with None => true | Some _ => false end)) eqn:Ec.
  - apply andb_true_iff in Ec. destruct Ec as [Es Eb]. unfold is_sub in Es. assert (Eb' : b_bound h = None) by (destruct (b_bound h); congruence).
    destruct Hh as (x & y & qs & Hs).
    assert (I : Inv E (b_static h) x y (b_state h)) by (rewrite Hs; apply fresh_inv; exact age).
    destruct (rt0_sub E (b_static h) Es) as ([rt o] & Hr).
    assert (B : exists s', b_bound_mass E (b_static h) (b_state h) =
       (Ok (e_frac E (rt / snd (fst (nfw0 E (b_static h)))) (c0 E (b_static h)) * h_mass (b_static h) * factor o), s') /\ Inv E (b_static h) x y s').
    { unfold b_bound_mass. destruct (inv_get E (b_static h) x y _ _ _ (get_conc E (b_static h)) I) as (s1 & X1 & I1 & _).
      rewrite (bind_ok _ _ _ _ _ X1). destruct (inv_pargs E (b_static h) age x y _ I1) as (s2 & X2 & I2 & Hv & _).
      unfold pa0 in X2. rewrite Hr in X2, Hv. cbn [fst] in X2. cbv beta iota delta [Prelude.bind] in X2. rewrite (bind_ok _ _ _ _ _ X2).
      destruct (inv_get E (b_static h) x y _ _ _ (get_nfw E (b_static h)) I2) as (s3 & X3 & I3 & S3).
      rewrite (bind_ok _ _ _ _ _ X3), bind_gets. destruct Hv as [_ Hv]. destruct S3 as (_ & _ & S3 & _). rewrite S3, Hv.
      eexists. split; [reflexivity|exact I3]. }
    destruct B as (s' & B & I'). unfold on. rewrite B. cbn [fst snd with_state b_mdef b_static b_state]. rewrite E1. cbn [fst snd].
    eexists. split; [reflexivity|]. constructor; [|exact F1]. cbn [b_mdef b_static b_bound b_state].
    split; [reflexivity|]. split; [reflexivity|]. split; [|split].
    + destruct h as [m H s bo]. cbn [b_mdef b_static b_state] in *. eapply same_answers_inv; eassumption.
    + intros _ _. eexists. split; [reflexivity|]. intros Hk.
      destruct (inv_bound E (b_static h) age x y _ I) as (s2 & X2 & _). unfold value. rewrite X2, Es, Hr, Hk. cbn.
      unfold phys0. destruct (nfw0 E (b_static h)) as [[rho rs] r200]. reflexivity.
    + intros [X|X]; congruence.
  - rewrite E1. cbn [fst snd]. eexists. split; [reflexivity|]. constructor; [|exact F1].
    split; [reflexivity|]. split; [reflexivity|]. split; [apply same_answers_refl|]. split; [|reflexivity].
    intros X Y. unfold is_sub in Ec. rewrite X, Y in Ec. discriminate.
Qed.
(** ... but a bound mass assigned with set_bound_mass to a truncated subhalo is not the one it reports. *)
Theorem C85_set_bound_mass_refuted : exists E h v w, ages_ok E /\ queried E h /\
  ask_bound_mass E (set_bound_mass v h) = Ok w /\ v <> w.
Proof.
  exists demo_env, (new_sub (KConstant 3)), 1. eexists. split; [exact demo_ages|]. split; [apply new_sub_queried|].
  split; [crunchb; reflexivity|]. lra.
Qed.

(** ** Exceptions are not swallowed *)
Lemma for_each_keeps sel m h : forall hs, sel h = false -> In h hs -> In h (snd (for_each sel m hs)).
Proof.
  induction hs as [|a t IH]; intros S I; [destruct I|]. cbn [for_each]. destruct (sel a) eqn:Sa.
  - destruct I as [->|I]; [congruence|]. destruct (on m a) as [[u|e] a']; cbn [snd]; right; auto.
  - destruct I as [->|I]; cbn [snd]; [left; reflexivity|right; auto].
Qed.
Lemma loops_keep l h : forall hs, (forall p, In p l -> fst p h = false) -> In h hs -> In h (snd (loops l hs)).
Proof.
  induction l as [|[sel m] l IH]; intros hs S I; [exact I|]. cbn [loops].
  pose proof (for_each_keeps sel m h hs (S (sel, m) (or_introl eq_refl)) I) as K.
  destruct (for_each sel m hs) as [[e|] hs']; cbn [snd] in *; [exact K|]. apply IH; [|exact K]. intros p Hp. apply S. right; exact Hp.
Qed.
Lemma for_each_through sel m h : forall hs hs', for_each sel m hs = (None, hs') -> In h hs -> sel h = true ->
  fst (on m h) = Ok tt /\ In (snd (on m h)) hs'.
Proof.
  induction hs as [|a t IH]; intros hs' E I S; [destruct I|]. cbn [for_each] in E. destruct (sel a) eqn:Sa.
  - destruct (on m a) as [[u|e] a'] eqn:O; [|discriminate]. destruct (for_each sel m t) as [o t'] eqn:F. cbn [fst snd] in E. injection E as -> <-.
    destruct I as [->|I]; [rewrite O; destruct u; split; [reflexivity|left; reflexivity]|].
    destruct (IH t' eq_refl I S) as [A B]. split; [exact A|right; exact B].
  - destruct (for_each sel m t) as [o t'] eqn:F. cbn [fst snd] in E. injection E as -> <-.
    destruct I as [->|I]; [congruence|]. destruct (IH t' eq_refl I S) as [A B]. split; [exact A|right; exact B].
Qed.
Definition waits (h : bhalo) : Prop := b_mdef h = "TNFW"%string /\ h_sub (b_static h) = false /\ s_pargs (b_state h) = None.
Lemma waits_field_sel h : waits h <-> field_sel h = true.
Proof.
  unfold waits, field_sel, is_sub, unwarmed. rewrite !andb_true_iff, String.eqb_eq, negb_true_iff. destruct (s_pargs (b_state h)); intuition congruence.
Qed.
(** the concentration and the NFW parameters leave the profile arguments alone *)
Lemma conc_step E h : waits h -> waits (snd (on (b_conc E) h)).
Proof.
  intros (A & B & C). unfold on, with_state. cbn [snd b_mdef b_static b_state]. unfold waits. cbn [b_mdef b_static b_state].
  split; [exact A|]. split; [exact B|]. destruct h as [md H s b]. cbn in *. destruct s as []; cbn in *.
  unfold b_conc, z_eval, mbind, gets, ret, modify. cbn. rewrite B. subst.
  repeat match goal with |- context [match ?x with Some _ => _ | None => _ end] => destruct x end; reflexivity.
Qed.
Lemma nfw_step E h : waits h -> waits (snd (on (b_nfw E) h)).
Proof.
  intros (A & B & C). unfold on, with_state. cbn [snd b_mdef b_static b_state]. unfold waits. cbn [b_mdef b_static b_state].
  split; [exact A|]. split; [exact B|]. destruct h as [md H s b]. cbn in *. destruct s as []; cbn in *. subst.
  unfold b_nfw, conc, z_eval, mbind, gets, ret, modify. cbn. rewrite B.
  repeat (match goal with |- context [match ?x with Some _ => _ | None => _ end] => destruct x end; cbn); reflexivity.
Qed.
Lemma field_fails E t h : needs_time t = true -> waits h -> fst (on (b_field E t) h) = Err ETypeError.
Proof.
  intros N (A & B & C). destruct h as [md H s b]. cbn in *. destruct s as []; cbn in *. subst.
  destruct t; try discriminate; unfold on, b_field, truncation_radius_halo, conc, time_since_infall, z_eval, mass_loss, mbind, gets, ret, modify, raise; cbn; rewrite B; cbn;
  repeat (match goal with |- context [match ?x with Some _ => _ | None => _ end] => destruct x end; cbn); reflexivity.
Qed.

Lemma conc_runs E h : waits h -> fst (on (b_conc E) h) = Ok tt.
Proof.
  intros (A & B & C). destruct h as [md H s b]. cbn in *. destruct s as []; cbn in *. subst.
  unfold on, b_conc, z_eval, mbind, gets, ret, modify. cbn. rewrite B.
  repeat (match goal with |- context [match ?x with Some _ => _ | None => _ end] => destruct x end; cbn); reflexivity.
Qed.
Lemma nfw_runs E h : waits h -> fst (on (b_nfw E) h) = Ok tt.
Proof.
  intros (A & B & C). destruct h as [md H s b]. cbn in *. destruct s as []; cbn in *. subst.
  unfold on, b_nfw, conc, z_eval, mbind, gets, ret, modify. cbn. rewrite B.
  repeat (match goal with |- context [match ?x with Some _ => _ | None => _ end] => destruct x end; cbn); reflexivity.
Qed.
Lemma for_each_fails sel m e : forall hs, (forall h, In h hs -> sel h = true -> fst (on m h) = Err e) -> existsb sel hs = true ->
  exists hs', for_each sel m hs = (Some e, hs').
Proof.
  induction hs as [|a t IH]; intros H X; [discriminate|]. cbn [for_each existsb] in *. destruct (sel a) eqn:Sa.
  - specialize (H a (or_introl eq_refl) Sa). destruct (on m a) as [[u|e'] a']; cbn [fst] in H; [discriminate|]. injection H as ->. eauto.
  - cbn [orb] in X. destruct (IH (fun h I => H h (or_intror I)) X) as [t' ->]. cbn [fst snd]. eauto.
Qed.
Lemma field_loop_fails E t hs : needs_time t = true -> existsb field_sel hs = true ->
  exists hs', precompute_tnfw_field_halos E t (fun h => String.eqb (b_mdef h) "TNFW") hs = (Some ETypeError, hs').
Proof.
  intros N X. unfold precompute_tnfw_field_halos. cbv zeta.
  change (existsb _ hs) with (existsb field_sel hs). rewrite X. cbn [negb].
  change (exists hs', loops ((field_sel, b_conc E) :: (field_sel, b_nfw E) :: (field_sel, b_field E t) :: nil) hs = (Some ETypeError, hs')).
  cbn [loops].
  rewrite for_each_ok by (intros h _ S; apply conc_runs, waits_field_sel, S).
  rewrite for_each_ok by (intros h _ S; apply nfw_runs, waits_field_sel, S).
  match goal with |- context [for_each field_sel (b_field E t) ?l] => set (hs2 := l) end.
  destruct (for_each_fails field_sel (b_field E t) ETypeError hs2) as [hs' ->]; [| |eauto].
  - intros h _ S. apply field_fails; [exact N|]. apply waits_field_sel, S.
  - apply existsb_exists in X. destruct X as (h & I & S). apply existsb_exists. apply waits_field_sel in S.
    pose proof (conc_step E h S) as W1. pose proof (nfw_step E _ W1) as W2.
    exists (snd (on (b_nfw E) (snd (on (b_conc E) h)))). split; [|apply waits_field_sel; exact W2].
    unfold hs2. apply in_map_iff. exists (snd (on (b_conc E) h)). rewrite (proj1 (waits_field_sel _) W1). split; [reflexivity|].
    apply in_map_iff. exists h. rewrite (proj1 (waits_field_sel _) S). auto.
Qed.

(** If the dictionary gives field halos a truncation class that needs the time since infall, then precompute_realization raises as
    soon as the realization has one truncated field halo that has not been used (TypeError, unless a subhalo already raised);
    that halo would have raised the same when asked for its profile. *)
Theorem C85_error : forall E k t hs h, truncation_for k false = Some t -> needs_time t = true ->
  In h hs -> b_mdef h = "TNFW"%string -> h_sub (b_static h) = false -> s_pargs (b_state h) = None ->
  (exists e hs', precompute_realization E k hs = (Some e, hs')) /\
  ((forall h', In h' hs -> h_sub (b_static h') = false) -> exists hs', precompute_realization E k hs = (Some ETypeError, hs')) /\
  (h_kind (b_static h) = t -> value (profile_args E (b_static h)) (b_state h) = Err ETypeError).
Proof.
  intros E k t hs h Ht N I A B C. assert (W : waits h) by (split; [exact A|split; [exact B|exact C]]).
  pose proof (proj1 (waits_field_sel h) W) as S. split; [|split].
  - unfold precompute_realization. cbv zeta.
    match goal with |- context [match ?r with pair _ _ => _ end] => set (sub := r) end.
    assert (K : In h (snd sub)).
    { unfold sub. destruct (truncation_for k true) as [t'|]; [|exact I]. destruct (supported_sub t') eqn:U; [|exact I].
      unfold precompute_tnfw_subhalos. cbv zeta. rewrite U.
      assert (Z : (fun h => (String.eqb (b_mdef h) "TNFW" && (is_sub h && unwarmed h))%bool) h = false).
      { cbn. unfold is_sub. rewrite B. apply andb_false_r. }
      match goal with |- context [if negb ?x then _ else _] => destruct x end; cbn [negb]; [|exact I].
      match goal with |- context [match loops ?l hs with pair _ _ => _ end] =>
        pose proof (loops_keep l h hs) as K1; destruct (loops l hs) as [[e|] hs1] end; cbn [snd] in *.
      - apply K1; [|exact I]. intros p [<-|[<-|[<-|[]]]]; exact Z.
      - apply loops_keep; [intros p [<-|[<-|[]]]; exact Z|]. apply K1; [|exact I]. intros p [<-|[<-|[<-|[]]]]; exact Z. }
    destruct sub as [[e|] hs1]; cbn [snd] in K; [eauto|]. rewrite Ht.
    destruct (field_loop_fails E t hs1 N) as [hs' ->]; [apply existsb_exists; exists h; auto|eauto].
  - intros Hf. unfold precompute_realization. cbv zeta.
    match goal with |- context [match ?r with pair _ _ => _ end] => assert (Q : r = (None, hs)) end.
    { destruct (truncation_for k true) as [t'|]; [|reflexivity]. destruct (supported_sub t'); [|reflexivity].
      unfold precompute_tnfw_subhalos. cbv zeta.
      match goal with |- context [existsb ?f hs] => assert (Y : existsb f hs = false) end.
      { destruct (existsb _ hs) eqn:Y; [|reflexivity]. apply existsb_exists in Y. destruct Y as (x & Ix & Y). unfold is_sub in Y. rewrite (Hf x Ix) in Y.
        rewrite andb_false_r in Y. discriminate. }
      rewrite Y. reflexivity. }
    rewrite Q, Ht. apply field_loop_fails; [exact N|]. apply existsb_exists. exists h. auto.
  - intros <-. destruct h as [md H s b]. cbn in *. destruct s as []; cbn in *. subst.
    unfold value, profile_args. destruct (h_kind H) eqn:Kd; try discriminate;
    unfold truncation_radius_halo; rewrite Kd; unfold conc, time_since_infall, z_eval, mass_loss, mbind, gets, ret, modify, raise; cbn; rewrite B; cbn;
    repeat (match goal with |- context [match ?x with Some _ => _ | None => _ end] => destruct x end; cbn); reflexivity.
Qed.
Example C85_error_nonvacuous : truncation_for (one_class (KGalacticus 5)) false = Some (KGalacticus 5) /\ needs_time (KGalacticus 5) = true /\
  waits (new_field (KGalacticus 5)).
Proof. repeat split. Qed.

(** ** The hypotheses hold for a mixed realization *)
Definition two_classes : halo_kwargs := {| hk_all := None; hk_sub := Some (KGalacticus 5); hk_field := Some (KMultipleRS 7) |}.
Definition mixed : list bhalo :=
  [new_sub (KGalacticus 5); new_field (KMultipleRS 7);
   mkB "TNFW" (mkStatic 9 50 (1 / 2) true (KGalacticus 5)) (reads batch_env (mkStatic 9 50 (1 / 2) true (KGalacticus 5)) [QMbound] (fresh 0 0)) None;
   mkB "TNFW" (mkStatic 9 50 (1 / 2) true (KGalacticus 5)) (reads batch_env (mkStatic 9 50 (1 / 2) true (KGalacticus 5)) [QLensing] (fresh 0 0)) None;
   mkB "GNFW" (mkStatic 9 50 (1 / 2) false (KConstant 3)) (fresh 0 0) None].
Example C85_nonvacuous : ages_ok batch_env /\ Forall (queried batch_env) mixed /\ Forall (used batch_env) mixed /\
  own_classes two_classes mixed /\ field_ok mixed /\ no_zinfall mixed /\
  map warm_up mixed = [Some [QZInfall; QTime; QC; QProfileArgs; QNfw]; Some [QC; QZEval; QNfw; QProfileArgs];
                       Some [QZInfall; QTime; QC; QProfileArgs; QNfw]; None; None] /\ deterministic_loss demo_env.
Proof.
  assert (Q : Forall (queried batch_env) mixed).
  { repeat constructor; [exists 1, 2, []|exists 1, 2, []|exists 0, 0, [QMbound]|exists 0, 0, [QLensing]|exists 0, 0, []]; reflexivity. }
  split; [exact batch_ages|]. split; [exact Q|]. split; [eapply Forall_impl; [|exact Q]; apply queried_used|].
  split; [intros h [<-|[<-|[<-|[<-|[<-|[]]]]]] X; (discriminate X || reflexivity)|].
  split; [intros h [<-|[<-|[<-|[<-|[<-|[]]]]]] X Y; (discriminate X || discriminate Y || reflexivity)|].
  split; [intros h [<-|[<-|[<-|[<-|[<-|[]]]]]] X Y; (discriminate X || discriminate Y || reflexivity)|].
  split; [|intros st n st' n' a b c; reflexivity].
  assert (A : Rleb 0 1 = true) by (apply Rleb_true; lra).
  crunchb. rewrite A. reflexivity.
Qed.

Print Assumptions C85_exact.
Print Assumptions C85_transparent.
Print Assumptions C85_idempotent.
Print Assumptions C85_zinfall.
Print Assumptions C85_zinfall_refuted.
Print Assumptions C85_classes_refuted.
Print Assumptions C85_bound_masses.
Print Assumptions C85_set_bound_mass_refuted.
Print Assumptions C85_error.
