From Verif Require Import Prelude HaloStateModel HaloStateSpec HaloStateProofs HaloFrame HaloStateLemmas BatchModel BatchSpec.

(** * The loops *)
Lemma for_each_ok sel m : forall hs, (forall h, In h hs -> sel h = true -> fst (on m h) = Ok tt) ->
  for_each sel m hs = (None, map (fun h => if sel h then snd (on m h) else h) hs).
Proof.
  induction hs as [|h t IH]; intros Hok; [reflexivity|]. cbn [for_each map].
  assert (Ht : for_each sel m t = (None, map (fun h => if sel h then snd (on m h) else h) t)).
  { apply IH. intros x Hx. apply Hok. right; exact Hx. }
  destruct (sel h) eqn:Es.
  - specialize (Hok h (or_introl eq_refl) Es). destruct (on m h) as [r h'] eqn:Eo. simpl in Hok. subst r. rewrite Ht. reflexivity.
  - rewrite Ht. reflexivity.
Qed.
(** one halo through the steps, none of which fails *)
Inductive steps : list ((bhalo -> bool) * (Static -> M unit)) -> bhalo -> bhalo -> Prop :=
| st_nil h : steps nil h h
| st_do sel m l h h1 h2 : sel h = true -> on m h = (Ok tt, h1) -> steps l h1 h2 -> steps ((sel, m) :: l) h h2
| st_skip sel m l h h2 : sel h = false -> steps l h h2 -> steps ((sel, m) :: l) h h2.
Lemma loops_ok : forall l hs hs', Forall2 (steps l) hs hs' -> loops l hs = (None, hs').
Proof.
  induction l as [|[sel m] l IH]; intros hs hs' F.
  - cbn [loops]. f_equal. induction F as [|h h' t t' S F IHF]; [reflexivity|]. inversion S; subst; f_equal; apply IHF.
  - cbn [loops]. rewrite for_each_ok.
    + apply IH. induction F as [|h h' t t' S F IHF]; [constructor|]. cbn [map]. constructor; [|exact IHF].
      inversion S; subst; match goal with X : sel h = _ |- _ => rewrite X end;
        [match goal with X : on m h = _ |- _ => rewrite X end|]; assumption.
    + intros h Hin Es. induction F as [|a a' t t' S F IHF]; [contradiction|]. destruct Hin as [->|Hin]; [|auto].
      inversion S; subst; [match goal with X : on m h = _ |- _ => rewrite X; reflexivity end|congruence].
Qed.

(** * Reachable states: the cached NFW parameters are those of the cached concentration and redshift *)
Section S.
Variable E : Env.
Variable H : Static.
Definition nfw_ok (s : St) : Prop :=
  s_nfw s = None \/ exists c z, s_c s = Some c /\ s_zeval s = Some z /\ s_nfw s = Some (e_nfw E (h_mass H) c z).
Definition okR (s s' : St) : Prop := nfw_ok s -> nfw_ok s'.
Lemma okR_refl s : okR s s. Proof. intros X; exact X. Qed.
Lemma okR_trans a b c : okR a b -> okR b c -> okR a c. Proof. unfold okR; auto. Qed.

Ltac basic_ok := unfold okR, nfw_ok; intros s Hs; destruct s as [sx sy sn so szi sze st sc snf spa sph skw svm smb n1 n2 n3 n4];
  cbn in *.
Lemma ok_zinf : pres okR (z_infall E H).
Proof. unfold pres, z_infall, mbind, gets, modify, ret. basic_ok. destruct szi; cbn; exact Hs. Qed.
Lemma ok_zeval : pres okR (z_eval E H).
Proof.
  unfold pres, z_eval, z_infall, mbind, gets, modify, ret. basic_ok.
  destruct sze; cbn; [exact Hs|].
  assert (snf = None) by (destruct Hs as [Hs|(c & z & _ & X & _)]; [exact Hs|discriminate]).
  destruct (h_sub H), szi; cbn; left; assumption.
Qed.
Lemma ok_conc : pres okR (conc E H).
Proof.
  unfold pres, conc, z_eval, z_infall, mbind, gets, modify, ret. basic_ok.
  destruct sc; cbn; [exact Hs|].
  assert (snf = None) by (destruct Hs as [Hs|(c & z & X & _)]; [exact Hs|discriminate]).
  destruct sze, (h_sub H), szi; cbn; left; assumption.
Qed.
Lemma ok_nfw : pres okR (nfw_params E H).
Proof.
  unfold pres, nfw_params, conc, z_eval, z_infall, mbind, gets, modify, ret. basic_ok.
  destruct snf; cbn; [exact Hs|].
  destruct sc, sze, (h_sub H), szi; cbn; right; eauto.
Qed.
Ltac trivok := first [assumption | solve [unfold okR, nfw_ok; cbn; auto]].
Ltac pok := pres_tac okR_trans okR_refl ltac:(trivok).
Lemma ok_time : pres okR (time_since_infall E H). Proof. pose proof ok_zinf. unfold time_since_infall. pok. Qed.
Lemma ok_draw st : pres okR (draw_number st). Proof. unfold draw_number. pok. Qed.
Lemma ok_loss st a t c : pres okR (mass_loss E st a t c). Proof. pose proof (ok_draw st). unfold mass_loss. pok. Qed.
Lemma ok_rescale f fo lg s : okR s (rescale_normalization f fo lg s).
Proof. unfold okR, nfw_ok, rescale_normalization. destruct fo, (s_once s); cbn; auto. Qed.
Lemma ok_struct m c : pres okR (structure_from_mbound E H m c).
Proof.
  pose proof ok_zeval. unfold structure_from_mbound.
  pres_tac okR_trans okR_refl ltac:(first [assumption | apply ok_rescale]).
Qed.
Lemma ok_trunc : pres okR (truncation_radius_halo E H).
Proof.
  pose proof ok_zeval. pose proof ok_conc. pose proof ok_time. pose proof ok_zinf. pose proof ok_nfw.
  unfold truncation_radius_halo.
  pres_tac okR_trans okR_refl ltac:(first [assumption | apply ok_draw | apply ok_loss | apply ok_struct | trivok]).
Qed.
Lemma ok_mb : pres okR (calculate_mbound E H).
Proof.
  pose proof ok_conc. pose proof ok_time. pose proof ok_zinf. unfold calculate_mbound.
  pres_tac okR_trans okR_refl ltac:(first [assumption | apply ok_draw | apply ok_loss]).
Qed.
Lemma ok_mbdef : pres okR (bound_mass_galacticus_definition E H).
Proof. pose proof ok_mb. unfold bound_mass_galacticus_definition. pok. Qed.
Lemma ok_pargs : pres okR (profile_args E H).
Proof.
  pose proof ok_mbdef. pose proof ok_conc. pose proof ok_trunc. unfold profile_args.
  pres_tac okR_trans okR_refl ltac:(first [assumption | apply ok_struct | trivok]).
Qed.
Lemma ok_phys : pres okR (params_physical E H).
Proof. pose proof ok_pargs. pose proof ok_nfw. unfold params_physical. pok. Qed.
Lemma ok_kw : pres okR (lenstronomy_params E H).
Proof. pose proof ok_pargs. pose proof ok_nfw. unfold lenstronomy_params. pok. Qed.
Lemma ok_ask q : pres okR (ask E H q).
Proof.
  pose proof ok_pargs. pose proof ok_nfw. pose proof ok_phys. pose proof ok_kw. pose proof ok_conc.
  pose proof ok_zinf. pose proof ok_zeval. pose proof ok_time. pose proof ok_mbdef.
  destruct q; unfold ask, vmax_nfw, bound_mass, mass_3d, density_profile_3d; pok.
Qed.
Lemma ok_act o s : okR s (act E H o s).
Proof.
  destruct o; cbn [act].
  - apply ok_ask.
  - unfold set_infall_redshift. destruct (h_sub H); cbn; [unfold okR, nfw_ok; cbn; auto|apply okR_refl].
  - apply ok_rescale.
  - unfold okR, nfw_ok; cbn; auto.
Qed.
Lemma ok_history l : forall s, nfw_ok s -> nfw_ok (history E H l s).
Proof. unfold history. induction l as [|o l IH]; intros s Hs; [exact Hs|]. cbn [fold_left]. apply IH. apply ok_act. exact Hs. Qed.
Lemma ok_fresh x y : nfw_ok (fresh x y). Proof. left; reflexivity. Qed.

(** * One subhalo of the class TruncationGalacticus: the batch leaves the caches of five queries *)
Hypothesis age : ages_ok E.
Definition seq (l : list (Static -> M unit)) : M unit :=
  fold_right (fun m k => let* _ := m H in k) (ret tt) l.

Lemma c_hit s c : s_c s = Some c -> conc E H s = (Ok c, s).
Proof. intros X. unfold conc. rewrite bind_gets, X. reflexivity. Qed.
Lemma zi_hit s c : s_zinf s = Some c -> z_infall E H s = (Ok c, s).
Proof. intros X. unfold z_infall. rewrite bind_gets, X. reflexivity. Qed.
Lemma ze_hit s c : s_zeval s = Some c -> z_eval E H s = (Ok c, s).
Proof. intros X. unfold z_eval. rewrite bind_gets, X. reflexivity. Qed.
Lemma ti_hit s c : h_sub H = true -> s_tsi s = Some c -> time_since_infall E H s = (Ok (Some c), s).
Proof. intros Hs X. unfold time_since_infall. rewrite Hs. cbn [negb]. rewrite bind_gets, X. reflexivity. Qed.
Lemma mb_hit s c : h_sub H = true -> supported_sub (h_kind H) = true -> s_mb s = Some c ->
  bound_mass_galacticus_definition E H s = (Ok c, s).
Proof.
  intros Hs Hk X. unfold bound_mass_galacticus_definition. rewrite Hs. cbn [negb].
  destruct (h_kind H); try discriminate; rewrite bind_gets, X; reflexivity.
Qed.

Lemma b_infall_ask s : exists z, b_infall E H s = (Ok tt, snd (ask E H QZInfall s)) /\ s_zinf (snd (ask E H QZInfall s)) = Some z.
Proof.
  cbn [ask]. rewrite unit_snd. unfold b_infall, z_infall. rewrite !bind_gets. destruct (s_zinf s) as [z|] eqn:Ez.
  - exists z. split; [reflexivity|exact Ez].
  - eexists. split; reflexivity.
Qed.
Lemma b_time_ask s z : h_sub H = true -> s_zinf s = Some z ->
  exists t, b_time E H s = (Ok tt, snd (ask E H QTime s)) /\ s_tsi (snd (ask E H QTime s)) = Some t /\
    s_zinf (snd (ask E H QTime s)) = Some z.
Proof.
  intros Hs Hz. cbn [ask]. rewrite unit_snd. unfold b_time, time_since_infall. rewrite Hs. cbn [negb]. rewrite !bind_gets.
  destruct (s_tsi s) as [t|] eqn:Et.
  - exists t. repeat split; assumption.
  - rewrite bind_gets, Hz. rewrite (bind_ok _ _ _ _ _ (zi_hit _ _ Hz)).
    assert (A : Rleb 0 (e_age E (h_z H) z) = true) by (apply Rleb_true; apply age).
    cbv zeta. rewrite bind_modify, A. eexists. repeat split. exact Hz.
Qed.
Lemma b_conc_ask s : exists c, b_conc E H s = (Ok tt, snd (ask E H QC s)) /\ s_c (snd (ask E H QC s)) = Some c.
Proof.
  cbn [ask]. rewrite unit_snd. unfold b_conc, conc. rewrite !bind_gets. destruct (s_c s) as [c|] eqn:Ec.
  - exists c. split; [reflexivity|exact Ec].
  - destruct (zeval_ok E H s) as (z & s1 & E1 & _). rewrite !(bind_ok _ _ _ _ _ E1), !bind_gets. cbv zeta.
    rewrite !bind_modify. eexists. split; reflexivity.
Qed.
(** z_eval and conc leave the other caches alone *)
Lemma zeval_keeps s : s_tsi (snd (z_eval E H s)) = s_tsi s /\ s_mb (snd (z_eval E H s)) = s_mb s /\
  s_pargs (snd (z_eval E H s)) = s_pargs s /\ s_c (snd (z_eval E H s)) = s_c s /\ s_nfw (snd (z_eval E H s)) = s_nfw s /\
  (forall z, s_zinf s = Some z -> s_zinf (snd (z_eval E H s)) = Some z).
Proof.
  unfold z_eval, z_infall, mbind, gets, modify, ret. destruct s as [sx sy sn so szi sze st sc snf spa sph skw svm smb n1 n2 n3 n4].
  cbn. destruct sze; cbn; [repeat split; auto|]. destruct (h_sub H), szi; cbn; repeat split; auto; discriminate.
Qed.
Lemma conc_keeps s : s_tsi (snd (conc E H s)) = s_tsi s /\ s_mb (snd (conc E H s)) = s_mb s /\
  s_pargs (snd (conc E H s)) = s_pargs s /\ (forall z, s_zinf s = Some z -> s_zinf (snd (conc E H s)) = Some z).
Proof.
  unfold conc. rewrite bind_gets. destruct (s_c s); [repeat split; auto|].
  destruct (zeval_ok E H s) as (z & s1 & E1 & _). pose proof (zeval_keeps s) as K. rewrite E1 in K. cbn in K.
  rewrite (bind_ok _ _ _ _ _ E1), bind_gets. cbv zeta. rewrite !bind_modify. cbn. tauto.
Qed.
Lemma b_mbound_gal chost s c t : h_sub H = true -> h_kind H = KGalacticus chost -> s_c s = Some c -> s_tsi s = Some t ->
  exists mb s4, bound_mass_galacticus_definition E H s = (Ok mb, s4) /\ b_mbound E (KGalacticus chost) H s = (Ok tt, s4) /\
    s_mb s4 = Some mb /\ s_c s4 = Some c /\ s_zeval s4 = s_zeval s /\ s_nfw s4 = s_nfw s /\ s_pargs s4 = s_pargs s.
Proof.
  intros Hs Hk Hc Ht. unfold b_mbound. rewrite (bind_ok _ _ _ _ _ (c_hit _ _ Hc)), (bind_ok _ _ _ _ _ (ti_hit _ _ Hs Ht)), bind_gets.
  destruct (s_mb s) as [mb|] eqn:Em.
  - exists mb, s. rewrite (mb_hit s mb) by (rewrite ?Hk; auto). repeat split; auto.
  - unfold bound_mass_galacticus_definition, calculate_mbound. rewrite Hs, Hk. cbn [negb]. rewrite bind_gets, Em.
    cbn [mass_loss draw_number].
    assert (X : (let* c := conc E H in let* t := time_since_infall E H in let* ml := mass_loss E SBound (log10 c) t chost in
       ret (h_mass H * pow10 ml)) s = (Ok (h_mass H * pow10 (e_loss E SBound (n_mb s) (log10 c) t chost)), tick_mb s)).
    { rewrite (bind_ok _ _ _ _ _ (c_hit _ _ Hc)), (bind_ok _ _ _ _ _ (ti_hit _ _ Hs Ht)). reflexivity. }
    rewrite (bind_ok _ _ _ _ _ X), bind_modify. eexists. eexists. split; [reflexivity|]. repeat split; auto.
Qed.

(** the NFW parameters that the last steps store *)
Lemma nfw_hit s c z : s_c s = Some c -> s_zeval s = Some z -> nfw_ok s ->
  nfw_params E H s = (Ok (e_nfw E (h_mass H) c z), set_nfw (e_nfw E (h_mass H) c z) s).
Proof.
  intros Hc Hz Hn. unfold nfw_params. rewrite bind_gets. destruct (s_nfw s) as [p|] eqn:Ep.
  - destruct Hn as [Hn|(c' & z' & A & B & C)]; [congruence|]. rewrite Hc in A. rewrite Hz in B. injection A as <-. injection B as <-.
    rewrite Ep in C. injection C as ->. unfold ret. f_equal. destruct s; cbn in *. unfold set_nfw; cbn. rewrite <- Ep. reflexivity.
  - rewrite (bind_ok _ _ _ _ _ (c_hit _ _ Hc)), (bind_ok _ _ _ _ _ (ze_hit _ _ Hz)). reflexivity.
Qed.
Lemma set_swap p a s : set_nfw p (set_pargs a s) = set_pargs a (set_nfw p s).
Proof. reflexivity. Qed.
Lemma nfw_ok_pargs a s : nfw_ok (set_pargs a s) <-> nfw_ok s. Proof. reflexivity. Qed.

Lemma sub_exact chost s : h_sub H = true -> h_kind H = KGalacticus chost -> s_pargs s = None -> nfw_ok s ->
  seq [b_infall E; b_time E; b_conc E; b_mbound E (KGalacticus chost); b_store E] s =
  (Ok tt, reads E H [QZInfall; QTime; QC; QProfileArgs; QNfw] s).
Proof.
  intros Hs Hk Hp Hn. unfold seq, reads. cbn [fold_left fold_right].
  destruct (b_infall_ask s) as (z & E1 & Z1). rewrite (bind_ok _ _ _ _ _ E1).
  assert (N1 : nfw_ok (snd (ask E H QZInfall s))) by (apply ok_ask; exact Hn).
  assert (P1 : s_pargs (snd (ask E H QZInfall s)) = None).
  { cbn [ask]. rewrite unit_snd. destruct (f_zinf E H s) as (_ & _ & X & _). rewrite X. exact Hp. }
  set (s1 := snd (ask E H QZInfall s)) in *. clearbody s1. clear E1 Hp Hn.
  destruct (b_time_ask s1 z Hs Z1) as (t & E2 & T2 & Z2). rewrite (bind_ok _ _ _ _ _ E2).
  assert (N2 : nfw_ok (snd (ask E H QTime s1))) by (apply ok_ask; exact N1).
  assert (P2 : s_pargs (snd (ask E H QTime s1)) = None).
  { cbn [ask]. rewrite unit_snd. destruct (f_time E H s1) as (_ & _ & X & _). rewrite X. exact P1. }
  set (s2 := snd (ask E H QTime s1)) in *. clearbody s2. clear E2 P1 N1 Z1.
  destruct (b_conc_ask s2) as (c & E3 & C3). rewrite (bind_ok _ _ _ _ _ E3).
  assert (N3 : nfw_ok (snd (ask E H QC s2))) by (apply ok_ask; exact N2).
  assert (K3 : s_tsi (snd (ask E H QC s2)) = Some t /\ s_pargs (snd (ask E H QC s2)) = None).
  { cbn [ask]. rewrite unit_snd. destruct (conc_keeps s2) as (A & _ & B & _). rewrite A, B. auto. }
  destruct K3 as [T3 P3]. set (s3 := snd (ask E H QC s2)) in *. clearbody s3. clear E3 P2 N2 T2 Z2.
  destruct (b_mbound_gal chost s3 c t Hs Hk C3 T3) as (mb & s4 & B4 & E4 & M4 & C4 & Z4 & F4 & P4).
  rewrite (bind_ok _ _ _ _ _ E4).
  assert (N4 : nfw_ok s4) by (unfold nfw_ok; rewrite C4, Z4, F4; rewrite <- C3; exact N3).
  rewrite P3 in P4.
  (* both paths from s4 *)
  unfold b_store.
  cbn [ask]. rewrite !unit_snd.
  assert (PA : exists r f ze s5, z_eval E H s4 = (Ok ze, s5) /\
     e_rte E mb (h_mass H) (snd (e_nfw E (h_mass H) c ze)) c = (r, f) /\
     profile_args E H s3 = (Ok (c, r), set_pargs (c, r) (rescale_normalization f false true s5)) /\
     s_c s5 = Some c /\ s_zeval s5 = Some ze /\ nfw_ok s5).
  { destruct (zeval_ok E H s4) as (ze & s5 & E5 & Z5).
    pose proof (zeval_keeps s4) as K5. rewrite E5 in K5. cbn [snd] in K5. destruct K5 as (_ & _ & _ & C5 & _).
    rewrite C4 in C5. pose proof (ok_zeval s4 N4) as N5. rewrite E5 in N5. cbn [snd] in N5.
    destruct (e_rte E mb (h_mass H) (snd (e_nfw E (h_mass H) c ze)) c) as [r f] eqn:Er.
    exists r, f, ze, s5. do 2 (split; [auto|]). split; [|auto].
    unfold profile_args. rewrite bind_gets, P3, Hs, Hk.
    assert (T : (let* mb := bound_mass_galacticus_definition E H in let* c := conc E H in structure_from_mbound E H mb c) s3 =
       (Ok r, rescale_normalization f false true s5)).
    { rewrite (bind_ok _ _ _ _ _ B4), (bind_ok _ _ _ _ _ (c_hit _ _ C4)). unfold structure_from_mbound.
      rewrite (bind_ok _ _ _ _ _ E5). destruct (e_nfw E (h_mass H) c ze) as [[rho rs] r200]. cbn in Er. rewrite Er. reflexivity. }
    rewrite (bind_ok _ _ _ _ _ T).
    assert (C6 : s_c (rescale_normalization f false true s5) = Some c).
    { unfold rescale_normalization, apply_rescale. destruct (s_once s5); cbn; exact C5. }
    rewrite (bind_ok _ _ _ _ _ (c_hit _ _ C6)). reflexivity. }
  destruct PA as (r & f & ze & s5 & E5 & Er & EP & C5 & Z5 & N5). rewrite EP. cbn [snd].
  assert (C6 : s_c (rescale_normalization f false true s5) = Some c /\ s_zeval (rescale_normalization f false true s5) = Some ze).
  { unfold rescale_normalization, apply_rescale. destruct (s_once s5); cbn; auto. }
  assert (N6 : nfw_ok (rescale_normalization f false true s5)) by (apply ok_rescale; exact N5).
  rewrite (nfw_hit _ c ze) by (apply C6 || exact N6). cbn [snd]. rewrite set_swap.
  unfold mbind at 1. rewrite bind_gets, M4, (bind_ok _ _ _ _ _ E5), (bind_ok _ _ _ _ _ (c_hit _ _ C5)). cbv zeta. rewrite Er.
  rewrite !bind_modify. reflexivity.
Qed.

(** * One field halo *)
Lemma b_nfw_ask s : nfw_ok s -> b_nfw E H s = (Ok tt, snd (ask E H QNfw (snd (ask E H QZEval (snd (ask E H QC s)))))) .
Proof.
  intros Hn. cbn [ask]. rewrite !unit_snd. unfold b_nfw.
  destruct (conc_ok E H s) as (c & s1 & E1 & C1). rewrite (bind_ok _ _ _ _ _ E1), E1. cbn [snd].
  pose proof (ok_conc s Hn) as N1. rewrite E1 in N1. cbn [snd] in N1.
  destruct (zeval_ok E H s1) as (z & s2 & E2 & Z2). rewrite (bind_ok _ _ _ _ _ E2), E2. cbn [snd].
  pose proof (ok_zeval s1 N1) as N2. rewrite E2 in N2. cbn [snd] in N2.
  pose proof (zeval_keeps s1) as K. rewrite E2 in K. cbn [snd] in K. destruct K as (_ & _ & _ & C2 & _). rewrite C1 in C2.
  rewrite (nfw_hit s2 c z) by assumption. reflexivity.
Qed.

Lemma trunc_field s c z : h_sub H = false -> needs_time (h_kind H) = false -> s_c s = Some c -> s_zeval s = Some z -> nfw_ok s ->
  exists rt s', truncation_radius_halo E H s = (Ok rt, s') /\ s_c s' = Some c.
Proof.
  intros Hs Hk Hc Hz Hn.
  assert (ST : forall mb s1, s_c s1 = Some c -> s_zeval s1 = Some z -> exists rt s', structure_from_mbound E H mb c s1 = (Ok rt, s') /\ s_c s' = Some c).
  { intros mb s1 C1 Z1. unfold structure_from_mbound. rewrite (bind_ok _ _ _ _ _ (ze_hit _ _ Z1)).
    destruct (e_nfw E (h_mass H) c z) as [[rho rs] r200]. destruct (e_rte E mb (h_mass H) r200 c) as [r f].
    eexists. eexists. split; [reflexivity|]. unfold rescale_normalization, apply_rescale. destruct (s_once s1); cbn; exact C1. }
  unfold truncation_radius_halo. destruct (h_kind H) eqn:Ek; try discriminate.
  - rewrite (bind_ok _ _ _ _ _ (ze_hit _ _ Hz)). eexists. eexists. split; [reflexivity|exact Hc].
  - rewrite (bind_ok _ _ _ _ _ (ze_hit _ _ Hz)). eexists. eexists. split; [reflexivity|exact Hc].
  - eexists. eexists. split; [reflexivity|exact Hc].
  - rewrite (bind_ok _ _ _ _ _ (ze_hit _ _ Hz)). cbv zeta. rewrite (bind_ok _ _ _ _ _ (c_hit _ _ Hc)), (bind_ok _ _ _ _ _ (ze_hit _ _ Hz)).
    destruct (Rltb 0 scatter); cbn [draw_number]; unfold mbind, gets, modify, ret;
      destruct (e_nfw E (h_mass H) c z) as [[rho rs] r200]; eexists; eexists; (split; [reflexivity|exact Hc]).
  - rewrite (bind_ok _ _ _ _ _ (nfw_hit _ _ _ Hc Hz Hn)). destruct (e_nfw E (h_mass H) c z) as [[rho rs] r200].
    eexists. eexists. split; [reflexivity|exact Hc].
  - eexists. eexists. split; [reflexivity|exact Hc].
  - rewrite (bind_ok _ _ _ _ _ (c_hit _ _ Hc)). destruct (zinf_ok E H s) as (zi & s1 & E1 & _).
    destruct (zinf_frame E H s) as (A & B & _). rewrite E1 in A, B. cbn [snd] in A, B.
    rewrite (bind_ok _ _ _ _ _ E1). cbn [mass_loss draw_number]. unfold mbind at 1 2 3. unfold gets, modify, ret.
    apply ST; cbn; congruence.
  - rewrite (bind_ok _ _ _ _ _ (c_hit _ _ Hc)). cbn [draw_number]. unfold mbind at 1 2 3. unfold gets, modify, ret.
    apply ST; cbn; assumption.
  - cbn [draw_number]. unfold mbind at 1 2 3. unfold gets, modify, ret. cbv zeta.
    rewrite (bind_ok _ _ (tick_tr s) _ _ (c_hit (tick_tr s) _ Hc)). apply ST; cbn; assumption.
Qed.
Lemma b_field_ask s c z : h_sub H = false -> needs_time (h_kind H) = false -> s_c s = Some c -> s_zeval s = Some z ->
  s_nfw s = Some (e_nfw E (h_mass H) c z) -> s_pargs s = None ->
  b_field E (h_kind H) H s = (Ok tt, snd (ask E H QProfileArgs s)).
Proof.
  intros Hs Hk Hc Hz Hf Hp. cbn [ask]. rewrite unit_snd. unfold profile_args. rewrite bind_gets, Hp, Hs.
  assert (Hn : nfw_ok s) by (right; eauto).
  assert (G : (let* c := conc E H in let* rt := truncation_radius_halo E (mkStatic (h_mass H) (h_r3d H) (h_z H) (h_sub H) (h_kind H)) in
     modify (set_pargs (c, rt))) s = (Ok tt, snd ((let* rt := truncation_radius_halo E H in let* c := conc E H in
       let* _ := modify (set_pargs (c, rt)) in ret (c, rt)) s))).
  { replace (mkStatic (h_mass H) (h_r3d H) (h_z H) (h_sub H) (h_kind H)) with H by (destruct H; reflexivity).
    rewrite (bind_ok _ _ _ _ _ (c_hit _ _ Hc)). destruct (trunc_field s c z Hs Hk Hc Hz Hn) as (rt & s' & E1 & C1).
    rewrite !(bind_ok _ _ _ _ _ E1), (bind_ok _ _ _ _ _ (c_hit _ _ C1)). reflexivity. }
  unfold b_field. destruct (h_kind H) eqn:Ek; try exact G.
  - unfold truncation_radius_halo. rewrite Ek. rewrite (bind_ok _ _ _ _ _ (ze_hit _ _ Hz)), (bind_ok _ _ _ _ _ (c_hit _ _ Hc)).
    assert (T : (let* z := z_eval E H in ret (e_rN E N (h_mass H) z)) s = (Ok (e_rN E N (h_mass H) z), s))
      by (rewrite (bind_ok _ _ _ _ _ (ze_hit _ _ Hz)); reflexivity).
    rewrite (bind_ok _ _ _ _ _ T), (bind_ok _ _ _ _ _ (c_hit _ _ Hc)). reflexivity.
  - unfold truncation_radius_halo. rewrite Ek. rewrite (bind_ok _ _ _ _ _ (c_hit _ _ Hc)), bind_gets, Hf.
    assert (T : (let* p := nfw_params E H in let '(_, rs, _) := p in ret (tau * rs)) s = (Ok (tau * snd (fst (e_nfw E (h_mass H) c z))), s)).
    { unfold nfw_params, mbind, gets, ret. rewrite Hf. destruct (e_nfw E (h_mass H) c z) as [[? ?] ?]; reflexivity. }
    rewrite (bind_ok _ _ _ _ _ T), (bind_ok _ _ _ _ _ (c_hit _ _ Hc)). reflexivity.
Qed.
Lemma field_exact s : h_sub H = false -> needs_time (h_kind H) = false -> s_pargs s = None -> nfw_ok s ->
  seq [b_conc E; b_nfw E; b_field E (h_kind H)] s = (Ok tt, reads E H [QC; QZEval; QNfw; QProfileArgs] s).
Proof.
  intros Hs Hk Hp Hn. unfold seq, reads. cbn [fold_left fold_right].
  destruct (b_conc_ask s) as (c & E1 & C1). rewrite (bind_ok _ _ _ _ _ E1).
  assert (N1 : nfw_ok (snd (ask E H QC s))) by (apply ok_ask; exact Hn).
  assert (P1 : s_pargs (snd (ask E H QC s)) = None).
  { cbn [ask]. rewrite unit_snd. destruct (f_conc E H s) as (_ & _ & X & _). rewrite X. exact Hp. }
  set (s1 := snd (ask E H QC s)) in *. clearbody s1. clear E1.
  rewrite (bind_ok _ _ _ _ _ (b_nfw_ask s1 N1)).
  assert (X : snd (ask E H QC s1) = s1) by (cbn [ask]; rewrite unit_snd, (c_hit _ _ C1); reflexivity).
  rewrite X.
  assert (N2 : nfw_ok (snd (ask E H QZEval s1))) by (apply ok_ask; exact N1).
  assert (K2 : exists z, s_zeval (snd (ask E H QZEval s1)) = Some z /\ s_c (snd (ask E H QZEval s1)) = Some c /\
     s_pargs (snd (ask E H QZEval s1)) = None).
  { cbn [ask]. rewrite unit_snd. destruct (zeval_ok E H s1) as (z & s2 & E2 & Z2).
    pose proof (zeval_keeps s1) as K. rewrite E2 in *. cbn [snd] in *. destruct K as (_ & _ & A & B & _). exists z. rewrite A, B. auto. }
  destruct K2 as (z & Z2 & C2 & P2). set (s2 := snd (ask E H QZEval s1)) in *. clearbody s2.
  assert (K3 : snd (ask E H QNfw s2) = set_nfw (e_nfw E (h_mass H) c z) s2)
    by (cbn [ask]; rewrite unit_snd, (nfw_hit _ _ _ C2 Z2 N2); reflexivity).
  rewrite K3. rewrite (bind_ok _ _ _ _ _ (b_field_ask (set_nfw (e_nfw E (h_mass H) c z) s2) c z Hs Hk C2 Z2 eq_refl P2)). reflexivity.
Qed.

(** * The steps of one halo, with the selection *)
Definition keepsP (m : Static -> M unit) : Prop := pres (fun s s' => s_pargs s' = s_pargs s) (m H).
Fixpoint good (ms : list (Static -> M unit)) : Prop :=
  match ms with nil => True | m :: t => (t = nil \/ keepsP m) /\ good t end.
Lemma steps_seq (sel : bhalo -> bool) h :
  (forall s, s_pargs s = s_pargs (b_state h) -> sel (with_state h s) = true) -> b_static h = H ->
  forall ms s, good ms -> s_pargs s = s_pargs (b_state h) ->
    forall s', seq ms s = (Ok tt, s') -> steps (map (fun m => (sel, m)) ms) (with_state h s) (with_state h s').
Proof.
  intros Hsel HH. induction ms as [|m ms IH]; intros s G Hs s' R; cbn [map].
  - cbn in R. injection R as <-. constructor.
  - cbn in R. unfold mbind at 1 in R. destruct (m H s) as [[[]|e] s1] eqn:Em; [|discriminate].
    destruct G as [G1 G2].
    apply st_do with (h1 := with_state h s1).
    + apply Hsel. exact Hs.
    + unfold on. cbn [with_state b_static b_state]. rewrite HH, Em. reflexivity.
    + destruct G1 as [->|K]; [cbn in R; injection R as <-; constructor|].
      apply IH; [exact G2| |exact R]. specialize (K s). rewrite Em in K. cbn [snd] in K. congruence.
Qed.
End S.

Section K.
Variable E : Env.
Variable H : Static.
Local Notation Rp := (fun s s' : St => s_pargs s' = s_pargs s).
Lemma Rp_trans a b c : Rp a b -> Rp b c -> Rp a c. Proof. cbn; congruence. Qed.
Lemma F_Rp {A} (m : M A) : pres F m -> pres Rp m.
Proof. intros P s. destruct (P s) as (_ & _ & X & _). exact X. Qed.
Ltac kp := pres_tac Rp_trans (fun s : St => eq_refl (s_pargs s)) ltac:(first [assumption | reflexivity]).
Lemma kp_infall : keepsP H (b_infall E). Proof. unfold keepsP, b_infall. kp. Qed.
Lemma kp_time : keepsP H (b_time E). Proof. unfold keepsP, b_time. kp. Qed.
Lemma kp_conc : keepsP H (b_conc E).
Proof. pose proof (F_Rp _ (f_zeval E H)). unfold keepsP, b_conc. kp. Qed.
Lemma kp_nfw : keepsP H (b_nfw E).
Proof. pose proof (F_Rp _ (f_zeval E H)). pose proof (F_Rp _ (f_conc E H)). unfold keepsP, b_nfw. kp. Qed.
Lemma kp_mbound k : keepsP H (b_mbound E k).
Proof.
  pose proof (F_Rp _ (f_zinf E H)). pose proof (F_Rp _ (f_conc E H)). pose proof (F_Rp _ (f_time E H)).
  unfold keepsP, b_mbound.
  pres_tac Rp_trans (fun s : St => eq_refl (s_pargs s)) ltac:(first [assumption | reflexivity | apply F_Rp; apply f_loss]).
Qed.
End K.

(** * The driver *)
Definition sub_sel (h : bhalo) : bool := andb (String.eqb (b_mdef h) "TNFW") (andb (is_sub h) (unwarmed h)).
Definition field_sel (h : bhalo) : bool := andb (String.eqb (b_mdef h) "TNFW") (andb (negb (is_sub h)) (unwarmed h)).
Definition warm (E : Env) (qs : list query) (sel : bhalo -> bool) (h : bhalo) : bhalo :=
  if sel h then with_state h (reads E (b_static h) qs (b_state h)) else h.

Lemma state_id h : with_state h (b_state h) = h. Proof. destruct h; reflexivity. Qed.
Lemma unwarmed_none h : unwarmed h = true -> s_pargs (b_state h) = None.
Proof. unfold unwarmed. destruct (s_pargs (b_state h)); congruence. Qed.
Lemma steps_skip sel ms h : sel h = false -> steps (map (fun m => (sel, m)) ms) h h.
Proof. intros Hs. induction ms; cbn [map]; constructor; auto. Qed.
Lemma used_ok E h : used E h -> nfw_ok E (b_static h) (b_state h).
Proof. intros (x & y & l & ->). apply ok_history. apply ok_fresh. Qed.
Lemma loops_app l1 l2 hs : loops (l1 ++ l2) hs =
  match loops l1 hs with (None, hs') => loops l2 hs' | (Some e, hs') => (Some e, hs') end.
Proof.
  revert hs; induction l1 as [|[sel m] l1 IH]; intros hs; [reflexivity|]. cbn [app loops].
  destruct (for_each sel m hs) as [[e|] hs']; [reflexivity|apply IH].
Qed.
Lemma F2_map {A B} (P : A -> B -> Prop) (f : A -> B) l : (forall x, In x l -> P x (f x)) -> Forall2 P l (map f l).
Proof. induction l as [|a t IH]; intros Hf; constructor; [apply Hf; left; reflexivity|]. apply IH. intros x Hx; apply Hf; right; exact Hx. Qed.

Definition sub_qs := [QZInfall; QTime; QC; QProfileArgs; QNfw].
Definition field_qs := [QC; QZEval; QNfw; QProfileArgs].
Lemma subs_exact E chost hs : ages_ok E -> (forall h, In h hs -> nfw_ok E (b_static h) (b_state h)) ->
  (forall h, In h hs -> sub_sel h = true -> h_kind (b_static h) = KGalacticus chost) ->
  precompute_tnfw_subhalos E (KGalacticus chost) (fun h => String.eqb (b_mdef h) "TNFW") hs = (None, map (warm E sub_qs sub_sel) hs).
Proof.
  intros age Hn Hk. unfold precompute_tnfw_subhalos. fold sub_sel.
  change (fun h => (b_mdef h =? "TNFW")%string && (is_sub h && unwarmed h))%bool with sub_sel.
  destruct (existsb sub_sel hs) eqn:Ex; cbn [negb].
  - assert (L : loops (map (fun m => (sub_sel, m)) [b_infall E; b_time E; b_conc E; b_mbound E (KGalacticus chost); b_store E]) hs =
      (None, map (warm E sub_qs sub_sel) hs)).
    { apply loops_ok. apply F2_map. intros h Hin. unfold warm. destruct (sub_sel h) eqn:Es.
      - rewrite <- (state_id h) at 1. pose proof Es as Es'. unfold sub_sel in Es'.
        apply andb_true_iff in Es'. destruct Es' as [Em Es']. apply andb_true_iff in Es'. destruct Es' as [Esub Eu].
        pose proof (unwarmed_none _ Eu) as Ep.
        apply steps_seq with (H := b_static h).
        + intros s Hs. unfold sub_sel, unwarmed, is_sub, with_state. cbn. rewrite Hs, Ep, Em. unfold is_sub in Esub. rewrite Esub. reflexivity.
        + reflexivity.
        + cbn [good]. pose proof (kp_infall E (b_static h)). pose proof (kp_time E (b_static h)). pose proof (kp_conc E (b_static h)).
          pose proof (kp_mbound E (b_static h) (KGalacticus chost)). tauto.
        + reflexivity.
        + apply sub_exact; auto.
      - apply steps_skip. exact Es. }
    cbn [map] in L.
    change [(sub_sel, b_infall E); (sub_sel, b_time E); (sub_sel, b_conc E); (sub_sel, b_mbound E (KGalacticus chost)); (sub_sel, b_store E)]
      with ([(sub_sel, b_infall E); (sub_sel, b_time E); (sub_sel, b_conc E)] ++ [(sub_sel, b_mbound E (KGalacticus chost)); (sub_sel, b_store E)]) in L.
    rewrite loops_app in L. cbn [supported_sub]. destruct (loops [(sub_sel, b_infall E); (sub_sel, b_time E); (sub_sel, b_conc E)] hs) as [[e|] hs1]; [discriminate|exact L].
  - f_equal. rewrite <- (map_id hs) at 1. apply map_ext_in. intros h Hin. unfold warm.
    destruct (sub_sel h) eqn:Es; [|reflexivity]. exfalso. assert (existsb sub_sel hs = true) by (apply existsb_exists; eauto). congruence.
Qed.
Lemma fields_exact E kind hs : (forall h, In h hs -> field_sel h = true -> nfw_ok E (b_static h) (b_state h)) ->
  (forall h, In h hs -> field_sel h = true -> h_kind (b_static h) = kind /\ needs_time kind = false) ->
  precompute_tnfw_field_halos E kind (fun h => String.eqb (b_mdef h) "TNFW") hs = (None, map (warm E field_qs field_sel) hs).
Proof.
  intros Hn Hk. unfold precompute_tnfw_field_halos.
  change (fun h => (b_mdef h =? "TNFW")%string && (negb (is_sub h) && unwarmed h))%bool with field_sel.
  destruct (existsb field_sel hs) eqn:Ex; cbn [negb].
  - assert (L : loops (map (fun m => (field_sel, m)) [b_conc E; b_nfw E; b_field E kind]) hs = (None, map (warm E field_qs field_sel) hs)).
    { apply loops_ok. apply F2_map. intros h Hin. unfold warm. destruct (field_sel h) eqn:Es.
      - rewrite <- (state_id h) at 1. pose proof Es as Es'. unfold field_sel in Es'.
        apply andb_true_iff in Es'. destruct Es' as [Em Es']. apply andb_true_iff in Es'. destruct Es' as [Esub Eu].
        pose proof (unwarmed_none _ Eu) as Ep. destruct (Hk h Hin Es) as [Hk1 Hk2]. specialize (Hn h Hin Es).
        apply steps_seq with (H := b_static h).
        + intros s Hs. unfold field_sel, unwarmed, is_sub, with_state. cbn. rewrite Hs, Ep, Em. unfold is_sub in Esub. rewrite Esub. reflexivity.
        + reflexivity.
        + cbn [good]. pose proof (kp_nfw E (b_static h)). pose proof (kp_conc E (b_static h)). tauto.
        + reflexivity.
        + subst kind. apply field_exact; auto. unfold is_sub in Esub. destruct (h_sub (b_static h)); [discriminate|reflexivity].
      - apply steps_skip. exact Es. }
    exact L.
  - f_equal. rewrite <- (map_id hs) at 1. apply map_ext_in. intros h Hin. unfold warm.
    destruct (field_sel h) eqn:Es; [|reflexivity]. exfalso. assert (existsb field_sel hs = true) by (apply existsb_exists; eauto). congruence.
Qed.

(** queries are part of a history *)
Lemma reads_history E H qs : forall s, reads E H qs s = history E H (map ORead qs) s.
Proof. unfold reads, history. induction qs as [|q t IH]; intros s; [reflexivity|]. cbn [map fold_left act]. apply IH. Qed.
Lemma history_app E H l1 l2 s : history E H (l1 ++ l2) s = history E H l2 (history E H l1 s).
Proof. unfold history. apply fold_left_app. Qed.
Lemma used_reads E h qs : used E h -> used E (with_state h (reads E (b_static h) qs (b_state h))).
Proof.
  intros (x & y & l & Hs). exists x, y, (l ++ map ORead qs). cbn. rewrite Hs, reads_history, history_app. reflexivity.
Qed.
Lemma queried_used E h : queried E h -> used E h.
Proof. intros (x & y & qs & Hs). exists x, y, (map ORead qs). rewrite Hs. apply reads_history. Qed.
Lemma queried_reads E h qs : queried E h -> queried E (with_state h (reads E (b_static h) qs (b_state h))).
Proof. intros (x & y & l & Hs). exists x, y, (l ++ qs). cbn. rewrite Hs. symmetry. apply reads_app. Qed.

Lemma seq_last H l m : forall s s', seq H (l ++ [m]) s = (Ok tt, s') -> exists s0, m H s0 = (Ok tt, s').
Proof.
  induction l as [|a l IH]; intros s s' X.
  - cbn in X. exists s. unfold mbind in X. destruct (m H s) as [[[]|e] s1]; [exact X|discriminate].
  - cbn [app] in X. unfold seq in X. cbn [fold_right] in X. unfold mbind at 1 in X. destruct (a H s) as [[[]|e] s1]; [|discriminate].
    eapply IH. exact X.
Qed.
Ltac last_modify :=
  repeat match goal with
  | X : mbind ?m ?k ?s = (Ok tt, _) |- _ =>
      let Em := fresh "Em" in let a := fresh "a" in let e := fresh "e" in let s1 := fresh "s1" in
      destruct (m s) as [[a|e] s1] eqn:Em; [rewrite (bind_ok _ _ _ _ _ Em) in X|rewrite (bind_err _ _ _ _ _ Em) in X; discriminate]; clear Em
  | X : modify (set_pargs _) _ = (Ok tt, _) |- _ => unfold modify in X; injection X as <-; cbn; discriminate
  | X : (let '(_, _) := ?p in _) _ = _ |- _ => destruct p
  | X : match ?p with _ => _ end _ = _ |- _ => destruct p; try discriminate
  end.
Lemma store_sets E H s s' : b_store E H s = (Ok tt, s') -> s_pargs s' <> None.
Proof. unfold b_store. intros X. cbv zeta in X. last_modify. Qed.
Lemma field_sets E k H s s' : b_field E k H s = (Ok tt, s') -> s_pargs s' <> None.
Proof. unfold b_field. intros X. destruct k; last_modify. Qed.
Lemma sub_pargs E h chost : ages_ok E -> used E h -> is_sub h = true -> unwarmed h = true -> h_kind (b_static h) = KGalacticus chost ->
  s_pargs (reads E (b_static h) sub_qs (b_state h)) <> None.
Proof.
  intros age Hu Hs Hw Hk.
  destruct (seq_last _ _ _ _ _ (sub_exact E (b_static h) age chost (b_state h) Hs Hk (unwarmed_none _ Hw) (used_ok E h Hu) :
     seq _ ([b_infall E; b_time E; b_conc E; b_mbound E (KGalacticus chost)] ++ [b_store E]) _ = _)) as (s0 & X).
  apply (store_sets _ _ _ _ X).
Qed.
Lemma field_pargs E h : used E h -> is_sub h = false -> unwarmed h = true -> needs_time (h_kind (b_static h)) = false ->
  s_pargs (reads E (b_static h) field_qs (b_state h)) <> None.
Proof.
  intros Hu Hs Hw Hk.
  destruct (seq_last _ _ _ _ _ (field_exact E (b_static h) (b_state h) Hs Hk (unwarmed_none _ Hw) (used_ok E h Hu) :
     seq _ ([b_conc E; b_nfw E] ++ [b_field E (h_kind (b_static h))]) _ = _)) as (s0 & X).
  apply (field_sets _ _ _ _ _ X).
Qed.
