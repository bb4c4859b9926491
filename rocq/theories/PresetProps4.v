(** C80, C84: the binned presets, and the line-of-sight halos that accompany imported subhalos. *)
From Verif Require Import Prelude MassFnModel InfallModel PresetModel PresetProofs PresetProps PresetProps2 PresetProps3.
Local Open Scope string_scope.
Local Open Scope R_scope.
Local Open Scope list_scope.

(** * C84: the binned preset *)
(** mass range of a population, as the numbers in its dictionary *)
Definition mass_range (d : dict) (lo hi : R) : Prop := key_is "log_mlow" (VNum lo) d /\ key_is "log_mhigh" (VNum hi) d.
Definition subhalo_amplitude (log10_sigma_sub sigma_sub : val) (s : R) : Prop :=
  (log10_sigma_sub = VNone -> num sigma_sub = Ok s) /\ (log10_sigma_sub <> VNone -> exists x, num log10_sigma_sub = Ok x /\ s = Rpower 10 x).
Theorem C84_binned : forall e pos kw h h' su, CDMBinned e pos kw h = (h', Ok su) ->
  let the k := value_of sig_CDMBinned pos kw k in
  exists s los lo hi, subhalo_amplitude (the "log10_sigma_sub") (the "sigma_sub") s /\ num (the "LOS_normalization") = Ok los /\
    num (the "scale_mass_function_low") = Ok lo /\ num (the "scale_mass_function_high") = Ok hi /\
  exists d1 d2 d3 d4 d5 d6, su_mass_kwargs su = [d1; d2; d3; d4; d5; d6] /\
    su_populations su = ["SUBHALOS"; "SUBHALOS"; "LINE_OF_SIGHT"; "LINE_OF_SIGHT"; "TWO_HALO"; "TWO_HALO"] /\
    (* the two bins join at 10^8 *)
    mass_range d1 6 8 /\ mass_range d2 8 10.7 /\ mass_range d3 6 8 /\ mass_range d4 8 10.7 /\ d5 = d3 /\ d6 = d4 /\
    (* and are scaled separately *)
    key_is "sigma_sub" (VNum (lo * s)) d1 /\ key_is "sigma_sub" (VNum (hi * s)) d2 /\
    key_is "LOS_normalization" (VNum (lo * los)) d3 /\ key_is "LOS_normalization" (VNum (hi * los)) d4 /\
    (* the concentration relation uses the same bins *)
    (the "concentration_model_subhalos" = VStr "BINNED_HALO_MASS" ->
       ob_cls (su_concentration_subhalos su) = KBinned /\
       key_is "log10_mass_bins" (VList [VList [VNum 6; VNum 8]; VList [VNum 8; VNum 10.7]]) (ob_kwargs (su_concentration_subhalos su)) /\
       key_is "scatter_dex" (the "concentration_scatter_dex") (ob_kwargs (su_concentration_subhalos su)) /\
       exists x y, num (the "log10_mc_low") = Ok x /\ num (the "log10_mc_high") = Ok y /\
         key_is "normalization_list" (VList [VNum (Rpower 10 x); VNum (Rpower 10 y)]) (ob_kwargs (su_concentration_subhalos su))).
Proof.
  intros e pos kw h h' su H the. unfold CDMBinned in H. inv_step. inv_step. rename E into A. unfold CDMBinned_body in H. repeat inv_step. subst su the. cbv beta. args_of A nd_CDMBinned.
  match goal with X : (if is_none (value_of _ _ _ "log10_sigma_sub") then _ else _) = Ok ?s |- _ => rename X into AMP; exists s end.
  eexists _, _, _. split; [|split; [eassumption|split; [eassumption|split; [eassumption|]]]].
  - unfold subhalo_amplitude. destruct (is_none _) eqn:Q in AMP.
    + apply is_none_true in Q. split; [intros _; exact AMP|congruence].
    + split; [intros Z; rewrite Z in Q; discriminate|]. intros _. apply bind_ok in AMP as (y & Y & AMP). inversion AMP; eauto.
  - cbn [su_mass_kwargs su_populations su_concentration_subhalos]. eexists _, _, _, _, _, _; split; [reflexivity|].
    do 11 (split; [first [reflexivity|split; reflexivity]|]). intros M. rewrite M in *.
    match goal with X : preset_concentration_models (VStr "BINNED_HALO_MASS") _ = Ok ?p, Y : construct (fst ?p) _ = Ok _ |- _ => cbn in X; inversion X; subst p end.
    match goal with Y : construct (fst (KBinned, _)) _ = Ok ?ob |- context [ob_cls ?ob] => apply construct_Ok in Y as (Y1 & Y2) end. cbn [fst snd] in *.
    split; [exact Y1|]. rewrite Y2. split; [reflexivity|split; [reflexivity|]].
    repeat match goal with X : pow10v _ = Ok _ |- _ => unfold pow10v in X; apply bind_ok in X as (? & ? & X); inversion X; subst; clear X end.
    eexists _, _; split; [eassumption|split; [eassumption|reflexivity]].
Qed.
Example C84_nonvacuous : exists h' su, CDMBinned env0 [VNum 0.5; VNum 2; VNum 0.1] [("scale_mass_function_low", VNum 0.5)] heap0 = (h', Ok su).
Proof. runs. Qed.
(** The SIDM preset with two fixed bins: a minimum mass above 10^8 is rejected; otherwise the cross sections apply to the two bins,
    which join at 10^8 and cover the mass range. *)
Theorem C84_fixedbins : forall e pos kw h,
  let the k := value_of sig_SIDM_parametric_fixedbins pos kw k in
  (forall lo h' su, num (the "log_mlow") = Ok lo -> 8 < lo -> SIDM_parametric_fixedbins e pos kw h <> (h', Ok su)) /\
  (forall h' su, SIDM_parametric_fixedbins e pos kw h = (h', Ok su) ->
     exists lo, num (the "log_mlow") = Ok lo /\ lo <= 8 /\
     In (PCrossSection (VList [VList [the "log_mlow"; VNum 8]; VList [VNum 8; the "log_mhigh"]])
       (VList [the "log10_sigma_eff_mlow_8"; the "log10_sigma_eff_8_mhigh"]) (the "log10_subhalo_time_scaling") (the "evolving_profile") (the "x_core_halo")) (su_post su)).
Proof.
  intros e pos kw h the.
  assert (Q : forall h' su, SIDM_parametric_fixedbins e pos kw h = (h', Ok su) -> exists lo, num (the "log_mlow") = Ok lo /\ lo <= 8).
  { intros h' su H. unfold SIDM_parametric_fixedbins in H. inv_step. inv_step. rename E into A. unfold SIDM_parametric_fixedbins_body in H. inv_step. inv_step. inv_step.
    subst the. cbv beta. args_of A nd_fixed. eexists; split; [eassumption|]. now apply Rltb_false in B. }
  split.
  - intros lo h' su L G H. destruct (Q _ _ H) as (lo' & L' & G'). rewrite L in L'. inversion L'; subst; lra.
  - intros h' su H. destruct (Q _ _ H) as (lo & L & G). exists lo. split; [exact L|split; [exact G|]].
    destruct (C82_SIDM_fixedbins _ _ _ _ _ _ H) as (p & k & C & F & EV & MR & CS).
    destruct (C82_SIDM_parametric _ _ _ _ _ _ C) as (p' & k' & s0 & gc & C' & F' & _ & _ & ->).
    cbn [su_post add_post]. apply in_or_app. right. left. rewrite EV, MR, CS.
    rewrite (F "log10_subhalo_time_scaling"), (F "x_core_halo") by (in_sig || not_in). reflexivity.
Qed.
Example C84_fixedbins_nonvacuous : num (value_of sig_SIDM_parametric_fixedbins [VNum 0.5; VNum 2; VNum 2; VNum 1] [("log_mlow", VNum 9)] "log_mlow") = Ok 9 /\
  exists h' su, SIDM_parametric_fixedbins env0 [VNum 0.5; VNum 2; VNum 2; VNum 1] [("log_mlow", VNum 7)] heap0 = (h', Ok su).
Proof. split; [reflexivity|apply C82_fixedbins_nonvacuous]. Qed.

(** * C80: line-of-sight halos next to imported subhalos *)
(** The amplitude of the subhalo mass function is zero. *)
Definition no_subhalos (su : setup) : Prop :=
  exists d rest, su_mass_kwargs su = d :: rest /\ key_is "sigma_sub" (VNum 0) d /\ no_key "dndA" d.
(** no dictionary carries an amplitude of its own *)
Definition amplitude_free (kw : dict) (h : heap) : Prop :=
  (forall l, no_key "sigma_sub" (h_dict h l) /\ no_key "dndA" (h_dict h l)) /\
  (forall k d, In (k, VLit d) kw -> no_key "sigma_sub" d /\ no_key "dndA" d).

(** An amplitude of zero means that no subhalos are expected. *)
Theorem C80_no_subhalos : forall zlens kpc cone k lo hi a, sk_sigma_sub k = Some 0 ->
  sub_mass_function_args zlens kpc cone k lo hi = Ok a -> snd a = 0.
Proof.
  intros zlens kpc cone k lo hi a S H. unfold sub_mass_function_args in H. rewrite S in H.
  apply bind_ok in H as (norm & N & H). apply bind_ok in H as (p & _ & H). inversion H; subst; cbn. clear H.
  apply bind_ok in N as (host & _ & N). apply bind_ok in N as (k1 & _ & N). apply bind_ok in N as (k2 & _ & N). inversion N. unfold normalization_sigmasub. ring.
Qed.
Example C80_no_subhalos_nonvacuous : exists k a, sk_sigma_sub k = Some 0 /\ sub_mass_function_args 0.5 6 6 k None None = Ok a.
Proof.
  exists {| sk_log_mlow := MNum 6; sk_log_mhigh := MNum 10; sk_power_law_index := - 1.9; sk_delta_power_law_index := 0; sk_m_pivot := 10 ^ 8;
            sk_sigma_sub := Some 0; sk_dndA := None; sk_host_m200 := Some (10 ^ 13); sk_log_m_host := None;
            sk_host_scaling_factor := Some 0.55; sk_redshift_scaling_factor := Some 0.37; sk_draw_poisson := Some true |}.
  eexists; split; reflexivity.
Qed.

Lemma value_nil sg kw k : value_of sg [] kw k = match dget k kw with Some x => x | None => default_of sg k end.
Proof. unfold value_of. now destruct (index_of k (keys sg)). Qed.
Lemma amplitude_zero_CDM e pos kw h h' su : CDM e pos kw h = (h', Ok su) ->
  value_of sig_CDM pos kw "sigma_sub" = VNum 0 -> value_of sig_CDM pos kw "log10_sigma_sub" = VNone -> value_of sig_CDM pos kw "log10_dNdA" = VNone -> no_subhalos su.
Proof.
  intros H S L D. destruct (C67_amplitude_CDM _ _ _ _ _ _ H) as (d & rest & E & _ & _ & A). rewrite S, L, D in A.
  destruct A as (A1 & A2); [reflexivity..|]. exists d, rest. auto.
Qed.
Lemma dict_of_WDM e pos kw h h' su : WDM e pos kw h = (h', Ok su) -> exists d, dict_at h (value_of sig_WDM pos kw "kwargs_mass_function_subhalos") d.
Proof.
  intros H. apply call_args_Ok_WDM in H as (a & A & H). unfold WDM_body in H. do 4 inv_step. args_of A nd_WDM.
  apply infall_step_dict in E. apply contents_at in E0 as [<- C]. apply (dict_at_heap _ _ _ _ E) in C. eauto.
Qed.
Lemma amplitude_zero_WDM e pos kw h h' su : WDM e pos kw h = (h', Ok su) ->
  value_of sig_WDM pos kw "sigma_sub" = VNum 0 -> value_of sig_WDM pos kw "log10_sigma_sub" = VNone -> value_of sig_WDM pos kw "log10_dNdA" = VNone ->
  (forall k, k = "sigma_sub" \/ k = "dndA" -> dget_at h (value_of sig_WDM pos kw "kwargs_mass_function_subhalos") k = None) -> no_subhalos su.
Proof.
  intros H S L D N. destruct (dict_of_WDM _ _ _ _ _ _ H) as (d0 & D0).
  assert (G : forall k, dget k d0 = dget_at h (value_of sig_WDM pos kw "kwargs_mass_function_subhalos") k).
  { intros k. destruct (value_of sig_WDM pos kw "kwargs_mass_function_subhalos"); cbn in *; try contradiction; now subst. }
  destruct (C67_amplitude_WDM _ _ _ _ _ _ d0 H D0) as (d & rest & E & _ & _ & A); [unfold no_key; rewrite G; apply N; tauto..|].
  rewrite S, L, D in A. destruct A as (A1 & A2); [reflexivity..|]. exists d, rest. auto.
Qed.
Lemma no_subhalos_post p su : no_subhalos su -> no_subhalos (add_post p su). Proof. intros H; exact H. Qed.

(** For every preset but ULDM, the realization that accompanies the imported subhalos has no subhalos of its own, unless the caller asks for
    an amplitude in another way. *)
Definition los_kwargs (z_source cone : val) (kwargs_los : dict) : dict :=
  dset "z_source" z_source (dset "z_lens" (VNum 0.5) (dset "cone_opening_angle_arcsec" cone (dset "sigma_sub" (VNum 0) kwargs_los))).
Theorem C80_galacticus_los : forall e name z_source cone kwargs_los h h' su,
  galacticus_los e name z_source cone kwargs_los h = (h', Ok su) -> name <> VStr "ULDM" ->
  no_key "log10_sigma_sub" kwargs_los -> no_key "log10_dNdA" kwargs_los -> amplitude_free kwargs_los h -> no_subhalos su.
Proof.
  intros e name zs cone kl h h' su H NU N1 N2 (FH & FL). unfold galacticus_los in H. fold (los_kwargs zs cone kl) in H. inv_step. inv_step.
  set (kw := los_kwargs zs cone kl) in *.
  assert (S : dget "sigma_sub" kw = Some (VNum 0)).
  { unfold kw, los_kwargs. rewrite !dget_dset_other by discriminate. apply dget_dset_same. }
  assert (L : dget "log10_sigma_sub" kw = None) by (unfold kw, los_kwargs; rewrite !dget_dset_other by discriminate; exact N1).
  assert (D : dget "log10_dNdA" kw = None) by (unfold kw, los_kwargs; rewrite !dget_dset_other by discriminate; exact N2).
  assert (K : forall k d, k = "kwargs_mass_function_subhalos" -> dget k kw = Some (VLit d) -> no_key "sigma_sub" d /\ no_key "dndA" d).
  { intros k d -> Q. unfold kw, los_kwargs in Q. rewrite !dget_dset_other in Q by discriminate. apply dget_In in Q. eapply FL; exact Q. }
  clearbody kw.
  assert (W : forall sg k, (k = "sigma_sub" \/ k = "dndA") -> (forall l, default_of sg "kwargs_mass_function_subhalos" <> VLit l) ->
    dget_at h (value_of sg [] kw "kwargs_mass_function_subhalos") k = None).
  { intros sg k Q ND. rewrite value_nil. destruct (dget "kwargs_mass_function_subhalos" kw) as [v|] eqn:G.
    - destruct v; try reflexivity; cbn; [destruct (FH l) as (F1 & F2)|destruct (K _ d eq_refl G) as (F1 & F2)]; destruct Q; subst; assumption.
    - destruct (default_of sg "kwargs_mass_function_subhalos") eqn:DF; try reflexivity; cbn.
      + destruct (FH l) as (F1 & F2). destruct Q; subst; assumption.
      + exfalso. now apply (ND d). }
  assert (V : forall sg, default_of sg "log10_sigma_sub" = VNone -> default_of sg "log10_dNdA" = VNone ->
    value_of sg [] kw "sigma_sub" = VNum 0 /\ value_of sg [] kw "log10_sigma_sub" = VNone /\ value_of sg [] kw "log10_dNdA" = VNone).
  { intros sg Q1 Q2. rewrite !value_nil, S, L, D. auto. }
  assert (PAR : forall p k, SIDM_parametric e p k h = (h', Ok su) -> value_of sig_SIDM_parametric p k "sigma_sub" = VNum 0 ->
     value_of sig_SIDM_parametric p k "log10_sigma_sub" = VNone -> value_of sig_SIDM_parametric p k "log10_dNdA" = VNone -> no_subhalos su).
  { intros p k X A1 A2 A3. destruct (C82_SIDM_parametric _ _ _ _ _ _ X) as (p' & k' & s0 & gc & C & F & _ & _ & ->). apply no_subhalos_post.
    eapply amplitude_zero_CDM; [exact C|..]; rewrite F by (in_sig || not_in); assumption. }
  destruct x; cbn [call_preset] in H; try discriminate H.
  - destruct (V sig_CDM) as (? & ? & ?); [reflexivity..|]. eapply amplitude_zero_CDM; eassumption.
  - destruct (V sig_WDM) as (? & ? & ?); [reflexivity..|]. eapply amplitude_zero_WDM; try eassumption. intros k Q. apply W; [exact Q|discriminate].
  - destruct (V sig_SIDM_core_collapse) as (A1 & A2 & A3); [reflexivity..|].
    destruct (C82_SIDM_core_collapse _ _ _ _ _ _ H) as (p' & k' & s0 & C & F & ->). apply no_subhalos_post.
    eapply amplitude_zero_CDM; [exact C|..]; rewrite F by (in_sig || not_in); assumption.
  - destruct (V sig_SIDM_parametric) as (A1 & A2 & A3); [reflexivity..|]. eapply PAR; eassumption.
  - destruct (V sig_SIDM_parametric_fixedbins) as (A1 & A2 & A3); [reflexivity..|].
    destruct (C82_SIDM_fixedbins _ _ _ _ _ _ H) as (p' & k' & C & F & _). eapply PAR; [exact C|..]; rewrite F by (in_sig || not_in); assumption.
  - exfalso. apply NU. clear - E. unfold preset_model_from_name in E.
    destruct name; try discriminate E. destruct (proj1 (C66_presets s VNone FULDM) E) as [I|(_ & I)]; [|discriminate]. cbn in I.
    repeat (destruct I as [I|I]; [inversion I; reflexivity|]); destruct I.
  - destruct (V sig_WDM_mixed) as (A1 & A2 & A3); [reflexivity..|].
    destruct (C82_WDM_mixed _ _ _ _ _ _ H) as (p' & k' & h1 & C & F & _ & R).
    eapply amplitude_zero_WDM; [exact C|..]; try (rewrite F by (in_sig || not_in); assumption || reflexivity).
    intros k Q. rewrite F by (in_sig || not_in). cbn [mem]. change (if mem "kwargs_mass_function_subhalos" (keys sig_WDM_mixed) then _ else _) with (value_of sig_WDM_mixed [] kw "kwargs_mass_function_subhalos").
    rewrite R by (destruct Q; subst; not_in). apply W; [exact Q|discriminate].
  - destruct (V sig_WDMGeneral) as (A1 & A2 & A3); [reflexivity..|].
    destruct (C67_amplitude_WDMGeneral _ _ _ _ _ _ H) as (d & rest & E1 & _ & _ & A). rewrite A1, A2, A3 in A. destruct A; [reflexivity..|]. exists d, rest; auto.
  - destruct (V sig_CDM_plus_BH) as (A1 & A2 & A3); [reflexivity..|].
    destruct (C82_CDM_plus_BH _ _ _ _ _ _ H) as (p' & k' & s0 & gc & f & C & F & _ & _ & ->). apply no_subhalos_post.
    eapply amplitude_zero_CDM; [exact C|..]; rewrite F by (in_sig || not_in); assumption || reflexivity.
Qed.
Example C80_galacticus_los_nonvacuous : exists h' su, galacticus_los env0 (VStr "WDM") (VNum 2) (VNum 6) [("log_mc", VNum 8); ("sigma_sub", VNum 0.1)] heap0 = (h', Ok su) /\
  no_subhalos su.
Proof.
  assert (X : exists h' su, galacticus_los env0 (VStr "WDM") (VNum 2) (VNum 6) [("log_mc", VNum 8); ("sigma_sub", VNum 0.1)] heap0 = (h', Ok su)) by runs.
  destruct X as (h' & su & X). exists h', su; split; [exact X|]. eapply C80_galacticus_los; [exact X|discriminate|reflexivity|reflexivity|].
  split; [intros l; split; reflexivity|]. intros k d [Q|[Q|[]]]; discriminate Q.
Qed.
(** With ULDM halos along the line of sight the zero is overridden by the default of log10_sigma_sub: subhalos are added twice. *)
Theorem C80_ULDM_refuted : forall e z_source cone kwargs_los h h' su,
  galacticus_los e (VStr "ULDM") z_source cone kwargs_los h = (h', Ok su) ->
  no_key "log10_sigma_sub" kwargs_los -> no_key "log10_dNdA" kwargs_los -> amplitude_free kwargs_los h ->
  exists d rest, su_mass_kwargs su = d :: rest /\ key_is "sigma_sub" (VNum (Rpower 10 (- 1))) d /\ ~ no_subhalos su.
Proof.
  intros e zs cone kl h h' su H N1 N2 (FH & FL). unfold galacticus_los in H. fold (los_kwargs zs cone kl) in H. inv_step. inv_step. cbn in E. inversion E; subst x; clear E.
  set (kw := los_kwargs zs cone kl) in *. cbn [call_preset] in H.
  assert (L : dget "log10_sigma_sub" kw = None) by (unfold kw, los_kwargs; rewrite !dget_dset_other by discriminate; exact N1).
  assert (D : dget "log10_dNdA" kw = None) by (unfold kw, los_kwargs; rewrite !dget_dset_other by discriminate; exact N2).
  assert (K : forall d, dget "kwargs_mass_function_subhalos" kw = Some (VLit d) -> no_key "sigma_sub" d /\ no_key "dndA" d).
  { intros d Q. unfold kw, los_kwargs in Q. rewrite !dget_dset_other in Q by discriminate. apply dget_In in Q. eapply FL; exact Q. }
  clearbody kw. destruct (C82_ULDM _ _ _ _ _ _ H) as (p' & k' & s0 & m & lo & C & F & _ & _ & _ & _ & _ & _ & _ & ->).
  destruct (dict_of_WDM _ _ _ _ _ _ C) as (d0 & D0).
  assert (Z : no_key "sigma_sub" d0 /\ no_key "dndA" d0).
  { rewrite F in D0 by (in_sig || not_in). change (dict_at h (value_of sig_ULDM [] kw "kwargs_mass_function_subhalos") d0) in D0. rewrite value_nil in D0.
    destruct (dget "kwargs_mass_function_subhalos" kw) as [v|] eqn:G.
    - destruct v; cbn in D0; try contradiction; subst; auto.
    - cbn in D0; subst. apply FH. }
  destruct Z as (Z1 & Z2). destruct (C67_amplitude_WDM _ _ _ _ _ _ d0 C D0 Z1 Z2) as (d & rest & E & _ & A & _).
  assert (V1 : value_of sig_WDM p' k' "log10_dNdA" = VNone).
  { rewrite F by (in_sig || not_in). change (value_of sig_ULDM [] kw "log10_dNdA" = VNone). now rewrite value_nil, D. }
  assert (V2 : value_of sig_WDM p' k' "log10_sigma_sub" = VNum (- 1)).
  { rewrite F by (in_sig || not_in). change (value_of sig_ULDM [] kw "log10_sigma_sub" = VNum (- 1)). now rewrite value_nil, L. }
  rewrite V1, V2 in A.
  destruct A as (x & Nx & Kx & _); [reflexivity|discriminate|]. cbn in Nx. inversion Nx; subst x.
  exists d, rest. split; [exact E|split; [exact Kx|]]. intros (d' & rest' & E' & Z & _). cbn [su_mass_kwargs add_post] in E'. rewrite E in E'. inversion E'; subst d'.
  unfold key_is in *. rewrite Kx in Z. inversion Z as [Q]. unfold Rpower in Q. pose proof (exp_pos (- 1 * ln 10)). lra.
Qed.
Example C80_ULDM_nonvacuous : exists h' su, galacticus_los env0 (VStr "ULDM") (VNum 2) (VNum 6) [("log10_m_uldm", VNum (- 21)); ("flucs", VBool false)] heap0 = (h', Ok su).
Proof. runs. Qed.
(** The line-of-sight halos that accompany emulated subhalos are not stripped of subhalos at all. *)
Theorem C80_emulator_refuted : forall e z_lens z_source kw h h' su,
  emulator_los e (VStr "CDM") z_lens z_source kw h = (h', Ok su) -> no_key "sigma_sub" kw -> no_key "log10_sigma_sub" kw -> no_key "log10_dNdA" kw ->
  exists d rest, su_mass_kwargs su = d :: rest /\ key_is "sigma_sub" (VNum 0.025) d /\ ~ no_subhalos su.
Proof.
  intros e zl zs kw h h' su H N1 N2 N3. unfold emulator_los in H. inv_step. inv_step. cbn in E. inversion E; subst x; clear E. cbn [call_preset] in H.
  destruct (C67_amplitude_CDM _ _ _ _ _ _ H) as (d & rest & E & _ & _ & A).
  assert (X : forall k, ~ In k ["z_lens"; "z_source"] -> value_of sig_CDM [zl; zs] kw k = match dget k kw with Some x => x | None => default_of sig_CDM k end).
  { intros k N. unfold value_of. replace (nth_error [zl; zs] (index_of k (keys sig_CDM))) with (@None val); [reflexivity|].
    symmetry. apply nth_error_None. cbn [keys sig_CDM map fst req opt index_of].
    destruct (String.eqb "z_lens" k) eqn:Q1; [apply String.eqb_eq in Q1; subst; exfalso; apply N; cbn; tauto|].
    destruct (String.eqb "z_source" k) eqn:Q2; [apply String.eqb_eq in Q2; subst; exfalso; apply N; cbn; tauto|]. cbn [List.length]. lia. }
  rewrite !X in A by not_in. rewrite N1, N2, N3 in A. destruct A as (A1 & A2); [reflexivity..|].
  exists d, rest. split; [exact E|split; [exact A1|]]. intros (d' & rest' & E' & Z & _). rewrite E in E'. inversion E'; subst d'.
  unfold key_is in *. rewrite A1 in Z. inversion Z as [Q]. lra.
Qed.
Example C80_emulator_nonvacuous : exists h' su, emulator_los env0 (VStr "CDM") (VNum 0.5) (VNum 2) [("LOS_normalization", VNum 1)] heap0 = (h', Ok su).
Proof. runs. Qed.

Print Assumptions C84_binned.
Print Assumptions C84_fixedbins.
Print Assumptions C80_no_subhalos.
Print Assumptions C80_galacticus_los.
Print Assumptions C80_ULDM_refuted.
Print Assumptions C80_emulator_refuted.
