(** C82, C83: the presets that build on CDM and WDM; the shape of the populations. *)
From Verif Require Import Prelude MassFnModel InfallModel PresetModel PresetProofs PresetProps PresetProps2.
Local Open Scope string_scope.
Local Open Scope R_scope.
Local Open Scope list_scope.

(** * C82: presets that call another preset *)
(** The call (pos, kw) of a function with signature [sg] is carried out by the call (pos', kw') of a function with signature [sg'] which
    sees every argument of the same name, except those in [own], and otherwise the defaults of [sg']. *)
Definition forwarded (sg sg' : signature) (own : list string) (pos : list val) (kw : dict) (pos' : list val) (kw' : dict) : Prop :=
  forall k, In k (keys sg') -> ~ In k own ->
    value_of sg' pos' kw' k = if mem k (keys sg) then value_of sg pos kw k else default_of sg' k.
(** two set-ups that differ at most in the post-processing, which is extended by [p] *)
Definition same_but_post (p : list post) (s0 s : setup) : Prop := s = add_post p s0.

Lemma nd_core : NoDup (keys sig_SIDM_core_collapse). Proof. apply nodupb_NoDup; reflexivity. Qed.
Lemma nd_par : NoDup (keys sig_SIDM_parametric). Proof. apply nodupb_NoDup; reflexivity. Qed.
Lemma nd_fixed : NoDup (keys sig_SIDM_parametric_fixedbins). Proof. apply nodupb_NoDup; reflexivity. Qed.
Lemma nd_BH : NoDup (keys sig_CDM_plus_BH). Proof. apply nodupb_NoDup; reflexivity. Qed.
Lemma nd_mixed : NoDup (keys sig_WDM_mixed). Proof. apply nodupb_NoDup; reflexivity. Qed.
Lemma post_gc_spec f k h h' g : post_gc f k h = (h', Ok g) -> h' = h /\ g = if truthy f then [PGlobularClusters k] else [].
Proof.
  unfold post_gc. destruct (truthy f); intros H; repeat inv_step; [|auto].
  match goal with X : contents _ _ = _ |- _ => apply contents_get in X as (<- & _) end. auto.
Qed.
Ltac forward A nd :=
  let k := fresh "k" in let I := fresh "I" in let N := fresh "N" in
  intros k I N; cbn in I;
  repeat (destruct I as [<-|I]; [first [exfalso; apply N; cbn; tauto | cbn; rewrite ?(call_args_value _ _ _ _ _ _ A nd) by in_sig; reflexivity]|]); destruct I.

Theorem C82_SIDM_core_collapse : forall e pos kw h h' su,
  SIDM_core_collapse e pos kw h = (h', Ok su) ->
  let the k := value_of sig_SIDM_core_collapse pos kw k in
  exists pos' kw' su0, CDM e pos' kw' h = (h', Ok su0) /\ forwarded sig_SIDM_core_collapse sig_CDM [] pos kw pos' kw' /\
    same_but_post [PCoreCollapse (the "mass_ranges_subhalos") (the "mass_ranges_field_halos") (the "probabilities_subhalos")
      (the "probabilities_field_halos") (the "collapsed_halo_profile") (filter (fun p => negb (mem (fst p) (keys sig_SIDM_core_collapse))) kw)] su0 su.
Proof.
  intros e pos kw h h' su H the. unfold SIDM_core_collapse in H. inv_step. inv_step. rename E into A. unfold SIDM_core_collapse_body in H. repeat inv_step.
  eexists _, _, _; split; [exact E|split].
  - forward A nd_core.
  - subst su the. unfold same_but_post. cbv beta. args_of A nd_core. reflexivity.
Qed.
Theorem C82_SIDM_parametric : forall e pos kw h h' su,
  SIDM_parametric e pos kw h = (h', Ok su) ->
  let the k := value_of sig_SIDM_parametric pos kw k in
  exists pos' kw' su0 gc, CDM e pos' kw' h = (h', Ok su0) /\
    forwarded sig_SIDM_parametric sig_CDM ["add_globular_clusters"; "kwargs_globular_clusters"] pos kw pos' kw' /\
    gc = (if truthy (the "add_globular_clusters") then [PGlobularClusters (the "kwargs_globular_clusters")] else []) /\
    value_of sig_CDM pos' kw' "add_globular_clusters" = VBool false /\
    same_but_post (PCrossSection (the "log10_mass_ranges") (the "log10_effective_cross_section_list") (the "log10_subhalo_time_scaling")
      (the "evolving_SIDM_profile") (the "x_core_halo") :: gc) su0 su.
Proof.
  intros e pos kw h h' su H the. unfold SIDM_parametric in H. inv_step. inv_step. rename E into A. unfold SIDM_parametric_body in H. repeat inv_step.
  match goal with X : post_gc _ _ _ = _ |- _ => apply post_gc_spec in X as (-> & ->) end. eexists _, _, _, _; split; [exact E|split; [|split; [reflexivity|split; [reflexivity|]]]].
  - forward A nd_par.
  - subst su the. unfold same_but_post. cbv beta. args_of A nd_par. reflexivity.
Qed.
(** fixed bins: SIDM_parametric with two mass ranges, split at 10^8 *)
Theorem C82_SIDM_fixedbins : forall e pos kw h h' su,
  SIDM_parametric_fixedbins e pos kw h = (h', Ok su) ->
  let the k := value_of sig_SIDM_parametric_fixedbins pos kw k in
  exists pos' kw', SIDM_parametric e pos' kw' h = (h', Ok su) /\
    forwarded sig_SIDM_parametric_fixedbins sig_SIDM_parametric ["log10_mass_ranges"; "log10_effective_cross_section_list"; "evolving_SIDM_profile"] pos kw pos' kw' /\
    value_of sig_SIDM_parametric pos' kw' "evolving_SIDM_profile" = the "evolving_profile" /\
    value_of sig_SIDM_parametric pos' kw' "log10_mass_ranges" = VList [VList [the "log_mlow"; VNum 8]; VList [VNum 8; the "log_mhigh"]] /\
    value_of sig_SIDM_parametric pos' kw' "log10_effective_cross_section_list" = VList [the "log10_sigma_eff_mlow_8"; the "log10_sigma_eff_8_mhigh"].
Proof.
  intros e pos kw h h' su H the. unfold SIDM_parametric_fixedbins in H. inv_step. inv_step. rename E into A. unfold SIDM_parametric_fixedbins_body in H. do 2 inv_step. cbv beta in H. inv_step.
  eexists _, _; split; [exact H|split]; [forward A nd_fixed|]. subst the. cbn. rewrite ?(call_args_value _ _ _ _ _ _ A nd_fixed) by in_sig. auto.
Qed.
Theorem C82_CDM_plus_BH : forall e pos kw h h' su,
  CDM_plus_BH e pos kw h = (h', Ok su) ->
  let the k := value_of sig_CDM_plus_BH pos kw k in
  exists pos' kw' su0 gc f, CDM e pos' kw' h = (h', Ok su0) /\
    forwarded sig_CDM_plus_BH sig_CDM ["add_globular_clusters"; "kwargs_globular_clusters"] pos kw pos' kw' /\
    num (the "log10_occupation_frac") = Ok f /\
    gc = (if truthy (the "add_globular_clusters") then [PGlobularClusters (the "kwargs_globular_clusters")] else []) /\
    same_but_post (PBlackHoles (the "log10_mass_ratio") (VNum (Rpower 10 f)) (the "log10_mlow_halos_subres") (the "log10_min_mbh") (the "log_mlow")
      (the "log10_mass_maximum") (the "LOS_normalization") :: gc) su0 su.
Proof.
  intros e pos kw h h' su H the. unfold CDM_plus_BH in H. inv_step. inv_step. rename E into A. unfold CDM_plus_BH_body in H. repeat inv_step.
  match goal with X : pow10v _ = Ok _ |- _ => unfold pow10v in X; apply bind_ok in X as (f & Hf & X); inversion X; subst x1; clear X end.
  match goal with X : post_gc _ _ _ = _ |- _ => apply post_gc_spec in X as (-> & ->) end. eexists _, _, _, _, f; split; [exact E|split; [|split; [|split; [reflexivity|]]]].
  - forward A nd_BH.
  - subst the. cbv beta. args_of A nd_BH. exact Hf.
  - subst su the. unfold same_but_post. cbv beta. args_of A nd_BH. reflexivity.
Qed.
Lemma set_default_spec v k x h h' u : set_default v k x h = (h', Ok u) ->
  (exists l, v = VRef l) /\ (forall w k', k' <> k -> dget_at h' w k' = dget_at h w k') /\
  dget_at h' v k = (match dget_at h v k with Some y => Some y | None => Some x end) /\
  (forall w, w <> v -> dget_at h' w k = dget_at h w k).
Proof.
  destruct v; cbn; try discriminate. unfold has. destruct (dget k (h_dict h l)) eqn:E; intros [= <- _].
  - split; [eauto|split; [reflexivity|split; [exact E|reflexivity]]].
  - split; [eauto|split; [|split]].
    + intros w k' N. destruct w; try reflexivity. cbn. destruct (Nat.eqb l0 l) eqn:Q; [|reflexivity]. apply Nat.eqb_eq in Q; subst. now apply dget_dset_other.
    + cbn. rewrite Nat.eqb_refl. apply dget_dset_same.
    + intros w N. destruct w; try reflexivity. cbn in *. destruct (Nat.eqb l0 l) eqn:Q; [|reflexivity]. apply Nat.eqb_eq in Q; subst. congruence.
Qed.
(** two default values written one after the other into two dictionaries, which may be the same one *)
Lemma set_default2 v1 v2 k x h h1 h2 u1 u2 : set_default v1 k x h = (h1, Ok u1) -> set_default v2 k x h1 = (h2, Ok u2) ->
  (forall w k', k' <> k -> dget_at h2 w k' = dget_at h w k') /\
  (forall w, w = v1 \/ w = v2 -> dget_at h2 w k = match dget_at h w k with Some y => Some y | None => Some x end).
Proof.
  intros S1 S2. apply set_default_spec in S1 as ((l1 & ->) & A1 & A2 & A3). apply set_default_spec in S2 as ((l2 & ->) & B1 & B2 & B3). split.
  - intros w k' N. now rewrite B1, A1.
  - destruct (Nat.eq_dec l1 l2) as [->|N].
    + intros w W. assert (w = VRef l2) as -> by tauto. rewrite B2, A2. now destruct (dget_at h (VRef l2) k).
    + intros w [->| ->]; [rewrite B3 by congruence; exact A2|]. rewrite B2, A3 by congruence. reflexivity.
Qed.

(** mixed dark matter: WDM, with missing parameters of the suppression set to a = 0.5, b = 0.8, c = -3 and the mixed fraction added in
    the two dictionaries of the mass functions *)
Definition mixed_defaults : dict := [("a_wdm", VNum 0.5); ("b_wdm", VNum 0.8); ("c_wdm", VNum (- 3))].
Theorem C82_WDM_mixed : forall e pos kw h h' su,
  WDM_mixed e pos kw h = (h', Ok su) ->
  let the k := value_of sig_WDM_mixed pos kw k in
  exists pos' kw' h1, WDM e pos' kw' h1 = (h', Ok su) /\ forwarded sig_WDM_mixed sig_WDM [] pos kw pos' kw' /\
    (forall w, w = the "kwargs_mass_function_subhalos" \/ w = the "kwargs_mass_function_fieldhalos" ->
       dget_at h1 w "mixed_DM_frac" = Some (the "mixed_DM_frac") /\
       forall k x, In (k, x) mixed_defaults -> dget_at h1 w k = match dget_at h w k with Some y => Some y | None => Some x end) /\
    (forall w k, ~ In k ("mixed_DM_frac" :: keys mixed_defaults) -> dget_at h1 w k = dget_at h w k).
Proof.
  intros e pos kw h h' su H the. unfold WDM_mixed in H. inv_step. inv_step. rename E into A. unfold WDM_mixed_body in H. cbv zeta in H. do 8 inv_step.
  pose proof (set_default2 _ _ _ _ _ _ _ _ _ E E0) as (A1 & A2). pose proof (set_default2 _ _ _ _ _ _ _ _ _ E1 E2) as (B1 & B2).
  pose proof (set_default2 _ _ _ _ _ _ _ _ _ E3 E4) as (C1 & C2).
  eexists _, _, _; split; [exact H|split; [forward A nd_mixed|]]. subst the. cbv beta. args_of A nd_mixed.
  pose proof (set_item_other _ _ _ _ _ _ E5) as D1. pose proof (set_item_other _ _ _ _ _ _ E6) as D2. split.
  - intros w W. split.
    + destruct W as [->| ->]; back.
    + intros k y I. cbn in I.
      destruct I as [I|[I|[I|[]]]]; inversion I; subst; rewrite D2, D1 by discriminate.
      * rewrite C1, B1 by discriminate. now apply A2.
      * rewrite C1 by discriminate. rewrite B2 by exact W. rewrite A1 by discriminate. reflexivity.
      * rewrite C2 by exact W. rewrite B1, A1 by discriminate. reflexivity.
  - intros w k N. assert (k <> "mixed_DM_frac") by notin_neq. assert (k <> "a_wdm") by notin_neq. assert (k <> "b_wdm") by notin_neq. assert (k <> "c_wdm") by notin_neq.
    rewrite D2, D1, C1, B1, A1 by assumption. reflexivity.
Qed.

(** ultra-light dark matter: WDM with the half-mode mass of the particle mass, a minimum halo mass and the soliton profile *)
Theorem C82_ULDM : forall e pos kw h h' su,
  ULDM e pos kw h = (h', Ok su) ->
  let the k := value_of sig_ULDM pos kw k in
  exists pos' kw' su0 m lo, WDM e pos' kw' h = (h', Ok su0) /\
    forwarded sig_ULDM sig_WDM ["log_mc"; "log_mlow"; "mdef_subhalos"; "mdef_field_halos"; "kwargs_density_profile"] pos kw pos' kw' /\
    num (the "log10_m_uldm") = Ok m /\ num (the "log_mlow") = Ok lo /\
    value_of sig_WDM pos' kw' "log_mc" = VNum (log10 (1.6 * 10 ^ 10 * Rpower (Rpower 10 (m + 22)) (- (4 / 3)))) /\
    value_of sig_WDM pos' kw' "log_mlow" = VNum (pe_min_halo_mass e m (VAstropy (the "kwargs_cosmo")) lo) /\
    value_of sig_WDM pos' kw' "mdef_subhalos" = the "mdef_halos" /\ value_of sig_WDM pos' kw' "mdef_field_halos" = the "mdef_halos" /\
    value_of sig_WDM pos' kw' "kwargs_density_profile" = VLit [("log10_m_uldm", the "log10_m_uldm"); ("scale_nfw", VBool true); ("uldm_plaw", the "uldm_plaw")] /\
    same_but_post (if truthy (the "flucs") then [PFluctuations (the "flucs_shape") (the "flucs_args")] else []) su0 su.
Proof.
  intros e pos kw h h' su H the. unfold ULDM in H. inv_step. inv_step. rename E into A. unfold ULDM_body in H. repeat inv_step.
  assert (G : h2 = h' /\ same_but_post (if truthy (arg x "flucs") then [PFluctuations (arg x "flucs_shape") (arg x "flucs_args")] else []) x2 su).
  { destruct (truthy (arg x "flucs")); repeat inv_step.
    - assert (h0 = h2) by (match goal with X : is_empty_dict ?v _ = _ |- _ => destruct v; cbn in X; now inversion X end). subst h0.
      subst. split; reflexivity.
    - subst. split; [reflexivity|]. unfold same_but_post, add_post. destruct su; cbn. now rewrite app_nil_r. }
  destruct G as (-> & G). match goal with X : WDM e _ _ _ = _ |- _ => eexists _, _, _, _, _; split; [exact X|split; [forward A nd_ULDM|]] end.
  subst the. cbv beta. args_of A nd_ULDM. split; [eassumption|split; [eassumption|]].
  cbn [value_of]. cbn. rewrite ?(call_args_value _ _ _ _ _ _ A nd_ULDM) by in_sig. repeat split. exact G.
Qed.
Example C82_nonvacuous :
  (exists h' su, SIDM_core_collapse env0 [VNum 0.5; VNum 2; VList []; VList []; VList []; VList []] [("sigma_sub", VNum 0.1); ("x_match", VNum 3)] heap0 = (h', Ok su)) /\
  (exists h' su, SIDM_parametric env0 [VNum 0.5; VNum 2; VList []; VList []] [("sigma_sub", VNum 0.1)] heap0 = (h', Ok su)) /\
  (exists h' su, CDM_plus_BH env0 [VNum 0.5; VNum 2; VNum (- 5); VNum (- 1)] [("sigma_sub", VNum 0.1)] heap0 = (h', Ok su)) /\
  (exists h' su, WDM_mixed env0 [VNum 0.5; VNum 2; VNum 8; VNum 0.5] [("sigma_sub", VNum 0.1)] heap0 = (h', Ok su)) /\
  (exists h' su, ULDM env0 [VNum 0.5; VNum 2; VNum (- 21)] [("flucs", VBool false)] heap0 = (h', Ok su)).
Proof. repeat split; runs. Qed.
Example C82_fixedbins_nonvacuous : exists h' su, SIDM_parametric_fixedbins env0 [VNum 0.5; VNum 2; VNum 2; VNum 1] [("log_mlow", VNum 7)] heap0 = (h', Ok su).
Proof.
  unfold SIDM_parametric_fixedbins. 
  eexists _, _. unfold bindM at 1. 
  replace (lift (call_args sig_SIDM_parametric_fixedbins false [VNum 0.5; VNum 2; VNum 2; VNum 1] [("log_mlow", VNum 7)]) heap0)
    with (heap0, call_args sig_SIDM_parametric_fixedbins false [VNum 0.5; VNum 2; VNum 2; VNum 1] [("log_mlow", VNum 7)]) by reflexivity.
  cbn [call_args orb forallb keys map]. 
  run. rewrite (proj2 (Rltb_false 8 7)) by lra. reflexivity.
Qed.

(** * C83: the shape of the populations *)
(** one population: its name, its mass-function arguments, its spatial distribution and the arguments of that *)
Definition population_ok (cone geometry log_mlow log_mhigh : val) (p : string) (d : dict) (c : cls) (sk : dict) : Prop :=
  key_is "log_mlow" log_mlow d /\ key_is "log_mhigh" log_mhigh d /\
  (p = "SUBHALOS" -> (c = SUniform \/ c = SProjectedNFW) /\ exists x, num cone = Ok x /\ key_is "rmax2d_arcsec" (VNum (x / 2)) sk) /\
  (p = "LINE_OF_SIGHT" \/ p = "TWO_HALO" -> c = SLensConeUniform /\ key_is "cone_opening_angle" cone sk /\ key_is "geometry" geometry sk).
(** the lists handed to the renderer fit together; every population is rendered in the volume and the mass range asked for *)
Definition populations_ok (z_lens z_source kwargs_cosmo cone geometry_type log_mlow log_mhigh : val) (su : setup) : Prop :=
  su_geometry su = VGeometry z_lens z_source kwargs_cosmo cone geometry_type /\
  List.length (su_mass_functions su) = List.length (su_populations su) /\ List.length (su_mass_kwargs su) = List.length (su_populations su) /\
  (List.length (su_populations su) <= List.length (su_spatial su))%nat /\ List.length (su_spatial_kwargs su) = List.length (su_spatial su) /\
  (forall i p d c sk, nth_error (su_populations su) i = Some p -> nth_error (su_mass_kwargs su) i = Some d ->
     nth_error (su_spatial su) i = Some c -> nth_error (su_spatial_kwargs su) i = Some sk ->
     population_ok cone (su_geometry su) log_mlow log_mhigh p d c sk) /\
  (forall p, In p (su_populations su) -> p = "SUBHALOS" \/ p = "LINE_OF_SIGHT" \/ p = "TWO_HALO").
Lemma subhalo_spatial_ok name cone lm z c rt lc g sp : subhalo_spatial name cone lm z c rt lc g = Ok sp ->
  (fst sp = SUniform \/ fst sp = SProjectedNFW) /\ exists x, num cone = Ok x /\ key_is "rmax2d_arcsec" (VNum (x / 2)) (snd sp).
Proof.
  unfold subhalo_spatial. intros H. destruct (is_str name "UNIFORM").
  - apply bind_ok in H as (x & Hx & H). inversion H; subst. split; [now left|]. exists x; split; [exact Hx|reflexivity].
  - destruct (is_str name "PROJECTED_NFW"); [|discriminate]. apply bind_ok in H as (m & _ & H). apply bind_ok in H as (x & Hx & H). inversion H; subst.
    split; [now right|]. exists x; split; [exact Hx|reflexivity].
Qed.
Ltac pops_done S1 S2 K0 :=
  unfold population_ok; split; [|split; [|split; [intros Q; first [discriminate Q|split; [exact S1|exact S2]]|
    intros Q; first [exfalso; destruct Q; discriminate|repeat split]]]];
  first [reflexivity | destruct K0; subst; reflexivity | idtac].
Theorem C83_CDM : forall e pos kw h h' su, CDM e pos kw h = (h', Ok su) ->
  let the k := value_of sig_CDM pos kw k in
  populations_ok (the "z_lens") (the "z_source") (the "kwargs_cosmo") (the "cone_opening_angle_arcsec") (the "geometry_type") (the "log_mlow") (the "log_mhigh") su /\
  su_populations su = ["SUBHALOS"; "LINE_OF_SIGHT"] ++ (if truthy (the "two_halo_contribution") then ["TWO_HALO"] else []).
Proof.
  intros e pos kw h h' su H the. apply call_args_Ok_CDM in H as (a & A & H). unfold CDM_body in H. repeat inv_step. subst su the. cbv beta. args_of A nd_CDM.
  match goal with X : subhalo_spatial _ _ _ _ _ _ _ _ = Ok _ |- _ => apply subhalo_spatial_ok in X as (S1 & S2) end.
  match goal with X : amplitude _ _ _ _ = Ok _ |- _ => apply amplitude_form in X as (k0 & v0 & K0 & ->) end.
  split; [|reflexivity]. unfold populations_ok. cbn [su_geometry su_populations su_mass_functions su_mass_kwargs su_spatial su_spatial_kwargs].
  destruct (truthy (value_of sig_CDM pos kw "two_halo_contribution")); cbn [app]; (split; [reflexivity|]); (split; [reflexivity|]); (split; [reflexivity|]);
    (split; [cbn; lia|]); (split; [reflexivity|]); (split; [|cbn; intros p; intuition]).
  all: intros i p d c sk; destruct i as [|[|[|i]]]; cbn; intros [= <-] [= <-] [= <-] [= <-] || (intros HH; destruct i; discriminate HH).
  all: pops_done S1 S2 K0.
Qed.
Lemma Some_inj A (x y : A) : Some x = Some y -> x = y. Proof. now intros [= ->]. Qed.
Ltac somes := do 4 (let Q := fresh in intros Q; apply Some_inj in Q; rewrite <- Q; clear Q).
Lemma updated_key k v d base k0 v0 : NoDup (keys base) -> (k0 = "dndA" \/ k0 = "sigma_sub") -> k <> k0 -> dget k base = Some v -> key_is k v (dupdate d (dset k0 v0 base)).
Proof. intros N K E G. unfold key_is. apply dget_dupdate_in; [now apply NoDup_dset|]. now rewrite dget_dset_other. Qed.
Ltac pops_done_w S1 S2 K0 :=
  unfold population_ok; split; [|split; [|split; [intros Q; first [discriminate Q|split; [exact S1|exact S2]]|
    intros Q; first [exfalso; destruct Q; discriminate|repeat split]]]];
  first [reflexivity
        |apply updated_key; [apply nodupb_NoDup; reflexivity|exact K0|intros <-; destruct K0; discriminate|reflexivity]
        |apply dget_dupdate_in; [apply nodupb_NoDup; reflexivity|reflexivity]].
Theorem C83_WDM : forall e pos kw h h' su, WDM e pos kw h = (h', Ok su) ->
  let the k := value_of sig_WDM pos kw k in
  populations_ok (the "z_lens") (the "z_source") (the "kwargs_cosmo") (the "cone_opening_angle_arcsec") (the "geometry_type") (the "log_mlow") (the "log_mhigh") su /\
  (the "two_halo_contribution" = VBool true -> su_populations su = ["SUBHALOS"; "LINE_OF_SIGHT"; "TWO_HALO"]) /\
  (the "two_halo_contribution" = VBool false -> su_populations su = ["SUBHALOS"; "LINE_OF_SIGHT"]).
Proof.
  intros e pos kw h h' su H the. apply call_args_Ok_WDM in H as (a & A & H). unfold WDM_body in H. repeat inv_step. subst su the. cbv beta. args_of A nd_WDM.
  match goal with X : subhalo_spatial _ _ _ _ _ _ _ _ = Ok _ |- _ => apply subhalo_spatial_ok in X as (S1 & S2) end.
  match goal with X : amplitude _ _ _ _ = Ok _ |- _ => apply amplitude_form in X as (k0 & v0 & K0 & ->) end.
  split; [|split; intros ->; reflexivity].
  unfold populations_ok. cbn [su_geometry su_populations su_mass_functions su_mass_kwargs su_spatial su_spatial_kwargs].
  destruct (is_true (value_of sig_WDM pos kw "two_halo_contribution")); cbn [app]; (split; [reflexivity|]); (split; [reflexivity|]); (split; [reflexivity|]);
    (split; [cbn; lia|]); (split; [reflexivity|]); (split; [|cbn; intros p; intuition]).
  all: intros i p d c sk; destruct i as [|[|[|i]]]; cbn [nth_error]; somes || (intros HH; destruct i; discriminate HH) || (intros HH; discriminate HH).
  all: pops_done_w S1 S2 K0.
Qed.
Theorem C83_WDMGeneral : forall e pos kw h h' su, WDMGeneral e pos kw h = (h', Ok su) ->
  let the k := value_of sig_WDMGeneral pos kw k in
  populations_ok (the "z_lens") (the "z_source") (the "kwargs_cosmo") (the "cone_opening_angle_arcsec") (the "geometry_type") (the "log_mlow") (the "log_mhigh") su /\
  su_populations su = ["SUBHALOS"; "LINE_OF_SIGHT"; "TWO_HALO"].
Proof.
  intros e pos kw h h' su H the. unfold WDMGeneral in H. inv_step. inv_step. rename E into A. unfold WDMGeneral_body in H. repeat inv_step. subst su the. cbv beta. args_of A nd_WDMGeneral.
  match goal with X : subhalo_spatial _ _ _ _ _ _ _ _ = Ok _ |- _ => apply subhalo_spatial_ok in X as (S1 & S2) end.
  match goal with X : amplitude _ _ _ _ = Ok _ |- _ => apply amplitude_form in X as (k0 & v0 & K0 & ->) end.
  split; [|reflexivity].
  unfold populations_ok. cbn [su_geometry su_populations su_mass_functions su_mass_kwargs su_spatial su_spatial_kwargs].
  (split; [reflexivity|]); (split; [reflexivity|]); (split; [reflexivity|]);
    (split; [cbn; lia|]); (split; [reflexivity|]); (split; [|cbn; intros p; intuition]).
  intros i p d c sk; destruct i as [|[|[|i]]]; cbn [nth_error]; somes || (intros HH; destruct i; discriminate HH) || (intros HH; discriminate HH).
  all: destruct (is_none (value_of sig_WDMGeneral pos kw "log10_dNdA")); pops_done_w S1 S2 K0.
Qed.
Lemma populations_ok_post a b c d f g i p su : populations_ok a b c d f g i su -> populations_ok a b c d f g i (add_post p su).
Proof. intros H. exact H. Qed.
(** the presets built on CDM and WDM *)
Ltac pops F :=
  match goal with
  | P : populations_ok _ _ _ _ _ _ _ _ |- _ =>
      repeat (rewrite F in P by (first [in_sig|intros NN; cbn in NN; repeat (destruct NN as [NN|NN]; [discriminate NN|]); exact NN])); cbn in P; exact P
  end.
Theorem C83_wrappers : forall e pos kw h h' su,
  (SIDM_core_collapse e pos kw h = (h', Ok su) -> let the k := value_of sig_SIDM_core_collapse pos kw k in
     populations_ok (the "z_lens") (the "z_source") (the "kwargs_cosmo") (the "cone_opening_angle_arcsec") (the "geometry_type") (the "log_mlow") (the "log_mhigh") su) /\
  (SIDM_parametric e pos kw h = (h', Ok su) -> let the k := value_of sig_SIDM_parametric pos kw k in
     populations_ok (the "z_lens") (the "z_source") (the "kwargs_cosmo") (the "cone_opening_angle_arcsec") (the "geometry_type") (the "log_mlow") (the "log_mhigh") su) /\
  (SIDM_parametric_fixedbins e pos kw h = (h', Ok su) -> let the k := value_of sig_SIDM_parametric_fixedbins pos kw k in
     populations_ok (the "z_lens") (the "z_source") (the "kwargs_cosmo") (the "cone_opening_angle_arcsec") (the "geometry_type") (the "log_mlow") (the "log_mhigh") su) /\
  (CDM_plus_BH e pos kw h = (h', Ok su) -> let the k := value_of sig_CDM_plus_BH pos kw k in
     populations_ok (the "z_lens") (the "z_source") VNone (the "cone_opening_angle_arcsec") (the "geometry_type") (the "log_mlow") (the "log_mhigh") su) /\
  (WDM_mixed e pos kw h = (h', Ok su) -> let the k := value_of sig_WDM_mixed pos kw k in
     populations_ok (the "z_lens") (the "z_source") (the "kwargs_cosmo") (the "cone_opening_angle_arcsec") (the "geometry_type") (the "log_mlow") (the "log_mhigh") su) /\
  (ULDM e pos kw h = (h', Ok su) -> let the k := value_of sig_ULDM pos kw k in
     exists m lo, num (the "log10_m_uldm") = Ok m /\ num (the "log_mlow") = Ok lo /\
     populations_ok (the "z_lens") (the "z_source") (the "kwargs_cosmo") (the "cone_opening_angle_arcsec") (the "geometry_type")
       (VNum (pe_min_halo_mass e m (VAstropy (the "kwargs_cosmo")) lo)) (the "log_mhigh") su).
Proof.
  intros e pos kw h h' su.
  assert (PAR : forall pos kw, SIDM_parametric e pos kw h = (h', Ok su) -> let the k := value_of sig_SIDM_parametric pos kw k in
     populations_ok (the "z_lens") (the "z_source") (the "kwargs_cosmo") (the "cone_opening_angle_arcsec") (the "geometry_type") (the "log_mlow") (the "log_mhigh") su).
  { intros pos0 kw0 H the; subst the; cbv beta.
    destruct (C82_SIDM_parametric _ _ _ _ _ _ H) as (p & k & s0 & gc & C & F & _ & _ & ->). destruct (C83_CDM _ _ _ _ _ _ C) as (P & _). apply populations_ok_post. pops F. }
  split; [|split; [|split; [|split; [|split]]]]; intros H the; subst the; cbv beta.
  - destruct (C82_SIDM_core_collapse _ _ _ _ _ _ H) as (p & k & s0 & C & F & ->). destruct (C83_CDM _ _ _ _ _ _ C) as (P & _). apply populations_ok_post. pops F.
  - apply PAR. exact H.
  - destruct (C82_SIDM_fixedbins _ _ _ _ _ _ H) as (p & k & C & F & _). pose proof (PAR _ _ C) as P. cbv beta zeta in P. pops F.
  - destruct (C82_CDM_plus_BH _ _ _ _ _ _ H) as (p & k & s0 & gc & f & C & F & _ & _ & ->). destruct (C83_CDM _ _ _ _ _ _ C) as (P & _). apply populations_ok_post. pops F.
  - destruct (C82_WDM_mixed _ _ _ _ _ _ H) as (p & k & h1 & C & F & _). destruct (C83_WDM _ _ _ _ _ _ C) as (P & _). pops F.
  - destruct (C82_ULDM _ _ _ _ _ _ H) as (p & k & s0 & m & lo & C & F & Hm & Hlo & _ & ML & _ & _ & _ & ->). destruct (C83_WDM _ _ _ _ _ _ C) as (P & _).
    exists m, lo. split; [exact Hm|split; [exact Hlo|]]. apply populations_ok_post. rewrite ML in P. pops F.
Qed.
Example C83_nonvacuous : exists h' su, CDM env0 [VNum 0.5; VNum 2] [("log_mlow", VNum 7); ("two_halo_contribution", VBool false)] heap0 = (h', Ok su) /\
  su_populations su = ["SUBHALOS"; "LINE_OF_SIGHT"] /\
  forall d, nth_error (su_mass_kwargs su) 1 = Some d -> key_is "log_mlow" (VNum 7) d.
Proof.
  assert (X : exists h' su, CDM env0 [VNum 0.5; VNum 2] [("log_mlow", VNum 7); ("two_halo_contribution", VBool false)] heap0 = (h', Ok su)) by runs.
  destruct X as (h' & su & X). exists h', su; split; [exact X|]. destruct (C83_CDM _ _ _ _ _ _ X) as ((_ & _ & L2 & L3 & L4 & P & _) & E). cbn in E. split; [exact E|].
  intros d D. rewrite E in *. cbn in L3.
  destruct (nth_error (su_spatial su) 1) as [c|] eqn:C; [|apply nth_error_None in C; lia].
  destruct (nth_error (su_spatial_kwargs su) 1) as [sk|] eqn:SK; [|apply nth_error_None in SK; lia].
  destruct (P 1%nat "LINE_OF_SIGHT" d c sk) as (K & _); [reflexivity|assumption..|]. exact K.
Qed.
Example C83_WDM_nonvacuous : (exists h' su, WDM env0 [VNum 0.5; VNum 2; VNum 8] [("log_mlow", VNum 7)] heap0 = (h', Ok su)) /\
  exists h' su, WDMGeneral env0 [VNum 0.5; VNum 2; VNum 8; VNum 2] [("log_mlow", VNum 7)] heap0 = (h', Ok su).
Proof. split; runs. Qed.

Print Assumptions C82_SIDM_core_collapse.
Print Assumptions C82_SIDM_parametric.
Print Assumptions C82_SIDM_fixedbins.
Print Assumptions C82_CDM_plus_BH.
Print Assumptions C82_WDM_mixed.
Print Assumptions C82_ULDM.
Print Assumptions C83_CDM.
Print Assumptions C83_WDM.
Print Assumptions C83_WDMGeneral.
Print Assumptions C83_wrappers.
