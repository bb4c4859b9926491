(** C66: what the names of presets and halo models stand for. *)
From Verif Require Import Prelude MassFnModel InfallModel PresetModel PresetProofs PresetProps.
Local Open Scope string_scope.
Local Open Scope R_scope.
Local Open Scope list_scope.

(** * Specification *)
(** [d'] has the values of [cal], and is like [d] elsewhere *)
Definition fixes (cal d d' : dict) : Prop :=
  (forall k v, In (k, v) cal -> key_is k v d') /\ (forall k, ~ In k (keys cal) -> dget k d' = dget k d).

(** the presets *)
Definition preset_table : list (string * pfun) :=
  [("CDM", FCDM); ("WDM", FWDM); ("SIDM_core_collapse", FSIDM_core_collapse); ("SIDM_parametric", FSIDM_parametric);
   ("SIDM_parametric_fixedbins", FSIDM_parametric_fixedbins); ("ULDM", FULDM); ("WDM_mixed", FWDM_mixed); ("WDMGeneral", FWDMGeneral);
   ("DMGalacticus", FDMFromGalacticus); ("CDM_plus_BH", FCDM_plus_BH); ("JointLOSWithEmulator", FJointLOSWithEmulator)].

(** concentration-mass relations: class and calibrated parameters *)
Definition bose (cdm : cls) : dict :=
  [("concentration_cdm_class", VCls cdm); ("kwargs_cdm", VLit []); ("c_scale", VNum 60); ("c_power", VNum (- 0.17)); ("c_power_inner", VNum 1);
   ("mc_suppression_redshift_evolution", VBool false)].
Definition concentration_table : list (string * (cls * dict)) :=
  [("DIEMERJOYCE19", (KDiemerJoyce, [])); ("LUDLOW2016", (KLudlow, [])); ("PEAK_HEIGHT_POWERLAW", (KPeakHeight, []));
   ("BINNED_HALO_MASS", (KBinned, [])); ("WDM_HYPERBOLIC", (KHyperbolic, [])); ("WDM_POLYNOMIAL", (KPolynomial, []));
   ("BOSE2016", (KPolynomial, bose KDiemerJoyce)); ("BOSE2016_LUDLOW", (KPolynomial, bose KLudlow));
   ("LAROCHE2022", (KPolynomial, [("concentration_cdm_class", VCls KDiemerJoyce); ("kwargs_cdm", VLit []); ("c_scale", VNum 21.42);
                                  ("c_power", VNum (- 0.42)); ("c_power_inner", VNum 1.62)]));
   ("LUDLOW_WDM", (KLudlowWDM, [])); ("CONSTANT", (KConstant, []))].

(** truncation models: class and default parameters *)
Definition truncation_table : list (string * (cls * dict)) :=
  [("TRUNCATION_R50", (TRN, [("LOS_truncation_factor", VNum 50)])); ("TRUNCATION_R200", (TRN, [("LOS_truncation_factor", VNum 200)]));
   ("TRUNCATION_RN", (TRN, [])); ("TRUNCATION_ROCHE", (TRoche, []));
   ("TRUNCATION_ROCHE_GILMAN2020", (TRoche, [("RocheNorm", VNum 1.4); ("m_power", VNum (1 / 3)); ("RocheNu", VNum (2 / 3))]));
   ("SPLASHBACK", (TSplashBack, [])); ("TRUNCATION_MEAN_DENSITY", (TMeanDensity, [])); ("TRUNCATION_GALACTICUS", (TGalacticus, []));
   ("TRUNCATION_GALACTICUS_ZINFALL", (TGalacticusZinfall, [])); ("TRUNCATION_GALACTICUS_KEELEY24", (TGalacticusKeeley24, []));
   ("CONSTANT", (TConstantArcsec, [])); ("MULTIPLE_RS", (TMultipleRS, [])); ("BOUND_MASS_PDF", (TBoundMassPDF, []));
   ("TRUNCATION_GALACTICUS_CDM_APPROX", (TApproxCDM, []))].

(** mass functions: class and calibration of the suppression (1 + a (m_hm / m)^b)^c *)
Definition wdm (a b c : R) : dict := [("a_wdm", VNum a); ("b_wdm", VNum b); ("c_wdm", VNum c)].
Definition mass_function_table : list (string * (cls * dict)) :=
  [("SHMF_LOVELL2020", (MWDMPowerLaw, wdm 36.15 2.5 (- 0.2))); ("LOVELL2020", (MShethTormenTurnover, wdm 1.95 0.8 (- 1)));
   ("SHMF_LOVELL2014", (MWDMPowerLaw, wdm 1 1 (- 1.3))); ("LOVELL2014", (MShethTormenTurnover, wdm 1 1 (- 1.3)));
   ("SHMF_SCHIVE2016", (MWDMPowerLaw, wdm 1 1.1 (- 2.2))); ("SCHIVE2016", (MShethTormenTurnover, wdm 1 1.1 (- 2.2)));
   ("POWER_LAW", (MCDMPowerLaw, [])); ("POWER_LAW_TURNOVER_SHMF", (MWDMPowerLaw, [])); ("POWER_LAW_TURNOVER", (MShethTormenTurnover, []));
   ("SHMF_MIXED_WDM_TURNOVER", (MMixedWDMPowerLaw, [])); ("MIXED_WDM_TURNOVER", (MShethTormenMixedWDM, []))].

(** * Names *)
Ltac name_absent N v :=
  match goal with
  | |- context [is_str v ?s] =>
      let E := fresh in assert (E : is_str v s = false) by (destruct v; cbn; try reflexivity;
        apply String.eqb_neq; intros ->; apply (N s); [reflexivity|cbn; tauto]); rewrite E; clear E
  end.

Theorem C66_presets : forall s custom f, preset_model_from_name (VStr s) custom = Ok f <-> In (s, f) preset_table \/ (s = "CUSTOM" /\ f = FCustom custom).
Proof.
  intros s custom f; split.
  - unfold preset_model_from_name, is_str. intros H.
    repeat match type of H with (if String.eqb s ?x then _ else _) = _ => destruct (String.eqb s x) eqn:E; [apply String.eqb_eq in E; subst s; inversion H; subst; cbn; tauto|clear E] end.
    discriminate.
  - intros [I|[-> ->]]; [|reflexivity]. cbn in I. repeat (destruct I as [I|I]; [inversion I; reflexivity|]); destruct I.
Qed.
Theorem C66_presets_unknown : forall v custom,
  (forall s, v = VStr s -> ~ In s (keys preset_table ++ ["CUSTOM"; "DMEmulator"])) -> preset_model_from_name v custom = Err EException.
Proof. intros v custom N. unfold preset_model_from_name. repeat name_absent N v. reflexivity. Qed.
Example C66_presets_nonvacuous : preset_model_from_name (VStr "WDM") VNone = Ok FWDM /\ preset_model_from_name (VStr "wdm") VNone = Err EException.
Proof. split; [reflexivity|]. apply C66_presets_unknown. intros s [= <-] I. cbn in I. repeat (destruct I as [I|I]; [discriminate|]); destruct I. Qed.
(** The emulator is a documented preset, but it cannot be imported. *)
Theorem C66_emulator_refuted : forall custom f, preset_model_from_name (VStr "DMEmulator") custom <> Ok f /\
  preset_model_from_name (VStr "DMEmulator") custom = Err EImportError.
Proof. split; [discriminate|reflexivity]. Qed.

Lemma fixes_cons k v cal d d' : ~ In k (keys cal) -> fixes cal d d' -> fixes ((k, v) :: cal) d (dset k v d').
Proof.
  intros N (F1 & F2). split.
  - intros k' v' [E|I]; [inversion E; apply dget_dset_same|]. unfold key_is. rewrite dget_dset_other; [now apply F1|].
    intros ->. apply N. change k with (fst (k, v')). now apply in_map.
  - intros k' N'. rewrite dget_dset_other; [apply F2|]; intros X; apply N'; [now right|left; now subst].
Qed.
Lemma fixes_nil d : fixes [] d d. Proof. split; [intros ? ? []|reflexivity]. Qed.
Lemma fixes_perm cal cal' d d' : (forall p, In p cal' <-> In p cal) -> fixes cal d d' -> fixes cal' d d'.
Proof.
  intros P (F1 & F2). split; [intros; apply F1; now apply P|]. intros k N; apply F2. intros I; apply N.
  apply in_map_iff in I as (p & E & I). apply in_map_iff. exists p; split; [exact E|now apply P].
Qed.
Ltac not_in := cbn; intros HH; repeat (destruct HH as [HH|HH]; [discriminate HH|]); exact HH.
Ltac fixed l := let r := eval cbn in l in apply (fixes_perm r); [intros; cbn; tauto|]; repeat (apply fixes_cons; [not_in|]); apply fixes_nil.

Theorem C66_concentration : forall s c cal d, In (s, (c, cal)) concentration_table ->
  exists d', preset_concentration_models (VStr s) d = Ok (c, d') /\ fixes cal d d'.
Proof.
  intros s c cal d I. cbn in I.
  repeat (destruct I as [I|I]; [inversion I; subst; clear I; eexists; split; [reflexivity|]; (apply fixes_nil || idtac)|]); [..|destruct I].
  - fixed (rev (bose KDiemerJoyce)).
  - fixed (rev (bose KLudlow)).
  - match goal with |- fixes ?c _ _ => let r := eval cbn in (rev c) in fixed r end.
Qed.
Theorem C66_concentration_unknown : forall v d,
  (forall s, v = VStr s -> ~ In s (keys concentration_table ++ ["FROM_FORMATION_HISTORY"; "CUSTOM"])) -> preset_concentration_models v d = Err EException.
Proof. intros v d N. unfold preset_concentration_models. repeat name_absent N v. reflexivity. Qed.
(** the formation-history relation needs the slope of the transfer function, turns it into a and b and does not pass it on; a custom
    class needs a method nfw_concentration *)
Theorem C66_formation_history : forall d x, dget "dlogT_dlogk" d = Some (VNum x) ->
  exists d', preset_concentration_models (VStr "FROM_FORMATION_HISTORY") d = Ok (KHyperbolic, d') /\
    key_is "a" (VNum (0.75 * Rpower (0.7 / x) 0.4)) d' /\ key_is "b" (VNum (0.94 * Rpower (Rabs (ln (1.76 + 0.6) / ln (x + 0.6))) 0.7)) d' /\
    no_key "dlogT_dlogk" d' /\ forall k, ~ In k ["a"; "b"; "dlogT_dlogk"] -> dget k d' = dget k d.
Proof.
  intros d x H. unfold preset_concentration_models. cbn. rewrite H. cbn. eexists; split; [reflexivity|].
  unfold key_is, no_key. split; [|split; [|split]].
  - rewrite dget_ddel_other, dget_dset_other, dget_dset_same by discriminate. reflexivity.
  - rewrite dget_ddel_other, dget_dset_same by discriminate. reflexivity.
  - generalize (dset "b" (VNum (0.94 * Rpower (Rabs (ln (1.76 + 0.6) / ln (x + 0.6))) 0.7)) (dset "a" (VNum (0.75 * Rpower (0.7 / x) 0.4)) d)).
    intros l; induction l as [|[k v] t IH]; cbn; [reflexivity|]. destruct (String.eqb k "dlogT_dlogk") eqn:E; cbn; [exact IH|]. now rewrite E.
  - intros k N. rewrite dget_ddel_other, !dget_dset_other; [reflexivity|..]; intros ->; apply N; cbn; tauto.
Qed.
Theorem C66_custom : forall d v, dget "custom_class" d = Some v ->
  (has_nfw_concentration v = false -> preset_concentration_models (VStr "CUSTOM") d = Err EException) /\
  (forall id, v = VCls (KUser id true) -> exists d', preset_concentration_models (VStr "CUSTOM") d = Ok (KUser id true, d') /\
     forall k, k <> "custom_class" -> dget k d' = dget k d).
Proof.
  intros d v H. split.
  - intros N. unfold preset_concentration_models. cbn. now rewrite H, N.
  - intros id ->. unfold preset_concentration_models. cbn. rewrite H. cbn. eexists; split; [reflexivity|]. intros; now apply dget_ddel_other.
Qed.
Example C66_concentration_nonvacuous : exists d', preset_concentration_models (VStr "BOSE2016") [("c_scale", VNum 10); ("scatter", VBool true)] = Ok (KPolynomial, d') /\
  key_is "c_scale" (VNum 60) d' /\ key_is "scatter" (VBool true) d'.
Proof.
  destruct (C66_concentration "BOSE2016" KPolynomial (bose KDiemerJoyce) [("c_scale", VNum 10); ("scatter", VBool true)]) as (d' & E & F1 & F2); [cbn; tauto|].
  exists d'; split; [exact E|]. split; [apply F1; cbn; tauto|]. unfold key_is. rewrite F2; [reflexivity|]. not_in.
Qed.
Example C66_formation_history_nonvacuous : dget "dlogT_dlogk" [("dlogT_dlogk", VNum (- 2))] = Some (VNum (- 2)). Proof. reflexivity. Qed.
Example C66_custom_nonvacuous : exists d', preset_concentration_models (VStr "CUSTOM") [("custom_class", VCls (KUser 7 true)); ("c0", VNum 10)] = Ok (KUser 7 true, d') /\
  key_is "c0" (VNum 10) d'.
Proof.
  destruct (C66_custom [("custom_class", VCls (KUser 7 true)); ("c0", VNum 10)] _ eq_refl) as (_ & H). destruct (H 7%nat eq_refl) as (d' & E & K).
  exists d'; split; [exact E|]. unfold key_is; now rewrite K.
Qed.

Theorem C66_truncation : forall s c cal, In (s, (c, cal)) truncation_table -> truncation_models (VStr s) = Ok (c, cal).
Proof. intros s c cal I. cbn in I. repeat (destruct I as [I|I]; [inversion I; reflexivity|]); destruct I. Qed.
Theorem C66_truncation_unknown : forall s, ~ In s (keys truncation_table) -> truncation_models (VStr s) = Err EException.
Proof.
  intros s N. assert (N' : forall s', VStr s = VStr s' -> ~ In s' (keys truncation_table)) by (intros ? [= <-]; exact N).
  unfold truncation_models. repeat name_absent N' (VStr s). reflexivity.
Qed.
Theorem C66_truncation_class : forall c, truncation_models (VCls c) = Ok (c, []). Proof. reflexivity. Qed.
Example C66_truncation_nonvacuous : truncation_models (VStr "TRUNCATION_R50") = Ok (TRN, [("LOS_truncation_factor", VNum 50)]) /\
  truncation_models (VStr "TRUNCATION_R51") = Err EException.
Proof. split; [apply C66_truncation; cbn; tauto|apply C66_truncation_unknown; not_in]. Qed.

Theorem C66_mass_function : forall e s c cal d, In (s, (c, cal)) mass_function_table ->
  exists d', preset_mass_function_models e (VStr s) d = Ok (c, d') /\ fixes cal d d'.
Proof.
  intros e s c cal d I. cbn in I.
  repeat (destruct I as [I|I]; [inversion I; subst; clear I; eexists; split; [reflexivity|];
    (apply fixes_nil || match goal with |- fixes ?c _ _ => let r := eval cbn in (rev c) in fixed r end)|]).
  destruct I.
Qed.
Theorem C66_mass_function_unknown : forall e v d,
  (forall s, v = VStr s -> ~ In s (keys mass_function_table ++ ["STUCKER_SHMF"; "STUCKER"])) -> preset_mass_function_models e v d = Err EException.
Proof.
  intros e v d N. unfold preset_mass_function_models, one_of. cbn [existsb]. repeat name_absent N v. reflexivity.
Qed.
(** the calibration of Stucker et al. needs the slope, and refuses explicit parameters *)
Theorem C66_stucker : forall e s d, s = "STUCKER" \/ s = "STUCKER_SHMF" ->
  (dget "dlogT_dlogk" d = None -> preset_mass_function_models e (VStr s) d = Err EException) /\
  (forall k, k = "a_wdm" \/ k = "b_wdm" \/ k = "c_wdm" -> dget k d <> None -> preset_mass_function_models e (VStr s) d = Err EException) /\
  (forall x a b c, dget "dlogT_dlogk" d = Some (VNum x) -> no_key "a_wdm" d -> no_key "b_wdm" d -> no_key "c_wdm" d -> pe_stucker e x = (a, b, c) ->
     exists d', preset_mass_function_models e (VStr s) d = Ok (if String.eqb s "STUCKER" then MShethTormenTurnover else MWDMPowerLaw, d') /\
       key_is "a_wdm" (VNum a) d' /\ key_is "b_wdm" (VNum b) d' /\ key_is "c_wdm" (VNum c) d' /\ no_key "dlogT_dlogk" d').
Proof.
  intros e s d S. assert (X : preset_mass_function_models e (VStr s) d =
    match dget "dlogT_dlogk" d with
    | None => Err EException
    | Some v => if has "a_wdm" d || has "b_wdm" d || has "c_wdm" d then Err EException
                else do x <- num v; let '(a, b, c) := pe_stucker e x in
                  Ok (if String.eqb s "STUCKER" then MShethTormenTurnover else MWDMPowerLaw, ddel "dlogT_dlogk" (turnover (VNum a) (VNum b) (VNum c) d)) end)
    by (destruct S; subst; reflexivity).
  rewrite X. split; [|split].
  - now intros ->.
  - intros k K H. destruct (dget "dlogT_dlogk" d); [|reflexivity].
    replace (has "a_wdm" d || has "b_wdm" d || has "c_wdm" d) with true; [reflexivity|]. unfold has.
    destruct K as [->|[->| ->]]; destruct (dget _ d) eqn:E in H; try congruence; rewrite E; now rewrite ?Bool.orb_true_r.
  - intros x a b c H N1 N2 N3 E. rewrite H. unfold has. rewrite N1, N2, N3. cbn [orb num bind]. rewrite E. eexists; split; [reflexivity|].
    unfold key_is, no_key, turnover. rewrite !dget_ddel_other by discriminate.
    repeat split; try (repeat (rewrite dget_dset_other by discriminate); apply dget_dset_same).
    generalize (dset "c_wdm" (VNum c) (dset "b_wdm" (VNum b) (dset "a_wdm" (VNum a) d))).
    intros l; induction l as [|[k v] t IH]; cbn; [reflexivity|]. destruct (String.eqb k "dlogT_dlogk") eqn:E2; cbn; [exact IH|]. now rewrite E2.
Qed.
Example C66_mass_function_nonvacuous : exists d', preset_mass_function_models env0 (VStr "SHMF_LOVELL2020") [("a_wdm", VNum 1)] = Ok (MWDMPowerLaw, d') /\
  key_is "a_wdm" (VNum 36.15) d' /\ key_is "c_wdm" (VNum (- 0.2)) d'.
Proof.
  destruct (C66_mass_function env0 "SHMF_LOVELL2020" _ _ [("a_wdm", VNum 1)] ltac:(left; reflexivity)) as (d' & E & F & _).
  exists d'; split; [exact E|]. split; apply F; cbn; tauto.
Qed.
Example C66_stucker_nonvacuous : exists d', preset_mass_function_models env0 (VStr "STUCKER") [("dlogT_dlogk", VNum (- 2))] = Ok (MShethTormenTurnover, d') /\
  key_is "c_wdm" (VNum (- 1)) d'.
Proof.
  destruct (C66_stucker env0 "STUCKER" [("dlogT_dlogk", VNum (- 2))] ltac:(now left)) as (_ & _ & H).
  destruct (H (- 2) 1 1 (- 1)) as (d' & E & _ & _ & K & _); [reflexivity..|]. exists d'; auto.
Qed.

(** * The halo models a preset makes from the names *)
(** key [k] of a dictionary argument *)
Definition dget_at (h : heap) (v : val) (k : string) : option val :=
  match v with VRef l => dget k (h_dict h l) | VLit d => dget k d | _ => None end.
Lemma set_item_other v k x h h' u : set_item v k x h = (h', Ok u) -> forall w k', k' <> k -> dget_at h' w k' = dget_at h w k'.
Proof.
  destruct v; cbn; try discriminate. intros [= <- _] w k' N. destruct w; try reflexivity. cbn. destruct (Nat.eqb l0 l) eqn:E; [|reflexivity].
  apply Nat.eqb_eq in E; subst l0. now apply dget_dset_other.
Qed.
Lemma set_item_same v k x h h' u : set_item v k x h = (h', Ok u) -> dget_at h' v k = Some x.
Proof. destruct v; cbn; try discriminate. intros [= <- _]. cbn. rewrite Nat.eqb_refl. apply dget_dset_same. Qed.
Lemma set_item_keep v k x h h' u : set_item v k x h = (h', Ok u) -> forall w, dget_at h w k = Some x -> dget_at h' w k = Some x.
Proof.
  destruct v; cbn; try discriminate. intros [= <- _] w H. destruct w; try exact H. cbn in *. destruct (Nat.eqb l0 l) eqn:E; [|exact H].
  apply Nat.eqb_eq in E; subst l0. apply dget_dset_same.
Qed.
Lemma contents_get h h' v d : contents v h = (h', Ok d) -> h = h' /\ forall k, dget k d = dget_at h v k.
Proof. intros H. apply contents_at in H as (<- & H). split; [reflexivity|]. destruct v; cbn in *; try contradiction; now subst. Qed.
Lemma infall_step_get e z m l k h h' r : infall_step e z m l k h = (h', r) -> forall w k, dget_at h' w k = dget_at h w k.
Proof. intros H w k'. apply infall_step_dict in H. destruct w; cbn; congruence. Qed.
(** the dictionaries a caller can pass: without repeated keys *)
Definition wf_heap (h : heap) := forall l, NoDup (keys (h_dict h l)).
Definition wf_val (v : val) := match v with VLit d => NoDup (keys d) | _ => True end.
Lemma set_item_wf v k x h h' u : set_item v k x h = (h', Ok u) -> wf_heap h -> wf_heap h'.
Proof.
  destruct v; cbn; try discriminate. intros [= <- _] W l'. cbn. destruct (Nat.eqb l' l); [|apply W]. apply NoDup_dset, W.
Qed.
Lemma infall_step_wf e z m l k h h' r : infall_step e z m l k h = (h', r) -> wf_heap h -> wf_heap h'.
Proof. intros H W l'. apply infall_step_dict in H. rewrite H. apply W. Qed.
Lemma contents_wf h h' v d : contents v h = (h', Ok d) -> wf_heap h -> wf_val v -> NoDup (keys d).
Proof. intros H W V. apply contents_at in H as (_ & H). destruct v; cbn in *; try contradiction; subst; auto. Qed.
Lemma construct_Ok c kw ob : construct c kw = Ok ob -> ob_cls ob = c /\ ob_kwargs ob = kw.
Proof. unfold construct. intros H. apply bind_ok in H as (? & _ & H). inversion H; auto. Qed.
Lemma dget_dupdate d t k : NoDup (keys t) -> dget k (dupdate d t) = match dget k t with Some v => Some v | None => dget k d end.
Proof.
  intros N. destruct (dget k t) eqn:E; [now apply dget_dupdate_in|]. apply dget_dupdate_notin. now apply dget_none.
Qed.

(** What an instance made by a preset is: the class of its name; the calibration of the name or the caller's values. *)
(** concentration: the calibration overrides the caller, as do the keys [over] the preset itself sets *)
Definition concentration_made (s : string) (over : dict) (user : string -> option val) (ob : obj) : Prop :=
  forall c cal, In (s, (c, cal)) concentration_table ->
    ob_cls ob = c /\ (forall k v, In (k, v) over -> key_is k v (ob_kwargs ob)) /\
    (forall k v, In (k, v) cal -> ~ In k (keys over) -> key_is k v (ob_kwargs ob)) /\
    (forall k, ~ In k (keys over) -> ~ In k (keys cal) -> dget k (ob_kwargs ob) = user k).
(** truncation: the caller's values override the calibration, except the keys [over] *)
Definition truncation_made (s : string) (over : dict) (ignored : list string) (user : string -> option val) (ob : obj) : Prop :=
  forall c cal, In (s, (c, cal)) truncation_table ->
    ob_cls ob = c /\ (forall k v, In (k, v) over -> key_is k v (ob_kwargs ob)) /\
    (forall k, ~ In k (keys over) -> ~ In k ignored -> dget k (ob_kwargs ob) = match user k with Some v => Some v | None => dget k cal end).
(** the models to which the presets pass the concentration of the host *)
Definition uses_c_host (s : string) : Prop :=
  s = "TRUNCATION_GALACTICUS" \/ s = "TRUNCATION_GALACTICUS_ZINFALL" \/ s = "TRUNCATION_GALACTICUS_KEELEY24".
Definition host_c (e : penv) (c_host log_m_host z_lens : val) (field : obj) (c : val) : Prop :=
  (c_host <> VNone -> c = c_host) /\
  (c_host = VNone -> exists m z, num log_m_host = Ok m /\ num z_lens = Ok z /\ c = VNum (pe_concentration e field (Rpower 10 m) z)).

Lemma host_c_spec e ch mc lm z c : host_concentration e ch mc lm z = Ok c -> host_c e ch lm z mc c.
Proof.
  unfold host_concentration. destruct (is_none ch) eqn:E.
  - apply is_none_true in E; subst ch. intros H. apply bind_ok in H as (m & Hm & H). apply bind_ok in H as (x & Hx & H). inversion H; subst.
    split; [congruence|]. intros _. eauto.
  - intros [= <-]. split; [auto|]. intros ->; discriminate.
Qed.
Lemma concentration_made_spec s k v d h w p ob (user : string -> option val) :
  preset_concentration_models (VStr s) d = Ok p -> construct (fst p) (dset k v (snd p)) = Ok ob ->
  (forall k, dget k d = dget_at h w k) -> (forall k', k' <> k -> k' <> "cosmo" -> dget_at h w k' = user k') ->
  forall x, dget_at h w "cosmo" = Some x -> k <> "cosmo" -> concentration_made s [("cosmo", x); (k, v)] user ob.
Proof.
  intros P C D U x X NK c cal I. destruct (C66_concentration s c cal d I) as (d' & E & F1 & F2). rewrite E in P. inversion P; subst p; clear P.
  cbn [fst snd] in C. apply construct_Ok in C as (<- & C). split; [reflexivity|]. rewrite C.
  assert (NC : ~ In "cosmo" (keys cal)). { clear -I. cbn in I. repeat (destruct I as [I|I]; [inversion I; subst; not_in|]); destruct I. }
  split; [|split].
  - intros k' v' [Q|[Q|[]]]; inversion Q; subst; unfold key_is; [|apply dget_dset_same].
    rewrite dget_dset_other by congruence. rewrite F2 by exact NC. now rewrite D.
  - intros k' v' I' N. unfold key_is. rewrite dget_dset_other; [now apply F1|]. intros ->; apply N; cbn; auto.
  - intros k' N N'. rewrite dget_dset_other by (intros ->; apply N; cbn; auto). rewrite F2 by exact N'. rewrite D.
    apply U; intros ->; apply N; cbn; auto.
Qed.

Lemma truncation_subhalos_spec s w c h h' ob : truncation_subhalos (VStr s) w c h = (h', Ok ob) -> wf_heap h -> wf_val w ->
  h = h' /\ forall cl cal, In (s, (cl, cal)) truncation_table -> ob_cls ob = cl /\
    (uses_c_host s -> key_is "c_host" c (ob_kwargs ob)) /\
    (forall k, (uses_c_host s -> k <> "c_host") -> dget k (ob_kwargs ob) = match dget_at h w k with Some v => Some v | None => dget k cal end).
Proof.
  unfold truncation_subhalos. intros H W V. repeat inv_step. pose proof (contents_wf _ _ _ _ E0 W V) as ND. apply contents_get in E0 as (<- & G).
  split; [reflexivity|]. intros cl cal I. rewrite (C66_truncation _ _ _ I) in E. inversion E; subst x; clear E. cbn [fst snd] in H.
  apply construct_Ok in H as (<- & K). split; [reflexivity|]. rewrite K.
  assert (L : forall k, dget k (dupdate cal x0) = match dget_at h w k with Some v => Some v | None => dget k cal end) by (intros; now rewrite dget_dupdate, G).
  destruct (one_of (VStr s) needs_c_host) eqn:O.
  - split; [intros; apply dget_dset_same|]. intros k N. rewrite dget_dset_other; [apply L|]. apply N.
    unfold one_of, needs_c_host in O. cbn in O. unfold uses_c_host.
    repeat (apply Bool.orb_prop in O as [O|O]; [apply String.eqb_eq in O; subst; tauto|]). discriminate.
  - split; [|intros; apply L]. intros U. exfalso. destruct U as [U|[U|U]]; subst s; discriminate O.
Qed.
Lemma truncation_field_spec s w h h' ob : truncation_field (VStr s) w h = (h', Ok ob) -> wf_heap h -> wf_val w ->
  h = h' /\ forall cl cal, In (s, (cl, cal)) truncation_table -> ob_cls ob = cl /\
    (forall k, dget k (ob_kwargs ob) = match dget_at h w k with Some v => Some v | None => dget k cal end).
Proof.
  unfold truncation_field. intros H W V. repeat inv_step. pose proof (contents_wf _ _ _ _ E0 W V) as ND. apply contents_get in E0 as (<- & G).
  split; [reflexivity|]. intros cl cal I. rewrite (C66_truncation _ _ _ I) in E. inversion E; subst x; clear E. cbn [fst snd] in H.
  apply construct_Ok in H as (<- & K). split; [reflexivity|]. rewrite K. intros; now rewrite dget_dupdate, G.
Qed.
(** read a dictionary argument back through the writes of a preset *)
Ltac back :=
  repeat match goal with
  | |- dget_at ?h ?v ?k = Some _ =>
      first [ match goal with E : set_item v k _ _ = (h, _) |- _ => exact (set_item_same _ _ _ _ _ _ E) end
            | match goal with E : set_item _ k _ _ = (h, _) |- _ => apply (set_item_keep _ _ _ _ _ _ E) end
            | match goal with E : set_item _ _ _ _ = (h, _) |- _ => rewrite (set_item_other _ _ _ _ _ _ E) by discriminate end ]
  | |- dget_at ?h ?v ?k = _ =>
      match goal with
      | E : set_item _ _ _ _ = (h, _) |- _ => rewrite (set_item_other _ _ _ _ _ _ E) by (assumption || discriminate)
      | E : infall_step _ _ _ _ _ _ = (h, _) |- _ => rewrite (infall_step_get _ _ _ _ _ _ _ _ E)
      end
  end; try reflexivity.
Ltac wf_back :=
  repeat match goal with
  | |- wf_heap ?h =>
      first [ assumption
            | match goal with E : set_item _ _ _ _ = (h, _) |- _ => apply (set_item_wf _ _ _ _ _ _ E) end
            | match goal with E : infall_step _ _ _ _ _ _ = (h, _) |- _ => apply (infall_step_wf _ _ _ _ _ _ _ _ E) end ]
  end.
Ltac notin_neq := match goal with N : ~ In ?k _ |- ?k <> _ => intros ->; apply N; cbn; tauto end.

Lemma arg_lit_wf pos kw sg c a k : call_args sg c pos kw = Ok a -> Forall wf_val pos -> Forall (fun p => wf_val (snd p)) kw ->
  Forall (fun p : string * option val => match snd p with Some v => wf_val v | None => True end) sg -> wf_val (arg a k).
Proof.
  intros H P K S. unfold call_args in H. destruct (c || _); [|discriminate]. unfold arg. destruct (dget k a) eqn:G; [|exact I].
  apply dget_In in G. destruct (bind_args_origin _ _ _ _ _ _ H G) as [X|[X|X]].
  - rewrite Forall_forall in P; now apply P.
  - rewrite Forall_forall in K; now apply (K (k, v)).
  - rewrite Forall_forall in S; now apply (S (k, Some v)).
Qed.

Theorem C66_CDM_concentration : forall e pos kw h h' su,
  CDM e pos kw h = (h', Ok su) ->
  let the k := value_of sig_CDM pos kw k in
  (forall s, the "concentration_model_subhalos" = VStr s ->
     concentration_made s [("cosmo", VAstropy (the "kwargs_cosmo")); ("scatter_dex", VNum 0.2)]
       (dget_at h (the "kwargs_concentration_model_subhalos")) (su_concentration_subhalos su)) /\
  (forall s, the "concentration_model_fieldhalos" = VStr s ->
     concentration_made s [("cosmo", VAstropy (the "kwargs_cosmo")); ("scatter_dex", VNum 0.2)]
       (dget_at h (the "kwargs_concentration_model_fieldhalos")) (su_concentration_field su)).
Proof.
  intros e pos kw h h' su H the. apply call_args_Ok_CDM in H as (a & A & H). unfold CDM_body in H. repeat inv_step.
  subst su. cbn [su_concentration_subhalos su_concentration_field]. subst the. cbv beta. args_of A nd_CDM.
  repeat match goal with X : contents _ _ = _ |- _ => apply contents_get in X as (<- & X) end.
  split; intros s S; rewrite S in *; eapply concentration_made_spec; try eassumption; try discriminate.
  - intros k' _ N. back.
  - back.
  - intros k' _ N. back.
  - back.
Qed.
Lemma truncation_subhalos_heap n w c h h' r : truncation_subhalos n w c h = (h', r) -> h' = h.
Proof.
  unfold truncation_subhalos, bindM, lift. destruct (truncation_models n); [|now intros [= <- _]].
  unfold contents, ret, raise. destruct w; now intros [= <- _].
Qed.
(** the two truncation models of a preset; [ignored] are keys the preset wrote before *)
Lemma truncation_steps ns nf ws wf lc c ignored (user : val -> string -> option val) h h1 h2 h3 h4 u1 u2 ts tf :
  set_item ws "lens_cosmo" lc h = (h1, Ok u1) -> set_item wf "lens_cosmo" lc h1 = (h2, Ok u2) ->
  truncation_subhalos ns ws c h2 = (h3, Ok ts) -> truncation_field nf wf h3 = (h4, Ok tf) ->
  wf_heap h -> wf_val ws -> wf_val wf -> (forall w k, ~ In k ignored -> dget_at h w k = user w k) ->
  (forall s, ns = VStr s ->
     (uses_c_host s -> truncation_made s [("lens_cosmo", lc); ("c_host", c)] ignored (user ws) ts) /\
     (~ uses_c_host s -> truncation_made s [("lens_cosmo", lc)] ignored (user ws) ts)) /\
  (forall s, nf = VStr s -> truncation_made s [("lens_cosmo", lc)] ignored (user wf) tf).
Proof.
  intros S1 S2 T1 T2 W Ws Wf U. pose proof (truncation_subhalos_heap _ _ _ _ _ _ T1) as ->.
  assert (L : forall w, w = ws \/ w = wf -> dget_at h2 w "lens_cosmo" = Some lc).
  { intros w [->| ->]; [apply (set_item_keep _ _ _ _ _ _ S2), (set_item_same _ _ _ _ _ _ S1)|apply (set_item_same _ _ _ _ _ _ S2)]. }
  assert (G : forall w k, k <> "lens_cosmo" -> ~ In k ignored -> dget_at h2 w k = user w k).
  { intros w k N N'. rewrite (set_item_other _ _ _ _ _ _ S2), (set_item_other _ _ _ _ _ _ S1) by exact N. now apply U. }
  assert (W2 : wf_heap h2) by wf_back.
  split.
  - intros s ->. apply truncation_subhalos_spec in T1 as (_ & T); [|exact W2|exact Ws].
    split; intros X cl cal I; destruct (T _ _ I) as (C1 & C2 & C3); (split; [exact C1|]); split.
    + intros k v [Q|[Q|[]]]; inversion Q; subst; [|now apply C2]. unfold key_is. rewrite C3, L by (auto; intros; discriminate). reflexivity.
    + intros k N N'. rewrite C3 by (intros _; notin_neq). rewrite G by (auto || notin_neq). reflexivity.
    + intros k v [Q|[]]; inversion Q; subst. unfold key_is. rewrite C3, L by (auto; intros; discriminate). reflexivity.
    + intros k N N'. rewrite C3 by (intros; contradiction). rewrite G by (auto || notin_neq). reflexivity.
  - intros s ->. apply truncation_field_spec in T2 as (_ & T); [|exact W2|exact Wf].
    intros cl cal I; destruct (T _ _ I) as (C1 & C3); (split; [exact C1|]); split.
    + intros k v [Q|[]]; inversion Q; subst. unfold key_is. rewrite C3, L by auto. reflexivity.
    + intros k N N'. rewrite C3, G by (auto || notin_neq). reflexivity.
Qed.

Theorem C66_CDM_truncation : forall e pos kw h h' su,
  CDM e pos kw h = (h', Ok su) -> wf_heap h -> Forall wf_val pos -> Forall (fun p => wf_val (snd p)) kw ->
  let the k := value_of sig_CDM pos kw k in
  let lens_cosmo := ("lens_cosmo", VLensCosmo (the "z_lens") (the "z_source") (the "kwargs_cosmo")) in
  exists c, host_c e (the "c_host") (the "log_m_host") (the "z_lens") (su_concentration_field su) c /\
  (forall s, the "truncation_model_subhalos" = VStr s ->
     (uses_c_host s -> truncation_made s [lens_cosmo; ("c_host", c)] ["cosmo"] (dget_at h (the "kwargs_truncation_model_subhalos")) (su_truncation_subhalos su)) /\
     (~ uses_c_host s -> truncation_made s [lens_cosmo] ["cosmo"] (dget_at h (the "kwargs_truncation_model_subhalos")) (su_truncation_subhalos su))) /\
  (forall s, the "truncation_model_fieldhalos" = VStr s ->
     truncation_made s [lens_cosmo] ["cosmo"] (dget_at h (the "kwargs_truncation_model_fieldhalos")) (su_truncation_field su)).
Proof.
  intros e pos kw h h' su H W WP WK the lens_cosmo. apply call_args_Ok_CDM in H as (a & A & H).
  assert (AW : forall k, wf_val (arg a k)). { intros k. eapply arg_lit_wf; try eassumption. repeat constructor. }
  unfold CDM_body in H. repeat inv_step.
  subst su. cbn [su_truncation_subhalos su_truncation_field su_concentration_field].
  repeat match goal with X : contents _ _ = _ |- _ => apply contents_get in X as (<- & X) end.
  match goal with X : host_concentration _ _ _ _ _ = Ok ?c |- _ => pose proof (host_c_spec _ _ _ _ _ _ X) as HC; exists c end.
  assert (WS := AW "kwargs_truncation_model_subhalos"). assert (WF := AW "kwargs_truncation_model_fieldhalos"). clear AW.
  subst the lens_cosmo. cbv beta zeta. args_of A nd_CDM.
  split; [exact HC|]. eapply truncation_steps; try eassumption; [wf_back|]. intros w k N. assert (k <> "cosmo") by notin_neq. back.
Qed.

(** WDM: the same, except that log_mc is passed on, the parametric relations always start from Diemer & Joyce, and the scatter is the
    caller's. *)
Lemma construct_over c kw ob k v kw0 : construct c kw = Ok ob -> kw = dset k v kw0 -> ob_cls ob = c /\ ob_kwargs ob = dset k v kw0.
Proof. intros H ->. now apply construct_Ok. Qed.
Lemma concentration_made_WDM s d h w p ob (user : string -> option val) x m :
  preset_concentration_models (VStr s) d = Ok p -> construct (fst p) (dset "concentration_cdm_class" (VCls KDiemerJoyce) (snd p)) = Ok ob ->
  (forall k, dget k d = dget_at h w k) -> (forall k', k' <> "log_mc" -> k' <> "cosmo" -> dget_at h w k' = user k') ->
  dget_at h w "cosmo" = Some x -> dget_at h w "log_mc" = Some m ->
  concentration_made s [("cosmo", x); ("log_mc", m); ("concentration_cdm_class", VCls KDiemerJoyce)] user ob.
Proof.
  intros P C D U X Y c cal I. destruct (C66_concentration s c cal d I) as (d' & E & F1 & F2). rewrite E in P. inversion P; subst p; clear P.
  cbn [fst snd] in C. apply construct_Ok in C as (<- & C). split; [reflexivity|]. rewrite C.
  assert (NC : ~ In "cosmo" (keys cal) /\ ~ In "log_mc" (keys cal)). { clear -I. cbn in I. repeat (destruct I as [I|I]; [inversion I; subst; split; not_in|]); destruct I. }
  destruct NC as (NC & NM).
  split; [|split].
  - intros k' v' [Q|[Q|[Q|[]]]]; inversion Q; subst; unfold key_is; [| |apply dget_dset_same];
      (rewrite dget_dset_other by discriminate; rewrite F2 by assumption; now rewrite D).
  - intros k' v' I' N. unfold key_is. rewrite dget_dset_other; [now apply F1|]. notin_neq.
  - intros k' N N'. rewrite dget_dset_other by notin_neq. rewrite F2 by exact N'. rewrite D. apply U; notin_neq.
Qed.
Theorem C66_WDM_concentration : forall e pos kw h h' su,
  WDM e pos kw h = (h', Ok su) ->
  let the k := value_of sig_WDM pos kw k in
  let over := [("cosmo", VAstropy (the "kwargs_cosmo")); ("log_mc", the "log_mc"); ("concentration_cdm_class", VCls KDiemerJoyce)] in
  (forall s, the "concentration_model_subhalos" = VStr s ->
     concentration_made s over (dget_at h (the "kwargs_concentration_model_subhalos")) (su_concentration_subhalos su)) /\
  (forall s, the "concentration_model_fieldhalos" = VStr s ->
     concentration_made s over (dget_at h (the "kwargs_concentration_model_fieldhalos")) (su_concentration_field su)).
Proof.
  intros e pos kw h h' su H the over. apply call_args_Ok_WDM in H as (a & A & H). unfold WDM_body in H. repeat inv_step.
  subst su. cbn [su_concentration_subhalos su_concentration_field]. subst the over. cbv beta zeta. args_of A nd_WDM.
  repeat match goal with X : contents _ _ = _ |- _ => apply contents_get in X as (<- & X) end.
  split; intros s S; rewrite S in *; (eapply concentration_made_WDM; [eassumption|eassumption|eassumption|..]).
  all: try (intros k' N1 N2; back). all: back.
Qed.
Theorem C66_WDM_truncation : forall e pos kw h h' su,
  WDM e pos kw h = (h', Ok su) -> wf_heap h -> Forall wf_val pos -> Forall (fun p => wf_val (snd p)) kw ->
  let the k := value_of sig_WDM pos kw k in
  let lens_cosmo := ("lens_cosmo", VLensCosmo (the "z_lens") (the "z_source") (the "kwargs_cosmo")) in
  exists c, host_c e (the "c_host") (the "log_m_host") (the "z_lens") (su_concentration_field su) c /\
  (forall s, the "truncation_model_subhalos" = VStr s ->
     (uses_c_host s -> truncation_made s [lens_cosmo; ("c_host", c)] ["cosmo"; "log_mc"] (dget_at h (the "kwargs_truncation_model_subhalos")) (su_truncation_subhalos su)) /\
     (~ uses_c_host s -> truncation_made s [lens_cosmo] ["cosmo"; "log_mc"] (dget_at h (the "kwargs_truncation_model_subhalos")) (su_truncation_subhalos su))) /\
  (forall s, the "truncation_model_fieldhalos" = VStr s ->
     truncation_made s [lens_cosmo] ["cosmo"; "log_mc"] (dget_at h (the "kwargs_truncation_model_fieldhalos")) (su_truncation_field su)).
Proof.
  intros e pos kw h h' su H W WP WK the lens_cosmo. apply call_args_Ok_WDM in H as (a & A & H).
  assert (AW : forall k, wf_val (arg a k)). { intros k. eapply arg_lit_wf; try eassumption. repeat constructor. }
  unfold WDM_body in H. repeat inv_step.
  subst su. cbn [su_truncation_subhalos su_truncation_field su_concentration_field].
  repeat match goal with X : contents _ _ = _ |- _ => apply contents_get in X as (<- & X) end.
  match goal with X : host_concentration _ _ _ _ _ = Ok ?c |- _ => pose proof (host_c_spec _ _ _ _ _ _ X) as HC; exists c end.
  assert (WS := AW "kwargs_truncation_model_subhalos"). assert (WF := AW "kwargs_truncation_model_fieldhalos"). clear AW.
  subst the lens_cosmo. cbv beta zeta. args_of A nd_WDM.
  split; [exact HC|]. eapply truncation_steps; try eassumption; [wf_back|].
  intros w k N. assert (k <> "cosmo") by notin_neq. assert (k <> "log_mc") by notin_neq. back.
Qed.

(** WDM: the mass functions have the calibration of their names *)
Theorem C66_WDM_mass_functions : forall e pos kw h h' su,
  WDM e pos kw h = (h', Ok su) ->
  let the k := value_of sig_WDM pos kw k in
  exists ds df rest cs cf crest, su_mass_kwargs su = ds :: df :: rest /\ su_mass_functions su = cs :: cf :: crest /\
  (forall s c cal, the "mass_function_model_subhalos" = VStr s -> In (s, (c, cal)) mass_function_table ->
     cs = c /\ (forall k v, In (k, v) cal -> key_is k v ds) /\ key_is "log_mlow" (the "log_mlow") ds /\ key_is "log_mhigh" (the "log_mhigh") ds /\
     key_is "power_law_index" (the "shmf_log_slope") ds /\ key_is "log_mc" (the "log_mc") ds) /\
  (forall s c cal, the "mass_function_model_fieldhalos" = VStr s -> In (s, (c, cal)) mass_function_table ->
     cf = c /\ (forall k v, In (k, v) cal -> key_is k v df) /\ key_is "log_mlow" (the "log_mlow") df /\ key_is "log_mhigh" (the "log_mhigh") df /\
     key_is "LOS_normalization" (the "LOS_normalization") df /\ key_is "log_mc" (the "log_mc") df).
Proof.
  intros e pos kw h h' su H the. apply call_args_Ok_WDM in H as (a & A & H). unfold WDM_body in H. repeat inv_step.
  subst su. cbn [su_mass_kwargs su_mass_functions app]. subst the. cbv beta. args_of A nd_WDM.
  eexists _, _, _, _, _, _; split; [reflexivity|split; [reflexivity|]].
  match goal with X : amplitude _ _ _ _ = Ok _ |- _ => pose proof (amplitude_form _ _ _ _ _ X) as (k0 & v0 & K0 & ->); clear X end.
  split; intros s c cal S I; rewrite S in *;
    (match goal with X : preset_mass_function_models _ (VStr s) ?d = Ok ?p |- _ =>
       destruct (C66_mass_function e s c cal d I) as (d' & X' & F & _); rewrite X' in X; inversion X; subst end); cbn [fst snd];
    (split; [reflexivity|]).
  - assert (ND : NoDup (keys (dset k0 v0 [("log_mlow", value_of sig_WDM pos kw "log_mlow"); ("log_mhigh", value_of sig_WDM pos kw "log_mhigh");
      ("m_pivot", m_pivot8); ("power_law_index", value_of sig_WDM pos kw "shmf_log_slope"); ("log_m_host", value_of sig_WDM pos kw "log_m_host"); ("delta_power_law_index", VNum 0);
      ("host_scaling_factor", value_of sig_WDM pos kw "host_scaling_factor"); ("redshift_scaling_factor", value_of sig_WDM pos kw "redshift_scaling_factor"); ("draw_poisson", value_of sig_WDM pos kw "draw_poisson")]))).
    { apply NoDup_dset. apply nodupb_NoDup; reflexivity. }
    unfold key_is. repeat split; try (apply dget_dupdate_in; [exact ND|]; destruct K0; subst; reflexivity).
    + intros k v K. assert (In k ["a_wdm"; "b_wdm"; "c_wdm"]).
      { clear -I K. cbn in I. repeat (destruct I as [I|I]; [inversion I; subst; cbn in K; repeat (destruct K as [K|K]; [inversion K; cbn; tauto|]); destruct K|]); destruct I. }
      rewrite dget_dupdate by exact ND. replace (dget k (dset k0 v0 _)) with (@None val).
      * rewrite dget_dset_other; [now apply F|]. cbn in H. intros ->. destruct H as [H|[H|[H|[]]]]; discriminate.
      * cbn in H. destruct K0; subst; destruct H as [H|[H|[H|[]]]]; subst; reflexivity.
    + rewrite dget_dupdate by exact ND. replace (dget "log_mc" (dset k0 v0 _)) with (@None val) by (destruct K0; subst; reflexivity). apply dget_dset_same.
  - unfold key_is. repeat split; try (apply dget_dupdate_in; [apply nodupb_NoDup; reflexivity|reflexivity]).
    + intros k v K. assert (In k ["a_wdm"; "b_wdm"; "c_wdm"]).
      { clear -I K. cbn in I. repeat (destruct I as [I|I]; [inversion I; subst; cbn in K; repeat (destruct K as [K|K]; [inversion K; cbn; tauto|]); destruct K|]); destruct I. }
      rewrite dget_dupdate_notin by (cbn in H; destruct H as [H|[H|[H|[]]]]; subst; not_in).
      rewrite dget_dset_other; [now apply F|]. cbn in H. intros ->. destruct H as [H|[H|[H|[]]]]; discriminate.
    + rewrite dget_dupdate_notin by not_in. apply dget_dset_same.
Qed.
Example C66_CDM_models_nonvacuous : exists h' su,
  CDM env0 [VNum 0.5; VNum 2] [("truncation_model_fieldhalos", VStr "TRUNCATION_R50"); ("c_host", VNum 4)] heap0 = (h', Ok su) /\
  ob_cls (su_concentration_subhalos su) = KLudlow /\ ob_cls (su_truncation_field su) = TRN /\
  key_is "LOS_truncation_factor" (VNum 50) (ob_kwargs (su_truncation_field su)) /\ key_is "c_host" (VNum 4) (ob_kwargs (su_truncation_subhalos su)).
Proof.
  assert (X : exists h' su, CDM env0 [VNum 0.5; VNum 2] [("truncation_model_fieldhalos", VStr "TRUNCATION_R50"); ("c_host", VNum 4)] heap0 = (h', Ok su)) by runs.
  destruct X as (h' & su & X). exists h', su; split; [exact X|].
  destruct (C66_CDM_concentration _ _ _ _ _ _ X) as (C1 & _). destruct (C1 _ eq_refl KLudlow []) as (<- & _); [cbn; tauto|].
  destruct (C66_CDM_truncation _ _ _ _ _ _ X) as (c & HC & T1 & T2); [intros l; constructor|repeat constructor..|].
  destruct (T2 _ eq_refl TRN [("LOS_truncation_factor", VNum 50)]) as (<- & _ & T3); [cbn; tauto|].
  split; [reflexivity|split; [reflexivity|split]].
  - unfold key_is. rewrite T3 by not_in. reflexivity.
  - destruct (T1 _ eq_refl) as (T4 & _). destruct (T4 ltac:(now left) TGalacticus []) as (_ & T5 & _); [cbn; tauto|].
    apply T5. right; left. f_equal. apply HC. discriminate.
Qed.
Example C66_WDM_models_nonvacuous : exists h' su,
  WDM env0 [VNum 0.5; VNum 2; VNum 8] [("mass_function_model_subhalos", VStr "SHMF_LOVELL2014")] heap0 = (h', Ok su) /\
  ob_cls (su_concentration_field su) = KPolynomial /\ key_is "c_scale" (VNum 60) (ob_kwargs (su_concentration_field su)) /\
  ob_cls (su_truncation_field su) = TRN /\
  exists ds rest crest, su_mass_kwargs su = ds :: rest /\ su_mass_functions su = MWDMPowerLaw :: crest /\ key_is "c_wdm" (VNum (- 1.3)) ds.
Proof.
  assert (X : exists h' su, WDM env0 [VNum 0.5; VNum 2; VNum 8] [("mass_function_model_subhalos", VStr "SHMF_LOVELL2014")] heap0 = (h', Ok su)) by runs.
  destruct X as (h' & su & X). exists h', su; split; [exact X|].
  destruct (C66_WDM_concentration _ _ _ _ _ _ X) as (_ & C1). destruct (C1 _ eq_refl KPolynomial (bose KDiemerJoyce)) as (<- & _ & C2 & _); [cbn; tauto|].
  destruct (C66_WDM_truncation _ _ _ _ _ _ X) as (c & HC & _ & T2); [intros l; constructor|repeat constructor..|].
  destruct (T2 _ eq_refl TRN []) as (<- & _); [cbn; tauto|].
  split; [reflexivity|split; [apply C2; [cbn; tauto|not_in]|split; [reflexivity|]]].
  destruct (C66_WDM_mass_functions _ _ _ _ _ _ X) as (ds & df & rest & cs & cf & crest & E1 & E2 & M1 & _).
  destruct (M1 _ MWDMPowerLaw (wdm 1 1 (- 1.3)) eq_refl) as (<- & F & _); [cbn; tauto|]. exists ds, (df :: rest), (cf :: crest). repeat split; [exact E1|exact E2|apply F; cbn; tauto].
Qed.

(** * Documented choices that cannot work *)
Lemma call_args_mem sg kw a k : call_args sg false [] kw = Ok a -> dget k kw <> None -> In k (keys sg).
Proof.
  unfold call_args. cbn [orb]. destruct (forallb _ _) eqn:F; [|discriminate]. intros _ H. apply mem_In. apply dget_keys in H.
  rewrite forallb_forall in F. apply F. exact H.
Qed.
Lemma construct_mem c kw ob k : construct c kw = Ok ob -> snd (ctor_sig c) = false -> dget k kw <> None -> In k (keys (fst (ctor_sig c))).
Proof. unfold construct. intros H S. apply bind_ok in H as (a & H & _). rewrite S in H. eapply call_args_mem; exact H. Qed.

(** The constant concentration is a documented model, but the CDM preset passes it a keyword it does not take. *)
Theorem C66_CDM_constant_refuted : forall e pos kw h h' su,
  value_of sig_CDM pos kw "concentration_model_subhalos" = VStr "CONSTANT" \/ value_of sig_CDM pos kw "concentration_model_fieldhalos" = VStr "CONSTANT" ->
  CDM e pos kw h <> (h', Ok su).
Proof.
  intros e pos kw h h' su V H. apply call_args_Ok_CDM in H as (a & A & H). unfold CDM_body in H. repeat inv_step. args_of A nd_CDM.
  destruct V as [V|V]; rewrite V in *;
    (match goal with X : preset_concentration_models (VStr "CONSTANT") _ = Ok ?p |- _ => cbn in X; inversion X; subst p end); cbn [fst snd] in *;
    (match goal with X : construct KConstant _ = _ |- _ => apply (construct_mem _ _ _ "scatter_dex") in X; [|reflexivity|rewrite dget_dset_same; discriminate] end);
    (match goal with X : In _ _ |- _ => revert X; not_in end).
Qed.
Example C66_CDM_constant_nonvacuous : exists h', CDM env0 [VNum 0.5; VNum 2] [("concentration_model_subhalos", VStr "CONSTANT"); ("kwargs_concentration_model_subhalos", VRef 100)]
  (put 100 [("c", VNum 10)] heap0) = (h', Err ETypeError).
Proof. eexists. run. reflexivity. Qed.
(** Four of the documented concentration models cannot be used with the WDM preset: it passes them keywords they do not take. *)
Theorem C66_WDM_models_refuted : forall e pos kw h h' su s,
  value_of sig_WDM pos kw "concentration_model_subhalos" = VStr s \/ value_of sig_WDM pos kw "concentration_model_fieldhalos" = VStr s ->
  In s ["CONSTANT"; "PEAK_HEIGHT_POWERLAW"; "BINNED_HALO_MASS"; "LUDLOW_WDM"] ->
  WDM e pos kw h <> (h', Ok su).
Proof.
  intros e pos kw h h' su s V I H. apply call_args_Ok_WDM in H as (a & A & H). unfold WDM_body in H. repeat inv_step. args_of A nd_WDM.
  destruct V as [V|V]; rewrite V in *; cbn in I; destruct I as [<-|[<-|[<-|[<-|[]]]]];
    (match goal with X : preset_concentration_models (VStr _) _ = Ok ?p, Y : construct (fst ?p) _ = _ |- _ => cbn in X; inversion X; subst p;
       cbn [fst snd] in Y; apply (construct_mem _ _ _ "concentration_cdm_class") in Y; [revert Y; not_in|reflexivity|rewrite dget_dset_same; discriminate] end).
Qed.
Example C66_WDM_models_refuted_nonvacuous : exists h', WDM env0 [VNum 0.5; VNum 2; VNum 8] [("concentration_model_fieldhalos", VStr "LUDLOW_WDM"); ("kwargs_concentration_model_fieldhalos", VRef 100)]
  (put 100 [("dlogT_dlogk", VNum (- 2))] heap0) = (h', Err ETypeError).
Proof. eexists. run. reflexivity. Qed.
(** 'BOSE2016_LUDLOW' is the Bose et al. suppression of the Ludlow relation; in the WDM preset it suppresses Diemer & Joyce. *)
Theorem C66_WDM_ludlow_refuted : forall e pos kw h h' su,
  WDM e pos kw h = (h', Ok su) -> value_of sig_WDM pos kw "concentration_model_subhalos" = VStr "BOSE2016_LUDLOW" ->
  key_is "concentration_cdm_class" (VCls KDiemerJoyce) (ob_kwargs (su_concentration_subhalos su)) /\
  In ("BOSE2016_LUDLOW", (KPolynomial, bose KLudlow)) concentration_table.
Proof.
  intros e pos kw h h' su H V. split; [|cbn; tauto]. destruct (C66_WDM_concentration _ _ _ _ _ _ H) as (C & _).
  destruct (C _ V KPolynomial (bose KLudlow)) as (_ & F & _); [cbn; tauto|]. apply F. cbn; tauto.
Qed.
Example C66_WDM_ludlow_nonvacuous : exists h' su, WDM env0 [VNum 0.5; VNum 2; VNum 8] [("concentration_model_subhalos", VStr "BOSE2016_LUDLOW")] heap0 = (h', Ok su).
Proof. runs. Qed.
(** A scatter given by the caller is overwritten by the CDM preset. *)
Theorem C66_CDM_scatter_refuted : ~ (forall e pos kw h h' su v,
  CDM e pos kw h = (h', Ok su) -> dget_at h (value_of sig_CDM pos kw "kwargs_concentration_model_subhalos") "scatter_dex" = Some v ->
  key_is "scatter_dex" v (ob_kwargs (su_concentration_subhalos su))).
Proof.
  intros H. assert (X : exists h' su, CDM env0 [VNum 0.5; VNum 2] [("kwargs_concentration_model_subhalos", VRef 100)] (put 100 [("scatter_dex", VNum 0)] heap0) = (h', Ok su)) by runs.
  destruct X as (h' & su & X). pose proof (H _ _ _ _ _ _ (VNum 0) X eq_refl) as K.
  destruct (C66_CDM_concentration _ _ _ _ _ _ X) as (C & _). destruct (C _ eq_refl KLudlow []) as (_ & F & _); [cbn; tauto|].
  pose proof (F "scatter_dex" (VNum 0.2) ltac:(cbn; tauto)) as K'. unfold key_is in *. rewrite K in K'. inversion K'. lra.
Qed.
(** The default subhalo mass function of the WDM preset is calibrated for field halos, not for subhalos. *)
Theorem C66_WDM_default_refuted : forall e pos kw h h' su,
  WDM e pos kw h = (h', Ok su) -> value_of sig_WDM pos kw "mass_function_model_subhalos" = default_of sig_WDM "mass_function_model_subhalos" ->
  exists d rest c crest, su_mass_kwargs su = d :: rest /\ su_mass_functions su = c :: crest /\ c = MShethTormenTurnover /\
    key_is "a_wdm" (VNum 1.95) d /\ ~ key_is "a_wdm" (VNum 36.15) d.
Proof.
  intros e pos kw h h' su H V. destruct (C66_WDM_mass_functions _ _ _ _ _ _ H) as (ds & df & rest & cs & cf & crest & E1 & E2 & M1 & _).
  destruct (M1 _ MShethTormenTurnover (wdm 1.95 0.8 (- 1)) V) as (C & F & _); [cbn; tauto|].
  exists ds, (df :: rest), cs, (cf :: crest). repeat split; auto; [apply F; cbn; tauto|].
  pose proof (F "a_wdm" (VNum 1.95) ltac:(cbn; tauto)) as K. unfold key_is in *. rewrite K. intros [= Q]. lra.
Qed.
Example C66_WDM_default_nonvacuous : exists h' su, WDM env0 [VNum 0.5; VNum 2; VNum 8] [] heap0 = (h', Ok su) /\
  value_of sig_WDM [VNum 0.5; VNum 2; VNum 8] [] "mass_function_model_subhalos" = default_of sig_WDM "mass_function_model_subhalos".
Proof. eexists _, _; split; [run; reflexivity|reflexivity]. Qed.
(** include_prompt_cusps is documented, but every call that sets it fails. *)
Theorem C66_cusps_refuted : forall e pos kw h h' su,
  (truthy (value_of sig_WDM pos kw "include_prompt_cusps") = true -> WDM e pos kw h <> (h', Ok su)) /\
  (truthy (value_of sig_WDMGeneral pos kw "include_prompt_cusps") = true -> WDMGeneral e pos kw h <> (h', Ok su)).
Proof.
  intros e pos kw h h' su; split; intros T H.
  - apply call_args_Ok_WDM in H as (a & A & H). unfold WDM_body in H. repeat inv_step. args_of A nd_WDM.
    match goal with X : post_cusps _ _ = _ |- _ => unfold post_cusps in X; rewrite T in X; discriminate X end.
  - unfold WDMGeneral in H. inv_step. inv_step. rename E into A. unfold WDMGeneral_body in H. repeat inv_step. args_of A nd_WDMGeneral.
    match goal with X : post_cusps _ _ = _ |- _ => unfold post_cusps in X; rewrite T in X; discriminate X end.
Qed.
Example C66_cusps_nonvacuous : exists h', WDM env0 [VNum 0.5; VNum 2; VNum 8] [("include_prompt_cusps", VBool true)] heap0 = (h', Err EAttributeError).
Proof. eexists. run. reflexivity. Qed.
(** A halo profile or a spatial distribution that is not known is rejected. *)
Theorem C66_profile_checked : forall e pos kw h h' su, CDM e pos kw h = (h', Ok su) ->
  (exists s, value_of sig_CDM pos kw "halo_mass_profile" = VStr s /\ In s ["NFW"; "TNFW"; "PT_MASS"] /\ su_mdef_subhalos su = VStr s /\ su_mdef_field su = VStr s) /\
  (exists s, value_of sig_CDM pos kw "subhalo_spatial_distribution" = VStr s /\ In s ["UNIFORM"; "PROJECTED_NFW"]).
Proof.
  intros e pos kw h h' su H. apply call_args_Ok_CDM in H as (a & A & H). unfold CDM_body in H. repeat inv_step. subst su. cbn [su_mdef_subhalos su_mdef_field].
  args_of A nd_CDM. split.
  - apply Bool.negb_false_iff in B. unfold one_of in B. apply existsb_exists in B as (s & I & B).
    destruct (value_of sig_CDM pos kw "halo_mass_profile"); try discriminate B. cbn in B. apply String.eqb_eq in B; subst. eauto.
  - match goal with X : subhalo_spatial _ _ _ _ _ _ _ _ = Ok _ |- _ => unfold subhalo_spatial in X;
      destruct (value_of sig_CDM pos kw "subhalo_spatial_distribution"); cbn in X; try discriminate X end.
    eexists; split; [reflexivity|]. destruct (String.eqb s "UNIFORM") eqn:Q; [apply String.eqb_eq in Q; subst; cbn; auto|].
    destruct (String.eqb s "PROJECTED_NFW") eqn:Q'; [apply String.eqb_eq in Q'; subst; cbn; auto|discriminate].
Qed.
Example C66_profile_nonvacuous : exists h', CDM env0 [VNum 0.5; VNum 2] [("halo_mass_profile", VStr "SIS")] heap0 = (h', Err EException).
Proof. eexists. run. reflexivity. Qed.
(** The ULDM preset adds fluctuations by default, and then fails because the arguments of the fluctuations are empty by default. *)
Lemma arg_avoid sg c pos kw a l k : call_args sg c pos kw = Ok a -> ~ passed pos kw l -> ~ In (k, Some (VRef l)) sg -> arg a k <> VRef l.
Proof.
  intros H N D X. unfold call_args in H. destruct (c || _); [|discriminate]. unfold arg in X. destruct (dget k a) eqn:G; [|discriminate]. subst v.
  apply dget_In in G. destruct (bind_args_origin _ _ _ _ _ _ H G) as [Y|[Y|Y]]; [apply N; now left|apply N; right; now exists k|contradiction].
Qed.
Lemma nd_ULDM : NoDup (keys sig_ULDM). Proof. apply nodupb_NoDup; reflexivity. Qed.
Theorem C66_ULDM_default_refuted : forall e pos kw h h' su,
  truthy (value_of sig_ULDM pos kw "flucs") = true ->
  (* flucs_args not given: its default dictionary 35, empty and not passed by the caller for something else *)
  value_of sig_ULDM pos kw "flucs_args" = default_of sig_ULDM "flucs_args" -> h_dict h 35%nat = [] -> ~ passed pos kw 35 ->
  ULDM e pos kw h <> (h', Ok su).
Proof.
  intros e pos kw h h' su T F D N H. unfold ULDM in H. inv_step. inv_step. rename E into A, x into a.
  assert (AV : forall k, k <> "flucs_args" -> arg a k <> VRef 35).
  { intros k K. eapply arg_avoid; try eassumption. intros X. cbn in X. repeat (destruct X as [X|X]; [inversion X; congruence|]). exact X. }
  assert (FA : arg a "flucs_args" = VRef 35) by (rewrite (call_args_value _ _ _ _ _ _ A nd_ULDM) by in_sig; exact F).
  assert (FT : truthy (arg a "flucs") = true) by (rewrite (call_args_value _ _ _ _ _ _ A nd_ULDM) by in_sig; exact T).
  unfold ULDM_body in H. repeat inv_step. rewrite FT, FA in H.
  match goal with X : WDM e _ _ _ = (_, _) |- _ => rename X into WW end.
  assert (G : h_dict h2 35%nat <> []).
  { intros G. unfold bindM, is_empty_dict in H. rewrite G in H. discriminate H. }
  apply G; rewrite <- D; clear G H.
  unfold WDM in WW. apply bindM_Ok in WW as (a' & h3 & A' & WW). apply lift_Ok in A' as (<- & A').
  pose proof (frames_WDM_body (fun l => l <> 35%nat) e a') as FR.
  assert (Q : forall k l, arg a' k = VRef l -> l <> 35%nat).
  { intros k l K ->. revert K. eapply arg_avoid; [exact A'| |].
    - intros [[]|(k' & P)]. cbn in P. repeat (destruct P as [P|P]; [inversion P; try (eapply AV; [|eassumption]; discriminate)|]). exact P.
    - intros X. cbn in X. repeat (destruct X as [X|X]; [inversion X|]). exact X. }
  match goal with X : WDM_body _ _ ?hh = _ |- _ => specialize (FR Q hh); rewrite X in FR; cbn in FR; destruct (FR 35%nat) as (FR1 & _); apply FR1; tauto end.
Qed.
Example C66_ULDM_default_nonvacuous : (exists h', ULDM env0 [VNum 0.5; VNum 2] [("log10_m_uldm", VNum (- 21))] heap0 = (h', Err EException)) /\
  exists h' su, ULDM env0 [VNum 0.5; VNum 2] [("log10_m_uldm", VNum (- 21)); ("flucs", VBool false)] heap0 = (h', Ok su).
Proof. split; [eexists; run; reflexivity|runs]. Qed.

Print Assumptions C66_presets.
Print Assumptions C66_presets_unknown.
Print Assumptions C66_emulator_refuted.
Print Assumptions C66_concentration.
Print Assumptions C66_concentration_unknown.
Print Assumptions C66_formation_history.
Print Assumptions C66_custom.
Print Assumptions C66_truncation.
Print Assumptions C66_truncation_unknown.
Print Assumptions C66_truncation_class.
Print Assumptions C66_mass_function.
Print Assumptions C66_mass_function_unknown.
Print Assumptions C66_stucker.
Print Assumptions C66_CDM_concentration.
Print Assumptions C66_CDM_truncation.
Print Assumptions C66_WDM_concentration.
Print Assumptions C66_WDM_truncation.
Print Assumptions C66_WDM_mass_functions.
Print Assumptions C66_CDM_constant_refuted.
Print Assumptions C66_WDM_models_refuted.
Print Assumptions C66_WDM_ludlow_refuted.
Print Assumptions C66_CDM_scatter_refuted.
Print Assumptions C66_WDM_default_refuted.
Print Assumptions C66_cusps_refuted.
Print Assumptions C66_profile_checked.
Print Assumptions C66_ULDM_default_refuted.
