(** C89-C90: what a truncated halo reports about itself, and the two ways to compute a truncation radius. *)
From Verif Require Import Prelude HaloStateModel HaloStateSpec HaloStateProofs HaloFrame HaloStateLemmas HaloStateProps DirectModel.
#[local] Arguments pow : simpl never.

(** * Specification *)
(** Density at radius [r] of a truncated NFW profile with the reported parameters *)
Definition tnfw_density (p : Phys) (r : R) : R :=
  p_rhos p / ((r / p_rs p) * (1 + r / p_rs p) ^ 2) * (p_rt p ^ 2 / (p_rt p ^ 2 + r ^ 2)).
(** The call of [truncation_radius] with the attributes of a halo (mass [m], position [r3d], concentration [c], evaluation and infall
    redshift [z], [zi], time since infall [t], scale radius [rs]), for the class [k]; [None]: the class has no such method. *)
Definition call_for (E : Env) (k : tkind) (m r3d c z zi : R) (t : option R) (rs : R) : option direct_call :=
  match k with
  | KSplashBack => Some (DSplashBack m z)
  | KRN _ => Some (DRN m z)
  | KRoche _ _ _ => Some (DRoche m r3d)
  | KMeanDensity _ _ sc => Some (DMeanDensity m z (e_cmed E m z) c sc)
  | KMultipleRS _ => Some (DMultipleRS rs)
  | KConstant _ => Some DConstant
  | KKeeley24 ch => Some (DKeeley24 m c t ch z)
  | KGalacticus _ => Some (DGalacticus m c t z)
  | KZinfall _ => Some (DZinfall m c (zi - e_zlens E) z)
  | KApproxCDM => Some (DApproxCDM m c z)
  | KMilkyWay _ => Some (DMilkyWay m c t z)
  | KBoundMassPDF _ _ => None
  end.

(** ** C89 *)
(** The density profile of the object is that of its reported parameters divided by the factor by which the truncation model rescaled
    the normalisation... *)
Theorem C89_density : forall E H x y qs r p, ages_ok E -> r <> 0 -> p_rs p <> 0 ->
  value (params_physical E H) (reads E H qs (fresh x y)) = Ok p ->
  exists v rhos f, value (density_profile_3d E H r) (reads E H qs (fresh x y)) = Ok v /\
    (exists rs r200, value (nfw_params E H) (reads E H qs (fresh x y)) = Ok (rhos, rs, r200)) /\
    p_rhos p = rhos * f /\ f * v = tnfw_density p r /\ (rescaling (h_kind H) = false -> f = 1).
Proof.
  intros E H x y qs r p age Hr Hrs. unfold value. pose proof (fresh_inv E H age x y qs) as I.
  destruct (inv_phys E H age x y _ I) as (s1 & E1 & _). rewrite E1.
  destruct (inv_density E H age x y r _ I) as (s2 & E2 & _). rewrite E2.
  destruct (inv_get E H x y _ _ _ (get_nfw E H) I) as (s3 & E3 & _). rewrite E3.
  destruct (rt0 E H) as [[rt o]|e] eqn:Er; cbn [bind fst snd]; [|discriminate]. intros X; injection X as <-.
  unfold phys0 in *. destruct (nfw0 E H) as [[rhos rs] r200] eqn:En. cbn [p_rs p_rhos p_rt] in *.
  eexists _, rhos, (factor o). split; [reflexivity|]. split; [eauto|]. split; [reflexivity|]. split.
  - unfold tnfw_density. cbn [p_rs p_rhos p_rt].
    assert (Q : (rt / rs) ^ 2 / ((rt / rs) ^ 2 + (r / rs) ^ 2) = rt ^ 2 / (rt ^ 2 + r ^ 2)).
    { assert (D : 0 < rt ^ 2 + r ^ 2) by (pose proof (pow2_ge_0 rt); assert (0 < r ^ 2) by (rewrite <- Rsqr_pow2; apply Rsqr_pos_lt; exact Hr); lra).
      field_simplify_eq; [ring|]. repeat split; try lra; try exact Hrs. }
    replace (1 * (rhos / (r / rs) / (1 + r / rs) ^ 2) * (rt / rs) ^ 2 / ((rt / rs) ^ 2 + (r / rs) ^ 2))
      with (rhos * / (r / rs) * / (1 + r / rs) ^ 2 * ((rt / rs) ^ 2 / ((rt / rs) ^ 2 + (r / rs) ^ 2))) by (unfold Rdiv; ring).
    rewrite Q. generalize (rt ^ 2 / (rt ^ 2 + r ^ 2)), (r / rs), ((1 + r / rs) ^ 2). intros q a b. unfold Rdiv. rewrite Rinv_mult. ring.
  - intros K. destruct (rt0_cases E H rt o Er) as [_ R2]. rewrite (R2 K). reflexivity.
Qed.
(** ... so it is the reported profile for the classes that do not rescale, and for the others only if the factor is one. *)
Theorem C89_agrees : forall E H x y qs r p, ages_ok E -> r <> 0 -> p_rs p <> 0 -> rescaling (h_kind H) = false ->
  value (params_physical E H) (reads E H qs (fresh x y)) = Ok p ->
  value (density_profile_3d E H r) (reads E H qs (fresh x y)) = Ok (tnfw_density p r).
Proof.
  intros E H x y qs r p age Hr Hrs K X. destruct (C89_density E H x y qs r p age Hr Hrs X) as (v & rhos & f & A & _ & _ & B & D).
  rewrite A. f_equal. rewrite <- B, (D K). ring.
Qed.
Theorem C89_density_refuted : exists E H x y qs r p v, ages_ok E /\ 0 < r /\ 0 < p_rs p /\
  value (params_physical E H) (reads E H qs (fresh x y)) = Ok p /\
  value (density_profile_3d E H r) (reads E H qs (fresh x y)) = Ok v /\ v = 2 * tnfw_density p r /\ 0 < v.
Proof.
  exists demo_env, demo_resc, 1, 2, [], 2, (mkPhys (4 * (1 * (1 / 2))) 2 (2 * (10 + INR 0)) 1).
  eexists. split; [exact demo_ages|]. split; [lra|]. split; [cbn; lra|]. split; [crunch|]. split; [crunch|].
  unfold tnfw_density. cbn [p_rs p_rhos p_rt]. split; [field|lra].
Qed.
(** The radius given to ConstantTruncationArcsec is the truncation radius in kpc: in the lens model it is divided by the number of
    kpc per arcsecond. *)
Theorem C89_constant : forall E H x y qs rt, ages_ok E -> h_kind H = KConstant rt ->
  exists p k, value (params_physical E H) (reads E H qs (fresh x y)) = Ok p /\ p_rt p = rt /\
    value (lenstronomy_params E H) (reads E H qs (fresh x y)) = Ok k /\ k_rtrunc k = e_round E 10 (rt / e_kpc E (h_z H)).
Proof.
  intros E H x y qs rt age K. unfold value. pose proof (fresh_inv E H age x y qs) as I.
  destruct (inv_phys E H age x y _ I) as (s1 & E1 & _). rewrite E1.
  destruct (inv_kw E H age x y _ I) as (s2 & E2 & _). rewrite E2.
  assert (Er : rt0 E H = Ok (rt, None)) by (unfold rt0, tr0; rewrite K; destruct (h_sub H); reflexivity).
  rewrite Er. cbn [bind fst snd]. unfold phys0, kw0. destruct (nfw0 E H) as [[rhos rs] r200].
  destruct (e_angle E (rhos * 10 ^ 9) (rs * / 10 ^ 3) (h_z H)). do 2 eexists. repeat split.
Qed.
Theorem C89_constant_refuted : exists E H x y rt k, ages_ok E /\ h_kind H = KConstant rt /\
  value (lenstronomy_params E H) (fresh x y) = Ok k /\ k_rtrunc k = rt / 3 /\ 0 < rt.
Proof.
  exists demo_env, demo_const, 1, 2, 3. eexists. split; [exact demo_ages|]. split; [reflexivity|]. split; [crunch|].
  split; [|lra]. cbn [k_rtrunc]. unfold demo_round. rewrite (Int_part_val _ (10 ^ 10)); lra.
Qed.
Example C89_nonvacuous : exists p v, value (params_physical demo_env demo_const) (reads demo_env demo_const [QC; QLensing] (fresh 1 2)) = Ok p /\
  value (density_profile_3d demo_env demo_const 2) (reads demo_env demo_const [QC; QLensing] (fresh 1 2)) = Ok v /\ v = tnfw_density p 2.
Proof.
  eexists. eexists. split; [crunch|]. split; [|reflexivity]. apply C89_agrees; [exact demo_ages|lra| |reflexivity|crunch]. cbn [p_rs]. lra.
Qed.

(** ** C90 *)
Theorem C90_same : forall E H x y qs p c z zi t rhos rs r200, ages_ok E ->
  let s := reads E H qs (fresh x y) in
  value (params_physical E H) s = Ok p -> value (conc E H) s = Ok c -> value (z_eval E H) s = Ok z ->
  value (z_infall E H) s = Ok zi -> value (time_since_infall E H) s = Ok t -> value (nfw_params E H) s = Ok (rhos, rs, r200) ->
  match call_for E (h_kind H) (h_mass H) (h_r3d H) c z zi t rs with
  | Some (DApproxCDM _ _ _) | None => True
  | Some a => exists st, direct E st 0 (h_kind H) a = Ok (p_rt p)
  end.
Proof.
  intros E H x y qs p c z zi t rhos rs r200 age s. unfold value. pose proof (fresh_inv E H age x y qs) as I. fold s in I.
  destruct (inv_phys E H age x y _ I) as (s1 & E1 & _). rewrite E1.
  destruct (inv_get E H x y _ _ _ (get_conc E H) I) as (s2 & E2 & _). rewrite E2.
  destruct (inv_get E H x y _ _ _ (get_z_eval E H) I) as (s3 & E3 & _). rewrite E3.
  destruct (inv_get E H x y _ _ _ (get_z_infall E H) I) as (s4 & E4 & _). rewrite E4.
  destruct (inv_get E H x y _ _ _ (get_time E H age) I) as (s5 & E5 & _). rewrite E5.
  destruct (inv_get E H x y _ _ _ (get_nfw E H) I) as (s6 & E6 & _). rewrite E6. cbn [fst].
  destruct (rt0 E H) as [[rt o]|e] eqn:Er; cbn [bind fst snd]; [|discriminate].
  intros X X1 X2 X3 X4 X5. injection X as <-. injection X1 as <-. injection X2 as <-. injection X3 as <-. injection X4 as <-. injection X5 as X5.
  unfold phys0. rewrite X5. cbn [p_rt].
  assert (ST : forall m, st0 E H m = (rt, o) -> d_structure E m (h_mass H) (c0 E H) (ze0 E H) = rt).
  { intros m Hs. unfold st0 in Hs. unfold d_structure. change (e_nfw E (h_mass H) (c0 E H) (ze0 E H)) with (nfw0 E H).
    rewrite X5 in *. destruct (e_rte E m (h_mass H) r200 (c0 E H)). injection Hs as <- _. reflexivity. }
  unfold rt0, tr0 in Er. unfold nfw0 in X5.
  destruct (h_kind H) eqn:K; cbn [call_for]; auto.
  - exists STrunc. cbn [direct]. destruct (h_sub H); injection Er as <- _; reflexivity.
  - exists STrunc. cbn [direct]. destruct (h_sub H); injection Er as <- _; reflexivity.
  - exists STrunc. cbn [direct]. destruct (h_sub H); injection Er as <- _; reflexivity.
  - exists STrunc. cbn [direct]. rewrite X5. unfold nfw0 in Er. rewrite X5 in Er. destruct (h_sub H); injection Er as <- _; reflexivity.
  - exists STrunc. cbn [direct]. unfold nfw0 in Er. rewrite X5 in Er. destruct (h_sub H); injection Er as <- _; reflexivity.
  - exists STrunc. cbn [direct]. destruct (h_sub H); injection Er as <- _; reflexivity.
  - exists STrunc. cbn [direct]. unfold nfw0 in Er. rewrite X5 in *. unfold loss0, d_loss in *. destruct (t0 E H) as [tt|]; cbn [bind] in *;
      destruct (h_sub H); try discriminate Er; injection Er as <- _; reflexivity.
  - unfold mb0, loss0 in Er. rewrite K in Er. destruct (h_sub H) eqn:Hs.
    + exists SBound. cbn [direct]. unfold d_loss. destruct (t0 E H) as [tt|]; cbn [bind] in *; [|discriminate Er]. injection Er as Er.
      f_equal. exact (ST _ Er).
    + unfold t0 in Er. rewrite Hs in Er. discriminate Er.
  - exists STrunc. cbn [direct]. unfold loss0, d_loss in *. cbn [bind] in *. f_equal.
    apply ST. destruct (h_sub H); injection Er as Er; exact Er.
  - exists STrunc. cbn [direct]. unfold loss0, d_loss in *. destruct (t0 E H) as [tt|]; cbn [bind] in *;
      [|destruct (h_sub H); discriminate Er]. f_equal.
    apply ST. destruct (h_sub H); injection Er as Er; exact Er.
Qed.
(** The class that samples the bound fraction of CDM halos can not be used this way, although it offers the method and truncates halo
    objects without error; the bound-mass PDF class has no such method. *)
Theorem C90_refuted : (forall E st n m c z, direct E st n KApproxCDM (DApproxCDM m c z) = Err EAttributeError) /\
  (forall E H x y, ages_ok E -> h_kind H = KApproxCDM -> exists p, value (params_physical E H) (fresh x y) = Ok p).
Proof.
  split; [reflexivity|]. intros E H x y age K. unfold value. pose proof (fresh_inv E H age x y []) as I.
  destruct (inv_phys E H age x y _ I) as (s1 & E1 & _). cbn [reads fold_left] in E1. rewrite E1.
  unfold rt0, tr0. rewrite K. destruct (h_sub H); cbn [bind fst]; eauto.
Qed.
Definition demo_gal : Static := mkStatic 8 50 (1 / 2) true (KGalacticus 6).
Example C90_nonvacuous : exists p c z zi t q, ages_ok demo_env /\
  let s := reads demo_env demo_gal [QLensing; QMbound] (fresh 1 2) in
  value (params_physical demo_env demo_gal) s = Ok p /\ value (conc demo_env demo_gal) s = Ok c /\ value (z_eval demo_env demo_gal) s = Ok z /\
  value (z_infall demo_env demo_gal) s = Ok zi /\ value (time_since_infall demo_env demo_gal) s = Ok t /\ value (nfw_params demo_env demo_gal) s = Ok q.
Proof.
  pose proof (fresh_inv demo_env demo_gal demo_ages 1 2 [QLensing; QMbound]) as I. unfold value.
  destruct (inv_phys _ _ demo_ages 1 2 _ I) as (s1 & E1 & _).
  destruct (inv_get _ _ 1 2 _ _ _ (get_conc demo_env demo_gal) I) as (s2 & E2 & _).
  destruct (inv_get _ _ 1 2 _ _ _ (get_z_eval demo_env demo_gal) I) as (s3 & E3 & _).
  destruct (inv_get _ _ 1 2 _ _ _ (get_z_infall demo_env demo_gal) I) as (s4 & E4 & _).
  destruct (inv_get _ _ 1 2 _ _ _ (get_time demo_env demo_gal demo_ages) I) as (s5 & E5 & _).
  destruct (inv_get _ _ 1 2 _ _ _ (get_nfw demo_env demo_gal) I) as (s6 & E6 & _).
  do 6 eexists. split; [exact demo_ages|]. cbv zeta. rewrite E1, E2, E3, E4, E5, E6. cbn [fst]. repeat split.
Qed.

(** ** C86, for halo objects *)
(** A halo object truncated at the overdensity N reports, after any queries, the radius inside which its mass has N times the critical
    density at the redshift where the halo is evaluated. *)
From Verif Require NfwModel NfwSpec TruncModel TruncProps.
Theorem C86_halo : forall C E H x y qs N p z, ages_ok E -> NfwSpec.expanding C ->
  (forall N m z, e_rN E N m z = TruncModel.rn_radius C N m z) -> h_kind H = KRN N -> 0 < N -> 0 < h_mass H -> 0 <= z ->
  value (z_eval E H) (reads E H qs (fresh x y)) = Ok z ->
  value (params_physical E H) (reads E H qs (fresh x y)) = Ok p ->
  0 < p_rt p /\ TruncProps.mean_density (h_mass H) (p_rt p) = N * NfwSpec.critical_kpc C z.
Proof.
  intros C E H x y qs N p z age K EN Kd HN Hm Hz. unfold value. pose proof (fresh_inv E H age x y qs) as I.
  destruct (inv_phys E H age x y _ I) as (s1 & E1 & _). rewrite E1.
  destruct (inv_get E H x y _ _ _ (get_z_eval E H) I) as (s3 & E3 & _). rewrite E3. cbn [fst].
  assert (Er : rt0 E H = Ok (TruncModel.rn_radius C N (h_mass H) (ze0 E H), None)).
  { unfold rt0, tr0. rewrite Kd, EN. destruct (h_sub H); reflexivity. }
  rewrite Er. cbn [bind fst snd]. intros X1 X2. apply Ok_inj in X1. apply Ok_inj in X2. subst z p.
  unfold phys0. destruct (nfw0 E H) as [[rhos rs] r200]. cbn [p_rt]. apply TruncProps.C86_encloses; assumption.
Qed.

Print Assumptions C89_density.
Print Assumptions C89_agrees.
Print Assumptions C89_density_refuted.
Print Assumptions C89_constant.
Print Assumptions C89_constant_refuted.
Print Assumptions C90_same.
Print Assumptions C90_refuted.
Print Assumptions C86_halo.
