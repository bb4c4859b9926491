(** C112: the densities halos report and those of the lens models they hand out. *)
From Coquelicot Require Import Coquelicot.
From Verif Require Import Prelude NfwModel NfwSpec TnfwSpec NfwProofs NfwProps SidmProps JaffeProps GcoreProps DensModel.
From Verif Require HaloStateModel HaloStateSpec HaloStateProofs HaloStateProps.
Local Open Scope R_scope.

(** ** Truncated NFW *)
(** The lens model handed out has, in solar masses per cubic kpc, the truncated NFW density of the halo times the normalisation of the halo. *)
Theorem C112_tnfw_lens : forall C zs z rhos rs rt norm r, distances_ok C z zs -> angle_units C z -> 0 < rs -> 0 < rt -> 0 < r ->
  density_profile_3d_lenstronomy C zs z rhos rs rt norm r = rho_tnfw (rhos * norm) rs rt r.
Proof.
  intros C zs z rhos rs rt norm r DO AU Hs Ht Hr.
  assert (PA : 0 < arcsec) by (unfold arcsec; pose proof PI_RGT_0; lra).
  pose proof (sigma_pos C z zs DO) as PS. destruct DO as (D1 & D2 & D3 & D4).
  assert (PK : 0 < co_kpc C z) by (rewrite AU; apply Rmult_lt_0_compat; [apply Rmult_lt_0_compat; assumption|lra]).
  unfold density_profile_3d_lenstronomy, tnfw_kw, nfw_physical2angle_fromNFWparams, tnfw_lens_density, tnfw_alpha2rho0, rho_tnfw.
  set (S := get_sigma_crit_lensing C z zs) in *. pose proof L_pos as LP. set (L := ln (1 / 2)) in *. clearbody L.
  unfold angle_units in AU. set (k := co_kpc C z) in *. clearbody k. set (dd := co_DAz C z) in *. clearbody dd.
  replace (rs / 10 ^ 3 / dd / arcsec) with (rs / k) by (rewrite AU; field; repeat split; lra).
  replace (r / k / (rs / k)) with (r / rs) by (field; split; lra). set (x := r / rs).
  assert (Hx : 0 < x) by (apply Rdiv_lt_0_compat; assumption). assert (Er : r = x * rs) by (unfold x; field; lra). clearbody x. subst r.
  subst k. field. repeat split; try lra; nra.
Qed.

Import HaloStateSpec.
(** The density a halo object reports leaves out its normalisation: multiplied by the tidal factor of the halo it is the density of its physical
    parameters, which is the one of the lens model.  Only truncation models that never rescale have factor one. *)
Theorem C112_tnfw_object : forall E H x y qs p r, ages_ok E -> value (HaloStateModel.params_physical E H) (HaloStateModel.reads E H qs (HaloStateModel.fresh x y)) = Ok p ->
  0 < HaloStateModel.p_rs p -> 0 < HaloStateModel.p_rt p -> 0 < r ->
  exists f d, value (HaloStateModel.density_profile_3d E H r) (HaloStateModel.reads E H qs (HaloStateModel.fresh x y)) = Ok d /\
    f * d = rho_tnfw (HaloStateModel.p_rhos p) (HaloStateModel.p_rs p) (HaloStateModel.p_rt p) r /\
    (rescaling (HaloStateModel.h_kind H) = false -> f = 1) /\
    (rescaling (HaloStateModel.h_kind H) = true -> exists m_bound c, HaloStateModel.e_rte E m_bound (HaloStateModel.h_mass H) (HaloStateModel.p_r200 p) c = (HaloStateModel.p_rt p, f)).
Proof.
  intros E H x y qs p r AG EP Hs Ht Hr. pose proof (HaloStateProofs.inv_reads E H AG x y qs _ (HaloStateProofs.inv_fresh E H x y)) as I1.
  set (s := HaloStateModel.reads E H qs (HaloStateModel.fresh x y)) in *.
  destruct (HaloStateProofs.inv_phys E H AG x y _ I1) as (s1 & Q1 & _). destruct (HaloStateProofs.inv_density E H AG x y r _ I1) as (s2 & Q2 & _).
  unfold value in *. rewrite Q1 in EP. rewrite Q2. cbn [fst] in EP |- *.
  destruct (HaloStateProofs.rt0 E H) as [[rt o]|e] eqn:RT; [|discriminate]. cbn [bind fst snd] in EP |- *. injection EP as EP. subst p.
  unfold HaloStateProofs.phys0 in *. destruct (HaloStateProofs.nfw0 E H) as [[rhos rs] r2] eqn:NF. cbn [HaloStateModel.p_rs HaloStateModel.p_rt HaloStateModel.p_rhos HaloStateModel.p_r200] in *.
  exists (HaloStateProofs.factor o). eexists. split; [reflexivity|]. split; [|split].
  - unfold rho_tnfw. set (t := HaloStateProofs.factor o). set (u := r / rs). assert (Hu : 0 < u) by (apply Rdiv_lt_0_compat; assumption).
    assert (Er : r = u * rs) by (unfold u; field; lra). clearbody u. subst r. field. repeat split; try lra; nra.
  - intros K. unfold HaloStateProofs.rt0, HaloStateProofs.tr0 in RT. destruct (HaloStateModel.h_sub H); destruct (HaloStateModel.h_kind H); try discriminate;
      cbn [bind] in RT; try (injection RT as _ RT; rewrite <- RT; reflexivity);
      match type of RT with (do l <- ?m; _) = _ => destruct m; [|discriminate] end; injection RT as _ RT; rewrite <- RT; reflexivity.
  - intros K. assert (ST : exists mb, HaloStateProofs.st0 E H mb = (rt, o)).
    { unfold HaloStateProofs.rt0, HaloStateProofs.tr0 in RT. destruct (HaloStateModel.h_sub H); destruct (HaloStateModel.h_kind H); try discriminate; cbn [bind] in RT;
      try (injection RT as RT; eexists; exact RT);
      match type of RT with (do l <- ?m; _) = _ => destruct m; [|discriminate] end; injection RT as RT; eexists; exact RT. }
    destruct ST as [mb ST]. unfold HaloStateProofs.st0 in ST. rewrite NF in ST.
    destruct (HaloStateModel.e_rte E mb (HaloStateModel.h_mass H) r2 (HaloStateProofs.c0 E H)) as [a b] eqn:ER. injection ST as -> <-.
    exists mb, (HaloStateProofs.c0 E H). rewrite ER. cbn [HaloStateProofs.factor]. rewrite Rmult_1_l. reflexivity.
Qed.

(** Refuted: 'the density profile of the halo' is the density of the halo that is lensed.  A subhalo that keeps half its normalisation reports twice
    the density of its lens model, at every radius. *)
Theorem C112_tnfw_object_refuted : exists E H x y p, ages_ok E /\ value (HaloStateModel.params_physical E H) (HaloStateModel.fresh x y) = Ok p /\
  forall C zs z r, distances_ok C z zs -> angle_units C z -> 0 < r ->
    exists d, value (HaloStateModel.density_profile_3d E H r) (HaloStateModel.fresh x y) = Ok d /\
      d = 2 * density_profile_3d_lenstronomy C zs z (2 * HaloStateModel.p_rhos p) (HaloStateModel.p_rs p) (HaloStateModel.p_rt p) (1 / 2) r /\ 0 < d.
Proof.
  exists HaloStateProps.demo_env, HaloStateProps.demo_resc, 1, 2, (HaloStateModel.mkPhys (4 * (1 * (1 / 2))) 2 (2 * (10 + INR 0)) 1).
  split; [exact HaloStateProps.demo_ages|]. split; [reflexivity|].
  intros C zs z r DO AU Hr. cbn [HaloStateModel.p_rhos HaloStateModel.p_rs HaloStateModel.p_rt].
  exists (1 * (4 / (r / 2) / (1 + r / 2) ^ 2) * (1 / 2) ^ 2 / ((1 / 2) ^ 2 + (r / 2) ^ 2)). split; [reflexivity|].
  rewrite C112_tnfw_lens by (assumption || lra). unfold rho_tnfw. cbn [fst snd].
  set (u := r / 2). assert (Hu : 0 < u) by (unfold u; lra). assert (Er : r = u * 2) by (unfold u; field). clearbody u. subst r.
  assert (P : 0 < 1 * (4 / u / (1 + u) ^ 2) * (1 / 2) ^ 2 / ((1 / 2) ^ 2 + u ^ 2)).
  { assert (0 < (1 + u) ^ 2) by (apply pow_lt; lra). assert (0 < u ^ 2) by (apply pow_lt; lra).
    apply Rdiv_lt_0_compat; [|lra]. apply Rmult_lt_0_compat; [|lra]. apply Rmult_lt_0_compat; [lra|]. apply Rdiv_lt_0_compat; [|assumption]. apply Rdiv_lt_0_compat; lra. }
  split; [|exact P]. field. repeat split; try lra; nra.
Qed.

(** ** Globular clusters *)
(** lenstronomy's SPLCORE density is the cored power law *)
Definition is_cored_density (density : R -> R -> R -> R -> R) : Prop := forall r rho0 rc g, density r rho0 rc g = cored_plaw rho0 rc g r.
(** The lens model handed out has, in solar masses per cubic kpc, the density of the profile the object reports (profile_args), and that density
    has the mass of the cluster inside its size. *)
Theorem C112_cluster : forall C M3 density zs z mass g size conc r, is_cored_mass M3 -> is_cored_density density -> distances_ok C z zs -> 0 < co_kpc C z ->
  0 < mass -> 0 < size -> 0 < conc ->
  let '(rho0, size_kpc, gamma, rc) := gc_profile_args M3 mass g size conc in
  size_kpc = size / 1000 /\ gamma = g /\ rc = size / 1000 / conc /\ 0 < rho0 /\
  gc_density_lenstronomy M3 density C zs z mass g size conc r = cored_plaw rho0 rc g r /\
  sphere_mass (cored_plaw rho0 rc g) (size / 1000) = mass.
Proof.
  intros C M3 density zs z mass g size conc r CM CD DO Hk Hm Hs Hc. pose proof (sigma_pos C z zs DO) as PS.
  unfold gc_density_lenstronomy, gc_lenstronomy, gc_profile_args. set (k := co_kpc C z) in *. clearbody k. set (sg := get_sigma_crit_lensing C z zs) in *. clearbody sg.
  replace (/ 10 ^ 3) with (/ 1000) by (f_equal; ring). change (size * / 1000) with (size / 1000). set (b := size / 1000).
  assert (Pb : 0 < b) by (unfold b; lra). clearbody b.
  assert (P1 : 0 < b / conc) by (apply Rdiv_lt_0_compat; assumption). assert (P2 : 0 < b / k) by (apply Rdiv_lt_0_compat; assumption).
  assert (P3 : 0 < b / k / conc) by (apply Rdiv_lt_0_compat; assumption).
  rewrite !CM by assumption. rewrite CD.
  pose proof (cored_pos 1 (b / conc) g b Rlt_0_1 P1 Pb) as PI1. pose proof (cored_pos 1 (b / k / conc) g (b / k) Rlt_0_1 P3 P2) as PI2.
  assert (U : sphere_mass (cored_plaw 1 (b / conc) g) b = k ^ 3 * sphere_mass (cored_plaw 1 (b / k / conc) g) (b / k)).
  { rewrite <- cored_units by assumption. f_equal; [f_equal|]; field; repeat split; lra. }
  replace (sg * (/ 1000 * k) ^ 2) with (sg * (/ 1000 * k) ^ 2 * 1) by ring. rewrite cored_scal by exact P3.
  set (I2 := sphere_mass (cored_plaw 1 (b / k / conc) g) (b / k)) in *. clearbody I2.
  split; [reflexivity|]. split; [reflexivity|]. split; [reflexivity|]. split; [apply Rdiv_lt_0_compat; assumption|]. split.
  - rewrite U. unfold cored_plaw.
    replace ((b / k / conc) ^ 2 / ((b / k / conc) ^ 2 + (r / k) ^ 2)) with ((b / conc) ^ 2 / ((b / conc) ^ 2 + r ^ 2)).
    2:{ set (t := b / conc) in *. assert (0 < t ^ 2) by (apply pow_lt; assumption). pose proof (pow2_ge_0 r).
      replace (b / k / conc) with (t / k) by (unfold t; field; split; lra).
      replace ((t / k) ^ 2 + (r / k) ^ 2) with ((t ^ 2 + r ^ 2) / k ^ 2) by (field; lra). field. repeat split; lra. }
    set (P := Rpower _ _). field. repeat split; lra.
  - rewrite <- (Rmult_1_r (mass / _)), cored_scal by exact P1. field. lra.
Qed.

(** a root finder that returns a zero between the ends when the signs there differ (scipy's brentq on a continuous function) *)
Definition finds_roots (root : (R -> R) -> R -> R -> R) : Prop :=
  forall f a b, a < b -> (forall x, a <= x <= b -> continuous f x) -> f a * f b <= 0 -> a <= root f a b <= b /\ f (root f a b) = 0.
Lemma cored_ex rho0 rc g a b : 0 < rc -> ex_RInt (fun r => 4 * PI * r ^ 2 * cored_plaw rho0 rc g r) a b.
Proof. intros P. apply (ex_RInt_continuous (V := R_CompleteNormedModule)). intros x _. apply cored_cont. exact P. Qed.
Lemma cored_increasing rho0 rc g a b : 0 < rho0 -> 0 < rc -> 0 <= a -> a < b -> sphere_mass (cored_plaw rho0 rc g) a < sphere_mass (cored_plaw rho0 rc g) b.
Proof.
  intros P Q Ha Hab. unfold sphere_mass.
  rewrite <- (RInt_Chasles (V := R_CompleteNormedModule) _ 0 a b) by (apply cored_ex; exact Q).
  assert (G : 0 < RInt (fun r => 4 * PI * r ^ 2 * cored_plaw rho0 rc g r) a b).
  { apply RInt_gt_0; [exact Hab| |].
    - intros x [X _]. pose proof PI_RGT_0. assert (0 < x ^ 2) by (apply pow_lt; lra). unfold cored_plaw, Rpower.
      pose proof (exp_pos (g / 2 * ln (rc ^ 2 / (rc ^ 2 + x ^ 2)))). apply Rmult_lt_0_compat; [|apply Rmult_lt_0_compat; assumption].
      apply Rmult_lt_0_compat; [lra|assumption].
    - intros x _. apply cored_cont. exact Q. }
  change (plus ?u ?v) with (u + v). lra.
Qed.
(** half_mass_radius returns (in pc) the only radius inside the cluster that encloses half of its mass; it raises exactly when that radius is smaller
    than 10^-4 of the size. *)
Theorem C112_half_mass : forall M3 root mass g size conc, is_cored_mass M3 -> finds_roots root -> 0 < mass -> 0 < size -> 0 < conc ->
  let '(rho0, _, _, rc) := gc_profile_args M3 mass g size conc in
  let inside r := sphere_mass (cored_plaw rho0 rc g) (r / 1000) in
  (half_mass_radius M3 root mass g size conc = Err EValueError /\ mass / 2 < inside (size / 10 ^ 4)) \/
  (exists r, half_mass_radius M3 root mass g size conc = Ok r /\ size / 10 ^ 4 <= r < size /\ inside r = mass / 2 /\
     forall r', 0 < r' -> inside r' = mass / 2 -> r' = r).
Proof.
  intros M3 root mass g size conc CM FR Hm Hs Hc. unfold half_mass_radius, gc_profile_args.
  replace (/ 10 ^ 3) with (/ 1000) by (f_equal; ring). change (size * / 1000) with (size / 1000). set (b := size / 1000).
  assert (Pb : 0 < b) by (unfold b; lra). assert (Es : size = b * 1000) by (unfold b; field). clearbody b. subst size.
  assert (P1 : 0 < b / conc) by (apply Rdiv_lt_0_compat; assumption). rewrite !CM by assumption. set (rc := b / conc) in *. clearbody rc.
  pose proof (cored_pos 1 rc g b Rlt_0_1 P1 Pb) as PI1. set (I1 := sphere_mass (cored_plaw 1 rc g) b) in *.
  set (rho0 := mass / I1). assert (Pr : 0 < rho0) by (apply Rdiv_lt_0_compat; assumption).
  assert (MB : sphere_mass (cored_plaw rho0 rc g) b = mass).
  { rewrite <- (Rmult_1_r rho0), cored_scal by exact P1. fold I1. unfold rho0. field. lra. }
  clearbody rho0. set (f := fun r => M3 r rho0 rc g - 0.5 * mass).
  set (h := fun r => sphere_mass (cored_plaw rho0 rc g) r - mass / 2).
  assert (FH : forall r, 0 < r -> f r = h r) by (intros r Hr; unfold f, h; rewrite CM by assumption; lra).
  set (a := / 10 ^ 4 * b). assert (Pa : 0 < a) by (unfold a; lra). assert (Pab : a < b) by (unfold a; lra).
  assert (Hb : f b = mass / 2) by (rewrite FH by assumption; unfold h; rewrite MB; lra).
  assert (Ea : b * 1000 / 10 ^ 4 / 1000 = a) by (unfold a; field). unfold brentq.
  destruct (Rle_dec (f a) 0) as [LE|GT].
  - right. assert (B : Rltb 0 (f a * f b) = false) by (apply Rltb_false; rewrite Hb; nra). rewrite B. cbn [bind].
    assert (CF : forall x, a <= x <= b -> continuous f x).
    { intros x Hx. apply (continuous_ext_loc f h x).
      - assert (PX : 0 < x) by lra. exists (mkposreal x PX). intros y By. symmetry. apply FH. unfold ball in By; cbn in By.
        unfold AbsRing_ball, abs, minus, plus, opp in By; cbn in By. apply Rabs_def2 in By. lra.
      - unfold h. apply (continuous_minus (V := R_NormedModule) (fun r => sphere_mass (cored_plaw rho0 rc g) r) (fun _ => mass / 2)); [|apply continuous_const]. unfold sphere_mass.
        apply (continuous_RInt_1 (V := R_NormedModule) (fun r => 4 * PI * r ^ 2 * cored_plaw rho0 rc g r) 0 x (fun y => RInt (fun r => 4 * PI * r ^ 2 * cored_plaw rho0 rc g r) 0 y)).
        exists (mkposreal 1 Rlt_0_1). intros y _. apply (RInt_correct (V := R_CompleteNormedModule)). apply cored_ex. exact P1. }
    destruct (FR f a b Pab CF) as [[R1 R2] R3]; [rewrite Hb; nra|]. set (r := root f a b) in *.
    assert (Pr0 : 0 < r) by lra. rewrite FH in R3 by exact Pr0. unfold h in R3.
    exists (r * 1000). split; [reflexivity|]. replace (r * 1000 / 1000) with r by field. split; [split|split].
    + unfold a in R1. lra.
    + assert (r <> b); [|lra]. intros ->. rewrite MB in R3. lra.
    + lra.
    + intros r' Hr' E'. assert (Pr' : 0 < r' / 1000) by lra. destruct (Rtotal_order (r' / 1000) r) as [L|[L|L]]; [|lra|].
      * pose proof (cored_increasing rho0 rc g _ _ Pr P1 (Rlt_le _ _ Pr') L). lra.
      * pose proof (cored_increasing rho0 rc g _ _ Pr P1 (Rlt_le _ _ Pr0) L). lra.
  - left. assert (B : Rltb 0 (f a * f b) = true) by (apply Rltb_true; rewrite Hb; nra). rewrite B. cbn [bind]. split; [reflexivity|].
    rewrite Ea. rewrite FH in GT by exact Pa. unfold h in GT. lra.
Qed.

(** ** Concrete cases *)
(** a root finder: the end of the interval on which the sign stays that of the left end *)
Definition keeps_sign (f : R -> R) (a b x : R) : Prop := a <= x <= Rmax a b /\ (x = a \/ forall y, a <= y <= x -> 0 < f y * f a).
Lemma keeps_bound f a b : bound (keeps_sign f a b).
Proof. exists (Rmax a b). intros x [[_ H] _]. exact H. Qed.
Lemma keeps_some f a b : exists x, keeps_sign f a b x.
Proof. exists a. split; [split; [lra|apply Rmax_l]|left; reflexivity]. Qed.
Definition sup_root (f : R -> R) (a b : R) : R := proj1_sig (completeness _ (keeps_bound f a b) (keeps_some f a b)).
Lemma near (g : R -> R) z : continuous g z -> g z <> 0 -> exists d, 0 < d /\ forall y, Rabs (y - z) < d -> 0 < g y * g z.
Proof.
  intros Cg Nz. assert (PA : 0 < Rabs (g z)) by (apply Rabs_pos_lt; exact Nz).
  assert (L : locally (g z) (fun v => Rabs (v - g z) < Rabs (g z))) by (exists (mkposreal _ PA); intros v Bv; exact Bv).
  destruct (Cg _ L) as [d Hd]. exists d. split; [apply cond_pos|]. intros y Hy. specialize (Hd y Hy). cbn beta in Hd.
  destruct (Rlt_dec (g z) 0) as [N|N].
  - rewrite (Rabs_left (g z)) in Hd by exact N. apply Rabs_def2 in Hd. nra.
  - rewrite (Rabs_right (g z)) in Hd by lra. apply Rabs_def2 in Hd. nra.
Qed.
Lemma sup_root_ok : finds_roots sup_root.
Proof.
  intros f a b Hab Cf Sg. unfold sup_root. destruct (completeness _ (keeps_bound f a b) (keeps_some f a b)) as [z [Uz Lz]]. cbn [proj1_sig].
  assert (MX : Rmax a b = b) by (apply Rmax_right; lra).
  assert (Za : a <= z) by (apply Uz; split; [rewrite MX; lra|left; reflexivity]).
  assert (Zb : z <= b) by (apply Lz; intros x [[_ H] _]; rewrite MX in H; exact H).
  split; [lra|]. destruct (Req_dec (f a) 0) as [A0|A0].
  - assert (z = a); [|subst z; exact A0]. apply Rle_antisym; [|exact Za]. apply Lz. intros x [[H1 _] [->|H2]]; [lra|].
    specialize (H2 a ltac:(lra)). rewrite A0 in H2. lra.
  - destruct (Req_dec (f z) 0) as [Z0|Z0]; [exact Z0|]. exfalso. assert (PA : 0 < f a * f a) by nra.
    destruct (near f z (Cf z ltac:(lra)) Z0) as (d & Pd & Hd).
    assert (EX : exists e, keeps_sign f a b e /\ z - d / 2 < e).
    { destruct (Classical_Prop.classic (exists e, keeps_sign f a b e /\ z - d / 2 < e)) as [H|H]; [exact H|]. exfalso.
      assert (z <= z - d / 2); [|lra]. apply Lz. intros x Kx. destruct (Rle_dec x (z - d / 2)); [assumption|]. exfalso. apply H. exists x. split; [exact Kx|lra]. }
    destruct EX as (e & Ke & He). pose proof (Uz e Ke) as Ez. destruct Ke as [[E1 _] E2].
    assert (GE : forall y, a <= y <= e -> 0 < f y * f a) by (destruct E2 as [->|E2]; [intros y Hy; replace y with a by lra; exact PA|exact E2]).
    assert (SE : 0 < f e * f z) by (apply Hd; apply Rabs_def1; lra). pose proof (GE e ltac:(lra)) as G1.
    assert (SZ : 0 < f z * f a) by (destruct (Rlt_dec 0 (f e)); destruct (Rlt_dec 0 (f a)); destruct (Rlt_dec 0 (f z)); nra).
    assert (ZB : z < b). { destruct (Rle_lt_or_eq_dec z b Zb) as [L|L]; [exact L|]. subst z. nra. }
    set (w := Rmin b (z + d / 2)). assert (W1 : z < w) by (unfold w; apply Rmin_glb_lt; lra).
    assert (W2 : w <= b) by apply Rmin_l. assert (W3 : w <= z + d / 2) by apply Rmin_r.
    assert (KW : keeps_sign f a b w).
    { split; [rewrite MX; lra|]. right. intros y Hy. destruct (Rle_dec y e) as [L|L]; [apply GE; lra|].
      assert (0 < f y * f z) by (apply Hd; apply Rabs_def1; lra). destruct (Rlt_dec 0 (f y)); destruct (Rlt_dec 0 (f a)); destruct (Rlt_dec 0 (f z)); nra. }
    pose proof (Uz w KW). lra.
Qed.
Definition demo_M3 (r rho0 rc g : R) : R := sphere_mass (cored_plaw rho0 rc g) r.
Lemma demo_M3_ok : is_cored_mass demo_M3.
Proof. intros r rho0 rc g _ _. reflexivity. Qed.

Example C112_tnfw_lens_nonvacuous : distances_ok demo_units 0.5 2 /\ angle_units demo_units 0.5 /\
  density_profile_3d_lenstronomy demo_units 2 0.5 (10 ^ 7) 0.8 3 0.6 1.5 = rho_tnfw (10 ^ 7 * 0.6) 0.8 3 1.5.
Proof.
  split; [exact demo_units_distances|]. split; [reflexivity|]. apply C112_tnfw_lens; [exact demo_units_distances|reflexivity|lra|lra|lra].
Qed.
Example C112_tnfw_object_nonvacuous : exists p f d, value (HaloStateModel.params_physical HaloStateProps.demo_env HaloStateProps.demo_resc)
    (HaloStateModel.reads HaloStateProps.demo_env HaloStateProps.demo_resc (HaloStateModel.QVmax :: HaloStateModel.QDensity 2 :: nil) (HaloStateModel.fresh 1 2)) = Ok p /\
  f * d = rho_tnfw (HaloStateModel.p_rhos p) (HaloStateModel.p_rs p) (HaloStateModel.p_rt p) 3 /\ f = 1 / 2.
Proof.
  exists (HaloStateModel.mkPhys (4 * (1 * (1 / 2))) 2 (2 * (10 + INR 0)) 1). 
  destruct (C112_tnfw_object HaloStateProps.demo_env HaloStateProps.demo_resc 1 2 (HaloStateModel.QVmax :: HaloStateModel.QDensity 2 :: nil)
    (HaloStateModel.mkPhys (4 * (1 * (1 / 2))) 2 (2 * (10 + INR 0)) 1) 3 HaloStateProps.demo_ages eq_refl) as (f & d & _ & E & _ & K); cbn; try lra.
  exists f, d. split; [reflexivity|]. split; [exact E|]. destruct (K eq_refl) as (mb & c & Q). injection Q as Q. symmetry. exact Q.
Qed.
Example C112_tnfw_object_refuted_nonvacuous : distances_ok demo_units 0.5 2 /\ angle_units demo_units 0.5.
Proof. split; [exact demo_units_distances|reflexivity]. Qed.
Example C112_cluster_nonvacuous : is_cored_mass demo_M3 /\ is_cored_density (fun r rho0 rc g => cored_plaw rho0 rc g r) /\ distances_ok demo_units 0.5 2 /\ 0 < co_kpc demo_units 0.5 /\
  let '(rho0, _, _, rc) := gc_profile_args demo_M3 (10 ^ 5) 6 50 10 in sphere_mass (cored_plaw rho0 rc 6) (50 / 1000) = 10 ^ 5.
Proof.
  assert (K : 0 < co_kpc demo_units 0.5) by (cbn; pose proof PI_RGT_0; unfold arcsec; lra).
  split; [exact demo_M3_ok|]. split; [intros r rho0 rc g; reflexivity|]. split; [exact demo_units_distances|]. split; [exact K|].
  pose proof (C112_cluster demo_units demo_M3 (fun r rho0 rc g => cored_plaw rho0 rc g r) 2 0.5 (10 ^ 5) 6 50 10 1 demo_M3_ok ltac:(intros r rho0 rc g; reflexivity)
    demo_units_distances K ltac:(lra) ltac:(lra) ltac:(lra)) as H. destruct (gc_profile_args demo_M3 (10 ^ 5) 6 50 10) as [[[rho0 a] b] rc].
  apply H.
Qed.
Example C112_half_mass_nonvacuous : is_cored_mass demo_M3 /\ finds_roots sup_root.
Proof. split; [exact demo_M3_ok|exact sup_root_ok]. Qed.

Print Assumptions C112_tnfw_lens.
Print Assumptions C112_tnfw_object.
Print Assumptions C112_tnfw_object_refuted.
Print Assumptions C112_cluster.
Print Assumptions C112_half_mass.
