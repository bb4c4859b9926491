(** Properties of GcoreModel (C110). *)
From Coquelicot Require Import Coquelicot.
From Verif Require Import Prelude NfwModel NfwSpec TnfwSpec NfwProofs NfwProps GcoreModel.
Local Open Scope R_scope.

(** ** Generalised NFW halos *)
Lemma slope_alt r rs gi go : 0 < r -> 0 < rs -> gnfw_log_profile_slope r rs gi go = - gi - (go - gi) * ((r / rs) ^ 2 / (1 + (r / rs) ^ 2)).
Proof.
  intros Hr Hs. unfold gnfw_log_profile_slope. assert (0 < r / rs) by (apply Rdiv_lt_0_compat; assumption).
  assert (0 < (r / rs) ^ 2) by (apply pow_lt; assumption).
  cbv zeta. set (x := r / rs) in *. clearbody x. field. lra.
Qed.
Lemma log_density k sg Rs rho0 gi go u : 0 < k -> 0 < sg -> 0 < Rs -> 0 < rho0 ->
  ln (gnfw_density_profile_3d k sg Rs rho0 gi go (exp u)) =
  ln (sg / k ^ 2 / k) + ln rho0 - gi * (u - ln (k * Rs)) - (go - gi) / 2 * ln (1 + (exp u / (k * Rs)) ^ 2).
Proof.
  intros Hk Hg Hs Hr. unfold gnfw_density_profile_3d, dpl_density. pose proof (exp_pos u) as Hu.
  assert (E : exp u / k / Rs = exp u / (k * Rs)) by (field; split; lra). rewrite E. clear E.
  assert (Hks : 0 < k * Rs) by (apply Rmult_lt_0_compat; assumption).
  assert (Hx : 0 < exp u / (k * Rs)) by (apply Rdiv_lt_0_compat; assumption).
  assert (H2 : 0 < 1 + (exp u / (k * Rs)) ^ 2) by (assert (0 < (exp u / (k * Rs)) ^ 2) by (apply pow_lt; assumption); lra).
  assert (F : 0 < sg / k ^ 2 / k) by (apply Rdiv_lt_0_compat; [apply Rdiv_lt_0_compat; [assumption|apply pow_lt; assumption]|assumption]).
  assert (P1 : 0 < Rpower (exp u / (k * Rs)) gi) by apply exp_pos.
  assert (P2 : 0 < Rpower (1 + (exp u / (k * Rs)) ^ 2) ((go - gi) / 2)) by apply exp_pos.
  rewrite ln_mult; [|exact F|apply Rdiv_lt_0_compat; [assumption|apply Rmult_lt_0_compat; assumption]].
  unfold Rdiv at 3. rewrite ln_mult; [|assumption|apply Rinv_0_lt_compat, Rmult_lt_0_compat; assumption].
  rewrite ln_Rinv by (apply Rmult_lt_0_compat; assumption). rewrite ln_mult by assumption.
  unfold Rpower. rewrite !ln_exp. unfold Rdiv at 3. rewrite ln_mult; [|assumption|apply Rinv_0_lt_compat; assumption].
  rewrite ln_exp, ln_Rinv by assumption. fold (exp u / (k * Rs)). ring.
Qed.

(** The slope a generalised NFW halo reports is the logarithmic derivative of the density it reports. *)
Theorem C110_slope : forall k sg Rs rho0 gi go u, 0 < k -> 0 < sg -> 0 < Rs -> 0 < rho0 ->
  is_derive (fun v => ln (gnfw_density_profile_3d k sg Rs rho0 gi go (exp v))) u (gnfw_log_profile_slope (exp u) (k * Rs) gi go).
Proof.
  intros k sg Rs rho0 gi go u Hk Hg Hs Hr. assert (Hks : 0 < k * Rs) by (apply Rmult_lt_0_compat; assumption).
  apply is_derive_ext with (f := fun v => ln (sg / k ^ 2 / k) + ln rho0 - gi * (v - ln (k * Rs)) - (go - gi) / 2 * ln (1 + (exp v / (k * Rs)) ^ 2)).
  { intros v. symmetry. apply log_density; assumption. }
  pose proof (exp_pos u) as Hu. assert (Hx : 0 < exp u / (k * Rs)) by (apply Rdiv_lt_0_compat; assumption).
  assert (H2 : 0 < (exp u / (k * Rs)) ^ 2) by (apply pow_lt; assumption).
  auto_derive.
  - repeat split. cbn in H2. lra.
  - rewrite slope_alt by assumption. set (x := exp u / (k * Rs)) in *. replace (1 * exp u * / (k * Rs)) with x by (unfold x; field; lra).
    change (exp u * / (k * Rs)) with x. clearbody x. field. cbn in H2. lra.
Qed.
(** It runs from minus the inner to minus the outer exponent, strictly, and takes every value in between exactly once. *)
Lemma frac_lt x y : 0 < x -> x < y -> x ^ 2 / (1 + x ^ 2) < y ^ 2 / (1 + y ^ 2).
Proof.
  intros Hx Hxy. assert (A : 0 < x ^ 2) by (apply pow_lt; lra). assert (B : x ^ 2 < y ^ 2) by (cbn; nra).
  assert (EX : forall t, 0 < t -> t / (1 + t) = 1 - / (1 + t)) by (intros t Ht; field; lra).
  rewrite (EX (x ^ 2)), (EX (y ^ 2)) by lra. assert (/ (1 + y ^ 2) < / (1 + x ^ 2)); [|lra].
  apply Rinv_lt_contravar; [apply Rmult_lt_0_compat; lra|lra].
Qed.
Theorem C110_slope_range : forall rs gi go, 0 < rs -> gi < go ->
  (forall r, 0 < r -> - go < gnfw_log_profile_slope r rs gi go < - gi) /\
  (forall r r', 0 < r -> r < r' -> gnfw_log_profile_slope r' rs gi go < gnfw_log_profile_slope r rs gi go) /\
  (forall g, - go < g < - gi -> exists r, 0 < r /\ gnfw_log_profile_slope r rs gi go = g /\
     forall r', 0 < r' -> gnfw_log_profile_slope r' rs gi go = g -> r' = r).
Proof.
  intros rs gi go Hs Hg.
  assert (MONO : forall r r', 0 < r -> r < r' -> gnfw_log_profile_slope r' rs gi go < gnfw_log_profile_slope r rs gi go).
  { intros r r' Hr Hrr. rewrite !slope_alt by lra. assert (r / rs < r' / rs) by (apply Rmult_lt_compat_r; [apply Rinv_0_lt_compat|]; assumption).
    pose proof (frac_lt (r / rs) (r' / rs) (Rdiv_lt_0_compat _ _ Hr Hs) H) as F. nra. }
  split; [|split; [exact MONO|]].
  - intros r Hr. rewrite slope_alt by assumption. assert (Hx : 0 < (r / rs) ^ 2) by (apply pow_lt, Rdiv_lt_0_compat; assumption).
    set (t := (r / rs) ^ 2) in *. assert (0 < t / (1 + t) < 1).
    { split; [apply Rdiv_lt_0_compat; lra|]. apply (Rmult_lt_reg_r (1 + t)); [lra|]. unfold Rdiv. rewrite Rmult_assoc, Rinv_l by lra. lra. }
    nra.
  - intros g [G1 G2]. set (t := (- g - gi) / (go + g)). assert (Ht : 0 < t) by (apply Rdiv_lt_0_compat; lra).
    assert (Hq : 0 < sqrt t) by (apply sqrt_lt_R0; exact Ht). exists (rs * sqrt t).
    assert (Hr : 0 < rs * sqrt t) by (apply Rmult_lt_0_compat; assumption). split; [exact Hr|].
    assert (V : gnfw_log_profile_slope (rs * sqrt t) rs gi go = g).
    { unfold gnfw_log_profile_slope. replace (rs * sqrt t / rs) with (sqrt t) by (field; lra).
      assert (E2 : (sqrt t) ^ 2 = t) by (cbn; rewrite Rmult_1_r; apply sqrt_sqrt; lra). cbv zeta. rewrite E2.
      unfold t. field. split; lra. }
    split; [exact V|]. intros r' Hr' V'. destruct (Rtotal_order r' (rs * sqrt t)) as [L|[L|L]]; [|exact L|].
    + pose proof (MONO _ _ Hr' L). lra.
    + pose proof (MONO _ _ Hr L). lra.
Qed.
(** Mass of a shell from the reported density (radii in kpc) and from the lens model (angles, critical density per square arcsec) agree. *)
Lemma dpl_cont Rs rho0 gi go x : 0 < Rs -> 0 < x -> continuous (fun t => 4 * PI * t ^ 2 * dpl_density t Rs rho0 gi go) x.
Proof.
  intros Hs Hx. unfold dpl_density.
  apply (ex_derive_continuous (fun t => 4 * PI * t ^ 2 * (rho0 / (Rpower (t / Rs) gi * Rpower (1 + (t / Rs) ^ 2) ((go - gi) / 2))))).
  assert (0 < x / Rs) by (apply Rdiv_lt_0_compat; assumption). assert (0 < (x / Rs) ^ 2) by (apply pow_lt; assumption).
  unfold Rpower. auto_derive. repeat split.
  - exact H.
  - cbn in H0. lra.
  - apply Rgt_not_eq. apply Rmult_lt_0_compat; apply exp_pos.
Qed.
Theorem C110_shell_mass : forall k sg Rs rho0 gi go r1 r2, 0 < k -> 0 < Rs -> 0 < r1 -> r1 <= r2 ->
  RInt (fun r => 4 * PI * r ^ 2 * gnfw_density_profile_3d k sg Rs rho0 gi go r) r1 r2 =
  sg * RInt (fun t => 4 * PI * t ^ 2 * dpl_density t Rs rho0 gi go) (r1 / k) (r2 / k).
Proof.
  intros k sg Rs rho0 gi go r1 r2 Hk Hs H1 H12. set (f := fun t => 4 * PI * t ^ 2 * dpl_density t Rs rho0 gi go).
  assert (EX : ex_RInt f (r1 / k) (r2 / k)).
  { apply (ex_RInt_continuous (V := R_CompleteNormedModule)). intros x Hx. apply dpl_cont; [exact Hs|].
    assert (A : 0 < r1 / k) by (apply Rdiv_lt_0_compat; assumption). assert (B : r1 / k <= r2 / k) by (apply Rmult_le_compat_r; [left; apply Rinv_0_lt_compat|]; assumption).
    rewrite Rmin_left in Hx by exact B. lra. }
  assert (EQ : forall r, 4 * PI * r ^ 2 * gnfw_density_profile_3d k sg Rs rho0 gi go r = scal sg (scal (/ k) (f (/ k * r + 0)))).
  { intros r. unfold gnfw_density_profile_3d, f. replace (/ k * r + 0) with (r / k) by (unfold Rdiv; ring).
    change (4 * PI * r ^ 2 * (sg / k ^ 2 / k * dpl_density (r / k) Rs rho0 gi go) = sg * (/ k * (4 * PI * (r / k) ^ 2 * dpl_density (r / k) Rs rho0 gi go))).
    field. lra. }
  rewrite (RInt_ext _ (fun r => scal sg (scal (/ k) (f (/ k * r + 0))))) by (intros; apply EQ).
  assert (E1 : / k * r1 + 0 = r1 / k) by (unfold Rdiv; ring). assert (E2 : / k * r2 + 0 = r2 / k) by (unfold Rdiv; ring).
  assert (X : ex_RInt (fun r => scal (/ k) (f (/ k * r + 0))) r1 r2).
  { apply (ex_RInt_comp_lin f). rewrite E1, E2. exact EX. }
  etransitivity; [exact (RInt_scal (V := R_CompleteNormedModule) (fun r => scal (/ k) (f (/ k * r + 0))) r1 r2 sg X)|].
  change (sg * RInt (fun r => scal (/ k) (f (/ k * r + 0))) r1 r2 = sg * RInt f (r1 / k) (r2 / k)). f_equal.
  rewrite <- E1, <- E2 in EX |- *. exact (RInt_comp_lin f (/ k) 0 r1 r2 EX).
Qed.

(** ** Cored NFW halos *)
(** kpc_proper_per_asec is the angular diameter distance times one arcsecond *)
Definition angle_units (C : cosmo) (z : R) : Prop := co_kpc C z = co_DAz C z * arcsec * 1000.
(** an NFW density with the cusp replaced by a core *)
Definition rho_cored (rhos rs rc r : R) : R := rhos * rs ^ 3 / ((rc + r) * (r + rs) ^ 2).
(** The calibration compares with a core of 10^-4 scale radii instead of no core: the resulting constant. *)
Definition core_factor (G : R -> R -> R) : R := (1 + ln (1 / 2)) / G 1 (/ 10 ^ 4).

(** Whatever the core, a cored halo is rendered with the density of the NFW halo of its mass and concentration, its cusp replaced by a core
    of beta scale radii, up to a constant factor that does not depend on the halo. *)
Theorem C110_core_density : forall C G zs m c z z_eval beta norm, expanding C -> distances_ok C z zs -> angle_units C z ->
  0 <= z_eval -> 0 < m -> 0 < c -> 0 < beta -> G 1 beta <> 0 -> G 1 (/ 10 ^ 4) <> 0 ->
  exists rhos rs r200, describes_halo false m c (critical_kpc C z_eval) rhos rs r200 /\
    forall r, 0 <= r -> cnfw_density_profile_3d C G zs m c z z_eval beta norm r = Ok (norm * core_factor G * rho_cored rhos rs (beta * rs) r).
Proof.
  intros C G zs m c z ze beta norm EX DO AU Hz Hm Hc Hb G1 G2.
  destruct (C55_nfw_parameters C m c ze false EX Hz Hm Hc) as (rhos & rs & r2 & E & Hrho & D). exists rhos, rs, r2. split; [exact D|].
  intros r Hr. pose proof (dh_rs _ _ _ _ _ _ _ D) as Hs. unfold cnfw_density_profile_3d, cnfw_lens. rewrite E. cbn [bind fst snd].
  assert (PA : 0 < arcsec) by (unfold arcsec; pose proof PI_RGT_0; lra).
  destruct DO as (D1 & D2 & D3 & D4).
  assert (PS : 0 < get_sigma_crit_lensing C z zs).
  { unfold get_sigma_crit_lensing. destruct constants_pos as (P1 & P2 & _). pose proof PI_RGT_0. cbv zeta.
    set (g := Grav) in *. clearbody g. set (cl := c_light) in *. clearbody cl.
    apply Rmult_lt_0_compat; [apply Rmult_lt_0_compat; [apply pow_lt; exact P1|apply Rinv_0_lt_compat; apply Rmult_lt_0_compat; lra]|].
    apply Rmult_lt_0_compat; [apply Rmult_lt_0_compat; [exact D2|]|]; apply Rinv_0_lt_compat; assumption. }
  unfold nfw_physical2angle_fromNFWparams. cbn [snd]. set (S := get_sigma_crit_lensing C z zs) in *.
  assert (PK : 0 < co_kpc C z) by (rewrite AU; apply Rmult_lt_0_compat; [apply Rmult_lt_0_compat; assumption|lra]).
  f_equal. unfold cnfw_density_lens, cnfw_density, cnfw_alpha2rho0, cnfw_mass_2d, rho_cored, core_factor.
  replace (rs / co_kpc C z * beta / (rs / co_kpc C z)) with beta by (field; split; lra).
  replace (beta * rs / rs) with beta by (field; lra). replace (rs / rs) with 1 by (field; lra).
  replace (/ 10 ^ 4 * rs / rs) with (/ 10 ^ 4) by (field; lra).
  unfold angle_units in AU. set (k := co_kpc C z) in *. clearbody k. subst k.
  set (L := ln (1 / 2)). set (g1 := G 1 beta) in *. set (g2 := G 1 (/ 10 ^ 4)) in *. set (dd := co_DAz C z) in *.
  assert (A1 : beta * rs + r <> 0) by nra. assert (A2 : r + rs <> 0) by lra.
  pose proof PI_RGT_0.
  field. repeat split; try lra; try assumption; try nra.
Qed.

Lemma cored_le rhos rs beta c r : 0 < rhos -> 0 < rs -> 0 < beta -> 0 < c -> 0 < r < c * rs ->
  rho_cored rhos rs (beta * rs) r <= c / (beta + c) * rho_nfw rhos rs r.
Proof.
  intros Hrho Hs Hb Hc [H0 H1]. unfold rho_cored, rho_nfw. assert (P : 0 < beta * rs + r) by nra.
  replace (rhos / (r / rs * (1 + r / rs) ^ 2)) with (rhos * rs ^ 3 / (r + rs) ^ 2 * / r) by (field; repeat split; lra).
  replace (rhos * rs ^ 3 / ((beta * rs + r) * (r + rs) ^ 2)) with (rhos * rs ^ 3 / (r + rs) ^ 2 * / (beta * rs + r)) by (field; split; lra).
  assert (A : 0 < rhos * rs ^ 3 / (r + rs) ^ 2) by (apply Rdiv_lt_0_compat; [apply Rmult_lt_0_compat; [exact Hrho|apply pow_lt; exact Hs]|apply pow_lt; lra]).
  set (K := rhos * rs ^ 3 / (r + rs) ^ 2) in *.
  assert (B : / (beta * rs + r) <= c / (beta + c) * / r).
  { apply (Rmult_le_reg_r (beta * rs + r)); [exact P|]. rewrite Rinv_l by lra.
    apply (Rmult_le_reg_r ((beta + c) * r)); [apply Rmult_lt_0_compat; lra|].
    replace (c / (beta + c) * / r * (beta * rs + r) * ((beta + c) * r)) with (c * (beta * rs + r)) by (field; split; lra). nra. }
  replace (c / (beta + c) * (K * / r)) with (K * (c / (beta + c) * / r)) by ring. apply Rmult_le_compat_l; lra.
Qed.
Lemma cored_int rhos rs beta a b : 0 < rs -> 0 < beta -> 0 <= a -> a <= b -> ex_RInt (fun r => 4 * PI * r ^ 2 * rho_cored rhos rs (beta * rs) r) a b.
Proof.
  intros Hs Hb Ha Hab. apply (ex_RInt_continuous (V := R_CompleteNormedModule)). intros x Hx. rewrite Rmin_left in Hx by exact Hab.
  unfold rho_cored. apply (ex_derive_continuous (fun r => 4 * PI * r ^ 2 * (rhos * rs ^ 3 / ((beta * rs + r) * (r + rs) ^ 2)))).
  auto_derive. apply Rgt_not_eq. apply Rmult_lt_0_compat; [nra|]. rewrite Rmult_1_r. apply Rmult_lt_0_compat; lra.
Qed.
Lemma cored_mass rhos rs beta c m k r200 : 0 < rhos -> 0 < beta -> 0 < c -> describes_halo false m c k rhos rs r200 ->
  sphere_mass (rho_cored rhos rs (beta * rs)) r200 <= c / (beta + c) * m.
Proof.
  intros Hrho Hb Hc D. pose proof (dh_rs _ _ _ _ _ _ _ D) as Hs. pose proof (dh_conc _ _ _ _ _ _ _ D) as R2. pose proof (dh_int _ _ _ _ _ _ _ D) as I.
  pose proof (dh_mass _ _ _ _ _ _ _ D) as M. rewrite <- M. unfold sphere_mass in *. cbn [halo_density] in *.
  assert (P2 : 0 <= r200) by (rewrite R2; apply Rmult_le_pos; lra).
  assert (S : c / (beta + c) * RInt (fun r => 4 * PI * r ^ 2 * rho_nfw rhos rs r) 0 r200 =
              RInt (fun r => scal (c / (beta + c)) (4 * PI * r ^ 2 * rho_nfw rhos rs r)) 0 r200).
  { symmetry. exact (RInt_scal (V := R_CompleteNormedModule) _ 0 r200 (c / (beta + c)) I). }
  rewrite S. apply RInt_le; [exact P2|apply cored_int; lra|apply (ex_RInt_scal (V := R_CompleteNormedModule)); exact I|].
  intros x Hx. change (4 * PI * x ^ 2 * rho_cored rhos rs (beta * rs) x <= c / (beta + c) * (4 * PI * x ^ 2 * rho_nfw rhos rs x)).
  replace (c / (beta + c) * (4 * PI * x ^ 2 * rho_nfw rhos rs x)) with (4 * PI * x ^ 2 * (c / (beta + c) * rho_nfw rhos rs x)) by ring.
  apply Rmult_le_compat_l; [|apply cored_le; lra]. pose proof PI_RGT_0. pose proof (pow2_ge_0 x). nra.
Qed.

(** The mass the rendered cored halo has inside the virial radius of its label: at most a fraction c / (c + beta) of the label, times the
    calibration constant and the caller's normalisation. *)
Theorem C110_core_mass : forall C G zs m c z z_eval beta norm, expanding C -> distances_ok C z zs -> angle_units C z ->
  0 <= z_eval -> 0 < m -> 0 < c -> 0 < beta -> G 1 beta <> 0 -> G 1 (/ 10 ^ 4) <> 0 -> 0 <= norm * core_factor G ->
  exists r200 rho, 0 < r200 /\ m / (4 / 3 * PI * r200 ^ 3) = 200 * critical_kpc C z_eval /\
    (forall r, 0 <= r -> cnfw_density_profile_3d C G zs m c z z_eval beta norm r = Ok (rho r)) /\
    ex_RInt (fun r => 4 * PI * r ^ 2 * rho r) 0 r200 /\
    sphere_mass rho r200 <= norm * core_factor G * (c / (beta + c)) * m.
Proof.
  intros C G zs m c z ze beta norm EX DO AU Hz Hm Hc Hb G1 G2 HN.
  destruct (C55_nfw_parameters C m c ze false EX Hz Hm Hc) as (rhos & rs & r2 & _ & Hrho & D).
  destruct (C110_core_density C G zs m c z ze beta norm EX DO AU Hz Hm Hc Hb G1 G2) as (rhos' & rs' & r2' & D' & E).
  destruct (describes_unique _ _ _ _ _ _ _ _ _ _ Hm Hc D D') as (Q1 & Q2 & Q3). subst rhos' rs' r2'.
  pose proof (dh_rs _ _ _ _ _ _ _ D) as Hs. pose proof (dh_conc _ _ _ _ _ _ _ D) as R2.
  set (N := norm * core_factor G) in *. exists r2, (fun r => N * rho_cored rhos rs (beta * rs) r).
  assert (P2 : 0 < r2) by (rewrite R2; apply Rmult_lt_0_compat; assumption).
  assert (I : ex_RInt (fun r => 4 * PI * r ^ 2 * rho_cored rhos rs (beta * rs) r) 0 r2) by (apply cored_int; lra).
  assert (EQ : forall r, 4 * PI * r ^ 2 * (N * rho_cored rhos rs (beta * rs) r) = scal N (4 * PI * r ^ 2 * rho_cored rhos rs (beta * rs) r)).
  { intros r. change (4 * PI * r ^ 2 * (N * rho_cored rhos rs (beta * rs) r) = N * (4 * PI * r ^ 2 * rho_cored rhos rs (beta * rs) r)). ring. }
  split; [exact P2|split; [exact (dh_mean _ _ _ _ _ _ _ D)|split; [exact E|split]]].
  - apply (ex_RInt_ext (fun r => scal N (4 * PI * r ^ 2 * rho_cored rhos rs (beta * rs) r))); [intros; symmetry; apply EQ|].
    apply (ex_RInt_scal (V := R_CompleteNormedModule)). exact I.
  - unfold sphere_mass. rewrite (RInt_ext _ (fun r => scal N (4 * PI * r ^ 2 * rho_cored rhos rs (beta * rs) r))) by (intros; apply EQ).
    replace (RInt (fun r => scal N (4 * PI * r ^ 2 * rho_cored rhos rs (beta * rs) r)) 0 r2)
      with (N * RInt (fun r => 4 * PI * r ^ 2 * rho_cored rhos rs (beta * rs) r) 0 r2)
      by (symmetry; exact (RInt_scal (V := R_CompleteNormedModule) _ 0 r2 N I)).
    rewrite Rmult_assoc. apply Rmult_le_compat_l; [exact HN|]. exact (cored_mass _ _ _ _ _ _ _ Hrho Hb Hc D).
Qed.

(** The constructor takes conserve_m200, True by default, and never reads it (NFW_core.py 13-26); with the default normalisation the rendered halo falls
    short of its label as soon as the core is larger than (F - 1) c scale radii, F the calibration constant. *)
Theorem C110_core_mass_refuted : forall C G zs m c z z_eval beta, expanding C -> distances_ok C z zs -> angle_units C z ->
  0 <= z_eval -> 0 < m -> 0 < c -> 0 < beta -> G 1 beta <> 0 -> G 1 (/ 10 ^ 4) <> 0 -> 0 <= core_factor G -> core_factor G * c < beta + c ->
  exists r200 rho, 0 < r200 /\ m / (4 / 3 * PI * r200 ^ 3) = 200 * critical_kpc C z_eval /\
    (forall r, 0 <= r -> cnfw_density_profile_3d C G zs m c z z_eval beta 1 r = Ok (rho r)) /\
    ex_RInt (fun r => 4 * PI * r ^ 2 * rho r) 0 r200 /\ sphere_mass rho r200 < m.
Proof.
  intros C G zs m c z ze beta EX DO AU Hz Hm Hc Hb G1 G2 HF HL.
  destruct (C110_core_mass C G zs m c z ze beta 1 EX DO AU Hz Hm Hc Hb G1 G2 ltac:(lra)) as (r2 & rho & P & Q & E & I & L).
  exists r2, rho. repeat (split; [assumption|]). eapply Rle_lt_trans; [exact L|].
  replace (1 * core_factor G * (c / (beta + c)) * m) with (core_factor G * c * / (beta + c) * m) by (unfold Rdiv; ring).
  rewrite <- (Rmult_1_l m) at 2. apply Rmult_lt_compat_r; [exact Hm|]. apply (Rmult_lt_reg_r (beta + c)); [lra|].
  rewrite Rmult_assoc, Rinv_l by lra. lra.
Qed.

(** ** Concrete cases *)
Definition demo_units : cosmo := {| co_h := 0.7; co_rhoc := 2.77 * 10 ^ 11; co_E := fun z => 1 + z; co_DA := fun a b => 1000 * (b - a);
  co_DAz := fun z => 1000 * z; co_age := fun z => 13 / (1 + z); co_kpc := fun z => 1000 * z * arcsec * 1000; co_Om0 := 0.3; co_rhoc_astropy := 1.36 * 10 ^ 11 |}.
Lemma demo_units_expanding : expanding demo_units.
Proof. split; [|split]; cbn; [lra|lra|]. intros z Hz. lra. Qed.
Lemma demo_units_distances : distances_ok demo_units 0.5 2.
Proof. unfold distances_ok. cbn. lra. Qed.
(** a projected mass function whose value for the small comparison core is that of no core *)
Definition demo_G (x b : R) : R := (1 + ln (1 / 2)) / (1 + (b - / 10 ^ 4)).
Lemma L_pos : 0 < 1 + ln (1 / 2).
Proof.
  assert (ln 2 < 1). { rewrite <- (ln_exp 1). apply ln_increasing; [lra|]. pose proof (exp_ineq1 1 ltac:(lra)). lra. }
  replace (1 / 2) with (/ 2) by field. rewrite ln_Rinv by lra. lra.
Qed.
Lemma demo_factor : core_factor demo_G = 1.
Proof. unfold core_factor, demo_G. pose proof L_pos. field. lra. Qed.
Lemma demo_G_pos b : 0 < b -> 0 < demo_G 1 b.
Proof. intros Hb. unfold demo_G. apply Rdiv_lt_0_compat; [exact L_pos|]. lra. Qed.

Example C110_slope_nonvacuous : is_derive (fun u => ln (gnfw_density_profile_3d 6 (10 ^ 11) 0.1 2 1.3 3.2 (exp u))) 0.5 (gnfw_log_profile_slope (exp 0.5) (6 * 0.1) 1.3 3.2).
Proof. apply C110_slope; lra. Qed.
Example C110_slope_range_nonvacuous : exists r, 0 < r /\ gnfw_log_profile_slope r 0.8 1 3 = - 2.5.
Proof. destruct (C110_slope_range 0.8 1 3 ltac:(lra) ltac:(lra)) as (_ & _ & H). destruct (H (- 2.5) ltac:(lra)) as (r & P & E & _). exists r. split; assumption. Qed.
Example C110_shell_mass_nonvacuous :
  RInt (fun r => 4 * PI * r ^ 2 * gnfw_density_profile_3d 6 (10 ^ 11) 0.1 2 1.3 3.2 r) 0.3 3 =
  10 ^ 11 * RInt (fun t => 4 * PI * t ^ 2 * dpl_density t 0.1 2 1.3 3.2) (0.3 / 6) (3 / 6).
Proof. apply C110_shell_mass; lra. Qed.
Example C110_core_density_nonvacuous : exists rhos rs r200, describes_halo false (10 ^ 9) 15 (critical_kpc demo_units 0.5) rhos rs r200 /\
  cnfw_density_profile_3d demo_units demo_G 2 (10 ^ 9) 15 0.5 0.5 0.2 1 0.7 = Ok (1 * core_factor demo_G * rho_cored rhos rs (0.2 * rs) 0.7).
Proof.
  destruct (C110_core_density demo_units demo_G 2 (10 ^ 9) 15 0.5 0.5 0.2 1 demo_units_expanding demo_units_distances eq_refl ltac:(lra) ltac:(lra)
    ltac:(lra) ltac:(lra) ltac:(apply Rgt_not_eq, demo_G_pos; lra) ltac:(apply Rgt_not_eq, demo_G_pos; lra)) as (rhos & rs & r2 & D & E).
  exists rhos, rs, r2. split; [exact D|apply E; lra].
Qed.
Example C110_core_mass_nonvacuous : exists r200 rho, 0 < r200 /\
  (forall r, 0 <= r -> cnfw_density_profile_3d demo_units demo_G 2 (10 ^ 9) 15 0.5 0.5 0.2 1.1 r = Ok (rho r)) /\ sphere_mass rho r200 <= 1.1 * (15 / (0.2 + 15)) * 10 ^ 9.
Proof.
  destruct (C110_core_mass demo_units demo_G 2 (10 ^ 9) 15 0.5 0.5 0.2 1.1 demo_units_expanding demo_units_distances eq_refl ltac:(lra) ltac:(lra)
    ltac:(lra) ltac:(lra) ltac:(apply Rgt_not_eq, demo_G_pos; lra) ltac:(apply Rgt_not_eq, demo_G_pos; lra) ltac:(rewrite demo_factor; lra)) as (r2 & rho & P & _ & E & _ & L).
  rewrite demo_factor, Rmult_1_r in L. exists r2, rho. repeat split; assumption.
Qed.
Example C110_core_mass_refuted_nonvacuous : exists r200 rho, 0 < r200 /\
  (forall r, 0 <= r -> cnfw_density_profile_3d demo_units demo_G 2 (10 ^ 9) 15 0.5 0.5 0.2 1 r = Ok (rho r)) /\ sphere_mass rho r200 < 10 ^ 9.
Proof.
  destruct (C110_core_mass_refuted demo_units demo_G 2 (10 ^ 9) 15 0.5 0.5 0.2 demo_units_expanding demo_units_distances eq_refl ltac:(lra) ltac:(lra)
    ltac:(lra) ltac:(lra) ltac:(apply Rgt_not_eq, demo_G_pos; lra) ltac:(apply Rgt_not_eq, demo_G_pos; lra) ltac:(rewrite demo_factor; lra)
    ltac:(rewrite demo_factor; lra)) as (r2 & rho & P & _ & E & _ & L).
  exists r2, rho. repeat split; assumption.
Qed.

Print Assumptions C110_slope.
Print Assumptions C110_slope_range.
Print Assumptions C110_shell_mass.
Print Assumptions C110_core_density.
Print Assumptions C110_core_mass.
Print Assumptions C110_core_mass_refuted.
