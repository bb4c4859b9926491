(** C55, C74-C77: NFW parameters, lensing conversions, thermal relics, velocities and the SIDM clock. *)
From Coq Require Import Reals.
From Verif Require Import Prelude TnfwSpec TnfwProofs NfwModel NfwSpec NfwProofs NfwProofs2 NfwProofs3.
From Coquelicot Require Import Coquelicot.
Local Open Scope R_scope.
Local Open Scope list_scope.

(** A cosmology used by the examples. *)
Definition demo : cosmo := {| co_h := 0.7; co_rhoc := 2.77 * 10 ^ 11; co_E := fun z => 1 + z; co_DA := fun a b => 1000 * (b - a);
  co_DAz := fun z => 1000 * z; co_age := fun z => 13 / (1 + z); co_kpc := fun z => 6; co_Om0 := 0.3; co_rhoc_astropy := 1.36 * 10 ^ 11 |}.
Lemma demo_expanding : expanding demo.
Proof. split; [|split]; cbn; [lra|lra|]. intros z Hz. lra. Qed.
Lemma demo_distances : distances_ok demo 0.5 2.
Proof. unfold distances_ok. cbn. lra. Qed.

(** C55: the returned density, scale radius and r_200 describe the halo of mass [m] and concentration [c]. *)
Theorem C55_nfw_parameters : forall C m c z p, expanding C -> 0 <= z -> 0 < m -> 0 < c ->
  exists rhos rs r200, NFW_params_physical C m c z (Some p) = Ok (rhos, rs, r200) /\ 0 < rhos /\
    describes_halo p m c (critical_kpc C z) rhos rs r200.
Proof.
  intros C m c z p K Hz Hm Hc. destruct (mpc_describes C m c z p K Hz Hm Hc) as (rho0 & rs & r2 & E & [A B I M D] & P).
  unfold NFW_params_physical. rewrite E. cbn [bind fst snd]. do 3 eexists. split; [reflexivity|].
  assert (Hs : 0 < rs * 1000) by lra.
  split; [apply Rmult_lt_0_compat; [exact P|apply Rinv_0_lt_compat, pow_lt; lra]|].
  assert (Er : r2 * 1000 = c * (rs * 1000)) by (rewrite B; ring).
  destruct (halo_mass p (rho0 * / 1000 ^ 3) (rs * 1000) c Hs (Rlt_le _ _ Hc)) as [I' M'].
  pose proof (proj2 (halo_mass p rho0 rs c A (Rlt_le _ _ Hc))) as M0. rewrite <- B, M in M0.
  split.
  - exact Hs.
  - exact Er.
  - rewrite Er. exact I'.
  - rewrite Er, M', M0. field.
  - unfold critical_kpc. unfold rhoc_z in D.
    assert (R0 : 0 < r2) by (rewrite B; apply Rmult_lt_0_compat; assumption). pose proof PI_RGT_0.
    replace (m / (4 / 3 * PI * (r2 * 1000) ^ 3)) with (m / (4 / 3 * PI * r2 ^ 3) / 1000 ^ 3) by (field; lra).
    rewrite D. field.
Qed.
Example C55_nfw_parameters_nonvacuous : exists rhos rs r200,
  NFW_params_physical demo (10 ^ 9) 15 0.5 (Some false) = Ok (rhos, rs, r200) /\ 0 < rhos /\
  describes_halo false (10 ^ 9) 15 (critical_kpc demo 0.5) rhos rs r200.
Proof. apply C55_nfw_parameters; [exact demo_expanding|lra|lra|lra]. Qed.

(** No other triple does: the three requirements determine density, scale radius and r_200. *)
Theorem C55_unique : forall C m c z p rhos rs r200 out, expanding C -> 0 <= z -> 0 < m -> 0 < c ->
  describes_halo p m c (critical_kpc C z) rhos rs r200 -> NFW_params_physical C m c z (Some p) = Ok out -> out = (rhos, rs, r200).
Proof.
  intros C m c z p rhos rs r200 out K Hz Hm Hc D E.
  destruct (C55_nfw_parameters C m c z p K Hz Hm Hc) as (a & b & d & E' & _ & D'). rewrite E' in E. injection E as <-.
  destruct (describes_unique p m c _ _ _ _ _ _ _ Hm Hc D' D) as (-> & -> & ->). reflexivity.
Qed.
Example C55_unique_nonvacuous : exists rhos rs r200, describes_halo true (10 ^ 8) 20 (critical_kpc demo 1) rhos rs r200.
Proof.
  destruct (C55_nfw_parameters demo (10 ^ 8) 20 1 true demo_expanding ltac:(lra) ltac:(lra) ltac:(lra)) as (a & b & d & _ & _ & D).
  exists a, b, d. exact D.
Qed.

(** From mass and redshift alone: the halo has the concentration of the scatter-free relation times the requested factor. *)
Theorem C55_from_mass_redshift : forall C conc m z scale p, expanding C -> 0 <= z -> 0 < m -> 0 < scale -> 0 < conc m z ->
  exists rhos rs r200, NFW_params_physical_fromMZ C conc m z scale (Some p) = Ok (rhos, rs, r200) /\ 0 < rhos /\
    describes_halo p m (scale * conc m z) (critical_kpc C z) rhos rs r200.
Proof. intros C conc m z scale p K Hz Hm Hs Hc. apply C55_nfw_parameters; auto. now apply Rmult_lt_0_compat. Qed.
Example C55_from_mass_redshift_nonvacuous : exists rhos rs r200,
  NFW_params_physical_fromMZ demo (fun m z => 18 / (1 + z)) (10 ^ 8) 0.5 2 (Some false) = Ok (rhos, rs, r200) /\ 0 < rhos /\
  describes_halo false (10 ^ 8) (2 * (18 / (1 + 0.5))) (critical_kpc demo 0.5) rhos rs r200.
Proof. apply (C55_from_mass_redshift demo (fun m z => 18 / (1 + z))); [exact demo_expanding|lra|lra|lra|lra]. Qed.

(** A class that leaves the choice of profile unset gets an exception, never a number. *)
Theorem C55_profile_must_be_set : forall C m c z, NFW_params_physical C m c z None = Err EException.
Proof. reflexivity. Qed.

(** rN_M: [M] is in M_sun/h; the mean density of M/h inside the returned (kpc / 1000) radius is N times critical. *)
Theorem C55_overdensity_radius : forall C M z N, expanding C -> 0 <= z -> 0 < M -> 0 < N ->
  let r := rN_M C M z N * 1000 in 0 < r /\ (M / co_h C) / (4 / 3 * PI * r ^ 3) = N * critical_kpc C z.
Proof.
  intros C M z N K Hz HM HN r. pose proof (rhoc_pos C z K Hz) as P. destruct K as (Hh & _ & _). pose proof PI_RGT_0 as Pi.
  assert (Pk : 0 < PI * rhoc_z C z) by (apply Rmult_lt_0_compat; assumption).
  assert (Q : 0 < 3 * M / (4 * PI * rhoc_z C z * N)).
  { apply Rdiv_lt_0_compat; [lra|]. replace (4 * PI * rhoc_z C z * N) with (4 * (PI * rhoc_z C z) * N) by ring.
    apply Rmult_lt_0_compat; [lra|exact HN]. }
  assert (X : 0 < rN_M C M z N) by (unfold rN_M; apply Rdiv_lt_0_compat; [apply exp_pos|exact Hh]).
  split; [unfold r; lra|].
  assert (E : r ^ 3 = 1000 ^ 3 * (3 * M / (4 * PI * rhoc_z C z * N)) / co_h C ^ 3).
  { unfold r, rN_M. rewrite <- (cube_root _ Q) at 2. field. lra. }
  rewrite E. change (critical_kpc C z) with (rhoc_z C z * co_h C ^ 2 / 1000 ^ 3). set (k := rhoc_z C z) in *. clearbody k.
  field. repeat split; lra.
Qed.
Example C55_overdensity_radius_nonvacuous : let r := rN_M demo (10 ^ 9 * co_h demo) 0.5 50 * 1000 in
  0 < r /\ (10 ^ 9 * co_h demo / co_h demo) / (4 / 3 * PI * r ^ 3) = 50 * critical_kpc demo 0.5.
Proof. apply C55_overdensity_radius; [exact demo_expanding|lra|cbn; lra|lra]. Qed.

(** The vectorised replica returns, position by position, the scalar result. *)
Theorem C55_vectorised : forall C (l : list quad4), exists out : list (R * R * R),
  List.Forall2 (fun q o => NFW_params_physical C (q_m q) (q_c q) (q_z q) (Some (q_p q)) = Ok o) l out /\
  nfw_params_physical_vectorized C (map q_m l) (map q_c l) (map q_z l) (map q_p l)
    = (map (fun o => fst (fst o)) out, map (fun o => snd (fst o)) out, map snd out).
Proof.
  intros C l. exists (map (triple C) l). split.
  - induction l as [|q l IH]; cbn [map]; constructor; [apply triple_scalar|exact IH].
  - rewrite vectorised, !map_map. reflexivity.
Qed.
Example C55_vectorised_nonvacuous : exists out : list (R * R * R), List.length out = 2%nat /\
  List.Forall2 (fun q o => NFW_params_physical demo (q_m q) (q_c q) (q_z q) (Some (q_p q)) = Ok o)
    ((10 ^ 8, 10, 0.5, false) :: (10 ^ 9, 12, 0.7, true) :: nil) out.
Proof.
  destruct (C55_vectorised demo ((10 ^ 8, 10, 0.5, false) :: (10 ^ 9, 12, 0.7, true) :: nil)) as (out & F & _).
  exists out. split; [|exact F]. clear -F. inversion F as [|? a ? l A B E1 E2]. inversion B as [|? b ? l2 A2 B2 E3 E4]. inversion B2. reflexivity.
Qed.

(** Warming the cache of a list of halos: every halo keeps its own data; halos without a profile choice are untouched;
    the others hold exactly the scalar result, so a halo whose cache was empty or already right answers as before. *)
Theorem C55_precompute : forall C halos,
  List.Forall2 (fun o o' =>
      nh_mass o' = nh_mass o /\ nh_c o' = nh_c o /\ nh_z o' = nh_z o /\ nh_pseudo o' = nh_pseudo o /\
      (nh_pseudo o = None -> o' = o) /\
      (forall p, nh_pseudo o = Some p ->
         exists v, NFW_params_physical C (nh_mass o) (nh_c o) (nh_z o) (Some p) = Ok v /\ nh_cache o' = Some v) /\
      ((forall v, nh_cache o = Some v -> NFW_params_physical C (nh_mass o) (nh_c o) (nh_z o) (nh_pseudo o) = Ok v) ->
         fst (nfw_params C o') = fst (nfw_params C o)))
    halos (precompute_nfw_params C halos).
Proof.
  intros C halos. rewrite precompute_spec. induction halos as [|o l IH]; cbn [map]; constructor; [|exact IH].
  unfold cached, has_flag. destruct o as [m c z p v]. cbn [nh_mass nh_c nh_z nh_pseudo nh_cache].
  destruct p as [p|]; cbn [nh_mass nh_c nh_z nh_pseudo nh_cache]; repeat split; try reflexivity; try discriminate.
  - intros p' [= <-]. eexists. split; [|reflexivity]. apply (triple_scalar C (m, c, z, p)).
  - intros H. unfold nfw_params. cbn [nh_mass nh_c nh_z nh_pseudo nh_cache fst].
    pose proof (triple_scalar C (m, c, z, p)) as T. unfold q_m, q_c, q_z, q_p in T. cbn [fst snd] in T.
    destruct v as [v|].
    + specialize (H v eq_refl). rewrite T in H. exact H.
    + rewrite T. reflexivity.
Qed.
Example C55_precompute_nonvacuous :
  let o := {| nh_mass := 10 ^ 8; nh_c := 10; nh_z := 0.5; nh_pseudo := Some false; nh_cache := None |} in
  let n := {| nh_mass := 10 ^ 8; nh_c := 10; nh_z := 0.5; nh_pseudo := None; nh_cache := None |} in
  exists o', precompute_nfw_params demo (n :: o :: nil) = n :: o' :: nil /\ nh_cache o' <> None.
Proof.
  intros o n. pose proof (C55_precompute demo (n :: o :: nil)) as H. destruct (precompute_nfw_params demo (n :: o :: nil)) as [|a [|b [|d t]]];
    inversion H as [|? ? ? ? A B]; inversion B as [|? ? ? ? A' B']; [|inversion B'].
  destruct A as (_ & _ & _ & _ & A & _). rewrite (A eq_refl). exists b. split; [reflexivity|].
  destruct A' as (_ & _ & _ & _ & _ & A' & _). destruct (A' false eq_refl) as (v & _ & V). rewrite V. discriminate.
Qed.

(** The parameters are worked out once: after the first successful query a halo answers with the same values, whatever cosmology
    is used afterwards, and nothing else about it changes. *)
Theorem C55_first_query : forall C C' o v, fst (nfw_params C o) = Ok v ->
  let o' := snd (nfw_params C o) in
  nfw_params C' o' = (Ok v, o') /\
  nh_mass o' = nh_mass o /\ nh_c o' = nh_c o /\ nh_z o' = nh_z o /\ nh_pseudo o' = nh_pseudo o.
Proof.
  intros C C' o v. unfold nfw_params. destruct (nh_cache o) as [w|] eqn:K; cbn [fst snd].
  - intros [= <-]. rewrite K. auto.
  - destruct (NFW_params_physical C (nh_mass o) (nh_c o) (nh_z o) (nh_pseudo o)) as [w|e]; cbn [fst snd nh_mass nh_c nh_z nh_pseudo nh_cache]; [|discriminate].
    intros [= <-]. auto.
Qed.
Example C55_first_query_nonvacuous : exists v,
  fst (nfw_params demo {| nh_mass := 10 ^ 8; nh_c := 10; nh_z := 0.5; nh_pseudo := Some false; nh_cache := None |}) = Ok v.
Proof. eexists. reflexivity. Qed.

(** C74: the angles given to the lens model.  The scale angle subtends the scale radius, and the deflection there
    divided by the angle is the mean convergence: projected mass inside one scale radius over its area, in units of the
    critical surface density.  The projected mass is pinned down by the right-hand integral definition. *)
Theorem C74_deflection_angle : forall C zs rho0 Rs z p, distances_ok C z zs -> 0 < Rs ->
  let (Rs_angle, alpha_Rs) := nfw_physical2angle_fromNFWparams C zs rho0 Rs z p in
  Rs_angle * arcsec * co_DAz C z = Rs /\
  forall M, cylinder_mass (halo_density p rho0 Rs) Rs M <->
            alpha_Rs / Rs_angle = M / (PI * Rs ^ 2) / get_sigma_crit_lensing C z zs.
Proof.
  intros C zs rho0 Rs z p (A & B & D & _) Hs. cbn [nfw_physical2angle_fromNFWparams]. pose proof PI_RGT_0 as Pi.
  assert (Ha : 0 < arcsec) by (unfold arcsec; lra).
  assert (Hsig : 0 < get_sigma_crit_lensing C z zs).
  { unfold get_sigma_crit_lensing. apply Rmult_lt_0_compat.
    - apply Rmult_lt_0_compat; [apply pow_lt; unfold c_light, Mpc; lra|]. apply Rinv_0_lt_compat.
      apply Rmult_lt_0_compat; [lra|]. unfold Grav, M_sun, Mpc. lra.
    - repeat apply Rmult_lt_0_compat; try apply Rinv_0_lt_compat; assumption. }
  set (sg := get_sigma_crit_lensing C z zs) in *. clearbody sg. set (dd := co_DAz C z) in *. clearbody dd.
  set (a := arcsec) in *. clearbody a. unfold nfw_physical2angle_fromNFWparams. cbv zeta.
  split; [field; lra|].
  assert (E : (if p then rho0 * (4 * Rs ^ 2 * (sqrt 2 * ln (1 + sqrt 2) + ln (1 / 2))) else rho0 * (4 * Rs ^ 2 * (1 + ln (1 / 2))))
     = rho0 * (4 * Rs ^ 2 * cyl_const p)) by (destruct p; reflexivity).
  rewrite E. pose proof (cyl_scale p rho0 Rs Hs) as Y.
  assert (V : rho0 * (4 * Rs ^ 2 * cyl_const p) / sg / dd / a / (Rs / dd / a) = 4 * PI * rho0 * Rs ^ 3 * cyl_const p / (PI * Rs ^ 2) / sg)
    by (field; repeat split; lra).
  intros M. rewrite V. split.
  - intros HM. rewrite (cyl_unique _ _ _ _ HM Y). reflexivity.
  - intros HM. replace M with (4 * PI * rho0 * Rs ^ 3 * cyl_const p); [exact Y|].
    assert (Q : PI * Rs ^ 2 * sg <> 0) by (apply Rgt_not_eq; apply Rmult_lt_0_compat; [apply Rmult_lt_0_compat; [lra|apply pow_lt; lra]|lra]).
    apply (f_equal (fun v => v * (PI * Rs ^ 2 * sg))) in HM.
    assert (Rs ^ 2 <> 0) by (apply Rgt_not_eq, pow_lt; lra).
    replace (M / (PI * Rs ^ 2) / sg * (PI * Rs ^ 2 * sg)) with M in HM by (field; repeat split; lra).
    replace (4 * PI * rho0 * Rs ^ 3 * cyl_const p / (PI * Rs ^ 2) / sg * (PI * Rs ^ 2 * sg)) with (4 * PI * rho0 * Rs ^ 3 * cyl_const p) in HM by (field; repeat split; lra).
    exact HM.
Qed.
Example C74_deflection_angle_nonvacuous : forall p, exists M, cylinder_mass (halo_density p (10 ^ 15) 0.001) 0.001 M /\
  let (Rs_angle, alpha_Rs) := nfw_physical2angle_fromNFWparams demo 2 (10 ^ 15) 0.001 0.5 p in
  alpha_Rs / Rs_angle = M / (PI * 0.001 ^ 2) / get_sigma_crit_lensing demo 0.5 2.
Proof.
  intros p. pose proof (C74_deflection_angle demo 2 (10 ^ 15) 0.001 0.5 p demo_distances ltac:(lra)) as H.
  pose proof (cyl_scale p (10 ^ 15) 0.001 ltac:(lra)) as Y. eexists. split; [exact Y|].
  destruct (nfw_physical2angle_fromNFWparams demo 2 (10 ^ 15) 0.001 0.5 p) as [a b]. destruct H as [_ H]. apply H. exact Y.
Qed.

(** From mass and concentration: the same two facts for the halo that C55 describes (in Mpc). *)
Theorem C74_deflection_from_mass : forall C zs m c z p, expanding C -> distances_ok C z zs -> 0 <= z -> 0 < m -> 0 < c ->
  exists rho0 Rs r200 Rs_angle alpha_Rs M,
    describes_halo p m c (critical_kpc C z * 1000 ^ 3) rho0 Rs r200 /\
    nfw_physical2angle C zs m c z p = Ok (Rs_angle, alpha_Rs) /\
    Rs_angle * arcsec * co_DAz C z = Rs /\
    cylinder_mass (halo_density p rho0 Rs) Rs M /\
    alpha_Rs / Rs_angle = M / (PI * Rs ^ 2) / get_sigma_crit_lensing C z zs.
Proof.
  intros C zs m c z p K D Hz Hm Hc. destruct (mpc_describes C m c z p K Hz Hm Hc) as (rho0 & rs & r2 & E & H & _).
  pose proof (C74_deflection_angle C zs rho0 rs z p D (dh_rs _ _ _ _ _ _ _ H)) as T.
  unfold nfw_physical2angle. rewrite E. cbn [bind fst snd].
  destruct (nfw_physical2angle_fromNFWparams C zs rho0 rs z p) as [a b]. destruct T as [T1 T2].
  exists rho0, rs, r2, a, b, (4 * PI * rho0 * rs ^ 3 * cyl_const p).
  replace (critical_kpc C z * 1000 ^ 3) with (rhoc_z C z * co_h C ^ 2) by (unfold critical_kpc, rhoc_z; field).
  pose proof (cyl_scale p rho0 rs (dh_rs _ _ _ _ _ _ _ H)) as Y. repeat split; try assumption; try apply H. apply T2. exact Y.
Qed.
Example C74_deflection_from_mass_nonvacuous : exists a b, nfw_physical2angle demo 2 (10 ^ 9) 15 0.5 false = Ok (a, b).
Proof.
  destruct (C74_deflection_from_mass demo 2 (10 ^ 9) 15 0.5 false demo_expanding demo_distances ltac:(lra) ltac:(lra) ltac:(lra))
    as (_ & _ & _ & a & b & _ & _ & E & _). exists a, b. exact E.
Qed.

Lemma constants_pos : 0 < c_light /\ 0 < Grav /\ 0 < arcsec.
Proof. pose proof PI_RGT_0. unfold c_light, Grav, M_sun, Mpc, arcsec. repeat split; lra. Qed.

(** A point mass: the disc inside the Einstein radius contains the mass at exactly the critical surface density. *)
Theorem C74_point_mass_einstein_radius : forall C zs z M, distances_ok C z zs -> 0 <= M ->
  let theta := sqrt M * point_mass_factor_z C zs z in
  0 <= theta /\ PI * (theta * arcsec * co_DAz C z) ^ 2 * get_sigma_crit_lensing C z zs = M.
Proof.
  intros C zs z M (A & B & D & _) HM theta. destruct constants_pos as (P1 & P2 & P3). pose proof PI_RGT_0 as Pi.
  unfold theta, point_mass_factor_z, get_sigma_crit_lensing. cbv zeta.
  set (c := c_light) in *. clearbody c. set (G := Grav) in *. clearbody G. set (a := arcsec) in *. clearbody a.
  set (dd := co_DAz C z) in *. clearbody dd. set (ds := co_DAz C zs) in *. clearbody ds. set (dds := co_DA C z zs) in *. clearbody dds.
  set (F := 4 * G * / c ^ 2 * (dds / dd / ds)).
  assert (PF : 0 < F).
  { unfold F. apply Rmult_lt_0_compat; [apply Rmult_lt_0_compat; [lra|apply Rinv_0_lt_compat, pow_lt; lra]|].
    repeat apply Rdiv_lt_0_compat; assumption. }
  split.
  - apply Rmult_le_pos; [apply sqrt_pos|]. apply Rmult_le_pos; [apply sqrt_pos|left; apply Rinv_0_lt_compat; exact P3].
  - replace ((sqrt M * (sqrt F / a) * a * dd) ^ 2) with (sqrt M ^ 2 * sqrt F ^ 2 * dd ^ 2) by (field; lra).
    rewrite !pow2_sqrt by lra. unfold F. field. repeat split; lra.
Qed.
Example C74_point_mass_nonvacuous : PI * (sqrt (10 ^ 6) * point_mass_factor_z demo 2 0.5 * arcsec * co_DAz demo 0.5) ^ 2 * get_sigma_crit_lensing demo 0.5 2 = 10 ^ 6.
Proof. apply (C74_point_mass_einstein_radius demo 2 0.5 (10 ^ 6) demo_distances). lra. Qed.

(** A singular isothermal sphere: the mass inside the returned Einstein radius is the critical mass to better than one
    part in a thousand (the code's rounded constants 206265 and 299792.5 are why it is not exact). *)
Theorem C74_isothermal_einstein_radius : forall C zs z sigma, distances_ok C z zs -> 0 < sigma ->
  let theta := thetaE_from_sigma C zs z sigma in
  let R0 := theta * arcsec * co_DAz C z in
  0 < R0 /\
  0.999 < PI * R0 ^ 2 * get_sigma_crit_lensing C z zs / sis_cylinder_mass Grav (sigma * 1000 / Mpc) R0 < 1.001.
Proof.
  intros C zs z sigma (A & B & D & Ez) Hs theta R0. destruct constants_pos as (P1 & P2 & P3). pose proof PI_bounds as Pi.
  assert (M0 : 0 < Mpc) by (unfold Mpc; lra).
  assert (T : theta = 4 * PI * (sigma / 299792.5) ^ 2 * co_DA C z zs / co_DAz C zs * 206265) by (unfold theta, thetaE_from_sigma; rewrite Ez; reflexivity).
  assert (T0 : 0 < theta).
  { rewrite T. apply Rmult_lt_0_compat; [|lra]. apply Rdiv_lt_0_compat; [|exact B]. apply Rmult_lt_0_compat; [|exact D].
    apply Rmult_lt_0_compat; [lra|]. apply pow_lt. lra. }
  assert (R1 : 0 < R0) by (unfold R0; apply Rmult_lt_0_compat; [apply Rmult_lt_0_compat; assumption|exact A]).
  split; [exact R1|].
  assert (V : PI * R0 ^ 2 * get_sigma_crit_lensing C z zs / sis_cylinder_mass Grav (sigma * 1000 / Mpc) R0
     = 206265 * arcsec * (299792458 / 299792500) ^ 2).
  { unfold sis_cylinder_mass. transitivity (R0 * get_sigma_crit_lensing C z zs * Grav / (sigma * 1000 / Mpc) ^ 2).
    - field. repeat split; lra.
    - unfold R0. rewrite T. unfold get_sigma_crit_lensing, c_light. cbv zeta.
      replace 299792.5 with (2997925 / 10) by lra.
      set (a := arcsec) in *. clearbody a. set (G := Grav) in *. clearbody G. set (mp := Mpc) in *. clearbody mp.
      set (dd := co_DAz C z) in *. clearbody dd. set (ds := co_DAz C zs) in *. clearbody ds. set (dds := co_DA C z zs) in *. clearbody dds.
      field. repeat split; lra. }
  rewrite V. unfold arcsec. lra.
Qed.
Example C74_isothermal_nonvacuous :
  let R0 := thetaE_from_sigma demo 2 0.5 200 * arcsec * co_DAz demo 0.5 in
  0 < R0 /\ 0.999 < PI * R0 ^ 2 * get_sigma_crit_lensing demo 0.5 2 / sis_cylinder_mass Grav (200 * 1000 / Mpc) R0 < 1.001.
Proof. apply (C74_isothermal_einstein_radius demo 2 0.5 200 demo_distances). lra. Qed.

(** The stored critical densities are one number in three area units: over an area given in Mpc^2, kpc^2 or arcsec^2
    they weigh the same, and sigma_crit_mass is that mass. *)
Theorem C74_critical_density_units : forall C zl zs area_mpc area_kpc area_asec,
  area_kpc = area_mpc * 1000 ^ 2 -> area_kpc = area_asec * co_kpc C zl ^ 2 ->
  area_mpc * get_sigma_crit_lensing C zl zs = area_kpc * sigma_crit_lens_kpc C zl zs /\
  area_mpc * get_sigma_crit_lensing C zl zs = area_asec * sigmacrit C zl zs /\
  sigma_crit_mass C zs zl area_mpc = area_kpc * sigma_crit_lens_kpc C zl zs.
Proof.
  intros C zl zs am ak aa E1 E2. unfold sigma_crit_lens_kpc, sigmacrit, sigma_crit_mass. repeat split.
  - rewrite E1. lra.
  - transitivity (ak * (get_sigma_crit_lensing C zl zs * 0.001 ^ 2)); [rewrite E1; lra|rewrite E2; ring].
  - rewrite E1. lra.
Qed.
Example C74_units_nonvacuous : exists am ak aa, ak = am * 1000 ^ 2 /\ ak = aa * co_kpc demo 0.5 ^ 2 /\ 0 < aa.
Proof. exists (36 / 1000 ^ 2), 36, 1. cbn. repeat split; lra. Qed.

(** C75: every positive thermal relic mass has exactly one half-mode mass. *)
Theorem C75_half_mode_exists : forall C m_thermal, 0 < m_thermal ->
  exists m, 0 < m /\ halfmode_to_thermal C m = m_thermal /\ forall m', 0 < m' -> halfmode_to_thermal C m' = m_thermal -> m' = m.
Proof.
  intros C t Ht.
  assert (P : 0 < halfmode_of C t) by (unfold halfmode_of; apply Rmult_lt_0_compat; [apply pow_lt; lra|apply exp_pos]).
  pose proof (thermal_of_halfmode C t Ht) as E. exists (halfmode_of C t). split; [exact P|]. split; [exact E|].
  intros m' Hm X. destruct (Rtotal_order m' (halfmode_of C t)) as [L|[L|L]]; [|exact L|].
  - pose proof (thermal_decr C _ _ Hm L). lra.
  - pose proof (thermal_decr C _ _ P L). lra.
Qed.
Example C75_half_mode_exists_nonvacuous : exists m, 0 < m /\ halfmode_to_thermal demo m = 5.
Proof. destruct (C75_half_mode_exists demo 5) as (m & P & E & _); [lra|]. exists m. split; assumption. Qed.

(** mthermal_to_halfmode returns it, for every minimiser that, given a function with a global minimum there, returns a
    global minimum of that function. *)
Theorem C75_half_mode_inverse : forall C minimiser m_thermal m_star, 0 < m_star -> halfmode_to_thermal C m_star = m_thermal ->
  (forall f x0, minimum_at f m_star -> minimum_at f (minimiser f x0)) ->
  mthermal_to_halfmode C minimiser m_thermal = m_star.
Proof.
  intros C mini t ms Pm E Hmin.
  assert (Z : thermal_objective C t ms = 0).
  { unfold thermal_objective. rewrite E, Rminus_diag_eq, Rabs_R0 by reflexivity. lra. }
  assert (NN : forall x, 0 <= thermal_objective C t x) by (intros x; unfold thermal_objective; pose proof (Rabs_pos (halfmode_to_thermal C x - t)); lra).
  assert (Q : minimum_at (thermal_objective C t) ms) by (split; [exact Pm|]; intros m' _; rewrite Z; apply NN).
  specialize (Hmin _ (10 ^ 8) Q). fold (mthermal_to_halfmode C mini t) in Hmin. set (m := mthermal_to_halfmode C mini t) in *. destruct Hmin as [P Hm].
  specialize (Hm _ Pm). rewrite Z in Hm. specialize (NN m). unfold thermal_objective in *.
  assert (A : Rabs (halfmode_to_thermal C m - t) = 0) by lra.
  assert (X : halfmode_to_thermal C m = t).
  { destruct (Req_dec (halfmode_to_thermal C m - t) 0) as [X|X]; [lra|]. apply Rabs_no_R0 in X. contradiction. }
  destruct (Rtotal_order m ms) as [L|[L|L]]; [|exact L|].
  - pose proof (thermal_decr C _ _ P L). lra.
  - pose proof (thermal_decr C _ _ Pm L). lra.
Qed.
Example C75_half_mode_inverse_nonvacuous : exists (minimiser : (R -> R) -> R -> R) m_star, 0 < m_star /\
  halfmode_to_thermal demo m_star = 5 /\ (forall f x0, minimum_at f m_star -> minimum_at f (minimiser f x0)) /\
  mthermal_to_halfmode demo minimiser 5 = m_star.
Proof.
  destruct (C75_half_mode_exists demo 5) as (m & P & E & _); [lra|]. exists (fun _ _ => m), m.
  split; [exact P|]. split; [exact E|]. split; [intros f x0 H; exact H|reflexivity].
Qed.
(** Warmer particles (smaller thermal mass) suppress more: the half-mode mass is strictly decreasing. *)
Theorem C75_monotone : forall C m m', 0 < m -> m < m' -> halfmode_to_thermal C m' < halfmode_to_thermal C m.
Proof. exact thermal_decr. Qed.
Example C75_monotone_nonvacuous : halfmode_to_thermal demo (10 ^ 9) < halfmode_to_thermal demo (10 ^ 7).
Proof. apply C75_monotone; lra. Qed.
(** The free-streaming length: a sphere of diameter 13.93 times it, filled at the critical density today, weighs the
    half-mode mass. *)
Theorem C75_free_streaming : forall C m, 0 < co_h C -> 0 < co_rhoc_astropy C -> 0 < m ->
  let radius := 13.93 * mhm_to_fsl C m / 2 in 0 < radius /\ 4 / 3 * PI * radius ^ 3 * co_rhoc_astropy C = m.
Proof.
  intros C m Hh Hr Hm radius. pose proof PI_RGT_0 as Pi.
  assert (Pk : 0 < PI * co_rhoc_astropy C) by (apply Rmult_lt_0_compat; assumption).
  assert (Q : 0 < 3 * m / (4 * PI * co_rhoc_astropy C)) by (apply Rdiv_lt_0_compat; lra).
  assert (E : radius = Rpower (3 * m / (4 * PI * co_rhoc_astropy C)) (1 / 3)).
  { unfold radius, mhm_to_fsl. cbv zeta. replace (co_rhoc_astropy C / co_h C ^ 2 * co_h C ^ 2) with (co_rhoc_astropy C) by (field; lra). lra. }
  rewrite E. split; [apply exp_pos|]. rewrite cube_root by exact Q. field. lra.
Qed.
Example C75_free_streaming_nonvacuous : let radius := 13.93 * mhm_to_fsl demo (10 ^ 8) / 2 in
  0 < radius /\ 4 / 3 * PI * radius ^ 3 * co_rhoc_astropy demo = 10 ^ 8.
Proof. apply C75_free_streaming; cbn; lra. Qed.

(** C76: nfw_vmax is the peak circular velocity of the NFW halo to within 1.3 per cent, from below: some radius rotates
    at least that fast, and none more than 1.66 / 1.64 times faster. *)
Theorem C76_peak_velocity : forall rhos rs, 0 < rhos -> 0 < rs ->
  let G := 4.3 * / 10 ^ 6 in
  (exists r, 0 < r /\ nfw_vmax rhos rs ^ 2 <= v_circ2 G (rho_nfw rhos rs) r) /\
  (forall r, 0 < r -> v_circ2 G (rho_nfw rhos rs) r <= (1.66 / 1.64 * nfw_vmax rhos rs) ^ 2).
Proof.
  intros rhos rs Hr Hs G. pose proof PI_bounds as Pi.
  assert (K : 0 < G * rhos * rs ^ 2).
  { apply Rmult_lt_0_compat; [apply Rmult_lt_0_compat; [unfold G; lra|exact Hr]|apply pow_lt; exact Hs]. }
  assert (V : nfw_vmax rhos rs ^ 2 = 1.64 ^ 2 * (G * rhos * rs ^ 2)).
  { unfold nfw_vmax. fold G. rewrite Rpow_mult_distr, pow2_sqrt by lra. reflexivity. }
  set (k := G * rhos * rs ^ 2) in *. split.
  - exists (175 / 81 * rs). split; [lra|]. rewrite v_circ_nfw by lra. fold k. rewrite V.
    replace (175 / 81 * rs / rs) with (175 / 81) by (field; lra). pose proof peak_low as L.
    apply Rmult_le_compat_r; [lra|]. nra.
  - intros r Hr'. rewrite v_circ_nfw by lra. fold k. rewrite Rpow_mult_distr, V.
    assert (Hx : 0 < r / rs) by (apply Rdiv_lt_0_compat; assumption). pose proof (peak_high _ Hx) as U.
    set (f := Func0 (r / rs) / (r / rs)) in *. clearbody f. rewrite <- Rmult_assoc. apply Rmult_le_compat_r; [lra|]. nra.
Qed.
Example C76_peak_velocity_nonvacuous : exists r, 0 < r /\ nfw_vmax (10 ^ 7) 3 ^ 2 <= v_circ2 (4.3 * / 10 ^ 6) (rho_nfw (10 ^ 7) 3) r.
Proof. apply C76_peak_velocity; lra. Qed.

(** The dynamical time is r_200 / v_max of the NFW halo, in Gyr with the code's unit constants. *)
Theorem C76_dynamical_time : forall C m z c, expanding C -> 0 <= z -> 0 < m -> 0 < c ->
  exists rhos rs r200 t, describes_halo false m c (critical_kpc C z) rhos rs r200 /\
    halo_dynamical_time C m z c = Ok t /\ 0 < t /\
    t = 3.086 * 10 ^ 16 * (3.17 * / 10 ^ 17) * r200 / nfw_vmax rhos rs.
Proof.
  intros C m z c K Hz Hm Hc. destruct (C55_nfw_parameters C m c z false K Hz Hm Hc) as (rhos & rs & r2 & E & P & D).
  exists rhos, rs, r2. unfold halo_dynamical_time. rewrite E. cbn [bind fst snd]. eexists. split; [exact D|]. split; [reflexivity|].
  split; [|reflexivity]. pose proof (dh_rs _ _ _ _ _ _ _ D) as Hs. pose proof (dh_conc _ _ _ _ _ _ _ D) as E2.
  assert (0 < r2) by (rewrite E2; apply Rmult_lt_0_compat; assumption).
  apply Rdiv_lt_0_compat; [apply Rmult_lt_0_compat; lra|]. unfold nfw_vmax. apply Rmult_lt_0_compat; [lra|]. apply sqrt_lt_R0.
  apply Rmult_lt_0_compat; [apply Rmult_lt_0_compat; lra|apply pow_lt; exact Hs].
Qed.
Example C76_dynamical_time_nonvacuous : exists t, halo_dynamical_time demo (10 ^ 13) 0.5 5 = Ok t /\ 0 < t.
Proof.
  destruct (C76_dynamical_time demo (10 ^ 13) 0.5 5 demo_expanding ltac:(lra) ltac:(lra) ltac:(lra)) as (_ & _ & _ & t & _ & E & P & _).
  exists t. split; assumption.
Qed.
(** The documented value is 2 r_vir / v_max: for every halo the code returns half of that. *)
Theorem C76_documented_time_refuted : ~ (forall C m z c t, expanding C -> 0 <= z -> 0 < m -> 0 < c ->
  halo_dynamical_time C m z c = Ok t ->
  forall rhos rs r200, describes_halo false m c (critical_kpc C z) rhos rs r200 ->
  t = 3.086 * 10 ^ 16 * (3.17 * / 10 ^ 17) * (2 * r200) / nfw_vmax rhos rs).
Proof.
  intros H. destruct (C76_dynamical_time demo (10 ^ 13) 0.5 5 demo_expanding ltac:(lra) ltac:(lra) ltac:(lra)) as (rhos & rs & r2 & t & D & E & P & V).
  specialize (H demo (10 ^ 13) 0.5 5 t demo_expanding ltac:(lra) ltac:(lra) ltac:(lra) E rhos rs r2 D).
  replace (3.086 * 10 ^ 16 * (3.17 * / 10 ^ 17) * (2 * r2) / nfw_vmax rhos rs) with (2 * (3.086 * 10 ^ 16 * (3.17 * / 10 ^ 17) * r2 / nfw_vmax rhos rs)) in H
    by (unfold Rdiv; ring).
  rewrite <- V in H. lra.
Qed.

(** C77: the SIDM clock.  With an age of the universe that falls with redshift, the effective age of a subhalo at [z] is
    the time from formation to infall plus [lambda_t] times the time from infall to [z]; infall before redshift 10 counts
    as infall at 10; at lambda_t = 1 infall does not matter; more time dilation means more effective age. *)
Theorem C77_effective_age : forall C z z_infall lambda_t,
  (forall a b, 0 <= a -> a < b -> co_age C b < co_age C a) -> 0 <= z -> z <= z_infall -> z <= 10 ->
  let zi := Rmin z_infall 10 in
  let t := sidm_halo_effective_age C z z_infall lambda_t 10 in
  t = (co_age C zi - co_age C 10) + lambda_t * (co_age C z - co_age C zi) /\
  (0 <= lambda_t -> 0 <= t) /\
  (lambda_t = 1 -> t = co_age C z - co_age C 10) /\
  (forall l', lambda_t < l' -> z < zi -> t < sidm_halo_effective_age C z z_infall l' 10).
Proof.
  intros C z zi lam Hage Hz L1 L2. cbv zeta. unfold sidm_halo_effective_age, halo_age.
  assert (E : (if Rltb 10 zi then 10 else zi) = Rmin zi 10) by (destruct (Rltb 10 zi) eqn:B; [apply Rltb_true in B; rewrite Rmin_right by lra|apply Rltb_false in B; rewrite Rmin_left by lra]; reflexivity).
  rewrite E. assert (M1 : Rmin zi 10 <= 10) by apply Rmin_r. assert (M2 : z <= Rmin zi 10) by (apply Rmin_glb; assumption).
  set (w := Rmin zi 10) in *. clearbody w.
  assert (B1 : Rltb 10 w = false) by (apply Rltb_false; lra). assert (B2 : Rltb w z = false) by (apply Rltb_false; lra). rewrite B1, B2.
  assert (A1 : co_age C 10 <= co_age C w) by (destruct (Req_dec w 10) as [->|N]; [lra|left; apply Hage; lra]).
  assert (A2 : co_age C w <= co_age C z) by (destruct (Req_dec z w) as [->|N]; [lra|left; apply Hage; lra]).
  split; [reflexivity|]. split; [|split].
  - intros Hl. assert (0 <= lam * (co_age C z - co_age C w)) by (apply Rmult_le_pos; lra). lra.
  - intros ->. ring.
  - intros l' Hl Hw. pose proof (Hage z w Hz Hw). apply Rplus_lt_compat_l. apply Rmult_lt_compat_r; lra.
Qed.
Example C77_effective_age_nonvacuous : (forall a b, 0 <= a -> a < b -> co_age demo b < co_age demo a) /\
  sidm_halo_effective_age demo 0.5 2 0.5 10 = (13 / 3 - 13 / 11) + 0.5 * (13 / 1.5 - 13 / 3).
Proof.
  assert (A : forall a b, 0 <= a -> a < b -> co_age demo b < co_age demo a).
  { intros a b Ha L. cbn. unfold Rdiv. apply Rmult_lt_compat_l; [lra|]. apply Rinv_lt_contravar; [|lra]. apply Rmult_lt_0_compat; lra. }
  split; [exact A|]. destruct (C77_effective_age demo 0.5 2 0.5 A ltac:(lra) ltac:(lra) ltac:(lra)) as [E _]. cbv zeta in E. rewrite E.
  rewrite Rmin_left by lra. cbn. replace (1 + 0.5) with 1.5 by lra. replace (1 + 2) with 3 by lra. replace (1 + 10) with 11 by lra. reflexivity.
Qed.

(** The collapse time is positive and scales as 1 / (sigma rho^(3/2) r_s). *)
Theorem C77_collapse_time : forall rhos rs sigma k, 0 < rhos -> 0 < rs -> 0 < sigma -> 0 < k ->
  0 < sidm_collapse_timescale rhos rs sigma /\
  sidm_collapse_timescale rhos rs (k * sigma) = sidm_collapse_timescale rhos rs sigma / k /\
  sidm_collapse_timescale rhos (k * rs) sigma = sidm_collapse_timescale rhos rs sigma / k /\
  sidm_collapse_timescale (k * rhos) rs sigma = sidm_collapse_timescale rhos rs sigma / (k * sqrt k).
Proof.
  intros rhos rs sigma k Hr Hs Hg Hk. pose proof PI_RGT_0 as Pi. unfold sidm_collapse_timescale. cbv zeta.
  set (A := 2.0889 * / 10 ^ 10). set (B := 4.3 * / 10 ^ 6). set (D := 1.05 * / 10 ^ 33). set (E := 3.171 * / 10 ^ 17).
  assert (PA : 0 < A) by (unfold A; lra). assert (PB : 0 < B) by (unfold B; lra). assert (PD : 0 < D) by (unfold D; lra).
  assert (PE : 0 < E) by (unfold E; lra). clearbody A B D E.
  assert (PX : 0 < 4 * PI * B * rhos * D).
  { apply Rmult_lt_0_compat; [apply Rmult_lt_0_compat; [apply Rmult_lt_0_compat; lra|exact Hr]|exact PD]. }
  replace (4 * PI * B * (k * rhos) * D) with (k * (4 * PI * B * rhos * D)) by ring. rewrite (sqrt_mult k (4 * PI * B * rhos * D)) by (left; assumption).
  pose proof (sqrt_lt_R0 _ PX) as S. pose proof (sqrt_lt_R0 _ Hk) as Sk. set (s := sqrt (4 * PI * B * rhos * D)) in *. set (q := sqrt k) in *.
  clearbody s q. replace 0.75 with (3 / 4) by lra. repeat split; try (field; lra).
  apply Rmult_lt_0_compat; [|exact PE]. apply Rdiv_lt_0_compat; [lra|]. repeat apply Rmult_lt_0_compat; assumption.
Qed.
Example C77_collapse_time_nonvacuous : 0 < sidm_collapse_timescale (10 ^ 7) 2 5 /\ sidm_collapse_timescale (10 ^ 7) 2 (2 * 5) = sidm_collapse_timescale (10 ^ 7) 2 5 / 2.
Proof. destruct (C77_collapse_time (10 ^ 7) 2 5 2) as (A & B & _); [lra|lra|lra|lra|]. split; assumption. Qed.

(** The mean free path is the inverse of density times cross section (up to the unit conversion). *)
Theorem C77_mean_free_path : forall density cross, 0 < density -> 0 < cross ->
  mean_free_path density cross * (density * (1.99 * 10 ^ 33) / (3.086 * 10 ^ 21) ^ 3) * cross * (3.086 * 10 ^ 21) = 1.
Proof.
  intros d s Hd Hs. unfold mean_free_path. cbv zeta. set (a := 1.99 * 10 ^ 33). set (b := 3.086 * 10 ^ 21).
  assert (0 < a) by (unfold a; lra). assert (0 < b) by (unfold b; lra). clearbody a b. field. repeat split; lra.
Qed.
Example C77_mean_free_path_nonvacuous : 0 < mean_free_path (10 ^ 7) 2.
Proof. unfold mean_free_path. lra. Qed.

Print Assumptions C55_nfw_parameters.
Print Assumptions C55_unique.
Print Assumptions C55_from_mass_redshift.
Print Assumptions C55_profile_must_be_set.
Print Assumptions C55_overdensity_radius.
Print Assumptions C55_vectorised.
Print Assumptions C55_precompute.
Print Assumptions C55_first_query.
Print Assumptions C74_deflection_angle.
Print Assumptions C74_deflection_from_mass.
Print Assumptions C74_point_mass_einstein_radius.
Print Assumptions C74_isothermal_einstein_radius.
Print Assumptions C74_critical_density_units.
Print Assumptions C75_half_mode_exists.
Print Assumptions C75_half_mode_inverse.
Print Assumptions C75_monotone.
Print Assumptions C75_free_streaming.
Print Assumptions C76_peak_velocity.
Print Assumptions C76_dynamical_time.
Print Assumptions C76_documented_time_refuted.
Print Assumptions C77_effective_age.
Print Assumptions C77_collapse_time.
Print Assumptions C77_mean_free_path.
