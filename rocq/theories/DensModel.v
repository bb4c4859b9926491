(** Densities of truncated NFW halos and of globular clusters: what the objects report and what the lens models they hand out contain
    (Halos/HaloModels/TNFW.py, globular_cluster.py; C112). *)
From Verif Require Import Prelude NfwModel.
Local Open Scope R_scope.

(** ** TNFW.py *)
(** lenstronomy TNFW.alpha2rho0(alpha_Rs, Rs) and TNFW.density(R, Rs, rho0, r_trunc) (external) *)
Definition tnfw_alpha2rho0 (alpha_Rs Rs : R) : R := alpha_Rs / (4 * Rs ^ 2 * (1 + ln (1 / 2))).
Definition tnfw_lens_density (r Rs rho0 r_trunc : R) : R := r_trunc ^ 2 / (r_trunc ^ 2 + r ^ 2) * (rho0 / (r / Rs * (1 + r / Rs) ^ 2)).
(** TNFW.py 195-217 lenstronomy_params: alpha_Rs, Rs, r_trunc of a halo with NFW parameters [rhos], [rs], truncation radius [rt] and
    normalisation [norm].  Simplification: before rounding. *)
Definition tnfw_kw (C : cosmo) (z_source z rhos rs rt norm : R) : R * R * R :=
  let '(Rs_angle, theta_Rs) := nfw_physical2angle_fromNFWparams C z_source (rhos * 10 ^ 9) (rs / 10 ^ 3) z false in
  (norm * theta_Rs, Rs_angle, rt / co_kpc C z).
(** TNFW.py 148-163 density_profile_3d_lenstronomy *)
Definition density_profile_3d_lenstronomy (C : cosmo) (z_source z rhos rs rt norm r : R) : R :=
  let '(alpha_Rs, Rs, r_trunc) := tnfw_kw C z_source z rhos rs rt norm in
  let kpc_per_arcsec := co_kpc C z in
  let sigma_crit_kpc := get_sigma_crit_lensing C z z_source * / 10 ^ 6 in
  let factor := sigma_crit_kpc / kpc_per_arcsec in
  factor * tnfw_lens_density (r / kpc_per_arcsec) Rs (tnfw_alpha2rho0 alpha_Rs Rs) r_trunc.

(** ** globular_cluster.py *)
(** [mass_3d] is lenstronomy's SPLCORE.mass_3d(r, rho0, r_core, gamma), [density] its SPLCORE.density(r, rho0, r_core, gamma); density_lens
    (r, sigma0, r_core, gamma) is the density with rho0 = sigma0 / r_core (external). *)
Section Cluster.
Variable mass_3d : R -> R -> R -> R -> R.
Variable density : R -> R -> R -> R -> R.
(** globular_cluster.py 92-105 profile_args: rho0, gc_size_kpc, gamma, r_core_kpc *)
Definition gc_profile_args (mass gamma gc_size_pc gc_concentration : R) : R * R * R * R :=
  let gc_size_kpc := gc_size_pc * / 10 ^ 3 in
  let r_core_kpc := gc_size_kpc / gc_concentration in
  (mass / mass_3d gc_size_kpc 1 r_core_kpc gamma, gc_size_kpc, gamma, r_core_kpc).
(** globular_cluster.py 73-90 lenstronomy_params: sigma0, gamma, r_core *)
Definition gc_lenstronomy (C : cosmo) (z_source z mass gamma gc_size_pc gc_concentration : R) : R * R * R :=
  let kpc_per_arcsec := co_kpc C z in
  let gc_size_arcsec := gc_size_pc * / 10 ^ 3 / kpc_per_arcsec in
  let r_core_arcsec := gc_size_arcsec / gc_concentration in
  let sigma_crit_arcsec := get_sigma_crit_lensing C z z_source * (/ 1000 * kpc_per_arcsec) ^ 2 in
  let rho0 := mass / mass_3d gc_size_arcsec sigma_crit_arcsec r_core_arcsec gamma in
  (rho0 * r_core_arcsec, gamma, r_core_arcsec).
(** globular_cluster.py 43-57 density_profile_3d_lenstronomy *)
Definition gc_density_lenstronomy (C : cosmo) (z_source z mass gamma gc_size_pc gc_concentration r : R) : R :=
  let '(sigma0, g, r_core) := gc_lenstronomy C z_source z mass gamma gc_size_pc gc_concentration in
  let kpc_per_arcsec := co_kpc C z in
  let sigma_crit_kpc := get_sigma_crit_lensing C z z_source * / 10 ^ 6 in
  sigma_crit_kpc / kpc_per_arcsec * density (r / kpc_per_arcsec) (sigma0 / r_core) r_core g.
(** scipy brentq (external): raises ValueError unless the signs at the ends differ; [root f a b] is what it returns otherwise *)
Definition brentq (root : (R -> R) -> R -> R -> R) (f : R -> R) (a b : R) : result R :=
  if Rltb 0 (f a * f b) then Err EValueError else Ok (root f a b).
(** globular_cluster.py 59-71 half_mass_radius (in pc) *)
Definition half_mass_radius (root : (R -> R) -> R -> R -> R) (mass gamma gc_size_pc gc_concentration : R) : result R :=
  let '(rho0, gc_size_kpc, g, r_core_kpc) := gc_profile_args mass gamma gc_size_pc gc_concentration in
  do r <- brentq root (fun r => mass_3d r rho0 r_core_kpc g - 0.5 * mass) (/ 10 ^ 4 * gc_size_kpc) gc_size_kpc;
  Ok (r * 1000).
End Cluster.
