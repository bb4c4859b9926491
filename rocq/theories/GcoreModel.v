(** Densities that generalised NFW and cored NFW halos report (Halos/HaloModels/generalized_nfw.py, NFW_core.py; C110). *)
From Verif Require Import Prelude NfwModel.
Local Open Scope R_scope.

(** ** generalized_nfw.py *)
(** lenstronomy PseudoDoublePowerlaw.density(R, Rs, rho0, gamma_inner, gamma_outer) (external) *)
Definition dpl_density (r Rs rho0 gi go : R) : R := rho0 / (Rpower (r / Rs) gi * Rpower (1 + (r / Rs) ^ 2) ((go - gi) / 2)).
(** generalized_nfw.py 26-42 density_profile_3d.  [k] is kpc_proper_per_asec(z), [sigma_crit_arcsec] is
    sigma_crit_arcsecond_interp(z), [Rs] the keyword of lenstronomy_params and [rho0] lenstronomy's alpha2rho0 of the keyword alpha_Rs
    (density_lens). *)
Definition gnfw_density_profile_3d (k sigma_crit_arcsec Rs rho0 gi go r : R) : R :=
  let sigma_crit_kpc := sigma_crit_arcsec / k ^ 2 in
  let factor := sigma_crit_kpc / k in
  factor * dpl_density (r / k) Rs rho0 gi go.
(** generalized_nfw.py 124-135 log_profile_slope *)
Definition gnfw_log_profile_slope (r rs gi go : R) : R :=
  let x := r / rs in - (gi + go * x ^ 2) / (1 + x ^ 2).

(** ** NFW_core.py *)
(** lenstronomy CNFW (external): [G x b] is its projected mass function _G; mass_2d(R, Rs, rho0, r_core), _alpha2rho0(alpha_Rs, Rs, r_core)
    and density(R, Rs, rho0, r_core) *)
Definition cnfw_mass_2d (G : R -> R -> R) (r Rs rho0 r_core : R) : R := 4 * PI * rho0 * Rs * r ^ 2 * G (r / Rs) (r_core / Rs) / (r / Rs) ^ 2.
Definition cnfw_alpha2rho0 (G : R -> R -> R) (alpha_Rs Rs r_core : R) : R := alpha_Rs / (4 * Rs ^ 2 * G 1 (r_core / Rs)).
Definition cnfw_density (r Rs rho0 r_core : R) : R := rho0 * Rs ^ 3 / ((r_core + r) * (r + Rs) ^ 2).
Definition cnfw_density_lens (G : R -> R -> R) (r Rs alpha_Rs r_core : R) : R := cnfw_density r Rs (cnfw_alpha2rho0 G alpha_Rs Rs r_core) r_core.

(** NFW_core.py 52-75 lenstronomy_params: alpha_Rs, Rs, r_core.  Simplification: before rounding to 10 digits.  [c] and [z_eval] are the
    concentration and its redshift (ConcClassModel.v), [norm] the attribute _rescale_norm, [beta] args['beta']. *)
Definition cnfw_lens (C : cosmo) (G : R -> R -> R) (z_source mass c z z_eval beta norm : R) : result (R * R * R) :=
  do p <- NFW_params_physical C mass c z_eval (Some false);
  let rhos_kpc := fst (fst p) in
  let rs_kpc := snd (fst p) in
  let kpc_per_arcsec := co_kpc C z in
  let Rs_angle := rs_kpc / kpc_per_arcsec in
  let r_core_angle := Rs_angle * beta in
  let alpha_Rs_nfw := snd (nfw_physical2angle_fromNFWparams C z_source (rhos_kpc * 10 ^ 9) (rs_kpc / 10 ^ 3) z false) in
  let mass_2d_core := cnfw_mass_2d G rs_kpc rs_kpc 1 (beta * rs_kpc) in
  let mass_2d_nfw := cnfw_mass_2d G rs_kpc rs_kpc 1 (/ 10 ^ 4 * rs_kpc) in
  let theta_Rs := alpha_Rs_nfw * mass_2d_core / mass_2d_nfw in
  Ok (norm * theta_Rs, Rs_angle, r_core_angle).
(** NFW_core.py 28-43 density_profile_3d *)
Definition cnfw_density_profile_3d (C : cosmo) (G : R -> R -> R) (z_source mass c z z_eval beta norm r : R) : result R :=
  do kw <- cnfw_lens C G z_source mass c z z_eval beta norm;
  let kpc_per_arcsec := co_kpc C z in
  let sigma_crit_kpc := get_sigma_crit_lensing C z z_source * / 10 ^ 6 in
  let factor := sigma_crit_kpc / kpc_per_arcsec in
  Ok (factor * cnfw_density_lens G (r / kpc_per_arcsec) (snd (fst kw)) (fst (fst kw)) (snd kw)).
