(** Numerical slopes and projected masses of halos: np.gradient and np.trapezoid on radial grids. *)
From Verif Require Import Prelude SpaceModel.

(** numpy.gradient(f, x) in one dimension (edge_order 1, not in the repo), on the list of pairs (x_i, f_i).
    Two-point differences at the ends; the second-order formula for unequal steps inside. numpy uses
    (f2 - f0) / (2 dx) when all steps are equal: over the reals this is the same number (lemma mid_uniform in SlopeProps). *)
Definition secant (p0 p1 : R * R) : R := (snd p1 - snd p0) / (fst p1 - fst p0).
Definition mid (p0 p1 p2 : R * R) : R :=
  let dx1 := fst p1 - fst p0 in
  let dx2 := fst p2 - fst p1 in
  - dx2 / (dx1 * (dx1 + dx2)) * snd p0 + (dx2 - dx1) / (dx1 * dx2) * snd p1 + dx1 / (dx2 * (dx1 + dx2)) * snd p2.
Fixpoint gradient_from (p0 p1 : R * R) (l : list (R * R)) : list R :=
  match l with
  | [] => [secant p0 p1]
  | p2 :: l' => mid p0 p1 p2 :: gradient_from p1 p2 l'
  end.
(** fewer than edge_order + 1 = 2 samples: ValueError *)
Definition np_gradient (pts : list (R * R)) : result (list R) :=
  match pts with
  | p0 :: p1 :: l => Ok (secant p0 p1 :: gradient_from p0 p1 l)
  | _ => Err EValueError
  end.

(** pyHalo/Halos/halo_base.py:252-264 _logarithmic_profile_slope_array; [rho] is density_profile_3d of the halo.
    The logarithm of a non-positive number (nan or -inf in numpy) is not modelled: theorems ask for positive densities. *)
Definition log_slope_array (rho : R -> R) (rs : list R) : result (list R) :=
  np_gradient (map (fun r => (ln r, ln (rho r))) rs).

(** pyHalo/Halos/halo_base.py:246-248: r a Python float or int *)
Definition log_slope_scalar (rho : R -> R) (r : R) : result R :=
  do g <- log_slope_array rho [r; r + 1 / 1000 * r];
  match g with v :: _ => Ok v | [] => Err EIndexError end.

(** pyHalo/Halos/HaloModels/NFW_core_trunc.py:84-103 log_slope_2d for an array of radii; [kappa] is half the trace of
    lenstronomy's hessian on the x axis in arcsec, [kpc_per_arcsec] the proper kpc per arcsec at the halo redshift *)
Definition log_slope_2d (kappa : R -> R) (kpc_per_arcsec : R) (rs : list R) : result (list R) :=
  np_gradient (map (fun r => (ln (r / kpc_per_arcsec), ln (kappa (r / kpc_per_arcsec)))) rs).

(** numpy.logspace(a, b, n) *)
Definition np_logspace (a b : R) (n : nat) : list R := map (Rpower 10) (np_linspace a b n).

(** numpy.trapezoid(y, x) on the list of pairs (x_i, y_i) *)
Fixpoint np_trapz (pts : list (R * R)) : R :=
  match pts with
  | p0 :: ((p1 :: _) as t) => (fst p1 - fst p0) * (snd p0 + snd p1) / 2 + np_trapz t
  | _ => 0
  end.

(** rmax is the string 'r200' (None) or a number *)
Definition rmax_value (r200 : R) (rmax : option R) : R := match rmax with None => r200 | Some r => r end.

(** pyHalo/Halos/HaloModels/TNFW.py:77-98 mass_2d and NFW_core_trunc.py:61-82 mass_2d (the second fixes n = 5000).
    [r200] is nfw_params[-1], [kappa] the convergence from the hessian, in arcsec, [sigma_crit_mpc] the critical surface
    density in Msun / Mpc^2. *)
Definition mass_2d (kappa : R -> R) (kpc_per_arcsec sigma_crit_mpc r200 : R) (rmax : option R) (num_steps : nat) : R :=
  let rm := rmax_value r200 rmax in
  let x := map (fun s => s * rm / kpc_per_arcsec) (np_logspace (- (35 / 10)) 0 num_steps) in
  let sigma_crit_kpc := sigma_crit_mpc * (1 / 1000000) in
  let sigma_crit_arcsec := sigma_crit_kpc * kpc_per_arcsec ^ 2 in
  np_trapz (map (fun x => (x, kappa x * 2 * PI * x)) x) * sigma_crit_arcsec.
Definition mass_2d_tnfwc kappa k sigma r200 rmax := mass_2d kappa k sigma r200 rmax 5000.

(** pyHalo/Halos/HaloModels/core_collapsed_halo.py:86-95 kappa: radii in kpc; [alpha] is deflection_angle, in arcsec *)
Definition collapsed_kappa (alpha : R -> R) (kpc_per_arcsec : R) (rs : list R) : result (list R) :=
  let ra := map (fun r => r / kpc_per_arcsec) rs in
  do g <- np_gradient (map (fun r => (r, alpha r)) ra);
  Ok (map (fun p => 1 / 2 * (alpha (fst p) / fst p + snd p)) (combine ra g)).

(** pyHalo/Halos/HaloModels/core_collapsed_halo.py:97-111 mass_2d *)
Definition collapsed_mass_2d (alpha : R -> R) (kpc_per_arcsec sigma_crit_mpc r200 : R) (rmax : option R) (num_steps : nat) : result R :=
  let rm := rmax_value r200 rmax in
  let r := map (fun s => s * rm) (np_logspace (-3) 0 num_steps) in
  do kappa <- collapsed_kappa alpha kpc_per_arcsec r;
  let sigma_crit_kpc := sigma_crit_mpc * (1 / 1000000) in
  let sigma_crit_arcsec := sigma_crit_kpc * kpc_per_arcsec ^ 2 in
  Ok (np_trapz (map (fun p => (fst p, snd p * 2 * PI * fst p)) (combine r kappa)) * sigma_crit_arcsec).
