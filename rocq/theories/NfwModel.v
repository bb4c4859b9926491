(** NFW parameters, their vectorised replica and the lensing conversions of LensCosmo (C55, C74, C75).

    External functions are fields of [cosmo]: [co_rhoc] is lenstronomy's NFWParam.rhoc, [co_E] astropy's efunc,
    [co_DA z1 z2] and [co_DAz z] are Cosmology.D_A and Cosmology.D_A_z (their caching is in SpaceModel.v), [co_age] the
    interpolated age of the universe, [co_kpc] kpc_proper_per_asec.  Numbers are reals, so a division by zero is the
    usual real convention here; the theorems exclude it by hypothesis.  [x ** (1/3)] of a positive number is
    [Rpower x (1 / 3)] and [x ** 0.5] is [sqrt x]. *)
From Verif Require Import Prelude.
Local Open Scope R_scope.
Local Open Scope list_scope.

Record cosmo := {
  co_h : R; co_rhoc : R; co_E : R -> R; co_DA : R -> R -> R; co_DAz : R -> R; co_age : R -> R; co_kpc : R -> R; co_Om0 : R;
  co_rhoc_astropy : R (* critical_density(0) in M_sun / Mpc^3 *) }.

(** Cosmology/cosmology.py:11-19 *)
Definition M_sun : R := 1.98847 * 10 ^ 30.
Definition Mpc : R := 3.08567758 * 10 ^ 22.
Definition arcsec : R := 2 * PI / 360 / 3600.
Definition Grav : R := 6.67384 * / 10 ^ 11 * / Mpc ^ 3 * M_sun.
Definition c_light : R := 299792458 * / Mpc.

(** lenstronomy NFWParam.rhoc_z, repeated in Halos/batch_halo_util.py:53 *)
Definition rhoc_z (C : cosmo) (z : R) : R := co_rhoc C * co_E C z ^ 2.
(** lenstronomy NFWParam.r200_M, repeated in Halos/batch_halo_util.py:55 (before the division by h) *)
Definition r200_M (C : cosmo) (M z : R) : R := Rpower (3 * M / (4 * PI * rhoc_z C z * 200)) (1 / 3).
(** lenstronomy NFWParam.rho0_c, repeated in Halos/batch_halo_util.py:58 *)
Definition rho0_c (C : cosmo) (c z : R) : R := 200 / 3 * rhoc_z C z * c ^ 3 / (ln (1 + c) - c / (1 + c)).
(** Halos/lens_cosmo.py:17-26 NFWParampyHalo.rho0_c_pseudoNFW *)
Definition rho0_c_pseudoNFW (C : cosmo) (c z : R) : R := 2 * c ^ 3 * rhoc_z C z * 200 / (3 * ln (1 + c ^ 2)).

(** Halos/lens_cosmo.py:211-222 rN_M *)
Definition rN_M (C : cosmo) (M z N : R) : R := Rpower (3 * M / (4 * PI * rhoc_z C z * N)) (1 / 3) / co_h C.

(** Halos/lens_cosmo.py:224-244 nfwParam_physical; [None] is Python's None for pseudo_nfw *)
Definition nfwParam_physical (C : cosmo) (m c z : R) (pseudo : option bool) : result (R * R * R) :=
  match pseudo with
  | None => Err EException
  | Some p =>
      let r200 := r200_M C (m * co_h C) z / co_h C in
      let rho0 := if p then rho0_c_pseudoNFW C c z * co_h C ^ 2 else rho0_c C c z * co_h C ^ 2 in
      Ok (rho0, r200 / c, r200)
  end.

(** Halos/lens_cosmo.py:273-285 NFW_params_physical *)
Definition NFW_params_physical (C : cosmo) (m c z : R) (pseudo : option bool) : result (R * R * R) :=
  do p <- nfwParam_physical C m c z pseudo;
  Ok (fst (fst p) * / 1000 ^ 3, snd (fst p) * 1000, snd p * 1000).

(** Halos/lens_cosmo.py:258-271 NFW_params_physical_fromMZ; [conc] is the scatter-free Diemer-Joyce relation *)
Definition NFW_params_physical_fromMZ (C : cosmo) (conc : R -> R -> R) (m z scale : R) (pseudo : option bool) :=
  NFW_params_physical C m (scale * conc m z) z pseudo.

(** Element-wise numpy arithmetic on arrays of one length. *)
Fixpoint zip_with {A B D} (f : A -> B -> D) (l : list A) (l' : list B) : list D :=
  match l, l' with a :: t, b :: t' => f a b :: zip_with f t t' | _, _ => nil end.

(** Halos/batch_halo_util.py:36-66 nfw_params_physical_vectorized, array expression by array expression.  Arrays of one
    length only: broadcasting of length-one arrays is not modelled. *)
Definition nfw_params_physical_vectorized (C : cosmo) (m c z : list R) (pseudo : list bool) : list R * list R * list R :=
  let h := co_h C in
  let rhoc_z := map (fun zi => co_rhoc C * co_E C zi ^ 2) z in
  let r200_mpc := zip_with (fun mi r => Rpower (3 * (mi * h) / (4 * PI * r * 200)) (1 / 3) / h) m rhoc_z in
  let rho0_nfw := zip_with (fun r ci => 200 / 3 * r * ci ^ 3 / (ln (1 + ci) - ci / (1 + ci))) rhoc_z c in
  let rho0_pseudo := zip_with (fun ci r => 2 * ci ^ 3 * r * 200 / (3 * ln (1 + ci ^ 2))) c rhoc_z in
  let chosen := zip_with (fun (p : bool) (ab : R * R) => if p then fst ab else snd ab) pseudo (zip_with pair rho0_pseudo rho0_nfw) in
  let rho0_mpc := map (fun v => v * h ^ 2) chosen in
  let rs_mpc := zip_with (fun r ci => r / ci) r200_mpc c in
  (map (fun v => v * / 1000 ^ 3) rho0_mpc, map (fun v => v * 1000) rs_mpc, map (fun v => v * 1000) r200_mpc).

(** A halo as precompute_nfw_params and Halo.nfw_params see it: mass, (cached) concentration, evaluation redshift,
    class attribute _pseudo_nfw, and the cache _nfw_params. *)
Record nhalo := { nh_mass : R; nh_c : R; nh_z : R; nh_pseudo : option bool; nh_cache : option (R * R * R) }.

(** Halos/halo_base.py:217-225 nfw_params: returned value and new cache *)
Definition nfw_params (C : cosmo) (o : nhalo) : result (R * R * R) * nhalo :=
  match nh_cache o with
  | Some v => (Ok v, o)
  | None =>
      match NFW_params_physical C (nh_mass o) (nh_c o) (nh_z o) (nh_pseudo o) with
      | Ok v => (Ok v, {| nh_mass := nh_mass o; nh_c := nh_c o; nh_z := nh_z o; nh_pseudo := nh_pseudo o; nh_cache := Some v |})
      | Err e => (Err e, o)
      end
  end.

Definition has_flag (o : nhalo) : bool := match nh_pseudo o with Some _ => true | None => false end.
Definition flag (o : nhalo) : bool := match nh_pseudo o with Some b => b | None => false end.

(** Writes the i-th triple of the three arrays into the i-th selected halo, leaving the others alone.  The Python code
    loops over the filtered list, whose elements are the same objects. *)
Fixpoint store (l : list nhalo) (a : list R * list R * list R) : list nhalo :=
  match l with
  | nil => nil
  | o :: t =>
      if has_flag o then
        match a with
        | (x :: xs, y :: ys, w :: ws) =>
            {| nh_mass := nh_mass o; nh_c := nh_c o; nh_z := nh_z o; nh_pseudo := nh_pseudo o; nh_cache := Some (x, y, w) |}
              :: store t (xs, ys, ws)
        | _ => o :: store t a
        end
      else o :: store t a
  end.

(** Halos/batch_halo_util.py:69-88 precompute_nfw_params (concentrations already cached: C50) *)
Definition precompute_nfw_params (C : cosmo) (halos : list nhalo) : list nhalo :=
  let sel := filter has_flag halos in
  if (List.length sel =? 0)%nat then halos
  else store halos (nfw_params_physical_vectorized C (map nh_mass sel) (map nh_c sel) (map nh_z sel) (map flag sel)).

(** Halos/lens_cosmo.py:347-360 get_sigma_crit_lensing *)
Definition get_sigma_crit_lensing (C : cosmo) (z1 z2 : R) : R :=
  let D_ds := co_DA C z1 z2 in
  let D_d := co_DAz C z1 in
  let D_s := co_DAz C z2 in
  let d_inv := D_s * / D_ds * / D_d in
  (c_light ^ 2 * / (4 * PI * Grav)) * d_inv.

(** Halos/lens_cosmo.py:191-209 nfw_physical2angle_fromNFWparams: scale radius and deflection angle in arcsec *)
Definition nfw_physical2angle_fromNFWparams (C : cosmo) (z_source rho0 Rs z : R) (pseudo : bool) : R * R :=
  let dd := co_DAz C z in
  let Rs_angle := Rs / dd / arcsec in
  let alpha_Rs :=
    if pseudo then let r2 := sqrt 2 in rho0 * (4 * Rs ^ 2 * (r2 * ln (1 + r2) + ln (1 / 2)))
    else rho0 * (4 * Rs ^ 2 * (1 + ln (1 / 2))) in
  let sigma_crit := get_sigma_crit_lensing C z z_source in
  (Rs_angle, alpha_Rs / sigma_crit / dd / arcsec).

(** Halos/lens_cosmo.py:176-189 nfw_physical2angle *)
Definition nfw_physical2angle (C : cosmo) (z_source m c z : R) (pseudo : bool) : result (R * R) :=
  do p <- nfwParam_physical C m c z (Some pseudo);
  Ok (nfw_physical2angle_fromNFWparams C z_source (fst (fst p)) (snd (fst p)) z pseudo).

(** Halos/lens_cosmo.py:50-56 and 287-296: the critical densities stored by __init__ and sigma_crit_mass *)
Definition sigma_crit_lens_kpc (C : cosmo) (zl zs : R) : R := get_sigma_crit_lensing C zl zs * 0.001 ^ 2.
Definition sigmacrit (C : cosmo) (zl zs : R) : R := get_sigma_crit_lensing C zl zs * 0.001 ^ 2 * co_kpc C zl ^ 2.
Definition sigma_crit_mass (C : cosmo) (z_source z area : R) : R := area * get_sigma_crit_lensing C z z_source.

(** Halos/lens_cosmo.py:362-372 thetaE_from_sigma *)
Definition thetaE_from_sigma (C : cosmo) (z_source z sigma : R) : R :=
  let asec := 206265 in
  let c := 299792.5 in
  let D_s := co_DA C 0 z_source in
  let D_ds := co_DA C z z_source in
  4 * PI * (sigma / c) ^ 2 * D_ds / D_s * asec.

(** Halos/lens_cosmo.py:374-390 point_mass_factor_z; self.D_s is D_A_z(z_source) (line 59) *)
Definition point_mass_factor_z (C : cosmo) (z_source z : R) : R :=
  let factor := 4 * Grav * / c_light ^ 2 in
  let dds := co_DA C z z_source in
  let dd := co_DAz C z in
  let ds := co_DAz C z_source in
  sqrt (factor * (dds / dd / ds)) / arcsec.

(** Halos/lens_cosmo.py:317-328 halfmode_to_thermal *)
Definition halfmode_to_thermal (C : cosmo) (m_half_mode : R) : R :=
  2.32 * Rpower (co_Om0 C / 0.25) 0.4 * Rpower (co_h C / 0.7) 0.8 * Rpower (m_half_mode / 10 ^ 9) (- 0.3).

(** Halos/lens_cosmo.py:305-315 mthermal_to_halfmode: the function given to the minimiser.  The minimiser itself
    (scipy Nelder-Mead) is an input. *)
Definition thermal_objective (C : cosmo) (m_thermal m : R) : R := Rabs (halfmode_to_thermal C m - m_thermal) / 0.01.
Definition mthermal_to_halfmode (C : cosmo) (minimiser : (R -> R) -> R -> R) (m_thermal : R) : R :=
  minimiser (thermal_objective C m_thermal) (10 ^ 8).

(** Halos/lens_cosmo.py:330-341 mhm_to_fsl; self.rhoc is critical_density(0) / h^2 (lines 47-48) *)
Definition mhm_to_fsl (C : cosmo) (m_hm : R) : R :=
  let rhoc := co_rhoc_astropy C / co_h C ^ 2 * co_h C ^ 2 in
  let l_hm := 2 * Rpower (3 * m_hm / (4 * PI * rhoc)) (1 / 3) in
  l_hm / 13.93.

(** Halos/lens_cosmo.py:442-452 nfw_vmax *)
Definition nfw_vmax (rhos rs : R) : R := 1.64 * sqrt (4.3 * / 10 ^ 6 * rhos * rs ^ 2).

(** Halos/lens_cosmo.py:392-407 halo_dynamical_time *)
Definition halo_dynamical_time (C : cosmo) (m_host z c_host : R) : result R :=
  do p <- NFW_params_physical C m_host c_host z (Some false);
  let vmax := nfw_vmax (fst (fst p)) (snd (fst p)) in
  let sec_to_gyr := 3.17 * / 10 ^ 17 in
  let kpc_to_km := 3.086 * 10 ^ 16 in
  Ok (kpc_to_km * sec_to_gyr * snd p / vmax).

(** Cosmology/cosmology.py:103-116 halo_age (scalar path, without its cache; see SpaceModel.v for the cache) *)
Definition halo_age (C : cosmo) (z zform : R) : R := if Rltb zform z then 0 else co_age C z - co_age C zform.

(** Halos/lens_cosmo.py:409-423 sidm_halo_effective_age *)
Definition sidm_halo_effective_age (C : cosmo) (z z_infall lambda_t zform : R) : R :=
  let z_infall := if Rltb 10 z_infall then 10 else z_infall in
  halo_age C z_infall zform + lambda_t * halo_age C z z_infall.

(** Halos/lens_cosmo.py:425-440 sidm_collapse_timescale *)
Definition sidm_collapse_timescale (rhos rs sigma_eff : R) : R :=
  let C := 0.75 in
  let G := 4.3 * / 10 ^ 6 in
  let const1 := 2.0889 * / 10 ^ 10 in
  let const2 := 1.05 * / 10 ^ 33 in
  let denom := const1 * sigma_eff * rhos * rs * sqrt (4 * PI * G * rhos * const2) in
  let tc_seconds := 150 / C / denom in
  tc_seconds * (3.171 * / 10 ^ 17).

(** Halos/lens_cosmo.py:454-466 mean_free_path *)
Definition mean_free_path (density cross_section : R) : R :=
  let msun_to_gram := 1.99 * 10 ^ 33 in
  let kpc_to_cm := 3.086 * 10 ^ 21 in
  let rho_cgs := density * msun_to_gram / kpc_to_cm ^ 3 in
  let mfp_cm := 1 / (rho_cgs * cross_section) in
  mfp_cm / kpc_to_cm.
