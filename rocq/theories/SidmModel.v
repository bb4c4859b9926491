(** SIDM-evolved halo profiles: Halos/HaloModels/NFW_core_trunc.py and Halos/batch_halo_util.py section 6 (C56).

    lenstronomy's TNFWC profile is the record [tnfwc]; its density_lens(R, Rs, alpha_Rs, r_core, r_trunc) is by
    definition density(R, Rs, alpha2rho0(alpha_Rs, Rs, r_core, r_trunc), r_core, r_trunc).  A numpy array is a list of
    reals; [min], [max] are [Rmin], [Rmax]; x ** 0.5 of a non-negative number is [sqrt x]. *)
From Verif Require Import Prelude MassFnModel NfwModel.
Local Open Scope string_scope.
Local Open Scope R_scope.
Local Open Scope list_scope.

(** NFW_core_trunc.py:427-435 _rs_evolution *)
Definition rs_poly (tr : R) : R :=
  1.13293 - 0.518186 * tr + 0.30265 * tr ^ 2 - 0.400463 * tr ^ 3 + (1 - 1.13293) * ln (0.001 + tr) / ln 0.001.
(** NFW_core_trunc.py:438-445 _rc_evolution *)
Definition rc_poly (tr : R) : R :=
  1.06419 * sqrt tr - 1.33207 * tr + 0.431133 * tr ^ 2 - 0.148087 * tr ^ 3 + 0.024455 * tr ^ 4.
(** NFW_core_trunc.py:417-424 rho_s_evolution *)
Definition rho_s_evolution (tr : R) : R :=
  0.692896 + 1.11215 * tr + 4.08729 * tr ^ 5 - 5.78038 * tr ^ 7 + 5.30498 * tr ^ 9 + (1 - 0.692896) / ln 0.001 * ln (0.001 + tr).

(** NFW_core_trunc.py:448-454 rs_extrapolation with its defaults t0 = 0.5, c1 = 0.47, c2 = 2.4.  It calls
    rs_evolution(t0); as t0 <= 1 that is _rs_evolution(t0), which unties the mutual recursion. *)
Definition rs_extrapolation (tr : R) : R := rs_poly 0.5 * exp (- 0.47 * (tr - 0.5) - 2.4 * (tr - 0.5) ^ 3).
(** NFW_core_trunc.py:457-468 rc_extrapolation, t0 = 0.5, c1 = 0.28 *)
Definition rc_extrapolation (tr : R) : R :=
  let rc := rc_poly 0.5 - 0.28 * (tr - 0.5) in
  if Rltb rc 0.0001 then 0.0001 else rc.
(** NFW_core_trunc.py:403-407 rs_evolution *)
Definition rs_evolution (tr : R) : R := if Rleb tr 1 then rs_poly tr else rs_extrapolation tr.
(** NFW_core_trunc.py:410-414 rc_evolution *)
Definition rc_evolution (tr : R) : R := if Rleb tr 1 then rc_poly tr else rc_extrapolation tr.
(** NFW_core_trunc.py:395-401 evolve_profile *)
Definition evolve_profile (t rs_0 : R) : R * R :=
  let t := Rmin 1.6 t in
  let rs := rs_0 * rs_evolution t in
  let rc := rs_0 * rc_evolution t in
  let rc := Rmax (/ 10 ^ 7 * rs) rc in
  (rs, rc).

(** Halos/batch_halo_util.py:496-512 _evolve_profile_vectorized: np.where keeps, element by element, one of two arrays *)
Definition where_ (b : list bool) (x y : list R) : list R :=
  zip_with (fun (c : bool) (p : R * R) => if c then fst p else snd p) b (zip_with pair x y).
Definition evolve_profile_vectorized (t rs_0 : list R) : list R * list R :=
  let t := map (Rmin 1.6) t in
  let below := map (fun x => Rleb x 1) t in
  let rs_evo := where_ below (map rs_poly t) (map (fun x => rs_poly 0.5 * exp (- 0.47 * (x - 0.5) - 2.4 * (x - 0.5) ^ 3)) t) in
  let rc_evo := where_ below (map rc_poly t) (map (fun x => Rmax (rc_poly 0.5 - 0.28 * (x - 0.5)) 0.0001) t) in
  let rs := zip_with Rmult rs_0 rs_evo in
  let rc := zip_with (fun a b => Rmax a b) (zip_with Rmult rs_0 rc_evo) (map (fun v => / 10 ^ 7 * v) rs) in
  (rs, rc).

(** lenstronomy TNFWC: alpha2rho0(alpha_Rs, Rs, r_core, r_trunc) and density(R, Rs, rho0, r_core, r_trunc) *)
Record tnfwc := { tc_alpha2rho0 : R -> R -> R -> R -> R; tc_density : R -> R -> R -> R -> R -> R }.
Definition density_lens (P : tnfwc) (r Rs alpha_Rs r_core r_trunc : R) : R :=
  tc_density P r Rs (tc_alpha2rho0 P alpha_Rs Rs r_core r_trunc) r_core r_trunc.

(** numpy.logspace(lo, hi, n) *)
Definition logspace (lo hi : R) (n : nat) : list R := map (fun i => pow10 (lo + INR i * ((hi - lo) / INR (n - 1)))) (seq 0 n).
(** numpy.trapezoid(y, x), on the list of pairs (x, y) *)
Fixpoint trapezoid (l : list (R * R)) : R :=
  match l with
  | (x, y) :: (((x', y') :: _) as t) => (x' - x) * ((y + y') / 2) + trapezoid t
  | _ => 0
  end.

(** A TNFWC halo: mass, concentration, redshift, infall redshift, subhalo flag and the dictionary _args.  z_eval of the
    base class (Halos/halo_base.py:205-214) is the infall redshift for subhalos and the redshift otherwise. *)
Record shalo := { sh_mass : R; sh_c : R; sh_z : R; sh_zinf : R; sh_sub : bool; sh_args : list (string * R) }.
Definition sh_zeval (o : shalo) : R := if sh_sub o then sh_zinf o else sh_z o.
(** Python d[k] *)
Fixpoint arg (k : string) (d : list (string * R)) : result R :=
  match d with
  | nil => Err EKeyError
  | (k', v) :: t => if String.eqb k k' then Ok v else arg k t
  end.

(** NFW_core_trunc.py:43-59 density_profile_3d_lenstronomy at one radius *)
Definition density_profile (C : cosmo) (P : tnfwc) (zs z r Rs alpha_Rs r_core r_trunc : R) : R :=
  let kpc_per_arcsec := co_kpc C z in
  let sigma_crit_kpc := get_sigma_crit_lensing C z zs * / 10 ^ 6 in
  let factor := sigma_crit_kpc / kpc_per_arcsec in
  factor * density_lens P (r / kpc_per_arcsec) Rs alpha_Rs r_core r_trunc.

(** NFW_core_trunc.py:216-225 halo_effective_age *)
Definition halo_effective_age (C : cosmo) (o : shalo) : result R :=
  if sh_sub o then do lam <- arg "lambda_t" (sh_args o); Ok (sidm_halo_effective_age C (sh_z o) (sh_zinf o) lam 10)
  else Ok (halo_age C (sh_z o) 10).
(** NFW_core_trunc.py:235-241 t_over_tc *)
Definition t_over_tc (C : cosmo) (o : shalo) : result R :=
  do a <- halo_effective_age C o; do t <- arg "sidm_timescale" (sh_args o); Ok (a / t).

(** The trapezoidal mass of the density with unit deflection (NFW_core_trunc.py:262-269, 158-169) *)
Definition unit_mass (C : cosmo) (P : tnfwc) (zs z rs_0 Rs_angle r_core_angle r_trunc_angle : R) (x : list R) : R :=
  let r := map (fun xi => xi * rs_0) x in
  trapezoid (map (fun ri => (ri, 4 * PI * ri ^ 2 * density_profile C P zs z ri Rs_angle 1 r_core_angle r_trunc_angle)) r).

(** NFW_core_trunc.py:243-271 TNFWCHaloEvolving.profile_args: alpha_Rs, rs, rc, rt, r200 *)
Definition profile_args_evolving (C : cosmo) (P : tnfwc) (zs : R) (o : shalo) : result (R * R * R * R * R) :=
  do rt_kpc <- arg "rt_kpc" (sh_args o);
  do p <- NFW_params_physical C (sh_mass o) (sh_c o) (sh_zeval o) (Some true);
  let rs_0 := snd (fst p) in
  do t <- t_over_tc C o;
  let e := evolve_profile t rs_0 in
  let rs_kpc := fst e in
  let rc_kpc := snd e in
  let k := co_kpc C (sh_z o) in
  let r200_kpc := sh_c o * rs_0 in
  let x := logspace (- 4) (log10 (sh_c o)) 250 in
  let mass_3d := unit_mass C P zs (sh_z o) rs_0 (rs_kpc / k) (rc_kpc / k) (rt_kpc / k) x in
  do m <- arg "mass_conservation" (sh_args o);
  Ok (m / mass_3d, rs_kpc, rc_kpc, rt_kpc, r200_kpc).

(** NFW_core_trunc.py:144-180 TNFWCHaloParametric.profile_args *)
Definition profile_args_parametric (C : cosmo) (P : tnfwc) (zs : R) (o : shalo) : result (R * R * R * R * R) :=
  do p <- NFW_params_physical C (sh_mass o) (sh_c o) (sh_zeval o) (Some false);
  let rs_kpc0 := snd (fst p) in
  let r200_kpc := rs_kpc0 * sh_c o in
  let r_match_kpc := sh_c o * rs_kpc0 in
  let k := co_kpc C (sh_z o) in
  do rt_kpc <- arg "rt_kpc" (sh_args o);
  do x_core_halo <- arg "x_core_halo" (sh_args o);
  let rs_kpc := if Rltb rt_kpc (x_core_halo * rs_kpc0) then rt_kpc * 0.99 else x_core_halo * rs_kpc0 in
  let r_core_kpc := rs_kpc * 0.99 in
  let x := logspace (- 4) (log10 (r_match_kpc / rs_kpc0)) 250 in
  let mass_3d := unit_mass C P zs (sh_z o) rs_kpc0 (rs_kpc / k) (r_core_kpc / k) (rt_kpc / k) x in
  do m <- arg "mass_conservation" (sh_args o);
  Ok (m / mass_3d, rs_kpc, r_core_kpc, rt_kpc, r200_kpc).

(** NFW_core_trunc.py:124-142 lenstronomy_params: alpha_Rs, Rs, r_core, r_trunc of the keyword dictionary.  Neither these
    nor profile_args involve _rescale_norm. *)
Definition lenstronomy_params_tnfwc (C : cosmo) (z : R) (a : R * R * R * R * R) : R * R * R * R :=
  match a with (alpha_Rs, rs_kpc, rc_kpc, rt_kpc, _) =>
    let k := co_kpc C z in (alpha_Rs, rs_kpc / k, rc_kpc / k, rt_kpc / k) end.
(** NFW_core_trunc.py:183-193 params_physical: the entry 'rhos' *)
Definition params_physical_rhos (rescale_norm : R) (a : R * R * R * R * R) : R :=
  match a with (alpha_Rs, _, _, _, _) => alpha_Rs * rescale_norm end.

(** eff_age[is_sub] = a; eff_age[~is_sub] = b *)
Fixpoint scatter (mask : list bool) (a b : list R) : list R :=
  match mask with
  | nil => nil
  | true :: m => match a with v :: t => v :: scatter m t b | nil => nil end
  | false :: m => match b with v :: t => v :: scatter m a t | nil => nil end
  end.

(** Halos/batch_halo_util.py:515-598 precompute_sidm_evolving_profiles, on halos of class TNFWCHaloEvolving without
    cached _profile_args (the list the first line of the function selects), concentrations and infall redshifts drawn
    already: for each halo the new _halo_effective_age and _profile_args.  The angular diameter distances taken directly
    from astropy are those of the cosmology object; lenstronomy's alpha2rho0 is called per halo, its density broadcasts. *)
Definition precompute_sidm (C : cosmo) (P : tnfwc) (zs : R) (halos : list shalo) : result (list (R * (R * R * R * R * R))) :=
  if (List.length halos =? 0)%nat then Ok nil else
  let m := map sh_mass halos in
  let c := map sh_c halos in
  let z := map sh_z halos in
  let z_eval := map sh_zeval halos in
  do rt_kpc <- mapM (fun o => arg "rt_kpc" (sh_args o)) halos;
  do m_target <- mapM (fun o => arg "mass_conservation" (sh_args o)) halos;
  do t_c <- mapM (fun o => arg "sidm_timescale" (sh_args o)) halos;
  let is_sub := map sh_sub halos in
  do lam_all <- (if existsb (fun b => b) is_sub then mapM (fun o => arg "lambda_t" (sh_args o)) halos else Ok nil);
  let lam := map snd (filter (fun p : bool * R => fst p) (combine is_sub lam_all)) in
  let z_inf := map (fun o => Rmin (sh_zinf o) 10) (filter sh_sub halos) in
  let t_form_to_infall := map (fun w => if Rltb 10 w then 0 else co_age C w - co_age C 10) z_inf in
  let zi := map sh_z (filter sh_sub halos) in
  let t_infall_to_z := zip_with (fun u w => if Rltb w u then 0 else co_age C u - co_age C w) zi z_inf in
  let sub_age := zip_with Rplus t_form_to_infall (zip_with Rmult lam t_infall_to_z) in
  let field_age := map (fun u => if Rltb 10 u then 0 else co_age C u - co_age C 10) (map sh_z (filter (fun o => negb (sh_sub o)) halos)) in
  let eff_age := scatter is_sub sub_age field_age in
  let t_over_tc := zip_with Rdiv eff_age t_c in
  let pseudo := map (fun _ => true) halos in
  let rs_0 := snd (fst (nfw_params_physical_vectorized C m c z_eval pseudo)) in
  let e := evolve_profile_vectorized t_over_tc rs_0 in
  let rs_kpc := fst e in
  let rc_kpc := snd e in
  let r200_kpc := zip_with Rmult c rs_0 in
  let k := map (co_kpc C) z in
  let sigma_crit_mpc := map (fun u => c_light ^ 2 / (4 * PI * Grav) * co_DAz C zs / (co_DA C u zs * co_DAz C u)) z in
  let factor := zip_with (fun s ki => s * / 10 ^ 6 / ki) sigma_crit_mpc k in
  let rs_angle := zip_with Rdiv rs_kpc k in
  let rc_angle := zip_with Rdiv rc_kpc k in
  let rt_angle := zip_with Rdiv rt_kpc k in
  let rho0 := zip_with (fun rs q => tc_alpha2rho0 P 1 rs (fst q) (snd q)) rs_angle (zip_with pair rc_angle rt_angle) in
  let row (i : nat) :=
    let rs0 := nth i rs_0 0 in
    let ki := nth i k 0 in
    let r := map (fun xi => xi * rs0) (logspace (- 4) (log10 (nth i c 0)) 250) in
    trapezoid (map (fun ri => (ri, 4 * PI * ri ^ 2 *
      (nth i factor 0 * tc_density P (ri / ki) (nth i rs_angle 0) (nth i rho0 0) (nth i rc_angle 0) (nth i rt_angle 0)))) r) in
  let mass_3d := map row (seq 0 (List.length halos)) in
  let alpha_Rs := zip_with Rdiv m_target mass_3d in
  Ok (map (fun i => (nth i eff_age 0, (nth i alpha_Rs 0, nth i rs_kpc 0, nth i rc_kpc 0, nth i rt_kpc 0, nth i r200_kpc 0)))
          (seq 0 (List.length halos))).
