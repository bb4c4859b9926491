(** Profile normalisations: generalised NFW, pseudo-Jaffe, cored power law and ULDM halos
    (Halos/HaloModels/generalized_nfw.py, PsuedoJaffe.py, powerlaw.py, ULDM.py; C59-C61, C78). *)
From Verif Require Import Prelude MassFnModel NfwModel SidmModel CompositeModel.
Local Open Scope string_scope.
Local Open Scope R_scope.
Local Open Scope list_scope.

(** args['x_match']: absent, the string 'c', or a number; generalized_nfw.py:104-111, powerlaw.py:34-41 *)
Inductive xmatch := XAbsent | XConc | XValue (x : R).
Definition x_match (x : xmatch) (concentration : R) : R := match x with XAbsent => 2.16 | XConc => concentration | XValue v => v end.
(** np.log(1 + x) - x / (1 + x) *)
Definition fx (x : R) : R := ln (1 + x) - x / (1 + x).

(** ** generalized_nfw.py *)
(** lenstronomy PseudoDoublePowerlaw: mass_3d(r, Rs, rho0, gamma_inner, gamma_outer), rho02alpha(rho0, Rs, ...),
    alpha2rho0(alpha_Rs, Rs, ...) *)
Record dpl := { dp_mass_3d : R -> R -> R -> R -> R -> R; dp_rho02alpha : R -> R -> R -> R -> R; dp_alpha2rho0 : R -> R -> R -> R -> R }.
(** The dictionary args: the key r_transition may be absent at first *)
Record gargs := { ga_rt : option R; ga_x : xmatch; ga_m : option R; ga_gi : R; ga_go : R }.
(** A halo: mass, redshift, evaluation redshift, the value its property c draws, the value profile_args draws from the same
    concentration class, and which dictionary object it holds *)
Record ghalo := { gh_mass : R; gh_z : R; gh_zeval : R; gh_c : R; gh_conc : R; gh_dict : nat }.

(** generalized_nfw.py:94-122 _density_norm, not cached: the dictionary afterwards and the normalisation.
    [sig z] is lens_cosmo.sigma_crit_arcsecond_interp(z). *)
Definition density_norm (C : cosmo) (P : dpl) (sig : R -> R) (h : ghalo) (a : gargs) : result (gargs * R) :=
  do p <- NFW_params_physical C (gh_mass h) (gh_conc h) (gh_zeval h) (Some false);
  let rhos := fst (fst p) in
  let rs_nfw := snd (fst p) in
  let rt := match ga_rt a with Some r => r | None => rs_nfw end in
  let a' := {| ga_rt := Some rt; ga_x := ga_x a; ga_m := ga_m a; ga_gi := ga_gi a; ga_go := ga_go a |} in
  let k := co_kpc C (gh_z h) in
  let x := x_match (ga_x a) (gh_conc h) in
  let rs_arcsec := rt / k in
  let r_match_arcsec := x * rt / k in
  let m_match := match ga_m a with Some m => m | None => 4 * PI * rt ^ 3 * rhos * fx x end in
  Ok (a', m_match / dp_mass_3d P r_match_arcsec rs_arcsec (sig (gh_z h)) (ga_gi a) (ga_go a)).

(** generalized_nfw.py:53-72 lenstronomy_params, alpha_Rs and Rs before rounding; nfw_params is that of the base class with
    the class attribute _pseudo_nfw = True and the property c *)
Definition gnfw_lens (C : cosmo) (P : dpl) (h : ghalo) (a : gargs) (rho0 : R) : result (R * R) :=
  do p <- NFW_params_physical C (gh_mass h) (gh_c h) (gh_zeval h) (Some true);
  let rs_arcsec := snd (fst p) / co_kpc C (gh_z h) in
  Ok (dp_rho02alpha P rho0 rs_arcsec (ga_gi a) (ga_go a), rs_arcsec).

(** The halos of one realization: the dictionary objects and the cached normalisations (attribute _rho0_norm) *)
Record gstate := { gs_dicts : nat -> gargs; gs_norm : nat -> option R }.
Definition upd {A} (f : nat -> A) (i : nat) (v : A) : nat -> A := fun j => if Nat.eqb i j then v else f j.
(** Querying the lens parameters (or the density) of halo [i] of the list [hs] *)
Definition gquery (C : cosmo) (P : dpl) (sig : R -> R) (hs : nat -> ghalo) (i : nat) (s : gstate) : result (gstate * R) :=
  match gs_norm s i with
  | Some v => Ok (s, v)
  | None =>
      do q <- density_norm C P sig (hs i) (gs_dicts s (gh_dict (hs i)));
      Ok ({| gs_dicts := upd (gs_dicts s) (gh_dict (hs i)) (fst q); gs_norm := upd (gs_norm s) i (Some (snd q)) |}, snd q)
  end.
Fixpoint grun (C : cosmo) (P : dpl) (sig : R -> R) (hs : nat -> ghalo) (qs : list nat) (s : gstate) : result gstate :=
  match qs with
  | nil => Ok s
  | i :: t => do q <- gquery C P sig hs i s; grun C P sig hs t (fst q)
  end.

(** ** PsuedoJaffe.py *)
(** PsuedoJaffe.py:87-98 _rho.  With ra = rs numpy computes 0 / 0: no number ([None]). *)
Definition pj_rho (m rs ra r_match : R) : option R :=
  if Reqb (ra ^ 2 - rs ^ 2) 0 then None else
  let f := (ra * atan (r_match / ra) - rs * atan (r_match / rs)) / (ra ^ 2 - rs ^ 2) in
  Some (m / (4 * PI * ra ^ 2 * rs ^ 2 * f)).
(** lenstronomy PseudoJaffe.rho2sigma(rho0, Ra, Rs) *)
Definition rho2sigma (rho0 Ra Rs : R) : R := PI * rho0 * Ra * Rs / (Rs + Ra).
(** PsuedoJaffe.py:53-85 lenstronomy_params: Ra, Rs, sigma0; [c] is profile_args *)
Definition pj_lens (C : cosmo) (zs m c z z_eval : R) : result (R * R * R) :=
  let kpc_to_arcsec := 1 / co_kpc C z in
  do p <- NFW_params_physical C m c z_eval (Some false);
  let rhos_kpc := fst (fst p) in
  let rs_kpc := snd (fst p) in
  let r200_kpc := snd p in
  let ra_kpc := 0.01 * rs_kpc in
  let ra_arcsec := ra_kpc * kpc_to_arcsec in
  let rs_arcsec := rs_kpc * kpc_to_arcsec in
  let rmatch := r200_kpc in
  let rmatch_arcsec := rmatch * kpc_to_arcsec in
  let xmatch := rmatch / rs_kpc in
  let m_nfw := 4 * PI * rs_kpc ^ 3 * rhos_kpc * fx xmatch in
  match pj_rho m_nfw rs_arcsec ra_arcsec rmatch_arcsec with
  | None => Err EValueError
  | Some rho =>
      let sigma0 := rho2sigma rho ra_arcsec rs_arcsec in
      let sigma_crit_kpc := get_sigma_crit_lensing C z zs * 0.001 ^ 2 in
      let sigma0 := sigma0 * / (sigma_crit_kpc / kpc_to_arcsec ^ 2) in
      Ok (ra_arcsec, rs_arcsec, sigma0)
  end.
(** PsuedoJaffe.py:28-41 params_physical: the entry 'rho' *)
Definition pj_params_rho (C : cosmo) (m c c_property z_eval : R) : result (option R) :=
  do p <- NFW_params_physical C m c z_eval (Some false);
  let rs := snd (fst p) in
  let ra_kpc := 0.01 * rs in
  Ok (pj_rho m ra_kpc ra_kpc (c_property * rs)).

(** ** powerlaw.py *)
(** powerlaw.py:24-55 lenstronomy_params: sigma0, r_core; [mass_3d r rho0 r_core gamma] is lenstronomy SPLCORE.mass_3d *)
Definition plaw_lens (C : cosmo) (mass_3d : R -> R -> R -> R -> R) (zs m c z z_eval gamma x_core_halo : R) (xm : xmatch) : result (R * R) :=
  do p <- NFW_params_physical C m c z_eval (Some false);
  let rhos := fst (fst p) in
  let rs := snd (fst p) in
  let k := co_kpc C z in
  let x := x_match xm c in
  let r_match_arcsec := x * rs / k in
  let mm := 4 * PI * rs ^ 3 * rhos * fx x in
  let r_core_arcsec := x_core_halo * r_match_arcsec / x in
  let sigma := get_sigma_crit_lensing C z zs * (0.001 * k) ^ 2 in
  let rho0 := mm / mass_3d r_match_arcsec sigma r_core_arcsec gamma in
  Ok (rho0 * r_core_arcsec, r_core_arcsec).

(** ** ULDM.py *)
(** lenstronomy CNFW().mass_3d_lens(r, Rs, alpha_Rs, r_core) and Uldm().mass_3d_lens(r, kappa_0, theta_c) *)
Record uldm := { ul_cnfw : R -> R -> R -> R -> R; ul_core : R -> R -> R -> R }.
(** ULDM.py:176-201 _constraint_mass (mass_3d_lens is never NaN in the model) *)
Definition constraint_mass (U : uldm) (sigmacrit beta q r m_target rs alpha_rs kappa_0 theta_c : R) : R :=
  let r_core := beta * rs in
  Rabs (ul_cnfw U r rs (alpha_rs * sigmacrit) r_core / m_target + q * ul_core U r (kappa_0 * sigmacrit) theta_c / m_target - 1).
(** ULDM.py:203-214 _constraint_density *)
Definition constraint_density (beta q rho_target rhos : R) : R := Rabs (rhos - beta * rho_target * (q - 1)).
(** ULDM.py:216-238 _function_to_minimize *)
Definition function_to_minimize (U : uldm) (sigmacrit beta q r m_target rs alpha_rs kappa_0 theta_c rho0 rhos : R) : R :=
  constraint_mass U sigmacrit beta q r m_target rs alpha_rs kappa_0 theta_c + 20 * constraint_density beta q rho0 rhos.
(** ULDM.py:128-174 _rescaled_cnfw_params with the point [beta, q] that scipy's minimiser returned.  Returns alpha_Rs,
    r_core of the cored NFW part and kappa_0 of the soliton; [c] is the attribute _c. *)
Definition rescaled_cnfw (U : uldm) (sigmacrit mass c : R) (scale_nfw : bool) (Rs alpha_Rs r_core kappa_0 theta_c beta q : R) : result (R * R * R) :=
  let r200 := c * Rs in
  if Rltb beta 0 then Err EValueError else if Rltb q 0 then Err EValueError else
  let r_core := r_core / beta in
  let kappa_0 := kappa_0 / q in
  let M_nfw := ul_cnfw U r200 Rs (alpha_Rs * sigmacrit) r_core in
  let M_uldm := ul_core U r200 (kappa_0 * sigmacrit) theta_c in
  let alpha_Rs := if scale_nfw then alpha_Rs * (mass / (M_nfw + M_uldm)) else alpha_Rs in
  Ok (alpha_Rs, r_core, kappa_0).
(** ULDM.py:76-102 _core_radius, _central_density, _zeta; [Om] is astropy's Om *)
Definition zeta (Om : R -> R) (z : R) : R := (18 * PI ^ 2 + 82 * (Om z - 1) - 39 * (Om z - 1) ^ 2) / Om z.
Definition core_radius (Om : R -> R) (z m_log10 M plaw : R) : R :=
  let m22 := pow10 (m_log10 + 22) in
  let a := 1 / (1 + z) in
  let M9 := pow10 (log10 M - 9) in
  let Z := zeta Om z / zeta Om 0 in
  1.6 * / m22 * Rpower a (1 / 2) * Rpower Z (- 1 / 6) * Rpower M9 (- plaw).
Definition central_density (z m_log10 r_c : R) : R :=
  let m23 := pow10 (m_log10 + 23) in
  let a := 1 / (1 + z) in
  let x_c := r_c / a in
  1.9 * / a * / m23 ^ 2 * / x_c ^ 4.
(** ULDM.py:76-91 _uldm_args: theta_c and kappa_0; lens_cosmo.sigma_crit_lensing and D_d are those of the lens redshift
    [zlens] (lens_cosmo.py:52-58), [z] is the redshift of the halo *)
Definition uldm_args (C : cosmo) (Om : R -> R) (zlens zs z m_log10 M plaw : R) : R * R :=
  let r_c := core_radius Om z m_log10 M plaw in
  let rho_c := central_density z m_log10 r_c in
  let r_c := r_c * 10 ^ 3 in
  let Sigma_crit := get_sigma_crit_lensing C zlens zs * / 10 ^ 12 in
  let D_lens := co_DAz C zlens * 10 ^ 6 in
  (r_c / D_lens / arcsec, 429 * PI * rho_c * r_c / (2048 * sqrt 0.091 * Sigma_crit)).
