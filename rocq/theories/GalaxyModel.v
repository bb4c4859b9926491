(** Model of the galaxies that replace massive halos: Halos/HaloModels/sis.py (classes [SIS] and [MassiveGalaxy]) and the parts
    of Halos/halo_base.py they inherit, as mutable Python objects.  Attributes tested with [hasattr] are options.
    External: lenstronomy's PseudoDoublePowerlaw ([dpl]), the cosmology ([cosmo] of NfwModel.v) and the infall-redshift draws,
    which are arguments of the operations that may consume one. *)
From Verif Require Import Prelude MassFnModel NfwModel.

(** np.round(x, digits), sis.py 66, 151-153 *)
Definition np_round_to (digits : nat) (x : R) : R := IZR (np_round (x * 10 ^ digits)) / 10 ^ digits.

(** lenstronomy PseudoDoublePowerlaw.density_lens and mass_3d_lens; arguments r, Rs, alpha_Rs, gamma_inner, gamma_outer *)
Record dpl := mkDpl { d_rho : R -> R -> R -> R -> R -> R; d_m3d : R -> R -> R -> R -> R -> R }.

(** The replaced halo as the galaxy sees it: is_subhalo, z, c, profile_args[1], nfw_params[1], nfw_params[2], z_infall, and
    mass_3d('r200'), bound_mass and vmax_nfw as functions of its current rescaling factor.  Simplification: the caches of the
    replaced halo itself are the subject of HaloStateModel.v and are not repeated here. *)
Record base := mkBase { b_sub : bool; b_z : R; b_c : R; b_rt : R; b_rs : R; b_r200 : R; b_zinf : R;
                        b_m200 : R -> R; b_bound : R -> R; b_vmax : R -> R }.

Record genv := mkGenv { ge_C : cosmo; ge_zs : R; ge_prof : dpl; ge_base : base }.

Inductive gclass := CSIS | CMassive.

(** lenstronomy keywords: sis.py 67 and 154-157 *)
Inductive gkw :=
| KwSIS (theta_E x y : R)
| KwDPL (alpha_Rs Rs gamma_inner gamma_outer x y : R).

(** Attributes: x, y, _rescale_norm, _rescaled_once, the keyword cache (_kwargs_lenstronomy of SIS, _lenstronomy_args of
    MassiveGalaxy), _profile_args of SIS, the instance attribute _alphaRs, _z_infall, _bound_mass; and the rescaling factor of
    the replaced halo. *)
Record gal := mkGal { g_x : R; g_y : R; g_norm : R; g_once : bool; g_kw : option gkw; g_sigma : option R; g_alpha : option R;
                      g_zinf : option R; g_setbound : option R; g_bnorm : R }.

(** sis.py 13-31 and 74-94, halo_base.py 33-46: a new galaxy at the position of the halo, nothing cached, own factor 1 *)
Definition new_galaxy (x y bnorm : R) : gal := mkGal x y 1 false None None None None None bnorm.

(** halo_base.py 132-147 z_infall: sampled once; [u] is the value the accretion model would return now *)
Definition read_zinf (u : R) (s : gal) : R * gal :=
  match g_zinf s with
  | Some z => (z, s)
  | None => (u, mkGal (g_x s) (g_y s) (g_norm s) (g_once s) (g_kw s) (g_sigma s) (g_alpha s) (Some u) (g_setbound s) (g_bnorm s))
  end.

(** sis.py 143-146 and 190-193: the scale radius of the galaxy *)
Definition gal_rs (b : base) : R := if b_sub b then b_rt b else b_rs b.

(** sis.py 181-205, the value stored by the first call of _alphaRs *)
Definition alphaRs_value (e : genv) (s : gal) : R :=
  let b := ge_base e in
  let kpc_per_arcsec := co_kpc (ge_C e) (b_z b) in
  let m_nfw := b_m200 b (g_bnorm s) in
  let rs_arcsec := gal_rs b / kpc_per_arcsec in
  let r_match_arcsec := b_r200 b / kpc_per_arcsec in
  let sigma_crit_arcsec := get_sigma_crit_lensing (ge_C e) (b_z b) (ge_zs e) * (0.001 * kpc_per_arcsec) ^ 2 in
  m_nfw / d_m3d (ge_prof e) r_match_arcsec rs_arcsec 1 2 5 / sigma_crit_arcsec.

(** sis.py 181-205: the guard tests an attribute that is never set, and the value is stored under the name of the method; a
    later call on the instance finds a number *)
Definition call_alphaRs (e : genv) (s : gal) : result R * gal :=
  match g_alpha s with
  | Some _ => (Err ETypeError, s)
  | None =>
      let a := alphaRs_value e s in
      (Ok a, mkGal (g_x s) (g_y s) (g_norm s) (g_once s) (g_kw s) (g_sigma s) (Some a) (g_zinf s) (g_setbound s) (g_bnorm s))
  end.

Definition set_kw (k : gkw) (s : gal) : gal :=
  mkGal (g_x s) (g_y s) (g_norm s) (g_once s) (Some k) (g_sigma s) (g_alpha s) (g_zinf s) (g_setbound s) (g_bnorm s).

(** sis.py 135-157 lenstronomy_params of MassiveGalaxy.  Line 142 reads nfw_params, which needs z_eval and so the infall redshift
    of a subhalo (halo_base.py 204-225); [u] is the value sampled if it is not known yet. *)
Definition massive_lens (e : genv) (u : R) (s : gal) : result gkw * gal :=
  match g_kw s with
  | Some k => (Ok k, s)
  | None =>
      let b := ge_base e in
      let s1 := if b_sub b then snd (read_zinf u s) else s in
      let rs_arcsec := gal_rs b / co_kpc (ge_C e) (b_z b) in
      match call_alphaRs e s1 with
      | (Err x, s2) => (Err x, s2)
      | (Ok a, s2) =>
          let k := KwDPL (np_round_to 10 a) (np_round_to 10 rs_arcsec) 2 5 (np_round_to 4 (g_x s)) (np_round_to 4 (g_y s)) in
          (Ok k, set_kw k s2)
      end
  end.

(** sis.py 34-42 profile_args of SIS: the dispersion is computed once *)
Definition sis_sigma (e : genv) (s : gal) : R * gal :=
  match g_sigma s with
  | Some v => (v, s)
  | None =>
      let v := 0.646 * b_vmax (ge_base e) (g_bnorm s) in
      (v, mkGal (g_x s) (g_y s) (g_norm s) (g_once s) (g_kw s) (Some v) (g_alpha s) (g_zinf s) (g_setbound s) (g_bnorm s))
  end.

(** sis.py 58-70 lenstronomy_params of SIS *)
Definition sis_lens (e : genv) (s : gal) : result gkw * gal :=
  match g_kw s with
  | Some k => (Ok k, s)
  | None =>
      let (v, s1) := sis_sigma e s in
      let k := KwSIS (thetaE_from_sigma (ge_C e) (ge_zs e) (b_z (ge_base e)) v) (np_round_to 4 (g_x s)) (np_round_to 4 (g_y s)) in
      (Ok k, set_kw k s1)
  end.

Definition lens (e : genv) (cls : gclass) (u : R) (s : gal) : result gkw * gal :=
  match cls with CSIS => sis_lens e s | CMassive => massive_lens e u s end.

(** sis.py 96-112 density_profile_3d_lenstronomy; [SIS] and [Halo] do not define it *)
Definition density (e : genv) (cls : gclass) (u r : R) (s : gal) : result R * gal :=
  match cls with
  | CSIS => (Err EAttributeError, s)
  | CMassive =>
      match massive_lens e u s with
      | (Ok (KwDPL a rs gi go _ _), s') =>
          let kpc := co_kpc (ge_C e) (b_z (ge_base e)) in
          let sigma_crit_kpc := get_sigma_crit_lensing (ge_C e) (b_z (ge_base e)) (ge_zs e) * 1e-6 in
          (Ok (sigma_crit_kpc / kpc * d_rho (ge_prof e) (r / kpc) rs a gi go), s')
      | (Ok _, s') => (Err EKeyError, s')
      | (Err x, s') => (Err x, s')
      end
  end.

(** halo_base.py 64-92 rescale_normalization; only _kwargs_lenstronomy is invalidated, the cache of SIS and not that of
    MassiveGalaxy (_lenstronomy_args) *)
Definition rescale (cls : gclass) (factor : R) (force log : bool) (s : gal) : gal :=
  if force || negb (g_once s) then
    mkGal (g_x s) (g_y s) (g_norm s * factor) (g_once s || log) (match cls with CSIS => None | CMassive => g_kw s end)
          (g_sigma s) (g_alpha s) (g_zinf s) (g_setbound s) (g_bnorm s)
  else s.

(** What can be done to a galaxy.  [OBaseRescale n]: the replaced halo has been given the factor n by other code.
    [OAlpha]: a direct call of the method _alphaRs. *)
Inductive op :=
| OLens (u : R) | ODensity (u r : R) | OBound | OZinf (u : R) | OSetZinf (z : R) | OSetBound (m : R) | OConc
| OMass3d (u : R) (rmax : option R) | OSlope (r : R)
| ORescale (factor : R) (force log : bool) | OMove (x y : R) | OBaseRescale (n : R) | OAlpha.

Inductive out := OutKw (k : gkw) | OutNum (v : R) | OutErr (x : err) | OutUnit.
Definition out_of_num (r : result R) : out := match r with Ok v => OutNum v | Err x => OutErr x end.
Definition out_of_kw (r : result gkw) : out := match r with Ok k => OutKw k | Err x => OutErr x end.

(** One operation.
    bound_mass: sis.py 44-49 and 114-124; it does not look at the value given to set_bound_mass (halo_base.py 172-177).
    c: sis.py 126-133; [SIS] has none (halo_base.py 197-202).
    mass_3d: halo_base.py 227-236; 'r200' ([None]) reads c and nfw_params first; the integrand calls density_profile_3d, which
    neither class defines (194-195).  logarithmic_profile_slope: 238-264, the same.
    set_infall_redshift: 162-170. *)
Definition step (e : genv) (cls : gclass) (s : gal) (o : op) : out * gal :=
  match o with
  | OLens u => let (r, s') := lens e cls u s in (out_of_kw r, s')
  | ODensity u r => let (v, s') := density e cls u r s in (out_of_num v, s')
  | OBound => (if b_sub (ge_base e) then OutNum (b_bound (ge_base e) (g_bnorm s)) else OutErr EException, s)
  | OZinf u => let (z, s') := read_zinf u s in (OutNum z, s')
  | OSetZinf z =>
      if b_sub (ge_base e) then
        (OutUnit, mkGal (g_x s) (g_y s) (g_norm s) (g_once s) (g_kw s) (g_sigma s) (g_alpha s) (Some z) (g_setbound s) (g_bnorm s))
      else (OutErr EException, s)
  | OSetBound m =>
      (OutUnit, mkGal (g_x s) (g_y s) (g_norm s) (g_once s) (g_kw s) (g_sigma s) (g_alpha s) (g_zinf s) (Some m) (g_bnorm s))
  | OConc => (match cls with CSIS => OutErr EException | CMassive => OutNum (b_c (ge_base e)) end, s)
  | OMass3d u rmax =>
      (OutErr EException,
       match cls, rmax with CMassive, None => if b_sub (ge_base e) then snd (read_zinf u s) else s | _, _ => s end)
  | OSlope _ => (OutErr EException, s)
  | ORescale f force log => (OutUnit, rescale cls f force log s)
  | OMove x y =>
      (OutUnit, mkGal x y (g_norm s) (g_once s) (g_kw s) (g_sigma s) (g_alpha s) (g_zinf s) (g_setbound s) (g_bnorm s))
  | OBaseRescale n =>
      (OutUnit, mkGal (g_x s) (g_y s) (g_norm s) (g_once s) (g_kw s) (g_sigma s) (g_alpha s) (g_zinf s) (g_setbound s) n)
  | OAlpha => match cls with
              | CSIS => (OutErr EAttributeError, s)
              | CMassive => let (r, s') := call_alphaRs e s in (out_of_num r, s')
              end
  end.

(** A history: the outputs, in order, and the final state *)
Fixpoint run (e : genv) (cls : gclass) (s : gal) (ops : list op) : list out * gal :=
  match ops with
  | [] => ([], s)
  | o :: t => let (a, s1) := step e cls s o in let (l, s2) := run e cls s1 t in (a :: l, s2)
  end.
