(** What an untruncated NFW halo object reports about itself: density, enclosed mass, peak velocity, and how a rescaling of its
    normalisation shows in them (Halos/HaloModels/NFW.py, halo_base.py). *)
From Verif Require Import Prelude NfwModel.
Local Open Scope R_scope.
Local Open Scope list_scope.

(** the halo's mass, concentration and evaluation redshift, fixed after the first query (HaloStateModel.v) *)
Record nfw_id := mkId { id_mass : R; id_c : R; id_z : R }.
(** _rescale_norm, _rescaled_once, _vmax *)
Record nfw_state := mkN { n_norm : R; n_once : bool; n_vmax : option R }.
(** halo_base.py 41-45 *)
Definition nfw_new : nfw_state := mkN 1 false None.

(** halo_base.py 215-225 nfw_params with NFW.py 7 _pseudo_nfw = False; the cache of the triple is transparent (C55_precompute) *)
Definition own_params (C : cosmo) (h : nfw_id) : result (R * R * R) := NFW_params_physical C (id_mass h) (id_c h) (id_z h) (Some false).

(** NFW.py 28-36 density_profile_3d(r, scaling=1.0); the default of pseudo_nfw is False *)
Definition density_profile_3d (C : cosmo) (h : nfw_id) (scaling r : R) : result R :=
  do p <- NFW_params_physical C (id_mass h) (id_c h) (id_z h) (Some false);
  let rhos := fst (fst p) in let rs := snd (fst p) in
  let x := r / rs in
  Ok (scaling * rhos / x / (1 + x) ^ 2).

(** lenstronomy NFW.mass_3d(r, Rs, rho0) (external): 4 pi rho0 Rs^3 (log((Rs + r) / Rs) - r / (Rs + r)) *)
Definition lenstronomy_nfw_mass_3d (r Rs rho0 : R) : R := 4 * PI * rho0 * Rs ^ 3 * (ln ((Rs + r) / Rs) - r / (Rs + r)).

(** NFW.py 97-108 mass_3d; None is the string 'r200' *)
Definition mass_3d (C : cosmo) (h : nfw_id) (s : nfw_state) (rmax : option R) : result R :=
  do p <- own_params C h;
  let rs := snd (fst p) in
  let rmax := match rmax with None => rs * id_c h | Some r => r end in
  let rho0 := fst (fst p) * n_norm s in
  Ok (lenstronomy_nfw_mass_3d rmax rs rho0).

(** NFW.py 85-95 and TNFW.py 229-239 vmax_nfw *)
Definition vmax_nfw (C : cosmo) (h : nfw_id) (s : nfw_state) : result (R * nfw_state) :=
  match n_vmax s with
  | Some v => Ok (v, s)
  | None =>
      do p <- own_params C h;
      let v := nfw_vmax (n_norm s * fst (fst p)) (snd (fst p)) in
      Ok (v, mkN (n_norm s) (n_once s) (Some v))
  end.

(** halo_base.py 64-93 rescale_normalization(factor, force, log): of the attributes above only the norm and the flag change *)
Definition rescale_normalization (f : R) (force log : bool) (s : nfw_state) : nfw_state :=
  if force then mkN (n_norm s * f) (if log then true else n_once s) (n_vmax s)
  else if n_once s then s
  else mkN (n_norm s * f) (if log then true else n_once s) (n_vmax s).

Inductive nop := NRescale (f : R) (force log : bool) | NVmax | NMass (r : option R) | NDensity (scaling r : R).
Definition nstep (C : cosmo) (h : nfw_id) (s : nfw_state) (o : nop) : nfw_state :=
  match o with
  | NRescale f force log => rescale_normalization f force log s
  | NVmax => match vmax_nfw C h s with Ok (_, s') => s' | Err _ => s end
  | NMass _ | NDensity _ _ => s
  end.
Definition nrun (C : cosmo) (h : nfw_id) (ops : list nop) (s : nfw_state) : nfw_state := fold_left (nstep C h) ops s.
