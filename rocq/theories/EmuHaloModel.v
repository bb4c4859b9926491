(** The halo class used for catalogues that come from an emulator: Halos/HaloModels/TNFWemulator.py 49-146, on top of Halos/halo_base.py. *)
From Verif Require Import Prelude MassFnModel MassLossModel TnfwModel TauModel NfwModel GalaxyModel.
Local Open Scope R_scope.
Local Open Scope list_scope.

(** the arguments of the constructor (TNFWemulator.py 54): positions in kpc, masses in solar masses *)
Record emu := mkEmu { eh_mass : R; eh_x : R; eh_y : R; eh_final : R; eh_conc : R; eh_z : R }.

Record emu_phys := mkEmuPhys { ep_rhos : R; ep_rs : R; ep_r200 : R; ep_rt : R }.
Record emu_lens := mkEmuLens { ek_alpha : R; ek_rs : R; ek_x : R; ek_y : R; ek_rt : R }.

(** attributes that change: _rescale_norm, _rescaled_once, and the four attributes tested with hasattr *)
Record emu_state := mkEmuState { eo_norm : R; eo_once : bool; eo_args : option (R * R); eo_phys : option emu_phys; eo_lens : option emu_lens; eo_bound : option R }.

(** TNFWemulator.py 54-76 and halo_base.py 31-46.  The kpc per arcsec of the redshift is kept in an attribute; it is a function of the
    redshift, so it is recomputed here.  unique_tag is not modelled (PopModel.v). *)
Definition emu_init (h : emu) : result emu_state :=
  if Rltb 0 (eh_z h) then Ok (mkEmuState 1 false None None None None) else Err EAssertionError.
Definition emu_fraction (h : emu) : R := eh_final h / eh_mass h.
Definition emu_x (C : cosmo) (h : emu) : R := eh_x h / co_kpc C (eh_z h).
Definition emu_y (C : cosmo) (h : emu) : R := eh_y h / co_kpc C (eh_z h).

(** TNFWemulator.py 78-91: c and z_eval *)
Definition emu_c (h : emu) : R := eh_conc h.
Definition emu_zeval (h : emu) : R := eh_z h.

(** TNFWemulator.py 114-127: profile_args *)
Definition emu_profile_args (C : cosmo) (zs : R) (h : emu) (s : emu_state) : result (emu_state * (R * R)) :=
  match eo_args s with
  | Some v => Ok (s, v)
  | None =>
      do p <- nfw_physical2angle C zs (eh_mass h) (emu_c h) (eh_z h) false;
      let v := (emu_c h, emulator_radius (emu_c h) (emu_fraction h) (fst p) (co_kpc C (eh_z h))) in
      Ok (mkEmuState (eo_norm s) (eo_once s) (Some v) (eo_phys s) (eo_lens s) (eo_bound s), v)
  end.

(** TNFWemulator.py 129-139: params_physical *)
Definition emu_params_physical (C : cosmo) (zs : R) (h : emu) (s : emu_state) : result (emu_state * emu_phys) :=
  match eo_phys s with
  | Some v => Ok (s, v)
  | None =>
      do sa <- emu_profile_args C zs h s;
      let '(s1, (c, rt)) := sa in
      do p <- NFW_params_physical C (eh_mass h) c (eh_z h) (Some false);
      let v := mkEmuPhys (fst (fst p)) (snd (fst p)) (snd p) rt in
      Ok (mkEmuState (eo_norm s1) (eo_once s1) (eo_args s1) (Some v) (eo_lens s1) (eo_bound s1), v)
  end.

(** TNFWemulator.py 93-112: lenstronomy_params; the call of nfwParam_physical in line 101 is unused *)
Definition emu_lenstronomy_params (C : cosmo) (zs : R) (h : emu) (s : emu_state) : result (emu_state * emu_lens) :=
  match eo_lens s with
  | Some v => Ok (s, v)
  | None =>
      do sa <- emu_profile_args C zs h s;
      let '(s1, (c, rt)) := sa in
      do p <- nfw_physical2angle C zs (eh_mass h) c (emu_zeval h) false;
      let v := mkEmuLens (eo_norm s1 * np_round_to 10 (snd p)) (np_round_to 10 (fst p))
                 (np_round_to 4 (emu_x C h)) (np_round_to 4 (emu_y C h)) (rt / co_kpc C (eh_z h)) in
      Ok (mkEmuState (eo_norm s1) (eo_once s1) (eo_args s1) (eo_phys s1) (Some v) (eo_bound s1), v)
  end.

(** halo_base.py 64-93: rescale_normalization; [_nfw_params] is never set for this class *)
Definition emu_rescale (s : emu_state) (f : R) (force log : bool) : emu_state :=
  if force || negb (eo_once s)
  then mkEmuState (eo_norm s * f) (if log then true else eo_once s) (eo_args s) None None (eo_bound s)
  else s.

(** halo_base.py 167-172: set_bound_mass; 174-183: bound_mass.  The class itself never sets [_bound_mass]. *)
Definition emu_set_bound_mass (s : emu_state) (v : R) : emu_state := mkEmuState (eo_norm s) (eo_once s) (eo_args s) (eo_phys s) (eo_lens s) (Some v).
Definition emu_bound_mass (s : emu_state) : result R := match eo_bound s with Some v => Ok v | None => Err EException end.
(** halo_base.py 217-227: nfw_params with the class attribute [_pseudo_nfw] = None (halo_base.py 9) *)
Definition emu_nfw_params (C : cosmo) (h : emu) : result (R * R * R) := NFW_params_physical C (eh_mass h) (emu_c h) (emu_zeval h) None.

(** one use of the object *)
Inductive emu_op := UArgs | UPhys | ULens | URescale (f : R) (force log : bool) | USetBound (v : R).
Definition emu_step (C : cosmo) (zs : R) (h : emu) (s : emu_state) (o : emu_op) : result emu_state :=
  match o with
  | UArgs => do r <- emu_profile_args C zs h s; Ok (fst r)
  | UPhys => do r <- emu_params_physical C zs h s; Ok (fst r)
  | ULens => do r <- emu_lenstronomy_params C zs h s; Ok (fst r)
  | URescale f force log => Ok (emu_rescale s f force log)
  | USetBound v => Ok (emu_set_bound_mass s v)
  end.
Fixpoint emu_run (C : cosmo) (zs : R) (h : emu) (s : emu_state) (l : list emu_op) : result emu_state :=
  match l with [] => Ok s | o :: t => do s' <- emu_step C zs h s o; emu_run C zs h s' t end.
