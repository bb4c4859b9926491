(** Composite halo profiles: Halos/HaloModels/core_collapsed_halo.py (CoreCollapsedHalo, CoreCollapsedHaloBH) and the class
    Hybrid of Halos/HaloModels/NFW_core_trunc.py (C57, C58).

    lenstronomy's TNFW envelope and PseudoDoublePowerlaw centre are the record [parts]; rounding to a number of digits is a
    parameter; a keyword dictionary is a list of keys and values. *)
From Verif Require Import Prelude NfwModel SidmModel.
Local Open Scope string_scope.
Local Open Scope R_scope.
Local Open Scope list_scope.

(** TNFW().alpha2rho0(alpha_Rs, Rs), TNFW().mass_3d(r, Rs, rho0, tau), PseudoDoublePowerlaw().mass_3d_lens(r, Rs, alpha_Rs,
    gamma_inner, gamma_outer); all lengths in arcseconds *)
Record parts := { env_alpha2rho0 : R -> R -> R; env_mass_3d : R -> R -> R -> R -> R; cen_mass_3d_lens : R -> R -> R -> R -> R -> R }.

(** A core-collapsed halo: mass, concentration, redshift, evaluation redshift, position and dictionary _args *)
Record chalo := { ch_mass : R; ch_c : R; ch_z : R; ch_zeval : R; ch_x : R; ch_y : R; ch_args : list (string * R) }.

(** core_collapsed_halo.py:190-194 (critical surface density in solar masses per square arcsecond) *)
Definition sigma_crit_arcsec (C : cosmo) (zs z : R) : R := get_sigma_crit_lensing C z zs * (0.001 * co_kpc C z) ^ 2.

(** core_collapsed_halo.py:181-223, 358-400: the part common to the two profile_args.  Returns the envelope and centre
    amplitudes, Rs_angle, Rs_angle_inner, r_trunc_angle.  For a singular matrix numpy produces infinities or NaNs, which end
    in the Exception or in the failed assertions; the model has one error for both. *)
Definition solve_amplitudes (C : cosmo) (P : parts) (zs : R) (o : chalo) : result (R * R * R * R * R) :=
  do gamma_inner <- arg "gamma_inner" (ch_args o);
  do gamma_outer <- arg "gamma_outer" (ch_args o);
  do rt_kpc <- arg "rt_kpc" (ch_args o);
  let k := co_kpc C (ch_z o) in
  let sigma := sigma_crit_arcsec C zs (ch_z o) in
  do p <- NFW_params_physical C (ch_mass o) (ch_c o) (ch_zeval o) (Some false);
  let rs := snd (fst p) in
  let r200 := snd p in
  let Rs_angle := rs / k in
  let r_trunc_angle := rt_kpc / k in
  do rs_in <- arg "Rs_inner_kpc" (ch_args o);
  let Rs_angle_inner := rs_in / k in
  let rho0 := env_alpha2rho0 P 1 Rs_angle in
  do rm <- arg "r_match_kpc" (ch_args o);
  let r_match := rm / k in
  let r200_arcsec := r200 / k in
  let a := env_mass_3d P r_match Rs_angle rho0 (r_trunc_angle / Rs_angle) in
  let b := cen_mass_3d_lens P r_match Rs_angle_inner 1 gamma_inner gamma_outer in
  let c := env_mass_3d P r200_arcsec Rs_angle rho0 (r_trunc_angle / Rs_angle) in
  let d := cen_mass_3d_lens P r200_arcsec Rs_angle_inner 1 gamma_inner gamma_outer in
  do x0 <- arg "m_target_R" (ch_args o);
  do x1 <- arg "m_target_r200" (ch_args o);
  if Reqb (a * d - b * c) 0 then Err EException else
  let f := 1 / (a * d - b * c) in
  let alpha_env := (f * d * x0 + f * - b * x1) / sigma in
  let alpha_cen := (f * - c * x0 + f * a * x1) / sigma in
  if Rltb alpha_cen 0 || Rltb alpha_env 0 then Err EException else
  Ok (alpha_env, alpha_cen, Rs_angle, Rs_angle_inner, r_trunc_angle).

(** core_collapsed_halo.py:180-238 profile_args: alpha_Rs_center, Rs_angle_inner, gamma_inner, gamma_outer,
    alpha_Rs_envelope, Rs_angle, r_trunc_angle (the tuple of the code has Rs_angle twice) *)
Record ccargs := { cc_alpha_cen : R; cc_Rs_in : R; cc_gi : R; cc_go : R; cc_alpha_env : R; cc_Rs : R; cc_rt : R }.
Definition profile_args_cc (C : cosmo) (P : parts) (zs : R) (o : chalo) : result ccargs :=
  do s <- solve_amplitudes C P zs o;
  do gi <- arg "gamma_inner" (ch_args o);
  do go <- arg "gamma_outer" (ch_args o);
  match s with (ae, ac, Rs, Rs_in, rt) =>
    Ok {| cc_alpha_cen := ac; cc_Rs_in := Rs_in; cc_gi := gi; cc_go := go; cc_alpha_env := ae; cc_Rs := Rs; cc_rt := rt |} end.

(** core_collapsed_halo.py:357-412 CoreCollapsedHaloBH.profile_args: theta_E_inner, alpha_Rs_envelope, Rs_angle, r_trunc_angle *)
Record bhargs := { bh_theta_E : R; bh_alpha_env : R; bh_Rs : R; bh_rt : R }.
Definition profile_args_bh (C : cosmo) (P : parts) (zs : R) (o : chalo) : result bhargs :=
  do s <- solve_amplitudes C P zs o;
  do m <- arg "m_target_R" (ch_args o);
  let theta_E := point_mass_factor_z C zs (ch_z o) * sqrt m in
  match s with (ae, _, Rs, _, rt) => Ok {| bh_theta_E := theta_E; bh_alpha_env := ae; bh_Rs := Rs; bh_rt := rt |} end.

(** ** Keyword dictionaries and their caches *)
Definition dict := list (string * R).
(** The attributes _lenstronomy_args and _lenstronomy_args_split *)
Record caches := { lens_args : option (list dict); lens_split : option (list dict) }.
Definition fresh : caches := {| lens_args := None; lens_split := None |}.

(** core_collapsed_halo.py:128-150 *)
Definition split_dicts (rnd : nat -> R -> R) (o : chalo) (a : ccargs) : list dict :=
  let x := rnd 4%nat (ch_x o) in
  let y := rnd 4%nat (ch_y o) in
  (("alpha_Rs", rnd 10%nat (cc_alpha_cen a)) :: ("Rs", rnd 10%nat (cc_Rs_in a)) :: ("center_x", x) :: ("center_y", y)
     :: ("gamma_inner", cc_gi a) :: ("gamma_outer", cc_go a) :: nil)
  :: (("alpha_Rs", rnd 10%nat (cc_alpha_env a)) :: ("Rs", rnd 10%nat (cc_Rs a)) :: ("center_x", x) :: ("center_y", y)
     :: ("r_trunc", rnd 10%nat (cc_rt a)) :: nil) :: nil.
(** core_collapsed_halo.py:158-171 *)
Definition one_dict (rnd : nat -> R -> R) (o : chalo) (a : ccargs) : list dict :=
  (("center_x", rnd 4%nat (ch_x o)) :: ("center_y", rnd 4%nat (ch_y o)) :: ("Rs_inner", rnd 10%nat (cc_Rs_in a))
     :: ("Rs_outer", rnd 10%nat (cc_Rs a)) :: ("alpha_Rs_inner", rnd 10%nat (cc_alpha_cen a))
     :: ("alpha_Rs_outer", rnd 10%nat (cc_alpha_env a)) :: ("r_trunc", rnd 10%nat (cc_rt a))
     :: ("gamma_inner", cc_gi a) :: ("gamma_outer", cc_go a) :: nil) :: nil.
(** core_collapsed_halo.py:308-326 *)
Definition split_dicts_bh (rnd : nat -> R -> R) (o : chalo) (a : bhargs) : list dict :=
  let x := rnd 4%nat (ch_x o) in
  let y := rnd 4%nat (ch_y o) in
  (("theta_E", rnd 10%nat (bh_theta_E a)) :: ("center_x", x) :: ("cetner_y", y) :: nil)
  :: (("center_x", x) :: ("center_y", y) :: ("Rs", rnd 10%nat (bh_Rs a)) :: ("alpha_Rs", rnd 10%nat (bh_alpha_env a))
     :: ("r_trunc", rnd 10%nat (bh_rt a)) :: nil) :: nil.
(** core_collapsed_halo.py:335-347 *)
Definition one_dict_bh (rnd : nat -> R -> R) (o : chalo) (a : bhargs) : list dict :=
  (("center_x", rnd 4%nat (ch_x o)) :: ("center_y", rnd 4%nat (ch_y o)) :: ("Rs_outer", rnd 10%nat (bh_Rs a))
     :: ("theta_E_inner", rnd 10%nat (bh_theta_E a)) :: ("alpha_Rs_outer", rnd 10%nat (bh_alpha_env a))
     :: ("r_trunc", rnd 10%nat (bh_rt a)) :: nil) :: nil.

(** The three queries a user can make *)
Inductive query := QSplit | QParams | QDensity.
Inductive answer := ADicts (l : list dict) | AErr (e : err) | ADone.

(** core_collapsed_halo.py:122-151, 153-172 *)
Definition split_cc rnd o a (s : caches) : caches * list dict :=
  match lens_split s with
  | Some v => (s, v)
  | None => let v := split_dicts rnd o a in ({| lens_args := lens_args s; lens_split := Some v |}, v)
  end.
Definition params_cc rnd o a (s : caches) : caches * list dict :=
  match lens_args s with
  | Some v => (s, v)
  | None => let v := one_dict rnd o a in ({| lens_args := Some v; lens_split := lens_split s |}, v)
  end.
(** core_collapsed_halo.py:303-327: the test is on _lenstronomy_args_split, which is never set; the assignment is to
    _lenstronomy_args *)
Definition split_bh rnd o a (s : caches) : caches * list dict :=
  match lens_split s with
  | Some v => let r := match lens_args s with Some w => w | None => v end in (s, r)
  | None => let v := split_dicts_bh rnd o a in ({| lens_args := Some v; lens_split := lens_split s |}, v)
  end.
(** core_collapsed_halo.py:329-348 *)
Definition params_bh rnd o a (s : caches) : caches * list dict :=
  match lens_args s with
  | Some v => (s, v)
  | None => let v := one_dict_bh rnd o a in ({| lens_args := Some v; lens_split := lens_split s |}, v)
  end.

(** del d[k] *)
Fixpoint del (k : string) (d : dict) : result dict :=
  match d with
  | nil => Err EKeyError
  | (k', v) :: t => if String.eqb k k' then Ok t else do t' <- del k t; Ok ((k', v) :: t')
  end.
(** core_collapsed_halo.py:37-51 component_density_profile_3d up to the calls of the profile densities: a deep copy of the
    split dictionaries, from which the positions are deleted.  [l] is the list the split query returned. *)
Definition density_kwargs (l : list dict) : result (dict * dict) :=
  match l with
  | k0 :: k1 :: _ =>
      do k0 <- del "center_x" k0; do k0 <- del "center_y" k0;
      do k1 <- del "center_x" k1; do k1 <- del "center_y" k1;
      do _ <- arg "alpha_Rs" k1; do _ <- arg "Rs" k1; do k1 <- del "alpha_Rs" k1;
      Ok (k0, k1)
  | _ => Err EIndexError
  end.

Definition step (split params : caches -> caches * list dict) (q : query) (s : caches) : caches * answer :=
  match q with
  | QSplit => let (s', v) := split s in (s', ADicts v)
  | QParams => let (s', v) := params s in (s', ADicts v)
  | QDensity => let (s', v) := split s in (s', match density_kwargs v with Ok _ => ADone | Err e => AErr e end)
  end.
Definition run (split params : caches -> caches * list dict) (h : list query) (s : caches) : caches :=
  fold_left (fun s q => fst (step split params q s)) h s.

(** ** Hybrid TNFW + TNFWC halos, NFW_core_trunc.py:274-393 *)
(** The TNFWC constituent: its cached concentration, infall redshift, profile arguments and keyword dictionary *)
Record wc := { wc_c : option R; wc_zinf : option R; wc_prof : option dict; wc_kw : option dict }.
(** [F c zinf] is what profile_args of the constituent computes (as a dictionary) from concentration and infall redshift;
    [dc], [dz] the values it would draw itself (NFW_core_trunc.py:106-113, halo_base.py:129-143) *)
Definition wc_profile (F : R -> R -> dict) (dc dz : R) (h : wc) : wc * dict :=
  match wc_prof h with
  | Some a => (h, a)
  | None =>
      let c := match wc_c h with Some c => c | None => dc end in
      let z := match wc_zinf h with Some z => z | None => dz end in
      let a := F c z in ({| wc_c := Some c; wc_zinf := Some z; wc_prof := Some a; wc_kw := wc_kw h |}, a)
  end.
(** NFW_core_trunc.py:124-142 lenstronomy_params of the constituent *)
Definition wc_params (F : R -> R -> dict) (dc dz : R) (h : wc) : wc * dict :=
  match wc_kw h with
  | Some k => (h, k)
  | None => let (h', a) := wc_profile F dc dz h in ({| wc_c := wc_c h'; wc_zinf := wc_zinf h'; wc_prof := wc_prof h'; wc_kw := Some a |}, a)
  end.
(** NFW_core_trunc.py:279-300 __init__: the effect on the TNFWC constituent, given the TNFW halo's concentration and, for a
    subhalo, its infall redshift *)
Definition hybrid_init (c : R) (zinf : option R) (tnfwc_is_subhalo : bool) (h : wc) : result wc :=
  let h1 := {| wc_c := Some c; wc_zinf := wc_zinf h; wc_prof := wc_prof h; wc_kw := wc_kw h |} in
  do h2 <- (match zinf with
            | Some z => if tnfwc_is_subhalo then Ok {| wc_c := wc_c h1; wc_zinf := Some z; wc_prof := wc_prof h1; wc_kw := wc_kw h1 |} else Err EAssertionError
            | None => Ok h1 end);
  Ok {| wc_c := wc_c h2; wc_zinf := wc_zinf h2; wc_prof := wc_prof h2; wc_kw := None |}.
(** d['alpha_Rs'] *= w *)
Fixpoint scale_alpha (w : R) (d : dict) : result dict :=
  match d with
  | nil => Err EKeyError
  | (k, v) :: t => if String.eqb "alpha_Rs" k then Ok ((k, v * w) :: t) else do t' <- scale_alpha w t; Ok ((k, v) :: t')
  end.
(** NFW_core_trunc.py:342-353 lenstronomy_params of the hybrid, first query: deep copies of the constituents' dictionaries *)
Definition hybrid_params (rescaling_factor : R) (tnfw tnfwc : dict) : result (list dict) :=
  do a <- scale_alpha (1 - rescaling_factor) tnfw;
  do b <- scale_alpha rescaling_factor tnfwc;
  Ok (a :: b :: nil).
(** NFW_core_trunc.py:375-393 *)
Definition hybrid_density (rescaling_factor rho_tnfw rho_tnfwc : R) : R := rho_tnfw * (1 - rescaling_factor) + rho_tnfwc * rescaling_factor.
