(** The attributes a cored, truncated (self-interacting) halo keeps between queries, and what rescaling does to them:
    Halos/HaloModels/NFW_core_trunc.py, classes TNFWCHaloParametric, TNFWCHaloEvolving and Hybrid, with Halos/halo_base.py (C121). *)
From Verif Require Import Prelude.

(** What the halo is made of: the tuple of profile_args (NFW_core_trunc.py 144-180 and 241-271), the tuple of nfw_params
    (halo_base.py 216-225), kpc per arcsecond at the halo, nfw_vmax (lens_cosmo.py) and TNFWC's density for unit and given keywords.
    Simplification: mass, concentration and infall redshift are already fixed, so these are constants of the halo
    (how they are fixed is in HaloStateModel.v and CompositeModel.v). *)
Record cored := mkCored {
  q_alpha : R; q_rs : R; q_rc : R; q_rt : R; q_r200 : R;
  q_nrhos : R; q_nrs : R; q_nr200 : R;
  q_kpa : R;
  q_vmax : R -> R -> R;                       (* nfw_vmax rhos rs *)
  q_dens : R -> R -> R -> R -> R -> R         (* factor * density_lens(r / kpc_per_arcsec, Rs, alpha_Rs, r_core, r_trunc), NFW_core_trunc.py 51-59 *)
}.

Record lensing := mkLensing { w_alpha : R; w_Rs : R; w_rcore : R; w_rtrunc : R }.
Record physical := mkPhys { y_rhos : R; y_rs : R; y_r200 : R; y_rt : R; y_rc : R }.

Record cstate := mkC { c_norm : R; c_once : bool; c_phys : option physical; c_kw : option lensing;
                       c_nfw : option (R * R * R); c_vmax : option R }.

(** halo_base.py 31-46 *)
Definition born : cstate := mkC 1 false None None None None.

(** halo_base.py 64-93 rescale_normalization(factor, force, log): deletes _params_physical, _kwargs_lenstronomy and _nfw_params,
    but not _vmax *)
Definition crescale (f : R) (force log : bool) (s : cstate) : cstate :=
  let go := mkC (c_norm s * f) (if log then true else c_once s) None None None (c_vmax s) in
  if force then go else if c_once s then s else go.

(** NFW_core_trunc.py 119-142 lenstronomy_params.  Simplification: without the centre (RescaleModel.v has it) *)
Definition cparams (q : cored) (s : cstate) : lensing * cstate :=
  match c_kw s with
  | Some v => (v, s)
  | None => let v := mkLensing (q_alpha q) (q_rs q / q_kpa q) (q_rc q / q_kpa q) (q_rt q / q_kpa q) in
            (v, mkC (c_norm s) (c_once s) (c_phys s) (Some v) (c_nfw s) (c_vmax s))
  end.

(** NFW_core_trunc.py 34-59 density_profile_3d without keywords *)
Definition cdensity (q : cored) (r : R) (s : cstate) : R * cstate :=
  let (k, s') := cparams q s in (q_dens q (r / q_kpa q) (w_Rs k) (w_alpha k) (w_rcore k) (w_rtrunc k), s').

(** NFW_core_trunc.py 182-194 params_physical *)
Definition cphysical (q : cored) (s : cstate) : physical * cstate :=
  match c_phys s with
  | Some v => (v, s)
  | None => let v := mkPhys (q_alpha q * c_norm s) (q_rs q) (q_r200 q) (q_rt q) (q_rc q) in
            (v, mkC (c_norm s) (c_once s) (Some v) (c_kw s) (c_nfw s) (c_vmax s))
  end.

(** halo_base.py 216-225 nfw_params *)
Definition cnfw (q : cored) (s : cstate) : (R * R * R) * cstate :=
  match c_nfw s with
  | Some v => (v, s)
  | None => let v := (q_nrhos q, q_nrs q, q_nr200 q) in
            (v, mkC (c_norm s) (c_once s) (c_phys s) (c_kw s) (Some v) (c_vmax s))
  end.

(** NFW_core_trunc.py 196-206 vmax_nfw *)
Definition cvmax (q : cored) (s : cstate) : R * cstate :=
  match c_vmax s with
  | Some v => (v, s)
  | None => let '(rhos, rs, _, s1) := cnfw q s in
            let v := q_vmax q (c_norm s1 * rhos) rs in
            (v, mkC (c_norm s1) (c_once s1) (c_phys s1) (c_kw s1) (c_nfw s1) (Some v))
  end.

(** what a program does with one halo *)
Inductive cop := CLens | CDensity (r : R) | CPhysical | CNfw | CVmax | CRescale (f : R) (force log : bool).
Definition cstep (q : cored) (s : cstate) (o : cop) : cstate :=
  match o with
  | CLens => snd (cparams q s) | CDensity r => snd (cdensity q r s) | CPhysical => snd (cphysical q s)
  | CNfw => snd (cnfw q s) | CVmax => snd (cvmax q s) | CRescale f force log => crescale f force log s
  end.
Definition after (q : cored) (ops : list cop) : cstate := fold_left (cstep q) ops born.

(** ** Hybrid, NFW_core_trunc.py 274-393 *)

(** The truncated halo of the pair, as the hybrid sees it: alpha_Rs before rescaling.
    Simplification: TNFW.py 213 multiplies alpha_Rs by the constituent's own factor [t_norm]; the constituents are rescaled only
    through their own attributes, never by the hybrid. *)
Record pair := mkPair { t_alpha : R; p_cored : cored; p_weight : R }.
Record hstate := mkH { h_norm : R; h_once : bool; h_kw : option (R * R); t_norm : R; h_cored : cstate }.

(** NFW_core_trunc.py 279-300 with halo_base.py 31-46: the keywords the constituents kept are deleted *)
Definition hborn : hstate := mkH 1 false None 1 born.

(** halo_base.py 64-93 on the hybrid itself: the constituents are not told *)
Definition hrescale (f : R) (force log : bool) (s : hstate) : hstate :=
  let go := mkH (h_norm s * f) (if log then true else h_once s) None (t_norm s) (h_cored s) in
  if force then go else if h_once s then s else go.

(** hybrid.tnfw_halo.rescale_normalization(f, force=True) and hybrid.tnfwc_halo.rescale_normalization(f, force=True) *)
Definition trescale (f : R) (s : hstate) : hstate := mkH (h_norm s) (h_once s) (h_kw s) (t_norm s * f) (h_cored s).
Definition wrescale (f : R) (s : hstate) : hstate := mkH (h_norm s) (h_once s) (h_kw s) (t_norm s) (crescale f true true (h_cored s)).

(** NFW_core_trunc.py 341-353 lenstronomy_params: the two alpha_Rs *)
Definition hparams (p : pair) (s : hstate) : (R * R) * hstate :=
  match h_kw s with
  | Some v => (v, s)
  | None => let (k, c') := cparams (p_cored p) (h_cored s) in
            let v := (t_norm s * t_alpha p * (1 - p_weight p), w_alpha k * p_weight p) in
            (v, mkH (h_norm s) (h_once s) (Some v) (t_norm s) c')
  end.

Inductive hop := HLens | HRescale (f : R) (force log : bool) | HRescaleTNFW (f : R) | HRescaleTNFWC (f : R).
Definition hstep (p : pair) (s : hstate) (o : hop) : hstate :=
  match o with
  | HLens => snd (hparams p s) | HRescale f force log => hrescale f force log s
  | HRescaleTNFW f => trescale f s | HRescaleTNFWC f => wrescale f s
  end.
Definition hafter (p : pair) (ops : list hop) : hstate := fold_left (hstep p) ops hborn.
