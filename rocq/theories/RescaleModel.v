(** What the lens keywords of each halo class do when the halo is rescaled (halo_base.py 64-93) or moved
    (single_realization.py 410-418), and the halos imported with physical parameters (TNFWFromParams.py). *)
From Verif Require Import Prelude.

Inductive lclass :=
| LNFW        (* NFW.py 46-63 *)
| LCNFW       (* NFW_core.py 52-75 *)
| LTNFW       (* TNFW.py 195-217 *)
| LEmulator   (* TNFWemulator.py 93-112 *)
| LTNFWC      (* NFW_core_trunc.py 124-142 *)
| LHybrid     (* NFW_core_trunc.py 341-352 *)
| LSIS        (* sis.py 58-70 *)
| LGalaxy     (* sis.py 135-157 *)
| LPJaffe     (* PsuedoJaffe.py 53-85 *)
| LGNFW       (* generalized_nfw.py 54-71 *)
| LPowerLaw   (* powerlaw.py 24-54 *)
| LCluster    (* globular_cluster.py 73-90 *)
| LCollapsed  (* core_collapsed_halo.py 153-172, 330-349 *)
| LBlackHole  (* blackhole.py 36-51 *)
| LULDM       (* ULDM.py 42-62 *)
| LGaussian.  (* gaussianhalo.py 36-45 *)

(** the attribute in which the keywords are kept, if any *)
Inductive slot := SNone | SKwargs (* _kwargs_lenstronomy *) | SArgs (* _lenstronomy_args *) | SParams (* _lenstronomy_params *).
(** NFW.py 46-63, NFW_core.py 52-75, TNFW.py 200, TNFWemulator.py 98, NFW_core_trunc.py 129, 346, sis.py 63, 140, PsuedoJaffe.py 58,
    generalized_nfw.py 59, powerlaw.py 29, globular_cluster.py 78, core_collapsed_halo.py 158, 335, blackhole.py 41, ULDM.py 42-62,
    gaussianhalo.py 36-45 *)
Definition slot_of (c : lclass) : slot :=
  match c with
  | LNFW | LCNFW | LULDM | LGaussian => SNone
  | LTNFW | LEmulator | LTNFWC | LHybrid | LSIS => SKwargs
  | LGalaxy | LPJaffe | LGNFW | LPowerLaw | LCluster | LCollapsed => SArgs
  | LBlackHole => SParams
  end.

(** amplitudes of the lens models (alpha_Rs, sigma0, theta_E, kappa_0, amp ...) and their common centre *)
Record lens := mkLens { l_amps : list R; l_x : R; l_y : R }.

(** What a halo's keywords are made of apart from its position and rescaling: the amplitudes of the profile that was never rescaled,
    numpy's rounding to four decimals, and for the Gaussian class the centre in its arguments, for the hybrid class the centre of the
    two halos it was built from.  Simplification: the amplitudes do not change with the history; the quantities they are computed from
    (mass, concentration, redshift, truncation) are kept in attributes of their own (HaloStateModel.v). *)
Record cfg := mkCfg { k_base : list R; k_round : R -> R; k_own : R * R }.

Record lstate := mkL { s_x : R; s_y : R; s_norm : R; s_once : bool; s_kwargs : option lens; s_args : option lens; s_params : option lens }.

(** halo_base.py 31-46 *)
Definition new_halo (x y : R) : lstate := mkL x y 1 false None None None.

(** the keywords computed afresh; lines as in [lclass] *)
Definition compute (k : cfg) (c : lclass) (s : lstate) : lens :=
  match c with
  | LNFW | LCNFW | LTNFW | LEmulator => mkLens (map (fun a => s_norm s * a) (k_base k)) (k_round k (s_x s)) (k_round k (s_y s))
  | LTNFWC | LSIS | LGalaxy | LGNFW | LCollapsed | LULDM => mkLens (k_base k) (k_round k (s_x s)) (k_round k (s_y s))
  | LPJaffe | LPowerLaw | LCluster | LBlackHole => mkLens (k_base k) (s_x s) (s_y s)
  | LGaussian => mkLens (k_base k) (fst (k_own k)) (snd (k_own k))
  | LHybrid => mkLens (k_base k) (k_round k (fst (k_own k))) (k_round k (snd (k_own k)))
  end.

(** lenstronomy_params; lines as in [lclass] *)
Definition query (k : cfg) (c : lclass) (s : lstate) : lens * lstate :=
  match slot_of c with
  | SNone => (compute k c s, s)
  | SKwargs => match s_kwargs s with Some v => (v, s) | None => let v := compute k c s in (v, mkL (s_x s) (s_y s) (s_norm s) (s_once s) (Some v) (s_args s) (s_params s)) end
  | SArgs => match s_args s with Some v => (v, s) | None => let v := compute k c s in (v, mkL (s_x s) (s_y s) (s_norm s) (s_once s) (s_kwargs s) (Some v) (s_params s)) end
  | SParams => match s_params s with Some v => (v, s) | None => let v := compute k c s in (v, mkL (s_x s) (s_y s) (s_norm s) (s_once s) (s_kwargs s) (s_args s) (Some v)) end
  end.

(** halo_base.py 64-93: rescale_normalization(factor, force, log) *)
Definition rescale (f : R) (force log : bool) (s : lstate) : lstate :=
  let go := mkL (s_x s) (s_y s) (s_norm s * f) (if log then true else s_once s) None (s_args s) (s_params s) in
  if force then go else if s_once s then s else go.

(** single_realization.py 417-418 *)
Definition move (dx dy : R) (s : lstate) : lstate := mkL (s_x s + dx) (s_y s + dy) (s_norm s) (s_once s) (s_kwargs s) (s_args s) (s_params s).

Inductive op := OQuery | ORescale (f : R) (force log : bool) | OMove (dx dy : R).
Definition step (k : cfg) (c : lclass) (s : lstate) (o : op) : lstate :=
  match o with OQuery => snd (query k c s) | ORescale f force log => rescale f force log s | OMove dx dy => move dx dy s end.
Definition run (k : cfg) (c : lclass) (s : lstate) (ops : list op) : lstate := fold_left (step k c) ops s.
(** the keywords a caller gets after a history *)
Definition answer (k : cfg) (c : lclass) (x y : R) (ops : list op) : lens := fst (query k c (run k c (new_halo x y) ops)).

(** ** Halos imported with physical parameters *)
(** density, scale radius, truncation radius *)
Record phys := mkPhys { ph_rhos : R; ph_rs : R; ph_rt : R }.
(** [fp_phys]: _params_physical, [fp_args]: the truncation radius in _profile_args, [fp_lens]: amplitude in _kwargs_lenstronomy *)
Record fstate := mkF { fp_norm : R; fp_phys : option phys; fp_args : option R; fp_lens : option R }.
(** TNFWFromParams.py 16-36 *)
Definition fp_new (p : phys) : fstate := mkF 1 (Some p) None None.

(** TNFW.py 180-193 (params_physical) and TNFWFromParams.py 55-64 (profile_args) call each other.  [nfw] is nfw_params (density and
    scale radius from mass, concentration and infall redshift), [fuel] the depth of the call stack; None: it is exhausted
    (RecursionError). *)
Fixpoint fp_params (fuel : nat) (nfw : R * R) (s : fstate) : option (phys * fstate) :=
  match fuel with
  | O => None
  | S n =>
      match fp_phys s with
      | Some p => Some (p, s)
      | None =>
          match (match fp_args s with
                 | Some rt => Some (rt, s)
                 | None => match fp_params n nfw s with Some (p, s') => Some (ph_rt p, mkF (fp_norm s') (fp_phys s') (Some (ph_rt p)) (fp_lens s')) | None => None end
                 end) with
          | Some (rt, s') => let p := mkPhys (fst nfw * fp_norm s') (snd nfw) rt in Some (p, mkF (fp_norm s') (Some p) (fp_args s') (fp_lens s'))
          | None => None
          end
      end
  end.
(** TNFWFromParams.py 55-64 *)
Definition fp_profile_args (fuel : nat) (nfw : R * R) (s : fstate) : option (R * fstate) :=
  match fp_args s with
  | Some rt => Some (rt, s)
  | None => match fp_params fuel nfw s with Some (p, s') => Some (ph_rt p, mkF (fp_norm s') (fp_phys s') (Some (ph_rt p)) (fp_lens s')) | None => None end
  end.
(** TNFWFromParams.py 66-93: the amplitude; [theta rhos rs] is nfw_physical2angle_fromNFWparams *)
Definition fp_lenstronomy (fuel : nat) (theta : R -> R -> R) (nfw : R * R) (s : fstate) : option (R * fstate) :=
  match fp_lens s with
  | Some v => Some (v, s)
  | None =>
      match fp_params fuel nfw s with
      | Some (p, s') => let v := fp_norm s' * theta (ph_rhos p) (ph_rs p) in Some (v, mkF (fp_norm s') (fp_phys s') (fp_args s') (Some v))
      | None => None
      end
  end.
(** halo_base.py 73-80: a forced rescaling *)
Definition fp_rescale (f : R) (s : fstate) : fstate := mkF (fp_norm s * f) None (fp_args s) None.
