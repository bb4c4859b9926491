(** The method [truncation_radius] of every truncation class of Halos/tidal_truncation.py, which takes the quantities of the halo as
    arguments instead of reading them from the object.  [E], and [st] and [n] for the random draws, are as in HaloStateModel.v. *)
From Verif Require Import Prelude HaloStateModel.

(** the arguments, class by class; names as in the signatures *)
Inductive direct_call :=
| DSplashBack (halo_mass z : R)                                      (* tidal_truncation.py 30 *)
| DRN (halo_mass z : R)                                              (* tidal_truncation.py 67 *)
| DRoche (halo_mass r3d : R)                                         (* tidal_truncation.py 108 *)
| DMeanDensity (halo_mass z_eval c_median c_actual scatter : R)      (* tidal_truncation.py 150 *)
| DMultipleRS (rs : R)                                               (* tidal_truncation.py 182 *)
| DConstant                                                          (* tidal_truncation.py 193, any arguments *)
| DKeeley24 (halo_mass c : R) (t : option R) (chost z_eval : R)      (* tidal_truncation.py 247 *)
| DGalacticus (halo_mass c : R) (t : option R) (z_eval : R)          (* tidal_truncation.py 355 *)
| DZinfall (halo_mass c dz z_eval : R)                               (* tidal_truncation.py 463 *)
| DApproxCDM (halo_mass c z_eval : R)                                (* tidal_truncation.py 564 *)
| DMilkyWay (halo_mass c : R) (t : option R) (z_eval : R).           (* tidal_truncation.py 705 *)

Section Direct.
Variable E : Env.
Variables (st : stream) (n : nat).
(** self._mass_loss_interp(log10c, t, chost); None is refused (max / interpolation of None) *)
Definition d_loss (logc : R) (t : option R) (chost : R) : result R :=
  match t with None => Err ETypeError | Some t => Ok (e_loss E st n logc t chost) end.
(** tidal_truncation.py 366-374, 474-482, 716-724: r_te of compute_r_te_and_f_t; the factor is dropped *)
Definition d_structure (m_bound mass c z : R) : R :=
  let '(_, _, r200) := e_nfw E mass c z in fst (e_rte E m_bound mass r200 c).
Definition direct (k : tkind) (a : direct_call) : result R :=
  match k, a with
  | KSplashBack, DSplashBack m z => Ok (e_splash E m z)                                          (* tidal_truncation.py 30-44 *)
  | KRN N, DRN m z => Ok (e_rN E N m z)                                                          (* tidal_truncation.py 67-77 *)
  | KRoche nrm p q, DRoche m r => Ok (e_round E 3 (nrm * Rpower (m / 10 ^ 7) p * Rpower (r / 50) q))  (* tidal_truncation.py 108-117 *)
  | KMeanDensity nrm cp _, DMeanDensity m z cm c sc =>                                           (* tidal_truncation.py 150-168 *)
      let mu := nrm * Rpower (c / cm) cp in
      let q := if Rltb 0 sc then Rabs (e_normal E n mu (sc * mu)) else mu in
      let '(_, rs, _) := e_nfw E m c z in Ok (rs * q)
  | KMultipleRS tau, DMultipleRS rs => Ok (tau * rs)                                             (* tidal_truncation.py 182-183 *)
  | KConstant rt, DConstant => Ok rt                                                             (* tidal_truncation.py 193-194 *)
  | KKeeley24 _, DKeeley24 m c t chost z =>                                                      (* tidal_truncation.py 247-266 *)
      do l <- d_loss (log10 c) t chost;
      let lc := clamp (log10 1) (log10 (pow10 2.7)) (log10 c) in
      let lm := clamp (-8) (-0.001) l in
      let '(_, rs, _) := e_nfw E m c z in Ok (pow10 (e_tau E lc lm) * rs)
  | KGalacticus chost, DGalacticus m c t z =>                                                    (* tidal_truncation.py 355-374 *)
      do l <- d_loss (log10 c) t chost; Ok (d_structure (m * pow10 l) m c z)
  | KZinfall chost, DZinfall m c dz z =>                                                         (* tidal_truncation.py 463-482 *)
      do l <- d_loss (log10 c) (Some dz) chost; Ok (d_structure (m * pow10 l) m c z)
  | KMilkyWay chost, DMilkyWay m c t z =>                                                        (* tidal_truncation.py 705-724 *)
      do l <- d_loss (log10 c) t chost; Ok (d_structure (m * pow10 l) m c z)
  | KApproxCDM, DApproxCDM m c z => Err EAttributeError   (* tidal_truncation.py 564-574: calculate_mbound(halo_mass) reads halo_mass.mass *)
  | KBoundMassPDF _ _, _ => Err EAttributeError           (* no such method *)
  | _, _ => Err ETypeError                                (* wrong number of arguments *)
  end.
End Direct.
