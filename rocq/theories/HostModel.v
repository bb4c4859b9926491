(** Where subhalos are placed around their host: Rendering/SpatialDistributions/nfw.py (construction of ProjectedNFW from
    the mass of the host), base.py and uniform.py (the other classes), and the choice made in Rendering/halo_population.py.
    The draws themselves are SpaceModel.nfw_point and RenderModel.sub_positions. *)
From Verif Require Import Prelude SpaceModel RenderModel NfwModel.
From Coq Require Import String.
Open Scope string_scope.
Open Scope R_scope.

(** The attributes of a ProjectedNFW, nfw.py 18-35 *)
Record projected_nfw := { pn_rs : R; pn_rmax2d : R; pn_rmax3d : R; pn_x3dmax : R; pn_rcore : R; pn_a2k : R }.
(** nfw.py 18-35 __init__ *)
Definition pn_init (rmax2d rs rcore r200 a2k : R) : projected_nfw :=
  {| pn_rs := rs; pn_rmax2d := rmax2d; pn_rmax3d := r200; pn_x3dmax := r200 / rs; pn_rcore := rcore; pn_a2k := a2k |}.

(** Halos/concentration.py 33-58 nfw_concentration of a ConcentrationDiemerJoyce built with its defaults (202-215: scatter
    on, 0.2, no redshift dependence), for one mass.  [median] is the median relation, [g] the standard normal deviate of
    numpy's lognormal. *)
Definition default_concentration (median : R -> R -> R) (g m z : R) : R :=
  Rmax (exp (ln (median m z) + (0.2 + 0.0 * z) * g)) 1.2.

(** nfw.py 37-58 from_Mhost; [c_host = None] is Python's None *)
Definition from_Mhost (C : cosmo) (median : R -> R -> R) (g m_host z rmax2d ratio : R) (c_host : option R) : result projected_nfw :=
  let c := match c_host with Some c => c | None => default_concentration median g m_host z end in
  do p <- nfwParam_physical C m_host c z (Some false);
  let rs_mpc := snd (fst p) in
  let r200_mpc := snd p in
  let a2k := co_kpc C z in
  let rs := rs_mpc * 1000 / a2k in
  let r200 := r200_mpc * 1000 / a2k in
  Ok (pn_init rmax2d rs (ratio * rs) r200 a2k).

(** nfw.py 60-83 draw: the object as the rendering classes see it.  [cn2 R Rs rho0 r_core] and [cn3 R Rs rho0 r_core] are
    lenstronomy's CNFW.density_2d (at y = 0) and CNFW.density; [devs] are the random numbers of each object. *)
Definition pn_spatial (cn2 cn3 : R -> R -> R -> R -> R) (h : projected_nfw) (devs : nat -> nat -> R * R * R) : spatial :=
  {| sp_what := SpNfw (pn_rmax2d h) (pn_rmax3d h) (pn_a2k h)
                  (fun r => cn2 r (pn_rs h) 1 (pn_rcore h)) (fun r => cn3 r (pn_rs h) 1 (pn_rcore h));
     sp_devs := devs |}.

(** The class passed for a population: the three of the package, or one written by the user on top of
    SpatialDistributionBase which gives itself a name but does not override from_Mhost / draw. *)
Inductive sclass := KUniform | KCone | KNfw | KCustom (name : string).
(** uniform.py 5, 64; nfw.py 10 *)
Definition sclass_name (k : sclass) : string :=
  match k with KUniform => "UNIFORM" | KCone => "LENS_CONE_UNIFORM" | KNfw => "PROJECTEDNFW" | KCustom n => n end.
(** Keyword dictionaries, by the signature they fit: Uniform.__init__ (uniform.py 69), LensConeUniform.__init__ (16),
    ProjectedNFW.from_Mhost (nfw.py 38), ProjectedNFW.__init__ (18). *)
Inductive skwargs :=
| WUniform (rmax2d : R)
| WCone (angle : R)
| WHost (m_host z rmax2d ratio : R) (c_host : option R)
| WNfw (rmax2d rs rcore r200 a2k : R).
(** What has been built *)
Inductive sobject := OUniform (rmax2d : R) | OCone (angle : R) | ONfw (h : projected_nfw) | OCustom.
(** cls(kwargs): a dictionary that does not fit the signature raises TypeError; the user's class is taken to accept any
    (uniform.py 16-32, 69-78; nfw.py 18-35) *)
Definition call_init (k : sclass) (w : skwargs) : result sobject :=
  match k, w with
  | KUniform, WUniform r => Ok (OUniform r)
  | KCone, WCone a => Ok (OCone a)
  | KNfw, WNfw rmax2d rs rcore r200 a2k => Ok (ONfw (pn_init rmax2d rs rcore r200 a2k))
  | KCustom _, _ => Ok OCustom
  | _, _ => Err ETypeError
  end.
(** cls.from_Mhost(kwargs): base.py 3-5, uniform.py 34-42 and 80-88 raise; nfw.py 37-58 *)
Definition call_from_Mhost (C : cosmo) (median : R -> R -> R) (g : R) (k : sclass) (w : skwargs) : result sobject :=
  match k with
  | KUniform | KCone | KCustom _ => Err EException
  | KNfw =>
      match w with
      | WHost m z rmax2d ratio c => do h <- from_Mhost C median g m z rmax2d ratio c; Ok (ONfw h)
      | _ => Err ETypeError
      end
  end.
(** halo_population.py 41-48 *)
Definition spatial_model (C : cosmo) (median : R -> R -> R) (g : R) (population : string) (k : sclass) (w : skwargs) : result sobject :=
  if String.eqb population "SUBHALOS" then
    if orb (String.eqb (sclass_name k) "UNIFORM") (String.eqb (sclass_name k) "LENS_CONE_UNIFORM") then call_init k w
    else call_from_Mhost C median g k w
  else call_init k w.
(** the object as the rendering classes use it; drawing from the user's class raises (base.py 7-8), so it has none *)
Definition as_spatial (cn2 cn3 : R -> R -> R -> R -> R) (devs : nat -> nat -> R * R * R) (o : sobject) : result spatial :=
  match o with
  | OUniform r => Ok {| sp_what := SpUniform r; sp_devs := devs |}
  | OCone a => Ok {| sp_what := SpCone a; sp_devs := devs |}
  | ONfw h => Ok (pn_spatial cn2 cn3 h devs)
  | OCustom => Err EException
  end.
