(** Halos made one at a time with the classmethods simple_setup of Halos/HaloModels/TNFW.py (C111), on top of the state machine of one
    truncated NFW halo (HaloStateModel.v). *)
From Verif Require Import Prelude HaloStateModel.
From Coq Require Import String.
Local Open Scope R_scope.
Local Open Scope string_scope.

(** ** The concentration class (TNFW.py 44-49 and 290-295) *)
(** What the argument concentration_model can be: a name, or an object used as it is. *)
Inductive conc_arg := ConcName (name : string) | ConcObject.
Inductive conc_class := CDiemerJoyce | CLudlow | CGiven.
(** preset_concentration_models(name) without keyword arguments (concentration_models.py 8-80), followed by the call
    [_c_model(astropy, scatter=False)] (concentration.py: __init__ of each class; ETypeError for a missing or an unknown argument).  The
    keyword arguments that preset_concentration_models returns are dropped. *)
Definition simple_concentration (a : conc_arg) : result conc_class :=
  match a with
  | ConcObject => Ok CGiven
  | ConcName n =>
      if String.eqb n "DIEMERJOYCE19" then Ok CDiemerJoyce
      else if String.eqb n "LUDLOW2016" then Ok CLudlow
      else if String.eqb n "PEAK_HEIGHT_POWERLAW" then Err ETypeError
      else if String.eqb n "BINNED_HALO_MASS" then Err ETypeError
      else if String.eqb n "WDM_HYPERBOLIC" then Err ETypeError
      else if String.eqb n "WDM_POLYNOMIAL" then Err ETypeError
      else if String.eqb n "BOSE2016" then Err ETypeError
      else if String.eqb n "BOSE2016_LUDLOW" then Err ETypeError
      else if String.eqb n "LAROCHE2022" then Err ETypeError
      else if String.eqb n "LUDLOW_WDM" then Err ETypeError
      else if String.eqb n "FROM_FORMATION_HISTORY" then Err ETypeError
      else if String.eqb n "CUSTOM" then Err EKeyError
      else if String.eqb n "CONSTANT" then Err ETypeError
      else Err EException
  end.

(** ** The halo objects *)
(** A halo object as its creator hands it out: constructor arguments, mutable state, unique_tag. *)
Record made := mkMade { md_static : Static; md_state : St; md_tag : Z }.

(** TNFW.py 28-56 TNFWFieldHalo.simple_setup(mass, x, y, z, tau, lens_cosmo, concentration_model): truncation at tau scale radii, unique tag 1.
    r3d is None; the truncation class never reads it. *)
Definition field_setup (mass x y z tau : R) (conc : conc_arg) : result made :=
  do _ <- simple_concentration conc;
  Ok (mkMade (mkStatic mass 0 z false (KMultipleRS tau)) (fresh x y) 1).

(** TNFW.py 272-303 TNFWSubhalo.simple_setup(mass, f_bound, z_infall, x, y, z, lens_cosmo, concentration_model): the truncation class is
    TruncationGalacticus with host concentration 5; the bound mass attribute is assigned and the infall redshift set. *)
Definition sub_setup (mass f_bound zi x y z : R) (conc : conc_arg) : result made :=
  do _ <- simple_concentration conc;
  let H := mkStatic mass 0 z true (KGalacticus 5) in
  let s := set_mb (f_bound * mass) (fresh x y) in
  let '(r, s') := set_infall_redshift H zi s in
  do _ <- r;
  Ok (mkMade H s' 1).
