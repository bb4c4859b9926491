(** Model of the preset functions: how the arguments of a preset become the populations, mass functions, spatial
    distributions, mass definitions and halo models handed to pyHalo.render, and which post-processing follows.
    Rendering itself is RenderModel; the post-processing methods are the subject of the realization and population
    models.  pyHalo/PresetModels/{cdm,wdm,uldm,sidm,mbh,external}.py, pyHalo/preset_models.py,
    pyHalo/{concentration,truncation,mass_function}_models.py.

    Python dictionaries that the presets write into are cells of a heap, so that a preset's writes into a caller's
    dictionary (or into a default argument, which Python allocates once per process) are visible afterwards, also when
    the preset raises half-way.  Simplifications: the dictionary of the infall model holds numbers only and lives in
    its own part of the heap; a value used as a flag is true when it is a dictionary, a class or an object. *)
From Verif Require Import Prelude MassFnModel InfallModel.
Local Open Scope string_scope.
Local Open Scope R_scope.
Local Open Scope list_scope.

(** ** Values *)
(** The classes a preset selects; [KUser]/[TUser] are classes of the caller (with or without a method nfw_concentration). *)
Inductive cls :=
| KDiemerJoyce | KLudlow | KPeakHeight | KBinned | KHyperbolic | KPolynomial | KLudlowWDM | KConstant | KUser (id : nat) (has_method : bool)
| TRN | TRoche | TSplashBack | TMeanDensity | TGalacticus | TGalacticusZinfall | TGalacticusKeeley24 | TConstantArcsec | TMultipleRS
| TBoundMassPDF | TApproxCDM | TUser (id : nat)
| MCDMPowerLaw | MWDMPowerLaw | MMixedWDMPowerLaw | MShethTormen | MShethTormenTurnover | MShethTormenMixedWDM
| SUniform | SProjectedNFW | SLensConeUniform.
(** [VRef l]: a dictionary in cell l of the heap; [VLit]: a dictionary built by the preset itself and not shared;
    the last three: the astropy cosmology, the LensCosmo and the Geometry instance made from these arguments. *)
Inductive val :=
| VNone | VBool (b : bool) | VNum (x : R) | VStr (s : string) | VRef (l : nat) | VLit (d : list (string * val)) | VList (l : list val)
| VCls (c : cls) | VOther (id : nat)
| VAstropy (kwargs_cosmo : val) | VLensCosmo (z_lens z_source kwargs_cosmo : val)
| VGeometry (z_lens z_source kwargs_cosmo cone geometry_type : val).
Definition dict := list (string * val).

Fixpoint dget (k : string) (d : dict) : option val :=
  match d with [] => None | (k', v) :: t => if String.eqb k' k then Some v else dget k t end.
Fixpoint dset (k : string) (v : val) (d : dict) : dict :=
  match d with [] => [(k, v)] | (k', v') :: t => if String.eqb k' k then (k, v) :: t else (k', v') :: dset k v t end.
Definition ddel (k : string) (d : dict) : dict := filter (fun p => negb (String.eqb (fst p) k)) d.
(** d.update(d') *)
Definition dupdate (d d' : dict) : dict := fold_left (fun acc p => dset (fst p) (snd p) acc) d' d.
Definition has (k : string) (d : dict) : bool := match dget k d with Some _ => true | None => false end.

(** [v == s] and [v in ss] for a string literal *)
Definition is_str (v : val) (s : string) : bool := match v with VStr s' => String.eqb s' s | _ => false end.
Definition one_of (v : val) (ss : list string) : bool := existsb (is_str v) ss.
Definition is_none (v : val) : bool := match v with VNone => true | _ => false end.
(** truth value of an argument used as a flag *)
Definition truthy (v : val) : bool :=
  match v with
  | VNone => false | VBool b => b | VNum x => negb (Reqb x 0) | VStr s => negb (String.eqb s "")
  | VLit d => match d with [] => false | _ => true end | VList l => match l with [] => false | _ => true end
  | _ => true
  end.
(** the operand of an arithmetic operation *)
Definition num (v : val) : result R :=
  match v with VNum x => Ok x | VBool b => Ok (if b then 1 else 0) | _ => Err ETypeError end.
Definition pow10v (v : val) : result val := do x <- num v; Ok (VNum (Rpower 10 x)).

(** ** The heap of dictionaries and computations that may raise *)
Record heap := { h_dict : nat -> dict; h_infall : nat -> kwd }.
Definition put (l : nat) (d : dict) (h : heap) : heap :=
  {| h_dict := fun l' => if Nat.eqb l' l then d else h_dict h l'; h_infall := h_infall h |}.
Definition put_infall (l : nat) (d : kwd) (h : heap) : heap :=
  {| h_dict := h_dict h; h_infall := fun l' => if Nat.eqb l' l then d else h_infall h l' |}.
(** all the default dictionaries are empty when the module is imported *)
Definition heap0 : heap := {| h_dict := fun _ => []; h_infall := fun _ => [] |}.
Definition M (A : Type) := heap -> heap * result A.
Definition ret {A} (x : A) : M A := fun h => (h, Ok x).
Definition raise {A} (e : err) : M A := fun h => (h, Err e).
Definition lift {A} (m : result A) : M A := fun h => (h, m).
Definition bindM {A B} (m : M A) (f : A -> M B) : M B :=
  fun h => match m h with (h', Ok x) => f x h' | (h', Err er) => (h', Err er) end.
Notation "'let!' x := m 'in' k" := (bindM m (fun x => k)) (at level 200, x pattern, m at level 100, k at level 200, right associativity).
(** v[key] = x *)
Definition set_item (v : val) (k : string) (x : val) : M unit :=
  match v with VRef l => fun h => (put l (dset k x (h_dict h l)) h, Ok tt) | _ => raise ETypeError end.
(** the contents of a dictionary argument (what a deep copy of it, or **kwargs, sees) *)
Definition contents (v : val) : M dict :=
  match v with VRef l => fun h => (h, Ok (h_dict h l)) | VLit d => ret d | _ => raise ETypeError end.

(** ** Calling a function: positional and keyword arguments against a signature *)
Definition signature := list (string * option val).
Definition req (k : string) : string * option val := (k, None).
Definition opt (k : string) (v : val) : string * option val := (k, Some v).
Definition args := list (string * val).
(** the value of a parameter inside the function *)
Definition arg (a : args) (k : string) : val := match dget k a with Some v => v | None => VNone end.
Definition keys {A} (l : list (string * A)) : list string := map fst l.
Definition mem (k : string) (ks : list string) : bool := existsb (fun k' => String.eqb k' k) ks.
Fixpoint bind_args (sg : signature) (pos : list val) (kw : dict) : result args :=
  match sg with
  | [] => match pos with [] => Ok [] | _ => Err ETypeError end
  | (k, default) :: sg' =>
      do v <- match pos with
              | x :: _ => if has k kw then Err ETypeError else Ok x
              | [] => match dget k kw with
                      | Some x => Ok x
                      | None => match default with Some x => Ok x | None => Err ETypeError end
                      end
              end;
      do rest <- bind_args sg' (List.tl pos) kw;
      Ok ((k, v) :: rest)
  end.
(** Keywords that are not parameters raise TypeError, unless the function has a catch-all **kwargs. *)
Definition call_args (sg : signature) (catch_all : bool) (pos : list val) (kw : dict) : result args :=
  if catch_all || forallb (fun k => mem k (keys sg)) (keys kw) then bind_args sg pos kw else Err ETypeError.

(** ** Halo-model classes *)
(** Signatures of the constructors: concentration.py 16, 202, 259, 305, 351, 402, 463, 546 and tidal_truncation.py 14, 48, 81, 121,
    176, 188, 198, 270, 378, 489, 584.  Default values play no role here.  *)
Definition o (k : string) : string * option val := (k, Some VNone).
Definition ctor_sig (c : cls) : signature * bool :=
  match c with
  | KConstant => ([req "cosmo"; req "c"], false)
  | KDiemerJoyce | KLudlow => ([req "cosmo"; o "scatter"; o "scatter_dex"; o "mdef"; o "use_interpolation_table"], true)
  | KPeakHeight => ([req "cosmo"; req "c0"; req "zeta"; req "beta"; o "scatter"; o "scatter_dex"; o "redshift_evolution"; o "m_pivot"], false)
  | KBinned => ([req "cosmo"; req "log10_mass_bins"; req "normalization_list"; req "beta_list"; req "zeta_list"; o "redshift_evolution"; o "scatter"; o "scatter_dex"], false)
  | KPolynomial => ([req "cosmo"; req "concentration_cdm_class"; req "log_mc"; o "c_scale"; o "c_power"; o "c_power_inner";
                     o "mc_suppression_redshift_evolution"; o "scatter"; o "scatter_dex"; o "kwargs_cdm"], false)
  | KHyperbolic => ([req "cosmo"; req "concentration_cdm_class"; req "log_mc"; req "a"; req "b"; o "scatter"; o "scatter_dex"; o "kwargs_cdm"], false)
  | KLudlowWDM => ([req "cosmo"; req "log_mc"; req "dlogT_dlogk"; o "scatter"; o "scatter_dex"; o "mdef"], false)
  | TSplashBack | TApproxCDM => ([req "lens_cosmo"], false)
  | TRN => ([req "lens_cosmo"; o "LOS_truncation_factor"], false)
  | TRoche => ([o "lens_cosmo"; o "RocheNorm"; o "m_power"; o "RocheNu"], false)
  | TMeanDensity => ([req "lens_cosmo"; o "median_rt_over_rs"; o "c_power"; o "intrinsic_scatter"], false)
  | TMultipleRS => ([req "lens_cosmo"; req "tau"], false)
  | TConstantArcsec => ([req "lens_cosmo"; req "rt_arcsec"], false)
  | TGalacticus | TGalacticusZinfall | TGalacticusKeeley24 => ([req "lens_cosmo"; req "c_host"], false)
  | TBoundMassPDF => ([req "lens_cosmo"; o "log10_fbound_mean"; o "log10_fbound_standard_dev"], false)
  | _ => ([], true)
  end.
(** An instance: the class and the keyword arguments it was made with.  Simplification: the bodies of the constructors
    are the concern of the concentration and truncation models; here only the acceptance of the keywords matters. *)
Record obj := { ob_cls : cls; ob_kwargs : dict }.
Definition construct (c : cls) (kw : dict) : result obj :=
  do _ <- call_args (fst (ctor_sig c)) (snd (ctor_sig c)) [] kw; Ok {| ob_cls := c; ob_kwargs := kw |}.

(** ** External computations *)
(** nfw_concentration of an instance at (mass, redshift) (ConcModel); a caller-supplied infall class (InfallModel);
    stucker_suppression_params (stucker.py); utilities.MinHaloMassULDM. *)
Record penv := {
  pe_concentration : obj -> R -> R -> R;
  pe_infall_class : val -> R -> kwd -> result infall;
  pe_stucker : R -> R * R * R;
  pe_min_halo_mass : R -> val -> R -> R }.

(** ** Model names *)
(** hasattr(x, 'nfw_concentration') *)
Definition has_nfw_concentration (v : val) : bool :=
  match v with
  | VCls (KUser _ b) => b
  | VCls (KDiemerJoyce | KLudlow | KPeakHeight | KBinned | KHyperbolic | KPolynomial | KLudlowWDM | KConstant) => true
  | _ => false
  end.
(** the dictionaries of concentration_models.py 33-38, 42-47 and 52-56 *)
Definition bose_kwargs (cdm : cls) (d : dict) : dict :=
  dset "mc_suppression_redshift_evolution" (VBool false) (dset "c_power_inner" (VNum 1) (dset "c_power" (VNum (- 0.17))
    (dset "c_scale" (VNum 60) (dset "kwargs_cdm" (VLit []) (dset "concentration_cdm_class" (VCls cdm) d))))).
Definition laroche_kwargs (d : dict) : dict :=
  dset "c_power_inner" (VNum 1.62) (dset "c_power" (VNum (- 0.42))
    (dset "c_scale" (VNum 21.42) (dset "kwargs_cdm" (VLit []) (dset "concentration_cdm_class" (VCls KDiemerJoyce) d)))).
(** concentration_models.py 8-79 *)
Definition preset_concentration_models (name : val) (d : dict) : result (cls * dict) :=
  if is_str name "DIEMERJOYCE19" then Ok (KDiemerJoyce, d)
  else if is_str name "LUDLOW2016" then Ok (KLudlow, d)
  else if is_str name "PEAK_HEIGHT_POWERLAW" then Ok (KPeakHeight, d)
  else if is_str name "BINNED_HALO_MASS" then Ok (KBinned, d)
  else if is_str name "WDM_HYPERBOLIC" then Ok (KHyperbolic, d)
  else if is_str name "WDM_POLYNOMIAL" then Ok (KPolynomial, d)
  else if is_str name "BOSE2016" then Ok (KPolynomial, bose_kwargs KDiemerJoyce d)
  else if is_str name "BOSE2016_LUDLOW" then Ok (KPolynomial, bose_kwargs KLudlow d)
  else if is_str name "LAROCHE2022" then Ok (KPolynomial, laroche_kwargs d)
  else if is_str name "LUDLOW_WDM" then Ok (KLudlowWDM, d)
  else if is_str name "FROM_FORMATION_HISTORY" then
    match dget "dlogT_dlogk" d with
    | None => Err EKeyError
    | Some v =>
        do x <- num v;
        let a := 0.75 * Rpower (0.7 / x) 0.4 in
        let b := 0.94 * Rpower (Rabs (ln (1.76 + 0.6) / ln (x + 0.6))) 0.7 in
        Ok (KHyperbolic, ddel "dlogT_dlogk" (dset "b" (VNum b) (dset "a" (VNum a) d)))
    end
  else if is_str name "CUSTOM" then
    match dget "custom_class" d with
    | None => Err EKeyError
    | Some v => if has_nfw_concentration v then match v with VCls c => Ok (c, ddel "custom_class" d) | _ => Err EException end
                else Err EException
    end
  else if is_str name "CONSTANT" then Ok (KConstant, d)
  else Err EException.

(** truncation_models.py 8-53: a name, or a class given directly.  Calling something that is not a class raises TypeError. *)
Definition truncation_models (name : val) : result (cls * dict) :=
  match name with
  | VStr _ =>
      if is_str name "TRUNCATION_R50" then Ok (TRN, [("LOS_truncation_factor", VNum 50)])
      else if is_str name "TRUNCATION_R200" then Ok (TRN, [("LOS_truncation_factor", VNum 200)])
      else if is_str name "TRUNCATION_RN" then Ok (TRN, [])
      else if is_str name "TRUNCATION_ROCHE" then Ok (TRoche, [])
      else if is_str name "TRUNCATION_ROCHE_GILMAN2020" then
        Ok (TRoche, [("RocheNorm", VNum 1.4); ("m_power", VNum (1 / 3)); ("RocheNu", VNum (2 / 3))])
      else if is_str name "SPLASHBACK" then Ok (TSplashBack, [])
      else if is_str name "TRUNCATION_MEAN_DENSITY" then Ok (TMeanDensity, [])
      else if is_str name "TRUNCATION_GALACTICUS" then Ok (TGalacticus, [])
      else if is_str name "TRUNCATION_GALACTICUS_ZINFALL" then Ok (TGalacticusZinfall, [])
      else if is_str name "TRUNCATION_GALACTICUS_KEELEY24" then Ok (TGalacticusKeeley24, [])
      else if is_str name "CONSTANT" then Ok (TConstantArcsec, [])
      else if is_str name "MULTIPLE_RS" then Ok (TMultipleRS, [])
      else if is_str name "BOUND_MASS_PDF" then Ok (TBoundMassPDF, [])
      else if is_str name "TRUNCATION_GALACTICUS_CDM_APPROX" then Ok (TApproxCDM, [])
      else Err EException
  | VCls c => Ok (c, [])
  | _ => Err ETypeError
  end.

(** mass_function_models.py 6-85 *)
Definition turnover (a b c : val) (d : dict) : dict := dset "c_wdm" c (dset "b_wdm" b (dset "a_wdm" a d)).
Definition preset_mass_function_models (e : penv) (name : val) (d : dict) : result (cls * dict) :=
  if is_str name "SHMF_LOVELL2020" then Ok (MWDMPowerLaw, turnover (VNum 36.15) (VNum 2.5) (VNum (- 0.2)) d)
  else if is_str name "LOVELL2020" then Ok (MShethTormenTurnover, turnover (VNum 1.95) (VNum 0.8) (VNum (- 1)) d)
  else if is_str name "SHMF_LOVELL2014" then Ok (MWDMPowerLaw, turnover (VNum 1) (VNum 1) (VNum (- 1.3)) d)
  else if is_str name "LOVELL2014" then Ok (MShethTormenTurnover, turnover (VNum 1) (VNum 1) (VNum (- 1.3)) d)
  else if is_str name "SCHIVE2016" then Ok (MShethTormenTurnover, turnover (VNum 1) (VNum 1.1) (VNum (- 2.2)) d)
  else if is_str name "SHMF_SCHIVE2016" then Ok (MWDMPowerLaw, turnover (VNum 1) (VNum 1.1) (VNum (- 2.2)) d)
  else if is_str name "POWER_LAW" then Ok (MCDMPowerLaw, d)
  else if is_str name "POWER_LAW_TURNOVER_SHMF" then Ok (MWDMPowerLaw, d)
  else if is_str name "POWER_LAW_TURNOVER" then Ok (MShethTormenTurnover, d)
  else if is_str name "SHMF_MIXED_WDM_TURNOVER" then Ok (MMixedWDMPowerLaw, d)
  else if is_str name "MIXED_WDM_TURNOVER" then Ok (MShethTormenMixedWDM, d)
  else if one_of name ["STUCKER_SHMF"; "STUCKER"] then
    match dget "dlogT_dlogk" d with
    | None => Err EException
    | Some v =>
        if has "a_wdm" d || has "b_wdm" d || has "c_wdm" d then Err EException
        else do x <- num v;
             let '(a, b, c) := pe_stucker e x in
             let d' := ddel "dlogT_dlogk" (turnover (VNum a) (VNum b) (VNum c) d) in
             Ok (if is_str name "STUCKER" then MShethTormenTurnover else MWDMPowerLaw, d')
    end
  else Err EException.

(** ** What a preset hands to pyHalo.render and does afterwards *)
Inductive post :=
| PSis (threshold galaxy_model : val)
| PGlobularClusters (kwargs : val)
| PCoreCollapse (ranges_sub ranges_field prob_sub prob_field profile : val) (kwargs_halo : dict)
| PCrossSection (ranges cross_sections time_scaling evolving x_core : val)
| PBlackHoles (ratio occupation mlow_subres min_mbh log_mlow mass_max los_norm : val)
| PFluctuations (shape flucs_args : val).
Record setup := {
  su_populations : list string; su_mass_functions : list cls; su_mass_kwargs : list dict;
  su_spatial : list cls; su_spatial_kwargs : list dict;
  su_geometry : val; su_mdef_subhalos : val; su_mdef_field : val;
  su_truncation_subhalos : obj; su_concentration_subhalos : obj; su_truncation_field : obj; su_concentration_field : obj;
  su_density_profile : val; su_lazar : val; su_boost : val; su_spacing : val;
  su_infall : option infall; su_post : list post }.
Definition add_post (p : list post) (s : setup) : setup :=
  {| su_populations := su_populations s; su_mass_functions := su_mass_functions s; su_mass_kwargs := su_mass_kwargs s;
     su_spatial := su_spatial s; su_spatial_kwargs := su_spatial_kwargs s; su_geometry := su_geometry s;
     su_mdef_subhalos := su_mdef_subhalos s; su_mdef_field := su_mdef_field s;
     su_truncation_subhalos := su_truncation_subhalos s; su_concentration_subhalos := su_concentration_subhalos s;
     su_truncation_field := su_truncation_field s; su_concentration_field := su_concentration_field s;
     su_density_profile := su_density_profile s; su_lazar := su_lazar s; su_boost := su_boost s; su_spacing := su_spacing s;
     su_infall := su_infall s; su_post := su_post s ++ p |}.

(** ext.add_globular_clusters with keyword arguments: None is not a mapping *)
Definition post_gc (flag kwargs : val) : M (list post) :=
  if truthy flag then let! _ := contents kwargs in ret [PGlobularClusters kwargs] else ret [].
Definition post_sis (threshold galaxy_model : val) : list post :=
  if is_none threshold then [] else [PSis threshold galaxy_model].
(** RealizationExtensions has no method add_prompt_cusps (wdm.py 216-219 and 473-476) *)
Definition post_cusps (flag : val) : M (list post) := if truthy flag then raise EAttributeError else ret [].

(** cdm.py 85-87, wdm.py 93-95 and 367-369: the infall model.  Simplification: an infall dictionary that is not a dictionary is
    a TypeError for every model. *)
Definition infall_step (e : penv) (z_lens model log_m_host kwargs : val) : M (option infall) :=
  match kwargs with
  | VRef l =>
      let! z := lift (num z_lens) in
      let! m := lift (num log_m_host) in
      fun h =>
        let sel := match model with VStr s => SName s | v => SClass (pe_infall_class e v) end in
        match preset_infall z sel m (h_infall h l) lc_fresh with
        | (st, d, None) => (put_infall l d h, Ok (ls_model st))
        | (_, d, Some er) => (put_infall l d h, Err er)
        end
  | _ => raise ETypeError
  end.

(** cdm.py 117-134, wdm.py 129-144 and 392-405: the truncation model of one population.  [c_host] is written for the models that need it. *)
Definition needs_c_host := ["TRUNCATION_GALACTICUS_KEELEY24"; "TRUNCATION_GALACTICUS"; "TRUNCATION_GALACTICUS_ZINFALL"].
Definition truncation_subhalos (name kwargs c_host : val) : M obj :=
  let! p := lift (truncation_models name) in
  let! user := contents kwargs in
  let d := dupdate (snd p) user in
  let d := if one_of name needs_c_host then dset "c_host" c_host d else d in
  lift (construct (fst p) d).
Definition truncation_field (name kwargs : val) : M obj :=
  let! p := lift (truncation_models name) in
  let! user := contents kwargs in
  lift (construct (fst p) (dupdate (snd p) user)).

(** cdm.py 145-152, wdm.py 163-169 and 418-425: the amplitude of the subhalo mass function *)
Definition amplitude (log10_dNdA log10_sigma_sub sigma_sub : val) (d : dict) : result dict :=
  if negb (is_none log10_dNdA) then do v <- pow10v log10_dNdA; Ok (dset "dndA" v d)
  else if negb (is_none log10_sigma_sub) then do v <- pow10v log10_sigma_sub; Ok (dset "sigma_sub" v d)
  else Ok (dset "sigma_sub" sigma_sub d).
(** cdm.py 161-173, wdm.py 181-193 and 436-448 *)
Definition subhalo_spatial (name cone log_m_host z_lens c_host r_tidal lens_cosmo geometry : val) : result (cls * dict) :=
  if is_str name "UNIFORM" then
    do c <- num cone; Ok (SUniform, [("rmax2d_arcsec", VNum (c / 2)); ("geometry", geometry)])
  else if is_str name "PROJECTED_NFW" then
    do m <- pow10v log_m_host; do c <- num cone;
    Ok (SProjectedNFW, [("m_host", m); ("zlens", z_lens); ("c_host", c_host); ("rmax2d_arcsec", VNum (c / 2));
                        ("r_core_units_rs", r_tidal); ("lens_cosmo", lens_cosmo)])
  else Err EException.
(** the host concentration: the argument, or the concentration of [mc] at the host mass (cdm.py 114-115, wdm.py 126-127 and 390-391) *)
Definition host_concentration (e : penv) (c_host : val) (mc : obj) (log_m_host z_lens : val) : result val :=
  if is_none c_host then do m <- num log_m_host; do z <- num z_lens; Ok (VNum (pe_concentration e mc (Rpower 10 m) z))
  else Ok c_host.
(** cdm.py, the signature at line 13 *)
Definition sig_CDM : signature :=
  [req "z_lens"; req "z_source"; opt "sigma_sub" (VNum 0.025); opt "log_mlow" (VNum 6); opt "log_mhigh" (VNum 10);
   opt "log10_sigma_sub" VNone; opt "log10_dNdA" VNone; opt "concentration_model_subhalos" (VStr "LUDLOW2016");
   opt "kwargs_concentration_model_subhalos" (VRef 0); opt "concentration_model_fieldhalos" (VStr "LUDLOW2016");
   opt "kwargs_concentration_model_fieldhalos" (VRef 1);
   opt "truncation_model_subhalos" (VStr "TRUNCATION_GALACTICUS"); opt "kwargs_truncation_model_subhalos" (VRef 2);
   opt "truncation_model_fieldhalos" (VStr "TRUNCATION_RN"); opt "kwargs_truncation_model_fieldhalos" (VRef 3);
   opt "infall_redshift_model" (VStr "HYBRID_INFALL"); opt "kwargs_infall_model" (VRef 4);
   opt "subhalo_spatial_distribution" (VStr "UNIFORM"); opt "shmf_log_slope" (VNum (- 1.9));
   opt "cone_opening_angle_arcsec" (VNum 6); opt "log_m_host" (VNum 13.3); opt "r_tidal" (VNum 0.25);
   opt "LOS_normalization" (VNum 1); opt "two_halo_contribution" (VBool true); opt "delta_power_law_index" (VNum 0);
   opt "geometry_type" (VStr "DOUBLE_CONE"); opt "kwargs_cosmo" VNone; opt "host_scaling_factor" (VNum 0.55);
   opt "redshift_scaling_factor" (VNum 0.37); opt "two_halo_Lazar_correction" (VBool true);
   opt "draw_poisson" (VBool true); opt "c_host" (VNum 6); opt "add_globular_clusters" (VBool false);
   opt "kwargs_globular_clusters" VNone; opt "mass_threshold_sis" VNone; opt "galaxy_model" (VStr "GNFW");
   opt "halo_mass_profile" (VStr "TNFW"); opt "lens_plane_spacing" VNone].
(** cdm.py, the signature at line 205 *)
Definition sig_CDMCorrelatedStructure : signature :=
  [req "z_lens"; req "z_source"; opt "log_mlow" (VNum 6); opt "log_mhigh" (VNum 10);
   opt "concentration_model" (VStr "LUDLOW2016"); opt "kwargs_concentration_model" (VRef 5);
   opt "truncation_model" (VStr "TRUNCATION_RN"); opt "kwargs_truncation_model" (VRef 6);
   opt "cone_opening_angle_arcsec" (VNum 6); opt "log_m_host" (VNum 13.3); opt "LOS_normalization" (VNum 1);
   opt "delta_power_law_index" (VNum 0); opt "geometry_type" (VStr "DOUBLE_CONE"); opt "kwargs_cosmo" VNone;
   opt "scale_2halo_boost_factor" (VNum 1); opt "mass_threshold_sis" (VNum (5 * 10 ^ 10))].
(** cdm.py, the signature at line 286 *)
Definition sig_CDMBinned : signature :=
  [req "z_lens"; req "z_source"; opt "sigma_sub" (VNum 0.1); opt "log10_sigma_sub" VNone;
   opt "log10_mc_low" (VNum 1.3); opt "log10_mc_high" (VNum 1.15); opt "scale_mass_function_low" (VNum 1);
   opt "scale_mass_function_high" (VNum 1); opt "beta" (VNum 0.7); opt "zeta" (VNum (- 0.4));
   opt "concentration_scatter_dex" (VNum 0.2); opt "concentration_model_subhalos" (VStr "BINNED_HALO_MASS");
   opt "concentration_model_fieldhalos" (VStr "BINNED_HALO_MASS");
   opt "truncation_model_subhalos" (VStr "TRUNCATION_GALACTICUS"); opt "kwargs_truncation_model_subhalos" (VRef 7);
   opt "truncation_model_fieldhalos" (VStr "TRUNCATION_RN"); opt "kwargs_truncation_model_fieldhalos" (VRef 8);
   opt "infall_redshift_model" (VStr "HYBRID_INFALL"); opt "kwargs_infall_model" (VRef 9);
   opt "shmf_log_slope" (VNum (- 1.9)); opt "cone_opening_angle_arcsec" (VNum 6); opt "log_m_host" (VNum 13.3);
   opt "LOS_normalization" (VNum 1); opt "geometry_type" (VStr "DOUBLE_CONE"); opt "kwargs_cosmo" VNone;
   opt "host_scaling_factor" (VNum 0.55); opt "redshift_scaling_factor" (VNum 0.37); opt "c_host" (VNum 6);
   opt "add_globular_clusters" (VBool false); opt "kwargs_globular_clusters" VNone;
   opt "halo_mass_profile" (VStr "TNFW"); opt "lens_plane_spacing" VNone].
(** wdm.py, the signature at line 10 *)
Definition sig_WDM : signature :=
  [req "z_lens"; req "z_source"; req "log_mc"; opt "sigma_sub" (VNum 0.025); opt "log_mlow" (VNum 6);
   opt "log_mhigh" (VNum 10); opt "log10_sigma_sub" VNone; opt "log10_dNdA" VNone;
   opt "mass_function_model_subhalos" (VStr "LOVELL2020"); opt "kwargs_mass_function_subhalos" (VRef 10);
   opt "mass_function_model_fieldhalos" (VStr "LOVELL2020"); opt "kwargs_mass_function_fieldhalos" (VRef 11);
   opt "concentration_model_subhalos" (VStr "BOSE2016"); opt "kwargs_concentration_model_subhalos" (VRef 12);
   opt "concentration_model_fieldhalos" (VStr "BOSE2016"); opt "kwargs_concentration_model_fieldhalos" (VRef 13);
   opt "truncation_model_subhalos" (VStr "TRUNCATION_GALACTICUS"); opt "kwargs_truncation_model_subhalos" (VRef 14);
   opt "infall_redshift_model" (VStr "HYBRID_INFALL"); opt "kwargs_infall_model" (VRef 15);
   opt "subhalo_spatial_distribution" (VStr "PROJECTED_NFW");
   opt "truncation_model_fieldhalos" (VStr "TRUNCATION_RN"); opt "kwargs_truncation_model_fieldhalos" (VRef 16);
   opt "two_halo_contribution" (VBool true); opt "shmf_log_slope" (VNum (- 1.9));
   opt "cone_opening_angle_arcsec" (VNum 6); opt "log_m_host" (VNum 13.3); opt "r_tidal" (VNum 0.25);
   opt "LOS_normalization" (VNum 1); opt "geometry_type" (VStr "DOUBLE_CONE"); opt "kwargs_cosmo" VNone;
   opt "mdef_subhalos" (VStr "TNFW"); opt "mdef_field_halos" (VStr "TNFW"); opt "kwargs_density_profile" (VRef 17);
   opt "host_scaling_factor" (VNum 0.55); opt "redshift_scaling_factor" (VNum 0.37);
   opt "two_halo_Lazar_correction" (VBool true); opt "draw_poisson" (VBool true); opt "c_host" VNone;
   opt "add_globular_clusters" (VBool false); opt "kwargs_globular_clusters" VNone;
   opt "include_prompt_cusps" (VBool false); opt "mass_threshold_sis" VNone; opt "lens_plane_spacing" VNone].
(** wdm.py, the signature at line 222 *)
Definition sig_WDM_mixed : signature :=
  [req "z_lens"; req "z_source"; req "log_mc"; req "mixed_DM_frac"; opt "sigma_sub" (VNum 0.025);
   opt "log_mlow" (VNum 6); opt "log_mhigh" (VNum 10);
   opt "mass_function_model_subhalos" (VStr "SHMF_MIXED_WDM_TURNOVER");
   opt "kwargs_mass_function_subhalos" (VRef 18); opt "mass_function_model_fieldhalos" (VStr "MIXED_WDM_TURNOVER");
   opt "kwargs_mass_function_fieldhalos" (VRef 19); opt "concentration_model_subhalos" (VStr "BOSE2016");
   opt "kwargs_concentration_model_subhalos" (VRef 20); opt "concentration_model_fieldhalos" (VStr "BOSE2016");
   opt "kwargs_concentration_model_fieldhalos" (VRef 21);
   opt "truncation_model_subhalos" (VStr "TRUNCATION_GALACTICUS"); opt "kwargs_truncation_model_subhalos" (VRef 22);
   opt "truncation_model_fieldhalos" (VStr "TRUNCATION_RN"); opt "kwargs_truncation_model_fieldhalos" (VRef 23);
   opt "shmf_log_slope" (VNum (- 1.9)); opt "cone_opening_angle_arcsec" (VNum 6); opt "log_m_host" (VNum 13.3);
   opt "r_tidal" (VNum 0.25); opt "LOS_normalization" (VNum 1); opt "geometry_type" (VStr "DOUBLE_CONE");
   opt "kwargs_cosmo" VNone; opt "kwargs_density_profile" (VRef 24); opt "include_prompt_cusps" (VBool false)].
(** wdm.py, the signature at line 299 *)
Definition sig_WDMGeneral : signature :=
  [req "z_lens"; req "z_source"; req "log_mc"; req "dlogT_dlogk"; opt "sigma_sub" (VNum 0.025);
   opt "log_mlow" (VNum 6); opt "log_mhigh" (VNum 10); opt "log10_sigma_sub" VNone; opt "log10_dNdA" VNone;
   opt "truncation_model_subhalos" (VStr "TRUNCATION_GALACTICUS"); opt "kwargs_truncation_model_subhalos" (VRef 25);
   opt "truncation_model_fieldhalos" (VStr "TRUNCATION_RN"); opt "kwargs_truncation_model_fieldhalos" (VRef 26);
   opt "infall_redshift_model" (VStr "HYBRID_INFALL"); opt "kwargs_infall_model" (VRef 27);
   opt "subhalo_spatial_distribution" (VStr "PROJECTED_NFW"); opt "shmf_log_slope" (VNum (- 1.9));
   opt "cone_opening_angle_arcsec" (VNum 6); opt "log_m_host" (VNum 13.3); opt "r_tidal" (VNum 0.25);
   opt "LOS_normalization" (VNum 1); opt "geometry_type" (VStr "DOUBLE_CONE"); opt "kwargs_cosmo" VNone;
   opt "mdef_subhalos" (VStr "TNFW"); opt "mdef_field_halos" (VStr "TNFW"); opt "kwargs_density_profile" (VRef 28);
   opt "host_scaling_factor" (VNum 0.55); opt "redshift_scaling_factor" (VNum 0.37);
   opt "two_halo_Lazar_correction" (VBool true); opt "c_host" VNone; opt "add_globular_clusters" (VBool false);
   opt "kwargs_globular_clusters" VNone; opt "include_prompt_cusps" (VBool false);
   opt "mass_threshold_sis" (VNum (5 * 10 ^ 10))].
(** uldm.py, the signature at line 10 *)
Definition sig_ULDM : signature :=
  [req "z_lens"; req "z_source"; req "log10_m_uldm"; opt "log10_fluc_amplitude" (VNum (- 0.8));
   opt "fluctuation_size_scale" (VNum 0.05); opt "fluctuation_size_dispersion" (VNum 0.2);
   opt "n_fluc_scale" (VNum 1); opt "velocity_scale" (VNum 200); opt "sigma_sub" (VNum 0.025);
   opt "log10_sigma_sub" (VNum (- 1)); opt "log10_dNdA" VNone; opt "log_mlow" (VNum 6); opt "log_mhigh" (VNum 10);
   opt "mass_function_model_subhalos" (VStr "SHMF_SCHIVE2016"); opt "kwargs_mass_function_subhalos" (VRef 29);
   opt "mass_function_model_fieldhalos" (VStr "SCHIVE2016"); opt "kwargs_mass_function_fieldhalos" (VRef 30);
   opt "concentration_model_subhalos" (VStr "LAROCHE2022"); opt "kwargs_concentration_model_subhalos" (VRef 31);
   opt "concentration_model_fieldhalos" (VStr "LAROCHE2022"); opt "kwargs_concentration_model_fieldhalos" (VRef 32);
   opt "truncation_model_subhalos" (VStr "TRUNCATION_GALACTICUS"); opt "kwargs_truncation_model_subhalos" (VRef 33);
   opt "truncation_model_fieldhalos" (VStr "TRUNCATION_RN"); opt "kwargs_truncation_model_fieldhalos" (VRef 34);
   opt "shmf_log_slope" (VNum (- 1.9)); opt "cone_opening_angle_arcsec" (VNum 6); opt "log_m_host" (VNum 13.3);
   opt "r_tidal" (VNum 0.25); opt "LOS_normalization" (VNum 1); opt "geometry_type" (VStr "DOUBLE_CONE");
   opt "kwargs_cosmo" VNone; opt "uldm_plaw" (VNum (1 / 3)); opt "flucs" (VBool true);
   opt "flucs_shape" (VStr "aperture"); opt "flucs_args" (VRef 35); opt "n_cut" (VNum 50000); opt "r_ein" (VNum 1);
   opt "mdef_halos" (VStr "ULDM")].
(** sidm.py, the signature at line 5; the catch-all **kwargs_halo_profile is handled by [call] *)
Definition sig_SIDM_core_collapse : signature :=
  [req "z_lens"; req "z_source"; req "mass_ranges_subhalos"; req "mass_ranges_field_halos";
   req "probabilities_subhalos"; req "probabilities_field_halos"; opt "sigma_sub" (VNum 0.025);
   opt "log10_sigma_sub" VNone; opt "log10_dNdA" VNone; opt "log_mlow" (VNum 6); opt "log_mhigh" (VNum 10);
   opt "concentration_model_subhalos" (VStr "DIEMERJOYCE19"); opt "kwargs_concentration_model_subhalos" (VRef 36);
   opt "concentration_model_fieldhalos" (VStr "DIEMERJOYCE19");
   opt "kwargs_concentration_model_fieldhalos" (VRef 37);
   opt "truncation_model_subhalos" (VStr "TRUNCATION_GALACTICUS"); opt "kwargs_truncation_model_subhalos" (VRef 38);
   opt "infall_redshift_model" (VStr "HYBRID_INFALL"); opt "kwargs_infall_model" (VRef 39);
   opt "truncation_model_fieldhalos" (VStr "TRUNCATION_RN"); opt "kwargs_truncation_model_fieldhalos" (VRef 40);
   opt "shmf_log_slope" (VNum (- 1.9)); opt "cone_opening_angle_arcsec" (VNum 6); opt "log_m_host" (VNum 13.3);
   opt "r_tidal" (VNum 0.25); opt "LOS_normalization" (VNum 1); opt "geometry_type" (VStr "DOUBLE_CONE");
   opt "kwargs_cosmo" VNone; opt "host_scaling_factor" (VNum 0.55); opt "redshift_scaling_factor" (VNum 0.37);
   opt "two_halo_Lazar_correction" (VBool true); opt "draw_poisson" (VBool true); opt "c_host" (VNum 6);
   opt "add_globular_clusters" (VBool false); opt "kwargs_globular_clusters" VNone;
   opt "mass_threshold_sis" (VNum (5 * 10 ^ 10)); opt "galaxy_model" (VStr "GNFW");
   opt "collapsed_halo_profile" (VStr "TNFWC")].
(** sidm.py, the signature at line 102 *)
Definition sig_SIDM_parametric : signature :=
  [req "z_lens"; req "z_source"; req "log10_mass_ranges"; req "log10_effective_cross_section_list";
   opt "log10_subhalo_time_scaling" (VNum 0); opt "sigma_sub" (VNum 0.025); opt "log10_sigma_sub" VNone;
   opt "log10_dNdA" VNone; opt "evolving_SIDM_profile" (VBool true); opt "x_core_halo" VNone;
   opt "log_mlow" (VNum 6); opt "log_mhigh" (VNum 10); opt "concentration_model_subhalos" (VStr "DIEMERJOYCE19");
   opt "kwargs_concentration_model_subhalos" (VRef 41); opt "concentration_model_fieldhalos" (VStr "DIEMERJOYCE19");
   opt "kwargs_concentration_model_fieldhalos" (VRef 42);
   opt "truncation_model_subhalos" (VStr "TRUNCATION_GALACTICUS"); opt "kwargs_truncation_model_subhalos" (VRef 43);
   opt "infall_redshift_model" (VStr "HYBRID_INFALL"); opt "kwargs_infall_model" (VRef 44);
   opt "truncation_model_fieldhalos" (VStr "TRUNCATION_RN"); opt "kwargs_truncation_model_fieldhalos" (VRef 45);
   opt "shmf_log_slope" (VNum (- 1.9)); opt "cone_opening_angle_arcsec" (VNum 6); opt "log_m_host" (VNum 13.3);
   opt "r_tidal" (VNum 0.25); opt "LOS_normalization" (VNum 1); opt "geometry_type" (VStr "DOUBLE_CONE");
   opt "kwargs_cosmo" VNone; opt "add_globular_clusters" (VBool false); opt "kwargs_globular_clusters" VNone].
(** sidm.py, the signature at line 185 *)
Definition sig_SIDM_parametric_fixedbins : signature :=
  [req "z_lens"; req "z_source"; req "log10_sigma_eff_mlow_8"; req "log10_sigma_eff_8_mhigh";
   opt "log10_subhalo_time_scaling" (VNum 0); opt "sigma_sub" (VNum 0.025); opt "log10_sigma_sub" VNone;
   opt "log10_dNdA" VNone; opt "log_mlow" (VNum 6); opt "log_mhigh" (VNum 10);
   opt "concentration_model_subhalos" (VStr "DIEMERJOYCE19"); opt "kwargs_concentration_model_subhalos" (VRef 46);
   opt "concentration_model_fieldhalos" (VStr "DIEMERJOYCE19");
   opt "kwargs_concentration_model_fieldhalos" (VRef 47);
   opt "truncation_model_subhalos" (VStr "TRUNCATION_GALACTICUS"); opt "kwargs_truncation_model_subhalos" (VRef 48);
   opt "infall_redshift_model" (VStr "HYBRID_INFALL"); opt "kwargs_infall_model" (VRef 49);
   opt "truncation_model_fieldhalos" (VStr "TRUNCATION_RN"); opt "kwargs_truncation_model_fieldhalos" (VRef 50);
   opt "shmf_log_slope" (VNum (- 1.9)); opt "cone_opening_angle_arcsec" (VNum 6); opt "log_m_host" (VNum 13.3);
   opt "r_tidal" (VNum 0.25); opt "LOS_normalization" (VNum 1); opt "geometry_type" (VStr "DOUBLE_CONE");
   opt "kwargs_cosmo" VNone; opt "add_globular_clusters" (VBool false); opt "kwargs_globular_clusters" VNone;
   opt "evolving_profile" (VBool true); opt "x_core_halo" VNone].
(** mbh.py, the signature at line 4 *)
Definition sig_CDM_plus_BH : signature :=
  [req "z_lens"; req "z_source"; req "log10_mass_ratio"; req "log10_occupation_frac";
   opt "log10_mlow_halos_subres" (VNum 5); opt "log10_min_mbh" (VNum 4.5); opt "log10_mass_maximum" (VNum 6.7);
   opt "sigma_sub" (VNum 0.025); opt "log_mlow" (VNum 6); opt "log_mhigh" (VNum 10); opt "log10_sigma_sub" VNone;
   opt "shmf_log_slope" (VNum (- 1.9)); opt "cone_opening_angle_arcsec" (VNum 6); opt "log_m_host" (VNum 13.3);
   opt "LOS_normalization" (VNum 1); opt "geometry_type" (VStr "DOUBLE_CONE");
   opt "add_globular_clusters" (VBool false); opt "kwargs_globular_clusters" VNone].

(** ** The presets *)
Definition m_pivot8 : val := VNum (10 ^ 8).
Definition is_true (v : val) : bool := match v with VBool b => b | _ => false end.

(** cdm.py 81-203; [a] are the bound arguments *)
Definition CDM_body (e : penv) (a : args) : M setup :=
  let kc := arg a "kwargs_cosmo" in
  let z_lens := arg a "z_lens" in
  let log_m_host := arg a "log_m_host" in
  let cone := arg a "cone_opening_angle_arcsec" in
  let lens_cosmo := VLensCosmo z_lens (arg a "z_source") kc in
  let geometry := VGeometry z_lens (arg a "z_source") kc cone (arg a "geometry_type") in
  let! infall := infall_step e z_lens (arg a "infall_redshift_model") log_m_host (arg a "kwargs_infall_model") in
  let profile := arg a "halo_mass_profile" in
  if negb (one_of profile ["NFW"; "TNFW"; "PT_MASS"]) then raise EException else
  let! _ := set_item (arg a "kwargs_concentration_model_subhalos") "cosmo" (VAstropy kc) in
  let! _ := set_item (arg a "kwargs_concentration_model_fieldhalos") "cosmo" (VAstropy kc) in
  let! ks := contents (arg a "kwargs_concentration_model_subhalos") in
  let! ms := lift (preset_concentration_models (arg a "concentration_model_subhalos") ks) in
  let! mc_sub := lift (construct (fst ms) (dset "scatter_dex" (VNum 0.2) (snd ms))) in
  let! kf := contents (arg a "kwargs_concentration_model_fieldhalos") in
  let! mf := lift (preset_concentration_models (arg a "concentration_model_fieldhalos") kf) in
  let! mc_field := lift (construct (fst mf) (dset "scatter_dex" (VNum 0.2) (snd mf))) in
  let! c_host := lift (host_concentration e (arg a "c_host") mc_field log_m_host z_lens) in
  let! _ := set_item (arg a "kwargs_truncation_model_subhalos") "lens_cosmo" lens_cosmo in
  let! _ := set_item (arg a "kwargs_truncation_model_fieldhalos") "lens_cosmo" lens_cosmo in
  let! tr_sub := truncation_subhalos (arg a "truncation_model_subhalos") (arg a "kwargs_truncation_model_subhalos") c_host in
  let! tr_field := truncation_field (arg a "truncation_model_fieldhalos") (arg a "kwargs_truncation_model_fieldhalos") in
  let! kwargs_subhalos := lift (amplitude (arg a "log10_dNdA") (arg a "log10_sigma_sub") (arg a "sigma_sub")
    [("log_mlow", arg a "log_mlow"); ("log_mhigh", arg a "log_mhigh"); ("m_pivot", m_pivot8);
     ("power_law_index", arg a "shmf_log_slope"); ("log_m_host", log_m_host); ("delta_power_law_index", VNum 0);
     ("host_scaling_factor", arg a "host_scaling_factor"); ("redshift_scaling_factor", arg a "redshift_scaling_factor");
     ("draw_poisson", arg a "draw_poisson")]) in
  let kwargs_los :=
    [("log_mlow", arg a "log_mlow"); ("log_mhigh", arg a "log_mhigh"); ("LOS_normalization", arg a "LOS_normalization");
     ("m_pivot", m_pivot8); ("delta_power_law_index", arg a "delta_power_law_index"); ("log_m_host", log_m_host);
     ("draw_poisson", arg a "draw_poisson")] in
  let! sp := lift (subhalo_spatial (arg a "subhalo_spatial_distribution") cone log_m_host z_lens c_host (arg a "r_tidal") lens_cosmo geometry) in
  let los_spatial := [("cone_opening_angle", cone); ("geometry", geometry)] in
  let two := truthy (arg a "two_halo_contribution") in
  let! gc := post_gc (arg a "add_globular_clusters") (arg a "kwargs_globular_clusters") in
  ret {| su_populations := ["SUBHALOS"; "LINE_OF_SIGHT"] ++ (if two then ["TWO_HALO"] else []);
         su_mass_functions := [MCDMPowerLaw; MShethTormen] ++ (if two then [MShethTormen] else []);
         su_mass_kwargs := [kwargs_subhalos; kwargs_los] ++ (if two then [kwargs_los] else []);
         su_spatial := [fst sp; SLensConeUniform] ++ (if two then [SLensConeUniform] else []);
         su_spatial_kwargs := [snd sp; los_spatial] ++ (if two then [los_spatial] else []);
         su_geometry := geometry; su_mdef_subhalos := profile; su_mdef_field := profile;
         su_truncation_subhalos := tr_sub; su_concentration_subhalos := mc_sub;
         su_truncation_field := tr_field; su_concentration_field := mc_field;
         su_density_profile := VLit []; su_lazar := arg a "two_halo_Lazar_correction"; su_boost := VNum 1;
         su_spacing := arg a "lens_plane_spacing"; su_infall := infall;
         su_post := post_sis (arg a "mass_threshold_sis") (arg a "galaxy_model") ++ gc |}.
Definition CDM (e : penv) (pos : list val) (kw : dict) : M setup :=
  let! a := lift (call_args sig_CDM false pos kw) in CDM_body e a.

(** cdm.py 230-284 *)
Definition CDMCorrelatedStructure_body (e : penv) (a : args) : M setup :=
  let kc := arg a "kwargs_cosmo" in
  let lens_cosmo := VLensCosmo (arg a "z_lens") (arg a "z_source") kc in
  let cone := arg a "cone_opening_angle_arcsec" in
  let geometry := VGeometry (arg a "z_lens") (arg a "z_source") kc cone (arg a "geometry_type") in
  let! _ := set_item (arg a "kwargs_concentration_model") "cosmo" (VAstropy kc) in
  let! k := contents (arg a "kwargs_concentration_model") in
  let! m := lift (preset_concentration_models (arg a "concentration_model") k) in
  let! mc := lift (construct (fst m) (snd m)) in
  let! _ := set_item (arg a "kwargs_truncation_model") "lens_cosmo" lens_cosmo in
  let! tr := truncation_field (arg a "truncation_model") (arg a "kwargs_truncation_model") in
  ret {| su_populations := ["TWO_HALO"]; su_mass_functions := [MShethTormen];
         su_mass_kwargs := [[("log_mlow", arg a "log_mlow"); ("log_mhigh", arg a "log_mhigh");
                             ("LOS_normalization", arg a "LOS_normalization"); ("m_pivot", m_pivot8);
                             ("delta_power_law_index", arg a "delta_power_law_index"); ("log_m_host", arg a "log_m_host")]];
         su_spatial := [SLensConeUniform]; su_spatial_kwargs := [[("cone_opening_angle", cone); ("geometry", geometry)]];
         su_geometry := geometry; su_mdef_subhalos := VStr "TNFW"; su_mdef_field := VStr "TNFW";
         su_truncation_subhalos := tr; su_concentration_subhalos := mc; su_truncation_field := tr; su_concentration_field := mc;
         su_density_profile := VLit []; su_lazar := VBool true; su_boost := arg a "scale_2halo_boost_factor";
         su_spacing := VNone; su_infall := None; su_post := post_sis (arg a "mass_threshold_sis") (VStr "GNFW") |}.
Definition CDMCorrelatedStructure (e : penv) (pos : list val) (kw : dict) : M setup :=
  let! a := lift (call_args sig_CDMCorrelatedStructure false pos kw) in CDMCorrelatedStructure_body e a.

(** cdm.py 355-485: two mass bins, 10^6 - 10^8 and 10^8 - 10^10.7 *)
Definition CDMBinned_body (e : penv) (a : args) : M setup :=
  let kc := arg a "kwargs_cosmo" in
  let z_lens := arg a "z_lens" in
  let log_m_host := arg a "log_m_host" in
  let cone := arg a "cone_opening_angle_arcsec" in
  let lens_cosmo := VLensCosmo z_lens (arg a "z_source") kc in
  let geometry := VGeometry z_lens (arg a "z_source") kc cone (arg a "geometry_type") in
  let! infall := infall_step e z_lens (arg a "infall_redshift_model") log_m_host (arg a "kwargs_infall_model") in
  let profile := arg a "halo_mass_profile" in
  if negb (one_of profile ["NFW"; "TNFW"]) then raise EException else
  let! nlow := lift (pow10v (arg a "log10_mc_low")) in
  let! nhigh := lift (pow10v (arg a "log10_mc_high")) in
  let bins := VList [VList [VNum 6; VNum 8]; VList [VNum 8; VNum 10.7]] in
  let k := [("cosmo", VAstropy kc); ("normalization_list", VList [nlow; nhigh]);
            ("beta_list", VList [arg a "beta"; arg a "beta"]); ("zeta_list", VList [arg a "zeta"; arg a "zeta"]);
            ("redshift_evolution", VStr "RHO_CRIT"); ("log10_mass_bins", bins)] in
  let! ms := lift (preset_concentration_models (arg a "concentration_model_subhalos") k) in
  let! mc_sub := lift (construct (fst ms) (dset "scatter_dex" (arg a "concentration_scatter_dex") (snd ms))) in
  let! mf := lift (preset_concentration_models (arg a "concentration_model_fieldhalos") k) in
  let! mc_field := lift (construct (fst mf) (dset "scatter_dex" (arg a "concentration_scatter_dex") (snd mf))) in
  let! _ := set_item (arg a "kwargs_truncation_model_subhalos") "lens_cosmo" lens_cosmo in
  let! _ := set_item (arg a "kwargs_truncation_model_fieldhalos") "lens_cosmo" lens_cosmo in
  let! tr_sub := truncation_subhalos (arg a "truncation_model_subhalos") (arg a "kwargs_truncation_model_subhalos") (arg a "c_host") in
  let! tr_field := truncation_field (arg a "truncation_model_fieldhalos") (arg a "kwargs_truncation_model_fieldhalos") in
  let! sigma_sub := lift (if is_none (arg a "log10_sigma_sub") then num (arg a "sigma_sub")
                          else do x <- num (arg a "log10_sigma_sub"); Ok (Rpower 10 x)) in
  let! slow := lift (num (arg a "scale_mass_function_low")) in
  let! shigh := lift (num (arg a "scale_mass_function_high")) in
  let! los := lift (num (arg a "LOS_normalization")) in
  let! c := lift (num cone) in
  let subhalos lo hi scale :=
    [("log_mlow", VNum lo); ("log_mhigh", VNum hi); ("sigma_sub", VNum (scale * sigma_sub)); ("m_pivot", m_pivot8);
     ("power_law_index", arg a "shmf_log_slope"); ("log_m_host", log_m_host); ("delta_power_law_index", VNum 0);
     ("host_scaling_factor", arg a "host_scaling_factor"); ("redshift_scaling_factor", arg a "redshift_scaling_factor");
     ("draw_poisson", VBool true)] in
  let field lo hi scale :=
    [("log_mlow", VNum lo); ("log_mhigh", VNum hi); ("LOS_normalization", VNum (scale * los)); ("m_pivot", m_pivot8);
     ("delta_power_law_index", VNum 0); ("log_m_host", log_m_host); ("draw_poisson", VBool true)] in
  let sub_spatial := [("rmax2d_arcsec", VNum (c / 2)); ("geometry", geometry)] in
  let los_spatial := [("cone_opening_angle", cone); ("geometry", geometry)] in
  let! gc := post_gc (arg a "add_globular_clusters") (arg a "kwargs_globular_clusters") in
  ret {| su_populations := ["SUBHALOS"; "SUBHALOS"; "LINE_OF_SIGHT"; "LINE_OF_SIGHT"; "TWO_HALO"; "TWO_HALO"];
         su_mass_functions := [MCDMPowerLaw; MCDMPowerLaw; MShethTormen; MShethTormen; MShethTormen; MShethTormen];
         su_mass_kwargs := [subhalos 6 8 slow; subhalos 8 10.7 shigh; field 6 8 slow; field 8 10.7 shigh; field 6 8 slow; field 8 10.7 shigh];
         su_spatial := [SUniform; SUniform; SLensConeUniform; SLensConeUniform; SLensConeUniform; SLensConeUniform];
         su_spatial_kwargs := [sub_spatial; sub_spatial; los_spatial; los_spatial; los_spatial; los_spatial];
         su_geometry := geometry; su_mdef_subhalos := profile; su_mdef_field := profile;
         su_truncation_subhalos := tr_sub; su_concentration_subhalos := mc_sub;
         su_truncation_field := tr_field; su_concentration_field := mc_field;
         su_density_profile := VLit []; su_lazar := VBool true; su_boost := VNum 1;
         su_spacing := arg a "lens_plane_spacing"; su_infall := infall; su_post := gc |}.
Definition CDMBinned (e : penv) (pos : list val) (kw : dict) : M setup :=
  let! a := lift (call_args sig_CDMBinned false pos kw) in CDMBinned_body e a.

(** wdm.py 88-220.  Simplification: the redundant second writes of 'cosmo', 'log_mc' and 'lens_cosmo' into the copies (lines 121-122,
    138 and 143) are not repeated. *)
Definition WDM_body (e : penv) (a : args) : M setup :=
  let kc := arg a "kwargs_cosmo" in
  let z_lens := arg a "z_lens" in
  let log_m_host := arg a "log_m_host" in
  let log_mc := arg a "log_mc" in
  let cone := arg a "cone_opening_angle_arcsec" in
  let lens_cosmo := VLensCosmo z_lens (arg a "z_source") kc in
  let geometry := VGeometry z_lens (arg a "z_source") kc cone (arg a "geometry_type") in
  let! infall := infall_step e z_lens (arg a "infall_redshift_model") log_m_host (arg a "kwargs_infall_model") in
  let! ds := contents (arg a "kwargs_mass_function_subhalos") in
  let! mfs := lift (preset_mass_function_models e (arg a "mass_function_model_subhalos") ds) in
  let! df := contents (arg a "kwargs_mass_function_fieldhalos") in
  let! mff := lift (preset_mass_function_models e (arg a "mass_function_model_fieldhalos") df) in
  let! _ := set_item (arg a "kwargs_concentration_model_subhalos") "cosmo" (VAstropy kc) in
  let! _ := set_item (arg a "kwargs_concentration_model_subhalos") "log_mc" log_mc in
  let! _ := set_item (arg a "kwargs_concentration_model_fieldhalos") "cosmo" (VAstropy kc) in
  let! _ := set_item (arg a "kwargs_concentration_model_fieldhalos") "log_mc" log_mc in
  let! ks := contents (arg a "kwargs_concentration_model_subhalos") in
  let! ms := lift (preset_concentration_models (arg a "concentration_model_subhalos") ks) in
  let! mc_sub := lift (construct (fst ms) (dset "concentration_cdm_class" (VCls KDiemerJoyce) (snd ms))) in
  let! kf := contents (arg a "kwargs_concentration_model_fieldhalos") in
  let! mf := lift (preset_concentration_models (arg a "concentration_model_fieldhalos") kf) in
  let! mc_field := lift (construct (fst mf) (dset "concentration_cdm_class" (VCls KDiemerJoyce) (snd mf))) in
  let! c_host := lift (host_concentration e (arg a "c_host") mc_field log_m_host z_lens) in
  let! _ := set_item (arg a "kwargs_truncation_model_subhalos") "lens_cosmo" lens_cosmo in
  let! _ := set_item (arg a "kwargs_truncation_model_fieldhalos") "lens_cosmo" lens_cosmo in
  let! tr_sub := truncation_subhalos (arg a "truncation_model_subhalos") (arg a "kwargs_truncation_model_subhalos") c_host in
  let! tr_field := truncation_field (arg a "truncation_model_fieldhalos") (arg a "kwargs_truncation_model_fieldhalos") in
  let two := is_true (arg a "two_halo_contribution") in
  let! mfunc := lift (amplitude (arg a "log10_dNdA") (arg a "log10_sigma_sub") (arg a "sigma_sub")
    [("log_mlow", arg a "log_mlow"); ("log_mhigh", arg a "log_mhigh"); ("m_pivot", m_pivot8);
     ("power_law_index", arg a "shmf_log_slope"); ("log_m_host", log_m_host); ("delta_power_law_index", VNum 0);
     ("host_scaling_factor", arg a "host_scaling_factor"); ("redshift_scaling_factor", arg a "redshift_scaling_factor");
     ("draw_poisson", arg a "draw_poisson")]) in
  let kwargs_subhalos := dupdate (dset "log_mc" log_mc (snd mfs)) mfunc in
  let kwargs_field := dupdate (dset "log_mc" log_mc (snd mff))
    [("log_mlow", arg a "log_mlow"); ("log_mhigh", arg a "log_mhigh"); ("LOS_normalization", arg a "LOS_normalization");
     ("m_pivot", m_pivot8); ("log_m_host", log_m_host); ("delta_power_law_index", VNum 0); ("draw_poisson", arg a "draw_poisson")] in
  let! sp := lift (subhalo_spatial (arg a "subhalo_spatial_distribution") cone log_m_host z_lens c_host (arg a "r_tidal") lens_cosmo geometry) in
  let los_spatial := [("cone_opening_angle", cone); ("geometry", geometry)] in
  let! gc := post_gc (arg a "add_globular_clusters") (arg a "kwargs_globular_clusters") in
  let! cusps := post_cusps (arg a "include_prompt_cusps") in
  ret {| su_populations := ["SUBHALOS"; "LINE_OF_SIGHT"] ++ (if two then ["TWO_HALO"] else []);
         su_mass_functions := [fst mfs; fst mff] ++ (if two then [fst mff] else []);
         su_mass_kwargs := [kwargs_subhalos; kwargs_field] ++ (if two then [kwargs_field] else []);
         su_spatial := [fst sp; SLensConeUniform; SLensConeUniform];
         su_spatial_kwargs := [snd sp; los_spatial; los_spatial];
         su_geometry := geometry; su_mdef_subhalos := arg a "mdef_subhalos"; su_mdef_field := arg a "mdef_field_halos";
         su_truncation_subhalos := tr_sub; su_concentration_subhalos := mc_sub;
         su_truncation_field := tr_field; su_concentration_field := mc_field;
         su_density_profile := arg a "kwargs_density_profile"; su_lazar := arg a "two_halo_Lazar_correction"; su_boost := VNum 1;
         su_spacing := arg a "lens_plane_spacing"; su_infall := infall;
         su_post := gc ++ post_sis (arg a "mass_threshold_sis") (VStr "GNFW") ++ cusps |}.
Definition WDM (e : penv) (pos : list val) (kw : dict) : M setup :=
  let! a := lift (call_args sig_WDM false pos kw) in WDM_body e a.

(** if key not in d.keys(): d[key] = x *)
Definition set_default (v : val) (k : string) (x : val) : M unit :=
  match v with VRef l => fun h => (if has k (h_dict h l) then h else put l (dset k x (h_dict h l)) h, Ok tt) | _ => raise EAttributeError end.
(** wdm.py 267-296 *)
Definition WDM_mixed_body (e : penv) (a : args) : M setup :=
  let s := arg a "kwargs_mass_function_subhalos" in
  let f := arg a "kwargs_mass_function_fieldhalos" in
  let! _ := set_default s "a_wdm" (VNum 0.5) in
  let! _ := set_default f "a_wdm" (VNum 0.5) in
  let! _ := set_default s "b_wdm" (VNum 0.8) in
  let! _ := set_default f "b_wdm" (VNum 0.8) in
  let! _ := set_default s "c_wdm" (VNum (- 3)) in
  let! _ := set_default f "c_wdm" (VNum (- 3)) in
  let! _ := set_item s "mixed_DM_frac" (arg a "mixed_DM_frac") in
  let! _ := set_item f "mixed_DM_frac" (arg a "mixed_DM_frac") in
  WDM e [] (map (fun k => (k, arg a k))
    ["z_lens"; "z_source"; "log_mc"; "sigma_sub"; "log_mlow"; "log_mhigh";
     "mass_function_model_subhalos"; "kwargs_mass_function_subhalos"; "mass_function_model_fieldhalos"; "kwargs_mass_function_fieldhalos";
     "concentration_model_subhalos"; "kwargs_concentration_model_subhalos"; "concentration_model_fieldhalos"; "kwargs_concentration_model_fieldhalos";
     "truncation_model_subhalos"; "kwargs_truncation_model_subhalos"; "truncation_model_fieldhalos"; "kwargs_truncation_model_fieldhalos";
     "shmf_log_slope"; "cone_opening_angle_arcsec"; "log_m_host"; "r_tidal"; "LOS_normalization"; "geometry_type"; "kwargs_cosmo";
     "kwargs_density_profile"; "include_prompt_cusps"]).
Definition WDM_mixed (e : penv) (pos : list val) (kw : dict) : M setup :=
  let! a := lift (call_args sig_WDM_mixed false pos kw) in WDM_mixed_body e a.

(** wdm.py 362-477 *)
Definition WDMGeneral_body (e : penv) (a : args) : M setup :=
  let kc := arg a "kwargs_cosmo" in
  let z_lens := arg a "z_lens" in
  let log_m_host := arg a "log_m_host" in
  let log_mc := arg a "log_mc" in
  let cone := arg a "cone_opening_angle_arcsec" in
  let lens_cosmo := VLensCosmo z_lens (arg a "z_source") kc in
  let geometry := VGeometry z_lens (arg a "z_source") kc cone (arg a "geometry_type") in
  let! infall := infall_step e z_lens (arg a "infall_redshift_model") log_m_host (arg a "kwargs_infall_model") in
  let slope := [("dlogT_dlogk", arg a "dlogT_dlogk")] in
  let! mfs := lift (preset_mass_function_models e (VStr "STUCKER_SHMF") slope) in
  let! mff := lift (preset_mass_function_models e (VStr "STUCKER") slope) in
  let! m := lift (preset_concentration_models (VStr "LUDLOW_WDM") slope) in
  let! mc := lift (construct (fst m) (dset "log_mc" log_mc (dset "cosmo" (VAstropy kc) (snd m)))) in
  let! cdm := lift (preset_concentration_models (VStr "DIEMERJOYCE19") []) in
  let! mc_cdm := lift (construct (fst cdm) [("cosmo", VAstropy kc)]) in
  let! c_host := lift (host_concentration e (arg a "c_host") mc_cdm log_m_host z_lens) in
  let! _ := set_item (arg a "kwargs_truncation_model_subhalos") "lens_cosmo" lens_cosmo in
  let! _ := set_item (arg a "kwargs_truncation_model_fieldhalos") "lens_cosmo" lens_cosmo in
  let! tr_sub := truncation_subhalos (arg a "truncation_model_subhalos") (arg a "kwargs_truncation_model_subhalos") c_host in
  let! tr_field := truncation_field (arg a "truncation_model_fieldhalos") (arg a "kwargs_truncation_model_fieldhalos") in
  let common :=
    [("log_mlow", arg a "log_mlow"); ("log_mhigh", arg a "log_mhigh"); ("m_pivot", m_pivot8);
     ("power_law_index", arg a "shmf_log_slope"); ("delta_power_law_index", VNum 0); ("log_mc", log_mc);
     ("host_scaling_factor", arg a "host_scaling_factor"); ("redshift_scaling_factor", arg a "redshift_scaling_factor")] in
  let! mfunc := lift (amplitude (arg a "log10_dNdA") (arg a "log10_sigma_sub") (arg a "sigma_sub")
    (if is_none (arg a "log10_dNdA") then common ++ [("log_m_host", log_m_host)] else common)) in
  let kwargs_field := dupdate (snd mff)
    [("log_mlow", arg a "log_mlow"); ("log_mhigh", arg a "log_mhigh"); ("LOS_normalization", arg a "LOS_normalization");
     ("m_pivot", m_pivot8); ("log_m_host", log_m_host); ("delta_power_law_index", VNum 0); ("log_mc", log_mc)] in
  let! sp := lift (subhalo_spatial (arg a "subhalo_spatial_distribution") cone log_m_host z_lens c_host (arg a "r_tidal") lens_cosmo geometry) in
  let los_spatial := [("cone_opening_angle", cone); ("geometry", geometry)] in
  let! gc := post_gc (arg a "add_globular_clusters") (arg a "kwargs_globular_clusters") in
  let! cusps := post_cusps (arg a "include_prompt_cusps") in
  ret {| su_populations := ["SUBHALOS"; "LINE_OF_SIGHT"; "TWO_HALO"];
         su_mass_functions := [fst mfs; fst mff; fst mff];
         su_mass_kwargs := [dupdate (snd mfs) mfunc; kwargs_field; kwargs_field];
         su_spatial := [fst sp; SLensConeUniform; SLensConeUniform];
         su_spatial_kwargs := [snd sp; los_spatial; los_spatial];
         su_geometry := geometry; su_mdef_subhalos := arg a "mdef_subhalos"; su_mdef_field := arg a "mdef_field_halos";
         su_truncation_subhalos := tr_sub; su_concentration_subhalos := mc;
         su_truncation_field := tr_field; su_concentration_field := mc;
         su_density_profile := arg a "kwargs_density_profile"; su_lazar := arg a "two_halo_Lazar_correction"; su_boost := VNum 1;
         su_spacing := VNone; su_infall := infall;
         su_post := gc ++ post_sis (arg a "mass_threshold_sis") (VStr "GNFW") ++ cusps |}.
Definition WDMGeneral (e : penv) (pos : list val) (kw : dict) : M setup :=
  let! a := lift (call_args sig_WDMGeneral false pos kw) in WDMGeneral_body e a.

(** uldm.py 135-221.  [flucs_args == {}] is an empty dictionary.  Simplification: the amplitude of the fluctuations is left to
    UldmModel. *)
Definition is_empty_dict (v : val) : M bool :=
  match v with
  | VRef l => fun h => (h, Ok (match h_dict h l with [] => true | _ => false end))
  | VLit d => ret (match d with [] => true | _ => false end)
  | _ => ret false
  end.
Definition ULDM_body (e : penv) (a : args) : M setup :=
  let! m := lift (num (arg a "log10_m_uldm")) in
  let m22 := Rpower 10 (m + 22) in
  let log_m0 := log10 (1.6 * 10 ^ 10 * Rpower m22 (- (4 / 3))) in
  let! lo := lift (num (arg a "log_mlow")) in
  let log_m_min := pe_min_halo_mass e m (VAstropy (arg a "kwargs_cosmo")) lo in
  let density := VLit [("log10_m_uldm", arg a "log10_m_uldm"); ("scale_nfw", VBool true); ("uldm_plaw", arg a "uldm_plaw")] in
  let same k := (k, arg a k) in
  let! s := WDM e []
    [same "z_lens"; same "z_source"; ("log_mc", VNum log_m0); same "sigma_sub"; same "log10_sigma_sub"; same "log10_dNdA";
     ("log_mlow", VNum log_m_min); same "log_mhigh"; same "mass_function_model_subhalos"; same "kwargs_mass_function_subhalos";
     same "mass_function_model_fieldhalos"; same "kwargs_mass_function_fieldhalos";
     same "concentration_model_subhalos"; same "kwargs_concentration_model_subhalos";
     same "concentration_model_fieldhalos"; same "kwargs_concentration_model_fieldhalos";
     same "truncation_model_subhalos"; same "kwargs_truncation_model_subhalos";
     same "truncation_model_fieldhalos"; same "kwargs_truncation_model_fieldhalos";
     same "shmf_log_slope"; same "cone_opening_angle_arcsec"; same "log_m_host"; same "r_tidal"; same "LOS_normalization";
     same "geometry_type"; same "kwargs_cosmo"; ("mdef_subhalos", arg a "mdef_halos"); ("mdef_field_halos", arg a "mdef_halos");
     ("kwargs_density_profile", density)] in
  if truthy (arg a "flucs") then
    let! empty := is_empty_dict (arg a "flucs_args") in
    if empty then raise EException else ret (add_post [PFluctuations (arg a "flucs_shape") (arg a "flucs_args")] s)
  else ret s.
Definition ULDM (e : penv) (pos : list val) (kw : dict) : M setup :=
  let! a := lift (call_args sig_ULDM false pos kw) in ULDM_body e a.

(** sidm.py 82-100: 36 positional arguments.  [extra] are the keywords of the catch-all. *)
Definition SIDM_core_collapse_body (e : penv) (a : args) (extra : dict) : M setup :=
  let! s := CDM e
    [arg a "z_lens"; arg a "z_source"; arg a "sigma_sub"; arg a "log_mlow"; arg a "log_mhigh"; arg a "log10_sigma_sub"; arg a "log10_dNdA";
     arg a "concentration_model_subhalos"; arg a "kwargs_concentration_model_subhalos";
     arg a "concentration_model_fieldhalos"; arg a "kwargs_concentration_model_fieldhalos";
     arg a "truncation_model_subhalos"; arg a "kwargs_truncation_model_subhalos";
     arg a "truncation_model_fieldhalos"; arg a "kwargs_truncation_model_fieldhalos";
     arg a "infall_redshift_model"; arg a "kwargs_infall_model"; VStr "UNIFORM";
     arg a "shmf_log_slope"; arg a "cone_opening_angle_arcsec"; arg a "log_m_host"; arg a "r_tidal";
     arg a "LOS_normalization"; VBool true; VNum 0; arg a "geometry_type"; arg a "kwargs_cosmo"; arg a "host_scaling_factor";
     arg a "redshift_scaling_factor"; arg a "two_halo_Lazar_correction"; arg a "draw_poisson"; arg a "c_host";
     arg a "add_globular_clusters"; arg a "kwargs_globular_clusters"; arg a "mass_threshold_sis"; arg a "galaxy_model"] [] in
  ret (add_post [PCoreCollapse (arg a "mass_ranges_subhalos") (arg a "mass_ranges_field_halos") (arg a "probabilities_subhalos")
                   (arg a "probabilities_field_halos") (arg a "collapsed_halo_profile") extra] s).
Definition SIDM_core_collapse (e : penv) (pos : list val) (kw : dict) : M setup :=
  let! a := lift (call_args sig_SIDM_core_collapse true pos kw) in
  SIDM_core_collapse_body e a (filter (fun p => negb (mem (fst p) (keys sig_SIDM_core_collapse))) kw).

(** sidm.py 162-183: 27 positional arguments *)
Definition SIDM_parametric_body (e : penv) (a : args) : M setup :=
  let! s := CDM e
    [arg a "z_lens"; arg a "z_source"; arg a "sigma_sub"; arg a "log_mlow"; arg a "log_mhigh"; arg a "log10_sigma_sub"; arg a "log10_dNdA";
     arg a "concentration_model_subhalos"; arg a "kwargs_concentration_model_subhalos";
     arg a "concentration_model_fieldhalos"; arg a "kwargs_concentration_model_fieldhalos";
     arg a "truncation_model_subhalos"; arg a "kwargs_truncation_model_subhalos";
     arg a "truncation_model_fieldhalos"; arg a "kwargs_truncation_model_fieldhalos";
     arg a "infall_redshift_model"; arg a "kwargs_infall_model"; VStr "UNIFORM";
     arg a "shmf_log_slope"; arg a "cone_opening_angle_arcsec"; arg a "log_m_host"; arg a "r_tidal";
     arg a "LOS_normalization"; VBool true; VNum 0; arg a "geometry_type"; arg a "kwargs_cosmo"] [] in
  let! gc := post_gc (arg a "add_globular_clusters") (arg a "kwargs_globular_clusters") in
  ret (add_post (PCrossSection (arg a "log10_mass_ranges") (arg a "log10_effective_cross_section_list") (arg a "log10_subhalo_time_scaling")
                   (arg a "evolving_SIDM_profile") (arg a "x_core_halo") :: gc) s).
Definition SIDM_parametric (e : penv) (pos : list val) (kw : dict) : M setup :=
  let! a := lift (call_args sig_SIDM_parametric false pos kw) in SIDM_parametric_body e a.

(** sidm.py 204-218: 31 positional arguments *)
Definition SIDM_parametric_fixedbins_body (e : penv) (a : args) : M setup :=
  let! lo := lift (num (arg a "log_mlow")) in
  if Rltb 8 lo then raise EException else
  SIDM_parametric e
    [arg a "z_lens"; arg a "z_source"; VList [VList [arg a "log_mlow"; VNum 8]; VList [VNum 8; arg a "log_mhigh"]];
     VList [arg a "log10_sigma_eff_mlow_8"; arg a "log10_sigma_eff_8_mhigh"]; arg a "log10_subhalo_time_scaling";
     arg a "sigma_sub"; arg a "log10_sigma_sub"; arg a "log10_dNdA"; arg a "evolving_profile"; arg a "x_core_halo";
     arg a "log_mlow"; arg a "log_mhigh"; arg a "concentration_model_subhalos"; arg a "kwargs_concentration_model_subhalos";
     arg a "concentration_model_fieldhalos"; arg a "kwargs_concentration_model_fieldhalos";
     arg a "truncation_model_subhalos"; arg a "kwargs_truncation_model_subhalos";
     arg a "infall_redshift_model"; arg a "kwargs_infall_model"; arg a "truncation_model_fieldhalos";
     arg a "kwargs_truncation_model_fieldhalos"; arg a "shmf_log_slope"; arg a "cone_opening_angle_arcsec";
     arg a "log_m_host"; arg a "r_tidal"; arg a "LOS_normalization"; arg a "geometry_type"; arg a "kwargs_cosmo";
     arg a "add_globular_clusters"; arg a "kwargs_globular_clusters"] [].
Definition SIDM_parametric_fixedbins (e : penv) (pos : list val) (kw : dict) : M setup :=
  let! a := lift (call_args sig_SIDM_parametric_fixedbins false pos kw) in SIDM_parametric_fixedbins_body e a.

(** mbh.py 48-63 *)
Definition CDM_plus_BH_body (e : penv) (a : args) : M setup :=
  let! s := CDM e [arg a "z_lens"; arg a "z_source"; arg a "sigma_sub"; arg a "log_mlow"; arg a "log_mhigh"; arg a "log10_sigma_sub"]
    [("shmf_log_slope", arg a "shmf_log_slope"); ("cone_opening_angle_arcsec", arg a "cone_opening_angle_arcsec");
     ("log_m_host", arg a "log_m_host"); ("LOS_normalization", arg a "LOS_normalization"); ("geometry_type", arg a "geometry_type")] in
  let! f := lift (pow10v (arg a "log10_occupation_frac")) in
  let! gc := post_gc (arg a "add_globular_clusters") (arg a "kwargs_globular_clusters") in
  ret (add_post (PBlackHoles (arg a "log10_mass_ratio") f (arg a "log10_mlow_halos_subres") (arg a "log10_min_mbh") (arg a "log_mlow")
                   (arg a "log10_mass_maximum") (arg a "LOS_normalization") :: gc) s).
Definition CDM_plus_BH (e : penv) (pos : list val) (kw : dict) : M setup :=
  let! a := lift (call_args sig_CDM_plus_BH false pos kw) in CDM_plus_BH_body e a.

(** ** Presets by name *)
Inductive pfun :=
| FCDM | FWDM | FSIDM_core_collapse | FSIDM_parametric | FSIDM_parametric_fixedbins | FULDM | FWDM_mixed | FWDMGeneral
| FDMFromGalacticus | FCDM_plus_BH | FJointLOSWithEmulator | FCustom (f : val).
(** preset_models.py 10-58.  external.py defines no DMFromEmulator, so the import at line 36 fails. *)
Definition preset_model_from_name (name custom_function : val) : result pfun :=
  if is_str name "CDM" then Ok FCDM
  else if is_str name "WDM" then Ok FWDM
  else if is_str name "SIDM_core_collapse" then Ok FSIDM_core_collapse
  else if is_str name "SIDM_parametric" then Ok FSIDM_parametric
  else if is_str name "SIDM_parametric_fixedbins" then Ok FSIDM_parametric_fixedbins
  else if is_str name "ULDM" then Ok FULDM
  else if is_str name "DMEmulator" then Err EImportError
  else if is_str name "WDM_mixed" then Ok FWDM_mixed
  else if is_str name "WDMGeneral" then Ok FWDMGeneral
  else if is_str name "DMGalacticus" then Ok FDMFromGalacticus
  else if is_str name "CDM_plus_BH" then Ok FCDM_plus_BH
  else if is_str name "CUSTOM" then Ok (FCustom custom_function)
  else if is_str name "JointLOSWithEmulator" then Ok FJointLOSWithEmulator
  else Err EException.
(** Calling the function found.  Simplification: the functions that import halos (GalacticusModel) and a function of the caller are
    not run here. *)
Definition call_preset (e : penv) (f : pfun) (pos : list val) (kw : dict) : M setup :=
  match f with
  | FCDM => CDM e pos kw | FWDM => WDM e pos kw | FSIDM_core_collapse => SIDM_core_collapse e pos kw
  | FSIDM_parametric => SIDM_parametric e pos kw | FSIDM_parametric_fixedbins => SIDM_parametric_fixedbins e pos kw
  | FULDM => ULDM e pos kw | FWDM_mixed => WDM_mixed e pos kw | FWDMGeneral => WDMGeneral e pos kw
  | FCDM_plus_BH => CDM_plus_BH e pos kw
  | FDMFromGalacticus | FJointLOSWithEmulator | FCustom _ => raise ETypeError
  end.
(** external.py 90-96: the line-of-sight halos that accompany the imported subhalos *)
Definition galacticus_los (e : penv) (preset_model_los z_source cone : val) (kwargs_los : dict) : M setup :=
  let kw := dset "z_source" z_source (dset "z_lens" (VNum 0.5) (dset "cone_opening_angle_arcsec" cone (dset "sigma_sub" (VNum 0) kwargs_los))) in
  let! f := lift (preset_model_from_name preset_model_los VNone) in
  call_preset e f [] kw.
(** external.py 243-245 *)
Definition emulator_los (e : penv) (preset_model_name_LOS z_lens z_source : val) (kwargs_preset_model : dict) : M setup :=
  let! f := lift (preset_model_from_name preset_model_name_LOS VNone) in
  call_preset e f [z_lens; z_source] kwargs_preset_model.
