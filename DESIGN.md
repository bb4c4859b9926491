# Formal model of pyHalo in Rocq (Coq 8.16.1)

Source: `/repo/pyHalo` (dangilman/pyHalo at the pinned commit). The code is read as text, never run.

## 1. Shape of the development

`rocq/theories/` contains, per topic, up to four kinds of file:

* `<Topic>Model.v`  – Gallina functions that mirror the Python branch by branch. Every definition cites file and lines.
* `<Topic>Spec.v`   – small, independent specifications (plain mathematics; never uses model helpers).
* `<Topic>Proofs.v` – lemmas.
* `<Topic>Props.v`  – the property theorems, each with a `Print Assumptions`, and beside them `Example ..._nonvacuous` cases showing
  that a concrete non-trivial case meets the hypotheses. For the smaller topics the specification (a section headed
  "Specification") and the lemmas are in the same file.

Conventions

* Python floats are modelled by Coq reals `R` (exact arithmetic). Rounding, overflow, NaN/inf are NOT modelled, except that a
  division whose divisor is zero is modelled as an explicit error in the places where the property is about it.
  Explicit calls of `round(x, n)` are a parameter function.
* Python objects that are mutated and shared (halos, keyword dictionaries, module-level tables) live in explicit heaps/states.
* Exceptions are values (`result A := Ok a | Err e`).
* Random draws are explicit inputs (a list or a stream of numbers), universally quantified; their distribution is not modelled
  other than by their range (`np.random.rand` in [0,1)).
* External libraries (astropy, colossus, lenstronomy, scipy interpolation/quadrature, h5py) are section variables or
  arguments: theorems quantify over them; what is assumed of them is a hypothesis visible in the theorem.
* Where the unchanged code violates the documented behaviour, the deviation is proved as `..._refuted` with a witness and the
  positive part is proved under the hypothesis that makes it true.
* Loops whose length depends on data are structural recursions over the data or, for `while` loops, fuelled recursions whose
  theorems show that enough fuel exists (or hold for every fuel).
* Mutable histories are lists of operations; a theorem about "any history" is an induction over that list.

The theorem names carry the property: `C17_...` belongs to property C17. The suffix `_refuted` marks a proved deviation of the
code from its documentation, `_partial` (none at present unless MANIFEST.json says so) an incomplete result.


## 2. Property by property: what is modelled and how it is proved

Code: the anchors of properties.jsonl. Files: the theorem file and the model, specification and proof files it imports directly. Exact theorem names, status and the simplifications specific to a property are in MANIFEST.json. (r) marks a property for which the unchanged code is also shown to violate documented behaviour.

| Id | Property | Code modelled | Files | Proof |
|---|---|---|---|---|
| C01 | Subhalos and field halos partition a realization | single_realization.py: Realization.subhalos, Realization.field_halos | RealizationProps, RealizationModel, RealizationSpec | induction on the list, filter/permutation lemmas |
| C02 | filter keeps exactly the halos demanded by the mass/aperture rule | single_realization.py: Realization.filter, Realization.halos_at_z | RealizationProps, RealizationModel, RealizationSpec | exact membership and order, induction over planes |
| C03 | filter is idempotent and monotone | single_realization.py: Realization.filter | CutsProps, RealizationProps, RealizationModel, RealizationSpec | consequences of the exact selection rule |
| C04 | filter_subhalos never touches field halos and applies its documented cut to subhalos | single_realization.py: Realization.filter_subhalos | RealizationProps, RealizationModel, RealizationSpec | list induction |
| C05 | filter_bound_mass leaves no under-mass subhalo and keeps everything else | single_realization.py: Realization.filter_bound_mass; Halos/halo_base.py: Halo.bound_mass | RealizationProps, RealizationModel, RealizationSpec | list induction over the heap |
| C06 (r) | join is a duplicate-free union by unique tag | single_realization.py: Realization.join, Realization._tags | RealizationProps, RealizationModel, RealizationSpec | tags: NoDup and inclusion, list induction |
| C07 (r) | split_at_z partitions a realization at the redshift; the boundary halos go to the first part | single_realization.py: Realization.split_at_z | RealizationProps, RealizationModel, RealizationSpec | list induction; documented boundary refuted by a witness |
| C08 | before/at/after counts and plane queries are consistent | single_realization.py: Realization.number_of_halos_before_redshift, Realization.halos_at_z, realization_at_z | RealizationProps, RealizationModel, RealizationSpec | list induction |
| C09 | mass_at_z_exact accounts for every halo exactly once | single_realization.py: Realization.mass_at_z_exact, Realization._reset | RealizationProps, RealizationModel, RealizationSpec | sums over sorted distinct planes |
| C10 (r) | lensing_quantities returns aligned lists | single_realization.py: Realization.lensing_quantities, Realization._mass_sheet_correction | RealizationProps, RealizationModel, RealizationSpec | induction, pointwise alignment of the three lists |
| C11 | Exact mass sheets remove exactly the rendered mass, one sheet per plane, centred on the rendering volume | single_realization.py: Realization._mass_sheet_correction | RealizationProps, RealizationProps2, RealizationModel, RealizationSpec | sums over planes, list induction |
| C12 | A shifted realization cannot be shifted again | single_realization.py: Realization.shift_background_to_source | RealizationProps, RealizationModel, RealizationSpec | invariant of the shifted flag over histories |
| C13 (r) | The shift moves each free halo exactly along the ray and drops foreground ones | single_realization.py: Realization.shift_background_to_source | RealizationProps, RealizationModel, RealizationSpec | pointwise heap equations |
| C14 (r) | The shifted status survives only some operations | single_realization.py: Realization.shift_background_to_source, Realization.filter, Realization.join, Realization.from_halos | RealizationProps, RealizationModel, RealizationSpec | induction over histories, refutation by witness |
| C15 | Shifting has side effects on the realization it was called on | single_realization.py: Realization.shift_background_to_source, Realization._reset | RealizationProps, RealizationModel, RealizationSpec | heap equations |
| C16 (r) | Realization equality is tag inclusion | single_realization.py: Realization.__eq__ | RealizationProps, RealizationModel, RealizationSpec | set inclusion |
| C17 (r) | Halo model loading: supported mass definitions, and the model/truncation class used | single_realization.py: Realization._load_halo_model; pyhalo.py: pyHalo._create_realization | LoaderProps, LoaderModel, LoaderSpec | case analysis over the mass-definition strings |
| C18 (r) | rescale_normalization: at most one un-forced logged rescaling | Halos/halo_base.py: Halo.rescale_normalization | HaloStateProps, HaloStateModel, HaloStateSpec | induction over call lists |
| C19 (r) | TNFW lensing and physical parameters do not depend on the query history | Halos/HaloModels/TNFW.py: TNFWFieldHalo.lenstronomy_params, TNFWFieldHalo.mass_3d; Halos/tidal_truncation.py | HaloStateProps, KeeleyTableProps, HaloStateModel, HaloStateSpec | invariant over all read histories |
| C20 (r) | Infall redshift and concentration are sampled at most once | Halos/halo_base.py: Halo.z_infall, Halo.set_infall_redshift, Halo.z_eval; Halos/HaloModels/TNFW.py: TNFWFieldHalo.c | HaloStateProps, HaloStateModel, HaloStateSpec | invariant over all histories |
| C21 (r) | Lensing keywords cached before a shift are stale afterwards | Halos/HaloModels/TNFW.py: TNFWFieldHalo.lenstronomy_params; single_realization.py: Realization.shift_background_to_source | HaloStateProps, HaloStateModel, HaloStateSpec | invariant over all histories |
| C22 | TNFW logarithmic slope formula is the derivative of the density | Halos/HaloModels/TNFW.py: TNFWFieldHalo.log_profile_slope; Halos/tnfw_halo_util.py: tnfw_density_profile | TnfwProps, TnfwModel, TnfwSpec | derivative computed in Coquelicot |
| C23 (r) | log_derivative_inverse inverts the slope | Halos/HaloModels/TNFW.py: TNFWFieldHalo.log_derivative_inverse; Halos/tnfw_halo_util.py: cubic_real_roots | TnfwProps, TnfwModel, TnfwSpec | root of the cubic, uniqueness by monotonicity |
| C24 (r) | cubic_real_roots returns exactly the real roots | Halos/tnfw_halo_util.py: cubic_real_roots | TnfwProps, TnfwModel, TnfwSpec | Cardano and Viete identities over R |
| C25 | TNFW bound-mass fraction is the exact mass integral | Halos/HaloModels/TNFWemulator.py: tnfw_mass_fraction; Halos/HaloModels/TNFW.py: TNFWSubhalo.bound_mass | TnfwProps, TnfwModel, TnfwSpec | fundamental theorem of calculus |
| C26 | Power-law sampling stays in range and follows the mass function | Rendering/MassFunctions/mass_function_base.py: _PowerLawBase.draw | MassFnProps, MassFnModel, MassFnSpec | algebra of the inverse cumulative function, mean value bounds |
| C27 (r) | n_mean and first_moment are the moments of the mass function | Rendering/MassFunctions/util.py: integrate_power_law_analytic; Rendering/MassFunctions/mass_function_base.py: _PowerLawBase.__init__ | MassFnProps, MassFnModel, MassFnSpec | fundamental theorem of calculus, sign cases |
| C28 | WDM suppression lies in (0,1], increases with mass and the draw is a thinning | Rendering/MassFunctions/mass_function_base.py: WDMPowerLaw._turnover, MixedWDMPowerLaw._turnover, _PowerLawTurnoverBase.draw | MassFnProps, MassFnModel, MassFnSpec | monotonicity, induction over the draws |
| C29 | Tilting the mass function pivots about the pivot mass | Rendering/MassFunctions/density_peaks.py; Rendering/subhalos.py: normalization_sigmasub, host_scaling_function | MassFnProps, MassFnModel, MassFnSpec | least squares algebra |
| C30 (r) | Delta-function mass function conserves mass in the mean | Rendering/MassFunctions/delta_function.py; realization_extensions.py: RealizationExtensions.add_primordial_black_holes | DeltaMeanProps, MassFnProps, MassFnModel, MassFnSpec | algebra, witness for the first moment |
| C31 (r) | Rendered positions lie inside the rendering disc | Rendering/SpatialDistributions/uniform.py | SpaceProps, Interp, MassFnModel, SpaceModel, SpaceSpec | analysis of the acceptance loop and radii |
| C32 (r) | Lens-cone geometry: opening shrinks linearly to the source | Cosmology/geometry.py | GeometryProps, Interp, MassFnModel, MassFnSpec, SpaceModel, SpaceSpec | piecewise algebra, monotonicity |
| C33 (r) | Cosmology distance caches are transparent | Cosmology/cosmology.py | SpaceArrayProps, SpaceProps, SpaceProps2, Interp, MassFnModel, SpaceModel, SpaceSpec, InterpError | node exactness, invariant over query histories |
| C34 (r) | Lens planes are ordered, contain the main lens plane and tile the line of sight | utilities.py: generate_lens_plane_redshifts | SpaceProps, Interp, MassFnModel, SpaceModel, SpaceSpec | induction over the grid, real arithmetic |
| C35 (r) | Rendering returns aligned per-halo arrays with correct redshifts and flags | Rendering/halo_population.py; Rendering/line_of_sight.py; Rendering/subhalos.py; Rendering/two_halo.py | RenderProps, RealizationSpec, MassFnModel, SpaceModel, RenderModel, RenderSpec | induction over planes and populations |
| C36 (r) | Convergence sheets of rendering classes are aligned, negative and limited to the redshift range | Rendering/line_of_sight.py: LineOfSight.convergence_sheet_correction; Rendering/subhalos.py: Subhalos.convergence_sheet_correction | RenderProps, RealizationSpec, MassFnModel, SpaceModel, RenderModel, RenderSpec | induction over planes |
| C37 (r) | Correlated structure rendering returns positions of the wrong objects | Rendering/correlated_structure.py: CorrelatedStructure.render | CorrMapProps, CorrProps, MassFnModel, SpaceModel, RenderModel, MassFnSpec, RenderSpec | list lengths, witnesses |
| C38 (r) | SIDM conversion preserves halo identity and order | realization_extensions.py: RealizationExtensions.toSIDM_from_cross_section, RealizationExtensions.toSIDM_single_halo | ExtProps, MassFnModel, MassFnSpec, ExtModel, ExtSpec | list induction over the heap |
| C39 | Core collapse by mass selects only TNFW halos in a bin with u <= probability | realization_extensions.py: RealizationExtensions.core_collapse_by_mass | ExtProps2, MassFnModel, MassFnSpec, ExtModel, ExtSpec | list induction over halos and draws |
| C40 (r) | add_core_collapsed_halos changes exactly the listed halos | realization_extensions.py: RealizationExtensions.add_core_collapsed_halos; Halos/halo_base.py: Halo.update_args | ExtProps2, MassFnModel, MassFnSpec, ExtModel, ExtSpec | list induction on indices |
| C41 (r) | add_cored_halos respects the index list only for some profiles | realization_extensions.py: RealizationExtensions.add_cored_halos | ExtProps2, MassFnModel, MassFnSpec, ExtModel, ExtSpec | list induction, witness |
| C42 (r) | SIS injection replaces exactly the massive halos | realization_extensions.py: RealizationExtensions.SIS_injection; Halos/HaloModels/sis.py | ExtProps2, MassFnModel, MassFnSpec, ExtModel, ExtSpec | list induction |
| C43 (r) | Black-hole population: mass limits | realization_extensions.py: RealizationExtensions.add_black_holes | PopProps, MassFnModel, MassFnSpec, SpaceModel, SpaceSpec, RealizationModel, RealizationSpec, RenderModel, PopModel, PopSpec | list induction, real bounds |
| C44 (r) | ULDM fluctuations: number, placement and rescaling | realization_extensions.py: _get_fluctuation_halos | PopProps, MassFnModel, MassFnSpec, SpaceModel, SpaceSpec, RealizationModel, RealizationSpec, RenderModel, PopModel, PopSpec | list induction over draws |
| C45 (r) | Sampled infall redshifts are physical | Halos/accretion.py | InfallProps, MassFnModel, Interp, InfallModel, InfallSpec | monotone inverse sampling |
| C46 (r) | Infall model set-up resolves host mass keywords and mutates the caller's dictionary | Halos/lens_cosmo.py: LensCosmo.setup_infall_model; PresetModels/cdm.py | InfallProps, MassFnModel, Interp, InfallModel, InfallSpec | dictionary state machine |
| C47 (r) | Concentrations never fall below the floor | Halos/concentration.py | ConcProps, MassFnModel, Interp, ConcModel, ConcSpec | case analysis over all models |
| C48 (r) | Concentration interpolation table grows monotonically and always covers the query | Halos/concentration.py | ConcProps, ConcProps2, MassFnModel, Interp, ConcModel, ConcSpec, InterpError | loop invariant and termination measure |
| C49 (r) | Default keyword dictionaries of WDM concentration classes leak between instances | Halos/concentration.py; concentration_models.py | ConcProps, MassFnModel, Interp, ConcModel, ConcSpec | heap of dictionaries, induction over constructions |
| C50 (r) | Binned concentrations cover the declared mass range | Halos/concentration.py: BinnedHaloMass | ConcProps, MassFnModel, Interp, ConcModel, ConcSpec | case analysis on bin edges |
| C51 (r) | Bound masses from the Galacticus mass-loss model never exceed infall mass | Halos/galacticus_truncation/interp_mass_loss.py; Halos/batch_halo_util.py | MassLossProps, Interp, MassFnModel, InfallModel, InfallSpec, MassLossModel, MassLossSpec, HaloStateModel | bounds of the sampled exponent |
| C52 (r) | Tidal transfer function stays in (0,1] | Halos/galacticus_truncation/transfer_function_density_profile.py: _f_t_Du_2024 | TidalProps, MassFnModel, InfallModel, TidalModel, TidalSpec | monotonicity, sign analysis |
| C53 (r) | Enclosed-mass closed forms are integrals of the density | Halos/galacticus_truncation/transfer_function_density_profile.py | TidalProps, MassFnModel, InfallModel, TidalModel, TidalSpec | derivatives and fundamental theorem of calculus |
| C54 (r) | Truncation radius table only grows and covers the query | Halos/galacticus_truncation/transfer_function_density_profile.py: _Truncation_Radius | TidalProps, MassFnModel, InfallModel, TidalModel, TidalSpec | loop invariant |
| C55 | NFW normalisation is self-consistent | Halos/lens_cosmo.py: LensCosmo.NFW_params_physical | NfwProps, TnfwSpec, NfwModel, NfwSpec | algebra with the exact NFW integral |
| C56 (r) | Parametric SIDM evolution keeps radii positive and ordered | Halos/HaloModels/NFW_core_trunc.py: evolve_profile | SidmProps, MassFnModel, NfwModel, NfwSpec, SidmModel | real bounds on the fitting polynomials |
| C57 (r) | Composite core-collapsed profile conserves both mass constraints | Halos/HaloModels/core_collapsed_halo.py; Halos/HaloModels/NFW_core_trunc.py | CompositeProps, NfwModel, NfwSpec, SidmModel, CompositeModel | linear system solution |
| C58 (r) | Lensing keywords of the black-hole core-collapsed halo depend on query order | Halos/HaloModels/core_collapsed_halo.py: CoreCollapsedHaloBH.lenstronomy_params_split | CompositeProps, NfwModel, NfwSpec, SidmModel, CompositeModel | state machine, witness |
| C59 (r) | Generalised NFW halos match the NFW mass although they share a dictionary | Halos/HaloModels/generalized_nfw.py: _GeneralNFWBase._density_norm; single_realization.py: Realization._load_halo_model | ProfileProps, TnfwSpec, NfwModel, NfwSpec, SidmModel, CompositeModel, ProfileModel | heap of dictionaries, algebra |
| C60 (r) | Pseudo-Jaffe normalisation reproduces the halo mass | Halos/HaloModels/PsuedoJaffe.py | JaffeProps, TnfwSpec, NfwModel, NfwSpec, SidmModel, CompositeModel, ProfileModel | fundamental theorem of calculus |
| C61 (r) | Globular cluster and ULDM normalisations | Halos/HaloModels/globular_cluster.py; Halos/HaloModels/ULDM.py | PopProps2, UldmProps, MassFnModel, MassFnSpec, SpaceModel, SpaceSpec, RealizationModel, RealizationSpec, RenderModel, PopModel, PopSpec, TnfwSpec, NfwModel, NfwSpec, SidmModel, CompositeModel, ProfileModel | algebra |
| C62 | Stucker parameters invert the suppression function | Rendering/MassFunctions/stucker.py | MassFnProps, MassFnModel, MassFnSpec | algebra of exponents |
| C63 (r) | Every Galacticus node is attributed to its merger tree | Halos/galacticus_util/galacticus_util.py: GalacticusUtil.hdf5_read_custom_nodedata | GalacticusProps, RealizationSpec, MassFnModel, GalacticusModel | induction over index ranges |
| C64 (r) | Node filters are complementary and applied consistently | Halos/galacticus_util/galacticus_filter.py | GalacticusProps2, RealizationSpec, MassFnModel, TnfwSpec, NfwModel, NfwSpec, GalacticusModel | boolean algebra over node lists |
| C65 | Galacticus import keeps exactly the requested subhalos with their properties | PresetModels/external.py: DMFromGalacticus; Halos/HaloModels/TNFWFromParams.py | GalacticusProps2, RealizationSpec, MassFnModel, TnfwSpec, NfwModel, NfwSpec, GalacticusModel | list induction, linear algebra in R^3 |
| C66 (r) | Preset names resolve | preset_models.py: preset_model_from_name; concentration_models.py: preset_concentration_models; truncation_models.py: truncation_models; mass_function_models.py: preset_mass_function_models; PresetModels/cdm.py: CDM; PresetModels/wdm.py: WDM; PresetModels/uldm.py: ULDM | PresetProps2, MassFnModel, InfallModel, PresetModel | case analysis over names |
| C67 (r) | Preset set-up: amplitude precedence, slope tilt and keyword isolation | PresetModels/cdm.py: CDM; PresetModels/wdm.py: WDM; mass_function_models.py: preset_mass_function_models | PresetProps, MassFnModel, InfallModel, PresetModel | symbolic execution, case analysis |
| C68 (r) | Two-halo population is a boosted line-of-sight population at the lens redshift | Rendering/two_halo.py: TwoHalo; Cosmology/geometry.py; utilities.py | TwoHaloProps, MassFnModel, MassFnSpec, SpaceModel, RenderModel, RenderSpec | induction over planes, integral of the boost |
| C69 (r) | add_correlated_structure rescales exactly the halos near the image paths | realization_extensions.py: RealizationExtensions.add_correlated_structure; Rendering/correlated_structure.py | CorrProps, MassFnModel, MassFnSpec, SpaceModel, RenderModel, RenderSpec | induction over planes |
| C70 | Globular clusters populate the requested centres and nothing else | realization_extensions.py: RealizationExtensions.add_globular_clusters; Halos/HaloModels/globular_cluster.py | PopProps2, MassFnModel, MassFnSpec, SpaceModel, SpaceSpec, RealizationModel, RealizationSpec, RenderModel, PopModel, PopSpec | list induction |
| C71 (r) | Primordial black holes: smooth and clustered parts | realization_extensions.py: RealizationExtensions.add_primordial_black_holes | PopProps2, MassFnModel, MassFnSpec, SpaceModel, SpaceSpec, RealizationModel, RealizationSpec, RenderModel, PopModel, PopSpec | list induction |
| C72 | Map sampling follows the map | Rendering/SpatialDistributions/correlated.py: Correlated2D.draw | PopProps2, MassFnModel, MassFnSpec, SpaceModel, SpaceSpec, RealizationModel, RealizationSpec, RenderModel, PopModel, PopSpec | inverse sampling of a discrete distribution |
| C73 | Batch evaluation of concentrations equals the halo-by-halo evaluation | Halos/batch_halo_util.py: batch_nfw_concentration, precompute_concentrations | ConcProps, MassFnModel, Interp, ConcModel, ConcSpec | pointwise equality of list and scalar code |
| C74 | Lensing angles and critical densities agree with the mass model | Halos/lens_cosmo.py: nfw_physical2angle, nfw_physical2angle_fromNFWparams, get_sigma_crit_lensing, sigma_crit_mass, point_mass_factor_z, thetaE_from_sigma | NfwProps, TnfwSpec, NfwModel, NfwSpec | algebra, improper integral of the SIS |
| C75 | Half-mode and thermal relic masses are inverse to each other | Halos/lens_cosmo.py: mthermal_to_halfmode, halfmode_to_thermal, mhm_to_fsl | NfwProps, TnfwSpec, NfwModel, NfwSpec | algebra of powers |
| C76 (r) | Peak velocity and dynamical time of an NFW halo | Halos/lens_cosmo.py: nfw_vmax, halo_dynamical_time | NfwProps, TnfwSpec, NfwModel, NfwSpec | monotonicity, explicit root brackets |
| C77 | The SIDM clock | Halos/lens_cosmo.py: sidm_halo_effective_age, sidm_collapse_timescale, mean_free_path; Cosmology/cosmology.py: halo_age | NfwProps, TnfwSpec, NfwModel, NfwSpec | algebra, monotonicity |
| C78 | Cored power-law halos match the NFW mass | Halos/HaloModels/powerlaw.py: PowerLawSubhalo.lenstronomy_params | JaffeProps, TnfwSpec, NfwModel, NfwSpec, SidmModel, CompositeModel, ProfileModel | algebra with the mass integral |
| C79 | Emulator halos are NFW halos of their infall mass | PresetModels/external.py: DMSubhalosFromEmulator; Halos/lens_cosmo.py: LensCosmo.NFW_params_physical | GalacticusProps2, RealizationSpec, MassFnModel, TnfwSpec, NfwModel, NfwSpec, GalacticusModel | algebra |
| C80 (r) | Line-of-sight halos accompanying imported subhalos contain no subhalos | PresetModels/external.py: DMFromGalacticus, JointLOSWithEmulator; preset_models.py: preset_model_from_name | PresetProps4, MassFnModel, InfallModel, PresetModel | list induction |
| C81 (r) | Preset calls do not influence later preset calls through default arguments | PresetModels/cdm.py; PresetModels/wdm.py; PresetModels/sidm.py; PresetModels/uldm.py; PresetModels/mbh.py; Halos/lens_cosmo.py: LensCosmo.setup_infall_model | PresetProps5, MassFnModel, InfallModel, PresetModel | frame lemma, induction over call histories |
| C82 | Presets that build on CDM and WDM pass their arguments through | PresetModels/sidm.py; PresetModels/mbh.py; PresetModels/wdm.py: WDM_mixed; PresetModels/uldm.py: ULDM | PresetProps3, MassFnModel, InfallModel, PresetModel | symbolic execution |
| C83 | Every population is rendered in the volume and mass range asked for | PresetModels/cdm.py: CDM; PresetModels/wdm.py: WDM, WDMGeneral; pyhalo.py: pyHalo.render | PresetProps3, MassFnModel, InfallModel, PresetModel | symbolic execution, case analysis |
| C84 | Binned presets cover the mass range once | PresetModels/cdm.py: CDMBinned; PresetModels/sidm.py: SIDM_parametric_fixedbins | PresetProps4, MassFnModel, InfallModel, PresetModel | sums over bins |
| C85 (r) | Warming the caches of a realization in one batch changes no answer | Halos/batch_halo_util.py: precompute_realization, precompute_tnfw_subhalos, precompute_tnfw_field_halos, precompute_infall_times, precompute_concentrations, precompute_nfw_params, precompute_tnfw_bound_masses; Halos/HaloModels/TNFW.py: TNFWSubhalo, TNFWFieldHalo; Halos/halo_base.py: Halo | BatchProps, HaloStateModel, HaloStateSpec, BatchModel, BatchSpec | induction over halos, cache invariants |
| C86 (r) | Overdensity and splashback truncation radii enclose the stated density | Halos/tidal_truncation.py: TruncationRN, TruncationSplashBack; Halos/batch_halo_util.py: vectorised truncation; Halos/lens_cosmo.py: rN_M_nfw_comoving, NFW_params_physical | DirectProps, TruncProps, HaloStateModel, HaloStateSpec, DirectModel, NfwModel, NfwSpec, TruncModel, MassFnModel, MassFnSpec, TnfwSpec, Interp | algebra of the cubic, uniqueness |
| C87 (r) | The Roche truncation is the documented power law to three decimals | Halos/tidal_truncation.py: TruncationRoche | TruncProps, MassFnModel, MassFnSpec, TnfwSpec, NfwModel, NfwSpec, Interp, TruncModel | algebra, rounding error bound |
| C88 | Truncation at a multiple of the scale radius | Halos/tidal_truncation.py: TruncateMeanDensity, Multiple_RS; Halos/lens_cosmo.py: NFW_params_physical | TruncProps, MassFnModel, MassFnSpec, TnfwSpec, NfwModel, NfwSpec, Interp, TruncModel | algebra |
| C89 (r) | What a truncated halo reports about itself is consistent | Halos/HaloModels/TNFW.py: density_profile_3d, params_physical, lenstronomy_params; Halos/tidal_truncation.py: ConstantTruncationArcsec | DirectProps, HaloStateModel, HaloStateSpec, DirectModel, NfwModel, NfwSpec, TruncModel | algebra |
| C90 (r) | The two ways to compute a truncation radius agree | Halos/tidal_truncation.py: truncation_radius and truncation_radius_halo of every class | DirectProps, HaloStateModel, HaloStateSpec, DirectModel, NfwModel, NfwSpec, TruncModel | pointwise equality of the two programs |
| C91 | Two-point correlation of a convergence map is a bounded, mask-respecting covariance | realization_extensions.py: corr_kappa_with_mask; utilities.py: mask_annular | TwoPointProps, SpaceModel, TwoPointModel, TwoPointSpec | sums over pixels, Cauchy-Schwarz |
| C92 (r) | Multipoles of the two-point correlation | realization_extensions.py: xi_l, xi_l_to_Pk_l, fit_correlation_multipole | TwoPointProps2, SpaceModel, TwoPointModel, TwoPointSpec | weights of Simpson's rule, orthogonality |
| C93 (r) | Interpolated ray paths follow the traced rays | utilities.py: interpolate_ray_paths, compute_comoving_ray_path | RayProps, Interp, SpaceModel, RealizationModel, RayModel | node exactness of linear interpolation |
| C94 | Numerical logarithmic slopes of halo profiles | Halos/halo_base.py: logarithmic_profile_slope, _logarithmic_profile_slope_array; Halos/HaloModels/NFW_core_trunc.py: log_slope_2d | SlopeProps, SpaceModel, SlopeModel | secant identities, mean value theorem |
| C95 (r) | Projected masses of halos | Halos/HaloModels/TNFW.py: mass_2d; Halos/HaloModels/NFW_core_trunc.py: mass_2d; Halos/HaloModels/core_collapsed_halo.py: kappa, mass_2d | SlopeProps2, SpaceModel, SlopeModel | trapezoid error bounds, ring integrals |
| C96 | Minimum halo mass for ultra-light dark matter | utilities.py: MinHaloMassULDM | WaveProps, SpaceModel, TwoPointModel, SlopeModel, WaveModel | monotonicity of the overdensity in Om |
| C97 | Fluctuation amplitude of wave dark matter | utilities.py: de_broglie_wavelength, delta_kappa, delta_sigma, projected_density_squared, nfw_velocity_dispersion | WaveProps, SpaceModel, TwoPointModel, SlopeModel, WaveModel | bounds on integrals, algebra |
| C98 (r) | Galaxies that replace massive halos | Halos/HaloModels/sis.py: SIS, MassiveGalaxy; Halos/halo_base.py: Halo | GalaxyProps, MassFnModel, MassFnSpec, NfwModel, GalaxyModel | invariants over histories of queries, integral of the isothermal profile, witnesses for the deviations |
| C99 (r) | Views of a realization: coordinates, single halos, convergence map | single_realization.py: Realization.halo_comoving_coordinates, SingleHalo; utilities.py: multiplane_convergence | ViewProps, RealizationModel, LoaderModel, SpaceModel, ViewModel | list induction, bounds on grid indices, witnesses |
| C100 (r) | Inverse transform sampling reproduces the quantiles of the samples up to a bin | utilities.py: ITSampling, ITSampling.from_samples, ITSampling.__call__ | SampleProps, Interp, SampleModel | closed form of the histogram table, induction over the nodes, explicit counting bounds |
| C101 (r) | Rescaling and moving a halo, class by class | Halos/halo_base.py: Halo.rescale_normalization; single_realization.py: Realization.shift_background_to_source; Halos/HaloModels/NFW.py: lenstronomy_params; Halos/HaloModels/NFW_core.py: lenstronomy_params; Halos/HaloModels/TNFW.py: lenstronomy_params; Halos/HaloModels/TNFWemulator.py: lenstronomy_params; Halos/HaloModels/NFW_core_trunc.py: lenstronomy_params, Hybrid; Halos/HaloModels/sis.py: lenstronomy_params; Halos/HaloModels/PsuedoJaffe.py: lenstronomy_params; Halos/HaloModels/generalized_nfw.py: lenstronomy_params; Halos/HaloModels/powerlaw.py: lenstronomy_params; Halos/HaloModels/globular_cluster.py: lenstronomy_params; Halos/HaloModels/core_collapsed_halo.py: lenstronomy_params; Halos/HaloModels/blackhole.py: lenstronomy_params; Halos/HaloModels/ULDM.py: lenstronomy_params; Halos/HaloModels/gaussianhalo.py: lenstronomy_params | RescaleProps, RescaleModel | invariant over histories, case analysis over classes |
| C102 (r) | Imported halos keep their physical parameters until they are rescaled | Halos/HaloModels/TNFWFromParams.py: TNFWFromParams; Halos/HaloModels/TNFW.py: TNFWFieldHalo.params_physical; Halos/halo_base.py: Halo.rescale_normalization | RescaleProps, RescaleModel | invariant over query lists; induction on the stack depth |
| C103 | Truncation radii reproduce the bound mass | Halos/tnfw_halo_util.py: tau_mf_interpolation; Halos/HaloModels/TNFWemulator.py: tau_mf_interpolator, TNFWSubhaloEmulator.profile_args; Halos/tidal_truncation.py: TruncationGalacticusKeeley24.truncation_radius | TauProps, MassFnModel, MassLossModel, TnfwModel, TnfwSpec, TauModel | The mass fraction is strictly increasing in tau (C25) and decreasing in c (mean value theorem); piecewise-linear interpolation on increasing nodes is monotone and stays in its interval, hence the table is within one grid step of the exact radius. |
| C104 (r) | Cosmological parameters reach both cosmology packages | Cosmology/cosmology.py: Cosmology.__init__, _setup_astropy_cosmology, _setup_colossus_cosmology; defaults.py: CosmoDefaults; pyhalo.py: pyHalo.__init__ | SharedProps, MassFnModel, ConcModel, ConcSpec, SharedModel | case analysis over the keyword dictionaries; induction over the key lists |
| C105 (r) | Several cosmologies in one program | Cosmology/cosmology.py: _setup_colossus_cosmology; Rendering/MassFunctions/density_peaks.py: evaluate_mass_function; Halos/lens_cosmo.py: LensCosmo.twohaloterm; Halos/concentration.py: ConcentrationDiemerJoyce; utilities.py: delta_kappa, delta_sigma | SharedProps, MassFnModel, ConcModel, ConcSpec, SharedModel | a state machine with the program-wide colossus cosmology; induction over histories, invariants for the table |
| C106 | A realization from populations to halo objects | pyhalo.py: pyHalo.render, _render_masses_positions, _create_realization; Rendering/halo_population.py: HaloPopulation; single_realization.py: Realization.__init__, _load_halo_model | WholeProps, MassFnModel, SpaceModel, SpaceSpec, RenderModel, RenderSpec, LoaderModel, LoaderSpec, WholeModel | composition of C34, C35 and C17; induction over the passes |
| C107 | Every halo can be handed to the ray-tracing package | single_realization.py: Realization.lensing_quantities; Halos/HaloModels/NFW_core_trunc.py: Hybrid.lenstronomy_params; Halos/HaloModels/ULDM.py: ULDMFieldHalo.lenstronomy_params; Halos/HaloModels/core_collapsed_halo.py: CoreCollapsedHalo.lenstronomy_params | InterfaceProps, RealizationModel, RealizationSpec, InterfaceModel | case analysis over the classes, then induction over the halos, the planes and the rendering classes |
| C108 (r) | Density, mass and peak velocity of an NFW halo under rescaling | Halos/HaloModels/NFW.py: density_profile_3d, mass_3d, vmax_nfw; Halos/halo_base.py: rescale_normalization, nfw_params | NfwHaloProps, TnfwSpec, NfwModel, NfwSpec, NfwHaloModel | invariant over histories (accumulated factor, frozen velocity); mass integral from the NFW antiderivative |
| C109 (r) | Which concentration a halo uses, class by class | Halos/halo_base.py: Halo.z_eval; Halos/HaloModels/generalized_nfw.py: GeneralNFWSubhalo.profile_args; Halos/HaloModels/PsuedoJaffe.py: PJaffeFieldhalo.profile_args; Halos/HaloModels/powerlaw.py: PowerLawSubhalo.profile_args, PowerLawFieldHalo.profile_args; Halos/HaloModels/ULDM.py: ULDMFieldHalo.c | ConcClassProps, ConcClassModel | invariants over histories of the object (one draw, two draws, power law), concrete streams for the refuted parts |
| C110 (r) | Density and slope of generalised and cored NFW halos | Halos/HaloModels/generalized_nfw.py: GeneralNFWSubhalo.density_profile_3d, GeneralNFWSubhalo.log_profile_slope; Halos/HaloModels/NFW_core.py: CoreNFWHalo.lenstronomy_params, CoreNFWHalo.density_profile_3d | GcoreProps, NfwModel, NfwSpec, TnfwSpec, GcoreModel | derivative of the log density with Coquelicot, monotonicity, change of variables in the shell integral, pointwise comparison of the cored and cuspy densities under the integral |
| C111 (r) | Halos made one at a time with simple_setup | Halos/HaloModels/TNFW.py: TNFWFieldHalo.simple_setup, TNFWSubhalo.simple_setup; Halos/halo_base.py: Halo.set_infall_redshift; single_realization.py: Realization.join; concentration_models.py: preset_concentration_models | SetupProps, HaloStateModel, HaloStateSpec, SetupModel, RealizationModel | simulation: an object with assigned infall redshift and bound mass behaves as one that drew these values; invariant of the state machine; counting tags in join |
| C112 (r) | Densities that truncated halos and clusters report versus the lens models they hand out | Halos/HaloModels/TNFW.py: density_profile_3d, density_profile_3d_lenstronomy; Halos/HaloModels/globular_cluster.py: profile_args, lenstronomy_params, density_profile_3d_lenstronomy, half_mass_radius | DensProps, NfwModel, NfwSpec, TnfwSpec, DensModel, HaloStateModel, HaloStateSpec | algebra with units cancelled; invariant of the halo state machine for every query history; monotonicity of the enclosed mass for uniqueness of the half-mass radius. |
| C113 (r) | What the plotting routines draw | plotting_routines.py: plot_halo_mass_function, plot_concentration_mass_relation, plot_subhalo_mass_functon, plot_subhalo_spatial_distribution, plot_subhalo_concentration_versus_bound_mass; single_realization.py: Realization.plot | PlotProps, RealizationModel, RealizationSpec, SampleModel, PlotModel | telescoping of cumulative counts for the histograms; sorted-list argument for the median; permutation of the plane-sorted list for Realization.plot; irrationality of sqrt 2 for the radius axis. |
| C114 (r) | Subhalos are placed inside their host | Rendering/SpatialDistributions/nfw.py: ProjectedNFW.from_Mhost, ProjectedNFW.draw; Rendering/SpatialDistributions/base.py: SpatialDistributionBase; Rendering/SpatialDistributions/uniform.py: Uniform; Rendering/halo_population.py: HaloPopulation.__init__ | HostProps, Interp, SpaceModel, SpaceSpec, RenderModel, TnfwSpec, NfwModel, NfwSpec, HostModel | NFW parameters from C55; inversion of strictly increasing interpolation tables; cumulative sums as masses of shells; case analysis on classes |
| C115 (r) | Time since infall for every infall model | Halos/halo_base.py: Halo.z_infall, Halo.time_since_infall, Halo.halo_age; Cosmology/cosmology.py: Cosmology.halo_age, Cosmology._halo_age_interp; Halos/lens_cosmo.py: LensCosmo.setup_infall_model; Halos/accretion.py: InfallAtZlens, Infall0, InfallDistributionHybrid, InfallDistributionDirect, InfallDistributionGalacticus2024, InfallDistributionClusterDirect; Halos/batch_halo_util.py: precompute_infall_times, _sample_infall_redshifts | AgeProps, MassFnModel, Interp, InfallModel, SpaceModel, AgeModel | composition of the bounds on the sampled infall redshift (C45) with domain, monotonicity and bracketing of the interpolated age table; induction over the list for the vectorised version |
| C116 (r) | The Keeley 2024 mass-loss model on its shipped tables | Halos/galacticus_truncation/interp_mass_loss.py: InterpGalacticusKeeley24; Halos/galacticus_truncation/tabulated_mass_loss_Keeley24.py: _log10_mbound_over_minfall, _log10_mbound_over_minfall_scatter_dex | KeeleyProps, Interp, MassFnModel, InfallModel, MassLossModel, MassLossSpec, KeeleyModel | range facts of the shipped tables by kernel computation, lifted to the interpolant by convexity of the weights and to the extrapolated region by the sign of the last cell |
| C117 (r) | Suppression parameters from the slope of the transfer function | Rendering/MassFunctions/stucker.py; mass_function_models.py | StuckerProps, MassFnModel, MassFnSpec, StuckerModel | StuckerModel.v: beta_from_slope, the residual equations, mscales_to_abc with the solver as argument, stucker_suppression_params. Uniqueness by Cauchy's mean value theorem on ln(exp(tL)-1) and monotonicity of (1-exp(-t'x))/(1-exp(-tx)); the slope by differentiation; steepness by monotonicity of powers. |
| C118 (r) | Halos taken from an emulator's catalogue | Halos/HaloModels/TNFWemulator.py TNFWSubhaloEmulator; Halos/halo_base.py Halo.rescale_normalization, bound_mass, nfw_params | EmuHaloProps, MassFnModel, MassLossModel, TnfwModel, TnfwSpec, TauModel, NfwModel, NfwSpec, GalaxyModel, EmuHaloModel | Invariant over histories: every cached value equals the value computed afresh with the current normalisation; the units cancel by angle_units; table facts from C103. |
| C119 (r) | Bound masses, truncation radii and convergence maps as drawn | plotting_routines.py plot_subhalo_bound_mass, plot_truncation_radius_histogram, plot_multiplane_convergence | Plot2Props, RealizationModel, RealizationSpec, SampleModel, PlotModel, SpaceModel, Plot2Model | mapM succeeds iff every element does; filters as the relation kept; sums of shifted lists; closed form of the displacement of pixel centres. |
| C120 | The position of a halo changes nothing but the centre of its lens model | Halos/HaloModels/TNFW.py: TNFWFieldHalo.deflection_angle, lenstronomy_params, params_physical, mass_3d, bound_mass; Halos/halo_base.py: Halo.rescale_normalization; single_realization.py: Realization.shift_background_to_source | PlaceProps, HaloStateModel, HaloStateSpec, PlaceModel | A relation between states that ignores the position; every query is a simulation for it (monadic bind rule), so histories without their moves relate; axisymmetry gives the deflection in every direction. |
| C121 (r) | Cored and hybrid halos under any history of queries and rescalings | Halos/HaloModels/NFW_core_trunc.py: TNFWCHaloParametric.lenstronomy_params, params_physical, vmax_nfw, Hybrid.lenstronomy_params; Halos/halo_base.py: Halo.rescale_normalization, nfw_params | CoredProps, CoredModel | State machine with the cached attributes; invariant that every cached value equals the value computed from the current factor, which rescaling keeps because it deletes those caches; the peak velocity is the one cache it does not delete. |
| C122 (r) | Chains of cuts do not depend on their order and commute with join | single_realization.py: Realization.filter, filter_subhalos, filter_bound_mass, split_at_z, join | CutsProps, RealizationModel, RealizationSpec | Induction over the chain; each step uses the exact selection theorems C02, C04, C05, C07, and the join part uses C06 and distinct tags. |
| C123 (r) | What a realization reports is additive over its halos, except for the sheets of its rendering classes | single_realization.py: Realization.split_at_z, lensing_quantities, mass_at_z_exact, number_of_halos_before_redshift, number_of_halos_at_redshift, number_of_halos_after_redshift, _mass_sheet_correction | AdditiveProps, RealizationModel, RealizationSpec | A selection from permuted lists is a permutation of the selection; combined with C07-C11. The sheets depend only on the rendering classes and the centre, which both halves inherit. |
| C124 | The mean of the drawn population is what the mass function reports | Rendering/MassFunctions/mass_function_base.py: _PowerLawBase.draw, _PowerLawTurnoverBase.draw, WDMPowerLaw.draw, n_mean, first_moment; Rendering/MassFunctions/util.py: integrate_power_law_analytic, integrate_power_law_quad | MeanMassProps, MassFnModel, MassFnSpec | The sampler is differentiated and used as a change of variables in the integral; induction over the number of objects; a step function integrates to the acceptance probability; the Poisson series is shifted by one. |
| C125 | On average the convergence sheets remove exactly the mass that was rendered | Rendering/line_of_sight.py: LineOfSightNoSheet.render, LineOfSight.convergence_sheet_correction; Rendering/subhalos.py: Subhalos.render, convergence_sheet_correction; Rendering/MassFunctions/density_peaks.py: ShethTormen, ShethTormenTurnover; Rendering/MassFunctions/mass_function_base.py: draw, first_moment | BalanceProps, RealizationSpec, MassFnModel, MassFnSpec, SpaceModel, RenderModel, RenderSpec | The rendering loop sums to the draw of the one plane with that redshift; C124 gives its mean; C36 gives the sheet, and the selected sheet list has one entry at that redshift. |

## 3. Trusted base

* Coq 8.16.1's kernel, and `coqchk`, which re-checks every compiled file in vcheck. No kernel check is switched off; there are no axioms, parameters, admitted proofs, functors, module types or plugins of ours.
* The axioms of Coq's standard library that `Print Assumptions` lists (each `*Props.v` prints them for each of its theorems; the list per theorem is below). Coquelicot adds none of its own: it builds on the standard reals.
* The reading of the Python source. The model is tied to the code by the citation on each definition and by the tests against wrong programs in `seeded/LOG.jsonl`, not by extraction or execution.
* The modelled meaning of external libraries wherever a comment says so: numpy (arange, linspace, histogram, searchsorted, digitize, unique, round ...), scipy (interp1d, simpson, quad, brentq) and astropy/colossus/lenstronomy. Where a theorem needs more of them than a definition gives, the assumption is a hypothesis in the statement.

### Axioms per theorem

Full names: `ClassicalDedekindReals.sig_forall_dec`, `ClassicalDedekindReals.sig_not_dec`, `Classical_Prop.classic`, `FunctionalExtensionality.functional_extensionality_dep`. All are declared in the standard library (the first group by the definition of the real numbers).

* **no axioms (closed under the global context)** (39 theorems): C01_partition, C16_eq_is_tag_inclusion, C16_eq_refl, C16_eq_reorder, C16_eq_trans, C16_everything_equals_empty, C32_names, C32_volume_type_refuted, C37_no_planes, C37_other_mass_functions, C44_unknown_shape, C49_default_dictionary_refuted, C49_explicit, C49_presets_independent, C55_profile_must_be_set, C57_hybrid_constituent, C58_black_hole_history, C58_forms_agree, C58_history_independent, C58_query_order_refuted, C63_columns, C63_latest_output, C63_single_tree_refuted, C63_tree_of_node, C64_select_subhalo_refuted, C64_wrong_mask, C66_emulator_refuted, C66_presets, C66_presets_unknown, C66_truncation_class, C69_no_images, C100_empty, C107_classes, C109_one, C109_power_law, C109_power_law_refuted, C109_reference, C109_two, C111_concentration_names
* **ClassicalDedekindReals.sig_forall_dec** (8 theorems): C18_caches, C18_once_flag, C57_hybrid_keywords, C64_apply_filter, C101_ignored, C101_kept_until_first_rescaling, C101_own_centre, C102_rescaled_refuted
* **ClassicalDedekindReals.sig_forall_dec, FunctionalExtensionality.functional_extensionality_dep** (126 theorems): C05_filter_bound_mass, C06_join_duplicates_refuted, C06_join_union, C06_join_with_part, C07_documented_boundary_refuted, C07_split, C07_split_rejoin, C08_count_after, C08_count_at, C08_count_before, C08_counts, C08_halos_at_z, C09_mass_at_z, C09_mass_total, C10_contract_needed_refuted, C10_lensing_aligned, C11_class_sheets, C11_classes_not_specified, C11_exact_sheets, C11_exact_total, C12_no_second_shift, C13_no_halo_lost_refuted, C13_shift_effect, C14_forgotten_status_doubles, C15_original_out_of_sync, C15_original_shifts_twice, C16_eq_symmetric_refuted, C17_created_realization, C17_created_realization_total, C17_loader, C17_loader_errors, C17_mdef_subhalos_refuted, C17_same_definition, C18_rescale_normalization, C22_density, C30_delta, C30_first_moment, C30_first_moment_refuted, C30_from_redshift, C32_continuous_at_lens, C32_cylinder_and_cone, C32_double_cone_linear, C32_double_cone_scale, C33_angular_diameter_distance, C33_array_query_refuted, C33_comoving_distance, C33_halo_age, C33_history_independent, C33_kpc_per_arcsec, C33_pair_distance, C34_errors, C34_lens_plane_missing_refuted, C34_planes_general, C34_planes_tile, C34_repeated_planes_refuted, C38_requested_age, C40_collapsed_general, C40_collapsed_sidm, C40_unknown_profile, C41_cnfw, C42_injection, C42_unknown_model, C44_ring_not_uniform_refuted, C47_ludlow_refused, C47_polynomial_refused, C49_independent_refuted, C56_rescale_refuted, C57_hybrid_stale_refuted, C61_cluster_mass, C61_uldm_mass, C61_uldm_mass_refuted, C61_uldm_penalty, C61_uldm_penalty_refuted, C61_uldm_raises_iff, C64_complementary, C66_mass_function, C66_mass_function_unknown, C66_stucker, C66_truncation, C66_truncation_unknown, C72_errors, C72_map_sampling, C77_effective_age, C77_mean_free_path, C88_multiple, C93_mean, C93_paths, C93_straight, C93_terminates, C93_terminates_refuted, C95_collapsed_kappa, C99_default_macro, C99_full, C99_macro_needed, C99_map, C99_single, C99_single_default_refuted, C99_window_refuted, C100_constant, C100_defined, C100_first_bin_refuted, C100_monotone, C100_quantile, C100_range, C100_scale, C101_first_query, C101_ignored_refuted, C101_kept, C101_kept_until_rescaled, C101_moved_refuted, C101_recomputed, C101_rescaled, C102_imported, C102_replaced_refuted, C107_realization, C109_two_refuted, C111_tags_refuted, C113_plot, C115_additive, C115_from_10, C115_monotone, C116_host_refuted, C116_late, C116_range, C116_tabulated, C116_time_refuted
* **ClassicalDedekindReals.sig_forall_dec, Classical_Prop.classic** (1 theorems): C18_contributions_unique
* **ClassicalDedekindReals.sig_forall_dec, ClassicalDedekindReals.sig_not_dec, FunctionalExtensionality.functional_extensionality_dep** (57 theorems): C08_realization_at_z, C22_slope_range, C31_lens_cone_in_disc, C31_nfw_3d_radius_below_projected_refuted, C31_nfw_bounds, C31_uniform_density, C31_uniform_in_disc, C32_areas, C37_mass_in_area_refuted, C37_uniform_mass, C44_aperture, C44_aperture_each_image, C44_bound_mass_refuted, C44_ellipse, C44_ring, C44_ring_radii, C44_succeeds, C44_wrong_image_refuted, C57_hybrid_mass, C64_node_filters, C64_projected_radius, C64_projected_radius_bounds, C64_sky_plane, C64_virialized, C68_boost_bounds, C74_critical_density_units, C74_point_mass_einstein_radius, C77_collapse_time, C91_affine, C91_annulus, C91_annulus_kept, C91_bounded, C91_covariance, C91_inside, C91_mask_only, C91_zero_separation, C92_chebyshev, C92_power, C97_defined, C97_kappa, C97_scaling, C98_answered, C98_bound, C98_conserved, C98_einstein, C98_frozen, C98_helper_refuted, C98_infall, C98_infall_refuted, C98_mass, C98_move_refuted, C98_rescale, C98_rescale_refuted, C98_velocity, C110_slope_range, C114_radial_law, C114_three_dimensional
* **ClassicalDedekindReals.sig_forall_dec, ClassicalDedekindReals.sig_not_dec, Classical_Prop.classic, FunctionalExtensionality.functional_extensionality_dep** (421 theorems): C02_filter_exact, C02_filter_unknown_units, C03_filter_idempotent, C03_filter_monotone, C04_filter_subhalos, C14_at_most_once, C14_at_most_once_refuted, C14_status, C15_original_cut_uses_old_positions, C18_forced_observable, C18_order_refuted, C18_vmax_refuted, C19_bound_mass, C19_bound_mass_refuted, C19_history_independent, C19_mass_3d, C19_mass_3d_refuted, C19_rescaled_once, C20_dependent_refuted, C20_first_value, C20_sampled_once, C20_set_infall, C21_current_position, C21_position_refuted, C21_refreshed, C21_stale, C22_slope_is_log_derivative, C23_all_slopes_refuted, C23_inverse, C23_outside, C23_round_trip, C24_constant, C24_cubic, C24_linear, C24_quadratic, C24_scale_refuted, C25_bound_mass, C25_bounds, C25_integrable, C25_mass_fraction, C25_monotone, C25_util, C26_count, C26_in_range, C26_inverse_cdf, C27_additive, C27_moments, C27_nonneg, C27_reversed_refuted, C27_suppressed, C28_draw_total, C28_mixed_suppression, C28_thinning, C28_wdm_suppression, C29_field_exact, C29_field_pivot, C29_host_scaling, C29_mass_limits, C29_no_amplitude, C29_subhalo_pivot, C29_subhalo_pivot_dndA, C30_pbh, C32_cylinder_volume, C32_double_cone_volume, C32_volume_sum_drops_last_slice_refuted, C33_accuracy, C33_age_accuracy, C35_class_names_refuted, C35_equal_lengths, C35_list_lengths, C35_los_with_nfw, C35_redshifts_and_flags, C35_rendered, C35_unknown_name, C36_class_range, C36_delta_sheet_refuted, C36_los_sheets, C36_los_sign, C36_no_sheets, C36_sub_sheet, C37_alignment_refuted, C37_indices, C37_mass_budget, C37_render, C38_cross_section, C38_cross_section_refuted, C38_identity, C38_normalisation_refuted, C38_raises, C38_succeeds, C38_timescale, C39_certain, C39_selected, C39_succeeds, C40_isolation_refuted, C41_list_ignored_refuted, C42_shift_forgotten_refuted, C43_errors, C43_expected_number, C43_limits_in_halos, C43_population, C43_subresolution_refuted, C43_succeeds, C45_batch, C45_cluster, C45_direct, C45_galacticus2024, C45_galacticus2024_refuted, C45_hybrid, C45_mean_decreases, C45_milky_way, C45_milky_way_refuted, C45_physical, C46_caller_dictionary_refuted, C46_cluster, C46_default_dictionary, C46_history_refuted, C46_hybrid_direct, C46_idempotent, C46_other, C46_preset_history, C46_second_call_refuted, C46_unset, C47_below_cdm, C47_dex_refuted, C47_floor, C47_hyperbolic, C47_ludlow, C47_peak_height, C47_polynomial, C47_polynomial_refuted, C47_value, C47_zdep_refuted, C48_accuracy, C48_array, C48_between, C48_covers, C48_default, C48_exact, C48_grows, C48_history_refuted, C48_interpolates, C50_contiguous, C50_first_bin, C50_outside, C50_top_edge_refuted, C51_approx_cdm, C51_batch, C51_batch_refuted, C51_bound_mass, C51_bound_mass_pdf, C51_clamped, C51_galacticus_law, C51_keeley_refuted, C51_milky_way_law, C51_monotone, C51_reported, C51_tabulated, C51_zinfall_law, C51_zinfall_range_refuted, C52_radius_track, C52_radius_track_refuted, C52_track, C53_delta3_singular_refuted, C53_enclosed_mass, C53_peak_radius, C53_total_mass, C54_alpha_two_refuted, C54_batch, C54_bounded_mass_loops, C54_consistent, C54_delta_three_refuted, C54_inversion, C54_poisoned_refuted, C54_range_grows, C55_from_mass_redshift, C55_nfw_parameters, C55_overdensity_radius, C55_precompute, C55_unique, C55_vectorised, C56_batch, C56_batch_field, C56_batch_refuted, C56_density, C56_limits, C56_mass_conserved_evolving, C56_mass_conserved_parametric, C56_radii, C56_radii_grid, C56_vectorised, C57_black_hole_masses, C57_black_hole_refuted, C57_feasible, C57_mass_constraints, C57_raises_iff_negative, C59_any_history, C59_mass_matched, C59_target_mass, C59_target_mass_refuted, C59_two_draws, C59_two_draws_refuted, C60_central_density, C60_lens_model, C60_params_physical_refuted, C61_core_radius, C61_soliton_lens, C61_soliton_line_of_sight_refuted, C62_mscale, C62_out_of_bounds, C65_selected_subhalos, C65_user_filter, C66_CDM_concentration, C66_CDM_constant_refuted, C66_CDM_scatter_refuted, C66_CDM_truncation, C66_ULDM_default_refuted, C66_WDM_concentration, C66_WDM_default_refuted, C66_WDM_ludlow_refuted, C66_WDM_mass_functions, C66_WDM_models_refuted, C66_WDM_truncation, C66_concentration, C66_concentration_unknown, C66_cusps_refuted, C66_custom, C66_formation_history, C66_profile_checked, C67_amplitude_CDM, C67_amplitude_WDM, C67_amplitude_WDMGeneral, C67_isolation_refuted, C67_reuse_refuted, C67_tilt, C67_tilt_refuted, C67_writes, C68_errors, C68_lazar, C68_small_spacing_refuted, C68_two_halo, C69_halos, C69_points, C69_rescale_refuted, C70_errors, C70_expected_mass, C70_globular_clusters, C71_clustered, C71_clustered_masses_refuted, C71_errors, C71_radius_refuted, C71_smooth, C73_batch, C73_precompute, C73_succeeds, C74_deflection_angle, C74_deflection_from_mass, C74_isothermal_einstein_radius, C75_free_streaming, C75_half_mode_exists, C75_half_mode_inverse, C75_monotone, C76_documented_time_refuted, C76_dynamical_time, C76_peak_velocity, C78_mass_matched, C79_emulator_halo, C80_ULDM_refuted, C80_emulator_refuted, C80_galacticus_los, C80_no_subhalos, C81_direct_infall_refuted, C81_history_independent, C82_CDM_plus_BH, C82_SIDM_core_collapse, C82_SIDM_fixedbins, C82_SIDM_parametric, C82_ULDM, C82_WDM_mixed, C83_CDM, C83_WDM, C83_WDMGeneral, C83_wrappers, C84_binned, C84_fixedbins, C85_bound_masses, C85_classes_refuted, C85_error, C85_exact, C85_idempotent, C85_set_bound_mass_refuted, C85_transparent, C85_zinfall, C85_zinfall_refuted, C86_batch, C86_encloses, C86_halo, C86_monotone, C86_r200, C86_splashback, C86_splashback_matter, C86_splashback_refuted, C86_unique, C87_formula, C87_monotone, C87_positive_refuted, C87_zero, C88_concentration, C88_mean_density, C89_agrees, C89_constant, C89_constant_refuted, C89_density, C89_density_refuted, C90_refuted, C90_same, C92_fit, C92_linear, C92_monopole_constant, C92_orthogonality, C92_pairing, C92_pairing_refuted, C92_projection, C94_local, C94_nfw, C94_normalisation, C94_power_law, C94_power_law_single, C94_projected, C94_short, C94_single, C95_accuracy, C95_bounds, C95_collapsed_factor, C95_collapsed_refuted, C95_collapsed_sheet, C95_linear, C95_monotone, C95_uniform, C96_floor, C96_particle, C96_present, C96_redshift, C97_bounds, C97_dispersion_positive, C97_dispersion_scaling, C97_radius, C97_wavelength, C97_wavelength_unit, C99_coordinates, C99_coordinates_refuted, C103_cell, C103_emulator, C103_keeley, C103_keeley_limits, C103_more_concentrated, C103_more_mass, C103_node, C103_solution, C103_solution_order, C104_instance_refuted, C104_missing_keyword, C104_other_keywords, C104_parameters, C104_top_level, C105_concentration_direct, C105_concentration_refuted, C105_isolation_refuted, C105_last_created, C105_own_distances, C105_same_parameters, C105_table_kept, C105_table_rebuilt, C106_passes, C106_realizations, C106_redshifts, C106_success, C108_density_after_rescaling_refuted, C108_mass, C108_peak_velocity, C108_stale_velocity_refuted, C110_core_density, C110_core_mass, C110_core_mass_refuted, C110_shell_mass, C110_slope, C111_field, C111_subhalo, C112_cluster, C112_half_mass, C112_tnfw_lens, C112_tnfw_object, C112_tnfw_object_refuted, C113_bound_fractions, C113_concentration, C113_concentration_refuted, C113_mass_function, C113_plot_style, C113_spatial_refuted, C113_subhalo_mass_function, C114_choice, C114_concentration, C114_host, C114_inside, C114_unspecified, C114_unspecified_refuted, C115_at_lens, C115_at_zero_refuted, C115_batch, C115_calibrated, C115_outside, C116_median, C116_new_subhalo_refuted, C117_absolute_value_refuted, C117_any_solver, C117_calibrated, C117_ordered, C117_steep_refuted, C117_transfer, C117_unique, C117_warning

## 4. What the code gets wrong

Each of these theorems exhibits a reachable input or history on which the unchanged code departs from what its documentation or interface promises; the positive theorems beside them state what does hold.

* C06 join is a duplicate-free union by unique tag: C06_join_duplicates_refuted
* C07 split_at_z partitions a realization at the redshift; the boundary halos go to the first part: C07_documented_boundary_refuted
* C10 lensing_quantities returns aligned lists: C10_contract_needed_refuted
* C13 The shift moves each free halo exactly along the ray and drops foreground ones: C13_no_halo_lost_refuted
* C14 The shifted status survives only some operations: C14_at_most_once_refuted
* C16 Realization equality is tag inclusion: C16_eq_symmetric_refuted
* C17 Halo model loading: supported mass definitions, and the model/truncation class used: C17_mdef_subhalos_refuted
* C18 rescale_normalization: at most one un-forced logged rescaling: C18_order_refuted, C18_vmax_refuted
* C19 TNFW lensing and physical parameters do not depend on the query history: C19_mass_3d_refuted, C19_bound_mass_refuted
* C20 Infall redshift and concentration are sampled at most once: C20_dependent_refuted
* C21 Lensing keywords cached before a shift are stale afterwards: C21_position_refuted
* C23 log_derivative_inverse inverts the slope: C23_all_slopes_refuted
* C24 cubic_real_roots returns exactly the real roots: C24_scale_refuted
* C27 n_mean and first_moment are the moments of the mass function: C27_reversed_refuted
* C30 Delta-function mass function conserves mass in the mean: C30_first_moment_refuted
* C31 Rendered positions lie inside the rendering disc: C31_nfw_3d_radius_below_projected_refuted
* C32 Lens-cone geometry: opening shrinks linearly to the source: C32_volume_type_refuted, C32_volume_sum_drops_last_slice_refuted
* C33 Cosmology distance caches are transparent: C33_array_query_refuted
* C34 Lens planes are ordered, contain the main lens plane and tile the line of sight: C34_lens_plane_missing_refuted, C34_repeated_planes_refuted
* C35 Rendering returns aligned per-halo arrays with correct redshifts and flags: C35_class_names_refuted
* C36 Convergence sheets of rendering classes are aligned, negative and limited to the redshift range: C36_delta_sheet_refuted
* C37 Correlated structure rendering returns positions of the wrong objects: C37_mass_in_area_refuted, C37_alignment_refuted
* C38 SIDM conversion preserves halo identity and order: C38_cross_section_refuted, C38_normalisation_refuted
* C40 add_core_collapsed_halos changes exactly the listed halos: C40_isolation_refuted
* C41 add_cored_halos respects the index list only for some profiles: C41_list_ignored_refuted
* C42 SIS injection replaces exactly the massive halos: C42_shift_forgotten_refuted
* C43 Black-hole population: mass limits: C43_subresolution_refuted
* C44 ULDM fluctuations: number, placement and rescaling: C44_ring_not_uniform_refuted, C44_wrong_image_refuted, C44_bound_mass_refuted
* C45 Sampled infall redshifts are physical: C45_milky_way_refuted, C45_galacticus2024_refuted
* C46 Infall model set-up resolves host mass keywords and mutates the caller's dictionary: C46_caller_dictionary_refuted, C46_second_call_refuted, C46_history_refuted
* C47 Concentrations never fall below the floor: C47_polynomial_refuted, C47_dex_refuted, C47_zdep_refuted
* C48 Concentration interpolation table grows monotonically and always covers the query: C48_history_refuted
* C49 Default keyword dictionaries of WDM concentration classes leak between instances: C49_default_dictionary_refuted, C49_independent_refuted
* C50 Binned concentrations cover the declared mass range: C50_top_edge_refuted
* C51 Bound masses from the Galacticus mass-loss model never exceed infall mass: C51_zinfall_range_refuted, C51_batch_refuted, C51_keeley_refuted
* C52 Tidal transfer function stays in (0,1]: C52_radius_track_refuted
* C53 Enclosed-mass closed forms are integrals of the density: C53_delta3_singular_refuted
* C54 Truncation radius table only grows and covers the query: C54_poisoned_refuted, C54_alpha_two_refuted, C54_delta_three_refuted
* C56 Parametric SIDM evolution keeps radii positive and ordered: C56_batch_refuted, C56_rescale_refuted
* C57 Composite core-collapsed profile conserves both mass constraints: C57_black_hole_refuted, C57_hybrid_stale_refuted
* C58 Lensing keywords of the black-hole core-collapsed halo depend on query order: C58_query_order_refuted
* C59 Generalised NFW halos match the NFW mass although they share a dictionary: C59_target_mass_refuted, C59_two_draws_refuted
* C60 Pseudo-Jaffe normalisation reproduces the halo mass: C60_params_physical_refuted
* C61 Globular cluster and ULDM normalisations: C61_uldm_mass_refuted, C61_uldm_penalty_refuted, C61_soliton_line_of_sight_refuted
* C63 Every Galacticus node is attributed to its merger tree: C63_single_tree_refuted
* C64 Node filters are complementary and applied consistently: C64_select_subhalo_refuted
* C66 Preset names resolve: C66_emulator_refuted, C66_CDM_constant_refuted, C66_WDM_models_refuted, C66_WDM_ludlow_refuted, C66_CDM_scatter_refuted, C66_WDM_default_refuted, C66_cusps_refuted, C66_ULDM_default_refuted
* C67 Preset set-up: amplitude precedence, slope tilt and keyword isolation: C67_tilt_refuted, C67_isolation_refuted, C67_reuse_refuted
* C68 Two-halo population is a boosted line-of-sight population at the lens redshift: C68_small_spacing_refuted
* C69 add_correlated_structure rescales exactly the halos near the image paths: C69_rescale_refuted
* C71 Primordial black holes: smooth and clustered parts: C71_clustered_masses_refuted, C71_radius_refuted
* C76 Peak velocity and dynamical time of an NFW halo: C76_documented_time_refuted
* C80 Line-of-sight halos accompanying imported subhalos contain no subhalos: C80_ULDM_refuted, C80_emulator_refuted
* C81 Preset calls do not influence later preset calls through default arguments: C81_direct_infall_refuted
* C85 Warming the caches of a realization in one batch changes no answer: C85_zinfall_refuted, C85_classes_refuted, C85_set_bound_mass_refuted
* C86 Overdensity and splashback truncation radii enclose the stated density: C86_splashback_refuted
* C87 The Roche truncation is the documented power law to three decimals: C87_positive_refuted
* C89 What a truncated halo reports about itself is consistent: C89_density_refuted, C89_constant_refuted
* C90 The two ways to compute a truncation radius agree: C90_refuted
* C92 Multipoles of the two-point correlation: C92_pairing_refuted
* C93 Interpolated ray paths follow the traced rays: C93_terminates_refuted
* C95 Projected masses of halos: C95_collapsed_refuted
* C98 Galaxies that replace massive halos: C98_infall_refuted, C98_move_refuted, C98_rescale_refuted, C98_helper_refuted
* C99 Views of a realization: coordinates, single halos, convergence map: C99_coordinates_refuted, C99_single_default_refuted, C99_window_refuted
* C100 Inverse transform sampling reproduces the quantiles of the samples up to a bin: C100_first_bin_refuted
* C101 Rescaling and moving a halo, class by class: C101_ignored_refuted, C101_moved_refuted
* C102 Imported halos keep their physical parameters until they are rescaled: C102_rescaled_refuted, C102_replaced_refuted
* C104 Cosmological parameters reach both cosmology packages: C104_instance_refuted
* C105 Several cosmologies in one program: C105_isolation_refuted, C105_concentration_refuted
* C108 Density, mass and peak velocity of an NFW halo under rescaling: C108_density_after_rescaling_refuted, C108_stale_velocity_refuted
* C109 Which concentration a halo uses, class by class: C109_two_refuted, C109_power_law_refuted
* C110 Density and slope of generalised and cored NFW halos: C110_core_mass_refuted
* C111 Halos made one at a time with simple_setup: C111_tags_refuted
* C112 Densities that truncated halos and clusters report versus the lens models they hand out: C112_tnfw_object_refuted
* C113 What the plotting routines draw: C113_concentration_refuted, C113_spatial_refuted
* C114 Subhalos are placed inside their host: C114_unspecified_refuted
* C115 Time since infall for every infall model: C115_at_zero_refuted
* C116 The Keeley 2024 mass-loss model on its shipped tables: C116_new_subhalo_refuted, C116_time_refuted, C116_host_refuted
* C117 Suppression parameters from the slope of the transfer function: C117_absolute_value_refuted, C117_steep_refuted
* C118 Halos taken from an emulator's catalogue: C118_bound_mass_refuted
* C119 Bound masses, truncation radii and convergence maps as drawn: C119_pixels_refuted
* C121 Cored and hybrid halos under any history of queries and rescalings: C121_rescaled_refuted, C121_vmax_refuted
* C122 Chains of cuts do not depend on their order and commute with join: C122_equal_tags_refuted, C122_shift_fixed_refuted
* C123 What a realization reports is additive over its halos, except for the sheets of its rendering classes: C123_halves_refuted

## 5. Coverage of the source

Per file: functions and methods whose lines are cited by a definition of the model, out of all; then the ones that are not modelled.

* `pyHalo/Cosmology/cosmology.py`: 13/18; not modelled: Cosmology.colossus, Cosmology.D_C_transverse, Cosmology.E_z, Cosmology.rho_crit, Cosmology.rho_dark_matter_crit
* `pyHalo/Cosmology/geometry.py`: 14/16; not modelled: Geometry.rendering_scale, Geometry.kpc_per_arcsec
* `pyHalo/Halos/HaloModels/NFW.py`: 7/8; not modelled: NFWFieldHalo.__init__
* `pyHalo/Halos/HaloModels/NFW_core.py`: 6/6
* `pyHalo/Halos/HaloModels/NFW_core_trunc.py`: 34/35; not modelled: TNFWCHaloParametric.__init__
* `pyHalo/Halos/HaloModels/PsuedoJaffe.py`: 7/8; not modelled: PJaffeSubhalo.__init__
* `pyHalo/Halos/HaloModels/TNFW.py`: 19/22; not modelled: TNFWFieldHalo.__init__, TNFWFieldHalo.pseudo_nfw, TNFWSubhalo.pseudo_nfw
* `pyHalo/Halos/HaloModels/TNFWFromParams.py`: 4/4
* `pyHalo/Halos/HaloModels/TNFWemulator.py`: 9/9
* `pyHalo/Halos/HaloModels/ULDM.py`: 10/13; not modelled: ULDMFieldHalo.__init__, ULDMFieldHalo._central_density, ULDMFieldHalo._zeta
* `pyHalo/Halos/HaloModels/blackhole.py`: 5/5
* `pyHalo/Halos/HaloModels/core_collapsed_halo.py`: 14/21; not modelled: CoreCollapsedHalo.__init__, CoreCollapsedHalo.density_profile_3d, CoreCollapsedHalo.deflection_angle, CoreCollapsedHalo.sidm_timescale, CoreCollapsedHalo.t_over_tc, CoreCollapsedHaloBH.__init__, CoreCollapsedHaloBH.deflection_angle
* `pyHalo/Halos/HaloModels/gaussianhalo.py`: 2/5; not modelled: GaussianHalo.__init__, GaussianHalo.profile_args, GaussianHalo.z_eval
* `pyHalo/Halos/HaloModels/generalized_nfw.py`: 7/8; not modelled: GeneralNFWSubhalo.__init__
* `pyHalo/Halos/HaloModels/globular_cluster.py`: 6/8; not modelled: GlobularCluster.density_profile_2d_lenstronomy, GlobularCluster.z_eval
* `pyHalo/Halos/HaloModels/powerlaw.py`: 6/7; not modelled: PowerLawSubhalo.__init__
* `pyHalo/Halos/HaloModels/sis.py`: 12/13; not modelled: MassiveGalaxy.profile_args
* `pyHalo/Halos/accretion.py`: 22/29; not modelled: InfallDistributionClusterDirect.__init__, InfallAtZlens.__call__, Infall0.__init__, Infall0.__call__, InfallRedshiftDistributionBase.__init__, InfallRedshiftDistributionBase.__call__, InfallRedshiftDistributionBase.z_inf_to_z_host_std
* `pyHalo/Halos/batch_halo_util.py`: 16/16
* `pyHalo/Halos/concentration.py`: 31/35; not modelled: _ConcentrationTurnover.__init__, _ConcentrationTurnover.suppression, ConcentrationLudlow._evaluate_concentration, ConcentrationLudlow._evaluate_concentration_colossus
* `pyHalo/Halos/galacticus_truncation/interp_mass_loss.py`: 10/10
* `pyHalo/Halos/galacticus_truncation/transfer_function_density_profile.py`: 8/8
* `pyHalo/Halos/galacticus_util/galacticus_filter.py`: 9/9
* `pyHalo/Halos/galacticus_util/galacticus_util.py`: 3/7; not modelled: GalacticusUtil.hdf5_access_output_n_nodedata, GalacticusUtil.hdf5_read_dset, GalacticusUtil.hdf5_read_nodecount_total, GalacticusUtil.read_nodedata_galacticus
* `pyHalo/Halos/halo_base.py`: 16/22; not modelled: Halo.args_profile, Halo.rescale_norm, Halo.profile_args, Halo.params_physical, Halo.lenstronomy_ID, Halo.lenstronomy_params
* `pyHalo/Halos/lens_cosmo.py`: 24/26; not modelled: LensCosmo._mc_model, LensCosmo.colossus
* `pyHalo/Halos/tidal_truncation.py`: 52/52
* `pyHalo/Halos/tnfw_halo_util.py`: 4/4
* `pyHalo/PresetModels/cdm.py`: 3/3
* `pyHalo/PresetModels/external.py`: 3/3
* `pyHalo/PresetModels/mbh.py`: 1/1
* `pyHalo/PresetModels/sidm.py`: 3/3
* `pyHalo/PresetModels/uldm.py`: 1/1
* `pyHalo/PresetModels/wdm.py`: 3/3
* `pyHalo/Rendering/MassFunctions/delta_function.py`: 3/3
* `pyHalo/Rendering/MassFunctions/density_peaks.py`: 4/4
* `pyHalo/Rendering/MassFunctions/gaussian.py`: 2/2
* `pyHalo/Rendering/MassFunctions/mass_function_base.py`: 12/14; not modelled: _PowerLawTurnoverBase.turnover, _PowerLawTurnoverBase._turnover
* `pyHalo/Rendering/MassFunctions/stucker.py`: 4/4
* `pyHalo/Rendering/MassFunctions/util.py`: 2/2
* `pyHalo/Rendering/SpatialDistributions/base.py`: 2/2
* `pyHalo/Rendering/SpatialDistributions/correlated.py`: 1/2; not modelled: Correlated2D.__init__
* `pyHalo/Rendering/SpatialDistributions/nfw.py`: 3/3
* `pyHalo/Rendering/SpatialDistributions/uniform.py`: 6/6
* `pyHalo/Rendering/correlated_structure.py`: 5/6; not modelled: CorrelatedStructure._mass_in_area
* `pyHalo/Rendering/halo_population.py`: 2/2
* `pyHalo/Rendering/line_of_sight.py`: 4/4
* `pyHalo/Rendering/rendering_class_base.py`: 5/5
* `pyHalo/Rendering/subhalos.py`: 7/7
* `pyHalo/Rendering/two_halo.py`: 5/5
* `pyHalo/concentration_models.py`: 1/1
* `pyHalo/defaults.py`: 3/6; not modelled: TruncationDefaults.__init__, DMHaloDefaults.__init__, RealizationDefaults.__init__
* `pyHalo/mass_function_models.py`: 1/1
* `pyHalo/plotting_routines.py`: 10/10
* `pyHalo/preset_models.py`: 1/1
* `pyHalo/pyhalo.py`: 5/6; not modelled: check_code_version
* `pyHalo/realization_extensions.py`: 19/20; not modelled: RealizationExtensions.__init__
* `pyHalo/single_realization.py`: 26/27; not modelled: Realization.rendering_center
* `pyHalo/truncation_models.py`: 1/1
* `pyHalo/utilities.py`: 21/21

Not modelled at all, for these reasons:

* plotting (`plotting_routines.py`, `Realization.plot`): no result but a figure;
* the construction of astropy and colossus objects and of lenstronomy lens models: other libraries' code, represented by
  arguments of the model (distances, ages, peak heights, profile functions);
* reading of hdf5 files: the data sets are arguments (`GalacticusModel.v`);
* module constants in `defaults.py`: passed as arguments or written out where a property depends on the value;
* abstract methods that only raise `NotImplementedError`;
* floating-point rounding, overflow, NaN and infinities, performance, memory, warnings printed to the terminal;
* the numerical values of the data tables (`johnsonSUparams*.py`, `tabulated_mass_loss_Keeley24.py`): arbitrary tables.

No property on the list was found to be inexpressible; distributional statements about random numbers are expressed through the
inverse cumulative distributions of the deviates, not through probability measures.

## 6. Testing the theorems against wrong programs

`seeded/LOG.jsonl` has one line per attempt: an edit of a model definition in a scratch copy, the claim it breaks, the theorems
that no longer prove and the theorems tightened when all of them still did.

