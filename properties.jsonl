{"id": "C01", "title": "Subhalos and field halos partition a realization", "statement": "For every realization, the lists returned by .subhalos and .field_halos together contain exactly the realization's halos: each halo occurs in exactly one of the two (with its multiplicity), both lists keep the original order, and the sizes add up to len(halos).", "quantifier": "all realizations (any number of halos, any flags, duplicates allowed)", "why_tests_cant": "A test samples a few realizations; the claim is about every list of halos, including duplicates and empty ones.", "anchors": ["pyHalo/single_realization.py:Realization.subhalos", "pyHalo/single_realization.py:Realization.field_halos"]}
{"id": "C02", "title": "filter keeps exactly the halos demanded by the mass/aperture rule", "statement": "Realization.filter(aperture, log10_mass, rays...) returns a realization whose halos are exactly those halos of the input whose |mass| >= 10^log10_mass, or that lie (in ANGLES: angular distance; in KPC: comoving distance) within aperture*w of at least one ray, with w the documented geometric weight clipped to [w_min,1] (1 if weighting is off). Nothing else is kept, nothing that qualifies is lost, every kept halo keeps its multiplicity; the output is sorted by redshift plane and keeps the original order inside a plane. Unknown units raise an exception exactly when some halo is below the global mass threshold.", "quantifier": "all realizations whose cached arrays are in sync with the halos, all apertures, thresholds, rays, cosmology distance functions, w_min", "why_tests_cant": "Keep/drop boundaries and ordering must hold for every population and every ray; tests check counts for one seed.", "anchors": ["pyHalo/single_realization.py:Realization.filter", "pyHalo/single_realization.py:Realization.halos_at_z"]}
{"id": "C03", "title": "filter is idempotent and monotone", "statement": "Applying filter twice with the same arguments to a realization in sync with its halos gives the same halo list as applying it once; enlarging the aperture (at non-negative weight) or lowering the mass threshold never removes a halo that was kept before. Filtering around several rays keeps a halo exactly if filtering around some of the rays keeps it, and neither the order of the rays nor listing a ray twice matters.", "quantifier": "all realizations, all pairs of apertures/thresholds", "why_tests_cant": "Relational property over pairs of calls on arbitrary populations.", "anchors": ["pyHalo/single_realization.py:Realization.filter"]}
{"id": "C04", "title": "filter_subhalos never touches field halos and applies its documented cut to subhalos", "statement": "filter_subhalos keeps every field halo, keeps every subhalo with |mass| > 10^log10_min, keeps a lighter subhalo iff it is strictly within the aperture of at least one listed coordinate, and preserves order and multiplicity.", "quantifier": "all realizations in sync, all coordinate lists (also empty), apertures and thresholds", "why_tests_cant": "Universally quantified exact characterisation of the kept set.", "anchors": ["pyHalo/single_realization.py:Realization.filter_subhalos"]}
{"id": "C05", "title": "filter_bound_mass leaves no under-mass subhalo and keeps everything else", "statement": "filter_bound_mass(m) keeps all field halos, keeps exactly the subhalos whose bound mass is >= m, in order; it raises iff some subhalo has no bound mass; the shifted status of the realization is preserved.", "quantifier": "all realizations, all thresholds", "why_tests_cant": "Exact characterisation for arbitrary populations.", "anchors": ["pyHalo/single_realization.py:Realization.filter_bound_mass", "pyHalo/Halos/halo_base.py:Halo.bound_mass"]}
{"id": "C06", "title": "join is a duplicate-free union by unique tag", "statement": "For realizations with no repeated tag inside each of them, self.join(real) contains every tag of both, no other tag and no tag twice, and each halo comes unchanged from one of the two inputs; joining a realization with any of its filtered/split parts gives back the same set of halos; number of halos = |A| + |B| - |common tags|.", "quantifier": "all pairs of realizations with pairwise distinct tags", "why_tests_cant": "Set-algebra law over all pairs of populations, including size ties.", "anchors": ["pyHalo/single_realization.py:Realization.join", "pyHalo/single_realization.py:Realization._tags"]}
{"id": "C07", "title": "split_at_z partitions a realization at the redshift; the boundary halos go to the first part", "statement": "split_at_z(z) returns two realizations that together contain each halo exactly once in original order; the first holds the halos with redshift <= z, the second those with redshift > z. (The docstring promises '<' and '>='; halos exactly at z are in the first part: refuted.) Re-joining the parts of a tag-distinct realization restores the same multiset of halos.", "quantifier": "all realizations and redshifts", "why_tests_cant": "Boundary behaviour for every halo list.", "anchors": ["pyHalo/single_realization.py:Realization.split_at_z"]}
{"id": "C08", "title": "before/at/after counts and plane queries are consistent", "statement": "number_of_halos_before_redshift + at + after = len(halos) for every z; halos_at_z returns exactly the halos at z with strictly increasing indexes that point to them; realization_at_z(z, x, y, max_range) keeps exactly those strictly within max_range and the returned indexes point to the kept halos in the original realization.", "quantifier": "all realizations, redshifts, centres, ranges", "why_tests_cant": "Needs all inputs, including halos on the boundary and absent planes.", "anchors": ["pyHalo/single_realization.py:Realization.number_of_halos_before_redshift", "pyHalo/single_realization.py:Realization.halos_at_z", "pyHalo/single_realization.py:realization_at_z"]}
{"id": "C09", "title": "mass_at_z_exact accounts for every halo exactly once", "statement": "mass_at_z_exact(z) is the sum over the halos at z of their mass, except that at the lens redshift subhalos contribute their bound mass; summed over unique_redshifts it equals the total (bound for lens-plane subhalos) mass of the realization.", "quantifier": "all realizations in sync with their halos", "why_tests_cant": "Conservation over an arbitrary number of planes and halos.", "anchors": ["pyHalo/single_realization.py:Realization.mass_at_z_exact", "pyHalo/single_realization.py:Realization._reset"]}
{"id": "C10", "title": "lensing_quantities returns aligned lists", "statement": "If every halo returns as many lenstronomy keyword dictionaries as profile names, then the lens model list, redshift list and keyword list returned by lensing_quantities have the same length, the j-th entries belong to the same halo (name, its redshift, its keywords), halos appear in realization order, and the convergence sheets come after all halos.", "quantifier": "all realizations, all profile classes obeying the documented ID/params length contract, all rendering class lists, both sheet modes", "why_tests_cant": "Alignment for every mix of single- and multi-component halos.", "anchors": ["pyHalo/single_realization.py:Realization.lensing_quantities", "pyHalo/single_realization.py:Realization._mass_sheet_correction"]}
{"id": "C11", "title": "Exact mass sheets remove exactly the rendered mass, one sheet per plane, centred on the rendering volume", "statement": "With subtract_exact_sheets=True there is exactly one CONVERGENCE sheet per distinct halo redshift, its convergence times sigma_crit*area equals minus the mass at that redshift (<= 0 for non-negative masses), and it is centred at the rendering centre at that redshift; the mass removed over all sheets equals the total rendered mass. In the other mode every sheet returned by every rendering class appears, in order, with the centre filled in. When the realization was built without rendering classes and the exact mode is off, no sheet is added whatever flag the caller passes.", "quantifier": "all realizations in sync, all geometries with positive areas, all rendering class lists", "why_tests_cant": "Conservation law over arbitrarily many planes.", "anchors": ["pyHalo/single_realization.py:Realization._mass_sheet_correction"]}
{"id": "C12", "title": "A shifted realization cannot be shifted again", "statement": "shift_background_to_source on the result of a previous shift returns that same realization and leaves every halo where it is, however many times it is called and with whatever rays.", "quantifier": "all realizations, rays, thresholds and any number of repeated calls", "why_tests_cant": "Property of histories of calls.", "anchors": ["pyHalo/single_realization.py:Realization.shift_background_to_source"]}
{"id": "C13", "title": "The shift moves each free halo exactly along the ray and drops foreground ones", "statement": "On an unshifted realization with distinct halo objects, shift_background_to_source moves every non-fixed halo with z >= min_shift_redshift by exactly the ray position at its comoving distance, leaves fixed_position halos where they were, changes no other attribute (mass, redshift, tag) and keeps the order; halos with z < min_shift_redshift that are not fixed are removed from the result although the documentation only says that they are not shifted (refuted: 'no halo is lost').", "quantifier": "all realizations, rays and min_shift_redshift", "why_tests_cant": "Frame property and exact effect for every halo list.", "anchors": ["pyHalo/single_realization.py:Realization.shift_background_to_source"]}
{"id": "C14", "title": "The shifted status survives only some operations", "statement": "filter_bound_mass (and the SIDM conversions) keep the shifted status. filter, filter_subhalos, join, split_at_z and SIS injection return a realization that can be shifted a second time: a shift-filter-shift history moves halos twice along the ray (refuted: 'halos are aligned with the ray path at most once').", "quantifier": "all histories of shift/filter/join/split operations", "why_tests_cant": "History property: needs sequences of calls.", "anchors": ["pyHalo/single_realization.py:Realization.shift_background_to_source", "pyHalo/single_realization.py:Realization.filter", "pyHalo/single_realization.py:Realization.join", "pyHalo/single_realization.py:Realization.from_halos"]}
{"id": "C15", "title": "Shifting has side effects on the realization it was called on", "statement": "shift_background_to_source mutates the halo objects shared with the original realization: afterwards the original's coordinate arrays no longer agree with its halos, a position cut on the original still uses the old coordinates, and calling shift on the original again shifts by twice the ray (refuted: 'the input realization is unchanged').", "quantifier": "all unshifted realizations with at least one free halo and a non-zero ray", "why_tests_cant": "Aliasing/heap property.", "anchors": ["pyHalo/single_realization.py:Realization.shift_background_to_source", "pyHalo/single_realization.py:Realization._reset"]}
{"id": "C16", "title": "Realization equality is tag inclusion", "statement": "a == b is True iff every tag of b is a tag of a; it is reflexive and transitive, and it is invariant under reordering, but it is not symmetric (a == b can be True when b == a is False, and anything equals an empty realization).", "quantifier": "all pairs/triples of realizations", "why_tests_cant": "Algebraic law over all pairs.", "anchors": ["pyHalo/single_realization.py:Realization.__eq__"]}
{"id": "C17", "title": "Halo model loading: supported mass definitions, and the model/truncation class used", "statement": "For every supported mass-definition string and subhalo flag the loader builds the class documented for it with the truncation and concentration class of that population; unknown strings raise ValueError. 'TNFWC_SIDM' is listed but always raises NameError (refuted). In pyHalo.render subhalos receive mdef_field_halos and field halos receive mdef_subhalos (refuted: 'mdef_subhalos sets the profile of subhalos'); the result is right iff both definitions coincide.", "quantifier": "all strings, flags, model dictionaries, populations", "why_tests_cant": "Exhaustive over strings/populations.", "anchors": ["pyHalo/single_realization.py:Realization._load_halo_model", "pyHalo/pyhalo.py:pyHalo._create_realization"]}
{"id": "C18", "title": "rescale_normalization: at most one un-forced logged rescaling", "statement": "After any sequence of rescale_normalization calls the normalisation is the product of all forced factors and of those un-forced factors that came before any logged call; once a logged call happened, un-forced calls have no effect; every effective call invalidates the cached physical, lensing and NFW parameters.", "quantifier": "all finite call sequences with arbitrary factor/force/log", "why_tests_cant": "History property over unbounded call sequences.", "anchors": ["pyHalo/Halos/halo_base.py:Halo.rescale_normalization"]}
{"id": "C19", "title": "TNFW lensing and physical parameters do not depend on the query history", "statement": "For a truncated NFW halo, whatever sequence of read queries (c, z_infall, nfw_params, params_physical, lenstronomy_params, vmax, bound mass, mass_3d) was made before, lenstronomy_params and params_physical return the same values as on a fresh object (given the same random draws per quantity). mass_3d does not have this property when the truncation model rescales the halo: the first call on a fresh object uses the un-rescaled density (refuted). With the Keeley 2024 truncation model the radius is the tabulated multiple of the scale radius read at the point of the table's rectangle nearest to the halo's own concentration and mass loss.", "quantifier": "all finite query histories, all truncation models (with or without rescaling)", "why_tests_cant": "Schedule/history property over unbounded sequences with memoisation and hidden mutation.", "anchors": ["pyHalo/Halos/HaloModels/TNFW.py:TNFWFieldHalo.lenstronomy_params", "pyHalo/Halos/HaloModels/TNFW.py:TNFWFieldHalo.mass_3d", "pyHalo/Halos/tidal_truncation.py"]}
{"id": "C20", "title": "Infall redshift and concentration are sampled at most once", "statement": "Along any sequence of queries the infall redshift of a subhalo and its concentration are drawn from their distributions at most once, and every later query returns the first value; set_infall_redshift is only possible on subhalos and determines z_infall, but quantities computed before (z_eval, concentration, time since infall) keep their old values (refuted: 'setting the infall redshift updates dependent quantities').", "quantifier": "all query/set histories, all random streams", "why_tests_cant": "History property.", "anchors": ["pyHalo/Halos/halo_base.py:Halo.z_infall", "pyHalo/Halos/halo_base.py:Halo.set_infall_redshift", "pyHalo/Halos/halo_base.py:Halo.z_eval", "pyHalo/Halos/HaloModels/TNFW.py:TNFWFieldHalo.c"]}
{"id": "C21", "title": "Lensing keywords cached before a shift are stale afterwards", "statement": "TNFW halos memoise their lenstronomy keywords including the centre; if lensing keywords are requested before shift_background_to_source, the keywords returned afterwards still have the pre-shift centre, whereas without the earlier request they have the shifted centre (refuted: 'keywords reflect the current position'); if not requested before, the centre is the current position.", "quantifier": "all positions, shifts and query histories", "why_tests_cant": "History property across two modules.", "anchors": ["pyHalo/Halos/HaloModels/TNFW.py:TNFWFieldHalo.lenstronomy_params", "pyHalo/single_realization.py:Realization.shift_background_to_source"]}
{"id": "C22", "title": "TNFW logarithmic slope formula is the derivative of the density", "statement": "For all radii and scale/truncation radii, log_profile_slope(r, rs, rt) equals d ln(rho)/d ln(r) of the truncated NFW density, decreases strictly from -1 (r->0) to -5 (r->inf), and lies in (-5,-1).", "quantifier": "all r, rs, rt > 0", "why_tests_cant": "Real analysis over a continuum.", "anchors": ["pyHalo/Halos/HaloModels/TNFW.py:TNFWFieldHalo.log_profile_slope", "pyHalo/Halos/tnfw_halo_util.py:tnfw_density_profile"]}
{"id": "C23", "title": "log_derivative_inverse inverts the slope", "statement": "For every gamma with -5 < gamma < -1 (not within the numerical degeneracy guard at -5) and all rs, rt > 0, log_derivative_inverse returns a positive radius at which the logarithmic slope equals gamma, and it is the only such radius.", "quantifier": "all gamma in (-5,-1), rs, rt > 0", "why_tests_cant": "Correctness of Cardano/trigonometric branches for all parameters.", "anchors": ["pyHalo/Halos/HaloModels/TNFW.py:TNFWFieldHalo.log_derivative_inverse", "pyHalo/Halos/tnfw_halo_util.py:cubic_real_roots"]}
{"id": "C24", "title": "cubic_real_roots returns exactly the real roots", "statement": "For every cubic with |a| >= 1e-14 every returned number is a root and every real root is returned; in the degenerate branches the same holds for the quadratic/linear polynomial obtained by dropping the neglected coefficients.", "quantifier": "all real a,b,c,d", "why_tests_cant": "All coefficient combinations and branches.", "anchors": ["pyHalo/Halos/tnfw_halo_util.py:cubic_real_roots"]}
{"id": "C25", "title": "TNFW bound-mass fraction is the exact mass integral", "statement": "The closed-form mass fraction used for truncated halos equals the integral of the truncated NFW density inside c*rs divided by the NFW mass inside the same radius; it lies strictly between 0 and 1, increases with the truncation radius, hence bound_mass < mass whenever the rescaling is at most 1.", "quantifier": "all tau > 0, c > 0", "why_tests_cant": "Integral identity over a continuum.", "anchors": ["pyHalo/Halos/HaloModels/TNFWemulator.py:tnfw_mass_fraction", "pyHalo/Halos/HaloModels/TNFW.py:TNFWSubhalo.bound_mass"]}
{"id": "C26", "title": "Power-law sampling stays in range and follows the mass function", "statement": "Every mass drawn from the power-law mass function with log_mlow < log_mhigh lies in [10^log_mlow, 10^log_mhigh], and the fraction of the unit interval mapped below a mass m equals the normalised integral of m^index up to m (exact inverse CDF), for every index including -1.", "quantifier": "all mass ranges, indexes, random numbers in [0,1]", "why_tests_cant": "Every random number and slope.", "anchors": ["pyHalo/Rendering/MassFunctions/mass_function_base.py:_PowerLawBase.draw"]}
{"id": "C27", "title": "n_mean and first_moment are the moments of the mass function", "statement": "For log_mlow < log_mhigh, n_mean and first_moment of the power-law class equal the integrals of norm*m^index and norm*m^(index+1) over the mass range for every index (including the logarithmic cases); they are >= 0 for a non-negative normalisation and additive over adjacent mass bins; for an empty or reversed range they are 0.", "quantifier": "all ranges, indexes and normalisations", "why_tests_cant": "Integral identity over a continuum.", "anchors": ["pyHalo/Rendering/MassFunctions/util.py:integrate_power_law_analytic", "pyHalo/Rendering/MassFunctions/mass_function_base.py:_PowerLawBase.__init__"]}
{"id": "C28", "title": "WDM suppression lies in (0,1], increases with mass and the draw is a thinning", "statement": "For a > 0, b > 0, c < 0 the suppression factor is in (0,1), increases strictly with halo mass; for a mixture fraction f in [0,1] the mixed suppression lies in [f^2,1] and interpolates between WDM (f=0) and CDM (f=1); the suppressed draw is an order-preserving sub-list of the CDM draw keeping exactly those masses whose random number is below the factor, hence never more halos than CDM.", "quantifier": "all parameters, masses, random streams", "why_tests_cant": "All parameters and all random streams.", "anchors": ["pyHalo/Rendering/MassFunctions/mass_function_base.py:WDMPowerLaw._turnover", "pyHalo/Rendering/MassFunctions/mass_function_base.py:MixedWDMPowerLaw._turnover", "pyHalo/Rendering/MassFunctions/mass_function_base.py:_PowerLawTurnoverBase.draw"]}
{"id": "C29", "title": "Tilting the mass function pivots about the pivot mass", "statement": "The field-halo mass function evaluated at the pivot mass does not depend on delta_power_law_index and equals LOS_normalization*10^coeff*volume; for subhalos mass*dN/dm at the pivot equals area*sigma_sub*host_scaling (respectively area*dndA) for every slope; the host scaling equals 1 for a 10^13 host at z=0.5 and is monotone in host mass.", "quantifier": "all slopes, pivots, normalisations", "why_tests_cant": "Algebraic law over reals.", "anchors": ["pyHalo/Rendering/MassFunctions/density_peaks.py", "pyHalo/Rendering/subhalos.py:normalization_sigmasub", "pyHalo/Rendering/subhalos.py:host_scaling_function"]}
{"id": "C30", "title": "Delta-function mass function conserves mass in the mean", "statement": "A delta-function mass function has n_mean*mass = density*volume (times the mass fraction for primordial black holes), every drawn object has exactly that mass, and without Poisson noise the number drawn is the rounded mean, so the drawn mass is within half an object of density*volume; with Poisson noise the means over the counts of the number and of the mass drawn are n_mean and density*volume. The smooth and clumped fractions of primordial black holes always add up to the total, also for the log-normal mass function. Its first_moment, which the power-law classes define as the expected total mass, is the mass of one object, so it differs from density*volume unless the mean number is 1 (refuted: 'first_moment is the expected total mass').", "quantifier": "all masses, densities, volumes, fractions", "why_tests_cant": "Conservation for all parameter values.", "anchors": ["pyHalo/Rendering/MassFunctions/delta_function.py", "pyHalo/realization_extensions.py:RealizationExtensions.add_primordial_black_holes"]}
{"id": "C31", "title": "Rendered positions lie inside the rendering disc", "statement": "Every position drawn by the uniform (and lens-cone) distribution lies within rmax2d*rendering_scale(z) of the centre in angle, for every random number, one position per deviate pair; an object is within radius r iff its radial deviate is at most the enclosed fraction of the area. The projected-NFW distribution keeps the projected radius in [1e-3 rmax2d, rmax2d] and the 3d radius in [1e-3 rmax2d, r200]; but the two are drawn independently, so the 3d radius can be smaller than the projected one (refuted).", "quantifier": "all random numbers, redshifts, centres", "why_tests_cant": "All random streams.", "anchors": ["pyHalo/Rendering/SpatialDistributions/uniform.py"]}
{"id": "C32", "title": "Lens-cone geometry: opening shrinks linearly to the source", "statement": "In a flat universe the double-cone rendering scale is 1 up to the lens, continuous there, strictly decreasing behind the lens, and equals 1-padding at the source; the comoving radius is linear in comoving distance; cylinder and cone follow their documented scales; areas are pi r^2 with the scaled radius; unknown geometry names raise. The integrated comoving volume is the stored total volume plus the frustum left open by the padding; the CONE geometry has no volume_type (refuted) and the slice-summed volume drops the last slice (refuted).", "quantifier": "all redshifts, cosmologies with positive increasing comoving distance", "why_tests_cant": "Over every cosmology and redshift.", "anchors": ["pyHalo/Cosmology/geometry.py"]}
{"id": "C33", "title": "Cosmology distance caches are transparent", "statement": "Along any sequence of queries, replies depend on the arguments only; pair distances equal the underlying cosmology; one-redshift distances are exact at the table's redshifts, bracketed by the neighbouring exact values in between and fall back to the underlying cosmology outside; kpc_per_arcsec raises ValueError exactly outside its table; halo_age is 0 for a formation redshift below z, otherwise the (interpolated) age difference, never negative. An array query is not elementwise: one redshift outside the table changes the values of the others (refuted). For an underlying distance (age) whose second derivative is bounded by K near the redshift, the interpolated reply is within K h^2/8 of the exact value, h being the table's spacing (0.02, 0.025, 20/249). An array of redshifts is answered one by one if all of them lie in the table's range and entirely by the underlying cosmology otherwise, in order and without loss.", "quantifier": "all finite query sequences, all underlying cosmologies", "why_tests_cant": "History property of a cache.", "anchors": ["pyHalo/Cosmology/cosmology.py"]}
{"id": "C34", "title": "Lens planes are ordered, contain the main lens plane and tile the line of sight", "statement": "For redshifts and spacings with two decimals, generate_lens_plane_redshifts returns strictly increasing planes starting at 0.01, containing the lens redshift, below the source, and plane plus spacing is the next plane up to the source, all spacings positive and at most the requested one. For arbitrary inputs: as many spacings as planes, non-decreasing, everything within 0.005 of those values. A lens redshift with more decimals is missing from the planes and a spacing below the rounding repeats planes (refuted).", "quantifier": "all lens/source redshifts and spacings", "why_tests_cant": "All spacings incl. those not dividing the interval.", "anchors": ["pyHalo/utilities.py:generate_lens_plane_redshifts"]}
{"id": "C35", "title": "Rendering returns aligned per-halo arrays with correct redshifts and flags", "statement": "For every list of population models the arrays of masses, x, y, 3d radius, redshift and subhalo flag returned by the population renderer have equal length; subhalos and two-halo objects are at the lens redshift, line-of-sight halos at plane redshifts in front of the source; exactly the entries from SUBHALOS populations are flagged as subhalos; positions lie in the region of the spatial distribution; unknown population names raise, and so do the rendering class names themselves (refuted: 'class names are accepted'); too few argument entries raise IndexError; a line-of-sight population with an NFW spatial distribution cannot be rendered.", "quantifier": "all population lists, all draws", "why_tests_cant": "All populations and random draws.", "anchors": ["pyHalo/Rendering/halo_population.py", "pyHalo/Rendering/line_of_sight.py", "pyHalo/Rendering/subhalos.py", "pyHalo/Rendering/two_halo.py"]}
{"id": "C36", "title": "Convergence sheets of rendering classes are aligned, negative and limited to the redshift range", "statement": "Line-of-sight sheets: one per plane with positive first moment inside [zmin,zmax], kappa = -scale*first_moment/(sigma_crit*area); lists aligned; never positive for scale >= 0. Subhalo sheets: one sheet at the lens redshift, none iff the first moment is zero, sign opposite to the first moment. Populations without sheets return empty lists. The sheet of a delta-function mass function holds the mass of a single object, not the mass of the rendered population (refuted).", "quantifier": "all planes, scales, mass functions", "why_tests_cant": "All parameter combinations.", "anchors": ["pyHalo/Rendering/line_of_sight.py:LineOfSight.convergence_sheet_correction", "pyHalo/Rendering/subhalos.py:Subhalos.convergence_sheet_correction"]}
{"id": "C37", "title": "Correlated structure rendering returns positions of the wrong objects", "statement": "CorrelatedStructure.render: the returned indices are exactly the halos within the aperture around the ray at one of the planes; each drawn mass has the prescribed mass and the counts follow the mass budget; but the positions returned are those of the halos already in the realization, so the position and mass lists have different lengths in general (refuted), and the mass in the aperture computed from the convergence map is wrong by the ratio of pixels inside to pixels outside the circle (refuted). The mass it assigns to a plane depends only on the convergence inside the disc around the ray, pixel by pixel, and the map moves with the ray.", "quantifier": "all realizations and draws", "why_tests_cant": "Alignment for all populations.", "anchors": ["pyHalo/Rendering/correlated_structure.py:CorrelatedStructure.render"]}
{"id": "C38", "title": "SIDM conversion preserves halo identity and order", "statement": "toSIDM_from_timescale / toSIDM_from_cross_section return a realization with the same number of halos in the same order, each with the same mass, position, redshift, subhalo flag and tag, the same rendering settings and shifted status; the original halo objects are not modified except for a recorded age. Each halo uses the parameter of the first mass bin [lo,hi) containing log10(mass) (with scatter: one normal deviate per halo); a TNFW halo younger than the cut stays NFW, an older one collapses iff its own uniform random number is <= the collapse probability; the new profile conserves the enclosed mass and keeps infall redshift and bound mass. It raises iff some halo is in no bin or has mdef 'NFW'; other profiles pass unchanged. Refuted: cross sections work for every population the timescales work for (a black hole has no NFW parameters); the halo's normalisation and fixed-position flag survive the conversion (they are reset). Asking for t_over_tc=q gives an age of exactly q collapse times when ages are additive.", "quantifier": "all realizations, bin lists, parameters", "why_tests_cant": "All populations and bins.", "anchors": ["pyHalo/realization_extensions.py:RealizationExtensions.toSIDM_from_cross_section", "pyHalo/realization_extensions.py:RealizationExtensions.toSIDM_single_halo"]}
{"id": "C39", "title": "Core collapse by mass selects only TNFW halos in a bin with u <= probability", "statement": "core_collapse_by_mass returns strictly increasing indexes of TNFW halos only; a halo is selected iff its uniform random number is <= the probability of the first bin of its population containing its mass; with probability 1 (0 and u>0) all (none) in the bin collapse; one random number is consumed per halo.", "quantifier": "all realizations, bins, probabilities, random streams", "why_tests_cant": "All random streams.", "anchors": ["pyHalo/realization_extensions.py:RealizationExtensions.core_collapse_by_mass"]}
{"id": "C40", "title": "add_core_collapsed_halos changes exactly the listed halos", "statement": "add_core_collapsed_halos keeps number, order and identity (mass, position, redshift, tag, subhalo flag) of halos, replaces the profile exactly of the listed indexes by the requested one, keeps settings and shifted status, and raises on an unsupported profile. With TNFWC and CC_COMPOSITE nothing that existed before changes; with GNFW and SPL_CORE the keywords are written into the argument dictionary of the replaced halos, so every halo sharing that dictionary sees them (refuted: 'other halos' arguments are unchanged'), and infall redshift and bound mass are not handed over.", "quantifier": "all realizations, index lists, keyword dictionaries", "why_tests_cant": "Aliasing property over all halos.", "anchors": ["pyHalo/realization_extensions.py:RealizationExtensions.add_core_collapsed_halos", "pyHalo/Halos/halo_base.py:Halo.update_args"]}
{"id": "C41", "title": "add_cored_halos respects the index list only for some profiles", "statement": "add_cored_halos should modify exactly the halos in halo_index_list. With CNFW it does (cored halos with the same mass, position, redshift, tag and flag; the 3d radius is lost). With any other profile name, known or unknown, every halo is converted to TNFWC whatever the list (refuted).", "quantifier": "all realizations and index lists", "why_tests_cant": "All index lists.", "anchors": ["pyHalo/realization_extensions.py:RealizationExtensions.add_cored_halos"]}
{"id": "C42", "title": "SIS injection replaces exactly the massive halos", "statement": "SIS_injection(threshold) keeps number and order, replaces exactly the halos with mass >= threshold by the galaxy model with the same mass, position, redshift, tag and flag, and an unknown model raises iff some halo reaches the threshold. Refuted: the shifted status is kept (it is reset to False, so a later shift to the source would be applied twice).", "quantifier": "all realizations and thresholds", "why_tests_cant": "All populations.", "anchors": ["pyHalo/realization_extensions.py:RealizationExtensions.SIS_injection", "pyHalo/Halos/HaloModels/sis.py"]}
{"id": "C43", "title": "Black-hole population: mass limits", "statement": "add_black_holes returns a realization made of black holes only: one for each rendered halo whose random number is at most f and whose black-hole mass min(10^max, 10^ratio*m) exceeds 10^min, within the projected scale radius of its host and at its redshift, and, plane by plane, a Poisson number (mean f*LOS_normalization times the Sheth-Tormen number of the plane) of unresolved halos in the light cone. In the unresolved part the minimum is compared with the halo mass and the maximum is ignored, so black holes outside [10^min,10^max] appear (refuted). It raises on a realization without planes or when a chosen halo has no NFW parameters.", "quantifier": "all realizations, draws, limits", "why_tests_cant": "All draws.", "anchors": ["pyHalo/realization_extensions.py:RealizationExtensions.add_black_holes"]}
{"id": "C44", "title": "ULDM fluctuations: number, placement and rescaling", "statement": "Ring and ellipse fluctuations are a Poisson number (mean: region area over fluctuation area) lying between the inner and outer boundary, joined with the unchanged halos; above n_cut only n_cut are created with standard deviation multiplied by sqrt(n_cut/N); a zero count returns the realization as it is. With apertures, counts that are zero are removed from the count list but not from the image list, so later images' fluctuations are placed around the wrong image (refuted); without zero counts each fluctuation lies in the aperture of its image. Ring radii are not uniform in area unless rmin=0 (refuted). After adding a fluctuation filter_bound_mass raises (refuted).", "quantifier": "all image lists, counts, random streams", "why_tests_cant": "All count vectors and random streams.", "anchors": ["pyHalo/realization_extensions.py:_get_fluctuation_halos"]}
{"id": "C45", "title": "Sampled infall redshifts are physical", "statement": "Every infall redshift sampled by the hybrid, direct, cluster and Milky Way models is z_lens plus the quantile, at the given random number, of the normal law with the published mean and standard deviation restricted to [0, 15], hence lies in [z_lens, z_lens+15]; the mass ratio is limited to the calibrated range, larger subhalos have smaller mean; the cluster model rejects hosts outside 10^14-10^15; the vectorised sampler equals the scalar one. Refuted: the Milky Way 30 kpc fit has an unbounded and partly negative mean inside its calibrated range, and the GALACTICUS_2024 model exceeds z_lens+15 (exact range proved).", "quantifier": "all masses, hosts, random numbers", "why_tests_cant": "All random numbers.", "anchors": ["pyHalo/Halos/accretion.py"]}
{"id": "C46", "title": "Infall model set-up resolves host mass keywords and mutates the caller's dictionary", "statement": "setup_infall_model uses m_host if given (else 10^log_m_host, else 10^13), rejects unknown names and failing classes, and is idempotent with respect to the dictionary it leaves behind. Refuted isolation: the caller's dictionary is modified, two identical preset calls with the same dictionary can use different hosts, and a DIRECT_INFALL preset uses the host mass left in the shared default dictionary by earlier calls (characterised for every history of calls).", "quantifier": "all names, dictionaries, call histories", "why_tests_cant": "History/aliasing property.", "anchors": ["pyHalo/Halos/lens_cosmo.py:LensCosmo.setup_infall_model", "pyHalo/PresetModels/cdm.py"]}
{"id": "C47", "title": "Concentrations never fall below the floor", "statement": "Every concentration returned by the CDM and WDM classes is at least 1.2 for every mass, redshift, class below and scatter draw, and above that floor it is the median times the log-normal factor (negative widths raise). The hyperbolic and tabulated WDM suppression factors are in (0,1] and rise with mass for all parameters (the tabulated fit never leaves its table); so is the polynomial one for every constructible model without redshift evolution or below z = 20/13, while with the default redshift evolution it exceeds one above that redshift (refuted). scatter_dex acts on the natural logarithm and scatter_dex_z_dep is ignored (refuted). The WDM Ludlow relation is refused exactly for a positive slope.", "quantifier": "all masses, redshifts, draws", "why_tests_cant": "All draws.", "anchors": ["pyHalo/Halos/concentration.py"]}
{"id": "C48", "title": "Concentration interpolation table grows monotonically and always covers the query", "statement": "After any sequence of scalar and array queries the tabulated mass/redshift ranges contain every queried point and the default ranges and only ever grow; the value returned is the bilinear interpolation of log10 c from a cell around the query of bounded width, hence exact for bilinear models and within local bounds; array queries inside the table equal scalar queries. The value depends on earlier queries (refuted). For a model whose log10 c has second derivatives bounded by K1 in log10 mass and K2 in redshift, the reply's log10 is within K1 0.064^2/8 + K2 0.017^2/8 of the model's.", "quantifier": "all query sequences", "why_tests_cant": "History property.", "anchors": ["pyHalo/Halos/concentration.py"]}
{"id": "C49", "title": "Default keyword dictionaries of WDM concentration classes leak between instances", "statement": "Two WDM concentration objects created with default kwargs_cdm should be independent; the first instance writes its scatter settings into the shared default dictionary (refuted), while objects created through the preset models are independent.", "quantifier": "all construction sequences", "why_tests_cant": "History/aliasing property.", "anchors": ["pyHalo/Halos/concentration.py", "pyHalo/concentration_models.py"]}
{"id": "C50", "title": "Binned concentrations cover the declared mass range", "statement": "BinnedHaloMass assigns each mass inside the declared range to the first bin whose upper edge exceeds it (the bin containing it when bins are contiguous) and raises outside; a mass exactly at the top edge passes the range check but raises (refuted).", "quantifier": "all bin lists and masses", "why_tests_cant": "All boundaries.", "anchors": ["pyHalo/Halos/concentration.py:BinnedHaloMass"]}
{"id": "C51", "title": "Bound masses from the Galacticus mass-loss model never exceed infall mass", "statement": "For every input and every random draw the bound mass given by the Galacticus, Galacticus-infall-redshift and Milky Way mass-loss models is positive and at most the infall mass; log10 of the bound fraction follows Johnson's SU law capped at zero with parameters interpolated in the shipped tables (exact at grid points, inputs limited to stated ranges), non-decreasing in the draw. The approximate CDM model draws a truncated normal on [-10,0], the bound-mass-PDF model stays strictly below the infall mass. Violated: the Zinfall model extrapolates beyond its table (elapsed redshift 8.1 to 9.5); the vectorised and per-halo Galacticus models differ for host concentrations in (8,9]; the Keeley 2024 model can return a bound mass above the infall mass.", "quantifier": "all concentrations, times, host concentrations, random draws", "why_tests_cant": "Continuum of inputs.", "anchors": ["pyHalo/Halos/galacticus_truncation/interp_mass_loss.py", "pyHalo/Halos/batch_halo_util.py"]}
{"id": "C52", "title": "Tidal transfer function stays in (0,1]", "statement": "The Du et al. (2024) tidal track factor f_t is in (0,1] for every bound mass fraction, equals 1 at and above the threshold, and increases with bound mass fraction.", "quantifier": "all bound fractions and supported profile parameters", "why_tests_cant": "Continuum.", "anchors": ["pyHalo/Halos/galacticus_truncation/transfer_function_density_profile.py:_f_t_Du_2024"]}
{"id": "C53", "title": "Enclosed-mass closed forms are integrals of the density", "statement": "Each closed-form enclosed/total mass used by the transfer-function module is the integral of the corresponding density profile.", "quantifier": "all radii and truncation radii", "why_tests_cant": "Integral identities.", "anchors": ["pyHalo/Halos/galacticus_truncation/transfer_function_density_profile.py"]}
{"id": "C54", "title": "Truncation radius table only grows and covers the query", "statement": "The table used to invert the total mass for the truncation radius covers every queried mass after the call, its range of radii only grows, the search ends (the total mass being unbounded), the returned radius and normalisation reproduce the bound mass up to the interpolation error, and the batch version agrees with the one-by-one version. A call for a profile without closed form breaks this for later calls.", "quantifier": "all query sequences", "why_tests_cant": "History property/termination.", "anchors": ["pyHalo/Halos/galacticus_truncation/transfer_function_density_profile.py:_Truncation_Radius"]}
{"id": "C55", "title": "NFW normalisation is self-consistent", "statement": "NFW_params_physical returns (rho_s, r_s, r_200) such that the NFW mass inside r_200 equals the halo mass, r_200 = c*r_s, and the mean density inside r_200 is 200 times critical. The same holds when the concentration is computed from mass and redshift and rescaled. A halo works its parameters out once: after the first successful query it answers with the same values, whichever cosmology is used later.", "quantifier": "all masses, concentrations, redshifts", "why_tests_cant": "Identity over a continuum.", "anchors": ["pyHalo/Halos/lens_cosmo.py:LensCosmo.NFW_params_physical"]}
{"id": "C56", "title": "Parametric SIDM evolution keeps radii positive and ordered", "statement": "For every time t >= 0 in units of the collapse time the evolved scale radius, core radius and density are positive, the core is smaller than the scale radius and nothing changes after 1.6 collapse times. The returned deflection normalises the trapezoidal mass inside r200 to the mass to be conserved. The batch computation equals the per-halo one for halo lists with complete arguments; a field halo without lambda_t makes it fail beside a subhalo (refuted).", "quantifier": "all t >= 0, rs, rhos > 0", "why_tests_cant": "Continuum.", "anchors": ["pyHalo/Halos/HaloModels/NFW_core_trunc.py:evolve_profile"]}
{"id": "C57", "title": "Composite core-collapsed profile conserves both mass constraints", "statement": "The two amplitudes solved for are non-negative, make the composite profile's mass equal the target mass at the matching radius and at r200, and are the only ones that do; an exception is raised exactly when one of them would be negative. The black-hole variant adds the black hole on top and so exceeds the target (refuted). The hybrid TNFW/TNFWC keywords carry weights that sum to one, but a constituent that was queried before keeps its stale profile (refuted).", "quantifier": "all component profiles with masses linear in the amplitude, all halos, all query histories", "why_tests_cant": "Algebraic law.", "anchors": ["pyHalo/Halos/HaloModels/core_collapsed_halo.py", "pyHalo/Halos/HaloModels/NFW_core_trunc.py"]}
{"id": "C58", "title": "Lensing keywords of the black-hole core-collapsed halo depend on query order", "statement": "Queries of the composite halos are history independent, and the two forms of the parameters agree; CoreCollapsedHaloBH returns one keyword dictionary per profile name unless its split parameters have been requested before, after which lenstronomy_params returns two dictionaries for one name (refuted); its density always raises a KeyError because of a misspelt key.", "quantifier": "all query histories", "why_tests_cant": "History property.", "anchors": ["pyHalo/Halos/HaloModels/core_collapsed_halo.py:CoreCollapsedHaloBH.lenstronomy_params_split"]}
{"id": "C59", "title": "Generalised NFW halos match the NFW mass although they share a dictionary", "statement": "A generalised NFW halo contains, inside the matching radius, the mass of the NFW halo of the same mass and concentration, in every query history of halos that share one argument dictionary: the shared transition radius cancels. It does not cancel if the dictionary carries a target mass (then a later halo gets the target times the cube of the ratio of scale radii: refuted), nor do the masses match if the two draws of the concentration differ (refuted).", "quantifier": "all halo lists sharing dictionaries, all query orders, every profile with the dimension of a mass", "why_tests_cant": "Aliasing/history property.", "anchors": ["pyHalo/Halos/HaloModels/generalized_nfw.py:_GeneralNFWBase._density_norm", "pyHalo/single_realization.py:Realization._load_halo_model"]}
{"id": "C60", "title": "Pseudo-Jaffe normalisation reproduces the halo mass", "statement": "The pseudo-Jaffe central density is the only one for which the profile mass inside the matching radius equals the target mass, whenever the two radii differ; the lens parameters describe a density that contains the halo mass inside r200 and whose central surface density is sigma0 critical densities; params_physical passes the same radius twice and yields 0/0 (refuted).", "quantifier": "all radii, masses, cosmologies", "why_tests_cant": "Integral identity.", "anchors": ["pyHalo/Halos/HaloModels/PsuedoJaffe.py"]}
{"id": "C61", "title": "Globular cluster and ULDM normalisations", "statement": "The globular-cluster density normalisation makes the enclosed mass at the cluster size equal the cluster mass; the ULDM rescaling shrinks the mass error by the soliton's mass fraction, so it never worsens it, but the documented equality with the halo mass fails, even with zero mass penalty (refuted); the soliton's core radius scales with particle and halo mass as stated; theta_c and kappa_0 are the angular core radius and the central convergence at the lens redshift, not at the halo's own redshift (refuted for line-of-sight halos). The penalty minimised for the ULDM profile is never negative and is zero exactly when both the mass and the density constraint hold.", "quantifier": "all parameters", "why_tests_cant": "Algebraic/integral identity.", "anchors": ["pyHalo/Halos/HaloModels/globular_cluster.py", "pyHalo/Halos/HaloModels/ULDM.py"]}
{"id": "C62", "title": "Stucker parameters invert the suppression function", "statement": "The mass scale computed for a suppression fraction is exactly the mass at which the suppression function equals that fraction.", "quantifier": "all fractions in (0,1), positive a, b and negative c", "why_tests_cant": "Continuum.", "anchors": ["pyHalo/Rendering/MassFunctions/stucker.py"]}
{"id": "C63", "title": "Every Galacticus node is attributed to its merger tree", "statement": "For start indexes of at least two trees, node i gets the order and index of the tree whose range contains i, and every node gets exactly one; with a single tree the function raises (refuted). Without an output number the latest output of the file is read, and the table has exactly the requested columns plus the mandatory ones.", "quantifier": "all start index arrays and node counts", "why_tests_cant": "All sizes.", "anchors": ["pyHalo/Halos/galacticus_util/galacticus_util.py:GalacticusUtil.hdf5_read_custom_nodedata"]}
{"id": "C64", "title": "Node filters are complementary and applied consistently", "statement": "The subhalo and halo filters are complementary; applying a filter keeps all columns aligned (the result is the table of the nodes that pass) and a mask of another length is refused; the virial filter compares each node with the host of its own tree; mass limits are strict; the projected radius is the distance of the node from the line of sight, never exceeds the 3d radius, is invariant under moving along the line of sight and independent of the length of the normal; selecting a single subhalo always raises (refuted).", "quantifier": "all node tables, filters, projection directions", "why_tests_cant": "All tables and vectors.", "anchors": ["pyHalo/Halos/galacticus_util/galacticus_filter.py"]}
{"id": "C65", "title": "Galacticus import keeps exactly the requested subhalos with their properties", "statement": "DMFromGalacticus creates, in file order, exactly one subhalo per node that passes all documented cuts (subhalo, inside its host's virial radius, mass strictly inside the limits, right tree, projected inside the cone), with the node's infall mass, projected position on two perpendicular sky axes, 3d radius, profile parameters in kpc units, concentration, infall redshift and id; a user-supplied filter replaces all cuts.", "quantifier": "all node tables, presets, keywords", "why_tests_cant": "All keyword combinations.", "anchors": ["pyHalo/PresetModels/external.py:DMFromGalacticus", "pyHalo/Halos/HaloModels/TNFWFromParams.py"]}
{"id": "C66", "title": "Preset names resolve", "statement": "Each documented preset, concentration, truncation and mass-function name resolves to its class and calibration, and every other name raises; the CDM and WDM presets build from these names exactly the instances described (calibration over the caller's values for concentrations, the caller's values over the calibration for truncations, plus the cosmology, host concentration and log_mc the preset supplies). Documented choices that cannot work are shown to fail for every call: 'DMEmulator' (import error), include_prompt_cusps=True, 'CONSTANT' concentrations in CDM, four concentration models in WDM, the default ULDM call; and the caller's scatter_dex (CDM), 'BOSE2016_LUDLOW' (WDM) and the default WDM subhalo mass function do not mean what is documented (refuted).", "quantifier": "all strings, all positional and keyword argument combinations, all dictionary contents", "why_tests_cant": "All names and all argument combinations, including aliased dictionaries.", "anchors": ["pyHalo/preset_models.py:preset_model_from_name", "pyHalo/concentration_models.py:preset_concentration_models", "pyHalo/truncation_models.py:truncation_models", "pyHalo/mass_function_models.py:preset_mass_function_models", "pyHalo/PresetModels/cdm.py:CDM", "pyHalo/PresetModels/wdm.py:WDM", "pyHalo/PresetModels/uldm.py:ULDM"]}
{"id": "C67", "title": "Preset set-up: amplitude precedence, slope tilt and keyword isolation", "statement": "In the CDM, WDM and WDMGeneral presets log10_dNdA overrides log10_sigma_sub which overrides sigma_sub, and the mass function receives exactly one amplitude. Whatever a preset does, also when it raises, it changes only dictionaries the caller passed or its own default dictionaries, and in them only a fixed list of keys; it does write into the caller's dictionaries, so a dictionary passed to WDM can no longer be passed to CDM (refuted isolation). delta_power_law_index of the CDM preset tilts only the field-halo mass functions although documented for both (refuted).", "quantifier": "all argument combinations and call histories", "why_tests_cant": "All keyword combinations/histories.", "anchors": ["pyHalo/PresetModels/cdm.py:CDM", "pyHalo/PresetModels/wdm.py:WDM", "pyHalo/mass_function_models.py:preset_mass_function_models"]}
{"id": "C68", "title": "Two-halo population is a boosted line-of-sight population at the lens redshift", "statement": "A TWO_HALO population is drawn from the line-of-sight mass function at the lens redshift with the thickness of the plane nearest the lens and a normalisation multiplied by twice the mean enhancement over the comoving distance from 0.5 Mpc to the plane spacing; the boost lies between the bounds of the enhancement; the Lazar modification strictly increases the integrated enhancement by an explicit amount; a missing host mass, missing planes, empty planes and a callable normalisation raise; when the plane spacing is at most 0.5 Mpc comoving, rendering raises ValueError (refuted: 'works for every plane spacing').", "quantifier": "all planes, host masses, cosmologies and mass functions", "why_tests_cant": "All plane spacings and bias functions.", "anchors": ["pyHalo/Rendering/two_halo.py:TwoHalo", "pyHalo/Cosmology/geometry.py", "pyHalo/utilities.py"]}
{"id": "C69", "title": "add_correlated_structure rescales exactly the halos near the image paths", "statement": "add_correlated_structure keeps the number, order, positions and redshifts of the halos; exactly the halos inside the aperture of some image path have their normalisation multiplied once by a common factor (1 or 1 - fraction), none if rescaling is off; added point masses sit at coordinates of existing halos; no image paths raise; the factor is the one of the last plane of the last image so the lost mass fraction is not removed in general (refuted).", "quantifier": "all realizations, image paths, mass functions and draws", "why_tests_cant": "All realizations and ray paths.", "anchors": ["pyHalo/realization_extensions.py:RealizationExtensions.add_correlated_structure", "pyHalo/Rendering/correlated_structure.py"]}
{"id": "C70", "title": "Globular clusters populate the requested centres and nothing else", "statement": "add_globular_clusters returns, after the existing halos in their order, for each centre round(surface density times area over mean mass) clusters at the lens redshift, within the requested radius of that centre, with mass, size and slope inside their ranges; the input realization is unchanged.", "quantifier": "all realizations, centre lists, radii, size and mass parameters and random numbers", "why_tests_cant": "a test draws a few clusters for one parameter set; the claim is for every draw and every list of centres", "anchors": ["pyHalo/realization_extensions.py:RealizationExtensions.add_globular_clusters", "pyHalo/Halos/HaloModels/globular_cluster.py"]}
{"id": "C71", "title": "Primordial black holes: smooth and clustered parts", "statement": "add_primordial_black_holes adds, per image and lens plane, a Poisson number of black holes whose expected mass is (1 - fraction in halos) times f times density times volume, within the rendering radius of that image, plus the clustered part with f times the fraction in halos; the clustered part has the chosen mass function and the radius of each image (both refuted: clustered masses are always the delta function and only the last image radius is used); unknown types, no planes and no images raise.", "quantifier": "all lists of images, planes, fractions, mass functions and random numbers", "why_tests_cant": "needs every combination of images, radii and mass-function type", "anchors": ["pyHalo/realization_extensions.py:RealizationExtensions.add_primordial_black_holes"]}
{"id": "C72", "title": "Map sampling follows the map", "statement": "Positions drawn from a two-dimensional density map fall on pixels of positive density, the pixel being the one whose cumulated density interval contains the uniform deviate, with (x, y) = (column, row) centre of that pixel plus shift and smoothing; a map with zero total raises and nothing else does.", "quantifier": "all maps, sizes, shifts and uniform/normal deviates", "why_tests_cant": "sampling tests are statistical and depend on one seed and one map", "anchors": ["pyHalo/Rendering/SpatialDistributions/correlated.py:Correlated2D.draw"]}
{"id": "C73", "title": "Batch evaluation of concentrations equals the halo-by-halo evaluation", "statement": "The vectorised evaluation gives, for every concentration class and list of masses with the same random deviates, exactly the values of one scalar call per mass; precomputing the concentrations of a realization gives each halo that has none the value of its own class, mass and evaluation redshift, keeps those already set, changes nothing else, and succeeds whenever the scalar calls do, for every mixture of classes and redshifts.", "quantifier": "all classes, lists of halos and deviates", "why_tests_cant": "All groupings of halos by class and redshift.", "anchors": ["pyHalo/Halos/batch_halo_util.py:batch_nfw_concentration", "pyHalo/Halos/batch_halo_util.py:precompute_concentrations"]}
{"id": "C74", "title": "Lensing angles and critical densities agree with the mass model", "statement": "The scale angle passed to the lens model subtends the halo's scale radius, and deflection over angle there equals the mean convergence: projected mass inside one scale radius divided by area and critical surface density, for both NFW variants. The Einstein radius of a point mass encloses exactly that mass at the critical surface density; the isothermal Einstein radius does so to one part in a thousand. Critical densities in Mpc, kpc and arcsec units weigh the same.", "quantifier": "all halo parameters, lens and source redshifts with positive distances", "why_tests_cant": "an identity between an improper projected-mass integral and a closed form over a continuous family of halos", "anchors": ["pyHalo/Halos/lens_cosmo.py: nfw_physical2angle, nfw_physical2angle_fromNFWparams, get_sigma_crit_lensing, sigma_crit_mass, point_mass_factor_z, thetaE_from_sigma"]}
{"id": "C75", "title": "Half-mode and thermal relic masses are inverse to each other", "statement": "Every positive thermal relic mass has exactly one half-mode mass, the relation is strictly decreasing, and the conversion thermal to half-mode returns that mass whenever the numerical minimiser returns a global minimum. The free-streaming length corresponds to a half-mode sphere of the stated mass at the critical density.", "quantifier": "all positive masses, all cosmologies, all minimisers that find a global minimum", "why_tests_cant": "uniqueness of the solution and correctness for every minimiser range over a continuum", "anchors": ["pyHalo/Halos/lens_cosmo.py: mthermal_to_halfmode, halfmode_to_thermal, mhm_to_fsl"]}
{"id": "C76", "title": "Peak velocity and dynamical time of an NFW halo", "statement": "nfw_vmax is the maximum circular velocity of the NFW halo to within 1.3 per cent, from below; halo_dynamical_time is r_200 / v_max of the halo (the documentation says 2 r_vir / v_max: refuted).", "quantifier": "all positive densities, scale radii, masses, concentrations and redshifts", "why_tests_cant": "a maximum over all radii for all halos", "anchors": ["pyHalo/Halos/lens_cosmo.py: nfw_vmax, halo_dynamical_time"]}
{"id": "C77", "title": "The SIDM clock", "statement": "The effective age of a subhalo is the time from formation (z = 10) to infall plus lambda_t times the time from infall to observation; infall earlier than z = 10 counts as z = 10; it is never negative, independent of infall when lambda_t = 1 and strictly increasing in lambda_t. The core-collapse time is positive and inversely proportional to cross section, scale radius and density to the power 3/2; the mean free path is the inverse of density times cross section.", "quantifier": "all redshifts, infall redshifts, time dilation factors, densities, radii and cross sections, every age function decreasing in redshift", "why_tests_cant": "monotonicity and scaling over continuous inputs", "anchors": ["pyHalo/Halos/lens_cosmo.py: sidm_halo_effective_age, sidm_collapse_timescale, mean_free_path", "pyHalo/Cosmology/cosmology.py: halo_age"]}
{"id": "C78", "title": "Cored power-law halos match the NFW mass", "statement": "The lens parameters of a power-law halo describe a cored power law that contains, inside x_match NFW scale radii, exactly the mass of the NFW halo with the same mass and concentration; its core radius is x_core_halo scale radii.", "quantifier": "all masses, concentrations, slopes, core sizes, matching radii and cosmologies", "why_tests_cant": "Integral identity over all parameters.", "anchors": ["pyHalo/Halos/HaloModels/powerlaw.py:PowerLawSubhalo.lenstronomy_params"]}
{"id": "C79", "title": "Emulator halos are NFW halos of their infall mass", "statement": "For every infall mass and concentration returned by an emulator, the density, scale radius and virial radius that DMSubhalosFromEmulator stores are those of the NFW halo with this mass and concentration whose mean density inside the virial radius is 200 times critical at the lens redshift.", "quantifier": "all masses, concentrations, redshifts and cosmologies", "why_tests_cant": "All positive reals; relates an integral of the density to the mass.", "anchors": ["pyHalo/PresetModels/external.py:DMSubhalosFromEmulator", "pyHalo/Halos/lens_cosmo.py:LensCosmo.NFW_params_physical"]}
{"id": "C80", "title": "Line-of-sight halos accompanying imported subhalos contain no subhalos", "statement": "When DMFromGalacticus renders the line-of-sight halos that accompany the subhalos it imports, the preset model it calls is configured with a subhalo mass-function amplitude of exactly zero, whatever other keyword arguments the caller passes for the line of sight (an amplitude sigma_sub passed by the caller is overridden), for every preset model. An amplitude of zero means a zero expected number of subhalos. The unchanged code violates this for the ULDM preset, whose default log10_sigma_sub = -1 takes precedence over the zero; and JointLOSWithEmulator does not switch the subhalos off at all, so the emulated subhalos are added to a full population of subhalos.", "quantifier": "all preset names, source redshifts, cone angles, keyword dictionaries and contents of the presets' mutable default dictionaries", "why_tests_cant": "Ranges over all keyword dictionaries and presets, and over the history-dependent contents of default dictionaries; tests use the CDM default.", "anchors": ["pyHalo/PresetModels/external.py:DMFromGalacticus", "pyHalo/PresetModels/external.py:JointLOSWithEmulator", "pyHalo/preset_models.py:preset_model_from_name"]}
{"id": "C81", "title": "Preset calls do not influence later preset calls through default arguments", "statement": "The presets have dictionaries as default arguments, which Python allocates once per process, and write into them. Nevertheless, after any history of preset calls (with any arguments, successful or failing) and any changes the caller makes to dictionaries of their own, a preset call yields the same set-up, or raises the same error, and changes the caller's dictionaries in the same way as in a fresh process in which the caller's dictionaries have the same contents. The unchanged code violates this for infall_redshift_model='DIRECT_INFALL' with the default infall dictionary: it picks up the host mass of an earlier call.", "quantifier": "all histories of calls of all eleven presets, all arguments, all contents of the caller's dictionaries", "why_tests_cant": "Ranges over all finite histories of calls in one process, including calls that raise half-way.", "anchors": ["pyHalo/PresetModels/cdm.py", "pyHalo/PresetModels/wdm.py", "pyHalo/PresetModels/sidm.py", "pyHalo/PresetModels/uldm.py", "pyHalo/PresetModels/mbh.py", "pyHalo/Halos/lens_cosmo.py:LensCosmo.setup_infall_model"]}
{"id": "C82", "title": "Presets that build on CDM and WDM pass their arguments through", "statement": "SIDM_core_collapse, SIDM_parametric and CDM_plus_BH produce exactly the set-up that CDM produces when called with the arguments of the same name, followed by their own post-processing step (core collapse, cross sections with their bins, black holes) and optional globular clusters; SIDM_parametric_fixedbins does the same through SIDM_parametric; WDM_mixed and ULDM produce the set-up of WDM, with the documented half-mode mass, minimum mass and profile arguments (ULDM) or mixed dark-matter parameters (WDM_mixed). No argument the caller passes is dropped, swapped or replaced, other than those listed for the preset.", "quantifier": "all positional and keyword calls of these presets, and all states of the default dictionaries", "why_tests_cant": "Each preset has about forty arguments; the claim is about every one of them in every call.", "anchors": ["pyHalo/PresetModels/sidm.py", "pyHalo/PresetModels/mbh.py", "pyHalo/PresetModels/wdm.py:WDM_mixed", "pyHalo/PresetModels/uldm.py:ULDM"]}
{"id": "C83", "title": "Every population is rendered in the volume and mass range asked for", "statement": "For every successful preset call, the lists of mass functions, mass-function arguments, spatial distributions and populations handed to the renderer fit together index by index: the geometry is built from the caller's redshifts, cosmology, cone opening angle and geometry type; each population has the caller's log_mlow and log_mhigh; subhalos are paired with a projected distribution of radius cone_opening_angle/2, line-of-sight and two-halo halos with a uniform distribution in the cone of that opening angle; and the populations are subhalos, line of sight and, if requested, the two-halo term.", "quantifier": "all positional and keyword calls of CDM, WDM, WDMGeneral and the presets built on them", "why_tests_cant": "All argument combinations; a swapped list entry shows only in distributions of random halos.", "anchors": ["pyHalo/PresetModels/cdm.py:CDM", "pyHalo/PresetModels/wdm.py:WDM", "pyHalo/PresetModels/wdm.py:WDMGeneral", "pyHalo/pyhalo.py:pyHalo.render"]}
{"id": "C84", "title": "Binned presets cover the mass range once", "statement": "In CDMBinned the two mass bins of every population join at 10^8 solar masses and cover 10^6 to 10^10.7 without gap or overlap; subhalo and line-of-sight amplitudes are multiplied by scale_mass_function_low in the low bin and by scale_mass_function_high in the high bin; and the concentration relation uses the same bins with normalisations 10**log10_mc_low and 10**log10_mc_high. SIDM_parametric_fixedbins rejects log_mlow above 8 and otherwise applies its two cross sections to [log_mlow, 8] and [8, log_mhigh].", "quantifier": "all calls", "why_tests_cant": "All argument values; errors show only in halo statistics.", "anchors": ["pyHalo/PresetModels/cdm.py:CDMBinned", "pyHalo/PresetModels/sidm.py:SIDM_parametric_fixedbins"]}
{"id": "C85", "title": "Warming the caches of a realization in one batch changes no answer", "statement": "precompute_realization, called on a realization whose truncated NFW halos were made with the truncation classes of its halo-model dictionary, never fails where the per-halo path would not, and leaves every such halo without a profile in exactly the state that asking it for infall redshift, time since infall, concentration, profile arguments and NFW parameters would leave (field halos: concentration, redshift, NFW parameters, profile arguments); other halos are untouched, a second call changes nothing, and every later query of lensing keywords, physical parameters, profile arguments, NFW parameters, concentration, infall, vmax, densities and bound mass gives the same answer as without the call. precompute_tnfw_bound_masses stores the bound mass the halo reports. Deviations proved: for TruncationGalacticusZinfall with a random mass-loss model the batch uses the bound-mass draw where the object makes a second draw; the classes are taken from the dictionary and not from the halos, so joined realizations are truncated wrongly; set_bound_mass has no effect on what a truncated subhalo reports. An exception raised by the per-halo computation is raised by the batch call as well.", "quantifier": "all environments (cosmology, random draws, tables), all lists of halo objects with any history of queries (exact form: any history of queries, rescalings, moves and infall assignments), all halo-model dictionaries", "why_tests_cant": "A test compares a few seeds; transparency must hold for every mixture of halo kinds, every subset already cached and every order of earlier calls.", "anchors": ["pyHalo/Halos/batch_halo_util.py: precompute_realization, precompute_tnfw_subhalos, precompute_tnfw_field_halos, precompute_infall_times, precompute_concentrations, precompute_nfw_params, precompute_tnfw_bound_masses", "pyHalo/Halos/HaloModels/TNFW.py: TNFWSubhalo, TNFWFieldHalo", "pyHalo/Halos/halo_base.py: Halo"]}
{"id": "C86", "title": "Overdensity and splashback truncation radii enclose the stated density", "statement": "TruncationRN gives the unique-by-density radius inside which the mass of the halo has N times the critical density at the given redshift; N = 200 gives r200 of the NFW profile; the radius strictly grows with mass and strictly shrinks with N; the vectorised version gives the same radii; a halo object truncated this way reports that radius after any queries, evaluated at its infall redshift (subhalo) or redshift (field halo). TruncationSplashBack multiplies the colossus ratio by the radius with mean density 200 Om0 rho_crit(z). Deviation proved: this is R200m (200 times the mean matter density) only where E(z)^2 = (1+z)^3; in a flat universe with a cosmological constant at no redshift above zero.", "quantifier": "all cosmologies with positive expansion rate, masses, redshifts, overdensities; all query histories; all splashback models", "why_tests_cant": "A test pins numbers for a few masses; the density meaning and monotonicity concern every mass, redshift and cosmology.", "anchors": ["pyHalo/Halos/tidal_truncation.py: TruncationRN, TruncationSplashBack", "pyHalo/Halos/batch_halo_util.py: vectorised truncation", "pyHalo/Halos/lens_cosmo.py: rN_M_nfw_comoving, NFW_params_physical"]}
{"id": "C87", "title": "The Roche truncation is the documented power law to three decimals", "statement": "TruncationRoche gives norm (m/1e7)^m_power (r3d/50)^nu rounded to a multiple of 0.001 kpc, within 0.0005 kpc of the formula, non-negative and never decreasing with mass or distance. Deviation proved: the radius is exactly zero iff the formula gives at most 0.0005 kpc, so with default parameters halos of positive mass can have no extent.", "quantifier": "all masses, distances and parameters (monotonicity: non-negative norm and exponents)", "why_tests_cant": "Rounding effects show up only for particular inputs; the bound and the monotonicity must hold for all.", "anchors": ["pyHalo/Halos/tidal_truncation.py: TruncationRoche"]}
{"id": "C88", "title": "Truncation at a multiple of the scale radius", "statement": "TruncateMeanDensity gives r_t / r_s = norm (c / c_median)^power, norm for a halo of median concentration, times an absolute Gaussian deviate when there is scatter, so the radius is never negative; at fixed mass and redshift the radius strictly grows with the concentration for power > 1, does not depend on it for power = 1 and strictly shrinks for power < 1. Multiple_RS gives r_t / r_s = tau.", "quantifier": "all cosmologies, masses, redshifts, concentrations, parameters and Gaussian deviates", "why_tests_cant": "The change of direction at power one is a statement about all pairs of concentrations.", "anchors": ["pyHalo/Halos/tidal_truncation.py: TruncateMeanDensity, Multiple_RS", "pyHalo/Halos/lens_cosmo.py: NFW_params_physical"]}
{"id": "C89", "title": "What a truncated halo reports about itself is consistent", "statement": "After any queries, the 3d density profile of a truncated NFW halo is that of its reported physical parameters divided by the factor by which its truncation model rescaled the normalisation; for truncation models that do not rescale the two agree. Deviations proved: for rescaling models they differ (a factor two in the witness); the radius given in arcseconds to ConstantTruncationArcsec is used as kiloparsec and divided by kpc per arcsecond in the lensing keywords.", "quantifier": "all environments, halos, query histories and radii", "why_tests_cant": "Requires every order of earlier queries and every truncation model.", "anchors": ["pyHalo/Halos/HaloModels/TNFW.py: density_profile_3d, params_physical, lenstronomy_params", "pyHalo/Halos/tidal_truncation.py: ConstantTruncationArcsec"]}
{"id": "C90", "title": "The two ways to compute a truncation radius agree", "statement": "For every truncation class, calling truncation_radius with the attributes of a halo gives the truncation radius the halo object reports, after any queries, with the same random draw. Deviation proved: TruncationGalacticusApproxCDM.truncation_radius always raises an AttributeError although halo objects are truncated by the class without error; TruncationBoundMassPDF has no such method.", "quantifier": "all environments, halos, truncation classes and query histories", "why_tests_cant": "Equality of two code paths for every halo and every state of the caches.", "anchors": ["pyHalo/Halos/tidal_truncation.py: truncation_radius and truncation_radius_halo of every class"]}
{"id": "C91", "title": "Two-point correlation of a convergence map is a bounded, mask-respecting covariance", "statement": "Every entry of the correlation function computed from a convergence map is, up to the survey area used for normalisation, the covariance of the two convergence values over all pairs of points at the requested separation and angle that both lie in the mask. It never samples the map outside its boundaries and is unaffected by values there or by values outside the mask. Normalised entries lie in [-1, 1]; at zero separation the normalised entry is 1. Adding a constant to the map changes nothing and rescaling it by s rescales the result by s squared. The annular mask keeps exactly the points strictly between the two radii.", "quantifier": "all convergence maps, all masks that do not take the value 0.9, all map sizes, resolutions, separations and angle cosines", "why_tests_cant": "A bound and an invariance for every map and mask; a test compares a handful of maps.", "anchors": ["pyHalo/realization_extensions.py: corr_kappa_with_mask", "pyHalo/utilities.py: mask_annular"]}
{"id": "C92", "title": "Multipoles of the two-point correlation", "statement": "The multipole of order l of a correlation function is the weighted Simpson quadrature of the correlation times cos(l phi) over the angle, with prefactors that make the projection orthonormal in the continuum; it is linear, and the monopole of an isotropic correlation is that correlation. The samples are paired with their own angles exactly when the grid of angle cosines is symmetric; for other grids they are mispaired (refuted). Power spectra of odd multipoles are identically zero and even ones carry the sign (-1)^(l/2). A power law in the fitted range is recovered exactly by the power-law fit.", "quantifier": "all orders, angle grids, correlation tables, radial ranges and power laws", "why_tests_cant": "Quantifies over every grid and order; the pairing failure only shows on asymmetric grids.", "anchors": ["pyHalo/realization_extensions.py: xi_l, xi_l_to_Pk_l, fit_correlation_multipole"]}
{"id": "C93", "title": "Interpolated ray paths follow the traced rays", "statement": "Asking for interpolated ray paths gives one angular path per image and coordinate. Each starts at the image position, passes through the position of the traced ray at every lens plane and at the source, and is defined exactly from the observer to the farthest plane. A path asked to terminate at the source ends there when no lens plane lies behind the source; with a plane behind the source it does not (refuted). An undeflected ray stays at its image position. With averaging there is a single path, equal at 100 equally spaced redshifts to the mean of the image paths.", "quantifier": "all deflection models whose ray shooting composes, increasing distance functions, sets of lens planes, source redshifts above 0.02 and images", "why_tests_cant": "Holds for every configuration of lens planes; the failing configuration is a plane behind the source, which examples rarely contain.", "anchors": ["pyHalo/utilities.py: interpolate_ray_paths, compute_comoving_ray_path"]}
{"id": "C94", "title": "Numerical logarithmic slopes of halo profiles", "statement": "logarithmic_profile_slope on an increasing array of at least two positive radii returns one number per radius, which lies between the smallest and largest true d log rho / d log r on the neighbouring cells; shorter arrays raise a ValueError. For a single radius it returns the true slope at some point within 0.1 per cent above that radius. Power laws are recovered exactly, the result does not depend on the normalisation of the density, and for an NFW density it lies strictly between -3 and -1. The slope of the projected profile is the same in kpc and in arcsec.", "quantifier": "all grids of positive increasing radii and all positive differentiable density profiles", "why_tests_cant": "An error bound for every profile and every grid.", "anchors": ["pyHalo/Halos/halo_base.py: logarithmic_profile_slope, _logarithmic_profile_slope_array", "pyHalo/Halos/HaloModels/NFW_core_trunc.py: log_slope_2d"]}
{"id": "C95", "title": "Projected masses of halos", "statement": "mass_2d of truncated NFW halos is unit-consistent: for a uniform sheet it is exactly the mass in the ring from 10^-3.5 rmax to rmax, it is linear and monotone in the convergence, lies between the masses of sheets bounding the convergence, and for a convergence that falls with radius it misses the true projected mass of the ring by at most the convergence drop times the mass scale of the outermost grid cell. The convergence of a core-collapsed halo, differentiated from the deflection, is exact for quadratic deflections away from the ends. Deviation proved: mass_2d of core-collapsed halos comes out multiplied by the square of kpc per arcsec.", "quantifier": "all convergence profiles, distances, radii and numbers of steps", "why_tests_cant": "Exactness and error bounds for every profile; the unit error cancels in a test at one arcsec per kpc.", "anchors": ["pyHalo/Halos/HaloModels/TNFW.py: mass_2d", "pyHalo/Halos/HaloModels/NFW_core_trunc.py: mass_2d", "pyHalo/Halos/HaloModels/core_collapsed_halo.py: kappa, mass_2d"]}
{"id": "C96", "title": "Minimum halo mass for ultra-light dark matter", "statement": "The smallest halo mass for ultra-light dark matter equals 4.4e7 m22^(-3/2) today, falls by 10^(-3d/2) when the log particle mass grows by d, rises strictly with redshift in a flat matter plus vacuum cosmology, and the value used for rendering is the larger of its logarithm and the user floor.", "quantifier": "all particle masses, floors, redshifts and matter fractions of a flat cosmology", "why_tests_cant": "Monotonicity over a continuum of redshifts and exact scaling laws cannot be sampled.", "anchors": ["pyHalo/utilities.py: MinHaloMassULDM"]}
{"id": "C97", "title": "Fluctuation amplitude of wave dark matter", "statement": "The de Broglie wavelength is inversely proportional to particle mass and velocity; the fluctuation amplitude of the projected host density is defined exactly when the Einstein radius lies inside the virial radius of the host, lies between explicit bounds, decreases with Einstein radius, grows as the square root of the wavelength, and in convergence units is divided by the critical density; the velocity dispersion of the host scales with its density and scale radius and is positive.", "quantifier": "all host profiles, Einstein radii, wavelengths, particle masses and velocities", "why_tests_cant": "Laws over continua of real parameters of a numerical integral.", "anchors": ["pyHalo/utilities.py: de_broglie_wavelength, delta_kappa, delta_sigma, projected_density_squared, nfw_velocity_dispersion"]}
{"id": "C98", "title": "Galaxies that replace massive halos", "statement": "A galaxy put in the place of a massive halo reports a density whose integral over the virial sphere is the mass of the halo it replaces (to half a unit in the tenth decimal of the deflection angle) and is the mass of the lensing keywords it hands out; its keywords never change once read; an isothermal galaxy keeps the Einstein radius of 0.646 times the peak velocity at first read; the infall redshift is stable once read; bound mass is that of the replaced subhalo and fails for field halos; exactly the listed questions fail, in every reachable state. Deviations proved: the infall redshift of the replaced subhalo is lost, moves and rescalings after the first read are ignored, rescale_normalization never has an effect, and calling the normalisation helper breaks later reads.", "quantifier": "all cosmologies, replaced halos, double power-law profiles and all histories of operations", "why_tests_cant": "Mass conservation is an integral identity over all profiles, and the rest quantifies over unbounded histories.", "anchors": ["pyHalo/Halos/HaloModels/sis.py: SIS, MassiveGalaxy", "pyHalo/Halos/halo_base.py: Halo"]}
{"id": "C99", "title": "Views of a realization: coordinates, single halos, convergence map", "statement": "halo_comoving_coordinates returns four arrays with one entry per halo in halo order, the log mass and redshift being exact and the positions being comoving positions divided by the number of radians in an arcsec; a one-halo realization holds exactly the halo asked for; the multi-plane convergence map is square, pixel (i, j) is the convergence added by the realization at grid point (x_j, y_i) of a window of the given full width, and the lens model returned is the macromodel followed by the lens model of the realization, aligned. Deviations proved: coordinates documented as comoving positions are too large by the number of arcsec per radian; a one-halo realization with default halo keywords always fails; the window is half of the documented one in each direction.", "quantifier": "all realizations, distances, macromodels, window sizes and pixel numbers", "why_tests_cant": "Alignment over lists of any length and unit errors that a relative test does not see.", "anchors": ["pyHalo/single_realization.py: Realization.halo_comoving_coordinates, SingleHalo", "pyHalo/utilities.py: multiplane_convergence"]}
{"id": "C100", "title": "Inverse transform sampling reproduces the quantiles of the samples up to a bin", "statement": "ITSampling.from_samples(samples) followed by a call draws values that stay strictly inside the range of the samples, grow with the uniform deviate, and are the u-quantiles of the samples up to a bin of one 150th of the range (fraction below y - w/2 is less than u, fraction below y + 3w/2 at least u). One value is returned per deviate and no deviate the class draws raises. Samples that all agree give draws within 1/300 of them; an empty list raises ValueError; multiplying the cumulative counts by a positive factor changes nothing. The draws do not follow the samples' distribution when the first bin is heavily populated: deviates start at the fraction of samples in the first bin, so that fraction of the distribution is never drawn (99 zeros and one 1 give only draws above 0.98).", "quantifier": "every list of samples, of any length and in any order, every list of uniform deviates in (umin, umax]", "why_tests_cant": "A test draws a few thousand values from one distribution and compares a moment; the quantile bound must hold for every sample list and every deviate, including repeated values and empty bins.", "anchors": ["pyHalo/utilities.py:ITSampling", "pyHalo/utilities.py:ITSampling.from_samples", "pyHalo/utilities.py:ITSampling.__call__"]}
{"id": "C101", "title": "Rescaling and moving a halo, class by class", "statement": "After any history of keyword queries, rescalings and shifts, the lens amplitudes of NFW, cored NFW, truncated NFW and emulator halos are the original ones times the product of the rescalings that count (forced ones, and the ones up to the first logged one). All other profile classes ignore every rescaling, including the ones add_correlated_structure applies (refuted: a rescaling is documented to set the normalization). NFW, cored NFW and ULDM halos always report their current position. Truncated NFW, TNFWC, emulator and SIS halos report the position at the first query after the last rescaling that counted; galaxies, pseudo-Jaffe, generalised NFW, power-law, cluster, core-collapsed and black-hole objects report for good the position at their first query (refuted: a halo asked for its keywords and then shifted reports the old place). Hybrid halos report the position of the two halos they were built from and never follow a shift; Gaussian fluctuations report the centre in their arguments.", "quantifier": "every profile class, every history of queries, rescalings (any factor, forced or not, logged or not) and displacements", "why_tests_cant": "A test rescales or moves one halo once; the claim concerns every interleaving of queries, rescalings and shifts, for sixteen classes.", "anchors": ["pyHalo/Halos/halo_base.py:Halo.rescale_normalization", "pyHalo/single_realization.py:Realization.shift_background_to_source", "pyHalo/Halos/HaloModels/NFW.py:lenstronomy_params", "pyHalo/Halos/HaloModels/NFW_core.py:lenstronomy_params", "pyHalo/Halos/HaloModels/TNFW.py:lenstronomy_params", "pyHalo/Halos/HaloModels/TNFWemulator.py:lenstronomy_params", "pyHalo/Halos/HaloModels/NFW_core_trunc.py:lenstronomy_params, Hybrid", "pyHalo/Halos/HaloModels/sis.py:lenstronomy_params", "pyHalo/Halos/HaloModels/PsuedoJaffe.py:lenstronomy_params", "pyHalo/Halos/HaloModels/generalized_nfw.py:lenstronomy_params", "pyHalo/Halos/HaloModels/powerlaw.py:lenstronomy_params", "pyHalo/Halos/HaloModels/globular_cluster.py:lenstronomy_params", "pyHalo/Halos/HaloModels/core_collapsed_halo.py:lenstronomy_params", "pyHalo/Halos/HaloModels/blackhole.py:lenstronomy_params", "pyHalo/Halos/HaloModels/ULDM.py:lenstronomy_params", "pyHalo/Halos/HaloModels/gaussianhalo.py:lenstronomy_params"]}
{"id": "C102", "title": "Imported halos keep their physical parameters until they are rescaled", "statement": "A truncated NFW halo created from physical parameters returns exactly the imported density, scale radius and truncation radius, and the lens amplitude computed from them, after any sequence of queries. A rescaling breaks it (refuted): its parameters, profile arguments and lens keywords then call each other without end, whatever the depth of the call stack; or, if profile_args had been read before, the imported density and scale radius are replaced by those of an NFW halo of the same mass and concentration and the amplitude carries the factor twice.", "quantifier": "all imported parameters, query sequences, rescaling factors, stack depths", "why_tests_cant": "Every query order and every stack depth.", "anchors": ["pyHalo/Halos/HaloModels/TNFWFromParams.py:TNFWFromParams", "pyHalo/Halos/HaloModels/TNFW.py:TNFWFieldHalo.params_physical", "pyHalo/Halos/halo_base.py:Halo.rescale_normalization"]}
{"id": "C103", "title": "Truncation radii reproduce the bound mass", "statement": "Given the fraction of its mass that a halo keeps and its concentration, the truncation radius the package assigns is the one for which the truncated profile encloses that fraction: at the tabulated values it agrees with the exact radius up to the spacing of the table, and between them it lies between the exact radii of the surrounding tabulated values up to that spacing. A halo that keeps more mass never gets a smaller radius (also beyond the tabulated bound masses), and at the same bound fraction a more concentrated halo gets a larger one. For every fraction between those of two radii exactly one radius exists. The radius is the tabulated one inside the table and that of the nearest table edge outside it, separately in bound mass and in concentration.", "quantifier": "every concentration and bound mass fraction, both tables (the tidal-evolution truncation models and imported halos), every scale radius", "why_tests_cant": "The agreement is an inequality over a two-dimensional continuum, backed by monotonicity of an integral in two variables; a test compares single points.", "anchors": ["pyHalo/Halos/tnfw_halo_util.py: tau_mf_interpolation", "pyHalo/Halos/HaloModels/TNFWemulator.py: tau_mf_interpolator, TNFWSubhaloEmulator.profile_args", "pyHalo/Halos/tidal_truncation.py: TruncationGalacticusKeeley24.truncation_radius"]}
{"id": "C104", "title": "Cosmological parameters reach both cosmology packages", "statement": "Creating a cosmology always succeeds and gives colossus exactly the six parameters H0, Om0, Ob0, ns, sigma8 and power_law, each the keyword if given and the Planck 2018 default otherwise; unless an astropy cosmology is supplied, astropy gets the same H0, Om0 and Ob0. Other keywords have no effect. The top-level class needs H0, Ob0 and Om0 as soon as any keyword dictionary is given (KeyError otherwise) and then both packages use them. A supplied astropy cosmology is not passed on to colossus, which keeps the defaults (as for single halos with an astropy cosmology).", "quantifier": "every keyword dictionary, every astropy cosmology and every program state", "why_tests_cant": "the keyword dictionaries are arbitrary, and any subset of parameters may be given", "anchors": ["pyHalo/Cosmology/cosmology.py: Cosmology.__init__, _setup_astropy_cosmology, _setup_colossus_cosmology", "pyHalo/defaults.py: CosmoDefaults", "pyHalo/pyhalo.py: pyHalo.__init__"]}
{"id": "C105", "title": "Several cosmologies in one program", "statement": "Distances of a cosmology never depend on what is created later. Mass functions, two-halo terms and concentrations without an interpolation table are always computed with the parameters of the last cosmology created anywhere in the program (and with the Hubble parameter of the object asked), so creating further cosmologies with the same parameters changes nothing, while with a custom cosmology a later creation, including the hidden ones in the ray-path helpers, the wave dark matter amplitude and single halos, changes the answers of existing objects. A concentration table keeps the parameters it was computed with as long as only halos inside it are asked; one halo outside makes the whole table be recomputed with the last cosmology, so the same question can get two answers from one object.", "quantifier": "every history of creations and queries, all parameters, masses and redshifts", "why_tests_cant": "it depends on the whole history of objects created in the program", "anchors": ["pyHalo/Cosmology/cosmology.py: _setup_colossus_cosmology", "pyHalo/Rendering/MassFunctions/density_peaks.py: evaluate_mass_function", "pyHalo/Halos/lens_cosmo.py: LensCosmo.twohaloterm", "pyHalo/Halos/concentration.py: ConcentrationDiemerJoyce", "pyHalo/utilities.py: delta_kappa, delta_sigma"]}
{"id": "C106", "title": "A realization from populations to halo objects", "statement": "A rendering request for n realizations that succeeds returns exactly n of them. Each realization consists of exactly the halos of its populations, in order: one halo object per rendered object, with the mass, position, 3d radius, redshift and subhalo flag that were rendered, a class documented for a mass definition of the request, and its own tag. With lens and source redshifts to two decimals every halo lies on a lens plane, at a positive redshift below the source, and subhalos lie at the lens. Passes are independent: asking for fewer realizations gives a prefix, and a call succeeds exactly when every single pass does. It succeeds whenever the populations can be rendered and the halo models are known.", "quantifier": "every list of populations, mass function and spatial class, halo model dictionary, number of realizations and random numbers", "why_tests_cant": "the populations, the draws and the number of realizations are arbitrary", "anchors": ["pyHalo/pyhalo.py: pyHalo.render, _render_masses_positions, _create_realization", "pyHalo/Rendering/halo_population.py: HaloPopulation", "pyHalo/single_realization.py: Realization.__init__, _load_halo_model"]}
{"id": "C107", "title": "Every halo can be handed to the ray-tracing package", "statement": "Every halo class names only lens models the ray-tracing package knows, gives exactly one keyword dictionary per name, and each dictionary contains every keyword that model requires, none it does not know, none twice, and an explicit centre. Consequently, for a realization made of any mixture of halo classes the lens model list and keyword list returned by lensing_quantities are accepted entry by entry, with or without convergence sheets, in both sheet modes.", "quantifier": "all halo classes, all values of their profile parameters, all realizations made of any number of halos of any mixture of classes, both sheet modes", "why_tests_cant": "Tests build one realization of a few classes; acceptance must hold for every mixture and any number of halos and planes.", "anchors": ["pyHalo/single_realization.py:Realization.lensing_quantities", "pyHalo/Halos/HaloModels/NFW_core_trunc.py:Hybrid.lenstronomy_params", "pyHalo/Halos/HaloModels/ULDM.py:ULDMFieldHalo.lenstronomy_params", "pyHalo/Halos/HaloModels/core_collapsed_halo.py:CoreCollapsedHalo.lenstronomy_params"]}
{"id": "C108", "title": "Density, mass and peak velocity of an NFW halo under rescaling", "statement": "After any history of queries and rescalings, the mass an untruncated NFW halo reports inside a radius is the accumulated rescaling factor times the integral of the density it reports, and inside r200 it is that factor times the halo mass. Hence, once rescaled, the reported density is not that of the reported mass (refuted). The peak velocity is fixed by its first query: it belongs to the density times the factor accumulated until then, and later rescalings leave it stale (refuted: a factor two in the witness).", "quantifier": "all expanding cosmologies, masses, concentrations, redshifts, radii, all finite histories of queries and rescalings (forced or not, logged or not)", "why_tests_cant": "The answer depends on the whole history of calls and on a limit (an integral) for every radius.", "anchors": ["pyHalo/Halos/HaloModels/NFW.py: density_profile_3d, mass_3d, vmax_nfw", "pyHalo/Halos/halo_base.py: rescale_normalization, nfw_params"]}
{"id": "C109", "title": "Which concentration a halo uses, class by class", "statement": "NFW, cored NFW, truncated NFW, cored truncated NFW, ULDM and core-collapsed halos draw one concentration; the property c, profile_args and the lensing keywords all use it, it never changes once used, and without manual changes it is the first draw at the redshift of the halo (field) or of its infall (subhalo). Generalised NFW and pseudo-Jaffe halos draw two: one reported as c, one used in profile_args; which is which depends on the order of the queries, and they agree only without scatter (refuted: 'a halo has one concentration'). Power-law halos have no property c; a subhalo honours the keyword 'c', a field halo ignores it (refuted). An infall redshift set before anything is asked fixes the redshift of the concentration; on a field halo it is refused without effect.", "quantifier": "all halo classes with a concentration, all histories of queries and manual infall redshifts, all random streams", "why_tests_cant": "History property over random draws; a test fixes one order and one seed.", "anchors": ["pyHalo/Halos/halo_base.py:Halo.z_eval", "pyHalo/Halos/HaloModels/generalized_nfw.py:GeneralNFWSubhalo.profile_args", "pyHalo/Halos/HaloModels/PsuedoJaffe.py:PJaffeFieldhalo.profile_args", "pyHalo/Halos/HaloModels/powerlaw.py:PowerLawSubhalo.profile_args", "pyHalo/Halos/HaloModels/powerlaw.py:PowerLawFieldHalo.profile_args", "pyHalo/Halos/HaloModels/ULDM.py:ULDMFieldHalo.c"]}
{"id": "C110", "title": "Density and slope of generalised and cored NFW halos", "statement": "The logarithmic slope a generalised NFW halo reports is the derivative of the density it reports; it decreases strictly from minus the inner to minus the outer exponent and takes every value in between at exactly one radius; the reported density, integrated over a shell, gives the mass of the rendered lens model. A cored NFW halo reports, up to one constant and the caller's normalisation, the NFW density of its mass and concentration with the cusp replaced by a core of beta scale radii, so inside r200 it holds at most c/(c+beta) of the constant times its mass (refuted: the default conserve_m200=True conserves the mass; the argument is never read).", "quantifier": "all exponents, radii, halo masses, concentrations, core sizes, redshifts and expanding cosmologies", "why_tests_cant": "Derivative and integral identities over continuous parameters; a test samples a few radii.", "anchors": ["pyHalo/Halos/HaloModels/generalized_nfw.py:GeneralNFWSubhalo.density_profile_3d", "pyHalo/Halos/HaloModels/generalized_nfw.py:GeneralNFWSubhalo.log_profile_slope", "pyHalo/Halos/HaloModels/NFW_core.py:CoreNFWHalo.lenstronomy_params", "pyHalo/Halos/HaloModels/NFW_core.py:CoreNFWHalo.density_profile_3d"]}
{"id": "C111", "title": "Halos made one at a time with simple_setup", "statement": "TNFWSubhalo.simple_setup returns a subhalo with exactly the requested bound mass and infall redshift, the concentration of its mass at infall, and the tidal-track profile of that bound mass, whatever is asked of it before and without drawing an infall redshift or a bound mass; TNFWFieldHalo.simple_setup returns a halo truncated at tau scale radii with the NFW density times tau^2/(tau^2+x^2). Only DIEMERJOYCE19 and LUDLOW2016 can be named as concentration model. Refuted: the tag identifies a halo; all these halos carry the tag 1.0, so joining two realizations made of them drops every halo of the longer one and they compare equal.", "quantifier": "all masses, bound fractions, redshifts, positions, model names, cosmologies, sequences of queries, realizations", "why_tests_cant": "Holds after every sequence of queries and for every model name; the loss in a join depends on all halos of both realizations.", "anchors": ["pyHalo/Halos/HaloModels/TNFW.py:TNFWFieldHalo.simple_setup", "pyHalo/Halos/HaloModels/TNFW.py:TNFWSubhalo.simple_setup", "pyHalo/Halos/halo_base.py:Halo.set_infall_redshift", "pyHalo/single_realization.py:Realization.join", "pyHalo/concentration_models.py:preset_concentration_models"]}
{"id": "C112", "title": "Densities that truncated halos and clusters report versus the lens models they hand out", "statement": "The lens model a truncated NFW halo hands out has at every radius the truncated NFW density of its scale density times its normalisation, independently of the lensing cosmology, and the density method of the object equals the truncated NFW density of the scale density it reports divided by the tidal normalisation (by one when truncation does not rescale). A globular cluster's lens model has the cored power-law density that contains exactly the cluster mass inside its size, with positive central density; its half-mass radius, when the solver returns, is the only radius that contains half the mass and lies inside the cluster, and it raises exactly when the smallest trial radius already contains more than half. Refuted: the density method of the halo and the density of its lens model agree; for tidally rescaled halos they differ by the normalisation.", "quantifier": "all halos, histories of queries, cosmologies with consistent distances, redshifts, radii, cluster masses, sizes, concentrations and slopes, every root finder that returns a root in a bracket", "why_tests_cant": "Identities over all radii, cosmologies and query histories; uniqueness of the half-mass radius over all radii.", "anchors": ["pyHalo/Halos/HaloModels/TNFW.py:density_profile_3d", "pyHalo/Halos/HaloModels/TNFW.py:density_profile_3d_lenstronomy", "pyHalo/Halos/HaloModels/globular_cluster.py:profile_args", "pyHalo/Halos/HaloModels/globular_cluster.py:lenstronomy_params", "pyHalo/Halos/HaloModels/globular_cluster.py:density_profile_3d_lenstronomy", "pyHalo/Halos/HaloModels/globular_cluster.py:half_mass_radius"]}
{"id": "C113", "title": "What the plotting routines draw", "statement": "plot_halo_mass_function draws, at the lower edge of every logarithmic mass bin, the number of selected halos of the realization in that bin (all, those at a redshift, or the field halos in a redshift interval), counting every selected halo between the limits once. plot_concentration_mass_relation draws the median concentration with its standard deviation of the selected halos per bin, nothing for an empty bin. plot_subhalo_mass_functon returns bin centres with heights between zero and the number of subhalos, and the exact counts without scatter when the resampled indices are permutations. The bound-mass scatter plots show one point per subhalo in the mass range and never ask a field halo for a bound mass. Realization.plot draws every halo once, ordered from observer to source, at its comoving position. Refuted: the concentration-mass relation can be evaluated at a redshift (line-of-sight halos there are left out, so at a redshift without subhalos nothing is drawn); the subhalo radial distribution is a number density per square arcsecond (it is counts per pixel and its radius axis is never exact).", "quantifier": "all realizations, selections, mass ranges, numbers of bins, bootstrap draws", "why_tests_cant": "Counting statements over all realizations and bins, medians for all samples; image-comparison tests cannot see them.", "anchors": ["pyHalo/plotting_routines.py:plot_halo_mass_function", "pyHalo/plotting_routines.py:plot_concentration_mass_relation", "pyHalo/plotting_routines.py:plot_subhalo_mass_functon", "pyHalo/plotting_routines.py:plot_subhalo_spatial_distribution", "pyHalo/plotting_routines.py:plot_subhalo_concentration_versus_bound_mass", "pyHalo/single_realization.py:Realization.plot"]}
{"id": "C114", "title": "Subhalos are placed inside their host", "statement": "The projected-NFW distribution built from a host of mass m and concentration c has exactly the scale radius and r_200 of the NFW halo of that mass and concentration at the lens redshift (in arcsec), with a core of r_core_units_rs scale radii, whatever the random state. Every subhalo it places lies inside the rendering disc and inside the host's r_200 (the host mass spread over the sphere through it exceeds 200 times critical), and its three-dimensional and projected radii follow the tabulated mass and projected mass of the cored NFW profile: a radius is below the k-th grid radius iff the deviate is at most the mass fraction below it. r_200 does not depend on the concentration. Only Uniform, LensConeUniform and ProjectedNFW (or a class of the user under a uniform name) can place subhalos; others raise. Uniformly placed subhalos have no 3d radius. Refuted: without c_host the host is determined by its mass (its concentration is drawn with scatter, exact law proved).", "quantifier": "all hosts, cosmologies, cored profiles with positive density, random deviates, numbers of subhalos and spatial-distribution classes", "why_tests_cant": "The law of a 20000-point inverse-transform sampler and unit conversions for all hosts and deviates; tests compare histograms of a few draws.", "anchors": ["pyHalo/Rendering/SpatialDistributions/nfw.py:ProjectedNFW.from_Mhost", "pyHalo/Rendering/SpatialDistributions/nfw.py:ProjectedNFW.draw", "pyHalo/Rendering/SpatialDistributions/base.py:SpatialDistributionBase", "pyHalo/Rendering/SpatialDistributions/uniform.py:Uniform", "pyHalo/Rendering/halo_population.py:HaloPopulation.__init__"]}
{"id": "C115", "title": "Time since infall for every infall model", "statement": "For each calibrated infall model, at every lens redshift for which the package has angular scales, every subhalo in the lens plane reports, whatever its mass, the random number and the history of queries, an infall redshift between the lens redshift and 20, no warning, and a non-negative time since infall that is the difference of two tabulated ages and at most the age since redshift 20; times add up along formation, infall and observation and grow with the infall redshift. INFALL_ZLENS gives time zero; INFALL_0 prints a warning for each subhalo and also gives time zero (refuted: redshift zero is a physical infall time); a user's model outside the age table raises ValueError; halo_age is the time since redshift 10. The vectorised version succeeds on the same lists of subhalos with the same numbers.", "quantifier": "all age functions that decrease with redshift, lens redshifts, masses, random numbers, host masses, previous queries, and lists of subhalos", "why_tests_cant": "a statement about every draw of the infall distribution at every lens redshift together with every earlier query of the shared cosmology object", "anchors": ["pyHalo/Halos/halo_base.py: Halo.z_infall, Halo.time_since_infall, Halo.halo_age", "pyHalo/Cosmology/cosmology.py: Cosmology.halo_age, Cosmology._halo_age_interp", "pyHalo/Halos/lens_cosmo.py: LensCosmo.setup_infall_model", "pyHalo/Halos/accretion.py: InfallAtZlens, Infall0, InfallDistributionHybrid, InfallDistributionDirect, InfallDistributionGalacticus2024, InfallDistributionClusterDirect", "pyHalo/Halos/batch_halo_util.py: precompute_infall_times, _sample_infall_redshifts"]}
{"id": "C116", "title": "The Keeley 2024 mass-loss model on its shipped tables", "statement": "log10 of the bound fraction is normally distributed, with the tabulated mean and scatter (at least 0.001 dex) at the nodes of the grid, mean in [-2.52, 0] and deviation in [0.001, 0.79] everywhere inside it. At every time since infall, also beyond the last tabulated one, the median bound mass is positive and at most the infall mass, and after the last tabulated time it keeps falling. Violated: a subhalo that has just fallen in has its infall mass times a factor above one for half of the draws; inside the table the median is not monotone in time; for a host of concentration 12 (extrapolated) the median bound mass of some subhalos exceeds the infall mass.", "quantifier": "all times since infall, host and subhalo concentrations, masses and normal draws", "why_tests_cant": "the statement ranges over a continuum of interpolated and extrapolated points of a table with 8000 entries and over all random draws", "anchors": ["pyHalo/Halos/galacticus_truncation/interp_mass_loss.py: InterpGalacticusKeeley24", "pyHalo/Halos/galacticus_truncation/tabulated_mass_loss_Keeley24.py: _log10_mbound_over_minfall, _log10_mbound_over_minfall_scatter_dex"]}
{"id": "C117", "title": "Suppression parameters from the slope of the transfer function", "statement": "For a negative slope dlogT_dlogk the transfer function with the computed beta falls to one half at exactly one wave number and has the requested logarithmic slope there. When the root finder converges, the mass function built from the returned a, b, c is suppressed to 20, 50 and 80 per cent at exactly the calibrated masses 0.2651 beta^0.3656, 1.638 beta^-0.0994 and 16.51 beta^-0.9466 (in half-mode masses); the three scales determine a, b, c uniquely, so every converging solver gives the same parameters, and can only be met when they are ordered. The warning is printed exactly when beta is outside [1.5, 6]. Deviations proved: with the absolute value of the slope, which the error message of the STUCKER model asks for, there are no parameters; for slopes below -11 no parameters reproduce the calibrated masses and yet some are returned.", "quantifier": "all slopes, all shape parameters gamma > 0, all root finders, all half-mode masses", "why_tests_cant": "Uniqueness and exactness range over all real parameters and all solvers; a test sees a few slopes with one solver.", "anchors": ["pyHalo/Rendering/MassFunctions/stucker.py", "pyHalo/mass_function_models.py"]}
{"id": "C118", "title": "Halos taken from an emulator's catalogue", "statement": "However a halo made from a catalogue entry (infall mass, final mass, concentration, position in kpc, redshift) is read and rescaled, its physical parameters are those of the NFW halo of its infall mass and concentration at its redshift, its truncation radius is the tabulated number of scale radii for the fraction of mass it keeps, and its lens model has the same scale radius (rounded) and truncation radius in arcsec at the given position, with only the normalisation rescaled. The truncation depends on the two masses through their ratio, grows with it, and agrees with the exact radius up to the cells of the table. Only a non-positive redshift is refused. The final mass of the entry is not reported as the bound mass unless the user states it again (refuted).", "quantifier": "all cosmologies with positive densities and distances, all catalogue entries with positive masses and a tabulated concentration, all histories of reads, rescalings and stated bound masses", "why_tests_cant": "A test reads one entry once; the caches make the result depend on the order of reads and rescalings, and the truncation on a continuous table.", "anchors": ["pyHalo/Halos/HaloModels/TNFWemulator.py TNFWSubhaloEmulator", "pyHalo/Halos/halo_base.py Halo.rescale_normalization, bound_mass, nfw_params"]}
{"id": "C119", "title": "Bound masses, truncation radii and convergence maps as drawn", "statement": "The bound-mass plot shows every subhalo once, in order, at its infall and bound mass, and raises exactly when a subhalo has no bound mass. The truncation histogram contains the logarithm of truncation over scale radius of exactly the halos in the mass range (only subhalos when asked), and raises exactly when one of them lacks either radius. The convergence map is drawn unchanged, or with zero mean and all differences kept; each value is drawn within half a pixel of the point where it was computed, but not at it: the corner is displaced by half a pixel (refuted).", "quantifier": "all realizations, halo parameters, mass ranges, maps, window sizes and pixel numbers", "why_tests_cant": "A plot is judged by eye; which halos are left out or displaced depends on the masses, flags and sizes of a continuum of realizations.", "anchors": ["pyHalo/plotting_routines.py plot_subhalo_bound_mass, plot_truncation_radius_histogram, plot_multiplane_convergence"]}
{"id": "C120", "title": "The position of a halo changes nothing but the centre of its lens model", "statement": "Two truncated NFW halos with the same mass, redshift and models that differ only in where they were created and in where and how often they were moved afterwards answer every question alike after every history of queries, rescalings and settings of the infall redshift: concentration, infall and evaluation redshift, time since infall, NFW and profile parameters, physical parameters, vmax, bound masses, enclosed mass, density, deflection angle. Their lens keywords differ in the centre only. The deflection angle at a radius is, for an axisymmetric lens profile, the deflection that the halo's own lens keywords give at that distance from its centre in every direction, and forced rescalings of a truncated halo multiply it by the product of the factors.", "quantifier": "all environments, halos, positions, pairs of histories that agree once the moves are removed, radii, directions and lens profiles", "why_tests_cant": "the pairs of histories and positions are unbounded; a test moves one halo once", "anchors": ["pyHalo/Halos/HaloModels/TNFW.py: TNFWFieldHalo.deflection_angle, lenstronomy_params, params_physical, mass_3d, bound_mass", "pyHalo/Halos/halo_base.py: Halo.rescale_normalization", "pyHalo/single_realization.py: Realization.shift_background_to_source"]}
{"id": "C121", "title": "Cored and hybrid halos under any history of queries and rescalings", "statement": "For a cored, truncated (self-interacting) halo and any interleaving of queries and rescale_normalization calls: the lens keywords and the density are always those of the halo that was never rescaled; the density normalisation in params_physical is the original one times the rescalings that count (forced ones, and un-forced ones until a logged one happened), and the radii there never change; vmax_nfw is fixed by the rescalings that counted before it was first asked for. Hence a rescaled cored halo reports a normalisation its lens model does not have, and vmax_nfw depends on the order of query and rescaling. For a hybrid of a truncated and a cored halo, rescaling the hybrid or its cored part never changes the amplitudes it hands out; a forced rescaling of its truncated part is seen if the hybrid's keywords were not asked for yet, is not seen once they were, and is seen again after the hybrid itself is forcibly rescaled.", "quantifier": "all halos, all finite sequences of queries and rescalings with any factors and flags", "why_tests_cant": "sequences of queries and rescalings are unbounded and the stale values appear only in some orders", "anchors": ["pyHalo/Halos/HaloModels/NFW_core_trunc.py: TNFWCHaloParametric.lenstronomy_params, params_physical, vmax_nfw, Hybrid.lenstronomy_params", "pyHalo/Halos/halo_base.py: Halo.rescale_normalization, nfw_params"]}
{"id": "C122", "title": "Chains of cuts do not depend on their order and commute with join", "statement": "Any chain of filter, filter_subhalos, filter_bound_mass and split_at_z calls keeps exactly the halos that survive every one of the cuts taken on its own, each with its original multiplicity, and the resulting arrays and setup are consistent. Hence reordering the chain gives the same halos, repeating it changes nothing, and cutting a joined realization gives the same halos as joining the cut realizations. The last statement needs halos with equal tags to be the same object: otherwise joining first may lose a halo that the cut would have kept. If every halo takes part in shift_background_to_source, cutting along rays, by bound mass or by redshift and then shifting leaves the same halos in the same states as shifting first and cutting along the rays carried along by the shift; with fixed-position halos this fails.", "quantifier": "all realizations whose arrays agree with their halos and whose subhalos know their bound mass; all finite chains of cuts with well-formed arguments; all reorderings", "why_tests_cant": "the number and order of cuts and the halo population are unbounded", "anchors": ["pyHalo/single_realization.py: Realization.filter, filter_subhalos, filter_bound_mass, split_at_z, join"]}
{"id": "C123", "title": "What a realization reports is additive over its halos, except for the sheets of its rendering classes", "statement": "Whenever the halos of a realization are distributed over two realizations, the numbers of halos before, at and after any redshift, the exact mass of every plane, and (with the sheets switched off) the lens models returned by lensing_quantities are the sums of those of the two. With the sheets of the rendering classes switched on this fails for split_at_z: both halves carry all the sheets, so using both halves together subtracts every sheet twice.", "quantifier": "all realizations, all ways to distribute their halos over two realizations, all redshifts, all rendering classes", "why_tests_cant": "ranges over all populations, partitions and rendering classes", "anchors": ["pyHalo/single_realization.py: Realization.split_at_z, lensing_quantities, mass_at_z_exact, number_of_halos_before_redshift, number_of_halos_at_redshift, number_of_halos_after_redshift, _mass_sheet_correction"]}
{"id": "C124", "title": "The mean of the drawn population is what the mass function reports", "statement": "Averaged over the Poisson count and over independent uniform random numbers, a draw from a power-law mass function contains n_mean objects and the total mass first_moment, the quantity that the convergence sheets of the rendering classes remove; more generally the mean of any continuous function of mass, summed over the objects, is its integral over the mass function. The same holds for the warm and mixed dark matter mass functions, whose draws are thinned with a second set of random numbers, with their own n_mean and first_moment. Without Poisson noise the mean mass is the rounded number times the mean mass of one object, so it is within half an object of first_moment.", "quantifier": "all mass ranges, slopes (including the logarithmic case), positive amplitudes, suppression parameters, and all continuous weights", "why_tests_cant": "a statement about expectations over all random numbers; sampling tests only estimate it", "anchors": ["pyHalo/Rendering/MassFunctions/mass_function_base.py: _PowerLawBase.draw, _PowerLawTurnoverBase.draw, WDMPowerLaw.draw, n_mean, first_moment", "pyHalo/Rendering/MassFunctions/util.py: integrate_power_law_analytic, integrate_power_law_quad"]}
{"id": "C125", "title": "On average the convergence sheets remove exactly the mass that was rendered", "statement": "For a line-of-sight population (Sheth-Tormen, cold or warm dark matter, Poisson numbers) whose planes have distinct redshifts, and whatever was drawn at the other planes, the mean over the random numbers of the mass rendered at a plane equals the mass whose convergence, spread over the plane, is removed by the negative sheet at that redshift when the sheets use the population's own mass range (kappa_scale 1). The same holds for a subhalo population at the lens redshift. When the sheet of the subhalos starts above the rendered minimum mass it leaves exactly the mean mass of the subhalos in between, which is positive.", "quantifier": "every list of planes, plane, mass range, mass-function amplitude, slope and suppression, spatial distribution, outcome at the other planes, and averaged over every Poisson count and every uniform random number", "why_tests_cant": "A mean over infinitely many counts and all random numbers cannot be computed by running draws; a test sees a noisy sample at chosen parameters.", "anchors": ["pyHalo/Rendering/line_of_sight.py: LineOfSightNoSheet.render, LineOfSight.convergence_sheet_correction", "pyHalo/Rendering/subhalos.py: Subhalos.render, convergence_sheet_correction", "pyHalo/Rendering/MassFunctions/density_peaks.py: ShethTormen, ShethTormenTurnover", "pyHalo/Rendering/MassFunctions/mass_function_base.py: draw, first_moment"]}
