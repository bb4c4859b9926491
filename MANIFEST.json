{
 "claims": [
  {
   "property": "C01",
   "status": "proved",
   "theorems": [
    "C01_partition"
   ],
   "note": "All realizations, any multiplicities."
  },
  {
   "property": "C02",
   "status": "proved",
   "theorems": [
    "C02_filter_exact",
    "C02_filter_unknown_units"
   ],
   "note": "Realizations whose arrays agree with the halos; ray lists of equal non-zero length (numpy broadcasting of unequal lists is in the model but outside the statement)."
  },
  {
   "property": "C03",
   "status": "proved",
   "theorems": [
    "C03_ray_union",
    "C03_ray_order",
    "C03_filter_idempotent",
    "C03_filter_monotone"
   ],
   "note": "Consequences of the exact selection rule."
  },
  {
   "property": "C04",
   "status": "proved",
   "theorems": [
    "C04_filter_subhalos"
   ],
   "note": ""
  },
  {
   "property": "C05",
   "status": "proved",
   "theorems": [
    "C05_filter_bound_mass"
   ],
   "note": ""
  },
  {
   "property": "C06",
   "status": "proved",
   "theorems": [
    "C06_join_union",
    "C06_join_with_part",
    "C06_join_duplicates_refuted"
   ],
   "note": "Needs distinct tags inside each input (random tags); C06_join_duplicates_refuted shows the need."
  },
  {
   "property": "C07",
   "status": "proved",
   "theorems": [
    "C07_split",
    "C07_split_rejoin",
    "C07_documented_boundary_refuted"
   ],
   "note": "The code's boundary is <= / >; the documented one is refuted by C07_documented_boundary_refuted."
  },
  {
   "property": "C08",
   "status": "proved",
   "theorems": [
    "C08_counts",
    "C08_count_before",
    "C08_count_at",
    "C08_count_after",
    "C08_halos_at_z",
    "C08_realization_at_z"
   ],
   "note": ""
  },
  {
   "property": "C09",
   "status": "proved",
   "theorems": [
    "C09_mass_at_z",
    "C09_mass_total"
   ],
   "note": ""
  },
  {
   "property": "C10",
   "status": "proved",
   "theorems": [
    "C10_lensing_aligned",
    "C10_contract_needed_refuted"
   ],
   "note": "Contract on halo classes (as many keyword dictionaries as names) is necessary: C10_contract_needed_refuted."
  },
  {
   "property": "C11",
   "status": "proved",
   "theorems": [
    "C11_exact_sheets",
    "C11_exact_total",
    "C11_class_sheets",
    "C11_classes_not_specified"
   ],
   "note": ""
  },
  {
   "property": "C12",
   "status": "proved",
   "theorems": [
    "C12_no_second_shift"
   ],
   "note": ""
  },
  {
   "property": "C13",
   "status": "proved",
   "theorems": [
    "C13_shift_effect",
    "C13_no_halo_lost_refuted"
   ],
   "note": "The documented reading that foreground halos are merely not shifted is refuted: they are dropped."
  },
  {
   "property": "C14",
   "status": "proved",
   "theorems": [
    "C14_status",
    "C14_at_most_once",
    "C14_forgotten_status_doubles",
    "C14_at_most_once_refuted"
   ],
   "note": "Status for all histories; at-most-once for status-preserving histories; refuted in general."
  },
  {
   "property": "C15",
   "status": "proved",
   "theorems": [
    "C15_original_out_of_sync",
    "C15_original_cut_uses_old_positions",
    "C15_original_shifts_twice"
   ],
   "note": "Side effects on the original realization, all unshifted realizations."
  },
  {
   "property": "C16",
   "status": "proved",
   "theorems": [
    "C16_eq_is_tag_inclusion",
    "C16_eq_refl",
    "C16_eq_trans",
    "C16_eq_reorder",
    "C16_eq_symmetric_refuted",
    "C16_everything_equals_empty"
   ],
   "note": ""
  },
  {
   "property": "C17",
   "status": "proved",
   "theorems": [
    "C17_loader",
    "C17_loader_errors",
    "C17_created_realization",
    "C17_created_realization_total",
    "C17_same_definition",
    "C17_mdef_subhalos_refuted"
   ],
   "note": "The swap of the two mass definitions between the populations is proved as the code's behaviour and the documented reading refuted."
  },
  {
   "property": "C18",
   "status": "proved",
   "theorems": [
    "C18_rescale_normalization",
    "C18_contributions_unique",
    "C18_once_flag",
    "C18_caches",
    "C18_forced_observable",
    "C18_order_refuted",
    "C18_vmax_refuted"
   ],
   "note": "All call sequences; observable form for forced calls after truncation; order dependence and stale vmax refuted."
  },
  {
   "property": "C19",
   "status": "proved",
   "theorems": [
    "C19_history_independent",
    "C19_rescaled_once",
    "C19_mass_3d",
    "C19_mass_3d_refuted",
    "C19_bound_mass",
    "C19_bound_mass_refuted",
    "C19_keeley_table"
   ],
   "note": "All read histories; mass_3d and bound_mass restricted as stated, with refuted witnesses."
  },
  {
   "property": "C20",
   "status": "proved",
   "theorems": [
    "C20_sampled_once",
    "C20_first_value",
    "C20_set_infall",
    "C20_dependent_refuted"
   ],
   "note": "All histories of reads, moves, rescalings and set_infall_redshift."
  },
  {
   "property": "C21",
   "status": "proved",
   "theorems": [
    "C21_current_position",
    "C21_stale",
    "C21_refreshed",
    "C21_position_refuted"
   ],
   "note": "All histories."
  },
  {
   "property": "C22",
   "status": "proved",
   "theorems": [
    "C22_density",
    "C22_slope_is_log_derivative",
    "C22_slope_range"
   ],
   "note": "Exact real arithmetic."
  },
  {
   "property": "C23",
   "status": "proved",
   "theorems": [
    "C23_inverse",
    "C23_round_trip",
    "C23_outside",
    "C23_all_slopes_refuted"
   ],
   "note": "The guard |gamma+5|<1e-14 raises IndexError although such a radius exists (refuted extra)."
  },
  {
   "property": "C24",
   "status": "proved",
   "theorems": [
    "C24_cubic",
    "C24_quadratic",
    "C24_linear",
    "C24_constant",
    "C24_scale_refuted"
   ],
   "note": "Exact real arithmetic; degenerate branches stated for the reduced polynomial."
  },
  {
   "property": "C25",
   "status": "proved",
   "theorems": [
    "C25_mass_fraction",
    "C25_integrable",
    "C25_util",
    "C25_bounds",
    "C25_monotone",
    "C25_bound_mass"
   ],
   "note": "C25_util takes lenstronomy's mass_3d as external with its documented meaning as hypothesis."
  },
  {
   "property": "C26",
   "status": "proved",
   "theorems": [
    "C26_in_range",
    "C26_inverse_cdf",
    "C26_count"
   ],
   "note": "Random numbers are explicit inputs; real arithmetic."
  },
  {
   "property": "C27",
   "status": "proved",
   "theorems": [
    "C27_moments",
    "C27_nonneg",
    "C27_additive",
    "C27_suppressed",
    "C27_reversed_refuted"
   ],
   "note": "scipy quad enters as exact quadrature (hypothesis exact_quad) for the suppressed classes; the reversed-range case of the suppressed classes is refuted."
  },
  {
   "property": "C28",
   "status": "proved",
   "theorems": [
    "C28_wdm_suppression",
    "C28_mixed_suppression",
    "C28_thinning",
    "C28_draw_total"
   ],
   "note": ""
  },
  {
   "property": "C29",
   "status": "proved",
   "theorems": [
    "C29_field_pivot",
    "C29_field_exact",
    "C29_subhalo_pivot",
    "C29_subhalo_pivot_dndA",
    "C29_no_amplitude",
    "C29_mass_limits",
    "C29_host_scaling"
   ],
   "note": "numpy polyfit is modelled by the least-squares normal equations; colossus mass function is an arbitrary function."
  },
  {
   "property": "C30",
   "status": "proved",
   "theorems": [
    "C30_mean_mass",
    "C30_mean_from_redshift",
    "C30_delta",
    "C30_first_moment",
    "C30_first_moment_refuted",
    "C30_from_redshift",
    "C30_pbh"
   ],
   "note": "first_moment of DeltaFunction is the single-object mass (refuted extra)."
  },
  {
   "property": "C31",
   "status": "proved",
   "theorems": [
    "C31_uniform_in_disc",
    "C31_lens_cone_in_disc",
    "C31_uniform_density",
    "C31_nfw_bounds",
    "C31_nfw_3d_radius_below_projected_refuted"
   ],
   "note": "Uniform deviates are the inputs; kpc_per_arcsec is an argument. Refuted: the 3d radius bounds the projected one."
  },
  {
   "property": "C32",
   "status": "proved",
   "theorems": [
    "C32_double_cone_scale",
    "C32_continuous_at_lens",
    "C32_double_cone_linear",
    "C32_cylinder_and_cone",
    "C32_areas",
    "C32_names",
    "C32_volume_type_refuted",
    "C32_double_cone_volume",
    "C32_cylinder_volume",
    "C32_volume_sum_drops_last_slice_refuted"
   ],
   "note": "Flat universe as hypothesis; exact quadrature for volume sums. Refuted: CONE volume_type, slice sum equals total volume."
  },
  {
   "property": "C33",
   "status": "proved",
   "theorems": [
    "C33_array_query",
    "C33_history_independent",
    "C33_pair_distance",
    "C33_angular_diameter_distance",
    "C33_comoving_distance",
    "C33_kpc_per_arcsec",
    "C33_halo_age",
    "C33_array_query_refuted",
    "C33_accuracy",
    "C33_age_accuracy"
   ],
   "note": "Exact reals for the table redshifts (200, 161 and 250 nodes). Refuted: array queries are elementwise. Accuracy bound for bounded curvature (C33_accuracy, C33_age_accuracy)."
  },
  {
   "property": "C34",
   "status": "proved",
   "theorems": [
    "C34_planes_tile",
    "C34_planes_general",
    "C34_errors",
    "C34_lens_plane_missing_refuted",
    "C34_repeated_planes_refuted"
   ],
   "note": "Refuted: lens plane present for every lens redshift; planes distinct for every spacing."
  },
  {
   "property": "C35",
   "status": "proved",
   "theorems": [
    "C35_rendered",
    "C35_equal_lengths",
    "C35_redshifts_and_flags",
    "C35_unknown_name",
    "C35_class_names_refuted",
    "C35_list_lengths",
    "C35_los_with_nfw"
   ],
   "note": "Rendering classes with mass functions and spatial draws as arguments; refuted: rendering class names are not accepted as population names."
  },
  {
   "property": "C36",
   "status": "proved",
   "theorems": [
    "C36_los_sheets",
    "C36_class_range",
    "C36_los_sign",
    "C36_sub_sheet",
    "C36_no_sheets",
    "C36_delta_sheet_refuted"
   ],
   "note": "Sheets for arbitrary first moments; refuted: delta-function sheet."
  },
  {
   "property": "C37",
   "status": "proved",
   "theorems": [
    "C37_local",
    "C37_centred",
    "C37_pixels",
    "C37_uniform_mass",
    "C37_mass_in_area_refuted",
    "C37_render",
    "C37_indices",
    "C37_mass_budget",
    "C37_other_mass_functions",
    "C37_no_planes",
    "C37_alignment_refuted"
   ],
   "note": "Refuted: one position per mass; mass_in_area."
  },
  {
   "property": "C38",
   "status": "proved",
   "theorems": [
    "C38_timescale",
    "C38_cross_section",
    "C38_identity",
    "C38_raises",
    "C38_succeeds",
    "C38_cross_section_refuted",
    "C38_normalisation_refuted",
    "C38_requested_age"
   ],
   "note": "Outcome of every halo given exactly, including which random numbers it uses; success conditions; refuted: cross-section conversion of populations with black holes, loss of normalisation/fixed flag."
  },
  {
   "property": "C39",
   "status": "proved",
   "theorems": [
    "C39_selected",
    "C39_succeeds",
    "C39_certain"
   ],
   "note": "Exact selection criterion for every index, ordering, consumption of random numbers, success iff lists match, limits p=0,1."
  },
  {
   "property": "C40",
   "status": "proved",
   "theorems": [
    "C40_collapsed_sidm",
    "C40_collapsed_general",
    "C40_unknown_profile",
    "C40_isolation_refuted"
   ],
   "note": "Both families of profiles; dictionary aliasing refuted with a concrete population."
  },
  {
   "property": "C41",
   "status": "proved",
   "theorems": [
    "C41_cnfw",
    "C41_list_ignored_refuted"
   ],
   "note": "CNFW exact; refuted for all other names."
  },
  {
   "property": "C42",
   "status": "proved",
   "theorems": [
    "C42_injection",
    "C42_unknown_model",
    "C42_shift_forgotten_refuted"
   ],
   "note": "Exact; refuted: shifted status forgotten."
  },
  {
   "property": "C43",
   "status": "proved",
   "theorems": [
    "C43_expected_number",
    "C43_population",
    "C43_limits_in_halos",
    "C43_subresolution_refuted",
    "C43_errors",
    "C43_succeeds"
   ],
   "note": "Population exact (hosts, masses, positions, Poisson means); mass limits proved for rendered hosts and refuted with a concrete run for the unresolved population. Colossus dn/dlnM, cosmology and the generator are inputs; lens redshift planes are those of the realization."
  },
  {
   "property": "C44",
   "status": "proved",
   "theorems": [
    "C44_ring",
    "C44_ring_radii",
    "C44_ring_not_uniform_refuted",
    "C44_ellipse",
    "C44_aperture",
    "C44_aperture_each_image",
    "C44_wrong_image_refuted",
    "C44_unknown_shape",
    "C44_succeeds",
    "C44_bound_mass_refuted"
   ],
   "note": "Ring, ellipse and aperture exact; wrong-image placement refuted with a concrete run; ring radii not uniform in area; bound-mass filtering of the result raises. n_cut > 0 is assumed for the rescaling (the code divides by it)."
  },
  {
   "property": "C45",
   "status": "proved",
   "theorems": [
    "C45_hybrid",
    "C45_direct",
    "C45_cluster",
    "C45_physical",
    "C45_mean_decreases",
    "C45_milky_way",
    "C45_milky_way_refuted",
    "C45_galacticus2024",
    "C45_galacticus2024_refuted",
    "C45_batch"
   ],
   "note": ""
  },
  {
   "property": "C46",
   "status": "proved",
   "theorems": [
    "C46_hybrid_direct",
    "C46_cluster",
    "C46_other",
    "C46_idempotent",
    "C46_caller_dictionary_refuted",
    "C46_second_call_refuted",
    "C46_default_dictionary",
    "C46_preset_history",
    "C46_history_refuted",
    "C46_unset"
   ],
   "note": ""
  },
  {
   "property": "C47",
   "status": "proved",
   "theorems": [
    "C47_floor",
    "C47_value",
    "C47_hyperbolic",
    "C47_ludlow",
    "C47_ludlow_refused",
    "C47_polynomial",
    "C47_polynomial_refused",
    "C47_polynomial_refuted",
    "C47_below_cdm",
    "C47_dex_refuted",
    "C47_zdep_refuted",
    "C47_peak_height"
   ],
   "note": "polynomial redshift evolution, scatter_dex meaning and scatter_dex_z_dep: _refuted theorems record the findings"
  },
  {
   "property": "C48",
   "status": "proved",
   "theorems": [
    "C48_covers",
    "C48_grows",
    "C48_default",
    "C48_interpolates",
    "C48_between",
    "C48_exact",
    "C48_array",
    "C48_history_refuted",
    "C48_accuracy"
   ],
   "note": "redshifts >= 0; C48_history_refuted: value depends on query history; C48_accuracy bounds the table's error for bounded curvature"
  },
  {
   "property": "C49",
   "status": "proved",
   "theorems": [
    "C49_default_dictionary_refuted",
    "C49_independent_refuted",
    "C49_presets_independent",
    "C49_explicit"
   ],
   "note": ""
  },
  {
   "property": "C50",
   "status": "proved",
   "theorems": [
    "C50_first_bin",
    "C50_contiguous",
    "C50_outside",
    "C50_top_edge_refuted"
   ],
   "note": ""
  },
  {
   "property": "C51",
   "status": "proved",
   "theorems": [
    "C51_bound_mass",
    "C51_galacticus_law",
    "C51_zinfall_law",
    "C51_milky_way_law",
    "C51_tabulated",
    "C51_clamped",
    "C51_monotone",
    "C51_zinfall_range_refuted",
    "C51_batch",
    "C51_batch_refuted",
    "C51_keeley_refuted",
    "C51_approx_cdm",
    "C51_bound_mass_pdf",
    "C51_reported"
   ],
   "note": "Tables of the code copied into MassLossTables.v. _refuted theorems: Zinfall extrapolates, batch differs from scalar for chost in (8,9], Keeley24 uncapped."
  },
  {
   "property": "C52",
   "status": "proved",
   "theorems": [
    "C52_track",
    "C52_radius_track",
    "C52_radius_track_refuted"
   ],
   "note": "Exact calibrated table, threshold, range, monotonicity and limit for all 20 supported profiles; other profiles raise. C52_radius_track_refuted: the companion (unused) truncation-radius track is negative for alpha=2, beta=3, gamma=0, delta=2."
  },
  {
   "property": "C53",
   "status": "proved",
   "theorems": [
    "C53_enclosed_mass",
    "C53_total_mass",
    "C53_delta3_singular_refuted",
    "C53_peak_radius"
   ],
   "note": "Nine enclosed-mass forms (including the whole family beta=4, gamma<3) and six total-mass forms equal the improper integrals. C53_delta3_singular_refuted: the delta=3 form is 0/0 at truncation radius 1 where the mass is finite. The hypergeometric fallback and numerical quadrature are external."
  },
  {
   "property": "C54",
   "status": "proved",
   "theorems": [
    "C54_inversion",
    "C54_range_grows",
    "C54_consistent",
    "C54_batch",
    "C54_bounded_mass_loops",
    "C54_poisoned_refuted",
    "C54_alpha_two_refuted",
    "C54_delta_three_refuted"
   ],
   "note": "All histories of calls with alpha=1, beta=3. The cubic spline is an argument; consistency is relative to its accuracy. Refuted: a call with beta=4 raises and poisons the module-level table (C54_poisoned_refuted); alpha=2 always raises; delta=3 is inverted with the delta=2 mass; for bounded total mass the search never ends (C54_bounded_mass_loops)."
  },
  {
   "property": "C55",
   "status": "proved",
   "theorems": [
    "C55_nfw_parameters",
    "C55_unique",
    "C55_from_mass_redshift",
    "C55_profile_must_be_set",
    "C55_overdensity_radius",
    "C55_vectorised",
    "C55_precompute",
    "C55_first_query"
   ],
   "note": "Exact real arithmetic; lenstronomy's NFWParam formulas are written out in the model (they are external but repeated verbatim in batch_halo_util)."
  },
  {
   "property": "C56",
   "status": "proved",
   "theorems": [
    "C56_radii",
    "C56_limits",
    "C56_density",
    "C56_vectorised",
    "C56_radii_grid",
    "C56_mass_conserved_evolving",
    "C56_mass_conserved_parametric",
    "C56_batch",
    "C56_batch_field",
    "C56_batch_refuted",
    "C56_rescale_refuted"
   ],
   "note": "lenstronomy's TNFWC density is a record assumed proportional to its normalisation and positive; the array version and the batch precomputation equal the scalar ones; the missing lambda_t key is a refuted witness."
  },
  {
   "property": "C57",
   "status": "proved",
   "theorems": [
    "C57_mass_constraints",
    "C57_raises_iff_negative",
    "C57_feasible",
    "C57_black_hole_masses",
    "C57_black_hole_refuted",
    "C57_hybrid_keywords",
    "C57_hybrid_mass",
    "C57_hybrid_constituent",
    "C57_hybrid_stale_refuted"
   ],
   "note": "linear_parts states what lenstronomy's component masses guarantee; black-hole and stale-constituent behaviour recorded as refuted theorems"
  },
  {
   "property": "C58",
   "status": "proved",
   "theorems": [
    "C58_history_independent",
    "C58_forms_agree",
    "C58_black_hole_history",
    "C58_query_order_refuted"
   ],
   "note": "query-order dependence of the black-hole variant is a refuted theorem"
  },
  {
   "property": "C59",
   "status": "proved",
   "theorems": [
    "C59_mass_matched",
    "C59_any_history",
    "C59_target_mass",
    "C59_two_draws",
    "C59_target_mass_refuted",
    "C59_two_draws_refuted"
   ],
   "note": "the property first read 'shared transition radius is wrong'; the proof shows that it cancels unless a target mass is set"
  },
  {
   "property": "C60",
   "status": "proved",
   "theorems": [
    "C60_central_density",
    "C60_lens_model",
    "C60_params_physical_refuted"
   ],
   "note": "params_physical['rho'] refuted"
  },
  {
   "property": "C61",
   "status": "proved",
   "theorems": [
    "C61_cluster_mass",
    "C61_uldm_raises_iff",
    "C61_uldm_mass",
    "C61_uldm_mass_refuted",
    "C61_uldm_penalty",
    "C61_uldm_penalty_refuted",
    "C61_core_radius",
    "C61_soliton_lens",
    "C61_soliton_line_of_sight_refuted"
   ],
   "note": "globular cluster and ULDM parts; scipy's minimiser is an arbitrary returned point"
  },
  {
   "property": "C62",
   "status": "proved",
   "theorems": [
    "C62_mscale",
    "C62_out_of_bounds"
   ],
   "note": ""
  },
  {
   "property": "C63",
   "status": "proved",
   "theorems": [
    "C63_tree_of_node",
    "C63_single_tree_refuted",
    "C63_latest_output",
    "C63_columns"
   ],
   "note": "h5py groups are modelled as records of columns; single-tree files raise (C63_single_tree_refuted)."
  },
  {
   "property": "C64",
   "status": "proved",
   "theorems": [
    "C64_projected_radius",
    "C64_projected_radius_bounds",
    "C64_sky_plane",
    "C64_complementary",
    "C64_apply_filter",
    "C64_wrong_mask",
    "C64_select_subhalo_refuted",
    "C64_virialized",
    "C64_node_filters"
   ],
   "note": "Tables relate to lists of nodes by table_of; select_subhalo refuted."
  },
  {
   "property": "C65",
   "status": "proved",
   "theorems": [
    "C65_selected_subhalos",
    "C65_user_filter"
   ],
   "note": "Default parameter table; scipy's Rotation is modelled by its documented rotation matrices; the line-of-sight part is a separate property."
  },
  {
   "property": "C66",
   "status": "proved",
   "theorems": [
    "C66_presets",
    "C66_presets_unknown",
    "C66_emulator_refuted",
    "C66_concentration",
    "C66_concentration_unknown",
    "C66_formation_history",
    "C66_custom",
    "C66_truncation",
    "C66_truncation_unknown",
    "C66_truncation_class",
    "C66_mass_function",
    "C66_mass_function_unknown",
    "C66_stucker",
    "C66_CDM_concentration",
    "C66_CDM_truncation",
    "C66_WDM_concentration",
    "C66_WDM_truncation",
    "C66_WDM_mass_functions",
    "C66_CDM_constant_refuted",
    "C66_WDM_models_refuted",
    "C66_WDM_ludlow_refuted",
    "C66_CDM_scatter_refuted",
    "C66_WDM_default_refuted",
    "C66_cusps_refuted",
    "C66_profile_checked",
    "C66_ULDM_default_refuted"
   ],
   "note": "Names tables as independent specification; theorems for all strings and dictionaries; presets proved to build the described instances for every call, with aliasing of dictionaries allowed. The _refuted theorems state documented choices that fail or are ignored. Constructor bodies are abstracted to keyword acceptance."
  },
  {
   "property": "C67",
   "status": "proved",
   "theorems": [
    "C67_amplitude_CDM",
    "C67_amplitude_WDM",
    "C67_amplitude_WDMGeneral",
    "C67_tilt",
    "C67_tilt_refuted",
    "C67_writes",
    "C67_isolation_refuted",
    "C67_reuse_refuted"
   ],
   "note": "Amplitude precedence for all calls; frame theorem for all nine presets (normal and exceptional returns); isolation and slope tilt refuted."
  },
  {
   "property": "C68",
   "status": "proved",
   "theorems": [
    "C68_two_halo",
    "C68_boost_bounds",
    "C68_lazar",
    "C68_small_spacing_refuted",
    "C68_errors"
   ],
   "note": "Two-halo boost as exact integral; refuted: small plane spacing."
  },
  {
   "property": "C69",
   "status": "proved",
   "theorems": [
    "C69_halos",
    "C69_points",
    "C69_no_images",
    "C69_rescale_refuted"
   ],
   "note": "Refuted: rescale factor of the last plane of the last image."
  },
  {
   "property": "C70",
   "status": "proved",
   "theorems": [
    "C70_globular_clusters",
    "C70_expected_mass",
    "C70_errors"
   ],
   "note": ""
  },
  {
   "property": "C71",
   "status": "proved",
   "theorems": [
    "C71_smooth",
    "C71_clustered",
    "C71_clustered_masses_refuted",
    "C71_radius_refuted",
    "C71_errors"
   ],
   "note": "Positive theorems for the smooth and clustered parts and the errors; two refuted expectations about the clustered part."
  },
  {
   "property": "C72",
   "status": "proved",
   "theorems": [
    "C72_map_sampling",
    "C72_errors"
   ],
   "note": ""
  },
  {
   "property": "C73",
   "status": "proved",
   "theorems": [
    "C73_batch",
    "C73_precompute",
    "C73_succeeds"
   ],
   "note": "deviates are attached to halos; the order of draws differs between the two paths"
  },
  {
   "property": "C74",
   "status": "proved",
   "theorems": [
    "C74_deflection_angle",
    "C74_deflection_from_mass",
    "C74_point_mass_einstein_radius",
    "C74_isothermal_einstein_radius",
    "C74_critical_density_units"
   ],
   "note": "Distances positive and D_A(0,z)=D_A_z(z) as hypothesis; isothermal case to 0.1 per cent because of rounded constants."
  },
  {
   "property": "C75",
   "status": "proved",
   "theorems": [
    "C75_half_mode_exists",
    "C75_half_mode_inverse",
    "C75_monotone",
    "C75_free_streaming"
   ],
   "note": "scipy's minimiser is an argument; correctness needs it to return a global minimum."
  },
  {
   "property": "C76",
   "status": "proved",
   "theorems": [
    "C76_peak_velocity",
    "C76_dynamical_time",
    "C76_documented_time_refuted"
   ],
   "note": "The documented dynamical time (2 r_vir / v_max) is refuted: the code returns half."
  },
  {
   "property": "C77",
   "status": "proved",
   "theorems": [
    "C77_effective_age",
    "C77_collapse_time",
    "C77_mean_free_path"
   ],
   "note": ""
  },
  {
   "property": "C78",
   "status": "proved",
   "theorems": [
    "C78_mass_matched"
   ],
   "note": "lenstronomy SPLCORE.mass_3d is assumed to be the mass integral of the cored power law"
  },
  {
   "property": "C79",
   "status": "proved",
   "theorems": [
    "C79_emulator_halo"
   ],
   "note": ""
  },
  {
   "property": "C80",
   "status": "proved",
   "theorems": [
    "C80_no_subhalos",
    "C80_galacticus_los",
    "C80_ULDM_refuted",
    "C80_emulator_refuted"
   ],
   "note": "Positive theorem for nine presets; the violations for ULDM and for JointLOSWithEmulator are proved as refuted theorems."
  },
  {
   "property": "C81",
   "status": "proved",
   "theorems": [
    "C81_history_independent",
    "C81_direct_infall_refuted"
   ],
   "note": "Two-run proof over all reachable states of the default dictionaries; callers are assumed not to pass the default dictionary objects themselves as arguments. The DIRECT_INFALL exception is proved as a refuted theorem."
  },
  {
   "property": "C82",
   "status": "proved",
   "theorems": [
    "C82_SIDM_core_collapse",
    "C82_SIDM_parametric",
    "C82_SIDM_fixedbins",
    "C82_CDM_plus_BH",
    "C82_WDM_mixed",
    "C82_ULDM"
   ],
   "note": "Set-up of the derived presets equals that of the base preset called with the forwarded arguments, plus post-processing."
  },
  {
   "property": "C83",
   "status": "proved",
   "theorems": [
    "C83_CDM",
    "C83_WDM",
    "C83_WDMGeneral",
    "C83_wrappers"
   ],
   "note": "Set-up lists; what the renderer does with them is C01-C05 and following."
  },
  {
   "property": "C84",
   "status": "proved",
   "theorems": [
    "C84_binned",
    "C84_fixedbins"
   ],
   "note": "The bins of CDMBinned and SIDM_parametric_fixedbins."
  },
  {
   "property": "C85",
   "status": "proved",
   "theorems": [
    "C85_exact",
    "C85_transparent",
    "C85_idempotent",
    "C85_zinfall",
    "C85_zinfall_refuted",
    "C85_classes_refuted",
    "C85_bound_masses",
    "C85_set_bound_mass_refuted",
    "C85_error"
   ],
   "note": "Exact state equality with the per-halo path for every list of halos; three deviations stated as _refuted theorems with witnesses."
  },
  {
   "property": "C86",
   "status": "proved",
   "theorems": [
    "C86_halo",
    "C86_encloses",
    "C86_unique",
    "C86_r200",
    "C86_monotone",
    "C86_batch",
    "C86_splashback",
    "C86_splashback_matter",
    "C86_splashback_refuted"
   ],
   "note": "The splashback deviation is proved for every flat cosmology and z > 0 (C86_splashback_refuted); colossus' ratio and peak height are arguments."
  },
  {
   "property": "C87",
   "status": "proved",
   "theorems": [
    "C87_formula",
    "C87_monotone",
    "C87_zero",
    "C87_positive_refuted"
   ],
   "note": "Real arithmetic; numpy.round is scale, round half to even, scale back."
  },
  {
   "property": "C88",
   "status": "proved",
   "theorems": [
    "C88_mean_density",
    "C88_concentration",
    "C88_multiple"
   ],
   "note": "The pericentre dependence mentioned in the class's documentation is not implemented by the code and hence not in the model."
  },
  {
   "property": "C89",
   "status": "proved",
   "theorems": [
    "C89_density",
    "C89_agrees",
    "C89_density_refuted",
    "C89_constant",
    "C89_constant_refuted"
   ],
   "note": "On the halo state machine of C18-C21; the two deviations are _refuted theorems."
  },
  {
   "property": "C90",
   "status": "proved",
   "theorems": [
    "C90_same",
    "C90_refuted"
   ],
   "note": "The draw is identified by stream and number (HaloStateModel); Galacticus subhalos use the bound-mass draw."
  },
  {
   "property": "C91",
   "status": "proved",
   "theorems": [
    "C91_covariance",
    "C91_inside",
    "C91_bounded",
    "C91_zero_separation",
    "C91_affine",
    "C91_mask_only",
    "C91_annulus",
    "C91_annulus_kept"
   ],
   "note": "Exact over R; scipy.interpolate lookups of map and mask are arbitrary functions of position. Masks with a value exactly 0.9 are excluded (no_tie). Division by zero is a value None."
  },
  {
   "property": "C92",
   "status": "proved",
   "theorems": [
    "C92_chebyshev",
    "C92_pairing",
    "C92_projection",
    "C92_orthogonality",
    "C92_monopole_constant",
    "C92_linear",
    "C92_pairing_refuted",
    "C92_power",
    "C92_fit"
   ],
   "note": "hankl transform and curve_fit are arguments: the first is arbitrary, the second an optimiser that returns an exact minimiser (least_squares). Finding: samples and angles are mispaired on asymmetric grids."
  },
  {
   "property": "C93",
   "status": "proved",
   "theorems": [
    "C93_paths",
    "C93_terminates",
    "C93_terminates_refuted",
    "C93_straight",
    "C93_mean"
   ],
   "note": "lenstronomy's partial ray shooting is an argument assumed to compose (flow). Finding: termination at the source fails with a lens plane behind the source."
  },
  {
   "property": "C94",
   "status": "proved",
   "theorems": [
    "C94_local",
    "C94_single",
    "C94_power_law",
    "C94_power_law_single",
    "C94_normalisation",
    "C94_projected",
    "C94_short",
    "C94_nfw"
   ],
   "note": "numpy.gradient is modelled from its documentation; logarithms of non-positive densities (nan) are outside the model."
  },
  {
   "property": "C95",
   "status": "proved",
   "theorems": [
    "C95_bounds",
    "C95_uniform",
    "C95_linear",
    "C95_monotone",
    "C95_accuracy",
    "C95_collapsed_kappa",
    "C95_collapsed_factor",
    "C95_collapsed_sheet",
    "C95_collapsed_refuted"
   ],
   "note": "lenstronomy's hessian and deflection are arbitrary functions of radius. Finding: the core-collapsed mass is wrong by (kpc per arcsec)^2."
  },
  {
   "property": "C96",
   "status": "proved",
   "theorems": [
    "C96_present",
    "C96_particle",
    "C96_redshift",
    "C96_floor"
   ],
   "note": "Cosmology enters through Om(z) of a flat matter plus vacuum universe."
  },
  {
   "property": "C97",
   "status": "proved",
   "theorems": [
    "C97_wavelength",
    "C97_wavelength_unit",
    "C97_defined",
    "C97_bounds",
    "C97_radius",
    "C97_scaling",
    "C97_kappa",
    "C97_dispersion_scaling",
    "C97_dispersion_positive"
   ],
   "note": "quad is modelled as the exact integral; the NFW parameters of the host are inputs."
  },
  {
   "property": "C98",
   "status": "proved",
   "theorems": [
    "C98_mass",
    "C98_conserved",
    "C98_frozen",
    "C98_einstein",
    "C98_velocity",
    "C98_rescale",
    "C98_infall",
    "C98_bound",
    "C98_answered",
    "C98_infall_refuted",
    "C98_move_refuted",
    "C98_rescale_refuted",
    "C98_helper_refuted"
   ],
   "note": "lenstronomy's PseudoDoublePowerlaw enters by its documented contract (record is_profile). Refuted: infall redshift kept, moves followed, rescaling effective, helper harmless."
  },
  {
   "property": "C99",
   "status": "proved",
   "theorems": [
    "C99_coordinates",
    "C99_coordinates_refuted",
    "C99_single",
    "C99_single_default_refuted",
    "C99_default_macro",
    "C99_macro_needed",
    "C99_full",
    "C99_map",
    "C99_window_refuted"
   ],
   "note": "LensModel.kappa and the comoving distance are arguments. Refuted: units of the coordinates, default keywords of SingleHalo, documented window."
  },
  {
   "property": "C100",
   "status": "proved",
   "theorems": [
    "C100_defined",
    "C100_empty",
    "C100_range",
    "C100_quantile",
    "C100_monotone",
    "C100_constant",
    "C100_scale",
    "C100_first_bin_refuted"
   ],
   "note": "SampleModel.v: ITSampling with numpy's histogram, cumulative sum and scipy's linear interpolation written out over the reals; uniform deviates are inputs. The deviate equal to umin (probability zero) is excluded: scipy divides by zero there when the second bin is empty. C100_first_bin_refuted: the deviates start at the first bin's share, so samples concentrated there are never drawn."
  },
  {
   "property": "C101",
   "status": "proved",
   "theorems": [
    "C101_rescaled",
    "C101_ignored",
    "C101_ignored_refuted",
    "C101_recomputed",
    "C101_first_query",
    "C101_kept",
    "C101_kept_until_rescaled",
    "C101_kept_until_first_rescaling",
    "C101_own_centre",
    "C101_moved_refuted"
   ],
   "note": "RescaleModel.v: per class the attribute the keywords are kept in, whether the rescaling factor enters, and which position is reported. The unrescaled amplitudes are inputs that do not depend on the history (that they do not is C19, C20, C89 for truncated NFW halos). The truncation classes that rescale a halo while computing its profile arguments are one of the rescalings of the history."
  },
  {
   "property": "C102",
   "status": "proved",
   "theorems": [
    "C102_imported",
    "C102_rescaled_refuted",
    "C102_replaced_refuted"
   ],
   "note": "RescaleModel.v: params_physical and profile_args as mutually recursive functions with the stack depth as fuel. Rescaling of imported halos is reachable through add_correlated_structure and add_primordial_black_holes."
  },
  {
   "property": "C103",
   "status": "proved",
   "theorems": [
    "C103_solution",
    "C103_solution_order",
    "C103_node",
    "C103_cell",
    "C103_more_mass",
    "C103_more_concentrated",
    "C103_keeley",
    "C103_keeley_limits",
    "C103_emulator"
   ],
   "note": "Exact real arithmetic. lenstronomy's mass_3d is an argument assumed to be the enclosed mass; scipy's interp1d and RegularGridInterpolator are modelled (linear, extrapolating). Monotonicity in concentration is proved where the tabulated radii reach the requested fraction."
  },
  {
   "property": "C104",
   "status": "proved",
   "theorems": [
    "C104_parameters",
    "C104_other_keywords",
    "C104_top_level",
    "C104_missing_keyword",
    "C104_instance_refuted"
   ],
   "note": "Proved: the parameters of both packages for every keyword dictionary, indifference to other keywords, the top-level class, the KeyError. Refuted: a supplied astropy cosmology does not reach colossus (C104_instance_refuted)."
  },
  {
   "property": "C105",
   "status": "proved",
   "theorems": [
    "C105_own_distances",
    "C105_last_created",
    "C105_same_parameters",
    "C105_isolation_refuted",
    "C105_concentration_direct",
    "C105_table_kept",
    "C105_table_rebuilt",
    "C105_concentration_refuted"
   ],
   "note": "Proved by induction over histories: distances are isolated, colossus answers follow the last cosmology created, same parameters do not interfere, concentration tables keep their parameters until they are rebuilt. Refuted on witnesses: isolation of mass functions and of concentrations (C105_isolation_refuted, C105_concentration_refuted)."
  },
  {
   "property": "C106",
   "status": "proved",
   "theorems": [
    "C106_realizations",
    "C106_redshifts",
    "C106_passes",
    "C106_success"
   ],
   "note": "End-to-end composition of the lens plane, population and loader models. The two mass definitions are exchanged by the code (C17), which the statement allows for."
  },
  {
   "property": "C107",
   "status": "proved",
   "theorems": [
    "C107_classes",
    "C107_realization"
   ],
   "note": "The keyword signatures of the external package are a specification table (not verified against its source, which is not available); the numbers under the keywords are arbitrary. Discharges the hypothesis of C10 for the shipped classes."
  },
  {
   "property": "C108",
   "status": "proved",
   "theorems": [
    "C108_mass",
    "C108_density_after_rescaling_refuted",
    "C108_peak_velocity",
    "C108_stale_velocity_refuted"
   ],
   "note": "lenstronomy's closed-form NFW mass is transcribed into the model and proved to be the integral. Concentration and evaluation redshift are fixed per halo (their caching is C20)."
  },
  {
   "property": "C109",
   "status": "proved",
   "theorems": [
    "C109_one",
    "C109_reference",
    "C109_set_infall",
    "C109_two",
    "C109_two_refuted",
    "C109_power_law",
    "C109_power_law_refuted"
   ],
   "note": "ConcClassModel.v follows z_infall, z_eval, c, profile_args and the concentrations entering lenstronomy_params of 11 classes as a state machine with explicit draws. The refuted parts: generalised NFW and pseudo-Jaffe halos hold two draws; the keyword c of a power-law field halo is ignored."
  },
  {
   "property": "C110",
   "status": "proved",
   "theorems": [
    "C110_slope",
    "C110_slope_range",
    "C110_shell_mass",
    "C110_core_density",
    "C110_core_mass",
    "C110_core_mass_refuted"
   ],
   "note": "lenstronomy's projected mass function of the cored NFW profile is an argument; the constant core_factor compares it with the exact NFW value. Rounding to 10 digits of the keywords is left out."
  },
  {
   "property": "C111",
   "status": "proved",
   "theorems": [
    "C111_subhalo",
    "C111_field",
    "C111_concentration_names",
    "C111_tags_refuted"
   ],
   "note": "Built on the halo state machine (HaloStateModel.v) and the realization model. r3d = None is represented by 0, never read by the two truncation classes used."
  },
  {
   "property": "C112",
   "status": "proved",
   "theorems": [
    "C112_tnfw_lens",
    "C112_tnfw_object",
    "C112_tnfw_object_refuted",
    "C112_cluster",
    "C112_half_mass"
   ],
   "note": "lenstronomy's TNFW density and cored power-law density/mass are external: the TNFW one is written out, the cored ones are arguments with their specification. scipy brentq is an argument that returns a root of a continuous function with a sign change; such a finder is constructed in the file."
  },
  {
   "property": "C113",
   "status": "proved",
   "theorems": [
    "C113_mass_function",
    "C113_concentration",
    "C113_concentration_refuted",
    "C113_subhalo_mass_function",
    "C113_spatial_refuted",
    "C113_bound_fractions",
    "C113_plot",
    "C113_plot_style"
   ],
   "note": "The functions are modelled up to the arrays handed to matplotlib. numpy's histogram, median and std are modelled; lenstronomy's azimuthal average is an argument that maps a constant image to that constant. Reading bound masses and concentrations has the effects of C19-C20, not repeated here."
  },
  {
   "property": "C114",
   "status": "proved",
   "theorems": [
    "C114_host",
    "C114_concentration",
    "C114_unspecified",
    "C114_unspecified_refuted",
    "C114_inside",
    "C114_radial_law",
    "C114_choice",
    "C114_three_dimensional"
   ],
   "note": "The cored NFW densities of lenstronomy and the median concentration relation are arguments (positive densities assumed); the shells use the density at the inner edge, as the code does; the first shell is never drawn (mass_up_to starts at the second)."
  },
  {
   "property": "C115",
   "status": "proved",
   "theorems": [
    "C115_additive",
    "C115_calibrated",
    "C115_monotone",
    "C115_at_lens",
    "C115_at_zero_refuted",
    "C115_outside",
    "C115_from_10",
    "C115_batch"
   ],
   "note": "AgeModel.v, AgeProps.v, composing InfallModel.v (C45, C46) and SpaceModel.v (C33). The subhalo is one that was not asked before (C20 treats histories of one halo)."
  },
  {
   "property": "C116",
   "status": "proved",
   "theorems": [
    "C116_tabulated",
    "C116_range",
    "C116_late",
    "C116_median",
    "C116_new_subhalo_refuted",
    "C116_time_refuted",
    "C116_host_refuted"
   ],
   "note": "KeeleyTables.v (the 16000 numbers of the data file, generated by a script), KeeleyModel.v, KeeleyProps.v; uses the interpolator of MassLossModel.v. C51_keeley_refuted treats the class for arbitrary tables."
  },
  {
   "property": "C117",
   "status": "proved",
   "theorems": [
    "C117_transfer",
    "C117_unique",
    "C117_ordered",
    "C117_calibrated",
    "C117_any_solver",
    "C117_warning",
    "C117_absolute_value_refuted",
    "C117_steep_refuted"
   ],
   "note": "scipy.optimize.root is an argument; convergence (residuals zero, b > 0, c < 0) is a hypothesis, shown satisfiable for one slope in closed form. Two deviations stated as _refuted theorems."
  },
  {
   "property": "C118",
   "status": "proved",
   "theorems": [
    "C118_described",
    "C118_ratio",
    "C118_fraction",
    "C118_redshift",
    "C118_bound_mass",
    "C118_bound_mass_refuted"
   ],
   "note": "The angular and physical NFW parameters are those of C55 and C74; the table is that of C103."
  },
  {
   "property": "C119",
   "status": "proved",
   "theorems": [
    "C119_bound_mass",
    "C119_truncation",
    "C119_mean",
    "C119_pixels",
    "C119_pixels_refuted"
   ],
   "note": "The values handed to matplotlib are modelled; imshow with an extent fills the square with equal pixels."
  },
  {
   "property": "C120",
   "status": "proved",
   "theorems": [
    "C120_position",
    "C120_deflection",
    "C120_rescaled"
   ],
   "note": "The lens profile's derivatives are an argument; axisymmetry and linearity in alpha_Rs are hypotheses on it. The deflection_angle methods of core-collapsed halos pass keywords positionally to lenstronomy classes whose signatures are not in this repository and are not modelled."
  },
  {
   "property": "C121",
   "status": "proved",
   "theorems": [
    "C121_lensing",
    "C121_physical",
    "C121_vmax",
    "C121_rescaled_refuted",
    "C121_vmax_refuted",
    "C121_hybrid",
    "C121_hybrid_constituent",
    "C121_hybrid_refreshed"
   ],
   "note": "The lens model and density part extends C101 and C56_rescale_refuted to whole histories together with the physical parameters. Mass, concentration and infall redshift are taken as already fixed; nfw_vmax and the lens profile's density are arguments."
  },
  {
   "property": "C122",
   "status": "proved",
   "theorems": [
    "C122_chain",
    "C122_order",
    "C122_repeat",
    "C122_join",
    "C122_equal_tags_refuted",
    "C122_shift",
    "C122_shift_fixed_refuted"
   ],
   "note": "Equality is of the halo lists up to listing order, because filter lists its result plane by plane. filter_subhalos is left out of the statement about the shift, because its coordinates are points in the lens plane that the shift does not carry along."
  },
  {
   "property": "C123",
   "status": "proved",
   "theorems": [
    "C123_counts",
    "C123_plane_mass",
    "C123_lens_models",
    "C123_split_sheets",
    "C123_halves_refuted"
   ],
   "note": "Lens models are compared as lists of (name, redshift, keywords) up to order."
  },
  {
   "property": "C124",
   "status": "proved",
   "theorems": [
    "C124_cdm",
    "C124_cdm_moments",
    "C124_fixed_count",
    "C124_suppressed",
    "C124_suppressed_moments"
   ],
   "note": "Expectations are written as iterated integrals over the uniform numbers and a series over the Poisson count; that numpy's generators have these laws is not part of the model. scipy's quad is assumed exact for the suppressed moments."
  },
  {
   "property": "C125",
   "status": "proved",
   "theorems": [
    "C125_balance",
    "C125_balance_wdm",
    "C125_subhalos",
    "C125_subrange"
   ],
   "note": "Means are Riemann integrals over each uniform number and the Poisson series over the count, as in C124; quad is exact for the suppressed mass functions. The sub-range statement is for subhalos, whose slope does not depend on the mass range; the line-of-sight slope is refitted on the range of the sheet."
  }
 ]
}