{
 "claims": [
  {
   "property": "C01",
   "status": "proved",
   "theorems": [
    "C01_unit_history_preserves_physics",
    "C01_unit_round_trip"
   ],
   "note": ""
  },
  {
   "property": "C02",
   "status": "proved",
   "theorems": [
    "C02_unit_path_independent"
   ],
   "note": ""
  },
  {
   "property": "C03",
   "status": "proved",
   "theorems": [
    "C01_unit_history_preserves_physics",
    "C03_unknown_request_no_effect"
   ],
   "note": ""
  },
  {
   "property": "C07",
   "status": "proved",
   "theorems": [
    "C07_history_preserves_configuration",
    "C07_origin_round_trip"
   ],
   "note": "all histories of unit and origin requests over linear units and centre/cluster/galaxy origins"
  },
  {
   "property": "C08",
   "status": "proved",
   "theorems": [
    "C08_origin_change_is_rigid"
   ],
   "note": ""
  },
  {
   "property": "C09",
   "status": "proved",
   "theorems": [
    "C09_histories_commute"
   ],
   "note": ""
  },
  {
   "property": "C10",
   "status": "partial",
   "theorems": [
    "C10_bracket_restores_cluster",
    "C10_analyze_idempotent",
    "C10_bracket_binaries_refuted"
   ],
   "note": "every physical and derived quantity is restored for analysed clusters; binary elements are not (counterexample proved)"
  },
  {
   "property": "C12",
   "status": "partial",
   "theorems": [
    "C12_binary_units_history",
    "C12_binary_round_trip",
    "C12_sudays_mislabels_refuted"
   ],
   "note": "holds for binary units nbody/audays/sudays; other starting binary units are relabelled without conversion (counterexample proved)"
  },
  {
   "property": "C13",
   "status": "partial",
   "theorems": [
    "C13_order_sorted_after_history",
    "C13_projected_order_refuted"
   ],
   "note": "3D order proved for every history; the projected order goes stale on an origin change (counterexample proved)"
  },
  {
   "property": "C14",
   "status": "proved",
   "theorems": [
    "C14_half_mass_radius"
   ],
   "note": "3D half-mass and 10% radii after every history"
  },
  {
   "property": "C04",
   "status": "partial",
   "theorems": [
    "C04_converters_agree_with_to_units",
    "C04_velocity_factor_forgotten_refuted",
    "C04_square_velocity_factor_forgotten_refuted",
    "C04_square_velocity_correct",
    "C04_density_correct",
    "C04_galpy_mass_refuted",
    "C04_wd_velocity_refuted"
   ],
   "note": "lengths, times and densities agree for all linear systems (masses/densities: not galpy); velocity pairs that forget the 1.0227 factor, WDunits velocities and galpy masses are proved wrong for every input"
  },
  {
   "property": "C05",
   "status": "partial",
   "theorems": [
    "C05_converters_invertible",
    "C05_velocity_round_trip_refuted",
    "C05_sky_length_round_trip_refuted"
   ],
   "note": "invertible outside the defective pairs; the defects are proved"
  },
  {
   "property": "C06",
   "status": "proved",
   "theorems": [
    "C06_grav_constant",
    "C06_grav_nbody",
    "C06_grav_galpy",
    "C06_energies_unit_independent"
   ],
   "note": "for the four named systems (and amuse) unconditionally, for nbody and galpy when the scale factors are consistent with G"
  },
  {
   "property": "C34",
   "status": "partial",
   "theorems": [
    "C34_energies_are_newtonian",
    "C34_total_is_twice_pairs",
    "C34_potential_origin_independent",
    "C34_subset_agrees",
    "C34_loop_agrees_without_softening",
    "C34_loop_softening_self_energy_refuted",
    "C34_coincident_stars_nan"
   ],
   "note": "holds for the full and subset computations; full=False with softening adds a self energy (proved for every cluster)"
  },
  {
   "property": "C35",
   "status": "partial",
   "theorems": [
    "C35_subset_parallel_any_schedule",
    "C35_parallel_correct_if_updates_atomic",
    "C35_parallel_race_refuted"
   ],
   "note": "holds for the subset version; the full version has a data race, proved to give a wrong result for any three distinct stars"
  },
  {
   "property": "C36",
   "status": "partial",
   "theorems": [
    "C36_energy_attributes",
    "C36_signs",
    "C36_virialize",
    "C36_second_virialize_refuted",
    "C36_specific_ratio_equal_masses",
    "C34_energies_are_newtonian"
   ],
   "note": "virialize reaches the target on the first call; later calls reuse a stale ratio (proved)"
  },
  {
   "property": "C38",
   "status": "proved",
   "theorems": [
    "C38_virial_radius",
    "C38_virial_radius_origin_independent",
    "C38_virial_radius_scales_with_units"
   ],
   "note": ""
  },
  {
   "property": "C25",
   "status": "proved",
   "theorems": [
    "C25_nbinmaker_partitions",
    "C25_nbinmaker_balanced",
    "C25_constant_sample_raises"
   ],
   "note": "real arithmetic"
  },
  {
   "property": "C26",
   "status": "proved",
   "theorems": [
    "C26_binmaker_partitions"
   ],
   "note": "real arithmetic: with floating point the logarithmic end edges may exclude the extreme elements"
  },
  {
   "property": "C27",
   "status": "proved",
   "theorems": [
    "C27_bin_index_contains",
    "C27_out_of_range_refuted"
   ],
   "note": "elements outside the edges are put into the end bins (proved)"
  },
  {
   "property": "C28",
   "status": "proved",
   "theorems": [
    "C28_roaming_binmaker",
    "C28_roaming_nbinmaker",
    "C28_single_roaming_bin_refuted"
   ],
   "note": "the excluded case ntot < nbin is wrong for roaming_nbinmaker (proved for ntot=1)"
  },
  {
   "property": "C29",
   "status": "proved",
   "theorems": [
    "C29_minimum_distance",
    "C29_closest_star",
    "C29_closest_star_sky_refuted"
   ],
   "note": "the k-d tree search is modelled by its specification; in sky coordinates closest_star returns None (proved)"
  },
  {
   "property": "C30",
   "status": "proved",
   "theorems": [
    "C30_power_law_range",
    "C30_power_law_monotone",
    "C30_equal_limits_refuted"
   ],
   "note": "for xmin < xmax; equal limits give a single number (proved)"
  },
  {
   "property": "C53",
   "status": "partial",
   "theorems": [
    "C53_power_law_distribution_partial",
    "C53_rising_power_law_refuted"
   ],
   "note": "alpha <= 0 proved; for alpha > 0 and xmin > 0 the claim is false (proved for alpha = 1)"
  },
  {
   "property": "C54",
   "status": "proved",
   "theorems": [
    "C54_mean_prof",
    "C54_smooth"
   ],
   "note": "median=False"
  },
  {
   "property": "C55",
   "status": "proved",
   "theorems": [
    "C55_interpolate"
   ],
   "note": ""
  },
  {
   "property": "C15",
   "status": "partial",
   "theorems": [
    "C15_add_single_stars",
    "C15_add_binaries",
    "C15_one_entry_mass_misaligns_refuted",
    "C15_sky_arrays_too_long_refuted"
   ],
   "note": "full for numbers or full-length arrays (any binary count on a cluster without binaries); one-entry mass arrays on a non-empty cluster misalign and the sky arrays keep the components of binaries (proved)"
  },
  {
   "property": "C16",
   "status": "proved",
   "theorems": [
    "C16_default_ids_unique"
   ],
   "note": "all histories of calls without ids"
  },
  {
   "property": "C17",
   "status": "proved",
   "theorems": [
    "C17_binaries_conserve_mass_and_momentum",
    "C17_one_binary_default_mass_raises_refuted"
   ],
   "note": "one binary without masses raises (proved)"
  },
  {
   "property": "C18",
   "status": "proved",
   "theorems": [
    "C18_scalars_are_repeated",
    "C18_one_entry_arrays_on_empty_cluster"
   ],
   "note": ""
  },
  {
   "property": "C19",
   "status": "partial",
   "theorems": [
    "C19_first_add_binary_stars_partial",
    "C19_default_populations_misalign_refuted",
    "C19_second_call_raises_refuted",
    "C19_second_binary_misaligns_refuted"
   ],
   "note": "holds for the first call; the second call is proved to raise or to misalign the arrays"
  },
  {
   "property": "C20",
   "status": "partial",
   "theorems": [
    "C20_sse_appends",
    "C20_bse_appends",
    "C20_sse_slots_partial",
    "C20_sse_slots_double_ep_refuted",
    "C20_sse_slots_without_ep_raises_refuted"
   ],
   "note": "appending is correct; with slots ep and ospin are stored twice (proved)"
  },
  {
   "property": "C56",
   "status": "proved",
   "theorems": [
    "C56_order_after_sorted_add",
    "C56_stale_order_raises_refuted"
   ],
   "note": ""
  },
  {
   "property": "C21",
   "status": "proved",
   "theorems": [
    "C21_subset_mask",
    "C21_default_type_limits_refuted",
    "C21_wrong_mask_length_silent_refuted"
   ],
   "note": "exact selection proved; findings: kwmin/kwmax default to 0..15 and exclude other types although no limit is given; a mask of the wrong length is silently treated as an empty selection"
  },
  {
   "property": "C22",
   "status": "partial",
   "theorems": [
    "C22_same_call_repeated_partial",
    "C22_caller_mask_overwritten_refuted",
    "C22_masks_accumulate_refuted"
   ],
   "note": "the property is false of the code: the mask passed in is overwritten (proved for every history); only repetition of one identical call is harmless"
  },
  {
   "property": "C23",
   "status": "proved",
   "theorems": [
    "C23_sub_cluster",
    "C23_parent_unchanged",
    "C23_complement_splits_mass",
    "C23_binary_units_lost_refuted",
    "C23_star_counts_stale_refuted"
   ],
   "note": "reset_centre, reset_nbody* and the units/origin arguments are not modelled; findings: binary unit label lost, ns/nb copied from the parent"
  },
  {
   "property": "C24",
   "status": "proved",
   "theorems": [
    "C24_overlap"
   ],
   "note": ""
  },
  {
   "property": "C31",
   "status": "proved",
   "theorems": [
    "C31_sphere_round_trip",
    "C31_sphere_inverse",
    "C31_cyl_round_trip",
    "C31_cyl_inverse",
    "C31_cluster_coordinates",
    "C31_star_at_origin_nan_refuted",
    "C31_sky_raises_refuted"
   ],
   "note": "the formulas of galpy.util.coords are transcribed; findings: nan for a star at the origin, NameError in sky coordinates"
  },
  {
   "property": "C32",
   "status": "proved",
   "theorems": [
    "C32_centre_of_mass",
    "C32_mean_is_unique",
    "C32_moves_with_cluster",
    "C32_centred_mean_is_zero"
   ],
   "note": ""
  },
  {
   "property": "C33",
   "status": "proved",
   "theorems": [
    "C33_moves_with_cluster",
    "C33_independent_of_order",
    "C33_refines",
    "C33_answers",
    "C33_limit_irrelevant",
    "C33_neighbour_method",
    "C33_find_centre_density"
   ],
   "note": "harfst method in full; for the neighbour method ties between neighbours are resolved by index in the model"
  },
  {
   "property": "C57",
   "status": "partial",
   "theorems": [
    "C57_to_centre_goes_to_the_found_centre",
    "C57_stale_offset_refuted"
   ],
   "note": "proved except when, with origin galaxy, the found centre equals the stored orbit while an offset is stored: then the code sets nothing and the claim is refuted"
  },
  {
   "property": "C58",
   "status": "partial",
   "theorems": [
    "C58_clipping_ends",
    "C58_clipping_endless_refuted"
   ],
   "note": "proved for every nsigma <= 2; for every nsigma > 2 a cluster is exhibited on which the loop never ends"
  },
  {
   "property": "C59",
   "status": "partial",
   "theorems": [
    "C59_cluster_unchanged",
    "C59_method_argument_refuted",
    "C59_empty_selection_refuted"
   ],
   "note": "find_centre_of_density restores the cluster; the method ignores method/nneighbour, and an empty selection leaves an amuse cluster in pckms"
  },
  {
   "property": "C37",
   "status": "proved",
   "theorems": [
    "C37_lagrange_radii",
    "C37_table_is_unique",
    "C37_one_fraction",
    "C37_origin_independent",
    "C37_units",
    "C37_first_analysis_sorts"
   ],
   "note": "for analysed clusters whose recorded orders sort the stars; projected radii with origin galaxy are C60"
  },
  {
   "property": "C60",
   "status": "partial",
   "theorems": [
    "C60_projected_from_galaxy_refuted",
    "C37_lagrange_radii"
   ],
   "note": "the claim is false: the projected order is not recomputed after centring, a wrong radius is proved; correct whenever the stored origin is the cluster or its centre (C37)"
  },
  {
   "property": "C40",
   "status": "proved",
   "theorems": [
    "C40_mass_profile_rows",
    "C40_mass_conserved",
    "C40_density_profile"
   ],
   "note": "own bins; bins given by the caller are C63; normalised radii are C62"
  },
  {
   "property": "C41",
   "status": "partial",
   "theorems": [
    "C41_circular_velocity_partial",
    "C41_selection_misapplied_refuted"
   ],
   "note": "proved when every star is asked for; with a selection the mask is applied to arrays in another order, proved wrong for every cluster where the star is out of rank"
  },
  {
   "property": "C61",
   "status": "proved",
   "theorems": [
    "C61_velocity_profiles",
    "C61_anisotropy_profile",
    "C61_components_missing_refuted"
   ],
   "note": "for the supported combinations of component and projection; the missing ones are listed by the refuted theorem"
  },
  {
   "property": "C62",
   "status": "partial",
   "theorems": [
    "C62_normalised_mass_profile_partial",
    "C62_galaxy_origin_refuted"
   ],
   "note": "true when the stored origin is the cluster or its centre and the profile is not projected; false for every galaxy-origin cluster where no star is at the half-mass radius from the galactic centre"
  },
  {
   "property": "C63",
   "status": "proved",
   "theorems": [
    "C63_given_bins_keep_outsiders"
   ],
   "note": ""
  },
  {
   "property": "C39",
   "status": "proved",
   "theorems": [
    "C39_mass_function_counts",
    "C39_too_few_stars",
    "C39_distribution_function",
    "C39_given_bins",
    "C39_values_outside_bins_refuted"
   ],
   "note": "own bins, or bins of the caller that hold every value (values outside are counted in the end bins: _refuted); limits are applied to the stars as stored (mass_function does not move the origin); np.polyfit is modelled by the closed form of the least squares line"
  },
  {
   "property": "C51",
   "status": "proved",
   "theorems": [
    "C51_characteristic_mass_function"
   ],
   "note": ""
  },
  {
   "property": "C64",
   "status": "proved",
   "theorems": [
    "C64_dispersion_against_mass"
   ],
   "note": "meq=False; when equal masses merge bins there are fewer rows than dispersions and no fit (an exception)"
  },
  {
   "property": "C65",
   "status": "partial",
   "theorems": [
    "C65_slope_profile_partial",
    "C65_evolved_stars_refuted"
   ],
   "note": "only main sequence stars (kw 0..1) count when stellar types are known, whatever kwmax is given: proved wrong for every cluster of evolved stars"
  },
  {
   "property": "C66",
   "status": "partial",
   "theorems": [
    "C66_dispersion_slope_profile_partial"
   ],
   "note": "the mask, npop, emin and emax are ignored in the rows, stars on inner edges count in two rows (proved inside the theorem), and bins are of 3D radii also for projected=True"
  },
  {
   "property": "C42",
   "status": "proved",
   "theorems": [
    "C42_tidal_radius",
    "C42_mask_overwritten_refuted"
   ],
   "note": "galpy's rtide is a parameter that grows with the mass; the radius is the last one tried when the iteration limit is reached. Finding: the caller's mask is overwritten in place"
  },
  {
   "property": "C43",
   "status": "partial",
   "theorems": [
    "C43_rotation",
    "C43_rotation_limits",
    "C43_galactic_frame_refuted"
   ],
   "note": "holds for clusters stored relative to the cluster or its centre; proved wrong for every cluster stored in the galactic frame"
  },
  {
   "property": "C52",
   "status": "partial",
   "theorems": [
    "C52_nbody_scales",
    "C52_nbody_scales_half_mass",
    "C52_stored_in_nbody_units_refuted",
    "C52_virial_keywords_refuted"
   ],
   "note": "proved for every cluster not stored in N-body units (for those the physical mass changes: _refuted); keywords of virial_radius cannot be passed on"
  },
  {
   "property": "C67",
   "status": "partial",
   "theorems": [
    "C67_half_mass_relaxation_time",
    "C67_relaxation_time",
    "C67_given_radius_refuted",
    "C67_core_relaxation_time"
   ],
   "note": "proved at the half-mass radius and for the core relaxation time; a radius given by the caller always raises (refuted)"
  },
  {
   "property": "C44",
   "status": "partial",
   "theorems": [
    "C44_snapshot_columns",
    "C44_snapout_read_back",
    "C44_snapout_total",
    "C44_missing_file",
    "C44_single_star_refuted",
    "C44_energies_without_types_refuted"
   ],
   "note": "every table of two or more rows is read row by row and snapout is read back; a single row raises (refuted); radec and amuse files not covered"
  },
  {
   "property": "C48",
   "status": "partial",
   "theorems": [
    "C48_advance_in_order",
    "C48_advance_with_orbit",
    "C48_distinct_files",
    "C48_columns_forgotten_refuted",
    "C48_jump_refuted",
    "C48_restart_refuted"
   ],
   "note": "order, files and orbit lines proved for any number of advances when the columns are given again; forgotten columns, jumps and cont/ restarts refuted"
  },
  {
   "property": "C68",
   "status": "partial",
   "theorems": [
    "C68_orbit_units_partial",
    "C68_stars_kept",
    "C68_pcmyr_refuted",
    "C68_nbody_time_refuted"
   ],
   "note": "proved for the pairs of systems with a branch; pcmyr and the N-body time refuted"
  },
  {
   "property": "C69",
   "status": "partial",
   "theorems": [
    "C69_fortout",
    "C69_sseout",
    "C69_gyrout_partial",
    "C69_gyrout_velocity_refuted"
   ],
   "note": "fortout without reset_nbody, sseout; gyrout apart from its velocity unit, which is refuted"
  },
  {
   "property": "C45",
   "status": "partial",
   "theorems": [
    "C45_record",
    "C45_series",
    "C45_end",
    "C45_centre_shift",
    "C45_orbit_late_refuted",
    "C45_long_header_refuted",
    "C45_new_series",
    "C45_new_time",
    "C45_nsnap_ignored_refuted"
   ],
   "note": "records and series of any length proved for origins None, cluster, galaxy (centre: up to one common shift) and units other than radec and amuse; the orbit line is one late and nsnap of load_cluster is ignored (refuted); cont/ restarts are modelled but not claimed"
  },
  {
   "property": "C46",
   "status": "proved",
   "theorems": [
    "C46_out3",
    "C46_out33",
    "C46_truncated",
    "C46_marks",
    "C46_series",
    "C46_end",
    "C46_orbit_file",
    "C46_orbit_series",
    "C46_end_evolution_refuted"
   ],
   "note": "any record and any series; with fort.82/83 the call after the last record raises instead of returning an empty cluster (refuted); cont/ restarts not modelled"
  },
  {
   "property": "C47",
   "status": "partial",
   "theorems": [
    "C47_aligned_partial",
    "C47_luminosities_refuted",
    "C47_no_singles_refuted"
   ],
   "note": "all arrays but the luminosities are aligned for every file with at least one single star; the luminosities are aligned with at most one binary and provably misaligned with two or more; without single stars the footer of fort.83 is left unread"
  },
  {
   "property": "C70",
   "status": "proved",
   "theorems": [
    "C70_kepler"
   ],
   "note": ""
  },
  {
   "property": "C49",
   "status": "proved",
   "theorems": [
    "C49_tail_frame",
    "C49_backward_refuted",
    "C49_at_rest"
   ],
   "note": "any cluster whose velocity is not along -x (cosine within 1e-10), where the result is a mirror image (refuted); the x axis is met exactly, or to 15 parts per million within that window around +x; the rotation matrix is galpy's published formula"
  },
  {
   "property": "C50",
   "status": "proved",
   "theorems": [
    "C50_match",
    "C50_own_path",
    "C50_raises",
    "C50_projected_refuted"
   ],
   "note": "with a path given or the own orbit, skypath=False; do_full raises; projected=True reports zero for stars level with a path point (refuted)"
  },
  {
   "property": "C71",
   "status": "partial",
   "theorems": [
    "C71_progress",
    "C71_bend_refuted"
   ],
   "note": "monotone along the path and at most its length, equal to it on straight paths; on a bent path it is not the length (refuted)"
  },
  {
   "property": "C72",
   "status": "partial",
   "theorems": [
    "C72_orbital_path",
    "C72_present",
    "C72_keyword_refuted",
    "C72_velocity_refuted",
    "C72_one_point_refuted",
    "C72_default_refuted"
   ],
   "note": "any flow as potential, any cluster in units other than radec; velocities of clusters in pcmyr and kpcgyr are km/s (refuted), nt = 1 and the default tfinal refuted; skypath in C96; galpy's integrator is a parameter"
  },
  {
   "property": "C73",
   "status": "partial",
   "theorems": [
    "C73_tail_path",
    "C73_roaming_refuted",
    "C73_match_units_refuted"
   ],
   "note": "bintype fix and num without roaming bins; roaming bins skip shared stars and tail_path_match mixes units (refuted); skypath in C96"
  },
  {
   "property": "C74",
   "status": "proved",
   "theorems": [
    "C74_interpolate_orbit",
    "C74_moved",
    "C74_from_centre_refuted"
   ],
   "note": "any flow as potential; with from_centre=True the method counts the centre twice (refuted)"
  },
  {
   "property": "C75",
   "status": "partial",
   "theorems": [
    "C75_interpolate_orbits",
    "C75_radii_refuted",
    "C75_legacy_refuted"
   ],
   "note": "positions proved; the recorded radii are not updated and the legacy names raise (refuted)"
  },
  {
   "property": "C11",
   "status": "partial",
   "theorems": [
    "C11_sky_view",
    "C11_origins_on_the_sky",
    "C11_round_trip",
    "C11_restored",
    "C11_nbody_centre",
    "C11_catalogue",
    "C11_centre_refuted",
    "C11_stale_refuted",
    "C11_moved_back_refuted",
    "C11_added_refuted",
    "C11_path_refuted",
    "C11_relative_refuted"
   ],
   "note": "Proved for every cluster whose caches are empty (no kept orbits), stored in any units and any of the four non-sky origins: the stars, orbit, masses and time survive the visit to the sky, and the stored units and origin can be restored for every origin except centre; catalogues read in sky coordinates survive the visit to the galaxy. The claim for all states of cached orbits is false, and refuted: kept orbits are never renewed, so moved or added stars are lost; the centre is not restored. Orthographic and van de Ven centring are treated in C81."
  },
  {
   "property": "C76",
   "status": "proved",
   "theorems": [
    "C76_limiting_radius"
   ],
   "note": "the density of the potential is a parameter; when the profile ends exactly at that density and is nowhere below it raises, which the theorem says"
  },
  {
   "property": "C77",
   "status": "partial",
   "theorems": [
    "C77_core_radius",
    "C77_core_radius_is_a_mean",
    "C77_isothermal_core_radius",
    "C77_centre_left_behind_refuted",
    "C77_centre_left_behind_crowd_refuted"
   ],
   "note": "both methods proved for clusters with a centre; a cluster whose centre is unset keeps the density centre found on the way (refuted)"
  },
  {
   "property": "C78",
   "status": "partial",
   "theorems": [
    "C78_virial_radius_critical_density",
    "C78_matter_density_ignored_refuted"
   ],
   "note": "proved for every H and overdens; Om has no effect (refuted)"
  },
  {
   "property": "C79",
   "status": "partial",
   "theorems": [
    "C79_equipartition_mass",
    "C79_kinematic_concentration",
    "C79_galactic_frame_refuted",
    "C79_radii_ignored_refuted"
   ],
   "note": "the fit is a parameter; both results characterised for every frame and mask. The mask given is overwritten, radial limits given to ckin are ignored, and relative to the galaxy both samples are empty (refuted)"
  },
  {
   "property": "C80",
   "status": "partial",
   "theorems": [
    "C80_no_options",
    "C80_reset_centre",
    "C80_reset_scales_virial",
    "C80_reset_scales_half_mass",
    "C80_reset_centre_in_the_centre_frame_refuted",
    "C80_mass_alone_resets_radii_refuted"
   ],
   "note": "proved for every frame, selection and option; refuted for clusters stored relative to their centre (the new centre is dropped and the velocity of the old one lost) and for reset_nbody_mass alone (it also replaces the length scale)"
  },
  {
   "property": "C81",
   "status": "partial",
   "theorems": [
    "C81_projection",
    "C81_no_method",
    "C81_geometry",
    "C81_motion_is_rate",
    "C81_cluster_at_rest",
    "C81_centre_motion_refuted",
    "C81_wraparound_refuted",
    "C81_method_not_applied_refuted",
    "C81_method_forgotten_refuted"
   ],
   "note": "proved for every history of requests from a cluster with no kept orbits; refuted: about the centre the motion taken off is the motion of the cluster; a method named when the cluster is already at the origin is remembered but not applied, and one named on the way to the sky is dropped; without a method right ascensions do not wrap"
  },
  {
   "property": "C82",
   "status": "partial",
   "theorems": [
    "C82_energies_of_some",
    "C82_order_ignored_refuted",
    "C82_no_ids_refuted",
    "C82_list_of_booleans_refuted",
    "C82_virialize_after_refuted"
   ],
   "note": "proved for every request by ids or array of booleans; refuted: the answer is in cluster order whatever the order asked for, an empty request raises, a list of booleans is read as ids, and the virial ratio recorded is that of the stars asked for, so virialize misses its target"
  },
  {
   "property": "C83",
   "status": "partial",
   "theorems": [
    "C83_tapered_law",
    "C83_tapered_mass_function",
    "C83_best_parameters",
    "C83_tapered_distribution",
    "C83_slope_method",
    "C83_corrections_in_method_refuted",
    "C83_too_few_refuted"
   ],
   "note": "rows, bounds, law and best fit proved, with curve_fit as a parameter; refuted: the method mass_function raises with corrections, and seven values in place of eleven come back when there are fewer stars than bins. The method tapered_mass_function of the cluster refers to an undefined name (C97_tapered_refuted)"
  },
  {
   "property": "C84",
   "status": "partial",
   "theorems": [
    "C84_equipartition_profile_partial",
    "C84_few_stars_refuted",
    "C84_shared_stars_refuted"
   ],
   "note": "rows characterised for every selection; missing: mask, energy and population limits do not reach the rows (bins only), a row with too few stars reads 0, and neighbouring rows share the star on their edge (refuted)"
  },
  {
   "property": "C85",
   "status": "partial",
   "theorems": [
    "C85_series",
    "C85_no_file",
    "C85_marks",
    "C85_truncated",
    "C85_orbit",
    "C85_lone_evolution_refuted",
    "C85_potentials_refuted",
    "C85_binary_count_refuted",
    "C85_fractional_interval_refuted",
    "C85_snapdir_forgotten_refuted"
   ],
   "note": "series of conf.3 files with whole intervals proved for every content; refuted: potentials are unpacked as integers, binaries are counted twice, an interval below one repeats the same file for ever, the directory of snapshots is forgotten, and bev/sev files without conf.3 raise. The hdf5 branch is C94"
  },
  {
   "property": "C86",
   "status": "partial",
   "theorems": [
    "C86_evolution",
    "C86_luminosities_refuted",
    "C86_one_single_refuted"
   ],
   "note": "types, radii of single stars and the table of binaries proved for any order of rows; refuted: logarithms of luminosities of single stars are cut to integers, those of binaries are 0 below fourteen binaries and added above, and one single star raises"
  },
  {
   "property": "C87",
   "status": "partial",
   "theorems": [
    "C87_load_on_orbit",
    "C87_snapshot_on_orbit",
    "C87_kpckms_refuted",
    "C87_galpy_refuted",
    "C87_other_units_refuted",
    "C87_advance_partial",
    "C87_advance_units_refuted",
    "C87_advance_time_refuted",
    "C87_advance_raises_refuted",
    "C87_advance_snapshot_refuted"
   ],
   "note": "loading proved in pc, km/s and N-body units, for every orbit and time; refuted: kpc, km/s raises, galpy units divide by 8 and 220 whatever ro and vo, other units drop the orbit; advancing takes the point over in kpc, km/s whatever the units and in kpc, km/s at a thousandth of the time. galpy itself is a parameter"
  },
  {
   "property": "C88",
   "status": "partial",
   "theorems": [
    "C88_table_by_names",
    "C88_missing_coordinate",
    "C88_search_total",
    "C88_table_by_mapper",
    "C88_mapper_incomplete",
    "C88_table_with_orbit",
    "C88_mapper_spent_refuted"
   ],
   "note": "proved for every table; refuted: the mapper loses its entries, so a second call with it raises. Units of columns are dropped by the code and not modelled; identifiers are whole numbers"
  },
  {
   "property": "C89",
   "status": "partial",
   "theorems": [
    "C89_orbits_in_kpckms",
    "C89_orbits_loaded",
    "C89_units_ignored_refuted",
    "C89_galpy_units_refuted",
    "C89_orbit_file_refuted"
   ],
   "note": "proved in kpc and km/s; refuted elsewhere: the numbers are kpc and km/s whatever the units, in galpy units no ro and vo give both the right places and the right masses, and an orbit file raises (undefined name)"
  },
  {
   "property": "C90",
   "status": "partial",
   "theorems": [
    "C90_particles_loaded",
    "C90_other_units_refuted",
    "C90_orbit_file_refuted"
   ],
   "note": "proved for the four physical unit systems, if AMUSE has the same pc/Myr in a km/s as the package; refuted: nbody, galpy, WDunits and radec units raise, and so does an orbit file. units None and amuse are not modelled"
  },
  {
   "property": "C91",
   "status": "partial",
   "theorems": [
    "C91_potential_and_back",
    "C91_concentration_and_back",
    "C91_entries",
    "C91_increasing",
    "C91_above_refuted",
    "C91_below_refuted"
   ],
   "note": "proved within the table (W0 from 0.3 to 19.5); refuted outside: above it both raise, below it the line goes to the last entry (index -1), giving nan"
  },
  {
   "property": "C92",
   "status": "partial",
   "theorems": [
    "C92_sample_loaded",
    "C92_sample_on_orbit",
    "C92_no_potential",
    "C92_galaxy_orbit_refuted",
    "C92_orbit_file_refuted"
   ],
   "note": "proved for any limepy sample of the requested size, in any linear units without an orbit and in pc, km/s with one; refuted about the Galaxy with an orbit (the stars stay about the origin) and for orbit files (the call always fails). A ready-made `model` and `projected` are not modelled."
  },
  {
   "property": "C93",
   "status": "partial",
   "theorems": [
    "C93_listed_name",
    "C93_other_name",
    "C93_harris",
    "C93_default_harris_refuted",
    "C93_lower_case_refuted"
   ],
   "note": "proved in pc, km/s for names in capitals in the tables; refuted for the default source when de Boer et al. do not list the cluster (loading fails instead of using Harris), and for names with lower-case letters in the tables (47Tuc, ic4499, ic1276)"
  },
  {
   "property": "C94",
   "status": "proved",
   "theorems": [
    "C94_header",
    "C94_every_group",
    "C94_next_file",
    "C94_alone",
    "C94_alone_pairs_refuted",
    "C94_components_refuted",
    "C94_alone_next_refuted",
    "C94_pairs_gone_refuted"
   ],
   "note": "HDF5 files are lists of groups of rows; conf.3 is read from bytes as in C85. Without orbit files, wdir, snapdir, explicit ngroup. The four _refuted theorems are findings about the code."
  },
  {
   "property": "C95",
   "status": "proved",
   "theorems": [
    "C95_cart_to_sky",
    "C95_sky_coords_refuted",
    "C95_snapout_refuted",
    "C95_plain_call"
   ],
   "note": "galpy's astrometry is a parameter. A call with keyword arguments raises unless every keyword is a parameter of the method. The two _refuted theorems are findings: both functions raise for every input."
  },
  {
   "property": "C96",
   "status": "partial",
   "theorems": [
    "C96_sky_path",
    "C96_radec_path",
    "C96_from_centre_refuted",
    "C96_match_partial",
    "C96_own_match_partial",
    "C96_own_match_centre_refuted",
    "C96_origin_refuted",
    "C96_origin_wrong_refuted",
    "C96_units_refuted",
    "C96_wrap_refuted",
    "C96_tail_partial",
    "C96_tail_sun_refuted"
   ],
   "note": "galpy's integration (a flow), its astrometry and its inverse are parameters; C96_radec_path assumes the inverse undoes the astrometry at the cluster's orbit. Missing: clusters that keep orbits of their stars from before, tails with roaming bins, tail_path_match on the sky, matching with the origin at the centre of mass. The _refuted theorems are findings about the code."
  },
  {
   "property": "C97",
   "status": "proved",
   "theorems": [
    "C97_kept",
    "C97_stale_refuted",
    "C97_unknown_method",
    "C97_tapered_refuted"
   ],
   "note": "Histories are lists of calls; the state is the cluster with projected, rn, trh, rv. Findings: to_units leaves rn, trh and rv in the units of the call (C97_stale_refuted: they are not the Lagrange radii in the current units); StarCluster.tapered_mass_function names its first parameter `cluster` but uses `self`, so it raises NameError. Overflow and coincident stars (division by zero) are excluded. Method critical_density is C73's."
  },
  {
   "property": "C98",
   "status": "proved",
   "theorems": [
    "C98_session",
    "C98_order_of_analyses",
    "C98_same_changes",
    "C98_round_trip"
   ],
   "note": "Sessions are lists of steps; an analysis that raises ends the session. Everything is restored but the binary elements, which visits to N-body units may convert (C10, C12): the proof shows that no answer depends on them. Changes of origin with sortstars=False, sky coordinates, and the analyses known to leave traces (rcore with an unset centre, profiles whose masks are overwritten) are not steps of these sessions."
  },
  {
   "property": "C99",
   "status": "proved",
   "theorems": [
    "C99_interactive",
    "C99_stars_kept",
    "C99_relaxation_left_refuted",
    "C99_fraction_left_refuted"
   ],
   "note": "An induction on the session. The state at the exception is modelled for the twelve analyses of C98 and for relaxation_time with rad given. Two findings: relaxation_time(rad=...) always raises (the velocity is unbound) and leaves the cluster in pc, km/s and off the galactic frame; the radius of more than the whole mass raises and leaves the cluster about its centre. Exceptions other than those the model of each analysis raises (wrong types, keyboard interrupts) are not modelled."
  },
  {
   "property": "C100",
   "status": "proved",
   "theorems": [
    "C100_session",
    "C100_unshared_masks",
    "C100_masks_only_narrow",
    "C100_any_order",
    "C100_shared_mask_refuted"
   ],
   "note": "Over the models of C22, C38-C41, C61-C66, C79, C84 and C98. A call that raises ends the session. The array written by `indx *=` is the mask of the caller (finding of C22), here followed through whole sessions: C100_shared_mask_refuted shows a session in which the second mass function finds no star. ckin, which also narrows the mask inside one call, is not among the calls (C79). Plots and the bins kept by alpha_prof's inner calls are not modelled."
  },
  {
   "property": "C101",
   "status": "proved",
   "theorems": [
    "C101_failed_profile",
    "C101_empty_profile_refuted"
   ],
   "note": "Over the models of C22, C38-C41 and C61. The state at the exception is modelled statement by statement (ModelAbandon): after the selection and the bins for mass and density profiles, whose radii are divided after the cluster is returned; after sphere_coords for the others. Bins given by the caller are not among the calls. An exception inside sphere_coords itself (an origin it cannot handle) does not occur for the catalogues quantified over. C101_empty_profile_refuted is a finding: one failed call empties the caller's mask for good."
  },
  {
   "property": "C102",
   "status": "proved",
   "theorems": [
    "C102_snapshots",
    "C102_streams",
    "C102_opened_alone",
    "C102_after_anything",
    "C102_groups",
    "C102_all_groups"
   ],
   "note": "Over the models of C44, C45, C48, C85, C94 and C100. Snapshot series with an orbit file are covered by C102_snapshots and C102_after_anything, not by C102_opened_alone. A cluster advanced starts without energies. For HDF5 groups the step from one group to the next is proved for every session (C102_groups); C102_all_groups follows all groups of a file with a header under changes of units and origin before each (nonzero ro, vo and galactic factors), and gives the group reached without them. NBODY6 and AMUSE particles are not among the loaders."
  }
 ]
}