{
 "claims": [
  {
   "property": "C01",
   "status": "proved",
   "theorems": [
    "C01_first_error_wins",
    "C01_occupied_slot_untouched",
    "C01_null_argument_ignored",
    "C01_report_without_memory_refuted"
   ],
   "note": "First report wins for every sequence of reports when memory for the error object is available. C01_report_without_memory_refuted: reporting without memory is undefined behaviour (NULL dereference)."
  },
  {
   "property": "C02",
   "status": "proved",
   "theorems": [
    "C02_error_ownership",
    "C02_copy_is_deep",
    "C02_propagate",
    "C02_matches",
    "C02_free"
   ],
   "note": "Ownership and deep copy for every heap."
  },
  {
   "property": "C03",
   "status": "proved",
   "theorems": [
    "C03_accepts",
    "C03_rejects_numbers",
    "C03_rejects_type"
   ],
   "note": "Exact accept/reject behaviour over R with memory available; allocation failures are C09."
  },
  {
   "property": "C04",
   "status": "proved",
   "theorems": [
    "C04_z_axis"
   ],
   "note": ""
  },
  {
   "property": "C05",
   "status": "proved",
   "theorems": [
    "C05_capillary_radius",
    "C05_conical_exterior",
    "C05_paraboloid"
   ],
   "note": ""
  },
  {
   "property": "C06",
   "status": "partial",
   "theorems": [
    "C06_ellipse_refuted",
    "C82_ellipse_focussing",
    "C82_ellipse_confocal"
   ],
   "note": "Proved for focussing and confocal ellipses; false in general: C06_ellipse_refuted. The part that holds is C82."
  },
  {
   "property": "C07",
   "status": "proved",
   "theorems": [
    "C07_array_round_trip"
   ],
   "note": ""
  },
  {
   "property": "C08",
   "status": "partial",
   "theorems": [
    "C08_documented_length_refuted",
    "C83_one_more_element"
   ],
   "note": "Refuted: the constructor reads nid+1 elements; proved that nid+1 elements suffice. The part that holds is C83."
  },
  {
   "property": "C09",
   "status": "partial",
   "theorems": [
    "C09_exhausted_refuted",
    "C84_alloc_failure"
   ],
   "note": "Proved when memory for the error object is available; refuted under persistent exhaustion. The part that holds is C84."
  },
  {
   "property": "C10",
   "status": "proved",
   "theorems": [
    "C10_ring_walk_complete"
   ],
   "note": ""
  },
  {
   "property": "C11",
   "status": "proved",
   "theorems": [
    "C11_validate_meaning",
    "C11_validate_mono",
    "C11_validate_range",
    "C11_validate_bad_exterior",
    "C11_validate_closed_form"
   ],
   "note": ""
  },
  {
   "property": "C12",
   "status": "partial",
   "theorems": [
    "C12_odd_shells_refuted",
    "C85_inner_capillaries_inside",
    "C85_even_shells"
   ],
   "note": "Proved for an even number of shells and for inner capillaries; refuted for odd shell counts (the checked point is not the outermost one). The part that holds is C85."
  },
  {
   "property": "C13",
   "status": "proved",
   "theorems": [
    "C13_boundary_is_hexagon",
    "C13_region_shape",
    "C13_contains_inscribed_disc"
   ],
   "note": ""
  },
  {
   "property": "C14",
   "status": "proved",
   "theorems": [
    "C14_shell_count",
    "C14_comment_refuted"
   ],
   "note": "C14_comment_refuted: the code's comment about n_cap < 7 is wrong for 4..6."
  },
  {
   "property": "C15",
   "status": "proved",
   "theorems": [
    "C15_rejects",
    "C15_accepts"
   ],
   "note": "Heap level over R: exact rejection (memory otherwise unchanged) and acceptance for an accepted profile and composition."
  },
  {
   "property": "C16",
   "status": "partial",
   "theorems": [
    "C16_object_and_error_refuted",
    "C86_bad_profile"
   ],
   "note": "Refuted: bad fractions give an object AND an error. Proved for refused profiles. The part that holds is C86."
  },
  {
   "property": "C17",
   "status": "partial",
   "theorems": [
    "C17_rounding_refuted",
    "C87_weights"
   ],
   "note": "Proved over R for an array in memory. Refuted in binary64: ten fractions of 0.1 are refused (C17_rounding_refuted). The part that holds is C87."
  },
  {
   "property": "C18",
   "status": "partial",
   "theorems": [
    "C18_bound_refuted",
    "C88_stored_open_area",
    "C88_open_area",
    "C88_open_area_bound"
   ],
   "note": "Formula proved; bound refuted for validated optics, proved when the capillary diameter is at most the pitch. The stored field is tied to the formula. The part that holds is C88."
  },
  {
   "property": "C19",
   "status": "proved",
   "theorems": [
    "C19_description_deep_copy",
    "C19_source_deep_copy"
   ],
   "note": "Later changes confined to memory that existed before the call leave the new object unchanged."
  },
  {
   "property": "C20",
   "status": "proved",
   "theorems": [
    "C20_profile",
    "C20_profile_from_arrays",
    "C20_description",
    "C20_source",
    "C20_photon",
    "C20_photon_with_results",
    "C20_leak",
    "C20_free_null"
   ],
   "note": "Construct-then-free gives the same memory, for all five kinds of object, and free(NULL) is a no-op. For photons also with result arrays and leaks attached."
  },
  {
   "property": "C21",
   "status": "partial",
   "theorems": [
    "C21_refused_profile_refuted",
    "C21_source_energies_refuted",
    "C21_source_rng_refuted",
    "C89_description_out_of_memory",
    "C89_source_out_of_memory"
   ],
   "note": "Refuted: refused profile leaks the exterior radius copy; source energies failure leaks the source block; rng failure crashes. Proved for the other allocation failures. The part that holds is C89."
  },
  {
   "property": "C22",
   "status": "proved",
   "theorems": [
    "C22_rejects",
    "C22_accepts"
   ],
   "note": "Heap level over R."
  },
  {
   "property": "C23",
   "status": "partial",
   "theorems": [
    "C23_unchecked_refuted",
    "C23_accepts_out_of_range_refuted",
    "C23_bad_fractions_refuted",
    "C90_checks",
    "C90_file_contents",
    "C90_energies"
   ],
   "note": "Refuted: roughness and polarisation unchecked, zero distances/density/one capillary accepted, bad fractions give a source and an error. Proved: the checks that are made. Token-level model of the file. The part that holds is C90."
  },
  {
   "property": "C24",
   "status": "proved",
   "theorems": [
    "C24_line",
    "C24_no_memory_refuted"
   ],
   "note": "Exact line for any length; refuted when the buffer cannot be enlarged (writes to NULL)."
  },
  {
   "property": "C25",
   "status": "proved",
   "theorems": [
    "C25_generated_photon",
    "C25_source_point",
    "C25_source_area_uniform",
    "C25_divergence",
    "C25_missing_arguments",
    "C25_no_memory_refuted"
   ],
   "note": "Over R. Also: unchecked photon_new result dereferenced when memory runs out (refuted part)."
  },
  {
   "property": "C26",
   "status": "proved",
   "theorems": [
    "C26_polarisation"
   ],
   "note": "Over R."
  },
  {
   "property": "C27",
   "status": "proved",
   "theorems": [
    "C27_hexagon",
    "C27_square",
    "C27_covers",
    "C27_covers_square",
    "C27_terminates"
   ],
   "note": "Inside, covering, termination of the rejection loop. Over R."
  },
  {
   "property": "C28",
   "status": "proved",
   "theorems": [
    "C28_rejects",
    "C28_accepts",
    "C28_out_of_memory"
   ],
   "note": "Includes allocation failure."
  },
  {
   "property": "C29",
   "status": "partial",
   "theorems": [
    "C29_silent_failure_refuted",
    "C91_codes",
    "C91_bad_arguments",
    "C91_outside_the_optic",
    "C91_outline_determined"
   ],
   "note": "Any arithmetic: returned codes are the documented ones, -2 and bad arguments are reported. Refuted: -1 without error for a photon inside a wide mono-capillary (binary64, all standard libm). Exact arithmetic: -2 exactly for photons that start outside the outline. The part that holds is C91."
  },
  {
   "property": "C30",
   "status": "partial",
   "theorems": [
    "C30_uninitialised_weights_refuted",
    "C92_weights_delivered"
   ],
   "note": "Proved (over R) without leak calculation and for starts on the entrance plane. Refuted with leak calculation and a start in the glass: uninitialised weights with code 1. The part that holds is C92."
  },
  {
   "property": "C31",
   "status": "proved",
   "theorems": [
    "C31_weights_are_probabilities"
   ],
   "note": "Over R, for every launch, leak calculation on or off."
  },
  {
   "property": "C32",
   "status": "proved",
   "theorems": [
    "C32_nearest_capillary"
   ],
   "note": ""
  },
  {
   "property": "C33",
   "status": "partial",
   "theorems": [
    "C33_parallel_refuted",
    "C93_hit_on_wall",
    "C93_no_hit_overlooked",
    "C93_no_hit_unchanged"
   ],
   "note": "Over R: the hit is on the ray and on the wall, between the segment ends, >= 1e-5 cm downstream, no earlier admissible hit (rays not parallel to the wall); otherwise the photon is untouched. Refuted for parallel rays in binary64 (NaN hit). The part that holds is C93."
  },
  {
   "property": "C34",
   "status": "proved",
   "theorems": [
    "C34_unit_normal"
   ],
   "note": "Over R, positive radii, ray neither parallel to the wall nor orthogonal to the axis."
  },
  {
   "property": "C35",
   "status": "proved",
   "theorems": [
    "C35_specular_path",
    "C35_mirror_unique"
   ],
   "note": "Over R: exit state of every transmitted/absorbed photon is the end of a chain of specular reflections on the walls of one capillary of the stacking (as long as the ray is not parallel to a wall)."
  },
  {
   "property": "C36",
   "status": "proved",
   "theorems": [
    "C36_fresnel",
    "C36_index_positive",
    "C36_bad_arguments"
   ],
   "note": "Over R: reflectivity lies between the s and p Fresnel reflectivities (both in [0,1]) of the refractive index of the glass; physical constants keep the index positive."
  },
  {
   "property": "C37",
   "status": "proved",
   "theorems": [
    "C37_conservation",
    "C37_one_interaction"
   ],
   "note": "Over R: per interaction and for a whole launch (transmitted weight plus all leak records never exceeds 1 per energy)."
  },
  {
   "property": "C38",
   "status": "partial",
   "theorems": [
    "C38_parallel_photon_refuted",
    "C38_steep_photon_refuted",
    "C94_launch_returns"
   ],
   "note": "Over R, leak calculation off: every launch returns and stays in bounds. Refuted in binary64: parallel photon (read past the end), and with leak calculation a steep photon (read at index -1). The part that holds is C94."
  },
  {
   "property": "C39",
   "status": "proved",
   "theorems": [
    "C39_copies",
    "C39_none"
   ],
   "note": "Deep copies for any number of leaks, with memory available; none: failure reported and outputs cleared."
  },
  {
   "property": "C40",
   "status": "proved",
   "theorems": [
    "C40_schedule_independent"
   ],
   "note": "Over R: any number of threads, any distribution, any schedule; same attempts, same result (leak records up to order)."
  },
  {
   "property": "C41",
   "status": "proved",
   "theorems": [
    "C41_every_photon_recorded"
   ],
   "note": "Any arithmetic. The start count leaves out photons with code -1, -2 and those outside the exit window (see C62)."
  },
  {
   "property": "C42",
   "status": "proved",
   "theorems": [
    "C42_efficiency_is_mean_weight",
    "C42_efficiency_range"
   ],
   "note": "Over R, non-negative cross sections: the efficiency is the mean recorded weight over the counted photons and lies in [0,1]."
  },
  {
   "property": "C43",
   "status": "proved",
   "theorems": [
    "C43_no_leak_lost",
    "C43_which_photons"
   ],
   "note": "Any arithmetic: the leak records of the result are, up to order, those of all launched photons with outcome 0, 1, 2, each once."
  },
  {
   "property": "C44",
   "status": "proved",
   "theorems": [
    "C44_earlier_runs_do_not_matter"
   ],
   "note": "The earlier content of open_area, the only thing a run changes, has no influence."
  },
  {
   "property": "C45",
   "status": "partial",
   "theorems": [
    "C45_energies_out_of_memory_refuted",
    "C45_failure_leaves_arrays_refuted",
    "C45_upstream_refuted",
    "C95_start_data",
    "C95_exit_data",
    "C95_internal_leaks",
    "C95_external_leaks",
    "C95_energies",
    "C95_null_result",
    "C95_no_images",
    "C95_no_start_data",
    "C95_no_leaks",
    "C95_example",
    "C95_directions"
   ],
   "note": "All five getters at heap level, for every result and every allocation failure: fresh copies of everything stored, nothing else touched (C95_start_data, C95_exit_data, C95_internal_leaks, C95_external_leaks, C95_energies); refusals; directions recovered over R when they point downstream. Refuted: get_data on a failed allocation, arrays left behind by a failing getter, upstream directions. Sizes do not overflow int. The part that holds is C95."
  },
  {
   "property": "C46",
   "status": "partial",
   "theorems": [
    "C46_last_point_missing_refuted",
    "C46_true_though_incomplete_refuted",
    "C46_leaks_out_of_memory_refuted",
    "C46_buffer_lost_refuted",
    "C96_write_hdf5",
    "C96_complete_file",
    "C96_table_elements",
    "C96_weight_elements",
    "C96_refused_while_open",
    "C96_null_arguments",
    "C96_example"
   ],
   "note": "heap level against a model of the HDF5 library in which any call may fail (oracle). Proved: success iff complete file; a failing call is reported, the file stays incomplete. Refuted: returns true when closing a group or the file fails; last profile point never written; leaks/UB when memory runs out while leaks are written; a failed call leaves the file open The part that holds is C96."
  },
  {
   "property": "C47",
   "status": "partial",
   "theorems": [
    "C47_tables_out_of_memory_refuted",
    "C47_silent_library_refuted",
    "C47_description_lost_refuted",
    "C97_tables_made_once",
    "C97_first_call",
    "C97_tables_kept",
    "C97_open_failure"
   ],
   "note": "proved; refuted parts: out of memory while making the tables, a library without error stack, descriptions lost The part that holds is C97."
  },
  {
   "property": "C48",
   "status": "partial",
   "theorems": [
    "C48_profile_arrays_partial",
    "C48_last_element_refuted",
    "C48_empty_profile_refuted",
    "C48_example"
   ],
   "note": "all elements but the last are those of the profile; refuted: the last one is uninitialised"
  },
  {
   "property": "C49",
   "status": "partial",
   "theorems": [
    "C49_relaunch_refuted",
    "C103_depends",
    "C103_released"
   ],
   "note": "What a launch depends on is proved. Refuted: travelled distance and electric vector of an earlier launch are kept. Proved: weights, energies and coefficients of a finished launch are released. The part that holds is C103."
  },
  {
   "property": "C50",
   "status": "partial",
   "theorems": [
    "C50_nan_photon_refuted",
    "C50_nan_source_refuted",
    "C50_nan_profile_validated_refuted"
   ],
   "note": "Refuted: NaN passes polycap_profile_validate, polycap_photon_new and polycap_source_new."
  },
  {
   "property": "C51",
   "status": "partial",
   "theorems": [
    "C51_phantom_capillary_refuted"
   ],
   "note": "Refuted: entrance points near the hexagon corners go to a capillary that does not exist."
  },
  {
   "property": "C52",
   "status": "partial",
   "theorems": [
    "C52_no_overlap_refuted",
    "C98_separated_capillaries"
   ],
   "note": "Refuted in general; proved when capillary diameter is below the pitch. The part that holds is C98."
  },
  {
   "property": "C53",
   "status": "partial",
   "theorems": [
    "C53_stored_error_lost_refuted"
   ],
   "note": "Refuted: polycap_description_new frees and replaces the stored error when it refuses a profile."
  },
  {
   "property": "C54",
   "status": "partial",
   "theorems": [
    "C54_negative_fraction_refuted",
    "C99_fractions"
   ],
   "note": "Refuted: fractions 2 and -1 are accepted; proved for non-negative fractions. The part that holds is C99."
  },
  {
   "property": "C55",
   "status": "partial",
   "theorems": [
    "C55_truncated_refuted",
    "C55_not_a_number_partial"
   ],
   "note": "Refuted: a truncated file (EOF is not looked at) uses unset variables; a non-number at the first position is reported."
  },
  {
   "property": "C56",
   "status": "partial",
   "theorems": [
    "C56_oblique_refuted",
    "C100_normal_orthogonal"
   ],
   "note": "Proved for segments (tapered or not) whose axis is parallel to the optical axis; refuted for oblique axes. The part that holds is C100."
  },
  {
   "property": "C57",
   "status": "partial",
   "theorems": [
    "C57_new_electric_vector",
    "C57_transverse_refuted"
   ],
   "note": "Refuted: the new electric vector is the componentwise absolute value; exact description proved."
  },
  {
   "property": "C58",
   "status": "partial",
   "theorems": [
    "C58_exit_coordinates_refuted"
   ],
   "note": "Refuted in binary64: exit coordinates equal start coordinates."
  },
  {
   "property": "C59",
   "status": "partial",
   "theorems": [
    "C59_parallel_photon_absorbed_refuted"
   ],
   "note": "Refuted in binary64: absorbed with NaN coordinates."
  },
  {
   "property": "C60",
   "status": "partial",
   "theorems": [
    "C60_bad_composition_refuted"
   ],
   "note": "Refuted in binary64: NULL cross sections dereferenced with leak calculation."
  },
  {
   "property": "C61",
   "status": "proved",
   "theorems": [
    "C61_no_data_race",
    "C61_every_schedule_completes"
   ],
   "note": "Data race freedom for any arithmetic; completion over R (non-negative cross sections)."
  },
  {
   "property": "C62",
   "status": "partial",
   "theorems": [
    "C62_every_launched_photon_counted_refuted"
   ],
   "note": "Refuted in binary64 for every standard libm: a photon that launch reports as transmitted (code 1) but that misses the exit window is in no counter, so re_start counts 1 of 2 launched photons. C41 gives the exact count."
  },
  {
   "property": "C63",
   "status": "partial",
   "theorems": [
    "C63_terminates_refuted"
   ],
   "note": "Refuted over R: for every parallel source beside a mono-capillary no iteration ever ends, however many random numbers are drawn."
  },
  {
   "property": "C64",
   "status": "partial",
   "theorems": [
    "C64_progress_division_by_zero_refuted",
    "C64_progress_overflow_refuted",
    "C101_progress_output"
   ],
   "note": "Safe when max_threads <= n_photons and j <= 21474836; division by zero when n_photons < max_threads and thread 0 gets two iterations; int overflow above. The part that holds is C101."
  },
  {
   "property": "C65",
   "status": "partial",
   "theorems": [
    "C65_external_leak_uninitialised_refuted",
    "C65_electric_vector_refuted",
    "C65_no_square_root_refuted",
    "C65_nan_refuted"
   ],
   "note": "refuted: recorded electric vectors are rounded to whole numbers, z can be NaN, external leaks have uninitialised electric vectors"
  },
  {
   "property": "C66",
   "status": "proved",
   "theorems": [
    "C66_released",
    "C66_null",
    "C66_copies_survive"
   ],
   "note": "heap level; result_blocks lists the blocks of the object, NoDup: no two arrays share a block (C66_copies_survive: exit data)"
  },
  {
   "property": "C67",
   "status": "partial",
   "theorems": [
    "C67_released_source_refuted"
   ],
   "note": "refuted: the writer follows the pointer to the released source (undefined behaviour)"
  },
  {
   "property": "C68",
   "status": "proved",
   "theorems": [
    "C68_errors_raise",
    "C68_sizes_must_agree",
    "C68_short_arrays"
   ],
   "note": "heap level"
  },
  {
   "property": "C69",
   "status": "partial",
   "theorems": [
    "C69_strided_arrays_refuted",
    "C102_neighbouring_cells",
    "C102_contiguous_arrays"
   ],
   "note": "proved for contiguous arrays; refuted for strided ones The part that holds is C102."
  },
  {
   "property": "C70",
   "status": "partial",
   "theorems": [
    "C70_light_is_accounted_for_partial"
   ],
   "note": "Exact arithmetic, all photons, with and without leak calculation. Missing: electric vectors of the leaks; what the positions and directions of the leaks are (C71-C73)."
  },
  {
   "property": "C71",
   "status": "partial",
   "theorems": [
    "C71_leak_direction_refuted"
   ],
   "note": "Refuted by a run in binary64 with a power-series libm."
  },
  {
   "property": "C72",
   "status": "partial",
   "theorems": [
    "C72_point_on_the_ray_partial",
    "C72_side_leak_position_refuted",
    "C72_side_leak_inside_refuted"
   ],
   "note": "Proved: the point lies on the ray and its height in a segment of the profile. Refuted: it need not be on the surface (binary64, all standard libm)."
  },
  {
   "property": "C73",
   "status": "partial",
   "theorems": [
    "C73_exit_leak_position_refuted",
    "C73_mono_exit_leak_refuted"
   ],
   "note": "Refuted (binary64, all standard libm), for poly- and mono-capillaries."
  },
  {
   "property": "C74",
   "status": "proved",
   "theorems": [
    "C74_bad_request",
    "C74_refusal_happens"
   ],
   "note": "heap level"
  },
  {
   "property": "C75",
   "status": "proved",
   "theorems": [
    "C75_out_of_memory"
   ],
   "note": "heap level; the 26 allocations of the preparation; reports_fit: the report itself gets memory. Memory private to threads is not on the heap of the model."
  },
  {
   "property": "C76",
   "status": "proved",
   "theorems": [
    "C76_returned_object",
    "C76_call_can_return"
   ],
   "note": "heap level, threads of RunModel.v refined to memory (hstep); any number type; memory private to a thread is not on the heap"
  },
  {
   "property": "C77",
   "status": "partial",
   "theorems": [
    "C77_out_of_memory_partial",
    "C77_temporary_arrays_lost_refuted"
   ],
   "note": "At most three blocks are lost (proved); refuted: whenever it is not the first allocation that fails, some are (iexit_temp, not_entered_temp, not_transmitted_temp)"
  },
  {
   "property": "C78",
   "status": "proved",
   "theorems": [
    "C78_launch_in_memory",
    "C78_bad_arguments"
   ],
   "note": "heap level (FlightMem.v, simulation of TraceModel/LaunchModel); any number type; the functional model must end within its step budget without undefined behaviour (see C38 for when it does). Stretches of code that only read and write photon fields are single steps."
  },
  {
   "property": "C79",
   "status": "proved",
   "theorems": [
    "C79_life_leaves_nothing"
   ],
   "note": "heap level; as C78"
  },
  {
   "property": "C80",
   "status": "partial",
   "theorems": [
    "C80_relaunch_loses_leaks_refuted"
   ],
   "note": "Refuted: one leak object per leak of the first launch stays allocated and unreachable (exactly those: proved for all states); nothing is lost when the first launch recorded no leak"
  },
  {
   "property": "C81",
   "status": "partial",
   "theorems": [
    "C81_out_of_memory_refuted"
   ],
   "note": "Refuted by runs of the binary64 model with one failing allocation: NULL dereference, photon released under the caller, use after free, success with a NULL leak, lost leaks. Nothing positive proved."
  },
  {
   "property": "C82",
   "status": "proved",
   "theorems": [
    "C82_ellipse_focussing",
    "C82_ellipse_confocal"
   ],
   "note": ""
  },
  {
   "property": "C83",
   "status": "proved",
   "theorems": [
    "C83_one_more_element"
   ],
   "note": "Called with fewer elements it reads out of bounds: C08."
  },
  {
   "property": "C84",
   "status": "proved",
   "theorems": [
    "C84_alloc_failure"
   ],
   "note": "Persistent exhaustion: C09."
  },
  {
   "property": "C85",
   "status": "proved",
   "theorems": [
    "C85_inner_capillaries_inside",
    "C85_even_shells"
   ],
   "note": "Odd shells, outermost capillaries: C12."
  },
  {
   "property": "C86",
   "status": "proved",
   "theorems": [
    "C86_bad_profile"
   ],
   "note": ""
  },
  {
   "property": "C87",
   "status": "proved",
   "theorems": [
    "C87_weights"
   ],
   "note": "Exact arithmetic; binary64: C17."
  },
  {
   "property": "C88",
   "status": "proved",
   "theorems": [
    "C88_stored_open_area",
    "C88_open_area",
    "C88_open_area_bound"
   ],
   "note": ""
  },
  {
   "property": "C89",
   "status": "proved",
   "theorems": [
    "C89_description_out_of_memory",
    "C89_source_out_of_memory"
   ],
   "note": "The other failing allocations of the constructors are the refuted parts of C21."
  },
  {
   "property": "C90",
   "status": "proved",
   "theorems": [
    "C90_checks",
    "C90_file_contents",
    "C90_energies"
   ],
   "note": "Token-level model; profiles read from separate files are an arbitrary function."
  },
  {
   "property": "C91",
   "status": "proved",
   "theorems": [
    "C91_codes",
    "C91_bad_arguments",
    "C91_outside_the_optic",
    "C91_outline_determined"
   ],
   "note": ""
  },
  {
   "property": "C92",
   "status": "proved",
   "theorems": [
    "C92_weights_delivered"
   ],
   "note": ""
  },
  {
   "property": "C93",
   "status": "proved",
   "theorems": [
    "C93_hit_on_wall",
    "C93_no_hit_overlooked",
    "C93_no_hit_unchanged"
   ],
   "note": ""
  },
  {
   "property": "C94",
   "status": "proved",
   "theorems": [
    "C94_launch_returns"
   ],
   "note": "Over R; binary64: C38."
  },
  {
   "property": "C95",
   "status": "proved",
   "theorems": [
    "C95_start_data",
    "C95_exit_data",
    "C95_internal_leaks",
    "C95_external_leaks",
    "C95_energies",
    "C95_null_result",
    "C95_no_images",
    "C95_no_start_data",
    "C95_no_leaks",
    "C95_example",
    "C95_directions"
   ],
   "note": ""
  },
  {
   "property": "C96",
   "status": "proved",
   "theorems": [
    "C96_write_hdf5",
    "C96_complete_file",
    "C96_table_elements",
    "C96_weight_elements",
    "C96_refused_while_open",
    "C96_null_arguments",
    "C96_example"
   ],
   "note": "Against the model of the HDF5 library in H5Lib."
  },
  {
   "property": "C97",
   "status": "proved",
   "theorems": [
    "C97_tables_made_once",
    "C97_first_call",
    "C97_tables_kept",
    "C97_open_failure"
   ],
   "note": ""
  },
  {
   "property": "C98",
   "status": "proved",
   "theorems": [
    "C98_separated_capillaries"
   ],
   "note": ""
  },
  {
   "property": "C99",
   "status": "proved",
   "theorems": [
    "C99_fractions"
   ],
   "note": ""
  },
  {
   "property": "C100",
   "status": "proved",
   "theorems": [
    "C100_normal_orthogonal"
   ],
   "note": ""
  },
  {
   "property": "C101",
   "status": "proved",
   "theorems": [
    "C101_progress_output"
   ],
   "note": ""
  },
  {
   "property": "C102",
   "status": "proved",
   "theorems": [
    "C102_neighbouring_cells",
    "C102_contiguous_arrays"
   ],
   "note": ""
  },
  {
   "property": "C103",
   "status": "proved",
   "theorems": [
    "C103_depends",
    "C103_released"
   ],
   "note": ""
  },
  {
   "property": "C104",
   "status": "proved",
   "theorems": [
    "C104_python_result",
    "C104_met",
    "C104_example"
   ],
   "note": ""
  },
  {
   "property": "C105",
   "status": "partial",
   "theorems": [
    "C105_used_again_refuted",
    "C105_deleted_refuted"
   ],
   "note": "Refuted: after a failed fetch the properties read memory that was never written, and deleting the object may release an uninitialised pointer."
  },
  {
   "property": "C106",
   "status": "proved",
   "theorems": [
    "C106_python_photon"
   ],
   "note": "Energies as a Python list; array arguments: C69."
  },
  {
   "property": "C107",
   "status": "proved",
   "theorems": [
    "C107_one_launch"
   ],
   "note": ""
  },
  {
   "property": "C108",
   "status": "partial",
   "theorems": [
    "C108_stale_leaks",
    "C108_stale_leaks_refuted"
   ],
   "note": "Refuted: leaks handed out once are handed out again after every later launch (C108_stale_leaks, for all photons); an example where the last launch recorded none."
  },
  {
   "property": "C109",
   "status": "partial",
   "theorems": [
    "C109_lost_weights",
    "C109_lost_weights_refuted"
   ],
   "note": "Refuted: when launch returns None or raises after the library made the weights, they are lost (C109_lost_weights, for all photons). Holds when weights are returned by a single launch: C107."
  },
  {
   "property": "C110",
   "status": "partial",
   "theorems": [
    "C110_computed_partial",
    "C110_never_written_refuted"
   ],
   "note": "Proved without leak calculation and for photons that do not start inside the optic; refuted otherwise."
  },
  {
   "property": "C111",
   "status": "partial",
   "theorems": [
    "C111_description_lifetime_refuted"
   ],
   "note": "Refuted for every photon and optic: the Photon keeps no reference to its Description."
  },
  {
   "property": "C112",
   "status": "partial",
   "theorems": [
    "C112_ignored_photon_refuted"
   ],
   "note": "Refuted: Photon(..., ignore=True) succeeds, reading any field of it dereferences NULL."
  },
  {
   "property": "C113",
   "status": "proved",
   "theorems": [
    "C113_python_objects"
   ],
   "note": "Array arguments as Python lists (array arguments: C69); atomic numbers within int32; memory available; one_law holds for the reals and for doubles (one_law_R, one_law_F)."
  },
  {
   "property": "C114",
   "status": "proved",
   "theorems": [
    "C114_all_deleted"
   ],
   "note": ""
  },
  {
   "property": "C115",
   "status": "partial",
   "theorems": [
    "C115_refused_descriptions",
    "C115_refused_descriptions_refuted"
   ],
   "note": "Refuted: every description refused because of the shape of its profile loses one block (C115_refused_descriptions); the true half is C114."
  },
  {
   "property": "C116",
   "status": "proved",
   "theorems": [
    "C116_source_photon"
   ],
   "note": "Random numbers are an arbitrary list; a photon still being drawn when they are used up is not covered."
  },
  {
   "property": "C117",
   "status": "partial",
   "theorems": [
    "C117_source_lifetime_refuted"
   ],
   "note": "Refuted for every source and photon: the Photon keeps no reference to the Source, whose description it uses."
  },
  {
   "property": "C118",
   "status": "partial",
   "theorems": [
    "C118_ignored_profile_refuted"
   ],
   "note": "Refuted for all valid arguments: Profile(..., ignore=True) succeeds and Description dereferences NULL."
  },
  {
   "property": "C119",
   "status": "proved",
   "theorems": [
    "C119_whole_program"
   ],
   "note": "As C113, C116."
  },
  {
   "property": "C120",
   "status": "proved",
   "theorems": [
    "C120_python_simulation",
    "C120_can_return"
   ],
   "note": "C120_can_return: such a call exists. Random numbers are arbitrary lists; a simulation still running when they are used up is not covered (termination cannot be promised)."
  },
  {
   "property": "C121",
   "status": "proved",
   "theorems": [
    "C121_no_photons",
    "C121_memory_error"
   ],
   "note": ""
  },
  {
   "property": "C122",
   "status": "proved",
   "theorems": [
    "C122_simulating_program",
    "C122_all_deleted"
   ],
   "note": "As C113, C120."
  },
  {
   "property": "C123",
   "status": "proved",
   "theorems": [
    "C123_complete_files"
   ],
   "note": "Tokens of a file are given with their value as floating point number and as int; decimal conversion itself is not modelled."
  },
  {
   "property": "C124",
   "status": "proved",
   "theorems": [
    "C124_null_name",
    "C124_first_file_missing",
    "C124_too_few_intervals",
    "C124_inconsistent_files",
    "C124_out_of_memory"
   ],
   "note": ""
  },
  {
   "property": "C125",
   "status": "partial",
   "theorems": [
    "C125_closed_on_success_partial",
    "C125_left_open_refuted"
   ],
   "note": "True when a profile is handed out (C125_closed_on_success_partial); the code refutes it for refusals (C125_left_open_refuted)."
  },
  {
   "property": "C126",
   "status": "partial",
   "theorems": [
    "C126_contents_partial",
    "C126_truncated_files_refuted",
    "C126_no_number_refuted"
   ],
   "note": "C126_contents_partial gives the contents for all accepted files; the code refutes the claim: truncated files are accepted with indeterminate elements, and a first file without a whole number is undefined behaviour."
  },
  {
   "property": "C127",
   "status": "proved",
   "theorems": [
    "C127_complete_file"
   ],
   "note": "Over the reals; tokens are given with their value as floating point number and as int. Profiles in separate files (type other than 0, 1, 2) are modelled but not covered here."
  },
  {
   "property": "C128",
   "status": "partial",
   "theorems": [
    "C128_null_name",
    "C128_unopened_file",
    "C128_not_a_number",
    "C128_unacceptable_value",
    "C128_bad_percentages_refuted"
   ],
   "note": "The refusals are proved; the code refutes the last part: percentages that do not add up to 100 are reported, but the source is handed out together with the error (C128_bad_percentages_refuted)."
  },
  {
   "property": "C129",
   "status": "partial",
   "theorems": [
    "C129_closed_on_success_partial",
    "C129_left_open_refuted",
    "C129_open_without_memory_refuted"
   ],
   "note": "True whenever a source is handed out; the code refutes the rest: after a reading error the file stays open (C129_left_open_refuted)."
  },
  {
   "property": "C130",
   "status": "proved",
   "theorems": [
    "C130_any_file",
    "C130_undefined_only_there",
    "C130_freed"
   ],
   "note": "Any number type. source_from_file (C23, C55, C90) says what reading the tokens gives; the theorems tie the program in memory to it, including where behaviour is undefined."
  },
  {
   "property": "C131",
   "status": "proved",
   "theorems": [
    "C131_no_arguments",
    "C131_threads",
    "C131_leaks",
    "C131_can_end",
    "C131_successful_run"
   ],
   "note": "The whole program as a relation; files are lists of tokens, atoi is any function. Theorems on complete files are over the reals, the others for any number type. The text of the messages on stdout is not modelled."
  },
  {
   "property": "C132",
   "status": "proved",
   "theorems": [
    "C132_refused_input",
    "C132_happens",
    "C132_unacceptable_value"
   ],
   "note": "The message printed is the one in the error variable; that the refused runs exist is C132_happens."
  },
  {
   "property": "C133",
   "status": "partial",
   "theorems": [
    "C133_unnoticed_error_refuted",
    "C133_out_of_memory_partial"
   ],
   "note": "Refuted by the code: percentages below 100 are reported, but the run ends with status 0, silently, with an output file like any other (C133_unnoticed_error_refuted). A refused source is covered by C132. C133_out_of_memory_partial: with an acceptable input file, if one of the 26 allocations between the reading of the input and the start of the threads fails, the program exits with status 1 and prints the message of the MEMORY error; the HDF5 library is not asked for anything."
  },
  {
   "property": "C134",
   "status": "partial",
   "theorems": [
    "C134_any_library_partial"
   ],
   "note": "No undefined behaviour, no other file, status 1 comes with the message of a reported error and only when a library call failed. Missing: status 0 can go with a missing output file, because the writer returns true when the call that closes a group fails (C46_true_though_incomplete_refuted)."
  },
  {
   "property": "C135",
   "status": "proved",
   "theorems": [
    "C135_axial_photon",
    "C135_conical_profiles"
   ],
   "note": "Exact arithmetic. Profiles of any length; the example that meets the hypotheses of C131 is such an optic."
  },
  {
   "property": "C136",
   "status": "proved",
   "theorems": [
    "C136_named_profile",
    "C136_unacceptable_value"
   ],
   "note": "Exact arithmetic for the values; the names and files are arbitrary. How fgets-like reading turns the text into names is a parameter (names_at); polycap_read_input_line itself is executed on each name (as in C24)."
  },
  {
   "property": "C137",
   "status": "partial",
   "theorems": [
    "C137_refused_files_partial",
    "C137_names_lost_refuted"
   ],
   "note": "Proved: NULL, exactly one error of kind IO or INVALID_ARGUMENT, nothing else that was in memory changes. False: the three names stay allocated and the input file stays open (C137_names_lost_refuted). Files that do not start with a whole number are excluded (the count is then indeterminate, C126)."
  },
  {
   "property": "C138",
   "status": "partial",
   "theorems": [
    "C138_out_of_memory_partial",
    "C138_generator_refuted"
   ],
   "note": "Proved for the description, the source, the atomic numbers, the fractions, the energies and the four blocks of the profile (any numbers, files of any length). False for the two blocks of the random number generator: polycap_rng_new uses the result of calloc unchecked (C138_generator_refuted). Files that name the files of their profile are not covered."
  },
  {
   "property": "C139",
   "status": "partial",
   "theorems": [
    "C139_given_seed",
    "C139_device_partial",
    "C139_clock_partial",
    "C139_full_second_refuted",
    "C139_short_read_refuted",
    "C139_memory_refuted",
    "C139_same_clock"
   ],
   "note": "Proved: the given seed; the little-endian number of eight bytes from the device; without the device tv_sec % tv_usec (a number below the microseconds). False: without the device at a full second tv_usec is 0 and the remainder undefined (C139_full_second_refuted), a device that delivers fewer than eight bytes leaves the seed uninitialised (C139_short_read_refuted), and a failing allocation is not noticed (C139_memory_refuted). Consequence of the clock seed: C139_same_clock. The generator of the library behind is modelled by its seed."
  },
  {
   "property": "C140",
   "status": "proved",
   "theorems": [
    "C140_seed",
    "C140_exceptions",
    "C140_deleted"
   ],
   "note": "The conversion of Python objects to unsigned long is modelled by its three outcomes."
  },
  {
   "property": "C141",
   "status": "proved",
   "theorems": [
    "C141_numbers_decide"
   ],
   "note": "Exact arithmetic. Equality of results is that of C40."
  },
  {
   "property": "C142",
   "status": "proved",
   "theorems": [
    "C142_one_outcome",
    "C142_one_outcome_double",
    "C142_defined_or_not"
   ],
   "note": "A launch that does not end for one content of memory is not excluded from not ending for another; it is excluded from ending differently."
  },
  {
   "property": "C143",
   "status": "partial",
   "theorems": [
    "C143_own_numbers_partial",
    "C143_same_seed_refuted"
   ],
   "note": "Proved: each thread's stream is cut into consecutive pieces, one for each of its photons, and nothing else influences it. False across threads: nothing makes the seeds of the threads' generators different; with equal ones (C139_same_clock shows how) the photons of the threads are the same one by one (C143_same_seed_refuted)."
  },
  {
   "property": "C144",
   "status": "proved",
   "theorems": [
    "C144_own_numbers",
    "C144_polarisation_number",
    "C144_first_inside",
    "C144_square",
    "C144_tangents"
   ],
   "note": "Exact arithmetic; the law of the source point itself is C25_source_area_uniform."
  },
  {
   "property": "C145",
   "status": "partial",
   "theorems": [
    "C145_returns_or_raises",
    "C145_file",
    "C145_no_result",
    "C145_deleted_source_refuted"
   ],
   "note": "Proved while the Source exists, with memory available (the method looks at the error, not at the value of the C function, so the flaw of C46 does not reach Python users). False after the Source is deleted: the object keeps no reference to it and the method reads released memory (C145_deleted_source_refuted)."
  },
  {
   "property": "C146",
   "status": "partial",
   "theorems": [
    "C146_copy",
    "C146_bounded_copy_library",
    "C146_bounded_copy_partial",
    "C146_huge_limit_refuted",
    "C146_released"
   ],
   "note": "polycap_strdup proved in both compilations; polycap_strndup for every limit but the largest value of size_t. C146_huge_limit_refuted: with that limit the library's own loops ask malloc for 0 bytes (len+1 wraps round) and write outside the block, for every string."
  }
 ]
}
