# celest: formal model in Rocq (Coq 8.16.1)

The model is a shallow embedding of the Python code in Gallina: one definition per Python
function, with the same branches in the same order.  Python exceptions are values
(`res A := Ok a | Raise e`), loops are structural recursion (or recursion on fuel with a
proof that the fuel suffices, or an inductive relation where the loop need not end),
randomness is an explicit argument over which every theorem quantifies, a crash is any
prefix of the text written so far.  Every definition cites the file and lines it models.

Properties are in `properties.jsonl`; the theorem names are in `MANIFEST.json`; the wrong
programs the theorems were tested against are in `seeded/LOG.jsonl`.

A property the code violates is answered by a theorem `..._refuted` (a witness, or a whole
class of inputs, evaluated in the model) together with the strongest true part we could
prove, named `..._partial`; its manifest status is `partial` and the note says REFUTED.

Files in `rocq/theories`: `Py.v` (results, exceptions, the few Python and numpy primitives),
`Num.v` (real numbers extended with infinities and not-a-number), and for every part of the
code `X_Model.v` (the model, the only file that imitates the code), `X_Spec.v` (the
vocabulary of the properties, independent of the model), `X_Proofs*.v` (lemmas) and
`X_Props*.v` (the theorems `Cxx_...`, with an example that meets their hypotheses beside
them, and `Print Assumptions`).  X is one of Units, Sched (request handler and operators),
Alns, Gen (Scheduler.generate), Vtw (windows), Cal (calendar), Time, Rot (GCRS/ITRS), Geo
(WGS84, azimuth, elevation, altitude), Lvlh (LVLH, attitude, satellite), Disp (Coordinate),
Text (file_save, angle strings), Save (save_text_file), and those added later.

## Trusted base

* Coq's kernel (8.16.1) and its virtual machine (`vm_compute` is used for evaluations of
  closed terms in refutations and examples).
* The axioms listed below, all of the standard library (classical real numbers, functional
  extensionality, and excluded middle where the real analysis library uses it).  No axiom,
  parameter, functor or module type of our own; variables and hypotheses only inside sections.
  Flocq, Coquelicot, mathcomp and the other installed libraries are used only where the file
  header imports them; they add no axiom to any theorem.
* That the models say what the Python code does: the transcription is by hand, with line
  numbers; the simplifications are in the header of each model file and summarised below.
* That numpy, the Python standard library and the interpreter behave as their
  documentation says, in the primitives named in `Py.v`, `Num.v` and the model files.

### What `Print Assumptions` lists

Every theorem of MANIFEST.json, grouped by the axioms `Print Assumptions` prints for it (the
command is at the end of every `*_Props*.v` file).  All of them are axioms of the standard
library; nothing is added by the development or by another library.

* **none** (closed under the global context) — 197 theorems: C01_conversion_preserves_magnitude, C02_conversion_composes, C02_conversion_round_trip, C03_equal_dimensions_accepted, C03_mixed_dimensions_rejected, C04_division_exact, C04_unit_algebra_partial, C04_unit_algebra_refuted, C05_definition_from_quotient_refuted, C05_factor_ignored, C05_factor_in_definition_partial, C05_factor_refuted, C06_dimension_crashes_refuted, C06_dimension_exists_partial, C06_dimension_order_refuted, C06_dimension_sound_partial, C07_add_assoc, C07_add_sub, C07_scalars, C08_comparisons, C09_ne_negates_eq_partial, C09_ne_refuted, C09_ne_wrong_exactly, C09_orderings_partial, C100_independent_refuted, C100_no_sharing_partial, C100_results_are_new_partial, C101_own_unit_partial, C101_own_unit_refuted, C105_construction, C105_observations_answer_requests, C105_requests_kept, C106_observed_while_visible, C107_generate_repeatable, C10_number_over_quantity, C10_product, C10_product_order, C10_quotient_partial, C10_quotient_refuted, C11_imperial_partial, C11_imperial_refuted, C11_table_partial, C122_operators_change_one_handler, C122_search_leaves_objects_alone, C122_solution_apart, C123_generate_in_place, C123_search_not_left_behind, C124_nothing_else_changed, C124_schedulers_independent, C125_loops_in_turn, C125_nested_requests_refuted, C125_nested_windows_refuted, C12_namespace_first_wins, C138_difference, C138_expressions_partial, C138_number_over_quantity, C138_number_over_unit, C138_numbers, C138_product_value, C138_products_partial, C138_products_refuted, C138_quotient_value_partial, C138_quotients, C138_sums, C139_empty, C139_mixed_raises, C139_sum, C13_counters_exact, C140_float_power_refuted, C140_same_powers_partial, C141_multiple_exact, C141_multiple_of_product_partial, C141_multiple_refuted, C141_power_exact, C141_power_refuted, C141_product_of_lengths_refuted, C141_text_reads_partial, C142_named_text_complete, C142_quantity_text, C142_unit_text, C143_collection_text, C143_fields, C143_location_text, C143_location_text_exists, C143_observed_text, C143_visible_text, C14_removal_count, C15_opportunity_removal_victims, C15_priority_removal_victims, C16_requests_preserved, C175_mean_overlap_partial, C175_order_refuted, C175_request_order_partial, C175_window_order_partial, C17_every_booking_allowed, C17_new_bookings_satisfy_constraints, C184_units_of_any_size, C187_no_velocity, C18_insertion_keeps_bookings, C19_initial_solution_maximal, C19_insertion_maximal, C20_conflict_test_partial, C20_conflict_test_refuted, C21_initial_solution_no_clash_partial, C21_insertion_no_clash_partial, C21_no_clashes_refuted, C21_removal_no_clash_partial, C22_image_quality, C23_look_angle_search, C24_sorts_stable, C25_window_index_partial, C25_window_index_refuted, C26_overlap_duration_partial, C26_overlap_duration_refuted, C26_overlap_test, C27_conflict_sort_exact_partial, C27_conflict_sort_refuted, C27_window_sort_exact_partial, C28_iteration_partial, C28_iteration_refuted, C29_is_complete_false_sound_partial, C29_is_complete_partial, C29_is_complete_refuted, C30_cost_partial, C30_cost_refuted, C31_never_worse_than_initial, C31_returns_cheapest, C32_invariants_preserved, C33_earliest_best_unique, C33_stops, C34_draw, C34_weights_stay_positive, C36_search_fails_refuted, C36_search_never_fails_partial, C37_windows_honour_requests, C38_scheduled_emitted_partial, C38_scheduled_emitted_refuted, C39_attitude_empty_refuted, C40_float_look_angle_refuted, C41_centred_refuted, C41_fits_refuted, C41_placement_partial, C42_at_least_initial_partial, C43_first_sample_refuted, C43_windows_are_runs_partial, C44_first_sample_refuted, C44_ordered_disjoint_complete_partial, C45_never_visible_refuted, C46_validation, C47_homogeneous, C47_indexing, C47_one_kind, C48_iteration_partial, C48_iteration_refuted, C49_calendar_date_partial, C49_calendar_date_refuted, C50_elementwise_partial, C50_elementwise_refuted, C51_day_of_year_partial, C51_day_of_year_refuted, C63_needs_velocity, C65_position_sizes_partial, C70_integers, C70_integers_apart, C74_insertion_never_fails, C75_scores, C75_trajectory, C76_saved_rows_partial, C76_saving_fails_refuted, C77_unscheduled_means_no_booking, C78_rounds_remove_a_quarter, C78_rounds_repair_fully, C79_julian_calendar_partial, C79_julian_calendar_refuted, C80_datetime_partial, C80_datetime_refuted, C96_add, C96_convert, C96_dimensions_rejected, C96_div, C96_lengths_rejected, C96_mul, C96_neg, C96_number_over_quantity, C96_numbers, C96_sub, C97_element_types, C97_integer_arrays_refuted, C97_same_unit_partial, C98_booleans, C98_elementwise_partial, C98_empty_partial, C98_le_ge_ne_refuted, C98_other_operands_partial, C98_single_entry_partial, C99_history, C99_operands_unchanged.

* `ClassicalDedekindReals.sig_forall_dec` — 2 theorems: C55_time_shape, C65_position_sizes_refuted.

* `ClassicalDedekindReals.sig_forall_dec`, `FunctionalExtensionality.functional_extensionality_dep` — 33 theorems: C165_mean_obliquity, C170_precession_partial, C170_precession_refuted, C52_mean_solar_time, C52_ut1, C53_gmst, C54_rotation_and_nutation_angles, C66_validation_partial, C66_validation_refuted, C69_file_names, C70_layers_in_order, C70_layout, C70_saves, C71_aligned_partial, C71_array_refuted, C71_negative_refuted, C72_crash_partial, C72_crash_refuted, C72_exception_refuted, C72_layers_before_partial, C73_sexagesimal_partial, C73_sixty_seconds_refuted, C93_read_back, C94_location, C95_attitude, C95_azel, C95_location_cell, C95_lvlh, C95_no_windows, C95_observation_windows, C95_positions, C95_visible_windows, C95_wgs84.

* `ClassicalDedekindReals.sig_forall_dec`, `ClassicalDedekindReals.sig_not_dec`, `FunctionalExtensionality.functional_extensionality_dep` — 32 theorems: C102_sun_exists, C107_order_matters_refuted, C144_arrays_of_integers_partial, C144_gcrs_to_itrs, C144_one_array_of_floats_partial, C145_wgs84_partial, C145_wgs84_refuted, C165_apparent_obliquity, C182_lvlh_lengths, C185_nearest_exists, C36_generate_fails_refuted, C42_at_least_initial_refuted, C52_hour_angles, C52_shapes, C52_time_zones, C52_true_solar_time, C53_gast_partial, C54_nutation_bounded, C56_gcrs_to_itrs_and_back, C56_itrs_to_gcrs_and_back, C56_one_point, C56_one_time, C57_rigid, C62_collinear, C62_lvlh_frame, C64_distance, C67_radius_and_coordinates, C67_same_as_conversion, C85_velocity_partial, C92_satellite, C95_no_velocity, C95_satellite.

* `ClassicalDedekindReals.sig_forall_dec`, `ClassicalDedekindReals.sig_not_dec`, `Classical_Prop.classic`, `FunctionalExtensionality.functional_extensionality_dep` — 197 theorems: C102_first_sample_refuted, C102_never_visible_refuted, C102_ordered_disjoint_complete_partial, C102_rejected, C102_windows_are_runs_partial, C103_day_and_night_disjoint, C103_day_and_night_disjoint_partial, C103_nested_partial, C103_nested_refuted, C104_any_unit, C108_conversion_accurate, C108_round_trip_partial, C108_round_trip_refuted, C108_sum_accurate, C109_clear_differences, C109_equality_symmetric_refuted, C109_order_preserved, C109_trichotomy, C110_differences_exact, C110_distinct_refuted, C110_order_kept, C110_times_accurate, C111_conflict_exact_refuted, C111_conflict_test, C111_deadline_test_safe, C111_tests_complete, C111_window_test_safe, C112_quality_accurate, C112_quality_in_range, C112_start_accurate, C113_bookings_satisfy_constraints, C113_insertion_keeps_bookings, C114_disjoint_refuted, C114_initial_solution, C114_insertion_partial, C114_removals, C115_insertion_maximal, C116_look_angle_search, C117_draw, C117_no_weight_left, C118_never_fails_partial, C118_never_fails_refuted, C118_temperature_underflow_refuted, C118_update_accurate, C118_weights_are_fractions, C119_invariants_preserved, C119_returns_cheapest, C119_stops, C119_trajectory, C120_never_fails_refuted, C120_scheduled_emitted_partial, C120_scheduled_emitted_refuted, C120_windows_overlap_refuted, C120_windows_serve_requests, C121_acceptance, C126_remainder_below_refuted, C126_remainder_exact_partial, C126_remainder_rounded, C127_calendar_exact, C127_gregorian_date, C128_datetime_exact, C128_datetime_right, C128_day_of_year_exact, C129_era_accurate, C129_era_normalised, C130_mean_times_accurate, C130_ut1_exact, C131_location_coordinates, C132_distance_accurate, C133_elevation_partial, C133_overhead_refuted, C134_look_angle_partial, C134_overhead_refuted, C135_split_refuted, C135_windows_partial, C135_windows_with_attitudes_partial, C136_infinite, C136_nan_refuted, C136_validation_partial, C137_observations_in_view, C144_integers_or_floats_refuted, C145_kilometres_or_floats_partial, C145_other_units_refuted, C146_float_frames_close, C147_float_frames_keep_distances, C148_float_frames_back, C149_float_nutation_angles, C150_float_quantities_close, C151_float_time_zones, C151_float_true_times, C152_float_sidereal_times, C153_float_lvlh, C154_float_attitude, C155_float_altitude, C155_float_altitude_equator, C156_float_altitude_rounding, C156_float_altitude_stop, C157_float_wgs84_to_itrs, C158_float_itrs_to_wgs84, C159_float_round_trip_partial, C159_float_round_trip_refuted, C160_float_radius, C161_float_azimuth_rounding, C162_float_bearing_partial, C162_float_bearing_refuted, C163_sexagesimal_partial, C163_sexagesimal_refuted, C164_location_partial, C164_location_refuted, C166_nutation, C167_sun_right_ascension, C168_equation_of_time, C169_equinoxes_partial, C169_equinoxes_refuted, C171_conversion, C171_mixed_dimensions, C171_predefined, C171_round_trip, C172_comparison, C172_numbers, C172_sum, C173_numbers, C173_product, C174_by_zero, C174_numbers_partial, C174_quotient_partial, C174_quotient_refuted, C176_celestial_satellite, C177_far_body, C178_celestial_windows, C178_refused, C179_place_measured, C180_float_published, C180_float_true_solar_time, C181_float_greenwich_partial, C181_float_greenwich_refuted, C183_nutation_partial, C183_nutation_refuted, C185_altitude_distance, C185_float_altitude_distance, C186_celestial_altitude, C187_windows_with_attitudes, C188_celestial_track, C189_celestial_latitude, C189_exact_latitude, C189_geodetic_latitude, C189_latitudes_differ, C189_not_geodetic, C189_one_latitude, C190_celestial_elevation, C190_exact_elevation, C190_float_elevation, C191_windows_true_horizon_partial, C21_generate_overlap_refuted, C34_full_reaction_fails, C35_acceptance, C35_probability_decreases, C53_gast_refuted, C53_local_sidereal_times, C54_sun_right_ascension, C58_height_refuted, C58_latitude_refuted, C58_round_trip_partial, C59_altitude_partial, C59_altitude_refuted, C60_azimuth_elevation_ranges, C61_azimuth_north_partial, C61_azimuth_south_refuted, C61_horizon_partial, C61_north_partial, C63_points_at_target, C63_straight_up, C64_look_angle, C64_units, C68_accepted, C68_answers, C68_dispatch, C68_through_itrs, C81_equation_of_time_bounded, C82_local_sidereal_time_partial, C82_local_sidereal_time_refuted, C83_precession_at_epoch_partial, C83_precession_at_epoch_refuted, C84_nutation_partial, C84_nutation_refuted, C85_velocity_refuted, C86_altitude_alone_partial, C86_altitude_alone_refuted, C87_altitude_symmetries_partial, C87_altitude_symmetries_refuted, C88_altitude_ends, C89_azimuth_defined_partial, C89_azimuth_equator_refuted, C90_zenith_partial, C90_zenith_refuted, C91_right_hand_partial, C91_right_hand_refuted.


## What is modelled and what is not

| code | model | not modelled or simplified |
|------|-------|----------------------------|
| celest/units/core.py, display.py, quantity.py, utils.py, unit_initialization.py | Units_Model.v, Arr_Model.v | floats are exact rationals; powers are integers; `str(scale)` is an injective rendering; long names |
| celest/units/quantity.py (conversion, sum, comparison), unit_initialization.py, time.py (constructor), insertion_operators.py (start, tests, quality) in floating point | Fl_Model.v | single numbers; named units; numpy division |
| celest/schedule/alns.py, scheduler.py (generate) in floating point | Fla_Model.v | math.exp and random are parameters; sum adds from left to right |
| celest/schedule/request_handler.py, removal_operators.py, insertion_operators.py, scheduling_utils.py, alns.py, scheduler.py with objects changed in place | Heap_Model.v | windows, attitudes and the satellite are values |
| celest/coordinates/astronomical_quantities.py (from_julian, day_of_year, earth_rotation_angle), celest/time.py (datetime, ut1, mean_solar_time, mean_hour_angle) in floating point | Flc_Model.v | 1-D arrays; int64 unbounded |
| celest/coordinates/ground_location.py, transforms.py (_get_ang, _elevation), satellite.py (distance, look_angle) in floating point | Flg_Model.v | sin, cos, arccos, x ** 2 and BLAS dot are parameters with stated error bounds; one point at a time |
| celest/encounter/window_generator.py (generate_vtws) in floating point | Flw_Model.v | ITRS positions; elevations of the Sun given; attitudes left out |
| sessions of Scheduler from satellite positions to schedules in floating point | Fle_Model.v | composition of Flw_Model.v, Fls_Model.v and Fla_Model.v; a session ends when generate raises |
| celest/units/core.py, quantity.py: operator dispatch, sum, powers as floats | Ops_Model.v | other operands know nothing of units; str of floats is a parameter |
| __str__ and __repr__ of units, quantities, ground locations, windows and collections | Repr_Model.v | str of numbers, attitudes and (in windows) locations are parameters |
| celest/coordinates/transforms.py, satellite.py (distance, look_angle) for arrays of integers | Int_Model.v | int64 unbounded; times are floats |
| celest/coordinates/transforms.py (GCRS and ITRS), nutation_precession_matrices.py, astronomical_quantities.py (nutation, precession, obliquity) in floating point | Flr_Model.v | np.sin, np.cos, x ** p, einsum and linalg.inv are parameters with stated error bounds; one time and one point at a time |
| celest/time.py and astronomical_quantities.py (nutation angles, obliquity, equations of time and equinoxes, right ascension, true solar and sidereal times) in floating point | Flk_Model.v | np.tan, np.arctan2 and the functions of Flr_Model.v are parameters with stated error bounds; one time and one longitude at a time |
| celest/satellite.py (attitude) and transforms.py (LVLH) in floating point | Flv_Model.v | np.arcsin, np.arctan2 and the functions of Flr_Model.v are parameters with stated error bounds; one time at a time; the factor of the velocity unit is a parameter |
| celest/coordinates/transforms.py (_altitude) in floating point | Fly_Model.v | np.arctan, np.mean, the square of a Python float and the functions of Flr_Model.v are parameters with stated error bounds; the loop is an inductive relation |
| celest/coordinates/transforms.py (_wgs84_to_itrs, _itrs_to_wgs84) in floating point | Fln_Model.v | np.arctan2 and the functions of Fly_Model.v are parameters with stated error bounds |
| celest/coordinates/ground_location.py (radius), celest/coordinates/transforms.py (_azimuth, _get_ang) in floating point | Flb_Model.v | the square of a Python float is a parameter with a stated error bound, with those of Flg_Model.v and Flr_Model.v |
| celest/angle_strings.py, celest/coordinates/ground_location.py (__str__) in floating point | Flx_Model.v | named units; "%.2f" is the rounding of the exact value |
| celest/units/quantity.py with compound units in floating point | Flu_Model.v | data are Python floats, integer operands as floats; the power function is a parameter with a stated error bound; units and their texts are those of Units_Model.v |
| celest/satellite.py constructor and celest/encounter/window_generator.py for GCRS positions in floating point | Flz_Model.v | one unit of length; the positions of the Sun in the GCRS frame are given; attitudes left out |
| celest/coordinates/coordinate.py from WGS84 to AzEl and celest/satellite.py measurements of such places in floating point | Flq_Model.v | one place; one unit of angle |
| encounter/window_generator.py with attitudes, in floating point | Fvw_Model.v | one unit of length, one factor of velocities, the elevations of the Sun are given |
| nested loops over WindowCollection and RequestHandler | Iter_Model.v | bodies that do not change the collection |
| celest/schedule/request_handler.py, removal_operators.py, insertion_operators.py, scheduling_utils.py in floating point | Fls_Model.v | dates in jd2000, durations in seconds |
| celest/schedule/request_handler.py, removal_operators.py, insertion_operators.py, scheduling_utils.py | Sched_Model.v | exact rationals; locations are opaque; mutation is state passing |
| celest/schedule/alns.py | Alns_Model.v | `math.exp` against a random number is a parameter, instantiated with the real exponential in the acceptance theorems; `deepcopy` is the identity on values |
| celest/schedule/scheduler.py | Gen_Model.v, Sess_Model.v (constructor, calls in sequence) | |
| celest/encounter/window_generator.py | Vtw_Model.v, Vis_Model.v | the position of the Sun is an arbitrary function of time (JPL ephemeris, read by jplephem) |
| celest/encounter/window_handling.py | Vtw_Model.v, Save_Model.v | `__str__`, `__repr__` |
| celest/coordinates/astronomical_quantities.py | Cal_Model.v (from_julian, day_of_year), Time_Model.v (the rest) | exact arithmetic; decimal literals are the decimals they show |
| celest/time.py | Time_Model.v, Cal_Model.v (datetime) | as above |
| celest/coordinates/nutation_precession_matrices.py, frames/base_positions.py | Rot_Model.v | exact real numbers; `np.linalg.inv` is the exact inverse |
| celest/coordinates/transforms.py | Rot_Model.v (26-157), Geo_Model.v (157-429), Lvlh_Model.v (432-536) | real numbers with infinities and not-a-number, no rounding; one zero; broadcasting of single entries by einsum is assumed to be that of numpy's documentation |
| celest/coordinates/ground_location.py | Geo_Model.v, Save_Model.v (`__str__`) | `__repr__` |
| celest/coordinates/coordinate.py | Disp_Model.v | |
| celest/coordinates/frames/*.py | the records of Rot_Model.v, Geo_Model.v, Lvlh_Model.v; Save_Model.v | |
| celest/satellite.py | Lvlh_Model.v (constructor, attitude), Geo_Model.v (altitude, distance, look_angle), Save_Model.v | |
| celest/file_save.py, angle_strings.py | Text_Model.v | a string is a list of code points; `str` of a float is a parameter; a format string is the function it stands for |

Not modelled at all: SGP4/TLE propagation and the JPL ephemeris (external libraries),
documentation and examples, the rounding of floating point outside Fl_Model.v, Fls_Model.v, Fla_Model.v, Flc_Model.v, Flg_Model.v, Flw_Model.v, Flr_Model.v, Flk_Model.v, Flv_Model.v, Fly_Model.v, Fln_Model.v, Flb_Model.v, Flx_Model.v, Flu_Model.v, Flz_Model.v, Flq_Model.v and Fvw_Model.v.

C165–C170, C180, C181 and C183 compare Time_Model.v and Rot_Model.v with the published formulas in Ast_Spec.v and Flk_Props2.v (Laskar 1986; Meeus, *Astronomical
Algorithms*; Smart; IAU 2000 precession).  Their constants were written down from general knowledge, since the sandbox has no
network, and are part of what is trusted.

## Plan and method per property

The status is the one of MANIFEST.json; its note says what is missing or refuted.

| id | property | status | what is modelled, how it is proved |
|----|----------|--------|-----|
| C01 | Unit conversion preserves the physical magnitude | proved | convert_to/to, unit scales, repr and dimension strings; case split on equality of representations, injectivity of the rendering, field |
| C02 | Unit conversion round-trips and composes | proved | corollaries of the conversion formula |
| C03 | Mixing dimensions is always rejected | proved | to, +, -, comparisons; case analysis on dimension strings |
| C04 | Unit algebra means what it says | partial | unit operators and CompoundUnit._expand_and_collect with object identity; induction on unit expressions, invariant on the collected bases |
| C05 | Numeric factors in front of a unit are honoured | partial | numeric factors in CompoundUnit; evaluation, and the exact behaviour by case analysis |
| C06 | Every unit has a dimension and it only depends on the exponents | partial | get_dimensions_from_unit and its string; evaluation of two witnesses, induction on the bases |
| C07 | Addition and subtraction of quantities act on physical magnitudes | proved | Quantity operators; algebra in Q on top of C01 |
| C08 | Comparison of quantities is the order of physical magnitudes | proved | as C07 |
| C09 | != is the negation of == | partial | == and != on arbitrary operands; case analysis |
| C10 | Multiplication and division of quantities act on physical magnitudes | partial | as C07 |
| C11 | The unit table is self-consistent | partial | the unit table; conversion formula |
| C12 | Registering units never rebinds a name | proved | registration in a namespace; induction on the history |
| C13 | The scheduled-request counter is exact | proved | RequestHandler and all operators; counter invariant preserved by every operator |
| C14 | Removal operators remove exactly the requested number | proved | removal operators; induction on their loops |
| C15 | Removal picks the documented victims | proved | as C14, with sortedness |
| C16 | Operators never lose, duplicate or alter a request | proved | all operators; permutation invariant on the part of a request that does not change |
| C17 | Every newly scheduled request satisfies its constraints | proved | insert_first_n_requests; loop invariant |
| C18 | Insertion never disturbs existing bookings and respects the limit | proved | as C17 |
| C19 | Insertion is maximal | proved | as C17 |
| C20 | The conflict test is exact | partial | does_conflict_exist; order case analysis over all positions |
| C21 | No two bookings of a schedule overlap | partial | histories of operators; witness by evaluation, invariants for the partial results |
| C22 | Image quality is a score from 1 to 10 | proved | image_quality; bounds on floor and division in Q |
| C23 | Look-angle search finds a bracketed crossing | proved | _look_angle_time; bisection invariant |
| C24 | Handler sorts are stable sorts | proved | the sorts; stable insertion sort (sorted is specified as stable) |
| C25 | A booking keeps pointing at the window it was made in | partial | histories; witness by evaluation, invariant without reordering |
| C26 | Window overlap test and overlap duration are correct | partial | overlap test and duration; order case analysis |
| C27 | Conflict-degree sorting and removal never fail | partial | conflict degree sorts with dynamic types; exact characterisation |
| C28 | Iterating a request handler visits every request once in order | partial | iterator protocol; induction |
| C29 | Completeness means all requests are scheduled | partial | is_complete on top of C28 |
| C30 | Cost is minus the total scheduled priority | partial | cost on top of C28 |
| C31 | The search never returns something worse than it saw | proved | ALNS.solve, generic in solutions, operators, draws; induction on iterations |
| C32 | The search only returns solutions its operators can build | proved | as C31 |
| C33 | The search stops on completeness and within the iteration budget | proved | as C31 |
| C34 | Operator selection is a proper weighted draw | proved | roulette selection; sums of weights |
| C35 | Acceptance rule | proved | acceptance with the real exponential |
| C36 | The search never fails on well-formed input | partial | as C31; witness of a division by zero |
| C37 | Every emitted observation window honours its request | proved | Scheduler.generate; composition of the operator and search invariants |
| C38 | Every scheduled request is emitted | partial | as C37 |
| C39 | Emitted windows carry the attitude at their start time | partial | as C37 |
| C40 | Look-angle requests can be scheduled | partial | insertion with a float look angle; case analysis |
| C41 | Observations without a look angle are centred in their window | partial | placement without a look angle; algebra |
| C42 | The returned schedule is at least as valuable as the greedy one | partial | as C37 with C31 |
| C43 | Visible windows are exactly the maximal runs of qualifying samples | partial | generate_vtws on sampled elevations; np.diff and np.split give the maximal runs |
| C44 | Visible windows are ordered, disjoint and complete | partial | as C43 |
| C45 | Never visible means no windows | partial | as C43 |
| C46 | Window generation validates its input | proved | argument checks; case analysis |
| C47 | A window collection is homogeneous and append-only | proved | WindowCollection with its iterator state; induction on histories of calls |
| C48 | Iterating a window collection visits every window | partial | as C47 |
| C49 | Julian date to calendar date is correct | partial | from_julian over Z and Q against an independent Gregorian calendar; arithmetic of Z division |
| C50 | Calendar conversion is elementwise | partial | numpy indexing of arrays; induction |
| C51 | Day of year is correct | partial | day_of_year, as C49 |
| C52 | Solar times and hour angles are normalised and correct modulo a day | proved | time.py over R; properties of the real modulo |
| C53 | Sidereal times are normalised | partial | as C52 |
| C54 | Astronomical angles are in range | proved | astronomical quantities over R; ranges of modulo, atan2 |
| C55 | Time object shape | proved | Time object; case analysis on sizes |
| C56 | GCRS and ITRS conversions are mutually inverse | proved | bias, precession, nutation and rotation matrices, einsum; products of matrices with inverses |
| C57 | GCRS/ITRS conversions are rigid rotations | proved | orthogonality from sin^2+cos^2=1 |
| C58 | WGS84 to ITRS to WGS84 round trip | partial | ITRS/WGS84; trigonometry, exact error |
| C59 | Altitude is the height above the WGS84 ellipsoid | partial | altitude iteration; monotonicity and explicit bounds |
| C60 | Azimuth and elevation are in range | proved | azimuth, elevation; ranges of acos, Cauchy-Schwarz |
| C61 | Azimuth is measured from north | partial | azimuth; vector algebra and bounds on acos |
| C62 | LVLH frame is a right-handed orthonormal frame | proved | LVLH matrix; cross product algebra |
| C63 | Attitude points the camera at the target | proved | attitude angles; algebra of direction cosines |
| C64 | Distance and look angle are geometric | proved | distance, look angle; Euclidean geometry |
| C65 | Position containers reject arrays of different length | partial | position constructors; case analysis on chained comparisons |
| C66 | Ground locations are validated in their own unit | partial | GroundLocation constructor; order |
| C67 | Ground location radius and ITRS coordinates lie on the ellipsoid | proved | radius and coordinates on the ellipsoid; algebra |
| C68 | Frame conversion dispatch is consistent | proved | Coordinate.convert_to as a relation; case analysis on classes |
| C69 | Saved file names end in .txt | proved | file names; lists |
| C70 | Saved text layout | proved | TextFileWriter.save; induction on layers, columns and rows |
| C71 | Saved tables are aligned | partial | column widths; length of printed decimals is monotonic |
| C72 | A failing save leaves no damaged file | partial | prefixes of the text written |
| C73 | Sexagesimal strings denote the angle | partial | _get_sexagesimal_string; digits, floor and rounding half to even |
| C74 | Insertion never fails | proved | insertion; totality by invariants |
| C75 | Search trajectory and scoring | proved | ALNS trajectory and weights; induction |
| C76 | Generated schedules can be saved | partial | observation rows; from C39 |
| C77 | Unscheduled requests carry no booking | proved | operators; invariant |
| C78 | Rounds remove a quarter and repair fully | proved | rounds of the search; counting |
| C79 | Dates before the reform are in the Julian calendar | partial | from_julian before the reform against an independent Julian calendar |
| C80 | Time.datetime denotes the same instants | partial | Time.datetime on top of C49 |
| C81 | The equation of time stays small | proved | equation of time; bounds on sines |
| C82 | Local sidereal time is Greenwich sidereal time plus the longitude | partial | sidereal times; algebra modulo 24 h |
| C83 | No precession at the epoch | partial | precession matrix at the epoch; evaluation of the angles |
| C84 | Nutation in longitude turns about the pole of the ecliptic | partial | nutation matrix; exact fixed points |
| C85 | Converted velocities are the rates of the converted positions | partial | derivatives of converted positions |
| C86 | The altitude of a point does not depend on the other points | partial | altitude iteration over arrays; explicit bounds |
| C87 | The altitude depends neither on the longitude nor on the hemisphere | partial | symmetry of the iteration |
| C88 | The altitude computation ends | proved | termination: the mean changes are summable |
| C89 | Azimuth is defined at every ground location | partial | azimuth at latitude 0; evaluation in Num |
| C90 | A satellite on the local vertical is at elevation 90 degrees | partial | elevation of the local vertical; trigonometry |
| C91 | Roll, pitch and yaw follow the right-hand rule | partial | right-hand rotations; matrix algebra |
| C92 | A satellite keeps the state it is given in either frame | proved | Satellite constructor; C56 |
| C93 | A saved table can be read back | proved | reader defined independently (split, strip); inverse of the layout |
| C94 | A printed ground location denotes the location | proved | str of a location; C73 and printed decimals |
| C95 | Saved frames, satellites and windows have every record and column | proved | save_text_file of every class; instances of C93 |
| C96 | Operations on array quantities act entry by entry | proved | quantity.py over a heap of arrays; broadcasting lemma, entries of each result |
| C97 | Arrays of integers can be converted | partial | in-place multiplication on a non-float array raises; all integer arrays |
| C98 | Array quantities compare entry by entry | partial | comparison arrays; truth value of an array of two or more raises |
| C99 | Operations never change their operands | proved | every operation only appends to the heap; induction over programs |
| C100 | Quantities do not share arrays | partial | results are appended objects; no-sharing invariant over programs; counterexample for the constructor |
| C101 | Converting to the unit a quantity already has changes nothing | partial | identity of the deep-copied unit |
| C102 | Windows generated from positions are the runs of samples at which the target sees the satellite | partial | composition of the frame conversions, the elevation and the splitting of index arrays; geometric reading of the elevation test by monotonicity of the sine |
| C103 | Narrower conditions give narrower windows | partial | inclusion of the visible samples, maximal runs of a subset |
| C104 | Windows do not depend on the unit of the position | proved | the visible samples depend on kilometres only; the list of runs is unique |
| C105 | Observations answer distinct requests, whatever happened before | proved | a session as a list of calls on a scheduler that keeps its state when a call raises; invariant: the handler is reachable and its requests are the accepted ones, permuted |
| C106 | The target is in view during a scheduled observation | proved | as C105, with the characterisation of windows as maximal runs (C43) |
| C107 | Generating again gives the same schedule, and the schedule depends only on the requests | partial | the initial solution is a fixed point of its own construction (sorting a sorted list; every unscheduled request has no slot); two sessions by evaluation |
| C108 | Floating-point unit conversion is accurate and reversible | partial | conversion on binary64 numbers with the operations of Flocq; correctness theorems of the operations, composition of relative errors; witness by evaluation |
| C109 | Floating-point conversion keeps the order and comparisons are consistent | partial | as C108; monotonicity of rounding |
| C110 | Julian dates in floating point keep the instants | partial | spacing of binary64 numbers between 2^21 and 2^22; Sterbenz for differences |
| C111 | The scheduling tests are safe in floating point | partial | as C110: a rounded sum below a multiple of the spacing is below by a whole spacing, the exact sum by half of it, which covers the error of the conversion |
| C112 | Chosen start and image quality are accurate in floating point | proved | as C110; differences and the ninefold are exact, the quotient and the last difference are rounded once |
| C113 | Bookings honour their requests in floating point | proved | the scheduler of Sched_Model on binary64 numbers; invariant over histories, then the tests are read as facts on real numbers (C111) |
| C114 | Booked observations are disjoint in floating point | partial | as C113, pairwise invariant with a tolerance; witness by evaluation |
| C115 | Insertion is maximal in floating point | proved | as C113: a request that passes all tests with a margin as real numbers passes them in floating point, so only the conflict test can have stopped it |
| C116 | The look-angle search is right in floating point | proved | floats that are not too small are multiples of a fixed power of two, so differences and products keep their signs; bisection invariant |
| C117 | Weighted operator choice is right in floating point | proved | error bounds of the rounded sum, quotients and running sums; bisection on a monotone list; positive weights of rounded shares |
| C118 | The adaptive search keeps its weights in range and does not fail in floating point | partial | invariant over rounds; a lower bound 2^-k on weights and temperature after k rounds for completion; two runs of 1200 rounds by evaluation |
| C119 | The search in floating point returns the cheapest solution it met | proved | induction on rounds with the ghost log, as in C31-C36 |
| C120 | Schedules generated in floating point serve the requests | partial | the search preserves "solution of the same requests" (invariant of C113 up to permutation and rebooking); runs by evaluation |
| C121 | Acceptance of worse solutions is right in floating point | proved | relative errors of the four operations of the exponent; signs |
| C122 | Searching changes no object of the caller | proved | handlers, lists and requests as objects on a heap, operators that change them in place, deepcopy with its memo; refinement of the model of values with a frame condition (only parts of one handler change, new parts are new objects) |
| C123 | Generating a schedule changes the scheduler's own requests only | proved | as C122 |
| C124 | Schedulers do not influence each other | proved | as C122; invariant over programs: the handlers of all schedulers are apart and read as their values |
| C125 | Loops over one collection can be nested | partial | loops that share one index; induction on the calls of __next__ |
| C126 | Reducing an angle or a time gives the exact remainder, rounded | partial | fmod on aligned integer mantissas is exact; the correction of the sign is one rounded addition; floors and truncations of quotients |
| C127 | Rounding never changes a calendar date | proved | every intermediate real value is compared with the exact one: on the grid 2^-31 additions are exact, quotients of integers are not rounded across an integer (rounding is monotone and relative), the other quotients stay away from integers by more than the error |
| C128 | Rounding never changes the day of the year, and datetimes are right to half a microsecond | proved | as C127; the error of the product with 8.64e10 |
| C129 | The Earth rotation angle is normalised and accurate in floating point | proved | error bounds of product and sum; below zero the argument is a multiple of 2^-44, so the final addition of 360 is exact |
| C130 | Clock times are accurate in floating point | proved | exact steps on the grid 2^-31, then error bounds |
| C131 | Coordinates of a location are accurate in floating point | proved | relative error calculus for the chain of operations; Lipschitz bounds of sine and cosine; the exact position is that of C60 |
| C132 | Distances are accurate in floating point | proved | norm of a difference: Cauchy-Schwarz and the triangle inequality against the perturbed vectors, then rounding of the dot product and square root |
| C133 | Elevations are accurate in floating point | partial | error of the computed cosine (20 units), then of arccos: Hoelder-1/2 near the ends, Lipschitz away from them; for the refutation a location whose coordinates are fixed by correct rounding, evaluated |
| C134 | Look angles are accurate in floating point | partial | as C133 |
| C135 | Windows are the passes of the satellite in floating point | partial | C133 for every sample, then the runs as in C102; for the refutation four samples evaluated with any correctly rounded library |
| C136 | Latitudes and longitudes that are not valid are rejected | partial | comparison of binary64 numbers and reals; evaluation for infinities and not-a-number |
| C137 | Scheduled observations can be made | proved | composition of C135 (runs of samples), the acceptance test of add_request and C113-C121 (sessions of the floating point scheduler), by induction on the calls |
| C138 | Operators return what they should or raise | partial | Python dispatch of binary operators with NotImplemented; cases over the kinds of the operands; induction on expressions |
| C139 | Sums of lists of quantities | proved | induction on the list, C07 at every step |
| C140 | Equal powers are the same power | partial | the text of a power as int or float is part of the dimension string |
| C141 | The text of a unit reads as the unit | partial | the number shown is 1 for these expressions (induction), the rest is C04; the exact number shown otherwise |
| C142 | Quantities with the same text are the same quantity | proved | cut the text at the first space or comma; the text of a product determines its numerator and denominator (C01) |
| C143 | Locations and windows with the same text are the same | proved | cut the text at the separators; induction on the collection |
| C144 | Coordinates as integers, ITRS to GCRS | partial | element types of arrays; assignment to an array of integers cuts off; the conversion after the rotation is rigid, so the error is the one of the cut |
| C145 | Coordinates as integers, distances and angles | partial | in-place multiplication of an array of integers raises; cases over the element types |
| C146 | GCRS and ITRS coordinates as computed | proved | a verified error evaluator for expressions of binary64 operations (Flx_Expr.v) bounds every angle and matrix entry; close matrices move vectors closely; the error of the Earth rotation angle (C129) dominates |
| C147 | Computed frame conversions keep distances | proved | the computed matrices are within 40 units of the exact rotations by the computed angles, and those are rigid |
| C148 | Computed frame conversions undo each other | proved | as C147: the rotations by the computed angles undo each other exactly |
| C149 | Computed nutation angles | proved | the error evaluator (Flx_Expr.v) for the polynomials, then the error of the remainder on the circle |
| C150 | Computed nutation, obliquity, equations and right ascension | proved | the error evaluator; sines of reduced angles do not see whole turns; tan and atan2 have explicit moduli of continuity (the point of atan2 stays away from the origin as the cosine of the obliquity is at least 0.9) |
| C151 | Computed true solar time and hour angle | proved | universal time is exact (C130); the rest is the error of the equation of time and of four roundings |
| C152 | Computed sidereal times | proved | as C151, with the right ascension of C150; a turn is 24 hours up to 1e-14 |
| C153 | Computed LVLH coordinates | proved | error of the float cross product and of normalisation; the rows stay close to the exact axes by a factor |r||v|/|r x v| |
| C154 | Computed attitudes point at the target | proved | C146-C148 carry position, velocity and target to GCRS with one rotation; the LVLH axes do not see rotations (as in C63), so the errors stay relative; then entries of the matrix, and moduli of continuity of asin and atan2 away from 90 degrees |
| C155 | Computed altitudes end and are near | proved | induction on the rounds: the float latitude stays within 64 units of roundoff of the latitude of the exact iteration, because a round shrinks errors by 0.007 and the arctangent absorbs the factor 1/cos; the exact iteration contracts (C59, C88), so the test fails by the sixth round |
| C156 | Rounding in altitudes | proved | the same invariant, read for one position |
| C157 | Computed Earth-fixed coordinates of a latitude, longitude and height | proved | error calculus for products of bounded quantities; the exact formula is shown to be a point on the normal through a point of the ellipsoid, up to 1e-11 km from the rounded eccentricity |
| C158 | Computed latitudes and longitudes | proved | the quotient has small relative error, which the arctangent absorbs; the direction of a slightly moved point turns by at most its cross product; heights by C156 |
| C159 | WGS84 to ITRS to WGS84 as computed | partial | C157 and C158: the moved point stays outside the ellipsoid and away from the poles; refuted between 40 and 50 degrees by the mean value theorem |
| C160 | Radius of a ground location as computed | proved | the point of the ellipsoid under a location in closed form; relative error bounds through squares, quotient and square root |
| C161 | Rounding of azimuths | proved | error bounds for the tangent, the projection and the cosine of the angle between them, the arccosine away from and near its ends, and the sign that picks the half of the compass |
| C162 | Computed azimuths are compass bearings | partial | C161 composed with C61 on exact numbers; a satellite at a horizontal distance stays away from the vertical by Lagrange's identity; refuted in the southern hemisphere |
| C163 | Sexagesimal strings as computed | partial | integer arithmetic on the 53-bit mantissas shows that the minutes never lag behind the seconds; the error bounds of two products; refuted by rounding 4.35, 4.35*60 and 4.35*3600 |
| C164 | Printed locations as computed | partial | C163 after the conversion to degrees (C108); the letter by the sign; the height by the rounding of decimals |
| C165 | Obliquity of the ecliptic | proved | polynomial identity in Laskar's degrees, minutes and seconds; range by Horner steps and a square for the cubic part |
| C166 | Nutation is the documented series | proved | sines of reduced and unreduced arguments differ by turns and by the rounded factor 57.29577951308232 (twenty digits of pi); Lipschitz bounds |
| C167 | Right ascension of the Sun has the documented accuracy | proved | Lipschitz bounds for longitude, anomaly and equation of the centre; the direction of a slightly moved point turns by at most four times the move |
| C168 | Equation of time is the documented formula | proved | Lipschitz bounds for sines and the tangent of half the obliquity, and products of bounded quantities |
| C169 | The equation of the equinoxes as an angle | partial | C166 and the cosine of the obliquity; refuted at J2000.0, where the node is at 125 degrees |
| C170 | Precession angles are those of IAU 2000 | partial | polynomial identities; zeta minus the published polynomial is a constant |
| C171 | Conversion between compound units as computed | proved | relative errors as exponents added along the loop over the bases of both units; every intermediate value stays within a known span of powers of two |
| C172 | Sums and comparisons of compound units as computed | proved | C171 for the converted operand and one rounding of the sum; comparisons by the bound of C171 |
| C173 | Products of compound units as computed | proved | a conversion (C171) for units of the same dimension, one rounding of the product and the algebra of unit sizes |
| C174 | Quotients of compound units as computed | partial | as C173; refuted by m/s over m/s; the zero divisor by evaluation |
| C175 | Conflict-degree orders follow the mean overlap | partial | the accumulated total is the sum over the windows met, invariant under permutation; insertion sort keeps the order; refuted on two windows |
| C176 | Distance, elevation and look angle of a satellite given in the celestial frame | proved | C146 bounds the displacement; the triangle inequality for angles turns it into a bound on the angles, added to C132-C134 |
| C177 | The elevation of the Sun as computed | proved | as C176, with relative instead of absolute bounds on the differences of coordinates |
| C178 | Windows of a satellite given in the celestial frame | proved | C176 and C177 for every sample, then the runs of C43-C48 |
| C179 | Distance, elevation and look angle of a place given by latitude, longitude and height | proved | C157 bounds the displacement from the exact place; the size of the foot from the equation of the ellipsoid; then as C176 |
| C180 | Computed astronomical quantities against the published formulas | proved | triangle inequality between the bounds of C150 and C151 and those of C165-C168 |
| C181 | Computed sidereal time at Greenwich against the published formula | partial | triangle inequality between C152 and the difference of the two polynomials; the refutation from the same bound, as a whole number of days cannot make up the difference |
| C182 | Numbers of positions and velocities in the LVLH frame | proved | case analysis on the lengths; pointwise equality of the arrays |
| C183 | Nutation turns by the obliquity of the date | partial | multiplying out the three turns; the refutation compares the first rows of the two matrices |
| C184 | Conversion between units of any size | proved | induction on the factors of a unit; case analysis on divisions by zero |
| C185 | Altitude is the distance to the ellipsoid | proved | the foot of the vertical is the nearest point of the ellipsoid (Cauchy-Schwarz), then C59 and C155 |
| C186 | Altitude of satellites given in the celestial frame | proved | C146 bounds the displacement by the conversion; the distance to the ellipsoid changes by no more than the displacement; then C185 |
| C187 | Windows carry attitudes that point at the location | proved | induction on the rows with C154; the rest of the function is that of C135 |
| C188 | Latitude, longitude and height of satellites given in the celestial frame | proved | rotating a slightly moved point back in a plane bounds the change of its direction; then C146, C158 and C186 |
| C189 | Latitudes are geodetic latitudes up to 0.0034 radians | proved | along a vertical the tangents of the two latitudes have the ratio (b^2+t)/(a^2+t); then C158 and C188 |
| C190 | Elevations are above the true horizon up to 0.195 degrees | proved | the angle between the vertical and the radius is below 0.0034 radians (its tangent is computed); triangle inequality of angles; then C133 and C176 |
| C191 | Windows against the true horizon | partial | the elevation test read as an inequality of angles, C190 and C102 |

## Findings

Behaviour found while modelling that a user would not expect; each is the subject of a
`..._refuted` theorem unless noted.

Units: dividing by a compound unit that shares a base adds exponents instead of
subtracting them (C04, C10); numeric factors of compound units are ignored (C05); `m/km` has
no dimension and `m*s`, `s*m` have different ones (C06); `!=` with something that is no
quantity is False (C09); foot and yard are inconsistent (C11); integer arrays cannot be
converted (C97); `<=`, `>=` and `!=` raise for arrays (C98); a quantity shares the array it is
built from (C100); a quantity converted to its own unit no longer combines with it (C101).

Scheduling: iteration over a request handler stops before the last request (C20, C28, C29,
C30, C38); returned schedules may overlap (C21); window indices go stale (C25); the overlap
duration is wrong for many pairs (C26); conflict sorts raise TypeError (C27); the search can
divide by zero (C36); attitudes of returned windows are empty, so saving them fails (C39,
C76); float look angles fail (C40); observations are not centred (C41).

Windows: the rise time of a window that starts at the first sample is the last sample (C43);
no visible sample raises IndexError (C45); an abandoned loop makes the next one start in the
middle (C48).

Sessions: bookings survive from one generate to the next, so a later request of higher
priority is shut out (C107).

Rounding: 0.07 m == 7 cm but 7 cm != 0.07 m (C109); conversions there and back are not exact
(C108); two observations can be booked 10 microseconds into each other (C114);
after about 1075 rejections operator weights or the temperature underflow to zero and the
search divides by zero (C118); mean solar times can be 24 (C126);
elevations and look angles are not-a-number for a satellite straight overhead (C133, C134), and a
pass through the zenith can be split into two windows (C135); not-a-number is accepted as a
latitude or longitude (C136).

Operators: the product of a unit and a quantity is None (C138); a unit to the power 2 and to the power
2.0 are not convertible (C140).

Texts: km ** 2 prints as 1000000.0 km2 and 2 * km as 2000.0 km (C141).

Arrays of integers: ITRS positions and velocities given as integers lose up to a unit in two coordinates
on the way to GCRS (C144); integers in units other than km and rad raise TypeError (C145).

Loops: nested loops over the same windows never end, nested loops over the same requests stop
after the first (C125).

Calendar and time: days around 1 March of century years, Julian dates before the reform,
arrays with old dates, day of year, datetime (C49, C50, C51, C79, C80); gast is not reduced
(C53); lmst uses the true Sun (C82).

Frames: precession at the epoch is not the identity, nutation turns about the wrong axis
(C83, C84); not a theorem: the obliquity used by the nutation matrix counts its own drift
twice; velocities are turned without the transport term (C85); latitudes of WGS84 results
are geocentric (C58); the altitude loop stops on the signed mean change (C59, C86, C87);
azimuth is from the south in the southern hemisphere and not-a-number on the equator (C61,
C89); elevation is from the geocentric vertical (C90); attitude angles have the opposite
sign of the right-hand rule (C91); positions of different sizes are accepted (C65); location
bounds ignore the unit (C66); `convert_to` returns the constant NotImplemented for other
classes (part of C68).

Files: tables are misaligned for negative numbers and float arrays (C71); the old file is
lost when a save fails (C72); seconds printed as 60.00 (C73); an empty list of columns raises
UnboundLocalError (part of C70); a column of strings makes numbers print with `str` (part of
C70).
