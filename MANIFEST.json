{
 "claims": [
  {
   "property": "C01",
   "status": "proved",
   "theorems": [
    "C01_conversion_preserves_magnitude"
   ],
   "note": "all units built from named units with positive scales; exact rationals instead of floats"
  },
  {
   "property": "C02",
   "status": "proved",
   "theorems": [
    "C02_conversion_round_trip",
    "C02_conversion_composes"
   ],
   "note": "round trip and composition"
  },
  {
   "property": "C03",
   "status": "proved",
   "theorems": [
    "C03_mixed_dimensions_rejected",
    "C03_equal_dimensions_accepted"
   ],
   "note": "mismatch always raises, equal dimension strings never do"
  },
  {
   "property": "C04",
   "status": "partial",
   "theorems": [
    "C04_unit_algebra_partial",
    "C04_division_exact",
    "C04_unit_algebra_refuted"
   ],
   "note": "REFUTED for division by a compound unit sharing a base unit (m/(m*s) becomes m2/s, core.py:281); proved for every other expression; exact exponents of the faulty division in C04_division_exact"
  },
  {
   "property": "C05",
   "status": "partial",
   "theorems": [
    "C05_factor_refuted",
    "C05_factor_ignored",
    "C05_factor_in_definition_partial",
    "C05_definition_from_quotient_refuted"
   ],
   "note": "REFUTED: a numeric factor is ignored by conversions; C05_factor_ignored gives the exact behaviour"
  },
  {
   "property": "C06",
   "status": "partial",
   "theorems": [
    "C06_dimension_crashes_refuted",
    "C06_dimension_order_refuted",
    "C06_dimension_sound_partial",
    "C06_dimension_exists_partial"
   ],
   "note": "REFUTED: (m/km).dimension raises AttributeError and m*s, s*m have different dimension strings; proved: soundness of equal strings and a success criterion"
  },
  {
   "property": "C07",
   "status": "proved",
   "theorems": [
    "C07_add_sub",
    "C07_add_assoc",
    "C07_scalars"
   ],
   "note": "values, units, commutativity, antisymmetry, associativity"
  },
  {
   "property": "C08",
   "status": "proved",
   "theorems": [
    "C08_comparisons"
   ],
   "note": "all six operators"
  },
  {
   "property": "C09",
   "status": "partial",
   "theorems": [
    "C09_ne_refuted",
    "C09_ne_negates_eq_partial",
    "C09_ne_wrong_exactly",
    "C09_orderings_partial"
   ],
   "note": "REFUTED for operands that are not quantities (== and != are both False); proved for quantities. Orderings against something else raise a TypeError."
  },
  {
   "property": "C10",
   "status": "partial",
   "theorems": [
    "C10_product",
    "C10_quotient_refuted",
    "C10_quotient_partial",
    "C10_number_over_quantity",
    "C10_product_order"
   ],
   "note": "product proved, with the order of the base units; a number over a quantity proved; quotient REFUTED for compound units with shared bases (speed/speed), proved otherwise"
  },
  {
   "property": "C11",
   "status": "partial",
   "theorems": [
    "C11_table_partial",
    "C11_imperial_refuted",
    "C11_imperial_partial"
   ],
   "note": "REFUTED for ft and yd, which are off by 0.07 and 0.05 percent (proved as bounds); the other ratios proved for every value, the radian within 1e-15."
  },
  {
   "property": "C12",
   "status": "proved",
   "theorems": [
    "C12_namespace_first_wins"
   ],
   "note": "any history of registrations"
  },
  {
   "property": "C13",
   "status": "proved",
   "theorems": [
    "C13_counters_exact"
   ],
   "note": "every history of handler operations"
  },
  {
   "property": "C14",
   "status": "proved",
   "theorems": [
    "C14_removal_count"
   ],
   "note": "random, priority and opportunity removal; any random source"
  },
  {
   "property": "C15",
   "status": "proved",
   "theorems": [
    "C15_priority_removal_victims",
    "C15_opportunity_removal_victims"
   ],
   "note": "priority and opportunity removal"
  },
  {
   "property": "C16",
   "status": "proved",
   "theorems": [
    "C16_requests_preserved"
   ],
   "note": "every operation on every reachable handler"
  },
  {
   "property": "C17",
   "status": "proved",
   "theorems": [
    "C17_new_bookings_satisfy_constraints",
    "C17_every_booking_allowed"
   ],
   "note": "the three insertion operators, and every booking of every reachable handler"
  },
  {
   "property": "C18",
   "status": "proved",
   "theorems": [
    "C18_insertion_keeps_bookings"
   ],
   "note": "limit for n >= 0; a negative limit means no limit"
  },
  {
   "property": "C19",
   "status": "proved",
   "theorems": [
    "C19_insertion_maximal",
    "C19_initial_solution_maximal"
   ],
   "note": "maximal with respect to the conflict test, which ignores the last request (C20)"
  },
  {
   "property": "C20",
   "status": "partial",
   "theorems": [
    "C20_conflict_test_partial",
    "C20_conflict_test_refuted"
   ],
   "note": "REFUTED: the conflict test never looks at the last request (handler iteration stops early, request_handler.py:46); exact for all the others"
  },
  {
   "property": "C21",
   "status": "partial",
   "theorems": [
    "C21_generate_overlap_refuted",
    "C21_no_clashes_refuted",
    "C21_insertion_no_clash_partial",
    "C21_removal_no_clash_partial",
    "C21_initial_solution_no_clash_partial"
   ],
   "note": "REFUTED, also end to end: a run of generate on four requests returns two overlapping observations; proved: removals and sorts never create an overlap, an insertion does not unless the last request was already booked, the initial solution has none"
  },
  {
   "property": "C22",
   "status": "proved",
   "theorems": [
    "C22_image_quality"
   ],
   "note": "range, value 10 exactly at the middle, monotone"
  },
  {
   "property": "C23",
   "status": "proved",
   "theorems": [
    "C23_look_angle_search"
   ],
   "note": "strictly increasing sample times containing rise and set"
  },
  {
   "property": "C24",
   "status": "proved",
   "theorems": [
    "C24_sorts_stable"
   ],
   "note": "all four sorts without conflict degrees"
  },
  {
   "property": "C25",
   "status": "partial",
   "theorems": [
    "C25_window_index_refuted",
    "C25_window_index_partial"
   ],
   "note": "REFUTED: reordering the windows of a booked request (minimum-conflict insertion, sorting by rise time) leaves a stale index; proved for all histories without such reordering"
  },
  {
   "property": "C26",
   "status": "partial",
   "theorems": [
    "C26_overlap_test",
    "C26_overlap_duration_partial",
    "C26_overlap_duration_refuted"
   ],
   "note": "overlap test proved exact; overlap duration REFUTED, with the exact set of window pairs for which it is right"
  },
  {
   "property": "C27",
   "status": "partial",
   "theorems": [
    "C27_conflict_sort_refuted",
    "C27_conflict_sort_exact_partial",
    "C27_window_sort_exact_partial"
   ],
   "note": "REFUTED: TypeError when some but not all requests are scheduled, and when two windows of a request have equal degrees; both characterised exactly"
  },
  {
   "property": "C28",
   "status": "partial",
   "theorems": [
    "C28_iteration_partial",
    "C28_iteration_refuted"
   ],
   "note": "REFUTED for every non-empty handler: iteration never reaches the last request; exact behaviour proved"
  },
  {
   "property": "C29",
   "status": "partial",
   "theorems": [
    "C29_is_complete_partial",
    "C29_is_complete_refuted",
    "C29_is_complete_false_sound_partial"
   ],
   "note": "REFUTED: the last request is ignored; exact behaviour proved; False is always right"
  },
  {
   "property": "C30",
   "status": "partial",
   "theorems": [
    "C30_cost_partial",
    "C30_cost_refuted"
   ],
   "note": "REFUTED: the last request is ignored, so the cost depends on the order; exact behaviour proved"
  },
  {
   "property": "C31",
   "status": "proved",
   "theorems": [
    "C31_returns_cheapest",
    "C31_never_worse_than_initial"
   ],
   "note": "every problem, weights and draws"
  },
  {
   "property": "C32",
   "status": "proved",
   "theorems": [
    "C32_invariants_preserved"
   ],
   "note": "any invariant of the operators"
  },
  {
   "property": "C33",
   "status": "proved",
   "theorems": [
    "C33_stops",
    "C33_earliest_best_unique"
   ],
   "note": "stops at the first complete best solution or the iteration limit, returns the earliest cheapest"
  },
  {
   "property": "C34",
   "status": "proved",
   "theorems": [
    "C34_weights_stay_positive",
    "C34_draw",
    "C34_full_reaction_fails"
   ],
   "note": "for 0 <= l < 1; for l = 1 shown to fail"
  },
  {
   "property": "C35",
   "status": "proved",
   "theorems": [
    "C35_acceptance",
    "C35_probability_decreases"
   ],
   "note": "acceptance rule and monotone probability, with the real exponential"
  },
  {
   "property": "C36",
   "status": "partial",
   "theorems": [
    "C36_search_fails_refuted",
    "C36_search_never_fails_partial",
    "C36_generate_fails_refuted"
   ],
   "note": "REFUTED, also end to end for generate with two requests: ZeroDivisionError when the current solution costs 0; proved when costs stay non-zero with the sign of the initial cost"
  },
  {
   "property": "C37",
   "status": "proved",
   "theorems": [
    "C37_windows_honour_requests"
   ],
   "note": "every reachable handler, every random draw"
  },
  {
   "property": "C38",
   "status": "partial",
   "theorems": [
    "C38_scheduled_emitted_partial",
    "C38_scheduled_emitted_refuted"
   ],
   "note": "REFUTED: the last request of the best solution is never returned, so a scheduler with one request always returns nothing; exact set of returned requests proved"
  },
  {
   "property": "C39",
   "status": "partial",
   "theorems": [
    "C39_attitude_empty_refuted"
   ],
   "note": "REFUTED for every schedule: the attitude of a returned window is always empty"
  },
  {
   "property": "C40",
   "status": "partial",
   "theorems": [
    "C40_float_look_angle_refuted"
   ],
   "note": "REFUTED: every float look angle (with a window) makes the initial solution fail"
  },
  {
   "property": "C41",
   "status": "partial",
   "theorems": [
    "C41_placement_partial",
    "C41_centred_refuted",
    "C41_fits_refuted"
   ],
   "note": "REFUTED: the centre of the observation is a whole duration after the middle of the window; exact placement and fitting condition proved"
  },
  {
   "property": "C42",
   "status": "partial",
   "theorems": [
    "C42_at_least_initial_partial",
    "C42_at_least_initial_refuted"
   ],
   "note": "REFUTED for a single request; proved for the initial solution without its last request"
  },
  {
   "property": "C43",
   "status": "partial",
   "theorems": [
    "C43_windows_are_runs_partial",
    "C43_first_sample_refuted"
   ],
   "note": "REFUTED when the run starts at the first sample: the reported rise is then the time of the last sample; proved for runs starting later"
  },
  {
   "property": "C44",
   "status": "partial",
   "theorems": [
    "C44_ordered_disjoint_complete_partial",
    "C44_first_sample_refuted"
   ],
   "note": "REFUTED likewise for a run starting at the first sample; proved: windows ordered, disjoint and complete otherwise"
  },
  {
   "property": "C45",
   "status": "partial",
   "theorems": [
    "C45_never_visible_refuted"
   ],
   "note": "REFUTED for every series without a visible sample: IndexError instead of an empty collection"
  },
  {
   "property": "C46",
   "status": "proved",
   "theorems": [
    "C46_validation"
   ],
   "note": "every threshold and lighting condition"
  },
  {
   "property": "C47",
   "status": "proved",
   "theorems": [
    "C47_homogeneous",
    "C47_one_kind",
    "C47_indexing"
   ],
   "note": "every sequence of add_window calls"
  },
  {
   "property": "C48",
   "status": "partial",
   "theorems": [
    "C48_iteration_partial",
    "C48_iteration_refuted"
   ],
   "note": "REFUTED: after an abandoned loop the next loop skips the windows already visited; proved for completed loops"
  },
  {
   "property": "C49",
   "status": "partial",
   "theorems": [
    "C49_calendar_date_partial",
    "C49_calendar_date_refuted"
   ],
   "note": "REFUTED: on the first days of March (about 3(c-4)/4 of them) of every century year 100c that is not a leap year the day before is returned, for 1 March a 29 February that does not exist (e.g. 2100); proved: exactly the other days up to Julian date 1e9 are right"
  },
  {
   "property": "C50",
   "status": "partial",
   "theorems": [
    "C50_elementwise_partial",
    "C50_elementwise_refuted"
   ],
   "note": "REFUTED: every array of two or more entries with one before Julian day 2291161 raises ValueError; proved for single dates and arrays of later dates"
  },
  {
   "property": "C51",
   "status": "partial",
   "theorems": [
    "C51_day_of_year_partial",
    "C51_day_of_year_refuted"
   ],
   "note": "REFUTED: one too many after February of century years that are not leap years (366 for 31 December 1900); proved for all other Gregorian dates that from_julian gets right"
  },
  {
   "property": "C52",
   "status": "proved",
   "theorems": [
    "C52_mean_solar_time",
    "C52_true_solar_time",
    "C52_hour_angles",
    "C52_ut1",
    "C52_time_zones",
    "C52_shapes"
   ],
   "note": "every array of dates and longitudes that broadcast; the others raise ValueError"
  },
  {
   "property": "C53",
   "status": "partial",
   "theorems": [
    "C53_gmst",
    "C53_local_sidereal_times",
    "C53_gast_partial",
    "C53_gast_refuted"
   ],
   "note": "REFUTED for gast, which is not reduced modulo 24 h and can be negative; proved: gmst, lmst and last always in [0, 24), gast equals gmst plus the equation of equinoxes"
  },
  {
   "property": "C54",
   "status": "proved",
   "theorems": [
    "C54_rotation_and_nutation_angles",
    "C54_nutation_bounded",
    "C54_sun_right_ascension"
   ],
   "note": "every Julian date"
  },
  {
   "property": "C55",
   "status": "proved",
   "theorems": [
    "C55_time_shape"
   ],
   "note": "every input of the constructor"
  },
  {
   "property": "C56",
   "status": "proved",
   "theorems": [
    "C56_gcrs_to_itrs_and_back",
    "C56_itrs_to_gcrs_and_back",
    "C56_one_time",
    "C56_one_point"
   ],
   "note": "equal numbers of times and points, and one time for all points; several times with one point convert only one way (C56_one_point)"
  },
  {
   "property": "C57",
   "status": "proved",
   "theorems": [
    "C57_rigid"
   ],
   "note": "every time and triple of points, both directions"
  },
  {
   "property": "C58",
   "status": "partial",
   "theorems": [
    "C58_round_trip_partial",
    "C58_latitude_refuted",
    "C58_height_refuted"
   ],
   "note": "REFUTED: the latitude that comes back is geocentric, nearer to the equator for every latitude but 0, and on the equator the height comes back more than 10.7 km too high; proved: longitude exact, latitude within 0.0034 radians"
  },
  {
   "property": "C59",
   "status": "partial",
   "theorems": [
    "C59_altitude_partial",
    "C59_altitude_refuted"
   ],
   "note": "REFUTED: the loop tests the signed mean change, so for points above the equator it returns the first guess, 10.7 km too high; proved: it ends and every altitude is within 10.71 km of the true height, and every point on or outside the ellipsoid has exactly one height"
  },
  {
   "property": "C60",
   "status": "proved",
   "theorems": [
    "C60_azimuth_elevation_ranges"
   ],
   "note": "every satellite and location of the stated kind"
  },
  {
   "property": "C61",
   "status": "partial",
   "theorems": [
    "C61_azimuth_north_partial",
    "C61_azimuth_south_refuted",
    "C61_north_partial",
    "C61_horizon_partial"
   ],
   "note": "REFUTED south of the equator, where azimuths are measured from south (due east gives 270); proved north of it: halves, due east 90 and due west 270 exactly, due north and south within half a degree, and every bearing within one degree at elevations up to about 87 degrees"
  },
  {
   "property": "C62",
   "status": "proved",
   "theorems": [
    "C62_lvlh_frame",
    "C62_collinear"
   ],
   "note": "every number of points; collinear positions and velocities give not-a-number"
  },
  {
   "property": "C63",
   "status": "proved",
   "theorems": [
    "C63_points_at_target",
    "C63_straight_up",
    "C63_needs_velocity"
   ],
   "note": "with the direction cosine matrix of the Euler 2-1-3 sequence of the cited work, read as the matrix that moves vectors; see C91 for the right-hand rule"
  },
  {
   "property": "C64",
   "status": "proved",
   "theorems": [
    "C64_distance",
    "C64_units",
    "C64_look_angle"
   ],
   "note": "every satellite position and location"
  },
  {
   "property": "C65",
   "status": "partial",
   "theorems": [
    "C65_position_sizes_partial",
    "C65_position_sizes_refuted"
   ],
   "note": "REFUTED: Python reads a != b != c as a conjunction, so one pair of equal neighbours is enough to be accepted; exact condition proved"
  },
  {
   "property": "C66",
   "status": "partial",
   "theorems": [
    "C66_validation_partial",
    "C66_validation_refuted"
   ],
   "note": "REFUTED for every unit but degrees: the bounds in degrees are compared with the raw number; proved for degrees"
  },
  {
   "property": "C67",
   "status": "proved",
   "theorems": [
    "C67_radius_and_coordinates",
    "C67_same_as_conversion"
   ],
   "note": "every location; to 1e-15 with the axes of WGS84"
  },
  {
   "property": "C68",
   "status": "proved",
   "theorems": [
    "C68_through_itrs",
    "C68_dispatch",
    "C68_answers",
    "C68_accepted"
   ],
   "note": "every source, frame and location; requests for WGS84 are answered under the conditions of C86"
  },
  {
   "property": "C69",
   "status": "proved",
   "theorems": [
    "C69_file_names"
   ],
   "note": "every name and header"
  },
  {
   "property": "C70",
   "status": "proved",
   "theorems": [
    "C70_layout",
    "C70_saves",
    "C70_layers_in_order",
    "C70_integers",
    "C70_integers_apart"
   ],
   "note": "every header, list of layers and data; a save that returns has written exactly the document"
  },
  {
   "property": "C71",
   "status": "partial",
   "theorems": [
    "C71_aligned_partial",
    "C71_negative_refuted",
    "C71_array_refuted"
   ],
   "note": "REFUTED: a negative number wider than the largest number, and float arrays without a unit, stick out of their column; proved for columns of other kinds"
  },
  {
   "property": "C72",
   "status": "partial",
   "theorems": [
    "C72_crash_refuted",
    "C72_exception_refuted",
    "C72_crash_partial",
    "C72_layers_before_partial"
   ],
   "note": "REFUTED: the old file is truncated before the new text is computed, so a crash or an exception loses it; proved: what is there is the beginning of the new text, layers before the failing one are complete, and no other file changes"
  },
  {
   "property": "C73",
   "status": "partial",
   "theorems": [
    "C73_sexagesimal_partial",
    "C73_sixty_seconds_refuted"
   ],
   "note": "REFUTED: up to 0.005 seconds below a whole minute the seconds are printed as 60.00; proved otherwise, and within half a hundredth of a second, for angles below 1000 degrees"
  },
  {
   "property": "C74",
   "status": "proved",
   "theorems": [
    "C74_insertion_never_fails"
   ],
   "note": "greedy, minimum-opportunity insertion and the initial solution"
  },
  {
   "property": "C75",
   "status": "proved",
   "theorems": [
    "C75_trajectory",
    "C75_scores"
   ],
   "note": "finding: the score 2 for a candidate better than the current solution is never given, because alns.py compares after the current solution was replaced"
  },
  {
   "property": "C76",
   "status": "partial",
   "theorems": [
    "C76_saving_fails_refuted",
    "C76_saved_rows_partial"
   ],
   "note": "REFUTED for every generated schedule: IndexError, because the attitudes are empty; proved: exactly which windows can be saved, and their rows"
  },
  {
   "property": "C77",
   "status": "proved",
   "theorems": [
    "C77_unscheduled_means_no_booking"
   ],
   "note": "every reachable handler"
  },
  {
   "property": "C78",
   "status": "proved",
   "theorems": [
    "C78_rounds_remove_a_quarter",
    "C78_rounds_repair_fully"
   ],
   "note": "every round of every search; the unbooked requests clash with a request not in last position (see C20)"
  },
  {
   "property": "C79",
   "status": "partial",
   "theorems": [
    "C79_julian_calendar_partial",
    "C79_julian_calendar_refuted"
   ],
   "note": "REFUTED for the 8000 days before the reform (4 October 1582 is returned as 14 October, a mistyped threshold); proved for all earlier days"
  },
  {
   "property": "C80",
   "status": "partial",
   "theorems": [
    "C80_datetime_partial",
    "C80_datetime_refuted"
   ],
   "note": "REFUTED: ValueError on 1 March of every century year from 1700 that is not a leap year; proved for all other days for which from_julian is right"
  },
  {
   "property": "C81",
   "status": "proved",
   "theorems": [
    "C81_equation_of_time_bounded"
   ],
   "note": "every real date of the two centuries"
  },
  {
   "property": "C82",
   "status": "partial",
   "theorems": [
    "C82_local_sidereal_time_partial",
    "C82_local_sidereal_time_refuted"
   ],
   "note": "REFUTED: lmst uses the right ascension of the true Sun, so at Greenwich on 1 January 2000 12h it is more than a minute ahead of gmst; proved: both local sidereal times grow by exactly the longitude"
  },
  {
   "property": "C83",
   "status": "partial",
   "theorems": [
    "C83_precession_at_epoch_partial",
    "C83_precession_at_epoch_refuted"
   ],
   "note": "REFUTED: the matrix is a turn of 5.2 arcseconds about the z axis (the sign of zeta is not the one of the cited formula, and its constant term has a mistyped digit)"
  },
  {
   "property": "C84",
   "status": "partial",
   "theorems": [
    "C84_nutation_partial",
    "C84_nutation_refuted"
   ],
   "note": "REFUTED: the middle rotation is about the second axis instead of the third, so the pole of the ecliptic stays only when there is no nutation in longitude (exact condition proved); the equinox moves by the right angle"
  },
  {
   "property": "C85",
   "status": "partial",
   "theorems": [
    "C85_velocity_partial",
    "C85_velocity_refuted"
   ],
   "note": "REFUTED: the velocity is only turned, the rotation of the Earth is ignored; proved: speed and radial component are those of the celestial frame"
  },
  {
   "property": "C86",
   "status": "partial",
   "theorems": [
    "C86_altitude_alone_partial",
    "C86_altitude_alone_refuted"
   ],
   "note": "REFUTED: a point above the equator gets an altitude more than 10 km lower when two points at high northern latitude are in the array; proved: the difference is below 11.3 km"
  },
  {
   "property": "C87",
   "status": "partial",
   "theorems": [
    "C87_altitude_symmetries_partial",
    "C87_altitude_symmetries_refuted"
   ],
   "note": "REFUTED for the hemisphere: the mirror image of a northern point is given an altitude more than 1 km higher; proved for every rotation about the axis"
  },
  {
   "property": "C88",
   "status": "proved",
   "theorems": [
    "C88_altitude_ends"
   ],
   "note": "every array of points off the axis and outside the sphere of the polar radius, exact arithmetic"
  },
  {
   "property": "C89",
   "status": "partial",
   "theorems": [
    "C89_azimuth_equator_refuted",
    "C89_azimuth_defined_partial"
   ],
   "note": "REFUTED: for every location on the equator every azimuth is not-a-number; proved elsewhere"
  },
  {
   "property": "C90",
   "status": "partial",
   "theorems": [
    "C90_zenith_refuted",
    "C90_zenith_partial"
   ],
   "note": "REFUTED at every latitude but the equator and the poles: elevation is measured from the plane perpendicular to the line from the centre of the Earth; proved at the equator and the poles"
  },
  {
   "property": "C91",
   "status": "partial",
   "theorems": [
    "C91_right_hand_partial",
    "C91_right_hand_refuted"
   ],
   "note": "REFUTED: the angles have the opposite sign (rolling by them by the right-hand rule points to the mirror image of the target); proved for the negated angles"
  },
  {
   "property": "C92",
   "status": "proved",
   "theorems": [
    "C92_satellite"
   ],
   "note": "every frame combination"
  },
  {
   "property": "C93",
   "status": "proved",
   "theorems": [
    "C93_read_back"
   ],
   "note": "files with one layer and the default format; columns of quantities of floats and of objects"
  },
  {
   "property": "C94",
   "status": "proved",
   "theorems": [
    "C94_location"
   ],
   "note": "every location whose angles are below 1000 degrees, as all are that the constructor makes in degrees"
  },
  {
   "property": "C95",
   "status": "proved",
   "theorems": [
    "C95_positions",
    "C95_lvlh",
    "C95_wgs84",
    "C95_azel",
    "C95_attitude",
    "C95_satellite",
    "C95_no_velocity",
    "C95_visible_windows",
    "C95_observation_windows",
    "C95_location_cell",
    "C95_no_windows"
   ],
   "note": "every class with a save_text_file method"
  },
  {
   "property": "C96",
   "status": "proved",
   "theorems": [
    "C96_convert",
    "C96_add",
    "C96_neg",
    "C96_sub",
    "C96_numbers",
    "C96_mul",
    "C96_div",
    "C96_lengths_rejected",
    "C96_dimensions_rejected",
    "C96_number_over_quantity"
   ],
   "note": "one-dimensional arrays of exact numbers; division where no divisor entry is zero"
  },
  {
   "property": "C97",
   "status": "partial",
   "theorems": [
    "C97_integer_arrays_refuted",
    "C97_same_unit_partial",
    "C97_element_types"
   ],
   "note": "REFUTED: every conversion of an integer array to another unit raises TypeError (in-place multiplication by a float), hence also sums and comparisons; reading it in its own unit works"
  },
  {
   "property": "C98",
   "status": "partial",
   "theorems": [
    "C98_elementwise_partial",
    "C98_le_ge_ne_refuted",
    "C98_single_entry_partial",
    "C98_booleans",
    "C98_other_operands_partial",
    "C98_empty_partial"
   ],
   "note": "REFUTED for <=, >= and !=: two or more entries always raise ValueError (truth value of an array); ==, < and > proved, and all six for single entries"
  },
  {
   "property": "C99",
   "status": "proved",
   "theorems": [
    "C99_operands_unchanged",
    "C99_history"
   ],
   "note": "every program of the modelled operations; direct writes only"
  },
  {
   "property": "C100",
   "status": "partial",
   "theorems": [
    "C100_independent_refuted",
    "C100_results_are_new_partial",
    "C100_no_sharing_partial"
   ],
   "note": "REFUTED for the array a quantity is built from, which is stored and not copied; proved: results are new objects, and without two quantities built from one array no two share"
  },
  {
   "property": "C101",
   "status": "partial",
   "theorems": [
    "C101_own_unit_refuted",
    "C101_own_unit_partial"
   ],
   "note": "REFUTED: the copied unit has a new identity, so it no longer combines with the original; proved: same numbers, printed unit, dimension and size"
  },
  {
   "property": "C102",
   "status": "partial",
   "theorems": [
    "C102_windows_are_runs_partial",
    "C102_sun_exists",
    "C102_ordered_disjoint_complete_partial",
    "C102_first_sample_refuted",
    "C102_never_visible_refuted",
    "C102_rejected"
   ],
   "note": "REFUTED at the first sample (rise time is the last sample) and when nothing is visible (IndexError); everything else proved, for satellites whose velocity has the times of the position; real numbers; the ephemeris is any function"
  },
  {
   "property": "C103",
   "status": "partial",
   "theorems": [
    "C103_nested_partial",
    "C103_day_and_night_disjoint_partial",
    "C103_day_and_night_disjoint",
    "C103_nested_refuted"
   ],
   "note": "REFUTED when the satellite satisfies the wider condition from the first sample on (C103_nested_refuted, see C102); proved when it does not satisfy it at the first sample. No instant is in a window by day and in one at night: proved without that condition (C103_day_and_night_disjoint)."
  },
  {
   "property": "C104",
   "status": "proved",
   "theorems": [
    "C104_any_unit"
   ],
   "note": "real numbers"
  },
  {
   "property": "C105",
   "status": "proved",
   "theorems": [
    "C105_observations_answer_requests",
    "C105_requests_kept",
    "C105_construction"
   ],
   "note": "exact rationals; sampled elevations (Vtw_Model.v)"
  },
  {
   "property": "C106",
   "status": "proved",
   "theorems": [
    "C106_observed_while_visible"
   ],
   "note": "sample times increase; no hypothesis on the first sample, because a window starting there has its rise after its set and holds no observation"
  },
  {
   "property": "C107",
   "status": "partial",
   "theorems": [
    "C107_generate_repeatable",
    "C107_order_matters_refuted"
   ],
   "note": "proved: repeating generate repeats the answer; REFUTED: bookings of an earlier generate stay, so a later, more important request is not served although it would have been if made earlier"
  },
  {
   "property": "C108",
   "status": "partial",
   "theorems": [
    "C108_conversion_accurate",
    "C108_round_trip_partial",
    "C108_round_trip_refuted",
    "C108_sum_accurate"
   ],
   "note": "binary64 of Flocq; accuracy of conversions and sums proved; REFUTED: there and back is not exact (0.03 m to km and back), proved within one part in 2^49"
  },
  {
   "property": "C109",
   "status": "partial",
   "theorems": [
    "C109_order_preserved",
    "C109_clear_differences",
    "C109_trichotomy",
    "C109_equality_symmetric_refuted"
   ],
   "note": "order and clear differences proved; REFUTED: == is not symmetric (0.07 m == 7 cm, but 7 cm != 0.07 m)"
  },
  {
   "property": "C110",
   "status": "partial",
   "theorems": [
    "C110_times_accurate",
    "C110_order_kept",
    "C110_differences_exact",
    "C110_distinct_refuted"
   ],
   "note": "accuracy, order and exact differences proved; REFUTED: instants ten microseconds apart become equal"
  },
  {
   "property": "C111",
   "status": "partial",
   "theorems": [
    "C111_window_test_safe",
    "C111_deadline_test_safe",
    "C111_tests_complete",
    "C111_conflict_test",
    "C111_conflict_exact_refuted"
   ],
   "note": "window and deadline tests proved safe and nearly complete; REFUTED: bookings without a reported conflict can overlap, proved by at most three quarters of 2^-31 day"
  },
  {
   "property": "C112",
   "status": "proved",
   "theorems": [
    "C112_start_accurate",
    "C112_quality_accurate",
    "C112_quality_in_range"
   ],
   "note": "binary64 of Flocq; numpy division"
  },
  {
   "property": "C113",
   "status": "proved",
   "theorems": [
    "C113_bookings_satisfy_constraints",
    "C113_insertion_keeps_bookings"
   ],
   "note": "binary64 of Flocq; quality up to the margin that rounding can cause"
  },
  {
   "property": "C114",
   "status": "partial",
   "theorems": [
    "C114_initial_solution",
    "C114_insertion_partial",
    "C114_removals",
    "C114_disjoint_refuted"
   ],
   "note": "initial solution, removals and insertions proved with overlaps of at most three quarters of 2^-31 day (30 microseconds); REFUTED: no overlap at all; insertions with the last request booked: see C21"
  },
  {
   "property": "C115",
   "status": "proved",
   "theorems": [
    "C115_insertion_maximal"
   ],
   "note": "requests without a look angle; room to spare is 2^-31 day at each test"
  },
  {
   "property": "C116",
   "status": "proved",
   "theorems": [
    "C116_look_angle_search"
   ],
   "note": "angles after conversion to degrees, zero or between 2^-400 and 2^400 in size"
  },
  {
   "property": "C117",
   "status": "proved",
   "theorems": [
    "C117_draw",
    "C117_no_weight_left"
   ],
   "note": "sum adds from left to right, as before Python 3.12"
  },
  {
   "property": "C118",
   "status": "partial",
   "theorems": [
    "C118_weights_are_fractions",
    "C118_update_accurate",
    "C118_never_fails_partial",
    "C118_never_fails_refuted",
    "C118_temperature_underflow_refuted"
   ],
   "note": "range and update proved; completion proved for up to 900 iterations with react factor at most 1/2, annealing at least 1/2 and costs from -2^40 to -1; REFUTED: after some 1075 rejections a weight or the temperature underflows to zero and the search divides by zero"
  },
  {
   "property": "C119",
   "status": "proved",
   "theorems": [
    "C119_returns_cheapest",
    "C119_stops",
    "C119_invariants_preserved",
    "C119_trajectory"
   ],
   "note": "costs are integers; math.exp is any function"
  },
  {
   "property": "C120",
   "status": "partial",
   "theorems": [
    "C120_windows_serve_requests",
    "C120_scheduled_emitted_partial",
    "C120_scheduled_emitted_refuted",
    "C120_windows_overlap_refuted",
    "C120_never_fails_refuted"
   ],
   "note": "windows serve requests and are worth the initial solution without its last request; every scheduled request but the last is returned; REFUTED: a single request is never returned, windows may overlap by a whole day, generate can divide by zero"
  },
  {
   "property": "C121",
   "status": "proved",
   "theorems": [
    "C121_acceptance"
   ],
   "note": "math.exp is any function; for equality it must be 1 at 0"
  },
  {
   "property": "C122",
   "status": "proved",
   "theorems": [
    "C122_search_leaves_objects_alone",
    "C122_solution_apart",
    "C122_operators_change_one_handler"
   ],
   "note": "windows and attitudes are values: nothing in the scheduler changes them"
  },
  {
   "property": "C123",
   "status": "proved",
   "theorems": [
    "C123_generate_in_place",
    "C123_search_not_left_behind"
   ],
   "note": ""
  },
  {
   "property": "C124",
   "status": "proved",
   "theorems": [
    "C124_schedulers_independent",
    "C124_nothing_else_changed"
   ],
   "note": "the satellite and the locations are values"
  },
  {
   "property": "C125",
   "status": "partial",
   "theorems": [
    "C125_loops_in_turn",
    "C125_nested_windows_refuted",
    "C125_nested_requests_refuted"
   ],
   "note": "loops one after the other take every window; REFUTED: inside another loop over the same windows the outer loop never ends; over the same requests it stops after the first"
  },
  {
   "property": "C126",
   "status": "partial",
   "theorems": [
    "C126_remainder_rounded",
    "C126_remainder_exact_partial",
    "C126_remainder_below_refuted"
   ],
   "note": "numpy's rule for %; correctly rounded for every pair of finite numbers with a positive modulus, exact for dividends that are not negative; REFUTED: the result can be the modulus itself (mean solar time 24)"
  },
  {
   "property": "C127",
   "status": "proved",
   "theorems": [
    "C127_calendar_exact",
    "C127_gregorian_date"
   ],
   "note": "Julian dates from 2097152 to 4194303 (years 1029 to 6771); astype(int) of a 64-bit machine; on the days where the exact calendar is wrong see C49"
  },
  {
   "property": "C128",
   "status": "proved",
   "theorems": [
    "C128_day_of_year_exact",
    "C128_datetime_exact",
    "C128_datetime_right"
   ],
   "note": "dates as in C127; datetime.timedelta rounds to the nearest microsecond"
  },
  {
   "property": "C129",
   "status": "proved",
   "theorems": [
    "C129_era_normalised",
    "C129_era_accurate"
   ],
   "note": "dates as in C127"
  },
  {
   "property": "C130",
   "status": "proved",
   "theorems": [
    "C130_ut1_exact",
    "C130_mean_times_accurate"
   ],
   "note": "dates as in C127, longitudes of a whole turn at most"
  },
  {
   "property": "C131",
   "status": "proved",
   "theorems": [
    "C131_location_coordinates"
   ],
   "note": "relative to the exact model of C60; the mathematics library is a parameter with stated error bounds"
  },
  {
   "property": "C132",
   "status": "proved",
   "theorems": [
    "C132_distance_accurate"
   ],
   "note": "library as in C131"
  },
  {
   "property": "C133",
   "status": "partial",
   "theorems": [
    "C133_elevation_partial",
    "C133_overhead_refuted"
   ],
   "note": "library as in C131; the result is never wrong by more than 4e-6 degrees and is not-a-number only within 4e-6 degrees of the zenith or nadir; REFUTED: it is not-a-number for a satellite straight overhead, also with correctly rounded functions"
  },
  {
   "property": "C134",
   "status": "partial",
   "theorems": [
    "C134_look_angle_partial",
    "C134_overhead_refuted"
   ],
   "note": "as C133; REFUTED: not-a-number for a location straight below the satellite"
  },
  {
   "property": "C135",
   "status": "partial",
   "theorems": [
    "C135_windows_partial",
    "C135_split_refuted",
    "C135_windows_with_attitudes_partial"
   ],
   "note": "as C133; REFUTED: a pass through the zenith can be split into two windows"
  },
  {
   "property": "C136",
   "status": "partial",
   "theorems": [
    "C136_validation_partial",
    "C136_infinite",
    "C136_nan_refuted"
   ],
   "note": "proved for all finite numbers and infinities; REFUTED: not-a-number is accepted"
  },
  {
   "property": "C137",
   "status": "proved",
   "theorems": [
    "C137_observations_in_view"
   ],
   "note": "library as in C131; sessions end when generate raises"
  },
  {
   "property": "C138",
   "status": "partial",
   "theorems": [
    "C138_products_partial",
    "C138_products_refuted",
    "C138_quotients",
    "C138_sums",
    "C138_number_over_unit",
    "C138_numbers",
    "C138_difference",
    "C138_product_value",
    "C138_expressions_partial",
    "C138_number_over_quantity",
    "C138_quotient_value_partial"
   ],
   "note": "proved for quotients, sums, differences, products other than of a unit with a quantity or other object, and expressions without these; REFUTED: a product of a unit and a quantity is None"
  },
  {
   "property": "C139",
   "status": "proved",
   "theorems": [
    "C139_sum",
    "C139_empty",
    "C139_mixed_raises"
   ],
   "note": ""
  },
  {
   "property": "C140",
   "status": "partial",
   "theorems": [
    "C140_same_powers_partial",
    "C140_float_power_refuted"
   ],
   "note": "proved if both powers are ints or both are floats; REFUTED: u ** 2 and u ** 2.0 are not convertible"
  },
  {
   "property": "C141",
   "status": "partial",
   "theorems": [
    "C141_power_refuted",
    "C141_multiple_refuted",
    "C141_power_exact",
    "C141_multiple_exact",
    "C141_product_of_lengths_refuted",
    "C141_text_reads_partial",
    "C141_multiple_of_product_partial"
   ],
   "note": "proved for products, quotients, inverses and powers of units of size 1 or of products, and for multiples of products; REFUTED: km ** 2 prints as \"1000000.0 km2\" and 2 * km as \"2000.0 km\""
  },
  {
   "property": "C142",
   "status": "proved",
   "theorems": [
    "C142_quantity_text",
    "C142_unit_text",
    "C142_named_text_complete"
   ],
   "note": "str of a number is a parameter: injective, without spaces and commas"
  },
  {
   "property": "C143",
   "status": "proved",
   "theorems": [
    "C143_location_text",
    "C143_location_text_exists",
    "C143_collection_text",
    "C143_visible_text",
    "C143_observed_text",
    "C143_fields"
   ],
   "note": "as C142; the texts of attitudes and (in windows) of locations are parameters without commas and closing brackets"
  },
  {
   "property": "C144",
   "status": "partial",
   "theorems": [
    "C144_one_array_of_floats_partial",
    "C144_gcrs_to_itrs",
    "C144_arrays_of_integers_partial",
    "C144_integers_or_floats_refuted"
   ],
   "note": "proved from GCRS to ITRS, and from ITRS if one array is of floats; for three arrays of integers the exact result, wrong by less than sqrt 2 units; REFUTED: a point one unit from the centre is put at the centre"
  },
  {
   "property": "C145",
   "status": "partial",
   "theorems": [
    "C145_kilometres_or_floats_partial",
    "C145_other_units_refuted",
    "C145_wgs84_partial",
    "C145_wgs84_refuted"
   ],
   "note": "proved for arrays of floats, for kilometres and for radians; REFUTED: integers in other units raise TypeError"
  },
  {
   "property": "C146",
   "status": "proved",
   "theorems": [
    "C146_float_frames_close"
   ],
   "note": "for one time and one point of the arrays; numpy (sin, cos, powers, einsum, linalg.inv) is a parameter with stated error bounds"
  },
  {
   "property": "C147",
   "status": "proved",
   "theorems": [
    "C147_float_frames_keep_distances"
   ],
   "note": "numpy as in C146"
  },
  {
   "property": "C148",
   "status": "proved",
   "theorems": [
    "C148_float_frames_back"
   ],
   "note": "numpy as in C146"
  },
  {
   "property": "C149",
   "status": "proved",
   "theorems": [
    "C149_float_nutation_angles"
   ],
   "note": "for one time of the array; numpy (powers) is a parameter with stated error bounds"
  },
  {
   "property": "C150",
   "status": "proved",
   "theorems": [
    "C150_float_quantities_close"
   ],
   "note": "numpy (sin, cos, tan, arctan2, powers) is a parameter with stated error bounds; the exact values are those of the model on real numbers (Time_Model.v)"
  },
  {
   "property": "C151",
   "status": "proved",
   "theorems": [
    "C151_float_true_times",
    "C151_float_time_zones"
   ],
   "note": "numpy as in C150"
  },
  {
   "property": "C152",
   "status": "proved",
   "theorems": [
    "C152_float_sidereal_times"
   ],
   "note": "numpy as in C150; the documented formulas are those the code implements (see C53 for what they miss)"
  },
  {
   "property": "C153",
   "status": "proved",
   "theorems": [
    "C153_float_lvlh"
   ],
   "note": "for one time and one row of the arrays; numpy (einsum) is a parameter with stated error bounds"
  },
  {
   "property": "C154",
   "status": "proved",
   "theorems": [
    "C154_float_attitude"
   ],
   "note": "numpy (sin, cos, powers, einsum, linalg.inv, arcsin, arctan2) is a parameter with stated error bounds; the exact angles are those of C63"
  },
  {
   "property": "C155",
   "status": "proved",
   "theorems": [
    "C155_float_altitude",
    "C155_float_altitude_equator"
   ],
   "note": "numpy (sin, cos, arctan, mean) and the square of a Python float are parameters with stated error bounds; every point outside the ellipsoid has a foot (Geo_Foot.v)"
  },
  {
   "property": "C156",
   "status": "proved",
   "theorems": [
    "C156_float_altitude_rounding",
    "C156_float_altitude_stop"
   ],
   "note": "as C155; the exact rounds are those of the model in Geo_Model.v"
  },
  {
   "property": "C157",
   "status": "proved",
   "theorems": [
    "C157_float_wgs84_to_itrs"
   ],
   "note": "numpy (sin, cos) and the square of a Python float are parameters with stated error bounds"
  },
  {
   "property": "C158",
   "status": "proved",
   "theorems": [
    "C158_float_itrs_to_wgs84"
   ],
   "note": "as C157, with arctan, arctan2 and mean; the latitude computed is the geocentric one"
  },
  {
   "property": "C159",
   "status": "partial",
   "theorems": [
    "C159_float_round_trip_partial",
    "C159_float_round_trip_refuted"
   ],
   "note": "REFUTED: the latitude that comes back is the geocentric one, so between 40 and 50 degrees it is more than 0.003 radians too small. Proved instead: longitudes come back within 2e-11 radians, latitudes within 0.0035, and everything is finite."
  },
  {
   "property": "C160",
   "status": "proved",
   "theorems": [
    "C160_float_radius"
   ],
   "note": "Within 1e-10 km of the distance from the centre to the point of the ellipsoid below, plus the height."
  },
  {
   "property": "C161",
   "status": "proved",
   "theorems": [
    "C161_float_azimuth_rounding"
   ],
   "note": "For locations a degree away from the equator and the poles and satellites a kilometre away from the vertical. Allows NaN near bearings of 0, 180 and 360 degrees, where the quotient can exceed one, and a flip between the two sides of the meridian when the satellite is less than 4 m east or west of it."
  },
  {
   "property": "C162",
   "status": "partial",
   "theorems": [
    "C162_float_bearing_partial",
    "C162_float_bearing_refuted"
   ],
   "note": "REFUTED: south of the equator a satellite to the east gets an azimuth between 180 and 360 degrees or NaN. Proved instead: for locations at least a degree north of the equator, on or above the ellipsoid, and satellites near the horizon plane, the azimuth is within 1.001 degrees of the bearing."
  },
  {
   "property": "C163",
   "status": "partial",
   "theorems": [
    "C163_sexagesimal_partial",
    "C163_sexagesimal_refuted"
   ],
   "note": "REFUTED: 4.35 degrees (4 degrees 21 minutes) are printed as 4 degrees 21 minutes 60.00 seconds, a minute of arc too much, because 4.35*60 rounds up to 261 while 4.35*3600 stays below 15660. Proved instead: the string denotes the angle to 0.005 seconds, or a minute too much with 60.00 seconds and an angle within 1e-9 seconds below a whole minute; it never denotes too little."
  },
  {
   "property": "C164",
   "status": "partial",
   "theorems": [
    "C164_location_partial",
    "C164_location_refuted"
   ],
   "note": "REFUTED by the latitude 4.35 degrees. Proved instead: both angles read right to 0.005 seconds, or a minute of arc too far from zero if they are within 2e-9 seconds of a whole minute; letters and heights are right."
  },
  {
   "property": "C165",
   "status": "proved",
   "theorems": [
    "C165_mean_obliquity",
    "C165_apparent_obliquity"
   ],
   "note": "Exact for the polynomial and the sum."
  },
  {
   "property": "C166",
   "status": "proved",
   "theorems": [
    "C166_nutation"
   ],
   "note": "The specification is written from the book, with arguments in true radians and not reduced; the tolerance covers the digits of the longitude of the Sun, in which the code differs from the page cited."
  },
  {
   "property": "C167",
   "status": "proved",
   "theorems": [
    "C167_sun_right_ascension"
   ],
   "note": "The specification uses the mean longitude and anomaly of chapter 25; the code drops the quadratic term of the longitude and takes the anomaly of chapter 22."
  },
  {
   "property": "C168",
   "status": "proved",
   "theorems": [
    "C168_equation_of_time"
   ],
   "note": "As C167; the book takes the mean obliquity, the code the apparent one."
  },
  {
   "property": "C169",
   "status": "partial",
   "theorems": [
    "C169_equinoxes_partial",
    "C169_equinoxes_refuted"
   ],
   "note": "REFUTED: the number returned is the equation in seconds of time, labelled as arcseconds, so as an angle it is fifteen times too small, at J2000.0 by more than five arcseconds. Proved instead: fifteen times the number is the equation within 5e-6 arcseconds. Time.gast relies on the number."
  },
  {
   "property": "C170",
   "status": "partial",
   "theorems": [
    "C170_precession_partial",
    "C170_precession_refuted"
   ],
   "note": "REFUTED: the constant of zeta is mistyped (2.59796176 for 2.5976176), so zeta is 0.00034416 arcseconds too large at every time. Proved instead: theta and z are exact and zeta is off by exactly that constant."
  },
  {
   "property": "C171",
   "status": "proved",
   "theorems": [
    "C171_conversion",
    "C171_round_trip",
    "C171_mixed_dimensions",
    "C171_predefined"
   ],
   "note": "Any power function whose relative error is within the stated bound; the predefined units are well scaled."
  },
  {
   "property": "C172",
   "status": "proved",
   "theorems": [
    "C172_sum",
    "C172_comparison",
    "C172_numbers"
   ],
   "note": "As C171."
  },
  {
   "property": "C173",
   "status": "proved",
   "theorems": [
    "C173_product",
    "C173_numbers"
   ],
   "note": "One rounding for units of different dimensions, a conversion first for those of the same dimension; underflow and overflow are excluded by the bounds on the numbers."
  },
  {
   "property": "C174",
   "status": "partial",
   "theorems": [
    "C174_quotient_refuted",
    "C174_quotient_partial",
    "C174_by_zero",
    "C174_numbers_partial"
   ],
   "note": "REFUTED for units that share a base (as C10): 6 m/s divided by 2 m/s is 3 L2/T2, with a dimension, and not the number 3; 10 m divided by 2 m/s has dimension L2 T. Proved instead: right for a named unit over any unit of its dimension, for any unit over a named one of another dimension and for units that share no base; a zero divisor raises."
  },
  {
   "property": "C175",
   "status": "partial",
   "theorems": [
    "C175_order_refuted",
    "C175_window_order_partial",
    "C175_request_order_partial",
    "C175_mean_overlap_partial"
   ],
   "note": "REFUTED: a window that begins after another one it overlaps is charged the span of both, so windows 0-10 and 5-14 come out in the wrong order, also as booked windows of two requests. Proved instead: the exact measure whose mean is increasing (decreasing) in the result, and that it is the overlap for nested windows and for windows that neither begin nor end after the other."
  },
  {
   "property": "C176",
   "status": "proved",
   "theorems": [
    "C176_celestial_satellite"
   ],
   "note": "Errors are measured against the exact conversion of the position (C146). Close to the vertical the angles can be not-a-number (as C133, C134)."
  },
  {
   "property": "C177",
   "status": "proved",
   "theorems": [
    "C177_far_body"
   ],
   "note": "As C176; the positions of the Sun are given, since the file de421.bsp is not modelled."
  },
  {
   "property": "C178",
   "status": "proved",
   "theorems": [
    "C178_celestial_windows",
    "C178_refused"
   ],
   "note": "As C135, with the conversion from the celestial frame and the elevations of the Sun computed. A first sample that counts makes the window begin at the last one."
  },
  {
   "property": "C179",
   "status": "proved",
   "theorems": [
    "C179_place_measured"
   ],
   "note": "The angles can be not-a-number close to the vertical, as C133 and C134; azimuths are C161 and C162."
  },
  {
   "property": "C180",
   "status": "proved",
   "theorems": [
    "C180_float_published",
    "C180_float_true_solar_time"
   ],
   "note": "C150 and C151 together with C165 to C168."
  },
  {
   "property": "C181",
   "status": "partial",
   "theorems": [
    "C181_float_greenwich_partial",
    "C181_float_greenwich_refuted"
   ],
   "note": "REFUTED: the constant of the published formula is 280.46061837 degrees and that of the code 280.46, so the time is never within 41 millionths of an hour (0.147 s) of the published one. Proved: always within 42 millionths (0.152 s)."
  },
  {
   "property": "C182",
   "status": "proved",
   "theorems": [
    "C182_lvlh_lengths"
   ],
   "note": "A single velocity with no positions gives empty results."
  },
  {
   "property": "C183",
   "status": "partial",
   "theorems": [
    "C183_nutation_partial",
    "C183_nutation_refuted"
   ],
   "note": "REFUTED: the code adds the change of the mean obliquity since the epoch to an obliquity that already contains it, so it turns by another angle at every time but the epoch. Proved: it is three turns by the obliquity with the change counted twice and by the published nutation, the middle one about the second axis of the ecliptic instead of its pole (C84)."
  },
  {
   "property": "C184",
   "status": "proved",
   "theorems": [
    "C184_units_of_any_size"
   ],
   "note": "Exact rationals instead of floats. Units with the same text are C05."
  },
  {
   "property": "C185",
   "status": "proved",
   "theorems": [
    "C185_nearest_exists",
    "C185_altitude_distance",
    "C185_float_altitude_distance"
   ],
   "note": "not_below (Geo_Foot.v) says that the point is on or outside the ellipsoid; in floating point numpy is a parameter as in C155."
  },
  {
   "property": "C186",
   "status": "proved",
   "theorems": [
    "C186_celestial_altitude"
   ],
   "note": "numpy is a parameter as in C146 and C155; placed (Flz_Spec.v) is the exact conversion of Rot_Model.v."
  },
  {
   "property": "C187",
   "status": "proved",
   "theorems": [
    "C187_windows_with_attitudes",
    "C187_no_velocity"
   ],
   "note": "ITRS positions and velocities; the elevations of the Sun are given. Which samples make the windows is C135 (C135_windows_with_attitudes_partial puts both together)."
  },
  {
   "property": "C188",
   "status": "proved",
   "theorems": [
    "C188_celestial_track"
   ],
   "note": "numpy is a parameter as in C146 and C158. The latitude is the geocentric one: that it is the geodetic one is refuted by C159, and C189 bounds the difference."
  },
  {
   "property": "C189",
   "status": "proved",
   "theorems": [
    "C189_one_latitude",
    "C189_geodetic_latitude",
    "C189_celestial_latitude",
    "C189_latitudes_differ",
    "C189_exact_latitude",
    "C189_not_geodetic"
   ],
   "note": "C189_exact_latitude and C189_not_geodetic are about the code on exact numbers, the other two about floating point. That the latitude is exactly the geodetic one is false (C189_not_geodetic, C159)."
  },
  {
   "property": "C190",
   "status": "proved",
   "theorems": [
    "C190_exact_elevation",
    "C190_float_elevation",
    "C190_celestial_elevation"
   ],
   "note": "the floating-point theorems are about one position at a time, with numpy a parameter as in C133 and C176."
  },
  {
   "property": "C191",
   "status": "partial",
   "theorems": [
    "C191_windows_true_horizon_partial"
   ],
   "note": "proved for satellites that are not visible at the first sample; the window of a satellite that is visible there is REFUTED by C102_first_sample_refuted. Real numbers; velocities have the times of the positions."
  }
 ]
}