{"id": "C01", "title": "Unit conversion preserves the physical magnitude", "statement": "Converting a Quantity with to()/convert_to() to any unit of the same dimension yields a number whose product with the new unit's SI size equals the old number times the old unit's SI size, and the resulting Quantity carries the requested unit.", "quantifier": "every data value and every ordered pair of units of equal dimension (named units and products, quotients and powers of them)", "why_tests_cant": "A test fixes finitely many inputs; this must hold for every one of an unbounded set.", "anchors": ["celest/units/quantity.py:Quantity.convert_to", "celest/units/quantity.py:Quantity.to", "celest/units/unit_initialization.py"]}
{"id": "C02", "title": "Unit conversion round-trips and composes", "statement": "Converting to another unit and back returns the original number, and converting through an intermediate unit gives the same number as converting directly.", "quantifier": "every data value and every chain of units of equal dimension", "why_tests_cant": "A test fixes finitely many inputs; this must hold for every one of an unbounded set.", "anchors": ["celest/units/quantity.py:Quantity.convert_to", "celest/units/quantity.py:Quantity.to"]}
{"id": "C03", "title": "Mixing dimensions is always rejected", "statement": "to()/convert_to() raise ValueError, and +, -, ==, <, >, <=, >= between quantities raise ArithmeticError, exactly when the two dimension strings differ; no number is ever returned in that case.", "quantifier": "every pair of quantities whose units have a computable dimension string", "why_tests_cant": "A test fixes finitely many inputs; this must hold for every one of an unbounded set.", "anchors": ["celest/units/quantity.py:Quantity.convert_to", "celest/units/quantity.py:Quantity.__add__", "celest/units/quantity.py:Quantity.__eq__", "celest/units/quantity.py:Quantity.__lt__"]}
{"id": "C04", "title": "Unit algebra means what it says", "statement": "A unit built with *, / and ** from named units has, for every base unit, the exponent ordinary unit algebra gives it, hence the SI size ordinary algebra gives it.", "quantifier": "every unit expression of every depth built from named units with *, /, 1/x and integer **", "why_tests_cant": "The space of expressions is infinite and the failure needs a particular shape (dividing by a product that shares a base).", "anchors": ["celest/units/core.py:CompoundUnit._expand_and_collect", "celest/units/core.py:BaseUnit.__truediv__", "celest/units/core.py:BaseUnit.__mul__", "celest/units/core.py:BaseUnit.__pow__"]}
{"id": "C05", "title": "Numeric factors in front of a unit are honoured", "statement": "A Quantity in the unit k*u converts to u by multiplying by k, and k survives further multiplication and division of units.", "quantifier": "every factor and every unit", "why_tests_cant": "A test fixes finitely many inputs; this must hold for every one of an unbounded set.", "anchors": ["celest/units/core.py:CompoundUnit.__init__", "celest/units/quantity.py:Quantity.convert_to"]}
{"id": "C06", "title": "Every unit has a dimension and it only depends on the exponents", "statement": "The dimension of any unit built from the predefined units can be computed without an error, and two units with the same total exponent of length, time, date and angle have the same dimension.", "quantifier": "every unit expression over the predefined units", "why_tests_cant": "Fails only for particular combinations (same dimension cancelling, factors in another order).", "anchors": ["celest/units/display.py:get_dimensions_from_unit", "celest/units/display.py:get_dimension_string"]}
{"id": "C07", "title": "Addition and subtraction of quantities act on physical magnitudes", "statement": "q1+q2 and q1-q2 are expressed in q1's unit and their SI value is the sum/difference of the SI values; in SI terms addition is commutative and associative, and a plain number is added in the quantity's own unit on either side.", "quantifier": "every pair/triple of quantities with equal dimension and every scalar", "why_tests_cant": "A test fixes finitely many inputs; this must hold for every one of an unbounded set.", "anchors": ["celest/units/quantity.py:Quantity.__add__", "celest/units/quantity.py:Quantity.__sub__", "celest/units/quantity.py:Quantity.__rsub__", "celest/units/quantity.py:Quantity.__neg__"]}
{"id": "C08", "title": "Comparison of quantities is the order of physical magnitudes", "statement": "==, <, >, <=, >=, != between quantities of equal dimension agree with the comparison of their SI values; exactly one of <, ==, > holds.", "quantifier": "every pair of quantities of equal dimension", "why_tests_cant": "A test fixes finitely many inputs; this must hold for every one of an unbounded set.", "anchors": ["celest/units/quantity.py:Quantity.__eq__", "celest/units/quantity.py:Quantity.__lt__", "celest/units/quantity.py:Quantity.__gt__", "celest/units/quantity.py:Quantity.__le__", "celest/units/quantity.py:Quantity.__ge__"]}
{"id": "C09", "title": "!= is the negation of ==", "statement": "For any right-hand operand, exactly one of q == x and q != x is true.", "quantifier": "every quantity and every operand, quantity or not", "why_tests_cant": "A test fixes finitely many inputs; this must hold for every one of an unbounded set.", "anchors": ["celest/units/quantity.py:Quantity.__eq__", "celest/units/quantity.py:Quantity.__ne__"]}
{"id": "C10", "title": "Multiplication and division of quantities act on physical magnitudes", "statement": "The SI value of q1*q2 (q1/q2) is the product (quotient) of the SI values; the quotient of two quantities of equal dimension is dimensionless.", "quantifier": "every pair of quantities", "why_tests_cant": "A test fixes finitely many inputs; this must hold for every one of an unbounded set.", "anchors": ["celest/units/quantity.py:Quantity.__mul__", "celest/units/quantity.py:Quantity.__truediv__"]}
{"id": "C11", "title": "The unit table is self-consistent", "statement": "Predefined units of a family agree with each other and with their definitions: 60 s = 1 min, 60 min = 1 hr, 24 hr = 1 dy, 3600 arcsec = 60 arcmin = 1 deg, 15 deg = 1 hourangle, 1000 mm = 100 cm = 1 m, 1000 m = 1 km, 36 inch = 3 ft = 1 yd, 1760 yd = 1 mi.", "quantifier": "every data value in each unit of the table", "why_tests_cant": "A test fixes finitely many inputs; this must hold for every one of an unbounded set.", "anchors": ["celest/units/unit_initialization.py"]}
{"id": "C12", "title": "Registering units never rebinds a name", "statement": "After any sequence of unit creations in a namespace, each short name is bound to the first unit registered under it, and names never registered are unbound.", "quantifier": "every sequence of registrations and every initial namespace", "why_tests_cant": "A test fixes finitely many inputs; this must hold for every one of an unbounded set.", "anchors": ["celest/units/core.py:NamedUnit._insert_into_namespace"]}
{"id": "C13", "title": "The scheduled-request counter is exact", "statement": "After any sequence of adding requests, sorting, removal operators and insertion operators, number_of_scheduled_requests equals the number of requests flagged scheduled and len() equals the number of requests.", "quantifier": "every reachable request handler, every operator sequence and every random choice", "why_tests_cant": "Quantifies over all operation histories.", "anchors": ["celest/schedule/request_handler.py:RequestHandler", "celest/schedule/removal_operators.py", "celest/schedule/insertion_operators.py"]}
{"id": "C14", "title": "Removal operators remove exactly the requested number", "statement": "random, priority and opportunity removal of n requests unschedule exactly min(n, scheduled) requests, never fail, never run past the request list, and terminate.", "quantifier": "every handler state, every n and every sequence of random choices", "why_tests_cant": "Quantifies over all random choice sequences and states.", "anchors": ["celest/schedule/removal_operators.py:random_removal", "celest/schedule/removal_operators.py:_remove_first_n_scheduled_requests"]}
{"id": "C15", "title": "Removal picks the documented victims", "statement": "priority removal unschedules the scheduled requests of highest priority and opportunity removal those with most opportunities: no request left scheduled ranks above a request removed.", "quantifier": "every handler state and every n", "why_tests_cant": "A test fixes finitely many inputs; this must hold for every one of an unbounded set.", "anchors": ["celest/schedule/removal_operators.py:priority_removal", "celest/schedule/removal_operators.py:opportunity_removal"]}
{"id": "C16", "title": "Operators never lose, duplicate or alter a request", "statement": "Destroy and repair operators only reorder requests (and a request's windows) and change scheduling fields: location, deadline, duration, priority, quality, look angle and the set of windows of every request are preserved.", "quantifier": "every handler state, operator and random choice", "why_tests_cant": "A test fixes finitely many inputs; this must hold for every one of an unbounded set.", "anchors": ["celest/schedule/removal_operators.py", "celest/schedule/insertion_operators.py", "celest/schedule/request_handler.py"]}
{"id": "C17", "title": "Every newly scheduled request satisfies its constraints", "statement": "A request scheduled by an insertion operator uses one of its own visible windows, starts after the window's rise time, ends before its set time and before the request's deadline, has the requested duration, and its image quality at the start time is at least the requested one.", "quantifier": "every handler state, every n, every request and window list", "why_tests_cant": "A test fixes finitely many inputs; this must hold for every one of an unbounded set.", "anchors": ["celest/schedule/insertion_operators.py:insert_first_n_requests"]}
{"id": "C18", "title": "Insertion never disturbs existing bookings and respects the limit", "statement": "An insertion operator leaves every already scheduled request booked at the same start and duration and schedules at most n further requests.", "quantifier": "every handler state and every n >= 0", "why_tests_cant": "A test fixes finitely many inputs; this must hold for every one of an unbounded set.", "anchors": ["celest/schedule/insertion_operators.py:insert_first_n_requests"]}
{"id": "C19", "title": "Insertion is maximal", "statement": "After inserting with a limit of at least the number of requests, every request still unscheduled has no window that passes the feasibility checks against the final schedule (the greedy pass leaves no insertable request behind).", "quantifier": "every handler state", "why_tests_cant": "A test fixes finitely many inputs; this must hold for every one of an unbounded set.", "anchors": ["celest/schedule/insertion_operators.py:insert_first_n_requests"]}
{"id": "C20", "title": "The conflict test is exact", "statement": "For positive durations the conflict test reports a conflict for a candidate observation exactly when it overlaps in time with the booking of one of the scheduled requests.", "quantifier": "every schedule and every candidate interval", "why_tests_cant": "A test fixes finitely many inputs; this must hold for every one of an unbounded set.", "anchors": ["celest/schedule/insertion_operators.py:does_conflict_exist"]}
{"id": "C21", "title": "No two bookings of a schedule overlap", "statement": "In every schedule reachable by the scheduler's operators the bookings of two different requests never overlap in time.", "quantifier": "every reachable schedule, operator sequence and random choice", "why_tests_cant": "Needs a particular history of operators to fail; tests check single operators.", "anchors": ["celest/schedule/insertion_operators.py:does_conflict_exist", "celest/schedule/request_handler.py:RequestHandler.__next__"]}
{"id": "C22", "title": "Image quality is a score from 1 to 10", "statement": "For a start time strictly inside a window the quality heuristic never fails and returns an integer between 1 and 10, 10 only at the middle of the window, and it never increases when moving away from the middle.", "quantifier": "every window with rise < set and every start time inside", "why_tests_cant": "A test fixes finitely many inputs; this must hold for every one of an unbounded set.", "anchors": ["celest/schedule/insertion_operators.py:image_quality"]}
{"id": "C23", "title": "Look-angle search finds a bracketed crossing", "statement": "The look-angle search terminates; it returns nothing exactly when the angle offsets at rise and set have the same strict sign, and otherwise returns a sample time in [rise, set) such that the offset changes sign (or vanishes) between this sample and the next.", "quantifier": "every sampled look-angle series and every rise/set sample", "why_tests_cant": "A test fixes finitely many inputs; this must hold for every one of an unbounded set.", "anchors": ["celest/schedule/insertion_operators.py:_look_angle_time"]}
{"id": "C24", "title": "Handler sorts are stable sorts", "statement": "Sorting requests by priority or opportunity and windows by rise time yields an ordered permutation that keeps the relative order of ties.", "quantifier": "every handler state", "why_tests_cant": "A test fixes finitely many inputs; this must hold for every one of an unbounded set.", "anchors": ["celest/schedule/request_handler.py:RequestHandler.sort_by_decreasing_priority", "celest/schedule/request_handler.py:RequestHandler.sort_vtws_by_increasing_rise_time"]}
{"id": "C25", "title": "A booking keeps pointing at the window it was made in", "statement": "Throughout scheduling, a scheduled request's window index designates a window that contains the booking.", "quantifier": "every reachable schedule and operator sequence", "why_tests_cant": "Needs an operator sequence in which windows are reordered after booking.", "anchors": ["celest/schedule/request_handler.py:RequestHandler.sort_vtws_by_increasing_conflict_degree", "celest/schedule/insertion_operators.py:minimum_conflict_insertion"]}
{"id": "C26", "title": "Window overlap test and overlap duration are correct", "statement": "Two windows are reported overlapping exactly when their closed time intervals intersect (symmetrically), and the overlap duration equals the length of the intersection.", "quantifier": "every pair of windows with rise <= set", "why_tests_cant": "A test fixes finitely many inputs; this must hold for every one of an unbounded set.", "anchors": ["celest/schedule/request_handler.py:RequestHandler._are_vtws_overlaping", "celest/schedule/request_handler.py:RequestHandler._julian_day_overlap_between_vtws"]}
{"id": "C27", "title": "Conflict-degree sorting and removal never fail", "statement": "Ranking requests or windows by conflict degree succeeds on every handler.", "quantifier": "every handler state", "why_tests_cant": "A test fixes finitely many inputs; this must hold for every one of an unbounded set.", "anchors": ["celest/schedule/request_handler.py:RequestHandler.sort_by_decreasing_conflict_degree", "celest/schedule/removal_operators.py:conflict_removal", "celest/schedule/insertion_operators.py:minimum_conflict_insertion"]}
{"id": "C28", "title": "Iterating a request handler visits every request once in order", "statement": "`for request in handler` yields all requests in order.", "quantifier": "every handler", "why_tests_cant": "A test fixes finitely many inputs; this must hold for every one of an unbounded set.", "anchors": ["celest/schedule/request_handler.py:RequestHandler.__iter__", "celest/schedule/request_handler.py:RequestHandler.__next__"]}
{"id": "C29", "title": "Completeness means all requests are scheduled", "statement": "is_complete returns True exactly when every request is scheduled.", "quantifier": "every handler", "why_tests_cant": "A test fixes finitely many inputs; this must hold for every one of an unbounded set.", "anchors": ["celest/schedule/scheduling_utils.py:is_complete"]}
{"id": "C30", "title": "Cost is minus the total scheduled priority", "statement": "cost returns minus the sum of the priorities of the scheduled requests and does not depend on the order of requests.", "quantifier": "every handler", "why_tests_cant": "A test fixes finitely many inputs; this must hold for every one of an unbounded set.", "anchors": ["celest/schedule/scheduling_utils.py:cost"]}
{"id": "C31", "title": "The search never returns something worse than it saw", "statement": "If the adaptive search returns a solution, its cost is the minimum of the cost of the initial solution and of every candidate generated up to its return; in particular it is never above the initial cost.", "quantifier": "every cost function, operator set, parameter choice, number of iterations and random stream", "why_tests_cant": "Quantifies over all random streams and operator behaviours.", "anchors": ["celest/schedule/alns.py:ALNS.solve"]}
{"id": "C32", "title": "The search only returns solutions its operators can build", "statement": "Any property of solutions that holds of the initial solution and is preserved by every destroy and repair operator holds of the returned solution, and of every candidate the cost function is asked about.", "quantifier": "every invariant, operator set and random stream", "why_tests_cant": "Quantifies over all invariants and random streams.", "anchors": ["celest/schedule/alns.py:ALNS.solve"]}
{"id": "C33", "title": "The search stops on completeness and within the iteration budget", "statement": "If the initial solution is complete it is returned untouched with no operator applied; otherwise at most max_iter destroy/repair rounds are run, and it stops right after the first round whose best solution is complete.", "quantifier": "every operator set, parameters and random stream", "why_tests_cant": "Quantifies over all executions.", "anchors": ["celest/schedule/alns.py:ALNS.solve"]}
{"id": "C34", "title": "Operator selection is a proper weighted draw", "statement": "With react factor in [0,1) all operator weights stay positive, the selection probabilities are non-negative and sum to one, the draw never fails and always selects an existing operator; for react factor 1 the draw can fail.", "quantifier": "every iteration of every run, every score history and random number in [0,1)", "why_tests_cant": "Quantifies over all score histories.", "anchors": ["celest/schedule/alns.py:ALNS._get_probabilities", "celest/schedule/alns.py:ALNS._update_destroy_weights", "celest/schedule/alns.py:ALNS._get_destroy_index"]}
{"id": "C35", "title": "Acceptance rule", "statement": "A strictly cheaper candidate is always accepted; with negative current cost and positive temperature, a candidate that is not cheaper is accepted exactly when the random draw does not exceed a probability in (0,1] that decreases with its excess cost, and equal cost is always accepted.", "quantifier": "all costs, temperatures and random draws", "why_tests_cant": "A test fixes finitely many inputs; this must hold for every one of an unbounded set.", "anchors": ["celest/schedule/alns.py:ALNS._accept"]}
{"id": "C36", "title": "The search never fails on well-formed input", "statement": "With a decay parameter and annealing coefficient in (0,1) and operators that never fail, solve returns a solution.", "quantifier": "all cost functions with non-positive cost, operators, random streams", "why_tests_cant": "Fails only when a cost of zero is met.", "anchors": ["celest/schedule/alns.py:ALNS.solve", "celest/schedule/alns.py:ALNS._accept"]}
{"id": "C37", "title": "Every emitted observation window honours its request", "statement": "Each observation window returned by the scheduler belongs to a distinct request and has that request's location and duration, lies strictly inside one of that request's visible windows, ends before the deadline and meets the requested quality.", "quantifier": "every set of requests, iteration budget, parameters and random stream", "why_tests_cant": "Quantifies over all executions of a randomized search.", "anchors": ["celest/schedule/scheduler.py:Scheduler.generate", "celest/schedule/scheduler.py:Scheduler._generate_window_handler_from_request_list"]}
{"id": "C38", "title": "Every scheduled request is emitted", "statement": "The returned collection contains a window for every request scheduled in the best solution; in particular a single feasible request is scheduled and returned.", "quantifier": "every request set and run", "why_tests_cant": "A test fixes finitely many inputs; this must hold for every one of an unbounded set.", "anchors": ["celest/schedule/scheduler.py:Scheduler._generate_window_handler_from_request_list"]}
{"id": "C39", "title": "Emitted windows carry the attitude at their start time", "statement": "Each emitted observation window carries the satellite attitude sample at its start time.", "quantifier": "every request set and run", "why_tests_cant": "A test fixes finitely many inputs; this must hold for every one of an unbounded set.", "anchors": ["celest/schedule/scheduler.py:Scheduler._generate_window_handler_from_request_list"]}
{"id": "C40", "title": "Look-angle requests can be scheduled", "statement": "A request added with a float look angle, as documented, can be scheduled without an error.", "quantifier": "every request with a look angle and at least one window", "why_tests_cant": "A test fixes finitely many inputs; this must hold for every one of an unbounded set.", "anchors": ["celest/schedule/scheduler.py:Scheduler.add_request", "celest/schedule/insertion_operators.py:_look_angle_time"]}
{"id": "C41", "title": "Observations without a look angle are centred in their window", "statement": "When no look angle is requested the observation is placed so that it is centred on the middle of the visible window, and any duration shorter than the window fits.", "quantifier": "every window and duration", "why_tests_cant": "A test fixes finitely many inputs; this must hold for every one of an unbounded set.", "anchors": ["celest/schedule/insertion_operators.py:insert_first_n_requests"]}
{"id": "C42", "title": "The returned schedule is at least as valuable as the greedy one", "statement": "The total priority of the requests scheduled in the result of generate is at least that of the initial greedy schedule.", "quantifier": "every request set and random stream", "why_tests_cant": "Quantifies over random streams.", "anchors": ["celest/schedule/scheduler.py:Scheduler.generate", "celest/schedule/scheduling_utils.py:cost"]}
{"id": "C43", "title": "Visible windows are exactly the maximal runs of qualifying samples", "statement": "The windows returned are, in order, one per maximal run of consecutive samples whose elevation exceeds the threshold and that meet the lighting condition; each ends at the last sample of its run and starts at the sample before the run.", "quantifier": "every sampled elevation series, sun elevation series, threshold in [0,90] and lighting", "why_tests_cant": "A test fixes finitely many inputs; this must hold for every one of an unbounded set.", "anchors": ["celest/encounter/window_generator.py:generate_vtws"]}
{"id": "C44", "title": "Visible windows are ordered, disjoint and complete", "statement": "For strictly increasing times every window has rise < set, each window sets before the next rises, and a sample time lies in some (rise, set] exactly when the sample qualifies.", "quantifier": "every sampled series", "why_tests_cant": "A test fixes finitely many inputs; this must hold for every one of an unbounded set.", "anchors": ["celest/encounter/window_generator.py:generate_vtws"]}
{"id": "C45", "title": "Never visible means no windows", "statement": "If no sample qualifies, an empty collection is returned.", "quantifier": "every series without qualifying sample", "why_tests_cant": "A test fixes finitely many inputs; this must hold for every one of an unbounded set.", "anchors": ["celest/encounter/window_generator.py:generate_vtws"]}
{"id": "C46", "title": "Window generation validates its input", "statement": "It raises Warning without velocity data, ValueError for thresholds outside [0,90] or an unknown lighting condition.", "quantifier": "all thresholds, satellites and lighting values", "why_tests_cant": "A test fixes finitely many inputs; this must hold for every one of an unbounded set.", "anchors": ["celest/encounter/window_generator.py:generate_vtws", "celest/encounter/window_generator.py:_lighting_constraint_indices"]}
{"id": "C47", "title": "A window collection is homogeneous and append-only", "statement": "After any sequence of add_window calls the collection holds exactly the accepted windows in order, all of one kind; a rejected call raises TypeError and changes nothing.", "quantifier": "every sequence of calls", "why_tests_cant": "A test fixes finitely many inputs; this must hold for every one of an unbounded set.", "anchors": ["celest/encounter/window_handling.py:WindowCollection.add_window"]}
{"id": "C48", "title": "Iterating a window collection visits every window", "statement": "Every for-loop over a collection visits all windows from the first.", "quantifier": "every history of complete and abandoned iterations and additions", "why_tests_cant": "Quantifies over iteration histories.", "anchors": ["celest/encounter/window_handling.py:WindowCollection.__iter__", "celest/encounter/window_handling.py:WindowCollection.__next__"]}
{"id": "C49", "title": "Julian date to calendar date is correct", "statement": "from_julian returns the valid calendar date (and day fraction) that has the given Julian date.", "quantifier": "every Julian date from the Gregorian reform on", "why_tests_cant": "The error is confined to a few days per century.", "anchors": ["celest/coordinates/astronomical_quantities.py:from_julian"]}
{"id": "C50", "title": "Calendar conversion is elementwise", "statement": "from_julian on an array equals from_julian applied to each element and never fails.", "quantifier": "every array of Julian dates", "why_tests_cant": "A test fixes finitely many inputs; this must hold for every one of an unbounded set.", "anchors": ["celest/coordinates/astronomical_quantities.py:from_julian"]}
{"id": "C51", "title": "Day of year is correct", "statement": "day_of_year returns 1 for January 1st up to 365/366 for December 31st.", "quantifier": "every calendar date", "why_tests_cant": "Fails only in century years.", "anchors": ["celest/coordinates/astronomical_quantities.py:day_of_year"]}
{"id": "C52", "title": "Solar times and hour angles are normalised and correct modulo a day", "statement": "mean/true solar time, mean/true hour angle and ut1 lie in [0,24) and are congruent modulo 24 h to the defining expression of Julian date, longitude and equation of time; 15 degrees of longitude shift them by one hour; hour angle and solar time differ by 12 h.", "quantifier": "every Julian date and longitude", "why_tests_cant": "A test fixes finitely many inputs; this must hold for every one of an unbounded set.", "anchors": ["celest/time.py:Time.mean_solar_time", "celest/time.py:Time.true_solar_time", "celest/time.py:Time.mean_hour_angle", "celest/time.py:Time.true_hour_angle", "celest/time.py:Time.ut1"]}
{"id": "C53", "title": "Sidereal times are normalised", "statement": "gmst, lmst, gast and last lie in [0,24) hours.", "quantifier": "every Julian date and longitude", "why_tests_cant": "A test fixes finitely many inputs; this must hold for every one of an unbounded set.", "anchors": ["celest/time.py:Time.gmst", "celest/time.py:Time.lmst", "celest/time.py:Time.gast", "celest/time.py:Time.last"]}
{"id": "C54", "title": "Astronomical angles are in range", "statement": "Earth rotation angle and the nutation argument angles lie in [0,360) degrees, the Sun's right ascension in [0, 2 pi), and nutation in longitude/obliquity are bounded by the sum of the series amplitudes.", "quantifier": "every Julian date", "why_tests_cant": "A test fixes finitely many inputs; this must hold for every one of an unbounded set.", "anchors": ["celest/coordinates/astronomical_quantities.py"]}
{"id": "C55", "title": "Time object shape", "statement": "Time accepts scalars and 1-D arrays, keeps their length and adds the offset to each element, and rejects arrays of other rank.", "quantifier": "every input array and offset", "why_tests_cant": "A test fixes finitely many inputs; this must hold for every one of an unbounded set.", "anchors": ["celest/time.py:Time.__init__"]}
{"id": "C56", "title": "GCRS and ITRS conversions are mutually inverse", "statement": "Converting GCRS to ITRS and back (or the other way round) returns the same coordinates at every time, keeping time and unit.", "quantifier": "every time and coordinate vector", "why_tests_cant": "A test fixes finitely many inputs; this must hold for every one of an unbounded set.", "anchors": ["celest/coordinates/transforms.py: _gcrs_to_itrs", "celest/coordinates/transforms.py: _itrs_to_gcrs"]}
{"id": "C57", "title": "GCRS/ITRS conversions are rigid rotations", "statement": "They preserve distances, dot products and orientation (determinant +1 of every factor).", "quantifier": "every time and pair of vectors", "why_tests_cant": "A test fixes finitely many inputs; this must hold for every one of an unbounded set.", "anchors": ["celest/coordinates/nutation_precession_matrices.py", "celest/coordinates/transforms.py: _rotate_by_earth_rotation_angle"]}
{"id": "C58", "title": "WGS84 to ITRS to WGS84 round trip", "statement": "Converting latitude/longitude/height to ITRS and back returns the same latitude, longitude and height.", "quantifier": "every latitude in (-90,90), longitude in (-180,180] and height", "why_tests_cant": "A test fixes finitely many inputs; this must hold for every one of an unbounded set.", "anchors": ["celest/coordinates/transforms.py: _itrs_to_wgs84", "celest/coordinates/transforms.py: _wgs84_to_itrs"]}
{"id": "C59", "title": "Altitude is the height above the WGS84 ellipsoid", "statement": "The altitude of a point is its height above the ellipsoid.", "quantifier": "every point outside the Earth's axis", "why_tests_cant": "A test fixes finitely many inputs; this must hold for every one of an unbounded set.", "anchors": ["celest/coordinates/transforms.py: _altitude", "celest/satellite.py:Satellite.altitude"]}
{"id": "C60", "title": "Azimuth and elevation are in range", "statement": "Elevation lies in [-90,90], azimuth in [0,360), and elevation is 90 exactly when the satellite is on the ray from the centre of the Earth through the location, beyond the location.", "quantifier": "every satellite position away from the location, for the azimuth not on that line, and every ground location not deeper than 6000 km, for the azimuth off the equator and the poles", "why_tests_cant": "A test fixes finitely many inputs; this must hold for every one of an unbounded set.", "anchors": ["celest/coordinates/transforms.py: _azimuth", "celest/coordinates/transforms.py: _elevation", "celest/coordinates/transforms.py: _get_ang"]}
{"id": "C61", "title": "Azimuth is measured from north", "statement": "Azimuth is the clockwise angle from north for every ground location.", "quantifier": "every ground location and satellite", "why_tests_cant": "Fails only for southern/equatorial locations.", "anchors": ["celest/coordinates/transforms.py: _azimuth"]}
{"id": "C62", "title": "LVLH frame is a right-handed orthonormal frame", "statement": "For non-collinear position and velocity the transform is a rotation, maps the position to (0,0,-|r|), gives the velocity no cross-track component and a positive along-track component.", "quantifier": "every position and velocity that are not parallel", "why_tests_cant": "A test fixes finitely many inputs; this must hold for every one of an unbounded set.", "anchors": ["celest/coordinates/transforms.py: _gcrs_to_lvlh_matrix", "celest/coordinates/transforms.py: _gcrs_to_lvlh"]}
{"id": "C63", "title": "Attitude points the camera at the target", "statement": "The rotation encoded by roll, pitch and yaw is a proper rotation taking the nadir direction to the target direction, and the arcsine argument is always in [-1,1].", "quantifier": "every satellite and target not in exactly opposite directions", "why_tests_cant": "A test fixes finitely many inputs; this must hold for every one of an unbounded set.", "anchors": ["celest/satellite.py:Satellite.attitude"]}
{"id": "C64", "title": "Distance and look angle are geometric", "statement": "Distance is a Euclidean metric (non-negative, zero only at the location, invariant under the choice of unit); look angle lies in [0,180] and is 0 when the satellite is directly above the location.", "quantifier": "every satellite position and location", "why_tests_cant": "A test fixes finitely many inputs; this must hold for every one of an unbounded set.", "anchors": ["celest/satellite.py:Satellite.distance", "celest/satellite.py:Satellite.look_angle"]}
{"id": "C65", "title": "Position containers reject arrays of different length", "statement": "Building a position from arrays of different lengths raises ValueError, and from 1-D arrays of equal length succeeds.", "quantifier": "all array lengths and ranks", "why_tests_cant": "Fails only for particular length patterns.", "anchors": ["celest/coordinates/frames/base_positions.py:Position2d", "celest/coordinates/frames/base_positions.py:Position3d"]}
{"id": "C66", "title": "Ground locations are validated in their own unit", "statement": "A GroundLocation is accepted exactly when its latitude is within [-90,90] degrees and its longitude within [-180,180] degrees.", "quantifier": "every latitude/longitude and angular unit", "why_tests_cant": "A test fixes finitely many inputs; this must hold for every one of an unbounded set.", "anchors": ["celest/coordinates/ground_location.py:GroundLocation.__init__"]}
{"id": "C67", "title": "Ground location radius and ITRS coordinates lie on the ellipsoid", "statement": "The radius minus height is between the WGS84 minor and major axis, and at height 0 the ITRS coordinates satisfy the ellipsoid equation with the stated eccentricity.", "quantifier": "every latitude and longitude", "why_tests_cant": "A test fixes finitely many inputs; this must hold for every one of an unbounded set.", "anchors": ["celest/coordinates/ground_location.py: GroundLocation.radius", "celest/coordinates/ground_location.py:GroundLocation.itrs_x"]}
{"id": "C68", "title": "Frame conversion dispatch is consistent", "statement": "convert_to returns the requested frame kind, is the identity for the current frame, agrees with going through ITRS explicitly, and raises ValueError exactly when converting to AzEl without a location.", "quantifier": "every source frame, target frame and location argument", "why_tests_cant": "A test fixes finitely many inputs; this must hold for every one of an unbounded set.", "anchors": ["celest/coordinates/coordinate.py:Coordinate.convert_to"]}
{"id": "C69", "title": "Saved file names end in .txt", "statement": "The file written has the given name with .txt appended only if missing; normalising twice changes nothing.", "quantifier": "every file name", "why_tests_cant": "A test fixes finitely many inputs; this must hold for every one of an unbounded set.", "anchors": ["celest/file_save.py:_process_file_name"]}
{"id": "C70", "title": "Saved text layout", "statement": "A saved file is the header, its underline of equal length, then the layers separated by blank lines, each layer being subheading, parameters and data table separated by blank lines, with one line per row.", "quantifier": "every header and every list of layers", "why_tests_cant": "A test fixes finitely many inputs; this must hold for every one of an unbounded set.", "anchors": ["celest/file_save.py:TextFileWriter.save", "celest/file_save.py:_write_layer_to_file"]}
{"id": "C71", "title": "Saved tables are aligned", "statement": "In every saved table all entries of a column have the width of its underline.", "quantifier": "every table", "why_tests_cant": "Fails only for particular values (negative numbers).", "anchors": ["celest/file_save.py:_get_maximum_value_width", "celest/file_save.py:_get_data_entry_string"]}
{"id": "C72", "title": "A failing save leaves no damaged file", "statement": "If saving fails or the process dies while saving, the previously saved file is still intact.", "quantifier": "every crash point and every layer list", "why_tests_cant": "Quantifies over all crash points.", "anchors": ["celest/file_save.py:TextFileWriter.save"]}
{"id": "C73", "title": "Sexagesimal strings denote the angle", "statement": "The printed degrees, minutes and seconds denote the given angle to within half a hundredth of an arcsecond with minutes and seconds below 60.", "quantifier": "every non-negative angle below 1000 degrees", "why_tests_cant": "Fails only near whole minutes.", "anchors": ["celest/angle_strings.py:_get_sexagesimal_string"]}
{"id": "C74", "title": "Insertion never fails", "statement": "Greedy insertion, minimum-opportunity insertion and the initial solution never raise when every window has positive length and, for requests with a look angle, the look angle is a quantity and the window's attitude is sampled at its rise and set times.", "quantifier": "every reachable handler with such requests and every limit", "why_tests_cant": "Quantifies over all handler states.", "anchors": ["celest/schedule/insertion_operators.py:insert_first_n_requests", "celest/schedule/scheduling_utils.py:initialize_solution"]}
{"id": "C75", "title": "Search trajectory and scoring", "statement": "Every round destroys and repairs the last accepted solution, with operators drawn by the current weights; the temperature falls by the annealing factor each round; the weights of the two operators used move towards the score of the round, 3 for a new best solution, 1 for an accepted one and 0 for a rejected one, and the other weights stay.", "quantifier": "every problem, weights, random draws and number of rounds", "why_tests_cant": "A test fixes finitely many inputs; this must hold for every one of an unbounded set.", "anchors": ["celest/schedule/alns.py:ALNS.solve"]}
{"id": "C76", "title": "Generated schedules can be saved", "statement": "Saving a non-empty generated schedule succeeds.", "quantifier": "every scheduler history, search parameters and random draws", "why_tests_cant": "Quantifies over all generated schedules.", "anchors": ["celest/schedule/scheduler.py:Scheduler.generate", "celest/encounter/window_handling.py:WindowCollection.save_text_file"]}
{"id": "C77", "title": "Unscheduled requests carry no booking", "statement": "After any history of handler operations a request that is not scheduled has no scheduled start time, no scheduled duration and no selected window.", "quantifier": "every history of handler operations and every request", "why_tests_cant": "Quantifies over all operation histories.", "anchors": ["celest/schedule/request_handler.py:RequestHandler.unschedule_request", "celest/schedule/removal_operators.py"]}
{"id": "C78", "title": "Rounds remove a quarter and repair fully", "statement": "In every round of a schedule search the current solution loses a quarter (rounded up) of the number of requests, or all its bookings if it has fewer, and the repair step then leaves no request that could still be booked at a proposed start of one of its windows.", "quantifier": "every scheduler history, search parameters, random draws and rounds", "why_tests_cant": "Quantifies over all rounds of all searches.", "anchors": ["celest/schedule/scheduler.py:Scheduler.generate", "celest/schedule/removal_operators.py", "celest/schedule/insertion_operators.py"]}
{"id": "C79", "title": "Dates before the reform are in the Julian calendar", "statement": "For Julian dates before the Gregorian reform from_julian and day_of_year return the date and day number in the Julian calendar.", "quantifier": "every Julian date from 0 to 15 October 1582", "why_tests_cant": "Fails only in a range of 8000 days.", "anchors": ["celest/coordinates/astronomical_quantities.py:from_julian", "celest/coordinates/astronomical_quantities.py:day_of_year"]}
{"id": "C80", "title": "Time.datetime denotes the same instants", "statement": "Time.datetime returns, for each of its Julian dates, the datetime with that Gregorian date and time of day.", "quantifier": "every list of Julian dates from 1582 to the year 9999", "why_tests_cant": "Fails only on one day per century.", "anchors": ["celest/time.py:Time.datetime"]}
{"id": "C81", "title": "The equation of time stays small", "statement": "For every Julian date within a century of 1 January 2000 the equation of time is below 20 minutes in absolute value.", "quantifier": "every Julian date of the two centuries", "why_tests_cant": "a continuum of dates; a test evaluates a few", "anchors": ["celest/coordinates/astronomical_quantities.py: equation_of_time"]}
{"id": "C82", "title": "Local sidereal time is Greenwich sidereal time plus the longitude", "statement": "lmst(longitude) equals gmst plus longitude/15 modulo 24 h (in particular they agree at Greenwich), and moving east by some degrees adds exactly that angle to both local sidereal times.", "quantifier": "every Julian date array and every longitude array that broadcast", "why_tests_cant": "the two quantities come from different formulas, and agreement must hold at every instant", "anchors": ["celest/time.py: Time.lmst, Time.gmst, Time.last"]}
{"id": "C83", "title": "No precession at the epoch", "statement": "At the epoch J2000.0 the precession matrix is the identity.", "quantifier": "every vector", "why_tests_cant": "an identity for all vectors; the effect is a few arcseconds and unit tests compare with a loose tolerance", "anchors": ["celest/coordinates/nutation_precession_matrices.py: precession_matrix", "celest/coordinates/astronomical_quantities.py: conventional_precession_angles"]}
{"id": "C84", "title": "Nutation in longitude turns about the pole of the ecliptic", "statement": "The nutation matrix maps the pole of the mean ecliptic to the same pole seen with the true obliquity, and moves the equinox by the nutation in longitude.", "quantifier": "every Julian date", "why_tests_cant": "A test fixes finitely many inputs; this must hold for every one of an unbounded set.", "anchors": ["celest/coordinates/nutation_precession_matrices.py: nutation_matrix"]}
{"id": "C85", "title": "Converted velocities are the rates of the converted positions", "statement": "When the velocity given in GCRS is the rate of change of the GCRS position, the ITRS velocity of the satellite is the rate of change of its ITRS position.", "quantifier": "every trajectory and time", "why_tests_cant": "A test fixes finitely many inputs; this must hold for every one of an unbounded set.", "anchors": ["celest/satellite.py: Satellite.__init__", "celest/coordinates/transforms.py: _gcrs_to_itrs"]}
{"id": "C86", "title": "The altitude of a point does not depend on the other points", "statement": "Satellite.altitude gives a position the same altitude whatever other positions are in the same array.", "quantifier": "every pair of arrays that share a point", "why_tests_cant": "the number of refinement steps is decided by a mean over the array, so the effect appears only for particular mixtures of points", "anchors": ["celest/satellite.py: Satellite.altitude", "celest/coordinates/transforms.py: _altitude"]}
{"id": "C87", "title": "The altitude depends neither on the longitude nor on the hemisphere", "statement": "Rotating positions about the axis of the Earth, or mirroring them in the plane of the equator, does not change their altitude.", "quantifier": "every array of positions and every rotation and mirroring", "why_tests_cant": "a symmetry over all inputs; tests compare with tabulated altitudes of one track", "anchors": ["celest/satellite.py: Satellite.altitude", "celest/coordinates/transforms.py: _altitude"]}
{"id": "C88", "title": "The altitude computation ends", "statement": "For every array of positions off the axis and not inside the Earth the iteration of Satellite.altitude ends, and gives one finite number for each position.", "quantifier": "every array of positions, of any length", "why_tests_cant": "termination of an unbounded loop for every input", "anchors": ["celest/satellite.py: Satellite.altitude", "celest/coordinates/transforms.py: _altitude"]}
{"id": "C89", "title": "Azimuth is defined at every ground location", "statement": "For every ground location and every satellite that is not straight above or below it the azimuth is a number.", "quantifier": "every ground location and satellite", "why_tests_cant": "only a measure-zero set of locations is affected (the equator), which tests rarely choose", "anchors": ["celest/coordinates/transforms.py: _azimuth", "celest/coordinates/frames/azel.py: AzEl"]}
{"id": "C90", "title": "A satellite on the local vertical is at elevation 90 degrees", "statement": "A satellite on the normal of the ellipsoid through the ground location has elevation 90 degrees.", "quantifier": "every ground location and every distance", "why_tests_cant": "the error is below 0.2 degrees, within the tolerance of comparisons with tabulated data", "anchors": ["celest/coordinates/transforms.py: _elevation"]}
{"id": "C91", "title": "Roll, pitch and yaw follow the right-hand rule", "statement": "Turning a satellite about its pitch, roll and yaw axes by the returned angles, by the right-hand rule, points its nadir axis at the target.", "quantifier": "every satellite and target", "why_tests_cant": "a sign convention: a test with recorded angles fixes whatever sign the code has", "anchors": ["celest/satellite.py: Satellite.attitude", "celest/coordinates/frames/attitude.py: Attitude"]}
{"id": "C92", "title": "A satellite keeps the state it is given in either frame", "statement": "A satellite built from GCRS data is the one built from the converted ITRS data and gives the GCRS data back; ITRS data are kept; any other frame raises ValueError.", "quantifier": "every position and velocity object and every combination of frames", "why_tests_cant": "A test fixes finitely many inputs; this must hold for every one of an unbounded set.", "anchors": ["celest/satellite.py: Satellite.__init__"]}
{"id": "C93", "title": "A saved table can be read back", "statement": "A text file with a title, optional parameters and one table, split at line breaks and tabs and stripped of trailing spaces, gives back the title, the parameters, the headings, and one line per row whose cells are the texts of text columns and, for numbers, decimals with fifteen places within half a unit of the last place (or the words inf, -inf, nan).", "quantifier": "every title, parameters, columns and entries whose texts contain no line break or tab", "why_tests_cant": "A test fixes finitely many inputs; this must hold for every one of an unbounded set.", "anchors": ["celest/file_save.py: TextFileWriter"]}
{"id": "C94", "title": "A printed ground location denotes the location", "statement": "The string of a ground location gives latitude and longitude in degrees, minutes and seconds with the letter of the hemisphere, each within half a hundredth of a second of arc, and the height within half a hundredth in its own unit.", "quantifier": "every ground location and angular unit", "why_tests_cant": "A test fixes finitely many inputs; this must hold for every one of an unbounded set.", "anchors": ["celest/coordinates/ground_location.py: GroundLocation.__str__", "celest/angle_strings.py"]}
{"id": "C95", "title": "Saved frames, satellites and windows have every record and column", "statement": "Saving a frame, a satellite or a collection of windows returns, changes no other file, and leaves a file that reads back as its title, its location, and one row per time or window with all its columns labelled with their unit; a satellite without velocity and an empty collection raise and touch no file.", "quantifier": "every frame, satellite and collection with at least one record, every file name and unit name", "why_tests_cant": "A test fixes finitely many inputs; this must hold for every one of an unbounded set.", "anchors": ["celest/coordinates/frames/itrs.py: save_text_file", "celest/coordinates/frames/gcrs.py: save_text_file", "celest/coordinates/frames/wgs84.py: save_text_file", "celest/coordinates/frames/azel.py: save_text_file", "celest/coordinates/frames/lvlh.py: save_text_file", "celest/coordinates/frames/attitude.py: save_text_file", "celest/satellite.py: save_text_file", "celest/encounter/window_handling.py: WindowCollection.save_text_file"]}
{"id": "C96", "title": "Operations on array quantities act entry by entry", "statement": "Converting, negating, adding, subtracting, multiplying and dividing quantities that hold one-dimensional arrays gives at each position what the physical sizes at that position give (numbers and one-entry arrays standing for every position); lengths that do not fit raise ValueError.", "quantifier": "every heap of arrays, every pair of quantities holding numbers or float arrays, of every length and unit", "why_tests_cant": "A test fixes finitely many inputs; this must hold for every one of an unbounded set.", "anchors": ["celest/units/quantity.py: Quantity"]}
{"id": "C97", "title": "Arrays of integers can be converted", "statement": "A quantity holding an array of integers converts to every unit of its dimension like one holding the equal floats, and can be added to, multiplied by and compared with quantities in other units.", "quantifier": "every integer array, every pair of units of one dimension", "why_tests_cant": "tests of conversion use float arrays or single integers", "anchors": ["celest/units/quantity.py: Quantity.convert_to"]}
{"id": "C98", "title": "Array quantities compare entry by entry", "statement": "==, !=, <, <=, >, >= between quantities holding arrays give at each position the comparison of the physical sizes there.", "quantifier": "every pair of quantities holding numbers or float arrays of fitting lengths, of equal dimension", "why_tests_cant": "A test fixes finitely many inputs; this must hold for every one of an unbounded set.", "anchors": ["celest/units/quantity.py: Quantity.__eq__", "celest/units/quantity.py: Quantity.__le__", "celest/units/quantity.py: Quantity.__ne__"]}
{"id": "C99", "title": "Operations never change their operands", "statement": "In every program that creates arrays and quantities, writes into arrays and applies the operations and conversions, whether they return or raise, an array holds what it was created with, changed only by the program's own writes into that array.", "quantifier": "every program of every length, every initial heap", "why_tests_cant": "an alias shows only in particular histories", "anchors": ["celest/units/quantity.py: Quantity.convert_to", "celest/units/quantity.py: Quantity"]}
{"id": "C100", "title": "Quantities do not share arrays", "statement": "A quantity does not change when something else is written to: not the array it was built from, not another quantity's array.", "quantifier": "every program of array creations, writes, quantity constructions and operations", "why_tests_cant": "an alias shows only in particular histories", "anchors": ["celest/units/quantity.py: Quantity.__init__", "celest/units/quantity.py: Quantity.data"]}
{"id": "C101", "title": "Converting to the unit a quantity already has changes nothing", "statement": "After q.convert_to(q.unit) the result can be used like q: same numbers, and its unit combines with other units as q's unit does.", "quantifier": "every quantity and every later use of its unit", "why_tests_cant": "needs two steps: the conversion and a later unit product", "anchors": ["celest/units/quantity.py: Quantity.convert_to", "celest/units/core.py: CompoundUnit._expand_and_collect"]}
{"id": "C102", "title": "Windows generated from positions are the runs of samples at which the target sees the satellite", "statement": "generate_vtw on a satellite and a ground location returns one window for each maximal run of samples at which the satellite stands higher than the threshold above the plane through the location perpendicular to its radius, and the Sun is below (night) or above (day) that plane; windows are in order and do not overlap, and cover exactly those samples.", "quantifier": "every satellite track with velocities, of every length, every ground location, threshold, lighting condition and every motion of the Sun", "why_tests_cant": "A test fixes finitely many inputs; this must hold for every one of an unbounded set.", "anchors": ["celest/encounter/window_generator.py: generate_vtw", "celest/coordinates/transforms.py: _itrs_to_azel", "celest/coordinates/coordinate.py: Coordinate.convert_to"]}
{"id": "C103", "title": "Narrower conditions give narrower windows", "statement": "Every window for a higher threshold, or with a lighting condition, lies inside a window for the lower threshold or without the condition; no instant is in a window by day and in a window at night.", "quantifier": "every satellite track, location, pair of thresholds and motion of the Sun", "why_tests_cant": "A test fixes finitely many inputs; this must hold for every one of an unbounded set.", "anchors": ["celest/encounter/window_generator.py: generate_vtw"]}
{"id": "C104", "title": "Windows do not depend on the unit of the position", "statement": "Two satellites with the same positions in different length units get windows with the same rise and set times, or the same error.", "quantifier": "every pair of tracks equal up to units, every location, threshold and lighting condition", "why_tests_cant": "A test fixes finitely many inputs; this must hold for every one of an unbounded set.", "anchors": ["celest/encounter/window_generator.py: generate_vtw", "celest/satellite.py: Satellite"]}
{"id": "C105", "title": "Observations answer distinct requests, whatever happened before", "statement": "In any session with a scheduler - requests accepted or rejected, generate called any number of times, also calls that raised - the observations returned by a call of generate answer distinct accepted requests, each with an observation of its place and duration that is over before its deadline, lies inside a window generated for its place and light, and has the quality asked for.", "quantifier": "every satellite, threshold, every sequence of add_request and generate calls with every argument and every random draw", "why_tests_cant": "A test fixes finitely many inputs; this must hold for every one of an unbounded set.", "anchors": ["celest/schedule/scheduler.py: Scheduler", "celest/encounter/window_generator.py: generate_vtws"]}
{"id": "C106", "title": "The target is in view during a scheduled observation", "statement": "At every sample taken between the start and the end of a returned observation the satellite is above the visibility threshold at the requested place, and the requested lighting holds.", "quantifier": "every session, every satellite whose sample times increase", "why_tests_cant": "A test fixes finitely many inputs; this must hold for every one of an unbounded set.", "anchors": ["celest/schedule/scheduler.py: Scheduler.generate", "celest/encounter/window_generator.py: generate_vtws"]}
{"id": "C107", "title": "Generating again gives the same schedule, and the schedule depends only on the requests", "statement": "Calling generate again with the same arguments and random draws returns the same observations; the result depends on the accepted requests, not on when generate was called before.", "quantifier": "every session and every number of repetitions", "why_tests_cant": "needs several calls on one object", "anchors": ["celest/schedule/scheduler.py: Scheduler.generate", "celest/schedule/scheduling_utils.py: initialize_solution"]}
{"id": "C108", "title": "Floating-point unit conversion is accurate and reversible", "statement": "Converting a binary64 number between two named units of one kind keeps the physical size to one part in 2^50, sums of quantities are as accurate, and converting there and back gives the number back.", "quantifier": "every binary64 number of absolute value 0 or between 2^-900 and 2^900, every pair of named units", "why_tests_cant": "tests compare a few values with a tolerance; rounding depends on every bit", "anchors": ["celest/units/quantity.py: Quantity.convert_to", "celest/units/quantity.py: Quantity.__add__", "celest/units/unit_initialization.py"]}
{"id": "C109", "title": "Floating-point conversion keeps the order and comparisons are consistent", "statement": "Conversion never exchanges two binary64 numbers; sizes that differ by more than one part in 2^50 compare as they should with all operators; x == y and y == x agree.", "quantifier": "every pair of binary64 numbers of moderate size, every pair of named units of one kind", "why_tests_cant": "rounding depends on every bit", "anchors": ["celest/units/quantity.py: Quantity.__eq__", "celest/units/quantity.py: Quantity.__lt__", "celest/units/quantity.py: Quantity.convert_to"]}
{"id": "C110", "title": "Julian dates in floating point keep the instants", "statement": "Times plus offset are within half a unit in the last place (20 microseconds), keep their order, distinct instants stay distinct, and differences of Julian dates are exact.", "quantifier": "every pair of binary64 numbers whose sum is a Julian date from 2^21 to 2^22", "why_tests_cant": "rounding depends on every bit", "anchors": ["celest/time.py: Time.__init__"]}
{"id": "C111", "title": "The scheduling tests are safe in floating point", "statement": "A start that passes the binary64 window and deadline tests gives an observation whose exact end, with the exact duration in seconds, is before the set time and the deadline; starts that fit with 2^-31 day to spare pass; two bookings without a reported conflict do not overlap.", "quantifier": "every binary64 Julian date for start, rise, set and deadline, every duration up to 65536 days", "why_tests_cant": "rounding depends on every bit", "anchors": ["celest/schedule/insertion_operators.py: is_window_within_vtw_bounds", "celest/schedule/insertion_operators.py: does_window_meet_deadline", "celest/schedule/insertion_operators.py: does_conflict_exist"]}
{"id": "C112", "title": "Chosen start and image quality are accurate in floating point", "statement": "The start chosen without a look angle is within 2^-31 day of the exact one; the quality of a start inside the window is a whole number from 1 to 10, the floor of a value close to the exact one.", "quantifier": "every binary64 Julian date for rise, set and start with the start inside, windows up to 65536 days", "why_tests_cant": "rounding depends on every bit", "anchors": ["celest/schedule/insertion_operators.py: insert_first_n_requests", "celest/schedule/insertion_operators.py: image_quality"]}
{"id": "C113", "title": "Bookings honour their requests in floating point", "statement": "After any history of additions, insertions, removals and sorts on binary64 numbers, every booking is for the duration asked for, starts after its window rises, ends before the window sets and before the deadline as exact real numbers, and has the quality asked for up to what rounding can change; insertions keep every booking.", "quantifier": "all histories of request-handler operations on ordinary dates and durations, with all rounding errors", "why_tests_cant": "A test fixes finitely many inputs; this must hold for every one of an unbounded set.", "anchors": ["celest/schedule/request_handler.py", "celest/schedule/insertion_operators.py", "celest/schedule/removal_operators.py"]}
{"id": "C114", "title": "Booked observations are disjoint in floating point", "statement": "No two observations booked by the initial solution overlap; removals never create an overlap; an insertion creates none if the last request is not booked.", "quantifier": "all handlers reachable by operations on ordinary dates and durations", "why_tests_cant": "A test fixes finitely many inputs; this must hold for every one of an unbounded set.", "anchors": ["celest/schedule/insertion_operators.py:does_conflict_exist", "celest/schedule/scheduling_utils.py:initialize_solution"]}
{"id": "C115", "title": "Insertion is maximal in floating point", "statement": "After an insertion that may book every request, a request left out that has a window with room to spare meets a booking: the start proposed for it, as a real number, overlaps or nearly touches an observation of another request.", "quantifier": "all handlers reachable by operations on ordinary dates and durations, all requests without look angle", "why_tests_cant": "A test fixes finitely many inputs; this must hold for every one of an unbounded set.", "anchors": ["celest/schedule/insertion_operators.py:insert_first_n_requests"]}
{"id": "C116", "title": "The look-angle search is right in floating point", "statement": "For sampled angles in any angle units the search finds nothing exactly if the wanted angle is not between the angles at rise and set; otherwise it returns the time of a sample from the rise on and before the set such that the wanted angle lies between the angles of this sample and the next. Rounding of the offsets and of their products changes nothing.", "quantifier": "all samples at increasing times, all units, all angles that are zero or between 2^-400 and 2^400 degrees", "why_tests_cant": "A test fixes finitely many inputs; this must hold for every one of an unbounded set.", "anchors": ["celest/schedule/insertion_operators.py:_look_angle_time"]}
{"id": "C117", "title": "Weighted operator choice is right in floating point", "statement": "With non-negative weights of at most 1, one of them positive, the choice of an operator never fails, never picks an operator of weight zero, and picks each one for the draws of its share of the unit interval, up to n/2^48 at the borders.", "quantifier": "all lists of up to a million binary64 weights between 0 and 1, all draws", "why_tests_cant": "A test fixes finitely many inputs; this must hold for every one of an unbounded set.", "anchors": ["celest/schedule/alns.py: ALNS._get_destroy_index", "celest/schedule/alns.py: ALNS._get_probabilities"]}
{"id": "C118", "title": "The adaptive search keeps its weights in range and does not fail in floating point", "statement": "Operator weights stay between 0 and 1 and follow the documented update to 5/2^53; the search completes for every number of iterations.", "quantifier": "all problems, draws, react factors and iteration counts, with rounding and underflow", "why_tests_cant": "A test fixes finitely many inputs; this must hold for every one of an unbounded set.", "anchors": ["celest/schedule/alns.py: ALNS.solve", "celest/schedule/alns.py: ALNS._update_destroy_weights"]}
{"id": "C119", "title": "The search in floating point returns the cheapest solution it met", "statement": "It returns the first of the cheapest solutions met, never worse than the initial one; it stops on a complete solution or at the iteration limit; what the operators preserve holds of every solution met; weights, temperature and current solution evolve round by round as documented.", "quantifier": "all problems, operators, draws and parameters on binary64 numbers", "why_tests_cant": "A test fixes finitely many inputs; this must hold for every one of an unbounded set.", "anchors": ["celest/schedule/alns.py: ALNS.solve"]}
{"id": "C120", "title": "Schedules generated in floating point serve the requests", "statement": "Each returned window serves a request of its own, as exact real numbers; the windows are worth at least the initial solution; every scheduled request is returned; windows do not overlap; generating does not fail.", "quantifier": "all reachable schedulers on ordinary dates and durations, all draws and parameters", "why_tests_cant": "A test fixes finitely many inputs; this must hold for every one of an unbounded set.", "anchors": ["celest/schedule/scheduler.py: Scheduler.generate"]}
{"id": "C121", "title": "Acceptance of worse solutions is right in floating point", "statement": "A cheaper candidate is always accepted, an equal one too; a worse one exactly if the draw is at most the exponential of the documented exponent, which is negative and accurate to 4/2^53.", "quantifier": "all costs from -2^40 to -1, all temperatures from 2^-900 to 2^40, all draws", "why_tests_cant": "A test fixes finitely many inputs; this must hold for every one of an unbounded set.", "anchors": ["celest/schedule/alns.py: ALNS._accept"]}
{"id": "C122", "title": "Searching changes no object of the caller", "statement": "A search changes no object that existed before it, also when it raises; the solution it returns shares no object with the handler it was given; each removal and insertion operator changes the handler it is given and no other.", "quantifier": "all memory states, handlers, parameters, random draws and iteration counts", "why_tests_cant": "A test fixes finitely many inputs; this must hold for every one of an unbounded set.", "anchors": ["celest/schedule/alns.py: ALNS.solve", "celest/schedule/request_handler.py", "celest/schedule/insertion_operators.py", "celest/schedule/removal_operators.py"]}
{"id": "C123", "title": "Generating a schedule changes the scheduler's own requests only", "statement": "generate, on objects changed in place, returns or raises what the model of values says, leaves its requests with the initial solution whatever the search finds, and changes nothing that is not a part of its handler.", "quantifier": "all memory states, handlers, parameters and random draws", "why_tests_cant": "A test fixes finitely many inputs; this must hold for every one of an unbounded set.", "anchors": ["celest/schedule/scheduler.py: Scheduler.generate", "celest/schedule/scheduling_utils.py: initialize_solution"]}
{"id": "C124", "title": "Schedulers do not influence each other", "statement": "In a program that creates any number of schedulers and calls their methods in any order, also after calls that raised, each scheduler answers as if it had been alone.", "quantifier": "all programs of creations and calls, all memory states they start from", "why_tests_cant": "A test fixes finitely many inputs; this must hold for every one of an unbounded set.", "anchors": ["celest/schedule/scheduler.py: Scheduler", "celest/schedule/request_handler.py: RequestHandler"]}
{"id": "C125", "title": "Loops over one collection can be nested", "statement": "A loop over a collection of windows, or over the requests, inside another loop over the same object takes every element each time and lets the outer loop take every element.", "quantifier": "all collections and handlers", "why_tests_cant": "A test fixes finitely many inputs; this must hold for every one of an unbounded set.", "anchors": ["celest/encounter/window_handling.py: WindowCollection.__iter__", "celest/encounter/window_handling.py: WindowCollection.__next__", "celest/schedule/request_handler.py: RequestHandler.__next__"]}
{"id": "C126", "title": "Reducing an angle or a time gives the exact remainder, rounded", "statement": "x % m, on binary64 numbers with m > 0, is the float nearest to the exact remainder of x by m, and lies in [0, m).", "quantifier": "all finite floats x and all positive floats m up to 2^900", "why_tests_cant": "A test fixes finitely many inputs; this must hold for every one of an unbounded set.", "anchors": ["celest/time.py: Time.mean_solar_time", "celest/coordinates/astronomical_quantities.py: earth_rotation_angle"]}
{"id": "C127", "title": "Rounding never changes a calendar date", "statement": "from_julian, computed in binary64 arithmetic, returns the year, the month and the day with its fraction of the same computation in exact arithmetic, and fails exactly when it does; so the Gregorian date is right on every day on which the exact computation is.", "quantifier": "all arrays of Julian dates of the years 1029 to 6771", "why_tests_cant": "A test fixes finitely many inputs; this must hold for every one of an unbounded set.", "anchors": ["celest/coordinates/astronomical_quantities.py: from_julian"]}
{"id": "C128", "title": "Rounding never changes the day of the year, and datetimes are right to half a microsecond", "statement": "In binary64 arithmetic day_of_year is exactly the result of exact arithmetic; Time.datetime has the date of exact arithmetic and its time of day within 0.50001 microseconds, never rounded into the next day.", "quantifier": "all arrays of Julian dates of the years 1029 to 6771", "why_tests_cant": "A test fixes finitely many inputs; this must hold for every one of an unbounded set.", "anchors": ["celest/coordinates/astronomical_quantities.py: day_of_year", "celest/time.py: Time.datetime"]}
{"id": "C129", "title": "The Earth rotation angle is normalised and accurate in floating point", "statement": "The Earth rotation angle computed in binary64 arithmetic lies in [0, 360) degrees and is within 3e-7 degrees (a milliarcsecond) of the documented formula, modulo a turn.", "quantifier": "all Julian dates of the years 1029 to 6771", "why_tests_cant": "A test fixes finitely many inputs; this must hold for every one of an unbounded set.", "anchors": ["celest/coordinates/astronomical_quantities.py: earth_rotation_angle"]}
{"id": "C130", "title": "Clock times are accurate in floating point", "statement": "ut1 is exactly the hours since midnight, in [0, 24); mean solar time and mean hour angle are within 1e-14 and 2e-14 hours of the exact ones, modulo a day.", "quantifier": "all Julian dates of the years 1029 to 6771, all longitudes of a whole turn at most", "why_tests_cant": "A test fixes finitely many inputs; this must hold for every one of an unbounded set.", "anchors": ["celest/time.py: Time.ut1", "celest/time.py: Time.mean_solar_time", "celest/time.py: Time.mean_hour_angle"]}
{"id": "C131", "title": "Coordinates of a location are accurate in floating point", "statement": "The Earth-fixed coordinates of a ground location, computed in binary64 arithmetic, are within 1e-10 km (a ten-millionth of a metre) of the exact position above the WGS84 ellipsoid.", "quantifier": "all locations with any latitude, longitude and height up to 1000 km, in all units, for every mathematics library accurate to about one unit in the last place", "why_tests_cant": "A test fixes finitely many inputs; this must hold for every one of an unbounded set.", "anchors": ["celest/coordinates/ground_location.py: GroundLocation.itrs_x", "celest/coordinates/ground_location.py: GroundLocation.itrs_y", "celest/coordinates/ground_location.py: GroundLocation.itrs_z"]}
{"id": "C132", "title": "Distances are accurate in floating point", "statement": "The distance from a location to a satellite, computed in binary64 arithmetic, is within 2e-9 km of the exact distance.", "quantifier": "all locations, all satellites up to a million km from the centre of the Earth and a metre or more from the location, all units", "why_tests_cant": "A test fixes finitely many inputs; this must hold for every one of an unbounded set.", "anchors": ["celest/satellite.py: Satellite.distance"]}
{"id": "C133", "title": "Elevations are accurate in floating point", "statement": "The elevation of a satellite above a location, computed in binary64 arithmetic, is a number within 4e-6 degrees of the exact elevation, and within 2e-9 degrees up to 89 degrees.", "quantifier": "all locations, all satellites from 100 km to about a million km away, all units", "why_tests_cant": "A test fixes finitely many inputs; this must hold for every one of an unbounded set.", "anchors": ["celest/coordinates/transforms.py: _get_ang", "celest/coordinates/transforms.py: _itrs_to_azel"]}
{"id": "C134", "title": "Look angles are accurate in floating point", "statement": "The look angle from a satellite to a location, computed in binary64 arithmetic, is a number within 4e-6 degrees of the exact angle, and within 2e-9 degrees between 1 and 179 degrees.", "quantifier": "all locations, all satellites from 100 km to about a million km away, all units", "why_tests_cant": "A test fixes finitely many inputs; this must hold for every one of an unbounded set.", "anchors": ["celest/satellite.py: Satellite.look_angle"]}
{"id": "C135", "title": "Windows are the passes of the satellite in floating point", "statement": "The windows generated in binary64 arithmetic are the maximal runs of samples whose exact elevation is above the threshold, up to 4e-6 degrees, with the Sun on the right side.", "quantifier": "all locations, all sequences of satellite positions, thresholds and lighting conditions", "why_tests_cant": "A test fixes finitely many inputs; this must hold for every one of an unbounded set.", "anchors": ["celest/encounter/window_generator.py: generate_vtws"]}
{"id": "C136", "title": "Latitudes and longitudes that are not valid are rejected", "statement": "A ground location is made if the latitude is between -90 and 90 and the longitude between -180 and 180; any other number raises ValueError.", "quantifier": "all binary64 numbers, with infinities and not-a-number", "why_tests_cant": "A test fixes finitely many inputs; this must hold for every one of an unbounded set.", "anchors": ["celest/coordinates/ground_location.py: GroundLocation.__init__"]}
{"id": "C137", "title": "Scheduled observations can be made", "statement": "Every window that a session with the scheduler returns, computed in binary64 arithmetic from satellite positions to schedule, answers an accepted request of its own; from its start to its end the satellite is above the requested elevation as seen from the requested location, up to 4e-6 degrees, with the Sun on the requested side, and it is over before the deadline.", "quantifier": "all sequences of calls that add requests and generate schedules, all satellites, locations and random choices", "why_tests_cant": "A test fixes finitely many inputs; this must hold for every one of an unbounded set.", "anchors": ["celest/schedule/scheduler.py: Scheduler", "celest/encounter/window_generator.py: generate_vtws", "celest/schedule/request_handler.py: RequestHandler"]}
{"id": "C138", "title": "Operators return what they should or raise", "statement": "Products, quotients, sums and differences of numbers, units and quantities are numbers, units or quantities, according to the operands, or raise an error; operands that do not fit raise TypeError; nothing silently becomes None.", "quantifier": "all operands of any kind and all expressions built from them", "why_tests_cant": "A test fixes finitely many inputs; this must hold for every one of an unbounded set.", "anchors": ["celest/units/core.py: BaseUnit.__mul__", "celest/units/core.py: BaseUnit.__rmul__", "celest/units/quantity.py: Quantity"]}
{"id": "C139", "title": "Sums of lists of quantities", "statement": "The built-in sum of a non-empty list of quantities of one dimension is the physical sum in the unit of the first; if the dimensions differ, ArithmeticError is raised; the sum of an empty list is 0.", "quantifier": "all lists of quantities", "why_tests_cant": "A test fixes finitely many inputs; this must hold for every one of an unbounded set.", "anchors": ["celest/units/quantity.py: Quantity.__radd__", "celest/units/quantity.py: Quantity.__add__"]}
{"id": "C140", "title": "Equal powers are the same power", "statement": "A quantity in a unit to some power can be converted to another unit of the same dimension to an equal power, whether the powers are given as ints or floats.", "quantifier": "all units, all powers", "why_tests_cant": "A test fixes finitely many inputs; this must hold for every one of an unbounded set.", "anchors": ["celest/units/core.py: BaseUnit.__pow__", "celest/units/core.py: CompoundUnit", "celest/units/utils.py: get_dimensions_from_unit"]}
{"id": "C141", "title": "The text of a unit reads as the unit", "statement": "The text of a unit (a number in front, then names and powers) read as it is written is the product, quotient, power or multiple the user wrote.", "quantifier": "all unit expressions, all factors", "why_tests_cant": "A test fixes finitely many inputs; this must hold for every one of an unbounded set.", "anchors": ["celest/units/display.py: generate_compound_unit_string", "celest/units/core.py: CompoundUnit.__init__", "celest/units/core.py: BaseUnit.__str__"]}
{"id": "C142", "title": "Quantities with the same text are the same quantity", "statement": "If two quantities (or two units) have the same str or the same repr, they have the same number, the same units to the same powers, the same factor and the same physical magnitude.", "quantifier": "all quantities in units with predefined names", "why_tests_cant": "A test fixes finitely many inputs; this must hold for every one of an unbounded set.", "anchors": ["celest/units/quantity.py: Quantity.__str__", "celest/units/quantity.py: Quantity.__repr__", "celest/units/display.py: generate_compound_unit_string"]}
{"id": "C143", "title": "Locations and windows with the same text are the same", "statement": "Two ground locations with the same repr have the same coordinates in the same units; two collections of windows with the same str or repr have the same number of windows, in the same order, with the same times and the same texts of location and attitude.", "quantifier": "all locations, all collections of any length", "why_tests_cant": "A test fixes finitely many inputs; this must hold for every one of an unbounded set.", "anchors": ["celest/coordinates/ground_location.py: GroundLocation.__repr__", "celest/encounter/window_handling.py: VisibleTimeWindow.__repr__", "celest/encounter/window_handling.py: ObservationWindow.__repr__", "celest/encounter/window_handling.py: WindowCollection.__str__"]}
{"id": "C144", "title": "Coordinates as integers, ITRS to GCRS", "statement": "The GCRS coordinates computed from ITRS positions or velocities depend on the coordinates as numbers, not on whether they are given as arrays of integers or of equal floats; in particular the distance from the Earth's centre is kept. The same holds from GCRS to ITRS.", "quantifier": "all positions of any length, all times, all element types of the three arrays", "why_tests_cant": "A test fixes finitely many inputs; this must hold for every one of an unbounded set.", "anchors": ["celest/coordinates/transforms.py: _itrs_to_gcrs", "celest/coordinates/transforms.py: _rotate_by_earth_rotation_angle", "celest/coordinates/transforms.py: _gcrs_to_itrs"]}
{"id": "C145", "title": "Coordinates as integers, distances and angles", "statement": "Satellite distances, look angles, azimuth/elevation and the conversion of latitudes, longitudes and heights to ITRS accept arrays of integers in every unit and give the result for equal floats.", "quantifier": "all positions of any length, all locations, units and element types", "why_tests_cant": "A test fixes finitely many inputs; this must hold for every one of an unbounded set.", "anchors": ["celest/satellite.py: Satellite.distance", "celest/satellite.py: Satellite.look_angle", "celest/coordinates/transforms.py: _itrs_to_azel", "celest/coordinates/transforms.py: _wgs84_to_itrs", "celest/units/quantity.py: Quantity.to"]}
{"id": "C146", "title": "GCRS and ITRS coordinates as computed", "statement": "Converting a position or velocity between GCRS and ITRS in floating point gives finite coordinates that differ from the exact value of the documented formulas by at most 6e-9 of the distance from the Earth's centre (4 cm for a low satellite), in both directions.", "quantifier": "all Julian dates from the year 1029 to 6771, all points up to 2^80 units, all numpy libraries with the stated error bounds", "why_tests_cant": "A test fixes finitely many inputs; this must hold for every one of an unbounded set.", "anchors": ["celest/coordinates/transforms.py: _gcrs_to_itrs", "celest/coordinates/transforms.py: _itrs_to_gcrs", "celest/coordinates/nutation_precession_matrices.py: nutation_matrix", "celest/coordinates/nutation_precession_matrices.py: precession_matrix", "celest/coordinates/nutation_precession_matrices.py: bias_matrix", "celest/coordinates/astronomical_quantities.py: earth_rotation_angle"]}
{"id": "C147", "title": "Computed frame conversions keep distances", "statement": "Converting between GCRS and ITRS in floating point keeps the distance from the Earth's centre, and the distance between two points converted for the same time, up to 1e-13 of the distances from the centre (4e-12 from ITRS to GCRS, which inverts matrices numerically).", "quantifier": "all Julian dates from the year 1029 to 6771, all pairs of points up to 2^80 units, all numpy libraries with the stated error bounds", "why_tests_cant": "A test fixes finitely many inputs; this must hold for every one of an unbounded set.", "anchors": ["celest/coordinates/transforms.py: _gcrs_to_itrs", "celest/coordinates/transforms.py: _itrs_to_gcrs", "celest/coordinates/transforms.py: _rotate_by_earth_rotation_angle"]}
{"id": "C148", "title": "Computed frame conversions undo each other", "statement": "Converting from GCRS to ITRS and back in floating point, or from ITRS to GCRS and back, never raises and returns the point up to 4e-12 of its distance from the Earth's centre.", "quantifier": "all Julian dates from the year 1029 to 6771, all points up to 2^80 units, all numpy libraries with the stated error bounds", "why_tests_cant": "A test fixes finitely many inputs; this must hold for every one of an unbounded set.", "anchors": ["celest/coordinates/transforms.py: _gcrs_to_itrs", "celest/coordinates/transforms.py: _itrs_to_gcrs"]}
{"id": "C149", "title": "Computed nutation angles", "statement": "The five nutation angles computed in floating point are finite numbers from 0 to 360 degrees that differ from the documented polynomials, going round the circle, by at most 2.7e-8 degrees (2e-9 for the anomaly of the Sun, 1e-9 for the ascending node).", "quantifier": "all Julian dates from the year 1029 to 6771, all numpy libraries with the stated error bounds", "why_tests_cant": "A test fixes finitely many inputs; this must hold for every one of an unbounded set.", "anchors": ["celest/coordinates/astronomical_quantities.py: nutation_angles"]}
{"id": "C150", "title": "Computed nutation, obliquity, equations and right ascension", "statement": "Computed in floating point, the nutation (in arcseconds) is within 7e-10 and 4e-10 of the exact value of the formulas, the mean and apparent obliquity within 2e-13 degrees, the equation of the equinoxes within 5e-11 arcseconds, the equation of time within 5e-11 radians, and the right ascension of the Sun, a number from 0 to 2 pi, within 3e-10 radians going round the circle.", "quantifier": "all Julian dates from the year 1029 to 6771, all numpy libraries with the stated error bounds", "why_tests_cant": "A test fixes finitely many inputs; this must hold for every one of an unbounded set.", "anchors": ["celest/coordinates/astronomical_quantities.py: nutation_components", "celest/coordinates/astronomical_quantities.py: apparent_obliquity", "celest/coordinates/astronomical_quantities.py: equation_of_time", "celest/coordinates/astronomical_quantities.py: equation_of_equinoxes", "celest/coordinates/astronomical_quantities.py: sun_right_ascension"]}
{"id": "C151", "title": "Computed true solar time and hour angle", "statement": "The true solar time and the true hour angle computed in floating point are finite numbers from 0 to 24 that differ from universal time plus longitude and equation of time (minus 12 for the angle) by less than a microsecond, going round the clock; fifteen degrees further east both the true solar time and the local sidereal time are an hour later.", "quantifier": "all Julian dates from the year 1029 to 6771, all longitudes between -360 and 360 degrees, all numpy libraries with the stated error bounds", "why_tests_cant": "A test fixes finitely many inputs; this must hold for every one of an unbounded set.", "anchors": ["celest/time.py: Time.true_solar_time", "celest/time.py: Time.true_hour_angle"]}
{"id": "C152", "title": "Computed sidereal times", "statement": "The sidereal times computed in floating point are finite; the mean ones and the local apparent one are from 0 to 24; they differ from the documented formulas by at most 6.1e-8 hours (0.22 milliseconds) for Greenwich and 1.2e-9 hours for local times, going round the clock.", "quantifier": "all Julian dates from the year 1029 to 6771, all longitudes between -360 and 360 degrees, all numpy libraries with the stated error bounds", "why_tests_cant": "A test fixes finitely many inputs; this must hold for every one of an unbounded set.", "anchors": ["celest/time.py: Time.gmst", "celest/time.py: Time.gast", "celest/time.py: Time.lmst", "celest/time.py: Time.last"]}
{"id": "C153", "title": "Computed LVLH coordinates", "statement": "Converting a position and a velocity to the LVLH frame in floating point gives finite coordinates close to those of the rotation that puts the position on the downward axis and the velocity in the plane of the first and third axes, pointing forward: within 2.5e-14 of the length, times the ratio |r||v|/|r x v|.", "quantifier": "all positions and velocities with lengths between 2^-45 and 2^45, at an angle with |r||v| <= k|r x v|, k up to 2000; all numpy libraries with the stated error bounds", "why_tests_cant": "A test fixes finitely many inputs; this must hold for every one of an unbounded set.", "anchors": ["celest/coordinates/transforms.py: _gcrs_to_lvlh", "celest/coordinates/transforms.py: _gcrs_to_lvlh_matrix"]}
{"id": "C154", "title": "Computed attitudes point at the target", "statement": "The roll, pitch and yaw that Satellite.attitude computes in floating point are finite and within 1e-4 k/h radians of the exact ones, where h is the depth in km of the target below the satellite's horizontal plane and k bounds |r||v|/|r x v|; turning the camera by them points it at the target within three times that.", "quantifier": "all locations, dates, position units, positions between 5000 and 100000 km from the centre, velocities, and targets less than 89.4 degrees off nadir; all numpy libraries with the stated error bounds", "why_tests_cant": "A test fixes finitely many inputs; this must hold for every one of an unbounded set.", "anchors": ["celest/satellite.py: Satellite.attitude", "celest/coordinates/transforms.py: _itrs_to_gcrs", "celest/coordinates/transforms.py: _gcrs_to_lvlh_matrix"]}
{"id": "C155", "title": "Computed altitudes end and are near", "statement": "The altitudes that Satellite computes in floating point for positions outside the Earth: the loop ends after at most six rounds with one finite number for every position, within 10.71 km of the true height above the ellipsoid, and within 0.501 km if the loop made at least one round; above the equator it makes none and every altitude is more than 10.7 km too large.", "quantifier": "all nonempty lists of positions in any unit of length, up to 100000 km from the centre and at least a thousandth of a radian from the poles; all numpy libraries with the stated error bounds", "why_tests_cant": "A test fixes finitely many inputs; this must hold for every one of an unbounded set.", "anchors": ["celest/coordinates/transforms.py: _altitude", "celest/satellite.py: Satellite.altitude"]}
{"id": "C156", "title": "Rounding in altitudes", "statement": "Rounding changes a computed altitude by at most a millimetre: each one is within 1e-6 km of what the same number of rounds gives in exact arithmetic, whatever the other positions in the array. The computation stops before the first round in which neither the average height would rise by more than about the tolerance (4 to 9 mm) nor the average latitude by about 1e-9.", "quantifier": "all nonempty lists of positions outside the Earth in any unit of length, up to 100000 km from the centre and at least a thousandth of a radian from the poles; all numpy libraries with the stated error bounds", "why_tests_cant": "A test fixes finitely many inputs; this must hold for every one of an unbounded set.", "anchors": ["celest/coordinates/transforms.py: _altitude"]}
{"id": "C157", "title": "Computed Earth-fixed coordinates of a latitude, longitude and height", "statement": "Converting a latitude, longitude and height to ITRS in floating point gives finite coordinates, each within 1e-14 of the distance (plus 1e-11 km) of the point at that height on the normal of the WGS84 ellipsoid whose direction has that latitude and longitude.", "quantifier": "all latitudes up to 90 and longitudes up to 180 degrees, all heights up to 100000 km above or below, in all units; all numpy libraries with the stated error bounds", "why_tests_cant": "A test fixes finitely many inputs; this must hold for every one of an unbounded set.", "anchors": ["celest/coordinates/transforms.py: _wgs84_to_itrs", "celest/coordinates/frames/wgs84.py: WGS84"]}
{"id": "C158", "title": "Computed latitudes and longitudes", "statement": "Converting ITRS positions to WGS84 in floating point returns one finite latitude, longitude and height for every position; the latitude is within 5e-15 radians of the geocentric latitude, the longitude between -pi and pi up to 1e-15 and within 2e-15 radians of the direction in which the position is seen from the axis; the heights are the computed altitudes.", "quantifier": "all nonempty lists of positions outside the Earth in any unit of length, up to 100000 km from the centre and at least a thousandth of a radian from the poles; all numpy libraries with the stated error bounds", "why_tests_cant": "A test fixes finitely many inputs; this must hold for every one of an unbounded set.", "anchors": ["celest/coordinates/transforms.py: _itrs_to_wgs84", "celest/coordinates/transforms.py: _altitude"]}
{"id": "C159", "title": "WGS84 to ITRS to WGS84 as computed", "statement": "Converting latitudes, longitudes and heights to ITRS and back in floating point returns the same values up to rounding.", "quantifier": "all nonempty lists of places up to 89.9 degrees from the equator and from 0 to 90000 km high, in all units; all numpy libraries with the stated error bounds", "why_tests_cant": "A test fixes finitely many inputs; this must hold for every one of an unbounded set.", "anchors": ["celest/coordinates/transforms.py: _wgs84_to_itrs", "celest/coordinates/transforms.py: _itrs_to_wgs84"]}
{"id": "C160", "title": "Radius of a ground location as computed", "statement": "The radius of a ground location, computed in floating point, is the distance from the centre of the Earth to the point of the ellipsoid at its latitude and longitude plus its height, to within 1e-10 km.", "quantifier": "all ground locations with latitudes up to 90 degrees, longitudes up to 180 degrees and heights up to 1000 km in any units, and all mathematics libraries within the stated error bounds", "why_tests_cant": "A test fixes finitely many inputs; this must hold for every one of an unbounded set.", "anchors": ["celest/coordinates/ground_location.py: GroundLocation.radius"]}
{"id": "C161", "title": "Rounding of azimuths", "statement": "The azimuth computed in floating point is the azimuth of the same formula on exact numbers, to within a bound given by the distance of the satellite from the vertical of the location; it is not a number only where the exact azimuth is within that bound of north or south.", "quantifier": "all ground locations about a degree away from the equator and the poles, all positions up to a million km that are at least 1 km away from the vertical line, in all units, and all mathematics libraries within the stated error bounds", "why_tests_cant": "A test fixes finitely many inputs; this must hold for every one of an unbounded set.", "anchors": ["celest/coordinates/transforms.py: _azimuth", "celest/coordinates/transforms.py: _get_ang", "celest/coordinates/ground_location.py: GroundLocation.radius"]}
{"id": "C162", "title": "Computed azimuths are compass bearings", "statement": "The azimuth computed in floating point is the compass bearing of the satellite seen from the ground location.", "quantifier": "all ground locations, all satellites at a horizontal distance of 2 km or more, in all units, and all mathematics libraries within the stated error bounds", "why_tests_cant": "A test fixes finitely many inputs; this must hold for every one of an unbounded set.", "anchors": ["celest/coordinates/transforms.py: _azimuth", "celest/coordinates/transforms.py: _get_ang", "celest/coordinates/transforms.py: _itrs_to_azel"]}
{"id": "C163", "title": "Sexagesimal strings as computed", "statement": "The degrees, minutes and seconds printed for a floating-point angle denote that angle to within half a hundredth of a second of arc.", "quantifier": "every finite float from 0 to 1000 degrees", "why_tests_cant": "A test fixes finitely many inputs; this must hold for every one of an unbounded set.", "anchors": ["celest/angle_strings.py: _get_sexagesimal_string"]}
{"id": "C164", "title": "Printed locations as computed", "statement": "The string of a ground location denotes its latitude and longitude to within half a hundredth of a second of arc, with N or S and E or W by their signs, and its height to within half a hundredth of its unit, for floating-point numbers in any units.", "quantifier": "all ground locations with latitudes up to 90 degrees, longitudes up to 180 degrees and heights up to 1000 km, in all units", "why_tests_cant": "A test fixes finitely many inputs; this must hold for every one of an unbounded set.", "anchors": ["celest/coordinates/ground_location.py: GroundLocation.__str__", "celest/angle_strings.py: _ISO6709_representation", "celest/angle_strings.py: _get_latitude_string", "celest/angle_strings.py: _get_longitude_string", "celest/angle_strings.py: _get_height_string"]}
{"id": "C165", "title": "Obliquity of the ecliptic", "statement": "The mean obliquity is Laskar's polynomial of the documentation, 23 degrees 26 minutes 21.448 seconds at J2000.0, and lies between 22.5 and 24.4 degrees for 10000 years on either side; the apparent obliquity is the mean one plus the nutation in obliquity, less than 10 arcseconds away.", "quantifier": "every Julian date (the range: within 100 centuries of J2000.0)", "why_tests_cant": "A test fixes finitely many inputs; this must hold for every one of an unbounded set.", "anchors": ["celest/coordinates/astronomical_quantities.py: mean_obliquity, apparent_obliquity"]}
{"id": "C166", "title": "Nutation is the documented series", "statement": "Within a century of J2000.0 the nutation in longitude and in obliquity agree with the series of the book cited (Meeus, page 144) within 4e-6 and 2e-6 arcseconds.", "quantifier": "every Julian date within a century of J2000.0", "why_tests_cant": "A test fixes finitely many inputs; this must hold for every one of an unbounded set.", "anchors": ["celest/coordinates/astronomical_quantities.py: nutation_components"]}
{"id": "C167", "title": "Right ascension of the Sun has the documented accuracy", "statement": "Within a century of J2000.0 the right ascension of the Sun agrees with the algorithm of the book cited (Meeus, chapter 25) within 0.002 degrees, well inside the documented accuracy of 0.01 degrees.", "quantifier": "every Julian date within a century of J2000.0", "why_tests_cant": "A test fixes finitely many inputs; this must hold for every one of an unbounded set.", "anchors": ["celest/coordinates/astronomical_quantities.py: sun_right_ascension"]}
{"id": "C168", "title": "Equation of time is the documented formula", "statement": "Within a century of J2000.0 the equation of time agrees with Smart's formula of the book cited (Meeus, chapter 28) within 2e-5 radians, 0.3 seconds of time.", "quantifier": "every Julian date within a century of J2000.0", "why_tests_cant": "A test fixes finitely many inputs; this must hold for every one of an unbounded set.", "anchors": ["celest/coordinates/astronomical_quantities.py: equation_of_time"]}
{"id": "C169", "title": "The equation of the equinoxes as an angle", "statement": "Within a century of J2000.0 the equation of the equinoxes, an angle in arcseconds, is the nutation in longitude times the cosine of the true obliquity.", "quantifier": "every Julian date within a century of J2000.0", "why_tests_cant": "A test fixes finitely many inputs; this must hold for every one of an unbounded set.", "anchors": ["celest/coordinates/astronomical_quantities.py: equation_of_equinoxes"]}
{"id": "C170", "title": "Precession angles are those of IAU 2000", "statement": "The three precession angles are the polynomials of the IAU 2000 model that the documentation refers to.", "quantifier": "every Julian date", "why_tests_cant": "A test fixes finitely many inputs; this must hold for every one of an unbounded set.", "anchors": ["celest/coordinates/astronomical_quantities.py: conventional_precession_angles"]}
{"id": "C171", "title": "Conversion between compound units as computed", "statement": "A floating-point quantity converted between any two units of the same dimension, compound units with powers included, keeps its magnitude up to a relative error of 2^-53 times the number of factors of the two units (powers counted) plus a constant, and converting back gives the original number up to twice that; units of different dimensions raise.", "quantifier": "all units whose complexity (factors and powers) is at most 20, all finite numbers between 2^-400 and 2^400 in size and zero, all power functions within the stated error bound", "why_tests_cant": "A test fixes finitely many inputs; this must hold for every one of an unbounded set.", "anchors": ["celest/units/quantity.py: Quantity.convert_to, Quantity.to, _get_unit_scale"]}
{"id": "C172", "title": "Sums and comparisons of compound units as computed", "statement": "The sum and difference of two floating-point quantities of the same dimension has the sum and difference of their magnitudes up to a relative error against the sum of the two sizes, and a comparison between them is right whenever the magnitudes differ by more than the rounding of one conversion.", "quantifier": "as C171, for both operands", "why_tests_cant": "A test fixes finitely many inputs; this must hold for every one of an unbounded set.", "anchors": ["celest/units/quantity.py: Quantity.__add__, Quantity.__sub__, Quantity.__eq__, Quantity.__lt__, Quantity.__gt__"]}
{"id": "C173", "title": "Products of compound units as computed", "statement": "The product of two floating-point quantities has the product of their magnitudes, up to a relative error of 2^-53 times the number of factors of the two units plus a constant.", "quantifier": "all units built from named ones by products, quotients and powers with a complexity (factors and powers) of at most 20, all numbers between 2^-200 and 2^200 in size and zero, all power functions within the stated error bound", "why_tests_cant": "A test fixes finitely many inputs; this must hold for every one of an unbounded set.", "anchors": ["celest/units/quantity.py: Quantity.__mul__"]}
{"id": "C174", "title": "Quotients of compound units as computed", "statement": "The quotient of two floating-point quantities has the quotient of their magnitudes up to a relative error as in C173, and is without units if both have the same dimension; a zero divisor raises.", "quantifier": "as C173", "why_tests_cant": "A test fixes finitely many inputs; this must hold for every one of an unbounded set.", "anchors": ["celest/units/quantity.py: Quantity.__truediv__", "celest/units/core.py: CompoundUnit"]}
{"id": "C175", "title": "Conflict-degree orders follow the mean overlap", "statement": "Sorting by conflict degree puts the windows of every request by increasing mean overlap with the windows they meet, and the booked requests by decreasing mean overlap of the window they are booked in.", "quantifier": "every history of the request handler and every set of requests and windows", "why_tests_cant": "A test fixes finitely many inputs; this must hold for every one of an unbounded set.", "anchors": ["celest/schedule/request_handler.py: RequestHandler.sort_vtws_by_increasing_conflict_degree, RequestHandler.sort_by_decreasing_conflict_degree, RequestHandler._conflict_degree"]}
{"id": "C176", "title": "Distance, elevation and look angle of a satellite given in the celestial frame", "statement": "For a satellite given by its GCRS position, the computed distance from a ground location is right up to 7e-9 of its distance from the centre of the Earth, and the computed elevation and look angle are within 5e-5 degrees of those of the exact position, or not-a-number that close to the vertical.", "quantifier": "every date of the Julian calendar modelled, every location, every unit of length, every position between 1000 and 900000 km from the centre of the Earth and 101 km from the location, every mathematics library and numpy within the stated error bounds", "why_tests_cant": "A test fixes finitely many inputs; this must hold for every one of an unbounded set.", "anchors": ["celest/satellite.py: Satellite.__init__, Satellite.distance, Satellite.look_angle", "celest/coordinates/transforms.py: _gcrs_to_itrs, _elevation", "celest/coordinates/coordinate.py: Coordinate.convert_to"]}
{"id": "C177", "title": "The elevation of the Sun as computed", "statement": "The elevation of a body far away, given by its GCRS position, is within 5e-6 degrees of that of the exact position, or not-a-number that close to the vertical.", "quantifier": "every date, location and position between 30000 and 900000000 km from the centre of the Earth, every mathematics library and numpy within the stated error bounds", "why_tests_cant": "A test fixes finitely many inputs; this must hold for every one of an unbounded set.", "anchors": ["celest/encounter/window_generator.py: _get_sun_elevation", "celest/coordinates/transforms.py: _gcrs_to_itrs, _elevation"]}
{"id": "C178", "title": "Windows of a satellite given in the celestial frame", "statement": "The windows generated from GCRS positions are the runs of consecutive samples that count, each from the sample before the run to its last sample, where every sample that counts has an exact elevation above the threshold and a Sun above or below the horizon as asked, up to 5e-5 and 5e-6 degrees, and every sample for which this holds with that much to spare counts; a threshold out of range or an unknown condition on the light is refused.", "quantifier": "every series of dates and positions of satellite and Sun, every location, threshold and condition on the light", "why_tests_cant": "A test fixes finitely many inputs; this must hold for every one of an unbounded set.", "anchors": ["celest/encounter/window_generator.py: generate_vtws, _lighting_constraint_indices, _get_sun_elevation", "celest/satellite.py: Satellite.__init__"]}
{"id": "C179", "title": "Distance, elevation and look angle of a place given by latitude, longitude and height", "statement": "A place given by its latitude, longitude and height (WGS84) is measured from a ground location as if at that height on the vertical of the ellipsoid: the computed distance is right within 5e-9 km, the elevation and the look angle within 5e-6 degrees, 5e-9 degrees away from the vertical, or not-a-number that close to the vertical.", "quantifier": "every location, every latitude, longitude and height from 6000 km below to 100000 km above the ellipsoid in any units, at least 2 m (distance) or 101 km (angles) from the location, every mathematics library and numpy within the stated error bounds", "why_tests_cant": "A test fixes finitely many inputs; this must hold for every one of an unbounded set.", "anchors": ["celest/coordinates/coordinate.py: Coordinate._convert_from_wgs84", "celest/coordinates/transforms.py: _wgs84_to_itrs, _itrs_to_azel", "celest/satellite.py: Satellite.distance, Satellite.look_angle"]}
{"id": "C180", "title": "Computed astronomical quantities against the published formulas", "statement": "Within a century of J2000.0 the numbers computed in floating point agree with the formulas of the book cited: nutation within 5e-6 and 3e-6 arcseconds, mean obliquity within 5e-14 degrees and true obliquity within 1e-9 degrees, equation of time within 2.1e-5 radians, right ascension of the Sun within 0.0021 degrees going round the circle, true solar time and hour angle within 8e-5 hours (0.29 seconds) going round the clock.", "quantifier": "all Julian dates within a century of J2000.0, all longitudes between -360 and 360 degrees, all numpy libraries with the stated error bounds", "why_tests_cant": "A test fixes finitely many inputs; this must hold for every one of an unbounded set.", "anchors": ["celest/coordinates/astronomical_quantities.py: nutation_components, mean_obliquity, apparent_obliquity, equation_of_time, sun_right_ascension", "celest/time.py: Time.true_solar_time, Time.true_hour_angle"]}
{"id": "C181", "title": "Computed sidereal time at Greenwich against the published formula", "statement": "The mean sidereal time at Greenwich computed in floating point is that of Meeus (12.4), and the apparent one adds the equation of the equinoxes.", "quantifier": "all Julian dates from the year 1029 to 6771 (apparent time: within a century of J2000.0), all numpy libraries with the stated error bounds", "why_tests_cant": "A test fixes finitely many inputs; this must hold for every one of an unbounded set.", "anchors": ["celest/time.py: Time.gmst, Time.gast"]}
{"id": "C182", "title": "Numbers of positions and velocities in the LVLH frame", "statement": "A single velocity counts for every position, as if it had been repeated; any other difference between the number of velocities and the number of positions raises a ValueError.", "quantifier": "all lengths, positions and velocities", "why_tests_cant": "A test fixes finitely many inputs; this must hold for every one of an unbounded set.", "anchors": ["celest/coordinates/transforms.py: _gcrs_to_lvlh, _gcrs_to_lvlh_matrix"]}
{"id": "C183", "title": "Nutation turns by the obliquity of the date", "statement": "Nutation turns to the ecliptic by the mean obliquity of the date, there by the nutation in longitude, and back by the true obliquity.", "quantifier": "every Julian date within a century of J2000.0", "why_tests_cant": "A test fixes finitely many inputs; this must hold for every one of an unbounded set.", "anchors": ["celest/coordinates/nutation_precession_matrices.py: nutation_matrix"]}
{"id": "C184", "title": "Conversion between units of any size", "statement": "A quantity converted to another unit of the same dimension keeps its magnitude, whatever the sizes of the units, zero and negative ones included, unless the conversion needs a division by zero (a unit of size zero in a denominator, or as the new unit), and then a ZeroDivisionError is raised.", "quantifier": "all quantities and units of the same dimension with different texts, of any sizes and powers", "why_tests_cant": "A test fixes finitely many inputs; this must hold for every one of an unbounded set.", "anchors": ["celest/units/quantity.py: Quantity.convert_to"]}
{"id": "C185", "title": "Altitude is the distance to the ellipsoid", "statement": "The altitude of a satellite is within 10.71 km of the distance from the satellite to the nearest point of the WGS84 ellipsoid (within 0.501 km when the computation does at least one round), for every satellite on or outside the ellipsoid; there always is such a nearest distance and just one; in floating point the computation ends within six rounds with finite numbers.", "quantifier": "every non-empty array of satellites on or outside the ellipsoid, off the axis (in floating point: within 100000 km and not almost above a pole), every unit of length", "why_tests_cant": "A test fixes finitely many inputs; this must hold for every one of an unbounded set.", "anchors": ["celest/satellite.py: Satellite.altitude", "celest/coordinates/transforms.py: _altitude"]}
{"id": "C186", "title": "Altitude of satellites given in the celestial frame", "statement": "A satellite given by positions in the celestial frame (GCRS) and times has, in floating point, altitudes within 10.711 km (0.502 km after at least one round) of the distance between the place where the exact conversion to the rotating frame puts it and the nearest point of the WGS84 ellipsoid.", "quantifier": "every non-empty array of GCRS positions between 6380 km and 99999 km from the centre of the Earth that the conversion does not put almost above a pole, every unit of length, every Julian date from 2097152 to 4194303", "why_tests_cant": "A test fixes finitely many inputs; this must hold for every one of an unbounded set.", "anchors": ["celest/satellite.py: Satellite.__init__, Satellite.altitude", "celest/coordinates/transforms.py: _altitude, _gcrs_to_itrs", "celest/coordinates/coordinate.py: Coordinate.convert_to"]}
{"id": "C187", "title": "Windows carry attitudes that point at the location", "statement": "Every window that the window generator returns in floating point carries, for all the times of the satellite, an attitude whose roll, pitch and yaw are finite, agree with the exact attitude and turn the satellite to the location up to a small error; the windows and the exceptions are otherwise those of the elevations, and without a velocity a Warning is raised whatever the other arguments.", "quantifier": "every location on the Earth, every array of times, positions and velocities with the location below the satellite, every threshold and lighting condition", "why_tests_cant": "A test fixes finitely many inputs; this must hold for every one of an unbounded set.", "anchors": ["celest/encounter/window_generator.py: generate_vtws", "celest/satellite.py: Satellite.attitude", "celest/encounter/window_handling.py: VisibleTimeWindow"]}
{"id": "C188", "title": "Latitude, longitude and height of satellites given in the celestial frame", "statement": "Converting positions in the celestial frame (GCRS) to geographical coordinates (WGS84) gives, in floating point, finite numbers: the geocentric latitude and the longitude of the place where the exact conversion to the rotating frame puts the satellite, the latitude up to 7e-9 radians and the longitude up to 7e-9 radians divided by the cosine of the latitude, and a height within 10.711 km of the distance to the WGS84 ellipsoid.", "quantifier": "every non-empty array of GCRS positions between 6380 km and 99999 km from the centre of the Earth that the conversion does not put almost above a pole, every unit of length, every Julian date from 2097152 to 4194303", "why_tests_cant": "A test fixes finitely many inputs; this must hold for every one of an unbounded set.", "anchors": ["celest/coordinates/coordinate.py: Coordinate.convert_to", "celest/coordinates/transforms.py: _gcrs_to_itrs, _itrs_to_wgs84, _altitude"]}
{"id": "C189", "title": "Latitudes are geodetic latitudes up to 0.0034 radians", "statement": "The latitude that converting positions to geographical coordinates (WGS84) returns in floating point, from the rotating frame (ITRS) or from the celestial frame (GCRS), is finite and within 0.0034001 radians (0.195 degrees) of the geodetic latitude, the angle between the plane of the equator and the vertical through the position; every position on or outside the WGS84 ellipsoid has exactly one geodetic latitude; without rounding it is also never farther from the equator than the geodetic latitude, and at a point of the ellipsoid at geodetic latitude 45 degrees it is more than 0.0033 radians less.", "quantifier": "every non-empty array of ITRS positions on or outside the ellipsoid and not almost on the axis, of GCRS positions as in C188, every unit of length", "why_tests_cant": "A test fixes finitely many inputs; this must hold for every one of an unbounded set.", "anchors": ["celest/coordinates/coordinate.py: Coordinate.convert_to", "celest/coordinates/transforms.py: _itrs_to_wgs84, _gcrs_to_itrs"]}
{"id": "C190", "title": "Elevations are above the true horizon up to 0.195 degrees", "statement": "The elevation of a satellite is within 0.195 degrees of its elevation above the plane through the location perpendicular to the vertical there (the direction that the latitude and longitude of the location stand for). In floating point, from positions in the rotating frame (ITRS) or in the celestial frame (GCRS), the elevation is within 0.1951 degrees of it, or is not-a-number, which happens only when the satellite is within 0.2 degrees of the vertical line through the location.", "quantifier": "every ground location not lower than 50 km below the ellipsoid, every satellite position away from the location (in floating point at least 100 km away, from the GCRS frame 101 km), every array of positions", "why_tests_cant": "A test fixes finitely many inputs; this must hold for every one of an unbounded set.", "anchors": ["celest/coordinates/transforms.py: _itrs_to_azel, _elevation, _get_ang", "celest/coordinates/ground_location.py: GroundLocation"]}
{"id": "C191", "title": "Windows against the true horizon", "statement": "At every sample inside a window the satellite is higher above the true horizon (the plane perpendicular to the vertical) than the elevation threshold less 0.195 degrees; without a lighting condition every sample at which it is higher than the threshold plus 0.195 degrees is inside a window.", "quantifier": "every satellite track with velocities and increasing times, of every length, every ground location not lower than 50 km below the ellipsoid and not on the track, threshold and motion of the Sun", "why_tests_cant": "A test fixes finitely many inputs; this must hold for every one of an unbounded set.", "anchors": ["celest/encounter/window_generator.py: generate_vtw", "celest/coordinates/transforms.py: _itrs_to_azel, _elevation"]}
