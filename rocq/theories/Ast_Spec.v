(** The formulas that the documentation of celest/coordinates/astronomical_quantities.py
    refers to, written from the books: J. Meeus, Astronomical Algorithms (2nd edition),
    chapters 12, 22, 25 and 28, and the precession of the IAU 2000 model (IERS Conventions
    2003).  The books were not at hand when this file was written: the constants are quoted
    from general knowledge of them.  Times are Julian centuries [T] from J2000.0. *)
From Coq Require Import List Reals.
Import ListNotations.
Open Scope R_scope.

(** c0 + c1 t + c2 t^2 + ... *)
Fixpoint poly (c : list R) (t : R) : R := match c with [] => 0 | a :: r => a + t * poly r t end.
(** Degrees in radians, and degrees, minutes and seconds in degrees. *)
Definition in_radians (degrees : R) : R := degrees * PI / 180.
Definition dms (d m s : R) : R := d + m / 60 + s / 3600.

(** Meeus (22.3), after Laskar: the mean obliquity in degrees; [U] in 10000 years. *)
Definition laskar_obliquity (U : R) : R :=
  dms 23 26 21.448 + dms 0 0 (poly [0; -4680.93; -1.55; 1999.25; -51.38; -249.67; -39.05; 7.12; 27.87; 5.79; 2.45] U).

(** Meeus, page 144: the arguments of the short nutation series, in degrees ... *)
Definition meeus_node (T : R) : R := poly [125.04452; -1934.136261; 0.0020708; 1 / 450000] T.
Definition meeus_sun (T : R) : R := poly [280.4665; 36000.7698] T.
Definition meeus_moon (T : R) : R := poly [218.3165; 481267.8813] T.
(** ... and the series: an amplitude in arcseconds and a multiple of one of the arguments
    for each term. *)
Definition harmonic (f : R -> R) (amplitude multiple argument : R) : R := amplitude * f (multiple * in_radians argument).
Definition meeus_nutation_longitude (T : R) : R :=
  harmonic sin (-17.20) 1 (meeus_node T) + harmonic sin (-1.32) 2 (meeus_sun T) + harmonic sin (-0.23) 2 (meeus_moon T) + harmonic sin 0.21 2 (meeus_node T).
Definition meeus_nutation_obliquity (T : R) : R :=
  harmonic cos 9.20 1 (meeus_node T) + harmonic cos 0.57 2 (meeus_sun T) + harmonic cos 0.10 2 (meeus_moon T) + harmonic cos (-0.09) 2 (meeus_node T).

(** Meeus, chapter 25: geometric mean longitude and mean anomaly of the Sun, equation of the
    centre (degrees), eccentricity of the Earth's orbit. *)
Definition meeus_mean_longitude (T : R) : R := poly [280.46646; 36000.76983; 0.0003032] T.
Definition meeus_mean_anomaly (T : R) : R := poly [357.52911; 35999.05029; -0.0001537] T.
Definition meeus_eccentricity (T : R) : R := poly [0.016708634; -0.000042037; -0.0000001267] T.
Definition meeus_centre (T : R) : R :=
  let M := in_radians (meeus_mean_anomaly T) in
  poly [1.914602; -0.004817; -0.000014] T * sin M + poly [0.019993; -0.000101] T * sin (2 * M) + 0.000289 * sin (3 * M).
(** The direction of the Sun in the plane of the equator, from its true longitude and the
    mean obliquity. *)
Definition meeus_true_longitude (T : R) : R := in_radians (meeus_mean_longitude T + meeus_centre T).
Definition meeus_equator_x (T : R) : R := cos (meeus_true_longitude T).
Definition meeus_equator_y (T : R) : R := cos (in_radians (laskar_obliquity (T / 100))) * sin (meeus_true_longitude T).
(** [a] is the angle of the point [(x, y)]. *)
Definition angle_of_point (a x y : R) : Prop := exists r, 0 < r /\ x = r * cos a /\ y = r * sin a.

(** Meeus (28.3), after Smart: the equation of time in radians. *)
Definition smart_equation (obliquity L M e : R) : R :=
  let y := tan (obliquity / 2) ^ 2 in
  y * sin (2 * L) - 2 * e * sin M + 4 * e * y * sin M * cos (2 * L) - 1 / 2 * y ^ 2 * sin (4 * L) - 5 / 4 * e ^ 2 * sin (2 * M).
Definition meeus_equation_of_time (T : R) : R :=
  smart_equation (in_radians (laskar_obliquity (T / 100))) (in_radians (meeus_mean_longitude T)) (in_radians (meeus_mean_anomaly T)) (meeus_eccentricity T).

(** IAU 2000: the precession angles in arcseconds. *)
Definition iau_zeta (T : R) : R := poly [2.5976176; 2306.0809506; 0.3019015; 0.0179663; -0.0000327; -0.0000002] T.
Definition iau_theta (T : R) : R := poly [0; 2004.1917476; -0.4269353; -0.0418251; -0.0000601; -0.0000001] T.
Definition iau_z (T : R) : R := poly [-2.5976176; 2306.0803226; 1.0947790; 0.0182273; 0.0000470; -0.0000003] T.
