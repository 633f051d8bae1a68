(** Model of celest/time.py (except datetime, see Cal_Model) and of the rest of
    celest/coordinates/astronomical_quantities.py.

    Simplifications: floats are exact real numbers, decimal literals the decimals they
    show; the functions of a time alone are given for one Julian date (numpy applies them to
    every entry of an array), and the quantities are numbers in the unit named in the
    comment. *)
From Coq Require Import List Reals.
From Verif Require Import Py.
Import ListNotations.
Open Scope R_scope.
Open Scope list_scope.

(** ** numpy on real numbers *)

(** [x % m] for a positive [m]. *)
Definition Rmod (x m : R) : R := x - m * IZR (Int_part (x / m)).

(** [np.arctan2(y, x)] *)
Definition atan2 (y x : R) : R :=
  if Rlt_dec 0 x then atan (y / x)
  else if Rlt_dec x 0 then (if Rlt_dec y 0 then atan (y / x) - PI else atan (y / x) + PI)
  else if Rlt_dec 0 y then PI / 2 else if Rlt_dec y 0 then - (PI / 2) else 0.

(** [np.radians] and [np.degrees] *)
Definition radians (x : R) : R := x * (PI / 180).
Definition degrees (x : R) : R := x * (180 / PI).

(** ** Unit conversions: celest/units/unit_initialization.py:35-39 with the rule of
    celest/units/quantity.py:253-297 (the data times the quotient of the scales). *)
Definition deg_per_rad : R := 57.29577951308232.
Definition deg_to_rad (x : R) : R := x * (1 / deg_per_rad).
Definition rad_to_deg (x : R) : R := x * (deg_per_rad / 1).
Definition arcsec_to_deg (x : R) : R := x * ((1 / 3600) / 1).
Definition arcsec_to_rad (x : R) : R := x * ((1 / 3600) / deg_per_rad).
Definition rad_to_hourangle (x : R) : R := x * (deg_per_rad / 15).

(** ** celest/constants.py:4-10 *)
Definition jd2000_date : R := 2451545.
Definition days_in_century : R := 36525.
Definition earth_rotation_rate_deg_per_day : R := 360.9856123035484.
Definition era_at_jd2000_deg : R := 280.46.

(** ** celest/coordinates/astronomical_quantities.py *)

(** celest/coordinates/astronomical_quantities.py:17-56, in degrees *)
Definition earth_rotation_angle (jd : R) : R :=
  let days_since_jd2000 := jd - jd2000_date in
  Rmod (earth_rotation_rate_deg_per_day * days_since_jd2000 + era_at_jd2000_deg) 360.

(** celest/coordinates/astronomical_quantities.py:125-127; the powers are written where they are used *)
Definition centuries (jd : R) : R := (jd - jd2000_date) / days_in_century.

(** celest/coordinates/astronomical_quantities.py:119-122, in degrees *)
Definition mean_elongation_moon_from_sun (jd : R) : R :=
  let t := centuries jd in
  Rmod (297.85036 + 445267.111480 * t - 0.0019142 * t ^ 2 + t ^ 3 / 189474) 360.
(** celest/coordinates/astronomical_quantities.py:130-133, in degrees *)
Definition mean_anomaly_of_sun (jd : R) : R :=
  let t := centuries jd in
  Rmod (357.52772 + 35999.050340 * t - 0.0001603 * t ^ 2 - t ^ 3 / 300000) 360.
(** celest/coordinates/astronomical_quantities.py:136-139, in degrees *)
Definition mean_anomaly_of_moon (jd : R) : R :=
  let t := centuries jd in
  Rmod (134.96298 + 477198.867398 * t + 0.0086972 * t ^ 2 + t ^ 3 / 56250) 360.
(** celest/coordinates/astronomical_quantities.py:142-145, in degrees *)
Definition moons_argument_of_latitude (jd : R) : R :=
  let t := centuries jd in
  Rmod (93.27191 + 483202.017538 * t - 0.0036825 * t ^ 2 + t ^ 3 / 327270) 360.
(** celest/coordinates/astronomical_quantities.py:148-151, in degrees *)
Definition longitude_of_ascending_node (jd : R) : R :=
  let t := centuries jd in
  Rmod (125.04452 - 1934.136261 * t + 0.0020708 * t ^ 2 + t ^ 3 / 450000) 360.
(** celest/coordinates/astronomical_quantities.py:58-116: the five angles in the order of the tuple *)
Definition nutation_angles (jd : R) : R * R * R * R * R :=
  (mean_elongation_moon_from_sun jd, mean_anomaly_of_sun jd, mean_anomaly_of_moon jd,
   moons_argument_of_latitude jd, longitude_of_ascending_node jd).

(** celest/coordinates/astronomical_quantities.py:198-205, in degrees *)
Definition mean_longitude_of_sun (jd : R) : R := 280.46645 + 36000.76983 * centuries jd.
Definition mean_longitude_of_moon (jd : R) : R := 218.3165 + 481267.8813 * centuries jd.
(** celest/coordinates/astronomical_quantities.py:208-216, arguments in degrees, in arcseconds *)
Definition nutation_in_longitude (node sun moon : R) : R :=
  let p1 := - 17.20 * sin (deg_to_rad node) in
  let p2 := - 1.32 * sin (2 * deg_to_rad sun) in
  let p3 := - 0.23 * sin (2 * deg_to_rad moon) in
  let p4 := 0.21 * sin (2 * deg_to_rad node) in
  p1 + p2 + p3 + p4.
(** celest/coordinates/astronomical_quantities.py:219-227, arguments in degrees, in arcseconds *)
Definition nutation_in_obliquity (node sun moon : R) : R :=
  let e1 := 9.20 * cos (deg_to_rad node) in
  let e2 := 0.57 * cos (2 * deg_to_rad sun) in
  let e3 := 0.10 * cos (2 * deg_to_rad moon) in
  let e4 := - 0.09 * cos (2 * deg_to_rad node) in
  e1 + e2 + e3 + e4.
(** celest/coordinates/astronomical_quantities.py:154-195, both in arcseconds *)
Definition nutation_components (jd : R) : R * R :=
  let node := longitude_of_ascending_node jd in
  let sun := mean_longitude_of_sun jd in
  let moon := mean_longitude_of_moon jd in
  (nutation_in_longitude node sun moon, nutation_in_obliquity node sun moon).

(** celest/coordinates/astronomical_quantities.py:261-279, in arcseconds *)
Definition zeta_precession_angle (jd : R) : R :=
  let t := centuries jd in
  2.59796176 + 2306.0809506 * t + 0.3019015 * t ^ 2 + 0.0179663 * t ^ 3 - 0.0000327 * t ^ 4 - 0.0000002 * t ^ 5.
Definition theta_precession_angle (jd : R) : R :=
  let t := centuries jd in
  2004.1917476 * t - 0.4269353 * t ^ 2 - 0.0418251 * t ^ 3 - 0.0000601 * t ^ 4 - 0.0000001 * t ^ 5.
Definition z_precession_angle (jd : R) : R :=
  let t := centuries jd in
  - 2.5976176 + 2306.0803226 * t + 1.0947790 * t ^ 2 + 0.0182273 * t ^ 3 + 0.0000470 * t ^ 4 - 0.0000003 * t ^ 5.

(** celest/coordinates/astronomical_quantities.py:282-324, in degrees *)
Definition mean_obliquity (jd : R) : R :=
  let u := centuries jd / 100 in
  (84381.448 - 4680.93 * u - 1.55 * u ^ 2 + 1999.25 * u ^ 3 - 51.38 * u ^ 4 - 249.67 * u ^ 5
   - 39.05 * u ^ 6 + 7.12 * u ^ 7 + 27.87 * u ^ 8 + 5.79 * u ^ 9 + 2.45 * u ^ 10) / 3600.
(** celest/coordinates/astronomical_quantities.py:327-365, in degrees: the sum is in the unit of the first operand *)
Definition apparent_obliquity (jd : R) : R :=
  mean_obliquity jd + arcsec_to_deg (snd (nutation_components jd)).

(** celest/coordinates/astronomical_quantities.py:518-521, in "radians" *)
Definition earth_eccentricity (jd : R) : R :=
  let t := centuries jd in 0.016708634 - 0.000042037 * t - 0.0000001267 * t ^ 2.
(** celest/coordinates/astronomical_quantities.py:472-515, in radians *)
Definition equation_of_time (jd : R) : R :=
  let l := deg_to_rad (mean_longitude_of_sun jd) in
  let m := deg_to_rad (mean_anomaly_of_sun jd) in
  let e := earth_eccentricity jd in
  let y := tan (deg_to_rad (apparent_obliquity jd) / 2) ^ 2 in
  let e1 := y * sin (2 * l) in
  let e2 := - 2 * e * sin m in
  let e3 := 4 * e * y * sin m * cos (2 * l) in
  let e4 := - 0.5 * y ^ 2 * sin (4 * l) in
  let e5 := - 1.25 * e ^ 2 * sin (2 * m) in
  e1 + e2 + e3 + e4 + e5.

(** celest/coordinates/astronomical_quantities.py:524-560, in arcseconds *)
Definition equation_of_equinoxes (jd : R) : R :=
  fst (nutation_components jd) * cos (deg_to_rad (apparent_obliquity jd)) / 15.

(** celest/coordinates/astronomical_quantities.py:563-610, in radians *)
Definition sun_right_ascension (jd : R) : R :=
  let l := mean_longitude_of_sun jd in
  let m := deg_to_rad (mean_anomaly_of_sun jd) in
  let t := centuries jd in
  let center := (1.914602 - 0.004817 * t - 0.000014 * t ^ 2) * sin m
              + (0.019993 - 0.000101 * t) * sin (2 * m) + 0.000289 * sin (3 * m) in
  let true_longitude := radians (l + center) in
  let obliquity := deg_to_rad (mean_obliquity jd) in
  Rmod (atan2 (cos obliquity * sin true_longitude) (cos true_longitude)) (2 * PI).

(** ** celest/time.py *)

(** What [np.array(julian)] may be: a number, a 1-D array, an array of more dimensions. *)
Inductive np_input :=
| Scalar (x : R)
| Vector (l : list R)
| Nested (rows : list np_input).

(** celest/time.py:85-110: the array of Julian dates *)
Definition time_init (julian : np_input) (offset : R) : res (list R) :=
  match julian with
  | Scalar x => Ok (map (fun y => y + offset) [x])
  | Vector l => Ok (map (fun y => y + offset) l)
  | Nested _ => Raise ValueError
  end.

(** The longitude of the methods below is [np.array(longitude)], a number being a
    one-entry array (numpy broadcasts the two in the same way). *)

(** celest/time.py:125-170, in hours *)
Definition true_solar_time (julian longitude : list R) : res (list R) :=
  let eqn_of_time := map (fun jd => rad_to_deg (equation_of_time jd)) julian in
  let utc_time := map (fun jd => 24 * Rmod jd 1 - 12) julian in
  s <- np_broadcast Rplus longitude eqn_of_time ;;
  s <- np_broadcast Rplus utc_time (map (fun x => x / 15) s) ;;
  Ok (map (fun x => Rmod x 24) s).
(** celest/time.py:172-215, in hours *)
Definition mean_solar_time (julian longitude : list R) : res (list R) :=
  let utc_time := map (fun jd => 24 * Rmod jd 1 - 12) julian in
  s <- np_broadcast Rplus utc_time (map (fun x => x / 15) longitude) ;;
  Ok (map (fun x => Rmod x 24) s).
(** celest/time.py:217-267, in hours *)
Definition true_hour_angle (julian longitude : list R) : res (list R) :=
  s <- true_solar_time julian longitude ;;
  Ok (map (fun x => Rmod (x - 12) 24) s).
(** celest/time.py:269-317, in hours *)
Definition mean_hour_angle (julian longitude : list R) : res (list R) :=
  s <- mean_solar_time julian longitude ;;
  Ok (map (fun x => Rmod (x - 12) 24) s).
(** celest/time.py:319-349, in hours *)
Definition ut1 (julian : list R) : res (list R) := mean_solar_time julian [0].

(** celest/time.py:379-409, one entry, in hours *)
Definition gmst (jd : R) : R :=
  let t := centuries jd in
  Rmod (era_at_jd2000_deg + 360.98564736629 * t * days_in_century + 0.000387933 * t ^ 2 - t ^ 3 / 38710000) 360 / 15.
(** celest/time.py:411-451, in hours *)
Definition lmst (julian longitude : list R) : res (list R) :=
  hour_angle <- mean_hour_angle julian longitude ;;
  let right_ascension := map (fun jd => rad_to_hourangle (sun_right_ascension jd)) julian in
  s <- np_broadcast Rplus hour_angle right_ascension ;;
  Ok (map (fun x => Rmod x 24) s).
(** celest/time.py:453-483, one entry, in hours: the equation of the equinoxes is converted
    to degrees and added to hours *)
Definition gast (jd : R) : R := gmst jd + arcsec_to_deg (equation_of_equinoxes jd).
(** celest/time.py:485-526, in hours *)
Definition last_ (julian longitude : list R) : res (list R) :=
  u <- ut1 julian ;;
  let right_ascension := map (fun jd => rad_to_hourangle (sun_right_ascension jd)) julian in
  let eqn_of_equinoxes := map (fun jd => arcsec_to_deg (equation_of_equinoxes jd)) julian in
  s <- np_broadcast Rplus (map (fun x => x - 12) u) right_ascension ;;
  s <- np_broadcast Rplus s eqn_of_equinoxes ;;
  s <- np_broadcast Rplus s (map (fun x => x / 15) longitude) ;;
  Ok (map (fun x => Rmod x 24) s).
