(** Model of the rest of the clocks on binary64 floating-point numbers
    (celest/coordinates/astronomical_quantities.py, celest/time.py), with the rounding of IEEE
    754 as formalised in Flocq.  Time_Model.v is the same code on exact numbers.

    Simplifications: one time (and one longitude) of the arrays at a time; the functions of numpy
    whose last digits are not specified are parameters ([arrays], [more]); unit conversions are
    between units of angles and cannot raise (celest/units/quantity.py:253-297). *)
From Coq Require Import List ZArith Bool.
From Flocq Require Import Core.Core IEEE754.BinarySingleNaN IEEE754.Binary IEEE754.Bits.
From Verif Require Import Py Fl_Model Flg_Model Flc_Model Flr_Model.
Open Scope Z_scope.

(** numpy: [np.tan] and [np.arctan2] (y first) *)
Record more := More { n_tan : float -> float; n_arctan2 : float -> float -> float }.

Section Numpy.
Variable A : arrays.
Variable B : more.

(** ** celest/coordinates/astronomical_quantities.py *)

(** celest/coordinates/astronomical_quantities.py:119-122, in degrees *)
Definition fmean_elongation (jd : float) : float :=
  fpymod (fadd (fsub (fadd (literal 29785036 100000) (fmul (literal 445267111480 1000000) (ft A jd 1)))
                     (fmul (literal 19142 10000000) (ft A jd 2)))
               (fdiv (ft A jd 3) (of_Z 189474))) (of_Z 360).
(** celest/coordinates/astronomical_quantities.py:130-133, in degrees *)
Definition fmean_anomaly_of_sun (jd : float) : float :=
  fpymod (fsub (fsub (fadd (literal 35752772 100000) (fmul (literal 35999050340 1000000) (ft A jd 1)))
                     (fmul (literal 1603 10000000) (ft A jd 2)))
               (fdiv (ft A jd 3) (of_Z 300000))) (of_Z 360).
(** celest/coordinates/astronomical_quantities.py:136-139, in degrees *)
Definition fmean_anomaly_of_moon (jd : float) : float :=
  fpymod (fadd (fadd (fadd (literal 13496298 100000) (fmul (literal 477198867398 1000000) (ft A jd 1)))
                     (fmul (literal 86972 10000000) (ft A jd 2)))
               (fdiv (ft A jd 3) (of_Z 56250))) (of_Z 360).
(** celest/coordinates/astronomical_quantities.py:142-145, in degrees *)
Definition fargument_of_latitude (jd : float) : float :=
  fpymod (fadd (fsub (fadd (literal 9327191 100000) (fmul (literal 483202017538 1000000) (ft A jd 1)))
                     (fmul (literal 36825 10000000) (ft A jd 2)))
               (fdiv (ft A jd 3) (of_Z 327270))) (of_Z 360).
(** celest/coordinates/astronomical_quantities.py:58-116: the five angles in the order of the tuple *)
Definition fnutation_angles (jd : float) : float * float * float * float * float :=
  (fmean_elongation jd, fmean_anomaly_of_sun jd, fmean_anomaly_of_moon jd,
   fargument_of_latitude jd, flongitude_of_ascending_node A jd).

(** celest/coordinates/astronomical_quantities.py:327-365, in degrees: the sum is in the unit of the first operand *)
Definition fapparent_obliquity (jd : float) : float :=
  fadd (fmean_obliquity A jd) (fto (snd (fnutation_components A jd)) Uarcsec Udeg).
(** celest/coordinates/astronomical_quantities.py:518-521, in "radians" (converting them to radians changes nothing) *)
Definition fearth_eccentricity (jd : float) : float :=
  fsub (fsub (literal 16708634 1000000000) (fmul (literal 42037 1000000000) (ft A jd 1)))
       (fmul (literal 1267 10000000000) (a_pow A (ft A jd 1) 2)).
(** celest/coordinates/astronomical_quantities.py:472-515, in radians *)
Definition fequation_of_time (jd : float) : float :=
  let l := fto (fmean_longitude_of_sun A jd) Udeg Urad in
  let m := fto (fmean_anomaly_of_sun jd) Udeg Urad in
  let e := fearth_eccentricity jd in
  let y := a_pow A (n_tan B (fdiv (fto (fapparent_obliquity jd) Udeg Urad) (of_Z 2))) 2 in
  let e1 := fmul y (a_sin A (fmul (of_Z 2) l)) in
  let e2 := fmul (fmul (of_Z (-2)) e) (a_sin A m) in
  let e3 := fmul (fmul (fmul (fmul (of_Z 4) e) y) (a_sin A m)) (a_cos A (fmul (of_Z 2) l)) in
  let e4 := fmul (fmul (fneg (literal 5 10)) (a_pow A y 2)) (a_sin A (fmul (of_Z 4) l)) in
  let e5 := fmul (fmul (fneg (literal 125 100)) (a_pow A e 2)) (a_sin A (fmul (of_Z 2) m)) in
  fadd (fadd (fadd (fadd e1 e2) e3) e4) e5.
(** celest/coordinates/astronomical_quantities.py:524-560, in arcseconds *)
Definition fequation_of_equinoxes (jd : float) : float :=
  fdiv (fmul (fst (fnutation_components A jd)) (a_cos A (fto (fapparent_obliquity jd) Udeg Urad))) (of_Z 15).
(** [np.pi] *)
Definition fpi : float := literal 3141592653589793 1000000000000000.
(** celest/coordinates/astronomical_quantities.py:563-610, in radians *)
Definition fsun_right_ascension (jd : float) : float :=
  let l := fmean_longitude_of_sun A jd in
  let m := fto (fmean_anomaly_of_sun jd) Udeg Urad in
  let t1 := ft A jd 1 in
  let t2 := ft A jd 2 in
  let center :=
    fadd (fadd (fmul (fsub (fsub (literal 1914602 1000000) (fmul (literal 4817 1000000) t1)) (fmul (literal 14 1000000) t2)) (a_sin A m))
               (fmul (fsub (literal 19993 1000000) (fmul (literal 101 1000000) t1)) (a_sin A (fmul (of_Z 2) m))))
         (fmul (literal 289 1000000) (a_sin A (fmul (of_Z 3) m))) in
  let true_longitude := fradians (fadd l center) in
  let obliquity := fto (fmean_obliquity A jd) Udeg Urad in
  let alpha := n_arctan2 B (fmul (a_cos A obliquity) (a_sin A true_longitude)) (a_cos A true_longitude) in
  fpymod alpha (fmul (of_Z 2) fpi).

(** ** celest/time.py *)

(** celest/time.py:125-170, in hours *)
Definition ftrue_solar_time (julian longitude : float) : float :=
  let eqn_of_time := fto (fequation_of_time julian) Urad Udeg in
  let utc := fsub (fmul (of_Z 24) (fpymod julian (of_Z 1))) (of_Z 12) in
  fpymod (fadd utc (fdiv (fadd longitude eqn_of_time) (of_Z 15))) (of_Z 24).
(** celest/time.py:217-267, in hours *)
Definition ftrue_hour_angle (julian longitude : float) : float :=
  fpymod (fsub (ftrue_solar_time julian longitude) (of_Z 12)) (of_Z 24).
(** celest/time.py:379-409, in hours *)
Definition fgmst (jd : float) : float :=
  let gmst := fsub (fadd (fadd (literal 28046 100) (fmul (fmul (literal 36098564736629 100000000000) (ft A jd 1)) (of_Z 36525)))
                         (fmul (literal 387933 1000000000) (ft A jd 2)))
                   (fdiv (ft A jd 3) (of_Z 38710000)) in
  fdiv (fpymod gmst (of_Z 360)) (of_Z 15).
(** celest/time.py:411-451, in hours *)
Definition flmst (jd longitude : float) : float :=
  fpymod (fadd (fmean_hour_angle jd longitude) (fto (fsun_right_ascension jd) Urad Uhourangle)) (of_Z 24).
(** celest/time.py:453-483, in hours: the equation of the equinoxes in degrees is added to hours *)
Definition fgast (jd : float) : float :=
  fadd (fgmst jd) (fto (fequation_of_equinoxes jd) Uarcsec Udeg).
(** celest/time.py:485-526, in hours *)
Definition flast (jd longitude : float) : float :=
  fpymod (fadd (fadd (fadd (fsub (fut1 jd) (of_Z 12)) (fto (fsun_right_ascension jd) Urad Uhourangle))
                     (fto (fequation_of_equinoxes jd) Uarcsec Udeg))
               (fdiv longitude (of_Z 15))) (of_Z 24).
End Numpy.
