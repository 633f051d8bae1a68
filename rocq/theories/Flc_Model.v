(** Model of the calendar and of the clock functions on binary64 floating-point numbers
    (celest/coordinates/astronomical_quantities.py, celest/time.py), with the rounding of IEEE
    754 as formalised in Flocq.  Cal_Model.v and Time_Model.v are the same code on exact
    numbers.

    Simplifications: arrays are 1-D (lists), a scalar being the one-element array the code makes
    of it; array integers are unbounded; the input is the data of the quantity in the jd2000
    unit. *)
From Coq Require Import List ZArith Bool Arith.
From Flocq Require Import Core.Core IEEE754.BinarySingleNaN IEEE754.Binary IEEE754.Bits.
From Verif Require Import Py Cal_Model Fl_Model.
Import ListNotations.
Open Scope Z_scope.
Open Scope list_scope.

Definition signed (s : bool) (m : positive) : Z := if s then Z.neg m else Z.pos m.
Definition not_a_number : float := fdiv (of_Z 0) (of_Z 0).
(** C's [fmod]: the remainder of the division rounded towards zero, which is exact *)
Definition fmod (x y : float) : float :=
  match x, y with
  | B754_finite _ _ s m e _, B754_finite _ _ s' m' e' _ =>
      let e0 := Z.min e e' in
      binary_normalize 53 1024 (eq_refl : Prec_gt_0 53) (eq_refl : Prec_lt_emax 53 1024) mode_NE
        (Z.rem (signed s m * 2 ^ (e - e0)) (signed s' m' * 2 ^ (e' - e0))) e0 s
  | B754_zero _ _ _, B754_finite _ _ _ _ _ _ => x
  | B754_zero _ _ _, B754_infinity _ _ _ => x
  | B754_finite _ _ _ _ _ _, B754_infinity _ _ _ => x
  | _, _ => not_a_number
  end.
(** [x % y] of Python and numpy: [fmod] moved to the sign of [y] *)
Definition fpymod (x y : float) : float :=
  let m := fmod x y in
  if feq y (of_Z 0) then m
  else if feq m (of_Z 0) then B754_zero 53 1024 (Bsign 53 1024 y)
  else if xorb (flt y (of_Z 0)) (flt m (of_Z 0)) then fadd m y else m.
(** [x.astype(int)] on a 64-bit machine *)
Definition astype_int (x : float) : Z :=
  let bad := - 2 ^ 63 in
  match x with
  | B754_zero _ _ _ => 0
  | B754_finite _ _ s m e _ =>
      let z := if 0 <=? e then signed s m * 2 ^ e else Z.quot (signed s m) (2 ^ (- e)) in
      if (- 2 ^ 63 <=? z) && (z <? 2 ^ 63) then z else bad
  | _ => bad
  end.

(** ** celest/coordinates/astronomical_quantities.py *)

(** celest/coordinates/astronomical_quantities.py:405-407 *)
Definition fgregorian_correction (a : list Z) : res (list Z) :=
  let ind := np_where 0 (map (fun x => 2291161 <=? x) a) in
  let alpha := map (fun i => astype_int (fdiv (fsub (of_Z (nth i a 0)) (literal 186721625 100)) (of_Z 36525))) ind in
  s <- np_broadcast Z.add (map (fun x => x + 1) a) alpha ;;
  s <- np_broadcast Z.sub s (map (fun x => astype_int (fdiv (of_Z x) (of_Z 4))) alpha) ;;
  np_assign a ind s.
(** celest/coordinates/astronomical_quantities.py:368-428 *)
Definition ffrom_julian (julian : list float) : res (list Z * list Z * list float) :=
  let jd := map (fun x => fadd x (literal 5 10)) julian in
  let a := map astype_int jd in
  let f := map (fun x => fpymod x (of_Z 1)) jd in
  a <- fgregorian_correction a ;;
  let b := map (fun x => x + 1524) a in
  let c := map (fun x => astype_int (fdiv (fsub (of_Z x) (literal 1221 10)) (literal 36525 100))) b in
  let d := map (fun x => astype_int (fmul (literal 36525 100) (of_Z x))) c in
  let e := map2 (fun x y => astype_int (fdiv (of_Z (x - y)) (literal 306001 10000))) b d in
  let day := map2 (fun x y => fadd (of_Z x) y)
               (map2 (fun x y => x - astype_int (fmul (literal 306001 10000) (of_Z y))) (map2 Z.sub b d) e) f in
  let month := map month_of e in
  let year := map2 year_of c month in
  Ok (year, month, day).
(** celest/coordinates/astronomical_quantities.py:431-469 *)
Definition fday_of_year (julian : list float) : res (list Z) :=
  r <- ffrom_julian julian ;;
  match r with
  | (year, month, day) =>
      let k := map (fun y => if y mod 4 =? 0 then 1 else 2) year in
      let n := map (fun m => astype_int (fdiv (of_Z (275 * m)) (of_Z 9))) month in
      let km := map2 (fun x m => x * astype_int (fdiv (of_Z (m + 9)) (of_Z 12))) k month in
      let n := map2 (fun x y => fsub (fadd (of_Z x) y) (of_Z 30)) (map2 Z.sub n km) day in
      Ok (map astype_int n)
  end.
(** celest/coordinates/astronomical_quantities.py:53-56, in degrees *)
Definition fearth_rotation_angle (julian : float) : float :=
  let days := fsub julian (of_Z 2451545) in
  fpymod (fadd (fmul (literal 3609856123035484 10000000000000) days) (literal 28046 100)) (of_Z 360).

(** ** celest/time.py *)

(** The rounding of [timedelta(days=f)] to microseconds: [f * 8.64e10], rounded to the nearest
    whole number, a half to the even one. *)
Definition round_half_even (x : float) : Z :=
  match x with
  | B754_finite _ _ s m e _ =>
      if 0 <=? e then signed s m * 2 ^ e
      else let d := 2 ^ (- e) in let q := signed s m / d in let r := signed s m mod d in
           if 2 * r <? d then q else if d <? 2 * r then q + 1 else if Z.even q then q else q + 1
  | _ => 0
  end.
Definition timedelta_of_days (f : float) : Z := round_half_even (fmul (of_Z 86400000000) f).
(** celest/time.py:351-377: a datetime is its date and the microseconds since midnight.  (A timedelta of
    a day or more, which does not occur, would change the date.) *)
Definition fdatetime (julian : list float) : res (list (Z * Z * Z * Z)) :=
  r <- ffrom_julian julian ;;
  match r with
  | (year, month, day) =>
      mapM (fun p : Z * Z * float =>
              match p with
              | (y, m, x) =>
                  let d := astype_int x in
                  if datetime_accepts y m d then Ok (y, m, d, timedelta_of_days (fpymod x (of_Z 1))) else Raise ValueError
              end) (combine (combine year month) day)
  end.
(** celest/time.py:212-215, in hours *)
Definition fmean_solar_time (julian longitude : float) : float :=
  let utc := fsub (fmul (of_Z 24) (fpymod julian (of_Z 1))) (of_Z 12) in
  fpymod (fadd utc (fdiv longitude (of_Z 15))) (of_Z 24).
(** celest/time.py:316, in hours *)
Definition fmean_hour_angle (julian longitude : float) : float :=
  fpymod (fsub (fmean_solar_time julian longitude) (of_Z 12)) (of_Z 24).
(** celest/time.py:349 *)
Definition fut1 (julian : float) : float := fmean_solar_time julian (of_Z 0).
