(** Model of printed angles, heights and locations on binary64 floating-point numbers
    (celest/angle_strings.py, celest/coordinates/ground_location.py:82-87).  Text_Model.v is the
    same code on exact numbers, where a degree angle has one number of minutes.

    Simplifications: the texts of Text_Model.v; named units; Python's ["%.2f"], which rounds the
    exact value of the float to the nearest multiple of a hundredth (ties to even), is that
    rounding of the real number. *)
From Coq Require Import String Ascii List ZArith NArith Bool Reals.
From Flocq Require Import Core.Core IEEE754.BinarySingleNaN IEEE754.Binary IEEE754.Bits.
From Verif Require Import Py Text_Model Fl_Model Flg_Model.
Import ListNotations.
Open Scope list_scope.
Open Scope Z_scope.

(** [int(x)]: the digits after the point are dropped *)
Definition fint (x : float) : res Z :=
  match x with
  | B754_zero _ _ _ => Ok 0
  | B754_infinity _ _ _ => Raise OverflowError
  | B754_nan _ _ _ _ _ => Raise ValueError
  | B754_finite _ _ s m e _ =>
      let z := if s then Z.neg m else Z.pos m in
      Ok (if 0 <=? e then z * 2 ^ e else Z.quot z (2 ^ (- e)))
  end.
(** [x % y] for a positive whole number [y]: the remainder has the sign of [y]; that of an
    infinity is not a number *)
Definition fremainder (x : float) (y : Z) : float :=
  match x with
  | B754_zero _ _ _ => of_Z 0
  | B754_infinity _ _ _ | B754_nan _ _ _ _ _ => fsub x x
  | B754_finite _ _ s m e _ =>
      let z := if s then Z.neg m else Z.pos m in
      if 0 <=? e then of_Z ((z * 2 ^ e) mod y)
      else binary_normalize 53 1024 (eq_refl : Prec_gt_0 53) (eq_refl : Prec_lt_emax 53 1024) mode_NE (z mod (y * 2 ^ (- e))) e false
  end.
(** ["%.nf" % x] *)
Definition ffixed (n : nat) (x : float) : text :=
  match x with
  | B754_nan _ _ _ _ _ => lit "nan"
  | B754_infinity _ _ s => if s then lit "-inf" else lit "inf"
  | _ => (if Bsign 53 1024 x then lit "-" else []) ++ fixed_abs n (Rabs (B2R 53 1024 x))
  end.
(** celest/angle_strings.py:42-63 *)
Definition fsexagesimal_string (degree_angle : float) : res text :=
  degrees <- fint degree_angle ;;
  minutes <- fint (fremainder (fmul degree_angle (of_Z 60)) 60) ;;
  let degree_string := firstn 3 (zfill 2 (str_Z degrees)) in
  let minute_string := firstn 2 (zfill 2 (str_Z minutes)) in
  let second_string := zfill 5 (ffixed 2 (fremainder (fmul degree_angle (of_Z 3600)) 60)) in
  Ok (degree_string ++ [176%N] ++ minute_string ++ [8242%N] ++ second_string ++ [8243%N]).
(** celest/angle_strings.py:35-39 *)
Definition flatitude_string (latitude : float) (unit : unit_name) : res text :=
  degrees <- fconvert latitude unit Udeg ;;
  s <- fsexagesimal_string (fabs degrees) ;;
  Ok (s ++ (if fle (of_Z 0) latitude then lit "N" else lit "S")).
(** celest/angle_strings.py:66-70 *)
Definition flongitude_string (longitude : float) (unit : unit_name) : res text :=
  degrees <- fconvert longitude unit Udeg ;;
  s <- fsexagesimal_string (fabs degrees) ;;
  Ok (s ++ (if fle (of_Z 0) longitude then lit "E" else lit "W")).
(** celest/units/unit_initialization.py:9-39 *)
Definition short_name (unit : unit_name) : text :=
  match unit with
  | Um => lit "m" | Umm => lit "mm" | Ucm => lit "cm" | Ukm => lit "km"
  | Uinch => lit "inch" | Uft => lit "ft" | Uyd => lit "yd" | Umi => lit "mi"
  | Us => lit "s" | Umin => lit "min" | Uhr => lit "hr" | Udy => lit "dy" | Ujd2000 => lit "jd2000"
  | Udeg => lit "deg" | Urad => lit "rad" | Uarcsec => lit "arcsec" | Uarcmin => lit "arcmin" | Uhourangle => lit "hourangle"
  end.
(** celest/angle_strings.py:73-74 *)
Definition fheight_string (height : float) (unit : unit_name) : text := ffixed 2 height ++ short_name unit.
(** celest/angle_strings.py:10-32, celest/coordinates/ground_location.py:82-87: [str(location)] *)
Definition flocation_string (l : flocation) : res text :=
  latitude <- flatitude_string (fl_latitude l) (fl_angle l) ;;
  longitude <- flongitude_string (fl_longitude l) (fl_angle l) ;;
  Ok (latitude ++ [space] ++ longitude ++ [space] ++ fheight_string (fl_height l) (fl_length l)).
