(** Model of unit conversion, time keeping and the scheduling tests on binary64 floating-point
    numbers (celest/units/quantity.py, celest/units/unit_initialization.py, celest/time.py,
    celest/schedule/insertion_operators.py), with the rounding, overflow, infinities and
    not-a-number of IEEE 754 as formalised in Flocq.

    Simplifications: single numbers; named units; numpy's float64, which unlike Python's float
    divides by zero without raising. *)
From Coq Require Import ZArith Bool.
From Flocq Require Import Core.Core IEEE754.BinarySingleNaN IEEE754.Binary IEEE754.Bits.
From Verif Require Import Py.
Open Scope Z_scope.

Definition float := binary64.
Definition fadd : float -> float -> float := b64_plus mode_NE.
Definition fsub : float -> float -> float := b64_minus mode_NE.
Definition fmul : float -> float -> float := b64_mult mode_NE.
Definition fdiv : float -> float -> float := b64_div mode_NE.
Definition fabs : float -> float := b64_abs.
Definition fneg : float -> float := b64_opp.
(** [<], [<=] and [==]: false if not comparable *)
Definition flt (x y : float) : bool := match b64_compare x y with Some Lt => true | _ => false end.
Definition fle (x y : float) : bool := match b64_compare x y with Some Lt | Some Eq => true | _ => false end.
Definition feq (x y : float) : bool := match b64_compare x y with Some Eq => true | _ => false end.
(** An integer as a float, rounded to nearest. *)
Definition of_Z (z : Z) : float := binary_normalize 53 1024 (eq_refl : Prec_gt_0 53) (eq_refl : Prec_lt_emax 53 1024) mode_NE z 0 false.
(** A decimal literal [num / den] whose digits and denominator are below [2 ^ 53]: their
    quotient, rounded once, is the float nearest to the decimal. *)
Definition literal (num den : Z) : float := fdiv (of_Z num) (of_Z den).
(** [math.floor] *)
Definition ffloor (x : float) : res Z :=
  match x with
  | B754_zero _ _ _ => Ok 0
  | B754_infinity _ _ _ => Raise OverflowError
  | B754_nan _ _ _ _ _ => Raise ValueError
  | B754_finite _ _ s m e _ =>
      let z := if s then Z.neg m else Z.pos m in
      Ok (if 0 <=? e then z * 2 ^ e else z / 2 ^ (- e))
  end.

(** ** Units: celest/units/unit_initialization.py:9-39 *)
Inductive unit_name :=
  | Um | Umm | Ucm | Ukm | Uinch | Uft | Uyd | Umi | Us | Umin | Uhr | Udy | Ujd2000
  | Udeg | Urad | Uarcsec | Uarcmin | Uhourangle.
Definition unit_eqb (a b : unit_name) : bool :=
  match a, b with
  | Um, Um | Umm, Umm | Ucm, Ucm | Ukm, Ukm | Uinch, Uinch | Uft, Uft | Uyd, Uyd | Umi, Umi
  | Us, Us | Umin, Umin | Uhr, Uhr | Udy, Udy | Ujd2000, Ujd2000
  | Udeg, Udeg | Urad, Urad | Uarcsec, Uarcsec | Uarcmin, Uarcmin | Uhourangle, Uhourangle => true
  | _, _ => false
  end.
(** celest/units/display.py:38-57, by the first letter of the dimension *)
Inductive kind := Length | Duration | Date | Angle.
Definition kind_of (a : unit_name) : kind :=
  match a with
  | Um | Umm | Ucm | Ukm | Uinch | Uft | Uyd | Umi => Length
  | Us | Umin | Uhr | Udy => Duration
  | Ujd2000 => Date
  | Udeg | Urad | Uarcsec | Uarcmin | Uhourangle => Angle
  end.
Definition kind_eqb (a b : kind) : bool :=
  match a, b with Length, Length | Duration, Duration | Date, Date | Angle, Angle => true | _, _ => false end.
(** The factor times the scale 1.0 of the base unit (celest/units/core.py:230, [factor *
    1.0 ** 1]), which is the factor.  The factors 1/3600 and 1/60 are quotients in the
    source too. *)
Definition unit_scale (a : unit_name) : float :=
  match a with
  | Um | Us | Ujd2000 | Udeg => of_Z 1
  | Umm => literal 1 1000
  | Ucm => literal 1 100
  | Ukm => of_Z 1000
  | Uinch => literal 254 10000
  | Uft => literal 305 1000
  | Uyd => literal 914 1000
  | Umi => literal 1609344 1000
  | Umin => of_Z 60
  | Uhr => of_Z 3600
  | Udy => of_Z 86400
  | Urad => literal 5729577951308232 100000000000000
  | Uarcsec => fdiv (of_Z 1) (of_Z 3600)
  | Uarcmin => fdiv (of_Z 1) (of_Z 60)
  | Uhourangle => of_Z 15
  end.

(** ** Quantities: celest/units/quantity.py *)

(** celest/units/quantity.py:253-297 *)
Definition fconvert (x : float) (from to : unit_name) : res float :=
  if negb (kind_eqb (kind_of from) (kind_of to)) then Raise ValueError
  else if unit_eqb from to then Ok x
  else Ok (fmul x (fdiv (unit_scale from) (unit_scale to))).
(** celest/units/quantity.py:103-117: the sum, in the first unit *)
Definition fq_add (x : float) (a : unit_name) (y : float) (b : unit_name) : res float :=
  if negb (kind_eqb (kind_of a) (kind_of b)) then Raise ArithmeticError
  else y' <- fconvert y b a ;; Ok (fadd x y').
(** celest/units/quantity.py:174-208: comparisons are made in the unit of the left operand *)
Definition fq_compare (op : float -> float -> bool) (x : float) (a : unit_name) (y : float) (b : unit_name) : res bool :=
  if negb (kind_eqb (kind_of a) (kind_of b)) then Raise ArithmeticError
  else y' <- fconvert y b a ;; Ok (op x y').
Definition fq_eq := fq_compare feq.
Definition fq_lt := fq_compare flt.
Definition fq_gt := fq_compare (fun x y => flt y x).
Definition fq_le (x : float) (a : unit_name) (y : float) (b : unit_name) : res bool :=
  e <- fq_eq x a y b ;; if e : bool then Ok true else fq_lt x a y b.
Definition fq_ge (x : float) (a : unit_name) (y : float) (b : unit_name) : res bool :=
  e <- fq_eq x a y b ;; if e : bool then Ok true else fq_gt x a y b.

(** ** celest/time.py:106 *)
Definition ftime (julian offset : float) : float := fadd julian offset.

(** ** celest/schedule/insertion_operators.py *)

(** celest/schedule/insertion_operators.py:58 *)
Definition fstart (rise set d : float) : float := fdiv (fadd (fadd rise set) d) (of_Z 2).
(** celest/schedule/insertion_operators.py:126-127 *)
Definition fwithin (start d rise set : float) : bool := flt rise start && flt (fadd start d) set.
(** celest/schedule/insertion_operators.py:130-131 *)
Definition fdeadline (start d deadline : float) : bool := flt (fadd start d) deadline.
(** celest/schedule/insertion_operators.py:138-161 *)
Definition fquality (rise set start : float) : res Z :=
  let nadir := fdiv (fadd rise set) (of_Z 2) in
  ffloor (fsub (of_Z 10) (fdiv (fmul (of_Z 9) (fabs (fsub start nadir))) (fsub nadir rise))).
(** celest/schedule/insertion_operators.py:164-183, for one booking *)
Definition fconflict (start d booked_start booked_d : float) : bool :=
  let booked_end := fadd booked_start booked_d in
  (fle start booked_start && flt booked_start (fadd start d)) ||
  (flt start booked_end && fle booked_end (fadd start d)) ||
  (fle booked_start start && fle (fadd start d) booked_end).
