(** Quantities of any units in floating point: celest/units/quantity.py with Python floats as
    data, over the units of Units_Model.v (products, quotients and powers of named units).

    Simplifications: data are Python floats (division by zero raises); integer operands are given
    as floats; powers are ints; the text of a unit, which conversion compares, is that of
    Units_Model.v. *)
From Coq Require Import String List ZArith QArith Bool.
From Verif Require Import Py Units_Model Fl_Model.
Import ListNotations.
Open Scope Z_scope.

Record fquantity : Type := mkFQ { fq_data : float; fq_unit : punit }.
Inductive foperand : Type := FNum (x : float) | FQty (q : fquantity) | FOther.

(** [a / b] on Python floats *)
Definition fpy_div (a b : float) : res float :=
  if feq b (of_Z 0) then Raise ZeroDivisionError else Ok (fdiv a b).

Section Floats.
(** [unit.scale] of a named unit (celest/units/core.py:163-199), a Python float *)
Variable scale : named -> float.
(** [x ** n] of a float and an int, which may raise (0.0 to a negative power, overflow) *)
Variable pow : float -> Z -> res float.

(** celest/units/quantity.py:281-288 [_get_unit_scale]: [scale *= base.scale ** power] *)
Fixpoint fbases_scale (l : list (named * Z)) (s : float) : res float :=
  match l with
  | [] => Ok s
  | (b, p) :: r => f <- pow (scale b) p ;; fbases_scale r (fmul s f)
  end.
Definition fget_unit_scale (u : punit) : res float :=
  match u with
  | UC c => fbases_scale (c_bases c) (of_Z 1)
  | UN n => Ok (scale n)
  end.

(** celest/units/quantity.py:253-297 [convert_to]; the copied unit has the scale of the unit *)
Definition f_convert_to (cp : nat -> nat) (q : fquantity) (v : punit) : res fquantity :=
  d1 <- dimension (fq_unit q) ;;
  d2 <- dimension v ;;
  if negb (String.eqb d1 d2) then Raise ValueError
  else if negb (String.eqb (repr_unit (fq_unit q)) (repr_unit v)) then
    s1 <- fget_unit_scale (fq_unit q) ;;
    s2 <- fget_unit_scale v ;;
    f <- fpy_div s1 s2 ;;
    Ok (mkFQ (fmul (fq_data q) f) v)
  else Ok (mkFQ (fq_data q) (copy_unit cp (fq_unit q))).
(** celest/units/quantity.py:231-251 [to] *)
Definition f_to (q : fquantity) (v : punit) : res float :=
  rmap fq_data (f_convert_to (fun i => i) q v).

(** celest/units/quantity.py:100-101 [__neg__] *)
Definition f_neg (q : fquantity) : fquantity := mkFQ (fneg (fq_data q)) (fq_unit q).
(** celest/units/quantity.py:103-117 [__add__], [__radd__] *)
Definition f_add (q : fquantity) (o : foperand) : res fquantity :=
  match o with
  | FNum x => Ok (mkFQ (fadd (fq_data q) x) (fq_unit q))
  | FQty r =>
      d1 <- dimension (fq_unit q) ;;
      d2 <- dimension (fq_unit r) ;;
      if negb (String.eqb d1 d2) then Raise ArithmeticError
      else x <- f_to r (fq_unit q) ;; Ok (mkFQ (fadd (fq_data q) x) (fq_unit q))
  | FOther => Raise TypeError
  end.
(** celest/units/quantity.py:119-120 [__sub__] *)
Definition f_sub (q : fquantity) (o : foperand) : res fquantity :=
  f_add q (match o with FNum x => FNum (fneg x) | FQty r => FQty (f_neg r) | FOther => FOther end).
(** celest/units/quantity.py:125-141 [__mul__], [__rmul__] *)
Definition f_mul (q : fquantity) (o : foperand) : res fquantity :=
  match o with
  | FNum x => Ok (mkFQ (fmul (fq_data q) x) (fq_unit q))
  | FQty r =>
      d1 <- dimension (fq_unit q) ;;
      d2 <- dimension (fq_unit r) ;;
      if String.eqb d1 d2 then
        x <- f_to r (fq_unit q) ;; Ok (mkFQ (fmul (fq_data q) x) (u_pow (fq_unit q) 2))
      else Ok (mkFQ (fmul (fq_data q) (fq_data r)) (u_mul (fq_unit q) (fq_unit r)))
  | FOther => Raise TypeError
  end.
(** celest/units/quantity.py:143-156 [__truediv__] *)
Definition f_div (q : fquantity) (o : foperand) : res fquantity :=
  match o with
  | FNum x => y <- fpy_div (fq_data q) x ;; Ok (mkFQ y (fq_unit q))
  | FQty r =>
      d1 <- dimension (fq_unit q) ;;
      d2 <- dimension (fq_unit r) ;;
      if String.eqb d1 d2 then
        x <- f_to r (fq_unit q) ;; y <- fpy_div (fq_data q) x ;;
        Ok (mkFQ y (u_div (fq_unit q) (fq_unit q)))
      else y <- fpy_div (fq_data q) (fq_data r) ;;
           Ok (mkFQ y (u_div (fq_unit q) (fq_unit r)))
  | FOther => Raise TypeError
  end.
(** celest/units/quantity.py:174-181 [__eq__], 186-193 [__lt__], 198-205 [__gt__] of two
    quantities *)
Definition f_compare (op : float -> float -> bool) (q r : fquantity) : res bool :=
  d1 <- dimension (fq_unit q) ;;
  d2 <- dimension (fq_unit r) ;;
  if negb (String.eqb d1 d2) then Raise ArithmeticError
  else x <- f_to r (fq_unit q) ;; Ok (op (fq_data q) x).
Definition f_eq := f_compare feq.
Definition f_lt := f_compare flt.
Definition f_gt := f_compare (fun x y => flt y x).
(** celest/units/quantity.py:195-196 [__le__], 207-208 [__ge__], 183-184 [__ne__] *)
Definition f_le (q r : fquantity) : res bool := e <- f_eq q r ;; if e : bool then Ok true else f_lt q r.
Definition f_ge (q r : fquantity) : res bool := e <- f_eq q r ;; if e : bool then Ok true else f_gt q r.
Definition f_ne (q r : fquantity) : res bool := e <- f_eq q r ;; Ok (negb e).
End Floats.
