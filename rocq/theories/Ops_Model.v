(** Model of the operators [*], [/], [+], [-] between numbers, units, quantities and other objects
    (celest/units/core.py, celest/units/quantity.py), with Python's rule for binary operators: the
    method of the left operand is called first, and if it returns [NotImplemented], the reflected
    method of the right operand; if that returns [NotImplemented] too, TypeError is raised.

    Also [sum] of a list, and units to powers that are floats.

    Simplifications: those of Units_Model.v; other objects ([VOther]) are of classes that know
    nothing of numbers, units or quantities and are not equal to 1. *)
From Coq Require Import String List ZArith QArith Qabs Bool.
From Verif Require Import Py Units_Model.
Import ListNotations.
Open Scope string_scope.
Open Scope list_scope.

Inductive value :=
| VNum (x : Q)
| VUnit (u : punit)
| VQty (q : quantity)
| VNone
| VOther.

(** What a method returns: a value or [NotImplemented]. *)
Definition method := option value.
(** [a op b], from the two methods *)
Definition dispatch (left right : res method) : res value :=
  l <- left ;;
  match l with
  | Some v => Ok v
  | None => r <- right ;; match r with Some v => Ok v | None => Raise TypeError end
  end.
Definition not_implemented : res method := Ok None.
Definition returns (v : value) : res method := Ok (Some v).
Definition qreturns (r : res quantity) : res method := q <- r ;; returns (VQty q).

(** celest/units/core.py:62-71 and 73-82 [BaseUnit.__mul__], [__rmul__]: without a case for other
    operands, so that they return None. *)
Definition unit_mul (u : punit) (other : value) : res method :=
  match other with
  | VUnit v => returns (VUnit (u_mul u v))
  | VNum x => returns (VUnit (u_scale x u))
  | _ => returns VNone
  end.
Definition unit_rmul (u : punit) (other : value) : res method :=
  match other with
  | VUnit v => returns (VUnit (if is_unity v then u else if is_unity u then v else UC (mk_compound 1 [(v, 1%Z); (u, 1%Z)])))
  | VNum x => returns (VUnit (u_scale x u))
  | _ => returns VNone
  end.
(** celest/units/core.py:49-53 and 55-61 [BaseUnit.__truediv__], [__rtruediv__] *)
Definition unit_div (u : punit) (other : value) : res method :=
  match other with
  | VUnit v => returns (VUnit (u_div u v))
  | _ => not_implemented
  end.
Definition unit_rdiv (u : punit) (other : value) : res method :=
  match other with
  | VNum x => if Qeq_bool x 1 then returns (VUnit (u_inv u)) else not_implemented
  | VUnit v => returns (VUnit (UC (mk_compound 1 [(v, 1%Z); (u, (-1)%Z)])))
  | _ => not_implemented
  end.

(** celest/units/quantity.py:103-172: [NotImplemented] for operands that are neither numbers nor
    quantities, except that [__sub__] and [__rsub__] negate the operand first, which raises. *)
Definition qty_method (f : operand -> res quantity) (other : value) : res method :=
  match other with
  | VNum x => qreturns (f (ONum x))
  | VQty r => qreturns (f (OQty r))
  | _ => not_implemented
  end.
Definition qty_sub_method (f : operand -> res quantity) (other : value) : res method :=
  match other with
  | VNum x => qreturns (f (ONum x))
  | VQty r => qreturns (f (OQty r))
  | _ => Raise TypeError
  end.
(** celest/units/quantity.py:163-170: [__rtruediv__] of a quantity by hand; the expression [r / q] does not come here *)
Definition q_rdiv_q (q r : quantity) : res quantity :=
  d1 <- dimension (q_unit q) ;;
  d2 <- dimension (q_unit r) ;;
  if String.eqb d1 d2 then x <- to_ r (q_unit q) ;; y <- py_div x (q_data q) ;; Ok (mkQty y (u_div (q_unit q) (q_unit q)))
  else y <- py_div (q_data r) (q_data q) ;; Ok (mkQty y (u_div (q_unit r) (q_unit q))).
(** celest/units/quantity.py:158-172 [__rtruediv__] *)
Definition qty_rdiv (q : quantity) (other : value) : res method :=
  match other with
  | VNum x => qreturns (q_rdiv q x)
  | VQty r => qreturns (q_rdiv_q q r)
  | _ => not_implemented
  end.

(** [a * b] *)
Definition py_mul (a b : value) : res value :=
  dispatch
    (match a with
     | VUnit u => unit_mul u b
     | VQty q => qty_method (q_mul q) b
     | VNum x => match b with VNum y => returns (VNum (x * y)) | _ => not_implemented end
     | _ => not_implemented
     end)
    (match b with
     | VUnit u => unit_rmul u a
     | VQty q => qty_method (q_mul q) a
     | _ => not_implemented
     end).
(** [a / b] *)
Definition py_truediv (a b : value) : res value :=
  dispatch
    (match a with
     | VUnit u => unit_div u b
     | VQty q => qty_method (q_div q) b
     | VNum x => match b with VNum y => z <- py_div x y ;; returns (VNum z) | _ => not_implemented end
     | _ => not_implemented
     end)
    (match b with
     | VUnit u => unit_rdiv u a
     | VQty q => qty_rdiv q a
     | _ => not_implemented
     end).
(** [a + b]; units define no addition *)
Definition py_add (a b : value) : res value :=
  dispatch
    (match a with
     | VQty q => qty_method (q_add q) b
     | VNum x => match b with VNum y => returns (VNum (x + y)) | _ => not_implemented end
     | _ => not_implemented
     end)
    (match b with
     | VQty q => qty_method (q_add q) a
     | _ => not_implemented
     end).
(** [a - b] *)
Definition py_sub (a b : value) : res value :=
  dispatch
    (match a with
     | VQty q => qty_sub_method (q_sub q) b
     | VNum x => match b with VNum y => returns (VNum (x - y)) | _ => not_implemented end
     | _ => not_implemented
     end)
    (match b with
     | VQty q => qty_sub_method (q_rsub q) a
     | _ => not_implemented
     end).
(** [-a]: celest/units/quantity.py:100-101; units define no negation *)
Definition py_neg (a : value) : res value :=
  match a with
  | VNum x => Ok (VNum (- x))
  | VQty q => Ok (VQty (q_neg q))
  | _ => Raise TypeError
  end.

(** [sum(l)] *)
Fixpoint sum_from (acc : value) (l : list value) : res value :=
  match l with
  | [] => Ok acc
  | x :: r => a <- py_add acc x ;; sum_from a r
  end.
Definition py_sum (l : list value) : res value := sum_from (VNum 0) l.

(** Expressions. *)
Inductive expr :=
| XVal (v : value)
| XMul (a b : expr) | XDiv (a b : expr) | XAdd (a b : expr) | XSub (a b : expr) | XNeg (a : expr).
Fixpoint run (e : expr) : res value :=
  match e with
  | XVal v => Ok v
  | XMul a b => x <- run a ;; y <- run b ;; py_mul x y
  | XDiv a b => x <- run a ;; y <- run b ;; py_truediv x y
  | XAdd a b => x <- run a ;; y <- run b ;; py_add x y
  | XSub a b => x <- run a ;; y <- run b ;; py_sub x y
  | XNeg a => x <- run a ;; py_neg x
  end.

(** ** Powers of a named unit by an int or a float *)
Inductive number := PInt (z : Z) | PFloat (q : Q).
Definition number_value (p : number) : Q := match p with PInt z => inject_Z z | PFloat q => q end.
(** [str(abs(power))]; [float_str] is [str] of a float. *)
Definition number_abs_str (float_str : Q -> string) (p : number) : string :=
  match p with PInt z => abs_str z | PFloat q => float_str (Qabs q) end.
(** celest/units/core.py:43-47, 218-237, 254-291: the bases and powers of [unit ** power] *)
Definition power_bases (n : named) (p : number) : list (named * number) :=
  if Qeq_bool (number_value p) 0 then [] else [(n, p)].
(** celest/units/display.py:60-79 for one base at most *)
Definition power_dimension (float_str : Q -> string) (l : list (named * number)) : res string :=
  match l with
  | [] => Ok "1"
  | (n, p) :: _ =>
      d <- dict_get unit_to_dimension (n_name n) ;;
      let token := append d (if Qeq_bool (Qabs (number_value p)) 1 then "" else number_abs_str float_str p) in
      Ok (if Qltb 0 (number_value p) then token else append "1 / " token)
  end.
(** celest/units/quantity.py:277-279: the test at the start of [convert_to] *)
Definition power_convertible (float_str : Q -> string) (n : named) (p : number) (m : named) (p' : number) : res unit :=
  d1 <- power_dimension float_str (power_bases n p) ;;
  d2 <- power_dimension float_str (power_bases m p') ;;
  if negb (String.eqb d1 d2) then Raise ValueError else Ok tt.
