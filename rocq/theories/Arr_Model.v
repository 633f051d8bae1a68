(** celest/units/quantity.py with numpy arrays as data: the same methods as in
    Units_Model.v, but over a heap of mutable one-dimensional arrays, so that
    element types, broadcasting, in-place updates and shared arrays are visible.

    Simplifications: entries are exact rationals (no rounding, no overflow, no
    nan or infinity: the entries an array division by zero produces are arbitrary);
    arrays are one-dimensional; operands are Python numbers, quantities, or
    objects that do not know quantities. *)
From Coq Require Import String List ZArith QArith Qfield Bool Lia.
From Verif Require Import Py Units_Model.
Import ListNotations.
Open Scope nat_scope.
Open Scope list_scope.

(** Element types: float64, int64, bool. *)
Inductive dtype : Type := F64 | I64 | B8.

(** A numpy array: element type and entries (booleans are 0 and 1). *)
Record array : Type := mkArray { a_type : dtype; a_data : list Q }.

(** All arrays of the process; an array object is its position, a new object is
    appended. *)
Notation heap := (list array).

(** Quantity data: a Python int, a Python float, or a reference to an array. *)
Inductive pydata : Type :=
| PyInt (z : Z)
| PyFloat (x : Q)
| Ref (a : nat).

(** celest/units/quantity.py:74-92 [__init__]: the data object itself is stored
    (no copy). *)
Record aqty : Type := mkAQ { aq_data : pydata; aq_unit : punit }.

(** Computations that may change the heap and may raise; changes made before an
    exception stay. *)
Definition M (A : Type) : Type := heap -> heap * res A.
Definition ret {A} (x : A) : M A := fun h => (h, Ok x).
Definition fail {A} (e : exn) : M A := fun h => (h, Raise e).
Definition lift {A} (r : res A) : M A := fun h => (h, r).
Definition mbind {A B} (m : M A) (k : A -> M B) : M B :=
  fun h => match m h with
           | (h', Ok x) => k x h'
           | (h', Raise e) => (h', Raise e)
           end.
Notation "x <-- m ;;; k" := (mbind m (fun x => k)) (at level 100, m at next level, right associativity).

(** numpy: creating an array object. *)
Definition alloc (x : array) : M nat := fun h => (h ++ [x], Ok (length h)).
(** numpy: reading an array object (a reference always exists: see [live] below;
    the other branch is never taken). *)
Definition load (a : nat) : M array :=
  fun h => match nth_error h a with Some x => (h, Ok x) | None => (h, Raise AttributeError) end.

(** The entries numpy sees in an operand: one for a number. *)
Definition entries (h : heap) (d : pydata) : list Q :=
  match d with
  | PyInt z => [inject_Z z]
  | PyFloat x => [x]
  | Ref a => match nth_error h a with Some x => a_data x | None => [] end
  end.
(** The element type numpy gives an operand. *)
Definition type_of (h : heap) (d : pydata) : dtype :=
  match d with
  | PyInt _ => I64
  | PyFloat _ => F64
  | Ref a => match nth_error h a with Some x => a_type x | None => F64 end
  end.

(** numpy: the element type of a sum, difference or product of two operands (two
    boolean arrays are not used by quantity.py). *)
Definition join_type (s t : dtype) : dtype :=
  match s, t with
  | F64, _ | _, F64 => F64
  | B8, B8 => B8
  | _, _ => I64
  end.

(** [a + b], [a * b] on data: numbers give a number, otherwise a new array with
    the broadcast entries; incompatible lengths raise ValueError. *)
Definition arith (fz : Z -> Z -> Z) (f : Q -> Q -> Q) (x y : pydata) : M pydata :=
  match x, y with
  | PyInt a, PyInt b => ret (PyInt (fz a b))
  | PyInt a, PyFloat b => ret (PyFloat (f (inject_Z a) b))
  | PyFloat a, PyInt b => ret (PyFloat (f a (inject_Z b)))
  | PyFloat a, PyFloat b => ret (PyFloat (f a b))
  | _, _ => fun h =>
      match np_broadcast f (entries h x) (entries h y) with
      | Ok l => (a <-- alloc (mkArray (join_type (type_of h x) (type_of h y)) l) ;;;
                 ret (Ref a)) h
      | Raise e => (h, Raise e)
      end
  end.

(** [a / b] on data: true division, always of floats.  Numbers: ZeroDivisionError
    at zero; arrays: entries divided (arbitrary entries where the divisor is 0). *)
Definition adiv (x y : pydata) : M pydata :=
  match x, y with
  | Ref _, _ | _, Ref _ => fun h =>
      match np_broadcast Qdiv (entries h x) (entries h y) with
      | Ok l => (a <-- alloc (mkArray F64 l) ;;; ret (Ref a)) h
      | Raise e => (h, Raise e)
      end
  | _, _ => fun h =>
      (z <-- lift (py_div (hd 0%Q (entries h x)) (hd 0%Q (entries h y))) ;;; ret (PyFloat z)) h
  end.

(** [-a] on data. *)
Definition aneg (x : pydata) : M pydata :=
  match x with
  | PyInt z => ret (PyInt (- z))
  | PyFloat q => ret (PyFloat (- q))
  | Ref a => x <-- load a ;;; b <-- alloc (mkArray (a_type x) (map Qopp (a_data x))) ;;; ret (Ref b)
  end.

(** copy.deepcopy of the data: numbers are immutable, an array is copied. *)
Definition deepcopy_data (x : pydata) : M pydata :=
  match x with
  | Ref a => y <-- load a ;;; b <-- alloc y ;;; ret (Ref b)
  | _ => ret x
  end.

(** [data *= f] with a float [f]: a number is replaced; an array is changed in
    place, and numpy refuses (UFuncTypeError, a TypeError) to put float products
    into an integer or boolean array. *)
Definition imul (x : pydata) (f : Q) : M pydata :=
  match x with
  | PyInt z => ret (PyFloat (inject_Z z * f))
  | PyFloat q => ret (PyFloat (q * f))
  | Ref a => fun h =>
      match nth_error h a with
      | Some (mkArray F64 l) =>
          (upd h a (fun _ => mkArray F64 (map (fun v => v * f)%Q l)), Ok (Ref a))
      | Some _ => (h, Raise TypeError)
      | None => (h, Raise AttributeError)
      end
  end.

(** celest/units/quantity.py:253-297 [convert_to].  [cp] renames the identities of
    the unit objects copied by deepcopy. *)
Definition a_convert (cp : nat -> nat) (q : aqty) (v : punit) : M aqty :=
  d1 <-- lift (dimension (aq_unit q)) ;;;
  d2 <-- lift (dimension v) ;;;
  if negb (String.eqb d1 d2) then fail ValueError
  else
    x <-- deepcopy_data (aq_data q) ;;;
    if negb (String.eqb (repr_unit (aq_unit q)) (repr_unit v)) then
      s1 <-- lift (get_unit_scale (copy_unit cp (aq_unit q))) ;;;
      s2 <-- lift (get_unit_scale v) ;;;
      f <-- lift (py_div s1 s2) ;;;
      y <-- imul x f ;;;
      ret (mkAQ y v)
    else ret (mkAQ x (copy_unit cp (aq_unit q))).

(** celest/units/quantity.py:231-251 [to]. *)
Definition a_to (q : aqty) (v : punit) : M pydata :=
  r <-- a_convert (fun i => i) q v ;;; ret (aq_data r).

(** Operands: a Python number, a quantity, anything else. *)
Inductive aoperand : Type :=
| AInt (z : Z)
| AFloat (x : Q)
| AQty (q : aqty)
| AOther.

(** celest/units/quantity.py:100-101 [__neg__]. *)
Definition a_neg (q : aqty) : M aqty :=
  x <-- aneg (aq_data q) ;;; ret (mkAQ x (aq_unit q)).

(** celest/units/quantity.py:103-117 [__add__], [__radd__]. *)
Definition a_add (q : aqty) (o : aoperand) : M aqty :=
  match o with
  | AInt z => x <-- arith Z.add Qplus (aq_data q) (PyInt z) ;;; ret (mkAQ x (aq_unit q))
  | AFloat v => x <-- arith Z.add Qplus (aq_data q) (PyFloat v) ;;; ret (mkAQ x (aq_unit q))
  | AQty r =>
      d1 <-- lift (dimension (aq_unit q)) ;;;
      d2 <-- lift (dimension (aq_unit r)) ;;;
      if negb (String.eqb d1 d2) then fail ArithmeticError
      else
        y <-- a_to r (aq_unit q) ;;;
        x <-- arith Z.add Qplus (aq_data q) y ;;;
        ret (mkAQ x (aq_unit q))
  | AOther => fail TypeError
  end.

(** [-other] in [__sub__] (an object that does not know quantities is assumed to
    have a negation that does not know them either). *)
Definition a_oneg (o : aoperand) : M aoperand :=
  match o with
  | AInt z => ret (AInt (- z))
  | AFloat x => ret (AFloat (- x))
  | AQty r => n <-- a_neg r ;;; ret (AQty n)
  | AOther => ret AOther
  end.

(** celest/units/quantity.py:119-120 [__sub__]. *)
Definition a_sub (q : aqty) (o : aoperand) : M aqty := n <-- a_oneg o ;;; a_add q n.
(** celest/units/quantity.py:122-123 [__rsub__]. *)
Definition a_rsub (q : aqty) (o : aoperand) : M aqty := r <-- a_sub q o ;;; a_neg r.

(** celest/units/quantity.py:125-141 [__mul__], [__rmul__]. *)
Definition a_mul (q : aqty) (o : aoperand) : M aqty :=
  match o with
  | AInt z => x <-- arith Z.mul Qmult (aq_data q) (PyInt z) ;;; ret (mkAQ x (aq_unit q))
  | AFloat v => x <-- arith Z.mul Qmult (aq_data q) (PyFloat v) ;;; ret (mkAQ x (aq_unit q))
  | AQty r =>
      d1 <-- lift (dimension (aq_unit q)) ;;;
      d2 <-- lift (dimension (aq_unit r)) ;;;
      if String.eqb d1 d2 then
        y <-- a_to r (aq_unit q) ;;;
        x <-- arith Z.mul Qmult (aq_data q) y ;;;
        ret (mkAQ x (u_pow (aq_unit q) 2))
      else
        x <-- arith Z.mul Qmult (aq_data q) (aq_data r) ;;;
        ret (mkAQ x (u_mul (aq_unit q) (aq_unit r)))
  | AOther => fail TypeError
  end.

(** celest/units/quantity.py:143-156 [__truediv__]. *)
Definition a_div (q : aqty) (o : aoperand) : M aqty :=
  match o with
  | AInt z => x <-- adiv (aq_data q) (PyInt z) ;;; ret (mkAQ x (aq_unit q))
  | AFloat v => x <-- adiv (aq_data q) (PyFloat v) ;;; ret (mkAQ x (aq_unit q))
  | AQty r =>
      d1 <-- lift (dimension (aq_unit q)) ;;;
      d2 <-- lift (dimension (aq_unit r)) ;;;
      if String.eqb d1 d2 then
        y <-- a_to r (aq_unit q) ;;;
        x <-- adiv (aq_data q) y ;;;
        ret (mkAQ x (u_div (aq_unit q) (aq_unit q)))
      else
        x <-- adiv (aq_data q) (aq_data r) ;;;
        ret (mkAQ x (u_div (aq_unit q) (aq_unit r)))
  | AOther => fail TypeError
  end.

(** celest/units/quantity.py:158-172 [__rtruediv__] for a number [x / q]. *)
Definition a_rdiv (q : aqty) (o : aoperand) : M aqty :=
  match o with
  | AInt z => x <-- adiv (PyInt z) (aq_data q) ;;; ret (mkAQ x (u_inv (aq_unit q)))
  | AFloat v => x <-- adiv (PyFloat v) (aq_data q) ;;; ret (mkAQ x (u_inv (aq_unit q)))
  | _ => fail TypeError
  end.

(** ** Comparisons *)

(** Results: a Python bool, an array of booleans, or NotImplemented. *)
Inductive acmp : Type := ABool (b : bool) | ABits (a : nat) | ANotImpl.

Definition q_of_bool (b : bool) : Q := if b then 1%Q else 0%Q.

(** [x == y], [x < y], [x > y] on data. *)
Definition acompare (f : Q -> Q -> bool) (x y : pydata) : M acmp :=
  match x, y with
  | Ref _, _ | _, Ref _ => fun h =>
      match np_broadcast (fun a b => q_of_bool (f a b)) (entries h x) (entries h y) with
      | Ok l => (a <-- alloc (mkArray B8 l) ;;; ret (ABits a)) h
      | Raise e => (h, Raise e)
      end
  | _, _ => fun h => (h, Ok (ABool (f (hd 0%Q (entries h x)) (hd 0%Q (entries h y)))))
  end.

(** Shared shape of celest/units/quantity.py:174-181 [__eq__], 186-193 [__lt__]
    and 198-205 [__gt__]. *)
Definition a_cmp (f : Q -> Q -> bool) (q : aqty) (o : aoperand) : M acmp :=
  match o with
  | AQty r =>
      d1 <-- lift (dimension (aq_unit q)) ;;;
      d2 <-- lift (dimension (aq_unit r)) ;;;
      if negb (String.eqb d1 d2) then fail ArithmeticError
      else y <-- a_to r (aq_unit q) ;;; acompare f (aq_data q) y
  | _ => ret ANotImpl
  end.
Definition a_eq := a_cmp Qeqb.
Definition a_lt := a_cmp Qltb.
Definition a_gt := a_cmp (fun x y => Qltb y x).

(** Python's truth value of such a result: numpy raises ValueError for an array of
    two or more entries, an empty array is false (with a warning), NotImplemented
    is true. *)
Definition truth (c : acmp) : M bool :=
  match c with
  | ABool b => ret b
  | ABits a => fun h =>
      match entries h (Ref a) with
      | [] => (h, Ok false)
      | [x] => (h, Ok (negb (Qeqb x 0)))
      | _ => (h, Raise ValueError)
      end
  | ANotImpl => ret true
  end.

(** celest/units/quantity.py:195-196 [__le__] and 207-208 [__ge__]: [a or b]. *)
Definition a_le (q : aqty) (o : aoperand) : M acmp :=
  c <-- a_eq q o ;;; b <-- truth c ;;; if b then ret c else a_lt q o.
Definition a_ge (q : aqty) (o : aoperand) : M acmp :=
  c <-- a_eq q o ;;; b <-- truth c ;;; if b then ret c else a_gt q o.
(** celest/units/quantity.py:183-184 [__ne__]: [not a]. *)
Definition a_ne (q : aqty) (o : aoperand) : M acmp :=
  c <-- a_eq q o ;;; b <-- truth c ;;; ret (ABool (negb b)).

(** ** Programs using quantities *)

(** A user program: it creates arrays, writes into arrays, builds quantities, and
    applies the operations to the quantities built so far (named by position).
    [UTo] binds nothing but leaves the converted array in the heap. *)
Inductive action : Type :=
| UArray (t : dtype) (l : list Q)
| UWrite (a i : nat) (x : Q)
| UQuantity (d : pydata) (u : punit)
| UNeg (i : nat)
| UAdd (i : nat) (o : uarg)
| USub (i : nat) (o : uarg)
| URsub (i : nat) (o : uarg)
| UMul (i : nat) (o : uarg)
| UDiv (i : nat) (o : uarg)
| URdiv (i : nat) (o : uarg)
| UConvert (cp : nat -> nat) (i : nat) (v : punit)
| UTo (i : nat) (v : punit)
| UEq (i : nat) (o : uarg) | UNe (i : nat) (o : uarg)
| ULt (i : nat) (o : uarg) | ULe (i : nat) (o : uarg)
| UGt (i : nat) (o : uarg) | UGe (i : nat) (o : uarg)
with uarg : Type :=
| GInt (z : Z) | GFloat (x : Q) | GQty (j : nat) | GOther.

(** [a[i] = x]: an existing array and index; converting [x] to the element type
    is left to the caller. *)
Definition write (h : heap) (a i : nat) (x : Q) : heap :=
  upd h a (fun y => mkArray (a_type y) (upd (a_data y) i (fun _ => x))).

Notation state := (heap * list aqty)%type.

(** A quantity result is bound to the next name; after an exception, or if a name
    is not bound, nothing is bound. *)
Definition bind_result (s : state) (r : heap * res aqty) : state :=
  match r with
  | (h, Ok q) => (h, snd s ++ [q])
  | (h, Raise _) => (h, snd s)
  end.
Definition drop_result {A} (s : state) (r : heap * res A) : state := (fst r, snd s).

Definition arg_of (e : list aqty) (o : uarg) : option aoperand :=
  match o with
  | GInt z => Some (AInt z)
  | GFloat x => Some (AFloat x)
  | GQty j => option_map AQty (nth_error e j)
  | GOther => Some AOther
  end.

Definition with1 (s : state) (i : nat) (k : aqty -> state) : state :=
  match nth_error (snd s) i with Some q => k q | None => s end.
Definition with2 (s : state) (i : nat) (o : uarg) (k : aqty -> aoperand -> state) : state :=
  match nth_error (snd s) i, arg_of (snd s) o with
  | Some q, Some r => k q r
  | _, _ => s
  end.

Definition step (s : state) (c : action) : state :=
  match c with
  | UArray t l => (fst s ++ [mkArray t l], snd s)
  | UWrite a i x => (write (fst s) a i x, snd s)
  | UQuantity d u => (fst s, snd s ++ [mkAQ d u])
  | UNeg i => with1 s i (fun q => bind_result s (a_neg q (fst s)))
  | UAdd i o => with2 s i o (fun q r => bind_result s (a_add q r (fst s)))
  | USub i o => with2 s i o (fun q r => bind_result s (a_sub q r (fst s)))
  | URsub i o => with2 s i o (fun q r => bind_result s (a_rsub q r (fst s)))
  | UMul i o => with2 s i o (fun q r => bind_result s (a_mul q r (fst s)))
  | UDiv i o => with2 s i o (fun q r => bind_result s (a_div q r (fst s)))
  | URdiv i o => with2 s i o (fun q r => bind_result s (a_rdiv q r (fst s)))
  | UConvert cp i v => with1 s i (fun q => bind_result s (a_convert cp q v (fst s)))
  | UTo i v => with1 s i (fun q => drop_result s (a_to q v (fst s)))
  | UEq i o => with2 s i o (fun q r => drop_result s (a_eq q r (fst s)))
  | UNe i o => with2 s i o (fun q r => drop_result s (a_ne q r (fst s)))
  | ULt i o => with2 s i o (fun q r => drop_result s (a_lt q r (fst s)))
  | ULe i o => with2 s i o (fun q r => drop_result s (a_le q r (fst s)))
  | UGt i o => with2 s i o (fun q r => drop_result s (a_gt q r (fst s)))
  | UGe i o => with2 s i o (fun q r => drop_result s (a_ge q r (fst s)))
  end.

Definition run (s : state) (p : list action) : state := fold_left step p s.
