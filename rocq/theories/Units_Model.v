(** Model of celest/units: core.py, display.py, quantity.py,
    unit_initialization.py, utils.py.

    Simplifications, for the whole file: floats are exact rationals [Q]; powers
    are Python ints ([Z]; the code also admits float powers); array data is not
    modelled separately, every operation on data is elementwise; [str(scale)] is
    replaced by an injective rendering of the rational. *)
From Coq Require Import List ZArith QArith Bool String Ascii.
From Coq Require DecimalString DecimalNat.
From Verif Require Import Py.
Import ListNotations.
Open Scope string_scope.

(** celest/units/core.py:140-199 [Unit] (and 90-137 [NamedUnit]).
    [n_id] is the identity of the Python object: [Unit] defines no [__eq__], so
    [in] and [list.index] compare identities.  Of the objects in
    [Unit._bases] only the short names matter (they are read by display.py:86-87),
    so they are kept as names. *)
Record named : Type := mkNamed {
  n_id : nat;
  n_name : string;
  n_scale : Q;
  n_bases : list (string * Z)
}.

(** celest/units/core.py:202-294 [CompoundUnit]; [_bases] and [_powers] are kept
    as one list of pairs.  After construction all bases are [Unit] objects. *)
Record compound : Type := mkCompound {
  c_scale : Q;
  c_bases : list (named * Z);
  c_unity : bool
}.

Inductive punit : Type :=
| UN (n : named)
| UC (c : compound).

(** celest/units/core.py:274,282 [b in bases] (identity). *)
Definition in_bases (b : named) (l : list (named * Z)) : bool :=
  existsb (fun bp => Nat.eqb (n_id b) (n_id (fst bp))) l.

(** celest/units/core.py:262-269 [handle_repeated_units]; only called when the
    base is present (otherwise Python's [list.index] would raise). *)
Fixpoint handle_repeated (b : named) (p : Z) (l : list (named * Z))
  : list (named * Z) :=
  match l with
  | [] => []
  | (b', p') :: r =>
      if Nat.eqb (n_id b) (n_id b') then
        if (p' + p =? 0)%Z then r else (b', (p' + p)%Z) :: r
      else (b', p') :: handle_repeated b p r
  end.

(** celest/units/core.py:273-281: body of the loop over the bases of a compound
    base.  Note line 281, which passes [p] and not [p * power]. *)
Definition collect_inner (power : Z) (acc : list (named * Z)) (bp : named * Z)
  : list (named * Z) :=
  let (b, p) := bp in
  if negb (in_bases b acc) then app acc [(b, (p * power)%Z)]
  else handle_repeated b p acc.

(** celest/units/core.py:271-286: body of the outer loop. *)
Definition collect_outer (acc : list (named * Z)) (up : punit * Z)
  : list (named * Z) :=
  let (u, power) := up in
  match u with
  | UC c => fold_left (collect_inner power) (c_bases c) acc
  | UN n =>
      if negb (in_bases n acc) then app acc [(n, power)]
      else handle_repeated n power acc
  end.

(** celest/units/core.py:254-291 [_expand_and_collect]. *)
Definition expand_and_collect (l : list (punit * Z)) : list (named * Z) :=
  fold_left collect_outer l [].

(** celest/units/core.py:218-237 [CompoundUnit.__init__].  The code never passes
    an empty list ([bases[0]] would raise IndexError). *)
Definition mk_compound (scale : Q) (l : list (punit * Z)) : compound :=
  let general :=
    let bs := expand_and_collect l in
    mkCompound scale bs (match bs with [] => true | _ => false end) in
  match l with
  | [(UN n, power)] =>
      if (0 <=? power)%Z then
        if (power =? 0)%Z then mkCompound (scale * n_scale n) [] false
        else mkCompound (scale * Qpower (n_scale n) power) [(n, power)] false
      else general
  | _ => general
  end.

(** celest/units/core.py:83-87 and 293-294 [is_unity]. *)
Definition is_unity (u : punit) : bool :=
  match u with
  | UN _ => false
  | UC c => c_unity c
  end.

(** celest/units/core.py:43-47 [__pow__] (int power). *)
Definition u_pow (u : punit) (power : Z) : punit := UC (mk_compound 1 [(u, power)]).

(** celest/units/core.py:49-53 [__truediv__] (unit operand). *)
Definition u_div (a b : punit) : punit := UC (mk_compound 1 [(a, 1%Z); (b, (-1)%Z)]).

(** celest/units/core.py:55-57 [__rtruediv__] with left operand 1. *)
Definition u_inv (u : punit) : punit := UC (mk_compound 1 [(u, (-1)%Z)]).

(** celest/units/core.py:63-69 [__mul__] (unit operand). *)
Definition u_mul (a b : punit) : punit :=
  if is_unity b then a
  else if is_unity a then b
  else UC (mk_compound 1 [(a, 1%Z); (b, 1%Z)]).

(** celest/units/core.py:70-71 and 80-81: number times unit. *)
Definition u_scale (k : Q) (u : punit) : punit := UC (mk_compound k [(u, 1%Z)]).

(** celest/units/core.py:163-175 [Unit.__init__] with [base_units] given: the
    scale of the given unit object is copied, and the names and powers of its
    bases. *)
Definition punit_scale (u : punit) : Q :=
  match u with
  | UN n => n_scale n
  | UC c => c_scale c
  end.

(** [.bases]/[.powers] of a unit as (short name, power) pairs
    (core.py:187-199, 246-252). *)
Definition base_names (u : punit) : list (string * Z) :=
  match u with
  | UN n => n_bases n
  | UC c => map (fun bp => (n_name (fst bp), snd bp)) (c_bases c)
  end.

(** celest/units/core.py:163-175 [Unit.__init__]. *)
Definition new_unit (id : nat) (short_name : string) (base_units : option punit)
  : named :=
  match base_units with
  | Some u => mkNamed id short_name (punit_scale u) (base_names u)
  | None => mkNamed id short_name 1 [(short_name, 1%Z)]
  end.

(** ** display.py *)

(** [str(abs(power))] for an int. *)
Definition nat_str (n : nat) : string := DecimalString.NilZero.string_of_uint (Nat.to_uint n).
Definition abs_str (p : Z) : string := nat_str (Z.abs_nat p).

(** celest/units/display.py:19-20 and 67. *)
Definition power_token (name : string) (p : Z) : string :=
  append name (if (Z.abs p =? 1)%Z then "" else abs_str p).

(** Python's [" ".join(l)]. *)
Definition join_sp (l : list string) : string := String.concat " " l.

(** display.py:16-25 and 61-71: names with positive power go to the numerator,
    the others to the denominator. *)
Definition num_tokens (l : list (string * Z)) : list string :=
  map (fun np => power_token (fst np) (snd np)) (filter (fun np => (0 <? snd np)%Z) l).
Definition den_tokens (l : list (string * Z)) : list string :=
  map (fun np => power_token (fst np) (snd np)) (filter (fun np => negb (0 <? snd np)%Z) l).

(** display.py:27-35 and 73-79: assemble the string; [pre] is [scale_string]. *)
Definition fraction_string (pre : string) (l : list (string * Z)) : string :=
  let num := match num_tokens l with [] => "1" | t => join_sp t end in
  match den_tokens l with
  | [] => append pre num
  | d => join_sp [append pre num; "/"; join_sp d]
  end.

(** [str(unit.scale)]: injective rendering of the rational, see the header. *)
Definition scale_str (q : Q) : string :=
  let r := Qred q in
  append (append (if (Qnum r <? 0)%Z then "-" else "") (abs_str (Qnum r)))
         (append "|" (abs_str (Z.pos (Qden r)))).

(** celest/units/display.py:15-35 [generate_compound_unit_string]. *)
Definition compound_string (c : compound) : string :=
  fraction_string (if Qeq_bool (c_scale c) 1 then "" else append (scale_str (c_scale c)) " ")
                  (map (fun bp => (n_name (fst bp), snd bp)) (c_bases c)).

(** celest/units/core.py:177-178 and 239-240 [__repr__] with display.py:6-12. *)
Definition repr_unit (u : punit) : string :=
  match u with
  | UN n => append "Unit(""" (append (n_name n) """)")
  | UC c => append "CompoundUnit(""" (append (compound_string c) """)")
  end.

(** celest/units/display.py:38-57 [UNIT_TO_DIMENSION_DICTIONARY]. *)
Definition unit_to_dimension : list (string * string) :=
  [("m", "L"); ("mm", "L"); ("cm", "L"); ("km", "L"); ("inch", "L"); ("ft", "L");
   ("yd", "L"); ("mi", "L"); ("s", "T"); ("min", "T"); ("hr", "T"); ("dy", "T");
   ("jd2000", "D"); ("deg", "A"); ("rad", "A"); ("arcsec", "A"); ("arcmin", "A");
   ("hourangle", "A")].

Fixpoint dict_get (d : list (string * string)) (k : string) : res string :=
  match d with
  | [] => Raise KeyError
  | (k', v) :: r => if String.eqb k k' then Ok v else dict_get r k
  end.

(** display.py:88-98: one step of the loop on (dimensions, dimension_powers).
    When the powers cancel, line 93 calls [.pop] on a number: AttributeError. *)
Fixpoint dim_step (dim : string) (power : Z) (acc : list (string * Z))
  : res (list (string * Z)) :=
  match acc with
  | [] => Ok [(dim, power)]
  | (d, p) :: r =>
      if String.eqb dim d then
        if (p + power =? 0)%Z then Raise AttributeError
        else Ok ((d, (p + power)%Z) :: r)
      else r' <- dim_step dim power r ;; Ok ((d, p) :: r')
  end.

(** celest/units/display.py:82-100 [get_dimensions_from_unit]. *)
Fixpoint dims_loop (l : list (string * Z)) (acc : list (string * Z))
  : res (list (string * Z)) :=
  match l with
  | [] => Ok acc
  | (name, power) :: r =>
      dim <- dict_get unit_to_dimension name ;;
      acc' <- dim_step dim power acc ;;
      dims_loop r acc'
  end.

Definition get_dimensions (u : punit) : res (list (string * Z)) :=
  dims_loop (base_names u) [].

(** celest/units/display.py:60-79 [get_dimension_string], core.py:15-20. *)
Definition dimension (u : punit) : res string :=
  d <- get_dimensions u ;; Ok (fraction_string "" d).

(** ** quantity.py *)

(** celest/units/quantity.py:74-92. *)
Record quantity : Type := mkQty { q_data : Q; q_unit : punit }.

(** [base.scale ** power] on floats: 0.0 to a negative power raises. *)
Definition py_pow (s : Q) (p : Z) : res Q :=
  if andb (Qeq_bool s 0) (p <? 0)%Z then Raise ZeroDivisionError
  else Ok (Qpower s p).

(** [a / b] on floats. *)
Definition py_div (a b : Q) : res Q :=
  if Qeq_bool b 0 then Raise ZeroDivisionError else Ok (a / b).

(** celest/units/quantity.py:281-288 [_get_unit_scale]. *)
Fixpoint bases_scale (l : list (named * Z)) (scale : Q) : res Q :=
  match l with
  | [] => Ok scale
  | (b, p) :: r => s <- py_pow (n_scale b) p ;; bases_scale r (scale * s)
  end.

Definition get_unit_scale (u : punit) : res Q :=
  match u with
  | UC c => bases_scale (c_bases c) 1
  | UN n => Ok (n_scale n)
  end.

(** [copy.deepcopy] of a unit: same contents, new object identities; [cp] is the
    renaming of identities. *)
Definition copy_named (cp : nat -> nat) (n : named) : named :=
  mkNamed (cp (n_id n)) (n_name n) (n_scale n) (n_bases n).
Definition copy_unit (cp : nat -> nat) (u : punit) : punit :=
  match u with
  | UN n => UN (copy_named cp n)
  | UC c => UC (mkCompound (c_scale c)
                  (map (fun bp => (copy_named cp (fst bp), snd bp)) (c_bases c))
                  (c_unity c))
  end.

(** celest/units/quantity.py:253-297 [convert_to]. *)
Definition convert_to (cp : nat -> nat) (q : quantity) (v : punit) : res quantity :=
  d1 <- dimension (q_unit q) ;;
  d2 <- dimension v ;;
  if negb (String.eqb d1 d2) then Raise ValueError
  else if negb (String.eqb (repr_unit (q_unit q)) (repr_unit v)) then
    s1 <- get_unit_scale (q_unit q) ;;
    s2 <- get_unit_scale v ;;
    f <- py_div s1 s2 ;;
    Ok (mkQty (q_data q * f) v)
  else Ok (mkQty (q_data q) (copy_unit cp (q_unit q))).

(** celest/units/quantity.py:231-251 [to]; the identity renaming is irrelevant
    because only the data is returned. *)
Definition to_ (q : quantity) (v : punit) : res Q :=
  rmap q_data (convert_to (fun i => i) q v).

(** Operands of the binary operators: int/float, Quantity, anything else. *)
Inductive operand : Type :=
| ONum (x : Q)
| OQty (q : quantity)
| OOther.

(** celest/units/quantity.py:100-101 [__neg__]. *)
Definition q_neg (q : quantity) : quantity := mkQty (- q_data q) (q_unit q).

(** celest/units/quantity.py:103-117 [__add__], [__radd__].  NotImplemented for
    another operand ends in TypeError (the other operand is assumed not to know
    quantities). *)
Definition q_add (q : quantity) (o : operand) : res quantity :=
  match o with
  | ONum x => Ok (mkQty (q_data q + x) (q_unit q))
  | OQty r =>
      d1 <- dimension (q_unit q) ;;
      d2 <- dimension (q_unit r) ;;
      if negb (String.eqb d1 d2) then Raise ArithmeticError
      else x <- to_ r (q_unit q) ;; Ok (mkQty (q_data q + x) (q_unit q))
  | OOther => Raise TypeError
  end.

(** [-other] in [__sub__]. *)
Definition o_neg (o : operand) : operand :=
  match o with
  | ONum x => ONum (- x)
  | OQty r => OQty (q_neg r)
  | OOther => OOther
  end.

(** celest/units/quantity.py:119-120 [__sub__]. *)
Definition q_sub (q : quantity) (o : operand) : res quantity := q_add q (o_neg o).

(** celest/units/quantity.py:122-123 [__rsub__]: [other - q]. *)
Definition q_rsub (q : quantity) (o : operand) : res quantity :=
  rmap q_neg (q_sub q o).

(** celest/units/quantity.py:125-141 [__mul__], [__rmul__]. *)
Definition q_mul (q : quantity) (o : operand) : res quantity :=
  match o with
  | ONum x => Ok (mkQty (q_data q * x) (q_unit q))
  | OQty r =>
      d1 <- dimension (q_unit q) ;;
      d2 <- dimension (q_unit r) ;;
      if String.eqb d1 d2 then
        x <- to_ r (q_unit q) ;; Ok (mkQty (q_data q * x) (u_pow (q_unit q) 2))
      else Ok (mkQty (q_data q * q_data r) (u_mul (q_unit q) (q_unit r)))
  | OOther => Raise TypeError
  end.

(** celest/units/quantity.py:143-156 [__truediv__]. *)
Definition q_div (q : quantity) (o : operand) : res quantity :=
  match o with
  | ONum x => y <- py_div (q_data q) x ;; Ok (mkQty y (q_unit q))
  | OQty r =>
      d1 <- dimension (q_unit q) ;;
      d2 <- dimension (q_unit r) ;;
      if String.eqb d1 d2 then
        x <- to_ r (q_unit q) ;; y <- py_div (q_data q) x ;;
        Ok (mkQty y (u_div (q_unit q) (q_unit q)))
      else y <- py_div (q_data q) (q_data r) ;;
           Ok (mkQty y (u_div (q_unit q) (q_unit r)))
  | OOther => Raise TypeError
  end.

(** celest/units/quantity.py:158-172 [__rtruediv__] for a number: [x / q]. *)
Definition q_rdiv (q : quantity) (x : Q) : res quantity :=
  y <- py_div x (q_data q) ;; Ok (mkQty y (u_inv (q_unit q))).

(** Results of the rich comparison methods: a boolean or [NotImplemented]. *)
Inductive cmpres : Type := CBool (b : bool) | CNotImpl.

(** Shared shape of celest/units/quantity.py:174-181 [__eq__], 186-193
    [__lt__] and 198-205 [__gt__]. *)
Definition q_cmp (f : Q -> Q -> bool) (q : quantity) (o : operand) : res cmpres :=
  match o with
  | OQty r =>
      d1 <- dimension (q_unit q) ;;
      d2 <- dimension (q_unit r) ;;
      if negb (String.eqb d1 d2) then Raise ArithmeticError
      else x <- to_ r (q_unit q) ;; Ok (CBool (f (q_data q) x))
  | _ => Ok CNotImpl
  end.
Definition q_eq_m := q_cmp Qeqb.
Definition q_lt_m := q_cmp Qltb.
Definition q_gt_m := q_cmp (fun x y => Qltb y x).

(** Python's [a or b] on such results ([NotImplemented] is truthy, line 196). *)
Definition py_or (a : cmpres) (b : res cmpres) : res cmpres :=
  match a with
  | CBool false => b
  | _ => Ok a
  end.

(** celest/units/quantity.py:195-196 and 207-208 [__le__], [__ge__]. *)
Definition q_le_m (q : quantity) (o : operand) : res cmpres :=
  a <- q_eq_m q o ;; py_or a (q_lt_m q o).
Definition q_ge_m (q : quantity) (o : operand) : res cmpres :=
  a <- q_eq_m q o ;; py_or a (q_gt_m q o).

(** celest/units/quantity.py:183-184 [__ne__]: [not NotImplemented] is False. *)
Definition q_ne_m (q : quantity) (o : operand) : res cmpres :=
  a <- q_eq_m q o ;;
  Ok (CBool (match a with CBool b => negb b | CNotImpl => false end)).

(** The expressions [q == o], [q != o], [q < o] ...: when the method returns
    NotImplemented Python tries the other operand (assumed not to know
    quantities); [==] then falls back to identity (False here), an ordering raises
    TypeError. *)
Definition py_eq_expr (r : res cmpres) : res bool :=
  a <- r ;; Ok (match a with CBool b => b | CNotImpl => false end).
Definition py_ord_expr (r : res cmpres) : res bool :=
  a <- r ;; match a with CBool b => Ok b | CNotImpl => Raise TypeError end.

Definition q_eq q o := py_eq_expr (q_eq_m q o).
Definition q_ne q o := py_eq_expr (q_ne_m q o).
Definition q_lt q o := py_ord_expr (q_lt_m q o).
Definition q_le q o := py_ord_expr (q_le_m q o).
Definition q_gt q o := py_ord_expr (q_gt_m q o).
Definition q_ge q o := py_ord_expr (q_ge_m q o).

(** ** unit_initialization.py:9-39, through utils.py:6-7 [setup_unit] *)
Definition u_m : named := new_unit 0 "m" None.
Definition u_mm : named := new_unit 1 "mm" (Some (u_scale (1 # 1000) (UN u_m))).
Definition u_cm : named := new_unit 2 "cm" (Some (u_scale (1 # 100) (UN u_m))).
Definition u_km : named := new_unit 3 "km" (Some (u_scale 1000 (UN u_m))).
Definition u_inch : named := new_unit 4 "inch" (Some (u_scale (254 # 10000) (UN u_m))).
Definition u_ft : named := new_unit 5 "ft" (Some (u_scale (305 # 1000) (UN u_m))).
Definition u_yd : named := new_unit 6 "yd" (Some (u_scale (914 # 1000) (UN u_m))).
Definition u_mi : named := new_unit 7 "mi" (Some (u_scale (1609344 # 1000) (UN u_m))).
Definition u_s : named := new_unit 8 "s" None.
Definition u_min : named := new_unit 9 "min" (Some (u_scale 60 (UN u_s))).
Definition u_hr : named := new_unit 10 "hr" (Some (u_scale 3600 (UN u_s))).
Definition u_dy : named := new_unit 11 "dy" (Some (u_scale 86400 (UN u_s))).
Definition u_jd2000 : named := new_unit 12 "jd2000" None.
Definition u_deg : named := new_unit 13 "deg" None.
Definition u_rad : named :=
  new_unit 14 "rad" (Some (u_scale (5729577951308232 # 100000000000000) (UN u_deg))).
Definition u_arcsec : named := new_unit 15 "arcsec" (Some (u_scale (1 # 3600) (UN u_deg))).
Definition u_arcmin : named := new_unit 16 "arcmin" (Some (u_scale (1 # 60) (UN u_deg))).
Definition u_hourangle : named := new_unit 17 "hourangle" (Some (u_scale 15 (UN u_deg))).

Definition unit_table : list named :=
  [u_m; u_mm; u_cm; u_km; u_inch; u_ft; u_yd; u_mi; u_s; u_min; u_hr; u_dy;
   u_jd2000; u_deg; u_rad; u_arcsec; u_arcmin; u_hourangle].

(** ** Namespaces *)

(** A namespace dict from short names to units. *)
Definition namespace := list (string * named).
Fixpoint ns_get (ns : namespace) (k : string) : option named :=
  match ns with
  | [] => None
  | (k', v) :: r => if String.eqb k k' then Some v else ns_get r k
  end.

(** celest/units/core.py:134-137 [_insert_into_namespace] (namespace given). *)
Definition ns_insert (ns : namespace) (n : named) : namespace :=
  match ns_get ns (n_name n) with
  | None => app ns [(n_name n, n)]
  | Some _ => ns
  end.
