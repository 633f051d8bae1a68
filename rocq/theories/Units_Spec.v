(** Specification vocabulary for the units properties, independent of the
    algorithms in Units_Model. *)
From Coq Require Import List ZArith QArith Bool String.
From Verif Require Import Py Units_Model.
Import ListNotations.
Open Scope string_scope.

(** A named unit has a positive size (in its SI base unit); a displayed product
    of powers of named units has the product of the powers of their sizes. *)
Fixpoint product_size (l : list (named * Z)) : Q :=
  match l with
  | [] => 1
  | (n, p) :: r => Qpower (n_scale n) p * product_size r
  end.

Definition si_size (u : punit) : Q :=
  match u with
  | UN n => n_scale n
  | UC c => product_size (c_bases c)
  end.

(** Physical magnitude of a quantity. *)
Definition si_value (q : quantity) : Q := q_data q * si_size (q_unit q).

(** [sized env u]: every named unit occurring in [u] has positive size, and the
    size is determined by the short name ([env]): no two different units share a
    short name. *)
Definition sized_named (env : string -> Q) (n : named) : Prop :=
  n_scale n == env (n_name n) /\ 0 < n_scale n.
Definition sized (env : string -> Q) (u : punit) : Prop :=
  match u with
  | UN n => sized_named env n
  | UC c => Forall (fun bp => sized_named env (fst bp)) (c_bases c)
  end.

(** The physical dimension of the predefined units. *)
Definition length_units := ["m"; "mm"; "cm"; "km"; "inch"; "ft"; "yd"; "mi"].
Definition time_units := ["s"; "min"; "hr"; "dy"].
Definition date_units := ["jd2000"].
Definition angle_units := ["deg"; "rad"; "arcsec"; "arcmin"; "hourangle"].

Definition family (dim : string) : list string :=
  if String.eqb dim "L" then length_units
  else if String.eqb dim "T" then time_units
  else if String.eqb dim "D" then date_units
  else if String.eqb dim "A" then angle_units else [].

(** Total exponent of a physical dimension in a product of powers. *)
Fixpoint dim_exponent (dim : string) (l : list (string * Z)) : Z :=
  match l with
  | [] => 0
  | (name, p) :: r =>
      ((if existsb (String.eqb name) (family dim) then p else 0) + dim_exponent dim r)%Z
  end.

(** Unit expressions as a user writes them. *)
Inductive uexpr : Type :=
| EName (n : named)
| EMul (a b : uexpr)
| EDiv (a b : uexpr)
| EInv (a : uexpr)          (* 1 / a *)
| EPow (a : uexpr) (k : Z).

(** What Python computes. *)
Fixpoint eval (e : uexpr) : punit :=
  match e with
  | EName n => UN n
  | EMul a b => u_mul (eval a) (eval b)
  | EDiv a b => u_div (eval a) (eval b)
  | EInv a => u_inv (eval a)
  | EPow a k => u_pow (eval a) k
  end.

(** What ordinary unit algebra says: the exponent of the unit with identity [i]
    and the size. *)
Fixpoint exponent (e : uexpr) (i : nat) : Z :=
  match e with
  | EName n => if Nat.eqb (n_id n) i then 1 else 0
  | EMul a b => exponent a i + exponent b i
  | EDiv a b => exponent a i - exponent b i
  | EInv a => - exponent a i
  | EPow a k => exponent a i * k
  end%Z.

Fixpoint size (e : uexpr) : Q :=
  match e with
  | EName n => n_scale n
  | EMul a b => size a * size b
  | EDiv a b => size a / size b
  | EInv a => / size a
  | EPow a k => Qpower (size a) k
  end.

(** The exponent a computed unit displays for the unit with identity [i]. *)
Fixpoint listed_exponent (l : list (named * Z)) (i : nat) : Z :=
  match l with
  | [] => 0
  | (n, p) :: r => ((if Nat.eqb (n_id n) i then p else 0) + listed_exponent r i)%Z
  end.
Definition unit_bases (u : punit) : list (named * Z) :=
  match u with
  | UN n => [(n, 1%Z)]
  | UC c => c_bases c
  end.
Definition shown_exponent (u : punit) (i : nat) : Z := listed_exponent (unit_bases u) i.

(** Expressions in which no division is by a product that shares a base unit with
    the dividend (division by a plain named unit is unrestricted). *)
Definition shares_base (a b : punit) : Prop :=
  exists n p n' p', In (n, p) (unit_bases a) /\ In (n', p') (unit_bases b) /\ n_id n = n_id n'.
Definition is_named (u : punit) : Prop := exists n, u = UN n.

Fixpoint safe_divisions (e : uexpr) : Prop :=
  match e with
  | EName _ => True
  | EMul a b => safe_divisions a /\ safe_divisions b
  | EDiv a b => safe_divisions a /\ safe_divisions b /\
                (is_named (eval b) \/ ~ shares_base (eval a) (eval b))
  | EInv a | EPow a _ => safe_divisions a
  end.

(** The named units of an expression come from one registry of objects, all of
    non-zero size. *)
Fixpoint from_registry (reg : nat -> named) (e : uexpr) : Prop :=
  match e with
  | EName n => n = reg (n_id n) /\ ~ n_scale n == 0
  | EMul a b | EDiv a b => from_registry reg a /\ from_registry reg b
  | EInv a | EPow a _ => from_registry reg a
  end.
