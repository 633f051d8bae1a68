(** Words for the operators between numbers, units and quantities. *)
From Coq Require Import List ZArith QArith Bool.
From Verif Require Import Py Units_Model Units_Spec Ops_Model.
Import ListNotations.
Open Scope list_scope.

Inductive kind := Number | AUnit | AQuantity | Nothing | Something.
Definition kind_of (v : value) : kind :=
  match v with VNum _ => Number | VUnit _ => AUnit | VQty _ => AQuantity | VNone => Nothing | VOther => Something end.
(** What the result of an operation should be; [None] where there should be a TypeError. *)
Definition product_kind (a b : kind) : option kind :=
  match a, b with
  | Number, Number => Some Number
  | Number, AUnit | AUnit, Number | AUnit, AUnit => Some AUnit
  | Number, AQuantity | AQuantity, Number | AQuantity, AQuantity => Some AQuantity
  | _, _ => None
  end.
Definition quotient_kind (a b : kind) : option kind :=
  match a, b with
  | Number, Number => Some Number
  | Number, AUnit | AUnit, AUnit => Some AUnit
  | Number, AQuantity | AQuantity, Number | AQuantity, AQuantity => Some AQuantity
  | _, _ => None
  end.
Definition sum_kind (a b : kind) : option kind :=
  match a, b with
  | Number, Number => Some Number
  | Number, AQuantity | AQuantity, Number | AQuantity, AQuantity => Some AQuantity
  | _, _ => None
  end.
(** The outcome of an operation has the kind it should have: a value of that kind or an error, and
    TypeError if there should be none. *)
Definition as_expected (k : option kind) (r : res value) : Prop :=
  match r, k with
  | Ok v, Some k' => kind_of v = k'
  | Ok _, None => False
  | Raise _, Some _ => True
  | Raise e, None => e = TypeError
  end.
(** A product of a unit with something that is neither a unit nor a number. *)
Definition odd_product (a b : kind) : Prop :=
  (a = AUnit /\ b <> AUnit /\ b <> Number) \/ (b = AUnit /\ a <> AUnit /\ a <> Number).

(** The values in an expression are numbers, units and quantities, and it has no odd product. *)
Fixpoint careful (e : expr) : Prop :=
  match e with
  | XVal v => kind_of v <> Nothing /\ kind_of v <> Something
  | XMul a b => careful a /\ careful b /\ forall x y, run a = Ok x -> run b = Ok y -> ~ odd_product (kind_of x) (kind_of y)
  | XDiv a b | XAdd a b | XSub a b => careful a /\ careful b
  | XNeg a => careful a
  end.

(** The physical sum. *)
Fixpoint total_si (l : list quantity) : Q := match l with [] => 0 | q :: r => si_value q + total_si r end.
