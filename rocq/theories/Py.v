(** Python run-time notions shared by all the models: exceptions as values,
    numeric helpers on exact rationals, and [sorted].

    None of these definitions models a line of /repo: they model the Python
    built-ins the code calls (raise, sorted, floor, list indexing). *)
From Coq Require Import List ZArith QArith Qround Bool Permutation Sorted.
Import ListNotations.
Set Implicit Arguments.

(** The exception classes the code can raise (explicitly, or implicitly through
    a built-in). *)
Inductive exn : Type :=
| ValueError | TypeError | IndexError | KeyError | AttributeError
| ZeroDivisionError | ArithmeticError | PyWarning | PyException | StopIteration
| OverflowError | LinAlgError | UnboundLocalError.

Inductive res (A : Type) : Type :=
| Ok (a : A)
| Raise (e : exn).
Arguments Ok {A} a.
Arguments Raise {A} e.

Definition bind {A B : Type} (r : res A) (f : A -> res B) : res B :=
  match r with
  | Ok a => f a
  | Raise e => Raise e
  end.

Declare Scope py_scope.
Delimit Scope py_scope with py.
Notation "x <- r ;; k" := (bind r (fun x => k))
  (at level 61, r at next level, right associativity) : py_scope.
Open Scope py_scope.

Definition rmap {A B : Type} (f : A -> B) (r : res A) : res B :=
  match r with
  | Ok a => Ok (f a)
  | Raise e => Raise e
  end.

(** [[f(x) for x in l]] where [f] may raise: stops at the first exception. *)
Fixpoint mapM {A B : Type} (f : A -> res B) (l : list A) : res (list B) :=
  match l with
  | [] => Ok []
  | x :: r => y <- f x ;; ys <- mapM f r ;; Ok (y :: ys)
  end.

(** [l[i]] for a non-negative index; IndexError when out of range. *)
Definition py_nth {A : Type} (l : list A) (i : nat) : res A :=
  match nth_error l i with
  | Some a => Ok a
  | None => Raise IndexError
  end.

(** [l[i]] for an arbitrary integer index: negative indices count from the
    end. *)
Definition py_index {A : Type} (l : list A) (i : Z) : res A :=
  let n := Z.of_nat (length l) in
  if (0 <=? i)%Z then
    (if (i <? n)%Z then py_nth l (Z.to_nat i) else Raise IndexError)
  else
    (if (0 <=? i + n)%Z then py_nth l (Z.to_nat (i + n)) else Raise IndexError).

(** [l[i] = f(l[i])] on a Python list: no effect out of range (the callers
    check the index first). *)
Fixpoint upd {A : Type} (l : list A) (i : nat) (f : A -> A) : list A :=
  match l, i with
  | [], _ => []
  | x :: r, O => f x :: r
  | x :: r, S j => x :: upd r j f
  end.

(** Strict comparison of exact rationals, Python's [x < y] on floats. *)
Definition Qltb (x y : Q) : bool := negb (Qle_bool y x).
Definition Qleb (x y : Q) : bool := Qle_bool x y.
Definition Qeqb (x y : Q) : bool := Qeq_bool x y.

(** Python's [%] on floats with positive modulus, exact arithmetic. *)
Definition Qpymod (x m : Q) : Q := x - m * inject_Z (Qfloor (x / m)).

(** C truncation, numpy's [astype(int)]. *)
Definition Qtrunc (x : Q) : Z := Z.quot (Qnum x) (Z.pos (Qden x)).

(** [sorted(l)] with comparison [lt x y] standing for Python's [x < y].  The
    language reference specifies [sorted] as a stable sort; any stable sort gives
    the same list when [lt] is a strict weak order.  Insertion sort is used.
    [sorted(l, key=k, reverse=True)] keeps the original order of ties, so it is
    the stable sort for the flipped comparison. *)
Section PySorted.
  Context {A : Type}.
  Variable lt : A -> A -> bool.

  Fixpoint py_insert (x : A) (l : list A) : list A :=
    match l with
    | [] => [x]
    | y :: r => if lt y x then y :: py_insert x r else x :: l
    end.

  Fixpoint py_sorted (l : list A) : list A :=
    match l with
    | [] => []
    | x :: r => py_insert x (py_sorted r)
    end.
End PySorted.

(** [sorted] with a comparison that may raise. *)
Section PySortedM.
  Context {A : Type}.
  Variable lt : A -> A -> res bool.

  Fixpoint py_insertM (x : A) (l : list A) : res (list A) :=
    match l with
    | [] => Ok [x]
    | y :: r =>
        b <- lt y x ;;
        (if b : bool then r' <- py_insertM x r ;; Ok (y :: r')
         else Ok (x :: l))
    end.

  Fixpoint py_sortedM (l : list A) : res (list A) :=
    match l with
    | [] => Ok []
    | x :: r => l' <- py_sortedM r ;; py_insertM x l'
    end.
End PySortedM.

(** [np.where(b)[0]], counting from [i]. *)
Fixpoint np_where (i : nat) (l : list bool) : list nat :=
  match l with
  | [] => []
  | b :: r => if b then i :: np_where (S i) r else np_where (S i) r
  end.

(** [a op b] on 1-D arrays: equal lengths, or one of them of length one. *)
Definition np_broadcast {A B C : Type} (f : A -> B -> C) (a : list A) (b : list B) : res (list C) :=
  if Nat.eqb (length a) (length b) then Ok (map (fun p => f (fst p) (snd p)) (combine a b))
  else match a, b with
       | [x], _ => Ok (map (f x) b)
       | _, [y] => Ok (map (fun x => f x y) a)
       | _, _ => Raise ValueError
       end.

(** [a[ind] = v] with an index array: as many values as indices, or one value. *)
Definition np_assign {A : Type} (a : list A) (ind : list nat) (v : list A) : res (list A) :=
  let set l p := upd l (fst p) (fun _ => snd p) in
  if Nat.eqb (length v) (length ind) then Ok (fold_left set (combine ind v) a)
  else match v with
       | [x] => Ok (fold_left set (map (fun i => (i, x)) ind) a)
       | _ => Raise ValueError
       end.

(** Elementwise combination of arrays known to have the same length. *)
Definition map2 {A B C : Type} (f : A -> B -> C) (a : list A) (b : list B) : list C :=
  map (fun p => f (fst p) (snd p)) (combine a b).
