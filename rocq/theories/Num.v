(** Numbers as numpy computes with them: real numbers, the two infinities and not-a-number.

    Simplifications: there is no rounding and no overflow, and one zero only, which counts
    as positive (so [1 / 0] is plus infinity). *)
From Coq Require Import List Reals Bool.
Import ListNotations.
Open Scope R_scope.

Inductive num := Fin (x : R) | Inf (negative : bool) | NaN.

Definition n_opp (a : num) : num :=
  match a with Fin x => Fin (- x) | Inf s => Inf (negb s) | NaN => NaN end.
Definition n_add (a b : num) : num :=
  match a, b with
  | Fin x, Fin y => Fin (x + y)
  | NaN, _ | _, NaN => NaN
  | Inf s, Inf t => if eqb s t then Inf s else NaN
  | Inf s, Fin _ | Fin _, Inf s => Inf s
  end.
Definition n_sub (a b : num) : num :=
  match a, b with
  | Fin x, Fin y => Fin (x - y)
  | _, _ => n_add a (n_opp b)
  end.
(** An infinity times a real number. *)
Definition n_scale (x : R) (s : bool) : num :=
  if Rlt_dec 0 x then Inf s else if Rlt_dec x 0 then Inf (negb s) else NaN.
Definition n_mul (a b : num) : num :=
  match a, b with
  | Fin x, Fin y => Fin (x * y)
  | NaN, _ | _, NaN => NaN
  | Inf s, Inf t => Inf (xorb s t)
  | Inf s, Fin x | Fin x, Inf s => n_scale x s
  end.
Definition n_div (a b : num) : num :=
  match a, b with
  | Fin x, Fin y =>
      if Req_EM_T y 0 then (if Rlt_dec 0 x then Inf false else if Rlt_dec x 0 then Inf true else NaN)
      else Fin (x / y)
  | NaN, _ | _, NaN => NaN
  | Inf _, Inf _ => NaN
  | Inf s, Fin y => if Rlt_dec y 0 then Inf (negb s) else Inf s
  | Fin _, Inf _ => Fin 0
  end.
(** [x ** -1] *)
Definition n_inv (a : num) : num := n_div (Fin 1) a.
Definition n_sqrt (a : num) : num :=
  match a with
  | Fin x => if Rlt_dec x 0 then NaN else Fin (sqrt x)
  | Inf false => Inf false
  | _ => NaN
  end.
Definition n_sin (a : num) : num := match a with Fin x => Fin (sin x) | _ => NaN end.
Definition n_cos (a : num) : num := match a with Fin x => Fin (cos x) | _ => NaN end.
Definition n_arctan (a : num) : num :=
  match a with
  | Fin x => Fin (atan x)
  | Inf s => Fin (if s then - (PI / 2) else PI / 2)
  | NaN => NaN
  end.
Definition n_arccos (a : num) : num :=
  match a with
  | Fin x => if Rlt_dec x (-1) then NaN else if Rlt_dec 1 x then NaN else Fin (acos x)
  | _ => NaN
  end.
Definition n_arcsin (a : num) : num :=
  match a with
  | Fin x => if Rlt_dec x (-1) then NaN else if Rlt_dec 1 x then NaN else Fin (asin x)
  | _ => NaN
  end.
(** [a < b], which is false when one of them is not a number. *)
Definition n_lt (a b : num) : bool :=
  match a, b with
  | Fin x, Fin y => if Rlt_dec x y then true else false
  | Inf true, Fin _ | Fin _, Inf false | Inf true, Inf false => true
  | _, _ => false
  end.
(** [np.sum] and [np.mean] *)
Definition n_sum (l : list num) : num := fold_right n_add (Fin 0) l.
Definition n_mean (l : list num) : num := n_div (n_sum l) (Fin (INR (length l))).

(** Vectors of three numbers. *)
Record nvec := NV { nx : num; ny : num; nz : num }.
Definition nv_sub (u v : nvec) : nvec := NV (n_sub (nx u) (nx v)) (n_sub (ny u) (ny v)) (n_sub (nz u) (nz v)).
Definition nv_scale (k : num) (v : nvec) : nvec := NV (n_mul k (nx v)) (n_mul k (ny v)) (n_mul k (nz v)).
Definition nv_divide (v : nvec) (k : num) : nvec := NV (n_div (nx v) k) (n_div (ny v) k) (n_div (nz v) k).
(** [np.dot], and [np.sum(u * v)] *)
Definition nv_dot (u v : nvec) : num :=
  n_add (n_add (n_mul (nx u) (nx v)) (n_mul (ny u) (ny v))) (n_mul (nz u) (nz v)).
(** [np.linalg.norm] *)
Definition nv_norm (u : nvec) : num := n_sqrt (nv_dot u u).
(** [np.cross] *)
Definition nv_cross (u v : nvec) : nvec :=
  NV (n_sub (n_mul (ny u) (nz v)) (n_mul (nz u) (ny v)))
     (n_sub (n_mul (nz u) (nx v)) (n_mul (nx u) (nz v)))
     (n_sub (n_mul (nx u) (ny v)) (n_mul (ny u) (nx v))).
