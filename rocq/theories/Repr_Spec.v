(** Vocabulary for the properties of texts (C141-C143). *)
From Coq Require Import String Ascii List ZArith QArith Bool.
From Verif Require Import Py Units_Model Units_Spec Repr_Model.
Import ListNotations.
Open Scope Q_scope.
Open Scope list_scope.
Open Scope string_scope.

(** The number a unit shows before its names (nothing shown means 1). *)
Definition shown_factor (u : punit) : Q :=
  match u with
  | UN _ => 1
  | UC c => c_scale c
  end.
(** What a reader makes of the text of a unit: the number in front, times the product of the
    powers of the named units. *)
Definition reading (u : punit) : Q := shown_factor u * product_size (unit_bases u).

(** No power 0, 1, 2, ... of a bare named unit whose size is not 1. *)
Fixpoint no_scaled_powers (e : uexpr) : Prop :=
  match e with
  | EName _ => True
  | EMul a b | EDiv a b => no_scaled_powers a /\ no_scaled_powers b
  | EInv a => no_scaled_powers a
  | EPow a k => no_scaled_powers a /\ ((k < 0)%Z \/ (forall n, eval a = UN n -> n_scale n == 1))
  end.

(** The names a unit shows are predefined short names. *)
Definition predefined (name : string) : Prop :=
  In name (length_units ++ time_units ++ date_units ++ angle_units)%list.
Definition predefined_names (u : punit) : Prop :=
  Forall (fun bp => predefined (n_name (fst bp))) (unit_bases u).

(** [free c s]: the character [c] does not occur in [s]. *)
Definition free (c : ascii) (s : string) : Prop := ~ In c (list_ascii_of_string s).
(** Different numbers have different texts, without spaces and commas. *)
Definition number_text (num_str : Q -> string) : Prop :=
  (forall x y, num_str x = num_str y -> x == y) /\
  (forall x, free " " (num_str x) /\ free "," (num_str x)).

(** Total exponent of a named unit in the list a unit shows. *)
Fixpoint name_exponent (name : string) (l : list (named * Z)) : Z :=
  match l with
  | [] => 0%Z
  | (n, p) :: r => ((if String.eqb name (n_name n) then p else 0) + name_exponent name r)%Z
  end.

(** The same number in front, the same units to the same powers, the same size. *)
Definition same_unit (u v : punit) : Prop :=
  shown_factor u == shown_factor v /\
  (forall name, name_exponent name (unit_bases u) = name_exponent name (unit_bases v)) /\
  si_size u == si_size v.
Definition same_quantity (q r : quantity) : Prop :=
  q_data q == q_data r /\ same_unit (q_unit q) (q_unit r) /\ si_value q == si_value r.
(** Units of known sizes with predefined names. *)
Definition good_unit (env : string -> Q) (u : punit) : Prop := sized env u /\ predefined_names u.
Definition good_quantity (env : string -> Q) (q : quantity) : Prop := good_unit env (q_unit q).

(** Windows that agree in everything they show: their times, and the texts of their
    locations and attitudes. *)
Definition same_window {A L : Type} (att_str : A -> string) (loc_str : L -> string) (a b : @window A L) : Prop :=
  match a, b with
  | Vis v, Vis w => q_data (v_rise v) == q_data (v_rise w) /\ q_data (v_set v) == q_data (v_set w) /\
      att_str (v_att v) = att_str (v_att w)
  | Obs v, Obs w => same_quantity (o_start v) (o_start w) /\ same_quantity (o_duration v) (o_duration w) /\
      loc_str (o_location v) = loc_str (o_location w) /\ att_str (o_att v) = att_str (o_att w)
  | _, _ => False
  end.
Definition good_window {A L : Type} (env : string -> Q) (w : @window A L) : Prop :=
  match w with
  | Vis _ => True
  | Obs w => good_quantity env (o_start w) /\ good_quantity env (o_duration w)
  end.
(** Texts of attitudes and locations without the characters that separate the parts. *)
Definition plain_text {T : Type} (str : T -> string) : Prop :=
  forall x, free "," (str x) /\ free ")" (str x).
