(** Model of the [__str__] and [__repr__] methods: celest/units/core.py:12-13,
    celest/units/quantity.py:94-98, celest/coordinates/ground_location.py:89-96 and
    celest/encounter/window_handling.py:46-52, 103-109, 155-160.

    Simplifications: data are exact rationals, and [str] of a number is a parameter
    [num_str] ([repr] of a number is the same text); [str] of an attitude (the default text of
    a Python object) is a parameter [att_str], [str] of a ground location (its ISO 6709 form,
    modelled in Text_Model.v) a parameter [loc_str]. *)
From Coq Require Import String Ascii List ZArith QArith Bool.
From Verif Require Import Py Units_Model.
Import ListNotations.
Open Scope string_scope.

(** celest/units/core.py:12-13 with celest/units/display.py:6-12 *)
Definition unit_str (u : punit) : string :=
  match u with
  | UC c => compound_string c
  | UN n => n_name n
  end.

Section Text.
Variable num_str : Q -> string.

(** celest/units/quantity.py:94-95 *)
Definition quantity_str (q : quantity) : string :=
  append (append (num_str (q_data q)) " ") (unit_str (q_unit q)).
(** celest/units/quantity.py:97-98 *)
Definition quantity_repr (q : quantity) : string :=
  append "Quantity(" (append (num_str (q_data q)) (append ", " (append (repr_unit (q_unit q)) ")"))).

(** celest/coordinates/ground_location.py:78-80 *)
Record place := mkPlace { pl_latitude : quantity; pl_longitude : quantity; pl_height : quantity }.
(** celest/coordinates/ground_location.py:55-80: the range checks are on the bare numbers. *)
Definition new_place (latitude longitude height : Q) (angular length : punit) : res place :=
  if Qltb latitude (- (90)) || Qltb 90 latitude then Raise ValueError
  else if Qltb longitude (- (180)) || Qltb 180 longitude then Raise ValueError
  else Ok (mkPlace (mkQty latitude angular) (mkQty longitude angular) (mkQty height length)).

(** celest/coordinates/ground_location.py:89-96 *)
Definition place_repr (l : place) : res string :=
  latitude <- to_ (pl_latitude l) (q_unit (pl_latitude l)) ;;
  longitude <- to_ (pl_longitude l) (q_unit (pl_longitude l)) ;;
  height <- to_ (pl_height l) (q_unit (pl_height l)) ;;
  Ok (append "GroundLocation(" (append (String.concat ", " [
        num_str latitude;
        num_str longitude;
        num_str height;
        repr_unit (q_unit (pl_latitude l));
        repr_unit (q_unit (pl_height l))]) ")")).

Section Windows.
Context {A L : Type}.
Variable att_str : A -> string.
Variable loc_str : L -> string.

(** celest/encounter/window_handling.py:40-44 *)
Record visible := mkVisible { v_rise : quantity; v_set : quantity; v_att : A }.
Definition new_visible (rise set : Q) (att : A) : visible :=
  mkVisible (mkQty rise (UN u_jd2000)) (mkQty set (UN u_jd2000)) att.
(** celest/encounter/window_handling.py:96-101 *)
Record observed := mkObserved { o_start : quantity; o_duration : quantity; o_location : L; o_att : A }.

(** celest/encounter/window_handling.py:46-48 *)
Definition visible_str (w : visible) : string :=
  append "Rise time: " (append (quantity_str (v_rise w)) (append ", Set time: " (append (quantity_str (v_set w))
    (append ", Attitude: " (att_str (v_att w)))))).
(** celest/encounter/window_handling.py:50-52 *)
Definition visible_repr (w : visible) : string :=
  append "VisibleTimeWindow(" (append (num_str (q_data (v_rise w))) (append ", "
    (append (num_str (q_data (v_set w))) (append ", " (append (att_str (v_att w)) ")"))))).

(** celest/encounter/window_handling.py:103-105 *)
Definition observed_str (w : observed) : string :=
  append "Start time: " (append (quantity_str (o_start w)) (append ", Duration: " (append (quantity_str (o_duration w))
    (append ", Location: " (append (loc_str (o_location w)) (append ", Attitude: " (att_str (o_att w)))))))).
(** celest/encounter/window_handling.py:107-109 *)
Definition observed_repr (w : observed) : string :=
  append "ObservationWindow(" (append (quantity_str (o_start w)) (append ", " (append (quantity_str (o_duration w))
    (append ", " (append (loc_str (o_location w)) (append ", " (append (att_str (o_att w)) ")"))))))).

(** A window of either kind, and the windows of a collection
    (celest/encounter/window_handling.py:151-153). *)
Inductive window := Vis (w : visible) | Obs (w : observed).
Definition window_repr (w : window) : string :=
  match w with Vis w => visible_repr w | Obs w => observed_repr w end.

(** celest/encounter/window_handling.py:155-156: [str] of a list *)
Definition collection_str (l : list window) : string :=
  append "[" (append (String.concat ", " (map window_repr l)) "]").
(** celest/encounter/window_handling.py:158-160 *)
Definition collection_repr (l : list window) : string :=
  append "WindowCollection(" (append (String.concat ", " (map window_repr l)) ")").
End Windows.
End Text.
