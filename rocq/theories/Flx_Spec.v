(** Words for printed angles. *)
From Coq Require Import String Reals NArith ZArith.
From Verif Require Import Text_Model Text_Props2 Fl_Model.
Open Scope R_scope.

(** [x] is the angle, both in seconds of arc, up to half of the last digit printed and a rounding. *)
Definition reads_right (angle x : R) : Prop := Rabs (x - angle) <= 1 / 200 + 2 / 10 ^ 9.
(** [x] is a minute of arc further from zero than the angle. *)
Definition a_minute_too_far (angle x : R) : Prop :=
  (0 <= angle /\ Rabs (x - (angle + 60)) <= 2 / 10 ^ 9) \/ (angle <= 0 /\ Rabs (x - (angle - 60)) <= 2 / 10 ^ 9).
(** The angle is within 2e-9 seconds of arc of a whole number of minutes. *)
Definition almost_whole_minutes (angle : R) : Prop := exists k : Z, Rabs (angle - IZR k * 60) <= 2 / 10 ^ 9.
(** The symbols of the units of length. *)
Definition length_symbol (unit : unit_name) : text :=
  lit match unit with
      | Umm => "mm" | Ucm => "cm" | Ukm => "km" | Uinch => "inch" | Uft => "ft" | Uyd => "yd" | Umi => "mi" | _ => "m"
      end.
