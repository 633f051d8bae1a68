(** Words for windows from positions. *)
From Coq Require Import List Reals.
From Verif Require Import Num Rot_Model Rot_Spec Geo_Model Geo_Spec Vtw_Model.
Open Scope R_scope.

(** Seen from the point [g], the point [p] stands more than [angle] degrees above the plane
    through [g] perpendicular to the radius of [g]: the component of [p - g] along the radius
    exceeds the sine of the angle times its length.  (False when [p] is [g] itself, and when
    [g] is the centre of the Earth.) *)
Definition higher_than (angle : R) (g p : vec) : Prop :=
  sin (angle * (PI / 180)) * norm (sub p g) * norm g < dot (sub p g) g.
(** On the far side, and on the near side, of that plane. *)
Definition sunk (g p : vec) : Prop := dot (sub p g) g < 0.
Definition risen (g p : vec) : Prop := 0 < dot (sub p g) g.

(** At sample [i], of [n], the satellite is higher than the threshold and the Sun is where it
    should be; both positions are in a frame turning with the Earth. *)
Definition visible (n : nat) (sat sun : position R) (l : location) (threshold : R) (light : lighting) (i : nat) : Prop :=
  (i < n)%nat /\ higher_than threshold (itrs_of l) (kilometres sat i) /\
  match light with
  | Night => sunk (itrs_of l) (kilometres sun i)
  | Anytime => True
  | Daytime => risen (itrs_of l) (kilometres sun i)
  | OtherLight => False
  end.
(** [s] is the position of the Sun at the times of [p], in the frame turning with the Earth,
    when [sun] gives it in the inertial frame. *)
Definition sun_seen (sun : R -> vec) (p s : position R) : Prop :=
  gcrs_to_itrs (in_km (p_time p) (map sun (p_time p))) = Py.Ok s.
(** The time of sample [i]. *)
Definition time_of (p : position R) (i : nat) : R := nth i (p_time p) 0.
(** Sample times strictly increase. *)
Definition increasing (p : position R) : Prop :=
  forall i j, (i < j)%nat -> (j < length (p_time p))%nat -> time_of p i < time_of p j.
