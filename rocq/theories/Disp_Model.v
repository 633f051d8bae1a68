(** Model of celest/coordinates/coordinate.py.

    Simplifications: the frame argument is a class (one of the four frames, another class
    the position is an instance of, such as Position3d or object, or an unrelated class).
    [_itrs_to_wgs84] need not return (see [altitude_loop] in Geo_Model.v), so [converts] is
    the relation between a call and what comes out of it. *)
From Coq Require Import List Reals Arith Bool.
From Verif Require Import Py Num Time_Model Rot_Model Geo_Model.
Import ListNotations.
Open Scope R_scope.
Open Scope list_scope.
Set Implicit Arguments.

Inductive frame := ITRS | GCRS | WGS84 | AzEl | BaseClass | OtherClass.
(** [WGS84(julian, latitude, longitude, height, angular_unit, length_unit)]; the arrays are
    equally long. *)
Record wgs84_data := Wgs84Data {
  wd_time : list R; wd_latitude : list R; wd_longitude : list R; wd_height : list R;
  wd_angular : R; wd_length : R }.
(** What the program handles: positions given by the user, results of conversions, and the
    constant [NotImplemented]. *)
Inductive object :=
| Itrs (p : position R)
| Gcrs (p : position R)
| Wgs84Given (w : wgs84_data)
| Wgs84Found (w : wgs84)
| AzElFound (a : azel)
| NotImplemented.

(** [object.__class__]; [NotImplemented] is of no frame class *)
Definition class_of (o : object) : frame :=
  match o with
  | Itrs _ => ITRS
  | Gcrs _ => GCRS
  | Wgs84Given _ | Wgs84Found _ => WGS84
  | AzElFound _ => AzEl
  | NotImplemented => OtherClass
  end.
(** [isinstance(o, f)] and [f == g] *)
Definition frame_eqb (f g : frame) : bool :=
  match f, g with
  | ITRS, ITRS | GCRS, GCRS | WGS84, WGS84 | AzEl, AzEl | BaseClass, BaseClass | OtherClass, OtherClass => true
  | _, _ => false
  end.
Definition isinstance (o : object) (f : frame) : bool := frame_eqb (class_of o) f || frame_eqb BaseClass f.

(** celest/coordinates/coordinate.py:55-61: the base position of the object *)
Definition coordinate (o : object) : res object :=
  if existsb (frame_eqb (class_of o)) [ITRS; GCRS; WGS84] then Ok o else Raise ValueError.

Definition wgs84_conversion (p : position R) (out : res object) : Prop :=
  match km_points p with
  | Raise e => out = Raise e
  | Ok _ => exists w, itrs_to_wgs84 p w /\ out = Ok (Wgs84Found w)
  end.
Definition azel_conversion (p : position R) (l : option location) (out : res object) : Prop :=
  match l with
  | None => out = Raise ValueError
  | Some l => out = rmap AzElFound (itrs_to_azel p l)
  end.
(** celest/coordinates/coordinate.py:92-104 *)
Definition convert_from_gcrs (p : position R) (f : frame) (l : option location) (out : res object) : Prop :=
  match gcrs_to_itrs p with
  | Raise e => out = Raise e
  | Ok itrs_position =>
      if frame_eqb f ITRS then out = Ok (Itrs itrs_position)
      else if frame_eqb f WGS84 then wgs84_conversion itrs_position out
      else if frame_eqb f AzEl then azel_conversion itrs_position l out
      else out = Ok NotImplemented
  end.
(** celest/coordinates/coordinate.py:106-117 *)
Definition convert_from_itrs (p : position R) (f : frame) (l : option location) (out : res object) : Prop :=
  if frame_eqb f GCRS then out = rmap Gcrs (itrs_to_gcrs p)
  else if frame_eqb f WGS84 then wgs84_conversion p out
  else if frame_eqb f AzEl then azel_conversion p l out
  else out = Ok NotImplemented.
(** celest/coordinates/coordinate.py:119-131 *)
Definition convert_from_wgs84 (w : wgs84_data) (f : frame) (l : option location) (out : res object) : Prop :=
  let itrs_position := wgs84_to_itrs (wd_time w) (wd_latitude w) (wd_longitude w) (wd_height w) (wd_angular w) (wd_length w) in
  if frame_eqb f ITRS then out = Ok (Itrs itrs_position)
  else if frame_eqb f GCRS then out = rmap Gcrs (itrs_to_gcrs itrs_position)
  else if frame_eqb f AzEl then azel_conversion itrs_position l out
  else out = Ok NotImplemented.
(** celest/coordinates/coordinate.py:63-90.  A WGS84 object that is the result of a conversion is not modelled as an
    argument (its coordinates may be infinite or not-a-number). *)
Definition converts (base : object) (f : frame) (l : option location) (out : res object) : Prop :=
  if isinstance base f then out = Ok base
  else match base with
       | Gcrs p => convert_from_gcrs p f l out
       | Itrs p => convert_from_itrs p f l out
       | Wgs84Given w => convert_from_wgs84 w f l out
       | Wgs84Found _ => False
       | AzElFound _ | NotImplemented => out = Ok NotImplemented
       end.
