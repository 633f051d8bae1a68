(** Model of the [save_text_file] methods and of the [str] of a ground location.

    Simplifications: as in Text_Model.v; the units of the positions are scales in the other
    models, so their names are arguments here; the entries of a window are numbers in the
    unit of the file ([to] has been applied). *)
From Coq Require Import String Ascii List Reals NArith ZArith Bool Arith.
From Verif Require Import Py Num Time_Model Rot_Model Geo_Model Lvlh_Model Text_Model.
Import ListNotations.
Open Scope R_scope.
Open Scope list_scope.

(** celest/coordinates/ground_location.py:82-87, with the latitude and the longitude in
    degrees by celest/units/quantity.py:253-297 *)
Definition location_string (l : location) (length_unit : text) : text :=
  iso6709 (loc_latitude l * (angular_scale l / 1)) (loc_latitude l) (loc_longitude l * (angular_scale l / 1)) (loc_longitude l) (loc_height l) length_unit.

(** The three last lines of every method, with one layer and the default format. *)
Definition report (name title : text) (params : option (list (text * text))) (cols : list column) : writer :=
  add_layer (text_file_writer name (Some title)) (Layer None params (Some cols) (fixed 15)).
(** A Quantity. *)
Definition qty (label : string) (unit : text) (l : list num) : column := (lit label, QFloats unit l).
Definition jd2000_unit : text := lit "jd2000".
Definition fins (l : list R) : list num := map Fin l.

(** celest/coordinates/frames/itrs.py:93-103 and gcrs.py:93-103 *)
Definition position_report (title : string) (name unit : text) (p : position R) : writer :=
  report name (lit title) None
    [qty "Time" jd2000_unit (fins (p_time p)); qty "X" unit (fins (p_x p)); qty "Y" unit (fins (p_y p)); qty "Z" unit (fins (p_z p))].
Definition itrs_report := position_report "ITRS Coordinate Data".
Definition gcrs_report := position_report "GCRS Coordinate Data".
(** celest/coordinates/frames/lvlh.py:115-125 *)
Definition lvlh_report {U} (name unit : text) (p : lvlh U) : writer :=
  report name (lit "Satellite LVLH Coordinate Data") None
    [qty "Time" jd2000_unit (fins (l_time p)); qty "X" unit (l_x p); qty "Y" unit (l_y p); qty "Z" unit (l_z p)].
(** celest/coordinates/frames/wgs84.py:111-121 *)
Definition wgs84_report (name angular_unit length_unit : text) (w : wgs84) : writer :=
  report name (lit "WGS84 Coordinate Data") None
    [qty "Time" jd2000_unit (fins (w_time w)); qty "Latitude" angular_unit (w_latitude w);
     qty "Longitude" angular_unit (w_longitude w); qty "Height" length_unit (w_height w)].
(** celest/coordinates/frames/azel.py:116-128 *)
Definition azel_report (name unit height_unit : text) (a : azel) : writer :=
  report name (lit "Azimuth-Elevation Coordinate Data") (Some [(lit "Location", location_string (az_location a) height_unit)])
    [qty "Time" jd2000_unit (fins (az_time a)); qty "Azimuth" unit (az_azimuth a); qty "Elevation" unit (az_elevation a)].
(** celest/coordinates/frames/attitude.py:115-128 *)
Definition attitude_report (name unit height_unit : text) (a : attitude) : writer :=
  report name (lit "Attitude Coordinate Data") (Some [(lit "Location", location_string (t_location a) height_unit)])
    [qty "Time" jd2000_unit (fins (t_time a)); qty "Roll" unit (t_roll a); qty "Pitch" unit (t_pitch a); qty "Yaw" unit (t_yaw a)].
(** celest/satellite.py:264-285; without a velocity line 265 raises (None has no attribute
    [time]) *)
Definition satellite_report (name position_unit velocity_unit : text) (s : satellite) : res writer :=
  gcrs_position <- itrs_to_gcrs (sat_position s) ;;
  match sat_velocity s with
  | None => Raise AttributeError
  | Some v =>
      gcrs_velocity <- itrs_to_gcrs v ;;
      let p := sat_position s in
      Ok (report name (lit "Satellite Position and Velocity") None
            [qty "Time" jd2000_unit (fins (p_time p));
             qty "Itrs X" position_unit (fins (p_x p)); qty "Itrs Y" position_unit (fins (p_y p)); qty "Itrs Z" position_unit (fins (p_z p));
             qty "Itrs VX" velocity_unit (fins (p_x v)); qty "Itrs VY" velocity_unit (fins (p_y v)); qty "Itrs VZ" velocity_unit (fins (p_z v));
             qty "Gcrs X" position_unit (fins (p_x gcrs_position)); qty "Gcrs Y" position_unit (fins (p_y gcrs_position)); qty "Gcrs Z" position_unit (fins (p_z gcrs_position));
             qty "Gcrs VX" velocity_unit (fins (p_x gcrs_velocity)); qty "Gcrs VY" velocity_unit (fins (p_y gcrs_velocity)); qty "Gcrs VZ" velocity_unit (fins (p_z gcrs_velocity))])
  end.
(** celest/encounter/window_handling.py: the windows of a collection, all of one class (see
    [add_window] in Vtw_Model.v); the location is given by its [str], the angles are the
    first ones of the attitude *)
Record visible := Visible { v_rise : num; v_set : num }.
Record observed := Observed {
  o_start : num; o_duration : num; o_location : text; o_roll : num; o_pitch : num; o_yaw : num }.
Inductive windows := VisibleWindows (l : list visible) | ObservedWindows (l : list observed).
(** celest/encounter/window_handling.py:202-260 *)
Definition windows_report (name : text) (ws : windows) : res writer :=
  match ws with
  | VisibleWindows [] | ObservedWindows [] => Raise PyException
  | VisibleWindows l =>
      Ok (report name (lit "VisibleTimeWindow Data") None
            [qty "Rise Time" jd2000_unit (map v_rise l); qty "Set Time" jd2000_unit (map v_set l)])
  | ObservedWindows l =>
      Ok (report name (lit "ObservationWindow Data") None
            [qty "Start Time" jd2000_unit (map o_start l); qty "Duration" (lit "s") (map o_duration l);
             (lit "Location", Objects (map o_location l));
             qty "Roll" (lit "deg") (map o_roll l); qty "Pitch" (lit "deg") (map o_pitch l); qty "Yaw" (lit "deg") (map o_yaw l)])
  end.
(** Saving what may have raised before the file is opened. *)
Definition save_report (show : num -> text) (d : disk) (r : res writer) : disk * res unit :=
  match r with Ok w => save show d w | Raise e => (d, Raise e) end.
