(** Model of the conversions between WGS84 and ITRS on binary64 floating-point numbers
    (celest/coordinates/transforms.py:157-189, 254-302), with the rounding of IEEE 754 as
    formalised in Flocq.  Geo_Model.v is the same code on exact numbers.

    Simplifications: as in Fly_Model.v.  [np.arctan2] is one more parameter. *)
From Coq Require Import List ZArith Bool.
From Flocq Require Import Core.Core IEEE754.BinarySingleNaN IEEE754.Binary IEEE754.Bits.
From Verif Require Import Py Fl_Model Flg_Model Flr_Model Flv_Model Fly_Model.
Import ListNotations.
Open Scope Z_scope.

Section Numpy.
Variable L : arrays.
Variable J : geodesy.
Variable arctan2 : float -> float -> float.

(** celest/coordinates/transforms.py:296, for one point *)
Definition fwgs84_n (latitude : float) : float :=
  fdiv fmajor_axis (fsqrt (fsub (of_Z 1) (fmul (g_square J feccentricity) (fsquare (a_sin L latitude))))).
(** celest/coordinates/transforms.py:298-300, for one point; angles in radians, height in km *)
Definition fwgs84_point (latitude longitude height : float) : fvec :=
  let n := fwgs84_n latitude in
  FV (fmul (fmul (fadd n height) (a_cos L latitude)) (a_cos L longitude))
     (fmul (fmul (fadd n height) (a_cos L latitude)) (a_sin L longitude))
     (fmul (fadd (fmul n (fsub (of_Z 1) (g_square J feccentricity))) height) (a_sin L latitude)).
(** celest/coordinates/transforms.py:254-302, for one point of
    [WGS84(julian, latitude, longitude, height, angle, length)]; in km *)
Definition fwgs84_to_itrs (latitude longitude height : float) (angle length : unit_name) : res fvec :=
  latitude <- fconvert latitude angle Urad ;;
  longitude <- fconvert longitude angle Urad ;;
  height <- fconvert height length Ukm ;;
  Ok (fwgs84_point latitude longitude height).

(** celest/coordinates/transforms.py:185, for one point in km; in radians *)
Definition fwgs84_latitude (v : fvec) : float := g_arctan J (fdiv (fz v) (faxis_distance v)).
(** celest/coordinates/transforms.py:186 *)
Definition fwgs84_longitude (v : fvec) : float := arctan2 (fy v) (fx v).
(** celest/coordinates/transforms.py:157-189: positions in [unit] have the given latitudes, longitudes
    (in radians) and heights (in km) *)
Record fwgs84 := FWgs84 { fw_latitude : list float; fw_longitude : list float; fw_height : list float }.
Definition fitrs_to_wgs84 (unit : unit_name) (positions : list fvec) (result : fwgs84) : Prop :=
  exists points, Forall2 (fun p s => fkm unit p = Ok s) positions points /\
    fw_latitude result = map fwgs84_latitude points /\ fw_longitude result = map fwgs84_longitude points /\
    exists steps, faltitude L J unit positions steps (fw_height result).
End Numpy.
