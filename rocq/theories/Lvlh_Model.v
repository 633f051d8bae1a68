(** Model of the LVLH part of celest/coordinates/transforms.py (lines 432-536), of the
    constructor and of the method [attitude] of celest/satellite.py (lines 50-199).

    Simplifications: numbers as in Num.v (no rounding); coordinates given by the user are
    real numbers.  A unit is its scale: metres per unit for positions, metres per second per
    unit for velocities; an object with a unit of the wrong dimension is not modelled.
    [GroundLocation] objects are the records of Geo_Model.v. *)
From Coq Require Import List Reals Arith Bool.
From Verif Require Import Py Num Time_Model Rot_Model Geo_Model.
Import ListNotations.
Open Scope R_scope.
Open Scope list_scope.
Set Implicit Arguments.

(** ** numpy *)
Definition nv_opp (v : nvec) : nvec := NV (n_opp (nx v)) (n_opp (ny v)) (n_opp (nz v)).
(** A 3x3 matrix, by rows, and one row of the result of ['ijk, ik -> ij']. *)
Record nmat := NM { row_x : nvec; row_y : nvec; row_z : nvec }.
Definition nm_vec (m : nmat) (v : nvec) : nvec :=
  NV (nv_dot (row_x m) v) (nv_dot (row_y m) v) (nv_dot (row_z m) v).
(** [np.arctan2(y, x)] *)
Definition n_arctan2 (y x : num) : num :=
  match y, x with
  | NaN, _ | _, NaN => NaN
  | Fin y, Fin x => Fin (atan2 y x)
  | Inf s, Fin _ => Fin (if s then - (PI / 2) else PI / 2)
  | Fin y, Inf false => Fin 0
  | Fin y, Inf true => Fin (if Rlt_dec y 0 then - PI else PI)
  | Inf s, Inf false => Fin (if s then - (PI / 4) else PI / 4)
  | Inf s, Inf true => Fin (if s then - (3 * PI / 4) else 3 * PI / 4)
  end.

(** ** celest/coordinates/transforms.py *)

(** celest/coordinates/transforms.py:523-536, for one row of each array *)
Definition lvlh_rows (position velocity : vec) : nmat :=
  let p := fin_vec position in
  let norm_position := nv_norm p in
  let position_cross_velocity := nv_cross p (fin_vec velocity) in
  let norm_position_cross_velocity := nv_norm position_cross_velocity in
  let lvlh_z := nv_divide (nv_opp p) norm_position in
  let lvlh_y := nv_divide (nv_opp position_cross_velocity) norm_position_cross_velocity in
  let lvlh_x := nv_cross lvlh_y lvlh_z in
  NM lvlh_x lvlh_y lvlh_z.
(** The whole arrays.  One velocity is broadcast to all positions; more velocities than
    positions cannot be stored in the array allocated in line 531. *)
Definition gcrs_to_lvlh_matrix (position velocity : list vec) : res (list nmat) :=
  if (length velocity =? length position)%nat then Ok (map2 lvlh_rows position velocity)
  else match velocity with
       | [v] => Ok (map (fun p => lvlh_rows p v) position)
       | _ => Raise ValueError
       end.

(** Coordinates of an LVLH object; they may be not-a-number. *)
Record lvlh (U : Type) := Lvlh {
  l_time : list R; l_x : list num; l_y : list num; l_z : list num; l_unit : U }.
Arguments Lvlh {U}.
Definition lvlh_of {U} (time : list R) (points : list nvec) (unit : U) : lvlh U :=
  Lvlh time (map nx points) (map ny points) (map nz points) unit.

(** celest/coordinates/transforms.py:432-506.  The arguments are GCRS objects (the checks of lines 456-461 pass).  The
    constructor of the results cannot raise: their coordinates come from one array.  *)
Definition gcrs_to_lvlh {U W} (gcrs_position : position U) (gcrs_velocity : position W) : res (lvlh U * lvlh W) :=
  let julian := p_time gcrs_position in
  position <- columns (p_x gcrs_position) (p_y gcrs_position) (p_z gcrs_position) ;;
  velocity <- columns (p_x gcrs_velocity) (p_y gcrs_velocity) (p_z gcrs_velocity) ;;
  transformation_matrix <- gcrs_to_lvlh_matrix position velocity ;;
  transformed_position <- np_broadcast nm_vec transformation_matrix (map fin_vec position) ;;
  transformed_velocity <- np_broadcast nm_vec transformation_matrix (map fin_vec velocity) ;;
  Ok (lvlh_of julian transformed_position (p_unit gcrs_position),
      lvlh_of julian transformed_velocity (p_unit gcrs_velocity)).

(** ** celest/satellite.py *)

(** What can be passed to the constructor: an object of one of the two accepted classes, or
    of another one. *)
Inductive framed := InGCRS (p : position R) | InITRS (p : position R) | InOther.
Record satellite := Satellite { sat_position : position R; sat_velocity : option (position R) }.

(** celest/satellite.py:63-80 *)
Definition to_itrs_frame (p : framed) : res (position R) :=
  match p with
  | InITRS p => Ok p
  | InGCRS p => gcrs_to_itrs p
  | InOther => Raise ValueError
  end.
Definition make_satellite (position : framed) (velocity : option framed) : res satellite :=
  p <- to_itrs_frame position ;;
  match velocity with
  | Some v => v' <- to_itrs_frame v ;; Ok (Satellite p (Some v'))
  | None => Ok (Satellite p None)
  end.

(** [to_numpy(u.km)] and [to_numpy(u.m / u.s)], base_positions.py:105-124. *)
Definition speed_points (v : position R) : res (list vec) :=
  columns (map (fun x => x * (p_unit v / 1)) (p_x v)) (map (fun x => x * (p_unit v / 1)) (p_y v))
          (map (fun x => x * (p_unit v / 1)) (p_z v)).
Definition n_to_km (scale : R) (x : num) : num := n_mul x (Fin (scale / 1000)).
Definition nvecs (x y z : list num) : list nvec :=
  map (fun p => NV (fst (fst p)) (snd (fst p)) (snd p)) (combine (combine x y) z).
(** The three lists of an LVLH object have the same length. *)
Definition lvlh_km (l : lvlh R) : list nvec :=
  nvecs (map (n_to_km (l_unit l)) (l_x l)) (map (n_to_km (l_unit l)) (l_y l)) (map (n_to_km (l_unit l)) (l_z l)).

(** celest/satellite.py:180-196, for one row: the position of the satellite and of the target, in km and
    in the LVLH frame; the results in radians *)
Definition attitude_angles (lvlh_position ground_lvlh : nvec) : num * num * num :=
  let satellite_lvlh_norm := nv_norm lvlh_position in
  let s := nv_divide (nv_opp lvlh_position) satellite_lvlh_norm in
  let ground := nv_sub ground_lvlh lvlh_position in
  let ground_norm := nv_norm ground in
  let g := nv_divide ground ground_norm in
  let v := nv_cross s g in
  let c := nv_dot s g in
  let d := n_add (Fin 1) c in
  let a32 := n_add (nx v) (n_div (n_mul (ny v) (nz v)) d) in
  let a31 := n_add (n_opp (ny v)) (n_div (n_mul (nx v) (nz v)) d) in
  let a33 := n_sub (Fin 1) (n_div (n_add (n_mul (nx v) (nx v)) (n_mul (ny v) (ny v))) d) in
  let a12 := n_add (n_opp (nz v)) (n_div (n_mul (nx v) (ny v)) d) in
  let a22 := n_sub (Fin 1) (n_div (n_add (n_mul (nx v) (nx v)) (n_mul (nz v) (nz v))) d) in
  (n_opp (n_arcsin a32), n_arctan2 a31 a33, n_arctan2 a12 a22).

Record attitude := Attitude {
  t_time : list R; t_roll : list num; t_pitch : list num; t_yaw : list num; t_location : location }.

(** celest/satellite.py:138-199 *)
Definition satellite_attitude (sat : satellite) (l : location) : res attitude :=
  match sat_velocity sat with
  | None => Raise ValueError
  | Some velocity =>
      gcrs_position <- itrs_to_gcrs (sat_position sat) ;;
      gcrs_velocity <- itrs_to_gcrs velocity ;;
      gcrs_position_array <- km_points gcrs_position ;;
      gcrs_velocity_array <- speed_points gcrs_velocity ;;
      both <- gcrs_to_lvlh gcrs_position gcrs_velocity ;;
      let lvlh_position := fst both in
      let lvlh_position_array := lvlh_km lvlh_position in
      let julian := p_time (sat_position sat) in
      let n := length (l_x lvlh_position) in
      ground_itrs <- position3d (array1 julian) (array1 (repeat (itrs_x l) n))
                       (array1 (repeat (itrs_y l) n)) (array1 (repeat (itrs_z l) n)) 1000 ;;
      ground_gcrs <- itrs_to_gcrs ground_itrs ;;
      ground_gcrs <- km_points ground_gcrs ;;
      transformation_matrix <- gcrs_to_lvlh_matrix gcrs_position_array gcrs_velocity_array ;;
      ground_lvlh <- np_broadcast nm_vec transformation_matrix (map fin_vec ground_gcrs) ;;
      angles <- np_broadcast attitude_angles lvlh_position_array ground_lvlh ;;
      Ok (Attitude julian (map (fun a => fst (fst a)) angles) (map (fun a => snd (fst a)) angles)
            (map snd angles) l)
  end.
