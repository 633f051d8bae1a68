(** Model of celest/encounter/window_generator.py on binary64 floating-point numbers, with the
    attitudes that the windows carry.  Flw_Model.v is the same function without them, and Vis_Model.v is the
    same function on exact numbers.

    Simplifications: positions and velocities in the ITRS frame; one unit of length for the three coordinates of
    the positions, and one factor to metres per second for those of the velocities; the elevations of
    the Sun, in degrees, are given. *)
From Coq Require Import List ZArith Arith Bool.
From Verif Require Import Py Fl_Model Flg_Model Flr_Model Flk_Model Flv_Model Vtw_Model Flw_Model.
Import ListNotations.
Open Scope list_scope.

(** celest/encounter/window_handling.py:12-64 and celest/coordinates/frames/attitude.py: the rise time, the set time
    and the attitude: its times, and roll, pitch and yaw in radians at each of them *)
Record fvtw := FVtw { fw_rise : float; fw_set : float; fw_times : list float; fw_angles : list (float * float * float) }.

Section Numpy.
Variable A : arrays.
Variable B : more.
Variable arcsin : float -> float.
Variable M : maths.
(** celest/satellite.py:138-199: the attitudes at all times *)
Definition fattitudes (l : flocation) (unit : unit_name) (factor : option float) (julian : list float) (points velocities : list fvec)
  : res (list (float * float * float)) :=
  mapM (fun row => fattitude A B arcsin M l (fst row) unit (fst (snd row)) factor (snd (snd row))) (combine julian (combine points velocities)).
(** celest/encounter/window_generator.py:35-94 *)
Definition fgenerate_vtws (l : flocation) (unit : unit_name) (factor : option float) (julian : list float) (points : list fvec)
  (velocities : option (list fvec)) (sun : list float) (threshold : float) (light : lighting) : res (list fvtw) :=
  match velocities with
  | None => Raise PyWarning
  | Some velocities =>
      if flt threshold (of_Z 0) || flt (of_Z 90) threshold then Raise ValueError
      else
        elevations <- mapM (felevation M l unit) points ;;
        let window_indices := np_where 0 (map (flt threshold) elevations) in
        lighting_indices <- flighting_indices sun light ;;
        let window_indices := intersect1d window_indices lighting_indices in
        let cuts := map S (np_where 0 (map (fun d => negb (d =? 1)%Z) (np_diff window_indices))) in
        attitude <- fattitudes l unit factor julian points velocities ;;
        mapM (fun idx => w <- fwindow_of julian idx ;; Ok (FVtw (fst w) (snd w) julian attitude)) (np_split 0 window_indices cuts)
  end.
End Numpy.
