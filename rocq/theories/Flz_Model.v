(** Model of a satellite given by its positions in the GCRS frame, in binary64 floating point:
    the constructor of celest/satellite.py, which turns them into the ITRS frame, and
    celest/encounter/window_generator.py with the elevations of the Sun computed from its positions.
    Flw_Model.v is the same function for positions in the ITRS frame and given elevations of the Sun.

    Simplifications: one unit of length for the three coordinates; the positions of the Sun in the GCRS
    frame, in kilometres, are given (they come from the file de421.bsp); the attitudes stored in
    the windows are left out. *)
From Coq Require Import List ZArith Arith Bool.
From Verif Require Import Py Fl_Model Flg_Model Flr_Model Vtw_Model Flw_Model.
Import ListNotations.
Open Scope list_scope.

(** celest/satellite.py:66-67, celest/coordinates/coordinate.py:94: the ITRS positions, one for each time *)
Definition fitrs_positions (A : arrays) (julian : list float) (points : list fvec) : list fvec :=
  map (fun q => fgcrs_to_itrs A (fst q) (snd q)) (combine julian points).
(** celest/encounter/window_generator.py:115-117, coordinate.py:94, 99-102: the elevations of the Sun, in degrees *)
Definition fsun_elevations (A : arrays) (M : maths) (l : flocation) (julian : list float) (sun : list fvec) : res (list float) :=
  mapM (felevation M l Ukm) (fitrs_positions A julian sun).
(** celest/encounter/window_generator.py:97-112, 134-137 *)
Definition fsun_indices (A : arrays) (M : maths) (l : flocation) (julian : list float) (sun : list fvec) (light : lighting) : res (list nat) :=
  match light with
  | Night => e <- fsun_elevations A M l julian sun ;; Ok (np_where 0 (map (fun x => flt x (of_Z 0)) e))
  | Anytime => Ok (seq 0 (length julian))
  | Daytime => e <- fsun_elevations A M l julian sun ;; Ok (np_where 0 (map (fun x => flt (of_Z 0) x) e))
  | OtherLight => Raise ValueError
  end.
(** celest/satellite.py:66-67 and celest/encounter/window_generator.py:35-94: the rise and set times of the windows *)
Definition fgcrs_windows (A : arrays) (M : maths) (l : flocation) (unit : unit_name) (julian : list float) (points sun : list fvec)
  (threshold : float) (light : lighting) : res (list (float * float)) :=
  let points := fitrs_positions A julian points in
  if flt threshold (of_Z 0) || flt (of_Z 90) threshold then Raise ValueError
  else
    elevations <- mapM (felevation M l unit) points ;;
    let window_indices := np_where 0 (map (flt threshold) elevations) in
    lighting_indices <- fsun_indices A M l julian sun light ;;
    let window_indices := intersect1d window_indices lighting_indices in
    let cuts := map S (np_where 0 (map (fun d => negb (d =? 1)%Z) (np_diff window_indices))) in
    mapM (fwindow_of julian) (np_split 0 window_indices cuts).
