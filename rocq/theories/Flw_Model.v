(** Model of celest/encounter/window_generator.py on binary64 floating-point numbers, for a
    satellite with a velocity.  Vis_Model.v is the same function on exact numbers.

    Simplifications: positions in the ITRS frame and in one unit of length; the attitudes stored
    in the windows are left out; the elevations of the Sun, in degrees, are given. *)
From Coq Require Import List ZArith Arith Bool.
From Verif Require Import Py Fl_Model Flg_Model Vtw_Model.
Import ListNotations.
Open Scope list_scope.

(** celest/encounter/window_generator.py:97-112, 134-137, for arrays of the length of [sun] *)
Definition flighting_indices (sun : list float) (light : lighting) : res (list nat) :=
  match light with
  | Night => Ok (np_where 0 (map (fun x => flt x (of_Z 0)) sun))
  | Anytime => Ok (seq 0 (length sun))
  | Daytime => Ok (np_where 0 (map (fun x => flt (of_Z 0) x) sun))
  | OtherLight => Raise ValueError
  end.
(** celest/encounter/window_generator.py:89-92 *)
Definition fwindow_of (julian : list float) (idx : list nat) : res (float * float) :=
  first <- py_index idx 0 ;;
  rise <- py_index julian (Z.of_nat first - 1) ;;
  last <- py_index idx (-1) ;;
  set <- py_index julian (Z.of_nat last) ;;
  Ok (rise, set).
(** celest/encounter/window_generator.py:35-94: the rise and set times of the windows *)
Definition fgenerate_windows (M : maths) (l : flocation) (unit : unit_name) (julian : list float) (points : list fvec)
  (sun : list float) (threshold : float) (light : lighting) : res (list (float * float)) :=
  if flt threshold (of_Z 0) || flt (of_Z 90) threshold then Raise ValueError
  else
    elevations <- mapM (felevation M l unit) points ;;
    let window_indices := np_where 0 (map (flt threshold) elevations) in
    lighting_indices <- flighting_indices sun light ;;
    let window_indices := intersect1d window_indices lighting_indices in
    let cuts := map S (np_where 0 (map (fun d => negb (d =? 1)%Z) (np_diff window_indices))) in
    mapM (fwindow_of julian) (np_split 0 window_indices cuts).
