(** Model of a Scheduler object (celest/schedule/scheduler.py) on binary64 floating-point numbers,
    from the positions of the satellite to the windows returned: the window generator of
    Flw_Model.v, the request handler of Fls_Model.v and the search of Fla_Model.v together.

    Simplifications: those of these files; a session ends with the first call of [generate] that
    raises. *)
From Coq Require Import List ZArith Bool.
From Verif Require Import Py Fl_Model Vtw_Model Flg_Model Flw_Model Fls_Model Fla_Model.
Import ListNotations.
Open Scope list_scope.

(** What the scheduler takes from the satellite and the places: the Julian dates and positions of
    the samples, and for every place where it is, the elevations of the Sun and the attitudes. *)
Record fsky := FSky {
  fs_julian : list float; fs_unit : unit_name; fs_points : list fvec;
  fs_place : nat -> flocation; fs_sun : nat -> list float; fs_attitude : nat -> attitude }.
(** The arguments of [add_request] (lines 78-80). *)
Record fask := FAsk {
  fk_loc : nat; fk_deadline : float; fk_dur : float; fk_prio : Z; fk_qual : Z; fk_look : look; fk_light : lighting }.

(** celest/encounter/window_generator.py:89-94, 116-125 *)
Definition window_at (s : fsky) (loc : nat) (w : float * float) : vtw := mkVtw (fst w) (snd w) (fs_attitude s loc).
(** celest/schedule/scheduler.py:103-118 *)
Definition fscheduler_add (M : maths) (s : fsky) (threshold : float) (a : fask) (h : handler) : res handler :=
  ws <- fgenerate_windows M (fs_place s (fk_loc a)) (fs_unit s) (fs_julian s) (fs_points s) (fs_sun s (fk_loc a))
          threshold (fk_light a) ;;
  Ok (add_request h (fk_loc a) (fk_deadline a) (fk_dur a) (fk_prio a) (fk_qual a) (fk_look a)
        (map (window_at s (fk_loc a)) ws)).

(** Calls of the two methods and their outcomes. *)
Inductive fcall :=
| FAdd (a : fask)
| FGenerate (exp : float -> res float) (max_iter : Z) (annealing react : float) (ds : nat -> draws).
Inductive fanswer := FAccepted | FWindows (ws : list observation) | FFailed (e : exn).
(** [add_request] makes the windows before it changes the handler. *)
Fixpoint fsession (M : maths) (s : fsky) (threshold : float) (cs : list fcall) (h : handler) : list fanswer :=
  match cs with
  | [] => []
  | FAdd a :: r =>
      match fscheduler_add M s threshold a h with
      | Ok h' => FAccepted :: fsession M s threshold r h'
      | Raise e => FFailed e :: fsession M s threshold r h
      end
  | FGenerate exp mi an re ds :: r =>
      match generate exp h mi an re ds with
      | Ok (h', ws) => FWindows ws :: fsession M s threshold r h'
      | Raise e => [FFailed e]
      end
  end.
