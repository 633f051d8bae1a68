(** Model of celest/encounter/window_generator.py and of the WindowCollection of
    celest/encounter/window_handling.py.

    Simplifications: floats are exact rationals; the satellite and Sun elevations (from the
    coordinate conversions, modelled in Geo_Model, and the JPL ephemeris, not modelled)
    are inputs, one pair per sample time; the attitude attached to every window is an input. *)
From Coq Require Import List ZArith QArith Bool Arith.
From Verif Require Import Py Sched_Model.
Import ListNotations.
Open Scope nat_scope.
Open Scope list_scope.

(** celest/encounter/window_generator.py:17-32; [OtherLight] is any other object. *)
Inductive lighting := Night | Anytime | Daytime | OtherLight.

(** One sample: the time in jd2000, the elevation of the satellite and of the Sun in
    degrees. *)
Record sample := mkSample { s_time : Q; s_elev : Q; s_sun : Q }.

(** [np.intersect1d(a, b)] for increasing arrays of indices: their common elements. *)
Definition intersect1d (a b : list nat) : list nat :=
  filter (fun i => existsb (Nat.eqb i) b) a.

(** [np.diff(l)] *)
Fixpoint np_diff (l : list nat) : list Z :=
  match l with
  | [] => []
  | x :: r =>
      match r with
      | [] => []
      | y :: _ => (Z.of_nat y - Z.of_nat x)%Z :: np_diff r
      end
  end.

(** [l[a:b]] *)
Definition slice {A} (a b : nat) (l : list A) : list A := firstn (b - a) (skipn a l).
(** [np.split(l, indices)]: [l[0:i1], l[i1:i2], ..., l[ik:]]. *)
Fixpoint np_split {A} (start : nat) (l : list A) (indices : list nat) : list (list A) :=
  match indices with
  | [] => [skipn start l]
  | i :: r => slice start i l :: np_split i l r
  end.

(** celest/encounter/window_generator.py:97-112, 134-137 *)
Definition lighting_indices (light : lighting) (l : list sample) : res (list nat) :=
  match light with
  | Night => Ok (np_where 0 (map (fun s => Qltb (s_sun s) 0) l))
  | Anytime => Ok (seq 0 (length l))
  | Daytime => Ok (np_where 0 (map (fun s => Qltb 0 (s_sun s)) l))
  | OtherLight => Raise ValueError
  end.

(** celest/encounter/window_generator.py:77-83: the indices, cut where they are not
    consecutive. *)
Definition window_indices (l : list sample) (threshold : Q) (light : lighting)
  : res (list (list nat)) :=
  lit <- lighting_indices light l ;;
  let idx := intersect1d (np_where 0 (map (fun s => Qltb threshold (s_elev s)) l)) lit in
  let cuts := map S (np_where 0 (map (fun d => negb (d =? 1)%Z) (np_diff idx))) in
  Ok (np_split 0 idx cuts).

(** celest/encounter/window_generator.py:89-92: [set[0] - 1] may be -1. *)
Definition window_of (times : list Q) (att : attitude) (idx : list nat) : res vtw :=
  first <- py_index idx 0 ;;
  rise <- py_index times (Z.of_nat first - 1) ;;
  last <- py_index idx (-1) ;;
  set <- py_index times (Z.of_nat last) ;;
  Ok (mkVtw rise set att).

(** celest/encounter/window_generator.py:35-94; [velocity] says whether the satellite has
    velocity data. *)
Definition generate_vtws (velocity : bool) (l : list sample) (att : attitude) (threshold : Q)
  (light : lighting) : res (list vtw) :=
  if negb velocity then Raise PyWarning
  else if Qltb threshold 0 || Qltb 90 threshold then Raise ValueError
  else
    idx <- window_indices l threshold light ;;
    mapM (window_of (map s_time l) att) idx.

(** ** WindowCollection *)

(** What [add_window] may be given: windows of the two kinds, or anything else.  The
    number stands for the contents. *)
Inductive object := Visible (n : nat) | Observed (n : nat) | Junk.

(** celest/encounter/window_handling.py:151-153 *)
Record collection := mkColl { w_data : list object; w_index : nat }.
Definition new_collection : collection := mkColl [] 0.

Definition same_kind (a b : object) : bool :=
  match a, b with
  | Visible _, Visible _ => true
  | Observed _, Observed _ => true
  | _, _ => false
  end.

(** celest/encounter/window_handling.py:180-200; the collection afterwards, and the
    exception if any. *)
Definition add_window (c : collection) (w : object) : res collection :=
  match w with
  | Junk => Raise TypeError
  | _ =>
      match w_data c with
      | [] => Ok (mkColl (w_data c ++ [w]) (w_index c))
      | x :: _ => if same_kind w x then Ok (mkColl (w_data c ++ [w]) (w_index c))
                  else Raise TypeError
      end
  end.

(** celest/encounter/window_handling.py:168-174: [None] is StopIteration. *)
Definition w_next (c : collection) : option object * collection :=
  match nth_error (w_data c) (w_index c) with
  | Some w => (Some w, mkColl (w_data c) (S (w_index c)))
  | None => (None, mkColl (w_data c) 0)
  end.

(** [for w in c: ...] whose body runs at most [limit] times before a break ([fuel] bounds
    the number of calls of [__next__]); [__iter__] (line 165-166) does nothing. *)
Fixpoint for_windows (fuel : nat) (limit : nat) (c : collection) : list object * collection :=
  match fuel with
  | O => ([], c)
  | S f =>
      match w_next c with
      | (None, c') => ([], c')
      | (Some w, c') =>
          match limit with
          | O => ([w], c')
          | S k => let (l, c'') := for_windows f k c' in (w :: l, c'')
          end
      end
  end.

(** celest/encounter/window_handling.py:176-178 *)
Definition get_item (c : collection) (i : Z) : res object := py_index (w_data c) i.
