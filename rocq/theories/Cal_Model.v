(** Model of the calendar functions of celest/coordinates/astronomical_quantities.py and of
    Time.datetime (celest/time.py).

    Simplifications: floats are exact rationals and array integers unbounded; the arrays
    are 1-D (lists), a scalar being the one-element array the code makes of it; the input
    is the data of the quantity in the jd2000 unit. *)
From Coq Require Import List ZArith QArith Qround Bool Arith.
From Verif Require Import Py.
Import ListNotations.
Open Scope Z_scope.
Open Scope list_scope.

(** celest/constants.py:5-6 *)
Definition days_in_julian_century : Q := 36525.
Definition days_per_year : Q := 36525 # 100.

(** celest/coordinates/astronomical_quantities.py:405-407 *)
Definition gregorian_correction (a : list Z) : res (list Z) :=
  let ind := np_where 0 (map (fun x => 2291161 <=? x) a) in
  let alpha := map (fun i => Qtrunc ((inject_Z (nth i a 0) - (186721625 # 100)) / days_in_julian_century)) ind in
  s <- np_broadcast Z.add (map (fun x => x + 1) a) alpha ;;
  s <- np_broadcast Z.sub s (map (fun x => Qtrunc (inject_Z x / 4)) alpha) ;;
  np_assign a ind s.

(** celest/coordinates/astronomical_quantities.py:416-420, one entry of the array. *)
Definition month_of (e : Z) : Z :=
  if e <? 14 then e - 1 else if (e =? 14) || (e =? 15) then e - 13 else e.
(** celest/coordinates/astronomical_quantities.py:422-426, one entry of the array. *)
Definition year_of (c month : Z) : Z :=
  if 2 <? month then c - 4716 else if (month =? 1) || (month =? 2) then c - 4715 else c.

(** celest/coordinates/astronomical_quantities.py:368-428 *)
Definition from_julian (julian : list Q) : res (list Z * list Z * list Q) :=
  let jd := map (fun x => (x + (1 # 2))%Q) julian in
  let a := map Qtrunc jd in
  let f := map (fun x => Qpymod x 1) jd in
  a <- gregorian_correction a ;;
  let b := map (fun x => x + 1524) a in
  let c := map (fun x => Qtrunc ((inject_Z x - (1221 # 10)) / days_per_year)) b in
  let d := map (fun x => Qtrunc (days_per_year * inject_Z x)) c in
  let e := map2 (fun x y => Qtrunc (inject_Z (x - y) / (306001 # 10000))) b d in
  let day := map2 (fun x y => (inject_Z x + y)%Q)
               (map2 (fun x y => x - Qtrunc ((306001 # 10000) * inject_Z y)) (map2 Z.sub b d) e) f in
  let month := map month_of e in
  let year := map2 year_of c month in
  Ok (year, month, day).

(** celest/coordinates/astronomical_quantities.py:431-469 *)
Definition day_of_year (julian : list Q) : res (list Z) :=
  r <- from_julian julian ;;
  match r with
  | (year, month, day) =>
      let k := map (fun y => if y mod 4 =? 0 then 1 else 2) year in
      let n := map (fun m => Qtrunc (inject_Z (275 * m) / 9)) month in
      let km := map2 (fun x m => x * Qtrunc (inject_Z (m + 9) / 12)) k month in
      let n := map2 (fun x y => (inject_Z x + y - 30)%Q) (map2 Z.sub n km) day in
      Ok (map Qtrunc n)
  end.

(** [datetime.datetime(year, month, day)] raises ValueError unless this holds. *)
Definition datetime_accepts (y m d : Z) : bool :=
  let leap := (y mod 4 =? 0) && (negb (y mod 100 =? 0) || (y mod 400 =? 0)) in
  let len := if m =? 2 then (if leap then 29 else 28)
             else if (m =? 4) || (m =? 6) || (m =? 9) || (m =? 11) then 30 else 31 in
  (1 <=? y) && (y <=? 9999) && (1 <=? m) && (m <=? 12) && (1 <=? d) && (d <=? len).

(** celest/time.py:351-377: a datetime is its date and the fraction of the day.  The
    timedelta is not rounded to microseconds. *)
Definition time_datetime (julian : list Q) : res (list (Z * Z * Z * Q)) :=
  r <- from_julian julian ;;
  match r with
  | (year, month, day) =>
      mapM (fun p : Z * Z * Q =>
              match p with
              | (y, m, x) =>
                  let d := Qtrunc x in
                  if datetime_accepts y m d then Ok (y, m, d, Qpymod x 1) else Raise ValueError
              end) (combine (combine year month) day)
  end.
