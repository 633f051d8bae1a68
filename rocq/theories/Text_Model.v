(** Model of celest/file_save.py and celest/angle_strings.py.

    Simplifications: a string is the list of its code points; numbers are the exact real
    numbers, infinities and not-a-number of Num.v (one zero only, so no "-0.0"); columns are
    one-dimensional; [str] of a float (the shortest decimal that rounds to it) is a parameter
    [show]; the format string of a layer is the function [data_format % x] it stands for
    ([fixed 15] for the default "%.15f"); text reaches the disk in order, in pieces of any
    size (the pieces are whole characters). *)
From Coq Require Import String Ascii List Reals NArith ZArith Bool Arith.
From Verif Require Import Py Num Time_Model.
Import ListNotations.
Open Scope R_scope.
Open Scope list_scope.

(** ** Strings *)
Definition text := list N.
Definition lit (s : string) : text := map N_of_ascii (list_ascii_of_string s).
Definition newline : N := 10%N.
Definition tab : N := 9%N.
Definition space : N := 32%N.

(** [s.endswith(e)] *)
Definition text_eqb (a b : text) : bool := if list_eq_dec N.eq_dec a b then true else false.
Definition endswith (s e : text) : bool :=
  Nat.leb (length e) (length s) && text_eqb (skipn (length s - length e) s) e.
(** [s.ljust(w)], and [s.zfill(w)] of a string without a sign *)
Definition ljust (w : nat) (s : text) : text := s ++ repeat space (w - length s).
Definition zfill (w : nat) (s : text) : text := repeat 48%N (w - length s) ++ s.

(** [str] of an integer *)
Fixpoint digits (fuel : nat) (n : N) : text :=
  match fuel with
  | O => []
  | S f => if (n <? 10)%N then [(48 + n)%N] else digits f (n / 10)%N ++ [(48 + n mod 10)%N]
  end.
Definition str_N (n : N) : text := digits (S (N.to_nat (N.size n))) n.
Definition str_Z (z : Z) : text :=
  match z with Zneg p => 45%N :: str_N (Npos p) | _ => str_N (Z.to_N z) end.

(** Rounding to the nearest integer, ties to the even one. *)
Definition half_even (x : R) : Z :=
  let f := Int_part x in
  if Rlt_dec (x - IZR f) (1 / 2) then f
  else if Rlt_dec (1 / 2) (x - IZR f) then (f + 1)%Z
  else if Z.even f then f else (f + 1)%Z.
(** ["%.nf" % x] *)
Definition fixed_abs (n : nat) (x : R) : text :=
  let k := Z.to_N (half_even (x * 10 ^ n)) in
  str_N (k / 10 ^ N.of_nat n) ++ match n with O => [] | _ => lit "." ++ zfill n (str_N (k mod 10 ^ N.of_nat n)) end.
Definition fixed (n : nat) (x : num) : text :=
  match x with
  | Fin x => if Rlt_dec x 0 then lit "-" ++ fixed_abs n (- x) else fixed_abs n x
  | Inf false => lit "inf"
  | Inf true => lit "-inf"
  | NaN => lit "nan"
  end.

(** ** celest/file_save.py *)

(** celest/file_save.py:131-132 *)
Definition process_file_name (name : text) : text :=
  if endswith name (lit ".txt") then name else name ++ lit ".txt".

(** A column is its label and its value: a Quantity (with the name of its unit) of floats or
    integers, a numpy array of floats, integers, strings or other objects (given by their
    [str]), a Quantity of one number, or anything else. *)
Inductive value :=
| QFloats (unit : text) (l : list num)
| QInts (unit : text) (l : list Z)
| Floats (l : list num)
| Ints (l : list Z)
| Strings (l : list text)
| Objects (l : list text)
| QScalar (unit : text) (x : num)
| OtherValue.
Definition column := (text * value)%type.
(** celest/file_save.py:108: subheading, parameters, data, data_format *)
Record layer := Layer {
  subheading : option text; parameters : option (list (text * text)); data : option (list column);
  data_format : num -> text }.
Record writer := Writer { file_name : text; header : option text; layers : list layer }.
(** celest/file_save.py:55-58, 108 *)
Definition text_file_writer (name : text) (header : option text) : writer := Writer (process_file_name name) header [].
Definition add_layer (w : writer) (l : layer) : writer := Writer (file_name w) (header w) (layers w ++ [l]).

(** What a function writes to the file, and whether it raises. *)
Definition io := (list text * res unit)%type.
Definition nothing : io := ([], Ok tt).
Definition write (s : text) : io := ([s], Ok tt).
Definition fails (e : exn) : io := ([], Raise e).
Definition andthen (a b : io) : io :=
  match snd a with Ok _ => (fst a ++ fst b, snd b) | Raise _ => a end.

(** [np.max] of a non-empty array *)
Definition n_max (a b : num) : num :=
  match a, b with NaN, _ | _, NaN => NaN | _, _ => if n_lt a b then b else a end.
Definition np_max (l : list num) : res num :=
  match l with [] => Raise ValueError | x :: r => Ok (fold_left n_max r x) end.
(** [len(max(l, key=len))] *)
Definition longest (l : list text) : res nat :=
  match l with [] => Raise ValueError | _ => Ok (list_max (map (@length N) l)) end.

(** Entries of an array, with the kind of the array: numpy converts them when arrays of
    different kinds are concatenated. *)
Inductive entry := EFloat (x : num) | EInt (z : Z) | EText (s : text).
Inductive kind := KFloat | KInt | KString | KObject.
Definition promote (a b : kind) : kind :=
  match a, b with
  | KObject, _ | _, KObject => KObject
  | KString, _ | _, KString => KString
  | KFloat, _ | _, KFloat => KFloat
  | KInt, KInt => KInt
  end.

Section Show.
Variable show : num -> text.

Definition convert (k : kind) (e : entry) : entry :=
  match k, e with
  | KString, EFloat x => EText (show x)
  | KString, EInt z => EText (str_Z z)
  | KFloat, EInt z => EFloat (Fin (IZR z))
  | _, _ => e
  end.

(** celest/file_save.py:213-222; [isinstance(value.dtype, (int, float))] is False for every array.  The
    constant [NotImplemented] of line 222 raises TypeError when line 205 compares it. *)
Definition maximum_value_width (v : value) (format : num -> text) : res nat :=
  match v with
  | QFloats _ l => m <- np_max l ;; Ok (length (format m))
  | QInts _ l => m <- np_max (map (fun z => Fin (IZR z)) l) ;; Ok (length (format m))
  | QScalar _ x => Ok (length (format x))
  | Floats l => longest (map show l)
  | Ints l => longest (map str_Z l)
  | Strings l | Objects l => longest l
  | OtherValue => Raise TypeError
  end.
(** celest/file_save.py:197-210 *)
Definition column_information (label : text) (v : value) (format : num -> text) : res (text * text * nat) :=
  let column_label :=
    match v with
    | QFloats u _ | QInts u _ | QScalar u _ => label ++ lit " (" ++ u ++ lit ")"
    | _ => label
    end in
  value_width <- maximum_value_width v format ;;
  let actual_width := Nat.max value_width (length column_label) in
  Ok (ljust actual_width column_label, repeat 45%N actual_width, actual_width).
(** celest/file_save.py:225-229: an array with one column; a plain number has no [reshape] *)
Definition column_data (v : value) : res (kind * list (list entry)) :=
  match v with
  | QFloats _ l | Floats l => Ok (KFloat, map (fun x => [EFloat x]) l)
  | QInts _ l | Ints l => Ok (KInt, map (fun z => [EInt z]) l)
  | Strings l => Ok (KString, map (fun s => [EText s]) l)
  | Objects l => Ok (KObject, map (fun s => [EText s]) l)
  | QScalar _ _ | OtherValue => Raise AttributeError
  end.
(** [np.concatenate((a, b), axis=1)] *)
Definition concatenate (a b : kind * list (list entry)) : res (kind * list (list entry)) :=
  if Nat.eqb (length (snd a)) (length (snd b)) then
    let k := promote (fst a) (fst b) in
    Ok (k, map (fun rr => map (convert k) (fst rr) ++ map (convert k) (snd rr)) (combine (snd a) (snd b)))
  else Raise ValueError.
(** celest/file_save.py:249-253: the entries of an integer array are no Python integers, those of an object
    array are *)
Definition data_entry_string (k : kind) (e : entry) (width : nat) (format : num -> text) : text :=
  match e with
  | EFloat x => ljust width (format x)
  | EInt z => match k with KObject => ljust width (format (Fin (IZR z))) | _ => ljust width (str_Z z) end
  | EText s => ljust width s
  end.
(** celest/file_save.py:236-243, from column [count] on; the widths are as many as the entries *)
Fixpoint row_string (k : kind) (format : num -> text) (n count : nat) (widths : list nat) (row : list entry) : text :=
  match row, widths with
  | e :: row', w :: widths' =>
      data_entry_string k e w format ++ (if Nat.ltb count (n - 1) then [tab] else [])
      ++ row_string k format n (S count) widths' row'
  | _, _ => []
  end.
(** celest/file_save.py:232-246, from row [count] on *)
Fixpoint write_rows (k : kind) (format : num -> text) (widths : list nat) (n count : nat) (rows : list (list entry)) : io :=
  match rows with
  | [] => nothing
  | row :: rows' =>
      andthen (write (row_string k format (length row) 0 widths row ++ (if Nat.ltb count (n - 1) then [newline] else [])))
              (write_rows k format widths n (S count) rows')
  end.
(** celest/file_save.py:170-190: labels, underlines, widths and entries so far *)
Fixpoint data_loop (format : num -> text) (n count : nat) (labels underlines : text) (widths : list nat)
  (raw : option (kind * list (list entry))) (cols : list column)
  : res (text * text * list nat * option (kind * list (list entry))) :=
  match cols with
  | [] => Ok (labels, underlines, widths, raw)
  | (label, v) :: cols' =>
      i <- column_information label v format ;;
      let '(column_label, column_underline, column_width) := i in
      let ending := if Nat.ltb count (n - 1) then [tab] else [newline] in
      d <- column_data v ;;
      raw' <- match raw with None => Ok d | Some r => concatenate r d end ;;
      data_loop format n (S count) (labels ++ column_label ++ ending) (underlines ++ column_underline ++ ending)
        (widths ++ [column_width]) (Some raw') cols'
  end.
(** celest/file_save.py:165-194; without columns the variable of line 194 is not bound *)
Definition write_data (cols : list column) (format : num -> text) : io :=
  match data_loop format (length cols) 0 [] [] [] None cols with
  | Raise e => fails e
  | Ok (labels, underlines, widths, raw) =>
      andthen (write labels) (andthen (write underlines)
        match raw with
        | None => fails UnboundLocalError
        | Some (k, rows) => write_rows k format widths (length rows) 0 rows
        end)
  end.
(** celest/file_save.py:157-162, from parameter [count] on *)
Fixpoint write_parameters (n count : nat) (l : list (text * text)) : io :=
  match l with
  | [] => nothing
  | (label, v) :: l' =>
      andthen (write (label ++ lit ": " ++ v ++ (if Nat.ltb count (n - 1) then [newline] else [])))
              (write_parameters n (S count) l')
  end.
Definition blank_line : text := [newline; newline].
Definition is_some {A} (o : option A) : bool := match o with Some _ => true | None => false end.
(** celest/file_save.py:139-150 *)
Definition write_layer (l : layer) : io :=
  andthen match subheading l with Some s => write s | None => nothing end
  (andthen (if is_some (subheading l) && is_some (parameters l) then write blank_line else nothing)
  (andthen match parameters l with Some p => write_parameters (length p) 0 p | None => nothing end
  (andthen (if (is_some (subheading l) || is_some (parameters l)) && is_some (data l) then write blank_line else nothing)
           match data l with Some d => write_data d (data_format l) | None => nothing end))).
(** celest/file_save.py:135-136 *)
Definition write_header (h : text) : io := write (h ++ [newline] ++ repeat 61%N (length h)).
(** celest/file_save.py:124-128, from layer [count] on *)
Fixpoint write_layers (n count : nat) (l : list layer) : io :=
  match l with
  | [] => nothing
  | x :: l' =>
      andthen (write_layer x) (andthen (if Nat.ltb count (n - 1) then write blank_line else nothing) (write_layers n (S count) l'))
  end.
(** celest/file_save.py:118-128: what is written after the file has been opened *)
Definition save_body (w : writer) : io :=
  andthen match header w with
          | Some h => andthen (write_header h) (if Nat.ltb 0 (length (layers w)) then write blank_line else nothing)
          | None => nothing
          end
          (write_layers (length (layers w)) 0 (layers w)).

(** The files on the disk, by name. *)
Definition disk := text -> option text.
Definition store (d : disk) (name : text) (content : text) : disk :=
  fun n => if text_eqb n name then Some content else d n.
(** celest/file_save.py:117: opening the file empties it; what is written follows; leaving the block writes
    out the rest, also when an exception passes *)
Definition save (d : disk) (w : writer) : disk * res unit :=
  (store d (file_name w) (concat (fst (save_body w))), snd (save_body w)).
(** A disk that a crash during the save can leave. *)
Inductive crash_save (d : disk) (w : writer) : disk -> Prop :=
| not_opened : crash_save d w d
| opened k : crash_save d w (store d (file_name w) (firstn k (concat (fst (save_body w))))).
End Show.

(** ** celest/angle_strings.py *)

(** celest/angle_strings.py:42-63, for an angle that is not negative *)
Definition sexagesimal_string (degree_angle : R) : text :=
  let degree_string := firstn 3 (zfill 2 (str_N (Z.to_N (Int_part degree_angle)))) in
  let minute_string := firstn 2 (zfill 2 (str_N (Z.to_N (Int_part (Rmod (degree_angle * 60) 60))))) in
  let second_string := zfill 5 (fixed 2 (Fin (Rmod (degree_angle * 3600) 60))) in
  degree_string ++ [176%N] ++ minute_string ++ [8242%N] ++ second_string ++ [8243%N].
(** celest/angle_strings.py:35-39; [to_deg] is the number in degrees, [latitude] the number as given *)
Definition latitude_string (to_deg latitude : R) : text :=
  sexagesimal_string (Rabs to_deg) ++ (if Rle_dec 0 latitude then lit "N" else lit "S").
(** celest/angle_strings.py:66-70 *)
Definition longitude_string (to_deg longitude : R) : text :=
  sexagesimal_string (Rabs to_deg) ++ (if Rle_dec 0 longitude then lit "E" else lit "W").
(** celest/angle_strings.py:73-74 *)
Definition height_string (height : R) (unit : text) : text := fixed 2 (Fin height) ++ unit.
(** celest/angle_strings.py:12-32 *)
Definition iso6709 (lat_deg lat lon_deg lon height : R) (unit : text) : text :=
  latitude_string lat_deg lat ++ [space] ++ longitude_string lon_deg lon ++ [space] ++ height_string height unit.
