(** Words for saved text files and printed angles. *)
From Coq Require Import String Ascii List Reals NArith ZArith Bool Arith.
From Verif Require Import Py Num Text_Model.
Import ListNotations.
Open Scope R_scope.
Open Scope list_scope.

(** ** Numerals *)
Definition is_digit (c : N) : Prop := (48 <= c <= 57)%N.
Definition digits_value (s : text) : N := fold_left (fun v c => 10 * v + (c - 48))%N s 0%N.
(** A decimal numeral without superfluous zeros. *)
Definition numeral (s : text) (v : N) : Prop :=
  Forall is_digit s /\ digits_value s = v /\ (length s = 1%nat \/ exists c r, s = c :: r /\ c <> 48%N).
(** [k] digits with value [v]. *)
Definition figures (k : nat) (s : text) (v : N) : Prop := Forall is_digit s /\ digits_value s = v /\ length s = k.
(** The decimal with [n] places after the point that reads as the number [x]. *)
Definition decimal (n : nat) (s : text) (x : R) : Prop :=
  exists (neg : bool) (whole part : text) (i f : N),
    s = (if neg then lit "-" else []) ++ whole ++ lit "." ++ part /\ numeral whole i /\ figures n part f /\
    x = (if neg then -1 else 1) * (IZR (Z.of_N i) + IZR (Z.of_N f) / 10 ^ n).

(** ** Layout *)
Fixpoint join (sep : text) (l : list text) : text :=
  match l with
  | [] => []
  | x :: r => match r with [] => x | _ :: _ => x ++ sep ++ join sep r end
  end.
Definition option_list {A} (o : option A) : list A := match o with Some a => [a] | None => [] end.
Definition padded (w : nat) (s : text) : text := s ++ repeat space (w - length s).
Definition zip_with {A B C} (f : A -> B -> C) (a : list A) (b : list B) : list C := map (fun p => f (fst p) (snd p)) (combine a b).
(** The cells of a line. *)
Definition line (cells : list text) : text := join [tab] cells.
(** The lines of a table: labels, dashes, rows. *)
Definition table_lines (widths : list nat) (labels : list text) (rows : list (list text)) : list text :=
  line (zip_with padded widths labels) :: line (map (repeat 45%N) widths) :: map (fun r => line (zip_with padded widths r)) rows.
Definition table (widths : list nat) (labels : list text) (rows : list (list text)) : text :=
  join [newline] (table_lines widths labels rows).
Definition blank : text := [newline; newline].
Definition parameter_lines (p : list (text * text)) : text := join [newline] (map (fun lv => fst lv ++ lit ": " ++ snd lv) p).
Definition layer_text (sub : option text) (params : option (list (text * text))) (tab : option text) : text :=
  join blank (option_list sub ++ option_list (option_map parameter_lines params) ++ option_list tab).
Definition underlined (h : text) : text := h ++ [newline] ++ repeat 61%N (length h).
Definition document (h : option text) (layers : list text) : text :=
  join blank (option_list (option_map underlined h) ++ layers).

(** ** Columns *)
Definition size (v : value) : option nat :=
  match v with
  | QFloats _ l | Floats l => Some (length l)
  | QInts _ l | Ints l => Some (length l)
  | Strings l | Objects l => Some (length l)
  | QScalar _ _ | OtherValue => None
  end.
Definition heading (c : column) : text :=
  match snd c with
  | QFloats u _ | QInts u _ | QScalar u _ => fst c ++ lit " (" ++ u ++ lit ")"
  | _ => fst c
  end.
(** Columns that make a table of [n] rows. *)
Definition rectangular (n : nat) (cols : list column) : Prop :=
  (0 < n)%nat /\ cols <> [] /\ Forall (fun c => size (snd c) = Some n) cols.
Definition has_floats (cols : list column) : Prop := exists c, In c cols /\ match snd c with QFloats _ _ | Floats _ => True | _ => False end.
Definition has_strings (cols : list column) : Prop := exists c, In c cols /\ match snd c with Strings _ => True | _ => False end.
Definition has_objects (cols : list column) : Prop := exists c, In c cols /\ match snd c with Objects _ => True | _ => False end.
(** [s] stands for entry [i] of the column [v] of the table [cols]: numbers by the format and
    the rest by its [str]; but when there is a column of strings numbers too go by their
    [str], and so do integers when all columns are of integers.  (With a column of strings
    and one of objects it depends on their order which of the two it is.) *)
Definition stands_for (show format : num -> text) (cols : list column) (v : value) (i : nat) (s : text) : Prop :=
  match v with
  | QFloats _ l | Floats l => exists x, nth_error l i = Some x /\
      (s = format x \/ s = show x) /\
      (~ has_strings cols -> s = format x) /\
      (has_strings cols -> ~ has_objects cols -> s = show x)
  | QInts _ l | Ints l => exists z, nth_error l i = Some z /\
      (s = format (Fin (IZR z)) \/ s = show (Fin (IZR z)) \/ s = str_Z z) /\
      (~ has_strings cols -> has_floats cols \/ has_objects cols -> s = format (Fin (IZR z))) /\
      (~ has_floats cols -> ~ has_objects cols -> s = str_Z z)
  | Strings l | Objects l => nth_error l i = Some s
  | QScalar _ _ | OtherValue => False
  end.
(** The text of a table with [n] rows of the given columns. *)
Definition table_of (show format : num -> text) (cols : list column) (t : text) : Prop :=
  exists n widths rows, rectangular n cols /\
    t = table widths (map heading cols) rows /\
    length widths = length cols /\ length rows = n /\
    Forall2 (fun w c => (length (heading c) <= w)%nat) widths cols /\
    forall i r, nth_error rows i = Some r -> Forall2 (fun c s => stands_for show format cols (snd c) i s) cols r.
Definition layer_of (show : num -> text) (l : layer) (t : text) : Prop :=
  exists tab, t = layer_text (subheading l) (parameters l) tab /\
    match data l, tab with
    | Some cols, Some s => table_of show (data_format l) cols s
    | None, None => True
    | _, _ => False
    end.
