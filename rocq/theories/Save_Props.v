(** Reading saved files back: C93, C94, C95. *)
From Coq Require Import String Ascii List Reals NArith ZArith Bool Arith Lia Lra.
From Verif Require Import Py Num Time_Model Rot_Model Rot_Spec Rot_Props Geo_Model Lvlh_Model Text_Model Text_Spec Text_Num Text_Proofs Text_Props Text_Props2 Save_Model.
Import ListNotations.
Open Scope R_scope.
Open Scope list_scope.

(** ** How a reader takes a file apart *)
Fixpoint split_on (sep : N) (s : text) : list text :=
  match s with
  | [] => [[]]
  | c :: r => match split_on sep r with
              | [] => []
              | x :: l => if (c =? sep)%N then [] :: x :: l else (c :: x) :: l
              end
  end.
(** Without the spaces at its end. *)
Definition rstrip (s : text) : text :=
  fold_right (fun c r => match r with [] => if (c =? space)%N then [] else [c] | _ => c :: r end) [] s.
Definition lines_of (content : text) : list text := split_on newline content.
Definition cells_of (l : text) : list text := map rstrip (split_on tab l).
(** What a column holds. *)
Inductive contents := Numbers (l : list num) | Texts (l : list text).
(** [s] reads as entry [i]: a decimal with fifteen places within half a unit of the last
    place, the words of the other numbers, or the text itself. *)
Definition entry_reads (c : contents) (i : nat) (s : text) : Prop :=
  match c with
  | Numbers l =>
      exists x, nth_error l i = Some x /\
        match x with
        | Fin r => exists y, decimal 15 s y /\ Rabs (r - y) <= / (2 * 10 ^ 15)
        | Inf false => s = lit "inf"
        | Inf true => s = lit "-inf"
        | NaN => s = lit "nan"
        end
  | Texts l => nth_error l i = Some s
  end.
(** The file is the title, its underline and an empty line, the parameters and an empty line
    (when there are any), the line of the headings, the underlines, and [n] lines of
    entries. *)
Definition reads_as (content title : text) (params : list (text * text)) (cols : list (text * contents)) (n : nat) : Prop :=
  exists headings dashes rows,
    lines_of content =
      [title; repeat 61%N (length title); []] ++
      match params with [] => [] | _ => map (fun p => fst p ++ lit ": " ++ snd p) params ++ [[]] end ++
      headings :: dashes :: rows /\
    cells_of headings = map fst cols /\
    Forall (fun c => c = 45%N \/ c = tab) dashes /\
    length rows = n /\
    forall i row, nth_error rows i = Some row -> Forall2 (fun c s => entry_reads (snd c) i s) cols (cells_of row).
(** Text of one cell. *)
Definition one_line (s : text) : Prop := ~ In newline s.
Definition one_cell (s : text) : Prop := ~ In newline s /\ ~ In tab s /\ rstrip s = s.

(** ** Lemmas *)
Lemma split_nonempty sep s : split_on sep s <> [].
Proof. induction s as [|c s IH]; cbn; [discriminate|]. destruct (split_on sep s); [congruence|]. now destruct (c =? sep)%N. Qed.
Lemma split_sep sep a b : split_on sep (a ++ sep :: b) = split_on sep a ++ split_on sep b.
Proof.
  induction a as [|c a IH]; cbn [app split_on].
  - pose proof (split_nonempty sep b). destruct (split_on sep b); [congruence|]. rewrite N.eqb_refl. reflexivity.
  - rewrite IH. pose proof (split_nonempty sep a). destruct (split_on sep a) as [|x l]; [congruence|]. cbn [app]. now destruct (c =? sep)%N.
Qed.
Lemma split_start sep b : split_on sep (sep :: b) = [] :: split_on sep b.
Proof. exact (split_sep sep [] b). Qed.
Lemma split_none sep s : ~ In sep s -> split_on sep s = [s].
Proof.
  induction s as [|c s IH]; intros H; cbn; [reflexivity|]. rewrite IH by (intros X; apply H; now right).
  destruct (N.eqb_spec c sep) as [->|]; [exfalso; apply H; now left|reflexivity].
Qed.
Lemma split_join sep l : l <> [] -> Forall (fun s => ~ In sep s) l -> split_on sep (join [sep] l) = l.
Proof.
  induction l as [|x l IH]; [congruence|]. intros _ F. inversion F as [|? ? X F']; subst. destruct l as [|y l].
  - cbn [join]. now apply split_none.
  - rewrite join_cons by discriminate. change ([sep] ++ join [sep] (y :: l)) with (sep :: join [sep] (y :: l)). rewrite split_sep, split_none by auto. cbn [app]. f_equal. apply IH; [discriminate|auto].
Qed.
Lemma rstrip_spaces s k : rstrip (s ++ repeat space k) = rstrip s.
Proof.
  unfold rstrip. rewrite fold_right_app. f_equal. induction k; cbn [repeat fold_right]; [reflexivity|]. rewrite IHk. reflexivity.
Qed.
Lemma rstrip_padded w s : rstrip s = s -> rstrip (padded w s) = s.
Proof. intros H. unfold padded. now rewrite rstrip_spaces. Qed.
Lemma rstrip_last s c : c <> space -> rstrip (s ++ [c]) = s ++ [c].
Proof.
  intros H. induction s as [|a s IH]; cbn.
  - destruct (N.eqb_spec c space); [congruence|reflexivity].
  - fold (rstrip (s ++ [c])). rewrite IH. destruct s; reflexivity.
Qed.
Lemma padded_no sep w s : sep <> space -> ~ In sep s -> ~ In sep (padded w s).
Proof. intros D H I. apply in_app_or in I. destruct I as [I|I]; [auto|]. apply repeat_spec in I. congruence. Qed.
Lemma join_no sep t l : ~ In sep t -> Forall (fun s => ~ In sep s) l -> ~ In sep (join t l).
Proof.
  intros T. induction l as [|x l IH]; intros F; [cbn; auto|]. inversion F; subst. destruct l as [|y l]; [exact H1|].
  rewrite join_cons by discriminate. rewrite !in_app_iff. intros [I|[I|I]]; auto. apply IH in I; auto.
Qed.
Lemma zip_padded_no sep ws ss : sep <> space -> Forall (fun s => ~ In sep s) ss -> Forall (fun s => ~ In sep s) (zip_with padded ws ss).
Proof.
  intros D. unfold zip_with. revert ws. induction ss as [|s ss IH]; intros [|w ws] F; cbn; constructor; inversion F; subst; auto. cbn. now apply padded_no.
Qed.
Lemma cells_line ws ss : length ws = length ss -> ss <> [] -> Forall one_cell ss -> cells_of (line (zip_with padded ws ss)) = ss.
Proof.
  intros L NE F. unfold cells_of, line. rewrite split_join.
  - clear NE. revert ws L. induction F as [|s ss (_ & _ & H) F IH]; intros [|w ws] L; try discriminate; [reflexivity|]. unfold zip_with in *. cbn [combine map fst snd]. rewrite rstrip_padded by auto. f_equal. apply IH. now injection L.
  - destruct ws, ss; try discriminate; congruence.
  - apply zip_padded_no; [discriminate|]. eapply Forall_impl; [|exact F]. intros s (_ & H & _). auto.
Qed.
Lemma line_no_newline ws ss : Forall one_cell ss -> ~ In newline (line (zip_with padded ws ss)).
Proof.
  intros F. apply join_no; [cbn; intros [X|[]]; discriminate|]. apply zip_padded_no; [discriminate|]. eapply Forall_impl; [|exact F]. intros s (H & _). auto.
Qed.
(** Printed numbers are cells. *)
Lemma digit_not s c : Forall is_digit s -> (c < 48 \/ 57 < c)%N -> ~ In c s.
Proof. intros F C I. rewrite Forall_forall in F. specialize (F _ I). unfold is_digit in F. lia. Qed.
Lemma decimal_cell n s x : (1 <= n)%nat -> decimal n s x -> one_cell s.
Proof.
  intros N (neg & whole & part & i & f & -> & (W & _ & _) & (P & _ & LP) & _). 
  assert (D : forall c, (c < 45)%N -> ~ In c ((if neg then lit "-" else []) ++ whole ++ lit "." ++ part)).
  { intros c C I. rewrite !in_app_iff in I. destruct I as [I|[I|[I|I]]].
    - destruct neg; cbn in I; [destruct I as [<-|[]]; lia|contradiction].
    - revert I. apply digit_not; auto. lia.
    - cbn in I. destruct I as [<-|[]]. lia.
    - revert I. apply digit_not; auto. lia. }
  split; [apply D; reflexivity|]. split; [apply D; reflexivity|].
  destruct (exists_last (l := part)) as (p & c & ->). { intros ->. cbn in LP. lia. }
  rewrite !app_assoc. apply rstrip_last. apply Forall_app in P. destruct P as [_ P]. inversion P; subst. unfold is_digit, space in *. lia.
Qed.
Lemma fixed_cell x : one_cell (fixed 15 x).
Proof.
  destruct x as [x|[]|].
  - destruct (fixed_reads 15 x ltac:(lia)) as (y & D & _). eapply decimal_cell; [|exact D]. lia.
  - repeat split; cbn; intuition discriminate.
  - repeat split; cbn; intuition discriminate.
  - repeat split; cbn; intuition discriminate.
Qed.
Lemma fixed_entry l i x : nth_error l i = Some x -> entry_reads (Numbers l) i (fixed 15 x).
Proof.
  intros N. exists x. split; auto. destruct x as [x|[]|]; try reflexivity. apply fixed_reads. lia.
Qed.

(** ** C93 *)
(** Columns of Quantities of floats, and of objects. *)
Definition simple (v : value) : Prop := match v with QFloats _ _ | Objects _ => True | _ => False end.
Definition contents_of (v : value) : contents :=
  match v with QFloats _ l => Numbers l | Objects l => Texts l | _ => Texts [] end.
Definition texts_of (v : value) : list text := match v with Objects l => l | _ => [] end.
Theorem C93_read_back :
  forall show d name title params cols n,
    rectangular n cols -> Forall (fun c => simple (snd c)) cols ->
    one_line title -> Forall (fun p => one_line (fst p) /\ one_line (snd p)) params ->
    Forall (fun c => one_cell (heading c)) cols -> Forall (fun c => Forall one_cell (texts_of (snd c))) cols ->
    exists d' content,
      save show d (report name title (match params with [] => None | _ => Some params end) cols) = (d', Ok tt) /\
      d' (file_name (text_file_writer name None)) = Some content /\
      reads_as content title params (map (fun c => (heading c, contents_of (snd c))) cols) n.
Proof.
  intros show d name title params cols n R SI T P H X. set (w := report name title _ cols).
  assert (O : snd (save show d w) = Ok tt). { apply C70_saves. intros l cs [<-|[]] E. injection E as <-. eauto. }
  destruct (C70_layout show d w (fst (save show d w))) as (ts & F & C & _). { now rewrite <- O, <- surjective_pairing. }
  exists (fst (save show d w)), (document (header w) ts). split; [now rewrite <- O, <- surjective_pairing|]. split; [exact C|]. clear O. inversion F as [|? t ? ? L F']; subst. inversion F'; subst. clear F F' C.
  destruct L as (tb & -> & TB). cbn [data] in TB. destruct tb as [tb|]; [|contradiction]. destruct TB as (n' & ws & rows & R' & -> & LW & LR & _ & E).
  assert (n' = n). { destruct R as (_ & NE & R), R' as (_ & _ & R'). destruct cols as [|c cols]; [congruence|]. inversion R; inversion R'; subst. congruence. }
  subst n'. cbn [subheading parameters data_format] in *.
  assert (NS : ~ has_strings cols). { intros (c & I & S). rewrite Forall_forall in SI. specialize (SI _ I). destruct (snd c); contradiction. }
  assert (NE : cols <> []) by apply R.
  assert (RC : forall i r, nth_error rows i = Some r -> r <> [] /\ length ws = length r /\ Forall one_cell r /\ Forall2 (fun c s => entry_reads (contents_of (snd c)) i s) cols r).
  { intros i r N. specialize (E _ _ N). split; [|split; [|split]].
    - intros ->. apply Forall2_length in E. destruct cols; [congruence|discriminate].
    - rewrite LW. eapply Forall2_length; eauto.
    - clear - E SI NS X. assert (G : forall cs r0, incl cs cols -> Forall2 (fun c s => stands_for show (fixed 15) cols (snd c) i s) cs r0 -> Forall one_cell r0).
      { intros cs r0 H; induction 1 as [|c s cs r0 S _ IH]; constructor.
        - assert (I : In c cols) by (apply H; now left). rewrite Forall_forall in SI, X. specialize (SI _ I). specialize (X _ I). destruct (snd c) as [u l|u l|l|l|l|l|u x|]; try contradiction; cbn [stands_for texts_of] in *.
          + destruct S as (x & _ & _ & S & _). rewrite (S NS). apply fixed_cell.
          + rewrite Forall_forall in X. apply X. eapply nth_error_In; eauto.
        - apply IH. intros y Y. apply H. now right. }
      eapply G; [apply incl_refl|exact E].
    - clear - E SI NS. assert (G : forall cs r0, incl cs cols -> Forall2 (fun c s => stands_for show (fixed 15) cols (snd c) i s) cs r0 -> Forall2 (fun c s => entry_reads (contents_of (snd c)) i s) cs r0).
      { intros cs r0 H; induction 1 as [|c s cs r0 S _ IH]; constructor.
        - assert (I : In c cols) by (apply H; now left). rewrite Forall_forall in SI. specialize (SI _ I). destruct (snd c) as [u l|u l|l|l|l|l|u x|]; try contradiction; cbn [stands_for contents_of] in *.
          + destruct S as (x & N & _ & S & _). rewrite (S NS). now apply fixed_entry.
          + exact S.
        - apply IH. intros y Y. apply H. now right. }
      eapply G; [apply incl_refl|exact E]. }
  set (hl := line (zip_with padded ws (map heading cols))). set (dl := line (map (repeat 45%N) ws)). set (rl := map (fun r => line (zip_with padded ws r)) rows).
  assert (TL : lines_of (table ws (map heading cols) rows) = hl :: dl :: rl).
  { unfold lines_of, table. apply split_join; [discriminate|]. constructor; [|constructor].
    - apply line_no_newline. now apply Forall_map.
    - apply join_no; [cbn; intros [Y|[]]; discriminate|]. apply Forall_map, Forall_forall. intros k _ I. apply repeat_spec in I. discriminate.
    - apply Forall_map, Forall_forall. intros r I. apply In_nth_error in I. destruct I as (i & I). apply line_no_newline. now apply RC in I. }
  exists hl, dl, rl. split; [|split; [|split; [|split]]].
  - unfold document. cbn [w report add_layer text_file_writer header option_map option_list app]. unfold underlined, lines_of in *.
    assert (HD : forall rest, split_on newline (join blank [title ++ [newline] ++ repeat 61%N (length title); rest]) = [title; repeat 61%N (length title); []] ++ split_on newline rest).
    { intros rest. cbn [join]. unfold blank. rewrite <- !app_assoc. cbn [app]. rewrite split_sep, split_none by exact T.
      rewrite split_sep, split_none by (intros I; apply repeat_spec in I; discriminate). rewrite split_start. reflexivity. }
    rewrite HD. match goal with |- ?a ++ _ = _ => apply (f_equal (app a)) end. destruct params as [|p0 params].
    + cbn [layer_text option_map option_list app join]. exact TL.
    + set (ps := p0 :: params) in *. unfold layer_text. cbn [option_map option_list app join]. unfold blank. cbn [app]. rewrite split_sep. unfold parameter_lines. rewrite split_join.
      * rewrite split_start, TL, <- app_assoc. reflexivity.
      * discriminate.
      * apply Forall_map. eapply Forall_impl; [|exact P]. intros [a b] [A B]. cbn [fst snd] in *. rewrite !in_app_iff. intros [I|[I|I]]; auto. cbn in I. intuition discriminate.
  - unfold hl. rewrite cells_line; [|now rewrite map_length|destruct cols; [congruence|discriminate]|now apply Forall_map]. now rewrite map_map.
  - unfold dl, line. clear. induction ws as [|k ws IH]; [constructor|]. cbn [map]. destruct ws as [|k2 ws].
    + cbn [map join]. apply Forall_forall. intros c I. apply repeat_spec in I. auto.
    + rewrite join_cons by discriminate. apply Forall_app. split; [apply Forall_forall; intros c I; apply repeat_spec in I; auto|]. apply Forall_app. split; [constructor; [now right|constructor]|exact IH].
  - unfold rl. now rewrite map_length.
  - intros i row N. unfold rl in N. rewrite nth_error_map in N. destruct (nth_error rows i) as [r|] eqn:NR; [|discriminate]. injection N as <-. destruct (RC _ _ NR) as (A & B & C & D).
    rewrite cells_line by auto. clear - D. induction D; cbn [map]; constructor; auto.
Qed.
(** A file with a parameter, a column of numbers and one of texts. *)
Example C93_case : forall show d, exists d' content,
  save show d (report (lit "a.txt") (lit "T") (Some [(lit "k", lit "v")]) [qty "X" (lit "km") [Fin (-2); NaN]; (lit "L", Objects [lit "here"; lit "there"])]) = (d', Ok tt) /\
  d' (lit "a.txt") = Some content /\
  reads_as content (lit "T") [(lit "k", lit "v")] [(lit "X (km)", Numbers [Fin (-2); NaN]); (lit "L", Texts [lit "here"; lit "there"])] 2.
Proof.
  intros. refine (C93_read_back show d (lit "a.txt") (lit "T") [(lit "k", lit "v")] [qty "X" (lit "km") [Fin (-2); NaN]; (lit "L", Objects [lit "here"; lit "there"])] 2 _ _ _ _ _ _).
  - repeat split; [lia|discriminate|repeat constructor].
  - repeat constructor.
  - intros I. cbn in I. intuition discriminate.
  - repeat constructor; intros I; cbn in I; intuition discriminate.
  - repeat constructor; try (intros I; cbn in I; intuition discriminate).
  - repeat constructor; try (intros I; cbn in I; intuition discriminate).
Qed.

(** ** C94 *)
(** The angle a sexagesimal string with a letter stands for, in seconds of arc. *)
Definition angle_reads (s : text) (positive negative : string) (x : R) : Prop :=
  exists body d m h, sexagesimal body d m h /\
    ((s = body ++ lit positive /\ x = arcseconds d m h) \/ (s = body ++ lit negative /\ x = - arcseconds d m h)).
Lemma angle_string deg raw (p n : string) : Rabs deg < 1000 -> (0 <= raw <-> 0 <= deg) ->
  exists x, angle_reads (sexagesimal_string (Rabs deg) ++ (if Rle_dec 0 raw then lit p else lit n)) p n x /\ Rabs (deg * 3600 - x) <= 1 / 200.
Proof.
  intros B S. destruct (C73_sexagesimal_partial (Rabs deg) (conj (Rabs_pos deg) B)) as (d & m & h & SX & _ & _ & N & _).
  destruct (Rle_dec 0 raw) as [P|P].
  - exists (arcseconds d m h). split; [exists (sexagesimal_string (Rabs deg)), d, m, h; auto|]. rewrite (Rabs_pos_eq deg) in N by now apply S. exact N.
  - exists (- arcseconds d m h). split; [exists (sexagesimal_string (Rabs deg)), d, m, h; auto|]. assert (deg < 0) by (apply Rnot_le_lt; intuition). rewrite (Rabs_left deg) in N by auto.
    replace (deg * 3600 - - arcseconds d m h) with (- (- deg * 3600 - arcseconds d m h)) by ring. now rewrite Rabs_Ropp.
Qed.
(** Printing a location: latitude with N or S, longitude with E or W, each within half a
    hundredth of a second of arc, and the height within half a hundredth, in its own unit. *)
Theorem C94_location :
  forall l unit, 0 < angular_scale l ->
    Rabs (loc_latitude l * angular_scale l) < 1000 -> Rabs (loc_longitude l * angular_scale l) < 1000 ->
    exists lat lon height x y z,
      location_string l unit = lat ++ lit " " ++ lon ++ lit " " ++ height ++ unit /\
      angle_reads lat "N" "S" x /\ Rabs (loc_latitude l * angular_scale l * 3600 - x) <= 1 / 200 /\
      angle_reads lon "E" "W" y /\ Rabs (loc_longitude l * angular_scale l * 3600 - y) <= 1 / 200 /\
      decimal 2 height z /\ Rabs (loc_height l - z) <= 1 / 200.
Proof.
  intros [lat lon ht ang len] unit A LA LO. cbn [angular_scale loc_latitude loc_longitude loc_height] in *.
  assert (S : forall v, 0 <= v <-> 0 <= v * ang) by (intros; split; intros; nra).
  destruct (angle_string _ lat "N" "S" LA (S _)) as (x & X1 & X2). destruct (angle_string _ lon "E" "W" LO (S _)) as (y & Y1 & Y2).
  destruct (fixed_reads 2 ht ltac:(lia)) as (z & Z1 & Z2).
  eexists _, _, _, x, y, z. split; [|split; [exact X1|split; [exact X2|split; [exact Y1|split; [exact Y2|split; [exact Z1|]]]]]].
  - unfold location_string, iso6709, latitude_string, longitude_string, height_string. cbn [angular_scale loc_latitude loc_longitude loc_height]. replace (ang / 1) with ang by field. rewrite <- !app_assoc. reflexivity.
  - replace (/ (2 * 10 ^ 2)) with (1 / 200) in Z2 by (cbn; lra). exact Z2.
Qed.
(** Every location the constructor makes in degrees is covered. *)
Example C94_case : forall lat lon h len l, ground_location lat lon h 1 len = Ok l ->
  0 < angular_scale l /\ Rabs (loc_latitude l * angular_scale l) < 1000 /\ Rabs (loc_longitude l * angular_scale l) < 1000.
Proof.
  intros lat lon h len l G. unfold ground_location in G. repeat destruct (Rlt_dec _ _); try discriminate. injection G as <-. cbn. split; [lra|]. split; apply Rabs_def1; lra.
Qed.
