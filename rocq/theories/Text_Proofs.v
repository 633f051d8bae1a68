(** What is written to the file. *)
From Coq Require Import String Ascii List Reals NArith ZArith Bool Arith Lia.
From Verif Require Import Py Num Time_Model Text_Model Text_Spec.
Import ListNotations.
Open Scope list_scope.
Open Scope nat_scope.

(** ** Joining *)
Lemma join_cons sep x r : r <> [] -> join sep (x :: r) = x ++ sep ++ join sep r.
Proof. destruct r; [congruence|reflexivity]. Qed.
Lemma join_app sep a b : a <> [] -> b <> [] -> join sep (a ++ b) = join sep a ++ sep ++ join sep b.
Proof.
  induction a as [|x a IH]; [congruence|]. intros _ B. destruct a as [|y a].
  - cbn [app]. rewrite join_cons; auto.
  - change ((x :: y :: a) ++ b) with (x :: ((y :: a) ++ b)). rewrite !join_cons by (cbn; discriminate). rewrite IH; auto; [|discriminate]. now rewrite <- !app_assoc.
Qed.

(** ** Writing *)
Definition wrote (a : io) (t : text) : Prop := snd a = Ok tt /\ concat (fst a) = t.
Lemma wrote_then a b s t : wrote a s -> wrote b t -> wrote (andthen a b) (s ++ t).
Proof. intros [A A'] [B B']. unfold wrote, andthen. rewrite A. cbn [fst snd]. rewrite concat_app, A', B'. auto. Qed.
Lemma wrote_write s : wrote (write s) s.
Proof. split; [reflexivity|]. cbn. apply app_nil_r. Qed.
Lemma wrote_nothing : wrote nothing [].
Proof. split; reflexivity. Qed.
Lemma wrote_nil_r a t : wrote a t -> wrote (andthen a nothing) t.
Proof. intros A. rewrite <- (app_nil_r t). apply wrote_then; [auto|apply wrote_nothing]. Qed.
Lemma andthen_ok a b : snd (andthen a b) = Ok tt <-> snd a = Ok tt /\ snd b = Ok tt.
Proof. unfold andthen. destruct (snd a) as [[]|e] eqn:E; cbn [snd]; rewrite ?E; intuition congruence. Qed.
Lemma andthen_fst a b : exists r, fst (andthen a b) = fst a ++ r.
Proof. unfold andthen. destruct (snd a); cbn [fst]; [eauto|]. exists []. now rewrite app_nil_r. Qed.
Lemma wrote_det a s t : wrote a s -> wrote a t -> s = t.
Proof. intros [_ <-] [_ <-]. reflexivity. Qed.

Lemma last_one count (l : nat) : Nat.ltb count (count + S l - 1) = negb (Nat.eqb l 0).
Proof. destruct l; cbn [Nat.eqb negb]; [apply Nat.ltb_ge|apply Nat.ltb_lt]; lia. Qed.

Lemma wrote_parameters : forall l count n, n = count + length l ->
  wrote (write_parameters n count l) (parameter_lines l).
Proof.
  unfold parameter_lines. induction l as [|[a v] l IH]; intros count n ->; cbn [write_parameters map length]; [apply wrote_nothing|].
  rewrite last_one. destruct l as [|p l]; cbn [length Nat.eqb negb].
  - cbn [write_parameters map join fst snd]. rewrite !app_nil_r. apply wrote_nil_r, wrote_write.
  - rewrite join_cons by discriminate. rewrite (app_assoc _ [newline]). apply wrote_then; [|apply IH; cbn [length]; lia]. cbn [fst snd]. rewrite <- !app_assoc. apply wrote_write.
Qed.

Section Show.
Variable show : num -> text.

Lemma wrote_layers : forall l ts count n, n = count + length l -> Forall2 (fun x t => wrote (write_layer show x) t) l ts ->
  wrote (write_layers show n count l) (join blank ts).
Proof.
  induction l as [|x l IH]; intros ts count n -> F; inversion F as [|? t ? ts' T F']; subst; cbn [write_layers length]; [apply wrote_nothing|].
  rewrite last_one. destruct l as [|y l].
  - inversion F'. subst. cbn [length Nat.eqb negb write_layers join]. rewrite <- (app_nil_r t). apply wrote_then; auto. apply (wrote_then nothing nothing [] []); apply wrote_nothing.
  - assert (ts' <> []) by (inversion F'; discriminate). rewrite join_cons by auto. cbn [length Nat.eqb negb]. apply wrote_then; auto. apply wrote_then; [apply wrote_write|].
    apply IH; auto. cbn [length]. lia.
Qed.
Lemma layers_ok : forall l n count, snd (write_layers show n count l) = Ok tt <-> Forall (fun x => snd (write_layer show x) = Ok tt) l.
Proof.
  induction l as [|x l IH]; intros n count; cbn [write_layers]; [split; constructor|]. rewrite !andthen_ok, IH. split.
  - intros (A & _ & B). constructor; auto.
  - intros F. inversion F; subst. repeat split; auto. now destruct (Nat.ltb _ _).
Qed.
Lemma wrote_body w ts : Forall2 (fun x t => wrote (write_layer show x) t) (layers w) ts -> wrote (save_body show w) (document (header w) ts).
Proof.
  intros F. unfold save_body, document. pose proof (wrote_layers _ _ 0 (length (layers w)) eq_refl F) as L. destruct (header w) as [h|]; cbn [option_map option_list app].
  - destruct (layers w) as [|x l] eqn:E; inversion F; subst.
    + cbn [length Nat.ltb Nat.leb join]. cbn [write_layers]. rewrite <- (app_nil_r (underlined h)). apply wrote_then; [|apply wrote_nothing]. rewrite <- (app_nil_r (underlined h)). apply wrote_then; [apply wrote_write|apply wrote_nothing].
    + rewrite join_cons by discriminate. rewrite app_assoc. apply wrote_then; auto. cbn [length Nat.ltb Nat.leb]. apply wrote_then; apply wrote_write.
  - change (join blank ts) with ([] ++ join blank ts). apply wrote_then; auto. apply wrote_nothing.
Qed.
Lemma body_ok w : snd (save_body show w) = Ok tt <-> Forall (fun x => snd (write_layer show x) = Ok tt) (layers w).
Proof.
  unfold save_body. rewrite andthen_ok, layers_ok. split; [tauto|]. intros H. split; auto. destruct (header w); [|reflexivity].
  apply andthen_ok. split; [reflexivity|]. now destruct (Nat.ltb _ _).
Qed.
Lemma wrote_layer l tab :
  match data l, tab with Some d, Some t => wrote (write_data show d (data_format l)) t | None, None => True | _, _ => False end ->
  wrote (write_layer show l) (layer_text (subheading l) (parameters l) tab).
Proof.
  intros H. unfold write_layer, layer_text.
  assert (P : forall p, wrote (write_parameters (length p) 0 p) (parameter_lines p)) by (intros; apply wrote_parameters; reflexivity).
  pose proof (fun s => wrote_write s) as W. pose proof wrote_nothing as N.
  assert (NT : forall a t, wrote a t -> wrote (andthen nothing a) t) by (intros a t A; apply (wrote_then nothing a [] t); auto).
  assert (TN : forall a t, wrote a t -> wrote (andthen a nothing) t) by (intros a t A; rewrite <- (app_nil_r t); apply wrote_then; auto).
  destruct (subheading l) as [s|], (parameters l) as [p|], (data l) as [d|], tab as [t|]; try contradiction;
    cbn [option_map option_list app is_some andb orb join]; repeat apply NT; auto;
    repeat (first [apply wrote_then; [now auto|] | apply TN; now auto | apply NT]); auto.
Qed.
Lemma layer_ok l : snd (write_layer show l) = Ok tt <-> (forall d, data l = Some d -> snd (write_data show d (data_format l)) = Ok tt).
Proof.
  unfold write_layer. rewrite !andthen_ok. split.
  - intros (_ & _ & _ & _ & H) d E. now rewrite E in H.
  - intros H. repeat split.
    + now destruct (subheading l).
    + now destruct (is_some _ && _).
    + destruct (parameters l) as [p|]; [|reflexivity]. now apply wrote_parameters.
    + now destruct ((is_some _ || _) && _).
    + destruct (data l) as [d|]; [|reflexivity]. now apply H.
Qed.

(** ** Tables *)
Definition is_f (v : value) : bool := match v with QFloats _ _ | Floats _ => true | _ => false end.
Definition is_s (v : value) : bool := match v with Strings _ => true | _ => false end.
Definition is_o (v : value) : bool := match v with Objects _ => true | _ => false end.
Definition kind_from (o s f : bool) : kind := if o then KObject else if s then KString else if f then KFloat else KInt.
Definition good (o s f : bool) (v : value) (i : nat) (e : entry) : Prop :=
  match v with
  | QFloats _ l | Floats l => exists x, nth_error l i = Some x /\ (e = EFloat x \/ e = EText (show x) /\ s = true) /\ (s = true -> o = false -> e = EText (show x))
  | QInts _ l | Ints l => exists z, nth_error l i = Some z /\
      (e = EInt z \/ e = EFloat (Fin (IZR z)) /\ f = true \/ e = EText (show (Fin (IZR z))) /\ s = true /\ f = true \/ e = EText (str_Z z) /\ s = true) /\
      (o = false -> s = false -> f = true -> e = EFloat (Fin (IZR z))) /\
      (o = false -> s = true -> e = EText (show (Fin (IZR z))) \/ e = EText (str_Z z))
  | Strings l | Objects l => exists t, nth_error l i = Some t /\ e = EText t
  | QScalar _ _ | OtherValue => False
  end.
Lemma good_step o s f o' s' f' v i e : good o s f v i e ->
  good (o || o') (s || s') (f || f') v i (convert show (kind_from (o || o') (s || s') (f || f')) e).
Proof.
  destruct v as [u l|u l|l|l|l|l|u x|]; cbn [good]; auto.
  - intros (x & N & A & B). exists x. split; [auto|]. destruct A as [->|[-> ->]]; destruct o, o', s', f, f'; try destruct s; cbn; intuition congruence.
  - intros (x & N & A & B). exists x. split; [auto|]. destruct A as [->|[[-> ->]|[(-> & -> & ->)|[-> ->]]]]; destruct o, o', s', f'; try destruct s; try destruct f; cbn; intuition congruence.
  - intros (x & N & A & B). exists x. split; [auto|]. destruct A as [->|[-> ->]]; destruct o, o', s', f, f'; try destruct s; cbn; intuition congruence.
  - intros (x & N & A & B). exists x. split; [auto|]. destruct A as [->|[[-> ->]|[(-> & -> & ->)|[-> ->]]]]; destruct o, o', s', f'; try destruct s; try destruct f; cbn; intuition congruence.
  - intros (t & N & ->). exists t. split; auto. now destruct (kind_from _ _ _).
  - intros (t & N & ->). exists t. split; auto. now destruct (kind_from _ _ _).
Qed.
Definition flags (cols : list column) : bool * bool * bool :=
  (existsb (fun c => is_o (snd c)) cols, existsb (fun c => is_s (snd c)) cols, existsb (fun c => is_f (snd c)) cols).
Definition kind_of (cols : list column) : kind := let '(o, s, f) := flags cols in kind_from o s f.
Definition good_in (cols : list column) (c : column) (i : nat) (e : entry) : Prop := let '(o, s, f) := flags cols in good o s f (snd c) i e.
(** The entries read so far. *)
Definition entries_of (n : nat) (done : list column) (raw : option (kind * list (list entry))) : Prop :=
  match raw with
  | None => done = []
  | Some (k, rows) => done <> [] /\ k = kind_of done /\ length rows = n /\
      forall i row, nth_error rows i = Some row -> Forall2 (fun c e => good_in done c i e) done row
  end.
Lemma one_column n c : size (snd c) = Some n -> exists d, column_data (snd c) = Ok d /\ fst d = kind_of [c] /\ length (snd d) = n /\
  forall i row, nth_error (snd d) i = Some row -> exists e, row = [e] /\ good_in [c] c i e.
Proof.
  destruct c as [lab v]. unfold good_in, kind_of, flags. cbn [snd]. destruct v as [u l|u l|l|l|l|l|u x|]; cbn [size column_data]; intros S; try discriminate; injection S as <-; eexists; (split; [reflexivity|]); cbn [fst snd existsb is_o is_s is_f orb kind_from];
    (split; [reflexivity|]); (split; [apply map_length|]); intros i row N; rewrite nth_error_map in N; destruct (nth_error l i) as [y|] eqn:E; try discriminate; injection N as <-; eexists; (split; [reflexivity|]); unfold good.
  all: try (exists y; split; [exact E|]; intuition congruence).
Qed.
Lemma nth_error_combine {A B} (a : list A) (b : list B) i x y : nth_error (combine a b) i = Some (x, y) -> nth_error a i = Some x /\ nth_error b i = Some y.
Proof. revert b i. induction a as [|u a IH]; intros [|v b] [|i]; cbn; try discriminate; intros H; [injection H as <- <-; auto|auto]. Qed.
Lemma flags_snoc done c : flags (done ++ [c]) =
  (fst (fst (flags done)) || is_o (snd c), snd (fst (flags done)) || is_s (snd c), snd (flags done) || is_f (snd c)).
Proof. unfold flags. rewrite !existsb_app. cbn [existsb fst snd]. now rewrite !orb_false_r. Qed.
Lemma promote_kinds o s f o' s' f' : promote (kind_from o s f) (kind_from o' s' f') = kind_from (o || o') (s || s') (f || f').
Proof. destruct o, s, f, o', s', f'; reflexivity. Qed.
Lemma add_column n done raw c : entries_of n done raw -> size (snd c) = Some n ->
  exists raw', (d <- column_data (snd c) ;; match raw with None => Ok d | Some r => concatenate show r d end) = Ok raw' /\ entries_of n (done ++ [c]) (Some raw').
Proof.
  intros E S. destruct (one_column n c S) as ([k' rows'] & D & K' & L' & R'). rewrite D. cbn [bind fst snd] in *. destruct raw as [[k rows]|].
  - destruct E as (ND & -> & L & R). unfold concatenate. cbn [fst snd]. rewrite L, L', Nat.eqb_refl. eexists. split; [reflexivity|]. unfold entries_of.
    assert (KK : promote (kind_of done) k' = kind_of (done ++ [c])).
    { rewrite K'. unfold kind_of. rewrite flags_snoc. destruct (flags done) as [[o s] f]. unfold flags. cbn [existsb fst snd]. rewrite !orb_false_r. apply promote_kinds. }
    rewrite KK. split; [intros X; now apply app_eq_nil in X|]. split; [reflexivity|]. split; [rewrite map_length, combine_length, L, L'; lia|].
    intros i row N. rewrite nth_error_map in N. destruct (nth_error (combine rows rows') i) as [[a b]|] eqn:C; [|discriminate]. injection N as <-. cbn [fst snd].
    apply nth_error_combine in C. destruct C as [C1 C2]. specialize (R _ _ C1). destruct (R' _ _ C2) as (e & -> & G). apply Forall2_app.
    + clear - R. unfold good_in in *. unfold kind_of. rewrite flags_snoc. destruct (flags done) as [[o s] f]. cbn [fst snd] in *. induction R; cbn [map]; constructor; auto. now apply good_step.
    + cbn [map]. constructor; [|constructor]. unfold good_in in *. unfold kind_of. rewrite flags_snoc. destruct (flags done) as [[o s] f]. cbn [fst snd]. unfold flags in G. cbn [existsb] in G. rewrite !orb_false_r in G.
      rewrite (orb_comm o), (orb_comm s), (orb_comm f). now apply good_step.
  - cbn [entries_of] in E. subst done. eexists. split; [reflexivity|]. unfold entries_of. cbn [app]. split; [discriminate|]. split; [auto|]. split; [auto|].
    intros i row N. destruct (R' _ _ N) as (e & -> & G). constructor; [exact G|constructor].
Qed.
(** Width of a column. *)
Definition value_width (format : num -> text) (v : value) : nat := match maximum_value_width show v format with Ok w => w | Raise _ => 0 end.
Definition width (format : num -> text) (c : column) : nat := Nat.max (value_width format (snd c)) (length (heading c)).
Lemma information_ok format n c : 0 < n -> size (snd c) = Some n ->
  column_information show (fst c) (snd c) format = Ok (padded (width format c) (heading c), repeat 45%N (width format c), width format c).
Proof.
  intros P S. assert (M : exists w, maximum_value_width show (snd c) format = Ok w).
  { destruct (snd c) as [u l|u l|l|l|l|l|u x|]; cbn [size maximum_value_width] in *; try discriminate; injection S as <-; destruct l; cbn [length] in P; try lia; cbn [map np_max longest bind]; eauto. }
  destruct M as (w & M). unfold column_information, width, value_width, heading. rewrite M. cbn [bind]. destruct (snd c); reflexivity.
Qed.
Definition ended (cells : list text) : text := match cells with [] => [] | _ => line cells ++ [newline] end.
Lemma data_loop_ok format n : 0 < n -> forall cols done raw L U W N, N = length done + length cols -> entries_of n done raw -> Forall (fun c => size (snd c) = Some n) cols ->
  exists raw', data_loop show format N (length done) L U W raw cols =
      Ok (L ++ ended (map (fun c => padded (width format c) (heading c)) cols), U ++ ended (map (fun c => repeat 45%N (width format c)) cols), W ++ map (width format) cols, raw') /\
    entries_of n (done ++ cols) raw'.
Proof.
  intros P. induction cols as [|[lab v] cols IH]; intros done raw L U W N -> E F.
  - cbn [data_loop map ended]. rewrite !app_nil_r. eauto.
  - inversion F as [|? ? SZ F']; subst. cbn [data_loop]. pose proof (information_ok format n (lab, v) P SZ) as I. cbn [fst snd] in I. rewrite I. cbn [bind].
    destruct (add_column n done raw (lab, v) E SZ) as (raw' & A & E'). cbn [snd] in A. destruct (column_data v) as [d|] eqn:D; [|discriminate]. cbn [bind] in *. rewrite A. cbn [bind].
    set (w := width format (lab, v)) in *. replace (length done + length ((lab, v) :: cols)) with (length done + S (length cols)) by reflexivity. rewrite last_one.
    replace (S (length done)) with (length (done ++ [(lab, v)])) by (rewrite app_length; cbn; lia).
    destruct (IH (done ++ [(lab, v)]) (Some raw')
      (L ++ padded w (heading (lab, v)) ++ (if negb (length cols =? 0) then [tab] else [newline]))
      (U ++ repeat 45%N w ++ (if negb (length cols =? 0) then [tab] else [newline])) (W ++ [w]) (length done + S (length cols))) as (raw'' & R & E''); auto.
    { rewrite app_length. cbn [length]. lia. }
    exists raw''. rewrite R. rewrite <- !app_assoc in *. cbn [app] in E''. split; [|exact E'']. clear.
    assert (X : forall g : column -> text, g (lab, v) ++ (if negb (length cols =? 0) then [tab] else [newline]) ++ ended (map g cols) = ended (map g ((lab, v) :: cols))).
    { intros g. destruct cols as [|c cols]; cbn [map length Nat.eqb negb ended]; [reflexivity|]. unfold line. rewrite (join_cons [tab] (g (lab, v))) by discriminate. now rewrite <- !app_assoc. }
    exact (f_equal2 (fun a b => Ok (L ++ a, U ++ b, W ++ map (width format) ((lab, v) :: cols), raw'')) (X (fun c => padded (width format c) (heading c))) (X (fun c => repeat 45%N (width format c)))).
Qed.

Definition entry_text (format : num -> text) (k : kind) (e : entry) : text :=
  match e with
  | EFloat x => format x
  | EInt z => match k with KObject => format (Fin (IZR z)) | _ => str_Z z end
  | EText s => s
  end.
Lemma entry_padded k e w format : data_entry_string k e w format = padded w (entry_text format k e).
Proof. destruct e; try reflexivity. destruct k; reflexivity. Qed.
Lemma row_ok k format : forall row widths count n, n = count + length row -> length widths = length row ->
  row_string k format n count widths row = line (zip_with padded widths (map (entry_text format k) row)).
Proof.
  unfold line, zip_with. induction row as [|e row IH]; intros [|w widths] count n -> L; try discriminate; [reflexivity|]. cbn [row_string map combine length]. rewrite last_one, entry_padded. cbn [fst snd].
  destruct row as [|e' row].
  - destruct widths; [|discriminate]. cbn. now rewrite !app_nil_r.
  - destruct widths as [|w' widths]; [discriminate|]. cbn [length Nat.eqb negb]. rewrite join_cons by discriminate. f_equal. f_equal. apply IH; cbn [length] in *; lia.
Qed.
Lemma rows_ok k format widths : forall rows count n, n = count + length rows -> Forall (fun r => length widths = length r) rows ->
  wrote (write_rows k format widths n count rows) (join [newline] (map (fun r => line (zip_with padded widths (map (entry_text format k) r))) rows)).
Proof.
  induction rows as [|r rows IH]; intros count n -> F; cbn [write_rows map length]; [apply wrote_nothing|]. inversion F; subst. rewrite last_one. rewrite (row_ok k format r widths 0 (length r)) by auto.
  destruct rows as [|r' rows].
  - cbn [length Nat.eqb negb write_rows map join]. rewrite app_nil_r. apply wrote_nil_r, wrote_write.
  - cbn [length Nat.eqb negb]. rewrite join_cons by discriminate. rewrite app_assoc. apply wrote_then; [apply wrote_write|]. apply IH; auto. cbn [length]. lia.
Qed.
Lemma flags_reflect cols : (fst (fst (flags cols)) = true <-> has_objects cols) /\ (snd (fst (flags cols)) = true <-> has_strings cols) /\ (snd (flags cols) = true <-> has_floats cols).
Proof.
  unfold flags, has_objects, has_strings, has_floats. cbn [fst snd]. rewrite !existsb_exists.
  repeat split; intros (c & I & H); exists c; (split; [auto|]); destruct (snd c); cbn in *; auto; try discriminate; try contradiction.
Qed.
Lemma good_stands format cols c i e : good_in cols c i e -> stands_for show format cols (snd c) i (entry_text format (kind_of cols) e).
Proof.
  unfold good_in, kind_of. destruct (flags_reflect cols) as (O & S & F). destruct (flags cols) as [[o s] f]. cbn [fst snd] in *.
  unfold stands_for. destruct (snd c) as [u l|u l|l|l|l|l|u x|]; cbn [good]; auto.
  - intros (x & N & A & B). exists x. split; [auto|]. rewrite <- O, <- S. destruct A as [->|[-> ->]]; destruct o; try destruct s; cbn; intuition congruence.
  - intros (x & N & A & B & C). exists x. split; [auto|]. rewrite <- O, <- S, <- F. destruct A as [->|[[-> ->]|[(-> & -> & ->)|[-> ->]]]]; destruct o; try destruct s; try destruct f; cbn; intuition congruence.
  - intros (x & N & A & B). exists x. split; [auto|]. rewrite <- O, <- S. destruct A as [->|[-> ->]]; destruct o; try destruct s; cbn; intuition congruence.
  - intros (x & N & A & B & C). exists x. split; [auto|]. rewrite <- O, <- S, <- F. destruct A as [->|[[-> ->]|[(-> & -> & ->)|[-> ->]]]]; destruct o; try destruct s; try destruct f; cbn; intuition congruence.
  - intros (t & N & ->). exact N.
  - intros (t & N & ->). exact N.
Qed.
(** The table written for columns that make one. *)
Lemma zip_map {A} (f : A -> nat) (g : A -> text) l : zip_with padded (map f l) (map g l) = map (fun c => padded (f c) (g c)) l.
Proof. unfold zip_with. induction l; cbn; [reflexivity|]. now f_equal. Qed.
Lemma Forall2_length {A B} (P : A -> B -> Prop) a b : Forall2 P a b -> length a = length b.
Proof. induction 1; cbn; auto. Qed.
Lemma data_ok format n cols : rectangular n cols -> exists rows,
  wrote (write_data show cols format) (table (map (width format) cols) (map heading cols) rows) /\ length rows = n /\
  forall i r, nth_error rows i = Some r -> Forall2 (fun c s => stands_for show format cols (snd c) i s) cols r.
Proof.
  intros (P & NE & F). destruct (data_loop_ok format n P cols [] None [] [] [] (length cols) eq_refl eq_refl F) as (raw & D & E).
  unfold write_data. cbn [length] in D. rewrite D. cbn [app] in *. destruct raw as [[k rows]|]; [|cbn in E; contradiction]. destruct E as (_ & -> & L & R).
  exists (map (map (entry_text format (kind_of cols))) rows). split; [|split].
  - unfold table, table_lines. rewrite join_cons by discriminate. rewrite join_cons by (destruct rows; [cbn in L; lia|discriminate]).
    rewrite app_assoc. apply wrote_then.
    { rewrite zip_map. destruct cols as [|c cols]; [congruence|]. apply wrote_write. }
    rewrite app_assoc. apply wrote_then.
    { rewrite map_map. destruct cols as [|c cols]; [congruence|]. apply wrote_write. }
    rewrite map_map. apply rows_ok; [reflexivity|]. apply Forall_forall. intros r I. apply In_nth_error in I. destruct I as (i & I). rewrite map_length. apply R in I. eapply Forall2_length; eauto.
  - now rewrite map_length.
  - intros i r N. rewrite nth_error_map in N. destruct (nth_error rows i) as [row|] eqn:RI; [|discriminate]. injection N as <-. specialize (R _ _ RI). clear - R.
    assert (G : forall cs es, Forall2 (fun c e => good_in cols c i e) cs es -> Forall2 (fun c s => stands_for show format cols (snd c) i s) cs (map (entry_text format (kind_of cols)) es)).
    { induction 1; cbn [map]; constructor; auto. now apply good_stands. }
    auto.
Qed.
(** Columns that make no table raise an exception. *)
Lemma loop_fails format : forall cols (done : list column) raw n N L U W x, data_loop show format N (length done) L U W raw cols = Ok x ->
  match raw with None => True | Some (_, rows) => length rows = n end ->
  match raw with None => exists m, (cols = [] \/ 0 < m) /\ Forall (fun c => size (snd c) = Some m) cols | Some _ => Forall (fun c => size (snd c) = Some n) cols end.
Proof.
  induction cols as [|[lab v] cols IH]; intros done raw n N L U W x H R.
  - destruct raw; [constructor|]. exists 0. split; [now left|constructor].
  - cbn [data_loop] in H. destruct (column_information show lab v format) as [[[a b] c]|] eqn:I; [|discriminate]. cbn [bind] in H.
    destruct (column_data v) as [[k' rows']|] eqn:D; [|discriminate]. cbn [bind] in H.
    assert (SZ : size v = Some (length rows')). { destruct v; cbn in D |- *; try discriminate; injection D as <- <-; now rewrite map_length. }
    assert (PO : 0 < length rows').
    { unfold column_information in I. destruct v as [u l|u l|l|l|l|l|u y|]; cbn [column_data maximum_value_width] in *; try discriminate; injection D as <- <-; rewrite map_length; destruct l; try (cbn; lia); cbn [map np_max longest bind] in I; discriminate. }
    destruct raw as [[k rows]|].
    + unfold concatenate in H. cbn [fst snd] in H. destruct (Nat.eqb_spec (length rows) (length rows')) as [Q|Q]; [|discriminate]. cbn [bind] in H.
      replace (S (length done)) with (length (done ++ [(lab, v)])) in H by (rewrite app_length; cbn; lia).
      pose proof (IH _ _ n _ _ _ _ _ H) as J. cbn beta iota in J. rewrite map_length, combine_length, <- Q, Nat.min_id in J. specialize (J R). constructor; auto. cbn [snd]. congruence.
    + cbn [bind] in H. replace (S (length done)) with (length (done ++ [(lab, v)])) in H by (rewrite app_length; cbn; lia).
      pose proof (IH _ _ (length rows') _ _ _ _ _ H eq_refl) as J. cbn beta iota in J. exists (length rows'). split; [now right|]. constructor; auto.
Qed.
Lemma data_ok_iff format cols : snd (write_data show cols format) = Ok tt <-> exists n, rectangular n cols.
Proof.
  split.
  - unfold write_data. destruct (data_loop show format (length cols) 0 [] [] [] None cols) as [[[[L U] W] raw]|e] eqn:D; [|discriminate].
    intros H. destruct (loop_fails format cols [] None 0 _ _ _ _ _ D I) as (m & P & F). destruct cols as [|c cols].
    + cbn in D. injection D as <- <- <- <-. discriminate.
    + destruct P as [P|P]; [discriminate|]. exists m. split; [auto|]. split; [discriminate|auto].
  - intros (n & R). destruct (data_ok format n cols R) as (rows & [W _] & _). auto.
Qed.
End Show.
