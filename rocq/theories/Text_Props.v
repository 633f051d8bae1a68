(** Saved text files: C69, C70, C71, C72. *)
From Coq Require Import String Ascii List Reals NArith ZArith Bool Arith Lia Lra.
From Verif Require Import Py Num Time_Model Text_Model Text_Spec Text_Num Text_Proofs.
Import ListNotations.
Open Scope list_scope.
Open Scope nat_scope.

Lemma text_eqb_eq a b : text_eqb a b = true <-> a = b.
Proof. unfold text_eqb. destruct (list_eq_dec _ a b); split; congruence. Qed.
Lemma store_same d n c : store d n c n = Some c.
Proof. unfold store. now rewrite (proj2 (text_eqb_eq n n) eq_refl). Qed.
Lemma store_other d n c m : m <> n -> store d n c m = d m.
Proof. intros H. unfold store. destruct (text_eqb m n) eqn:E; [|reflexivity]. apply text_eqb_eq in E. congruence. Qed.
Lemma endswith_iff s e : endswith s e = true <-> exists b, s = b ++ e.
Proof.
  unfold endswith. rewrite andb_true_iff, Nat.leb_le, text_eqb_eq. split.
  - intros [L E]. exists (firstn (length s - length e) s). rewrite <- E at 2. symmetry. apply firstn_skipn.
  - intros (b & ->). rewrite app_length. split; [lia|]. replace (length b + length e - length e) with (length b) by lia. rewrite skipn_app, skipn_all, Nat.sub_diag. reflexivity.
Qed.

(** ** C69 *)
(** The writer's file has the given name when that ends in .txt and else the name with .txt
    appended; doing it twice changes nothing; no other file is touched. *)
Theorem C69_file_names :
  forall name h,
    let file := file_name (text_file_writer name h) in
    ((exists base, name = base ++ lit ".txt") -> file = name) /\
    (~ (exists base, name = base ++ lit ".txt") -> file = name ++ lit ".txt") /\
    (exists base, file = base ++ lit ".txt") /\
    (forall h', file_name (text_file_writer file h') = file) /\
    (forall show d ls other, other <> file -> fst (save show d (fold_left add_layer ls (text_file_writer name h))) other = d other).
Proof.
  intros name h file. assert (F : file = process_file_name name) by reflexivity. unfold process_file_name in F.
  assert (EX : exists base, file = base ++ lit ".txt").
  { destruct (endswith name (lit ".txt")) eqn:E; rewrite F; [now apply endswith_iff|eauto]. }
  split; [|split; [|split; [|split]]].
  - intros B. apply endswith_iff in B. now rewrite B in F.
  - intros B. destruct (endswith name (lit ".txt")) eqn:E; auto. apply endswith_iff in E. contradiction.
  - exact EX.
  - intros h'. cbn [text_file_writer file_name]. unfold process_file_name. apply endswith_iff in EX. now rewrite EX.
  - intros show d ls other N. unfold save. cbn [fst]. apply store_other.
    assert (G : forall w, file_name (fold_left add_layer ls w) = file_name w) by (induction ls; intros; cbn [fold_left]; [reflexivity|now rewrite IHls]).
    now rewrite G.
Qed.
Example C69_case : file_name (text_file_writer (lit "orbit") None) = lit "orbit.txt" /\ file_name (text_file_writer (lit "orbit.txt") None) = lit "orbit.txt".
Proof. split; reflexivity. Qed.

(** ** C70 *)
Lemma layers_written show ls : Forall (fun x => snd (write_layer show x) = Ok tt) ls ->
  exists ts, Forall2 (layer_of show) ls ts /\ Forall2 (fun x t => wrote (write_layer show x) t) ls ts.
Proof.
  assert (L : forall l, snd (write_layer show l) = Ok tt -> exists t, layer_of show l t /\ wrote (write_layer show l) t).
  { intros l H. rewrite layer_ok in H. destruct (data l) as [cols|] eqn:D.
    - specialize (H _ eq_refl). apply data_ok_iff in H. destruct H as (n & R). destruct (data_ok show (data_format l) n cols R) as (rows & W & N & E).
      set (tab := table (map (width show (data_format l)) cols) (map heading cols) rows) in *. exists (layer_text (subheading l) (parameters l) (Some tab)). split.
      + exists (Some tab). split; [reflexivity|]. rewrite D. exists n, (map (width show (data_format l)) cols), rows. split; [auto|]. split; [reflexivity|]. split; [apply map_length|]. split; [auto|]. split; [|exact E].
        clear. induction cols; cbn [map]; constructor; auto. apply Nat.le_max_r.
      + apply wrote_layer. now rewrite D.
    - exists (layer_text (subheading l) (parameters l) None). split; [|apply wrote_layer; now rewrite D]. exists None. rewrite D. auto. }
  induction 1 as [|l r P _ (ts & A & B)]; [exists []; auto|]. destruct (L l P) as (t & C & D). exists (t :: ts). auto.
Qed.
(** A save that returns has written the document: the underlined header and the layers,
    separated by blank lines, every layer being what is present of its subheading, its
    parameters and its table, separated by blank lines. *)
Theorem C70_layout :
  forall show d w d', save show d w = (d', Ok tt) ->
    exists ts, Forall2 (layer_of show) (layers w) ts /\
      d' (file_name w) = Some (document (header w) ts) /\
      forall other, other <> file_name w -> d' other = d other.
Proof.
  intros show d w d' H. unfold save in H. injection H as <- O. apply body_ok in O. destruct (layers_written show _ O) as (ts & A & B). exists ts. split; [auto|].
  pose proof (wrote_body show w ts B) as [_ T]. rewrite T. split; [apply store_same|]. intros. now apply store_other.
Qed.
(** A save returns exactly when the data of every layer make a table: at least one column,
    all one-dimensional arrays with the same number of entries, and at least one entry. *)
Theorem C70_saves :
  forall show d w, snd (save show d w) = Ok tt <-> forall l cols, In l (layers w) -> data l = Some cols -> exists n, rectangular n cols.
Proof.
  intros. unfold save. cbn [snd]. rewrite body_ok, Forall_forall. split.
  - intros H l cols I D. specialize (H l I). rewrite layer_ok in H. specialize (H _ D). now apply data_ok_iff in H.
  - intros H l I. rewrite layer_ok. intros cols D. apply data_ok_iff. eauto.
Qed.
(** Layers appear in the order in which they were added. *)
Theorem C70_layers_in_order :
  forall show d name h ls d', save show d (fold_left add_layer ls (text_file_writer name h)) = (d', Ok tt) ->
    exists ts, Forall2 (layer_of show) ls ts /\ d' (file_name (text_file_writer name h)) = Some (document h ts).
Proof.
  intros show d name h ls d' H.
  assert (G : forall l w, file_name (fold_left add_layer l w) = file_name w /\ header (fold_left add_layer l w) = header w /\ layers (fold_left add_layer l w) = layers w ++ l).
  { induction l as [|x l IH]; intros w; cbn [fold_left]; [now rewrite app_nil_r|]. destruct (IH (add_layer w x)) as (A & B & C). rewrite A, B, C. cbn [add_layer file_name header layers]. now rewrite <- app_assoc. }
  destruct (G ls (text_file_writer name h)) as (A & B & C). destruct (C70_layout _ _ _ _ H) as (ts & L & D & _). rewrite A, B in D. rewrite C in L. exists ts. split; [exact L|exact D].
Qed.
(** The literal text of a small file. *)
Definition demo : writer :=
  Writer (lit "demo.txt") (Some (lit "Demo"))
    [Layer (Some (lit "First")) (Some [(lit "a", lit "1"); (lit "b", lit "2")]) (Some [(lit "Name", Strings [lit "x"; lit "longer"]); (lit "N", Ints [1%Z; (-20)%Z])]) (fixed 15);
     Layer None None None (fixed 15)].
Definition nl : text := [newline].
Definition tb : text := [tab].
Example C70_case : forall show d, snd (save show d demo) = Ok tt /\
  fst (save show d demo) (lit "demo.txt") = Some (concat
    [lit "Demo"; nl; lit "===="; nl; nl;
     lit "First"; nl; nl;
     lit "a: 1"; nl; lit "b: 2"; nl; nl;
     lit "Name  "; tb; lit "N  "; nl;
     lit "------"; tb; lit "---"; nl;
     lit "x     "; tb; lit "1  "; nl;
     lit "longer"; tb; lit "-20"; nl; nl]).
Proof. intros. split; [reflexivity|]. unfold save. cbn [fst]. change (file_name demo) with (lit "demo.txt"). rewrite store_same. f_equal. Qed.

(** ** C71 *)
Lemma padded_length w s : length s <= w -> length (padded w s) = w.
Proof. intros H. unfold padded. rewrite app_length, repeat_length. lia. Qed.
(** Columns of Quantities of numbers that are finite and not negative, of strings and of
    other objects. *)
Definition plain (v : value) : Prop :=
  match v with
  | QFloats _ l => Forall (fun x => exists r, x = Fin r /\ (0 <= r)%R) l
  | QInts _ l => Forall (fun z => (0 <= z)%Z) l
  | Strings _ | Objects _ => True
  | _ => False
  end.
Definition numeric (v : value) : Prop := match v with QFloats _ _ | QInts _ _ => True | _ => False end.
Definition aligned (widths : list nat) (r : list text) : Prop := Forall2 (fun w s => length (padded w s) = w) widths r.

Lemma n_max_fin (x : R) (l : list num) : Forall (fun y => exists r, y = Fin r /\ (0 <= r)%R) l -> exists m, fold_left n_max l (Fin x) = Fin m /\ (x <= m)%R /\ forall r, In (Fin r) l -> (r <= m)%R.
Proof.
  revert x. induction l as [|y l IH]; intros x F.
  - exists x. cbn. split; [auto|]. split; [lra|tauto].
  - inversion F as [|? ? (r & -> & P) F']; subst. cbn [fold_left n_max n_lt]. destruct (Rlt_dec x r) as [L|L].
    + destruct (IH r F') as (m & E & A & B). exists m. split; [auto|]. split; [lra|]. intros q [Q|Q]; [injection Q as <-; lra|auto].
    + destruct (IH x F') as (m & E & A & B). exists m. split; [auto|]. split; [lra|]. intros q [Q|Q]; [injection Q as <-; lra|auto].
Qed.
Lemma np_max_fin (l : list num) m : Forall (fun y => exists r, y = Fin r /\ (0 <= r)%R) l -> np_max l = Ok m -> exists r, m = Fin r /\ forall q, In (Fin q) l -> (0 <= q <= r)%R.
Proof.
  intros F E. destruct l as [|x l]; [discriminate|]. cbn [np_max] in E. injection E as <-. pose proof F as F0. inversion F as [|? ? (r & -> & P) F']; subst. destruct (n_max_fin r l F') as (m & -> & A & B).
  exists m. split; [reflexivity|]. intros q Q. split.
  - rewrite Forall_forall in F0. destruct (F0 _ Q) as (q' & E & X). injection E as <-. auto.
  - destruct Q as [Q|Q]; [injection Q as <-; auto|auto].
Qed.
Lemma list_max_in a l : In a l -> a <= list_max l.
Proof. intros I. pose proof (proj1 (list_max_le l (list_max l)) (le_n _)) as F. rewrite Forall_forall in F. auto. Qed.
Lemma longest_in l w s : longest l = Ok w -> In s l -> length s <= w.
Proof. unfold longest. destruct l; [intros; discriminate|]. intros E I. injection E as <-. apply (list_max_in (length s) (map (@length N) (t :: l))). now apply in_map. Qed.
Lemma str_Z_nonneg z : (0 <= z)%Z -> str_Z z = str_N (Z.to_N z).
Proof. destruct z; [reflexivity|reflexivity|lia]. Qed.
Lemma str_shorter n z : (0 <= z)%Z -> length (str_Z z) <= length (fixed n (Fin (IZR z))).
Proof.
  intros H. rewrite str_Z_nonneg by auto. cbn [fixed]. destruct (Rlt_dec (IZR z) 0) as [L|L]; [apply (IZR_le 0) in H; lra|]. rewrite fixed_abs_length. unfold scaled.
  replace (IZR z * 10 ^ n)%R with (IZR (z * 10 ^ Z.of_nat n)) by (rewrite mult_IZR, <- pow_IZR; reflexivity). rewrite half_even_IZR.
  replace (Z.to_N (z * 10 ^ Z.of_nat n)) with (Z.to_N z * 10 ^ N.of_nat n)%N.
  2:{ rewrite Z2N.inj_mul; [|lia|apply Z.pow_nonneg; lia]. f_equal. rewrite Z2N.inj_pow; [|lia|lia]. f_equal. lia. }
  rewrite N.div_mul by (apply N.pow_nonzero; lia). lia.
Qed.
Lemma width_enough show n k cols c i s : rectangular n cols -> Forall (fun c => plain (snd c)) cols -> ~ (has_strings cols /\ exists c, In c cols /\ numeric (snd c)) ->
  In c cols -> stands_for show (fixed k) cols (snd c) i s -> length s <= width show (fixed k) c.
Proof.
  intros (PN & _ & SZ) PL MIX I S. rewrite Forall_forall in PL, SZ. specialize (PL _ I). specialize (SZ _ I). unfold width, value_width.
  enough (G : exists w, maximum_value_width show (snd c) (fixed k) = Ok w /\ length s <= w). { destruct G as (w & -> & G). lia. }
  assert (NS : numeric (snd c) -> ~ has_strings cols) by (intros N H; apply MIX; eauto).
  destruct (snd c) as [u l|u l|l|l|l|l|u x|]; cbn [plain size maximum_value_width stands_for numeric] in *; try contradiction.
  - injection SZ as SZ. destruct l as [|y l]; [cbn in SZ; lia|]. destruct (np_max (y :: l)) as [m|] eqn:E; [|discriminate]. cbn [bind]. eexists. split; [reflexivity|].
    destruct (np_max_fin _ _ PL E) as (r & -> & B). destruct S as (x & N & _ & F & _). rewrite (F (NS Logic.I)). apply nth_error_In in N.
    rewrite Forall_forall in PL. destruct (PL _ N) as (q & -> & _). apply fixed_longer. auto.
  - injection SZ as SZ. destruct l as [|y l]; [cbn in SZ; lia|]. destruct (np_max (map (fun z => Fin (IZR z)) (y :: l))) as [m|] eqn:E; [|discriminate]. cbn [bind]. eexists. split; [reflexivity|].
    assert (FF : Forall (fun y => exists r, y = Fin r /\ (0 <= r)%R) (map (fun z => Fin (IZR z)) (y :: l))).
    { apply Forall_map. eapply Forall_impl; [|exact PL]. intros z Z. exists (IZR z). split; auto. now apply (IZR_le 0). }
    destruct (np_max_fin _ _ FF E) as (r & -> & B). destruct S as (z & N & A & F & G). apply nth_error_In in N.
    assert (BZ : (0 <= IZR z <= r)%R). { apply B. apply in_map_iff. eauto. } assert (Z0 : (0 <= z)%Z) by (apply le_IZR; lra).
    assert (L : length (fixed k (Fin (IZR z))) <= length (fixed k (Fin r))) by (now apply fixed_longer). pose proof (str_shorter k z Z0) as L2.
    destruct (flags_reflect cols) as (FO & FS & FF'). destruct (fst (fst (flags cols))) eqn:EO; [|destruct (snd (flags cols)) eqn:EF].
    + rewrite F; auto. right. now apply FO.
    + rewrite F; auto. left. now apply FF'.
    + rewrite G; [lia| |]; intros X; [apply FF' in X|apply FO in X]; congruence.
  - injection SZ as SZ. destruct l as [|y l]; [cbn in SZ; lia|]. eexists. split; [reflexivity|]. apply nth_error_In in S. apply (longest_in (y :: l)); [reflexivity|auto].
  - injection SZ as SZ. destruct l as [|y l]; [cbn in SZ; lia|]. eexists. split; [reflexivity|]. apply nth_error_In in S. apply (longest_in (y :: l)); [reflexivity|auto].
Qed.
(** Tables of Quantities of finite, non-negative numbers, of objects, and of strings when
    there are no numbers: every entry is as wide as the underline of its column. *)
Theorem C71_aligned_partial :
  forall show d w d', save show d w = (d', Ok tt) ->
    exists ts, d' (file_name w) = Some (document (header w) ts) /\
      forall i l cols k, nth_error (layers w) i = Some l -> data l = Some cols -> data_format l = fixed k ->
        Forall (fun c => plain (snd c)) cols -> ~ (has_strings cols /\ exists c, In c cols /\ numeric (snd c)) ->
        exists widths rows, nth_error ts i = Some (layer_text (subheading l) (parameters l) (Some (table widths (map heading cols) rows))) /\
          length widths = length cols /\ rows <> [] /\ Forall (aligned widths) rows.
Proof.
  intros show d w d' H. unfold save in H. injection H as <- O. apply body_ok in O.
  assert (L : forall l, snd (write_layer show l) = Ok tt -> exists t, wrote (write_layer show l) t /\
    forall cols k, data l = Some cols -> data_format l = fixed k -> Forall (fun c => plain (snd c)) cols -> ~ (has_strings cols /\ exists c, In c cols /\ numeric (snd c)) ->
      exists widths rows, t = layer_text (subheading l) (parameters l) (Some (table widths (map heading cols) rows)) /\ length widths = length cols /\ rows <> [] /\ Forall (aligned widths) rows).
  { intros l H. rewrite layer_ok in H. destruct (data l) as [cols|] eqn:D.
    - specialize (H _ eq_refl). apply data_ok_iff in H. destruct H as (n & R). destruct (data_ok show (data_format l) n cols R) as (rows & W & N & E).
      exists (layer_text (subheading l) (parameters l) (Some (table (map (width show (data_format l)) cols) (map heading cols) rows))). split; [apply wrote_layer; rewrite D; exact W|]. intros cols' k C F PL MIX. injection C as <-. rewrite F in *. eexists _, rows. split; [reflexivity|]. split; [apply map_length|]. split; [destruct rows; [|discriminate]; destruct R as (R & _); cbn in N; lia|].
      apply Forall_forall. intros r I. apply In_nth_error in I. destruct I as (i & I). specialize (E _ _ I).
      assert (G : forall cs r, incl cs cols -> Forall2 (fun c s => stands_for show (fixed k) cols (snd c) i s) cs r -> aligned (map (width show (fixed k)) cs) r).
      { clear - R PL MIX. induction 2; cbn [map]; constructor.
        - apply padded_length. eapply width_enough; eauto. apply H. now left.
        - apply IHForall2. intros c C. apply H. now right. }
      apply G; [apply incl_refl|auto].
    - exists (layer_text (subheading l) (parameters l) None). split; [apply wrote_layer; now rewrite D|]. discriminate. }
  assert (ALL : exists ts, Forall2 (fun l t => wrote (write_layer show l) t /\
    forall cols k, data l = Some cols -> data_format l = fixed k -> Forall (fun c => plain (snd c)) cols -> ~ (has_strings cols /\ exists c, In c cols /\ numeric (snd c)) ->
      exists widths rows, t = layer_text (subheading l) (parameters l) (Some (table widths (map heading cols) rows)) /\ length widths = length cols /\ rows <> [] /\ Forall (aligned widths) rows) (layers w) ts).
  { induction O as [|l ls P _ (ts & A)]; [exists []; auto|]. destruct (L l P) as (t & C). exists (t :: ts). auto. }
  destruct ALL as (ts & A). exists ts. assert (B : Forall2 (fun x t => wrote (write_layer show x) t) (layers w) ts) by (clear - A; induction A as [|? ? ? ? [X _]]; constructor; auto).
  pose proof (wrote_body show w ts B) as [_ T]. rewrite T. split; [apply store_same|]. intros i l cols k N D F PL MIX. clear - A N D F PL MIX.
  revert i N. induction A as [|x t xs ts [_ P] _ IH]; intros [|i] N; cbn [nth_error] in *; try discriminate; [|auto]. injection N as ->. destruct (P cols k D F PL MIX) as (widths & rows & -> & Q). eauto.
Qed.
Lemma fixed_Z k z : fixed k (Fin (IZR z)) =
  (if (z <? 0)%Z then lit "-" else []) ++ let n := (Z.to_N (Z.abs z) * 10 ^ N.of_nat k)%N in str_N (n / 10 ^ N.of_nat k) ++ match k with O => [] | _ => lit "." ++ zfill k (str_N (n mod 10 ^ N.of_nat k)) end.
Proof.
  assert (A : forall y, (0 <= y)%Z -> fixed_abs k (IZR y) = let n := (Z.to_N y * 10 ^ N.of_nat k)%N in str_N (n / 10 ^ N.of_nat k) ++ match k with O => [] | _ => lit "." ++ zfill k (str_N (n mod 10 ^ N.of_nat k)) end).
  { intros y Y. unfold fixed_abs. replace (IZR y * 10 ^ k)%R with (IZR (y * 10 ^ Z.of_nat k)) by (rewrite mult_IZR, <- pow_IZR; reflexivity). rewrite half_even_IZR.
    replace (Z.to_N (y * 10 ^ Z.of_nat k)) with (Z.to_N y * 10 ^ N.of_nat k)%N; [reflexivity|]. rewrite Z2N.inj_mul; [|lia|apply Z.pow_nonneg; lia]. f_equal. rewrite Z2N.inj_pow; [|lia|lia]. f_equal. lia. }
  cbn [fixed]. destruct (Rlt_dec (IZR z) 0) as [L|L].
  - apply lt_IZR in L. rewrite <- opp_IZR, A by lia. destruct (Z.ltb_spec z 0); [|lia]. replace (- z)%Z with (Z.abs z) by lia. reflexivity.
  - apply Rnot_lt_le, le_IZR in L. rewrite A by lia. destruct (Z.ltb_spec z 0); [lia|]. replace (Z.abs z) with z by lia. reflexivity.
Qed.
(** One column of the Quantity -100 km, 1 km: the first entry is three characters wider than
    the underline. *)
Definition east_west : writer := Writer (lit "x.txt") None [Layer None None (Some [(lit "X", QFloats (lit "km") [Fin (-100); Fin 1])]) (fixed 15)].
Theorem C71_negative_refuted :
  forall show d, exists label underline row1 row2,
    snd (save show d east_west) = Ok tt /\
    fst (save show d east_west) (lit "x.txt") = Some (join [newline] [label; underline; row1; row2]) /\
    label = lit "X (km)           " /\ underline = lit "-----------------" /\ row1 = lit "-100.000000000000000" /\ row2 = lit "1.000000000000000" /\
    length row1 <> length underline.
Proof.
  intros. eexists _, _, _, _. split; [|split; [|split; [reflexivity|split; [reflexivity|split; [reflexivity|split; [reflexivity|discriminate]]]]]].
  - apply C70_saves. intros l cols [<-|[]] E. injection E as <-. exists 2. repeat split; try lia; try discriminate. repeat constructor.
  - assert (M : n_max (Fin (-100)) (Fin 1) = Fin 1). { unfold n_max, n_lt. destruct (Rlt_dec (-100) 1); [reflexivity|lra]. }
    assert (A : fixed 15 (Fin (-100)) = lit "-100.000000000000000") by (rewrite (fixed_Z 15 (-100)); vm_compute; reflexivity).
    assert (B : fixed 15 (Fin 1) = lit "1.000000000000000") by (rewrite (fixed_Z 15 1); vm_compute; reflexivity).
    unfold save. cbn [fst]. change (file_name east_west) with (lit "x.txt"). rewrite store_same. f_equal.
    unfold save_body, east_west. cbn [header layers length write_layers Nat.sub Nat.ltb Nat.leb]. unfold write_layer. cbn [subheading parameters data data_format is_some andb orb].
    unfold write_data. cbn [length data_loop]. unfold column_information. cbn [maximum_value_width np_max fold_left bind column_data map]. rewrite M, B. cbn [bind write_rows row_string data_entry_string app]. rewrite A, B. vm_compute. reflexivity.
Qed.
(** An array of floats (no Quantity) is measured by the [str] of its entries, but they are
    written by the format. *)
Definition one_half : writer := Writer (lit "x.txt") None [Layer None None (Some [(lit "p", Floats [Fin 1])]) (fixed 15)].
Theorem C71_array_refuted :
  forall show d, show (Fin 1) = lit "1.0" -> exists label underline row,
    snd (save show d one_half) = Ok tt /\
    fst (save show d one_half) (lit "x.txt") = Some (join [newline] [label; underline; row]) /\
    label = lit "p  " /\ underline = lit "---" /\ row = lit "1.000000000000000" /\ length row <> length underline.
Proof.
  intros show d S. eexists _, _, _. split; [|split; [|split; [reflexivity|split; [reflexivity|split; [reflexivity|discriminate]]]]].
  - apply C70_saves. intros l cols [<-|[]] E. injection E as <-. exists 1. repeat split; try lia; try discriminate. repeat constructor.
  - assert (B : fixed 15 (Fin 1) = lit "1.000000000000000") by (rewrite (fixed_Z 15 1); vm_compute; reflexivity).
    unfold save. cbn [fst]. change (file_name one_half) with (lit "x.txt"). rewrite store_same. f_equal.
    unfold save_body, one_half. cbn [header layers length write_layers Nat.sub Nat.ltb Nat.leb]. unfold write_layer. cbn [subheading parameters data data_format is_some andb orb].
    unfold write_data. cbn [length data_loop]. unfold column_information. cbn [maximum_value_width longest map]. rewrite S. cbn [bind column_data map write_rows row_string data_entry_string app]. rewrite B. vm_compute. reflexivity.
Qed.
Example C71_case : forall show d, exists d', save show d (Writer (lit "x.txt") (Some (lit "H")) [Layer None None (Some [(lit "X", QFloats (lit "km") [Fin 100; Fin 1]); (lit "Site", Objects [lit "a"; lit "bc"])]) (fixed 15)]) = (d', Ok tt) /\
  Forall (fun c => plain (snd c)) [(lit "X", QFloats (lit "km") [Fin 100; Fin 1]); (lit "Site", Objects [lit "a"; lit "bc"])] /\
  ~ has_strings [(lit "X", QFloats (lit "km") [Fin 100; Fin 1]); (lit "Site", Objects [lit "a"; lit "bc"])].
Proof.
  intros. eexists. split; [|split].
  - reflexivity.
  - constructor; [|constructor; [exact Logic.I|constructor]]. constructor; [exists 100%R; split; [reflexivity|lra]|]. constructor; [exists 1%R; split; [reflexivity|lra]|constructor].
  - intros (c & [<-|[<-|[]]] & []).
Qed.

(** ** C72 *)
(** Whatever was in the file, a crash just after it has been opened leaves it empty. *)
Theorem C72_crash_refuted :
  forall show d w, exists d', crash_save show d w d' /\ d' (file_name w) = Some [].
Proof. intros. exists (store d (file_name w) (firstn 0 (concat (fst (save_body show w))))). split; [constructor|apply store_same]. Qed.
(** A save that raises (here: an empty array) has replaced the old file. *)
Definition no_rows : writer := Writer (lit "x.txt") (Some (lit "H")) [Layer None None (Some [(lit "X", QFloats (lit "km") [])]) (fixed 15)].
Theorem C72_exception_refuted :
  forall show d old, d (lit "x.txt") = Some old ->
    snd (save show d no_rows) = Raise ValueError /\
    fst (save show d no_rows) (lit "x.txt") = Some (lit "H" ++ nl ++ lit "=" ++ nl ++ nl).
Proof. intros. split; [reflexivity|]. unfold save. cbn [fst]. change (file_name no_rows) with (lit "x.txt"). now rewrite store_same. Qed.
(** What does hold: at every crash point the file is the old one or begins the text that the
    save writes, which is the document when the save returns; and no other file changes. *)
Theorem C72_crash_partial :
  forall show d w d1 d2 r, save show d w = (d2, r) -> crash_save show d w d1 ->
    (forall other, other <> file_name w -> d1 other = d other) /\
    (d1 (file_name w) = d (file_name w) \/
     exists now later, d1 (file_name w) = Some now /\ d2 (file_name w) = Some (now ++ later)).
Proof.
  intros show d w d1 d2 r S C. unfold save in S. injection S as <- _. destruct C as [|k].
  - auto.
  - split; [intros; now apply store_other|]. right. rewrite !store_same. eexists _, _. split; [reflexivity|]. now rewrite firstn_skipn.
Qed.
(** When a layer fails, the layers before it are complete in the file. *)
Theorem C72_layers_before_partial :
  forall show d w d' r before l after, save show d w = (d', r) -> layers w = before ++ l :: after ->
    (forall x cols, In x before -> data x = Some cols -> exists n, rectangular n cols) ->
    exists ts rest, Forall2 (layer_of show) before ts /\ d' (file_name w) = Some (document (header w) (ts ++ [rest])).
Proof.
  intros show d w d' r before l after S LS OK. unfold save in S. injection S as <- _. rewrite store_same.
  assert (O : Forall (fun x => snd (write_layer show x) = Ok tt) before).
  { apply Forall_forall. intros x I. apply layer_ok. intros cols D. apply data_ok_iff. eauto. }
  destruct (layers_written show _ O) as (ts & A & B). exists ts.
  assert (L : forall b ts n c, Forall2 (fun x t => wrote (write_layer show x) t) b ts -> n = c + length b + S (length after) ->
    exists rest, concat (fst (write_layers show n c (b ++ l :: after))) = join blank (ts ++ [rest])).
  { clear. induction b as [|x b IH]; intros ts n c F ->; inversion F as [|? t ? ts' T F']; subst.
    - cbn [app join]. eauto.
    - cbn [app write_layers length]. destruct (IH ts' (c + S (length b) + S (length after)) (S c) F') as (rest & R); [lia|]. exists rest. rewrite join_cons by (destruct ts'; discriminate).
      assert (LT : Nat.ltb c (c + S (length b) + S (length after) - 1) = true) by (apply Nat.ltb_lt; lia). rewrite LT. destruct T as [X T]. unfold andthen at 1. rewrite X. cbn [fst]. unfold andthen at 1. cbn [write snd fst]. rewrite !concat_app, R, T. cbn [concat]. now rewrite app_nil_r. }
  destruct (L before ts (length (layers w)) 0 B) as (rest & R). { rewrite LS, app_length. cbn [length]. lia. }
  exists rest. split; [auto|]. f_equal. unfold save_body, document. rewrite LS in *.
  assert (NE : ts ++ [rest] <> []) by (destruct ts; discriminate). assert (POS : Nat.ltb 0 (length (before ++ l :: after)) = true) by (apply Nat.ltb_lt; rewrite app_length; cbn; lia). rewrite POS.
  destruct (header w) as [h|]; cbn [option_map option_list app].
  - rewrite join_cons by auto. unfold andthen at 1. cbn [andthen write_header write snd fst]. rewrite concat_app, R. cbn [concat app]. rewrite app_nil_r. now rewrite <- app_assoc.
  - unfold andthen. cbn [nothing snd fst app]. exact R.
Qed.
(** A file whose second layer fails. *)
Example C72_case : forall show d, exists r, save show d (Writer (lit "x.txt") None [Layer (Some (lit "A")) None None (fixed 15); Layer None None (Some []) (fixed 15)]) = (r, Raise UnboundLocalError) /\
  r (lit "x.txt") = Some (lit "A" ++ nl ++ nl).
Proof. intros. eexists. split; reflexivity. Qed.

Print Assumptions C69_file_names.
Print Assumptions C70_layout.
Print Assumptions C70_layers_in_order.
Print Assumptions C70_saves.
Print Assumptions C71_aligned_partial.
Print Assumptions C71_negative_refuted.
Print Assumptions C71_array_refuted.
Print Assumptions C72_crash_refuted.
Print Assumptions C72_exception_refuted.
Print Assumptions C72_crash_partial.
Print Assumptions C72_layers_before_partial.
