(** Facts about strings: splitting on spaces, decimal rendering, and the
    injectivity of the rendering used by celest/units/display.py. *)
From Coq Require Import List ZArith Bool String Ascii Lia.
From Coq Require DecimalString DecimalNat.
From Verif Require Import Py Units_Model.
Import ListNotations.
Open Scope string_scope.

Fixpoint all_chars (f : ascii -> bool) (s : string) : bool :=
  match s with
  | EmptyString => true
  | String c r => andb (f c) (all_chars f r)
  end.

Definition is_space (c : ascii) : bool := Ascii.eqb c " ".
Definition is_digit (c : ascii) : bool :=
  andb (Nat.leb 48 (nat_of_ascii c)) (Nat.leb (nat_of_ascii c) 57).
Definition is_letter (c : ascii) : bool :=
  orb (andb (Nat.leb 65 (nat_of_ascii c)) (Nat.leb (nat_of_ascii c) 90))
      (andb (Nat.leb 97 (nat_of_ascii c)) (Nat.leb (nat_of_ascii c) 122)).
Definition no_space (s : string) : bool := all_chars (fun c => negb (is_space c)) s.

Fixpoint split_sp (s : string) : list string :=
  match s with
  | EmptyString => [EmptyString]
  | String c r =>
      if is_space c then EmptyString :: split_sp r
      else match split_sp r with
           | [] => []
           | t :: ts => String c t :: ts
           end
  end.

Lemma all_chars_app f a b :
  all_chars f (a ++ b) = andb (all_chars f a) (all_chars f b).
Proof. induction a; cbn; auto. rewrite IHa. now rewrite andb_assoc. Qed.

Lemma all_chars_impl f g s :
  (forall c, f c = true -> g c = true) -> all_chars f s = true -> all_chars g s = true.
Proof.
  intros H; induction s; cbn; auto.
  rewrite !andb_true_iff. intros [A B]; auto.
Qed.

Lemma split_sp_nonempty s : split_sp s <> [].
Proof. destruct s; cbn; [congruence|]. destruct (is_space a); [congruence|].
  induction s; cbn; [congruence|]. destruct (is_space a0); [congruence|].
  destruct (split_sp s) eqn:E; [|congruence]. cbn in IHs. auto.
Qed.

Lemma split_sp_token t : no_space t = true -> split_sp t = [t].
Proof.
  induction t; cbn; auto. rewrite andb_true_iff. intros [A B].
  destruct (is_space a); [discriminate|]. now rewrite IHt.
Qed.

Lemma split_sp_cons t s :
  no_space t = true -> split_sp (t ++ (" " ++ s)) = t :: split_sp s.
Proof.
  induction t; intros H; [reflexivity|].
  cbn in H. rewrite andb_true_iff in H. destruct H as [A B].
  change (String a t ++ (" " ++ s)) with (String a (t ++ (" " ++ s))).
  cbn [split_sp]. destruct (is_space a); [discriminate|]. now rewrite IHt.
Qed.

Lemma join_cons t ts : ts <> [] -> join_sp (t :: ts) = t ++ (" " ++ join_sp ts).
Proof. destruct ts; [congruence|]. intros _. reflexivity. Qed.

Lemma split_join l :
  l <> [] -> forallb no_space l = true -> split_sp (join_sp l) = l.
Proof.
  induction l as [|t ts IH]; [congruence|]. intros _ H.
  cbn in H. apply andb_true_iff in H as [A B].
  destruct ts as [|t' ts]; [cbn; now apply split_sp_token|].
  rewrite join_cons by congruence. rewrite split_sp_cons by exact A.
  rewrite IH; auto; congruence.
Qed.

Lemma append_assoc a b c : (a ++ b) ++ c = a ++ (b ++ c).
Proof. induction a; cbn; congruence. Qed.

Lemma append_nil_r a : a ++ "" = a.
Proof. induction a; cbn; congruence. Qed.

Lemma join_app a b :
  a <> [] -> b <> [] -> join_sp (a ++ b)%list = join_sp a ++ (" " ++ join_sp b).
Proof.
  intros Ha Hb. induction a as [|t ts IH]; [congruence|].
  destruct ts as [|t' ts].
  - cbn [app]. rewrite join_cons by exact Hb. reflexivity.
  - cbn [app] in *. rewrite join_cons by congruence.
    rewrite IH by congruence. rewrite (join_cons t (t' :: ts)) by congruence.
    rewrite append_assoc. f_equal.
Qed.

(** Decimal rendering. *)
Lemma digits_uint d : all_chars is_digit (DecimalString.NilEmpty.string_of_uint d) = true.
Proof. induction d; cbn; auto. Qed.

Lemma digits_nat n : all_chars is_digit (nat_str n) = true.
Proof.
  unfold nat_str, DecimalString.NilZero.string_of_uint.
  destruct (Nat.to_uint n) eqn:E; try apply digits_uint. reflexivity.
Qed.

Lemma to_uint_nonnil n : Nat.to_uint n <> Decimal.Nil.
Proof.
  intros H. pose proof (DecimalNat.Unsigned.of_to n) as A. rewrite H in A. cbn in A.
  subst n. discriminate.
Qed.

Lemma nat_str_inj a b : nat_str a = nat_str b -> a = b.
Proof.
  unfold nat_str. intros H.
  assert (Some (Nat.to_uint a) = Some (Nat.to_uint b)) as K.
  { rewrite <- (DecimalString.NilZero.usu _ (to_uint_nonnil a)).
    rewrite <- (DecimalString.NilZero.usu _ (to_uint_nonnil b)). now rewrite H. }
  injection K as K. rewrite <- (DecimalNat.Unsigned.of_to a), <- (DecimalNat.Unsigned.of_to b).
  now rewrite K.
Qed.

Lemma nat_str_nonempty n : nat_str n <> "".
Proof.
  unfold nat_str, DecimalString.NilZero.string_of_uint. destruct (Nat.to_uint n) eqn:E; cbn; congruence.
Qed.

Lemma abs_str_inj a b : abs_str a = abs_str b -> Z.abs a = Z.abs b.
Proof. unfold abs_str. intros H. apply nat_str_inj in H. lia. Qed.

Lemma digits_abs p : all_chars is_digit (abs_str p) = true.
Proof. apply digits_nat. Qed.

Definition suffix (p : Z) : string := if (Z.abs p =? 1)%Z then "" else abs_str p.

Lemma digits_suffix p : all_chars is_digit (suffix p) = true.
Proof. unfold suffix. destruct (Z.abs p =? 1)%Z; [reflexivity|apply digits_abs]. Qed.

Lemma suffix_inj a b : suffix a = suffix b -> Z.abs a = Z.abs b.
Proof.
  unfold suffix. destruct (Z.eqb_spec (Z.abs a) 1), (Z.eqb_spec (Z.abs b) 1); intros H.
  - lia.
  - symmetry in H. now apply nat_str_nonempty in H.
  - now apply nat_str_nonempty in H.
  - now apply abs_str_inj.
Qed.

(** Longest prefix of letters. *)
Fixpoint letters_prefix (s : string) : string :=
  match s with
  | EmptyString => EmptyString
  | String c r => if is_letter c then String c (letters_prefix r) else EmptyString
  end.

Lemma digit_not_letter c : is_digit c = true -> is_letter c = false.
Proof.
  unfold is_digit, is_letter. rewrite andb_true_iff, !Nat.leb_le. intros [A B].
  destruct (Nat.leb 65 (nat_of_ascii c)) eqn:E; [apply Nat.leb_le in E; lia|].
  destruct (Nat.leb 97 (nat_of_ascii c)) eqn:F; [apply Nat.leb_le in F; lia|].
  reflexivity.
Qed.

Lemma letters_prefix_app n d :
  all_chars is_digit d = true -> letters_prefix (n ++ d) = letters_prefix n.
Proof.
  intros H. induction n; cbn.
  - destruct d; auto. cbn in *. apply andb_true_iff in H as [A B].
    now rewrite (digit_not_letter _ A).
  - destruct (is_letter a); congruence.
Qed.

Lemma append_inj_l a b c : a ++ b = a ++ c -> b = c.
Proof. induction a; cbn; auto. intros H. injection H; auto. Qed.

(** The unit short names and dimension letters the code knows. *)
Definition known_names : list string :=
  (map fst unit_to_dimension ++ ["L"; "T"; "D"; "A"])%list.

Definition known (s : string) : Prop := In s known_names.

Lemma known_prefix_inj a b :
  known a -> known b -> letters_prefix a = letters_prefix b -> a = b.
Proof.
  assert (forallb (fun a => forallb (fun b =>
            implb (String.eqb (letters_prefix a) (letters_prefix b)) (String.eqb a b))
            known_names) known_names = true) as H by (vm_compute; reflexivity).
  intros A B E. rewrite forallb_forall in H. specialize (H a A).
  rewrite forallb_forall in H. specialize (H b B). rewrite E, String.eqb_refl in H. cbn in H.
  now apply String.eqb_eq in H.
Qed.

Lemma token_inj n1 p1 n2 p2 :
  known n1 -> known n2 -> power_token n1 p1 = power_token n2 p2 ->
  n1 = n2 /\ Z.abs p1 = Z.abs p2.
Proof.
  unfold power_token. fold (suffix p1) (suffix p2). intros A B H.
  assert (n1 = n2) as ->.
  { apply known_prefix_inj; auto.
    rewrite <- (letters_prefix_app n1 (suffix p1)) by apply digits_suffix.
    rewrite <- (letters_prefix_app n2 (suffix p2)) by apply digits_suffix. now rewrite H. }
  split; auto. apply append_inj_l in H. now apply suffix_inj.
Qed.

(** Tokens made from known names start with a letter and contain no space. *)
Definition starts_letter (s : string) : bool :=
  match s with String c _ => is_letter c | EmptyString => false end.

Lemma known_letter n : known n -> starts_letter n = true /\ no_space n = true.
Proof.
  assert (forallb (fun n => andb (starts_letter n) (no_space n)) known_names = true) as H
    by (vm_compute; reflexivity).
  intros A. rewrite forallb_forall in H. specialize (H n A). now apply andb_true_iff in H.
Qed.

Lemma digit_no_space c : is_digit c = true -> negb (is_space c) = true.
Proof.
  intros H. destruct (is_space c) eqn:E; auto. unfold is_space in E.
  apply Ascii.eqb_eq in E. subst. discriminate.
Qed.

Lemma digits_no_space s : all_chars is_digit s = true -> no_space s = true.
Proof. apply all_chars_impl. apply digit_no_space. Qed.

Lemma token_shape n p :
  known n -> starts_letter (power_token n p) = true /\ no_space (power_token n p) = true.
Proof.
  intros K. destruct (known_letter n K) as [A B]. unfold power_token. fold (suffix p). split.
  - destruct n; cbn in *; auto; discriminate.
  - unfold no_space in *. rewrite all_chars_app, B. cbn.
    apply digits_no_space, digits_suffix.
Qed.

(** Token list of a fraction string. *)
Definition num_list (l : list (string * Z)) : list string :=
  match num_tokens l with [] => ["1"] | t => t end.
Definition den_list (l : list (string * Z)) : list string :=
  match den_tokens l with [] => [] | d => "/" :: d end.

Definition all_known (l : list (string * Z)) : Prop := Forall (fun np => known (fst np)) l.

Lemma num_list_nonempty l : num_list l <> [].
Proof. unfold num_list. destruct (num_tokens l); congruence. Qed.

Lemma fraction_string_tokens l :
  fraction_string "" l = join_sp (num_list l ++ den_list l)%list.
Proof.
  unfold fraction_string, den_list. cbn [append].
  assert (match num_tokens l with [] => "1" | t => join_sp t end = join_sp (num_list l)) as ->.
  { unfold num_list. destruct (num_tokens l); reflexivity. }
  destruct (den_tokens l) as [|d ds] eqn:D.
  - now rewrite app_nil_r.
  - rewrite join_app; [|apply num_list_nonempty|congruence].
    rewrite !join_cons by congruence. reflexivity.
Qed.

Lemma fraction_string_pre sc l :
  fraction_string (sc ++ " ") l = join_sp (sc :: num_list l ++ den_list l)%list.
Proof.
  assert (fraction_string (sc ++ " ") l = sc ++ (" " ++ fraction_string "" l)) as ->.
  { unfold fraction_string. destruct (den_tokens l).
    - destruct (num_tokens l); cbn [append]; rewrite append_assoc; reflexivity.
    - destruct (num_tokens l); cbn [append];
      (rewrite !join_cons by congruence; rewrite !append_assoc; reflexivity). }
  rewrite fraction_string_tokens.
  rewrite join_cons; auto.
  intros H. apply app_eq_nil in H. now apply (num_list_nonempty l).
Qed.

Lemma tokens_in_shape l t :
  all_known l -> In t (num_tokens l) \/ In t (den_tokens l) ->
  starts_letter t = true /\ no_space t = true.
Proof.
  unfold all_known, num_tokens, den_tokens. rewrite Forall_forall. intros K H.
  assert (exists np, In np l /\ t = power_token (fst np) (snd np)) as ([n p] & A & ->).
  { destruct H as [H|H]; apply in_map_iff in H as (np & <- & H); apply filter_In in H as [H _]; eauto. }
  apply token_shape. now apply (K (n, p)).
Qed.

Lemma fraction_tokens_no_space l :
  all_known l -> forallb no_space (num_list l ++ den_list l)%list = true.
Proof.
  intros K. apply forallb_forall. intros t H. apply in_app_or in H.
  assert (In t (num_tokens l) \/ In t (den_tokens l) \/ t = "1" \/ t = "/") as C.
  { unfold num_list, den_list in H. destruct H as [H|H].
    - destruct (num_tokens l); cbn in *; intuition.
    - destruct (den_tokens l); cbn in *; intuition. }
  destruct C as [C|[C|[->| ->]]]; try reflexivity;
  apply (tokens_in_shape l t); auto.
Qed.

Lemma split_slash (a1 b1 a2 b2 : list string) :
  ~ In "/" a1 -> ~ In "/" a2 ->
  (b1 = [] \/ exists d, b1 = "/" :: d) -> (b2 = [] \/ exists d, b2 = "/" :: d) ->
  (a1 ++ b1 = a2 ++ b2)%list -> a1 = a2 /\ b1 = b2.
Proof.
  revert a2. induction a1 as [|x a1 IH]; intros [|y a2] N1 N2 B1 B2 H; cbn in *.
  - auto.
  - subst b1. destruct B1 as [B1|[d B1]]; [discriminate|]. injection B1 as B1 _. subst. tauto.
  - subst b2. destruct B2 as [B2|[d B2]]; [discriminate|]. injection B2 as B2 _. subst. tauto.
  - injection H as -> H. destruct (IH a2) as [-> ->]; auto.
Qed.

Lemma map_token_inj l1 l2 :
  all_known l1 -> all_known l2 ->
  (forall np1 np2, In np1 l1 -> In np2 l2 -> Z.abs (snd np1) = Z.abs (snd np2) -> snd np1 = snd np2) ->
  map (fun np => power_token (fst np) (snd np)) l1 =
  map (fun np => power_token (fst np) (snd np)) l2 -> l1 = l2.
Proof.
  unfold all_known. revert l2. induction l1 as [|[n1 p1] l1 IH]; intros [|[n2 p2] l2] K1 K2 S H;
    cbn in *; try discriminate; auto.
  inversion K1 as [|? ? KA KB]; inversion K2 as [|? ? KC KD]; subst. injection H as E1 E2.
  apply token_inj in E1 as [-> E1]; auto.
  assert (p1 = p2) as -> by (apply (S (n2, p1) (n2, p2)); auto).
  f_equal. apply IH; auto.
Qed.

(** The rendering determines the numerator and the denominator. *)
Lemma fraction_tokens_inj l1 l2 :
  all_known l1 -> all_known l2 ->
  (num_list l1 ++ den_list l1 = num_list l2 ++ den_list l2)%list ->
  filter (fun np => (0 <? snd np)%Z) l1 = filter (fun np => (0 <? snd np)%Z) l2 /\
  filter (fun np => negb (0 <? snd np)%Z) l1 = filter (fun np => negb (0 <? snd np)%Z) l2.
Proof.
  intros K1 K2 H.
  assert (NS : forall l, all_known l -> ~ In "/" (num_list l)).
  { intros l K I. unfold num_list in I. destruct (num_tokens l) eqn:E.
    - cbn in I. destruct I as [I|[]]. discriminate.
    - rewrite <- E in I. destruct (tokens_in_shape l "/" K (or_introl I)). discriminate. }
  apply split_slash in H; auto.
  2,3: unfold den_list; match goal with |- context [den_tokens ?l] => destruct (den_tokens l) end; eauto.
  destruct H as [HN HD].
  assert (num_tokens l1 = num_tokens l2) as EN.
  { unfold num_list in HN.
    destruct (num_tokens l1) eqn:E1, (num_tokens l2) eqn:E2; auto.
    - destruct (tokens_in_shape l2 "1" K2) as [A _].
      { left. rewrite E2. injection HN as <- <-. now left. } discriminate.
    - destruct (tokens_in_shape l1 "1" K1) as [A _].
      { left. rewrite E1. injection HN as -> ->. now left. } discriminate. }
  assert (den_tokens l1 = den_tokens l2) as ED.
  { unfold den_list in HD. destruct (den_tokens l1), (den_tokens l2); congruence. }
  assert (FK : forall l f, all_known l -> all_known (filter f l)).
  { intros l f. unfold all_known. rewrite !Forall_forall. intros K x I.
    apply filter_In in I as [I _]. auto. }
  unfold num_tokens in EN. unfold den_tokens in ED.
  split; (apply map_token_inj; [auto|auto| |auto]);
  intros a b Ia Ib; apply filter_In in Ia as [_ Ia]; apply filter_In in Ib as [_ Ib];
  try rewrite negb_true_iff in *; lia.
Qed.

Lemma fraction_string_inj l1 l2 :
  all_known l1 -> all_known l2 -> fraction_string "" l1 = fraction_string "" l2 ->
  filter (fun np => (0 <? snd np)%Z) l1 = filter (fun np => (0 <? snd np)%Z) l2 /\
  filter (fun np => negb (0 <? snd np)%Z) l1 = filter (fun np => negb (0 <? snd np)%Z) l2.
Proof.
  intros K1 K2 H. rewrite !fraction_string_tokens in H.
  apply fraction_tokens_inj; auto.
  rewrite <- (split_join (num_list l1 ++ den_list l1)), <- (split_join (num_list l2 ++ den_list l2)).
  - now rewrite H.
  - intros E. apply app_eq_nil in E. now apply (num_list_nonempty l2).
  - now apply fraction_tokens_no_space.
  - intros E. apply app_eq_nil in E. now apply (num_list_nonempty l1).
  - now apply fraction_tokens_no_space.
Qed.

(** The scale prefix never looks like a unit token or like "1". *)
Fixpoint has_bar (s : string) : bool :=
  match s with
  | EmptyString => false
  | String c r => orb (Ascii.eqb c "|") (has_bar r)
  end.

Lemma has_bar_app a b : has_bar (a ++ b) = orb (has_bar a) (has_bar b).
Proof. induction a; cbn; auto. rewrite IHa. now rewrite orb_assoc. Qed.

Lemma scale_str_shape q :
  starts_letter (scale_str q) = false /\ no_space (scale_str q) = true /\
  has_bar (scale_str q) = true.
Proof.
  unfold scale_str. set (r := Qreduction.Qred q). set (n := QArith_base.Qnum r).
  set (d := QArith_base.Qden r).
  split; [|split].
  - destruct (n <? 0)%Z; cbn; auto.
    pose proof (digits_abs n) as D. pose proof (nat_str_nonempty (Z.abs_nat n)) as E.
    unfold abs_str in *. destruct (nat_str (Z.abs_nat n)); [congruence|].
    cbn in *. apply andb_true_iff in D as [D _]. now apply digit_not_letter.
  - unfold no_space. rewrite !all_chars_app.
    rewrite (digits_no_space _ (digits_abs n) : all_chars _ _ = true).
    rewrite (digits_no_space _ (digits_abs (Z.pos d)) : all_chars _ _ = true).
    destruct (n <? 0)%Z; reflexivity.
  - rewrite !has_bar_app. cbn. now rewrite !orb_true_r.
Qed.

Lemma compound_string_inj c1 c2 :
  all_known (map (fun bp => (n_name (fst bp), snd bp)) (c_bases c1)) ->
  all_known (map (fun bp => (n_name (fst bp), snd bp)) (c_bases c2)) ->
  compound_string c1 = compound_string c2 ->
  let l1 := map (fun bp => (n_name (fst bp), snd bp)) (c_bases c1) in
  let l2 := map (fun bp => (n_name (fst bp), snd bp)) (c_bases c2) in
  filter (fun np => (0 <? snd np)%Z) l1 = filter (fun np => (0 <? snd np)%Z) l2 /\
  filter (fun np => negb (0 <? snd np)%Z) l1 = filter (fun np => negb (0 <? snd np)%Z) l2.
Proof.
  intros K1 K2. unfold compound_string.
  set (l1 := map _ (c_bases c1)) in *. set (l2 := map _ (c_bases c2)) in *.
  assert (HD : forall sc l rest, all_known l -> starts_letter sc = false -> has_bar sc = true ->
            (sc :: rest)%list = (num_list l ++ den_list l)%list -> False).
  { intros sc l rest K S B E. unfold num_list in E. destruct (num_tokens l) as [|t ts] eqn:N.
    - cbn in E. injection E as -> _. discriminate.
    - cbn in E. injection E as -> _.
      destruct (tokens_in_shape l t K) as [A _]; [left; rewrite N; now left|]. congruence. }
  assert (NE : forall l, (num_list l ++ den_list l <> [])%list).
  { intros l E. apply app_eq_nil in E. now apply (num_list_nonempty l). }
  destruct (scale_str_shape (c_scale c1)) as (S1 & P1 & B1).
  destruct (scale_str_shape (c_scale c2)) as (S2 & P2 & B2).
  pose proof (fraction_tokens_no_space l1 K1) as F1.
  pose proof (fraction_tokens_no_space l2 K2) as F2.
  destruct (QArith_base.Qeq_bool (c_scale c1) _), (QArith_base.Qeq_bool (c_scale c2) _);
    rewrite ?fraction_string_pre, ?fraction_string_tokens; intros H;
    apply (f_equal split_sp) in H;
    rewrite !split_join in H; cbn [forallb]; rewrite ?P1, ?P2; auto; try congruence.
  - apply fraction_tokens_inj; auto.
  - exfalso. symmetry in H. eauto.
  - exfalso. eauto.
  - injection H as _ H. apply fraction_tokens_inj; auto.
Qed.
