(** Proofs about texts. *)
From Coq Require Import String Ascii List ZArith QArith Qpower Bool Lia Lqa.
From Verif Require Import Py StrUtil Units_Model Units_Spec Units_Proofs Units_Algebra Units_Proofs2
  Repr_Model Repr_Spec.
Import ListNotations.
Open Scope Q_scope.
Open Scope list_scope.
Open Scope string_scope.

(** ** Cutting a text at a character *)
Definition clear (c : ascii) (s : string) : bool := all_chars (fun x => negb (Ascii.eqb x c)) s.

Lemma clear_free c s : clear c s = true <-> free c s.
Proof.
  unfold clear, free. induction s as [|a s IH]; cbn; [split; auto|].
  rewrite andb_true_iff, IH, negb_true_iff. destruct (Ascii.eqb_spec a c) as [E|E]; split.
  - intros [? _]. discriminate.
  - intros H. destruct H. now left.
  - intros [_ H] [X|X]; auto.
  - intros H. split; [reflexivity|]. intros X. apply H. now right.
Qed.

Lemma cut c a b x y :
  clear c a = true -> clear c b = true -> a ++ String c x = b ++ String c y -> a = b /\ x = y.
Proof.
  revert b. unfold clear. induction a as [|k a IH]; intros [|k' b] A B H; cbn in *.
  - injection H; auto.
  - injection H as <- _. rewrite Ascii.eqb_refl in B. discriminate.
  - injection H as -> _. rewrite Ascii.eqb_refl in A. discriminate.
  - apply andb_true_iff in A as [_ A]. apply andb_true_iff in B as [_ B].
    injection H as -> H. destruct (IH b A B H) as [-> ->]. auto.
Qed.

Lemma clear_not c a b x : clear c a = true -> a <> b ++ String c x.
Proof.
  unfold clear. intros A ->. rewrite all_chars_app in A. cbn in A.
  rewrite Ascii.eqb_refl, andb_false_r in A. discriminate.
Qed.

Lemma clear_app c a b : clear c (a ++ b) = andb (clear c a) (clear c b).
Proof. apply all_chars_app. Qed.

Lemma clear_digits c s : is_digit c = false -> all_chars is_digit s = true -> clear c s = true.
Proof.
  intros C. apply all_chars_impl. intros x H. apply negb_true_iff.
  destruct (Ascii.eqb_spec x c) as [->|]; [congruence|reflexivity].
Qed.

Lemma clear_join c l : Ascii.eqb " " c = false -> Forall (fun t => clear c t = true) l -> clear c (join_sp l) = true.
Proof.
  intros C H. induction H as [|t l T H IH]; [reflexivity|].
  destruct l as [|t' l]; [exact T|]. rewrite join_cons by discriminate.
  rewrite !clear_app, T, IH. unfold clear. cbn [all_chars]. now rewrite C.
Qed.

(** ** The number in front *)
Lemma scale_str_inj q r : scale_str q = scale_str r -> q == r.
Proof.
  unfold scale_str. intros H. etransitivity; [symmetry; apply Qred_correct|].
  etransitivity; [|apply Qred_correct]. revert H.
  generalize (Qred q) as a. generalize (Qred r) as b. clear q r. intros b a. cbv zeta. rewrite !append_assoc.
  assert (SB : forall z, clear "|" (append (if (z <? 0)%Z then "-" else "") (abs_str z)) = true).
  { intros z. rewrite clear_app. rewrite (clear_digits "|" (abs_str z) eq_refl (digits_abs z)).
    destruct (z <? 0)%Z; reflexivity. }
  intros H. rewrite <- !append_assoc in H.
  rewrite !(append_assoc _ "|" _) in H. cbn [append] in H.
  destruct (cut "|" _ _ _ _ (SB (Qnum a)) (SB (Qnum b)) H) as [HN HD].
  assert (D : Qden a = Qden b) by (apply abs_str_inj in HD; cbn in HD; congruence).
  assert (N : Qnum a = Qnum b).
  { clear H HD D SB.
    assert (X : forall z s, abs_str z = String "-" s -> False).
    { intros z s E. pose proof (digits_abs z) as G. rewrite E in G. discriminate. }
    destruct (Z.ltb_spec (Qnum a) 0), (Z.ltb_spec (Qnum b) 0); cbn [append] in HN.
    - injection HN as HN. apply abs_str_inj in HN. lia.
    - symmetry in HN. now apply X in HN.
    - now apply X in HN.
    - apply abs_str_inj in HN. lia. }
  destruct a, b. cbn in *. subst. reflexivity.
Qed.

Definition names (l : list (named * Z)) : list (string * Z) := map (fun bp => (n_name (fst bp), snd bp)) l.

Lemma compound_scale_inj c1 c2 :
  all_known (names (c_bases c1)) -> all_known (names (c_bases c2)) ->
  compound_string c1 = compound_string c2 -> c_scale c1 == c_scale c2.
Proof.
  intros K1 K2. unfold compound_string. fold (names (c_bases c1)) (names (c_bases c2)).
  set (l1 := names (c_bases c1)) in *. set (l2 := names (c_bases c2)) in *.
  assert (HD : forall sc l rest, all_known l -> starts_letter sc = false -> has_bar sc = true ->
            (sc :: rest)%list = (num_list l ++ den_list l)%list -> False).
  { intros sc l rest K S B E. unfold num_list in E. destruct (num_tokens l) as [|t ts] eqn:N.
    - cbn in E. injection E as -> _. discriminate.
    - cbn in E. injection E as -> _.
      destruct (tokens_in_shape l t K) as [A _]; [left; rewrite N; now left|]. congruence. }
  assert (NE : forall l, (num_list l ++ den_list l <> [])%list).
  { intros l E. apply app_eq_nil in E. now apply (num_list_nonempty l). }
  destruct (scale_str_shape (c_scale c1)) as (S1 & P1 & B1).
  destruct (scale_str_shape (c_scale c2)) as (S2 & P2 & B2).
  pose proof (fraction_tokens_no_space l1 K1) as F1.
  pose proof (fraction_tokens_no_space l2 K2) as F2.
  destruct (Qeq_bool (c_scale c1) 1) eqn:Q1, (Qeq_bool (c_scale c2) 1) eqn:Q2;
    rewrite ?fraction_string_pre, ?fraction_string_tokens; intros H;
    apply (f_equal split_sp) in H;
    rewrite !split_join in H; cbn [forallb]; rewrite ?P1, ?P2; auto; try congruence.
  - apply Qeq_bool_eq in Q1, Q2. now rewrite Q1, Q2.
  - exfalso. symmetry in H. eauto.
  - exfalso. eauto.
  - injection H as H _. now apply scale_str_inj.
Qed.

(** ** A named unit prints like the product of itself *)
Definition as_compound (u : punit) : compound :=
  match u with
  | UN n => mkCompound 1 [(n, 1%Z)] false
  | UC c => c
  end.

Lemma unit_str_compound u : unit_str u = compound_string (as_compound u).
Proof.
  destruct u as [n|c]; [|reflexivity]. unfold compound_string, fraction_string. cbn.
  now rewrite append_nil_r.
Qed.
Lemma as_compound_bases u : c_bases (as_compound u) = unit_bases u.
Proof. now destruct u. Qed.
Lemma as_compound_scale u : c_scale (as_compound u) = shown_factor u.
Proof. now destruct u. Qed.

Lemma predefined_known name : predefined name -> known name.
Proof.
  unfold predefined, known. cbn. intuition (subst; cbn; tauto).
Qed.
Lemma predefined_all_known u : predefined_names u -> all_known (names (unit_bases u)).
Proof.
  unfold predefined_names, all_known, names. rewrite Forall_map. apply Forall_impl.
  intros [n p] H. cbn in *. now apply predefined_known.
Qed.

Lemma si_env env u : sized env u -> si_size u == env_size env (names (unit_bases u)).
Proof.
  destruct u as [n|c]; cbn [sized si_size unit_bases].
  - intros [A _]. cbn. rewrite A. ring.
  - apply env_size_product.
Qed.

Lemma name_exponent_names name l :
  name_exponent name l = fold_right (fun np a => ((if String.eqb name (fst np) then snd np else 0) + a)%Z) 0%Z (names l).
Proof. induction l as [|[n p] l IH]; cbn; auto. now rewrite IH. Qed.
Lemma exponent_filter name f l :
  let s := fold_right (fun np a => ((if String.eqb name (fst np) then snd np else 0) + a)%Z) 0%Z in
  s l = (s (filter f l) + s (filter (fun x => negb (f x)) l))%Z.
Proof.
  induction l as [|[n p] l IH]; cbn in *; [reflexivity|]. rewrite IH.
  destruct (f (n, p)); cbn; lia.
Qed.

Lemma unit_str_same env u v :
  good_unit env u -> good_unit env v -> unit_str u = unit_str v -> same_unit u v.
Proof.
  intros [Su Pu] [Sv Pv] H. rewrite !unit_str_compound in H.
  pose proof (predefined_all_known u Pu) as Ku. pose proof (predefined_all_known v Pv) as Kv.
  rewrite <- (as_compound_bases u) in Ku. rewrite <- (as_compound_bases v) in Kv.
  pose proof (compound_scale_inj _ _ Ku Kv H) as HS.
  destruct (compound_string_inj _ _ Ku Kv H) as [HN HD].
  fold (names (c_bases (as_compound u))) (names (c_bases (as_compound v))) in HN, HD.
  rewrite !as_compound_bases in *. rewrite !as_compound_scale in HS.
  split; [exact HS|]. split.
  - intros name. rewrite !name_exponent_names.
    rewrite (exponent_filter name (fun np => (0 <? snd np)%Z) (names (unit_bases u))).
    rewrite (exponent_filter name (fun np => (0 <? snd np)%Z) (names (unit_bases v))).
    now rewrite HN, HD.
  - rewrite (si_env env u Su), (si_env env v Sv).
    rewrite (env_size_filter env (fun np => (0 <? snd np)%Z) (names (unit_bases u))).
    rewrite (env_size_filter env (fun np => (0 <? snd np)%Z) (names (unit_bases v))).
    now rewrite HN, HD.
Qed.

Lemma repr_unit_str u v : repr_unit u = repr_unit v -> unit_str u = unit_str v.
Proof.
  destruct u as [n|c], v as [n'|c']; cbn -[append]; intros H.
  - now apply append_inj_lr in H.
  - cbn in H. discriminate.
  - cbn in H. discriminate.
  - now apply append_inj_lr in H.
Qed.

(** ** The text of a unit has no comma *)
Lemma known_clear n : known n -> clear "," n = true.
Proof.
  assert (forallb (clear ",") known_names = true) as H by (vm_compute; reflexivity).
  rewrite forallb_forall in H. apply H.
Qed.
Lemma token_clear n p : known n -> clear "," (power_token n p) = true.
Proof.
  intros K. unfold power_token. rewrite clear_app, (known_clear n K).
  destruct (Z.abs p =? 1)%Z; [reflexivity|]. apply clear_digits; [reflexivity|apply digits_abs].
Qed.
Lemma tokens_clear l : all_known l -> Forall (fun t => clear "," t = true) (num_list l ++ den_list l).
Proof.
  intros K.
  assert (T : forall f, Forall (fun t => clear "," t = true) (map (fun np => power_token (fst np) (snd np)) (filter f l))).
  { intros f. rewrite Forall_map. apply Forall_forall. intros [n p] I. apply filter_In in I as [I _].
    apply token_clear. unfold all_known in K. rewrite Forall_forall in K. exact (K _ I). }
  apply Forall_app. split.
  - unfold num_list. pose proof (T (fun np => (0 <? snd np)%Z)) as G. fold (num_tokens l) in G.
    destruct (num_tokens l); [repeat constructor|exact G].
  - unfold den_list. pose proof (T (fun np => negb (0 <? snd np)%Z)) as G. fold (den_tokens l) in G.
    destruct (den_tokens l); [repeat constructor|]. constructor; [reflexivity|exact G].
Qed.

Lemma scale_clear q : clear "," (scale_str q) = true.
Proof.
  unfold scale_str. rewrite !clear_app.
  rewrite !(clear_digits "," _ eq_refl (digits_abs _)).
  destruct (_ <? 0)%Z; reflexivity.
Qed.

Lemma unit_clear u : predefined_names u -> clear "," (unit_str u) = true.
Proof.
  intros P. rewrite unit_str_compound. unfold compound_string.
  pose proof (predefined_all_known u P) as K. rewrite <- as_compound_bases in K.
  unfold names in K. set (l := map _ _) in *.
  pose proof (tokens_clear l K) as T.
  assert (NE : (num_list l ++ den_list l <> [])%list).
  { intros E. apply app_eq_nil in E. now apply (num_list_nonempty l). }
  destruct (Qeq_bool _ _); rewrite ?fraction_string_pre, ?fraction_string_tokens; apply clear_join; auto.
  constructor; auto. apply scale_clear.
Qed.
Lemma repr_clear u : predefined_names u -> clear "," (repr_unit u) = true.
Proof.
  intros P. pose proof (unit_clear u P) as H. destruct u; cbn [repr_unit unit_str] in *; rewrite !clear_app, H; reflexivity.
Qed.

(** ** Quantities *)
Section Num.
Variable num_str : Q -> string.
Hypothesis NT : number_text num_str.

Lemma num_inj x y : num_str x = num_str y -> x == y.
Proof. apply NT. Qed.
Lemma num_space x : clear " " (num_str x) = true.
Proof. apply clear_free. apply NT. Qed.
Lemma num_comma x : clear "," (num_str x) = true.
Proof. apply clear_free. apply NT. Qed.

Lemma same_quantity_intro q r : q_data q == q_data r -> same_unit (q_unit q) (q_unit r) -> same_quantity q r.
Proof.
  intros D U. repeat split; auto; try apply U. unfold si_value. rewrite D. destruct U as (_ & _ & ->). reflexivity.
Qed.

Lemma quantity_str_same env q r :
  good_quantity env q -> good_quantity env r -> quantity_str num_str q = quantity_str num_str r -> same_quantity q r.
Proof.
  intros G1 G2 H. unfold quantity_str in H. rewrite !append_assoc in H. cbn [append] in H.
  destruct (cut " " _ _ _ _ (num_space _) (num_space _) H) as [A B].
  apply same_quantity_intro; [now apply num_inj|]. now apply (unit_str_same env).
Qed.

Lemma quantity_repr_same env q r :
  good_quantity env q -> good_quantity env r -> quantity_repr num_str q = quantity_repr num_str r -> same_quantity q r.
Proof.
  intros G1 G2 H. unfold quantity_repr in H. apply append_inj_l in H. cbn [append] in H.
  destruct (cut "," _ _ _ _ (num_comma _) (num_comma _) H) as [A B].
  injection B as B. apply append_inj_r in B. apply same_quantity_intro; [now apply num_inj|].
  apply (unit_str_same env); auto. now apply repr_unit_str.
Qed.

Lemma quantity_clear env q : good_quantity env q -> clear "," (quantity_str num_str q) = true.
Proof.
  intros [_ P]. unfold quantity_str. rewrite !clear_app, num_comma, (unit_clear _ P). reflexivity.
Qed.

(** ** Locations *)
Lemma place_repr_same env a b x :
  good_quantity env (pl_latitude a) -> good_quantity env (pl_longitude a) -> good_quantity env (pl_height a) ->
  good_quantity env (pl_latitude b) -> good_quantity env (pl_longitude b) -> good_quantity env (pl_height b) ->
  place_repr num_str a = Ok x -> place_repr num_str b = Ok x ->
  same_quantity (pl_latitude a) (pl_latitude b) /\ q_data (pl_longitude a) == q_data (pl_longitude b) /\
  same_quantity (pl_height a) (pl_height b).
Proof.
  intros A1 A2 A3 B1 B2 B3. unfold place_repr.
  assert (T : forall q y, to_ q (q_unit q) = Ok y -> y = q_data q).
  { intros q y. unfold to_, convert_to. destruct (dimension (q_unit q)) as [d|]; cbn [bind rmap]; [|discriminate].
    rewrite !String.eqb_refl. cbn. intros H. now injection H. }
  destruct (to_ (pl_latitude a) _) as [x1|] eqn:X1; cbn [bind]; [|discriminate].
  destruct (to_ (pl_longitude a) _) as [x2|] eqn:X2; cbn [bind]; [|discriminate].
  destruct (to_ (pl_height a) _) as [x3|] eqn:X3; cbn [bind]; [|discriminate].
  intros H. injection H as <-.
  destruct (to_ (pl_latitude b) _) as [y1|] eqn:Y1; cbn [bind]; [|discriminate].
  destruct (to_ (pl_longitude b) _) as [y2|] eqn:Y2; cbn [bind]; [|discriminate].
  destruct (to_ (pl_height b) _) as [y3|] eqn:Y3; cbn [bind]; [|discriminate].
  apply T in X1, X2, X3, Y1, Y2, Y3. subst. intros H. injection H as H.
  cbn [String.concat] in H. apply append_inj_r in H. cbn [append] in H.
  symmetry in H.
  destruct (cut "," _ _ _ _ (num_comma _) (num_comma _) H) as [E1 H1]. injection H1 as H1.
  destruct (cut "," _ _ _ _ (num_comma _) (num_comma _) H1) as [E2 H2]. injection H2 as H2.
  destruct (cut "," _ _ _ _ (num_comma _) (num_comma _) H2) as [E3 H3]. injection H3 as H3.
  destruct (cut "," _ _ _ _ (repr_clear _ (proj2 A1)) (repr_clear _ (proj2 B1)) H3) as [E4 H4]. injection H4 as E5.
  split; [|split].
  - apply same_quantity_intro; [now apply num_inj|]. apply (unit_str_same env); auto. now apply repr_unit_str.
  - now apply num_inj.
  - apply same_quantity_intro; [now apply num_inj|]. apply (unit_str_same env); auto. now apply repr_unit_str.
Qed.
End Num.
