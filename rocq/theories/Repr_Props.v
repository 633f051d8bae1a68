(** The properties of texts (C141-C143). *)
From Coq Require Import String Ascii List ZArith QArith Qpower Bool Lia Lqa.
From Verif Require Import Py StrUtil Units_Model Units_Spec Units_Proofs Units_Algebra Units_Proofs2 Units_Props
  Repr_Model Repr_Spec Repr_Proofs.
Import ListNotations.
Open Scope Q_scope.
Open Scope list_scope.
Open Scope string_scope.

(** ** C141.  The text of a unit reads as the unit that was written.
    Full statement: [reading (eval e) == size e] for every expression, and
    [reading (u_scale k (eval e)) == k * size e].  False for a power of a unit whose size is
    not 1, and for a number times such a unit: the size is shown as well as the name. *)
Theorem C141_power_refuted :
  unit_str (eval (EPow (EName u_km) 2)) = "1000000|1 km2" /\
  si_size (eval (EPow (EName u_km) 2)) == 1000000 /\
  reading (eval (EPow (EName u_km) 2)) == 1000000000000.
Proof. repeat split; vm_compute; reflexivity. Qed.

Theorem C141_multiple_refuted :
  unit_str (u_scale 2 (UN u_km)) = "2000|1 km" /\ reading (u_scale 2 (UN u_km)) == 2000000 /\
  ~ reading (u_scale 2 (UN u_km)) == 2 * size (EName u_km).
Proof. repeat split; vm_compute; try reflexivity. discriminate. Qed.

(** Exactly by how much: the powers 0, 1, 2, ... of a named unit. *)
Theorem C141_power_exact :
  forall n k, (0 <= k)%Z ->
    shown_factor (eval (EPow (EName n) k)) == Qpower (n_scale n) (Z.max 1 k) /\
    forall i, shown_exponent (eval (EPow (EName n) k)) i = exponent (EPow (EName n) k) i.
Proof.
  intros n k K. split; [|intros i; apply eval_exponent; cbn; exact I].
  cbn [eval]. unfold u_pow, mk_compound. rewrite (proj2 (Z.leb_le 0 k) K).
  destruct (Z.eqb_spec k 0) as [->|N]; cbn [shown_factor c_scale].
  - change (Z.max 1 0) with 1%Z. cbn. ring.
  - replace (Z.max 1 k) with k by lia. apply Qmult_1_l.
Qed.
Theorem C141_multiple_exact :
  forall k n, reading (u_scale k (UN n)) == (k * n_scale n) * n_scale n.
Proof. intros. unfold reading. cbn. ring. Qed.

(** The product of two quantities in kilometres prints a million times too large. *)
Theorem C141_product_of_lengths_refuted :
  exists q, q_mul (mkQty 3 (UN u_km)) (OQty (mkQty 2 (UN u_km))) = Ok q /\
    quantity_str scale_str q = "6|1 1000000|1 km2" /\ si_value q == 6 * 1000000.
Proof. eexists. split; [vm_compute; reflexivity|]. split; vm_compute; reflexivity. Qed.

Lemma shown_one e : no_scaled_powers e -> shown_factor (eval e) == 1.
Proof.
  assert (G : forall l, shown_factor (UC (mk_compound 1 l)) == 1 \/ exists n p, l = [(UN n, p)] /\ (0 <= p)%Z).
  { intros l. unfold mk_compound. destruct l as [|[[n|c] p] [|x l]]; try (left; reflexivity).
    destruct (Z.leb_spec 0 p); [right; eauto|left; reflexivity]. }
  induction e as [n|a IHa b IHb|a IHa b IHb|a IHa|a IHa k]; cbn [no_scaled_powers eval]; intros H.
  - reflexivity.
  - unfold u_mul. destruct (is_unity (eval b)); [apply IHa, H|]. destruct (is_unity (eval a)); [apply IHb, H|].
    destruct (G [(eval a, 1%Z); (eval b, 1%Z)]) as [E|(n & p & E & _)]; [exact E|discriminate].
  - unfold u_div. destruct (G [(eval a, 1%Z); (eval b, (-1)%Z)]) as [E|(n & p & E & _)]; [exact E|discriminate].
  - unfold u_inv. destruct (G [(eval a, (-1)%Z)]) as [E|(n & p & E & P)]; [exact E|].
    injection E as _ <-. lia.
  - unfold u_pow. destruct H as [_ [K|S1]].
    + destruct (G [(eval a, k)]) as [E|(n & p & E & P)]; [exact E|]. injection E as _ <-. lia.
    + destruct (eval a) as [n|c] eqn:Ea.
      * unfold mk_compound. specialize (S1 n eq_refl). destruct (0 <=? k)%Z; [|reflexivity].
        destruct (k =? 0)%Z; cbn [shown_factor c_scale]; rewrite S1; [ring|]. rewrite Qpower_1. ring.
      * reflexivity.
Qed.

Theorem C141_text_reads_partial :
  forall reg e, (forall i, ~ n_scale (reg i) == 0) -> from_registry reg e ->
    safe_divisions e -> no_scaled_powers e ->
    reading (eval e) == size e.
Proof.
  intros reg e NZ R S P. unfold reading. rewrite (shown_one e P), <- si_size_bases.
  rewrite (eval_size reg NZ e) by auto. ring.
Qed.

(** A number times a product, quotient or power reads right: here [k * (km ** 2)] does. *)
Theorem C141_multiple_of_product_partial :
  forall reg e k c, (forall i, ~ n_scale (reg i) == 0) -> from_registry reg e -> safe_divisions e ->
    eval e = UC c ->
    reading (u_scale k (eval e)) == k * size e.
Proof.
  intros reg e k c NZ R S E. unfold reading.
  assert (F : shown_factor (u_scale k (eval e)) == k) by (rewrite E; reflexivity).
  assert (Z : si_size (u_scale k (eval e)) == si_size (eval e)).
  { rewrite !si_size_bases. rewrite !(product_total reg).
    - etransitivity; [apply (ut_mk1 Q Qeq Qmult 1 Qpower (QW reg));
        auto using QW_add, QW_0, Qpw_op, Qpw_1, Qpw_W, wf_eval, Qmult_comm, Qmult_assoc, Qmult_1_l|].
      cbn. reflexivity.
    - now apply reg_eval.
    - apply reg_mk. cbn. intros u j [I|[]]. injection I as <- <-. now apply reg_eval. }
  rewrite F, <- si_size_bases, Z, (eval_size reg NZ e) by auto. reflexivity.
Qed.

Example C141_example :
  let e := EDiv (EMul (EName u_km) (EPow (EName u_m) 2)) (EName u_hr) in
  safe_divisions e /\ from_registry std_reg e /\ no_scaled_powers e /\
  unit_str (eval e) = "km m2 / hr" /\ reading (eval e) == 10 # 36 /\
  unit_str (u_scale 5 (eval e)) = "5|1 km m2 / hr".
Proof.
  split; [cbn; repeat split; left; eexists; reflexivity|].
  split; [cbn; repeat split; discriminate|].
  split.
  { cbn [no_scaled_powers eval]. repeat split. right. intros n H. injection H as <-. reflexivity. }
  repeat split; vm_compute; reflexivity.
Qed.

(** ** C142.  Quantities with the same text are the same quantity. *)
Theorem C142_quantity_text :
  forall env num_str, number_text num_str ->
  forall q r, good_quantity env q -> good_quantity env r ->
    quantity_str num_str q = quantity_str num_str r \/ quantity_repr num_str q = quantity_repr num_str r ->
    same_quantity q r.
Proof.
  intros env num_str NT q r G1 G2 [H|H];
    [now apply (quantity_str_same num_str NT env)|now apply (quantity_repr_same num_str NT env)].
Qed.

Theorem C142_unit_text :
  forall env u v, good_unit env u -> good_unit env v ->
    unit_str u = unit_str v \/ repr_unit u = repr_unit v -> same_unit u v.
Proof.
  intros env u v G1 G2 [H|H]; apply (unit_str_same env); auto. now apply repr_unit_str.
Qed.

(** Equal numbers in equal units (built separately) print the same, so the text is a test of
    sameness and not only a one-way hint. *)
Theorem C142_named_text_complete :
  forall num_str x a b, n_name a = n_name b ->
    quantity_str num_str (mkQty x (UN a)) = quantity_str num_str (mkQty x (UN b)) /\
    quantity_repr num_str (mkQty x (UN a)) = quantity_repr num_str (mkQty x (UN b)).
Proof. intros num_str x a b H. unfold quantity_str, quantity_repr. cbn. now rewrite H. Qed.

(** The text of a number used in the examples meets the hypothesis. *)
Lemma scale_str_text : number_text scale_str.
Proof.
  split; [exact scale_str_inj|]. intros x. split.
  - apply clear_free. destruct (scale_str_shape x) as (_ & H & _). exact H.
  - apply clear_free. apply scale_clear.
Qed.

Lemma table_good : forall n, In n unit_table -> good_unit std_env (UN n).
Proof.
  intros n H. split; [now apply std_sized|]. unfold predefined_names. cbn [unit_bases].
  constructor; [|constructor]. cbn [fst]. unfold predefined.
  cbn [unit_table In] in H. repeat (destruct H as [<-|H]; [cbn; tauto|]). destruct H.
Qed.

Example C142_example :
  let q := mkQty (5 # 2) (eval (EDiv (EName u_km) (EPow (EName u_s) 2))) in
  number_text scale_str /\ good_quantity std_env q /\
  quantity_str scale_str q = "5|2 km / s2" /\
  quantity_repr scale_str q = "Quantity(5|2, CompoundUnit(""km / s2""))".
Proof.
  split; [exact scale_str_text|]. split; [|split; vm_compute; reflexivity].
  assert (B : unit_bases (eval (EDiv (EName u_km) (EPow (EName u_s) 2))) = [(u_km, 1%Z); (u_s, (-2)%Z)])
    by (vm_compute; reflexivity).
  split.
  - unfold q_unit. apply (sized_eval std_env std_reg); [exact std_reg_sized|]. cbn; repeat split; discriminate.
  - unfold predefined_names, q_unit. rewrite B. unfold predefined.
    constructor; [cbn; tauto|]. constructor; [cbn; tauto|]. constructor.
Qed.

(** ** C143.  Locations, windows and collections with the same text are the same. *)
Theorem C143_location_text :
  forall env num_str, number_text num_str ->
  forall lat lon h ang len lat' lon' h' ang' len' a b x,
    good_unit env ang -> good_unit env len -> good_unit env ang' -> good_unit env len' ->
    new_place lat lon h ang len = Ok a -> new_place lat' lon' h' ang' len' = Ok b ->
    place_repr num_str a = Ok x -> place_repr num_str b = Ok x ->
    lat == lat' /\ lon == lon' /\ h == h' /\ same_unit ang ang' /\ same_unit len len'.
Proof.
  intros env num_str NT lat lon h ang len lat' lon' h' ang' len' a b x G1 G2 G3 G4 A B X Y.
  unfold new_place in A, B.
  destruct (_ || _); [discriminate|]. destruct (_ || _); [discriminate|]. injection A as <-.
  destruct (_ || _); [discriminate|]. destruct (_ || _); [discriminate|]. injection B as <-.
  destruct (place_repr_same num_str NT env (mkPlace (mkQty lat ang) (mkQty lon ang) (mkQty h len))
    (mkPlace (mkQty lat' ang') (mkQty lon' ang') (mkQty h' len')) x G1 G1 G2 G3 G3 G4 X Y) as (P & Q & R).
  cbn [pl_latitude pl_longitude pl_height q_data] in *.
  destruct P as (P1 & P2 & _). destruct R as (R1 & R2 & _). cbn [q_data q_unit] in *. auto.
Qed.

(** The text exists whenever the units have a dimension. *)
Theorem C143_location_text_exists :
  forall num_str lat lon h ang len a d e,
    new_place lat lon h ang len = Ok a -> dimension ang = Ok d -> dimension len = Ok e ->
    exists x, place_repr num_str a = Ok x.
Proof.
  intros num_str lat lon h ang len a d e A D E. unfold new_place in A.
  destruct (_ || _); [discriminate|]. destruct (_ || _); [discriminate|]. injection A as <-.
  unfold place_repr, to_, convert_to. cbn [pl_latitude pl_longitude pl_height q_unit q_data].
  rewrite D, E. cbn [bind]. rewrite !String.eqb_refl. cbn [negb rmap bind]. eauto.
Qed.

Section Windows.
Context {A L : Type}.
Variables (env : string -> Q) (num_str : Q -> string) (att_str : A -> string) (loc_str : L -> string).
Hypotheses (NT : number_text num_str) (AT : plain_text att_str) (LT : plain_text loc_str).

Local Lemma plain_clear {T} (str : T -> string) x : plain_text str -> clear "," (str x) = true /\ clear ")" (str x) = true.
Proof. intros P. destruct (P x). split; now apply clear_free. Qed.

Local Lemma window_cut (a b : @window A L) t1 t2 :
  good_window env a -> good_window env b ->
  window_repr num_str att_str loc_str a ++ t1 = window_repr num_str att_str loc_str b ++ t2 ->
  same_window att_str loc_str a b /\ t1 = t2.
Proof.
  destruct a as [v|v], b as [w|w]; cbn [window_repr good_window same_window];
    unfold visible_repr, observed_repr; intros Ga Gb H; rewrite ?append_assoc in H.
  - apply append_inj_l in H. rewrite ?append_assoc in H. cbn [append] in H.
    destruct (cut "," _ _ _ _ (num_comma _ NT _) (num_comma _ NT _) H) as [E1 H1]. injection H1 as H1.
    rewrite ?append_assoc in H1. cbn [append] in H1.
    destruct (cut "," _ _ _ _ (num_comma _ NT _) (num_comma _ NT _) H1) as [E2 H2]. injection H2 as H2.
    rewrite ?append_assoc in H2. cbn [append] in H2.
    destruct (cut ")" _ _ _ _ (proj2 (plain_clear _ _ AT)) (proj2 (plain_clear _ _ AT)) H2) as [E3 H3].
    repeat split; auto; now apply (num_inj num_str NT).
  - cbn in H. discriminate.
  - cbn in H. discriminate.
  - destruct Ga as [Ga1 Ga2], Gb as [Gb1 Gb2].
    apply append_inj_l in H. rewrite ?append_assoc in H. cbn [append] in H.
    destruct (cut "," _ _ _ _ (quantity_clear _ NT _ _ Ga1) (quantity_clear _ NT _ _ Gb1) H) as [E1 H1]. injection H1 as H1.
    rewrite ?append_assoc in H1. cbn [append] in H1.
    destruct (cut "," _ _ _ _ (quantity_clear _ NT _ _ Ga2) (quantity_clear _ NT _ _ Gb2) H1) as [E2 H2]. injection H2 as H2.
    rewrite ?append_assoc in H2. cbn [append] in H2.
    destruct (cut "," _ _ _ _ (proj1 (plain_clear _ _ LT)) (proj1 (plain_clear _ _ LT)) H2) as [E3 H3]. injection H3 as H3.
    rewrite ?append_assoc in H3. cbn [append] in H3.
    destruct (cut ")" _ _ _ _ (proj2 (plain_clear _ _ AT)) (proj2 (plain_clear _ _ AT)) H3) as [E4 H4].
    split; [|exact H4].
    split; [now apply (quantity_str_same num_str NT env)|]. split; [now apply (quantity_str_same num_str NT env)|]. auto.
Qed.

Local Lemma first_char (w : @window A L) t : exists s, window_repr num_str att_str loc_str w ++ t = String "V" s \/
  window_repr num_str att_str loc_str w ++ t = String "O" s.
Proof. destruct w; cbn; eexists; auto. Qed.

Local Lemma concat_cons (t : string) l : String.concat ", " (t :: l) =
  match l with [] => t | _ => t ++ (", " ++ String.concat ", " l) end.
Proof. destruct l; reflexivity. Qed.

Local Lemma collection_same c l1 l2 :
  c <> ","%char -> c <> "V"%char -> c <> "O"%char ->
  Forall (good_window env) l1 -> Forall (good_window env) l2 ->
  String.concat ", " (map (window_repr num_str att_str loc_str) l1) ++ String c "" =
  String.concat ", " (map (window_repr num_str att_str loc_str) l2) ++ String c "" ->
  Forall2 (same_window att_str loc_str) l1 l2.
Proof.
  intros C1 C2 C3 G1. revert l2. induction G1 as [|a l1 Ga G1 IH]; intros [|b l2] G2 H.
  - constructor.
  - exfalso. cbn [map] in H. rewrite concat_cons in H. cbn [String.concat append] in H.
    destruct (map _ l2) as [|z zs]; [|rewrite append_assoc in H];
      match type of H with _ = window_repr _ _ _ b ++ ?t => destruct (first_char b t) as (s & [E|E]) end; congruence.
  - exfalso. cbn [map] in H. rewrite concat_cons in H. cbn [String.concat append] in H.
    destruct (map _ l1) as [|z zs]; [|rewrite append_assoc in H];
      match type of H with window_repr _ _ _ a ++ ?t = _ => destruct (first_char a t) as (s & [E|E]) end; congruence.
  - inversion G2 as [|? ? Gb G2']; subst. cbn [map] in H. rewrite !concat_cons in H.
    destruct l1 as [|a' l1], l2 as [|b' l2]; cbn [map] in H; rewrite ?append_assoc in H.
    + destruct (window_cut a b _ _ Ga Gb H) as [S _]. constructor; [exact S|constructor].
    + destruct (window_cut a b _ _ Ga Gb H) as [_ T]. cbn in T. congruence.
    + destruct (window_cut a b _ _ Ga Gb H) as [_ T]. cbn in T. congruence.
    + destruct (window_cut a b _ _ Ga Gb H) as [S T]. constructor; [exact S|].
      apply IH; [exact G2'|]. cbn [map]. rewrite ?append_assoc in T. cbn [append] in T. now injection T.
Qed.

Theorem C143_collection_text :
  forall l1 l2, Forall (good_window env) l1 -> Forall (good_window env) l2 ->
    collection_str num_str att_str loc_str l1 = collection_str num_str att_str loc_str l2 \/
    collection_repr num_str att_str loc_str l1 = collection_repr num_str att_str loc_str l2 ->
    Forall2 (same_window att_str loc_str) l1 l2.
Proof.
  intros l1 l2 G1 G2 [H|H].
  - apply append_inj_l in H. apply (collection_same "]"); auto; discriminate.
  - apply append_inj_l in H. apply (collection_same ")"); auto; discriminate.
Qed.

Theorem C143_visible_text :
  forall r s r' s' (x y : A),
    visible_str num_str att_str (new_visible r s x) = visible_str num_str att_str (new_visible r' s' y) ->
    r == r' /\ s == s' /\ att_str x = att_str y.
Proof.
  intros r s r' s' x y H. unfold visible_str in H. cbn [new_visible v_rise v_set v_att] in H.
  apply append_inj_l in H. unfold quantity_str in H. cbn [q_data q_unit unit_str u_jd2000 new_unit n_name] in H.
  rewrite ?append_assoc in H. cbn [append] in H.
  destruct (cut " " _ _ _ _ (num_space _ NT _) (num_space _ NT _) H) as [E1 H1].
  repeat (injection H1 as H1). rewrite ?append_assoc in H1. cbn [append] in H1.
  destruct (cut " " _ _ _ _ (num_space _ NT _) (num_space _ NT _) H1) as [E2 H2].
  repeat (injection H2 as H2). repeat split; auto; now apply (num_inj num_str NT).
Qed.

Theorem C143_observed_text :
  forall v w : @observed A L, good_window env (Obs v) -> good_window env (Obs w) ->
    observed_str num_str att_str loc_str v = observed_str num_str att_str loc_str w ->
    same_window att_str loc_str (Obs v) (Obs w).
Proof.
  intros v w [Ga1 Ga2] [Gb1 Gb2] H. unfold observed_str in H.
  apply append_inj_l in H. cbn [append] in H.
  destruct (cut "," _ _ _ _ (quantity_clear _ NT _ _ Ga1) (quantity_clear _ NT _ _ Gb1) H) as [E1 H1].
  repeat (injection H1 as H1).
  destruct (cut "," _ _ _ _ (quantity_clear _ NT _ _ Ga2) (quantity_clear _ NT _ _ Gb2) H1) as [E2 H2].
  repeat (injection H2 as H2).
  destruct (cut "," _ _ _ _ (proj1 (plain_clear _ _ LT)) (proj1 (plain_clear _ _ LT)) H2) as [E3 H3].
  repeat (injection H3 as H3).
  split; [now apply (quantity_str_same num_str NT env)|]. split; [now apply (quantity_str_same num_str NT env)|]. auto.
Qed.
End Windows.

(** The values stand after their names and in the order of the constructor's arguments. *)
Theorem C143_fields :
  forall (A L : Type) num_str (att_str : A -> string) (loc_str : L -> string) r s (x : A),
    visible_str num_str att_str (new_visible r s x) =
      "Rise time: " ++ num_str r ++ " jd2000, Set time: " ++ num_str s ++ " jd2000, Attitude: " ++ att_str x /\
    collection_repr num_str att_str loc_str [Vis (new_visible r s x)] =
      "WindowCollection(VisibleTimeWindow(" ++ num_str r ++ ", " ++ num_str s ++ ", " ++ att_str x ++ "))" /\
    forall lat lon h n m a, new_place lat lon h (UN n) (UN m) = Ok a ->
      forall d e, dimension (UN n) = Ok d -> dimension (UN m) = Ok e ->
      place_repr num_str a =
        Ok ("GroundLocation(" ++ num_str lat ++ ", " ++ num_str lon ++ ", " ++ num_str h ++
            ", Unit(""" ++ n_name n ++ """), Unit(""" ++ n_name m ++ """))").
Proof.
  intros A L num_str att_str loc_str r s x. split; [|split].
  - unfold visible_str, quantity_str. cbn [new_visible v_rise v_set v_att q_data q_unit unit_str u_jd2000 new_unit n_name].
    rewrite ?append_assoc. reflexivity.
  - unfold collection_repr. cbn [map String.concat window_repr]. unfold visible_repr.
    cbn [new_visible v_rise v_set v_att q_data]. rewrite ?append_assoc. reflexivity.
  - intros lat lon h n m a A1 d e D E. unfold new_place in A1.
    destruct (_ || _); [discriminate|]. destruct (_ || _); [discriminate|]. injection A1 as <-.
    unfold place_repr, to_, convert_to. cbn [pl_latitude pl_longitude pl_height q_unit q_data].
    rewrite D, E. cbn [bind]. rewrite !String.eqb_refl. cbn [negb rmap bind q_data].
    cbn [String.concat repr_unit]. rewrite ?append_assoc. reflexivity.
Qed.

Example C143_example :
  let att (n : nat) := append "<Attitude object at " (append (nat_str n) ">") in
  let loc (n : nat) := append (nat_str n) "N" in
  let w1 := Obs (mkObserved (mkQty 8000 (UN u_jd2000)) (mkQty 30 (UN u_s)) 52%nat 7%nat) in
  let w2 := Obs (mkObserved (mkQty (16001 # 2) (UN u_jd2000)) (mkQty 1 (UN u_min)) 53%nat 7%nat) in
  Forall (good_window std_env) [w1; w2] /\ plain_text att /\ plain_text loc /\
  collection_str scale_str att loc [w1; w2] =
    "[ObservationWindow(8000|1 jd2000, 30|1 s, 52N, <Attitude object at 7>), ObservationWindow(16001|2 jd2000, 1|1 min, 53N, <Attitude object at 7>)]" /\
  exists a x, new_place 52 (-106) (1 # 2) (UN u_deg) (UN u_km) = Ok a /\
    place_repr scale_str a = Ok x /\
    x = "GroundLocation(52|1, -106|1, 1|2, Unit(""deg""), Unit(""km""))".
Proof.
  cbv zeta.
  assert (D : forall c n, is_digit c = false -> clear c (nat_str n) = true).
  { intros c n C. apply clear_digits; [exact C|apply digits_nat]. }
  split.
  { repeat apply Forall_cons; [| |apply Forall_nil]; (split; [apply table_good; cbn; tauto|apply table_good; cbn; tauto]). }
  split; [intros n; split; apply clear_free; rewrite !clear_app, D; reflexivity|].
  split; [intros n; split; apply clear_free; rewrite !clear_app, D; reflexivity|].
  split; [vm_compute; reflexivity|].
  eexists. eexists. split; [vm_compute; reflexivity|]. split; [|reflexivity]. vm_compute. reflexivity.
Qed.

Print Assumptions C141_power_refuted.
Print Assumptions C141_multiple_refuted.
Print Assumptions C141_power_exact.
Print Assumptions C141_multiple_exact.
Print Assumptions C141_product_of_lengths_refuted.
Print Assumptions C141_text_reads_partial.
Print Assumptions C141_multiple_of_product_partial.
Print Assumptions C142_quantity_text.
Print Assumptions C142_unit_text.
Print Assumptions C142_named_text_complete.
Print Assumptions C143_location_text.
Print Assumptions C143_location_text_exists.
Print Assumptions C143_collection_text.
Print Assumptions C143_visible_text.
Print Assumptions C143_observed_text.
Print Assumptions C143_fields.
