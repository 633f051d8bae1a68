(** Proofs about the units model. *)
From Coq Require Import List ZArith QArith Qpower Qfield Lqa Bool String Ascii Lia Setoid.
From Verif Require Import Py StrUtil Units_Model Units_Spec.
Import ListNotations.
Open Scope string_scope.

(** ** Sizes are positive and computed by [_get_unit_scale]. *)
Lemma Qpower_pos_lt (s : Q) (p : Z) : 0 < s -> 0 < Qpower s p.
Proof. intros H. now apply Qpower_0_lt. Qed.

Lemma product_size_pos env l :
  Forall (fun bp => sized_named env (fst bp)) l -> 0 < product_size l.
Proof.
  induction l as [|[n p] l IH]; intros H; cbn; [reflexivity|].
  inversion H as [|? ? A B]; subst. destruct A as [_ A]. cbn in A.
  apply Qmult_lt_0_compat; auto. now apply Qpower_0_lt.
Qed.

Lemma si_size_pos env u : sized env u -> 0 < si_size u.
Proof. destruct u; cbn; [intros [_ H]; auto|]. apply product_size_pos. Qed.

Lemma bases_scale_ok env l s :
  Forall (fun bp => sized_named env (fst bp)) l ->
  exists t, bases_scale l s = Ok t /\ t == s * product_size l.
Proof.
  revert s. induction l as [|[n p] l IH]; intros s H; cbn.
  - exists s. split; auto. ring.
  - inversion H as [|? ? A B]; subst. destruct A as [_ A]. cbn in A.
    unfold py_pow. assert (Qeq_bool (n_scale n) 0 = false) as ->.
    { apply not_true_iff_false. rewrite Qeq_bool_iff. intros E. rewrite E in A. now apply Qlt_irrefl in A. }
    cbn. destruct (IH (s * Qpower (n_scale n) p) B) as (t & -> & T).
    exists t. split; auto. rewrite T. ring.
Qed.

Lemma get_unit_scale_ok env u :
  sized env u -> exists t, get_unit_scale u = Ok t /\ t == si_size u.
Proof.
  destruct u; cbn.
  - intros _. eexists; split; reflexivity.
  - intros H. destruct (bases_scale_ok env (c_bases c) 1 H) as (t & A & B).
    exists t. split; auto. rewrite B. ring.
Qed.

(** ** Dimensions *)
Local Arguments unit_to_dimension : simpl never.
Local Opaque unit_to_dimension.
Lemma dict_get_known name d : dict_get unit_to_dimension name = Ok d -> known name.
Proof.
  unfold known, known_names. intros H. apply in_or_app. left.
  revert H. generalize unit_to_dimension as t.
  induction t as [|[k v] t IH]; cbn; [discriminate|].
  destruct (String.eqb_spec name k); [subst; auto|]. auto.
Qed.

Lemma dims_loop_known l acc out : dims_loop l acc = Ok out -> all_known l.
Proof.
  unfold all_known. revert acc. induction l as [|[n p] l IH]; intros acc H; [constructor|].
  cbn [dims_loop] in H. destruct (dict_get unit_to_dimension n) eqn:E; cbn [bind] in H; [|discriminate].
  destruct (dim_step a p acc); cbn [bind] in H; [|discriminate].
  constructor; eauto. cbn. eapply dict_get_known; eauto.
Qed.

Lemma dimension_known u d : dimension u = Ok d -> all_known (base_names u).
Proof.
  unfold dimension, get_dimensions. destruct (dims_loop (base_names u) []) eqn:E; [|intros H; discriminate H].
  intros _. eapply dims_loop_known; eauto.
Qed.

Lemma str_length_app a b : String.length (a ++ b) = (String.length a + String.length b)%nat.
Proof. induction a; cbn; auto. Qed.

Lemma append_inj_r a b s : a ++ s = b ++ s -> a = b.
Proof.
  revert b. induction a; intros [|c b] H; cbn in *; auto.
  - exfalso. apply (f_equal String.length) in H. cbn in H. rewrite str_length_app in H. lia.
  - exfalso. apply (f_equal String.length) in H. cbn in H. rewrite str_length_app in H. lia.
  - injection H as -> H. f_equal. auto.
Qed.

(** ** Equal representations have equal sizes *)
Fixpoint env_size (env : string -> Q) (l : list (string * Z)) : Q :=
  match l with
  | [] => 1
  | (n, p) :: r => Qpower (env n) p * env_size env r
  end.

Lemma env_size_product env l :
  Forall (fun bp => sized_named env (fst bp)) l ->
  product_size l == env_size env (map (fun bp => (n_name (fst bp), snd bp)) l).
Proof.
  induction l as [|[n p] l IH]; intros H; cbn; [reflexivity|].
  inversion H as [|? ? A B]; subst. destruct A as [A _]. cbn in A. rewrite A, IH by auto. reflexivity.
Qed.

Lemma env_size_filter env f l :
  env_size env l == env_size env (filter f l) * env_size env (filter (fun x => negb (f x)) l).
Proof.
  induction l as [|[n p] l IH]; cbn; [ring|].
  rewrite IH. destruct (f (n, p)); cbn; ring.
Qed.

Lemma append_inj_lr pre a b post :
  pre ++ (a ++ post) = pre ++ (b ++ post) -> a = b.
Proof. intros H. apply append_inj_l in H. now apply append_inj_r in H. Qed.

Lemma repr_same_size env u v du dv :
  sized env u -> sized env v -> dimension u = Ok du -> dimension v = Ok dv ->
  repr_unit u = repr_unit v -> si_size u == si_size v.
Proof.
  intros Su Sv Du Dv H. destruct u as [n|c], v as [n'|c']; cbn -[append] in H.
  - apply append_inj_lr in H. cbn in Su, Sv. destruct Su as [A _], Sv as [B _]. cbn [si_size]. rewrite A, B, H. reflexivity.
  - cbn in H. discriminate.
  - cbn in H. discriminate.
  - apply append_inj_lr in H. cbn in Su, Sv. cbn [si_size].
    rewrite (env_size_product env (c_bases c)) by auto.
    rewrite (env_size_product env (c_bases c')) by auto.
    apply dimension_known in Du, Dv. cbn in Du, Dv.
    destruct (compound_string_inj c c' Du Dv H) as [HN HD].
    rewrite (env_size_filter env (fun np => (0 <? snd np)%Z) (map _ (c_bases c))).
    rewrite (env_size_filter env (fun np => (0 <? snd np)%Z) (map _ (c_bases c'))).
    now rewrite HN, HD.
Qed.

Lemma base_names_copy cp u : base_names (copy_unit cp u) = base_names u.
Proof. destruct u; cbn; auto. now rewrite map_map. Qed.

Lemma dimension_copy cp u : dimension (copy_unit cp u) = dimension u.
Proof. unfold dimension, get_dimensions. now rewrite base_names_copy. Qed.

Lemma repr_copy cp u : repr_unit (copy_unit cp u) = repr_unit u.
Proof. destruct u; cbn; auto. unfold compound_string. cbn. now rewrite map_map. Qed.

Lemma si_size_copy cp u : si_size (copy_unit cp u) = si_size u.
Proof. destruct u; cbn; auto. induction (c_bases c) as [|[n p] l IH]; cbn; congruence. Qed.

Lemma sized_copy env cp u : sized env u -> sized env (copy_unit cp u).
Proof.
  destruct u; cbn; auto. rewrite !Forall_forall. intros H x I.
  apply in_map_iff in I as ([n p] & <- & I). apply (H (n, p) I).
Qed.

(** ** Conversion *)
Lemma convert_to_spec env cp q v d :
  sized env (q_unit q) -> sized env v ->
  dimension (q_unit q) = Ok d -> dimension v = Ok d ->
  exists q', convert_to cp q v = Ok q' /\ si_value q' == si_value q /\
             repr_unit (q_unit q') = repr_unit v /\
             dimension (q_unit q') = Ok d /\ sized env (q_unit q') /\
             si_size (q_unit q') == si_size v.
Proof.
  intros Su Sv Du Dv. unfold convert_to. rewrite Du, Dv. cbn [bind].
  rewrite String.eqb_refl. cbn [negb].
  destruct (String.eqb_spec (repr_unit (q_unit q)) (repr_unit v)) as [E|E]; cbn [negb].
  - eexists; split; [reflexivity|]. unfold si_value. cbn.
    rewrite repr_copy, dimension_copy, si_size_copy.
    repeat split; auto; try reflexivity.
    + now apply sized_copy.
    + now apply (repr_same_size env (q_unit q) v d d).
  - destruct (get_unit_scale_ok env _ Su) as (s1 & -> & S1).
    destruct (get_unit_scale_ok env _ Sv) as (s2 & -> & S2). cbn [bind].
    pose proof (si_size_pos env v Sv) as P.
    assert (~ s2 == 0) as N by (rewrite S2; intros C; rewrite C in P; now apply Qlt_irrefl in P).
    unfold py_div. assert (Qeq_bool s2 0 = false) as ->.
    { apply not_true_iff_false. now rewrite Qeq_bool_iff. }
    cbn [bind]. eexists; split; [reflexivity|]. unfold si_value. cbn.
    repeat split; auto; try reflexivity. rewrite S1, <- S2. field. auto.
Qed.

Lemma to_spec env q v d :
  sized env (q_unit q) -> sized env v ->
  dimension (q_unit q) = Ok d -> dimension v = Ok d ->
  exists x, to_ q v = Ok x /\ x * si_size v == si_value q.
Proof.
  intros Su Sv Du Dv. unfold to_.
  destruct (convert_to_spec env (fun i => i) q v d Su Sv Du Dv) as (q' & -> & A & _ & _ & _ & B).
  cbn. eexists; split; [reflexivity|]. rewrite <- A. unfold si_value. now rewrite B.
Qed.

Lemma convert_dim_mismatch cp q v d1 d2 :
  dimension (q_unit q) = Ok d1 -> dimension v = Ok d2 -> d1 <> d2 ->
  convert_to cp q v = Raise ValueError.
Proof.
  intros A B N. unfold convert_to. rewrite A, B. cbn. apply String.eqb_neq in N. now rewrite N.
Qed.

(** ** Dimension strings are sound *)
Fixpoint sum_dim (dim : string) (l : list (string * Z)) : Z :=
  match l with
  | [] => 0
  | (d, p) :: r => ((if String.eqb d dim then p else 0) + sum_dim dim r)%Z
  end.

Lemma dict_family name d dim :
  In dim ["L"; "T"; "D"; "A"] -> dict_get unit_to_dimension name = Ok d ->
  existsb (String.eqb name) (family dim) = String.eqb d dim.
Proof.
  intros I H. Transparent unit_to_dimension. unfold unit_to_dimension in H. cbn [dict_get] in H.
  repeat match type of H with
  | (if String.eqb name ?k then _ else _) = _ =>
      destruct (String.eqb_spec name k) as [->|];
      [injection H as <-; cbn in I;
       repeat (destruct I as [<-|I]; [vm_compute; reflexivity|]); destruct I | ]
  end. discriminate.
Qed.
Opaque unit_to_dimension.

Lemma dim_step_sum dim x power acc out :
  dim_step dim power acc = Ok out ->
  sum_dim x out = ((if String.eqb dim x then power else 0) + sum_dim x acc)%Z.
Proof.
  revert out. induction acc as [|[d p] acc IH]; intros out H; cbn in H.
  - injection H as <-. cbn. reflexivity.
  - destruct (String.eqb_spec dim d) as [->|N].
    + destruct (p + power =? 0)%Z; [discriminate|]. injection H as <-. cbn.
      destruct (String.eqb d x); lia.
    + destruct (dim_step dim power acc) as [r|]; cbn in H; [|discriminate].
      injection H as <-. cbn. rewrite (IH r eq_refl). lia.
Qed.

Lemma dims_loop_sum dim l acc out :
  In dim ["L"; "T"; "D"; "A"] ->
  dims_loop l acc = Ok out -> sum_dim dim out = (sum_dim dim acc + dim_exponent dim l)%Z.
Proof.
  intros I. revert acc. induction l as [|[n p] l IH]; intros acc H.
  - cbn in H. injection H as <-. cbn. lia.
  - cbn [dims_loop] in H. destruct (dict_get unit_to_dimension n) as [d|] eqn:E; cbn [bind] in H; [|discriminate].
    destruct (dim_step d p acc) as [acc'|] eqn:F; cbn [bind] in H; [|discriminate].
    rewrite (IH _ H). rewrite (dim_step_sum _ dim _ _ _ F). cbn [dim_exponent].
    rewrite (dict_family n d dim I E). destruct (String.eqb d dim); lia.
Qed.

Lemma sum_dim_filter dim f l :
  sum_dim dim l = (sum_dim dim (filter f l) + sum_dim dim (filter (fun x => negb (f x)) l))%Z.
Proof. induction l as [|[d p] l IH]; cbn; auto. destruct (f (d, p)); cbn; lia. Qed.

Lemma dim_step_known dim power acc out :
  known dim -> all_known acc -> dim_step dim power acc = Ok out -> all_known out.
Proof.
  unfold all_known. intros K. revert out. induction acc as [|[d p] acc IH]; intros out A H; cbn in H.
  - injection H as <-. constructor; [exact K|constructor].
  - inversion A as [|? ? A1 A2]; subst. cbn in A1.
    destruct (String.eqb dim d).
    + destruct (p + power =? 0)%Z; [discriminate|]. injection H as <-. now constructor.
    + destruct (dim_step dim power acc); cbn in H; [|discriminate]. injection H as <-. constructor; auto.
Qed.

Lemma dict_get_dim_known name d : dict_get unit_to_dimension name = Ok d -> known d.
Proof.
  intros H. Transparent unit_to_dimension. unfold unit_to_dimension in H. cbn [dict_get] in H.
  repeat match type of H with
  | (if String.eqb name ?k then _ else _) = _ =>
      destruct (String.eqb_spec name k); [injection H as <-; unfold known; vm_compute; tauto|]
  end. discriminate.
Qed.
Opaque unit_to_dimension.

Lemma dims_loop_out_known l acc out :
  all_known acc -> dims_loop l acc = Ok out -> all_known out.
Proof.
  revert acc. induction l as [|[n p] l IH]; intros acc A H.
  - cbn in H. now injection H as <-.
  - cbn [dims_loop] in H. destruct (dict_get unit_to_dimension n) as [d|] eqn:E; cbn [bind] in H; [|discriminate].
    destruct (dim_step d p acc) as [acc'|] eqn:F; cbn [bind] in H; [|discriminate].
    apply (IH acc'); auto. eapply dim_step_known; eauto. eapply dict_get_dim_known; eauto.
Qed.

Lemma dimension_sound u v d :
  dimension u = Ok d -> dimension v = Ok d ->
  forall dim, In dim ["L"; "T"; "D"; "A"] ->
  dim_exponent dim (base_names u) = dim_exponent dim (base_names v).
Proof.
  unfold dimension, get_dimensions. intros Hu Hv dim I.
  destruct (dims_loop (base_names u) []) as [lu|] eqn:Eu; cbn in Hu; [|discriminate].
  destruct (dims_loop (base_names v) []) as [lv|] eqn:Ev; cbn in Hv; [|discriminate].
  injection Hu as Hu. injection Hv as Hv. rewrite <- Hv in Hu.
  apply fraction_string_inj in Hu; [|eapply dims_loop_out_known; eauto; constructor..].
  destruct Hu as [HN HD].
  pose proof (dims_loop_sum dim _ _ _ I Eu) as A. pose proof (dims_loop_sum dim _ _ _ I Ev) as B.
  rewrite (sum_dim_filter dim (fun np => (0 <? snd np)%Z)) in A, B.
  rewrite HN, HD in A. cbn in A, B. lia.
Qed.

(** Success of the dimension computation: it fails exactly when some prefix of the
    factors brings a dimension already present to total exponent zero. *)
Definition dim_of (name : string) : option string :=
  match dict_get unit_to_dimension name with Ok d => Some d | Raise _ => None end.

Lemma dim_step_raise dim power acc e :
  dim_step dim power acc = Raise e -> e = AttributeError.
Proof.
  revert e. induction acc as [|[d p] acc IH]; intros e H; cbn in H; [discriminate|].
  destruct (String.eqb dim d).
  - destruct (p + power =? 0)%Z; congruence.
  - destruct (dim_step dim power acc); cbn in H; [discriminate|]. injection H as <-. auto.
Qed.

Definition same_sign (l : list (string * Z)) : Prop :=
  forall n1 p1 n2 p2, In (n1, p1) l -> In (n2, p2) l -> dim_of n1 = dim_of n2 ->
  (0 < p1 /\ 0 < p2)%Z \/ (p1 < 0 /\ p2 < 0)%Z.

Lemma dim_step_same_sign dim power acc :
  (forall p, In (dim, p) acc -> (0 < p /\ 0 < power \/ p < 0 /\ power < 0)%Z) ->
  exists out, dim_step dim power acc = Ok out /\
    forall d p, In (d, p) out ->
      (d = dim /\ (0 < power /\ 0 < p \/ power < 0 /\ p < 0 \/ p = power)%Z) \/ In (d, p) acc.
Proof.
  induction acc as [|[d p] acc IH]; intros H; cbn.
  - eexists; split; [reflexivity|]. cbn. intros d p [E|[]]. injection E as <- <-. auto.
  - destruct (String.eqb_spec dim d) as [->|N].
    + specialize (H p (or_introl eq_refl)).
      destruct (Z.eqb_spec (p + power) 0); [lia|].
      eexists; split; [reflexivity|]. cbn. intros d' p' [E|I]; [|auto].
      injection E as <- <-. left. split; auto. lia.
    + destruct IH as (out & -> & A). { intros p' I. apply H. now right. }
      cbn. eexists; split; [reflexivity|]. cbn. intros d' p' [E|I]; [auto|].
      destruct (A d' p' I); auto.
Qed.

Lemma dims_loop_same_sign l acc :
  (forall n p, In (n, p) l -> dim_of n <> None) ->
  same_sign l ->
  (forall n p d p', In (n, p) l -> dim_of n = Some d -> In (d, p') acc ->
     (0 < p' /\ 0 < p \/ p' < 0 /\ p < 0)%Z) ->
  exists out, dims_loop l acc = Ok out.
Proof.
  revert acc. induction l as [|[n p] l IH]; intros acc K S H; cbn [dims_loop]; [eauto|].
  assert (exists d, dict_get unit_to_dimension n = Ok d /\ dim_of n = Some d) as (d & E & E').
  { specialize (K n p (or_introl eq_refl)). unfold dim_of in *.
    destruct (dict_get unit_to_dimension n); [eauto|congruence]. }
  rewrite E. cbn [bind].
  destruct (dim_step_same_sign d p acc) as (out & -> & A).
  { intros p' I. apply (H n p d p'); auto. now left. }
  cbn [bind]. apply IH.
  - intros n' p' I. apply (K n' p'). now right.
  - intros n1 p1 n2 p2 I1 I2. apply S; now right.
  - intros n' p' d' p'' I D I'.
    destruct (A _ _ I') as [[-> C]|C].
    + destruct (S n p n' p' (or_introl eq_refl) (or_intror I)); [congruence|lia|lia].
    + apply (H n' p' d' p''); auto. now right.
Qed.

Lemma dimension_same_sign u :
  (forall n p, In (n, p) (base_names u) -> dim_of n <> None) -> same_sign (base_names u) ->
  exists d, dimension u = Ok d.
Proof.
  intros K S. unfold dimension, get_dimensions.
  destruct (dims_loop_same_sign (base_names u) [] K S) as (out & ->); [intros ? ? ? ? ? ? []|].
  cbn. eauto.
Qed.
