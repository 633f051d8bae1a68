(** Quantities against other things in orderings (C09), imperial units (C11), and units of size zero (C184). *)
From Coq Require Import List ZArith QArith Qpower Qabs Qfield Lqa Bool String Lia Setoid Morphisms.
From Verif Require Import Py StrUtil Units_Model Units_Spec Units_Proofs Units_Algebra Units_Proofs2 Units_Props.
Import ListNotations.
Open Scope Q_scope.
Open Scope list_scope.

(** An ordering between a quantity and something else is refused. *)
Theorem C09_orderings_partial :
  forall q o, (forall r, o <> OQty r) ->
    q_lt q o = Raise TypeError /\ q_gt q o = Raise TypeError /\ q_le q o = Raise TypeError /\ q_ge q o = Raise TypeError.
Proof. intros q [x|r|] H; [repeat split| |repeat split]. now destruct (H r). Qed.

(** The feet and yards of the table are those of the definition (0.3048 m and 0.9144 m) within 0.07 and 0.05 percent, and the
    radian is 57.2957795130823208767981548... degrees within 1e-14 degrees. *)
Definition near_facts : list (named * named * Q * Q) :=
  [(u_ft, u_m, 3048 # 10000, 7 # 10000); (u_yd, u_m, 9144 # 10000, 5 # 10000); (u_yd, u_ft, 3, 12 # 10000); (u_ft, u_inch, 12, 7 # 10000);
   (u_mi, u_yd, 1760, 5 # 10000); (u_rad, u_deg, 572957795130823208767981548 # 10000000000000000000000000, 1 # 1000000000000000)].
Theorem C11_imperial_partial :
  forall u v k e x, In (u, v, k, e) near_facts -> exists y, to_ (mkQty x (UN u)) (UN v) = Ok y /\ Qabs (y - k * x) <= e * Qabs (k * x).
Proof.
  intros u v k e x H. assert (T : forall c y, c * x == y -> Qabs (c - k) <= e * Qabs k -> Qabs (y - k * x) <= e * Qabs (k * x)).
  { intros c y E B. setoid_replace (y - k * x) with ((c - k) * x) by (rewrite <- E; ring). rewrite !Qabs_Qmult, Qmult_assoc. apply Qmult_le_compat_r; [exact B|apply Qabs_nonneg]. }
  cbn [near_facts In] in H.
  repeat (destruct H as [H|H];
    [injection H as <- <- <- <-;
     match goal with |- exists y, to_ (mkQty _ (UN ?a)) (UN ?b) = _ /\ _ =>
       destruct (table_conversion a b (n_scale a / n_scale b) x) as (y & E & F);
         [cbn; tauto|cbn; tauto|vm_compute; reflexivity|eexists; vm_compute; reflexivity|vm_compute; reflexivity|];
       exists y; split; [exact E|]; apply (T (n_scale a / n_scale b)); [symmetry; exact F|vm_compute; discriminate] end|]).
  destruct H.
Qed.
Example C11_case : exists y, to_ (mkQty 100 (UN u_yd)) (UN u_m) = Ok y /\ y == 914 # 10.
Proof. eexists. split; vm_compute; reflexivity. Qed.

(** A unit of size zero in a denominator. *)
Definition divides_by_zero (u : punit) : Prop :=
  match u with UN _ => False | UC c => exists n p, In (n, p) (c_bases c) /\ n_scale n == 0 /\ (p < 0)%Z end.
Lemma bases_scale_cases l s :
  (~ (exists n p, In (n, p) l /\ n_scale n == 0 /\ (p < 0)%Z) -> exists t, bases_scale l s = Ok t /\ t == s * product_size l) /\
  ((exists n p, In (n, p) l /\ n_scale n == 0 /\ (p < 0)%Z) -> bases_scale l s = Raise ZeroDivisionError).
Proof.
  revert s. induction l as [|[n p] l IH]; intros s; cbn [bases_scale product_size].
  - split; [intros _; exists s; split; [reflexivity|ring]|]. intros (n & p & [] & _).
  - unfold py_pow. destruct (Qeq_bool (n_scale n) 0 && (p <? 0)%Z)%bool eqn:E; cbn [bind].
    + apply andb_prop in E. destruct E as (E1 & E2). apply Qeq_bool_iff in E1. apply Z.ltb_lt in E2.
      split; [|reflexivity]. intros N. exfalso. apply N. exists n, p. split; [now left|auto].
    + destruct (IH (s * Qpower (n_scale n) p)) as (A & B). split.
      * intros N. destruct A as (t & T1 & T2); [intros (a & b & I & J); apply N; exists a, b; split; [now right|auto]|]. exists t. split; [exact T1|]. rewrite T2. ring.
      * intros (a & b & [I|I] & J1 & J2); [|apply B; eauto]. injection I as <- <-. apply Qeq_bool_iff in J1. apply Z.ltb_lt in J2. rewrite J1, J2 in E. discriminate.
Qed.
Lemma get_unit_scale_cases u :
  (~ divides_by_zero u -> exists t, get_unit_scale u = Ok t /\ t == si_size u) /\ (divides_by_zero u -> get_unit_scale u = Raise ZeroDivisionError).
Proof.
  destruct u as [n|c]; cbn [divides_by_zero get_unit_scale si_size].
  - split; [intros _; eexists; split; reflexivity|tauto].
  - destruct (bases_scale_cases (c_bases c) 1) as (A & B). split; [|exact B]. intros N. destruct (A N) as (t & T1 & T2). exists t. split; [exact T1|]. rewrite T2. ring.
Qed.
Lemma zero_dec u : divides_by_zero u \/ ~ divides_by_zero u.
Proof.
  destruct u as [n|c]; cbn [divides_by_zero]; [tauto|].
  destruct (Exists_dec (fun bp : named * Z => n_scale (fst bp) == 0 /\ (snd bp < 0)%Z) (c_bases c)) as [X|X].
  - intros [n p]. cbn. destruct (Qeq_dec (n_scale n) 0), (Z_lt_dec p 0); [left|right|right|right]; tauto.
  - left. apply Exists_exists in X. destruct X as ([n p] & I & J). exists n, p. auto.
  - right. intros (n & p & I & J). apply X, Exists_exists. exists (n, p). auto.
Qed.
(** Between any two units of the same dimension, whatever their sizes: the magnitude is kept, unless a division by zero is
    needed, and then ZeroDivisionError is raised. *)
Theorem C184_units_of_any_size :
  forall cp q v d, dimension (q_unit q) = Ok d -> dimension v = Ok d -> repr_unit (q_unit q) <> repr_unit v ->
    (~ divides_by_zero (q_unit q) -> ~ divides_by_zero v -> ~ si_size v == 0 ->
       exists s, convert_to cp q v = Ok s /\ q_unit s = v /\ si_value s == si_value q) /\
    (divides_by_zero (q_unit q) \/ divides_by_zero v \/ si_size v == 0 -> convert_to cp q v = Raise ZeroDivisionError).
Proof.
  intros cp q v d D1 D2 N. unfold convert_to. rewrite D1, D2. cbn [bind]. rewrite String.eqb_refl. apply String.eqb_neq in N. rewrite N. cbn [negb].
  destruct (get_unit_scale_cases (q_unit q)) as (A1 & A2). destruct (get_unit_scale_cases v) as (B1 & B2). split.
  - intros Z1 Z2 Z3. destruct (A1 Z1) as (s & -> & S). destruct (B1 Z2) as (t & -> & T). cbn [bind]. unfold py_div.
    destruct (Qeq_bool t 0) eqn:E; [apply Qeq_bool_iff in E; exfalso; apply Z3; now rewrite <- T|]. cbn [bind].
    eexists. split; [reflexivity|]. split; [reflexivity|]. unfold si_value. cbn [q_data q_unit]. rewrite S, T. field. exact Z3.
  - pose proof (zero_dec (q_unit q)) as De.
    intros H. destruct De as [Z|Z]; [now rewrite (A2 Z)|]. destruct (A1 Z) as (s & -> & _). cbn [bind].
    destruct H as [H|[H|H]]; [tauto|now rewrite (B2 H)|].
    destruct (zero_dec v) as [Zv|Zv]; [now rewrite (B2 Zv)|]. destruct (B1 Zv) as (t & -> & T). cbn [bind].
    unfold py_div. assert (Qeq_bool t 0 = true) as -> by (apply Qeq_bool_iff; now rewrite T). reflexivity.
Qed.

(** A unit named like a known one, so that products with it have a dimension, of size zero: alone and in a denominator. *)
Definition nil_unit : named := new_unit 90 "ft" (Some (u_scale 0 (UN u_m))).
Example C184_case :
  dimension (UN nil_unit) = dimension (UN u_m) /\ repr_unit (UN nil_unit) <> repr_unit (UN u_m) /\
  si_size (UN nil_unit) == 0 /\ ~ si_size (UN u_m) == 0 /\
  (exists u, eval (EDiv (EName u_s) (EName nil_unit)) = u /\ divides_by_zero u /\ exists d, dimension u = Ok d /\ dimension (eval (EDiv (EName u_s) (EName u_m))) = Ok d).
Proof.
  split; [reflexivity|]. split; [discriminate|]. split; [reflexivity|]. split; [discriminate|].
  eexists. split; [reflexivity|]. split.
  - exists nil_unit, (-1)%Z. split; [vm_compute; tauto|]. split; [reflexivity|lia].
  - eexists. split; vm_compute; reflexivity.
Qed.

Print Assumptions C09_orderings_partial.
Print Assumptions C184_units_of_any_size.
Print Assumptions C11_imperial_partial.
