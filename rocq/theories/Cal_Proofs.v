(** Proofs about the calendar model. *)
From Coq Require Import List ZArith QArith Qround Bool Arith Lia Lqa.
From Verif Require Import Py PyLemmas Cal_Model Cal_Spec.
Import ListNotations.
Open Scope Z_scope.
Open Scope list_scope.

(** ** Truncation *)
Lemma Qtrunc_floor x : (0 <= x)%Q -> Qtrunc x = Qfloor x.
Proof.
  destruct x as [n d]. unfold Qtrunc, Qfloor, Qle. cbn. intros H.
  apply Z.quot_div_nonneg; lia.
Qed.
Lemma Qfloor_unique x z : (inject_Z z <= x)%Q -> (x < inject_Z (z + 1))%Q -> Qfloor x = z.
Proof.
  intros A B.
  pose proof (Qfloor_resp_le _ _ A) as A1. rewrite Qfloor_Z in A1.
  pose proof (Qfloor_le x) as C. assert (D : (inject_Z (Qfloor x) < inject_Z (z + 1))%Q) by lra.
  rewrite <- Zlt_Qlt in D. lia.
Qed.
(** Truncation of an integer divided by a positive fraction. *)
Lemma Qtrunc_div n d p : 0 <= n -> (p == n # d)%Q -> Qtrunc p = n / Z.pos d.
Proof.
  intros N E. rewrite Qtrunc_floor.
  - rewrite (Qfloor_comp _ _ E). reflexivity.
  - rewrite E. unfold Qle. cbn. lia.
Qed.
Ltac qt n d := rewrite (Qtrunc_div n d); [| |unfold Qeq; cbn; lia].

Lemma Qpymod1 x : (Qpymod x 1 == x - inject_Z (Qfloor x))%Q.
Proof.
  unfold Qpymod. assert (E : (x / 1 == x)%Q) by field. rewrite (Qfloor_comp _ _ E). ring.
Qed.

(** ** The arithmetic core *)
Definition core (a : Z) : date :=
  let b := a + 1524 in
  let c := (20 * b - 2442) / 7305 in
  let d := 1461 * c / 4 in
  let e := 10000 * (b - d) / 306001 in
  mkDate (year_of c (month_of e)) (month_of e) (b - d - 306001 * e / 10000).

(** Closed forms of the day counts. *)
Definition before_month (m : Z) : Z :=
  nth (Z.to_nat (m - 1)) [0; 31; 59; 90; 120; 151; 181; 212; 243; 273; 304; 334] 0.
Definition julian_days (t : date) : Z :=
  let y := year t - 1 in
  365 * y + y / 4 + before_month (month t) + (if (2 <? month t) && julian_leap (year t) then 1 else 0)
  + day t + 1721423.
Definition gregorian_days (t : date) : Z :=
  let y := year t - 1 in
  365 * y + y / 4 - y / 100 + y / 400 + before_month (month t)
  + (if (2 <? month t) && gregorian_leap (year t) then 1 else 0) + day t + 1721425.

Ltac months m H := assert (m = 1 \/ m = 2 \/ m = 3 \/ m = 4 \/ m = 5 \/ m = 6 \/ m = 7 \/ m = 8 \/ m = 9 \/ m = 10 \/ m = 11 \/ m = 12) as H by lia;
  destruct H as [H|[H|[H|[H|[H|[H|[H|[H|[H|[H|[H|H]]]]]]]]]]]; subst m.

Lemma before_succ leap y m : 1 <= m < 12 ->
  before_month (m + 1) = before_month m + month_length leap y m - (if (m =? 2) && leap y then 1 else 0).
Proof. intros M. months m W; try lia; vm_compute before_month; vm_compute month_length; destruct (leap y); reflexivity. Qed.

Lemma next_day_gen leap (days : date -> Z) :
  (forall y m d d', days (mkDate y m d') = days (mkDate y m d) + (d' - d)) ->
  (forall y m, 1 <= m < 12 -> days (mkDate y (m + 1) 1) = days (mkDate y m (month_length leap y m)) + 1) ->
  (forall y, days (mkDate (y + 1) 1 1) = days (mkDate y 12 31) + 1) ->
  forall t, valid leap t -> valid leap (next_day leap t) /\ days (next_day leap t) = days t + 1.
Proof.
  intros D1 D2 D3 [y m d] [M D]. cbn [year month day] in *. unfold next_day, valid. cbn [year month day].
  destruct (Z.ltb_spec d (month_length leap y m)) as [L|L]; cbn [year month day].
  - split; [lia|]. rewrite (D1 y m d (d + 1)). lia.
  - assert (d = month_length leap y m) by lia. subst d.
    destruct (Z.ltb_spec m 12); cbn [year month day].
    + split; [|apply D2; lia]. split; [lia|]. split; [lia|].
      clear - M H. months m W; try lia; vm_compute month_length; destruct (leap y); lia.
    + assert (m = 12) by lia. subst m. cbn in *. split; [lia|]. apply D3.
Qed.

(** A day count with these properties is injective on dates. *)
Section Injective.
  Variables (leap : Z -> bool) (days : date -> Z).
  Hypothesis D1 : forall y m d d', days (mkDate y m d') = days (mkDate y m d) + (d' - d).
  Hypothesis D2 : forall y m, 1 <= m < 12 -> days (mkDate y (m + 1) 1) = days (mkDate y m (month_length leap y m)) + 1.
  Hypothesis D3 : forall y, days (mkDate (y + 1) 1 1) = days (mkDate y 12 31) + 1.

  Lemma length_pos y m : 1 <= m <= 12 -> 28 <= month_length leap y m <= 31.
  Proof. intros M. months m W; vm_compute month_length; destruct (leap y); lia. Qed.

  Lemma mono_month y m k : (1 <= m)%Z -> m + 1 + Z.of_nat k <= 12 ->
    days (mkDate y m 1) + month_length leap y m <= days (mkDate y (m + 1 + Z.of_nat k) 1).
  Proof.
    intros M. induction k as [|k IH]; intros K.
    - replace (m + 1 + Z.of_nat 0) with (m + 1) by lia. rewrite D2 by lia.
      rewrite (D1 y m 1 (month_length leap y m)). lia.
    - replace (m + 1 + Z.of_nat (S k)) with (m + 1 + Z.of_nat k + 1) by lia. rewrite D2 by lia.
      rewrite (D1 y _ 1 (month_length leap y (m + 1 + Z.of_nat k))).
      pose proof (length_pos y (m + 1 + Z.of_nat k) ltac:(lia)). lia.
  Qed.
  Lemma mono_month' y m m' : 1 <= m -> m < m' -> m' <= 12 ->
    days (mkDate y m 1) + month_length leap y m <= days (mkDate y m' 1).
  Proof.
    intros A B C. pose proof (mono_month y m (Z.to_nat (m' - m - 1)) A) as H.
    replace (m + 1 + Z.of_nat (Z.to_nat (m' - m - 1))) with m' in H by lia. auto.
  Qed.
  Lemma mono_year y k : days (mkDate y 12 1) + 31 <= days (mkDate (y + 1 + Z.of_nat k) 1 1).
  Proof.
    induction k as [|k IH].
    - replace (y + 1 + Z.of_nat 0) with (y + 1) by lia. rewrite D3, (D1 y 12 1 31). lia.
    - replace (y + 1 + Z.of_nat (S k)) with (y + 1 + Z.of_nat k + 1) by lia. rewrite D3, (D1 _ 12 1 31).
      pose proof (mono_month' (y + 1 + Z.of_nat k) 1 12 ltac:(lia) ltac:(lia) ltac:(lia)).
      pose proof (length_pos (y + 1 + Z.of_nat k) 1 ltac:(lia)). lia.
  Qed.

  Definition earlier (t t' : date) : Prop :=
    year t < year t' \/ (year t = year t' /\ (month t < month t' \/ (month t = month t' /\ day t < day t'))).

  Lemma earlier_less t t' : valid leap t -> valid leap t' -> earlier t t' -> days t < days t'.
  Proof.
    destruct t as [y m d], t' as [y' m' d']. unfold valid, earlier. cbn [year month day].
    intros (M & D) (M' & D') H. rewrite (D1 y m 1 d), (D1 y' m' 1 d').
    destruct H as [H|(-> & [H|(-> & H)])]; [| |lia].
    - pose proof (mono_year y (Z.to_nat (y' - y - 1))) as Y.
      replace (y + 1 + Z.of_nat (Z.to_nat (y' - y - 1))) with y' in Y by lia.
      assert (A : days (mkDate y m 1) + month_length leap y m <= days (mkDate y 12 1) + 31).
      { destruct (Z.eq_dec m 12) as [->|N]; [pose proof (length_pos y 12 ltac:(lia)); lia|].
        pose proof (mono_month' y m 12 ltac:(lia) ltac:(lia) ltac:(lia)). lia. }
      assert (B : days (mkDate y' 1 1) <= days (mkDate y' m' 1)).
      { destruct (Z.eq_dec m' 1) as [->|N]; [lia|].
        pose proof (mono_month' y' 1 m' ltac:(lia) ltac:(lia) ltac:(lia)). pose proof (length_pos y' 1 ltac:(lia)). lia. }
      lia.
    - pose proof (mono_month' y' m m' ltac:(lia) ltac:(lia) ltac:(lia)). lia.
  Qed.
  Lemma days_inj t t' : valid leap t -> valid leap t' -> days t = days t' -> t = t'.
  Proof.
    intros V V' E.
    assert (T : t = t' \/ earlier t t' \/ earlier t' t).
    { destruct t as [y m d], t' as [y' m' d']. unfold earlier. cbn [year month day].
      destruct (Z.lt_trichotomy y y') as [|[->|]]; [tauto| |tauto].
      destruct (Z.lt_trichotomy m m') as [|[->|]]; [tauto| |tauto].
      destruct (Z.lt_trichotomy d d') as [|[->|]]; [tauto|tauto|tauto]. }
    destruct T as [T|[T|T]]; auto; apply earlier_less in T; auto; lia.
  Qed.
End Injective.

Lemma julian_leap_iff y : julian_leap y = true <-> y mod 4 = 0.
Proof. unfold julian_leap. apply Z.eqb_eq. Qed.
Lemma gregorian_leap_iff y : gregorian_leap y = true <-> y mod 4 = 0 /\ (y mod 100 <> 0 \/ y mod 400 = 0).
Proof.
  unfold gregorian_leap. rewrite andb_true_iff, orb_true_iff, negb_true_iff, !Z.eqb_eq, Z.eqb_neq. tauto.
Qed.
Lemma gregorian_leap_false y : gregorian_leap y = false <-> y mod 4 <> 0 \/ (y mod 100 = 0 /\ y mod 400 <> 0).
Proof.
  unfold gregorian_leap. rewrite andb_false_iff, orb_false_iff, negb_false_iff, !Z.eqb_neq, Z.eqb_eq. tauto.
Qed.
Lemma julian_leap_false y : julian_leap y = false <-> y mod 4 <> 0.
Proof. unfold julian_leap. apply Z.eqb_neq. Qed.

Ltac leaps := repeat match goal with
  | |- context [julian_leap ?y] => let E := fresh "L" in destruct (julian_leap y) eqn:E; [apply julian_leap_iff in E|apply julian_leap_false in E]
  | |- context [gregorian_leap ?y] => let E := fresh "L" in destruct (gregorian_leap y) eqn:E; [apply gregorian_leap_iff in E|apply gregorian_leap_false in E]
  end.

Lemma julian_steps :
  (forall y m d d', julian_days (mkDate y m d') = julian_days (mkDate y m d) + (d' - d)) /\
  (forall y m, 1 <= m < 12 -> julian_days (mkDate y (m + 1) 1) = julian_days (mkDate y m (month_length julian_leap y m)) + 1) /\
  (forall y, julian_days (mkDate (y + 1) 1 1) = julian_days (mkDate y 12 31) + 1).
Proof.
  unfold julian_days; cbn [year month day]. split; [|split].
  - intros. lia.
  - intros y m M. rewrite (before_succ julian_leap y m M). clear - M.
    destruct (Z.eqb_spec m 2) as [->|N]; [destruct (julian_leap y); cbn; lia|].
    assert ((2 <? m + 1) = (2 <? m)) as -> by (apply eq_true_iff_eq; rewrite !Z.ltb_lt; lia).
    cbn [andb]. lia.
  - intros y. vm_compute before_month. cbn [Z.ltb Z.compare Pos.compare Pos.compare_cont andb]. leaps; Z.div_mod_to_equations; lia.
Qed.
Lemma gregorian_steps :
  (forall y m d d', gregorian_days (mkDate y m d') = gregorian_days (mkDate y m d) + (d' - d)) /\
  (forall y m, 1 <= m < 12 -> gregorian_days (mkDate y (m + 1) 1) = gregorian_days (mkDate y m (month_length gregorian_leap y m)) + 1) /\
  (forall y, gregorian_days (mkDate (y + 1) 1 1) = gregorian_days (mkDate y 12 31) + 1).
Proof.
  unfold gregorian_days; cbn [year month day]. split; [|split].
  - intros. lia.
  - intros y m M. rewrite (before_succ gregorian_leap y m M). clear - M.
    destruct (Z.eqb_spec m 2) as [->|N]; [destruct (gregorian_leap y); cbn; lia|].
    assert ((2 <? m + 1) = (2 <? m)) as -> by (apply eq_true_iff_eq; rewrite !Z.ltb_lt; lia).
    cbn [andb]. lia.
  - intros y. vm_compute before_month. cbn [Z.ltb Z.compare Pos.compare Pos.compare_cont andb]. leaps; Z.div_mod_to_equations; lia.
Qed.
Lemma julian_next t : valid julian_leap t ->
  valid julian_leap (next_day julian_leap t) /\ julian_days (next_day julian_leap t) = julian_days t + 1.
Proof. destruct julian_steps as (A & B & C). now apply next_day_gen. Qed.
Lemma gregorian_next t : valid gregorian_leap t ->
  valid gregorian_leap (next_day gregorian_leap t) /\ gregorian_days (next_day gregorian_leap t) = gregorian_days t + 1.
Proof. destruct gregorian_steps as (A & B & C). now apply next_day_gen. Qed.

Lemma later_gen leap (days : date -> Z) t n :
  (forall t, valid leap t -> valid leap (next_day leap t) /\ days (next_day leap t) = days t + 1) ->
  valid leap t -> 0 <= n -> valid leap (days_later leap n t) /\ days (days_later leap n t) = days t + n.
Proof.
  intros H V N. unfold days_later. replace (days t + n) with (days t + Z.of_nat (Z.to_nat n)) by lia. generalize (Z.to_nat n). clear n N.
  induction n as [|n (IV & ID)]; [split; auto; cbn; lia|].
  destruct (H _ IV) as (A & B). change (Nat.iter (S n) (next_day leap) t) with (next_day leap (Nat.iter n (next_day leap) t)). split; auto. lia.
Qed.

Lemma julian_date_spec n : 0 <= n -> valid julian_leap (julian_date n) /\ julian_days (julian_date n) = n.
Proof.
  intros N. destruct (later_gen julian_leap julian_days (mkDate (-4712) 1 1) n julian_next) as (A & B).
  - split; vm_compute; split; discriminate.
  - exact N.
  - split; [exact A|]. etransitivity; [exact B|]. vm_compute (julian_days _). lia.
Qed.
Lemma gregorian_date_spec n : first_gregorian <= n ->
  valid gregorian_leap (gregorian_date n) /\ gregorian_days (gregorian_date n) = n.
Proof.
  intros N. destruct (later_gen gregorian_leap gregorian_days (mkDate 1582 10 15) (n - first_gregorian) gregorian_next) as (A & B).
  - split; vm_compute; split; discriminate.
  - lia.
  - split; [exact A|]. etransitivity; [exact B|]. vm_compute (gregorian_days _). unfold first_gregorian. lia.
Qed.
Lemma julian_date_unique n t : 0 <= n -> valid julian_leap t -> julian_days t = n -> t = julian_date n.
Proof.
  intros N V E. destruct (julian_date_spec n N) as (V' & E'). destruct julian_steps as (A & B & C).
  apply (days_inj julian_leap julian_days); auto. congruence.
Qed.
Lemma gregorian_date_unique n t : first_gregorian <= n -> valid gregorian_leap t -> gregorian_days t = n -> t = gregorian_date n.
Proof.
  intros N V E. destruct (gregorian_date_spec n N) as (V' & E'). destruct gregorian_steps as (A & B & C).
  apply (days_inj gregorian_leap gregorian_days); auto. congruence.
Qed.

(** The integer algorithm computes Julian calendar dates. *)
Lemma core_spec a : 0 <= a -> core a = julian_date a.
Proof.
  intros A. assert (H : valid julian_leap (core a) /\ julian_days (core a) = a);
    [|apply julian_date_unique; [exact A|apply H|apply H]].
  unfold core; cbv zeta.
  set (b := a + 1524). set (c := (20 * b - 2442) / 7305). set (d := 1461 * c / 4). set (e := 10000 * (b - d) / 306001).
  pose proof (Z.div_mod (20 * b - 2442) 7305 ltac:(lia)) as C1; pose proof (Z.mod_pos_bound (20 * b - 2442) 7305 ltac:(lia)) as C2; fold c in C1.
  pose proof (Z.div_mod (1461 * c) 4 ltac:(lia)) as D1; pose proof (Z.mod_pos_bound (1461 * c) 4 ltac:(lia)) as D2; fold d in D1.
  pose proof (Z.div_mod (10000 * (b - d)) 306001 ltac:(lia)) as E1; pose proof (Z.mod_pos_bound (10000 * (b - d)) 306001 ltac:(lia)) as E2; fold e in E1.
  assert (G : 123 <= b - d <= 488) by lia.
  assert (e = 4 \/ e = 5 \/ e = 6 \/ e = 7 \/ e = 8 \/ e = 9 \/ e = 10 \/ e = 11 \/ e = 12 \/ e = 13 \/ e = 14 \/ e = 15) as W by lia.
  pose proof (Z.div_mod c 4 ltac:(lia)) as K1; pose proof (Z.mod_pos_bound c 4 ltac:(lia)) as K2.
  assert (C3 : 7305 * c <= 20 * b - 2442 < 7305 * c + 7305) by lia.
  assert (G1 : 306001 * e <= 10000 * (b - d) < 306001 * e + 306001) by lia.
  assert (Dm : d = 365 * c + c / 4) by lia.
  set (q := c / 4) in *. set (r := c mod 4) in *.
  clearbody e d. clearbody c. clear C1 C2 E1 E2 D1 D2.
  assert (R : r = 0 \/ r = 1 \/ r = 2 \/ r = 3) by lia. clearbody r q. clear K2.
  assert (B : a = b - 1524) by lia. clearbody b.
  assert (Y : forall k, (c - k) / 4 = q + (r - k) / 4).
  { intros k. replace (c - k) with (q * 4 + (r - k)) by lia. now rewrite Z.div_add_l by lia. }
  assert (M : forall k, (c - k) mod 4 = (r - k) mod 4).
  { intros k. replace (c - k) with (r - k + q * 4) by lia. now rewrite Z.mod_add by lia. }
  destruct W as [->|[->|[->|[->|[->|[->|[->|[->|[->|[->|[->| ->]]]]]]]]]]];
    unfold valid, julian_days, julian_leap; cbn [year month day];
    match goal with |- context [month_of ?k] => let v := eval vm_compute in (month_of k) in change (month_of k) with v end;
    unfold year_of; cbn [Z.ltb Z.compare Pos.compare Pos.compare_cont Z.eqb Pos.eqb orb andb];
    match goal with |- context [306001 * ?k / 10000] => let v := eval vm_compute in (306001 * k / 10000) in change (306001 * k / 10000) with v end;
    vm_compute before_month; unfold month_length, julian_leap; 
    match goal with |- context [Z.to_nat ?k] => let v := eval vm_compute in (Z.to_nat k) in change (Z.to_nat k) with v end;
    cbn [nth]; rewrite ?M; rewrite <- ?Z.sub_add_distr, ?Y;
    cbn [Z.add Pos.add Pos.add_carry Pos.succ];
    destruct R as [->|[->|[->| ->]]]; 
    repeat match goal with |- context [?x / 4] => let v := eval vm_compute in (x / 4) in change (x / 4) with v end;
    repeat match goal with |- context [?x mod 4] => let v := eval vm_compute in (x mod 4) in change (x mod 4) with v end;
    cbn [Z.eqb Pos.eqb]; lia.
Qed.
