(** When celest's calendar is behind, and the day of the year. *)
From Coq Require Import List ZArith QArith Qround Bool Arith Lia Lqa.
From Verif Require Import Py PyLemmas Cal_Model Cal_Spec Cal_Proofs Cal_Proofs2.
Import ListNotations.
Open Scope Z_scope.
Open Scope list_scope.

(** 1 March of a century year. *)
Definition march (c : Z) : Z := 36524 * c + c / 4 + 1721120.
Lemma march_spec c : gregorian_days (mkDate (100 * c) 3 1) = march c.
Proof.
  unfold gregorian_days, march. cbn [year month day]. vm_compute (before_month 3).
  cbn [Z.ltb Z.compare Pos.compare Pos.compare_cont andb].
  destruct (gregorian_leap (100 * c)) eqn:E; [apply gregorian_leap_iff in E|apply gregorian_leap_false in E];
    Z.div_mod_to_equations; lia.
Qed.
Lemma march_valid c : valid gregorian_leap (mkDate (100 * c) 3 1).
Proof. unfold valid. cbn [year month day]. rewrite (month_length_other gregorian_leap julian_leap) by lia. vm_compute (month_length _ _ 3). lia. Qed.
Lemma march_date c : first_gregorian <= march c -> gregorian_date (march c) = mkDate (100 * c) 3 1.
Proof. intros H. symmetry. apply gregorian_date_unique; auto using march_valid, march_spec. Qed.

Lemma march_mono c w : c < w -> march c + 36524 <= march w.
Proof. intros L. unfold march. pose proof (Z.div_le_mono c w 4 ltac:(lia) ltac:(lia)). lia. Qed.

Definition limit : Z := 1000000000.

Lemma century_cases n : first_gregorian <= n <= limit ->
  let k := true_century n in 11 <= k <= 27400 /\ (century n = k \/ century n = k - 1) /\
  (century n = k <-> 146100 * k <= 4 * n - 7468865) /\
  146097 * k <= 4 * n - 7468865 < 146097 * k + 146097.
Proof.
  unfold first_gregorian, limit. intros N. unfold true_century, century. cbv zeta.
  pose proof (Z.div_mod (4 * n - 7468865) 146097 ltac:(lia)) as K1.
  pose proof (Z.mod_pos_bound (4 * n - 7468865) 146097 ltac:(lia)) as K2.
  pose proof (Z.div_mod (4 * n - 7468865) 146100 ltac:(lia)) as C1.
  pose proof (Z.mod_pos_bound (4 * n - 7468865) 146100 ltac:(lia)) as C2.
  lia.
Qed.

Lemma behind_iff n : first_gregorian <= n <= limit ->
  (behind n <-> century n <> true_century n /\ true_century n mod 4 <> 0).
Proof.
  intros N. destruct (century_cases n N) as (K0 & K1 & K2 & K3). set (k := true_century n) in *. clearbody k.
  unfold behind. split.
  - intros (c & f & C & F & E & L).
    destruct (gregorian_date_spec f (proj1 F)) as (_ & Df). rewrite E, march_spec in Df.
    unfold march in Df. pose proof (Z.div_mod c 4 ltac:(lia)) as Q1. pose proof (Z.mod_pos_bound c 4 ltac:(lia)) as Q2.
    unfold limit, first_gregorian in *.
    assert (Ek : k = c - 4) by lia. split; [intros H; apply K2 in H; lia|].
    subst k. replace (c - 4) with (c + (-1) * 4) by ring. now rewrite Z.mod_add by lia.
  - intros (C & M). assert (Lk : 4 * n - 7468865 < 146100 * k) by lia.
    assert (E4 : (k + 4) mod 4 = k mod 4) by (replace (k + 4) with (k + 1 * 4) by ring; now rewrite Z.mod_add by lia).
    assert (D4 : (k + 4) / 4 = k / 4 + 1) by (replace (k + 4) with (k + 1 * 4) by ring; now rewrite Z.div_add by lia).
    pose proof (Z.div_mod k 4 ltac:(lia)) as Q1. pose proof (Z.mod_pos_bound k 4 ltac:(lia)) as Q2.
    assert (F : first_gregorian <= march (k + 4) <= n).
    { unfold march, first_gregorian, limit in *. rewrite D4.
      assert (k <> 11) by lia. assert (k <> 12) by (intros ->; now apply M). lia. }
    exists (k + 4), (march (k + 4)). rewrite E4. split; auto. split; auto.
    split; [apply march_date; lia|]. unfold march. rewrite D4. lia.
Qed.

Lemma shifted_right n : first_gregorian <= n <= limit -> ~ behind n -> julian_date (shifted n) = gregorian_date n.
Proof.
  intros N B. rewrite <- true_shift by lia. cbv zeta. f_equal. rewrite shifted_spec by (unfold first_gregorian in N; lia).
  rewrite (behind_iff n N) in B. destruct (century_cases n N) as (K0 & K1 & _). set (k := true_century n) in *. clearbody k.
  destruct K1 as [->|E]; [lia|]. assert (M : k mod 4 = 0) by lia. rewrite E.
  pose proof (Z.div_mod k 4 ltac:(lia)) as Q1. rewrite M in Q1.
  assert ((k - 1) / 4 = k / 4 - 1).
  { symmetry. apply (Z.div_unique _ 4 _ 3); lia. }
  lia.
Qed.
Lemma shifted_behind n : first_gregorian <= n <= limit -> behind n ->
  0 <= shifted n /\ julian_date (shifted n + 1) = gregorian_date n.
Proof.
  intros N B. split; [apply shifted_nonneg; unfold first_gregorian in N; lia|].
  rewrite <- true_shift by lia. cbv zeta. f_equal. rewrite shifted_spec by (unfold first_gregorian in N; lia).
  rewrite (behind_iff n N) in B. destruct (century_cases n N) as (K0 & K1 & _). set (k := true_century n) in *. clearbody k.
  destruct K1 as [?|E]; [lia|]. rewrite E.
  assert ((k - 1) / 4 = k / 4).
  { symmetry. pose proof (Z.div_mod k 4 ltac:(lia)) as Q1. pose proof (Z.mod_pos_bound k 4 ltac:(lia)) as Q2.
    apply (Z.div_unique _ 4 _ (k mod 4 - 1)); lia. }
  lia.
Qed.
Lemma julian_date_next n : 0 <= n -> julian_date (n + 1) = next_day julian_leap (julian_date n).
Proof.
  intros N. unfold julian_date, days_later. replace (Z.to_nat (n + 1)) with (S (Z.to_nat n)) by lia. reflexivity.
Qed.

(** ** Day of the year *)
Lemma sum_from l : forall a, fold_left Z.add l a = a + fold_left Z.add l 0.
Proof. induction l as [|x l IH]; intros a; cbn [fold_left]; [lia|]. rewrite (IH (a + x)), (IH (0 + x)). lia. Qed.
Lemma day_in_year_spec leap t : 1 <= month t <= 12 ->
  day_in_year leap t = before_month (month t) + day t + (if (2 <? month t) && leap (year t) then 1 else 0).
Proof.
  destruct t as [y m d]. cbn [year month day]. intros M. unfold day_in_year. cbn [year month day].
  rewrite sum_from.
  assert (E : fold_left Z.add (map (fun k : nat => month_length leap y (Z.of_nat k)) (seq 1 (Z.to_nat (m - 1)))) 0
    = before_month m + (if (2 <? m) && leap y then 1 else 0)).
  { unfold month_length. generalize (leap y) as b. months m W; intros []; vm_compute; reflexivity. }
  rewrite E. lia.
Qed.

Lemma day_of_year_spec jd : (- (1 # 2) <= jd)%Q ->
  day_of_year [jd] = Ok [day_in_year julian_leap (julian_date (shifted (day_containing jd)))].
Proof.
  intros H. destruct (from_julian_spec jd H) as (x & E & X). destruct (day_trunc jd H) as (_ & N).
  pose proof (shifted_nonneg _ N) as N'. destruct (julian_date_spec _ N') as (V & _).
  set (t := julian_date (shifted (day_containing jd))) in *. clearbody t.
  unfold day_of_year. rewrite E. cbn [bind map map2 combine fst snd]. do 2 f_equal.
  pose proof (part_of_day_range jd) as P.
  rewrite day_in_year_spec by apply V.
  assert (K : Qtrunc (inject_Z (275 * month t) / 9) - (if year t mod 4 =? 0 then 1 else 2) * Qtrunc (inject_Z (month t + 9) / 12) - 30
    = before_month (month t) + (if (2 <? month t) && julian_leap (year t) then 1 else 0)).
  { destruct V as (V1 & _). unfold julian_leap. destruct t as [y m d]. cbn [year month day] in *. clear - V1.
    destruct (y mod 4 =? 0); months m W; vm_compute; reflexivity. }
  unfold valid in V. destruct V as (V1 & V2).
  assert (B : 0 <= before_month (month t)).
  { destruct t as [y m d]. cbn [year month day] in *. clear - V1. months m W; vm_compute; discriminate. }
  set (s := Qtrunc (inject_Z (275 * month t) / 9) - (if year t mod 4 =? 0 then 1 else 2) * Qtrunc (inject_Z (month t + 9) / 12)) in *.
  rewrite Qtrunc_floor.
  - apply Qfloor_unique; rewrite X, ?inject_Z_plus;
      replace s with (before_month (month t) + (if (2 <? month t) && julian_leap (year t) then 1 else 0) + 30) by lia;
      rewrite ?inject_Z_plus; change (inject_Z 30) with 30%Q; change (inject_Z 1) with 1%Q; lra.
  - rewrite X. replace s with (before_month (month t) + (if (2 <? month t) && julian_leap (year t) then 1 else 0) + 30) by lia.
    assert (D : (inject_Z 1 <= inject_Z (before_month (month t) + (if (2 <? month t) && julian_leap (year t) then 1 else 0) + day t))%Q).
    { rewrite <- Zle_Qle. destruct (_ && _); lia. }
    rewrite ?inject_Z_plus in *. change (inject_Z 30) with 30%Q. change (inject_Z 1) with 1%Q in D. lra.
Qed.

(** Within a year the day of the year advances with the date. *)
Lemma day_in_year_next t : valid julian_leap t -> year (next_day julian_leap t) = year t ->
  day_in_year julian_leap (next_day julian_leap t) = day_in_year julian_leap t + 1.
Proof.
  intros V Y. destruct (julian_next t V) as (V' & D). rewrite !day_in_year_spec by (apply V || apply V').
  unfold julian_days in D. rewrite Y in *. lia.
Qed.
Lemma next_day_year leap t : year (next_day leap t) <> year t -> month (next_day leap t) = 1.
Proof.
  unfold next_day. destruct (_ <? _); cbn; [congruence|]. destruct (_ <? _); cbn; [congruence|auto].
Qed.

Lemma early_days t : valid gregorian_leap t -> month t <= 2 ->
  before_month (month t) + day t + (if gregorian_leap (year t) then -1 else 0) <= 59.
Proof.
  intros (V1 & V2) M. destruct t as [y m d]. cbn [year month day] in *. assert (W : m = 1 \/ m = 2) by lia. destruct W; subst m.
  - change (before_month 1) with 0. change (month_length gregorian_leap y 1) with 31 in V2. destruct (gregorian_leap y); lia.
  - change (before_month 2) with 31. rewrite month_length_feb in V2. destruct (gregorian_leap y); lia.
Qed.

Lemma after_march t c : valid gregorian_leap t -> year t mod 100 = 0 ->
  march c <= gregorian_days t <= march c + 21000 -> year t = 100 * c /\ 2 < month t.
Proof.
  intros V Y L. pose proof (valid_bounds _ _ V) as (B1 & B2). pose proof (early_days t V) as B3.
  pose proof (Z.div_mod (year t) 100 ltac:(lia)) as Y1. rewrite Y in Y1. set (w := year t / 100) in *. clearbody w.
  assert (Yw : year t = 100 * w) by lia. clear Y Y1.
  assert (Dw : gregorian_days t = march w - 60 + before_month (month t) + day t
             + (if (2 <? month t) then 0 else if gregorian_leap (year t) then -1 else 0)).
  { rewrite <- march_spec. unfold gregorian_days. cbn [year month day]. rewrite Yw.
    change (before_month 3) with 59. change (2 <? 3) with true. cbn [andb].
    destruct (2 <? month t), (gregorian_leap (100 * w)); cbn [andb]; lia. }
  rewrite Dw in L. clear Dw V. rewrite Yw at 1.
  assert (B4 : -1 <= (if gregorian_leap (year t) then -1 else 0)) by (destruct (gregorian_leap _); lia).
  set (i := if gregorian_leap (year t) then -1 else 0) in *. clearbody i.
  pose proof (march_mono c w) as M1. pose proof (march_mono w c) as M2.
  revert L. destruct (Z.ltb_spec 2 (month t)) as [M|M]; intros L.
  - specialize (B2 M). split; auto. clear B1 B3.
    destruct (Z.lt_trichotomy w c) as [X|[X|X]]; [specialize (M2 X)|lia|specialize (M1 X)]; lia.
  - exfalso. specialize (B1 M). specialize (B3 M). clear B2.
    destruct (Z.lt_trichotomy w c) as [X|[X|X]]; [specialize (M2 X)|subst w|specialize (M1 X)]; lia.
Qed.

(** Days behind in the century year itself are after February. *)
Lemma behind_century n : first_gregorian <= n <= limit -> behind n -> year (gregorian_date n) mod 100 = 0 ->
  2 < month (gregorian_date n) /\ gregorian_leap (year (gregorian_date n)) = false /\ julian_leap (year (gregorian_date n)) = true.
Proof.
  intros N (c & f & C & F & E & L) Y.
  destruct (gregorian_date_spec f (proj1 F)) as (_ & Df). rewrite E, march_spec in Df.
  destruct (gregorian_date_spec n (proj1 N)) as (V & D). set (t := gregorian_date n) in *. clearbody t.
  pose proof (Z.div_mod c 4 ltac:(lia)) as Q1. pose proof (Z.mod_pos_bound c 4 ltac:(lia)) as Q2.
  assert (Lc : c <= 27400) by (unfold march, limit in *; lia).
  destruct (after_march t c V Y) as (Yw & M); [lia|].
  split; auto. rewrite Yw. split.
  - apply gregorian_leap_false. right. split; [rewrite Z.mul_comm; apply Z.mod_mul; lia|].
    change 400 with (100 * 4). rewrite Z.mul_mod_distr_l by lia. lia.
  - apply julian_leap_iff. replace (100 * c) with (25 * c * 4) by ring. apply Z.mod_mul; lia.
Qed.
