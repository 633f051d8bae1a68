(** C49, C50, C51, C79, C80: the calendar. *)
From Coq Require Import List ZArith QArith Qround Bool Arith Lia Lqa.
From Verif Require Import Py PyLemmas Cal_Model Cal_Spec Cal_Proofs Cal_Proofs2 Cal_Proofs3.
Import ListNotations.
Open Scope Z_scope.
Open Scope list_scope.

(** [from_julian] of a single Julian date returns this date and the part of the day gone. *)
Definition returns_date (jd : Q) (t : date) : Prop :=
  exists x, from_julian [jd] = Ok ([year t], [month t], [x]) /\ (x == inject_Z (day t) + part_of_day jd)%Q.

Lemma returned jd : (- (1 # 2) <= jd)%Q -> returns_date jd (julian_date (shifted (day_containing jd))).
Proof. intros H. destruct (from_julian_spec jd H) as (x & E & X). exists x. auto. Qed.
Lemma returns_unique jd t t' : returns_date jd t -> returns_date jd t' -> t = t'.
Proof.
  intros (x & E & X) (x' & E' & X'). rewrite E in E'. injection E' as Ey Em <-. destruct t as [y m d], t' as [y' m' d']. cbn in *. subst. f_equal.
  assert (D : (inject_Z d == inject_Z d')%Q) by (rewrite X in X'; lra). unfold Qeq in D. cbn in D. lia.
Qed.
Lemma late jd : 0 <= day_containing jd -> (- (1 # 2) <= jd)%Q.
Proof.
  unfold day_containing. intros H. pose proof (Qfloor_le (jd + (1 # 2))) as A.
  assert (B : (inject_Z 0 <= inject_Z (Qfloor (jd + (1 # 2))))%Q) by (rewrite <- Zle_Qle; auto).
  change (inject_Z 0) with 0%Q in B. lra.
Qed.
Lemma late_greg jd : first_gregorian <= day_containing jd -> (- (1 # 2) <= jd)%Q.
Proof. intros H. apply late. unfold first_gregorian in H. lia. Qed.

(** ** C49: from the Gregorian reform on, [from_julian] returns the Gregorian date ... except
    on the days that are [behind]. *)
Theorem C49_calendar_date_partial :
  forall jd, first_gregorian <= day_containing jd <= 1000000000 ->
    (returns_date jd (gregorian_date (day_containing jd)) <-> ~ behind (day_containing jd)).
Proof.
  intros jd N. pose proof (returned jd (late_greg jd (proj1 N))) as R. split.
  - intros R' B. pose proof (returns_unique _ _ _ R R') as E.
    destruct (shifted_behind _ N B) as (P & B').
    destruct (julian_date_spec _ P) as (_ & D1). destruct (julian_date_spec (shifted (day_containing jd) + 1) ltac:(lia)) as (_ & D2).
    rewrite B', <- E in D2. lia.
  - intros B. now rewrite <- (shifted_right _ N B).
Qed.
(** On those days it returns the day before, and for 1 March a 29 February that does not
    exist. *)
Theorem C49_calendar_date_refuted :
  (forall jd, first_gregorian <= day_containing jd <= 1000000000 -> behind (day_containing jd) ->
     exists t, returns_date jd t /\ next_day julian_leap t = gregorian_date (day_containing jd)) /\
  (forall c, 17 <= c <= 27000 -> c mod 4 <> 0 ->
     exists n, first_gregorian <= n /\ gregorian_date n = mkDate (100 * c) 3 1 /\
       forall jd, day_containing jd = n -> returns_date jd (mkDate (100 * c) 2 29) /\
         ~ valid gregorian_leap (mkDate (100 * c) 2 29)).
Proof.
  assert (A : forall jd, first_gregorian <= day_containing jd <= 1000000000 -> behind (day_containing jd) ->
     exists t, returns_date jd t /\ valid julian_leap t /\ next_day julian_leap t = gregorian_date (day_containing jd)).
  { intros jd N B. destruct (shifted_behind _ N B) as (P & B'). rewrite julian_date_next in B' by exact P.
    destruct (julian_date_spec _ P) as (V & _).
    exists (julian_date (shifted (day_containing jd))). split; [apply returned, late_greg; lia|auto]. }
  split.
  - intros jd N B. destruct (A jd N B) as (t & ? & ? & ?). eauto.
  - intros c C M. exists (march c).
    assert (F : first_gregorian <= march c <= limit).
    { unfold march, first_gregorian, limit. pose proof (Z.div_mod c 4 ltac:(lia)). pose proof (Z.mod_pos_bound c 4 ltac:(lia)). lia. }
    split; [lia|]. split; [apply march_date; lia|]. intros jd E.
    assert (B : behind (march c)).
    { exists c, (march c). pose proof (Z.mod_pos_bound c 4 ltac:(lia)).
      split; [exact M|]. split; [lia|]. split; [apply march_date; lia|lia]. }
    destruct (A jd) as (t & R & V & X); rewrite E in *; auto.
    rewrite march_date in X by lia.
    assert (G : gregorian_leap (100 * c) = false).
    { apply gregorian_leap_false. right. split; [rewrite Z.mul_comm; apply Z.mod_mul; lia|].
      change 400 with (100 * 4). rewrite Z.mul_mod_distr_l by lia. lia. }
    assert (J : julian_leap (100 * c) = true).
    { apply julian_leap_iff. replace (100 * c) with (25 * c * 4) by ring. apply Z.mod_mul; lia. }
    split.
    + destruct t as [y m d]. unfold next_day in X. destruct V as (V1 & V2). cbn [year month day] in *.
      destruct (Z.ltb_spec d (month_length julian_leap y m)) as [H|H]; [pose proof (f_equal day X) as Ed; cbn [day] in Ed; lia|].
      destruct (m <? 12); pose proof (f_equal year X) as Ey; pose proof (f_equal month X) as Em; cbn [year month] in Ey, Em; [|lia].
      assert (m = 2) by lia. subst y m.
      rewrite month_length_feb, J in V2, H. assert (d = 29) by lia. now subst d.
    + intros (_ & V'). cbn [year month day] in V'. rewrite month_length_feb, G in V'. lia.
Qed.
(** Both sides are inhabited: noon of 4 October 1957 and of 1 March 2100. *)
Example C49_right : first_gregorian <= day_containing 2436116 <= 1000000000 /\
  gregorian_date (day_containing 2436116) = mkDate 1957 10 4 /\ returns_date 2436116 (mkDate 1957 10 4).
Proof.
  split; [vm_compute; split; discriminate|]. split; [symmetry; apply gregorian_date_unique; vm_compute; repeat split; discriminate|].
  eexists. split; vm_compute; reflexivity.
Qed.
Example C49_wrong : gregorian_date 2488129 = mkDate 2100 3 1 /\ returns_date 2488129 (mkDate 2100 2 29).
Proof.
  split; [symmetry; apply gregorian_date_unique; vm_compute; repeat split; discriminate|].
  eexists. split; vm_compute; reflexivity.
Qed.

(** ** C50: arrays *)
Theorem C50_elementwise_partial :
  forall js, (forall jd, In jd js -> 2291161 <= day_containing jd) ->
    exists ys ms ds, from_julian js = Ok (ys, ms, ds) /\
      length ys = length js /\ length ms = length js /\ length ds = length js /\
      forall i, (i < length js)%nat -> from_julian [nth i js 0%Q] = Ok ([nth i ys 0], [nth i ms 0], [nth i ds 0%Q]).
Proof.
  intros js H.
  assert (C : gregorian_correction (map (fun x => Qtrunc (x + (1 # 2))) js) = Ok (map (fun x => shifted (Qtrunc (x + (1 # 2)))) js)).
  { rewrite correction_all; [now rewrite map_map|]. intros x I. apply in_map_iff in I. destruct I as (j & <- & I).
    specialize (H j I). destruct (day_trunc j) as (-> & _); auto. apply late. lia. }
  rewrite (from_julian_map js C). do 3 eexists. split; [reflexivity|]. rewrite !map_length. repeat split; auto.
  intros i I. rewrite from_julian_one.
  assert (M : forall A (f : Q -> A) d, nth i (map f js) d = f (nth i js 0%Q)).
  { intros A f d. rewrite (nth_indep _ d (f 0%Q)) by now rewrite map_length. apply map_nth. }
  now rewrite !M.
Qed.
(** Every longer array with an earlier date fails, although the dates convert one by one. *)
Theorem C50_elementwise_refuted :
  forall js, (2 <= length js)%nat -> (forall jd, In jd js -> 0 <= day_containing jd) ->
    (exists jd, In jd js /\ day_containing jd < 2291161) ->
    from_julian js = Raise ValueError /\
    (forall jd, In jd js -> exists ymd, from_julian [jd] = Ok ymd).
Proof.
  intros js L P (jd & I & X). split.
  - unfold from_julian. cbv zeta. rewrite !map_map, correction_fails; auto.
    + now rewrite map_length.
    + exists (day_containing jd). split; auto. apply in_map_iff. exists jd. split; auto.
      apply day_trunc. apply late. auto.
  - intros j _. rewrite from_julian_one. eauto.
Qed.
Example C50_right : (forall jd, In jd [2436116; 2451545]%Q -> 2291161 <= day_containing jd) /\
  match from_julian [2436116; 2451545]%Q with
  | Ok (ys, ms, ds) => ys = [1957; 2000] /\ ms = [10; 1] /\ Forall2 Qeq ds [9 # 2; 3 # 2]%Q
  | Raise _ => False
  end.
Proof.
  split; [intros jd [<-|[<-|[]]]; vm_compute; discriminate|]. vm_compute. repeat split; repeat constructor.
Qed.
Example C50_wrong : from_julian [1842713; 2451545]%Q = Raise ValueError.
Proof. reflexivity. Qed.

(** ** C51: the day of the year *)
(** After February in a century year that is not a leap year. *)
Definition late_in_common_century_year (t : date) : Prop :=
  year t mod 100 = 0 /\ year t mod 400 <> 0 /\ 2 < month t.

Lemma leap_agree y : ~ (y mod 100 = 0 /\ y mod 400 <> 0) -> julian_leap y = gregorian_leap y.
Proof.
  intros H. destruct (julian_leap y) eqn:J, (gregorian_leap y) eqn:G; auto.
  - apply julian_leap_iff in J. apply gregorian_leap_false in G. tauto.
  - apply julian_leap_false in J. apply gregorian_leap_iff in G. tauto.
Qed.
Lemma julian_doy t : 1 <= month t <= 12 ->
  day_in_year julian_leap t = day_in_year gregorian_leap t + (if (2 <? month t) then (if year t mod 100 =? 0 then if year t mod 400 =? 0 then 0 else 1 else 0) else 0).
Proof.
  intros M. rewrite !day_in_year_spec by auto. destruct (2 <? month t); cbn [andb]; [|lia].
  destruct (Z.eqb_spec (year t mod 100) 0) as [A|A]; [destruct (Z.eqb_spec (year t mod 400) 0) as [B|B]|].
  - rewrite leap_agree by tauto. lia.
  - assert (julian_leap (year t) = true) as ->.
    { apply julian_leap_iff. Z.div_mod_to_equations; lia. }
    assert (gregorian_leap (year t) = false) as -> by (apply gregorian_leap_false; tauto). lia.
  - rewrite leap_agree by tauto. lia.
Qed.

Theorem C51_day_of_year_partial :
  forall jd, first_gregorian <= day_containing jd <= 1000000000 ->
    let t := gregorian_date (day_containing jd) in
    (~ behind (day_containing jd) /\ ~ late_in_common_century_year t) \/ (behind (day_containing jd) /\ year t mod 100 = 0) ->
    day_of_year [jd] = Ok [day_in_year gregorian_leap t].
Proof.
  intros jd N t H. rewrite day_of_year_spec by (apply late_greg; lia). do 2 f_equal.
  destruct (gregorian_date_spec _ (proj1 N)) as ((V & _) & _). destruct H as [(B & L)|(B & Y)].
  - rewrite (shifted_right _ N B). fold t. fold t in V. rewrite julian_doy by exact V. unfold late_in_common_century_year in L.
    destruct (Z.ltb_spec 2 (month t)); [|lia]. destruct (Z.eqb_spec (year t mod 100) 0); [|lia].
    destruct (Z.eqb_spec (year t mod 400) 0); [lia|tauto].
  - destruct (shifted_behind _ N B) as (P & E). rewrite julian_date_next in E by exact P. fold t in E, V.
    destruct (behind_century _ N B Y) as (M & G & J). fold t in M, G, J.
    destruct (julian_date_spec _ P) as (V' & _). set (t' := julian_date _) in *.
    assert (Z : day_in_year julian_leap t = day_in_year julian_leap t' + 1).
    { rewrite <- E. apply day_in_year_next; auto. rewrite E.
      destruct (Z.eq_dec (year t) (year t')) as [Q|Q]; auto. rewrite <- E in Q. apply next_day_year in Q. rewrite E in Q. lia. }
    rewrite julian_doy in Z by exact V. destruct (Z.ltb_spec 2 (month t)); [|lia].
    rewrite Y in Z. cbn [Z.eqb] in Z. destruct (Z.eqb_spec (year t mod 400) 0) as [Q|Q]; [|lia].
    exfalso. apply gregorian_leap_false in G. apply julian_leap_iff in J. tauto.
Qed.
Theorem C51_day_of_year_refuted :
  forall jd, first_gregorian <= day_containing jd <= 1000000000 ->
    let t := gregorian_date (day_containing jd) in
    ~ behind (day_containing jd) -> late_in_common_century_year t ->
    day_of_year [jd] = Ok [day_in_year gregorian_leap t + 1].
Proof.
  intros jd N t B (L1 & L2 & L3). rewrite day_of_year_spec by (apply late_greg; lia). do 2 f_equal.
  destruct (gregorian_date_spec _ (proj1 N)) as ((V & _) & _).
  rewrite (shifted_right _ N B). fold t in V |- *. rewrite julian_doy by exact V.
  rewrite (proj2 (Z.ltb_lt _ _) L3), L1. cbn [Z.eqb]. now rewrite (proj2 (Z.eqb_neq _ _) L2).
Qed.
(** 22 April 1988 is day 113; 31 December 1900 is given the number 366. *)
Example C51_right : gregorian_date (day_containing 2447274) = mkDate 1988 4 22 /\
  day_of_year [2447274%Q] = Ok [113] /\ day_in_year gregorian_leap (mkDate 1988 4 22) = 113.
Proof. split; [symmetry; apply gregorian_date_unique; vm_compute; repeat split; discriminate|]. split; vm_compute; reflexivity. Qed.
Example C51_wrong : gregorian_date (day_containing 2415385) = mkDate 1900 12 31 /\
  day_of_year [2415385%Q] = Ok [366] /\ day_in_year gregorian_leap (mkDate 1900 12 31) = 365.
Proof. split; [symmetry; apply gregorian_date_unique; vm_compute; repeat split; discriminate|]. split; vm_compute; reflexivity. Qed.

(** ** C79: before the reform *)
Theorem C79_julian_calendar_partial :
  forall jd, 0 <= day_containing jd < 2291161 ->
    returns_date jd (julian_date (day_containing jd)) /\
    day_of_year [jd] = Ok [day_in_year julian_leap (julian_date (day_containing jd))].
Proof.
  intros jd N. assert (E : shifted (day_containing jd) = day_containing jd).
  { unfold shifted. now rewrite (proj2 (Z.leb_gt _ _)) by lia. }
  pose proof (returned jd (late jd (proj1 N))) as R. rewrite E in R. split; auto.
  rewrite day_of_year_spec by (apply late; lia). now rewrite E.
Qed.
(** The last 8000 days before the reform get the date of ten days later. *)
Theorem C79_julian_calendar_refuted :
  forall jd, 2291161 <= day_containing jd < first_gregorian ->
    exists k, 9 <= k <= 10 /\ returns_date jd (julian_date (day_containing jd + k)) /\
      julian_date (day_containing jd + k) <> julian_date (day_containing jd).
Proof.
  intros jd N. unfold first_gregorian in N.
  exists (shifted (day_containing jd) - day_containing jd).
  assert (K : 9 <= shifted (day_containing jd) - day_containing jd <= 10).
  { rewrite shifted_spec by lia. set (n := day_containing jd) in *. unfold century.
    assert (11 <= (4 * n - 7468865) / 146100 <= 11) as C.
    { split; [apply Z.div_le_lower_bound|apply Z.lt_succ_r, Z.div_lt_upper_bound]; lia. }
    assert ((4 * n - 7468865) / 146100 = 11) as -> by lia. cbn. lia. }
  split; auto. replace (day_containing jd + (shifted (day_containing jd) - day_containing jd)) with (shifted (day_containing jd)) by lia.
  split; [apply returned, late; lia|]. intros E.
  destruct (julian_date_spec (day_containing jd) ltac:(lia)) as (_ & D1).
  destruct (julian_date_spec (shifted (day_containing jd)) ltac:(lia)) as (_ & D2). rewrite E in D2. lia.
Qed.
(** Meeus, example 7.d: 27 January 333. *)
Example C79_right : day_containing 1842713 = 1842713 /\ julian_date 1842713 = mkDate 333 1 27 /\ returns_date 1842713 (mkDate 333 1 27).
Proof.
  split; [reflexivity|]. split; [symmetry; apply julian_date_unique; vm_compute; repeat split; discriminate|].
  eexists. split; vm_compute; reflexivity.
Qed.
(** 4 October 1582, the last day of the Julian calendar, is returned as 14 October. *)
Example C79_wrong : julian_date 2299160 = mkDate 1582 10 4 /\ returns_date 2299160 (mkDate 1582 10 14).
Proof.
  split; [symmetry; apply julian_date_unique; vm_compute; repeat split; discriminate|].
  eexists. split; vm_compute; reflexivity.
Qed.

(** ** C80: Time.datetime *)
Lemma accepts_valid y m d : 1 <= y <= 9999 -> (datetime_accepts y m d = true <-> valid gregorian_leap (mkDate y m d)).
Proof.
  intros Y. unfold datetime_accepts, valid. cbn [year month day]. fold (gregorian_leap y).
  rewrite !andb_true_iff, !Z.leb_le.
  destruct (Z.le_gt_cases 1 m) as [A|A]; [destruct (Z.le_gt_cases m 12) as [B|B]|]; [|lia|lia].
  assert (L : (if m =? 2 then if gregorian_leap y then 29 else 28
      else if (m =? 4) || (m =? 6) || (m =? 9) || (m =? 11) then 30 else 31) = month_length gregorian_leap y m).
  { months m W; reflexivity. }
  rewrite L. tauto.
Qed.
Lemma years n : first_gregorian <= n <= 5373484 -> 1 <= year (gregorian_date n) <= 9999.
Proof.
  intros N. destruct (gregorian_date_spec n (proj1 N)) as (V & D). pose proof (valid_bounds _ _ V) as (B1 & B2).
  destruct V as (V & _). unfold gregorian_days in D. cbv zeta in D. unfold first_gregorian in N.
  set (t := gregorian_date n) in *. clearbody t. set (y := year t) in *.
  set (i := if (2 <? month t) && gregorian_leap y then 1 else 0) in *.
  assert (I : 0 <= i <= 1) by (unfold i; destruct (_ && _); lia). clearbody i.
  assert (X : 1 <= before_month (month t) + day t <= 365) by lia. clearbody y.
  pose proof (Z.div_mod (y - 1) 4 ltac:(lia)). pose proof (Z.mod_pos_bound (y - 1) 4 ltac:(lia)).
  pose proof (Z.div_mod (y - 1) 100 ltac:(lia)). pose proof (Z.mod_pos_bound (y - 1) 100 ltac:(lia)).
  pose proof (Z.div_mod (y - 1) 400 ltac:(lia)). pose proof (Z.mod_pos_bound (y - 1) 400 ltac:(lia)).
  clear B1 B2 V. split; lia.
Qed.
Lemma whole_and_part x d p : (x == inject_Z d + p)%Q -> (0 <= p < 1)%Q -> 0 <= d -> Qtrunc x = d /\ (Qpymod x 1 == p)%Q.
Proof.
  intros X P D. assert (D' : (inject_Z 0 <= inject_Z d)%Q) by (rewrite <- Zle_Qle; auto). change (inject_Z 0) with 0%Q in D'.
  assert (F : Qfloor x = d).
  { apply Qfloor_unique; rewrite ?inject_Z_plus; change (inject_Z 1) with 1%Q; rewrite X; lra. }
  split; [rewrite Qtrunc_floor; auto; rewrite X; lra|]. rewrite Qpymod1, F, X. ring.
Qed.

Theorem C80_datetime_partial :
  forall js, (forall jd, In jd js -> first_gregorian <= day_containing jd <= 5373484 /\ ~ behind (day_containing jd)) ->
    exists out, time_datetime js = Ok out /\
      Forall2 (fun jd e => match e with (y, m, d, f) =>
        mkDate y m d = gregorian_date (day_containing jd) /\ (f == part_of_day jd)%Q end) js out.
Proof.
  intros js H.
  assert (C : gregorian_correction (map (fun x => Qtrunc (x + (1 # 2))) js) = Ok (map (fun x => shifted (Qtrunc (x + (1 # 2)))) js)).
  { rewrite correction_all; [now rewrite map_map|]. intros x I. apply in_map_iff in I. destruct I as (j & <- & I).
    destruct (H j I) as (H1 & _). unfold first_gregorian in H1. destruct (day_trunc j) as (-> & _); [apply late|]; lia. }
  unfold time_datetime. rewrite (from_julian_map js C). cbn [bind]. clear C.
  induction js as [|j js IH]; [exists []; split; constructor|].
  destruct IH as (out & E & F). { intros jd I. apply H. now right. }
  destruct (H j (or_introl eq_refl)) as (N & B).
  cbn [map combine mapM]. rewrite E.
  assert (R : returns_date j (gregorian_date (day_containing j))).
  { apply C49_calendar_date_partial; auto. lia. }
  destruct R as (x & R & X). rewrite from_julian_one in R. injection R as R1 R2 R3. rewrite R1, R2, R3.
  destruct (gregorian_date_spec _ (proj1 N)) as (V & _). pose proof (years _ N) as Y.
  remember (gregorian_date (day_containing j)) as t eqn:Et.
  destruct (whole_and_part x (day t) (part_of_day j) X (part_of_day_range j)) as (-> & P). { destruct V. lia. }
  assert (datetime_accepts (year t) (month t) (day t) = true) as ->.
  { apply accepts_valid; auto. }
  cbn [bind]. eexists. split; [reflexivity|]. constructor; [|exact F].
  split; [|exact P]. rewrite <- Et. destruct t; reflexivity.
Qed.
(** It fails at every moment of 1 March of the century years from 1700 that are not leap
    years. *)
Theorem C80_datetime_refuted :
  forall c, 17 <= c <= 99 -> c mod 4 <> 0 ->
    exists n, first_gregorian <= n /\ gregorian_date n = mkDate (100 * c) 3 1 /\
      forall jd, day_containing jd = n -> time_datetime [jd] = Raise ValueError.
Proof.
  intros c C M. destruct (proj2 C49_calendar_date_refuted c ltac:(lia) M) as (n & F & G & A).
  exists n. split; auto. split; auto. intros jd E. destruct (A jd E) as ((x & R & X) & V).
  unfold time_datetime. rewrite R. cbn [bind combine mapM year month].
  destruct (whole_and_part x 29 (part_of_day jd) X (part_of_day_range jd)) as (-> & _); [lia|].
  assert (datetime_accepts (100 * c) 2 29 = false) as ->; [|reflexivity].
  apply not_true_iff_false. intros H. apply accepts_valid in H; [|lia]. now apply V.
Qed.
(** Also arrays with dates before the threshold, see [C50_elementwise_refuted]. *)
Example C80_right : first_gregorian <= day_containing (9821475 # 4) <= 5373484 /\
  gregorian_date (day_containing (9821475 # 4)) = mkDate 2010 6 21 /\
  match time_datetime [9821475 # 4]%Q with
  | Ok [(y, m, d, f)] => (y, m, d) = (2010, 6, 21) /\ (f == 1 # 4)%Q
  | _ => False
  end.
Proof.
  split; [vm_compute; split; discriminate|]. split; [symmetry; apply gregorian_date_unique; vm_compute; repeat split; discriminate|].
  vm_compute. split; reflexivity.
Qed.
Example C80_wrong : time_datetime [2488129%Q] = Raise ValueError.
Proof. reflexivity. Qed.

Print Assumptions C49_calendar_date_partial.
Print Assumptions C49_calendar_date_refuted.
Print Assumptions C50_elementwise_partial.
Print Assumptions C50_elementwise_refuted.
Print Assumptions C51_day_of_year_partial.
Print Assumptions C51_day_of_year_refuted.
Print Assumptions C79_julian_calendar_partial.
Print Assumptions C79_julian_calendar_refuted.
Print Assumptions C80_datetime_partial.
Print Assumptions C80_datetime_refuted.
