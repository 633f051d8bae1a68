(** C126 to C130: remainders, the calendar and the clock in floating point. *)
From Coq Require Import List ZArith QArith Qround Qreals Reals Lra Lia Bool.
From Flocq Require Import Core.Core IEEE754.BinarySingleNaN IEEE754.Binary IEEE754.Bits.
From Verif Require Import Py PyLemmas Cal_Model Cal_Spec Cal_Proofs Cal_Proofs2 Cal_Proofs3 Cal_Props Fl_Model Fl_Spec Fl_Proofs
  Flc_Model Flc_Spec Flc_Proofs Flc_Proofs2 Flc_Proofs3 Flc_Proofs4 Flc_Proofs5.
Import ListNotations.
Open Scope R_scope.
Open Scope list_scope.

(** ** C126: [x % y] is the exact remainder, rounded to the nearest float. *)
Lemma modulo_left_over x m : 0 < m -> left_over x m (modulo x m).
Proof. intros M. split; [now apply modulo_range|apply modulo_ex]. Qed.
Theorem C126_remainder_rounded :
  forall x y, finite x -> finite y -> 0 < value y <= 2 ^ 900 ->
    exists r, left_over (value x) (value y) r /\ finite (fpymod x y) /\ value (fpymod x y) = nearest r.
Proof.
  intros x y Fx Fy Y. exists (modulo (value x) (value y)). split; [apply modulo_left_over; lra|].
  apply (fpymod_ok x y Fx Fy). rewrite two_pow_900 in Y. pose proof (bpow_le radix2 900 1000 ltac:(lia)). lra.
Qed.
(** For numbers that are not negative there is no rounding at all. *)
Theorem C126_remainder_exact_partial :
  forall x y, finite x -> finite y -> 0 < value y <= 2 ^ 900 -> 0 <= value x ->
    left_over (value x) (value y) (value (fpymod x y)).
Proof.
  intros x y Fx Fy Y X. pose proof Y as Y'. rewrite two_pow_900 in Y'. pose proof (bpow_le radix2 900 1000 ltac:(lia)) as P.
  destruct (fpymod_ok x y Fx Fy ltac:(lra)) as (_ & V). destruct (fmod_ok x y Fx Fy ltac:(lra)) as (_ & W).
  rewrite Ztrunc_floor in W by (apply Rmult_le_pos; [lra|left; apply Rinv_0_lt_compat; lra]). fold (modulo (value x) (value y)) in W.
  rewrite <- W, rnd_fmt in V by apply value_fmt. rewrite V, W. apply modulo_left_over. lra.
Qed.
(** For a negative number the result can be [y] itself, which no remainder is: mean solar times
    just west of Greenwich at midnight are 24. *)
Theorem C126_remainder_below_refuted :
  forall x l, dated x -> left_over (value x) 1 (/ 2) -> finite l -> - / 2 ^ 46 <= value l <= - / 10 ^ 290 ->
    value (fmean_solar_time x l) = 24.
Proof.
  intros x l D (H & k & E) F B.
  assert (P : 0 < / 10 ^ 290) by (apply Rinv_0_lt_compat, pow_lt; lra).
  assert (Q : / 10 ^ 300 <= / 10 ^ 290 / 15).
  { unfold Rdiv. rewrite <- Rinv_mult. apply Rinv_le_contravar; [apply Rmult_lt_0_compat; [apply pow_lt|]; lra|].
    replace 300%nat with (290 + 10)%nat by reflexivity. rewrite pow_add. apply Rmult_le_compat_l; [apply pow_le; lra|]. lra. }
  apply mst_24; auto; [apply modulo_unique with k; auto; lra| |lra]. replace 70368744177664 with (2 ^ 46) by lra. lra.
Qed.

(** ** C127: in floating point, [from_julian] is the exact calendar *)
Theorem C127_calendar_exact :
  forall js qs, Forall dated js -> Forall2 is_exactly js qs ->
    match from_julian qs with
    | Ok (ys, ms, ds) => exists ds', ffrom_julian js = Ok (ys, ms, ds') /\ Forall2 is_exactly ds' ds
    | Raise e => ffrom_julian js = Raise e
    end.
Proof.
  intros js qs D S. pose proof (from_julian_exact js qs D S) as H. destruct (from_julian qs) as [[[ys ms] ds]|e]; auto.
  destruct H as (ds' & E & A & _). eauto.
Qed.
(** The day (from midnight to midnight) of a Julian date, by its noon. *)
Definition day_of (x : float) : Z := Zfloor (value x + / 2).
Lemma day_of_Q x q : is_exactly x q -> day_of x = day_containing q.
Proof. intros (_ & V). unfold day_of, day_containing. rewrite <- floor_Q, Q2R_plus, Q2R_half, V. reflexivity. Qed.
Lemma part_Q x q : is_exactly x q -> Q2R (part_of_day q) = value x + / 2 - IZR (day_of x).
Proof. intros S. unfold part_of_day. rewrite <- (day_of_Q x q S). destruct S as (_ & V). rewrite Q2R_minus, Q2R_plus, Q2R_half, Q2R_int, V. reflexivity. Qed.
Theorem C127_gregorian_date :
  forall x, dated x -> (first_gregorian <= day_of x)%Z -> ~ behind (day_of x) ->
    exists d, ffrom_julian [x] = Ok ([year (gregorian_date (day_of x))], [month (gregorian_date (day_of x))], [d]) /\
      finite d /\ value d = IZR (day (gregorian_date (day_of x))) + (value x + / 2 - IZR (day_of x)).
Proof.
  intros x D G B. destruct (float_rational x (proj1 D)) as (q & S). pose proof (day_of_Q x q S) as E.
  assert (L : (day_of x <= 1000000000)%Z).
  { unfold day_of. destruct D as (_ & D). pose proof (Zfloor_le (value x + / 2) (IZR 1000000000) ltac:(lra)) as K. rewrite Zfloor_IZR in K. exact K. }
  rewrite E in G, B, L. pose proof (proj2 (C49_calendar_date_partial q (conj G L)) B) as (xq & R & Rx).
  pose proof (C127_calendar_exact [x] [q] (Forall_cons _ D (Forall_nil _)) (Forall2_cons _ _ S (Forall2_nil _))) as H. rewrite R in H.
  destruct H as (ds' & H & A). inversion A as [|d ? ? ? A1 A2]; subst. inversion A2; subst. exists d. rewrite E. split; auto.
  destruct A1 as (Fd & Vd). split; auto. rewrite Vd, (Qeq_eqR _ _ Rx), Q2R_plus, Q2R_int, (part_Q x q S), E. reflexivity.
Qed.

(** ** C128: the day of the year and datetimes *)
Theorem C128_day_of_year_exact :
  forall js qs, Forall dated js -> Forall2 is_exactly js qs -> fday_of_year js = day_of_year qs.
Proof. exact day_of_year_exact. Qed.
(** Datetimes have the date of the exact calendar, and its time to half a microsecond (and the
    rounding of the product); they fail exactly when it does. *)
Theorem C128_datetime_exact :
  forall js qs, Forall dated js -> Forall2 is_exactly js qs ->
    match time_datetime qs with
    | Ok out => exists out', fdatetime js = Ok out' /\
        Forall2 (fun e e' => match e, e' with (y, m, d, us), (y', m', d', part) =>
          (y, m, d) = (y', m', d') /\ (0 <= us < 86400000000)%Z /\ Rabs (IZR us - 86400000000 * Q2R part) <= / 2 + / 100000 end) out' out
    | Raise e => fdatetime js = Raise e
    end.
Proof.
  intros js qs D S. pose proof (datetime_exact js qs D S) as E. destruct (time_datetime qs) as [out|e]; auto.
  destruct E as (out' & E & F). exists out'. split; auto. clear - F. induction F as [|a b l m A _ IH]; constructor; auto. revert A. destruct a as [[[y m0] d] us], b as [[[y' m'] d'] f].
  intros (-> & -> & -> & C1 & C2). auto.
Qed.
(** So they are right on the days the calendar is: right to half a microsecond (and the rounding of the product), and never
    spill into the next day. *)
Theorem C128_datetime_right :
  forall js, Forall (fun x => dated x /\ (first_gregorian <= day_of x)%Z /\ ~ behind (day_of x)) js ->
    exists out, fdatetime js = Ok out /\
      Forall2 (fun x e => match e with (y, m, d, us) =>
        mkDate y m d = gregorian_date (day_of x) /\ (0 <= us < 86400000000)%Z /\
        Rabs (IZR us - 86400000000 * (value x + / 2 - IZR (day_of x))) <= / 2 + / 100000 end) js out.
Proof.
  intros js H.
  assert (S : exists qs, Forall2 is_exactly js qs).
  { clear -H. induction H as [|x js (D & _) _ (qs & IH)]; [exists []; constructor|].
    destruct (float_rational x (proj1 D)) as (q & S). exists (q :: qs). now constructor. }
  destruct S as (qs & S).
  assert (D : Forall dated js) by (eapply Forall_impl; [|exact H]; intros x (D & _); exact D).
  pose proof (datetime_exact js qs D S) as E.
  destruct (C80_datetime_partial qs) as (out & O & F).
  { clear -H S. induction S as [|x q js qs S1 S2 IH]; intros jd I; [contradiction|]. inversion H as [|? ? (D & G & B) H']; subst.
    destruct I as [<-|I]; [|now apply IH]. rewrite (day_of_Q x q S1) in G, B. split; [split; auto|auto].
    rewrite <- (day_of_Q x q S1). unfold day_of. destruct D as (_ & D). pose proof (Zfloor_le (value x + / 2) (IZR 5373484) ltac:(lra)) as K. rewrite Zfloor_IZR in K. exact K. }
  rewrite O in E. destruct E as (out' & E & W). exists out'. split; auto. clear E O D H.
  revert out' out W F. induction S as [|x q js qs S1 S2 IH]; intros out' out W F.
  - inversion F; subst. inversion W; subst. constructor.
  - inversion F as [|? e ? out1 F1 F2]; subst. inversion W as [|e' ? out1' ? W1 W2]; subst. constructor; [|eapply IH; eauto].
    destruct e as [[[y m] d] f]. destruct e' as [[[y' m'] d'] us]. destruct W1 as (-> & -> & -> & C1 & C2). destruct F1 as (F1 & Ff).
    rewrite (day_of_Q x q S1). split; auto. split; auto. rewrite (Qeq_eqR _ _ Ff), (part_Q x q S1), (day_of_Q x q S1) in C2. exact C2.
Qed.

(** ** C129: the earth rotation angle *)
(** The angle, in degrees, of the documented formula. *)
Definition documented_era (jd : R) : R := 360.9856123035484 * (jd - 2451545) + 280.46.
Theorem C129_era_normalised :
  forall x, dated x -> finite (fearth_rotation_angle x) /\ 0 <= value (fearth_rotation_angle x) < 360.
Proof. intros x D. destruct (era_ok x D) as (F & B & _). auto. Qed.
Theorem C129_era_accurate :
  forall x, dated x -> apart_at_most 360 (3 / 10000000) (value (fearth_rotation_angle x)) (documented_era (value x)).
Proof.
  intros x D. destruct (era_ok x D) as (_ & _ & k & E). exists k. unfold documented_era.
  replace (360.9856123035484 * (value x - 2451545) + 280.46) with (era_rate * (value x - 2451545) + 28046 / 100) by (unfold era_rate; lra). exact E.
Qed.

(** ** C130: clock times *)
(** Universal time is the time since midnight, exactly. *)
Theorem C130_ut1_exact :
  forall x, dated x -> finite (fut1 x) /\ left_over (24 * (value x + / 2)) 24 (value (fut1 x)).
Proof. exact ut1_ok. Qed.
(** Local mean times are off by some picoseconds ([1e-14] hours are 36 picoseconds). *)
Theorem C130_mean_times_accurate :
  forall x l, dated x -> finite l -> -360 <= value l <= 360 ->
    (0 <= value (fmean_solar_time x l) <= 24 /\
     apart_at_most 24 (1 / 10 ^ 14) (value (fmean_solar_time x l)) (24 * (value x + / 2) + value l / 15)) /\
    (0 <= value (fmean_hour_angle x l) <= 24 /\
     apart_at_most 24 (2 / 10 ^ 14) (value (fmean_hour_angle x l)) (24 * value x + value l / 15)).
Proof.
  intros x l D F B. destruct (mst_ok x l D (conj F B)) as (_ & A1 & A2). destruct (mha_ok x l D (conj F B)) as (_ & B1 & B2).
  replace (1 / 10 ^ 14) with (/ 100000000000000) by lra. replace (2 / 10 ^ 14) with (2 / 100000000000000) by lra. auto.
Qed.

(** ** Cases *)
Lemma dated_literal n d : (0 < d <= 1000)%Z -> (2097153 * d <= n <= 4194302 * d)%Z -> dated (literal n d).
Proof.
  intros D N. destruct (literal_rnd n d) as (F & V); [lia|lia|]. split; auto. rewrite V.
  assert (Dr : 1 <= IZR d) by (apply (IZR_le 1); lia).
  assert (B : 2097153 <= IZR n / IZR d <= 4194302).
  { split; (apply Rmult_le_reg_r with (IZR d); [lra|]); unfold Rdiv; rewrite (Rmult_assoc (IZR n)), Rinv_l, Rmult_1_r, <- mult_IZR by lra; apply IZR_le; lia. }
  split.
  - apply rnd_ge; [|lra]. rewrite <- (Rmult_1_r 2097152). apply (fmt_int 2097152 0); lia.
  - apply Rle_lt_trans with 4194302; [|lra]. apply rnd_le_fmt; [|lra]. rewrite <- (Rmult_1_r 4194302). apply (fmt_int 4194302 0); lia.
Qed.
Definition a_date : float := literal 24553687 10.
Example C127_case : dated a_date /\ (first_gregorian <= day_of a_date)%Z /\ ~ behind (day_of a_date) /\
  match ffrom_julian [a_date] with Ok ([y], [m], [d]) => (y =? 2010)%Z && (m =? 6)%Z && flt (literal 211999 10000) d && flt d (literal 212001 10000) | _ => false end = true.
Proof.
  assert (D : dated a_date) by (apply dated_literal; lia). split; [exact D|].
  assert (N : day_of a_date = 2455369%Z).
  { unfold day_of, a_date in *. destruct (literal_rnd 24553687 10) as (_ & V); [lia|lia|]. apply Zfloor_imp. rewrite V.
    pose proof (rnd_err_pos (24553687 / 10) ltac:(lra)) as E. rewrite uu_value in E. rewrite plus_IZR. lra. }
  rewrite N. split; [unfold first_gregorian; lia|]. split.
  - change 2455369%Z with (day_containing 2455369). apply (proj1 (C49_calendar_date_partial 2455369 ltac:(vm_compute; split; discriminate))).
    exists (inject_Z 21 + (1 # 2))%Q. assert (G : gregorian_date (day_containing 2455369) = mkDate 2010 6 21) by (symmetry; apply gregorian_date_unique; vm_compute; repeat split; discriminate).
    rewrite G. split; vm_compute; reflexivity.
  - vm_compute. reflexivity.
Qed.
Example C128_case : match fdatetime [a_date] with Ok [(y, m, d, us)] => (y =? 2010)%Z && (m =? 6)%Z && (d =? 21)%Z && (us =? 17280000016)%Z | _ => false end = true
  /\ fday_of_year [a_date] = Ok [172%Z].
Proof. split; vm_compute; reflexivity. Qed.
Example C129_case : dated a_date /\ flt (of_Z 0) (fearth_rotation_angle a_date) && flt (fearth_rotation_angle a_date) (of_Z 360) = true.
Proof. split; [apply dated_literal; lia|]. vm_compute. reflexivity. Qed.
Example C130_case : dated a_date /\ flt (literal 4799999 1000000) (fut1 a_date) && flt (fut1 a_date) (literal 4800001 1000000) = true.
Proof. split; [apply dated_literal; lia|]. vm_compute. reflexivity. Qed.
(** Midnight, and a longitude of about [-1e-15] degrees. *)
Definition midnight : float := literal 4917699 2.
Definition just_west : float := fneg (fdiv (of_Z 1) (of_Z (2 ^ 50))).
Example C126_case : dated midnight /\ left_over (value midnight) 1 (/ 2) /\ finite just_west /\ - / 2 ^ 46 <= value just_west <= - / 10 ^ 290 /\
  feq (fmean_solar_time midnight just_west) (of_Z 24) = true.
Proof.
  split; [apply dated_literal; lia|]. split.
  - split; [lra|]. exists 2458849%Z. unfold midnight. destruct (literal_exact 4917699 2 4917699 (-1)) as (_ & V); try lia; [cbn; lra|]. rewrite V. lra.
  - assert (J : value just_west = - / 2 ^ 50).
    { unfold just_west. unfold value, fneg, b64_opp. rewrite B2R_Bopp. f_equal. destruct one_ok as (F1 & V1). destruct (of_Z_ok (2 ^ 50) ltac:(lia)) as (F & V).
      destruct (fdiv_ok (of_Z 1) (of_Z (2 ^ 50)) F1) as (_ & E).
      - rewrite V. apply IZR_neq. lia.
      - rewrite V1, V. change (2 ^ 50)%Z with 1125899906842624%Z. apply small_abs, Rabs_le. lra.
      - fold (value (fdiv (of_Z 1) (of_Z (2 ^ 50)))). rewrite E, V1, V. change (2 ^ 50)%Z with 1125899906842624%Z.
        replace (1 / 1125899906842624) with (bpow radix2 (-50)) by (cbn; lra). rewrite rnd_fmt by (apply fmt_pow; lia). cbn. lra. }
    split; [vm_compute; reflexivity|]. split; [|vm_compute; reflexivity]. rewrite J. split; [lra|].
    apply Ropp_le_contravar, Rinv_le_contravar; [apply pow_lt; lra|]. apply Rle_trans with (10 ^ 20); [lra|]. apply Rle_pow; [lra|lia].
Qed.

Print Assumptions C126_remainder_rounded.
Print Assumptions C126_remainder_exact_partial.
Print Assumptions C126_remainder_below_refuted.
Print Assumptions C127_calendar_exact.
Print Assumptions C127_gregorian_date.
Print Assumptions C128_day_of_year_exact.
Print Assumptions C128_datetime_exact.
Print Assumptions C128_datetime_right.
Print Assumptions C129_era_normalised.
Print Assumptions C129_era_accurate.
Print Assumptions C130_ut1_exact.
Print Assumptions C130_mean_times_accurate.
