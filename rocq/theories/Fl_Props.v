(** Properties of the floating-point results (C108-C111). *)
From Coq Require Import ZArith Reals Lra Lia Bool Psatz List.
From Flocq Require Import Core.Core IEEE754.BinarySingleNaN IEEE754.Binary IEEE754.Bits Relative Sterbenz Plus_error.
From Verif Require Import Py PyLemmas Fl_Model Fl_Spec Fl_Proofs.
Import ListNotations.
Open Scope R_scope.

Lemma measures_kind a b : measures a = measures b <-> kind_of a = kind_of b.
Proof. destruct a, b; cbn; split; intros; try discriminate; auto. Qed.

(** C108. A converted float stands for the same physical size up to one part in [2 ^ 50];
    units of different kinds raise ValueError. *)
Theorem C108_conversion_accurate :
  forall x a b, moderate x ->
    match fconvert x a b with
    | Ok y => measures a = measures b /\ finite y /\ Rabs (physical y b - physical x a) <= Rabs (physical x a) / 2 ^ 50
    | Raise e => e = ValueError /\ measures a <> measures b
    end.
Proof.
  intros x a b M. pose proof (measures_kind a b) as MK. destruct (kind_eqb (kind_of a) (kind_of b)) eqn:K.
  - apply kind_eqb_iff in K. destruct (convert_ok x a b K M) as (y & -> & F & O). split; [tauto|]. split; auto.
    unfold physical. pose proof (size_bounds b) as Bb. pose proof (off_abs _ _ _ O) as E.
    assert (X : value x * size a = value x * (size a / size b) * size b) by (field; lra). rewrite X. set (z := value x * (size a / size b)) in *. clearbody z.
    replace (value y * size b - z * size b) with ((value y - z) * size b) by ring. rewrite !Rabs_mult.
    unfold Rdiv. rewrite (Rmult_comm (Rabs z)), Rmult_assoc, (Rmult_comm (Rabs (size b))). apply Rmult_le_compat_r; [apply Rabs_pos|].
    eapply Rle_trans; [exact E|]. rewrite uu_value, Rmult_comm. apply Rmult_le_compat_l; [apply Rabs_pos|]. lra.
  - unfold fconvert. rewrite K. cbn [negb]. split; auto. intros E. apply MK, kind_eqb_iff in E. congruence.
Qed.

(** There and back: within one part in [2 ^ 49]. *)
Theorem C108_round_trip_partial :
  forall x a b y, moderate x -> moderate y -> fconvert x a b = Ok y ->
    exists z, fconvert y b a = Ok z /\ finite z /\ Rabs (value z - value x) <= Rabs (value x) / 2 ^ 49.
Proof.
  intros x a b y Mx My H. assert (K : kind_of a = kind_of b).
  { unfold fconvert in H. destruct (kind_eqb (kind_of a) (kind_of b)) eqn:K; [now apply kind_eqb_iff|discriminate]. }
  destruct (convert_ok x a b K Mx) as (y' & E & _ & O). assert (y' = y) by congruence. subst y'.
  destruct (convert_ok y b a (eq_sym K) My) as (z & Ez & Fz & Oz). exists z. split; auto. split; auto.
  assert (O2 : off 15 (value z) (value x)).
  { replace 15 with (7 + 7 + 1) by ring. eapply off_trans; [lra|lra|exact Oz|]. destruct O as (e & He & Ee). exists e. split; auto. rewrite Ee.
    pose proof (size_bounds a). pose proof (size_bounds b). field; lra. }
  pose proof (off_abs _ _ _ O2) as X. eapply Rle_trans; [exact X|]. rewrite uu_value. pose proof (Rabs_pos (value x)). lra.
Qed.

Lemma convert_other x a b : kind_eqb (kind_of a) (kind_of b) = true -> unit_eqb a b = false ->
  fconvert x a b = Ok (fmul x (fdiv (unit_scale a) (unit_scale b))).
Proof. intros K U. unfold fconvert. now rewrite K, U. Qed.

Lemma moderate_pos x : finite x -> / 1000000 <= value x <= 1000000 -> moderate x.
Proof.
  intros F B. split; auto. right. rewrite Rabs_pos_eq by lra. rewrite two_pow_900. assert (P : 1000000 <= bpow radix2 900).
  { apply Rle_trans with (bpow radix2 60); [pose proof pow_60; lra|apply bpow_le; lia]. }
  split; [apply Rle_trans with (/ 1000000); [apply Rinv_le_contravar; lra|lra]|lra].
Qed.

(** Refuted: it is not exact. *)
Theorem C108_round_trip_refuted :
  exists x y z, moderate x /\ fconvert x Um Ukm = Ok y /\ fconvert y Ukm Um = Ok z /\ feq z x = false.
Proof.
  exists (literal 3 100). do 2 eexists. split; [|split; [apply convert_other; reflexivity|split; [apply convert_other; reflexivity|vm_compute; reflexivity]]].
  destruct (literal_ok 3 100) as (F & N); [lia|lia|]. apply moderate_pos; auto. pose proof (off_pos 1 _ _ ltac:(lra) (near_off _ _ N) ltac:(lra)). lra.
Qed.
Example C108_case : moderate (of_Z 7) /\ exists y, fconvert (of_Z 7) Umi Uinch = Ok y.
Proof.
  split; [|eexists; apply convert_other; reflexivity]. destruct (of_Z_ok 7 ltac:(lia)) as (F & V). apply moderate_pos; auto. rewrite V. lra.
Qed.

(** Sums are accurate to the size of the operands. *)
Theorem C108_sum_accurate :
  forall x a y b, moderate x -> moderate y ->
    match fq_add x a y b with
    | Ok z => measures a = measures b /\ finite z /\
        Rabs (physical z a - (physical x a + physical y b)) <= (Rabs (physical x a) + Rabs (physical y b)) / 2 ^ 49
    | Raise e => e = ArithmeticError /\ measures a <> measures b
    end.
Proof.
  intros x a y b Mx My. unfold fq_add. destruct (kind_eqb (kind_of a) (kind_of b)) eqn:K; cbn [negb].
  2:{ split; auto. intros E. apply measures_kind, kind_eqb_iff in E. congruence. }
  apply kind_eqb_iff in K. destruct (convert_ok y b a (eq_sym K) My) as (y' & E & Fy & O). rewrite E. cbn [bind]. split; [now apply measures_kind|].
  pose proof Mx as (Fx & Bx). pose proof (size_bounds a) as Sa. pose proof (size_bounds b) as Sb. pose proof (size_ratio b a (eq_sym K)) as Sr. pose proof My as (_ & By).
  assert (Up : forall v, v = 0 \/ / 2 ^ 900 <= Rabs v <= 2 ^ 900 -> Rabs v <= bpow radix2 900).
  { intros v [->|(_ & H)]; [rewrite Rabs_R0; apply bpow_ge_0|now rewrite <- two_pow_900]. }
  apply Up in Bx. apply Up in By. clear Up. pose proof (off_abs _ _ _ O) as A. pose proof (bpow_gt_0 radix2 900) as P9. rewrite uu_value in A.
  assert (T : Rabs (value y * (size b / size a)) <= 2000000 * bpow radix2 900).
  { rewrite Rabs_mult, (Rabs_pos_eq (size b / size a)), Rmult_comm by lra. apply Rmult_le_compat; try apply Rabs_pos; lra. }
  set (yr := value y * (size b / size a)) in *.
  assert (Y' : Rabs (value y') <= 4000000 * bpow radix2 900).
  { replace (value y') with (yr + (value y' - yr)) by ring. eapply Rle_trans; [apply Rabs_triang|]. lra. }
  assert (G : Rabs (value x + value y') <= bpow radix2 1000).
  { eapply Rle_trans; [apply Rabs_triang|]. apply Rle_trans with (5000000 * bpow radix2 900); [lra|]. change 1000%Z with (100 + 900)%Z. rewrite bpow_plus. apply Rmult_le_compat_r; [lra|].
    apply Rle_trans with (bpow radix2 60); [pose proof pow_60; lra|apply bpow_le; lia]. }
  destruct (fadd_ok x y' Fx Fy G) as (F & V). split; auto.
  destruct (@FLT_plus_error_N_ex radix2 (-1074) 53 prec53 (fun z => negb (Z.even z)) (value x) (value y') (value_fmt x) (value_fmt y')) as (e & He & Ee).
  change (round radix2 (FLT_exp (-1074) 53) ZnearestE (value x + value y')) with (rnd (value x + value y')) in Ee.
  assert (He' : Rabs e <= / 9007199254740992).
  { eapply Rle_trans; [exact He|]. unfold u_ro. assert (U : / 2 * bpow radix2 (- (53) + 1) = / 9007199254740992) by (cbn; lra). rewrite U. lra. }
  unfold physical. rewrite V, Ee.
  assert (Yb : value y * size b = yr * size a) by (unfold yr; field; lra). rewrite Yb.
  replace ((value x + value y') * (1 + e) * size a - (value x * size a + yr * size a)) with (((value x + value y') * e + (value y' - yr)) * size a) by ring.
  rewrite !Rabs_mult. rewrite (Rabs_pos_eq (size a)) by lra. replace ((Rabs (value x) * size a + Rabs yr * size a) / 2 ^ 49) with ((Rabs (value x) + Rabs yr) / 2 ^ 49 * size a) by (field; lra).
  apply Rmult_le_compat_r; [lra|]. eapply Rle_trans; [apply Rabs_triang|]. rewrite Rabs_mult.
  assert (Z : Rabs (value x + value y') <= Rabs (value x) + 2 * Rabs yr).
  { replace (value x + value y') with (value x + (yr + (value y' - yr))) by ring. eapply Rle_trans; [apply Rabs_triang|]. pose proof (Rabs_triang yr (value y' - yr)). pose proof (Rabs_pos yr). lra. }
  pose proof (Rabs_pos (value x)). pose proof (Rabs_pos yr). pose proof (Rabs_pos e). pose proof (Rabs_pos (value x + value y')).
  assert (M : Rabs (value x + value y') * Rabs e <= (Rabs (value x) + 2 * Rabs yr) * / 9007199254740992) by (apply Rmult_le_compat; lra). lra.
Qed.

(** C109. Conversion keeps the order of floats. *)
Theorem C109_order_preserved :
  forall x y a b x' y', moderate x -> moderate y -> value x <= value y ->
    fconvert x a b = Ok x' -> fconvert y a b = Ok y' -> value x' <= value y'.
Proof.
  intros x y a b x' y' Mx My L Hx Hy. unfold fconvert in *. destruct (negb _) eqn:K; [discriminate|]. destruct (unit_eqb a b) eqn:U; [injection Hx as <-; now injection Hy as <-|].
  assert (Ek : kind_of a = kind_of b) by (apply kind_eqb_iff; now apply negb_false_iff).
  injection Hx as <-. injection Hy as <-. destruct (factor_ok a b Ek) as (Fc & Oc).
  pose proof (size_ratio a b Ek) as R. pose proof (off_pos 5 _ _ ltac:(lra) Oc ltac:(lra)) as Pc. set (c := fdiv (unit_scale a) (unit_scale b)) in *. clearbody c.
  assert (Hi : forall z, moderate z -> finite z /\ Rabs (value z * value c) <= bpow radix2 1000).
  { clear - Pc R. intros z (Fz & Mz). split; auto. rewrite two_pow_900 in Mz. rewrite Rabs_mult, (Rabs_pos_eq (value c)) by lra.
    assert (X : Rabs (value z) <= bpow radix2 900) by (destruct Mz as [-> |]; [rewrite Rabs_R0; apply bpow_ge_0|tauto]).
    change 1000%Z with (900 + 100)%Z. rewrite bpow_plus. apply Rmult_le_compat; [apply Rabs_pos|lra|auto|].
    apply Rle_trans with (bpow radix2 60); [pose proof pow_60; lra|apply bpow_le; lia]. }
  destruct (Hi x Mx) as (Fx & Bx). destruct (Hi y My) as (Fy & By).
  destruct (fmul_ok x c Fx Fc Bx) as (_ & ->). destruct (fmul_ok y c Fy Fc By) as (_ & ->). apply rnd_le. nra.
Qed.

(** Sizes that differ by more than one part in [2 ^ 50] compare as they should, with all six
    operators. *)
Theorem C109_clear_differences :
  forall x a y b, measures a = measures b -> moderate x -> moderate y ->
    (physical x a < physical y b - Rabs (physical y b) / 2 ^ 50 ->
       fq_lt x a y b = Ok true /\ fq_le x a y b = Ok true /\ fq_eq x a y b = Ok false /\ fq_ge x a y b = Ok false /\ fq_gt x a y b = Ok false) /\
    (physical y b + Rabs (physical y b) / 2 ^ 50 < physical x a ->
       fq_lt x a y b = Ok false /\ fq_le x a y b = Ok false /\ fq_eq x a y b = Ok false /\ fq_ge x a y b = Ok true /\ fq_gt x a y b = Ok true).
Proof.
  intros x a y b MK (Fx & _) My. assert (K : kind_of a = kind_of b) by now apply measures_kind. pose proof (C108_conversion_accurate y b a My) as C.
  destruct (fconvert y b a) as [y'|e] eqn:E; [|destruct C as (_ & N); congruence]. destruct C as (_ & Fy & C).
  assert (KE : kind_eqb (kind_of a) (kind_of b) = true) by now apply kind_eqb_iff.
  assert (Q : forall op, fq_compare op x a y b = Ok (op x y')) by (intros op; unfold fq_compare; rewrite KE, E; reflexivity).
  unfold fq_le, fq_ge, fq_lt, fq_eq, fq_gt. rewrite !Q. cbn [bind].
  pose proof (size_bounds a) as Ba. unfold physical in *. rewrite Rabs_bound in C.
  pose proof (flt_iff x y' Fx Fy) as I1. pose proof (feq_iff x y' Fx Fy) as I2. pose proof (flt_iff y' x Fy Fx) as I3.
  split; intros H.
  - assert (L : value x < value y') by (apply Rmult_lt_reg_r with (size a); lra).
    assert (flt x y' = true) as -> by (apply I1; auto). assert (feq x y' = false) as -> by (apply (bool_iff _ _ I2); lra). assert (flt y' x = false) as -> by (apply (bool_iff _ _ I3); lra). auto.
  - assert (L : value y' < value x) by (apply Rmult_lt_reg_r with (size a); lra).
    assert (flt x y' = false) as -> by (apply (bool_iff _ _ I1); lra). assert (feq x y' = false) as -> by (apply (bool_iff _ _ I2); lra). assert (flt y' x = true) as -> by (apply I3; lra). auto.
Qed.

(** Exactly one of [<], [==] and [>] holds; [<=] and [>=] are [<] or [==] and [>] or [==]; units
    of different kinds raise ArithmeticError. *)
Theorem C109_trichotomy :
  forall x a y b, finite x -> moderate y ->
    (measures a = measures b -> exists l e g, fq_lt x a y b = Ok l /\ fq_eq x a y b = Ok e /\ fq_gt x a y b = Ok g /\
           fq_le x a y b = Ok (l || e)%bool /\ fq_ge x a y b = Ok (g || e)%bool /\
           (l = true /\ e = false /\ g = false \/ l = false /\ e = true /\ g = false \/ l = false /\ e = false /\ g = true)) /\
    (measures a <> measures b -> forall op, In op [fq_lt; fq_eq; fq_gt; fq_le; fq_ge] -> op x a y b = Raise ArithmeticError).
Proof.
  intros x a y b Fx My. pose proof (measures_kind a b) as MK. split; intros ME.
  - assert (K : kind_of a = kind_of b) by tauto. pose proof K as KE. apply kind_eqb_iff in KE. destruct (convert_ok y b a (eq_sym K) My) as (y' & E & Fy & _).
    assert (Q : forall op, fq_compare op x a y b = Ok (op x y')) by (intros op; unfold fq_compare; rewrite KE, E; reflexivity).
    exists (flt x y'), (feq x y'), (flt y' x). unfold fq_le, fq_ge, fq_lt, fq_eq, fq_gt. rewrite !Q. cbn [bind].
    pose proof (flt_iff x y' Fx Fy) as I1. pose proof (feq_iff x y' Fx Fy) as I2. pose proof (flt_iff y' x Fy Fx) as I3.
    assert (T : flt x y' = true /\ feq x y' = false /\ flt y' x = false \/ flt x y' = false /\ feq x y' = true /\ flt y' x = false \/ flt x y' = false /\ feq x y' = false /\ flt y' x = true).
    { rewrite (bool_iff _ _ I1), (bool_iff _ _ I2), (bool_iff _ _ I3), I1, I2, I3. destruct (Rtotal_order (value x) (value y')) as [|[|]]; lra. }
    repeat (split; [reflexivity|]). split; [destruct (feq x y'); cbn; rewrite ?orb_true_r, ?orb_false_r; reflexivity|]. split; [destruct (feq x y'); cbn; rewrite ?orb_true_r, ?orb_false_r; reflexivity|]. exact T.
  - assert (KE : kind_eqb (kind_of a) (kind_of b) = false) by (destruct (kind_eqb _ _) eqn:KE; auto; apply kind_eqb_iff in KE; tauto).
    assert (Q : forall op, fq_compare op x a y b = Raise ArithmeticError) by (intros op; unfold fq_compare; rewrite KE; reflexivity).
    intros op I. unfold fq_le, fq_ge, fq_lt, fq_eq, fq_gt in I. cbn [In] in I. decompose [or] I; try contradiction; subst op; cbv beta; unfold fq_le, fq_ge, fq_lt, fq_eq, fq_gt; rewrite !Q; reflexivity.
Qed.

(** Refuted: equality is not symmetric, [7 cm == 0.07 m] differs from [0.07 m == 7 cm]. *)
Theorem C109_equality_symmetric_refuted :
  exists x a y b, moderate x /\ moderate y /\ fq_eq x a y b = Ok true /\ fq_eq y b x a = Ok false /\ fq_lt y b x a = Ok true.
Proof.
  exists (literal 7 100), Um, (of_Z 7), Ucm. split; [|split; [|split; [vm_compute; reflexivity|split; vm_compute; reflexivity]]].
  - destruct (literal_ok 7 100) as (F & N); [lia|lia|]. apply moderate_pos; auto. pose proof (off_pos 1 _ _ ltac:(lra) (near_off _ _ N) ltac:(lra)). lra.
  - destruct (of_Z_ok 7 ltac:(lia)) as (F & V). apply moderate_pos; auto. rewrite V. lra.
Qed.

(** C110. Julian dates as floats: adding the offset rounds to the nearest multiple of a tick,
    about 40 microseconds; the order of times is kept; differences of Julian dates are
    exact. *)
Theorem C110_times_accurate :
  forall julian offset, finite julian -> finite offset ->
    2097152 <= value julian + value offset <= 4194304 ->
    finite (ftime julian offset) /\ Rabs (value (ftime julian offset) - (value julian + value offset)) <= tick / 2.
Proof.
  intros j o Fj Fo B. unfold ftime. destruct (fadd_ok j o Fj Fo) as (F & V); [apply small_abs; rewrite Rabs_pos_eq; lra|].
  split; auto. rewrite V, tick_ww. now apply jd_round.
Qed.
Theorem C110_order_kept :
  forall j j' offset, finite j -> finite j' -> finite offset ->
    2097152 <= value j + value offset -> value j <= value j' -> value j' + value offset <= 4194304 ->
    value (ftime j offset) <= value (ftime j' offset).
Proof.
  intros j j' o Fj Fj' Fo A L B. unfold ftime.
  destruct (fadd_ok j o Fj Fo) as (_ & ->); [apply small_abs; rewrite Rabs_pos_eq; lra|].
  destruct (fadd_ok j' o Fj' Fo) as (_ & ->); [apply small_abs; rewrite Rabs_pos_eq; lra|]. apply rnd_le. lra.
Qed.
Theorem C110_differences_exact :
  forall s t, julian_date s -> julian_date t -> finite (fsub s t) /\ value (fsub s t) = value s - value t.
Proof. intros s t. apply jd_sub. Qed.
(** Refuted: distinct instants stay distinct.  Half a day and half a day plus ten microseconds
    become the same time. *)
Theorem C110_distinct_refuted :
  exists j j' offset, finite j /\ finite j' /\ finite offset /\ value j < value j' /\ julian_date (ftime j offset) /\
    ftime j offset = ftime j' offset.
Proof.
  destruct (of_Z_ok 1 ltac:(lia)) as (F1 & V1). destruct (of_Z_ok 8589934592 ltac:(lia)) as (F2 & V2). destruct (of_Z_ok 2451545 ltac:(lia)) as (F3 & V3). destruct (of_Z_ok 0 ltac:(lia)) as (F0 & V0).
  destruct (fdiv_ok (of_Z 1) (of_Z 8589934592)) as (Fd & Vd); [exact F1|rewrite V2; lra|rewrite V1, V2; apply small_abs; apply Rabs_le; lra|].
  exists (of_Z 0), (fdiv (of_Z 1) (of_Z 8589934592)), (of_Z 2451545). split; auto. split; auto. split; auto. split; [|split].
  - rewrite V0, Vd, V1, V2. rewrite rnd_fmt; [lra|]. replace (1 / 8589934592) with (bpow radix2 (-33)) by (cbn; lra). apply fmt_pow. lia.
  - assert (E : value (ftime (of_Z 0) (of_Z 2451545)) = 2451545 /\ finite (ftime (of_Z 0) (of_Z 2451545))).
    { unfold ftime. destruct (fadd_ok (of_Z 0) (of_Z 2451545) F0 F3) as (F & V); [rewrite V0, V3; apply small_abs; apply Rabs_le; lra|]. split; [|exact F].
      rewrite V, V0, Rplus_0_l. rewrite rnd_fmt; [exact V3|apply value_fmt]. }
    destruct E as (E & F). split; auto. rewrite E. lra.
  - apply B2R_Bsign_inj; vm_compute; reflexivity.
Qed.

(** C111. The tests made before a booking, on floats, are safe: a start accepted by the window
    and deadline tests gives an observation that, in exact seconds, is inside the window and
    over before the deadline, although the duration was converted to days and added with
    rounding. *)
Lemma seconds_days dur d : some_seconds dur -> fconvert dur Us Udy = Ok d -> some_days d /\ Rabs (value d - real_days dur) <= tick / 8.
Proof.
  intros (M & B) H. destruct (convert_ok dur Us Udy eq_refl M) as (y & E & F & O). assert (y = d) by congruence. subst y. clear E H.
  replace (value dur * (size Us / size Udy)) with (real_days dur) in O by (unfold real_days; cbn [size]; field).
  assert (P : 0 <= real_days dur <= 65536) by (unfold real_days; lra). destruct O as (e & He & Ee). rewrite uu_value in He. rewrite Rabs_bound in He. unfold tick.
  assert (D1 : Rabs (value d - real_days dur) <= / 2 ^ 31 / 8).
  { rewrite Ee. apply Rabs_le. split; nra. }
  split; auto. split; auto. rewrite Ee. split; nra.
Qed.

Theorem C111_window_test_safe :
  forall start dur rise set d, julian_date start -> julian_date rise -> julian_date set -> some_seconds dur ->
    fconvert dur Us Udy = Ok d -> fwithin start d rise set = true ->
    value rise < value start /\ value start + real_days dur < value set.
Proof.
  intros st dur ri se d Js Jr Jse Sd Hd H. destruct (seconds_days _ _ Sd Hd) as (D & E). unfold fwithin in H. apply andb_true_iff in H. destruct H as (H1 & H2).
  apply flt_iff in H1; [|apply Jr|apply Js]. split; auto. destruct (end_ok st d Js D) as (F & V).
  apply flt_iff in H2; [|exact F|apply Jse]. rewrite V in H2. pose proof Js as (_ & Bs). pose proof D as (_ & Bd).
  pose proof (below (value st + value d) se ltac:(lra) Jse H2) as B. rewrite Rabs_bound, tick_ww in E. pose proof ww_pos. lra.
Qed.
Theorem C111_deadline_test_safe :
  forall start dur deadline d, julian_date start -> julian_date deadline -> some_seconds dur ->
    fconvert dur Us Udy = Ok d -> fdeadline start d deadline = true -> value start + real_days dur < value deadline.
Proof.
  intros st dur se d Js Jse Sd Hd H2. destruct (seconds_days _ _ Sd Hd) as (D & E). unfold fdeadline in H2. destruct (end_ok st d Js D) as (F & V).
  apply flt_iff in H2; [|exact F|apply Jse]. rewrite V in H2. pose proof Js as (_ & Bs). pose proof D as (_ & Bd).
  pose proof (below (value st + value d) se ltac:(lra) Jse H2) as B. rewrite Rabs_bound, tick_ww in E. pose proof ww_pos. lra.
Qed.
(** They refuse nothing that fits with a tick to spare. *)
Theorem C111_tests_complete :
  forall start dur rise set deadline d, julian_date start -> julian_date rise -> julian_date set -> julian_date deadline -> some_seconds dur ->
    fconvert dur Us Udy = Ok d -> value rise < value start ->
    value start + real_days dur + tick <= value set -> value start + real_days dur + tick <= value deadline ->
    fwithin start d rise set = true /\ fdeadline start d deadline = true.
Proof.
  intros st dur ri se dl d Js Jr Jse Jd Sd Hd L H1 H2. destruct (seconds_days _ _ Sd Hd) as (D & E). destruct (end_ok st d Js D) as (F & V).
  pose proof Js as (_ & Bs). pose proof D as (_ & Bd). rewrite Rabs_bound in E. rewrite tick_ww in *. pose proof ww_pos.
  unfold fwithin, fdeadline. split.
  - apply andb_true_iff. split; (apply flt_iff; [first [apply Jr|exact F]|first [apply Js|apply Jse]|]); auto. rewrite V. apply below'; auto; lra.
  - apply flt_iff; [exact F|apply Jd|]. rewrite V. apply below'; auto; lra.
Qed.
(** The conflict test misses overlaps of at most three quarters of a tick and reports no
    conflict between intervals further apart than that. *)
Theorem C111_conflict_test :
  forall s dur t dur' d d', julian_date s -> julian_date t -> some_seconds dur -> some_seconds dur' ->
    fconvert dur Us Udy = Ok d -> fconvert dur' Us Udy = Ok d' -> value s + real_days dur <= 4194303 -> value t + real_days dur' <= 4194303 ->
    if fconflict s d t d'
    then - (3 / 4) * tick <= overlap (value s) (real_days dur) (value t) (real_days dur')
    else overlap (value s) (real_days dur) (value t) (real_days dur') <= 3 / 4 * tick.
Proof.
  intros s dur t dur' d d' Js Jt Sd Sd' Hd Hd' Bs Bt.
  destruct (seconds_days _ _ Sd Hd) as (D & E). destruct (seconds_days _ _ Sd' Hd') as (D' & E'). destruct (end_ok s d Js D) as (F & V). destruct (end_ok t d' Jt D') as (F' & V').
  pose proof Js as (Fs & Ls). pose proof Jt as (Ft & Lt). pose proof D as (_ & Bd). pose proof D' as (_ & Bd'). rewrite Rabs_bound in E, E'. rewrite tick_ww in *. pose proof ww_pos as W. assert (W1 : ww < 1) by (unfold ww; lra).
  pose proof (jd_round (value s + value d) ltac:(lra)) as R. pose proof (jd_round (value t + value d') ltac:(lra)) as R'. rewrite <- V in R. rewrite <- V' in R'. rewrite Rabs_bound in R, R'.
  pose proof (end_above s d Js D) as A. pose proof (end_above t d' Jt D') as A'.
  assert (Ld : 0 <= real_days dur) by (unfold real_days; destruct Sd; lra). assert (Ld' : 0 <= real_days dur') by (unfold real_days; destruct Sd'; lra).
  unfold overlap, fconflict. set (e := fadd s d) in *. set (f := fadd t d') in *.
  pose proof (fle_iff s t Fs Ft) as I1. pose proof (flt_iff t e Ft F) as I2. pose proof (flt_iff s f Fs F') as I3. pose proof (fle_iff f e F' F) as I4. pose proof (fle_iff t s Ft Fs) as I5. pose proof (fle_iff e f F F') as I6.
  assert (M : Rmin (value s + real_days dur) (value t + real_days dur') <= value s + real_days dur /\ Rmin (value s + real_days dur) (value t + real_days dur') <= value t + real_days dur') by (split; [apply Rmin_l|apply Rmin_r]).
  assert (X : value s <= Rmax (value s) (value t) /\ value t <= Rmax (value s) (value t)) by (split; [apply Rmax_l|apply Rmax_r]).
  destruct (fle s t && flt t e || flt s f && fle f e || fle t s && fle e f) eqn:B.
  - apply orb_true_iff in B. rewrite orb_true_iff, !andb_true_iff, I1, I2, I3, I4, I5, I6 in B.
    unfold Rmin, Rmax. destruct (Rle_dec (value s) (value t)), (Rle_dec (value s + real_days dur) (value t + real_days dur')); lra.
  - apply orb_false_iff in B. rewrite orb_false_iff, !andb_false_iff, (bool_iff _ _ I1), (bool_iff _ _ I2), (bool_iff _ _ I3), (bool_iff _ _ I4), (bool_iff _ _ I5), (bool_iff _ _ I6) in B. lra.
Qed.

(** C112. The start chosen without a look angle is within a tick of the start chosen in exact
    arithmetic, and the quality of a start inside the window is a whole number from 1 to 10. *)
Theorem C112_start_accurate :
  forall rise set d, julian_date rise -> julian_date set -> some_days d -> value rise + value set + value d <= 8388607 ->
    finite (fstart rise set d) /\ Rabs (value (fstart rise set d) - (value rise + value set + value d) / 2) <= tick.
Proof.
  intros r s d (Fr & Br) (Fs & Bs) (Fd & Bd) H. unfold fstart. rewrite tick_ww.
  assert (W : ww < / 1000000) by (unfold ww; lra).
  destruct (fadd_ok r s Fr Fs) as (F1 & V1); [apply small_abs; apply Rabs_le; lra|].
  pose proof (sum_round (value r + value s) ltac:(lra)) as R1. rewrite <- V1 in R1. rewrite Rabs_bound in R1.
  assert (G : 4194304 <= value (fadd r s)).
  { rewrite V1. replace 4194304 with (bpow radix2 22) by (cbn; lra). rewrite <- (rnd_fmt (bpow radix2 22)) by (apply fmt_pow; lia). apply rnd_le. cbn. lra. }
  destruct (fadd_ok (fadd r s) d F1 Fd) as (F2 & V2); [apply small_abs; apply Rabs_le; lra|].
  pose proof (sum_round (value (fadd r s) + value d) ltac:(lra)) as R2. rewrite <- V2 in R2. rewrite Rabs_bound in R2.
  assert (G2 : 4194304 <= value (fadd (fadd r s) d)).
  { rewrite V2. replace 4194304 with (bpow radix2 22) by (cbn; lra). rewrite <- (rnd_fmt (bpow radix2 22)) by (apply fmt_pow; lia). apply rnd_le. cbn. lra. }
  destruct (of_Z_ok 2 ltac:(lia)) as (F3 & V3). destruct (fdiv_ok (fadd (fadd r s) d) (of_Z 2) F2) as (F4 & V4); [rewrite V3; lra|rewrite V3; apply small_abs; apply Rabs_le; lra|].
  split; auto. rewrite V4, V3. set (x := value (fadd (fadd r s) d)) in *.
  assert (X : rnd (x / 2) = x / 2).
  { apply rnd_fmt. destruct (fmt_grid x 23) as (k & Ek); [apply value_fmt|cbn; lra|lia|].
    assert (Ex : x / 2 = IZR k * bpow radix2 (-31)) by (rewrite Ek; cbn; lra). rewrite Ex. apply fmt_int; [|lia].
    rewrite Ek in R2, G2. cbn in R2, G2. apply le_IZR. rewrite abs_IZR. apply Rabs_le. lra. }
  rewrite X. apply Rabs_le. lra.
Qed.

(** The value whose floor is the quality. *)
Theorem C112_quality_accurate :
  forall rise set start, julian_date rise -> julian_date set -> julian_date start ->
    value rise < value start < value set -> value set - value rise <= 65536 ->
    exists v, fquality rise set start = Ok (Zfloor v) /\ 1 <= v <= 10 /\
      Rabs (v - exact_quality (value rise) (value set) (value start)) <= 40 * tick / (value set - value rise).
Proof.
  intros r s t Jr Js Jt B L. pose proof Jr as (Fr & Br). pose proof Js as (Fs & Bs). pose proof Jt as (Ft & Bt). rewrite tick_ww. pose proof ww_pos as W. assert (W1 : ww < 1) by (unfold ww; lra).
  destruct (jd_grid r Jr) as (kr & Er & _). destruct (jd_grid s Js) as (ks & Es & _). destruct (jd_grid t Jt) as (kt & Et & _).
  assert (Krt : (kr < kt)%Z) by (apply lt_IZR, Rmult_lt_reg_r with ww; lra). assert (Kts : (kt < ks)%Z) by (apply lt_IZR, Rmult_lt_reg_r with ww; lra).
  (* the middle *)
  destruct (fadd_ok r s Fr Fs) as (F1 & V1); [apply small_abs; apply Rabs_le; lra|].
  pose proof (sum_round (value r + value s) ltac:(lra)) as R1. rewrite <- V1 in R1. rewrite Rabs_bound in R1.
  assert (Sum : exists k, value (fadd r s) = IZR k * (2 * ww) /\ (kr + 1 <= k <= ks - 1)%Z).
  { destruct (fmt_grid (value (fadd r s)) 23) as (k & Ek); [apply value_fmt| |lia|].
    - rewrite V1. split.
      + rewrite <- (rnd_fmt (bpow radix2 (23 - 1))) by (apply fmt_pow; lia). apply rnd_le. cbn. lra.
      + apply Rle_lt_trans with (8388608 - 2 * ww).
        * rewrite <- (rnd_fmt (8388608 - 2 * ww)); [apply rnd_le|]. 
          -- assert (ks <= 9007199254740991)%Z by (destruct (jd_grid s Js) as (k' & E' & B'); assert (k' = ks) by (apply eq_IZR, Rmult_eq_reg_r with ww; lra); lia).
             assert (IZR ks <= 9007199254740991) by now apply IZR_le. assert (IZR kr <= IZR ks - 2) by (rewrite <- minus_IZR; apply IZR_le; lia). unfold ww in *. lra.
          -- replace (8388608 - 2 * ww) with (IZR 9007199254740991 * bpow radix2 (-30)) by (unfold ww; cbn; lra). apply fmt_int; lia.
        * cbn. lra.
    - exists k. replace (2 * ww) with (bpow radix2 (23 - 53)) by (unfold ww; cbn; lra). split; auto.
      assert (E2 : value (fadd r s) = IZR k * (2 * ww)) by (rewrite Ek; unfold ww; cbn; lra).
      assert (K1 : IZR kr <= IZR ks - 2) by (rewrite <- minus_IZR; apply IZR_le; lia).
      assert (KW : IZR kr * ww <= IZR ks * ww - 2 * ww) by (apply Rle_trans with ((IZR ks - 2) * ww); [apply Rmult_le_compat_r; lra|lra]).
      split.
      + assert ((kr < k)%Z); [|lia]. apply lt_IZR. apply Rmult_lt_reg_r with (2 * ww); [lra|]. rewrite <- E2. rewrite Er, Es in R1. lra.
      + assert ((k < ks)%Z); [|lia]. apply lt_IZR. apply Rmult_lt_reg_r with (2 * ww); [lra|]. rewrite <- E2. rewrite Er, Es in R1. lra. }
  destruct Sum as (k & Ek & K). destruct (of_Z_ok 2 ltac:(lia)) as (F2 & V2). destruct (of_Z_ok 9 ltac:(lia)) as (F9 & V9). destruct (of_Z_ok 10 ltac:(lia)) as (F10 & V10).
  destruct (fdiv_ok (fadd r s) (of_Z 2) F1) as (Fn & Vn); [rewrite V2; lra|rewrite V2; apply small_abs; apply Rabs_le; lra|].
  set (n := fdiv (fadd r s) (of_Z 2)) in *. assert (Kb : IZR kr + 1 <= IZR k <= IZR ks - 1) by (rewrite <- minus_IZR, <- plus_IZR; split; apply IZR_le; lia).
  assert (En : value n = IZR k * ww).
  { rewrite Vn, V2, Ek. replace (IZR k * (2 * ww) / 2) with (IZR k * bpow radix2 (-31)) by (rewrite <- ww_pow; field). rewrite rnd_fmt; [now rewrite <- ww_pow|]. apply fmt_int; [|lia].
    destruct (jd_grid r Jr) as (k1 & E1 & B1). destruct (jd_grid s Js) as (k2 & E2 & B2). assert (k1 = kr) by (apply eq_IZR, Rmult_eq_reg_r with ww; lra). assert (k2 = ks) by (apply eq_IZR, Rmult_eq_reg_r with ww; lra). lia. }
  assert (Jn : julian_date n) by (split; [exact Fn|rewrite En; nra]).
  assert (N0 : - (ww / 2) <= value n - (value r + value s) / 2 <= ww / 2) by (rewrite En; rewrite Ek in R1; lra).
  unfold fquality. fold n. cbv zeta.
  destruct (jd_sub t n Jt Jn) as (Fa & Va). destruct (jd_sub n r Jn Jr) as (FD & VD). destruct (fabs_ok _ Fa) as (Fb & Vb). rewrite Va in Vb.
  set (a := fabs (fsub t n)) in *. set (D := fsub n r) in *.
  assert (Dp : ww <= value D <= 65536) by (rewrite VD; split; [rewrite En, Er; nra|]; assert (value n <= value s) by (rewrite En, Es; nra); lra).
  assert (Aj : exists j, value a = IZR j * ww /\ (0 <= j)%Z).
  { exists (Z.abs (kt - k)). split; [|lia]. rewrite Vb, Et, En, abs_IZR, minus_IZR. replace (IZR kt * ww - IZR k * ww) with ((IZR kt - IZR k) * ww) by ring. rewrite Rabs_mult, (Rabs_pos_eq ww); lra. }
  assert (AD : 0 <= value a <= value D).
  { rewrite Vb. split; [apply Rabs_pos|]. rewrite VD. assert (IZR kr + 1 <= IZR kt <= IZR ks - 1) by (rewrite <- minus_IZR, <- plus_IZR; split; apply IZR_le; lia). apply Rabs_le. split; [rewrite Et, En, Er; nra|].
    assert (value t <= value s - ww) by (rewrite Et, Es; nra). lra. }
  destruct Aj as (j & Ej & Pj).
  destruct (fmul_ok (of_Z 9) a F9 Fb) as (Fm & Vm); [rewrite V9; apply small_abs; apply Rabs_le; lra|].
  assert (Em : value (fmul (of_Z 9) a) = 9 * value a).
  { rewrite Vm, V9. apply rnd_fmt. rewrite Ej. replace (9 * (IZR j * ww)) with (IZR (9 * j) * bpow radix2 (-31)) by (rewrite mult_IZR, <- ww_pow; ring). apply fmt_int; [|lia].
    assert (IZR j <= 140737488355328) by (unfold ww in *; lra). assert (j <= 140737488355328)%Z by now apply le_IZR. lia. }
  set (m := fmul (of_Z 9) a) in *. assert (Q : 0 <= value m / value D <= 9).
  { rewrite Em. split; [apply Rmult_le_pos; [lra|left; apply Rinv_0_lt_compat; lra]|]. apply Rmult_le_reg_r with (value D); [lra|]. unfold Rdiv. rewrite Rmult_assoc, Rinv_l by lra. lra. }
  destruct (fdiv_ok m D Fm) as (Fq & Vq); [lra|apply small_abs; apply Rabs_le; lra|]. set (q := fdiv m D) in *.
  assert (f9 : fmt 9) by (rewrite <- V9; apply value_fmt). assert (f10 : fmt 10) by (rewrite <- V10; apply value_fmt). assert (f1 : fmt 1) by (replace 1 with (bpow radix2 0) by (cbn; lra); apply fmt_pow; lia).
  assert (Qr : 0 <= value q <= 9) by (rewrite Vq; split; [rewrite <- rnd_0; apply rnd_le|apply rnd_le_fmt; auto]; lra).
  destruct (fsub_ok (of_Z 10) q F10 Fq) as (Fv & Vv); [rewrite V10; apply small_abs; apply Rabs_le; lra|]. rewrite V10 in Vv.
  set (v := fsub (of_Z 10) q) in *. exists (value v). split; [now apply floor_ok|].
  assert (Rg : 1 <= value v <= 10) by (rewrite Vv; split; [apply rnd_ge|apply rnd_le_fmt]; auto; lra).
  split; auto.
  (* accuracy *)
  assert (E1 : Rabs (value q - value m / value D) <= / 1000000000000000).
  { rewrite Vq. destruct AD as (A0 & A1). destruct A0 as [A0|A0].
    - destruct (rnd_rel (value m / value D)) as (e & He & Ee).
      + rewrite Rabs_pos_eq by lra. pose proof pow_m1022. assert (9 * ww / 65536 <= value m / value D).
        { assert (1 <= IZR j) by (apply IZR_le; assert (0 < j)%Z; [|lia]; apply lt_IZR, Rmult_lt_reg_r with ww; lra). rewrite Em, Ej. apply Rle_trans with (9 * ww / value D).
          - unfold Rdiv. apply Rmult_le_compat_l; [lra|]. apply Rinv_le_contravar; lra.
          - unfold Rdiv. apply Rmult_le_compat_r; [left; apply Rinv_0_lt_compat; lra|]. nra. }
        unfold ww in *. lra.
      + rewrite Ee. rewrite uu_value in He. rewrite Rabs_bound in He. apply Rabs_le. split; nra.
    - assert (Z : value m / value D = 0) by (rewrite Em, <- A0; unfold Rdiv; ring). rewrite Z, rnd_0, Rminus_0_r, Rabs_R0. lra. }
  assert (E2 : Rabs (value v - (10 - value q)) <= 2 * / 1000000000000000).
  { rewrite Vv. destruct (rnd_rel (10 - value q)) as (e & He & Ee); [rewrite Rabs_pos_eq by lra; pose proof pow_m1022; lra|]. rewrite Ee. rewrite uu_value in He. rewrite Rabs_bound in He. apply Rabs_le. split; nra. }
  set (L' := value s - value r) in *. assert (Lp : 2 * ww <= L') by (unfold L'; assert (IZR kr <= IZR ks - 2) by (rewrite <- minus_IZR; apply IZR_le; lia); rewrite Es, Er; nra).
  set (D0 := L' / 2) in *. set (a0 := Rabs (value t - (value r + value s) / 2)).
  assert (Aa : - (ww / 2) <= value a - a0 <= ww / 2).
  { rewrite Vb. unfold a0. unfold Rabs. destruct (Rcase_abs (value t - value n)), (Rcase_abs (value t - (value r + value s) / 2)); lra. }
  assert (DD : - (ww / 2) <= value D - D0 <= ww / 2) by (rewrite VD; unfold D0, L'; lra).
  assert (A0 : 0 <= a0 <= D0) by (unfold a0, D0, L'; split; [apply Rabs_pos|]; apply Rabs_le; lra).
  assert (D4 : L' / 4 <= value D) by (unfold D0 in DD; lra).
  assert (E3 : Rabs (value m / value D - 9 * a0 / D0) <= 36 * ww / L').
  { rewrite Em. replace (9 * value a / value D - 9 * a0 / D0) with (9 * ((value a - a0) * D0 - a0 * (value D - D0)) / (value D * D0)) by (field; unfold D0; lra).
    unfold Rdiv at 1. rewrite Rabs_mult, (Rabs_pos_eq (/ _)) by (left; apply Rinv_0_lt_compat; apply Rmult_lt_0_compat; unfold D0; lra).
    assert (P0 : 0 < D0) by (unfold D0; lra). assert (P1 : 0 < value D * D0) by (apply Rmult_lt_0_compat; lra).
    apply Rmult_le_reg_r with (value D * D0); auto. rewrite Rmult_assoc, Rinv_l, Rmult_1_r by lra.
    replace (36 * ww / L' * (value D * D0)) with (36 * (ww * value D / L') * D0) by (field; lra).
    assert (Y : ww / 4 <= ww * value D / L').
    { replace (ww / 4) with (ww * (L' / 4) / L') by (field; lra). unfold Rdiv at 1 3. apply Rmult_le_compat_r; [left; apply Rinv_0_lt_compat; lra|]. apply Rmult_le_compat_l; lra. }
    apply Rle_trans with (9 * (ww * D0)); [|nra]. rewrite Rabs_mult, (Rabs_pos_eq 9) by lra. apply Rmult_le_compat_l; [lra|]. apply Rabs_le. split; nra. }
  unfold exact_quality. fold a0 L' D0. rewrite Rabs_bound in E1, E2, E3.
  assert (Y : 3 * / 1000000000000000 <= 4 * ww / L').
  { apply Rmult_le_reg_r with L'; [lra|]. unfold Rdiv. rewrite (Rmult_assoc (4 * ww)), Rinv_l by lra. unfold ww in *. lra. }
  replace (40 * ww / L') with (36 * ww / L' + 4 * ww / L') by (field; lra). apply Rabs_le. lra.
Qed.
Theorem C112_quality_in_range :
  forall rise set start, julian_date rise -> julian_date set -> julian_date start ->
    value rise < value start < value set -> value set - value rise <= 65536 ->
    exists q, fquality rise set start = Ok q /\ (1 <= q <= 10)%Z.
Proof.
  intros r s t Jr Js Jt B L. destruct (C112_quality_accurate r s t Jr Js Jt B L) as (v & E & R & _). exists (Zfloor v). split; auto. split.
  - apply Zfloor_lub. lra.
  - apply le_IZR. eapply Rle_trans; [apply Zfloor_lb|]. lra.
Qed.

(** Cases. *)
Lemma jd_int z : (2097152 <= z < 4194304)%Z -> julian_date (of_Z z).
Proof. intros H. destruct (of_Z_ok z ltac:(lia)) as (F & V). split; auto. rewrite V. split; [apply IZR_le|apply IZR_lt]; lia. Qed.
Lemma seconds_int z : (1 <= z <= 1000000)%Z -> some_seconds (of_Z z).
Proof.
  intros H. destruct (of_Z_ok z ltac:(lia)) as (F & V). assert (1 <= IZR z <= 1000000) by (split; apply IZR_le; lia). split; [apply moderate_pos; auto|]; rewrite V; lra.
Qed.
(** An observation of 600 s starting on day 2451545 in a window that ends a day later. *)
Example C111_case :
  julian_date (of_Z 2451544) /\ julian_date (of_Z 2451545) /\ julian_date (of_Z 2451546) /\ some_seconds (of_Z 600) /\
  exists d, fconvert (of_Z 600) Us Udy = Ok d /\ fwithin (of_Z 2451545) d (of_Z 2451544) (of_Z 2451546) = true /\
    fdeadline (of_Z 2451545) d (of_Z 2451546) = true /\
    fconflict (of_Z 2451545) d (of_Z 2451546) d = false /\ fconflict (of_Z 2451545) d (of_Z 2451545) d = true.
Proof.
  repeat split; try apply jd_int; try apply seconds_int; try lia. eexists. split; [apply convert_other; reflexivity|]. repeat split; vm_compute; reflexivity.
Qed.
Example C112_case : fquality (of_Z 2451544) (of_Z 2451548) (of_Z 2451545) = Ok 5%Z.
Proof. vm_compute. reflexivity. Qed.

(** Refuted: two bookings accepted as free of conflict can overlap, by a quarter of a tick. *)
Theorem C111_conflict_exact_refuted :
  exists s dur t d, julian_date s /\ julian_date t /\ some_seconds dur /\ fconvert dur Us Udy = Ok d /\ fconflict s d t d = false /\
    0 < overlap (value s) (real_days dur) (value t) (real_days dur).
Proof.
  destruct (of_Z_ok 1 ltac:(lia)) as (F1 & V1). destruct (of_Z_ok 432000 ltac:(lia)) as (F2 & V2). destruct (of_Z_ok 8589934592 ltac:(lia)) as (F3 & V3). destruct (of_Z_ok 2147483648 ltac:(lia)) as (F4 & V4). destruct (of_Z_ok 2451545 ltac:(lia)) as (F5 & V5).
  destruct (fdiv_ok (of_Z 432000) (of_Z 8589934592) F2) as (Fd & Vd); [rewrite V3; lra|rewrite V2, V3; apply small_abs, Rabs_le; lra|].
  destruct (fdiv_ok (of_Z 1) (of_Z 2147483648) F1) as (Fw & Vw); [rewrite V4; lra|rewrite V1, V4; apply small_abs, Rabs_le; lra|].
  rewrite V2, V3, rnd_fmt in Vd by (replace (432000 / 8589934592) with (IZR 432000 * bpow radix2 (-33)) by (cbn; lra); apply fmt_int; lia).
  rewrite V1, V4, rnd_fmt in Vw by (replace (1 / 2147483648) with (bpow radix2 (-31)) by (cbn; lra); apply fmt_pow; lia).
  destruct (fadd_ok (of_Z 2451545) (fdiv (of_Z 1) (of_Z 2147483648)) F5 Fw) as (Ft & Vt); [rewrite V5, Vw; apply small_abs, Rabs_le; lra|].
  rewrite V5, Vw, rnd_fmt in Vt by (replace (2451545 + 1 / 2147483648) with (IZR (2451545 * 2147483648 + 1) * bpow radix2 (-31)) by (rewrite plus_IZR, mult_IZR; cbn; lra); apply fmt_int; lia).
  exists (of_Z 2451545), (fdiv (of_Z 432000) (of_Z 8589934592)), (fadd (of_Z 2451545) (fdiv (of_Z 1) (of_Z 2147483648))). eexists.
  split; [apply jd_int; lia|]. split; [split; [exact Ft|rewrite Vt; lra]|]. split; [split; [apply moderate_pos; [exact Fd|]|]; rewrite Vd; lra|]. split; [apply convert_other; reflexivity|]. split; [vm_compute; reflexivity|].
  unfold overlap, real_days. rewrite V5, Vt, Vd. rewrite Rmin_left, Rmax_right by lra. lra.
Qed.

Print Assumptions C108_conversion_accurate.
Print Assumptions C108_sum_accurate.
Print Assumptions C108_round_trip_partial.
Print Assumptions C108_round_trip_refuted.
Print Assumptions C109_order_preserved.
Print Assumptions C109_clear_differences.
Print Assumptions C109_trichotomy.
Print Assumptions C109_equality_symmetric_refuted.
Print Assumptions C110_times_accurate.
Print Assumptions C110_order_kept.
Print Assumptions C110_differences_exact.
Print Assumptions C110_distinct_refuted.
Print Assumptions C111_window_test_safe.
Print Assumptions C111_deadline_test_safe.
Print Assumptions C111_tests_complete.
Print Assumptions C111_conflict_test.
Print Assumptions C111_conflict_exact_refuted.
Print Assumptions C112_start_accurate.
Print Assumptions C112_quality_accurate.
Print Assumptions C112_quality_in_range.
