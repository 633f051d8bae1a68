(** The angle between two vectors of floats, in degrees. *)
From Coq Require Import ZArith Reals Lra Lia Psatz.
From Flocq Require Import Core.Core IEEE754.BinarySingleNaN IEEE754.Binary IEEE754.Bits.
From Verif Require Import Py Fl_Model Fl_Spec Fl_Proofs Flg_Model Flg_Spec Rot_Model Rot_Spec Flg_Proofs Flg_Num Flg_Proofs2 Flg_Proofs3.
Open Scope R_scope.

Lemma nan_mul x y : is_NaN x -> is_NaN (fmul x y).
Proof. unfold is_NaN, fmul, b64_mult. destruct x; cbn [is_nan]; try discriminate. intros _. destruct y; reflexivity. Qed.
Lemma nan_sub x y : is_NaN y -> is_NaN (fsub x y).
Proof. unfold is_NaN, fsub, b64_minus. destruct y; cbn [is_nan]; try discriminate. intros _. destruct x; reflexivity. Qed.
Lemma nan_or x : finite x -> ~ is_NaN x.
Proof. unfold finite, is_NaN. destruct x; cbn; congruence. Qed.

(** Degrees *)
Lemma deg_factor : 57.295779 < 180 / PI < 57.295780.
Proof.
  pose proof PI_near as (A & B). split.
  - apply Rmult_lt_reg_r with PI; [lra|]. unfold Rdiv. rewrite Rmult_assoc, Rinv_l by lra. lra.
  - apply Rmult_lt_reg_r with PI; [lra|]. unfold Rdiv. rewrite Rmult_assoc, Rinv_l by lra. lra.
Qed.
Lemma deg_near : Rabs (180 / 3.141592653589793 - 180 / PI) <= 57.3 * (10 * uu).
Proof.
  pose proof PI_near as (A & B). pose proof deg_factor as D. rewrite uu_value.
  assert (E : 180 / 3.141592653589793 - 180 / PI = 180 / PI * ((PI - 3.141592653589793) / 3.141592653589793)) by (field; lra).
  rewrite E, Rabs_mult. apply Rmult_le_compat; try apply Rabs_pos; apply Rabs_le; split; lra.
Qed.
Lemma degrees_const : let c := fdiv (of_Z 180) (literal 3141592653589793 1000000000000000) in
  finite c /\ Rabs (value c - 180 / PI) <= 57.3 * (15 * uu).
Proof.
  intros c. destruct (of_Z_ok 180 ltac:(lia)) as (F1 & V1). destruct (literal_ok 3141592653589793 1000000000000000 ltac:(lia) ltac:(lia)) as (F2 & N2).
  set (w := literal 3141592653589793 1000000000000000) in *. clearbody w.
  assert (Q : 3141592653589793 / 1000000000000000 = 3.141592653589793) by lra. rewrite Q in N2.
  pose proof (off_pos 1 _ _ ltac:(lra) (near_off _ _ N2) ltac:(lra)) as P2.
  assert (O1 : off 1 (value (of_Z 180)) 180) by (rewrite V1; exists 0; split; [rewrite Rabs_R0; pose proof uu_pos; lra|ring]).
  pose proof (off_div (value (of_Z 180)) (value w) 180 3.141592653589793 ltac:(lra) ltac:(lra) O1 (near_off _ _ N2)) as O3.
  pose proof (off_pos 3 _ _ ltac:(lra) O3 ltac:(lra)) as P3.
  destruct (fdiv_ok (of_Z 180) w F1 ltac:(lra)) as (Fc & Vc). { apply small_abs, Rabs_le. lra. }
  split; [exact Fc|]. unfold c. rewrite Vc.
  assert (O4 : off 1 (rnd (value (of_Z 180) / value w)) (value (of_Z 180) / value w)).
  { apply rnd_off. right. rewrite Rabs_pos_eq by lra. pose proof pow_m1022. lra. }
  pose proof (off_trans 1 3 _ _ _ ltac:(lra) ltac:(lra) O4 O3) as O5. apply off_abs in O5. rewrite (Rabs_pos_eq (180 / 3.141592653589793)) in O5 by lra.
  pose proof uu_pos as U. eapply Rle_trans; [apply (err_trans _ _ _ _ _ O5 deg_near)|]. nra.
Qed.
Lemma fdegrees_ok x a : finite x -> 0 <= a <= PI -> Rabs (value x - a) <= / 2 ^ 50 ->
  finite (fdegrees x) /\ Rabs (value (fdegrees x) - in_degrees a) <= / 1000000000000.
Proof.
  intros F A E. pose proof PI_near as (P1 & P2). destruct degrees_const as (Fc & Ec). unfold fdegrees.
  set (c := fdiv (of_Z 180) (literal 3141592653589793 1000000000000000)) in *. clearbody c.
  replace (/ 2 ^ 50) with (8 * uu) in E by (rewrite uu_value; lra). pose proof uu_pos as U. pose proof uu_value as UV.
  unfold in_degrees. pose proof deg_factor as D. apply Rabs_le_inv in E, Ec. set (k := 180 / PI) in *. clearbody k.
  assert (U2 : uu <= / 1000000000000000) by apply uu_small.
  assert (X : -1 <= value x <= 4) by lra. assert (C : 57 <= value c <= 58) by lra.
  assert (B : Rabs (value x * value c) <= 300) by (apply Rabs_le; split; nra).
  destruct (fmul_ok x c F Fc) as (Fm & Vm). { apply small_abs. lra. } split; [exact Fm|]. rewrite Vm.
  pose proof (rnd_mul_err (value x * value c)) as R. assert (E8 : 4 * ee <= uu * 1) by (apply ee_small; change 1 with (bpow radix2 0); apply bpow_le; lia).
  assert (R1 : Rabs (rnd (value x * value c) - value x * value c) <= 302 * uu) by (eapply Rle_trans; [exact R|]; nra).
  assert (R2 : Rabs (value x * value c - a * k) <= 58 * (8 * uu) + 4 * (57.3 * (15 * uu))).
  { replace (value x * value c - a * k) with ((value x - a) * value c + a * (value c - k)) by ring. eapply Rle_trans; [apply Rabs_triang|]. rewrite !Rabs_mult.
    rewrite (Rabs_pos_eq (value c)), (Rabs_pos_eq a) by lra.
    assert (Rabs (value x - a) <= 8 * uu) by (apply Rabs_le; lra). assert (Rabs (value c - k) <= 57.3 * (15 * uu)) by (apply Rabs_le; lra).
    assert (Rabs (value x - a) * value c <= 8 * uu * 58) by (apply Rmult_le_compat; try apply Rabs_pos; lra).
    assert (a * Rabs (value c - k) <= 4 * (57.3 * (15 * uu))) by (apply Rmult_le_compat; try apply Rabs_pos; lra). lra. }
  eapply Rle_trans; [apply (err_trans _ _ _ _ _ R1 R2)|]. rewrite UV. lra.
Qed.
(** The angle from a cosine that is off by twenty units *)
Lemma angle_fold a b : angle a b = ang a b. Proof. reflexivity. Qed.
Definition small_e : R := 334 / 10000000000.
Lemma small_e_ok : 20 * uu <= 2 * (small_e * small_e) /\ 0 <= small_e <= 1 / 1000.
Proof. rewrite uu_value. unfold small_e. lra. Qed.
Lemma arccos_ok M q c : accurate M -> finite q -> -1 <= c <= 1 -> Rabs (value q - c) <= 20 * uu ->
  (is_NaN (m_arccos M q) /\ (acos c <= 2.002 * small_e \/ PI - 2.002 * small_e <= acos c)) \/
  (finite (m_arccos M q) /\ exists a, 0 <= a <= PI /\ Rabs (value (m_arccos M q) - a) <= / 2 ^ 50 /\ Rabs (a - acos c) <= 2.002 * small_e /\
     (1 / 90 <= acos c <= PI - 1 / 90 -> Rabs (a - acos c) <= / 100000000000)).
Proof.
  intros A F C E. destruct small_e_ok as (S1 & S2). destruct (Rle_dec (Rabs (value q)) 1) as [L|L].
  - right. destruct (arccos_good M A q F L) as (Fa & Ea). split; auto. exists (acos (value q)). split; [apply acos_bound|]. split; auto.
    apply Rabs_le_inv in L. assert (G : Rabs (acos (value q) - acos c) <= 2.002 * small_e) by (apply acos_gap; try lra). split; auto.
    intros R. eapply Rle_trans; [apply (acos_mild _ _ (20 * uu)); try lra|].
    + pose proof uu_small. pose proof uu_pos. lra.
    + apply Rabs_le_inv in G. unfold small_e in G. pose proof uu_small. pose proof uu_pos. lra.
    + rewrite uu_value. lra.
  - left. split; [apply arccos_domain; auto; lra|]. apply Rabs_le_inv in E.
    destruct (Rle_dec 0 (value q)) as [Q|Q].
    + left. rewrite Rabs_pos_eq in L by lra. pose proof (acos_gap c 1 small_e C ltac:(lra) S2) as G. rewrite acos_1 in G. 
      assert (T : Rabs (c - 1) <= 2 * (small_e * small_e)) by (apply Rabs_le; lra). apply G in T. apply Rabs_le_inv in T. lra.
    + right. rewrite Rabs_left in L by lra. pose proof (acos_gap c (-1) small_e C ltac:(lra) S2) as G. 
      assert (acos (-1) = PI). { replace (-1) with (- (1)) by lra. rewrite acos_opp, acos_1. lra. } rewrite H in G.
      assert (T : Rabs (c - -1) <= 2 * (small_e * small_e)) by (apply Rabs_le; lra). apply G in T. apply Rabs_le_inv in T. lra.
Qed.
Lemma in_degrees_diff a b d : Rabs (a - b) <= d -> Rabs (in_degrees a - in_degrees b) <= 57.29578 * d.
Proof.
  intros H. unfold in_degrees. replace (a * (180 / PI) - b * (180 / PI)) with ((a - b) * (180 / PI)) by ring. rewrite Rabs_mult, (Rabs_pos_eq (180 / PI)) by (pose proof deg_factor; lra).
  pose proof deg_factor. pose proof (Rabs_pos (a - b)). nra.
Qed.
Lemma in_degrees_PI : in_degrees PI = 180. Proof. unfold in_degrees. field. pose proof PI_near; lra. Qed.
Lemma in_degrees_inv x : x = in_degrees x * (PI / 180). Proof. unfold in_degrees. field. pose proof PI_near; lra. Qed.

(** The computed angle against the angle of two vectors the floats are close to *)
Definition fine : R := 14 / 10000000000000.
Lemma get_ang_ok M u v nv a b d : accurate M -> sized u -> sized v -> finite nv -> Rabs (value nv - norm (vector v)) <= 5 * uu * norm (vector v) ->
  0 < norm a -> 0 < norm b -> ang a (vector u) + ang b (vector v) <= d -> 0 <= d <= / 100000000000 * (105 / 100) ->
  let x := fget_ang M u v nv in let t := in_degrees (angle a b) in
  (is_NaN x /\ (t <= 39 / 10000000 \/ 180 - 39 / 10000000 <= t)) \/
  (finite x /\ Rabs (value x - t) <= 39 / 10000000 /\ (99 / 100 <= t <= 180 - 99 / 100 -> Rabs (value x - t) <= 13 / 10000000000)).
Proof.
  intros A Su Sv Fn En Na Nb D Dr x t. destruct (cosine_ok u v nv Su Sv Fn En) as (Fq & Eq). set (q := fdiv (fdot u v) (fmul (fnorm u) nv)) in *.
  pose proof (bpow_gt_0 radix2 (-400)) as L. pose proof Su as (_ & U1 & _). pose proof Sv as (_ & V1 & _).
  pose proof (cosine_range (vector u) (vector v) ltac:(lra) ltac:(lra)) as C.
  pose proof (ang_change a b (vector u) (vector v) Na Nb ltac:(lra) ltac:(lra)) as G.
  assert (G' : Rabs (ang a b - ang (vector u) (vector v)) <= d) by lra. clear G. unfold ang in G' at 2. apply Rabs_le_inv in G'. rewrite <- angle_fold in G'.
  unfold x, fget_ang. fold q. pose proof PI_near as PN. pose proof deg_factor as DF.
  destruct (arccos_ok M q _ A Fq C Eq) as [(N & H)|(F & w & W & E & E1 & E2)].
  - left. split; [now apply nan_mul|]. unfold t. destruct H as [H|H].
    + left. assert (angle a b <= 2.002 * small_e + d) by lra. unfold in_degrees. unfold small_e in *. assert (0 <= angle a b) by (rewrite angle_fold; apply ang_range). nra.
    + right. assert (K : PI - (2.002 * small_e + d) <= angle a b) by lra. pose proof (in_degrees_PI) as IP. unfold in_degrees in *. unfold small_e in *. nra.
  - right. destruct (fdegrees_ok _ w F W E) as (Fd & Ed). split; [exact Fd|]. apply Rabs_le_inv in E1.
    assert (T : Rabs (w - angle a b) <= 2.002 * small_e + d) by (apply Rabs_le; lra). apply in_degrees_diff in T. fold t in T. split.
    + eapply Rle_trans; [apply (err_trans _ _ _ _ _ Ed T)|]. unfold small_e. lra.
    + intros R. assert (Ab : angle a b = t * (PI / 180)) by apply in_degrees_inv.
      assert (X : 1 / 60 <= angle a b <= PI - 1 / 60).
      { rewrite Ab. split; [nra|]. replace PI with (180 * (PI / 180)) at 2 by field. nra. }
      assert (T2 : Rabs (w - angle a b) <= / 100000000000 + d).
      { assert (Y : 1 / 90 <= acos (cosine (vector u) (vector v)) <= PI - 1 / 90) by lra. apply E2 in Y. apply Rabs_le_inv in Y. apply Rabs_le. lra. }
      apply in_degrees_diff in T2. fold t in T2. eapply Rle_trans; [apply (err_trans _ _ _ _ _ Ed T2)|]. lra.
Qed.
