(** The accuracy of the coordinates of a ground location. *)
From Coq Require Import ZArith Reals Lra Lia Psatz.
From Flocq Require Import Core.Core IEEE754.BinarySingleNaN IEEE754.Binary IEEE754.Bits.
From Verif Require Import Py Fl_Model Fl_Spec Fl_Proofs Flg_Model Flg_Spec Rot_Model Rot_Spec Flg_Proofs Flg_Num Flg_Proofs2 Flg_Proofs3 Geo_Model.
Open Scope R_scope.

(** A float within [e] units of a number of absolute value [b] at most *)
Definition appr (x : float) (r e b : R) : Prop := finite x /\ Rabs (value x - r) <= e * uu /\ Rabs r <= b.
Lemma appr_le x r e b e' b' : appr x r e b -> e <= e' -> b <= b' -> appr x r e' b'.
Proof. intros (F & E & B) He Hb. split; auto. pose proof uu_pos. split; [eapply Rle_trans; [exact E|]; nra|lra]. Qed.
Lemma uu14 : uu <= / 1000000000000000. Proof. apply uu_small. Qed.
Lemma ee1 : ee <= / 4 * uu.
Proof. assert (E8 : 4 * ee <= uu * 1) by (apply ee_small; change 1 with (bpow radix2 0); apply bpow_le; lia). lra. Qed.
Lemma uu_part k : 0 <= k <= 1000000000000000 -> k * uu <= 1. Proof. pose proof uu14. pose proof uu_pos. intros. nra. Qed.

Lemma appr_mul x y a b ea eb A B : appr x a ea A -> appr y b eb B ->
  0 <= ea <= 1000000 -> 0 <= eb <= 1000000 -> 0 <= A <= 10000 -> 0 <= B <= 10000 ->
  appr (fmul x y) (a * b) (A * eb + B * ea + A * B + 2) (A * B).
Proof.
  intros (Fx & Ex & Ax) (Fy & Ey & By) HA HB HC HD. pose proof uu_pos as U. pose proof uu14 as U'.
  assert (D : Rabs (value x * value y - a * b) <= (A * eb + B * ea + 1 / 100) * uu).
  { replace (value x * value y - a * b) with (a * (value y - b) + (value x - a) * b + (value x - a) * (value y - b)) by ring.
    eapply Rle_trans; [apply Rabs_triang|]. eapply Rle_trans; [apply Rplus_le_compat_r, Rabs_triang|]. rewrite !Rabs_mult.
    assert (P1 : Rabs a * Rabs (value y - b) <= A * (eb * uu)) by (apply Rmult_le_compat; try apply Rabs_pos; auto).
    assert (P2 : Rabs (value x - a) * Rabs b <= ea * uu * B) by (apply Rmult_le_compat; try apply Rabs_pos; auto).
    assert (P3 : Rabs (value x - a) * Rabs (value y - b) <= ea * uu * (eb * uu)) by (apply Rmult_le_compat; try apply Rabs_pos; auto).
    assert (P4 : ea * uu * (eb * uu) <= 1 / 100 * uu).
    { replace (ea * uu * (eb * uu)) with (ea * eb * uu * uu) by ring. apply Rmult_le_compat_r; [lra|].
      assert (ea * eb <= 1000000 * 1000000) by (apply Rmult_le_compat; lra). assert (0 <= ea * eb) by nra. assert (ea * eb * uu <= 1000000 * 1000000 * uu) by nra. lra. }
    lra. }
  set (e := A * eb + B * ea + 1 / 100) in *. assert (E0 : 0 <= e <= 100000000000).
  { unfold e. assert (0 <= A * eb <= 10000 * 1000000) by (split; [nra|apply Rmult_le_compat; lra]). assert (0 <= B * ea <= 10000 * 1000000) by (split; [nra|apply Rmult_le_compat; lra]). lra. }
  assert (AB : Rabs (a * b) <= A * B) by (rewrite Rabs_mult; apply Rmult_le_compat; auto using Rabs_pos).
  assert (AB' : 0 <= A * B <= 100000000) by (split; [nra|replace 100000000 with (10000 * 10000) by lra; apply Rmult_le_compat; lra]).
  assert (eu : e * uu <= / 1000) by nra.
  pose proof (err_abs _ _ _ D) as W.
  destruct (fmul_ok x y Fx Fy) as (F & V). { eapply Rle_trans with 1000000000000000000; [lra|apply pow_1000]. }
  split; auto. split; auto. rewrite V. pose proof (rnd_mul_err (value x * value y)) as R. pose proof ee1 as Q.
  eapply Rle_trans; [apply (err_trans _ _ _ _ _ R D)|].
  assert (uu * Rabs (value x * value y) <= uu * (A * B + / 1000)) by (apply Rmult_le_compat_l; lra). 
  replace (A * eb + B * ea) with (e - 1 / 100) by (unfold e; ring). lra.
Qed.
Lemma appr_add x y a b ea eb A B : appr x a ea A -> appr y b eb B ->
  0 <= ea <= 1000000 -> 0 <= eb <= 1000000 -> 0 <= A <= 10000 -> 0 <= B <= 10000 ->
  appr (fadd x y) (a + b) (ea + eb + A + B + 1) (A + B).
Proof.
  intros (Fx & Ex & Ax) (Fy & Ey & By) HA HB HC HD. pose proof uu_pos as U. pose proof uu14 as U'.
  pose proof (err_plus _ _ _ _ _ _ Ex Ey) as D. pose proof (Rabs_triang a b) as T. pose proof (err_abs _ _ _ D) as W.
  assert (eu : ea * uu + eb * uu <= / 1000) by nra.
  destruct (fadd_ok x y Fx Fy) as (F & V). { apply small_abs. lra. }
  split; auto. split; [|lra]. rewrite V. pose proof (rnd_add_err _ _ (value_fmt x) (value_fmt y)) as R.
  eapply Rle_trans; [apply (err_trans _ _ _ _ _ R D)|].
  assert (uu * Rabs (value x + value y) <= uu * (A + B + / 1000)) by (apply Rmult_le_compat_l; lra). lra.
Qed.
Lemma appr_sub x y a b ea eb A B : appr x a ea A -> appr y b eb B ->
  0 <= ea <= 1000000 -> 0 <= eb <= 1000000 -> 0 <= A <= 10000 -> 0 <= B <= 10000 ->
  Rabs (a - b) <= A -> appr (fsub x y) (a - b) (ea + eb + A + 1) A.
Proof.
  intros (Fx & Ex & Ax) (Fy & Ey & By) HA HB HC HD T. pose proof uu_pos as U. pose proof uu14 as U'.
  assert (D : Rabs (value x - value y - (a - b)) <= ea * uu + eb * uu).
  { replace (value x - value y - (a - b)) with ((value x - a) + - (value y - b)) by ring. eapply Rle_trans; [apply Rabs_triang|]. rewrite Rabs_Ropp. lra. }
  pose proof (err_abs _ _ _ D) as W. assert (eu : ea * uu + eb * uu <= / 1000) by nra.
  destruct (fsub_ok x y Fx Fy) as (F & V). { apply small_abs. lra. }
  split; auto. split; [|lra]. rewrite V.
  assert (R : Rabs (rnd (value x - value y) - (value x - value y)) <= uu * Rabs (value x - value y)).
  { pose proof (rnd_add_err (value x) (- value y) (value_fmt x) (generic_format_opp _ _ _ (value_fmt y))) as R. exact R. }
  eapply Rle_trans; [apply (err_trans _ _ _ _ _ R D)|].
  assert (uu * Rabs (value x - value y) <= uu * (A + / 1000)) by (apply Rmult_le_compat_l; lra). lra.
Qed.
Lemma appr_Z z : (Z.abs z < 10000)%Z -> appr (of_Z z) (IZR z) 0 (IZR (Z.abs z)).
Proof. intros H. destruct (of_Z_ok z ltac:(lia)) as (F & V). split; auto. rewrite V, Rminus_eq_0, Rabs_R0. split; [lra|]. rewrite abs_IZR. lra. Qed.
Lemma appr_off k x r b : finite x -> off k (value x) r -> Rabs r <= b -> 0 <= k -> appr x r (k * b) b.
Proof. intros F O B K. split; auto. split; auto. apply off_abs in O. pose proof uu_pos. eapply Rle_trans; [exact O|]. rewrite !(Rmult_assoc k). apply Rmult_le_compat_l; auto. rewrite Rmult_comm. now apply Rmult_le_compat_r; [lra|]. Qed.
Lemma appr_sqrt x a e : appr x a e 1 -> 99 / 100 <= a -> 0 <= e <= 100 -> appr (fsqrt x) (sqrt a) (e / (198 / 100) + 2) 1.
Proof.
  intros (F & E & B) A He. pose proof uu_pos as U. pose proof uu14 as U'. apply Rabs_le_inv in B. pose proof E as E'. apply Rabs_le_inv in E'.
  assert (X : 98 / 100 <= value x <= 101 / 100) by nra. destruct (fsqrt_ok x F ltac:(lra)) as (Fs & V). split; auto.
  assert (S1 : 99 / 100 <= sqrt a <= 1).
  { split. - rewrite <- (sqrt_square (99 / 100)) by lra. apply sqrt_le_1_alt. lra. - rewrite <- sqrt_1. apply sqrt_le_1_alt. lra. }
  assert (S2 : 989 / 1000 <= sqrt (value x) <= 102 / 100).
  { split. - rewrite <- (sqrt_square (989 / 1000)) by lra. apply sqrt_le_1_alt. lra. - rewrite <- (sqrt_square (102 / 100)) by lra. apply sqrt_le_1_alt. lra. }
  split; [|apply Rabs_le; lra]. rewrite V.
  assert (D : Rabs (sqrt (value x) - sqrt a) <= e / (1979 / 1000) * uu).
  { assert (Q : (sqrt (value x) - sqrt a) * (sqrt (value x) + sqrt a) = value x - a).
    { replace ((sqrt (value x) - sqrt a) * (sqrt (value x) + sqrt a)) with (sqrt (value x) * sqrt (value x) - sqrt a * sqrt a) by ring. rewrite !sqrt_sqrt by lra. reflexivity. }
    set (d := sqrt (value x) - sqrt a) in *. set (s := sqrt (value x) + sqrt a) in *. assert (1979 / 1000 <= s) by (unfold s; lra). clearbody d s.
    rewrite <- Q, Rabs_mult, (Rabs_pos_eq s) in E by lra. pose proof (Rabs_pos d). apply Rmult_le_reg_r with (1979 / 1000); [lra|]. replace (e / (1979 / 1000) * uu * (1979 / 1000)) with (e * uu) by field. nra. }
  pose proof (rnd_mul_err (sqrt (value x))) as R. pose proof ee1. rewrite (Rabs_pos_eq (sqrt (value x))) in R by lra.
  eapply Rle_trans; [apply (err_trans _ _ _ _ _ R D)|]. nra.
Qed.
Lemma appr_div x y a b ea eb A : appr x a ea A -> appr y b eb 1 -> 99 / 100 <= b -> 0 <= a ->
  0 <= ea <= 100000 -> 0 <= eb <= 100 -> 1 <= A <= 10000 -> a / b <= A ->
  appr (fdiv x y) (a / b) ((ea + A * eb) / (98 / 100) + A + 1) A.
Proof.
  intros (Fx & Ex & Ax) (Fy & Ey & By) HB Ha HA Hb HC Q. pose proof uu_pos as U. pose proof uu14 as U'. apply Rabs_le_inv in By.
  assert (Q0 : 0 <= a / b) by (apply Rmult_le_pos; [lra|left; apply Rinv_0_lt_compat; lra]).
  assert (eu : eb * uu <= / 1000) by nra. assert (Y : 989 / 1000 <= value y <= 102 / 100) by (apply Rabs_le_inv in Ey; lra).
  assert (D : Rabs (value x / value y - a / b) <= (ea + A * eb) / (989 / 1000) * uu).
  { assert (E : (value x / value y - a / b) * value y = (value x - a) - a / b * (value y - b)) by (field; lra).
    apply Rmult_le_reg_r with (value y); [lra|]. rewrite <- (Rabs_pos_eq (value y)) at 2 by lra. rewrite <- Rabs_mult, E.
    apply Rle_trans with ((ea + A * eb) * uu).
    - unfold Rminus at 1. eapply Rle_trans; [apply Rabs_triang|]. rewrite Rabs_Ropp, Rabs_mult, (Rabs_pos_eq (a / b)) by lra.
      assert (a / b * Rabs (value y - b) <= A * (eb * uu)) by (apply Rmult_le_compat; try apply Rabs_pos; auto). lra.
    - replace ((ea + A * eb) / (989 / 1000) * uu * value y) with ((ea + A * eb) * uu * (value y / (989 / 1000))) by field.
      assert (0 <= (ea + A * eb) * uu) by (apply Rmult_le_pos; nra). nra. }
  set (e := (ea + A * eb) / (989 / 1000)) in *. assert (E0 : 0 <= e <= 2000000) by (unfold e; assert (0 <= A * eb <= 10000 * 100) by (split; [nra|apply Rmult_le_compat; lra]); lra).
  pose proof (err_abs _ _ _ D) as W. rewrite (Rabs_pos_eq (a / b)) in W by lra. assert (e * uu <= / 1000) by nra.
  destruct (fdiv_ok x y Fx ltac:(lra)) as (F & V). { apply small_abs. lra. }
  split; auto. rewrite V. split; [|rewrite Rabs_pos_eq; lra]. pose proof (rnd_mul_err (value x / value y)) as R. pose proof ee1.
  eapply Rle_trans; [apply (err_trans _ _ _ _ _ R D)|]. assert (uu * Rabs (value x / value y) <= uu * (A + / 1000)) by (apply Rmult_le_compat_l; lra).
  assert (e <= (ea + A * eb) / (98 / 100)) by (unfold e; assert (0 <= A * eb) by nra; lra). nra.
Qed.
