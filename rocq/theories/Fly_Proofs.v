(** Floats relatively close to reals of ordinary size. *)
From Coq Require Import ZArith Reals Lra Lia Psatz.
From Flocq Require Import Core.Core IEEE754.BinarySingleNaN IEEE754.Binary IEEE754.Bits.
From Verif Require Import Py Fl_Model Fl_Spec Fl_Proofs Flg_Model Flg_Spec Flg_Proofs2 Flg_Proofs3.
Open Scope R_scope.
#[local] Strategy 1000 [fmul fadd fsub fdiv fneg of_Z].

Definition mid (r : R) : Prop := / 1000000000000 <= Rabs r <= 1000000000000.
Definition rc (h : R) (x : float) (r : R) : Prop := finite x /\ Rabs (value x - r) <= h * Rabs r.
Lemma mid_pos r : / 1000000000000 <= r <= 1000000000000 -> mid r.
Proof. intros H. unfold mid. rewrite Rabs_pos_eq by lra. exact H. Qed.
Lemma rc_le h h' x r : rc h x r -> h <= h' -> rc h' x r.
Proof. intros (F & E) H. split; auto. pose proof (Rabs_pos r). nra. Qed.
Lemma rc_abs h x r e : rc h x r -> h * Rabs r <= e -> finite x /\ Rabs (value x - r) <= e.
Proof. intros (F & E) H. split; auto. lra. Qed.
Lemma rc_of e h x r : finite x -> Rabs (value x - r) <= e -> e <= h * Rabs r -> rc h x r.
Proof. intros F E H. split; auto. lra. Qed.
Lemma uu_tiny : 0 < uu <= / 1000000000000000. Proof. split; [apply uu_pos|apply uu_small]. Qed.
(** One rounding of a value close to a number of ordinary size. *)
Lemma rc_rnd y r h : mid r -> 0 <= h <= 1 / 1000 -> Rabs (y - r) <= h * Rabs r ->
  Rabs y <= bpow radix2 1000 /\ Rabs (rnd y - r) <= (h + 101 / 100 * uu) * Rabs r.
Proof.
  intros (M1 & M2) H E. pose proof (err_abs _ _ _ E) as A1. rewrite Rabs_minus_sym in E. pose proof (err_abs _ _ _ E) as A2. rewrite Rabs_minus_sym in E.
  set (a := Rabs r) in *. assert (Y : 999 / 1000 * a <= Rabs y <= 1001 / 1000 * a) by nra. clearbody a.
  split; [pose proof pow_1000; lra|].
  destruct (rnd_rel y) as (e & He & V); [pose proof pow_m1022; lra|]. pose proof uu_tiny as U.
  rewrite V. replace (y * (1 + e) - r) with (y * e + (y - r)) by ring. eapply Rle_trans; [apply Rabs_triang|]. rewrite Rabs_mult.
  assert (Rabs y * Rabs e <= 1001 / 1000 * a * uu) by (apply Rmult_le_compat; try apply Rabs_pos; lra). nra.
Qed.
Lemma rc_mul h1 h2 x y a b : rc h1 x a -> rc h2 y b -> mid (a * b) -> 0 <= h1 <= 1 / 5000 -> 0 <= h2 <= 1 / 5000 ->
  rc (1001 / 1000 * (h1 + h2) + 101 / 100 * uu) (fmul x y) (a * b).
Proof.
  intros (Fx & Ex) (Fy & Ey) M H1 H2.
  assert (D : Rabs (value x * value y - a * b) <= 1001 / 1000 * (h1 + h2) * Rabs (a * b)).
  { replace (value x * value y - a * b) with ((value x - a) * (value y - b) + (a * (value y - b) + b * (value x - a))) by ring.
    eapply Rle_trans; [apply Rabs_triang|]. eapply Rle_trans; [apply Rplus_le_compat_l, Rabs_triang|]. rewrite !Rabs_mult.
    pose proof (Rabs_pos a). pose proof (Rabs_pos b). set (p := Rabs a) in *. set (q := Rabs b) in *.
    assert (Rabs (value x - a) * Rabs (value y - b) <= (h1 * p) * (h2 * q)) by (apply Rmult_le_compat; auto; apply Rabs_pos).
    assert (p * Rabs (value y - b) <= p * (h2 * q)) by (apply Rmult_le_compat_l; auto). assert (q * Rabs (value x - a) <= q * (h1 * p)) by (apply Rmult_le_compat_l; auto).
    assert (PQ : 0 <= p * q) by now apply Rmult_le_pos. set (w := p * q) in *. assert (h1 * p * (h2 * q) = h1 * h2 * w) by (unfold w; ring). assert (p * (h2 * q) = h2 * w) by (unfold w; ring). assert (q * (h1 * p) = h1 * w) by (unfold w; ring).
    assert (h1 * h2 <= 1 / 1000 * (h1 + h2)) by nra. assert (h1 * h2 * w <= 1 / 1000 * (h1 + h2) * w) by (apply Rmult_le_compat_r; auto). lra. }
  destruct (rc_rnd _ _ (1001 / 1000 * (h1 + h2)) M ltac:(lra) D) as (L & R). destruct (fmul_ok x y Fx Fy L) as (F & V). split; auto. now rewrite V.
Qed.
Lemma rc_div h1 h2 x y a b : rc h1 x a -> rc h2 y b -> b <> 0 -> mid (a / b) -> 0 <= h1 <= 1 / 5000 -> 0 <= h2 <= 1 / 5000 ->
  rc (1001 / 1000 * (h1 + h2) + 101 / 100 * uu) (fdiv x y) (a / b).
Proof.
  intros (Fx & Ex) (Fy & Ey) B M H1 H2. assert (Bp : 0 < Rabs b) by now apply Rabs_pos_lt.
  assert (Y : 4999 / 5000 * Rabs b <= Rabs (value y)). { rewrite Rabs_minus_sym in Ey. pose proof (err_abs _ _ _ Ey). nra. }
  assert (Y0 : value y <> 0). { intros E. rewrite E, Rabs_R0 in Y. lra. }
  assert (D : Rabs (value x / value y - a / b) <= 1001 / 1000 * (h1 + h2) * Rabs (a / b)).
  { replace (value x / value y - a / b) with ((b * (value x - a) - a * (value y - b)) / b / value y) by (field; auto).
    assert (DV : forall u v, Rabs (u / v) = Rabs u * / Rabs v) by (intros; unfold Rdiv; now rewrite Rabs_mult, Rabs_inv). rewrite !DV.
    assert (N : Rabs (b * (value x - a) - a * (value y - b)) <= (h1 + h2) * (Rabs a * Rabs b)).
    { unfold Rminus at 1. eapply Rle_trans; [apply Rabs_triang|]. rewrite Rabs_Ropp, !Rabs_mult. pose proof (Rabs_pos a).
      assert (Rabs b * Rabs (value x - a) <= Rabs b * (h1 * Rabs a)) by (apply Rmult_le_compat_l; lra). assert (Rabs a * Rabs (value y - b) <= Rabs a * (h2 * Rabs b)) by (apply Rmult_le_compat_l; lra). lra. }
    set (q := Rabs b) in *. set (p := Rabs a) in *. assert (P0 : 0 <= p) by apply Rabs_pos. set (n := Rabs (b * _ - _)) in *. assert (N0 : 0 <= n) by apply Rabs_pos. set (v := Rabs (value y)) in *. clearbody p q n v.
    apply Rmult_le_reg_r with v; [lra|]. rewrite Rmult_assoc, Rinv_l, Rmult_1_r by lra. apply Rmult_le_reg_r with q; [lra|]. rewrite Rmult_assoc, Rinv_l, Rmult_1_r by lra.
    replace (1001 / 1000 * (h1 + h2) * (p * / q) * v * q) with (1001 / 1000 * (h1 + h2) * p * v) by (field; lra).
    assert (0 <= (h1 + h2) * p) by (apply Rmult_le_pos; lra). set (w := (h1 + h2) * p) in *. replace ((h1 + h2) * (p * q)) with (w * q) in N by (unfold w; ring).
    replace (1001 / 1000 * (h1 + h2) * p * v) with (1001 / 1000 * (w * v)) by (unfold w; ring). assert (w * (4999 / 5000 * q) <= w * v) by (apply Rmult_le_compat_l; lra).
    assert (0 <= w * q) by (apply Rmult_le_pos; lra). lra. }
  destruct (rc_rnd _ _ (1001 / 1000 * (h1 + h2)) M ltac:(lra) D) as (L & R). destruct (fdiv_ok x y Fx Y0 L) as (F & V). split; auto. now rewrite V.
Qed.
Lemma rc_sqrt h x a : rc h x a -> 0 < a -> mid a -> mid (sqrt a) -> 0 <= h <= 1 / 5000 ->
  rc (501 / 1000 * h + 101 / 100 * uu) (fsqrt x) (sqrt a).
Proof.
  intros (Fx & Ex) A M0 M H. rewrite (Rabs_pos_eq a) in Ex by lra. pose proof Ex as E'. apply Rabs_le_inv in E'.
  assert (X : 4999 / 5000 * a <= value x) by nra. assert (X0 : 0 < value x) by lra.
  assert (D : Rabs (sqrt (value x) - sqrt a) <= 501 / 1000 * h * Rabs (sqrt a)).
  { rewrite (Rabs_pos_eq (sqrt a)) by apply sqrt_pos. pose proof (sqrt_lt_R0 _ A) as S1. pose proof (sqrt_lt_R0 _ X0) as S2.
    assert (Q : (sqrt (value x) - sqrt a) * (sqrt (value x) + sqrt a) = value x - a).
    { replace ((sqrt (value x) - sqrt a) * (sqrt (value x) + sqrt a)) with (sqrt (value x) * sqrt (value x) - sqrt a * sqrt a) by ring. rewrite !sqrt_sqrt by lra. reflexivity. }
    assert (S3 : 999 / 1000 * sqrt a <= sqrt (value x)).
    { rewrite <- (sqrt_square (999 / 1000)) by lra. rewrite <- sqrt_mult by lra. apply sqrt_le_1_alt. lra. }
    pose proof (sqrt_sqrt a ltac:(lra)) as SS.
    rewrite <- Q, Rabs_mult, (Rabs_pos_eq (_ + _)) in Ex by lra. set (s := sqrt a) in *. set (t := sqrt (value x)) in *. set (d := Rabs (t - s)) in *. assert (0 <= d) by apply Rabs_pos. clearbody s d. clearbody t.
    assert (d * (1999 / 1000 * s) <= d * (t + s)) by (apply Rmult_le_compat_l; lra). rewrite <- SS in Ex.
    apply Rmult_le_reg_r with (1999 / 1000 * s); [lra|]. assert (0 <= h * (s * s)) by (apply Rmult_le_pos; nra). lra. }
  destruct (rc_rnd _ _ (501 / 1000 * h) M ltac:(lra) D) as (L & R). destruct (fsqrt_ok x Fx X0) as (F & V). split; auto. now rewrite V.
Qed.
(** Sums, with absolute errors. *)
Lemma ab_add e f x y a b : finite x -> finite y -> Rabs (value x - a) <= e -> Rabs (value y - b) <= f -> Rabs (a + b) + e + f <= 1000000000000 ->
  finite (fadd x y) /\ Rabs (value (fadd x y) - (a + b)) <= e + f + uu * (Rabs (a + b) + e + f).
Proof.
  intros Fx Fy Ex Ey L. pose proof (err_plus _ _ _ _ _ _ Ex Ey) as E. pose proof (err_abs _ _ _ E) as A. pose proof pow_1000. pose proof uu_pos.
  destruct (fadd_ok x y Fx Fy) as (F & V); [lra|]. split; auto. rewrite V. pose proof (rnd_add_err _ _ (value_fmt x) (value_fmt y)) as R.
  eapply Rle_trans; [apply (err_trans _ _ _ _ _ R E)|]. assert (uu * Rabs (value x + value y) <= uu * (Rabs (a + b) + e + f)) by (apply Rmult_le_compat_l; lra). lra.
Qed.
Lemma ab_sub e f x y a b : finite x -> finite y -> Rabs (value x - a) <= e -> Rabs (value y - b) <= f -> Rabs (a - b) + e + f <= 1000000000000 ->
  finite (fsub x y) /\ Rabs (value (fsub x y) - (a - b)) <= e + f + uu * (Rabs (a - b) + e + f).
Proof.
  intros Fx Fy Ex Ey L. rewrite <- (Rabs_Ropp (value y - b)) in Ey. replace (- (value y - b)) with (- value y - - b) in Ey by ring.
  pose proof (err_plus _ _ _ _ _ _ Ex Ey) as E. change (a + - b) with (a - b) in E. pose proof (err_abs _ _ _ E) as A. pose proof pow_1000. pose proof uu_pos.
  destruct (fsub_ok x y Fx Fy) as (F & V); [unfold Rminus at 1; lra|]. split; auto. rewrite V.
  pose proof (rnd_add_err (value x) (- value y) (value_fmt x) (generic_format_opp _ _ _ (value_fmt y))) as R. unfold Rminus at 2.
  eapply Rle_trans; [apply (err_trans _ _ _ _ _ R E)|]. assert (uu * Rabs (value x + - value y) <= uu * (Rabs (a - b) + e + f)) by (apply Rmult_le_compat_l; lra). lra.
Qed.
