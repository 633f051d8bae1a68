(** Rounding errors of dot products, norms and cosines. *)
From Coq Require Import ZArith Reals Lra Lia Psatz.
From Flocq Require Import Core.Core IEEE754.BinarySingleNaN IEEE754.Binary IEEE754.Bits Relative Plus_error.
From Verif Require Import Py Fl_Model Fl_Spec Fl_Proofs Flg_Model Flg_Spec Rot_Model Rot_Spec Flg_Proofs.
Open Scope R_scope.

#[local] Instance prec53' : Prec_gt_0 53 := eq_refl.
Definition ee : R := bpow radix2 (-1060).
Lemma ee_pos : 0 < ee. Proof. apply bpow_gt_0. Qed.
Lemma rnd_mul_err x : Rabs (rnd x - x) <= uu * Rabs x + ee.
Proof.
  destruct (error_N_FLT radix2 (-1074) 53 ltac:(lia) (fun x => negb (Z.even x)) x) as (e & n & E & N & _ & R).
  change (rnd x = x * (1 + e) + n) in R. rewrite R. replace (x * (1 + e) + n - x) with (e * x + n) by ring.
  eapply Rle_trans; [apply Rabs_triang|]. rewrite Rabs_mult. apply Rplus_le_compat.
  - apply Rmult_le_compat_r; [apply Rabs_pos|exact E].
  - eapply Rle_trans; [exact N|]. unfold ee. pose proof (bpow_gt_0 radix2 (-1074)). pose proof (bpow_le radix2 (-1074) (-1060) ltac:(lia)). lra.
Qed.
Lemma rnd_add_err x y : fmt x -> fmt y -> Rabs (rnd (x + y) - (x + y)) <= uu * Rabs (x + y).
Proof.
  intros X Y. destruct (FLT_plus_error_N_ex radix2 (-1074) 53 (fun x => negb (Z.even x)) x y X Y) as (e & E & R).
  change (rnd (x + y) = (x + y) * (1 + e)) in R. rewrite R. replace ((x + y) * (1 + e) - (x + y)) with (e * (x + y)) by ring.
  rewrite Rabs_mult. apply Rmult_le_compat_r; [apply Rabs_pos|]. eapply Rle_trans; [exact E|].
  assert (U : u_ro radix2 53 = uu) by reflexivity. rewrite U. pose proof uu_pos as P. apply Rmult_le_reg_r with (1 + uu); [lra|].
  unfold Rdiv. rewrite Rmult_assoc, Rinv_l by lra. nra.
Qed.
(** An absolute error, and what it does to absolute values *)
Lemma err_abs x y e : Rabs (x - y) <= e -> Rabs x <= Rabs y + e.
Proof. intros H. pose proof (Rabs_triang (x - y) y) as T. replace (x - y + y) with x in T by ring. lra. Qed.
Lemma err_trans x y z e f : Rabs (x - y) <= e -> Rabs (y - z) <= f -> Rabs (x - z) <= e + f.
Proof. intros A B. pose proof (Rabs_triang (x - y) (y - z)) as T. replace (x - y + (y - z)) with (x - z) in T by ring. lra. Qed.
Lemma err_plus x y x' y' e f : Rabs (x - x') <= e -> Rabs (y - y') <= f -> Rabs (x + y - (x' + y')) <= e + f.
Proof. intros A B. replace (x + y - (x' + y')) with ((x - x') + (y - y')) by ring. eapply Rle_trans; [apply Rabs_triang|]. lra. Qed.

(** Products of components *)
Lemma three_le a b c A B C : a <= A -> b <= B -> c <= C -> a + b + c <= A + B + C. Proof. lra. Qed.
Definition big : R := bpow radix2 200.
Lemma big_mul x y : Rabs x <= big -> Rabs y <= big -> Rabs (x * y) <= bpow radix2 400.
Proof. intros X Y. rewrite Rabs_mult. change (bpow radix2 400) with (bpow radix2 (200 + 200)). rewrite bpow_plus. apply Rmult_le_compat; auto using Rabs_pos. Qed.
Lemma uu_tiny : uu * 1000 <= 1. Proof. rewrite uu_value. lra. Qed.
Lemma uu_shrink b : 0 <= b -> uu * b <= b / 1000.
Proof. intros B. pose proof uu_tiny. assert ((1 - uu * 1000) * b >= 0) by nra. lra. Qed.
Lemma uu_shrink2 b : 0 <= b -> uu * (uu * b) <= uu * b / 1000.
Proof. intros B. apply uu_shrink. apply Rmult_le_pos; auto. left. apply uu_pos. Qed.
Lemma pow400 : 1 <= bpow radix2 400. Proof. change 1 with (bpow radix2 0). apply bpow_le. lia. Qed.
Lemma pow_up k e : (0 <= k)%Z -> (e + k <= 1000)%Z -> forall x, Rabs x <= bpow radix2 k * bpow radix2 e -> Rabs x <= bpow radix2 1000.
Proof. intros K E x H. rewrite <- bpow_plus in H. eapply Rle_trans; [exact H|]. apply bpow_le. lia. Qed.

Section Dot.
  Variables u v : fvec.
  Hypothesis Fu : finite_vec u.
  Hypothesis Fv : finite_vec v.
  Hypothesis Bu : Rabs (value (fx u)) <= big /\ Rabs (value (fy u)) <= big /\ Rabs (value (fz u)) <= big.
  Hypothesis Bv : Rabs (value (fx v)) <= big /\ Rabs (value (fy v)) <= big /\ Rabs (value (fz v)) <= big.
  Let a1 := value (fx u) * value (fx v).
  Let a2 := value (fy u) * value (fy v).
  Let a3 := value (fz u) * value (fz v).
  Lemma prod_ok x y : finite x -> finite y -> Rabs (value x) <= big -> Rabs (value y) <= big ->
    finite (fmul x y) /\ Rabs (value (fmul x y) - value x * value y) <= uu * Rabs (value x * value y) + ee /\ Rabs (value (fmul x y)) <= 2 * bpow radix2 400.
  Proof.
    intros X Y Bx By. pose proof (big_mul _ _ Bx By) as B. destruct (fmul_ok x y X Y) as (F & E).
    { eapply Rle_trans; [exact B|]. apply bpow_le. lia. }
    split; auto. rewrite E. pose proof (rnd_mul_err (value x * value y)) as R. split; auto.
    pose proof (rnd_abs_le _ 400 ltac:(lia) B). pose proof pow400. lra.
  Qed.
  Lemma fdot_ok : finite (fdot u v) /\
    Rabs (value (fdot u v) - dot (vector u) (vector v)) <= 4 * uu * (Rabs a1 + Rabs a2 + Rabs a3) + 4 * ee.
  Proof.
    destruct Fu as (F1 & F2 & F3). destruct Fv as (G1 & G2 & G3). destruct Bu as (B1 & B2 & B3). destruct Bv as (C1 & C2 & C3).
    destruct (prod_ok _ _ F1 G1 B1 C1) as (P1 & E1 & M1). destruct (prod_ok _ _ F2 G2 B2 C2) as (P2 & E2 & M2). destruct (prod_ok _ _ F3 G3 B3 C3) as (P3 & E3 & M3).
    fold a1 in E1. fold a2 in E2. fold a3 in E3. unfold fdot.
    set (p1 := fmul (fx u) (fx v)) in *. set (p2 := fmul (fy u) (fy v)) in *. set (p3 := fmul (fz u) (fz v)) in *.
    pose proof pow400 as T. assert (Q : 16 * bpow radix2 400 <= bpow radix2 1000) by (change 16 with (bpow radix2 4); rewrite <- bpow_plus; apply bpow_le; lia).
    destruct (fadd_ok p1 p2 P1 P2) as (S1 & V1). { eapply Rle_trans; [apply Rabs_triang|]. lra. }
    pose proof (rnd_add_err (value p1) (value p2) (value_fmt p1) (value_fmt p2)) as R1. rewrite <- V1 in R1.
    pose proof (Rabs_triang (value p1) (value p2)) as T1. pose proof uu_pos as U. pose proof uu_tiny as U'.
    assert (N1 : Rabs (value (fadd p1 p2)) <= 5 * bpow radix2 400).
    { apply err_abs in R1. assert (uu * Rabs (value p1 + value p2) <= 1 * (Rabs (value p1 + value p2))) by (apply Rmult_le_compat_r; [apply Rabs_pos|lra]).
      assert (K : uu * Rabs (value p1 + value p2) <= 1 * bpow radix2 400). { assert (Rabs (value p1 + value p2) <= 4 * bpow radix2 400) by lra. nra. } lra. }
    destruct (fadd_ok (fadd p1 p2) p3 S1 P3) as (S2 & V2). { eapply Rle_trans; [apply Rabs_triang|]. lra. }
    pose proof (rnd_add_err (value (fadd p1 p2)) (value p3) (value_fmt _) (value_fmt p3)) as R2. rewrite <- V2 in R2.
    split; auto. set (s1 := value (fadd p1 p2)) in *. set (s2 := value (fadd (fadd p1 p2) p3)) in *. clear V1 V2 M1 M2 M3 N1 S1 S2.
    change (dot (vector u) (vector v)) with (a1 + a2 + a3).
    set (q1 := value p1) in *. set (q2 := value p2) in *. set (q3 := value p3) in *. clearbody q1 q2 q3 s1 s2 p1 p2 p3.
    pose proof (Rabs_pos a1) as A1. pose proof (Rabs_pos a2) as A2. pose proof (Rabs_pos a3) as A3.
    set (b1 := Rabs a1) in *. set (b2 := Rabs a2) in *. set (b3 := Rabs a3) in *.
    pose proof (err_abs _ _ _ E1) as D1. pose proof (err_abs _ _ _ E2) as D2. pose proof (err_abs _ _ _ E3) as D3. fold b1 in D1. fold b2 in D2. fold b3 in D3.
    pose proof (err_plus _ _ _ _ _ _ E1 E2) as E12.
    pose proof (err_trans _ _ _ _ _ R1 E12) as G12. pose proof (err_plus _ _ _ _ _ _ G12 E3) as E123.
    pose proof (err_trans _ _ _ _ _ R2 E123) as G123.
    assert (X1 : Rabs (s1 + q3) <= b1 + b2 + b3 + (uu * Rabs (q1 + q2) + (uu * b1 + ee + (uu * b2 + ee)) + (uu * b3 + ee))).
    { apply err_abs in E123. pose proof (Rabs_triang (a1 + a2) a3) as W1. pose proof (Rabs_triang a1 a2) as W2. fold b3 in W1. fold b1 b2 in W2. lra. }
    assert (X2 : Rabs (q1 + q2) <= b1 + b2 + (uu * b1 + ee + (uu * b2 + ee))) by lra.
    eapply Rle_trans; [exact G123|]. pose proof (Rabs_pos (q1 + q2)) as N2. clear - X1 X2 A1 A2 A3 U U' N2. pose proof ee_pos as EP.
    set (x1 := Rabs (s1 + q3)) in *. set (x2 := Rabs (q1 + q2)) in *. clearbody x1 x2.
    assert (Y2 : uu * x2 <= uu * (b1 + b2 + (uu * b1 + ee + (uu * b2 + ee)))) by (apply Rmult_le_compat_l; lra).
    assert (Y1 : uu * x1 <= uu * (b1 + b2 + b3 + (uu * x2 + (uu * b1 + ee + (uu * b2 + ee)) + (uu * b3 + ee)))) by (apply Rmult_le_compat_l; lra).
    pose proof (uu_shrink2 b1 A1) as Z1. pose proof (uu_shrink2 b2 A2) as Z2. pose proof (uu_shrink2 b3 A3) as Z3.
    pose proof (uu_shrink ee ltac:(lra)) as Z4. pose proof (uu_shrink2 x2 N2) as Z5. pose proof (uu_shrink2 ee ltac:(lra)) as Z6.
    assert (Z7 : 0 <= uu * b1) by (apply Rmult_le_pos; lra). assert (Z8 : 0 <= uu * b2) by (apply Rmult_le_pos; lra). assert (Z9 : 0 <= uu * b3) by (apply Rmult_le_pos; lra).
    lra.
  Qed.
End Dot.
