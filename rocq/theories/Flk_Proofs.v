(** Angles reduced to a turn, in floating point. *)
From Coq Require Import List ZArith QArith Qreals Reals Lra Lia Psatz Bool.
From Flocq Require Import Core.Core IEEE754.BinarySingleNaN IEEE754.Binary IEEE754.Bits.
From Verif Require Import Py Fl_Model Fl_Spec Fl_Proofs Flg_Model Flg_Spec Time_Model Time_Spec Time_Proofs Rot_Model Rot_Spec Rot_Proofs Flg_Proofs Flg_Num Flg_Proofs2 Flg_Proofs3
  Flc_Model Flc_Spec Flc_Proofs Flc_Proofs2 Flc_Proofs3 Flc_Proofs4 Flc_Proofs5 Flg_Proofs5 Flr_Model Flr_Spec Flx_Expr Flr_Proofs Flr_Proofs2 Flr_Proofs3 Flr_Proofs4 Flk_Model Flk_Spec.
Open Scope R_scope.
#[local] Strategy 1000 [fmul fadd fsub fdiv fneg literal of_Z fpymod].

(** The remainder of a division by [z]: off by the rounding, and a whole number of [z] *)
Lemma mod_any z x r e b : appr x r e b -> (1 <= z <= 1000)%Z -> 0 <= e ->
  finite (fpymod x (of_Z z)) /\ 0 <= value (fpymod x (of_Z z)) <= IZR z /\
  apart_at_most (IZR z) ((e + IZR z) * uu) (value (fpymod x (of_Z z))) r.
Proof.
  intros (F & E & _) Z He. assert (Zr : 1 <= IZR z <= 1000) by (split; apply IZR_le; lia). apply Rabs_le_inv in E. pose proof uu_pos as U.
  destruct (fpymod_bounds x (of_Z z) z ltac:(lia) eq_refl F) as (Fm & Vm & Rm).
  split; auto. split; auto. destruct (modulo_shift (value x) (IZR z)) as (k & Mk). pose proof (modulo_range (value x) (IZR z) ltac:(lra)) as Mr.
  pose proof (rnd_abs_err (modulo (value x) (IZR z)) (IZR z) ltac:(rewrite Rabs_pos_eq; lra) ltac:(lra)) as Er. rewrite <- Vm in Er. apply Rabs_le_inv in Er.
  exists (- k)%Z. rewrite opp_IZR. apply Rabs_le. lra.
Qed.
(** A real number reduced, as the float is, up to a turn *)
Lemma apart_near m d v r : apart_at_most m d v r -> 0 < m -> d <= m / 4 -> 0 <= v <= m -> exists j, (Z.abs j <= 1)%Z /\ Rabs (v - (Rmod r m + IZR j * m)) <= d.
Proof.
  intros (k & E) M Hd V. pose proof (Rmod_range r m M) as R. set (K := Int_part (r / m)). assert (ER : Rmod r m = r - m * IZR K) by reflexivity.
  set (j := (k + K)%Z). assert (Ej : Rmod r m + IZR j * m = r + IZR k * m) by (rewrite ER; unfold j; rewrite plus_IZR; ring).
  exists j. rewrite Ej. replace (v - (r + IZR k * m)) with (v - r - IZR k * m) by ring. split; [|exact E]. apply Rabs_le_inv in E.
  assert (J : - (2) * m < IZR j * m < 2 * m) by lra. assert (J1 : IZR j < 2) by nra. assert (J2 : -2 < IZR j) by nra.
  apply (lt_IZR j 2) in J1. apply (lt_IZR (-2) j) in J2. lia.
Qed.
Lemma apart_weaken m d d' a b : apart_at_most m d a b -> d <= d' -> apart_at_most m d' a b.
Proof. intros (k & E) H. exists k. lra. Qed.
Lemma apart_move m d c a b b' : apart_at_most m d a b -> Rabs (b - b') <= c -> apart_at_most m (d + c) a b'.
Proof.
  intros (k & E) H. exists k. replace (a - b' - IZR k * m) with ((a - b - IZR k * m) + (b - b')) by ring.
  eapply Rle_trans; [apply Rabs_triang|]. lra.
Qed.
Lemma apart_turn m d a b j : apart_at_most m d a (b + IZR j * m) -> apart_at_most m d a b.
Proof. intros (k & E). exists (k + j)%Z. rewrite plus_IZR. replace (a - b - (IZR k + IZR j) * m) with (a - (b + IZR j * m) - IZR k * m) by ring. exact E. Qed.
Lemma apart_Rmod m d a b : apart_at_most m d a (Rmod b m) -> apart_at_most m d a b.
Proof. intros H. apply (apart_turn _ _ _ _ (- Int_part (b / m))). rewrite opp_IZR. replace (b + - IZR (Int_part (b / m)) * m) with (Rmod b m) by (unfold Rmod; ring). exact H. Qed.
Lemma apart_to_Rmod m d a b : apart_at_most m d a b -> apart_at_most m d a (Rmod b m).
Proof. intros H. apply (apart_turn _ _ _ _ (Int_part (b / m))). replace (Rmod b m + IZR (Int_part (b / m)) * m) with b by (unfold Rmod; ring). exact H. Qed.

(** ** The angles of nutation *)
Definition eD (t : nat -> expr) : expr := Add (Sub (Add (Dec 29785036 100000) (Mul (Dec 445267111480 1000000) (t 1%nat))) (Mul (Dec 19142 10000000) (t 2%nat))) (Over (t 3%nat) 189474).
Definition eM (t : nat -> expr) : expr := Sub (Sub (Add (Dec 35752772 100000) (Mul (Dec 35999050340 1000000) (t 1%nat))) (Mul (Dec 1603 10000000) (t 2%nat))) (Over (t 3%nat) 300000).
Definition eN (t : nat -> expr) : expr := Add (Add (Add (Dec 13496298 100000) (Mul (Dec 477198867398 1000000) (t 1%nat))) (Mul (Dec 86972 10000000) (t 2%nat))) (Over (t 3%nat) 56250).
Definition eF (t : nat -> expr) : expr := Add (Sub (Add (Dec 9327191 100000) (Mul (Dec 483202017538 1000000) (t 1%nat))) (Mul (Dec 36825 10000000) (t 2%nat))) (Over (t 3%nat) 327270).
Definition eG (t : nat -> expr) : expr := Sub (Add (Add (Dec 28046 100) (Mul (Mul (Dec 36098564736629 100000000000) (t 1%nat)) (Whole 36525))) (Mul (Dec 387933 1000000000) (t 2%nat))) (Over (t 3%nat) 38710000).
Section Numpy.
Variable L : arrays.
Hypothesis G : accurate_arrays L.
Section Poly.
Variables (d : float) (r : R).
Hypothesis D : appr d r (Q2R 0) (Q2R 1742758).
Let t (p : nat) := Pow (Over (Leaf d r 0 1742758) 36525) p.
Lemma angle_bounds :
  appr (feval L (eD t)) (reval (eD t)) (Q2R 240000000) (Q2R 30000000) /\ appr (feval L (eM t)) (reval (eM t)) (Q2R 18000000) (Q2R 2000000) /\
  appr (feval L (eN t)) (reval (eN t)) (Q2R 240000000) (Q2R 30000000) /\ appr (feval L (eF t)) (reval (eF t)) (Q2R 240000000) (Q2R 30000000) /\
  appr (feval L (enode t)) (reval (enode t)) (Q2R 2000000) (Q2R 200000) /\ appr (feval L (eG t)) (reval (eG t)) (Q2R 7000000000) (Q2R 700000000).
Proof.
  split; [apply (check_ok L 240000000 30000000 _ G)|split; [apply (check_ok L 18000000 2000000 _ G)|split; [apply (check_ok L 240000000 30000000 _ G)|
    split; [apply (check_ok L 240000000 30000000 _ G)|split; [apply (check_ok L 2000000 200000 _ G)|apply (check_ok L 7000000000 700000000 _ G)]]]]]; try (vm_compute; reflexivity); cbn [leaves eD eM eN eF eG enode t]; tauto.
Qed.
End Poly.
Ltac poly := cbn [reval eD eM eN eF eG enode]; unfold T_of; set (c := (_ - 2451545) / 36525); clearbody c; decimals; field.
Lemma angles_ok jd : dated jd -> let T := T_of (value jd) in
  appr (feval L (eD (fun p => Pow (Over (Leaf (fsub jd (of_Z 2451545)) (value jd - 2451545) 0 1742758) 36525) p))) (297.85036 + 445267.111480 * T - 0.0019142 * T ^ 2 + T ^ 3 / 189474) 240000000 30000000 /\
  appr (feval L (eM (fun p => Pow (Over (Leaf (fsub jd (of_Z 2451545)) (value jd - 2451545) 0 1742758) 36525) p))) (357.52772 + 35999.050340 * T - 0.0001603 * T ^ 2 - T ^ 3 / 300000) 18000000 2000000 /\
  appr (feval L (eN (fun p => Pow (Over (Leaf (fsub jd (of_Z 2451545)) (value jd - 2451545) 0 1742758) 36525) p))) (134.96298 + 477198.867398 * T + 0.0086972 * T ^ 2 + T ^ 3 / 56250) 240000000 30000000 /\
  appr (feval L (eF (fun p => Pow (Over (Leaf (fsub jd (of_Z 2451545)) (value jd - 2451545) 0 1742758) 36525) p))) (93.27191 + 483202.017538 * T - 0.0036825 * T ^ 2 + T ^ 3 / 327270) 240000000 30000000 /\
  appr (feval L (enode (fun p => Pow (Over (Leaf (fsub jd (of_Z 2451545)) (value jd - 2451545) 0 1742758) 36525) p))) (125.04452 - 1934.136261 * T + 0.0020708 * T ^ 2 + T ^ 3 / 450000) 2000000 200000 /\
  appr (feval L (eG (fun p => Pow (Over (Leaf (fsub jd (of_Z 2451545)) (value jd - 2451545) 0 1742758) 36525) p))) (280.46 + 360.98564736629 * T * 36525 + 0.000387933 * T ^ 2 - T ^ 3 / 38710000) 7000000000 700000000.
Proof.
  intros D T. pose proof (angle_bounds _ _ (days_leaf jd D)) as (A1 & A2 & A3 & A4 & A5 & A6).
  rewrite ?Q2R_int in *. unfold T.
  match type of A1 with appr _ ?x _ _ => replace x with (297.85036 + 445267.111480 * T_of (value jd) - 0.0019142 * T_of (value jd) ^ 2 + T_of (value jd) ^ 3 / 189474) in A1 by poly end.
  match type of A2 with appr _ ?x _ _ => replace x with (357.52772 + 35999.050340 * T_of (value jd) - 0.0001603 * T_of (value jd) ^ 2 - T_of (value jd) ^ 3 / 300000) in A2 by poly end.
  match type of A3 with appr _ ?x _ _ => replace x with (134.96298 + 477198.867398 * T_of (value jd) + 0.0086972 * T_of (value jd) ^ 2 + T_of (value jd) ^ 3 / 56250) in A3 by poly end.
  match type of A4 with appr _ ?x _ _ => replace x with (93.27191 + 483202.017538 * T_of (value jd) - 0.0036825 * T_of (value jd) ^ 2 + T_of (value jd) ^ 3 / 327270) in A4 by poly end.
  match type of A5 with appr _ ?x _ _ => replace x with (125.04452 - 1934.136261 * T_of (value jd) + 0.0020708 * T_of (value jd) ^ 2 + T_of (value jd) ^ 3 / 450000) in A5 by poly end.
  match type of A6 with appr _ ?x _ _ => replace x with (280.46 + 360.98564736629 * T_of (value jd) * 36525 + 0.000387933 * T_of (value jd) ^ 2 - T_of (value jd) ^ 3 / 38710000) in A6 by poly end.
  split; [exact A1|split; [exact A2|split; [exact A3|split; [exact A4|split; [exact A5|exact A6]]]]].
Qed.
Lemma turn_of z x r e b d : (1 <= z <= 1000)%Z -> appr x r e b -> 0 <= e -> (e + IZR z) * uu <= d -> turned d (IZR z) r (fpymod x (of_Z z)).
Proof. intros Z H E Hd. destruct (mod_any z x r e b H Z E) as (F & R & A). split; auto. split; auto. exact (apart_weaken _ _ _ _ _ A Hd). Qed.
Lemma nutation_angles_ok jd : dated jd -> let T := T_of (value jd) in
  turned (27 / 10 ^ 9) 360 (297.85036 + 445267.111480 * T - 0.0019142 * T ^ 2 + T ^ 3 / 189474) (fmean_elongation L jd) /\
  turned (2 / 10 ^ 9) 360 (357.52772 + 35999.050340 * T - 0.0001603 * T ^ 2 - T ^ 3 / 300000) (fmean_anomaly_of_sun L jd) /\
  turned (27 / 10 ^ 9) 360 (134.96298 + 477198.867398 * T + 0.0086972 * T ^ 2 + T ^ 3 / 56250) (fmean_anomaly_of_moon L jd) /\
  turned (27 / 10 ^ 9) 360 (93.27191 + 483202.017538 * T - 0.0036825 * T ^ 2 + T ^ 3 / 327270) (fargument_of_latitude L jd) /\
  turned (1 / 10 ^ 9) 360 (125.04452 - 1934.136261 * T + 0.0020708 * T ^ 2 + T ^ 3 / 450000) (flongitude_of_ascending_node L jd).
Proof.
  intros D T. destruct (angles_ok jd D) as (A1 & A2 & A3 & A4 & A5 & _). pose proof uu_value as U.
  split; [|split; [|split; [|split]]].
  - refine (turn_of 360 _ _ _ _ _ _ A1 _ _); [lia|lra|rewrite U; lra].
  - refine (turn_of 360 _ _ _ _ _ _ A2 _ _); [lia|lra|rewrite U; lra].
  - refine (turn_of 360 _ _ _ _ _ _ A3 _ _); [lia|lra|rewrite U; lra].
  - refine (turn_of 360 _ _ _ _ _ _ A4 _ _); [lia|lra|rewrite U; lra].
  - refine (turn_of 360 _ _ _ _ _ _ A5 _ _); [lia|lra|rewrite U; lra].
Qed.
(** Greenwich mean sidereal time *)
Lemma gmst_ok jd : dated jd -> let T := T_of (value jd) in
  turned (6 / 10 ^ 8) 24 ((280.46 + 360.98564736629 * (value jd - 2451545) + 0.000387933 * T ^ 2 - T ^ 3 / 38710000) / 15) (fgmst L jd).
Proof.
  intros D T. destruct (angles_ok jd D) as (_ & _ & _ & _ & _ & A). pose proof uu_value as U.
  assert (H : turned (78 / 10 ^ 8) 360 (280.46 + 360.98564736629 * T * 36525 + 0.000387933 * T ^ 2 - T ^ 3 / 38710000) (fpymod (fsub (fadd (fadd (literal 28046 100) (fmul (fmul (literal 36098564736629 100000000000) (ft L jd 1)) (of_Z 36525)))
                         (fmul (literal 387933 1000000000) (ft L jd 2))) (fdiv (ft L jd 3) (of_Z 38710000))) (of_Z 360))).
  { refine (turn_of 360 _ _ _ _ _ _ A _ _); [lia|lra|rewrite U; lra]. }
  destruct H as (F & R & k & H).
  unfold fgmst. cbv zeta.
  set (x := fpymod _ (of_Z 360)) in *. clearbody x. 
  destruct (of_Z_ok 15 ltac:(lia)) as (F15 & V15). destruct (fdiv_ok x (of_Z 15) F) as (Fd & Vd); [lra|rewrite V15; apply small_abs, Rabs_le; lra|].
  rewrite V15 in Vd. split; auto.
  pose proof (rnd_abs_err (value x / 15) 24 ltac:(apply Rabs_le; lra) ltac:(lra)) as Er. rewrite <- Vd in Er. rewrite U in Er.
  split.
  - rewrite Vd. split; [rewrite <- rnd_0; apply rnd_le; lra|]. apply rnd_le_fmt; [|lra]. rewrite <- (Rmult_1_r 24). apply (fmt_int 24 0); lia.
  - exists k. apply Rabs_le_inv in H, Er. replace (360.98564736629 * (value jd - 2451545)) with (360.98564736629 * T_of (value jd) * 36525) by (unfold T_of; set (x9 := 360.98564736629); field).
    fold T. fold T in H. apply Rabs_le. set (P := 280.46 + _ * T * 36525 + _ - _) in *. clearbody P. lra.
Qed.
End Numpy.
