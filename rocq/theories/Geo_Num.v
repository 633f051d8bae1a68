(** The first steps of the iteration of [_altitude] at two points 7000 km from the centre. *)
From Coq Require Import List Reals Arith Bool Lia Lra Psatz.
From Verif Require Import Num Rot_Model Rot_Spec Geo_Model Geo_Spec Geo_Alt Geo_Alt2 Geo_Acc.
Open Scope R_scope.

Lemma kap_tight : 0.993305 < kap < 0.993306.
Proof.
  pose proof A_pos as HA. assert (E : kap * (A * A) = B * B) by (unfold kap; field; lra).
  rewrite A_val, B_val in E. split; lra.
Qed.
Lemma cc_tight : 42.69 < cc < 42.71.
Proof. rewrite cc_kap. pose proof kap_tight. rewrite A_val. lra. Qed.
Lemma sqrt_between x lo hi : 0 <= lo -> 0 <= hi -> lo * lo <= x <= hi * hi -> lo <= sqrt x <= hi.
Proof.
  intros L H (X & Y). split.
  - rewrite <- (sqrt_square lo) by auto. now apply sqrt_le_1_alt.
  - rewrite <- (sqrt_square hi) by auto. now apply sqrt_le_1_alt.
Qed.
Lemma h0_7000 p z : rr p z = 7000 -> 632.564 < h0 p z < 632.565.
Proof. intros R. unfold h0. rewrite R. pose proof sqrtAB_num. lra. Qed.
Lemma m0_7000 p z : rr p z = 7000 -> 1.006126 < m0 p z < 1.006130.
Proof.
  intros R. pose proof (h0_7000 p z R) as H. unfold m0. pose proof cc_tight as C. pose proof A_val as HA.
  set (s := A + h0 p z) in *. assert (7010.701 < s < 7010.702) by (unfold s; lra). clearbody s.
  split; apply Rmult_lt_reg_r with (s - cc); try lra; unfold Rdiv; rewrite Rmult_assoc, Rinv_l by lra; lra.
Qed.
Definition north_rr : rr 5600 4200 = 7000.
Proof. unfold rr. replace (5600 * 5600 + 4200 * 4200) with (7000 * 7000) by lra. apply sqrt_square. lra. Qed.
Definition high_rr : rr 1960 6720 = 7000.
Proof. unfold rr. replace (1960 * 1960 + 6720 * 6720) with (7000 * 7000) by lra. apply sqrt_square. lra. Qed.
Lemma north_S : 7006.9 <= S_ 5600 4200 (m0 5600 4200) <= 7007.
Proof.
  pose proof (m0_7000 _ _ north_rr) as M. set (m := m0 5600 4200) in *. clearbody m. unfold S_. pose proof kap_tight as K.
  assert (Z : 4225.7 < 4200 * m < 4225.8) by lra. set (w := 4200 * m) in *. clearbody w.
  assert (W : 17856500 < w * w < 17857500) by nra. set (x := w * w) in *. clearbody x.
  apply sqrt_between; try lra. assert (0.993305 * 17856500 < kap * x < 0.993306 * 17857500) by nra. lra.
Qed.
Lemma north_Q : 7015.4 <= Q_ 5600 4200 (m0 5600 4200) <= 7015.6.
Proof.
  pose proof (m0_7000 _ _ north_rr) as M. set (m := m0 5600 4200) in *. clearbody m. unfold Q_.
  assert (Z : 4225.7 < 4200 * m < 4225.8) by lra. set (w := 4200 * m) in *. clearbody w.
  assert (W : 17856500 < w * w < 17857500) by nra. set (x := w * w) in *. clearbody x. apply sqrt_between; lra.
Qed.
Lemma h_between x s lo hi : 7000 <= s -> 7000 <= x -> lo * s <= x * (s - A) <= hi * s -> lo <= x - A * x / s <= hi.
Proof.
  intros S X (L & H). replace (x - A * x / s) with (x * (s - A) / s) by (field; lra).
  split; apply Rmult_le_reg_r with s; try lra; unfold Rdiv; rewrite Rmult_assoc, Rinv_l by lra; lra.
Qed.
Lemma north_h1 : 629 <= h_ 5600 4200 (m0 5600 4200) <= 630.
Proof.
  pose proof north_S as S. pose proof north_Q as Q. unfold h_. set (s := S_ _ _ _) in *. set (x := Q_ _ _ _) in *. clearbody s x.
  apply h_between; try lra. rewrite A_val. nra.
Qed.
Lemma north_m1 : 0.000003 <= mk 5600 4200 1 - mk 5600 4200 0 <= 0.000004.
Proof.
  cbn [mk]. pose proof north_S as S. pose proof (h0_7000 _ _ north_rr) as H. unfold g_. set (s := S_ _ _ _) in *. clearbody s.
  unfold m0. pose proof A_val as HA. set (t := A + h0 5600 4200). assert (T : 7010.701 < t < 7010.702) by (unfold t; lra). clearbody t.
  pose proof cc_tight as C.
  replace (s / (s - cc) - t / (t - cc)) with (cc * (t - s) / ((s - cc) * (t - cc))) by (field; lra).
  assert (P : 6964 * 6967 <= (s - cc) * (t - cc) <= 6965 * 6969) by nra.
  set (d := (s - cc) * (t - cc)) in *. clearbody d.
  assert (N : 42.69 * 3.701 <= cc * (t - s) <= 42.71 * 3.802) by nra. set (n := cc * (t - s)) in *. clearbody n.
  split; apply Rmult_le_reg_r with d; try lra; unfold Rdiv; rewrite Rmult_assoc, Rinv_l by lra; lra.
Qed.
Lemma high_S : 7017.7 <= S_ 1960 6720 (m0 1960 6720) <= 7017.9.
Proof.
  pose proof (m0_7000 _ _ high_rr) as M. set (m := m0 1960 6720) in *. clearbody m. unfold S_. pose proof kap_tight as K.
  assert (Z : 6761.16 < 6720 * m < 6761.2) by lra. set (w := 6720 * m) in *. clearbody w.
  assert (W : 45713284 < w * w < 45713826) by nra. set (x := w * w) in *. clearbody x.
  apply sqrt_between; try lra. assert (0.993305 * 45713284 < kap * x < 0.993306 * 45713826) by nra. lra.
Qed.
Lemma high_Q : 7039.5 <= Q_ 1960 6720 (m0 1960 6720) <= 7039.6.
Proof.
  pose proof (m0_7000 _ _ high_rr) as M. set (m := m0 1960 6720) in *. clearbody m. unfold Q_.
  assert (Z : 6761.16 < 6720 * m < 6761.2) by lra. set (w := 6720 * m) in *. clearbody w.
  assert (W : 45713284 < w * w < 45713826) by nra. set (x := w * w) in *. clearbody x. apply sqrt_between; lra.
Qed.
Lemma high_h1 : 641 <= h_ 1960 6720 (m0 1960 6720).
Proof.
  pose proof high_S as S. pose proof high_Q as Q. unfold h_. set (s := S_ _ _ _) in *. set (x := Q_ _ _ _) in *. clearbody s x.
  apply (h_between x s 641 700); try lra. rewrite A_val. nra.
Qed.
(** At the first of them the iteration stays near its first step. *)
Lemma north_stays k : (1 <= k)%nat -> hk 5600 4200 k <= 631.
Proof.
  assert (F : far 5600 4200). { split; [lra|]. rewrite north_rr, B_val. lra. }
  assert (D : forall j, Rabs (mk 5600 4200 j - mk 5600 4200 0) <= 0.000005).
  { induction j. { rewrite Rminus_eq_0, Rabs_R0. lra. }
    replace (mk 5600 4200 (S j) - mk 5600 4200 0) with ((mk 5600 4200 (S j) - mk 5600 4200 1) + (mk 5600 4200 1 - mk 5600 4200 0)) by ring.
    eapply Rle_trans; [apply Rabs_triang|]. pose proof north_m1 as M1. rewrite (Rabs_right (mk 5600 4200 1 - mk 5600 4200 0)) by lra.
    cbn [mk] in *. pose proof (mk_range 5600 4200 j F). pose proof (mk_range 5600 4200 0 F) as R0. cbn [mk] in R0.
    assert (Rabs (g_ 5600 4200 (mk 5600 4200 j) - g_ 5600 4200 (m0 5600 4200)) <= 0.007 * 0.000005); [|lra].
    eapply Rle_trans; [apply g_lip; auto; lra|]. lra. }
  intros K. destruct k as [|j]; [lia|]. cbn [hk]. specialize (D j). pose proof north_h1 as H1.
  pose proof (mk_range 5600 4200 j F). pose proof (mk_range 5600 4200 0 F) as R0. cbn [mk] in R0, D.
  pose proof (h_lip 5600 4200 (mk 5600 4200 j) (m0 5600 4200) F ltac:(lra) ltac:(lra)) as L.
  rewrite (Rabs_right 4200) in L by lra. pose proof (Rle_abs (h_ 5600 4200 (mk 5600 4200 j) - h_ 5600 4200 (m0 5600 4200))). lra.
Qed.
