(** The positions of the satellite and of the target in the LVLH frame, as attitudes use them. *)
From Coq Require Import ZArith Reals Lra Lia Psatz.
From Flocq Require Import Core.Core IEEE754.BinarySingleNaN IEEE754.Binary IEEE754.Bits.
From Verif Require Import Py Fl_Model Fl_Spec Fl_Proofs Flg_Model Flg_Spec Rot_Model Rot_Spec Rot_Proofs Geo_Model Geo_Spec Lvlh_Spec Lvlh_Proofs Flg_Proofs Flg_Proofs2 Flg_Proofs3 Flg_Proofs7
  Flc_Model Flc_Spec Flk_Model Flr_Model Flr_Spec Flr_Proofs Flr_Proofs7 Flv_Model Flv_Spec Flv_Proofs Flv_Proofs2 Flv_Proofs3.
Open Scope R_scope.
#[local] Strategy 1000 [fmul fadd fsub fdiv fneg].

Lemma tt_uu s : bpow radix2 (-100) <= s -> 1000 * tt <= uu * s.
Proof.
  intros H. apply Rle_trans with (uu * bpow radix2 (-100)); [|apply Rmult_le_compat_l; [left; apply uu_pos|auto]].
  assert (U : uu = bpow radix2 (-53)) by (unfold uu; change (/ 2) with (bpow radix2 (-1)); now rewrite <- bpow_plus).
  rewrite U, <- bpow_plus. unfold tt. rewrite pow_bpow, <- bpow_opp. apply Rle_trans with (bpow radix2 10 * bpow radix2 (- Z.of_nat 900)); [apply Rmult_le_compat_r; [apply bpow_ge_0|]; change (bpow radix2 10) with 1024; lra|].
  rewrite <- bpow_plus. apply bpow_le. lia.
Qed.
Lemma rigid_spread g p v k : rigid g -> norm p * norm v <= k * norm (product p v) -> norm (g p) * norm (g v) <= k * norm (product (g p) (g v)).
Proof.
  intros R H. rewrite (proj1 (rigid_norm g p p R)), (proj1 (rigid_norm g v v R)). replace (norm (product (g p) (g v))) with (norm (product p v)); auto.
  rewrite !norm_product. destruct R as (D & _). now rewrite !D.
Qed.
Lemma times_spread a b p v k : 0 < a -> 0 < b -> norm p * norm v <= k * norm (product p v) -> norm (times a p) * norm (times b v) <= k * norm (product (times a p) (times b v)).
Proof.
  intros A B H. replace (product (times a p) (times b v)) with (times (a * b) (product p v)) by (unfold product, times; cbn [vx vy vz]; f_equal; ring).
  rewrite !norm_times, !Rabs_pos_eq by nra. assert (0 < a * b) by nra. nra.
Qed.
Lemma norm_minus_z a : 0 <= a -> norm (V 0 0 (- a)) = a.
Proof. intros H. unfold norm, dot. cbn [vx vy vz]. replace (0 * 0 + 0 * 0 + - a * - a) with (a * a) by ring. now apply sqrt_square. Qed.
Lemma z_near a b : norm (sub (V 0 0 (- a)) (V 0 0 (- b))) = Rabs (a - b).
Proof.
  unfold norm, dot, sub. cbn [vx vy vz]. replace ((0 - 0) * (0 - 0) + (0 - 0) * (0 - 0) + (- a - - b) * (- a - - b)) with (Rsqr (a - b)) by (unfold Rsqr; ring). apply sqrt_Rsqr_abs.
Qed.
Lemma ordinary_of v : finite_vec v -> bpow radix2 (-45) <= norm (vector v) <= bpow radix2 45 -> ordinary v.
Proof.
  intros F N. split; auto. change (bpow radix2 (-45)) with (bpow radix2 (- Z.of_nat 45)) in N. change (bpow radix2 45) with (bpow radix2 (Z.of_nat 45)) in N. now rewrite bpow_opp, <- !pow_bpow in N.
Qed.
Lemma factor_range factor : fair factor -> bpow radix2 (-10) <= times_factor factor <= bpow radix2 10.
Proof.
  intros H. destruct factor as [c|]; cbn [fair times_factor] in *.
  - destruct H as (_ & H). change (bpow radix2 (-10)) with (bpow radix2 (- Z.of_nat 10)). change (bpow radix2 10) with (bpow radix2 (Z.of_nat 10)). now rewrite bpow_opp, <- !pow_bpow.
  - change 1 with (bpow radix2 0). split; apply bpow_le; lia.
Qed.

Section Attitude.
Variable L : arrays.
Hypothesis G : accurate_arrays L.
Variable m : maths.
Hypothesis A : accurate m.
Variables (l : flocation) (jd : float) (unit : unit_name) (p : fvec) (factor : option float) (v : fvec) (k : R).
Hypothesis O : on_earth l.
Hypothesis D : dated jd.
Hypothesis K : measures unit = Lengths.
Hypothesis Fp : finite_vec p.
Hypothesis Fv : finite_vec v.
Let q := size unit / 1000.
Let Rr := norm (times q (vector p)).
Hypothesis Hp : 5000 <= Rr <= 100000.
Hypothesis Hv : bpow radix2 (-30) <= norm (vector v) <= bpow radix2 30.
Hypothesis Hf : fair factor.
Hypothesis Hk : 1 <= k <= 1000.
Hypothesis Hs : norm (vector p) * norm (vector v) <= k * norm (product (vector p) (vector v)).
Let Gr := itrs_of (exact_location l).

Lemma q_range : 0 < q /\ / 4000000 <= q <= 90.
Proof. pose proof (size_bounds unit) as S. unfold q. lra. Qed.
Lemma p_range : 55 <= norm (vector p) <= bpow radix2 40.
Proof.
  destruct q_range as (Q & Q'). unfold Rr in Hp. rewrite norm_times, (Rabs_pos_eq q) in Hp by lra. pose proof (norm_pos (vector p)).
  change (bpow radix2 40) with 1099511627776. split; nra.
Qed.
Lemma wide a b x : (a <= b)%Z -> bpow radix2 b <= x -> bpow radix2 a <= x.
Proof. intros H X. apply Rle_trans with (2 := X). now apply bpow_le. Qed.
Lemma wide' a b x : (b <= a)%Z -> x <= bpow radix2 b -> x <= bpow radix2 a.
Proof. intros H X. apply Rle_trans with (1 := X). now apply bpow_le. Qed.
Lemma moved_rel h g x : rigid g -> moved (2 ^ 90) 30526 (15 * tt) h g -> finite_vec x -> bpow radix2 (-100) <= norm (vector x) <= bpow radix2 60 ->
  finite_vec (h x) /\ rel (30527 * uu) (vector (h x)) (g (vector x)).
Proof.
  intros R M F N. destruct (M x F) as (F' & E). { rewrite pow_bpow. apply wide' with 60%Z; [lia|lra]. }
  split; auto. unfold rel. rewrite (proj1 (rigid_norm g (vector x) (vector x) R)). pose proof (tt_uu _ (proj1 N)). pose proof tt_pos. lra.
Qed.
Lemma rel_size e a b lo hi : 0 <= e <= / 1000 -> rel e a b -> bpow radix2 lo <= norm b <= bpow radix2 hi -> bpow radix2 (lo - 1) <= norm a <= bpow radix2 (hi + 1).
Proof.
  intros E H N. apply rel_norm in H. pose proof (norm_pos b). unfold Z.sub. rewrite !bpow_plus. change (bpow radix2 (- (1))) with (/ 2). change (bpow radix2 1) with 2.
  assert (0 <= e * norm b <= / 1000 * norm b) by (split; [apply Rmult_le_pos; lra|apply Rmult_le_compat_r; lra]). lra.
Qed.
Lemma err_rel e x y s : bpow radix2 (-200) <= norm y -> norm (sub x y) <= 61 / 10 * uu * norm y + 2 * ee -> e = 62 / 10 * uu -> s = y -> rel e x s.
Proof. intros N H -> ->. unfold rel. pose proof (ee_small2 _ N). pose proof ee_pos. lra. Qed.

Lemma lvlh_points : exists lp gl, (forall B arcsin, fattitude L B arcsin m l jd unit p factor v = Ok (fattitude_angles B arcsin lp gl)) /\ finite_vec lp /\ finite_vec gl /\
    norm (sub (vector lp) (V 0 0 (- Rr))) <= 35 / 10 ^ 13 * k * Rr /\
    norm (sub (vector gl) (on_axes (times q (vector p)) (vector v) Gr)) <= 6 / 10 ^ 7 * k.
Proof.
  destruct (self L G jd D) as (g0 & g & R0 & R & _ & _ & _ & h & E & M). clear g0 R0.
  pose proof p_range as PR. destruct q_range as (Q & Q'). pose proof uu_pos as U. pose proof uu_value as UV.
  assert (P1 : bpow radix2 5 <= norm (vector p)) by (change (bpow radix2 5) with 32; lra).
  destruct (moved_rel h g p R M Fp) as (F1 & E1). { split; [apply wide with 5%Z; [lia|lra]|apply wide' with 40%Z; [lia|lra]]. }
  destruct (moved_rel h g v R M Fv) as (F2 & E2). { split; [apply wide with (-30)%Z; [lia|lra]|apply wide' with 30%Z; [lia|lra]]. }
  set (p1 := h p) in *. set (v1 := h v) in *. 
  assert (Np : norm (g (vector p)) = norm (vector p)) by apply (rigid_norm g _ (vector p) R). assert (Nv : norm (g (vector v)) = norm (vector v)) by apply (rigid_norm g _ (vector p) R).
  assert (U3 : 0 <= 30527 * uu <= / 1000) by (rewrite UV; lra).
  pose proof (rel_size _ _ _ 5 40 U3 E1 ltac:(rewrite Np; exact (conj P1 (proj2 PR)))) as S1. pose proof (rel_size _ _ _ (-30) 30 U3 E2 ltac:(rewrite Nv; exact Hv)) as S2.
  destruct (km_err unit p1 K F1) as (p2 & Ep2 & F3 & E3). { apply wide' with (40 + 1)%Z; [lia|lra]. } fold q in E3.
  destruct (speed_err factor v1 F2) as (F4 & E4); [apply wide' with (30 + 1)%Z; [lia|lra]|exact Hf|].
  pose proof (factor_range factor Hf) as FR. set (c := times_factor factor) in *. set (v2 := fspeed factor v1) in *.
  assert (Pc : 0 < c) by (pose proof (bpow_gt_0 radix2 (-10)); lra).
  assert (T3 : bpow radix2 (-30) <= norm (times q (vector p1)) <= bpow radix2 60).
  { rewrite norm_times, (Rabs_pos_eq q) by lra. assert (B7 : bpow radix2 (-22) <= q) by (change (bpow radix2 (-22)) with (/ 4194304); lra). assert (q <= bpow radix2 7) by (change (bpow radix2 7) with 128; lra).
    split; [apply Rle_trans with (bpow radix2 (-22) * bpow radix2 (5 - 1)); [rewrite <- bpow_plus; apply bpow_le; lia|]|apply Rle_trans with (bpow radix2 7 * bpow radix2 (40 + 1)); [|rewrite <- bpow_plus; apply bpow_le; lia]].
    - apply Rmult_le_compat; try apply bpow_ge_0; lra. - apply Rmult_le_compat; try apply norm_pos; lra. }
  assert (T4 : bpow radix2 (-41) <= norm (times c (vector v1)) <= bpow radix2 41).
  { rewrite norm_times, (Rabs_pos_eq c) by lra.
    split; [apply Rle_trans with (bpow radix2 (-10) * bpow radix2 (-30 - 1)); [rewrite <- bpow_plus; apply bpow_le; lia|]|apply Rle_trans with (bpow radix2 10 * bpow radix2 (30 + 1)); [|rewrite <- bpow_plus; apply bpow_le; lia]].
    - apply Rmult_le_compat; try apply bpow_ge_0; lra. - apply Rmult_le_compat; try apply norm_pos; lra. }
  assert (W3 : bpow radix2 (-200) <= norm (times q (vector p1))) by (apply wide with (-30)%Z; [lia|lra]).
  assert (W4 : bpow radix2 (-200) <= norm (times c (vector v1))) by (apply wide with (-41)%Z; [lia|lra]).
  assert (W5 : bpow radix2 (-100) <= norm (vector p1)) by (apply wide with (5 - 1)%Z; [lia|lra]).
  assert (X3 : rel (62 / 10 * uu) (vector p2) (times q (vector p1))) by (apply (err_rel _ _ _ _ W3 E3); reflexivity).
  assert (X4 : rel (62 / 10 * uu) (vector v2) (times c (vector v1))) by (apply (err_rel _ _ _ _ W4 E4); reflexivity).
  assert (U1 : 0 <= 62 / 10 * uu) by lra. assert (U2 : 0 <= 30527 * uu) by lra.
  pose proof (rel_trans _ _ _ _ _ U1 U2 X3 (rel_times _ _ _ q Q E1)) as Y3. pose proof (rel_trans _ _ _ _ _ U1 U2 X4 (rel_times _ _ _ c Pc E2)) as Y4.
  assert (EE : 62 / 10 * uu + 30527 * uu + 62 / 10 * uu * (30527 * uu) <= 30534 * uu) by (assert (62 / 10 * uu * (30527 * uu) <= / 10 * uu) by (rewrite <- Rmult_assoc; apply Rmult_le_compat_r; lra); lra).
  apply (fun H => rel_le _ _ _ _ H EE) in Y3. apply (fun H => rel_le _ _ _ _ H EE) in Y4. clear EE.
  pose proof (rigid_spread g _ _ k R Hs) as H1. pose proof (times_spread q c _ _ k Q Pc H1) as H2.
  assert (KE : k * (30534 * uu) <= / 10000) by (rewrite UV; lra).
  assert (KE' : k * (30527 * uu) <= / 1000) by (rewrite UV; lra). assert (KE2 : k * (30534 * uu) <= / 1000) by lra. assert (U5 : 0 <= 30534 * uu) by lra.
  pose proof (spread_near _ _ _ _ _ k U2 (proj1 Hk) KE' E1 E2 H1) as K1.
  pose proof (spread_near _ _ _ _ _ k U5 (proj1 Hk) KE2 Y3 Y4 H2) as K2.
  (* the satellite *)
  assert (O1 : ordinary p1) by (apply ordinary_of; auto; split; [apply wide with (5 - 1)%Z; [lia|lra]|apply wide' with (40 + 1)%Z; [lia|lra]]).
  assert (O2 : ordinary v1) by (apply ordinary_of; auto; split; [apply wide with (-30 - 1)%Z; [lia|lra]|apply wide' with (30 + 1)%Z; [lia|lra]]).
  pose proof (rows_step L G p1 v1 (101 / 100 * k) O1 O2 ltac:(lra) K1) as M1.
  assert (Z1 : product (vector p1) (vector v1) <> zero). { destruct (rows_ok p1 v1 (101 / 100 * k) O1 O2 ltac:(lra) K1) as (_ & _ & Z). exact Z. }
  destruct (M1 p1 F1) as (FL & EL). { rewrite pow_bpow. apply wide' with (40 + 1)%Z; [cbn; lia|lra]. }
  rewrite (on_axes_down _ _ Z1) in EL. set (lp1 := fmat_vec L (flvlh_rows p1 v1) p1) in *.
  pose proof (tt_uu _ W5) as TT. pose proof tt_pos as TP.
  pose proof (norm_near (vector p1) (g (vector p))) as NN. unfold rel in E1. rewrite Np in E1, NN.
  assert (EL1 : norm (sub (vector lp1) (V 0 0 (- norm (vector p)))) <= 30750 * k * uu * norm (vector p)).
  { pose proof (norm_tri (vector lp1) (V 0 0 (- norm (vector p1))) (V 0 0 (- norm (vector p)))) as T. rewrite z_near in T. apply Rabs_le_inv in NN as NN'.
    assert (uu * norm (vector p1) <= uu * (norm (vector p) + / 10 ^ 6 * norm (vector p))). { apply Rmult_le_compat_l; [lra|]. pose proof (norm_pos (vector p)). nra. }
    set (n := norm (vector p)) in *. assert (0 <= uu * n) by (apply Rmult_le_pos; lra). assert (uu * n <= k * (uu * n)) by nra. set (n1 := norm (vector p1)) in *.
    assert (k * (uu * n1) <= k * (uu * (n + / 10 ^ 6 * n))) by (apply Rmult_le_compat_l; lra). lra. }
  assert (NL : norm (vector lp1) <= 1001 / 1000 * norm (vector p)).
  { pose proof (norm_diff (vector lp1) (V 0 0 (- norm (vector p)))) as T. rewrite norm_minus_z in T by apply norm_pos. set (n := norm (vector p)) in *.
    assert (30750 * k * uu * n <= / 1000 * n) by (apply Rmult_le_compat_r; [unfold n; apply norm_pos|rewrite UV; lra]). lra. }
  destruct (km_err unit lp1 K FL) as (lp & Elp & Flp & El). { apply wide' with (1 + 40)%Z; [lia|]. rewrite bpow_plus. change (bpow radix2 1) with 2. lra. }
  fold q in El.
  assert (RQ : Rr = q * norm (vector p)) by (unfold Rr; rewrite norm_times, (Rabs_pos_eq q) by lra; reflexivity).
  assert (FIN1 : norm (sub (vector lp) (V 0 0 (- Rr))) <= 35 / 10 ^ 13 * k * Rr).
  { pose proof (norm_tri (vector lp) (times q (vector lp1)) (V 0 0 (- Rr))) as T.
    replace (sub (times q (vector lp1)) (V 0 0 (- Rr))) with (times q (sub (vector lp1) (V 0 0 (- norm (vector p))))) in T by (rewrite RQ; unfold times, sub; cbn [vx vy vz]; f_equal; ring).
    rewrite !norm_times, (Rabs_pos_eq q) in T by lra. rewrite norm_times, (Rabs_pos_eq q) in El by lra.
    set (n := norm (vector p)) in *. set (n1 := norm (vector lp1)) in *. set (n2 := norm (sub (vector lp1) (V 0 0 (- n)))) in *.
    assert (q * n1 <= q * (1001 / 1000 * n)) by (apply Rmult_le_compat_l; lra). assert (q * n2 <= q * (30750 * k * uu * n)) by (apply Rmult_le_compat_l; lra).
    assert (W : 600 * ee <= uu * Rr) by (apply ee_small2; apply Rle_trans with 1; [change 1 with (bpow radix2 0); apply bpow_le; lia|lra]). pose proof ee_pos.
    assert (uu * (q * n1) <= uu * (q * (1001 / 1000 * n))) by (apply Rmult_le_compat_l; lra).
    replace (q * (30750 * k * uu * n)) with (30750 * k * uu * Rr) in * by (rewrite RQ; ring). replace (q * (1001 / 1000 * n)) with (1001 / 1000 * Rr) in * by (rewrite RQ; ring).
    assert (uu * Rr <= k * (uu * Rr)) by (assert (0 <= uu * Rr) by (apply Rmult_le_pos; lra); nra).
    apply Rle_trans with (30760 * (k * (uu * Rr))); [lra|]. assert (0 <= k * Rr) by (apply Rmult_le_pos; lra). rewrite UV. lra. }
  (* the target *)
  destruct (ground_ok m l A O) as (gr & Eg & Fg & Hg). pose proof (ground_norm l O) as Ng. fold Gr in Hg, Ng.
  pose proof (norm_near (vector gr) Gr) as Ng'. apply Rabs_le_inv in Ng'.
  destruct (moved_rel h g gr R M Fg) as (F5 & E5).
  { split; [apply Rle_trans with 1; [change 1 with (bpow radix2 0); apply bpow_le; lia|lra]|apply wide' with 20%Z; [lia|]; change (bpow radix2 20) with 1048576; lra]. }
  set (g1 := h gr) in *. assert (Ngr : norm (g (vector gr)) = norm (vector gr)) by apply (rigid_norm g _ (vector p) R).
  assert (D5 : norm (sub (vector g1) (g Gr)) <= 45 / 10 ^ 9).
  { pose proof (norm_tri (vector g1) (g (vector gr)) (g Gr)) as T. rewrite (proj2 (rigid_norm g (vector gr) Gr R)) in T. unfold rel in E5. rewrite Ngr in E5.
    assert (30527 * uu * norm (vector gr) <= 30527 * uu * 13001) by (apply Rmult_le_compat_l; lra). rewrite UV in *. lra. }
  assert (Ng1 : norm (vector g1) <= 13001).
  { pose proof (norm_diff (vector g1) (g Gr)) as T. rewrite (proj1 (rigid_norm g Gr Gr R)) in T. lra. }
  assert (U4 : 0 <= 62 / 10 * uu <= / 1000) by (rewrite UV; lra). assert (S3 := rel_size _ _ _ (-30) 60 U4 X3 T3). assert (S4 := rel_size _ _ _ (-41) 41 U4 X4 T4).
  assert (Nq : norm (times q (g (vector p))) = Rr) by (rewrite norm_times, Np, RQ, Rabs_pos_eq by lra; reflexivity).
  assert (S3' : norm (vector p2) <= 200000). { pose proof (rel_norm _ _ _ Y3) as T. rewrite Nq in T. assert (30534 * uu <= 1) by (rewrite UV; lra). nra. }
  assert (O3 : ordinary p2) by (apply ordinary_of; auto; split; [apply wide with (-30 - 1)%Z; [lia|lra]|apply wide' with 20%Z; [lia|change (bpow radix2 20) with 1048576; lra]]).
  assert (O4 : ordinary v2) by (apply ordinary_of; auto; split; [apply wide with (-41 - 1)%Z; [lia|lra]|apply wide' with (41 + 1)%Z; [lia|lra]]).
  pose proof (rows_step L G p2 v2 (101 / 100 * k) O3 O4 ltac:(lra) K2) as M2.
  destruct (M2 g1 F5) as (FG & EG). { rewrite pow_bpow. apply wide' with 20%Z; [cbn; lia|]. change (bpow radix2 20) with 1048576. lra. }
  set (gl := fmat_vec L (flvlh_rows p2 v2) g1) in *.
  assert (Z : product (vector p) (vector v) <> zero).
  { intros Ez. rewrite Ez in Hs. change zero with (V 0 0 0) in Hs. rewrite norm_0 in Hs. assert (0 < norm (vector p) * norm (vector v)) by (apply Rmult_lt_0_compat; [lra|]; pose proof (bpow_gt_0 radix2 (-30)); lra). lra. }
  assert (FIN2 : norm (sub (vector gl) (on_axes (times q (vector p)) (vector v) Gr)) <= 6 / 10 ^ 7 * k).
  { assert (Zg : product (g (vector p)) (g (vector v)) <> zero) by now apply rigid_product.
    assert (A1 : 0 < norm (times q (g (vector p)))) by (rewrite Nq; lra).
    assert (A2 : 0 < norm (times c (g (vector v)))). { rewrite norm_times, Nv, Rabs_pos_eq by lra. apply Rmult_lt_0_compat; [lra|]. pose proof (bpow_gt_0 radix2 (-30)). lra. }
    pose proof (axes_near (times q (g (vector p))) (times c (g (vector v))) (vector p2) (vector v2) (30534 * uu) k (vector g1) ltac:(lra) ltac:(lra) KE A1 A2 Y3 Y4 H2) as AX.
    set (ax := on_axes (times q (g (vector p))) (times c (g (vector v)))) in *.
    destruct (scaled_axes q c _ _ (g Gr) Q Pc Zg) as (Zs & E6). fold ax in E6. rewrite (rigid_axes g) in E6 by auto.
    destruct (scaled_axes q 1 _ _ Gr Q Rlt_0_1 Z) as (_ & E7). replace (times 1 (vector v)) with (vector v) in E7 by (unfold times; destruct (vector v) as [a1 a2 a3]; cbn [vx vy vz]; f_equal; ring).
    rewrite E7, <- E6. pose proof (norm_tri (vector gl) (on_axes (vector p2) (vector v2) (vector g1)) (ax (g Gr))) as T1. pose proof (norm_tri (on_axes (vector p2) (vector v2) (vector g1)) (ax (vector g1)) (ax (g Gr))) as T2.
    replace (norm (sub (ax (vector g1)) (ax (g Gr)))) with (norm (sub (vector g1) (g Gr))) in T2 by (unfold ax; rewrite <- on_axes_sub; symmetry; now apply on_axes_norm).
    assert (KU : 0 <= k * uu) by (apply Rmult_le_pos; lra).
    assert (123 / 10 * (k * (30534 * uu)) * norm (vector g1) <= 123 / 10 * (k * (30534 * uu)) * 13001) by (apply Rmult_le_compat_l; lra).
    assert (213 * (101 / 100 * k) * uu * norm (vector g1) <= 213 * (101 / 100 * k) * uu * 13001) by (apply Rmult_le_compat_l; lra).
    assert (tt <= 1 / 10 ^ 12). { pose proof (tt_uu 1 ltac:(change 1 with (bpow radix2 0); apply bpow_le; lia)). rewrite UV in *. lra. }
    rewrite UV in *. lra. }
  exists lp, gl. split; [|auto]. intros B arcsin. unfold fattitude. rewrite !E. cbn [bind]. fold p1 v1. rewrite Ep2. cbn [bind fst fgcrs_to_lvlh]. fold lp1. rewrite Elp, Eg. cbn [bind]. rewrite E. reflexivity.
Qed.
End Attitude.
