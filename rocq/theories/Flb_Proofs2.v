(** Rounding of the vectors that azimuths are computed from. *)
From Coq Require Import List ZArith Reals Lra Lia Psatz.
From Flocq Require Import Core.Core IEEE754.BinarySingleNaN IEEE754.Binary IEEE754.Bits.
From Verif Require Import Py Fl_Model Fl_Spec Fl_Proofs Flg_Model Flg_Spec Rot_Model Rot_Spec Geo_Model Geo_Spec Lvlh_Spec Lvlh_Proofs Flg_Proofs Flg_Num Flg_Proofs2 Flg_Proofs3 Flg_Proofs5 Flg_Proofs6 Flg_Proofs7 Flr_Model Flr_Spec Flv_Model Flv_Proofs Fly_Model Flb_Model Fln_Spec Flb_Spec Flb_Proofs.
Open Scope R_scope.
#[local] Strategy 1000 [fmul fadd fsub fdiv fneg of_Z].

Lemma dot_near a b a' b' : Rabs (dot a' b' - dot a b) <= norm (sub a' a) * norm b' + norm a * norm (sub b' b).
Proof.
  replace (dot a' b' - dot a b) with (dot (sub a' a) b' + dot a (sub b' b)) by (unfold dot, sub; cbn [vx vy vz]; ring).
  eapply Rle_trans; [apply Rabs_triang|]. apply Rplus_le_compat; apply cauchy_norm.
Qed.
Lemma times_near k k' a a' : norm (sub (times k' a') (times k a)) <= Rabs (k' - k) * norm a' + Rabs k * norm (sub a' a).
Proof.
  pose proof (norm_tri (times k' a') (times k a') (times k a)) as T.
  replace (sub (times k' a') (times k a')) with (times (k' - k) a') in T by (unfold sub, times; cbn [vx vy vz]; f_equal; ring).
  replace (sub (times k a') (times k a)) with (times k (sub a' a)) in T by (unfold sub, times; cbn [vx vy vz]; f_equal; ring).
  rewrite !norm_times in T. exact T.
Qed.
Lemma sub_near a b a' b' : norm (sub (sub a' b') (sub a b)) <= norm (sub a' a) + norm (sub b' b).
Proof.
  pose proof (norm_tri (sub a' b') (sub a b') (sub a b)) as T.
  assert (E1 : norm (sub (sub a' b') (sub a b')) = norm (sub a' a)) by (unfold norm, dot, sub; cbn [vx vy vz]; f_equal; ring).
  assert (E2 : norm (sub (sub a b') (sub a b)) = norm (sub b' b)) by (unfold norm, dot, sub; cbn [vx vy vz]; f_equal; ring). rewrite E1, E2 in T. exact T.
Qed.
Lemma quot_near n n' q q' e f : 0 < q -> 0 < q' -> Rabs (n' - n) <= e -> Rabs (q' - q) <= f -> Rabs (n' / q' - n / q) <= (e + Rabs n / q * f) / q'.
Proof.
  intros Q Q' E F. replace (n' / q' - n / q) with (((n' - n) - n / q * (q' - q)) * / q') by (field; lra). rewrite Rabs_mult, (Rabs_pos_eq (/ q')) by (left; now apply Rinv_0_lt_compat).
  unfold Rdiv at 2. apply Rmult_le_compat_r; [left; now apply Rinv_0_lt_compat|]. eapply Rle_trans; [apply Rabs_triang|]. rewrite Rabs_Ropp, Rabs_mult. apply Rplus_le_compat; auto.
  unfold Rdiv. rewrite Rabs_mult, (Rabs_pos_eq (/ q)) by (left; now apply Rinv_0_lt_compat). apply Rmult_le_compat_l; auto. apply Rmult_le_pos; [apply Rabs_pos|left; now apply Rinv_0_lt_compat].
Qed.

Section Vectors.
Variable M : maths.
Variable L : arrays.
Variable square : float -> float.
Hypothesis HM : accurate M.
Hypothesis HL : accurate_arrays L.
Hypothesis HQ : accurate_square square.
Variables G D : vec.
Variables R0 phi : R.
Hypothesis NG : norm G <= 7401.
Hypothesis ND : norm D <= 1013000.
Hypothesis RR : 5356 <= R0 <= 7379.
Hypothesis SP : 1 / 60 <= Rabs (sin phi).
Variables g d : fvec.
Variables r lat : float.
Hypothesis Fg : finite_vec g.
Hypothesis Eg : norm (sub (vector g) G) <= / 10000000000.
Hypothesis Fd : finite_vec d.
Hypothesis Ed : norm (sub (vector d) D) <= / 1000000000.
Hypothesis Fr : finite r.
Hypothesis Er : Rabs (value r - R0) <= / 10000000000.
Hypothesis Hlat : appr lat phi 12 2.
Let T := sub (V 0 0 (R0 / sin phi)) G.
Let P := sub D (times (dot D G / (R0 * R0)) G).

Lemma norm_axis z : norm (V 0 0 z) = Rabs z.
Proof. unfold norm, dot. cbn [vx vy vz]. replace (0 * 0 + 0 * 0 + z * z) with (Rsqr z) by (unfold Rsqr; ring). apply sqrt_Rsqr_abs. Qed.
Lemma g_norm : norm (vector g) <= 7402.
Proof. pose proof (norm_near (vector g) G) as N. apply Rabs_le_inv in N. lra. Qed.
Lemma d_norm : norm (vector d) <= 1013001.
Proof. pose proof (norm_near (vector d) D) as N. apply Rabs_le_inv in N. lra. Qed.
Lemma axis_ok : finite (fdiv r (a_sin L lat)) /\ Rabs (value (fdiv r (a_sin L lat)) - R0 / sin phi) <= 55 / 1000000000 /\ Rabs (R0 / sin phi) <= 442740.
Proof.
  destruct Hlat as (Fl & El & Bl). pose proof uu_pos as U. pose proof uu_small as US. pose proof (err_abs _ _ _ El) as Wl.
  assert (P30 : 3 <= 2 ^ 30) by (apply Rle_trans with (2 ^ 2); [lra|apply Rle_pow; [lra|lia]]).
  destruct (np_sin_good L HL lat Fl ltac:(lra)) as (Fs & Es). pose proof (sin_lip (value lat) phi) as SL. pose proof (err_trans _ _ _ _ _ Es SL) as E1.
  replace (/ 2 ^ 51) with (4 * uu) in E1 by (rewrite uu_value; lra). assert (E2 : Rabs (value (a_sin L lat) - sin phi) <= 16 * uu) by lra. clear E1.
  set (s' := a_sin L lat) in *. set (s := sin phi) in *. clearbody s' s.
  assert (S0 : s <> 0) by (intros ->; rewrite Rabs_R0 in SP; lra).
  assert (S' : 1 / 61 <= Rabs (value s')). { assert (Rabs (s - value s') <= 16 * uu) by (rewrite Rabs_minus_sym; exact E2). pose proof (err_abs _ _ _ H). lra. }
  assert (S1' : value s' <> 0) by (intros E; rewrite E, Rabs_R0 in S'; lra).
  assert (I1 : Rabs (/ s) <= 60). { rewrite Rabs_inv. replace 60 with (/ (1 / 60)) by lra. apply Rinv_le_contravar; lra. }
  assert (I2 : Rabs (/ value s') <= 61). { rewrite Rabs_inv. replace 61 with (/ (1 / 61)) by lra. apply Rinv_le_contravar; lra. }
  assert (B : Rabs (R0 / s) <= 442740). { unfold Rdiv. rewrite Rabs_mult, (Rabs_pos_eq R0) by lra. replace 442740 with (7379 * 60) by lra. apply Rmult_le_compat; try apply Rabs_pos; lra. }
  assert (E : Rabs (value r / value s' - R0 / s) <= 548 / 10000000000).
  { replace (value r / value s' - R0 / s) with ((value r - R0) * / value s' - R0 / s * ((value s' - s) * / value s')) by (field; auto).
    eapply Rle_trans; [apply Rabs_triang|]. rewrite Rabs_Ropp, !Rabs_mult.
    assert (Rabs (value r - R0) * Rabs (/ value s') <= / 10000000000 * 61) by (apply Rmult_le_compat; try apply Rabs_pos; lra).
    assert (X : Rabs (value s' - s) * Rabs (/ value s') <= 16 * uu * 61) by (apply Rmult_le_compat; try apply Rabs_pos; lra).
    assert (Rabs (R0 / s) * (Rabs (value s' - s) * Rabs (/ value s')) <= 442740 * (16 * uu * 61)).
    { apply Rmult_le_compat; auto using Rabs_pos. apply Rmult_le_pos; apply Rabs_pos. }
    rewrite uu_value in *. lra. }
  pose proof (err_abs _ _ _ E) as W. destruct (fdiv_ok r s' Fr S1') as (F & V). { apply small_abs. lra. }
  split; auto. split; auto. rewrite V. pose proof (rnd_mul_err (value r / value s')) as K. eapply Rle_trans; [apply (err_trans _ _ _ _ _ K E)|]. pose proof ee1.
  assert (uu * Rabs (value r / value s') <= uu * 442741) by (apply Rmult_le_compat_l; lra). assert (uu * 442742 <= / 10000000000) by (rewrite uu_value; lra). lra.
Qed.
Lemma tangent_close : finite_vec (ftangent L g lat r) /\ norm (sub (vector (ftangent L g lat r)) T) <= 6 / 100000000 /\ norm T <= 450141.
Proof.
  destruct axis_ok as (F & E & B). destruct (of_Z_ok 0 ltac:(lia)) as (F0 & V0). pose proof g_norm as GN.
  assert (VA : vector (FV (of_Z 0) (of_Z 0) (fdiv r (a_sin L lat))) = V 0 0 (value (fdiv r (a_sin L lat)))) by (unfold vector; cbn [fx fy fz]; now rewrite V0).
  set (z := fdiv r (a_sin L lat)) in *. pose proof (err_abs _ _ _ E) as W.
  destruct (sub_ok (FV (of_Z 0) (of_Z 0) z) g ltac:(repeat split; auto) Fg ltac:(rewrite VA, norm_axis; lra) ltac:(lra)) as (Ft & Et). change (fvsub (FV (of_Z 0) (of_Z 0) z) g) with (ftangent L g lat r) in Ft, Et. split; auto.
  assert (N1 : norm (sub (vector (FV (of_Z 0) (of_Z 0) z)) (vector g)) <= 450144).
  { pose proof (norm_near (sub (vector (FV (of_Z 0) (of_Z 0) z)) (vector g)) (vector (FV (of_Z 0) (of_Z 0) z))) as N. apply Rabs_le_inv in N.
    assert (X : norm (sub (sub (vector (FV (of_Z 0) (of_Z 0) z)) (vector g)) (vector (FV (of_Z 0) (of_Z 0) z))) = norm (vector g)) by (unfold norm, dot, sub; cbn [vx vy vz]; f_equal; ring).
    rewrite X in N. rewrite VA, norm_axis in N. rewrite VA. lra. }
  assert (N2 : norm (sub (sub (vector (FV (of_Z 0) (of_Z 0) z)) (vector g)) T) <= 552 / 10000000000).
  { pose proof (sub_near (V 0 0 (R0 / sin phi)) G (vector (FV (of_Z 0) (of_Z 0) z)) (vector g)) as N. fold T in N. rewrite VA in N at 2.
    replace (sub (V 0 0 (value z)) (V 0 0 (R0 / sin phi))) with (V 0 0 (value z - R0 / sin phi)) in N by (unfold sub; cbn [vx vy vz]; f_equal; ring). rewrite norm_axis in N. lra. }
  split.
  - pose proof (norm_tri (vector (ftangent L g lat r)) (sub (vector (FV (of_Z 0) (of_Z 0) z)) (vector g)) T) as N. pose proof uu_pos.
    assert (Y : uu * norm (sub (vector (FV (of_Z 0) (of_Z 0) z)) (vector g)) <= uu * 450144) by (apply Rmult_le_compat_l; lra). assert (uu * 450144 <= / 10000000000) by (rewrite uu_value; lra). lra.
  - pose proof (norm_near T (V 0 0 (R0 / sin phi))) as N. apply Rabs_le_inv in N. assert (X : norm (sub T (V 0 0 (R0 / sin phi))) = norm G) by (unfold T, norm, dot, sub; cbn [vx vy vz]; f_equal; ring).
    rewrite X, norm_axis in N. lra.
Qed.
Lemma coefficient_ok : let k := fdiv (m_dot M d g) (square r) in
  finite k /\ Rabs (value k - dot D G / (R0 * R0)) <= 19 / 1000000000000 /\ Rabs (dot D G / (R0 * R0)) <= 2615 / 10.
Proof.
  intros k. pose proof g_norm as GN. pose proof d_norm as DN. pose proof uu_pos as U. pose proof (norm_pos (vector g)) as PG. pose proof (norm_pos (vector d)) as PD. pose proof (norm_pos D) as PD'. pose proof (norm_pos G) as PG'.
  assert (P100 : 2000000 <= 2 ^ 100). { apply Rle_trans with (2 ^ 21); [lra|]. apply Rle_pow; [lra|lia]. }
  destruct (dot_good M HM d g Fd Fg ltac:(lra) ltac:(lra)) as (Fm & Em). pose proof tiny1000 as TN.
  assert (GD : norm (vector d) * norm (vector g) <= 1013001 * 7402) by (apply Rmult_le_compat; lra).
  assert (Em' : Rabs (value (m_dot M d g) - dot (vector d) (vector g)) <= 34 / 10000000).
  { eapply Rle_trans; [exact Em|]. assert (4 / 2 ^ 53 * (norm (vector d) * norm (vector g)) <= 4 / 2 ^ 53 * (1013001 * 7402)) by (apply Rmult_le_compat_l; [lra|exact GD]). rewrite uu_value in TN. lra. }
  pose proof (dot_near D G (vector d) (vector g)) as N.
  assert (norm (sub (vector d) D) * norm (vector g) <= / 1000000000 * 7402) by (apply Rmult_le_compat; try apply norm_pos; lra).
  assert (norm D * norm (sub (vector g) G) <= 1013000 * / 10000000000) by (apply Rmult_le_compat; try apply norm_pos; lra).
  assert (E1 : Rabs (value (m_dot M d g) - dot D G) <= 1122 / 10000000). { eapply Rle_trans; [apply (err_trans _ _ _ _ _ Em' (Rle_trans _ _ _ N (Rplus_le_compat _ _ _ _ H H0)))|]. lra. }
  assert (B1 : Rabs (dot D G) <= 1013000 * 7401). { eapply Rle_trans; [apply cauchy_norm|]. apply Rmult_le_compat; lra. }
  clear Em Em' N H H0. pose proof (Rabs_le_inv _ _ Er) as Er'.
  destruct (HQ r Fr) as (Fq & Eq). { apply Rabs_le. lra. }
  assert (R2 : 5356 * 5356 <= R0 * R0 <= 7379 * 7379) by (split; apply Rmult_le_compat; lra).
  assert (E2 : Rabs (value (square r) - R0 * R0) <= 151 / 100000000).
  { assert (X : Rabs (value r ^ 2 - R0 * R0) <= / 10000000000 * 14759).
    { replace (value r ^ 2 - R0 * R0) with ((value r - R0) * (value r + R0)) by ring. rewrite Rabs_mult. apply Rmult_le_compat; try apply Rabs_pos; auto. apply Rabs_le. lra. }
    eapply Rle_trans; [apply (err_trans _ _ _ _ _ Eq X)|]. assert (V2 : value r ^ 2 <= 7380 * 7380) by (replace (value r ^ 2) with (value r * value r) by ring; apply Rmult_le_compat; lra).
    assert (/ 2 ^ 51 * value r ^ 2 <= / 2 ^ 51 * (7380 * 7380)) by (apply Rmult_le_compat_l; lra). rewrite uu_value in TN. lra. }
  pose proof (Rabs_le_inv _ _ E2) as E2'. set (q := value (square r)) in *. set (m := value (m_dot M d g)) in *. set (n := dot D G) in *. set (rr := R0 * R0) in *.
  assert (KB : Rabs n / rr <= 2614 / 10). { apply Rmult_le_reg_r with rr; [lra|]. unfold Rdiv. rewrite Rmult_assoc, Rinv_l, Rmult_1_r by lra. lra. }
  assert (KA : Rabs (n / rr) = Rabs n / rr). { unfold Rdiv. rewrite Rabs_mult, (Rabs_pos_eq (/ rr)); auto. left. apply Rinv_0_lt_compat. lra. }
  assert (E3 : Rabs (m / q - n / rr) <= 189 / 10000000000000).
  { eapply Rle_trans; [apply (quot_near n m rr q _ _ ltac:(lra) ltac:(lra) E1 E2)|]. apply Rmult_le_reg_r with q; [lra|]. unfold Rdiv at 1. rewrite Rmult_assoc, Rinv_l, Rmult_1_r by lra.
    assert (Rabs n / rr * (151 / 100000000) <= 2614 / 10 * (151 / 100000000)) by (apply Rmult_le_compat_r; lra). lra. }
  pose proof (err_abs _ _ _ E3) as W. destruct (fdiv_ok (m_dot M d g) (square r) Fm ltac:(fold q; lra)) as (F & V). { fold m q. apply small_abs. lra. }
  split; auto. split; [|lra]. unfold k. rewrite V. fold m q. pose proof (rnd_mul_err (m / q)) as K. eapply Rle_trans; [apply (err_trans _ _ _ _ _ K E3)|]. pose proof ee1.
  assert (uu * Rabs (m / q) <= uu * 262) by (apply Rmult_le_compat_l; lra). assert (uu * 263 <= / 10000000000000) by (rewrite uu_value; lra). lra.
Qed.
Lemma plane_close : finite_vec (fon_plane M square g r d) /\ norm (sub (vector (fon_plane M square g r d)) P) <= 18 / 100000000 /\ norm P <= 2950000.
Proof.
  destruct coefficient_ok as (Fk & Ek & Bk). unfold fon_plane. set (k := fdiv (m_dot M d g) (square r)) in *. pose proof g_norm as GN. pose proof d_norm as DN. pose proof uu_pos as U. pose proof ee1 as E1. pose proof ee_pos.
  fold P. set (kk := dot D G / (R0 * R0)) in *. pose proof (err_abs _ _ _ Ek) as Wk. destruct (comp_norm (vector g)) as (C1 & C2 & C3). cbn [vector vx vy vz] in C1, C2, C3. pose proof (norm_pos (vector g)) as PG.
  assert (X : forall x, finite x -> Rabs (value x) <= norm (vector g) -> finite (fmul k x) /\ Rabs (value (fmul k x) - value k * value x) <= 216 / 1000000000000).
  { intros x Fx Bx. assert (B : Rabs (value k * value x) <= 262 * 7402) by (rewrite Rabs_mult; apply Rmult_le_compat; try apply Rabs_pos; lra).
    destruct (fmul_ok k x Fk Fx) as (F & V). { apply small_abs. lra. } split; auto. rewrite V. eapply Rle_trans; [apply rnd_mul_err|].
    assert (uu * Rabs (value k * value x) <= uu * (262 * 7402)) by (apply Rmult_le_compat_l; lra). assert (uu * (262 * 7402 + 1) <= 216 / 1000000000000) by (rewrite uu_value; lra). lra. }
  destruct Fg as (F1 & F2 & F3). destruct (X (fx g) F1 C1) as (K1 & Z1). destruct (X (fy g) F2 C2) as (K2 & Z2). destruct (X (fz g) F3 C3) as (K3 & Z3).
  assert (N1 : norm (sub (vector (fvscale k g)) (times (value k) (vector g))) <= 4 / 10000000000).
  { apply (norm_box (sub (vector (fvscale k g)) (times (value k) (vector g))) _ _ _ Z1 Z2 Z3); lra. }
  assert (N2 : norm (sub (times (value k) (vector g)) (times kk G)) <= 167 / 1000000000).
  { eapply Rle_trans; [apply times_near|]. assert (Rabs (value k - kk) * norm (vector g) <= 19 / 1000000000000 * 7402) by (apply Rmult_le_compat; try apply Rabs_pos; lra).
    assert (Rabs kk * norm (sub (vector g) G) <= 2615 / 10 * / 10000000000) by (apply Rmult_le_compat; try apply Rabs_pos; try apply norm_pos; lra). lra. }
  assert (N3 : norm (times kk G) <= 1935362). { rewrite norm_times. pose proof (norm_pos G). apply Rle_trans with (2615 / 10 * 7401); [apply Rmult_le_compat; try apply Rabs_pos; lra|lra]. }
  pose proof (norm_tri (vector (fvscale k g)) (times (value k) (vector g)) (times kk G)) as N4.
  pose proof (norm_near (vector (fvscale k g)) (times kk G)) as N5. apply Rabs_le_inv in N5.
  destruct (sub_ok d (fvscale k g) Fd ltac:(repeat split; auto) ltac:(lra) ltac:(lra)) as (F & E). split; [exact F|].
  pose proof (sub_near D (times kk G) (vector d) (vector (fvscale k g))) as N6. fold P in N6.
  assert (NP : norm P <= 2948400). { pose proof (norm_near P D) as N. apply Rabs_le_inv in N. assert (Y : norm (sub P D) = norm (times kk G)) by (unfold P, norm, dot, sub; cbn [vx vy vz]; f_equal; ring). rewrite Y in N. lra. }
  split; [|lra]. pose proof (norm_near (sub (vector d) (vector (fvscale k g))) P) as N7. apply Rabs_le_inv in N7.
  pose proof (norm_tri (vector (fvsub d (fvscale k g))) (sub (vector d) (vector (fvscale k g))) P) as N8.
  assert (uu * norm (sub (vector d) (vector (fvscale k g))) <= uu * 2948401) by (apply Rmult_le_compat_l; lra). assert (uu * 2948401 <= 4 / 10000000000) by (rewrite uu_value; lra). lra.
Qed.

(** Which side of the meridian the satellite is on *)
Lemma side_close e : 479000 <= norm (product T G) -> 1 <= norm P -> dot P (product T G) = norm (product T G) * e -> 1 / 250 <= Rabs e ->
  finite (fdot (fon_plane M square g r d) (fcross (ftangent L g lat r) g)) /\
  (0 < e -> 0 < value (fdot (fon_plane M square g r d) (fcross (ftangent L g lat r) g))) /\
  (e < 0 -> value (fdot (fon_plane M square g r d) (fcross (ftangent L g lat r) g)) < 0).
Proof.
  intros ND' NP1 DE He. destruct tangent_close as (Ft & Et & Bt). destruct plane_close as (Fp & Ep & Bp). set (t := ftangent L g lat r) in *. set (p := fon_plane M square g r d) in *. pose proof uu_pos as U.
  pose proof g_norm as GN. pose proof (norm_near (vector t) T) as Nt. apply Rabs_le_inv in Nt. pose proof (norm_near (vector p) P) as Np. apply Rabs_le_inv in Np.
  assert (B2 : 4000000000 <= bpow radix2 100) by (apply Rle_trans with (bpow radix2 32); [cbn; lra|apply bpow_le; lia]).
  assert (St : sizes t) by (split; auto; lra). assert (Sg : sizes g) by (split; auto; lra).
  destruct (cross_ok t g St Sg) as (Fc & Ec). set (c := fcross t g) in *. pose proof (product_near T G (vector t) (vector g)) as Nc. pose proof (norm_pos (vector t)) as P1. pose proof (norm_pos (vector g)) as P2. pose proof (norm_pos T) as P3. pose proof (norm_pos (sub (vector t) T)) as P4. pose proof (norm_pos (sub (vector g) G)) as P5.
  assert (X1 : norm (vector t) * norm (vector g) <= 450142 * 7402) by (apply Rmult_le_compat; lra).
  assert (X2 : norm (sub (vector t) T) * norm (vector g) <= 6 / 100000000 * 7402) by (apply Rmult_le_compat; lra).
  assert (X3 : norm T * norm (sub (vector g) G) <= 450141 * / 10000000000) by (apply Rmult_le_compat; lra).
  pose proof ee1 as E1. assert (X4 : 402 / 100 * uu * (norm (vector t) * norm (vector g)) <= 402 / 100 * uu * (450142 * 7402)) by (apply Rmult_le_compat_l; lra).
  pose proof (norm_tri (vector c) (product (vector t) (vector g)) (product T G)) as Nc2.
  assert (Dc : norm (sub (vector c) (product T G)) <= 5 / 10000) by (assert (402 / 100 * uu * (450142 * 7402) + 6 * uu <= 2 / 1000000) by (rewrite uu_value; lra); lra). clear X1 X2 X3 X4 Nc Nc2 Ec.
  set (w := product T G) in *. pose proof (norm_near (vector c) w) as Nw. apply Rabs_le_inv in Nw.
  assert (B1 : bpow radix2 (-400) <= 1 / 2). { apply Rle_trans with (bpow radix2 (-1)); [apply bpow_le; lia|cbn; lra]. }
  assert (WB : norm w <= 450141 * 7401). { unfold w. eapply Rle_trans; [apply norm_product_le|]. pose proof (norm_pos G). apply Rmult_le_compat; lra. }
  assert (Sp : sized p) by (split; auto; lra). assert (Sc : sized c) by (split; auto; lra).
  destruct (dot_ok p c Sp Sc) as (F & E). split; auto. pose proof (dot_near P w (vector p) (vector c)) as N. rewrite DE in N.
  assert (CW : norm (vector c) <= 101 / 100 * norm w) by lra. pose proof (norm_pos (vector c)) as P6. pose proof (norm_pos (vector p)) as P7.
  assert (Y1 : norm (vector p) * norm (vector c) <= 2950001 * (101 / 100 * norm w)) by (apply Rmult_le_compat; lra).
  assert (Y2 : norm (sub (vector p) P) * norm (vector c) <= 18 / 100000000 * (101 / 100 * norm w)) by (apply Rmult_le_compat; try apply norm_pos; lra).
  assert (Y3 : norm P * norm (sub (vector c) w) <= 2950000 * (5 / 10000)) by (apply Rmult_le_compat; try apply norm_pos; lra).
  assert (Y4 : 5 * uu * (norm (vector p) * norm (vector c)) <= 5 * uu * (2950001 * (101 / 100 * norm w))) by (apply Rmult_le_compat_l; lra).
  assert (Z : Rabs (value (fdot p c) - norm w * e) <= 32 / 10000 * norm w).
  { eapply Rle_trans; [apply (err_trans _ _ _ _ _ E N)|]. assert (5 * uu * (2950001 * (101 / 100 * norm w)) <= / 100000000 * norm w) by (rewrite uu_value; lra). lra. }
  apply Rabs_le_inv in Z. split; intros S; [rewrite Rabs_pos_eq in He by lra|rewrite Rabs_left in He by lra]; nra.
Qed.
End Vectors.
