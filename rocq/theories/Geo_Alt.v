(** The iteration of [_altitude] for points off the axis. *)
From Coq Require Import List Reals Arith Bool Lia Lra Psatz.
From Verif Require Import Py PyLemmas Num Time_Model Rot_Model Rot_Spec Geo_Model Geo_Spec.
Import ListNotations.
Open Scope R_scope.
Open Scope list_scope.

Notation A := major_axis.
Notation B := minor_axis.
Lemma A_val : A = 6378.137. Proof. reflexivity. Qed.
Lemma B_val : B = 6356.752314245. Proof. reflexivity. Qed.
Lemma A_pos : 0 < A. Proof. rewrite A_val. lra. Qed.
Lemma B_pos : 0 < B. Proof. rewrite B_val. lra. Qed.
Lemma B_lt_A : B < A. Proof. rewrite A_val, B_val. lra. Qed.
Global Opaque major_axis minor_axis.
#[export] Hint Resolve A_pos B_pos B_lt_A : core.

Definition kap : R := B ^ 2 / A ^ 2.
Definition cc : R := A - B ^ 2 / A.
Lemma kap_bounds : 0.9933 < kap < 0.9934.
Proof.
  pose proof A_pos as HA. assert (E : kap * (A * A) = B * B) by (unfold kap; field; lra).
  rewrite A_val, B_val in E. split; lra.
Qed.
Lemma cc_kap : cc = A * (1 - kap).
Proof. pose proof A_pos. unfold cc, kap. field. lra. Qed.
Lemma cc_bounds : 42 < cc < 42.74.
Proof. rewrite cc_kap. pose proof kap_bounds. rewrite A_val. lra. Qed.
Lemma altitude_e2 : altitude_e ^ 2 = 1 - kap.
Proof. unfold altitude_e. rewrite pow2_sqrt; [reflexivity|]. fold kap. pose proof kap_bounds. lra. Qed.

Lemma div_fin x y : y <> 0 -> n_div (Fin x) (Fin y) = Fin (x / y).
Proof. intros H. unfold n_div. destruct (Req_EM_T y 0); [contradiction|reflexivity]. Qed.
Lemma sqrt_fin x : 0 <= x -> n_sqrt (Fin x) = Fin (sqrt x).
Proof. intros H. unfold n_sqrt. destruct (Rlt_dec x 0); [lra|reflexivity]. Qed.
Lemma sq0 x : 0 <= x * x. Proof. apply Rle_0_sqr. Qed.
Lemma sqrt_sq_pos x : 0 <= x -> sqrt x * sqrt x = x. Proof. apply sqrt_sqrt. Qed.

(** In terms of [m], the tangent of the latitude times p / z. *)
Definition S_ (p z m : R) : R := sqrt (p * p + kap * (z * m * (z * m))).
Definition Q_ (p z m : R) : R := sqrt (p * p + z * m * (z * m)).
Definition g_ (p z m : R) : R := S_ p z m / (S_ p z m - cc).
Definition h_ (p z m : R) : R := Q_ p z m - A * Q_ p z m / S_ p z m.

Lemma W_S p z m : 0 < p -> p * sqrt (1 + kap * (z / p * m * (z / p * m))) = S_ p z m.
Proof.
  intros P. unfold S_. pose proof kap_bounds.
  rewrite <- (sqrt_square p) at 1 by lra. rewrite <- sqrt_mult; [f_equal; field; lra|nra|].
  pose proof (sq0 (z / p * m)) as Q. pose proof (Rmult_le_pos kap _ ltac:(lra) Q). lra.
Qed.
Lemma T_Q p z m : 0 < p -> p * sqrt (1 + (z / p * m * (z / p * m))) = Q_ p z m.
Proof.
  intros P. unfold Q_. rewrite <- (sqrt_square p) at 1 by lra. rewrite <- sqrt_mult; [f_equal; field; lra|nra|].
  pose proof (sq0 (z / p * m)). lra.
Qed.
Lemma Q_pos p z m : 0 < p -> 0 < Q_ p z m.
Proof. intros. unfold Q_. apply sqrt_lt_R0. nra. Qed.
Lemma S_pos p z m : 0 < p -> 0 < S_ p z m.
Proof. intros. unfold S_. apply sqrt_lt_R0. pose proof kap_bounds. assert (0 <= z * m * (z * m)) by nra. nra. Qed.

Lemma latitude_from_fin v n h : axis_distance v <> 0 -> n + h <> 0 -> n + h - (1 - kap) * n <> 0 ->
  latitude_from v (Fin n) (Fin h) = Fin (atan (vz v / axis_distance v * ((n + h) / (n + h - (1 - kap) * n)))).
Proof.
  intros P N D. unfold latitude_from. rewrite div_fin by auto. cbn [n_add n_mul n_sub]. rewrite div_fin by auto. cbn [n_sub].
  rewrite altitude_e2.
  assert (E : 1 - (1 - kap) * n / (n + h) = (n + h - (1 - kap) * n) / (n + h)) by (field; auto).
  rewrite E. unfold n_inv. rewrite div_fin.
  - cbn [n_mul n_arctan]. do 2 f_equal. f_equal. field. auto.
  - intros F. apply D. apply (f_equal (fun x => x * (n + h))) in F. field_simplify in F; auto. lra.
Qed.

Lemma new_vals_step v m : 0 < axis_distance v -> cc < S_ (axis_distance v) (vz v) m ->
  new_vals v (Fin (atan (vz v / axis_distance v * m)))
  = (Fin (h_ (axis_distance v) (vz v) m), Fin (atan (vz v / axis_distance v * g_ (axis_distance v) (vz v) m))).
Proof.
  set (p := axis_distance v). set (z := vz v). intros P SC.
  set (t := z / p * m). set (T := sqrt (1 + t * t)). set (W := sqrt (1 + kap * (t * t))).
  pose proof kap_bounds as K. pose proof A_pos as HA.
  assert (TT : 0 <= t * t) by nra.
  assert (T2 : T * T = 1 + t * t) by (apply sqrt_sqrt; lra).
  assert (W2 : W * W = 1 + kap * (t * t)) by (apply sqrt_sqrt; nra).
  assert (T0 : 0 < T) by (apply sqrt_lt_R0; lra).
  assert (W0 : 0 < W) by (apply sqrt_lt_R0; nra).
  assert (EW : p * W = S_ p z m) by (apply W_S; auto).
  assert (ET : p * T = Q_ p z m) by (apply T_Q; auto).
  unfold new_vals. cbn [n_cos n_sin n_mul n_add]. rewrite cos_atan, sin_atan.
  change (1 + t²) with (1 + t * t). fold T. fold kap.
  assert (E1 : 1 / T * (1 / T) + kap * (t / T * (t / T)) = (W / T) * (W / T)).
  { field_simplify_eq; [|lra]. nra. }
  rewrite E1. rewrite sqrt_fin by nra. rewrite sqrt_square by (apply Rlt_le, Rdiv_lt_0_compat; auto).
  rewrite div_fin by (apply Rgt_not_eq, Rdiv_lt_0_compat; lra).
  rewrite div_fin by (apply Rgt_not_eq, Rdiv_lt_0_compat; lra). cbn [n_sub].
  fold p.
  assert (EN : A / (W / T) + (p / (1 / T) - A / (W / T)) = p * T) by (field; split; lra).
  assert (ED : p * T - (1 - kap) * (A / (W / T)) = (S_ p z m - cc) * (p * T) / S_ p z m).
  { rewrite <- EW, cc_kap. field. split; lra. }
  rewrite latitude_from_fin; fold p; rewrite ?EN, ?ED.
  - unfold h_, g_. f_equal; [f_equal|do 2 f_equal].
    + rewrite <- ET, <- EW. field. split; [|split]; lra.
    + fold z. f_equal. rewrite <- EW in *. field. split; [|split; [|split]]; lra.
  - lra.
  - nra.
  - assert (0 < p * T) by nra. apply Rgt_not_eq. apply Rdiv_lt_0_compat; [nra|rewrite <- EW; nra].
Qed.

(** ** The iteration contracts *)
Lemma hyp_le p x y : sqrt (p * p + x * x) <= sqrt (p * p + y * y) + Rabs (x - y).
Proof.
  pose proof (sq0 p). pose proof (sq0 x). pose proof (sq0 y).
  set (u := sqrt (p * p + y * y)).
  assert (U : u * u = p * p + y * y) by (apply sqrt_sqrt; lra).
  assert (U0 : 0 <= u) by apply sqrt_pos.
  assert (Y : Rabs y <= u). { unfold u. rewrite <- sqrt_Rsqr_abs. apply sqrt_le_1_alt. unfold Rsqr. lra. }
  pose proof (Rabs_pos (x - y)) as D. pose proof (Rabs_pos y) as Y0.
  apply Rsqr_incr_0_var; [|lra]. rewrite Rsqr_sqrt by lra. unfold Rsqr.
  assert (DD : Rabs (x - y) * Rabs (x - y) = (x - y) * (x - y)) by (rewrite <- Rabs_mult; apply Rabs_right; pose proof (sq0 (x - y)); lra).
  assert (C : y * (x - y) <= Rabs y * Rabs (x - y)) by (rewrite <- Rabs_mult; apply Rle_abs).
  assert (M : Rabs y * Rabs (x - y) <= u * Rabs (x - y)) by (apply Rmult_le_compat_r; auto).
  nra.
Qed.
Lemma hyp_lip p x y : Rabs (sqrt (p * p + x * x) - sqrt (p * p + y * y)) <= Rabs (x - y).
Proof.
  pose proof (hyp_le p x y). pose proof (hyp_le p y x). rewrite (Rabs_minus_sym y x) in *.
  apply Rabs_le. lra.
Qed.
Definition qq : R := B / A.
Lemma qq_kap : qq * qq = kap.
Proof. pose proof A_pos. unfold qq, kap. field. lra. Qed.
Lemma qq_bounds : 0.9966 < qq < 0.9967.
Proof.
  pose proof A_pos. assert (E : qq * A = B) by (unfold qq; field; lra). rewrite A_val, B_val in E. lra.
Qed.
Lemma S_hyp p z m : S_ p z m = sqrt (p * p + (qq * z * m) * (qq * z * m)).
Proof. unfold S_. f_equal. rewrite <- qq_kap. ring. Qed.
Lemma S_lip p z m n : Rabs (S_ p z m - S_ p z n) <= qq * Rabs z * Rabs (m - n).
Proof.
  rewrite !S_hyp. eapply Rle_trans; [apply hyp_lip|]. replace (qq * z * m - qq * z * n) with (qq * z * (m - n)) by ring.
  rewrite !Rabs_mult. pose proof qq_bounds. rewrite (Rabs_right qq) by lra. lra.
Qed.
Lemma Q_lip p z m n : Rabs (Q_ p z m - Q_ p z n) <= Rabs z * Rabs (m - n).
Proof.
  unfold Q_. eapply Rle_trans; [apply hyp_lip|]. replace (z * m - z * n) with (z * (m - n)) by ring.
  rewrite Rabs_mult. lra.
Qed.
Lemma S_z p z m : 1 <= m -> qq * Rabs z <= S_ p z m.
Proof.
  intros M. rewrite S_hyp. pose proof qq_bounds as Q. pose proof (sq0 p). pose proof (Rabs_pos z) as Z.
  apply Rle_trans with (Rabs (qq * z * m)).
  - rewrite !Rabs_mult, (Rabs_right qq), (Rabs_right m) by lra.
    assert (0 <= qq * Rabs z) by (apply Rmult_le_pos; lra). nra.
  - rewrite <- sqrt_Rsqr_abs. apply sqrt_le_1_alt. unfold Rsqr. lra.
Qed.
Definition rr (p z : R) : R := sqrt (p * p + z * z).
Lemma S_low p z m : 1 <= m -> qq * rr p z <= S_ p z m.
Proof.
  intros M. rewrite S_hyp. unfold rr. pose proof qq_bounds as Q. pose proof (sq0 p) as P. pose proof (sq0 z) as Z.
  rewrite <- (sqrt_square qq) at 1 by lra. rewrite <- sqrt_mult by nra. apply sqrt_le_1_alt.
  assert (M2 : 1 <= m * m) by nra. assert (Q2 : 0 < qq * qq < 1) by nra.
  replace (qq * z * m * (qq * z * m)) with (qq * qq * (z * z * (m * m))) by ring.
  assert (z * z <= z * z * (m * m)) by nra. nra.
Qed.
(** A point outside the Earth. *)
Definition far (p z : R) : Prop := 0 < p /\ B <= rr p z.
Lemma S_far p z m : far p z -> 1 <= m -> 6335 <= S_ p z m.
Proof.
  intros (_ & F) M. pose proof (S_low p z m M) as L. pose proof qq_bounds. pose proof B_val as BV. nra.
Qed.
Lemma z_rr p z : Rabs z <= rr p z.
Proof. unfold rr. rewrite <- sqrt_Rsqr_abs. apply sqrt_le_1_alt. unfold Rsqr. pose proof (sq0 p). lra. Qed.
Lemma p_rr p z : 0 <= p -> p <= rr p z.
Proof. intros P. unfold rr. rewrite <- (sqrt_square p) at 1 by auto. apply sqrt_le_1_alt. pose proof (sq0 z). lra. Qed.

Lemma g_range p z m : far p z -> 1 <= m -> 1 <= g_ p z m <= 1.01.
Proof.
  intros F M. pose proof (S_far p z m F M) as L. pose proof cc_bounds as C. unfold g_.
  set (s := S_ p z m) in *. split.
  - apply Rmult_le_reg_r with (s - cc); [lra|]. unfold Rdiv. rewrite Rmult_assoc, Rinv_l by lra. lra.
  - apply Rmult_le_reg_r with (s - cc); [lra|]. unfold Rdiv. rewrite Rmult_assoc, Rinv_l by lra. lra.
Qed.
Lemma g_lip p z m n : far p z -> 1 <= m -> 1 <= n -> Rabs (g_ p z m - g_ p z n) <= 0.007 * Rabs (m - n).
Proof.
  intros F M N. pose proof (S_far p z m F M) as L1. pose proof (S_far p z n F N) as L2. pose proof cc_bounds as C.
  pose proof (S_lip p z m n) as SL. pose proof (S_z p z m M) as SZ. unfold g_.
  set (s := S_ p z m) in *. set (t := S_ p z n) in *. clearbody s t.
  assert (E : s / (s - cc) - t / (t - cc) = cc * (t - s) / ((s - cc) * (t - cc))) by (field; lra).
  rewrite E. clear E. unfold Rdiv. rewrite !Rabs_mult, Rabs_inv. pose proof (Rabs_pos (m - n)) as D.
  rewrite Rabs_mult. rewrite (Rabs_right cc), (Rabs_right (s - cc)), (Rabs_right (t - cc)) by lra.
  rewrite (Rabs_minus_sym t s).
  assert (P : 0 < (s - cc) * (t - cc)) by nra.
  apply Rmult_le_reg_r with ((s - cc) * (t - cc)); [auto|]. rewrite Rmult_assoc, Rinv_l by lra. rewrite Rmult_1_r.
  assert (K : cc * s <= 0.007 * ((s - cc) * (t - cc))) by nra.
  assert (SL2 : Rabs (s - t) <= s * Rabs (m - n)) by (eapply Rle_trans; [exact SL|apply Rmult_le_compat_r; auto]).
  assert (K2 : cc * s * Rabs (m - n) <= 0.007 * ((s - cc) * (t - cc)) * Rabs (m - n)) by (apply Rmult_le_compat_r; auto).
  assert (K3 : cc * Rabs (s - t) <= cc * (s * Rabs (m - n))) by (apply Rmult_le_compat_l; lra).
  lra.
Qed.
(** The height as a function of the multiplier. *)
Lemma ratio_bound p z m : 0 < p -> Q_ p z m <= A / B * S_ p z m.
Proof.
  intros P. pose proof A_pos. pose proof B_pos. pose proof B_lt_A. pose proof qq_bounds as Q.
  assert (E : A / B * S_ p z m = sqrt ((A / B) * (A / B) * (p * p + (qq * z * m) * (qq * z * m)))).
  { rewrite S_hyp. assert (0 <= A / B) by (apply Rlt_le, Rdiv_lt_0_compat; auto).
    rewrite sqrt_mult; [rewrite sqrt_square by auto; reflexivity|nra|pose proof (sq0 p); pose proof (sq0 (qq * z * m)); lra]. }
  rewrite E. unfold Q_. apply sqrt_le_1_alt.
  assert (E2 : A / B * (A / B) * (p * p + qq * z * m * (qq * z * m)) = A / B * (A / B) * (p * p) + z * m * (z * m)) by (unfold qq; field; lra).
  rewrite E2. assert (1 <= A / B). { apply Rmult_le_reg_r with B; auto. unfold Rdiv. rewrite Rmult_assoc, Rinv_l; lra. }
  assert (1 <= A / B * (A / B)) by nra. pose proof (sq0 p). nra.
Qed.
Lemma AB_val : A / B <= 1.0034.
Proof. pose proof B_pos. apply Rmult_le_reg_r with B; auto. unfold Rdiv. rewrite Rmult_assoc, Rinv_l by lra. rewrite A_val, B_val. lra. Qed.
Lemma h_lip p z m n : far p z -> 1 <= m -> 1 <= n -> Rabs (h_ p z m - h_ p z n) <= (Rabs z + 12850) * Rabs (m - n).
Proof.
  intros F M N. pose proof (S_far p z m F M) as L1. pose proof (S_far p z n F N) as L2.
  pose proof (S_lip p z m n) as SL. pose proof (Q_lip p z m n) as QL. pose proof (S_z p z m M) as SZ.
  pose proof (ratio_bound p z n (proj1 F)) as R. pose proof (Q_pos p z n (proj1 F)) as Q0. pose proof AB_val as AB.
  pose proof qq_bounds as QB. pose proof (Rabs_pos z) as Z0. pose proof (Rabs_pos (m - n)) as D. unfold h_.
  set (s := S_ p z m) in *. set (t := S_ p z n) in *. set (x := Q_ p z m) in *. set (y := Q_ p z n) in *. clearbody s t x y.
  set (d := Rabs (m - n)) in *. set (w := Rabs z) in *.
  assert (E : x - A * x / s - (y - A * y / t) = (x - y) - (A / s) * (x - y) + A * (y / t) * ((s - t) / s)) by (field; lra).
  rewrite E. clear E.
  assert (As : 0 < A / s <= 1.01).
  { pose proof A_pos. split; [apply Rdiv_lt_0_compat; lra|]. apply Rmult_le_reg_r with s; [lra|]. unfold Rdiv.
    rewrite Rmult_assoc, Rinv_l by lra. rewrite A_val. lra. }
  assert (yt : 0 <= y / t <= 1.0034).
  { split; [apply Rlt_le, Rdiv_lt_0_compat; lra|]. apply Rmult_le_reg_r with t; [lra|]. unfold Rdiv.
    rewrite Rmult_assoc, Rinv_l by lra. assert (A / B * t <= 1.0034 * t) by (apply Rmult_le_compat_r; lra). lra. }
  assert (ws : w / s <= 1.0035).
  { apply Rmult_le_reg_r with s; [lra|]. unfold Rdiv. rewrite Rmult_assoc, Rinv_l by lra. assert (0.9966 * w <= qq * w) by (apply Rmult_le_compat_r; lra). lra. }
  assert (st : Rabs ((s - t) / s) <= d).
  { unfold Rdiv. rewrite Rabs_mult, Rabs_inv, (Rabs_right s) by lra. apply Rmult_le_reg_r with s; [lra|].
    rewrite Rmult_assoc, Rinv_l, Rmult_1_r by lra. eapply Rle_trans; [exact SL|]. rewrite Rmult_comm. apply Rmult_le_compat_l; lra. }
  eapply Rle_trans; [apply Rabs_triang|]. apply Rle_trans with ((w * d + A / s * (w * d)) + A * 1.0034 * d).
  - apply Rplus_le_compat.
    + eapply Rle_trans; [apply Rabs_triang|]. apply Rplus_le_compat; [exact QL|]. rewrite Rabs_Ropp, Rabs_mult.
      rewrite (Rabs_right (A / s)) by lra. apply Rmult_le_compat_l; [lra|exact QL].
    + rewrite !Rabs_mult. pose proof A_pos. rewrite (Rabs_right A), (Rabs_right (y / t)) by lra.
      apply Rmult_le_compat; [nra|apply Rabs_pos| |exact st]. apply Rmult_le_compat_l; lra.
  - assert (E2 : A / s * (w * d) = A * (w / s) * d) by (field; lra). rewrite E2.
    assert (A * (w / s) * d <= A * 1.0035 * d) by (apply Rmult_le_compat_r; auto; apply Rmult_le_compat_l; [pose proof A_pos; lra|auto]).
    rewrite A_val in *. nra.
Qed.
