(** From WGS84 to ITRS and back. *)
From Coq Require Import List ZArith Reals Lra Lia Psatz.
From Flocq Require Import Core.Core IEEE754.BinarySingleNaN IEEE754.Binary IEEE754.Bits.
From Verif Require Import Py Num Fl_Model Fl_Spec Fl_Proofs Flg_Model Flg_Spec Rot_Model Rot_Spec Geo_Model Geo_Spec Lvlh_Spec Lvlh_Proofs Flg_Proofs Flg_Num Flg_Proofs2 Flg_Proofs3 Flg_Proofs5 Geo_Alt Geo_Alt2 Geo_Dir Geo_Acc Geo_Props Geo_Props2 Geo_Props3 Geo_Props4 Geo_Props7
  Flr_Model Flr_Spec Flv_Model Fly_Model Fly_Spec Fly_Proofs Fly_Proofs2 Fly_Proofs3 Fly_Proofs4 Fly_Proofs5 Fln_Model Fln_Spec Fln_Proofs Fln_Proofs2.
Import ListNotations.
Open Scope R_scope.
#[local] Strategy 1000 [fmul fadd fsub fdiv fneg of_Z].

Lemma margin phi lam h : 0.0017 <= cos phi -> 0 <= h -> B * B + 1 / 2 <= axis_distance (wgs84_point phi lam h) * axis_distance (wgs84_point phi lam h) + vz (wgs84_point phi lam h) * vz (wgs84_point phi lam h).
Proof.
  intros C0 H. pose proof (Np_sq phi) as NS. pose proof (Np_bounds phi) as NB. pose proof (sc2 phi) as T. pose proof A_val as VA. pose proof B_val as VB.
  assert (AX : axis_distance (wgs84_point phi lam h) * axis_distance (wgs84_point phi lam h) = (Np phi + h) * cos phi * ((Np phi + h) * cos phi)).
  { unfold axis_distance, wgs84_point. cbn [vx vy]. change (A / sqrt (1 - e2 * sin phi ^ 2)) with (Np phi). rewrite sqrt_sqrt by nra.
    replace (((Np phi + h) * cos phi * cos lam) ^ 2 + ((Np phi + h) * cos phi * sin lam) ^ 2) with ((Np phi + h) * cos phi * ((Np phi + h) * cos phi) * (sin lam * sin lam + cos lam * cos lam)) by ring. rewrite sc2. ring. }
  rewrite AX. change (vz (wgs84_point phi lam h)) with ((Np phi * (1 - e2) + h) * sin phi).
  set (n := Np phi) in *. set (c := cos phi) in *. set (s := sin phi) in *. clearbody n c s.
  assert (D0 : B * B <= A * A * (1 - e2)) by (rewrite A_val, B_val, ecc_val; lra). pose proof ecc2 as E2. assert (EL : 0.006 <= e2) by (rewrite ecc_val; lra). set (e := e2) in *. clearbody e. clear AX.
  assert (L : B * B + 1 / 2 <= n * c * (n * c) + n * (1 - e) * s * (n * (1 - e) * s)).
  { replace (n * c * (n * c) + n * (1 - e) * s * (n * (1 - e) * s)) with (n * n * ((1 - s * s) + (1 - e) * (1 - e) * (s * s))) by (replace (1 - s * s) with (c * c) by lra; ring).
    assert (N2 : n * n * (1 - e * (s * s)) = A * A) by (rewrite <- NS; ring).
    assert (W : 0.0017 * 0.0017 <= 1 - s * s) by (replace (1 - s * s) with (c * c) by lra; apply Rmult_le_compat; lra). set (w := s * s) in *. clearbody w.
    assert (NN : 6300 * 6300 <= n * n) by (apply Rmult_le_compat; lra). set (n2 := n * n) in *. clearbody n2.
    apply Rle_trans with (A * A * (1 - e) + 1 / 2); [lra|]. rewrite <- N2.
    assert (X : 0.006 * (0.0017 * 0.0017) <= e * (1 - w)) by (apply Rmult_le_compat; lra). assert (6300 * 6300 * (0.006 * (0.0017 * 0.0017)) <= n2 * (e * (1 - w))) by (apply Rmult_le_compat; lra). replace (n2 * (1 - w + (1 - e) * (1 - e) * w)) with (n2 * (1 - e * w) * (1 - e) + n2 * (e * (1 - w))) by ring. lra. }
  assert (n * c <= (n + h) * c) by (apply Rmult_le_compat_r; lra). assert (0 <= n * c) by (apply Rmult_le_pos; lra). assert (n * c * (n * c) <= (n + h) * c * ((n + h) * c)) by (apply Rmult_le_compat; lra).
  assert ((n * (1 - e) * s) * (n * (1 - e) * s) <= ((n * (1 - e) + h) * s) * ((n * (1 - e) + h) * s)).
  { replace (n * (1 - e) * s * (n * (1 - e) * s)) with ((n * (1 - e)) * (n * (1 - e)) * (s * s)) by ring.
    replace ((n * (1 - e) + h) * s * ((n * (1 - e) + h) * s)) with ((n * (1 - e) + h) * (n * (1 - e) + h) * (s * s)) by ring.
    assert (0 <= n * (1 - e)) by (apply Rmult_le_pos; lra). apply Rmult_le_compat_r; [nra|]. apply Rmult_le_compat; lra. }
  lra.
Qed.
Lemma plane_norm x y : norm (V x y 0) = sqrt (x ^ 2 + y ^ 2). Proof. unfold norm, dot. cbn [vx vy vz]. f_equal. ring. Qed.
Lemma sum_norm x y z : norm (V x y z) <= Rabs x + Rabs y + Rabs z.
Proof.
  pose proof (Rabs_pos x). pose proof (Rabs_pos y). pose proof (Rabs_pos z). unfold norm, dot. cbn [vx vy vz]. apply Rsqr_incr_0_var; [|lra]. unfold Rsqr. rewrite sqrt_sqrt by nra.
  rewrite <- (Rabs_pos_eq (x * x)), <- (Rabs_pos_eq (y * y)), <- (Rabs_pos_eq (z * z)), !Rabs_mult by nra. nra.
Qed.
(** What is near a point of moderate latitude *)
Definition DD : R := 43 / 10000000000000.
Lemma near_wgs84 phi lam h q : - (PI / 2) < phi < PI / 2 -> 0.0017 <= cos phi -> 0 <= h <= 90000 ->
  let v := wgs84_point phi lam h in let rho := (Np phi + h) * cos phi in
  Rabs (vx q - vx v) <= DD * rho -> Rabs (vy q - vy v) <= DD * rho -> Rabs (vz q - vz v) <= DD * rho ->
  outside q /\ clear_of_poles q /\ Rabs (atan (vz q / axis_distance q) - atan (ratio phi h * tan phi)) <= 2 / 10 ^ 11 /\
  forall th, at_longitude th q -> exists angle, cos angle = cos lam /\ sin angle = sin lam /\ Rabs (th - angle) <= 1 / 10 ^ 11.
Proof.
  intros HP C0 HH v rho DX DY DZ. pose proof (Np_bounds phi) as NB. pose proof A_val as VA. pose proof B_val as VB.
  pose proof (v_axis phi lam h HP ltac:(lra)) as AX. fold v rho in AX. pose proof (margin phi lam h C0 ltac:(lra)) as MG. fold v in MG. rewrite AX in MG.
  assert (C1 : cos phi <= 1) by apply COS_bound. assert (RL : 0.0017 * (Np phi + h) <= rho <= Np phi + h).
  { unfold rho. split; [rewrite (Rmult_comm 0.0017); apply Rmult_le_compat_l; lra|]. rewrite <- (Rmult_1_r (Np phi + h)) at 2. apply Rmult_le_compat_l; lra. }
  assert (NU : Np phi <= 6410) by (rewrite VA in NB; lra). assert (R0 : 10 <= rho <= 96410) by lra.
  assert (EV : exists x y z, v = V x y z) by (destruct v; eauto). destruct EV as (x & y & z & EV).
  assert (ZV : Rabs z <= Np phi + h). { assert (z = vz v) as -> by (rewrite EV; reflexivity). change (vz v) with ((Np phi * (1 - e2) + h) * sin phi). rewrite Rabs_mult. pose proof ecc2 as E2. rewrite (Rabs_pos_eq (_ + _)) by nra. assert (Rabs (sin phi) <= 1) by apply Rabs_le, SIN_bound. rewrite <- (Rmult_1_r (Np phi + h)). apply Rmult_le_compat; [nra|apply Rabs_pos|nra|auto]. }
  assert (LX : x = rho * cos lam /\ y = rho * sin lam). { assert (x = vx v /\ y = vy v) as (-> & ->) by (rewrite EV; split; reflexivity). split; reflexivity. }
  assert (TZ : z / rho = ratio phi h * tan phi). { assert (z = vz v) as -> by (rewrite EV; reflexivity). change (vz v) with ((Np phi * (1 - e2) + h) * sin phi). unfold rho, ratio, tan. field. split; lra. }
  rewrite EV in *. unfold axis_distance in AX. cbn [vx vy vz] in *. clear EV. destruct q as [x' y' z']. cbn [vx vy vz] in *. unfold axis_distance. cbn [vx vy vz]. unfold DD in *.
  set (r' := sqrt (x' ^ 2 + y' ^ 2)). assert (NR : Rabs (r' - rho) <= 2 * (43 / 10000000000000 * rho)).
  { assert (Q : Rabs (r' - rho) <= Rabs (x' - x) + Rabs (y' - y) + Rabs (0 - 0)). { unfold r'. rewrite <- AX, <- !plane_norm. eapply Rle_trans; [apply norm_near|]. unfold sub. cbn [vx vy vz]. apply sum_norm. } rewrite Rminus_0_r, Rabs_R0 in Q. lra. }
  pose proof (Rabs_le_inv _ _ NR) as NR'. assert (R0' : 9 <= r') by lra.
  assert (RN : norm (V x y z) = sqrt (rho * rho + z * z)). { unfold norm, dot. cbn [vx vy vz]. f_equal. rewrite <- AX. rewrite sqrt_sqrt by nra. ring. }
  assert (NL : B + 3 / 100000 <= norm (V x y z)). { rewrite RN. apply Rsqr_incr_0_var; [|apply sqrt_pos]. unfold Rsqr. rewrite sqrt_sqrt by nra. rewrite VB in *. lra. }
  assert (NH : norm (V x y z) <= 96410 + 2). { rewrite RN. apply Rsqr_incr_0_var; [|lra]. unfold Rsqr. rewrite sqrt_sqrt by nra. destruct LX as (LX & LY).
    unfold rho. assert (Z2 : z * z <= (Np phi + h) * (Np phi + h) * (sin phi * sin phi)).
    { assert (ZE : z = (Np phi * (1 - e2) + h) * sin phi). { transitivity (ratio phi h * tan phi * rho); [rewrite <- TZ; field; lra|]. unfold ratio, tan, rho. field. split; lra. }
      rewrite ZE. replace ((Np phi * (1 - e2) + h) * sin phi * ((Np phi * (1 - e2) + h) * sin phi)) with ((Np phi * (1 - e2) + h) * (Np phi * (1 - e2) + h) * (sin phi * sin phi)) by ring. pose proof ecc2. apply Rmult_le_compat_r; [nra|]. apply Rmult_le_compat; nra. }
    pose proof (sc2 phi) as T. assert (S : (Np phi + h) * cos phi * ((Np phi + h) * cos phi) + (Np phi + h) * (Np phi + h) * (sin phi * sin phi) = (Np phi + h) * (Np phi + h)) by (transitivity ((Np phi + h) * (Np phi + h) * (sin phi * sin phi + cos phi * cos phi)); [ring|rewrite T; ring]).
    assert ((Np phi + h) * (Np phi + h) <= 96410 * 96410) by (apply Rmult_le_compat; lra). lra. }
  assert (ND : Rabs (norm (V x' y' z') - norm (V x y z)) <= 3 * (43 / 10000000000000 * rho)).
  { eapply Rle_trans; [apply norm_near|]. unfold sub. cbn [vx vy vz]. eapply Rle_trans; [apply sum_norm|]. lra. }
  apply Rabs_le_inv in ND. split; [|split; [|split]].
  - split; [|rewrite wb; lra]. destruct (Req_dec x' 0) as [X|X]; [right|left; exact X]. intros Y. cbn [vy] in Y. unfold r' in R0'. rewrite X, Y in R0'. replace (0 ^ 2 + 0 ^ 2) with 0 in R0' by ring. rewrite sqrt_0 in R0'. lra.
  - split; [lra|]. cbn [vx vy vz]. fold r'. pose proof (err_abs _ _ _ DZ). lra.
  - rewrite <- TZ. assert (D : Rabs (z' / r' - z / rho) <= 1 / 100000000000 * (87 / 100) * Rabs (z / rho) + 1 / 100000000000 * (44 / 100)).
    { set (q := z / rho). assert (ZQ : z = q * rho) by (unfold q; field; lra). replace (z' / r' - q) with (((z' - z) - q * (r' - rho)) * / r') by (rewrite ZQ; field; lra). rewrite Rabs_mult, Rabs_inv, (Rabs_pos_eq r') by lra.
      apply Rmult_le_reg_r with r'; [lra|]. rewrite Rmult_assoc, Rinv_l, Rmult_1_r by lra. unfold Rminus at 1. eapply Rle_trans; [apply Rabs_triang|]. rewrite Rabs_Ropp, Rabs_mult. pose proof (Rabs_pos q) as Q0.
      assert (Rabs q * Rabs (r' - rho) <= Rabs q * (2 * (43 / 10000000000000 * rho))) by (apply Rmult_le_compat_l; auto). assert (Rabs q * (99999 / 100000 * rho) <= Rabs q * r') by (apply Rmult_le_compat_l; lra). assert (0 <= Rabs q * rho) by (apply Rmult_le_pos; lra). lra. }
    pose proof (atan_close _ _ _ _ D ltac:(lra) ltac:(lra)) as E. assert (cos (atan (z / rho)) <= 1) by apply COS_bound. assert (1 / 100000000000 * (87 / 100) * cos (atan (z / rho)) <= 1 / 100000000000 * (87 / 100) * 1) by (apply Rmult_le_compat_l; lra). lra.
  - intros th T. unfold at_longitude in T. cbn [vx vy] in T. assert (AXY : Rabs x <= rho /\ Rabs y <= rho). { destruct LX as (-> & ->). rewrite !Rabs_mult, (Rabs_pos_eq rho) by lra. assert (Rabs (cos lam) <= 1) by apply Rabs_le, COS_bound. assert (Rabs (sin lam) <= 1) by apply Rabs_le, SIN_bound. split; (rewrite <- (Rmult_1_r rho) at 2; apply Rmult_le_compat_l; lra). }
    destruct (longitude_close x y x' y' th (86 / 10000000000000)) as (angle & G1 & G2); rewrite ?AX; try lra.
    + exact T.
    + unfold Rminus at 1. eapply Rle_trans; [apply Rabs_triang|]. rewrite Rabs_Ropp, !Rabs_mult. assert (Rabs (x' - x) * Rabs y <= 43 / 10000000000000 * rho * rho) by (apply Rmult_le_compat; try apply Rabs_pos; lra). assert (Rabs (y' - y) * Rabs x <= 43 / 10000000000000 * rho * rho) by (apply Rmult_le_compat; try apply Rabs_pos; lra). replace (rho ^ 2) with (rho * rho) by ring. lra.
    + exists angle. destruct G1 as (G1 & G1'). cbn [vx vy] in G1, G1'. rewrite AX in G1, G1'. destruct LX as (LX & LY). split; [|split].
      * apply Rmult_eq_reg_l with rho; [|lra]. rewrite <- G1. exact LX.
      * apply Rmult_eq_reg_l with rho; [|lra]. rewrite <- G1'. exact LY.
      * rewrite Rabs_minus_sym in G2. lra.
Qed.
