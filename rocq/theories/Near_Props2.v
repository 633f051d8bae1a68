(** Altitudes and the distance to the ellipsoid in floating point: C185, C186. *)
From Coq Require Import List ZArith Reals Lra Lia Psatz.
From Flocq Require Import Core.Core IEEE754.BinarySingleNaN IEEE754.Binary IEEE754.Bits.
From Verif Require Import Py Num Fl_Model Fl_Spec Fl_Proofs Flg_Model Flg_Spec Rot_Model Rot_Spec Geo_Model Geo_Spec Lvlh_Spec Lvlh_Proofs Flg_Proofs Flg_Proofs2 Flg_Proofs3 Flg_Best Geo_Alt Geo_Alt2 Geo_Acc Geo_Props Geo_Foot
  Flc_Model Flc_Spec Flr_Model Flr_Spec Flr_Best Flr_Props Flv_Model Fly_Model Fly_Spec Fly_Proofs Fly_Proofs2 Fly_Proofs3 Fly_Proofs4 Fly_Proofs5 Fly_Proofs6 Fly_Props
  Flc_Props Flz_Model Flz_Spec Flz_Proofs Flz_Proofs2 Flz_Props Flg_Cases Near_Spec Near_Props.
Import ListNotations.
Open Scope R_scope.
#[local] Strategy 1000 [fmul fadd fsub fdiv fneg of_Z].

(** ** C185: altitudes in floating point *)
Lemma feet unit positions : (forall p, In p positions -> not_below (place unit p)) ->
  exists (foot : nat -> vec) (height : nat -> R), forall i p, nth_error positions i = Some p -> above (foot i) (height i) (place unit p) /\ 0 <= height i.
Proof.
  induction positions as [|p l IH]; intros H; [exists (fun _ => V 0 0 0), (fun _ => 0); intros [|i] p E; discriminate|].
  destruct (IH ltac:(intros; apply H; now right)) as (foot & height & K). destruct (foot_exists _ (H p ltac:(now left))) as (f & h & P & H0).
  exists (fun i => match i with O => f | S i => foot i end), (fun i => match i with O => h | S i => height i end). intros [|i] q E; cbn [nth_error] in E; [injection E as <-; auto|]. exact (K i q E).
Qed.
Theorem C185_float_altitude_distance :
  forall (L : arrays) (J : geodesy), accurate_arrays L -> accurate_geodesy J ->
  forall unit positions, measures unit = Lengths -> positions <> [] -> (Z.of_nat (length positions) <= 2 ^ 40)%Z ->
    (forall p, In p positions -> finite_vec p /\ not_below (place unit p) /\ off_axis (place unit p) /\ clear_of_poles (place unit p)) ->
    exists steps result, faltitude L J unit positions steps result /\ (steps <= 6)%nat /\
      (forall steps' result', faltitude L J unit positions steps' result' -> steps' = steps /\ result' = result) /\
      length result = length positions /\
      forall i p x d, nth_error positions i = Some p -> nth_error result i = Some x -> distance_to_ellipsoid (place unit p) d ->
        finite x /\ Rabs (value x - d) < 10.71 /\ (steps <> 0%nat -> Rabs (value x - d) < 0.501).
Proof.
  intros L J HL HJ unit positions U NE LE H. destruct (feet unit positions ltac:(intros p I; apply H, I)) as (foot & height & K).
  destruct (C155_float_altitude L J HL HJ unit positions foot height U NE LE) as (steps & result & R1 & R2 & R3 & R4 & R5).
  { intros i p E. destruct (K i p E) as (K1 & K2). destruct (H p (nth_error_In _ _ E)) as (H1 & _ & H2 & H3). auto. }
  exists steps, result. split; auto. split; auto. split; auto. split; auto. intros i p x d E X D. destruct (K i p E) as (K1 & K2). rewrite <- (distance_above _ _ _ _ D K1 K2). exact (R5 i x X).
Qed.

(** ** C186: altitudes of satellites given in the GCRS frame *)
Lemma place_km unit p : place unit p = exact_km unit p.
Proof. unfold place, exact_km, times, vector. cbn [vx vy vz]. f_equal; field. Qed.
Lemma apart_norm u v : apart u v = norm (sub u v).
Proof. unfold apart, norm, dot, sub. cbn [vx vy vz]. f_equal. ring. Qed.
(** Moving a point changes its distance to the ellipsoid by no more than the move. *)
Lemma distance_moves u v d e : distance_to_ellipsoid u d -> distance_to_ellipsoid v e -> Rabs (d - e) <= norm (sub u v).
Proof.
  intros ((f & F1 & F2) & F3) ((g & G1 & G2) & G3). specialize (F3 g G1). specialize (G3 f F1). rewrite !apart_norm in *.
  pose proof (Flr_Proofs.norm_tri u v g) as T1. pose proof (Flr_Proofs.norm_tri v u f) as T2.
  assert (norm (sub v u) = norm (sub u v)) by (unfold norm, dot, sub; cbn [vx vy vz]; f_equal; ring). apply Rabs_le. lra.
Qed.
Lemma high_not_below v : 6379 <= norm v -> not_below v.
Proof.
  intros N. pose proof A_val as VA. pose proof B_val as VB. unfold not_below. rewrite wa, wb. unfold norm, dot in N.
  assert (Q : 6379 * 6379 <= vx v * vx v + vy v * vy v + vz v * vz v).
  { rewrite <- (sqrt_sqrt (vx v * vx v + vy v * vy v + vz v * vz v)) by nra. apply Rmult_le_compat; lra. }
  assert (I1 : 0 < / A ^ 2) by (apply Rinv_0_lt_compat; nra). assert (I2 : / A ^ 2 <= / B ^ 2) by (apply Rinv_le_contravar; nra).
  assert (Z : vz v ^ 2 / A ^ 2 <= vz v ^ 2 / B ^ 2) by (apply Rmult_le_compat_l; [apply pow2_ge_0|exact I2]).
  assert (1 <= (vx v ^ 2 + vy v ^ 2 + vz v ^ 2) / A ^ 2); [|unfold Rdiv in *; lra].
  apply Rmult_le_reg_r with (A ^ 2); [nra|]. unfold Rdiv. rewrite Rmult_assoc, Rinv_l by nra. nra.
Qed.
Definition from_axis (v : vec) : R := sqrt (vx v ^ 2 + vy v ^ 2).
Lemma from_axis_moves u v : from_axis v <= from_axis u + norm (sub u v).
Proof.
  pose proof (Flr_Proofs.norm_tri (V (vx v) (vy v) 0) (V (vx u) (vy u) 0) (V 0 0 0)) as T.
  assert (E : forall w, norm (sub (V (vx w) (vy w) 0) (V 0 0 0)) = from_axis w) by (intros w; unfold norm, dot, sub, from_axis; cbn [vx vy vz]; f_equal; ring). rewrite !E in T.
  assert (norm (sub (V (vx v) (vy v) 0) (V (vx u) (vy u) 0)) <= norm (sub u v)); [|lra]. unfold norm, dot, sub. cbn [vx vy vz]. apply sqrt_le_1_alt. pose proof (Rle_0_sqr (vz u - vz v)) as Q. unfold Rsqr in Q. lra.
Qed.
Lemma vz_moves u v : Rabs (vz v) <= Rabs (vz u) + norm (sub u v).
Proof.
  assert (K : Rabs (vz v - vz u) <= norm (sub u v)).
  { unfold norm, dot, sub. cbn [vx vy vz]. rewrite <- sqrt_Rsqr_abs. apply sqrt_le_1_alt. unfold Rsqr. pose proof (Rle_0_sqr (vx u - vx v)) as Q1. pose proof (Rle_0_sqr (vy u - vy v)) as Q2. unfold Rsqr in Q1, Q2. lra. }
  pose proof (Rabs_triang (vz u) (vz v - vz u)) as T. replace (vz u + (vz v - vz u)) with (vz v) in T by ring. lra.
Qed.
Lemma norm_split v : norm v <= from_axis v + Rabs (vz v).
Proof.
  assert (Q : vx v ^ 2 + vy v ^ 2 = from_axis v * from_axis v) by (unfold from_axis; rewrite sqrt_sqrt; [reflexivity|nra]). assert (W : vz v * vz v = Rabs (vz v) * Rabs (vz v)) by (rewrite <- Rabs_mult, Rabs_pos_eq; [reflexivity|nra]).
  assert (0 <= from_axis v) by apply sqrt_pos. pose proof (Rabs_pos (vz v)). unfold norm, dot. rewrite <- (sqrt_square (from_axis v + Rabs (vz v))) by lra. apply sqrt_le_1_alt. pose proof (Rmult_le_pos (from_axis v) (Rabs (vz v)) ltac:(assumption) ltac:(assumption)). lra.
Qed.
(** [sat] is where the exact conversion puts the satellite. *)
Definition away_from_poles (v : vec) : Prop := Rabs (vz v) <= 999 * sqrt (vx v ^ 2 + vy v ^ 2).
Lemma celestial_ok A jd v unit sat : accurate_arrays A -> dated jd -> within_km 6380 99999 unit v -> placed unit jd v sat -> away_from_poles sat ->
  let p := fgcrs_to_itrs A jd v in
  finite_vec p /\ not_below (place unit p) /\ off_axis (place unit p) /\ clear_of_poles (place unit p) /\ not_below sat /\ norm (sub (place unit p) sat) <= 0.00061.
Proof.
  intros G D W P C p. destruct (placed_near A jd v unit sat 6380 99999 G D W ltac:(lra) ltac:(lra) P) as (F & N & M). fold p in F, M. destruct W as (_ & _ & _ & _ & W). rewrite <- N in W. rewrite place_km. set (q := exact_km unit p) in *.
  split; [exact F|]. set (e := norm (sub q sat)) in *.
  assert (X : Rabs (norm q - norm sat) <= e) by apply Flg_Proofs.norm_near. apply Flg_Proofs.Rabs_le_inv in X.
  assert (Sy : norm (sub sat q) = e) by (unfold e, norm, dot, sub; cbn [vx vy vz]; f_equal; ring).
  pose proof (from_axis_moves q sat) as FA. fold e in FA. pose proof (vz_moves sat q) as VZ. rewrite Sy in VZ. pose proof (norm_split sat) as NS. unfold away_from_poles in C. fold (from_axis sat) in C.
  assert (E0 : 0 <= e) by apply sqrt_pos. assert (E1 : e <= 0.00061) by lra. assert (R0 : 6.38 <= from_axis sat) by lra.
  assert (E2 : e <= 601 / 10 ^ 11 * (1000 * from_axis sat)) by (apply Rle_trans with (1 := M); apply Rmult_le_compat_l; lra).
  clearbody e. split; [apply high_not_below; lra|]. split.
  { destruct (Req_dec (vx q) 0) as [Z1|Z1]; [|now left]. destruct (Req_dec (vy q) 0) as [Z2|Z2]; [|now right]. exfalso.
    assert (from_axis q = 0); [|lra]. unfold from_axis. rewrite Z1, Z2. replace (0 ^ 2 + 0 ^ 2) with 0 by ring. apply sqrt_0. }
  split; [|split; [apply high_not_below; lra|exact E1]]. split; [lra|]. fold (from_axis q). lra.
Qed.
Theorem C186_celestial_altitude :
  forall (L : arrays) (J : geodesy), accurate_arrays L -> accurate_geodesy J ->
  forall unit julian points, length julian = length points -> points <> [] -> (Z.of_nat (length points) <= 2 ^ 40)%Z ->
    (forall i jd p, nth_error julian i = Some jd -> nth_error points i = Some p ->
       dated jd /\ within_km 6380 99999 unit p /\ forall sat, placed unit jd p sat -> away_from_poles sat) ->
    exists steps result, faltitude L J unit (fitrs_positions L julian points) steps result /\ (steps <= 6)%nat /\
      (forall steps' result', faltitude L J unit (fitrs_positions L julian points) steps' result' -> steps' = steps /\ result' = result) /\
      length result = length points /\
      forall i jd p sat x, nth_error julian i = Some jd -> nth_error points i = Some p -> placed unit jd p sat -> nth_error result i = Some x ->
        exists d, distance_to_ellipsoid sat d /\ finite x /\ Rabs (value x - d) < 10.711 /\ (steps <> 0%nat -> Rabs (value x - d) < 0.502).
Proof.
  intros L J HL HJ unit julian points LN NE LE H.
  assert (LI : length (fitrs_positions L julian points) = length points) by (unfold fitrs_positions; rewrite map_length, combine_length; lia).
  assert (NT : forall i q, nth_error (fitrs_positions L julian points) i = Some q -> exists jd p, nth_error julian i = Some jd /\ nth_error points i = Some p /\ q = fgcrs_to_itrs L jd p).
  { clear. unfold fitrs_positions. revert points. induction julian as [|j l IH]; intros [|p points] [|i] q E; cbn [combine map nth_error] in E; try discriminate; [injection E as <-; exists j, p; auto|]. exact (IH points i q E). }
  assert (NT2 : forall i jd p, nth_error julian i = Some jd -> nth_error points i = Some p -> nth_error (fitrs_positions L julian points) i = Some (fgcrs_to_itrs L jd p)).
  { clear. unfold fitrs_positions. revert points. induction julian as [|j l IH]; intros [|p points] [|i] jd q E1 E2; cbn [combine map nth_error] in *; try discriminate; [injection E1 as <-; injection E2 as <-; reflexivity|]. exact (IH points i jd q E1 E2). }
  assert (U : measures unit = Lengths). { destruct points as [|p points]; [congruence|]. destruct julian as [|j julian]; [discriminate|]. destruct (H 0%nat j p eq_refl eq_refl) as (_ & (U & _) & _). exact U. }
  destruct (C185_float_altitude_distance L J HL HJ unit (fitrs_positions L julian points) U) as (steps & result & R1 & R2 & R3 & R4 & R5).
  - intros E. rewrite E in LI. destruct points; [congruence|discriminate].
  - now rewrite LI.
  - intros q I. apply In_nth_error in I. destruct I as (i & I). destruct (NT i q I) as (jd & p & Ej & Ep & ->). destruct (H i jd p Ej Ep) as (D & W & C). destruct (placed_exists unit jd p) as (sat & P).
    destruct (celestial_ok L jd p unit sat HL D W P (C sat P)) as (K1 & K2 & K3 & K4 & _). auto.
  - exists steps, result. split; auto. split; auto. split; auto. split; [congruence|]. intros i jd p sat x Ej Ep P X. destruct (H i jd p Ej Ep) as (D & W & C).
    destruct (celestial_ok L jd p unit sat HL D W P (C sat P)) as (_ & K2 & _ & _ & K5 & K6). destruct (C185_nearest_exists _ K2) as (d' & _ & D' & _). destruct (C185_nearest_exists _ K5) as (d & _ & D0 & _).
    exists d. split; auto. destruct (R5 i _ x d' (NT2 i jd p Ej Ep) X D') as (Q1 & Q2 & Q3). split; auto. pose proof (distance_moves _ _ _ _ D' D0) as M. apply Flg_Proofs.Rabs_le_inv in M.
    split; [apply Rabs_def2 in Q2; apply Rabs_def1; lra|]. intros S0. specialize (Q3 S0). apply Rabs_def2 in Q3. apply Rabs_def1; lra.
Qed.

(** A geostationary satellite: the point that the conversion from the ITRS frame gives. *)
Example C185_float_case : forall p, In p two_satellites -> finite_vec p /\ not_below (place Um p) /\ off_axis (place Um p) /\ clear_of_poles (place Um p).
Proof.
  intros p I. destruct C155_case as (_ & _ & _ & _ & foot & height & H). destruct (In_nth_error _ _ I) as (i & E). destruct (H i p E) as (H1 & _ & _ & H2 & H3). split; auto. split; auto.
  destruct (of_Z_ok 7000000 ltac:(lia)) as (F1 & V1). destruct (of_Z_ok 0 ltac:(lia)) as (F0 & V0). destruct (of_Z_ok 4200000 ltac:(lia)) as (F2 & V2). destruct (of_Z_ok 5600000 ltac:(lia)) as (F3 & V3).
  apply high_not_below. apply Rle_trans with 7000; [lra|]. destruct I as [<-|[<-|[]]]; unfold place, times, vector, norm, dot; cbn [fx fy fz vx vy vz size].
  - rewrite V1, V0. rewrite <- (sqrt_square 7000) at 1 by lra. apply sqrt_le_1_alt. lra.
  - rewrite V2, V0, V3. rewrite <- (sqrt_square 7000) at 1 by lra. apply sqrt_le_1_alt. lra.
Qed.
Example C186_case : accurate_arrays best_arrays /\ accurate_geodesy best_geodesy /\ exists p, dated a_date2 /\ within_km 6380 99999 Ukm p /\ forall sat, placed Ukm a_date2 p sat -> away_from_poles sat.
Proof.
  split; [exact best_arrays_accurate|]. split; [exact best_geodesy_accurate|].
  assert (DT : dated a_date2) by (apply dated_literal; lia). set (v := FV (of_Z 42164) (of_Z 0) (of_Z 0)).
  destruct (of_Z_ok 42164 ltac:(lia)) as (F1 & V1). destruct (of_Z_ok 0 ltac:(lia)) as (F0 & V0).
  assert (Fv : finite_vec v) by (split; [exact F1|split; exact F0]). assert (Ev : vector v = V 42164 0 0) by (unfold v, vector; cbn [fx fy fz]; rewrite V1, V0; reflexivity).
  assert (Nv : norm (vector v) = 42164). { rewrite Ev. unfold norm, dot. cbn [vx vy vz]. replace (42164 * 42164 + 0 * 0 + 0 * 0) with (42164 * 42164) by ring. apply sqrt_square. lra. }
  assert (B : 42164 <= 2 ^ 80) by (apply Rle_trans with (2 ^ 20); [lra|apply Rle_pow; [lra|lia]]).
  assert (T : / 2 ^ 800 <= / 10 ^ 20). { apply Rinv_le_contravar; [lra|]. apply Rle_trans with (2 ^ 80); [lra|apply Rle_pow; [lra|lia]]. }
  destruct (C148_float_frames_back _ best_arrays_accurate a_date2 v DT Fv ltac:(lra)) as (_ & w & Ew & _ & Cw).
  destruct (C147_float_frames_keep_distances _ best_arrays_accurate a_date2 v v DT Fv Fv ltac:(lra) ltac:(lra)) as (_ & w' & w'' & Ew' & _ & Nw & _). rewrite Ew in Ew'. injection Ew' as <-.
  destruct (C146_float_frames_close _ best_arrays_accurate unit_name Ukm a_date2 v DT Fv ltac:(lra)) as (_ & _ & w3 & _ & Ew3 & Fw & _). rewrite Ew in Ew3. injection Ew3 as <-.
  rewrite Nv in Cw, Nw. apply Flg_Proofs.Rabs_le_inv in Nw.
  assert (W : within_km 6380 99999 Ukm w). { destruct Fw as (W1 & W2 & W3). repeat (split; auto); rewrite km_exact; lra. }
  exists w. split; [exact DT|]. split; [exact W|]. intros sat P. destruct (placed_near _ a_date2 w Ukm sat 6380 99999 best_arrays_accurate DT W ltac:(lra) ltac:(lra) P) as (_ & N & M). rewrite km_exact in M, N.
  set (q := vector (fgcrs_to_itrs best_arrays a_date2 w)) in *. rewrite Ev in Cw.
  assert (X : norm (sub sat (V 42164 0 0)) <= 1).
  { pose proof (Flr_Proofs.norm_tri sat q (V 42164 0 0)) as Y. assert (norm (sub sat q) = norm (sub q sat)) by (unfold norm, dot, sub; cbn [vx vy vz]; f_equal; ring). lra. }
  pose proof (from_axis_moves sat (V 42164 0 0)) as Y1. pose proof (vz_moves (V 42164 0 0) sat) as Y2. assert (S2 : norm (sub (V 42164 0 0) sat) = norm (sub sat (V 42164 0 0))) by (unfold norm, dot, sub; cbn [vx vy vz]; f_equal; ring). rewrite S2 in Y2.
  cbn [vz] in Y2. rewrite Rabs_R0 in Y2. assert (S3 : from_axis (V 42164 0 0) = 42164). { unfold from_axis. cbn [vx vy]. replace (42164 ^ 2 + 0 ^ 2) with (42164 * 42164) by ring. apply sqrt_square. lra. }
  unfold away_from_poles. fold (from_axis sat). lra.
Qed.
Print Assumptions C185_float_altitude_distance.
Print Assumptions C186_celestial_altitude.
Print Assumptions C185_float_case.
Print Assumptions C186_case.
