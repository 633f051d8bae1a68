(** Theorems on altitudes in floating point: C155, C156. *)
From Coq Require Import List ZArith Reals Lra Lia Psatz.
From Flocq Require Import Core.Core IEEE754.BinarySingleNaN IEEE754.Binary IEEE754.Bits.
From Verif Require Import Py Num Fl_Model Fl_Spec Fl_Proofs Flg_Model Flg_Spec Rot_Model Rot_Spec Geo_Model Geo_Spec Lvlh_Spec Lvlh_Proofs Flg_Proofs Flg_Proofs2 Flg_Proofs3 Flg_Best Geo_Alt Geo_Alt2 Geo_Acc Geo_Props Geo_Foot
  Flc_Model Flc_Spec Flr_Model Flr_Spec Flr_Best Flv_Model Fly_Model Fly_Spec Fly_Proofs Fly_Proofs2 Fly_Proofs3 Fly_Proofs4 Fly_Proofs5 Fly_Proofs6.
Import ListNotations.
Open Scope R_scope.
#[local] Strategy 1000 [fmul fadd fsub fdiv fneg of_Z].

Section Positions.
Variable unit : unit_name.
Variable foot : nat -> vec.
Variable height : nat -> R.
(** Position [i] is at the height [height i] above the point [foot i]. *)
Definition known (i : nat) (p : fvec) : Prop :=
  finite_vec p /\ above (foot i) (height i) (place unit p) /\ 0 <= height i /\ off_axis (place unit p) /\ clear_of_poles (place unit p).
Lemma known_tracked i p : measures unit = Lengths -> known i p -> exists s, fkm unit p = Ok s /\ tracked (place unit p) s.
Proof. intros U (F & A1 & A2 & A3 & C). apply km_tracked; auto. apply outside_far. eapply above_outside; eauto. Qed.
Lemma all_tracked : measures unit = Lengths -> forall positions, Forall (fun p => exists i, known i p) positions ->
  exists points, Forall2 (fun p s => fkm unit p = Ok s) positions points /\ Forall2 tracked (map (place unit) positions) points.
Proof.
  intros U positions K. induction K as [|p l (i & H) K (ss & T1 & T2)]; [exists []; split; constructor|]. destruct (known_tracked i p U H) as (s & E & T). exists (s :: ss). split; constructor; auto.
Qed.
End Positions.
Lemma nth_forall {X} (P : nat -> X -> Prop) l : (forall i x, nth_error l i = Some x -> P i x) -> Forall (fun x => exists i, P i x) l.
Proof. intros H. apply Forall_forall. intros x I. apply In_nth_error in I. destruct I as (i & I). eauto. Qed.
Lemma forall2_nth {X Y} (R1 : X -> Y -> Prop) l k i y : Forall2 R1 l k -> nth_error k i = Some y -> exists x, nth_error l i = Some x /\ R1 x y.
Proof. intros F. revert i. induction F as [|a b l k H F IH]; intros [|i] E; cbn [nth_error] in *; try discriminate; [injection E as <-; eauto|auto]. Qed.
Lemma same_points unit positions p1 : Forall2 (fun p s => fkm unit p = Ok s) positions p1 -> forall p2, Forall2 (fun p s => fkm unit p = Ok s) positions p2 -> p2 = p1.
Proof. intros F. induction F as [|p s l k H F IH]; intros p2 G; inversion G; subst; auto. f_equal; [congruence|auto]. Qed.

(** ** C155: altitudes *)
Theorem C155_float_altitude :
  forall (L : arrays) (J : geodesy), accurate_arrays L -> accurate_geodesy J ->
  forall unit positions (foot : nat -> vec) (height : nat -> R),
    measures unit = Lengths -> positions <> [] -> (Z.of_nat (length positions) <= 2 ^ 40)%Z ->
    (forall i p, nth_error positions i = Some p ->
       finite_vec p /\ above (foot i) (height i) (place unit p) /\ 0 <= height i /\ off_axis (place unit p) /\ clear_of_poles (place unit p)) ->
    exists steps result, faltitude L J unit positions steps result /\ (steps <= 6)%nat /\
      (forall steps' result', faltitude L J unit positions steps' result' -> steps' = steps /\ result' = result) /\
      length result = length positions /\
      forall i x, nth_error result i = Some x ->
        finite x /\ Rabs (value x - height i) < 10.71 /\ (steps <> 0%nat -> Rabs (value x - height i) < 0.501).
Proof.
  intros L J HL HJ unit positions foot height U NE LE H. destruct (all_tracked unit foot height U positions (nth_forall _ _ H)) as (ss & K & T).
  set (vs := map (place unit) positions) in *. assert (LV : length vs = length positions) by apply map_length. assert (NV : vs <> []) by (intros E; apply map_eq_nil in E; contradiction).
  destruct (loop_ends L J HL HJ vs ss 6 0 (map (ffirst_vals J) ss) eq_refl NV ltac:(rewrite LV; exact LE) T (first_all J HJ vs ss T)) as (steps & last & B & R & F).
  exists steps, (map fst last). split; [exists ss; auto|]. split; [exact B|]. split; [|split].
  - intros m q (ss' & K' & R'). rewrite (same_points _ _ _ K _ K') in R'. exact (loop_unique L J _ _ _ _ R _ _ R').
  - rewrite map_length, <- LV. symmetry. eapply f2_length; eassumption.
  - intros i x E. rewrite nth_error_map in E. destruct (nth_error last i) as [e|] eqn:E2; [|discriminate]. cbn [option_map] in E. injection E as <-.
    destruct (forall2_nth _ _ _ _ _ F E2) as (v & Ev & (F1 & E1 & _)). unfold vs in Ev. rewrite nth_error_map in Ev. destruct (nth_error positions i) as [p|] eqn:E3; [|discriminate]. cbn [option_map] in Ev. injection Ev as <-.
    destruct (H i p E3) as (_ & A1 & A2 & A3 & _). destruct (value_near _ _ _ _ _ _ (0 + steps) (above_meridian _ _ _ A1 A2 A3)) as (V1 & V2). pose proof sqrtAB_num. pose proof A_val. split; [exact F1|].
    split; [pose proof (err_trans _ _ _ _ _ E1 V1); lra|]. intros S0. pose proof (err_trans _ _ _ _ _ E1 (V2 ltac:(cbn; exact S0))). lra.
Qed.
(** Above the equator every altitude is 10.7 km too much. *)
Theorem C155_float_altitude_equator :
  forall (L : arrays) (J : geodesy), accurate_arrays L -> accurate_geodesy J ->
  forall unit positions (foot : nat -> vec) (height : nat -> R),
    measures unit = Lengths -> positions <> [] -> (Z.of_nat (length positions) <= 2 ^ 40)%Z ->
    (forall i p, nth_error positions i = Some p ->
       finite_vec p /\ above (foot i) (height i) (place unit p) /\ 0 <= height i /\ off_axis (place unit p) /\ clear_of_poles (place unit p)) ->
    (forall i, vz (foot i) = 0) ->
    forall steps result, faltitude L J unit positions steps result ->
      steps = 0%nat /\ forall i x, nth_error result i = Some x -> 10.7 < value x - height i.
Proof.
  intros L J HL HJ unit positions foot height U NE LE H Z steps result (ss' & K' & R'). destruct (all_tracked unit foot height U positions (nth_forall _ _ H)) as (ss & K & T). rewrite (same_points _ _ _ K _ K') in R'. clear ss' K'.
  set (vs := map (place unit) positions) in *. assert (LV : length vs = length positions) by apply map_length. assert (NV : vs <> []) by (intros E; apply map_eq_nil in E; contradiction).
  assert (ZV : forall i p, nth_error positions i = Some p -> vz (place unit p) = 0).
  { intros i p E. destruct (H i p E) as (_ & (_ & A1) & _). rewrite A1. unfold plus, times, gradient. cbn [vz]. rewrite Z. unfold Rdiv. ring. }
  assert (ZI : forall v, In v vs -> vz v = 0). { intros v I. apply in_map_iff in I. destruct I as (p & <- & I). apply In_nth_error in I. destruct I as (i & I). eauto. }
  pose proof (first_all J HJ vs ss T) as F. pose proof (stop_equator L J HL HJ vs ss _ NV ltac:(rewrite LV; exact LE) T ZI F) as SE.
  destruct (loop_unique L J _ _ _ _ (floop_ends L J ss _ SE) _ _ R') as (-> & ->). split; [reflexivity|].
  intros i x E. rewrite nth_error_map in E. destruct (nth_error _ i) as [e|] eqn:E2; [|discriminate]. cbn [option_map] in E. injection E as <-.
  destruct (forall2_nth _ _ _ _ _ F E2) as (v & Ev & (F1 & E1 & _)). unfold vs in Ev. rewrite nth_error_map in Ev. destruct (nth_error positions i) as [p|] eqn:E3; [|discriminate]. cbn [option_map] in Ev. injection Ev as <-.
  destruct (H i p E3) as (_ & A1 & A2 & A3 & _). set (v := place unit p) in *. pose proof (above_meridian _ _ _ A1 A2 A3) as M. pose proof (meridian_far _ _ _ _ _ _ M) as (P & _).
  pose proof (ZV i p E3) as Z0. fold v in Z0. rewrite Z0 in E1. cbn [hk] in E1. unfold h0 in E1. rewrite equator_rr in E1 by auto. pose proof (star_fix _ _ _ _ _ _ M) as (_ & HS). rewrite Z0 in HS. rewrite equator_h in HS by auto.
  pose proof sqrtAB_num. pose proof A_val. apply Rabs_le_inv in E1. lra.
Qed.

(** ** C156: rounding *)
(** The height and latitude after [k] rounds in exact arithmetic *)
Definition exact_rounds (k : nat) (v : vec) : num * num := Nat.iter k (fun e => new_vals v (snd e)) (first_vals v).
Lemma exact_rounds_eq k v : far_point v -> exact_rounds k v = vals v k.
Proof. intros F. unfold exact_rounds. induction k as [|k IH]; cbn [Nat.iter nat_rect]; [now apply first_vals_eq|]. unfold Nat.iter in IH. rewrite IH. now apply next_vals. Qed.
Theorem C156_float_altitude_rounding :
  forall (L : arrays) (J : geodesy), accurate_arrays L -> accurate_geodesy J ->
  forall unit positions, measures unit = Lengths -> positions <> [] -> (Z.of_nat (length positions) <= 2 ^ 40)%Z ->
    (forall i p, nth_error positions i = Some p -> finite_vec p /\ outside (place unit p) /\ clear_of_poles (place unit p)) ->
    (exists steps result, faltitude L J unit positions steps result /\ (steps <= 6)%nat) /\
    forall steps result, faltitude L J unit positions steps result ->
      length result = length positions /\
      forall i p x, nth_error positions i = Some p -> nth_error result i = Some x ->
        finite x /\ exists h phi, exact_rounds steps (place unit p) = (Fin h, Fin phi) /\ Rabs (value x - h) <= / 10 ^ 6.
Proof.
  intros L J HL HJ unit positions U NE LE H.
  assert (X : exists ss, Forall2 (fun p s => fkm unit p = Ok s) positions ss /\ Forall2 tracked (map (place unit) positions) ss).
  { assert (G : Forall (fun p => finite_vec p /\ outside (place unit p) /\ clear_of_poles (place unit p)) positions) by (apply Forall_forall; intros p I; apply In_nth_error in I; destruct I as (i & I); eauto).
    clear - U G. induction G as [|p l (A1 & A2 & A3) G (ss & T1 & T2)]; [exists []; split; constructor|]. destruct (km_tracked unit p U A1 A3 (outside_far _ A2)) as (s & E & T). exists (s :: ss). split; constructor; auto. }
  destruct X as (ss & K & T).
  set (vs := map (place unit) positions) in *. assert (LV : length vs = length positions) by apply map_length. assert (NV : vs <> []) by (intros E; apply map_eq_nil in E; contradiction).
  destruct (loop_ends L J HL HJ vs ss 6 0 (map (ffirst_vals J) ss) eq_refl NV ltac:(rewrite LV; exact LE) T (first_all J HJ vs ss T)) as (steps & last & B & R & F).
  split; [exists steps, (map fst last); split; [exists ss; auto|exact B]|]. intros steps' result (ss' & K' & R'). rewrite (same_points _ _ _ K _ K') in R'. destruct (loop_unique L J _ _ _ _ R _ _ R') as (-> & ->). split.
  - rewrite map_length, <- LV. symmetry. eapply f2_length; eassumption.
  - intros i p x E3 E. rewrite nth_error_map in E. destruct (nth_error last i) as [e|] eqn:E2; [|discriminate]. cbn [option_map] in E. injection E as <-.
    destruct (forall2_nth _ _ _ _ _ F E2) as (v & Ev & (F1 & E1 & _)). unfold vs in Ev. rewrite nth_error_map, E3 in Ev. cbn [option_map] in Ev. injection Ev as <-.
    destruct (H i p E3) as (_ & O & _). split; [exact F1|]. rewrite exact_rounds_eq by now apply outside_far. unfold vals. cbv zeta. do 2 eexists. split; [reflexivity|]. cbn [Nat.add] in E1. lra.
Qed.

(** When the loop stops: the averages of the changes of height and latitude in the next round are then both small,
    and before every round that was made one of them was not. *)
Theorem C156_float_altitude_stop :
  forall (L : arrays) (J : geodesy), accurate_arrays L -> accurate_geodesy J ->
  forall unit positions, measures unit = Lengths -> positions <> [] -> (Z.of_nat (length positions) <= 2 ^ 16)%Z ->
    (forall i p, nth_error positions i = Some p -> finite_vec p /\ outside (place unit p) /\ clear_of_poles (place unit p)) ->
    forall height latitude : nat -> fvec -> R,
    (forall k p, In p positions -> exact_rounds k (place unit p) = (Fin (height k p), Fin (latitude k p))) ->
    forall steps result, faltitude L J unit positions steps result ->
      (average (map (fun p => height (S steps) p - height steps p) positions) <= 9 / 10 ^ 6 /\
       average (map (fun p => latitude (S steps) p - latitude steps p) positions) <= 1.1 / 10 ^ 9) /\
      forall k, (k < steps)%nat ->
        4 / 10 ^ 6 <= average (map (fun p => height (S k) p - height k p) positions) \/
        0.9 / 10 ^ 9 <= average (map (fun p => latitude (S k) p - latitude k p) positions).
Proof.
  intros L J HL HJ unit positions U NE LE H height latitude EX.
  assert (X : exists ss, Forall2 (fun p s => fkm unit p = Ok s) positions ss /\ Forall2 tracked (map (place unit) positions) ss).
  { assert (G : Forall (fun p => finite_vec p /\ outside (place unit p) /\ clear_of_poles (place unit p)) positions) by (apply Forall_forall; intros p I; apply In_nth_error in I; destruct I as (i & I); eauto).
    clear - U G. induction G as [|p l (A1 & A2 & A3) G (ss & T1 & T2)]; [exists []; split; constructor|]. destruct (km_tracked unit p U A1 A3 (outside_far _ A2)) as (s & E & T). exists (s :: ss). split; constructor; auto. }
  destruct X as (ss & K & T). intros steps result (ss' & K' & R'). rewrite (same_points _ _ _ K _ K') in R'. clear ss' K'.
  set (vs := map (place unit) positions) in *. assert (LV : length vs = length positions) by apply map_length. assert (NV : vs <> []) by (intros E; apply map_eq_nil in E; contradiction).
  destruct (loop_trace L J HL HJ vs ss _ _ _ R' NV ltac:(rewrite LV; exact LE) T 0 (first_all J HJ vs ss T)) as (S1 & S2).
  assert (P : forall k p, In p positions -> height k p = hk (axis_distance (place unit p)) (vz (place unit p)) k /\ latitude k p = angle_at k (place unit p)).
  { intros k p I. pose proof (EX k p I) as E. apply In_nth_error in I. destruct I as (i & I). destruct (H i p I) as (_ & O & _). rewrite exact_rounds_eq in E by now apply outside_far. unfold vals in E. cbv zeta in E. injection E as E1 E2. split; symmetry; assumption. }
  assert (Q1 : forall k, map (height_change k) vs = map (fun p => height (S k) p - height k p) positions).
  { intros k. unfold vs. rewrite map_map. apply map_ext_in. intros p I. destruct (P k p I) as (-> & _). destruct (P (S k) p I) as (-> & _). reflexivity. }
  assert (Q2 : forall k, map (angle_change k) vs = map (fun p => latitude (S k) p - latitude k p) positions).
  { intros k. unfold vs. rewrite map_map. apply map_ext_in. intros p I. destruct (P k p I) as (_ & ->). destruct (P (S k) p I) as (_ & ->). reflexivity. }
  unfold settled in S1. cbn [Nat.add] in S1. rewrite Q1, Q2 in S1. split; [lra|]. intros k Hk. specialize (S2 k Hk). unfold moving in S2. cbn [Nat.add] in S2. rewrite Q1, Q2 in S2. destruct S2; [left|right]; lra.
Qed.

(** ** Cases *)
Definition best_geodesy : geodesy := Geodesy (fun x => to_float (value x ^ 2)) (fun x => to_float (atan (value x))) (fun l => to_float (total l / INR (length l))).
Lemma total_ge l m : (forall x, In x l -> Rabs (value x) <= m) -> Rabs (total l) <= m * INR (length l).
Proof.
  induction l as [|x l IH]; intros H; cbn [total fold_right length]; [cbn; rewrite Rabs_R0; lra|]. rewrite S_INR. fold (total l). specialize (IH ltac:(intros; apply H; now right)). specialize (H x ltac:(now left)).
  eapply Rle_trans; [apply Rabs_triang|]. lra.
Qed.
Lemma best_geodesy_accurate : accurate_geodesy best_geodesy.
Proof.
  pose proof uu16 as U. constructor; cbn [best_geodesy g_square g_arctan g_mean].
  - intros x F (B1 & B2). assert (X0 : 0 <= value x ^ 2) by apply pow2_ge_0. assert (AX : value x ^ 2 = Rabs (value x) * Rabs (value x)) by (rewrite <- Rabs_mult, Rabs_pos_eq by nra; ring).
    assert (HI : value x ^ 2 <= bpow radix2 200). { rewrite AX. replace (bpow radix2 200) with (2 ^ 100 * 2 ^ 100) by (rewrite pow_bpow, <- bpow_plus; reflexivity). apply Rmult_le_compat; auto using Rabs_pos. }
    assert (LO : bpow radix2 (-1022) <= value x ^ 2). { rewrite AX. apply Rle_trans with (bpow radix2 (-200)); [apply bpow_le; lia|]. replace (bpow radix2 (-200)) with (/ 2 ^ 100 * / 2 ^ 100) by (rewrite pow_bpow, <- bpow_opp, <- bpow_plus; reflexivity).
      assert (0 < / 2 ^ 100) by (apply Rinv_0_lt_compat, pow_lt; lra). apply Rmult_le_compat; lra. }
    destruct (to_float_ok (value x ^ 2)) as (F1 & V1); [rewrite Rabs_pos_eq by auto; apply Rle_trans with (1 := HI), bpow_le; lia|]. split; [exact F1|]. change (nearest ?a) with (rnd a) in V1. rewrite V1.
    destruct (rnd_rel (value x ^ 2)) as (e & He & ->); [rewrite Rabs_pos_eq; auto|]. replace (value x ^ 2 * (1 + e) - value x ^ 2) with (e * value x ^ 2) by ring. rewrite Rabs_mult, (Rabs_pos_eq (value x ^ 2)) by auto. rewrite pow51. apply Rmult_le_compat_r; lra.
  - intros x F. pose proof (atan_bound (value x)) as AB. pose proof PI_4 as P4. assert (A2 : Rabs (atan (value x)) <= 2) by (apply Rabs_le; lra).
    destruct (to_float_ok (atan (value x))) as (F1 & V1); [apply small_abs; lra|]. split; [exact F1|]. change (nearest ?a) with (rnd a) in V1. rewrite V1. pose proof (rnd_mul_err (atan (value x))) as R. pose proof ee_lt. rewrite pow50. assert (uu * Rabs (atan (value x)) <= uu * 2) by (apply Rmult_le_compat_l; lra). lra.
  - intros l m NE LE M H. assert (N : 0 < INR (length l)) by (apply lt_0_INR; destruct l; [congruence|cbn; lia]).
    assert (T : Rabs (total l / INR (length l)) <= m).
    { unfold Rdiv. rewrite Rabs_mult, Rabs_inv, (Rabs_pos_eq (INR _)) by lra. apply Rmult_le_reg_r with (INR (length l)); auto. rewrite Rmult_assoc, Rinv_l by lra. rewrite Rmult_1_r. apply total_ge. intros x I. apply H, I. }
    destruct (to_float_ok (total l / INR (length l))) as (F1 & V1). { apply Rle_trans with (1 := T). apply Rle_trans with (1 := M). rewrite two_pow_900. apply bpow_le. lia. }
    split; [exact F1|]. change (nearest ?a) with (rnd a) in V1. rewrite V1. pose proof (rnd_mul_err (total l / INR (length l))) as R. eapply Rle_trans; [exact R|].
    assert (M0 : 0 <= m) by (apply Rle_trans with (2 := T); apply Rabs_pos). apply Rplus_le_compat.
    + apply Rle_trans with (uu * m); [apply Rmult_le_compat_l; lra|]. assert (N1 : 1 <= INR (length l)) by (apply (le_INR 1); destruct l; [congruence|cbn; lia]). assert (m * 1 <= m * INR (length l)) by (apply Rmult_le_compat_l; lra). assert (P52 : / 2 ^ 52 = / 2 * / 2 ^ 51) by field. unfold Rdiv. rewrite P52, pow51. rewrite (Rmult_comm uu). apply Rmult_le_compat; lra.
    + unfold ee. replace (/ 2 ^ 1000) with (bpow radix2 (-1000)) by (rewrite pow_bpow, <- bpow_opp; reflexivity). apply bpow_le. lia.
Qed.
(** Two satellites, one of them above the equator, in metres. *)
Definition two_satellites : list fvec := [FV (of_Z 7000000) (of_Z 0) (of_Z 0); FV (of_Z 4200000) (of_Z 0) (of_Z 5600000)].
Example C155_case : accurate_arrays best_arrays /\ accurate_geodesy best_geodesy /\ measures Um = Lengths /\ (Z.of_nat (length two_satellites) <= 2 ^ 40)%Z /\
  exists foot height, forall i p, nth_error two_satellites i = Some p ->
    finite_vec p /\ above (foot i) (height i) (place Um p) /\ 0 <= height i /\ off_axis (place Um p) /\ clear_of_poles (place Um p).
Proof.
  split; [exact best_arrays_accurate|]. split; [exact best_geodesy_accurate|]. split; [reflexivity|]. split; [cbn; lia|].
  destruct (of_Z_ok 7000000 ltac:(lia)) as (F1 & V1). destruct (of_Z_ok 0 ltac:(lia)) as (F0 & V0). destruct (of_Z_ok 4200000 ltac:(lia)) as (F2 & V2). destruct (of_Z_ok 5600000 ltac:(lia)) as (F3 & V3). pose proof A_val as VA. pose proof B_val as VB.
  assert (E1 : place Um (FV (of_Z 7000000) (of_Z 0) (of_Z 0)) = V 7000 0 0) by (unfold place, times, vector; cbn [fx fy fz vx vy vz size]; rewrite V1, V0; f_equal; field).
  assert (E2 : place Um (FV (of_Z 4200000) (of_Z 0) (of_Z 5600000)) = V 4200 0 5600) by (unfold place, times, vector; cbn [fx fy fz vx vy vz size]; rewrite V2, V0, V3; f_equal; field).
  assert (D : forall x d y, 0 < d -> y * d <= x -> y <= x / d). { intros x d y D H. apply Rmult_le_reg_r with d; auto. unfold Rdiv. rewrite Rmult_assoc, Rinv_l by lra. lra. }
  assert (N1 : not_below (V 7000 0 0)). { unfold not_below. cbn [vx vy vz]. rewrite wa, wb, VA, VB. pose proof (D (7000 ^ 2 + 0 ^ 2) (6378.137 ^ 2) 1 ltac:(lra) ltac:(lra)). pose proof (D (0 ^ 2) (6356.752314245 ^ 2) 0 ltac:(lra) ltac:(lra)). lra. }
  assert (N2 : not_below (V 4200 0 5600)). { unfold not_below. cbn [vx vy vz]. rewrite wa, wb, VA, VB. pose proof (D (4200 ^ 2 + 0 ^ 2) (6378.137 ^ 2) 0.43 ltac:(lra) ltac:(lra)). pose proof (D (5600 ^ 2) (6356.752314245 ^ 2) 0.77 ltac:(lra) ltac:(lra)). lra. }
  destruct (foot_exists _ N1) as (f1 & h1 & A1 & H1). destruct (foot_exists _ N2) as (f2 & h2 & A2 & H2).
  exists (fun i => match i with O => f1 | _ => f2 end), (fun i => match i with O => h1 | _ => h2 end).
  intros [|[|i]] p E; cbn [nth_error two_satellites] in E; [| |destruct i; discriminate]; injection E as <-.
  - rewrite E1. split; [split; [exact F1|split; [exact F0|exact F0]]|]. split; [exact A1|]. split; [exact H1|]. split; [left; cbn; lra|]. split.
    + unfold norm, dot. cbn [vx vy vz]. replace (7000 * 7000 + 0 * 0 + 0 * 0) with (7000 * 7000) by ring. rewrite sqrt_square; lra.
    + cbn [vx vy vz]. rewrite Rabs_R0. pose proof (sqrt_pos (7000 ^ 2 + 0 ^ 2)). lra.
  - rewrite E2. split; [split; [exact F2|split; [exact F0|exact F3]]|]. split; [exact A2|]. split; [exact H2|]. split; [left; cbn; lra|]. split.
    + unfold norm, dot. cbn [vx vy vz]. replace (4200 * 4200 + 0 * 0 + 5600 * 5600) with (7000 * 7000) by ring. rewrite sqrt_square; lra.
    + cbn [vx vy vz]. replace (4200 ^ 2 + 0 ^ 2) with (4200 * 4200) by ring. rewrite sqrt_square by lra. rewrite Rabs_pos_eq; lra.
Qed.
(** The functions that the theorem on the stop of the loop speaks of exist for all positions outside the ellipsoid. *)
Example C156_stop_case : exists height latitude : nat -> fvec -> R, forall k p, In p two_satellites -> exact_rounds k (place Um p) = (Fin (height k p), Fin (latitude k p)).
Proof.
  destruct C155_case as (_ & _ & _ & _ & foot & height & H). exists (fun k p => hk (axis_distance (place Um p)) (vz (place Um p)) k), (fun k p => angle_at k (place Um p)). intros k p I.
  apply In_nth_error in I. destruct I as (i & I). destruct (H i p I) as (_ & A1 & A2 & A3 & _). rewrite exact_rounds_eq; [reflexivity|]. apply outside_far. eapply above_outside; eauto.
Qed.
(** The hypotheses of the theorem on the equator *)
Example C155_equator_case : let p := FV (of_Z 7000000) (of_Z 0) (of_Z 0) in let foot := V wgs84_a 0 0 in
  finite_vec p /\ above foot (7000 - wgs84_a) (place Um p) /\ 0 <= 7000 - wgs84_a /\ off_axis (place Um p) /\ clear_of_poles (place Um p) /\ vz foot = 0.
Proof.
  cbv zeta. destruct (of_Z_ok 7000000 ltac:(lia)) as (F1 & V1). destruct (of_Z_ok 0 ltac:(lia)) as (F0 & V0). pose proof A_val as VA. pose proof B_val as VB.
  assert (E1 : place Um (FV (of_Z 7000000) (of_Z 0) (of_Z 0)) = V 7000 0 0) by (unfold place, times, vector; cbn [fx fy fz vx vy vz size]; rewrite V1, V0; f_equal; field). rewrite E1, wa.
  split; [split; [exact F1|split; [exact F0|exact F0]]|]. split; [|split; [lra|split; [left; cbn; lra|split; [split|reflexivity]]]].
  - split; [unfold on_ellipsoid; cbn [vx vy vz]; rewrite wa, wb; field; lra|]. assert (G : norm (gradient (V A 0 0)) = 1 / A).
    { unfold norm, dot, gradient. cbn [vx vy vz]. rewrite wa, wb. rewrite <- (sqrt_square (1 / A)) by (apply Rlt_le, Rdiv_lt_0_compat; lra). f_equal. field. lra. }
    rewrite G. unfold plus, times, gradient. cbn [vx vy vz]. rewrite wa, wb. f_equal; field; lra.
  - unfold norm, dot. cbn [vx vy vz]. replace (7000 * 7000 + 0 * 0 + 0 * 0) with (7000 * 7000) by ring. rewrite sqrt_square; lra.
  - cbn [vx vy vz]. rewrite Rabs_R0. pose proof (sqrt_pos (7000 ^ 2 + 0 ^ 2)). lra.
Qed.
Print Assumptions C155_float_altitude.
Print Assumptions C156_float_altitude_rounding.
Print Assumptions C156_float_altitude_stop.
Print Assumptions C155_float_altitude_equator.
Print Assumptions C155_case.
