(** Theorems on what an altitude depends on: C86, C87. *)
From Coq Require Import List Reals Arith Bool Lia Lra Psatz.
From Verif Require Import Py PyLemmas Num Time_Model Rot_Model Rot_Spec Rot_Proofs Geo_Model Geo_Spec Geo_Alt Geo_Alt2 Geo_Acc Geo_Num Geo_Props.
Import ListNotations.
Open Scope R_scope.
Open Scope list_scope.

Lemma in_km_size t l : length t = length l -> of_size (length l) (in_km t l).
Proof. intros E. unfold of_size, in_km. cbn [p_time p_x p_y p_z]. now rewrite !map_length. Qed.
Lemma in_km_points t l : km_points (in_km t l) = Ok l.
Proof.
  unfold km_points, in_km, columns. cbn [p_x p_y p_z p_unit]. rewrite !map_length, Nat.eqb_refl. cbn [andb]. f_equal.
  induction l as [|v l IH]; [reflexivity|]. cbn [map combine fst snd]. f_equal; [|exact IH].
  destruct v as [x y z]. unfold to_km. cbn [vx vy vz]. f_equal; field.
Qed.
Lemma in_km_altitude t l result : satellite_altitude (in_km t l) result <-> altitude_loop l (map first_vals l) result.
Proof.
  unfold satellite_altitude, altitude_returns. rewrite in_km_points. split.
  - intros (k & E & L). injection E as <-. exact L.
  - intros L. eauto.
Qed.
Lemma km_of_in_km t l i : (i < length l)%nat -> kilometres (in_km t l) i = nth i l (V 0 0 0).
Proof.
  intros I. unfold kilometres, in_km, point, times. cbn [p_unit p_x p_y p_z vx vy vz].
  assert (N : forall f : vec -> R, nth i (map f l) 0 = f (nth i l (V 0 0 0))).
  { intros f. rewrite (nth_indep _ 0 (f (V 0 0 0))) by now rewrite map_length. apply map_nth. }
  rewrite !N. destruct (nth i l (V 0 0 0)) as [x y z]. cbn [vx vy vz]. f_equal; field.
Qed.

(** ** C86: a point's altitude and the other points of the array *)

(** Whatever the rest of the two arrays, the altitudes of a point differ by less than 11.3 km. *)
Theorem C86_altitude_alone_partial :
  forall m n a b foot h i j ra rb,
    of_size m a -> of_size n b ->
    (forall k, (k < m)%nat -> outside (kilometres a k)) -> (forall k, (k < n)%nat -> outside (kilometres b k)) ->
    (i < m)%nat -> (j < n)%nat -> kilometres b j = kilometres a i ->
    above foot h (kilometres a i) -> 0 <= h ->
    satellite_altitude a ra -> satellite_altitude b rb ->
    exists x y, nth i ra NaN = Fin x /\ nth j rb NaN = Fin y /\ Rabs (x - y) < 11.3.
Proof.
  intros m n a b foot h i j ra rb SA SB OA OB I J E P H RA RB.
  apply (altitude_iff m) in RA; auto. apply (altitude_iff n) in RB; auto.
  assert (FA : Forall far_point (km_list m a)) by (apply km_forall; intros; apply outside_far; auto).
  assert (FB : Forall far_point (km_list n b)) by (apply km_forall; intros; apply outside_far; auto).
  rewrite first_states in RA, RB by auto.
  destruct (loop_result _ _ _ FA RA) as (u & _ & ->). destruct (loop_result _ _ _ FB RB) as (w & _ & ->).
  rewrite !km_nth by auto. rewrite E. do 2 eexists. do 2 (split; [reflexivity|]).
  pose proof (above_meridian _ _ _ P H (proj1 (OA i I))) as M.
  destruct (value_near _ _ _ _ _ _ u M) as (U1 & U2). destruct (value_near _ _ _ _ _ _ w M) as (W1 & W2).
  pose proof sqrtAB_num. pose proof A_val.
  set (p := axis_distance (kilometres a i)) in *. set (z := vz (kilometres a i)) in *.
  destruct (Nat.eq_dec u w) as [<-|NE]. { rewrite Rminus_eq_0, Rabs_R0. lra. }
  replace (hk p z u - hk p z w) with ((hk p z u - h) + (h - hk p z w)) by ring.
  eapply Rle_lt_trans; [apply Rabs_triang|]. rewrite (Rabs_minus_sym h).
  destruct u as [|u], w as [|w]; try congruence; try (specialize (U2 ltac:(congruence))); try (specialize (W2 ltac:(congruence))); lra.
Qed.
Lemma mean_one x : n_mean [Fin x] = Fin x.
Proof. unfold n_mean. cbn [n_sum fold_right n_add length INR]. rewrite div_fin by lra. f_equal. field. Qed.
Lemma mean_three x y z : n_mean [Fin x; Fin y; Fin z] = Fin ((x + y + z) / 3).
Proof. unfold n_mean. cbn [n_sum fold_right n_add length INR]. rewrite div_fin by lra. f_equal. field. Qed.
Lemma lt_fin x y : x < y -> n_lt (Fin x) (Fin y) = true.
Proof. intros L. unfold n_lt. now destruct (Rlt_dec x y). Qed.
Lemma lt_fin_false x y : y <= x -> n_lt (Fin x) (Fin y) = false.
Proof. intros L. unfold n_lt. destruct (Rlt_dec x y); [lra|reflexivity]. Qed.
Lemma axis_x x z : 0 < x -> axis_distance (V x 0 z) = x.
Proof. intros X. unfold axis_distance. cbn [vx vy]. replace (x ^ 2 + 0 ^ 2) with (x * x) by ring. apply sqrt_square. lra. Qed.
(** The altitude of a point of the equator alone is not the one it has in an array with two
    more points. *)
Theorem C86_altitude_alone_refuted :
  exists p q x, outside p /\ outside q /\
    satellite_altitude (in_km [0] [p]) [Fin x] /\
    forall result, satellite_altitude (in_km [0; 0; 0] [p; q; q]) result -> exists y, nth 0 result NaN = Fin y /\ 10 < x - y.
Proof.
  set (p := V 7000 0 0). set (q := V 1960 0 6720). exists p, q, (h0 7000 0).
  assert (NP : norm p = 7000). { unfold norm, dot, p. cbn [vx vy vz]. replace (7000 * 7000 + 0 * 0 + 0 * 0) with (7000 * 7000) by ring. apply sqrt_square. lra. }
  assert (NQ : norm q = 7000). { unfold norm, dot, q. cbn [vx vy vz]. replace (1960 * 1960 + 0 * 0 + 6720 * 6720) with (7000 * 7000) by lra. apply sqrt_square. lra. }
  assert (OP : outside p). { split; [left; cbn; lra|]. rewrite NP, wb, B_val. lra. }
  assert (OQ : outside q). { split; [left; cbn; lra|]. rewrite NQ, wb, B_val. lra. }
  assert (FP : far_point p) by now apply outside_far. assert (FQ : far_point q) by now apply outside_far.
  assert (AP : axis_distance p = 7000) by (apply axis_x; lra). assert (AQ : axis_distance q = 1960) by (apply axis_x; lra).
  assert (RP : rr 7000 0 = 7000) by (apply equator_rr; lra).
  pose proof sqrtAB_num as AB. pose proof A_val as HA. do 2 (split; [assumption|]). split.
  - apply in_km_altitude. assert (F1 : Forall far_point [p]) by auto. rewrite first_states by auto.
    assert (E : [Fin (h0 7000 0)] = map fst (states [p] 0)) by (cbn [states map]; unfold vals; cbn [fst hk]; now rewrite AP).
    rewrite E. apply loop_ends. rewrite next_states by auto. rewrite keep_going_states. cbn [map]. rewrite !mean_one.
    rewrite !(vz_in_equator p eq_refl). rewrite AP. cbn [hk vz p]. rewrite equator_h by lra. unfold h0. rewrite RP.
    rewrite !lt_fin_false; [reflexivity| |]; unfold tolerance; lra.
  - intros result R. apply in_km_altitude in R. assert (F3 : Forall far_point [p; q; q]) by auto. rewrite first_states in R by auto.
    assert (K : keep_going (states [p; q; q] 0) (states [p; q; q] 1) = true).
    { rewrite keep_going_states. cbn [map]. rewrite !mean_three. rewrite AP, AQ. cbn [vz p q hk mk]. rewrite equator_h by lra.
      unfold h0 at 1. rewrite RP. rewrite lt_fin; [reflexivity|]. pose proof high_h1. pose proof (h0_7000 _ _ high_rr). unfold tolerance. lra. }
    assert (L : exists r, altitude_loop [p; q; q] (states [p; q; q] 1) r /\ result = r).
    { inversion R as [o H|o r H L]; subst; rewrite next_states in * by auto; [congruence|]. eauto. }
    destruct L as (r & L & ->). destruct (loop_result _ _ _ F3 L) as (j & J & ->). cbn [states map nth].
    destruct j as [|j]; [lia|]. unfold vals. cbn [fst hk]. rewrite AP. cbn [vz p]. rewrite equator_h by lra.
    eexists. split; [reflexivity|]. unfold h0. rewrite RP. lra.
Qed.

(** ** C87: longitude and hemisphere *)
Lemma turned_axis a v : axis_distance (turned a v) = axis_distance v.
Proof.
  unfold axis_distance, turned. cbn [vx vy]. f_equal. pose proof (sin2_cos2 a) as T. unfold Rsqr in T.
  transitivity ((sin a * sin a + cos a * cos a) * (vx v ^ 2 + vy v ^ 2)); [ring|]. rewrite T. ring.
Qed.
Lemma same_steps v w : axis_distance v = axis_distance w -> vz v = vz w ->
  first_vals v = first_vals w /\ forall phi, new_vals v phi = new_vals w phi.
Proof.
  intros P Z. unfold first_vals, new_vals, latitude_from. rewrite !start_value, P, Z. auto.
Qed.
Lemma same_loop l k : Forall2 (fun v w => axis_distance v = axis_distance w /\ vz v = vz w) l k ->
  (forall s result, altitude_loop l s result -> altitude_loop k s result) /\ map first_vals l = map first_vals k.
Proof.
  intros F. assert (S : forall s, map2 (fun v (hp : num * num) => new_vals v (snd hp)) l s = map2 (fun v hp => new_vals v (snd hp)) k s).
  { induction F as [|v w l k (P & Z) F IH]; intros s; [reflexivity|]. destruct s as [|x s]; [reflexivity|]. rewrite !map2_cons. f_equal; auto.
    now apply same_steps. }
  split.
  - intros s result L. induction L as [o H|o r H L IH].
    + apply loop_ends. now rewrite <- S.
    + rewrite S in H, IH. now apply loop_continues.
  - induction F as [|v w l k (P & Z) F IH]; [reflexivity|]. cbn [map]. f_equal; [now apply same_steps|]. apply IH.
    intros s. specialize (S ((Fin 0, Fin 0) :: s)). rewrite !map2_cons in S. now injection S.
Qed.
Lemma forall2_seq {X} (P : X -> X -> Prop) (f g : nat -> X) n : (forall i, (i < n)%nat -> P (f i) (g i)) -> Forall2 P (map f (seq 0 n)) (map g (seq 0 n)).
Proof.
  revert f g. induction n; intros f g H; [constructor|]. cbn [seq map]. constructor; [apply H; lia|].
  rewrite <- seq_shift, !map_map. apply IHn. intros. apply H. lia.
Qed.
(** Turning each point about the axis of the Earth by any angle changes nothing. *)
Theorem C87_altitude_symmetries_partial :
  forall n a b (angle : nat -> R), of_size n a -> of_size n b ->
    (forall i, (i < n)%nat -> kilometres b i = turned (angle i) (kilometres a i)) ->
    forall result, satellite_altitude a result <-> satellite_altitude b result.
Proof.
  intros n a b angle SA SB T result. unfold satellite_altitude. rewrite !(altitude_iff n) by auto.
  assert (F : Forall2 (fun v w => axis_distance v = axis_distance w /\ vz v = vz w) (km_list n a) (km_list n b)).
  { apply forall2_seq. intros i I. rewrite T by auto. split; [now rewrite turned_axis|reflexivity]. }
  assert (F' : Forall2 (fun v w => axis_distance v = axis_distance w /\ vz v = vz w) (km_list n b) (km_list n a)).
  { apply forall2_seq. intros i I. rewrite T by auto. split; [now rewrite turned_axis|reflexivity]. }
  destruct (same_loop _ _ F) as (L & E). destruct (same_loop _ _ F') as (L' & _). rewrite E. split; auto.
Qed.
Lemma atan_gap x y : 0 <= x < y -> (y - x) / (1 + y * y) <= atan y - atan x.
Proof.
  intros (X & L). destruct (MVT_cor2 atan (fun x => / (1 + x ^ 2)) x y L) as (c & -> & C).
  { intros. apply derivable_pt_lim_atan. }
  unfold Rdiv. rewrite (Rmult_comm (/ (1 + c ^ 2))). apply Rmult_le_compat_l; [lra|]. apply Rinv_le_contravar; [nra|]. nra.
Qed.
(** But a point and its mirror image south of the equator have different altitudes. *)
Lemma mirror_axis v : axis_distance (mirrored v) = axis_distance v. Proof. reflexivity. Qed.
Lemma mirror_m p z m : g_ p (- z) m = g_ p z m /\ h_ p (- z) m = h_ p z m /\ rr p (- z) = rr p z.
Proof.
  unfold g_, h_, S_, Q_, rr. replace (- z * m * (- z * m)) with (z * m * (z * m)) by ring. replace (- z * - z) with (z * z) by ring. auto.
Qed.
Theorem C87_altitude_symmetries_refuted :
  exists p x y, outside p /\ outside (mirrored p) /\
    satellite_altitude (in_km [0] [p]) [Fin x] /\ satellite_altitude (in_km [0] [mirrored p]) [Fin y] /\ 1 < y - x.
Proof.
  set (p := V 5600 0 4200). set (q := mirrored p).
  assert (OP : outside p /\ outside q).
  { split; (split; [left; cbn; lra|]); rewrite wb, B_val; unfold norm, dot; cbn [vx vy vz p q mirrored].
    - replace (5600 * 5600 + 0 * 0 + 4200 * 4200) with (7000 * 7000) by lra. rewrite sqrt_square; lra.
    - replace (5600 * 5600 + 0 * 0 + - (4200) * - (4200)) with (7000 * 7000) by lra. rewrite sqrt_square; lra. }
  destruct OP as (OP & OQ). assert (FP : far_point p) by now apply outside_far. assert (FQ : far_point q) by now apply outside_far.
  assert (AP : axis_distance p = 5600) by (apply axis_x; lra). assert (AQ : axis_distance q = 5600) by (apply axis_x; lra).
  assert (F1 : Forall far_point [p]) by auto. assert (F2 : Forall far_point [q]) by auto.
  pose proof (mirror_m 5600 4200) as MM.
  assert (H0 : h0 5600 (- (4200)) = h0 5600 4200) by (unfold h0; now rewrite (proj2 (proj2 (MM 0)))).
  assert (M0 : m0 5600 (- (4200)) = m0 5600 4200) by (unfold m0; now rewrite H0).
  pose proof north_h1 as H1. pose proof (h0_7000 _ _ north_rr) as HH. pose proof north_m1 as M1. cbn [mk] in M1.
  pose proof (m0_7000 _ _ north_rr) as MR.
  assert (AT : 0.0000005 <= atan (4200 / 5600 * g_ 5600 4200 (m0 5600 4200)) - atan (4200 / 5600 * m0 5600 4200)).
  { set (m := m0 5600 4200) in *. set (m' := g_ 5600 4200 m) in *. clearbody m m'.
    eapply Rle_trans; [|apply atan_gap; split; lra]. assert (T : 0.7 < 4200 / 5600 * m' < 0.8) by lra. set (t := 4200 / 5600 * m') in *.
    assert (T2 : 1 < 1 + t * t < 2) by nra. set (u := 1 + t * t) in *. assert (D : 0.000002 <= t - 4200 / 5600 * m) by (unfold t; lra).
    set (d := t - 4200 / 5600 * m) in *. clearbody u d. apply Rmult_le_reg_r with u; [lra|]. replace (d / u * u) with d by (field; lra). lra. }
  assert (K : keep_going (states [p] 0) (states [p] 1) = true).
  { rewrite keep_going_states. cbn [map]. rewrite !mean_one, AP. cbn [vz p hk mk]. apply orb_true_intro. right. apply lt_fin. unfold tolerance. lra. }
  assert (KQ : keep_going (states [q] 0) (states [q] 1) = false).
  { rewrite keep_going_states. cbn [map]. rewrite !mean_one, AQ. cbn [vz p q mirrored hk mk]. rewrite H0, M0.
    rewrite (proj1 (MM (m0 5600 4200))), (proj1 (proj2 (MM (m0 5600 4200)))).
    rewrite !lt_fin_false; [reflexivity| |unfold tolerance; pose proof A_pos; lra].
    assert (E : forall x, atan (- (4200) / 5600 * x) = - atan (4200 / 5600 * x)) by (intros; rewrite <- atan_opp; f_equal; field).
    rewrite !E. unfold tolerance. lra. }
  destruct (stops [p] F1) as (n & N). destruct (loop_from [p] n 0 F1 N) as (j & J).
  exists p, (hk 5600 4200 j), (h0 5600 4200). do 2 (split; [assumption|]). split; [|split].
  - apply in_km_altitude. rewrite first_states by auto.
    assert (E : [Fin (hk 5600 4200 j)] = map fst (states [p] j)) by (cbn [states map]; unfold vals; cbn [fst]; now rewrite AP).
    rewrite E. exact J.
  - apply in_km_altitude. fold q. rewrite first_states by auto.
    assert (E : [Fin (h0 5600 4200)] = map fst (states [q] 0)) by (cbn [states map]; unfold vals; cbn [fst hk]; rewrite AQ; cbn [vz q p mirrored]; now rewrite H0).
    rewrite E. apply loop_ends. now rewrite next_states.
  - assert (J1 : (1 <= j)%nat).
    { inversion J as [o H E1 E2|o r H L]; subst; rewrite next_states in H by auto; [congruence|].
      rewrite next_states in L by auto. destruct (loop_result _ _ _ F1 L) as (i & I & E). destruct j; [|lia]. exfalso.
      cbn [states map] in E. unfold vals in E. cbn [fst] in E. injection E as E. rewrite AP in E. cbn [vz p hk] in E.
      destruct i as [|i]; [lia|]. pose proof (north_stays (S i) ltac:(lia)) as NS. cbn [hk] in NS, E. lra. }
    pose proof (north_stays j J1). lra.
Qed.

(** ** Cases *)
(** A point 500 km above latitude 53 degrees (foot [0.6 a, 0, 0.8 b]), and one above the equator. *)
Definition north_foot : vec := V (3 / 5 * wgs84_a) 0 (4 / 5 * wgs84_b).
Definition equator_foot : vec := V 0 (- wgs84_a) 0.
Definition lifted (f : vec) : vec := plus f (times (500 / norm (gradient f)) (gradient f)).
Lemma north_above : above north_foot 500 (lifted north_foot) /\ off_axis (lifted north_foot).
Proof.
  split; [split; [|reflexivity]|].
  - unfold on_ellipsoid, north_foot. cbn [vx vy vz]. field. rewrite wa, wb. pose proof A_pos. pose proof B_pos. lra.
  - left. unfold lifted, plus, times. set (n := norm _). assert (0 <= n) by apply sqrt_pos. unfold north_foot, gradient, wgs84_a. cbn [vx].
    assert (0 <= 500 / n). { destruct (Req_dec n 0) as [->|N]; [unfold Rdiv; rewrite Rinv_0; lra|]. apply Rmult_le_pos; [lra|apply Rlt_le, Rinv_0_lt_compat; lra]. }
    set (q := 500 / n) in *. clearbody q. lra.
Qed.
Lemma equator_above : above equator_foot 500 (lifted equator_foot) /\ off_axis (lifted equator_foot).
Proof.
  split; [split; [|reflexivity]|].
  - unfold on_ellipsoid, equator_foot. cbn [vx vy vz]. field. rewrite wa, wb. pose proof A_pos. pose proof B_pos. lra.
  - right. unfold lifted, plus, times. set (n := norm _). assert (0 <= n) by apply sqrt_pos. unfold equator_foot, gradient, wgs84_a. cbn [vy].
    assert (0 <= 500 / n). { destruct (Req_dec n 0) as [->|N]; [unfold Rdiv; rewrite Rinv_0; lra|]. apply Rmult_le_pos; [lra|apply Rlt_le, Rinv_0_lt_compat; lra]. }
    set (q := 500 / n) in *. clearbody q. lra.
Qed.
Definition case_times : list R := [2460462.5; 2460462.6].
Definition case_points : list vec := [lifted north_foot; lifted equator_foot].
Definition case_foot (i : nat) : vec := nth i [north_foot; equator_foot] zero.
Lemma case_km i : (i < 2)%nat -> kilometres (in_km case_times case_points) i = nth i case_points zero.
Proof.
  intros I. unfold kilometres, point, in_km, case_points, times. cbn [p_unit p_x p_y p_z].
  destruct i as [|[|]]; [| |lia]; cbn [nth map]; apply vec_ext; cbn [vx vy vz]; field.
Qed.
Example C59_case :
  of_size 2 (in_km case_times case_points) /\
  forall i, (i < 2)%nat ->
    above (case_foot i) 500 (kilometres (in_km case_times case_points) i) /\ 0 <= 500 /\ off_axis (kilometres (in_km case_times case_points) i).
Proof.
  split; [repeat split; reflexivity|]. intros i I. rewrite case_km by auto. pose proof north_above as (N1 & N2). pose proof equator_above as (E1 & E2).
  destruct i as [|[|]]; [| |lia]; cbn [nth case_foot case_points]; repeat split; try assumption; try lra; try apply N1; try apply E1.
Qed.
Example C88_case : forall i, (i < 2)%nat -> outside (kilometres (in_km case_times case_points) i).
Proof.
  intros i I. destruct C59_case as (_ & H). destruct (H i I) as (H1 & H2 & H3). now apply (above_outside _ _ _ H1 H2).
Qed.
Example C86_case : exists q, q <> lifted north_foot /\ outside q /\ above north_foot 500 (lifted north_foot).
Proof.
  exists (lifted equator_foot). split; [|split; [|apply north_above]].
  - intros E. pose proof (f_equal vx E) as X. unfold lifted, plus, times in X. cbn [vx] in X.
    destruct north_above as (_ & O). unfold lifted in O. set (n := norm (gradient north_foot)) in *. set (m := norm (gradient equator_foot)) in *.
    assert (0 <= n) by apply sqrt_pos.
    assert (0 <= 500 / n). { destruct (Req_dec n 0) as [->|N]; [unfold Rdiv; rewrite Rinv_0; lra|]. apply Rmult_le_pos; [lra|apply Rlt_le, Rinv_0_lt_compat; lra]. }
    set (q := 500 / n) in *. clearbody q m n. unfold north_foot, equator_foot, gradient, wgs84_a in X. cbn [vx] in X. lra.
  - apply (above_outside equator_foot 500); [apply equator_above|lra|apply equator_above].
Qed.

Print Assumptions C59_altitude_partial.
Print Assumptions C59_altitude_refuted.
Print Assumptions C88_altitude_ends.
Print Assumptions C86_altitude_alone_partial.
Print Assumptions C86_altitude_alone_refuted.
Print Assumptions C87_altitude_symmetries_partial.
Print Assumptions C87_altitude_symmetries_refuted.
