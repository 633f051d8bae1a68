(** Elevations, distances and look angles of satellites given in the GCRS frame. *)
From Coq Require Import List ZArith Reals Lra Lia Psatz.
From Flocq Require Import Core.Core IEEE754.BinarySingleNaN IEEE754.Binary IEEE754.Bits.
From Verif Require Import Py Fl_Model Fl_Spec Fl_Proofs Flg_Model Flg_Spec Rot_Model Rot_Spec Rot_Proofs Time_Model Flg_Proofs Flg_Num Flg_Proofs2 Flg_Proofs3 Flg_Proofs4 Flg_Proofs5 Flg_Proofs6 Flg_Proofs7 Geo_Model
  Flc_Spec Flr_Model Flr_Spec Flr_Proofs Flr_Props Flz_Spec.
Import ListNotations.
Open Scope R_scope.

(** ** A body far away *)
Lemma sub_far s g : finite_vec s -> finite_vec g -> norm (vector s) <= 2000000000 -> norm (vector g) <= 2000000000 ->
  finite_vec (fvsub s g) /\ norm (sub (vector (fvsub s g)) (sub (vector s) (vector g))) <= uu * norm (sub (vector s) (vector g)).
Proof.
  intros (F1 & F2 & F3) (G1 & G2 & G3) S G. destruct (comp_norm (vector s)) as (A1 & A2 & A3). destruct (comp_norm (vector g)) as (B1 & B2 & B3). cbn [vector vx vy vz] in *.
  assert (T : forall x y, finite x -> finite y -> Rabs (value x) <= 2000000000 -> Rabs (value y) <= 2000000000 ->
    finite (fsub x y) /\ Rabs (value (fsub x y) - (value x - value y)) <= uu * Rabs (value x - value y)).
  { intros x y Fx Fy X Y. apply Flg_Proofs.Rabs_le_inv in X, Y. destruct (fsub_ok x y Fx Fy) as (F & V).
    { apply Rle_trans with (bpow radix2 40); [|apply bpow_le; lia]. apply Rabs_le. assert (4000000000 <= bpow radix2 40) by (cbn; lra). lra. }
    split; auto. rewrite V. exact (rnd_add_err (value x) (- value y) (value_fmt x) (generic_format_opp _ _ _ (value_fmt y))). }
  destruct (T (fx s) (fx g)) as (H1 & X1); auto; try lra. destruct (T (fy s) (fy g)) as (H2 & X2); auto; try lra. destruct (T (fz s) (fz g)) as (H3 & X3); auto; try lra.
  split; [repeat split; auto|]. pose proof uu_pos. apply norm_scaled; [lra|exact X1|exact X2|exact X3].
Qed.
Lemma elevation_far M l unit p : accurate M -> on_earth l -> within_km 20000 1000000000 unit p ->
  let G := itrs_of (exact_location l) in let S := exact_km unit p in
  exists x, felevation M l unit p = Ok x /\
    ((is_NaN x /\ 90 - 4 / 1000000 <= Rabs (elevation_of G S)) \/ (finite x /\ Rabs (value x - elevation_of G S) <= 4 / 1000000)).
Proof.
  intros A O (K & P1 & P2 & P3 & Np) G S. destruct (ground_ok M l A O) as (g & Eg & Fg & Hg). destruct (km_any unit p K P1 P2 P3 ltac:(lra)) as (s & Es & Fs & Hs).
  pose proof (ground_norm l O) as Ng. fold G in Hg, Ng. fold S in Hs, Np. pose proof uu_pos as U. pose proof uu_value as UV.
  set (n := norm S) in *. assert (Hs' : norm (sub (vector s) S) <= 78 / 100000000000000000 * n).
  { eapply Rle_trans; [exact Hs|]. apply Rmult_le_compat_r; [unfold n; apply norm_pos|]. rewrite UV. lra. }
  pose proof (norm_near (vector s) S) as Ns. apply Flg_Proofs.Rabs_le_inv in Ns. pose proof (norm_near (vector g) G) as Ng'. apply Flg_Proofs.Rabs_le_inv in Ng'. fold n in Ns.
  destruct (sub_far s g Fs Fg ltac:(lra) ltac:(lra)) as (Fw & Hw).
  assert (T1 : norm (sub (sub (vector s) (vector g)) (from_to G S)) <= 78 / 100000000000000000 * n + / 10000000000).
  { pose proof (Flg_Proofs7.norm_tri (sub (vector s) (vector g)) (sub S (vector g)) (from_to G S)) as T.
    assert (E1 : norm (sub (sub (vector s) (vector g)) (sub S (vector g))) = norm (sub (vector s) S)) by (unfold norm, dot, sub; cbn [vx vy vz]; f_equal; ring).
    assert (E2 : norm (sub (sub S (vector g)) (from_to G S)) = norm (sub (vector g) G)) by (unfold norm, dot, sub, from_to; cbn [vx vy vz]; f_equal; ring).
    rewrite E1, E2 in T. lra. }
  assert (T2 : n - 13000 <= norm (from_to G S) <= n + 13000).
  { pose proof (norm_near (from_to G S) S) as T. assert (E : norm (sub (from_to G S) S) = norm G) by (unfold norm, dot, sub, from_to; cbn [vx vy vz]; f_equal; ring). rewrite E in T. apply Flg_Proofs.Rabs_le_inv in T. fold n in T. lra. }
  pose proof (norm_near (sub (vector s) (vector g)) (from_to G S)) as T3. apply Flg_Proofs.Rabs_le_inv in T3.
  set (d := norm (from_to G S)) in *.
  assert (T4 : norm (sub (vector (fvsub s g)) (sub (vector s) (vector g))) <= / 1000000000000000 * (2 * d)).
  { eapply Rle_trans; [exact Hw|]. apply Rmult_le_compat; [lra|apply norm_pos|rewrite UV; lra|lra]. }
  pose proof (Flg_Proofs7.norm_tri (vector (fvsub s g)) (sub (vector s) (vector g)) (from_to G S)) as T5.
  pose proof (norm_near (vector (fvsub s g)) (from_to G S)) as T6. apply Flg_Proofs.Rabs_le_inv in T6. fold d in T6.
  assert (B1 : bpow radix2 (-400) <= / 2000).
  { change (-400)%Z with (- (400))%Z. rewrite bpow_opp. apply Rinv_le_contravar; [lra|]. apply Rle_trans with (bpow radix2 11); [cbn; lra|apply bpow_le; lia]. }
  assert (B2 : 4000000000 <= bpow radix2 100) by (apply Rle_trans with (bpow radix2 40); [cbn; lra|apply bpow_le; lia]).
  assert (Sw : sized (fvsub s g)) by (split; [exact Fw|lra]). assert (Sg : sized g) by (split; [exact Fg|lra]).
  unfold felevation. rewrite Es, Eg. cbn [bind]. eexists. split; [reflexivity|]. unfold felevation_at.
  destruct (fnorm_1d_ok M g A Sg) as (Fn & En).
  destruct (near_angle (from_to G S) (vector (fvsub s g)) (/ 100000000000) ltac:(fold d; lra) ltac:(lra) ltac:(fold d; lra)) as (_ & A1).
  destruct (near_angle G (vector g) (/ 10000000000000) ltac:(lra) ltac:(lra) ltac:(lra)) as (_ & A2).
  pose proof (get_ang_ok M (fvsub s g) g (fnorm_1d M g) (from_to G S) G (/ 100000000000 * (105 / 100)) A Sw Sg Fn En ltac:(fold d; lra) ltac:(lra) ltac:(lra) ltac:(lra)) as H.
  cbv zeta in H. unfold elevation_of. set (a := fget_ang M (fvsub s g) g (fnorm_1d M g)) in *. set (t := in_degrees (angle (from_to G S) G)) in *. clearbody a.
  assert (Ht : 0 <= t <= 180).
  { unfold t. rewrite angle_fold. destruct (ang_range (from_to G S) G) as (R1 & R2). rewrite <- in_degrees_PI. pose proof deg_factor. unfold in_degrees. split; nra. }
  clearbody t. destruct H as [(N & H)|(F & E1 & _)].
  - left. split; [now apply nan_sub|]. unfold Rabs. destruct (Rcase_abs (90 - t)); destruct H; lra.
  - right. destruct (of_Z_ok 90 ltac:(lia)) as (F90 & V90). apply Flg_Proofs.Rabs_le_inv in E1. destruct (fsub_ok (of_Z 90) a F90 F) as (Fs' & Vs). { rewrite V90. apply small_abs, Rabs_le. lra. }
    split; [exact Fs'|]. rewrite Vs.
    assert (R : Rabs (rnd (value (of_Z 90) - value a) - (value (of_Z 90) - value a)) <= 100 * uu).
    { pose proof (rnd_add_err (value (of_Z 90)) (- value a) (value_fmt _) (generic_format_opp _ _ _ (value_fmt a))) as R.
      eapply Rle_trans; [exact R|]. rewrite Rmult_comm. apply Rmult_le_compat_r; [lra|]. rewrite V90. apply Rabs_le. lra. }
    assert (Uh : 100 * uu <= / 10000000000) by (rewrite uu_value; lra). apply Flg_Proofs.Rabs_le_inv in R. rewrite V90 in *. apply Rabs_le. lra.
Qed.

(** ** The conversion *)
Lemma in_km_norm unit v : norm (in_km unit v) = size unit / 1000 * norm v.
Proof.
  pose proof (size_bounds unit) as B. unfold norm, dot, in_km. cbn [vx vy vz]. set (k := size unit) in *. clearbody k.
  replace (vx v * k / 1000 * (vx v * k / 1000) + vy v * k / 1000 * (vy v * k / 1000) + vz v * k / 1000 * (vz v * k / 1000)) with ((k / 1000) * (k / 1000) * (vx v * vx v + vy v * vy v + vz v * vz v)) by field.
  rewrite sqrt_mult, sqrt_square; auto; nra.
Qed.
Lemma exact_in_km unit p : exact_km unit p = in_km unit (vector p). Proof. reflexivity. Qed.
Lemma in_km_sub unit a b : sub (in_km unit a) (in_km unit b) = in_km unit (sub a b).
Proof. unfold sub, in_km. cbn [vx vy vz]. f_equal; field. Qed.

Lemma placed_near A jd v unit sat low high : accurate_arrays A -> dated jd -> within_km low high unit v -> 1000 <= low -> high <= 1000000000 -> placed unit jd v sat ->
  let p := fgcrs_to_itrs A jd v in
  finite_vec p /\ norm sat = norm (exact_km unit v) /\ norm (sub (exact_km unit p) sat) <= 601 / 10 ^ 11 * norm sat.
Proof.
  intros G D (K & F1 & F2 & F3 & N) L H (itrs & E & ->) p. pose proof (size_bounds unit) as B.
  assert (F : finite_vec v) by (split; [exact F1|split; [exact F2|exact F3]]).
  rewrite exact_in_km, in_km_norm in N. set (k := size unit / 1000) in *. assert (Bk : / 4000000 <= k <= 90) by (unfold k; lra).
  pose proof (norm_pos (vector v)) as Pv.
  assert (Hv : norm (vector v) <= 4000000000000000) by (clearbody k; nra).
  assert (W : 4000000000000000 <= 2 ^ 80) by (apply Rle_trans with (2 ^ 52); [lra|apply two_le; lia]).
  destruct (C146_float_frames_close A G unit_name unit jd v D F ltac:(lra)) as ((itrs' & E' & Fp & Hp) & _).
  rewrite E in E'. injection E' as <-. fold p in Fp, Hp. split; [exact Fp|].
  assert (Nr : norm (point itrs 0) = norm (vector v)).
  { assert (Z : of_size 1 (one_row jd v unit)) by (repeat split). rewrite (gcrs_to_itrs_ok 1 _ Z) in E. injection E as <-.
    change (point _ 0) with (to_itrs (value jd) (vector v)). apply (rigid_norm _ _ (vector v)), to_itrs_rigid. }
  rewrite !exact_in_km, in_km_sub, !in_km_norm, Nr. fold k. split; [reflexivity|].
  assert (T : / 2 ^ 800 <= / 10 ^ 20).
  { apply Rinv_le_contravar; [lra|]. apply Rle_trans with (2 ^ 80); [lra|apply two_le; lia]. }
  set (n := norm (vector v)) in *. set (e := norm (sub (vector p) (point itrs 0))) in *. clearbody n e k.
  replace (601 / 10 ^ 11 * (k * n)) with (k * (601 / 10 ^ 11 * n)) by ring. apply Rmult_le_compat_l; [lra|].
  assert (1 <= n) by nra. assert (10 ^ 20 = 100000000000000000000) by ring. lra.
Qed.
Lemma moved_elevation G S S' e : 0 < norm G -> 0 < norm (from_to G S) -> 0 <= e <= / 1000 -> norm (sub S' S) <= e * norm (from_to G S) ->
  Rabs (elevation_of G S' - elevation_of G S) <= 574 / 10 * e.
Proof.
  intros Ng D E H.
  assert (Q : norm (sub (from_to G S') (from_to G S)) = norm (sub S' S)) by (unfold norm, dot, sub, from_to; cbn [vx vy vz]; f_equal; ring).
  destruct (near_angle (from_to G S) (from_to G S') e D ltac:(lra) ltac:(rewrite Q; exact H)) as (D' & A).
  pose proof (ang_change (from_to G S) G (from_to G S') G D Ng D' Ng) as C.
  assert (Z : norm (sub G G) <= 0 * norm G) by (rewrite Rmult_0_l; apply Req_le; unfold norm; transitivity (sqrt 0); [f_equal; unfold dot, sub; cbn [vx vy vz]; ring|apply sqrt_0]).
  destruct (near_angle G G 0 Ng ltac:(lra) Z) as (_ & Z').
  unfold elevation_of, in_degrees. rewrite (angle_fold (from_to G S) G), (angle_fold (from_to G S') G). pose proof deg_factor as DF.
  set (x := ang (from_to G S) G) in *. set (y := ang (from_to G S') G) in *.
  replace (90 - y * (180 / PI) - (90 - x * (180 / PI))) with ((x - y) * (180 / PI)) by ring. rewrite Rabs_mult, (Rabs_pos_eq (180 / PI)) by lra.
  assert (B : Rabs (x - y) <= 1.001 * e) by lra. pose proof (Rabs_pos (x - y)). set (k := 180 / PI) in *. clearbody k.
  apply Rle_trans with (1.001 * e * 57.29578); [apply Rmult_le_compat; lra|lra].
Qed.
Lemma moved_look G S S' e f : 0 < norm (from_to G S) -> 0 < norm S -> 0 <= e <= / 1000 -> 0 <= f <= / 1000 ->
  norm (sub S' S) <= e * norm (from_to G S) -> norm (sub S' S) <= f * norm S ->
  Rabs (look_angle_of G S' - look_angle_of G S) <= 574 / 10 * (e + f).
Proof.
  intros D Ns E Ef H Hf.
  assert (Q : norm (sub (from_to G S') (from_to G S)) = norm (sub S' S)) by (unfold norm, dot, sub, from_to; cbn [vx vy vz]; f_equal; ring).
  destruct (near_angle (from_to G S) (from_to G S') e D ltac:(lra) ltac:(rewrite Q; exact H)) as (D' & A).
  destruct (near_angle S S' f Ns ltac:(lra) Hf) as (Ns' & A').
  pose proof (ang_change (from_to G S) S (from_to G S') S' D Ns D' Ns') as C.
  assert (L : forall X, look_angle_of G X = in_degrees (ang (from_to G X) X)).
  { intros X. unfold look_angle_of. change (ang (from_to G X) X) with (angle (from_to G X) X). unfold angle. do 2 f_equal. unfold norm, dot, from_to. cbn [vx vy vz]. f_equal; [ring|]. do 2 f_equal; f_equal; ring. }
  rewrite !L. unfold in_degrees. pose proof deg_factor as DF. rewrite Rabs_minus_sym.
  set (x := ang (from_to G S) S) in *. set (y := ang (from_to G S') S') in *.
  replace (x * (180 / PI) - y * (180 / PI)) with ((x - y) * (180 / PI)) by ring. rewrite Rabs_mult, (Rabs_pos_eq (180 / PI)) by lra.
  assert (B : Rabs (x - y) <= 1.001 * (e + f)) by lra. pose proof (Rabs_pos (x - y)). set (k := 180 / PI) in *. clearbody k.
  apply Rle_trans with (1.001 * (e + f) * 57.29578); [apply Rmult_le_compat; lra|lra].
Qed.
(** How far the position is from the ground *)
Lemma ratio l S : on_earth l -> 101 <= norm (from_to (itrs_of (exact_location l)) S) -> norm S <= 1298 / 10 * norm (from_to (itrs_of (exact_location l)) S).
Proof.
  intros O D. pose proof (ground_norm l O) as Ng. set (G := itrs_of (exact_location l)) in *.
  pose proof (norm_near (from_to G S) S) as T. assert (E : norm (sub (from_to G S) S) = norm G) by (unfold norm, dot, sub, from_to; cbn [vx vy vz]; f_equal; ring).
  rewrite E in T. apply Flg_Proofs.Rabs_le_inv in T. lra.
Qed.
Lemma from_to_move G S S' : Rabs (norm (from_to G S') - norm (from_to G S)) <= norm (sub S' S).
Proof.
  eapply Rle_trans; [apply norm_near|]. apply Req_le. unfold norm, dot, sub, from_to; cbn [vx vy vz]; f_equal; ring.
Qed.
Section gcrs.
Variables (A : arrays) (M : maths) (l : flocation) (unit : unit_name) (jd : float) (v : fvec) (sat : vec).
Hypothesis GA : accurate_arrays A.
Hypothesis GM : accurate M.
Hypothesis O : on_earth l.
Hypothesis D : dated jd.
Hypothesis P : placed unit jd v sat.
Let G := itrs_of (exact_location l).
Let p := fgcrs_to_itrs A jd v.

Section near.
Hypothesis B : within_km 1000 900000 unit v.
Hypothesis F : 101 <= norm (from_to G sat).
Lemma near_setting : in_orbit unit p /\ 100 <= norm (from_to G (exact_km unit p)) /\ 1000 <= norm sat <= 900000 /\ norm (sub (exact_km unit p) sat) <= 601 / 10 ^ 11 * norm sat /\ norm (sub (exact_km unit p) sat) <= 79 / 10 ^ 8 * norm (from_to G sat).
Proof.
  destruct (placed_near A jd v unit sat 1000 900000 GA D B ltac:(lra) ltac:(lra) P) as (Fp & N & H). fold p in Fp, H. pose proof B as (K & _ & _ & _ & Nb). rewrite <- N in Nb.
  pose proof (ratio l sat O F) as R. fold G in R. pose proof (norm_near (exact_km unit p) sat) as T. apply Flg_Proofs.Rabs_le_inv in T.
  pose proof (from_to_move G sat (exact_km unit p)) as T2. apply Flg_Proofs.Rabs_le_inv in T2.
  split; [|split; [lra|split; [lra|split; lra]]]. destruct Fp as (F1 & F2 & F3). repeat (split; auto); lra.
Qed.
Lemma gcrs_elevation_ok : exists x, felevation M l unit p = Ok x /\ ((is_NaN x /\ 90 - 5 / 100000 <= Rabs (elevation_of G sat)) \/ (finite x /\ Rabs (value x - elevation_of G sat) <= 5 / 100000)).
Proof.
  destruct near_setting as (I & F' & N & _ & H). destruct (elevation_ok M l unit p GM O I F') as (x & E & X). exists x. split; auto. fold G in X.
  pose proof (ground_norm l O) as Ng. fold G in Ng. pose proof (moved_elevation G sat (exact_km unit p) (79 / 10 ^ 8) ltac:(lra) ltac:(lra) ltac:(lra) H) as Mv.
  set (e := elevation_of G sat) in *. set (e' := elevation_of G (exact_km unit p)) in *. clearbody e e'.
  pose proof (Rabs_triang_inv2 e' e) as T. apply Flg_Proofs.Rabs_le_inv in T. pose proof Mv as Mv'. apply Flg_Proofs.Rabs_le_inv in Mv'. destruct X as [(Nn & X)|(Fx & X & _)].
  - left. split; auto. lra.
  - right. split; auto. apply Flg_Proofs.Rabs_le_inv in X. apply Rabs_le. lra.
Qed.
Lemma gcrs_distance_ok : exists x, fdistance M l unit p = Ok x /\ finite x /\ Rabs (value x - norm (from_to G sat)) <= 7 / 10 ^ 9 * norm sat.
Proof.
  destruct near_setting as (I & F' & N & H & _). destruct (distance_ok M l unit p GM O I ltac:(fold G; lra)) as (x & E & Fx & X). fold G in X.
  exists x. split; auto. split; auto. pose proof (from_to_move G sat (exact_km unit p)) as T.
  pose proof (Rle_trans _ _ _ T H) as T'. apply Flg_Proofs.Rabs_le_inv in T', X. apply Rabs_le. lra.
Qed.
Lemma gcrs_look_ok : let t := look_angle_of G sat in exists x, flook_angle M l unit p = Ok x /\ ((is_NaN x /\ (t <= 5 / 100000 \/ 180 - 5 / 100000 <= t)) \/ (finite x /\ Rabs (value x - t) <= 5 / 100000)).
Proof.
  intros t. destruct near_setting as (I & F' & N & H1 & H). destruct (look_ok M l unit p GM O I F') as (x & E & X). exists x. split; auto. fold G in X.
  pose proof (moved_look G sat (exact_km unit p) (79 / 10 ^ 8) (601 / 10 ^ 11) ltac:(lra) ltac:(lra) ltac:(lra) ltac:(lra) H H1) as Mv. fold t in Mv.
  set (t' := look_angle_of G (exact_km unit p)) in *. clearbody t t'. apply Flg_Proofs.Rabs_le_inv in Mv. destruct X as [(Nn & X)|(Fx & X & _)].
  - left. split; auto. destruct X; [left|right]; lra.
  - right. split; auto. apply Flg_Proofs.Rabs_le_inv in X. apply Rabs_le. lra.
Qed.
End near.
Lemma gcrs_far_ok : within_km 30000 900000000 unit v -> exists x, felevation M l unit p = Ok x /\ ((is_NaN x /\ 90 - 5 / 1000000 <= Rabs (elevation_of G sat)) \/ (finite x /\ Rabs (value x - elevation_of G sat) <= 5 / 1000000)).
Proof.
  intros B. destruct (placed_near A jd v unit sat 30000 900000000 GA D B ltac:(lra) ltac:(lra) P) as (Fp & N & H). fold p in Fp, H. pose proof B as (K & _ & _ & _ & Nb). rewrite <- N in Nb.
  pose proof (norm_near (exact_km unit p) sat) as T. apply Flg_Proofs.Rabs_le_inv in T. pose proof (ground_norm l O) as Ng. fold G in Ng.
  pose proof (norm_near (from_to G sat) sat) as T2. assert (E2 : norm (sub (from_to G sat) sat) = norm G) by (unfold norm, dot, sub, from_to; cbn [vx vy vz]; f_equal; ring).
  rewrite E2 in T2. apply Flg_Proofs.Rabs_le_inv in T2.
  assert (Bp : within_km 20000 1000000000 unit p) by (destruct Fp as (F1 & F2 & F3); repeat (split; auto); lra).
  destruct (elevation_far M l unit p GM O Bp) as (x & E & X). exists x. split; auto. fold G in X.
  pose proof (moved_elevation G sat (exact_km unit p) (11 / 10 ^ 9) ltac:(lra) ltac:(lra) ltac:(lra) ltac:(lra)) as Mv.
  set (e := elevation_of G sat) in *. set (e' := elevation_of G (exact_km unit p)) in *. clearbody e e'.
  pose proof (Rabs_triang_inv2 e' e) as T3. apply Flg_Proofs.Rabs_le_inv in T3. pose proof Mv as Mv'. apply Flg_Proofs.Rabs_le_inv in Mv'. destruct X as [(Nn & X)|(Fx & X)].
  - left. split; auto. lra.
  - right. split; auto. apply Flg_Proofs.Rabs_le_inv in X. apply Rabs_le. lra.
Qed.
End gcrs.
