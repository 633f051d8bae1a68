(** Theorems on satellites given in the GCRS frame, in floating point: C176-C178. *)
From Coq Require Import List ZArith Reals Arith Bool Lra Lia Sorted.
From Flocq Require Import Core.Core IEEE754.BinarySingleNaN IEEE754.Binary IEEE754.Bits.
From Verif Require Import Py PyLemmas Fl_Model Fl_Spec Fl_Proofs Flc_Spec Flc_Props Rot_Model Rot_Spec Geo_Model Vtw_Model Vtw_Spec Vis_Proofs
  Flg_Model Flg_Spec Flg_Proofs3 Flg_Proofs4 Flg_Proofs7 Flg_Best Flw_Model Flw_Spec Flw_Proofs Flg_Cases Flr_Model Flr_Spec Flr_Best Flz_Model Flz_Spec Flz_Proofs Flz_Proofs2.
Import ListNotations.
Open Scope R_scope.
Open Scope list_scope.

(** ** C176: what is measured of a satellite given in the GCRS frame *)
(** [sat] is where the exact conversion puts the satellite.  The distance is right up to 7e-9 of the
    distance from the centre of the Earth, the elevation and the look angle up to 5e-5 degrees, except
    that the angles can be not-a-number that close to the vertical. *)
Theorem C176_celestial_satellite :
  forall A M l unit jd v sat, accurate_arrays A -> accurate M -> on_earth l -> dated jd -> within_km 1000 900000 unit v -> placed unit jd v sat ->
    let ground := itrs_of (exact_location l) in let p := fgcrs_to_itrs A jd v in
    101 <= norm (from_to ground sat) ->
    (exists x, fdistance M l unit p = Ok x /\ finite x /\ Rabs (value x - norm (from_to ground sat)) <= 7 / 10 ^ 9 * norm sat) /\
    (exists x, felevation M l unit p = Ok x /\
       ((finite x /\ Rabs (value x - elevation_of ground sat) <= 5 / 100000) \/ (is_NaN x /\ 90 - 5 / 100000 <= Rabs (elevation_of ground sat)))) /\
    (exists x, flook_angle M l unit p = Ok x /\
       let t := look_angle_of ground sat in
       ((finite x /\ Rabs (value x - t) <= 5 / 100000) \/ (is_NaN x /\ (t <= 5 / 100000 \/ 180 - 5 / 100000 <= t)))).
Proof.
  intros A M l unit jd v sat GA GM O D B P ground p F. split; [|split].
  - exact (gcrs_distance_ok A M l unit jd v sat GA GM O D P B F).
  - destruct (gcrs_elevation_ok A M l unit jd v sat GA GM O D P B F) as (x & E & H). exists x. split; auto. destruct H; auto.
  - destruct (gcrs_look_ok A M l unit jd v sat GA GM O D P B F) as (x & E & H). exists x. split; auto. cbv zeta. destruct H; auto.
Qed.

(** ** C177: the elevation of a body far away, like the Sun *)
Theorem C177_far_body :
  forall A M l unit jd v sat, accurate_arrays A -> accurate M -> on_earth l -> dated jd -> within_km 30000 900000000 unit v -> placed unit jd v sat ->
    let ground := itrs_of (exact_location l) in
    exists x, felevation M l unit (fgcrs_to_itrs A jd v) = Ok x /\
      ((finite x /\ Rabs (value x - elevation_of ground sat) <= 5 / 1000000) \/ (is_NaN x /\ 90 - 5 / 1000000 <= Rabs (elevation_of ground sat))).
Proof.
  intros A M l unit jd v sat GA GM O D B P ground. destruct (gcrs_far_ok A M l unit jd v sat GA GM O D P B) as (x & E & H).
  exists x. split; auto. destruct H; auto.
Qed.

(** ** C178: windows of a satellite given in the GCRS frame *)
Theorem C178_celestial_windows :
  forall A M l unit julian points sun threshold light d, accurate_arrays A -> accurate M -> on_earth l ->
    Forall dated julian -> length points = length julian -> length sun = length julian ->
    all_sensible l unit julian points -> (forall p, In p sun -> within_km 30000 900000000 Ukm p) ->
    light <> OtherLight -> finite threshold -> 0 <= value threshold <= 90 ->
    exists counted : nat -> Prop,
      (forall i, counted i ->
         (exists e, gcrs_elevation l unit julian points i e /\ value threshold - 5 / 100000 < e) /\
         (exists e, gcrs_elevation l Ukm julian sun i e /\ sun_possibly e light (5 / 1000000))) /\
      (forall i e s, gcrs_elevation l unit julian points i e -> value threshold + 5 / 100000 < e < 90 - 5 / 100000 ->
         gcrs_elevation l Ukm julian sun i s -> sun_surely s light (5 / 1000000) -> counted i) /\
      ((exists i, counted i) -> exists runs, all_runs counted runs /\
         fgcrs_windows A M l unit julian points sun threshold light =
         Ok (map (fun r => (nth (if fst r =? 0 then length julian - 1 else fst r - 1)%nat julian d, nth (snd r) julian d)) runs)) /\
      ((forall i, ~ counted i) -> fgcrs_windows A M l unit julian points sun threshold light = Raise IndexError).
Proof.
  intros A M l unit julian points sun th light d GA GM O Dj Lp Ls F Fs NL T Th.
  destruct (gcrs_windows_made A M l unit julian points sun th light GA GM O Dj Lp Ls F Fs NL T Th) as (k & SS & E & H).
  exists (fun i => In i k). split; [intros i; apply H|]. split; [intros i e s; apply H|]. rewrite E. split.
  - intros (i & I). assert (N : k <> []) by (intros ->; destruct I). destruct (index_sets_runs k SS N) as (runs & Er & R).
    exists runs. split; auto. rewrite Er. apply fwindows_ok. intros a b J. apply R in J. destruct J as (L & P & _). split; auto.
    assert (J : In b k) by (apply P; lia). apply H in J. destruct J as ((e & (jd & p & sat & Nj & _) & _) & _). apply nth_error_Some. congruence.
  - intros N. destruct k as [|x k]; [reflexivity|]. exfalso. apply (N x). now left.
Qed.
(** A threshold out of range, or an unknown condition on the light, is refused. *)
Theorem C178_refused :
  forall A M l unit julian points sun threshold light, finite threshold ->
    (value threshold < 0 \/ 90 < value threshold ->
       fgcrs_windows A M l unit julian points sun threshold light = Raise ValueError) /\
    (accurate_arrays A -> accurate M -> on_earth l -> Forall dated julian -> length points = length julian -> all_sensible l unit julian points ->
       fgcrs_windows A M l unit julian points sun threshold OtherLight = Raise ValueError).
Proof.
  intros A M l unit julian points sun th light T. destruct (of_Z_ok 0 ltac:(lia)) as (F0 & V0). destruct (of_Z_ok 90 ltac:(lia)) as (F90 & V90). split.
  - intros R. unfold fgcrs_windows. assert (flt th (of_Z 0) || flt (of_Z 90) th = true) as ->; [|reflexivity].
    apply orb_true_iff. destruct R as [R|R]; [left; apply (flt_iff th _ T F0)|right; apply (flt_iff _ th F90 T)]; [rewrite V0|rewrite V90]; lra.
  - intros GA GM O Dj Lp F. unfold fgcrs_windows. destruct (_ || _); [reflexivity|].
    destruct (points_elevations A M l unit julian points points GA GM O Dj Lp Lp F) as (es & -> & _). reflexivity.
Qed.

(** A geostationary satellite and the Sun at two times. *)
Definition a_date2 : float := literal 4918001 2.
Definition far_out : fvec := FV (of_Z 42164) (of_Z 0) (of_Z (-100)).
Definition the_sun : fvec := FV (of_Z 26500000) (of_Z (-132760000)) (of_Z (-57560000)).
Lemma far_out_ok : within_km 42164 43000 Ukm far_out.
Proof.
  split; [reflexivity|]. unfold far_out. cbn [fx fy fz]. split; [apply finite_Z; lia|]. split; [apply finite_Z; lia|]. split; [apply finite_Z; lia|]. rewrite km_exact.
  unfold norm, dot. cbn [vector vx vy vz fx fy fz]. destruct (of_Z_ok 42164 ltac:(lia)) as (_ & ->). destruct (of_Z_ok 0 ltac:(lia)) as (_ & ->). destruct (of_Z_ok (-100) ltac:(lia)) as (_ & ->). split.
  - rewrite <- (sqrt_square 42164) at 1 by lra. apply sqrt_le_1_alt. lra.
  - rewrite <- (sqrt_square 43000) by lra. apply sqrt_le_1_alt. lra.
Qed.
Lemma the_sun_ok : within_km 30000 900000000 Ukm the_sun.
Proof.
  split; [reflexivity|]. unfold the_sun. cbn [fx fy fz]. split; [apply finite_Z; lia|]. split; [apply finite_Z; lia|]. split; [apply finite_Z; lia|]. rewrite km_exact.
  unfold norm, dot. cbn [vector vx vy vz fx fy fz]. destruct (of_Z_ok 26500000 ltac:(lia)) as (_ & ->). destruct (of_Z_ok (-132760000) ltac:(lia)) as (_ & ->). destruct (of_Z_ok (-57560000) ltac:(lia)) as (_ & ->). split.
  - rewrite <- (sqrt_square 30000) at 1 by lra. apply sqrt_le_1_alt. lra.
  - rewrite <- (sqrt_square 900000000) by lra. apply sqrt_le_1_alt. lra.
Qed.
Lemma far_out_apart l jd sat : on_earth l -> placed Ukm jd far_out sat -> 101 <= norm (from_to (itrs_of (exact_location l)) sat).
Proof.
  intros O (itrs & E & ->). pose proof (ground_norm l O) as Ng. set (G := itrs_of (exact_location l)) in *. set (S := in_km Ukm (point itrs 0)).
  assert (N : norm S = norm (vector far_out)).
  { unfold S. rewrite in_km_norm. change (size Ukm) with 1000. assert (Z : Rot_Spec.of_size 1 (one_row jd far_out Ukm)) by (repeat split).
    rewrite (Rot_Proofs.gcrs_to_itrs_ok 1 _ Z) in E. injection E as <-. change (point _ 0) with (Rot_Proofs.to_itrs (value jd) (vector far_out)).
    rewrite (proj1 (Flr_Proofs.rigid_norm _ _ (vector far_out) (Rot_Proofs.to_itrs_rigid _))). field. }
  destruct far_out_ok as (_ & _ & _ & _ & B & _). rewrite km_exact in B.
  pose proof (Flg_Proofs.norm_near (from_to G S) S) as T. assert (E2 : norm (sub (from_to G S) S) = norm G) by (unfold norm, dot, sub, from_to; cbn [vx vy vz]; f_equal; ring).
  rewrite E2 in T. apply Flg_Proofs.Rabs_le_inv in T. lra.
Qed.
Example C176_case : accurate_arrays best_arrays /\ accurate best /\ on_earth here /\ dated a_date2 /\ within_km 1000 900000 Ukm far_out /\
  exists sat, placed Ukm a_date2 far_out sat /\ 101 <= norm (from_to (itrs_of (exact_location here)) sat).
Proof.
  split; [exact best_arrays_accurate|]. split; [exact (rounded_accurate _ best_rounded)|]. split; [exact here_on_earth|]. split; [apply dated_literal; lia|].
  split. { destruct far_out_ok as (K & F1 & F2 & F3 & N). repeat (split; auto); lra. }
  destruct (placed_exists Ukm a_date2 far_out) as (sat & P). exists sat. split; auto. exact (far_out_apart here _ sat here_on_earth P).
Qed.
Example C177_case : within_km 30000 900000000 Ukm the_sun /\ exists sat, placed Ukm a_date2 the_sun sat.
Proof. split; [exact the_sun_ok|apply placed_exists]. Qed.
Example C178_case : let julian := [a_date2; literal 4918003 2] in
  Forall dated julian /\ all_sensible here Ukm julian [far_out; far_out] /\ forall p, In p [the_sun; the_sun] -> within_km 30000 900000000 Ukm p.
Proof.
  intros julian. split; [constructor; [apply dated_literal; lia|constructor; [apply dated_literal; lia|constructor]]|]. split.
  - intros i jd p Ej Ep. assert (p = far_out) as ->. { apply nth_error_In in Ep. cbn in Ep. intuition congruence. }
    split; [destruct far_out_ok as (K & F1 & F2 & F3 & N); repeat (split; auto); lra|]. intros sat P. exact (far_out_apart here _ sat here_on_earth P).
  - intros p I. assert (p = the_sun) as -> by (cbn in I; intuition congruence). exact the_sun_ok.
Qed.

Print Assumptions C176_celestial_satellite.
Print Assumptions C177_far_body.
Print Assumptions C178_celestial_windows.
Print Assumptions C178_refused.
