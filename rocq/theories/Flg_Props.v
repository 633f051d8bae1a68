(** Ground geometry and windows in floating point: C131 to C136. *)
From Coq Require Import List ZArith Reals Arith Bool Lra Lia Sorted.
From Flocq Require Import Core.Core IEEE754.BinarySingleNaN IEEE754.Binary IEEE754.Bits.
From Verif Require Import Py PyLemmas Fl_Model Fl_Spec Fl_Proofs Flc_Spec Rot_Model Rot_Spec Geo_Model Vtw_Model Vtw_Spec Vis_Proofs
  Flg_Model Flg_Spec Flg_Proofs4 Flg_Proofs7 Flg_Best Flw_Model Flw_Spec Flw_Proofs Flg_Cases.
Import ListNotations.
Open Scope R_scope.
Open Scope list_scope.

(** ** C131: the coordinates of a location *)
Theorem C131_location_coordinates :
  forall M l, accurate M -> on_earth l ->
    exists g, fitrs M l = Ok g /\ finite_vec g /\ norm (from_to (itrs_of (exact_location l)) (vector g)) <= / 10000000000.
Proof. intros M l A O. destruct (ground_ok M l A O) as (g & E & F & H). exists g. auto. Qed.

(** ** C132: the distance between a location and a satellite *)
Theorem C132_distance_accurate :
  forall M l unit p, accurate M -> on_earth l -> in_orbit unit p ->
    let ground := itrs_of (exact_location l) in let sat := exact_km unit p in
    / 1000 <= norm (from_to ground sat) ->
    exists x, fdistance M l unit p = Ok x /\ finite x /\ Rabs (value x - norm (from_to ground sat)) <= 2 / 1000000000.
Proof. exact distance_ok. Qed.

(** ** C133: the elevation of a satellite *)
(** Full claim: the elevation is a number, within 4e-6 degrees of the exact one.  It fails close to
    the zenith and the nadir, where it can be not-a-number. *)
Theorem C133_elevation_partial :
  forall M l unit p, accurate M -> on_earth l -> in_orbit unit p ->
    let ground := itrs_of (exact_location l) in let sat := exact_km unit p in
    100 <= norm (from_to ground sat) ->
    exists x, felevation M l unit p = Ok x /\
      ((is_NaN x /\ 90 - 4 / 1000000 <= Rabs (elevation_of ground sat)) \/
       (finite x /\ Rabs (value x - elevation_of ground sat) <= 4 / 1000000 /\
        (Rabs (elevation_of ground sat) <= 89 -> Rabs (value x - elevation_of ground sat) <= 2 / 1000000000))).
Proof. exact elevation_ok. Qed.
(** Even with correctly rounded functions. *)
Theorem C133_overhead_refuted :
  forall M, rounded M -> exists l unit p x, on_earth l /\ in_orbit unit p /\
    100 <= norm (from_to (itrs_of (exact_location l)) (exact_km unit p)) /\
    felevation M l unit p = Ok x /\ is_NaN x.
Proof.
  intros M Rm. destruct (overhead_nan M Rm) as (x & _ & E & N & _). destruct (up_far 0 ltac:(lia)) as (P & D).
  exists here, Ukm, overhead, x. split; [exact here_on_earth|]. split; [exact P|]. split; [exact D|]. split; [exact E|exact N].
Qed.

(** ** C134: the look angle *)
Theorem C134_look_angle_partial :
  forall M l unit p, accurate M -> on_earth l -> in_orbit unit p ->
    let ground := itrs_of (exact_location l) in let sat := exact_km unit p in let t := look_angle_of ground sat in
    100 <= norm (from_to ground sat) ->
    exists x, flook_angle M l unit p = Ok x /\
      ((is_NaN x /\ (t <= 4 / 1000000 \/ 180 - 4 / 1000000 <= t)) \/
       (finite x /\ Rabs (value x - t) <= 4 / 1000000 /\ (1 <= t <= 179 -> Rabs (value x - t) <= 2 / 1000000000))).
Proof. exact look_ok. Qed.
Theorem C134_overhead_refuted :
  forall M, rounded M -> exists l unit p x, on_earth l /\ in_orbit unit p /\
    100 <= norm (from_to (itrs_of (exact_location l)) (exact_km unit p)) /\
    flook_angle M l unit p = Ok x /\ is_NaN x.
Proof.
  intros M Rm. destruct (overhead_nan M Rm) as (_ & x & _ & _ & E & N). destruct (up_far 0 ltac:(lia)) as (P & D).
  exists here, Ukm, overhead, x. split; [exact here_on_earth|]. split; [exact P|]. split; [exact D|]. split; [exact E|exact N].
Qed.

(** ** C135: windows *)
(** Full claim: the windows are the runs of the samples whose elevation is above the threshold, up
    to 4e-6 degrees, while the Sun is where it should be.  Samples at the zenith can be missed. *)
Theorem C135_windows_partial :
  forall M l unit julian points sun threshold light d, accurate M -> on_earth l -> all_far l unit points ->
    length julian = length points -> Forall finite sun -> light <> OtherLight -> finite threshold -> 0 <= value threshold <= 90 ->
    exists counted : nat -> Prop,
      (forall i, counted i -> sun_right sun light i /\ exists e, elevation_is l unit points i e /\ value threshold - 4 / 1000000 < e) /\
      (forall i e, elevation_is l unit points i e -> value threshold + 4 / 1000000 < e < 90 - 4 / 1000000 -> sun_right sun light i -> counted i) /\
      ((exists i, counted i) -> exists runs, all_runs counted runs /\
         fgenerate_windows M l unit julian points sun threshold light =
         Ok (map (fun r => (nth (if fst r =? 0 then length julian - 1 else fst r - 1)%nat julian d, nth (snd r) julian d)) runs)) /\
      ((forall i, ~ counted i) -> fgenerate_windows M l unit julian points sun threshold light = Raise IndexError).
Proof.
  intros M l unit julian points sun th light d A O F Lj Ls NL T Th.
  destruct (windows_made M l unit julian points sun th light A O F Lj Ls NL T Th) as (k & SS & E & H).
  exists (fun i => In i k). split; [intros i; apply H|]. split; [intros i e; apply H|]. rewrite E. split.
  - intros (i & I). assert (N : k <> []) by (intros ->; destruct I). destruct (index_sets_runs k SS N) as (runs & Er & R).
    exists runs. split; auto. rewrite Er. apply fwindows_ok. intros a b J. apply R in J. destruct J as (L & P & _). split; auto.
    assert (J : In b k) by (apply P; lia). apply H in J. destruct J as (_ & e & (p & Np & _) & _). rewrite Lj. apply nth_error_Some. congruence.
  - intros N. destruct k as [|x k]; [reflexivity|]. exfalso. apply (N x). now left.
Qed.
(** A pass of four samples: the satellite is well above the threshold in the last three, and there
    are two windows instead of one. *)
Theorem C135_split_refuted :
  exists l unit julian points sun threshold light, on_earth l /\ all_far l unit points /\
    length julian = length points /\ Forall finite sun /\ finite threshold /\ 0 <= value threshold <= 90 /\
    (forall i, (1 <= i <= 3)%nat -> sun_right sun light i /\ exists e, elevation_is l unit points i e /\ value threshold + 1 < e) /\
    forall M, rounded M -> exists t0 t1 t2 t3,
      fgenerate_windows M l unit julian points sun threshold light = Ok [(t0, t1); (t2, t3)] /\
      julian = [t0; t1; t2; t3].
Proof.
  exists here, Ukm, clock, pass, suns, (of_Z 10), Anytime. destruct (of_Z_ok 10 ltac:(lia)) as (F10 & V10). destruct (of_Z_ok 0 ltac:(lia)) as (F0 & _).
  split; [exact here_on_earth|]. split; [exact pass_far|]. split; [reflexivity|]. split; [unfold suns; repeat constructor; exact F0|].
  split; [exact F10|]. rewrite V10. split; [lra|]. split.
  - intros i I. split.
    + unfold sun_right. destruct (nth_error suns i) as [x|] eqn:E; [exists x; auto|]. apply nth_error_None in E. change (length suns) with 4%nat in E. lia.
    + destruct (pass_high i I) as (e & E & H). exists e. split; [exact E|lra].
  - intros M Rm. eexists _, _, _, _. split; [exact (pass_split M Rm)|reflexivity].
Qed.

(** ** C136: the validation of latitude and longitude *)
(** Full claim: a location is made exactly if the latitude is between -90 and 90 and the longitude
    between -180 and 180, and there is a ValueError otherwise.  It fails for not-a-number. *)
Theorem C136_validation_partial :
  forall latitude longitude height angle length, finite latitude -> finite longitude ->
    (-90 <= value latitude <= 90 /\ -180 <= value longitude <= 180 ->
       fground_location latitude longitude height angle length = Ok (FLocation latitude longitude height angle length)) /\
    (~ (-90 <= value latitude <= 90 /\ -180 <= value longitude <= 180) ->
       fground_location latitude longitude height angle length = Raise ValueError).
Proof.
  intros la lo h ua ul Fa Fo. unfold fground_location.
  destruct (of_Z_ok (-90) ltac:(lia)) as (F1 & V1). destruct (of_Z_ok 90 ltac:(lia)) as (F2 & V2). destruct (of_Z_ok (-180) ltac:(lia)) as (F3 & V3). destruct (of_Z_ok 180 ltac:(lia)) as (F4 & V4).
  pose proof (flt_iff _ _ Fa F1) as E1. pose proof (flt_iff _ _ F2 Fa) as E2. pose proof (flt_iff _ _ Fo F3) as E3. pose proof (flt_iff _ _ F4 Fo) as E4.
  rewrite V1 in E1. rewrite V2 in E2. rewrite V3 in E3. rewrite V4 in E4.
  destruct (flt la (of_Z (-90))), (flt (of_Z 90) la), (flt lo (of_Z (-180))), (flt (of_Z 180) lo); cbn [orb]; split; intros H; try reflexivity; exfalso;
    repeat match goal with
    | E : true = true <-> _ |- _ => let K := fresh in pose proof (proj1 E eq_refl) as K; clear E
    | E : false = true <-> ?P |- _ => let K := fresh in assert (K : ~ P) by (intros Q; apply E in Q; discriminate); clear E
    end; try (destruct H; lra); try (apply H; lra).
Qed.
Theorem C136_infinite :
  forall s x height angle length,
    fground_location (B754_infinity 53 1024 s) x height angle length = Raise ValueError /\
    (finite x -> fground_location x (B754_infinity 53 1024 s) height angle length = Raise ValueError).
Proof.
  intros s x h ua ul. unfold fground_location.
  assert (A : flt (B754_infinity 53 1024 s) (of_Z (-90)) || flt (of_Z 90) (B754_infinity 53 1024 s) = true) by (destruct s; vm_compute; reflexivity).
  assert (B : flt (B754_infinity 53 1024 s) (of_Z (-180)) || flt (of_Z 180) (B754_infinity 53 1024 s) = true) by (destruct s; vm_compute; reflexivity).
  split; [rewrite A; reflexivity|]. intros _. rewrite B. destruct (flt x (of_Z (-90)) || flt (of_Z 90) x); reflexivity.
Qed.
Theorem C136_nan_refuted :
  forall n x height angle length, is_NaN n -> finite x ->
    (-180 <= value x <= 180 -> fground_location n x height angle length = Ok (FLocation n x height angle length)) /\
    (-90 <= value x <= 90 -> fground_location x n height angle length = Ok (FLocation x n height angle length)) /\
    fground_location n n height angle length = Ok (FLocation n n height angle length).
Proof.
  intros n x h ua ul N F. assert (L : forall y, flt n y = false) by (intros y; revert N; unfold is_NaN, flt; destruct n; cbn; try discriminate; intros _; destruct y; reflexivity).
  assert (R : forall y, flt y n = false) by (intros y; now apply flt_nan). unfold fground_location. rewrite !L, !R. cbn [orb].
  destruct (of_Z_ok (-90) ltac:(lia)) as (F1 & V1). destruct (of_Z_ok 90 ltac:(lia)) as (F2 & V2). destruct (of_Z_ok (-180) ltac:(lia)) as (F3 & V3). destruct (of_Z_ok 180 ltac:(lia)) as (F4 & V4).
  split; [|split; [|reflexivity]]; intros H.
  - assert (flt x (of_Z (-180)) = false) as -> by (apply (bool_iff _ _ (flt_iff _ _ F F3)); lra). assert (flt (of_Z 180) x = false) as -> by (apply (bool_iff _ _ (flt_iff _ _ F4 F)); lra). reflexivity.
  - assert (flt x (of_Z (-90)) = false) as -> by (apply (bool_iff _ _ (flt_iff _ _ F F1)); lra). assert (flt (of_Z 90) x = false) as -> by (apply (bool_iff _ _ (flt_iff _ _ F2 F)); lra). reflexivity.
Qed.

(** ** Examples: the hypotheses hold of a correctly rounded library, a location on the equator and
    satellites above it. *)
Example library_case : rounded best /\ accurate best.
Proof. split; [exact best_rounded|exact (rounded_accurate _ best_rounded)]. Qed.
Example C131_case : accurate best /\ on_earth here.
Proof. split; [exact (rounded_accurate _ best_rounded)|exact here_on_earth]. Qed.
Example C133_case : in_orbit Ukm (up 1000) /\ 100 <= norm (from_to (itrs_of (exact_location here)) (exact_km Ukm (up 1000))) /\
  exists x, felevation best here Ukm (up 1000) = Ok x /\ finite x /\ 20 < value x.
Proof.
  destruct (up_far 1000 ltac:(lia)) as (P & D). split; [exact P|]. split; [exact D|].
  destruct (pass_elevations best best_rounded) as (_ & e & _ & _ & _ & E & _ & _ & _ & H & _). exists e. split; [exact E|exact H].
Qed.
Example C135_case : all_far here Ukm pass /\ length clock = length pass /\ Forall finite suns.
Proof. split; [exact pass_far|]. split; [reflexivity|]. unfold suns. destruct (of_Z_ok 0 ltac:(lia)) as (F0 & _). repeat constructor; exact F0. Qed.

Print Assumptions C131_location_coordinates.
Print Assumptions C132_distance_accurate.
Print Assumptions C133_elevation_partial.
Print Assumptions C133_overhead_refuted.
Print Assumptions C134_look_angle_partial.
Print Assumptions C134_overhead_refuted.
Print Assumptions C135_windows_partial.
Print Assumptions C135_split_refuted.
Print Assumptions C136_validation_partial.
Print Assumptions C136_infinite.
Print Assumptions C136_nan_refuted.
