(** Windows against the true horizon: C191. *)
From Coq Require Import List ZArith Reals Lra Lia Psatz.
From Verif Require Import Py Num Rot_Model Rot_Spec Geo_Model Geo_Spec Geo_Alt Geo_Alt2 Geo_Dir Geo_Props Geo_Props3 Geo_Props4
  Lvlh_Model Vtw_Model Vtw_Spec Vis_Model Vis_Spec Vis_Proofs Vis_Props Flg_Spec Lvlh_Proofs Flg_Proofs Flg_Proofs4 Up_Spec Up_Props.
Import ListNotations.
Open Scope R_scope.

Lemma higher_iff l th p : -50 <= height_km l -> 0 <= th <= 90 -> p <> itrs_of l -> (higher_than th (itrs_of l) p <-> th < elevation_of (itrs_of l) p).
Proof.
  intros H T NE. destruct (up_near l H) as (N & _). assert (D : 0 < norm (sub p (itrs_of l))).
  { apply Geo_Dir.norm_pos. intros Z. apply NE. pose proof (f_equal vx Z) as Z1. pose proof (f_equal vy Z) as Z2. pose proof (f_equal vz Z) as Z3. unfold sub, zero in Z1, Z2, Z3. cbn [vx vy vz] in Z1, Z2, Z3. apply vec_ext; lra. }
  unfold higher_than, elevation_of, in_degrees. change (from_to (itrs_of l) p) with (sub p (itrs_of l)). rewrite angle_fold. set (d := sub p (itrs_of l)) in *. set (g := itrs_of l) in *. pose proof (cosine_range d g D N) as CR. pose proof (ang_range d g) as AR.
  assert (E : dot d g = cosine d g * (norm d * norm g)) by (unfold cosine; field; split; lra). assert (C : cosine d g = cos (ang d g)) by (unfold ang; rewrite cos_acos by exact CR; reflexivity).
  rewrite E, C. set (a := ang d g) in *. pose proof PI_RGT_0 as P. assert (DN : 0 < norm d * norm g) by (apply Rmult_lt_0_compat; lra).
  assert (S : sin (th * (PI / 180)) = cos (PI / 2 - th * (PI / 180))) by (symmetry; apply cos_shift). set (b := PI / 2 - th * (PI / 180)) in *. assert (B : 0 <= b <= PI / 2) by (unfold b; nra).
  assert (Q : th < 90 - a * (180 / PI) <-> a < b).
  { unfold b. replace (PI / 2 - th * (PI / 180)) with ((90 - th) * (PI / 180)) by (field). assert (K : a = a * (180 / PI) * (PI / 180)) by (field; lra). assert (0 < PI / 180) by lra. split; intros X; [rewrite K; apply Rmult_lt_compat_r; lra|]. rewrite K in X. apply Rmult_lt_reg_r in X; lra. }
  rewrite Q, S. split; intros X.
  - destruct (Rlt_dec a b) as [L|L]; [exact L|exfalso]. assert (cos a <= cos b) by (apply cos_decr_1; lra). assert (cos a * (norm d * norm g) <= cos b * (norm d * norm g)) by (apply Rmult_le_compat_r; lra). lra.
  - rewrite Rmult_assoc. apply Rmult_lt_compat_r; [exact DN|]. apply cos_decreasing_1; lra.
Qed.
(** ** C191: windows and the true horizon *)
(** At every sample in a window the satellite is higher than the threshold less 0.195 degrees above the true horizon, and every sample
    at which it is higher than the threshold plus 0.195 degrees is in a window (of any light). *)
Theorem C191_windows_true_horizon_partial :
  forall sun n p v s l threshold light ws, of_size n p -> of_size n v -> p_time v = p_time p ->
    sun_seen sun p s -> increasing p -> -50 <= height_km l -> (forall i, (i < n)%nat -> kilometres p i <> itrs_of l) ->
    ~ visible n p s l threshold light 0 ->
    generate_windows sun (Satellite p (Some v)) l threshold light = Ok ws ->
    (forall i w, (i < n)%nat -> In w ws -> vw_rise w < time_of p i <= vw_set w -> threshold - 0.195 < true_elevation l (kilometres p i)) /\
    (forall i, (i < n)%nat -> light = Anytime -> threshold + 0.195 <= true_elevation l (kilometres p i) -> exists w, In w ws /\ vw_rise w < time_of p i <= vw_set w).
Proof.
  intros sun n p v s l th light ws SP SV ST E Inc H NE N0 G. destruct (valid_call sun p v l th light ws G) as (NL & TH).
  destruct (C102_ordered_disjoint_complete_partial sun n p v s l th light ws SP SV ST E Inc N0 G) as (_ & _ & C).
  assert (HN : forall i, (i < n)%nat -> Rabs (elevation_of (itrs_of l) (kilometres p i) - true_elevation l (kilometres p i)) < 0.195).
  { intros i I. apply horizon_near; [exact H|]. apply Geo_Dir.norm_pos. intros Z. apply (NE i I). pose proof (f_equal vx Z) as Z1. pose proof (f_equal vy Z) as Z2. pose proof (f_equal vz Z) as Z3. unfold from_to, zero in Z1, Z2, Z3. cbn [vx vy vz] in Z1, Z2, Z3. apply vec_ext; lra. }
  split.
  - intros i w I Iw T. destruct (proj1 (C i I) (ex_intro _ w (conj Iw T))) as (_ & X & _). apply (higher_iff l th _ H TH (NE i I)) in X. pose proof (HN i I) as Y. apply Rabs_def2 in Y. lra.
  - intros i I -> T. apply (C i I). split; [exact I|]. split; [|exact Logic.I]. apply (higher_iff l th _ H TH (NE i I)). pose proof (HN i I) as Y. apply Rabs_def2 in Y. lra.
Qed.
(** The case of C102 and C103. *)
Example C191_case : -50 <= height_km case_place /\ (forall i, (i < 4)%nat -> kilometres case_path i <> itrs_of case_place) /\
  exists s a, sun_seen case_sun case_path s /\ ~ visible 4 case_path s case_place 10 Anytime 0 /\
    generate_windows case_sun (Satellite case_path (Some case_speed)) case_place 10 Anytime = Ok [Vwindow 2459000 2459002 a].
Proof.
  split; [unfold height_km, to_km, case_place; cbn; lra|]. split.
  - intros i I Z. rewrite case_ground in Z. apply (f_equal vx) in Z. unfold kilometres, times, point, case_path in Z. cbn [p_unit p_x p_y p_z vx vy vz] in Z. do 4 (destruct i as [|i]; [cbn in Z; lra|]). lia.
  - destruct C102_case as (_ & _ & _ & _ & s & E & V & _). destruct C103_case as (a & A & _). exists s, a. split; [exact E|]. split; [|exact A]. intros X. apply V in X. lia.
Qed.
Print Assumptions C191_windows_true_horizon_partial.
Print Assumptions C191_case.
