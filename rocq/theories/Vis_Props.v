(** Windows from positions: C102, C103, C104. *)
From Coq Require Import List Reals ZArith Arith Bool Lia Lra Psatz.
From Verif Require Import Py PyLemmas Num Time_Model Rot_Model Rot_Spec Rot_Proofs Rot_Props Geo_Model Geo_Spec Geo_Alt Geo_Dir Geo_Props
  Lvlh_Model Vtw_Model Vtw_Spec Vtw_Proofs Vis_Model Vis_Spec Vis_Proofs.
Import ListNotations.
Open Scope R_scope.
Open Scope list_scope.

(** ** C102: windows are the runs of visible samples *)
Theorem C102_windows_are_runs_partial :
  forall sun n p v s l threshold light, of_size n p -> of_size n v -> p_time v = p_time p ->
    sun_seen sun p s -> light <> OtherLight -> 0 <= threshold <= 90 ->
    (exists i, visible n p s l threshold light i) ->
    exists runs ws att, generate_windows sun (Satellite p (Some v)) l threshold light = Ok ws /\
      satellite_attitude (Satellite p (Some v)) l = Ok att /\
      all_runs (visible n p s l threshold light) runs /\
      Forall2 (fun r w => vw_attitude w = att /\ vw_set w = time_of p (snd r) /\
                 forall c, fst r = S c -> vw_rise w = time_of p c) runs ws.
Proof.
  intros sun n p v s l th light SP SV ST E NL TH V. destruct (generated sun n p v s l th light SP SV ST E NL TH V) as (runs & att & A & R & G).
  eexists runs, _, att. split; [exact G|]. split; auto. split; auto. clear. induction runs as [|(a, b) runs IH]; constructor; auto.
  cbn [vw_attitude vw_set vw_rise fst snd]. split; auto. split; auto. intros c ->. cbn [Nat.eqb]. f_equal. lia.
Qed.
(** The Sun has a position at any times. *)
Lemma C102_sun_exists : forall sun n p, of_size n p -> exists s, sun_seen sun p s /\ of_size n s /\
  forall i, (i < n)%nat -> kilometres s i = to_itrs (time_of p i) (sun (time_of p i)).
Proof.
  intros sun n p (<- & _). unfold sun_seen. set (q := in_km (p_time p) (map sun (p_time p))).
  assert (S : of_size (length (p_time p)) q) by (apply in_km_size; now rewrite map_length).
  rewrite (gcrs_to_itrs_ok _ q S). eexists. split; [reflexivity|]. split; [exact (image_size _ _ to_itrs _ 1000 S eq_refl)|].
  intros i I. pose proof (image_point _ to_itrs q (p_unit q) i S I) as P. cbv zeta in P. cbv zeta. unfold kilometres. cbn [p_unit]. rewrite P. clear P.
  assert (Q : point q i = sun (time_of p i)).
  { unfold point, q, in_km, time_of. cbn [p_x p_y p_z]. rewrite !map_map.
    apply vec_eq; cbn [vx vy vz].
    - rewrite (nth_indep _ 0 (vx (sun 0))) by now rewrite map_length. now rewrite (map_nth (fun x => vx (sun x))).
    - rewrite (nth_indep _ 0 (vy (sun 0))) by now rewrite map_length. now rewrite (map_nth (fun x => vy (sun x))).
    - rewrite (nth_indep _ 0 (vz (sun 0))) by now rewrite map_length. now rewrite (map_nth (fun x => vz (sun x))). }
  rewrite Q. unfold q, in_km. cbn [p_time p_unit]. fold (time_of p i). unfold times. apply vec_eq; cbn [vx vy vz]; field.
Qed.

Lemma valid_call sun p v l th light ws : generate_windows sun (Satellite p (Some v)) l th light = Ok ws -> light <> OtherLight /\ 0 <= th <= 90.
Proof.
  unfold generate_windows. cbn [sat_velocity sat_position]. destruct (Rlt_dec th 0); [discriminate|]. destruct (Rlt_dec 90 th); [discriminate|].
  destruct (itrs_to_azel p l); [|discriminate]. cbn [bind]. intros H. split; [|lra]. intros ->. discriminate.
Qed.
(** The windows rise before they set, do not overlap, and cover exactly the visible samples,
    when the satellite is not visible at the first one. *)
Theorem C102_ordered_disjoint_complete_partial :
  forall sun n p v s l threshold light ws, of_size n p -> of_size n v -> p_time v = p_time p ->
    sun_seen sun p s -> increasing p -> ~ visible n p s l threshold light 0 ->
    generate_windows sun (Satellite p (Some v)) l threshold light = Ok ws ->
    (forall w, In w ws -> vw_rise w < vw_set w) /\
    (forall i j w w', (i < j)%nat -> nth_error ws i = Some w -> nth_error ws j = Some w' -> vw_set w < vw_rise w') /\
    (forall i, (i < n)%nat ->
       ((exists w, In w ws /\ vw_rise w < time_of p i <= vw_set w) <-> visible n p s l threshold light i)).
Proof.
  intros sun n p v s l th light ws SP SV ST E Inc N0 H.
  destruct (valid_call sun p v l th light ws H) as (NL & TH).
  destruct (vis_some sun n p v s l th light SP E NL TH) as [V|V]; [|rewrite (generated_none sun n p v s l th light) in H by auto; discriminate].
  destruct (generated sun n p v s l th light SP SV ST E NL TH V) as (runs & att & A & R & G). rewrite G in H. injection H as <-.
  set (P := visible n p s l th light) in *.
  assert (F : forall r, In r runs -> exists c, fst r = S c /\ (c < snd r < n)%nat).
  { intros (a, b) I. apply R in I. destruct I as (L & Pi & _). destruct a as [|c]; [exfalso; apply N0, Pi; lia|]. exists c. split; auto. cbn [fst snd]. split; [lia|]. apply (vis_lt n p s l th light). apply Pi. lia. }
  assert (Lt : forall i j, (i < j)%nat -> (j < n)%nat -> time_of p i < time_of p j) by (intros; apply Inc; auto; now rewrite (proj1 SP)).
  split; [|split].
  - intros w I. apply in_map_iff in I. destruct I as (r & <- & I). destruct (F r I) as (c & -> & L). cbn [vw_rise vw_set Nat.eqb]. apply Lt; lia.
  - intros i j w w' L Hi Hj. rewrite nth_error_map in Hi, Hj. destruct (nth_error runs i) as [(a, b)|] eqn:Ei; [|discriminate]. destruct (nth_error runs j) as [(a', b')|] eqn:Ej; [|discriminate].
    injection Hi as <-. injection Hj as <-. pose proof (proj2 R i j a b a' b' L Ei Ej) as B. destruct (F (a', b') (nth_error_In _ _ Ej)) as (c' & Ea & L'). cbn [fst snd] in *. subst a'. cbn [vw_rise vw_set fst snd Nat.eqb]. apply Lt; lia.
  - intros i I. split.
    + intros (w & Iw & T1 & T2). apply in_map_iff in Iw. destruct Iw as ((a, b) & <- & Ir). destruct (F _ Ir) as (c & Ea & L). cbn [fst snd] in *. subst a. cbn [vw_rise vw_set fst snd Nat.eqb] in T1, T2. replace (S c - 1)%nat with c in T1 by lia.
      apply R in Ir. destruct Ir as (_ & Pi & _). apply Pi. split.
      * destruct (le_lt_dec (S c) i) as [|X]; auto. exfalso. destruct (Nat.eq_dec i c) as [->|]; [lra|]. assert (time_of p i < time_of p c) by (apply Lt; lia). lra.
      * destruct (le_lt_dec i b) as [|X]; auto. exfalso. pose proof (Lt b i X I). lra.
    + intros Vi. destruct (vis_listed sun n p v s l th light SP E NL TH runs i R Vi) as (a & b & Ir & L). eexists. split; [apply in_map; exact Ir|]. destruct (F _ Ir) as (c & Ea & Lb). cbn [fst snd] in *. subst a.
      cbn [vw_rise vw_set fst snd Nat.eqb]. split; [apply Lt; lia|]. destruct (Nat.eq_dec i b) as [->|]; [lra|]. left. apply Lt; lia.
Qed.
(** A satellite visible at the first sample gets a first window that begins at the last
    sample of the series; one that is never visible makes the call fail. *)
Theorem C102_first_sample_refuted :
  forall sun n p v s l threshold light, of_size n p -> of_size n v -> p_time v = p_time p ->
    sun_seen sun p s -> light <> OtherLight -> 0 <= threshold <= 90 -> increasing p ->
    visible n p s l threshold light 0 ->
    exists w ws, generate_windows sun (Satellite p (Some v)) l threshold light = Ok (w :: ws) /\
      vw_rise w = time_of p (n - 1) /\ vw_set w <= vw_rise w.
Proof.
  intros sun n p v s l th light SP SV ST E NL TH Inc V0. destruct (generated sun n p v s l th light SP SV ST E NL TH (ex_intro _ 0%nat V0)) as (runs & att & A & R & G).
  destruct (vis_listed sun n p v s l th light SP E NL TH runs 0 R V0) as (a & b & I & L). assert (a = 0)%nat by lia. subst a.
  apply In_nth_error in I. destruct I as (k & K). destruct runs as [|(a', b') runs]; [destruct k; discriminate|]. destruct k as [|k].
  - injection K as -> ->. rewrite G. cbn [map fst snd Nat.eqb]. eexists _, _. split; [reflexivity|]. cbn [vw_rise vw_set]. split; auto.
    assert (B : (b < n)%nat). { apply (vis_lt n p s l th light). assert (M : In (0%nat, b) ((0%nat, b) :: runs)) by now left. apply R in M. apply M. lia. }
    destruct (Nat.eq_dec b (n - 1)) as [->|]; [lra|]. left. apply Inc; [lia|]. rewrite (proj1 SP). lia.
  - exfalso. pose proof (proj2 R 0 (S k) a' b' 0 b ltac:(lia) eq_refl K)%nat. lia.
Qed.
Theorem C102_never_visible_refuted :
  forall sun n p v s l threshold light, of_size n p -> of_size n v -> p_time v = p_time p ->
    sun_seen sun p s -> light <> OtherLight -> 0 <= threshold <= 90 ->
    (forall i, ~ visible n p s l threshold light i) ->
    generate_windows sun (Satellite p (Some v)) l threshold light = Raise IndexError.
Proof. intros. now apply generated_none with n s. Qed.
(** Calls that are refused. *)
Theorem C102_rejected :
  forall sun p l threshold light,
    generate_windows sun (Satellite p None) l threshold light = Raise PyWarning /\
    forall n v, of_size n p -> (threshold < 0 \/ 90 < threshold \/ light = OtherLight) ->
      generate_windows sun (Satellite p (Some v)) l threshold light = Raise ValueError.
Proof.
  intros sun p l th light. split; [reflexivity|]. intros n v SP C. unfold generate_windows. cbn [sat_velocity sat_position].
  destruct (Rlt_dec th 0); [reflexivity|]. destruct (Rlt_dec 90 th); [reflexivity|]. destruct C as [?|[?| ->]]; try lra.
  rewrite (Geo_Props4.azel_ok n) by exact SP. reflexivity.
Qed.

(** ** C103: narrower conditions give narrower windows *)
Theorem C103_nested_partial :
  forall sun n p v s l low high light light' ws ws', of_size n p -> of_size n v -> p_time v = p_time p ->
    sun_seen sun p s -> increasing p -> low <= high -> light = light' \/ light = Anytime ->
    ~ visible n p s l low light 0 ->
    generate_windows sun (Satellite p (Some v)) l low light = Ok ws ->
    generate_windows sun (Satellite p (Some v)) l high light' = Ok ws' ->
    forall w', In w' ws' -> exists w, In w ws /\ vw_rise w <= vw_rise w' /\ vw_set w' <= vw_set w.
Proof.
  intros sun n p v s l low high light light' ws ws' SP SV ST E Inc LH C N0 H H' w' Iw'.
  destruct (valid_call sun p v l low light ws H) as (NL & TH). destruct (valid_call sun p v l high light' ws' H') as (NL' & TH').
  assert (Sub : forall i, visible n p s l high light' i -> visible n p s l low light i).
  { intros i (I & Hi & Li). split; auto. split.
    - unfold higher_than in *. eapply Rle_lt_trans; [|exact Hi]. rewrite !Rmult_assoc. apply Rmult_le_compat_r.
      + apply Rmult_le_pos; apply sqrt_pos.
      + pose proof PI_RGT_0. destruct LH as [LH| ->]; [|lra]. left. apply sin_degrees; lra.
    - destruct C as [->| ->]; auto. }
  destruct (vis_some sun n p v s l low light SP E NL TH) as [V|V]; [|rewrite (generated_none sun n p v s l low light) in H by auto; discriminate].
  destruct (vis_some sun n p v s l high light' SP E NL' TH') as [V'|V']; [|rewrite (generated_none sun n p v s l high light') in H' by auto; discriminate].
  destruct (generated sun n p v s l low light SP SV ST E NL TH V) as (runs & att & A & R & G). rewrite G in H. injection H as <-.
  destruct (generated sun n p v s l high light' SP SV ST E NL' TH' V') as (runs' & att' & A' & R' & G'). rewrite G' in H'. injection H' as <-.
  apply in_map_iff in Iw'. destruct Iw' as ((a', b') & <- & I'). apply R' in I'. destruct I' as (L' & P' & _).
  destruct (vis_listed sun n p v s l low light SP E NL TH runs a' R) as (a & b & I & Lb); [apply Sub, P'; lia|].
  pose proof (proj1 (proj1 R a b) I) as (L & P & Nb & _).
  assert (B : (b' <= b)%nat). { destruct (le_lt_dec b' b) as [|X]; auto. exfalso. apply Nb, Sub, P'. lia. }
  assert (A0 : a <> 0%nat) by (intros ->; apply N0, P; lia).
  assert (Bn : (b < n)%nat) by (apply (vis_lt n p s l low light), P; lia).
  assert (Le : forall i j, (i <= j)%nat -> (j < n)%nat -> time_of p i <= time_of p j).
  { intros i j Lij Lj. destruct (Nat.eq_dec i j) as [->|]; [lra|]. left. apply Inc; [lia|]. now rewrite (proj1 SP). }
  eexists. split; [apply in_map; exact I|]. cbn [vw_rise vw_set fst snd]. destruct (Nat.eqb_spec a 0); [lia|]. destruct (Nat.eqb_spec a' 0); [lia|]. split; apply Le; lia.
Qed.
(** No instant belongs both to a window by day and to a window at night. *)
Theorem C103_day_and_night_disjoint_partial :
  forall sun n p v s l threshold threshold' ws ws', of_size n p -> of_size n v -> p_time v = p_time p ->
    sun_seen sun p s -> increasing p ->
    ~ visible n p s l threshold Daytime 0 -> ~ visible n p s l threshold' Night 0 ->
    generate_windows sun (Satellite p (Some v)) l threshold Daytime = Ok ws ->
    generate_windows sun (Satellite p (Some v)) l threshold' Night = Ok ws' ->
    forall w w' t, In w ws -> In w' ws' -> ~ (vw_rise w < t <= vw_set w /\ vw_rise w' < t <= vw_set w').
Proof.
  intros sun n p v s l th th' ws ws' SP SV ST E Inc N0 N0' H H' w w' t Iw Iw' (T & T').
  destruct (valid_call sun p v l th Daytime ws H) as (NL & TH). destruct (valid_call sun p v l th' Night ws' H') as (NL' & TH').
  destruct (vis_some sun n p v s l th Daytime SP E NL TH) as [V|V]; [|rewrite (generated_none sun n p v s l th Daytime) in H by auto; discriminate].
  destruct (vis_some sun n p v s l th' Night SP E NL' TH') as [V'|V']; [|rewrite (generated_none sun n p v s l th' Night) in H' by auto; discriminate].
  destruct (generated sun n p v s l th Daytime SP SV ST E NL TH V) as (runs & att & A & R & G). rewrite G in H. injection H as <-.
  destruct (generated sun n p v s l th' Night SP SV ST E NL' TH' V') as (runs' & att' & A' & R' & G'). rewrite G' in H'. injection H' as <-.
  apply in_map_iff in Iw. destruct Iw as ((a, b) & <- & I). apply in_map_iff in Iw'. destruct Iw' as ((a', b') & <- & I').
  apply R in I. destruct I as (L & P & _). apply R' in I'. destruct I' as (L' & P' & _). cbn [vw_rise vw_set fst snd] in T, T'.
  assert (A0 : a <> 0%nat) by (intros ->; apply N0, P; lia). assert (A0' : a' <> 0%nat) by (intros ->; apply N0', P'; lia).
  assert (Bn : (b < n)%nat) by (apply (vis_lt n p s l th Daytime), P; lia). assert (Bn' : (b' < n)%nat) by (apply (vis_lt n p s l th' Night), P'; lia).
  assert (Le : forall i j, (i <= j)%nat -> (j < n)%nat -> time_of p i <= time_of p j).
  { intros i j Lij Lj. destruct (Nat.eq_dec i j) as [->|]; [lra|]. left. apply Inc; [lia|]. now rewrite (proj1 SP). }
  destruct (Nat.eqb_spec a 0); [lia|]. destruct (Nat.eqb_spec a' 0); [lia|].
  destruct (le_lt_dec a' b) as [X|X].
  - destruct (le_lt_dec a b') as [Y|Y].
    + destruct (P (Nat.max a a') ltac:(lia)) as (_ & _ & D). destruct (P' (Nat.max a a') ltac:(lia)) as (_ & _ & N). cbv beta iota in D, N. unfold risen in D. unfold sunk in N. lra.
    + pose proof (Le b' (a - 1)%nat ltac:(lia) ltac:(lia)). lra.
  - pose proof (Le b (a' - 1)%nat ltac:(lia) ltac:(lia)). lra.
Qed.

(** ** C104: the unit in which the position is given does not matter *)
Theorem C104_any_unit :
  forall sun n p p' v v' l threshold light, of_size n p -> of_size n p' -> of_size n v -> of_size n v' ->
    p_time p' = p_time p -> p_time v = p_time p -> p_time v' = p_time p ->
    (forall i, (i < n)%nat -> kilometres p' i = kilometres p i) ->
    match generate_windows sun (Satellite p (Some v)) l threshold light, generate_windows sun (Satellite p' (Some v')) l threshold light with
    | Ok ws, Ok ws' => map vw_rise ws = map vw_rise ws' /\ map vw_set ws = map vw_set ws'
    | Raise e, Raise e' => e = e'
    | _, _ => False
    end.
Proof.
  intros sun n p p' v v' l th light SP SP' SV SV' TP TV TV' K.
  destruct (Rlt_dec th 0) as [T0|T0]; [rewrite !(proj2 (C102_rejected sun _ l th light) n) by auto; reflexivity|].
  destruct (Rlt_dec 90 th) as [T9|T9]; [rewrite !(proj2 (C102_rejected sun _ l th light) n) by auto; reflexivity|].
  assert (DL : light = OtherLight \/ light <> OtherLight) by (destruct light; auto; right; discriminate).
  destruct DL as [O|NL]; [rewrite !(proj2 (C102_rejected sun _ l th light) n) by auto; reflexivity|].
  assert (TH : 0 <= th <= 90) by lra.
  destruct (C102_sun_exists sun n p SP) as (s & E & _). assert (E' : sun_seen sun p' s) by (unfold sun_seen; now rewrite TP).
  assert (EQ : forall i, visible n p s l th light i <-> visible n p' s l th light i).
  { intros i. unfold visible. split; intros (I & X & Y); (split; [exact I|]); rewrite ?K in * by exact I; auto. }
  destruct (vis_some sun n p v s l th light SP E NL TH) as [V|V].
  - destruct (generated sun n p v s l th light SP SV TV E NL TH V) as (runs & att & A & R & ->).
    assert (V' : exists i, visible n p' s l th light i) by (destruct V as (i & V); exists i; now apply EQ).
    destruct (generated sun n p' v' s l th light SP' SV' ltac:(congruence) E' NL TH V') as (runs' & att' & A' & R' & ->).
    assert (runs' = runs). { apply (all_runs_unique (visible n p s l th light)); auto. eapply all_runs_ext; [|exact R']. intros i. symmetry. apply EQ. } subst runs'.
    rewrite !map_map. unfold time_of. rewrite TP. split; reflexivity.
  - rewrite (generated_none sun n p v s l th light) by auto.
    rewrite (generated_none sun n p' v' s l th light); auto; [congruence|]. intros i X. apply (V i). now apply EQ.
Qed.

(** ** A case *)

(** A place on the equator; a satellite below the horizon, overhead twice, below again; the
    Sun overhead at the first two samples and on the other side of the Earth afterwards. *)
Definition case_place : location := Location 0 0 0 1 1000.
Definition case_path : position R :=
  Position [2459000; 2459001; 2459002; 2459003] [-7000; 7000; 7100; -7000] [0; 0; 0; 0] [0; 0; 0; 0] 1000.
Definition case_speed : position R :=
  Position [2459000; 2459001; 2459002; 2459003] [0; 0; 0; 0] [7; 7; 7; 7] [1; 1; 1; 1] 1000.
Definition case_sun (t : R) : vec :=
  to_gcrs t (V (if Rlt_dec t 2459001.5 then 150000000 else -150000000) 0 0).
Lemma case_ground : itrs_of case_place = V 6378.137 0 0.
Proof.
  unfold itrs_of, itrs_x, itrs_y, itrs_z, lat_rad, lon_rad, height_km, to_rad, to_km, radius_of_curvature_in_prime_vertical, case_place.
  cbn [loc_latitude loc_longitude loc_height angular_scale length_scale]. rewrite !Rmult_0_l, sin_0, cos_0.
  replace (1 - eccentricity ^ 2 * 0 ^ 2) with 1 by ring. rewrite sqrt_1. change major_axis with 6378.137. apply vec_eq; cbn [vx vy vz]; field.
Qed.
Lemma case_higher th x : 0 <= th < 90 -> (higher_than th (V 6378.137 0 0) (V x 0 0) <-> 6378.137 < x).
Proof.
  intros T. unfold higher_than, norm, dot, sub. cbn [vx vy vz]. rewrite !Rminus_0_r, !Rmult_0_l, !Rplus_0_r.
  assert (Q : forall y, sqrt (y * y) = Rabs y) by (intros y; apply sqrt_Rsqr_abs). rewrite !Q. pose proof PI_RGT_0.
  assert (S1 : sin (th * (PI / 180)) < 1). { rewrite <- sin_PI2. apply sin_increasing_1; nra. }
  assert (S0 : 0 <= sin (th * (PI / 180))) by (apply sin_ge_0; nra).
  rewrite (Rabs_right 6378.137) by lra. set (k := sin _) in *. clearbody k. split; intros H'.
  - pose proof (Rabs_pos (x - 6378.137)). assert (0 <= k * Rabs (x - 6378.137)) by now apply Rmult_le_pos. nra.
  - rewrite Rabs_right by lra. nra.
Qed.
Example C102_case :
  of_size 4 case_path /\ of_size 4 case_speed /\ p_time case_speed = p_time case_path /\ increasing case_path /\
  exists s, sun_seen case_sun case_path s /\
    (forall i, visible 4 case_path s case_place 10 Anytime i <-> i = 1%nat \/ i = 2%nat) /\
    (forall i, visible 4 case_path s case_place 10 Daytime i <-> i = 1%nat) /\
    (forall i, visible 4 case_path s case_place 10 Night i <-> i = 2%nat).
Proof.
  assert (SP : of_size 4 case_path) by (repeat split).
  split; auto. split; [repeat split|]. split; [reflexivity|]. split.
  { intros i j L J. change (length (p_time case_path)) with 4%nat in J. unfold time_of. do 4 (destruct i as [|i]; [do 4 (destruct j as [|j]; [try lia; cbn; lra|]); lia|]). lia. }
  destruct (C102_sun_exists case_sun 4 case_path SP) as (s & E & _ & K). exists s. split; auto.
  assert (K' : forall i, (i < 4)%nat -> kilometres s i = V (if Rlt_dec (time_of case_path i) 2459001.5 then 150000000 else -150000000) 0 0).
  { intros i I. rewrite K by auto. unfold case_sun. apply to_itrs_gcrs. }
  assert (P : forall i, kilometres case_path i = V (nth i [-7000; 7000; 7100; -7000] 0) 0 0).
  { intros i. unfold kilometres, times, point, case_path. cbn [p_unit p_x p_y p_z vx vy vz]. apply vec_eq; cbn [vx vy vz]; [field| |].
    - do 5 (destruct i as [|i]; [cbn; field|]). cbn. field.
    - do 5 (destruct i as [|i]; [cbn; field|]). cbn. field. }
  assert (HI : forall i, (i < 4)%nat -> (higher_than 10 (itrs_of case_place) (kilometres case_path i) <-> i = 1%nat \/ i = 2%nat)).
  { intros i I. rewrite case_ground, P, case_higher by lra. do 4 (destruct i as [|i]; [cbn; split; [intros; first [exfalso; lra|auto]|intros; first [lia|lra]]|]). lia. }
  split; [|split]; intros i; unfold visible.
  - split; [intros (I & X & _); now apply HI|]. intros C. assert (I : (i < 4)%nat) by lia. split; auto. split; auto. now apply HI.
  - split.
    + intros (I & X & Y). apply HI in X; auto. rewrite case_ground, K' in Y by auto. destruct X as [->| ->]; auto. exfalso. unfold risen, dot, sub, time_of in Y. cbn in Y. destruct (Rlt_dec _ _) in Y; lra.
    + intros ->. assert (I : (1 < 4)%nat) by lia. split; auto. split; [apply HI; auto|]. rewrite case_ground, K' by auto. unfold risen, dot, sub, time_of. cbn. destruct (Rlt_dec _ _); lra.
  - split.
    + intros (I & X & Y). apply HI in X; auto. rewrite case_ground, K' in Y by auto. destruct X as [->| ->]; auto. exfalso. unfold sunk, dot, sub, time_of in Y. cbn in Y. destruct (Rlt_dec _ _) in Y; lra.
    + intros ->. assert (I : (2 < 4)%nat) by lia. split; auto. split; [apply HI; auto|]. rewrite case_ground, K' by auto. unfold sunk, dot, sub, time_of. cbn. destruct (Rlt_dec _ _); lra.
Qed.
(** The windows of the case. *)
Example C103_case : exists a, 
  generate_windows case_sun (Satellite case_path (Some case_speed)) case_place 10 Anytime = Ok [Vwindow 2459000 2459002 a] /\
  generate_windows case_sun (Satellite case_path (Some case_speed)) case_place 10 Daytime = Ok [Vwindow 2459000 2459001 a] /\
  generate_windows case_sun (Satellite case_path (Some case_speed)) case_place 10 Night = Ok [Vwindow 2459001 2459002 a].
Proof.
  destruct C102_case as (SP & SV & ST & Inc & s & E & VA & VD & VN).
  assert (U : forall P r, (exists i, P i) -> maximal_run P (fst r) (snd r) -> (forall i, P i -> (fst r <= i <= snd r)%nat) -> all_runs P [r]).
  { intros P (a, b) _ M B. cbn [fst snd] in *. split.
    - intros a' b'. split; [intros [[= <- <-]|[]]; auto|]. intros (L & Q & Nb & Na). left. f_equal.
      + pose proof (B a' (Q a' ltac:(lia))). destruct (Nat.eq_dec a a') as [|D]; auto. exfalso. destruct a' as [|c]; [lia|]. apply (Na c eq_refl). apply M. lia.
      + pose proof (B b' (Q b' ltac:(lia))). destruct (Nat.eq_dec b b') as [|D]; auto. exfalso. apply Nb. apply M. lia.
    - intros i j ? ? ? ? L Hi Hj. destruct i; [|destruct i; discriminate]. destruct j; [lia|destruct j; discriminate]. }
  destruct (attitude_made 4 case_path case_speed case_place SP SV ST) as (att & A). exists att.
  assert (W : forall light a b, light <> OtherLight -> all_runs (visible 4 case_path s case_place 10 light) [(a, b)] -> a <> 0%nat ->
    generate_windows case_sun (Satellite case_path (Some case_speed)) case_place 10 light = Ok [Vwindow (time_of case_path (a - 1)) (time_of case_path b) att]).
  { intros light a b NL R A0. assert (TH : 0 <= 10 <= 90) by lra. assert (V : visible 4 case_path s case_place 10 light a).
    { assert (I : In (a, b) [(a, b)]) by now left. apply R in I. apply I. destruct I. lia. }
    destruct (generated case_sun 4 case_path case_speed s case_place 10 light SP SV ST E NL TH (ex_intro _ a V)) as (runs & att' & A' & R' & ->).
    assert (att' = att) by congruence. subst. rewrite (all_runs_unique _ _ _ R' R). cbn [map fst snd]. destruct (Nat.eqb_spec a 0); [lia|reflexivity]. }
  split; [|split].
  - rewrite (W Anytime 1 2)%nat; [reflexivity|discriminate| |lia]. apply U; [exists 1%nat; apply VA; auto| |]; cbn [fst snd].
    + split; [lia|]. split; [intros i L; apply VA; lia|]. split; [rewrite VA; lia|]. intros c [= <-]. rewrite VA. lia.
    + intros i X. apply VA in X. lia.
  - rewrite (W Daytime 1 1)%nat; [reflexivity|discriminate| |lia]. apply U; [exists 1%nat; apply VD; auto| |]; cbn [fst snd].
    + split; [lia|]. split; [intros i L; apply VD; lia|]. split; [rewrite VD; lia|]. intros c [= <-]. rewrite VD. lia.
    + intros i X. apply VD in X. lia.
  - rewrite (W Night 2 2)%nat; [reflexivity|discriminate| |lia]. apply U; [exists 2%nat; apply VN; auto| |]; cbn [fst snd].
    + split; [lia|]. split; [intros i L; apply VN; lia|]. split; [rewrite VN; lia|]. intros c [= <-]. rewrite VN. lia.
    + intros i X. apply VN in X. lia.
Qed.
(** The same path in metres. *)
Example C104_case : let metres := Position (p_time case_path) (map (Rmult 1000) (p_x case_path)) (p_y case_path) (p_z case_path) 1 in
  of_size 4 metres /\ forall i, (i < 4)%nat -> kilometres metres i = kilometres case_path i.
Proof.
  intros m. split; [repeat split|]. intros i I. unfold kilometres, times, point, m, case_path. cbn [p_unit p_time p_x p_y p_z map].
  do 4 (destruct i as [|i]; [cbn; f_equal; field|]). lia.
Qed.

Print Assumptions C102_windows_are_runs_partial.
Print Assumptions C102_ordered_disjoint_complete_partial.
Print Assumptions C102_first_sample_refuted.
Print Assumptions C102_never_visible_refuted.
Print Assumptions C102_rejected.
Print Assumptions C103_nested_partial.
Print Assumptions C103_day_and_night_disjoint_partial.
Print Assumptions C104_any_unit.
