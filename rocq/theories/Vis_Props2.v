(** Nested windows when the satellite is visible at the first sample: C103. *)
From Coq Require Import List Reals ZArith Arith Bool Lia Lra Psatz.
From Verif Require Import Py PyLemmas Num Time_Model Rot_Model Rot_Spec Rot_Proofs Rot_Props Geo_Model Geo_Spec Geo_Alt Geo_Dir Geo_Props
  Lvlh_Model Vtw_Model Vtw_Spec Vtw_Proofs Vis_Model Vis_Spec Vis_Proofs Vis_Props.
Import ListNotations.
Open Scope R_scope.
Open Scope list_scope.

Lemma times_le n p i j : of_size n p -> increasing p -> (i <= j)%nat -> (j < n)%nat -> time_of p i <= time_of p j.
Proof. intros SP Inc L J. destruct (Nat.eq_dec i j) as [->|]; [lra|]. left. apply Inc; [lia|]. now rewrite (proj1 SP). Qed.

(** ** C103: no instant belongs both to a window by day and to a window at night, whatever is visible at the first sample *)
Theorem C103_day_and_night_disjoint :
  forall sun n p v s l threshold threshold' ws ws', of_size n p -> of_size n v -> p_time v = p_time p ->
    sun_seen sun p s -> increasing p ->
    generate_windows sun (Satellite p (Some v)) l threshold Daytime = Ok ws ->
    generate_windows sun (Satellite p (Some v)) l threshold' Night = Ok ws' ->
    forall w w' t, In w ws -> In w' ws' -> ~ (vw_rise w < t <= vw_set w /\ vw_rise w' < t <= vw_set w').
Proof.
  intros sun n p v s l th th' ws ws' SP SV ST E Inc H H' w w' t Iw Iw' (T & T').
  destruct (valid_call sun p v l th Daytime ws H) as (NL & TH). destruct (valid_call sun p v l th' Night ws' H') as (NL' & TH').
  destruct (vis_some sun n p v s l th Daytime SP E NL TH) as [V|V]; [|rewrite (generated_none sun n p v s l th Daytime) in H by auto; discriminate].
  destruct (vis_some sun n p v s l th' Night SP E NL' TH') as [V'|V']; [|rewrite (generated_none sun n p v s l th' Night) in H' by auto; discriminate].
  destruct (generated sun n p v s l th Daytime SP SV ST E NL TH V) as (runs & att & A & R & G). rewrite G in H. injection H as <-.
  destruct (generated sun n p v s l th' Night SP SV ST E NL' TH' V') as (runs' & att' & A' & R' & G'). rewrite G' in H'. injection H' as <-.
  apply in_map_iff in Iw. destruct Iw as ((a, b) & <- & I). apply in_map_iff in Iw'. destruct Iw' as ((a', b') & <- & I').
  apply R in I. destruct I as (L & P & _). apply R' in I'. destruct I' as (L' & P' & _). cbn [vw_rise vw_set fst snd] in T, T'.
  assert (Bn : (b < n)%nat) by (apply (vis_lt n p s l th Daytime), P; lia). assert (Bn' : (b' < n)%nat) by (apply (vis_lt n p s l th' Night), P'; lia).
  pose proof (fun i j => times_le n p i j SP Inc) as Le.
  destruct (Nat.eqb_spec a 0); [pose proof (Le b (n - 1)%nat ltac:(lia) ltac:(lia)); lra|]. destruct (Nat.eqb_spec a' 0); [pose proof (Le b' (n - 1)%nat ltac:(lia) ltac:(lia)); lra|].
  destruct (le_lt_dec a' b) as [X|X].
  - destruct (le_lt_dec a b') as [Y|Y].
    + destruct (P (Nat.max a a') ltac:(lia)) as (_ & _ & D). destruct (P' (Nat.max a a') ltac:(lia)) as (_ & _ & N). cbv beta iota in D, N. unfold risen in D. unfold sunk in N. lra.
    + pose proof (Le b' (a - 1)%nat ltac:(lia) ltac:(lia)). lra.
  - pose proof (Le b (a' - 1)%nat ltac:(lia) ltac:(lia)). lra.
Qed.

(** ** C103, refuted: a satellite that is visible from the first sample on loses the wider window *)
(** The wider condition holds from the first sample on; the narrower one does not hold at the first sample but later in the same
    pass.  Then some window for the narrower condition is in no window for the wider one. *)
Theorem C103_nested_refuted :
  forall sun n p v s l low high light light' i, of_size n p -> of_size n v -> p_time v = p_time p ->
    sun_seen sun p s -> increasing p -> light <> OtherLight -> light' <> OtherLight -> 0 <= low <= 90 -> 0 <= high <= 90 ->
    (forall j, (j <= i)%nat -> visible n p s l low light j) -> ~ visible n p s l high light' 0 -> visible n p s l high light' i ->
    exists ws ws' w', generate_windows sun (Satellite p (Some v)) l low light = Ok ws /\
      generate_windows sun (Satellite p (Some v)) l high light' = Ok ws' /\ In w' ws' /\
      forall w, In w ws -> ~ (vw_rise w <= vw_rise w' /\ vw_set w' <= vw_set w).
Proof.
  intros sun n p v s l low high light light' i SP SV ST E Inc NL NL' TH TH' V0 N0 Vi.
  destruct (generated sun n p v s l low light SP SV ST E NL TH (ex_intro _ 0%nat (V0 0%nat ltac:(lia)))) as (runs & att & A & R & G).
  destruct (generated sun n p v s l high light' SP SV ST E NL' TH' (ex_intro _ i Vi)) as (runs' & att' & A' & R' & G').
  destruct (vis_listed sun n p v s l high light' SP E NL' TH' runs' i R' Vi) as (a' & b' & I' & L'). pose proof (proj1 (proj1 R' a' b') I') as (_ & P' & _).
  assert (A0 : a' <> 0%nat) by (intros ->; apply N0, P'; lia). assert (In' : (i < n)%nat) by apply Vi.
  eexists _, _, _. split; [exact G|]. split; [exact G'|]. split; [apply in_map; exact I'|]. intros w Iw (C & _). apply in_map_iff in Iw. destruct Iw as ((a, b) & <- & I). apply R in I. destruct I as (L & P & _ & Na).
  assert (Bn : (b < n)%nat) by (apply (vis_lt n p s l low light), P; lia).
  cbn [vw_rise fst snd] in C. destruct (Nat.eqb_spec a' 0); [lia|]. destruct (Nat.eqb_spec a 0) as [->|NZ].
  - assert (time_of p (a' - 1) < time_of p (n - 1)) by (apply Inc; [lia|rewrite (proj1 SP); lia]). lra.
  - destruct a as [|c]; [lia|]. assert (X : (i < c)%nat). { destruct (le_lt_dec c i) as [X|X]; auto. exfalso. apply (Na c eq_refl), V0, X. }
    cbn [Nat.sub] in C. rewrite Nat.sub_0_r in C. assert (time_of p (a' - 1) < time_of p c) by (apply Inc; [lia|rewrite (proj1 SP); lia]). lra.
Qed.
(** A satellite overhead at three times; the Sun is down at the first of them only. *)
Definition over_path : position R := Position [2459000; 2459001; 2459002] [7000; 7100; 7200] [0; 0; 0] [0; 0; 0] 1000.
Definition over_speed : position R := Position [2459000; 2459001; 2459002] [0; 0; 0] [7; 7; 7] [1; 1; 1] 1000.
Definition over_sun (t : R) : vec := to_gcrs t (V (if Rlt_dec t 2459000.5 then -150000000 else 150000000) 0 0).
Example C103_refuted_case :
  of_size 3 over_path /\ of_size 3 over_speed /\ p_time over_speed = p_time over_path /\ increasing over_path /\
  exists s, sun_seen over_sun over_path s /\ (forall j, (j <= 1)%nat -> visible 3 over_path s case_place 10 Anytime j) /\
    ~ visible 3 over_path s case_place 10 Daytime 0 /\ visible 3 over_path s case_place 10 Daytime 1.
Proof.
  assert (SP : of_size 3 over_path) by (repeat split).
  split; auto. split; [repeat split|]. split; [reflexivity|]. split.
  { intros i j L J. change (length (p_time over_path)) with 3%nat in J. unfold time_of. do 3 (destruct i as [|i]; [do 3 (destruct j as [|j]; [try lia; cbn; lra|]); lia|]). lia. }
  destruct (C102_sun_exists over_sun 3 over_path SP) as (s & E & _ & K). exists s. split; auto.
  assert (K' : forall i, (i < 3)%nat -> kilometres s i = V (if Rlt_dec (time_of over_path i) 2459000.5 then -150000000 else 150000000) 0 0).
  { intros i I. rewrite K by auto. unfold over_sun. apply to_itrs_gcrs. }
  assert (P : forall i, kilometres over_path i = V (nth i [7000; 7100; 7200] 0) 0 0).
  { intros i. unfold kilometres, times, point, over_path. cbn [p_unit p_x p_y p_z vx vy vz]. apply vec_eq; cbn [vx vy vz]; [field| |]; (do 4 (destruct i as [|i]; [cbn; field|]); cbn; field). }
  assert (HI : forall i, (i < 3)%nat -> higher_than 10 (itrs_of case_place) (kilometres over_path i)).
  { intros i I. rewrite case_ground, P, case_higher by lra. do 3 (destruct i as [|i]; [cbn; lra|]). lia. }
  split; [|split].
  - intros j J. split; [lia|]. split; [apply HI; lia|exact Logic.I].
  - intros (_ & _ & Y). rewrite case_ground, K' in Y by lia. unfold risen, dot, sub, time_of in Y. cbn in Y. destruct (Rlt_dec _ _) in Y; lra.
  - split; [lia|]. split; [apply HI; lia|]. rewrite case_ground, K' by lia. unfold risen, dot, sub, time_of. cbn. destruct (Rlt_dec _ _); lra.
Qed.
Print Assumptions C103_day_and_night_disjoint.
Print Assumptions C103_nested_refuted.
Print Assumptions C103_refuted_case.
