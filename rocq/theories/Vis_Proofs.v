(** Proofs about windows from positions. *)
From Coq Require Import List Reals ZArith Arith Bool Lia Lra Psatz Sorted.
From Verif Require Import Py PyLemmas Num Time_Model Rot_Model Rot_Spec Rot_Proofs Rot_Props Geo_Model Geo_Spec Geo_Alt Geo_Dir Geo_Props Geo_Props4 Geo_Props5
  Lvlh_Model Lvlh_Props2 Vtw_Model Vtw_Spec Vtw_Proofs Vis_Model Vis_Spec.
Import ListNotations.
Open Scope R_scope.
Open Scope list_scope.

(** ** Elevations *)
Lemma zero_or v : v = zero \/ v <> zero.
Proof.
  destruct v as [x y z]. unfold zero. destruct (Req_dec x 0) as [->|X]; [|right; now intros [= ? ? ?]].
  destruct (Req_dec y 0) as [->|Y]; [|right; now intros [= ? ?]]. destruct (Req_dec z 0) as [->|Z']; [now left|right; now intros [= ?]].
Qed.
Lemma norm_zero : norm zero = 0.
Proof. unfold norm, dot, zero. cbn [vx vy vz]. replace (0 * 0 + 0 * 0 + 0 * 0) with 0 by ring. apply sqrt_0. Qed.
Lemma ang_zero_l v : get_ang (fin_vec zero) (fin_vec v) = NaN.
Proof.
  unfold get_ang. rewrite dot_fin, !norm_fin. cbn [n_mul]. rewrite norm_zero. unfold n_div. destruct (Req_EM_T _ 0) as [_|N]; [|exfalso; apply N; ring].
  assert (D : dot zero v = 0) by (unfold dot, zero; cbn [vx vy vz]; ring). rewrite D. destruct (Rlt_dec 0 0); [lra|reflexivity].
Qed.
(** The elevation is a number, or the two sides of every comparison below vanish. *)
Lemma elevation_cases l p : let g := itrs_of l in
  (exists x, elevation l p = Fin x /\ -90 <= x <= 90 /\ dot (sub p g) g = norm (sub p g) * norm g * sin (x * (PI / 180)) /\ 0 < norm (sub p g) * norm g) \/
  (elevation l p = NaN /\ norm (sub p g) * norm g = 0 /\ dot (sub p g) g = 0).
Proof.
  intros g. unfold elevation. rewrite sub_fin. fold g. destruct (zero_or (sub p g)) as [->|N].
  { right. rewrite ang_zero_l, norm_zero. split; [reflexivity|]. split; [ring|]. unfold dot, zero. cbn [vx vy vz]. ring. }
  destruct (zero_or g) as [->|G].
  { right. rewrite ang_zero, norm_zero. split; [reflexivity|]. split; [ring|]. unfold dot, zero. cbn [vx vy vz]. ring. }
  left. destruct (get_ang_fin _ _ N G) as (x & -> & X & D). exists (90 - x). split; [reflexivity|]. split; [lra|]. split.
  - rewrite D. f_equal. rewrite <- sin_shift. f_equal. field.
  - pose proof (norm_pos _ N). pose proof (norm_pos _ G). now apply Rmult_lt_0_compat.
Qed.
Lemma sin_degrees x y : -90 <= x <= 90 -> -90 <= y <= 90 -> (sin (x * (PI / 180)) < sin (y * (PI / 180)) <-> x < y).
Proof.
  intros X Y. pose proof PI_RGT_0. split; intros H'.
  - apply sin_increasing_0 in H'; nra.
  - apply sin_increasing_1; nra.
Qed.
Lemma above_iff l p th : 0 <= th <= 90 -> (n_lt (Fin th) (elevation l p) = true <-> higher_than th (itrs_of l) p).
Proof.
  intros T. unfold higher_than. destruct (elevation_cases l p) as [(x & -> & X & D & P)|(-> & Z1 & Z2)].
  - rewrite D, Rmult_assoc. cbn [n_lt]. set (k := norm _ * norm _) in *. clearbody k. rewrite (Rmult_comm k).
    assert (sin (th * (PI / 180)) < sin (x * (PI / 180)) <-> th < x) by (apply sin_degrees; lra).
    destruct (Rlt_dec th x) as [L|L]; split; intros H'; try discriminate; try reflexivity.
    + apply Rmult_lt_compat_r; tauto.
    + apply Rmult_lt_reg_r in H'; [|exact P]. exfalso. tauto.
  - rewrite Rmult_assoc, Z1, Z2. cbn [n_lt]. split; [discriminate|]. intros; lra.
Qed.
Lemma risen_iff l p : n_lt (Fin 0) (elevation l p) = true <-> risen (itrs_of l) p.
Proof.
  rewrite above_iff by lra. unfold higher_than, risen. rewrite Rmult_0_l, sin_0, !Rmult_0_l. reflexivity.
Qed.
Lemma sunk_iff l p : n_lt (elevation l p) (Fin 0) = true <-> sunk (itrs_of l) p.
Proof.
  unfold sunk. destruct (elevation_cases l p) as [(x & -> & X & D & P)|(-> & Z1 & Z2)].
  - rewrite D. cbn [n_lt]. set (k := norm _ * norm _) in *. clearbody k.
    assert (Q : sin (x * (PI / 180)) < sin (0 * (PI / 180)) <-> x < 0) by (apply sin_degrees; lra). rewrite Rmult_0_l, sin_0 in Q.
    destruct (Rlt_dec x 0) as [L|L]; split; intros H'; try discriminate; try reflexivity; [|exfalso]; nra.
  - rewrite Z2. cbn [n_lt]. split; [discriminate|]. intros; lra.
Qed.

(** ** Indices *)
Lemma where_km (f : vec -> bool) n p i : In i (np_where 0 (map f (km_list n p))) <-> (i < n)%nat /\ f (kilometres p i) = true.
Proof.
  rewrite np_where_In, Nat.sub_0_r. unfold km_list. rewrite map_map, nth_error_map. destruct (le_lt_dec n i) as [L|L].
  - assert (nth_error (seq 0 n) i = None) as -> by (apply nth_error_None; rewrite seq_length; lia). cbn. split; [intros (_ & ?); discriminate|lia].
  - rewrite nth_error_seq by lia. cbn. split; [intros (_ & [= ?]); auto|intros (_ & ->); auto with arith].
Qed.
Lemma in_km_size t l : length t = length l -> of_size (length t) (in_km t l).
Proof. intros E. unfold of_size, in_km. cbn [p_time p_x p_y p_z]. rewrite !map_length. auto. Qed.
Lemma sun_seen_size sun n p s : of_size n p -> sun_seen sun p s -> of_size n s.
Proof.
  intros (<- & _) E. unfold sun_seen in E. assert (S : of_size (length (p_time p)) (in_km (p_time p) (map sun (p_time p)))) by (apply in_km_size; now rewrite map_length).
  rewrite (gcrs_to_itrs_ok _ _ S) in E. injection E as <-. exact (image_size _ _ to_itrs _ 1000 S eq_refl).
Qed.
Lemma sun_gcrs_ok sun t : sun_gcrs sun t = Ok (in_km t (map sun t)).
Proof. unfold sun_gcrs. rewrite position3d_ok by now rewrite !map_length. reflexivity. Qed.
Lemma sun_elevation_ok sun n p s l : of_size n p -> sun_seen sun p s -> sun_elevation sun (p_time p) l = Ok (map (elevation l) (km_list n s)).
Proof.
  intros S E. unfold sun_elevation. rewrite sun_gcrs_ok. cbn [bind]. unfold sun_seen in E. rewrite E. cbn [bind].
  rewrite (azel_ok n) by (eapply sun_seen_size; eauto; exact E). reflexivity.
Qed.
Lemma lighting_spec sun n p s l light : of_size n p -> sun_seen sun p s -> light <> OtherLight ->
  exists k, lighting_constraint_indices sun (p_time p) l light = Ok k /\
    forall i, In i k <-> (i < n)%nat /\
      match light with Night => sunk (itrs_of l) (kilometres s i) | Anytime => True | Daytime => risen (itrs_of l) (kilometres s i) | OtherLight => False end.
Proof.
  intros S E N. destruct light; [| | |congruence]; cbn [lighting_constraint_indices].
  - rewrite (sun_elevation_ok sun n p s l S E). cbn [bind]. eexists. split; [reflexivity|]. intros i. rewrite map_map, where_km, sunk_iff. reflexivity.
  - eexists. split; [reflexivity|]. intros i. rewrite in_seq. destruct S as (-> & _). split; [intros; split; auto; lia|lia].
  - rewrite (sun_elevation_ok sun n p s l S E). cbn [bind]. eexists. split; [reflexivity|]. intros i. rewrite map_map, where_km, risen_iff. reflexivity.
Qed.

(** The value of window_indices after line 83. *)
Definition index_sets (l : list nat) : list (list nat) := np_split 0 l (map S (np_where 0 (map (fun d => negb (d =? 1)%Z) (np_diff l)))).
Lemma index_sets_runs l : StronglySorted lt l -> l <> [] -> exists runs, index_sets l = map of_run runs /\ all_runs (fun i => In i l) runs.
Proof.
  intros SS N. unfold index_sets. change (map S _) with (cuts l). rewrite split_break.
  destruct (break_runs l N SS) as (runs & E & O & So & C & _). exists runs. split; auto. apply runs_maximal; auto.
Qed.
Lemma intersect_In a b i : In i (intersect1d a b) <-> In i a /\ In i b.
Proof.
  unfold intersect1d. rewrite filter_In, existsb_exists. split.
  - intros (A & x & B & E). apply Nat.eqb_eq in E. subst. auto.
  - intros (A & B). split; auto. exists i. split; auto. apply Nat.eqb_refl.
Qed.

(** ** Windows *)
Lemma vwindow_ok (t : list R) att a b : (a <= b)%nat -> (b < length t)%nat ->
  vwindow_of t att (of_run (a, b)) = Ok (Vwindow (nth (if a =? 0 then length t - 1 else a - 1)%nat t 0) (nth b t 0) att).
Proof.
  intros L Lb. unfold vwindow_of.
  assert (E0 : py_index (of_run (a, b)) 0 = Ok a).
  { change 0%Z with (Z.of_nat 0). rewrite py_index_nat. apply py_nth_Ok. unfold of_run. cbn [fst snd].
    rewrite nth_error_seq by lia. f_equal. lia. }
  assert (E1 : py_index (of_run (a, b)) (-1) = Ok b).
  { assert (Ne : of_run (a, b) <> []) by (unfold of_run; cbn [fst snd]; replace (S b - a)%nat with (S (b - a)) by lia; discriminate).
    rewrite py_index_last by auto. apply py_nth_Ok. unfold of_run. cbn [fst snd]. rewrite seq_length.
    rewrite nth_error_seq by lia. f_equal. lia. }
  rewrite E0, E1. cbn [bind].
  assert (Nt : forall i, (i < length t)%nat -> py_nth t i = Ok (nth i t 0)).
  { intros i I. apply py_nth_Ok. now apply nth_error_nth'. }
  assert (Ek : py_index t (Z.of_nat a - 1) = Ok (nth (if a =? 0 then length t - 1 else a - 1)%nat t 0)).
  { destruct (Nat.eqb_spec a 0) as [->|D].
    - change (Z.of_nat 0 - 1)%Z with (-1)%Z. rewrite py_index_last; [apply Nt; lia|]. destruct t; [cbn in Lb; lia|discriminate].
    - replace (Z.of_nat a - 1)%Z with (Z.of_nat (a - 1)) by lia. rewrite py_index_nat. apply Nt. lia. }
  rewrite Ek. cbn [bind]. rewrite py_index_nat, Nt by auto. reflexivity.
Qed.
Lemma vwindows_ok (t : list R) att runs : (forall a b, In (a, b) runs -> a <= b < length t)%nat ->
  mapM (vwindow_of t att) (map of_run runs) =
  Ok (map (fun r => Vwindow (nth (if fst r =? 0 then length t - 1 else fst r - 1)%nat t 0) (nth (snd r) t 0) att) runs).
Proof.
  induction runs as [|(a, b) runs IH]; intros H; [reflexivity|]. destruct (H a b (or_introl eq_refl)) as (L & Lb).
  cbn [map mapM]. rewrite vwindow_ok by auto. cbn [bind]. rewrite IH by (intros; apply H; now right). reflexivity.
Qed.

Section generated.
Variables (sun : R -> vec) (n : nat) (p v s : position R) (l : location) (th : R) (light : lighting).
Hypothesis (SP : of_size n p) (SV : of_size n v) (ST : p_time v = p_time p) (E : sun_seen sun p s).
Hypothesis (NL : light <> OtherLight) (TH : 0 <= th <= 90).
Let vis := visible n p s l th light.

Lemma attitude_made : exists att, satellite_attitude (Satellite p (Some v)) l = Ok att.
Proof. rewrite (attitude_ok n p v l SP SV ST). eauto. Qed.
Lemma indices_made : exists k, StronglySorted lt k /\ (forall i, In i k <-> vis i) /\
  forall att, satellite_attitude (Satellite p (Some v)) l = Ok att ->
    generate_windows sun (Satellite p (Some v)) l th light = mapM (vwindow_of (p_time p) att) (index_sets k).
Proof.
  destruct (lighting_spec sun n p s l light SP E NL) as (k & Ek & Ik).
  exists (intersect1d (np_where 0 (map (n_lt (Fin th)) (map (elevation l) (km_list n p)))) k). split; [|split].
  - apply filter_sorted, np_where_sorted.
  - intros i. rewrite intersect_In, Ik, map_map, where_km, above_iff by exact TH. unfold vis, visible. tauto.
  - intros att A. unfold generate_windows. cbn [sat_velocity sat_position]. destruct (Rlt_dec th 0) as [X|_]; [lra|]. destruct (Rlt_dec 90 th) as [X|_]; [lra|].
    rewrite (azel_ok n) by exact SP. cbn [bind az_elevation]. rewrite Ek. cbn [bind]. rewrite A. reflexivity.
Qed.
Lemma vis_lt i : vis i -> (i < n)%nat.
Proof. now intros (X & _). Qed.
Lemma vis_dec i : vis i \/ ~ vis i.
Proof. destruct indices_made as (k & _ & I & _). rewrite <- I. destruct (in_dec Nat.eq_dec i k); auto. Qed.
Lemma generated : (exists i, vis i) -> exists runs att, satellite_attitude (Satellite p (Some v)) l = Ok att /\ all_runs vis runs /\
  generate_windows sun (Satellite p (Some v)) l th light =
  Ok (map (fun r => Vwindow (time_of p (if fst r =? 0 then n - 1 else fst r - 1)%nat) (time_of p (snd r)) att) runs).
Proof.
  intros (i & Vi). destruct attitude_made as (att & A). destruct indices_made as (k & SS & I & G). specialize (G att A).
  assert (N : k <> []) by (intros ->; now apply I in Vi). destruct (index_sets_runs k SS N) as (runs & Er & R).
  assert (R' : all_runs vis runs) by (eapply all_runs_ext; [|exact R]; exact I).
  exists runs, att. split; auto. split; auto. rewrite G, Er, vwindows_ok.
  - destruct SP as (-> & _). reflexivity.
  - destruct SP as (-> & _). intros a b In_. apply R' in In_. destruct In_ as (L & P & _). split; auto. apply vis_lt. apply P. lia.
Qed.
Lemma generated_none : (forall i, ~ vis i) -> generate_windows sun (Satellite p (Some v)) l th light = Raise IndexError.
Proof.
  intros N. destruct attitude_made as (att & A). destruct indices_made as (k & _ & I & G). rewrite (G att A).
  destruct k as [|x k]; [reflexivity|]. exfalso. apply (N x). apply I. now left.
Qed.
Lemma vis_some : (exists i, vis i) \/ forall i, ~ vis i.
Proof.
  destruct indices_made as ([|x k] & _ & I & _); [right; intros i H; now apply I in H|left; exists x; apply I; now left].
Qed.
Lemma vis_listed runs i : all_runs vis runs -> vis i -> exists a b, In (a, b) runs /\ (a <= i <= b)%nat.
Proof.
  intros (A & _) Q. destruct (run_containing _ n vis_dec vis_lt i Q) as (a & b & M & L). apply A in M. eauto.
Qed.
End generated.

(** Runs listed in order are determined by the predicate. *)
Lemma all_runs_unique (P : nat -> Prop) r1 r2 : all_runs P r1 -> all_runs P r2 -> r1 = r2.
Proof.
  intros A B.
  assert (T : forall r, all_runs P r -> StronglySorted before r).
  { intros r (H1 & H2). clear -H2. induction r as [|(a, b) r IH]; constructor.
    - apply IH. intros i j ? ? ? ? L Hi Hj. apply (H2 (S i) (S j)) with (a := a0) (b' := b'); auto; lia.
    - apply Forall_forall. intros (a', b') I. apply In_nth_error in I. destruct I as (j & J). unfold before. cbn [fst snd]. apply (H2 0%nat (S j) a b a' b'); auto; lia. }
  pose proof (T _ A) as SA. pose proof (T _ B) as SB.
  assert (M : forall x, In x r1 <-> In x r2) by (intros (a, b); rewrite (proj1 A), (proj1 B); reflexivity).
  assert (W : forall x, In x r1 -> (fst x <= snd x)%nat) by (intros (a, b) I; apply (proj1 A) in I; apply I).
  clear A B T. revert r2 SB M. induction SA as [|x r1 SA IH F]; intros r2 SB M.
  - destruct r2 as [|y r2]; auto. exfalso. apply (M y). now left.
  - destruct SB as [|y r2 SB G]; [exfalso; apply (M x); now left|]. rewrite Forall_forall in F, G.
    assert (E : x = y).
    { destruct (proj1 (M x) (or_introl eq_refl)) as [|X]; auto. destruct (proj2 (M y) (or_introl eq_refl)) as [|Y]; auto.
      pose proof (F y Y). pose proof (G x X). pose proof (W x (or_introl eq_refl)). pose proof (W y (or_intror Y)). unfold before in *. lia. }
    subst y. f_equal. apply IH; auto.
    + intros z I. apply W. now right.
    + intros z. pose proof (M z) as Mz. cbn [In] in Mz. pose proof (W x (or_introl eq_refl)) as Wx. split; intros I.
      * destruct (proj1 Mz (or_intror I)) as [<-|]; auto. pose proof (F x I). unfold before in *. lia.
      * destruct (proj2 Mz (or_intror I)) as [<-|]; auto. pose proof (G x I). unfold before in *. lia.
Qed.
