(** Rotation matrices and the GCRS/ITRS conversions on lists. *)
From Coq Require Import List Reals Arith Lia Lra Psatz.
From Verif Require Import Py PyLemmas Time_Model Time_Spec Time_Proofs Rot_Model Rot_Spec.
Import ListNotations.
Open Scope R_scope.
Open Scope list_scope.

Lemma sc a : sin a * sin a + cos a * cos a = 1.
Proof. pose proof (sin2_cos2 a) as H. unfold Rsqr in H. exact H. Qed.

(** ** Elementary rotations *)
Definition turn_z (c s : R) (v : vec) : vec := V (c * vx v + s * vy v) (- s * vx v + c * vy v) (vz v).
Definition turn_y (c s : R) (v : vec) : vec := V (c * vx v - s * vz v) (vy v) (s * vx v + c * vz v).
Definition turn_x (c s : R) (v : vec) : vec := V (vx v) (c * vy v + s * vz v) (- s * vy v + c * vz v).

(** Preserves products and volumes. *)
Definition rigid (f : vec -> vec) : Prop :=
  (forall a b, dot (f a) (f b) = dot a b) /\ (forall a b c, volume (f a) (f b) (f c) = volume a b c).
Lemma rigid_comp f g : rigid f -> rigid g -> rigid (fun v => f (g v)).
Proof. intros (A & B) (C & D). split; intros; [now rewrite A, C|now rewrite B, D]. Qed.
Lemma rigid_ext f g : (forall v, f v = g v) -> rigid f -> rigid g.
Proof. intros E (A & B). split; intros; rewrite <- !E; auto. Qed.

Lemma turn_z_rigid c s : s * s + c * c = 1 -> rigid (turn_z c s).
Proof.
  intros H. split; intros.
  - transitivity ((s * s + c * c) * (vx a * vx b + vy a * vy b) + vz a * vz b).
    + unfold dot, turn_z; cbn [vx vy vz]; ring.
    + rewrite H. unfold dot. ring.
  - transitivity ((s * s + c * c) * volume a b c0).
    + unfold volume, turn_z; cbn [vx vy vz]; ring.
    + rewrite H. ring.
Qed.
Lemma turn_y_rigid c s : s * s + c * c = 1 -> rigid (turn_y c s).
Proof.
  intros H. split; intros.
  - transitivity ((s * s + c * c) * (vx a * vx b + vz a * vz b) + vy a * vy b).
    + unfold dot, turn_y; cbn [vx vy vz]; ring.
    + rewrite H. unfold dot. ring.
  - transitivity ((s * s + c * c) * volume a b c0).
    + unfold volume, turn_y; cbn [vx vy vz]; ring.
    + rewrite H. ring.
Qed.
Lemma turn_x_rigid c s : s * s + c * c = 1 -> rigid (turn_x c s).
Proof.
  intros H. split; intros.
  - transitivity ((s * s + c * c) * (vz a * vz b + vy a * vy b) + vx a * vx b).
    + unfold dot, turn_x; cbn [vx vy vz]; ring.
    + rewrite H. unfold dot. ring.
  - transitivity ((s * s + c * c) * volume a b c0).
    + unfold volume, turn_x; cbn [vx vy vz]; ring.
    + rewrite H. ring.
Qed.

Lemma vec_eq a b : vx a = vx b -> vy a = vy b -> vz a = vz b -> a = b.
Proof. destruct a, b; cbn; congruence. Qed.

Ltac matrix_eq := intros v; apply vec_eq; unfold mat_vec, row_times, turn_x, turn_y, turn_z; cbn [vx vy vz r0 r1 r2]; ring.
Lemma bias_rigid : rigid (mat_vec bias_matrix).
Proof.
  unfold bias_matrix. cbv zeta. set (a1 := radians (-0.01460 / 3600)). set (a2 := radians (-0.0166170 / 3600)). set (a3 := radians (- (-0.0068192) / 3600)).
  clearbody a1 a2 a3.
  apply rigid_ext with (fun v => turn_x (cos a3) (sin a3) (turn_y (cos a2) (sin a2) (turn_z (cos a1) (sin a1) v))).
  - matrix_eq.
  - exact (rigid_comp _ _ (turn_x_rigid _ _ (sc a3)) (rigid_comp _ _ (turn_y_rigid _ _ (sc a2)) (turn_z_rigid _ _ (sc a1)))).
Qed.
Lemma precession_rigid jd : rigid (mat_vec (precession_matrix jd)).
Proof.
  unfold precession_matrix. cbv zeta. set (a1 := arcsec_to_rad (zeta_precession_angle _)). set (a2 := arcsec_to_rad (theta_precession_angle _)). set (a3 := - arcsec_to_rad (z_precession_angle _)).
  clearbody a1 a2 a3.
  apply rigid_ext with (fun v => turn_z (cos a3) (sin a3) (turn_y (cos a2) (sin a2) (turn_z (cos a1) (sin a1) v))).
  - matrix_eq.
  - exact (rigid_comp _ _ (turn_z_rigid _ _ (sc a3)) (rigid_comp _ _ (turn_y_rigid _ _ (sc a2)) (turn_z_rigid _ _ (sc a1)))).
Qed.
Lemma nutation_rigid jd : rigid (mat_vec (nutation_matrix jd)).
Proof.
  unfold nutation_matrix. cbv zeta. set (a1 := radians _). set (a2 := - arcsec_to_rad _). set (a3 := - radians _).
  clearbody a1 a2 a3.
  apply rigid_ext with (fun v => turn_x (cos a3) (sin a3) (turn_y (cos a2) (sin a2) (turn_x (cos a1) (sin a1) v))).
  - matrix_eq.
  - exact (rigid_comp _ _ (turn_x_rigid _ _ (sc a3)) (rigid_comp _ _ (turn_y_rigid _ _ (sc a2)) (turn_x_rigid _ _ (sc a1)))).
Qed.
Lemma rotate_rigid a : rigid (rotate_row a).
Proof.
  apply rigid_ext with (turn_z (cos (deg_to_rad a)) (- sin (deg_to_rad a))).
  - intros v. apply vec_eq; unfold rotate_row, turn_z; cbn [vx vy vz]; ring.
  - apply turn_z_rigid. rewrite Rmult_opp_opp. apply sc.
Qed.

(** ** Inverses *)
Lemma rigid_det m : rigid (mat_vec m) -> np_det m = 1.
Proof.
  intros (_ & H). specialize (H (V 1 0 0) (V 0 1 0) (V 0 0 1)).
  unfold volume, mat_vec, row_times in H. cbn [vx vy vz] in H. unfold np_det. lra.
Qed.
Lemma np_inv_ok m : np_det m <> 0 ->
  exists n, np_inv m = Ok n /\ (forall v, mat_vec n (mat_vec m v) = v) /\ (forall v, mat_vec m (mat_vec n v) = v).
Proof.
  intros D. unfold np_inv. cbv zeta. destruct (Req_EM_T (np_det m) 0) as [E|_]; [contradiction|].
  eexists. split; [reflexivity|]. split; intros v; apply vec_eq; unfold mat_vec, row_times; cbn [vx vy vz r0 r1 r2];
    unfold np_det in *; field; exact D.
Qed.
Lemma rigid_inv m : rigid (mat_vec m) ->
  exists n, np_inv m = Ok n /\ (forall v, mat_vec n (mat_vec m v) = v) /\ (forall v, mat_vec m (mat_vec n v) = v).
Proof. intros H. apply np_inv_ok. rewrite (rigid_det m H). lra. Qed.
Lemma rotate_back a v : rotate_row (- a) (rotate_row a v) = v.
Proof.
  unfold rotate_row, deg_to_rad. cbv zeta. cbn [vx vy vz].
  replace (- a * (1 / deg_per_rad)) with (- (a * (1 / deg_per_rad))) by ring. rewrite cos_neg, sin_neg.
  set (b := a * _). pose proof (sc b) as H. apply vec_eq; cbn [vx vy vz].
  - transitivity ((sin b * sin b + cos b * cos b) * vx v); [ring|rewrite H; ring].
  - transitivity ((sin b * sin b + cos b * cos b) * vy v); [ring|rewrite H; ring].
  - reflexivity.
Qed.
Lemma rotate_back' a v : rotate_row a (rotate_row (- a) v) = v.
Proof. rewrite <- (Ropp_involutive a) at 1. apply rotate_back. Qed.

(** ** The conversion of one point *)
Definition to_itrs (jd : R) (v : vec) : vec :=
  rotate_row (- earth_rotation_angle jd) (mat_vec (nutation_matrix jd) (mat_vec (precession_matrix jd) (mat_vec bias_matrix v))).
Lemma to_itrs_rigid jd : rigid (to_itrs jd).
Proof.
  unfold to_itrs.
  exact (rigid_comp _ _ (rotate_rigid _) (rigid_comp _ _ (nutation_rigid jd) (rigid_comp _ _ (precession_rigid jd) bias_rigid))).
Qed.
Definition inv_of (m : mat) : mat := match np_inv m with Ok n => n | Raise _ => m end.
Definition to_gcrs (jd : R) (v : vec) : vec :=
  mat_vec (inv_of bias_matrix) (mat_vec (inv_of (precession_matrix jd)) (mat_vec (inv_of (nutation_matrix jd)) (rotate_row (earth_rotation_angle jd) v))).
Lemma inv_of_ok m : rigid (mat_vec m) ->
  np_inv m = Ok (inv_of m) /\ (forall v, mat_vec (inv_of m) (mat_vec m v) = v) /\ (forall v, mat_vec m (mat_vec (inv_of m) v) = v).
Proof. intros H. destruct (rigid_inv m H) as (n & E & A & B). unfold inv_of. rewrite E. auto. Qed.
Lemma to_gcrs_itrs jd v : to_gcrs jd (to_itrs jd v) = v.
Proof.
  unfold to_gcrs, to_itrs. rewrite rotate_back'.
  destruct (inv_of_ok _ (nutation_rigid jd)) as (_ & N & _). destruct (inv_of_ok _ (precession_rigid jd)) as (_ & P & _).
  destruct (inv_of_ok _ bias_rigid) as (_ & B & _). now rewrite N, P, B.
Qed.
Lemma to_itrs_gcrs jd v : to_itrs jd (to_gcrs jd v) = v.
Proof.
  unfold to_gcrs, to_itrs.
  destruct (inv_of_ok _ (nutation_rigid jd)) as (_ & _ & N). destruct (inv_of_ok _ (precession_rigid jd)) as (_ & _ & P).
  destruct (inv_of_ok _ bias_rigid) as (_ & _ & B). now rewrite B, P, N, rotate_back.
Qed.

(** ** Lists *)
Lemma map2_map {A B C D E} (f : A -> B -> C) (g : D -> A) (h : E -> B) l k :
  map2 f (map g l) (map h k) = map2 (fun x y => f (g x) (h y)) l k.
Proof. unfold map2. revert k. induction l as [|x l IH]; intros [|y k]; cbn; auto. f_equal. apply IH. Qed.
Lemma map2_left {A B C D} (f : A -> B -> C) (g : D -> A) l k : map2 f (map g l) k = map2 (fun x y => f (g x) y) l k.
Proof. rewrite <- (map_id k) at 1. apply map2_map. Qed.
Lemma map2_comp {A B C D} (f : A -> C -> D) (g : A -> B -> C) (l : list A) (k : list B) :
  map2 f l (map2 g l k) = map2 (fun x y => f x (g x y)) l k.
Proof. unfold map2. revert k. induction l as [|x l IH]; intros [|y k]; cbn; auto. f_equal. apply IH. Qed.
Lemma map2_length {A B C} (f : A -> B -> C) l k : length l = length k -> length (map2 f l k) = length k.
Proof. intros H. unfold map2. rewrite map_length, combine_length. lia. Qed.
Lemma map_map2 {A B C D} (f : C -> D) (g : A -> B -> C) l k : map f (map2 g l k) = map2 (fun x y => f (g x y)) l k.
Proof. unfold map2. rewrite map_map. reflexivity. Qed.
Lemma map2_ext {A B C} (f g : A -> B -> C) l k : (forall x y, f x y = g x y) -> map2 f l k = map2 g l k.
Proof. intros H. unfold map2. apply map_ext. intros (x & y). apply H. Qed.
Lemma map2_snd {A B} (l : list A) (k : list B) : length l = length k -> map2 (fun _ y => y) l k = k.
Proof. unfold map2. revert k. induction l as [|x l IH]; intros [|y k] H; cbn in *; try lia; auto. f_equal. apply IH. lia. Qed.
Lemma nth_map2 {A B C} (f : A -> B -> C) l k i a b c : length l = length k -> (i < length l)%nat ->
  nth i (map2 f l k) c = f (nth i l a) (nth i k b).
Proof.
  unfold map2. revert k i. induction l as [|x l IH]; intros [|y k] [|i] H I; cbn in *; try lia; auto.
  apply IH; lia.
Qed.
Lemma broadcast_same {A B C} (f : A -> B -> C) l k : length l = length k -> np_broadcast f l k = Ok (map2 f l k).
Proof. intros H. unfold np_broadcast. rewrite H, Nat.eqb_refl. reflexivity. Qed.
Lemma mapM_map {A B C} (f : B -> res C) (g : A -> B) l : mapM f (map g l) = mapM (fun x => f (g x)) l.
Proof. induction l as [|x l IH]; cbn; auto. destruct (f (g x)); cbn; auto. now rewrite IH. Qed.
Lemma mapM_all {A B} (f : A -> res B) (g : A -> B) l : (forall x, f x = Ok (g x)) -> mapM f l = Ok (map g l).
Proof. intros H. induction l as [|x l IH]; cbn; auto. rewrite H. cbn. now rewrite IH. Qed.

Definition points {U} (p : position U) : list vec :=
  map (fun q => V (fst (fst q)) (snd (fst q)) (snd q)) (combine (combine (p_x p) (p_y p)) (p_z p)).
Lemma columns_ok {U} n (p : position U) : of_size n p -> columns (p_x p) (p_y p) (p_z p) = Ok (points p).
Proof.
  intros (_ & X & Y & Z). unfold columns, points. rewrite X, Y, Z, Nat.eqb_refl. reflexivity.
Qed.
Lemma points_length {U} n (p : position U) : of_size n p -> length (points p) = n.
Proof. intros (_ & X & Y & Z). unfold points. rewrite map_length, !combine_length. lia. Qed.
Lemma split_points x y z : length x = length y -> length y = length z ->
  let l := map (fun q => V (fst (fst q)) (snd (fst q)) (snd q)) (combine (combine x y) z) in
  map vx l = x /\ map vy l = y /\ map vz l = z.
Proof.
  revert y z. induction x as [|a x IH]; intros [|b y] [|c z] H K; cbn in *; try lia; auto.
  destruct (IH y z ltac:(lia) ltac:(lia)) as (E & F & G). rewrite E, F, G. auto.
Qed.
Lemma points_of (U : Type) t l (u : U) : points (Position t (map vx l) (map vy l) (map vz l) u) = l.
Proof.
  unfold points. cbn. induction l as [|v l IH]; cbn; auto. destruct v. cbn. f_equal. apply IH.
Qed.
Lemma point_nth {U} n (p : position U) i : of_size n p -> (i < n)%nat -> nth i (points p) (V 0 0 0) = point p i.
Proof.
  intros (_ & X & Y & Z) I. unfold points, point.
  change (V 0 0 0) with ((fun q : R * R * R => V (fst (fst q)) (snd (fst q)) (snd q)) (0, 0, 0)).
  rewrite map_nth, !combine_nth by (rewrite ?combine_length; lia). reflexivity.
Qed.
Lemma position_eta {U} n (p : position U) : of_size n p ->
  Position (p_time p) (map vx (points p)) (map vy (points p)) (map vz (points p)) (p_unit p) = p.
Proof.
  intros (_ & X & Y & Z). destruct (split_points (p_x p) (p_y p) (p_z p)) as (E & F & G); try lia.
  unfold points. rewrite E, F, G. now destruct p.
Qed.
Lemma position3d_ok {U} t x y z (u : U) : length x = length y ->
  position3d (array1 t) (array1 x) (array1 y) (array1 z) u = Ok (Position t x y z u).
Proof. intros H. unfold position3d. cbn. rewrite H, Nat.eqb_refl. cbn. now rewrite Bool.andb_false_r. Qed.

Lemma gcrs_to_itrs_ok {U} n (g : position U) : of_size n g ->
  let l := map2 to_itrs (p_time g) (points g) in
  gcrs_to_itrs g = Ok (Position (p_time g) (map vx l) (map vy l) (map vz l) (p_unit g)).
Proof.
  intros S l. unfold gcrs_to_itrs. cbv zeta. rewrite (columns_ok n) by auto. cbn [bind].
  assert (L : length (p_time g) = length (points g)) by (rewrite (points_length n) by auto; apply S).
  rewrite broadcast_same by now rewrite !map_length. cbn [bind]. rewrite map2_map.
  rewrite broadcast_same by (rewrite map_length, map2_length; auto). cbn [bind].
  assert (E : map2 mat_vec (map nutation_matrix (p_time g)) (map2 (fun x y => mat_vec (precession_matrix x) (mat_vec bias_matrix y)) (p_time g) (points g))
    = map2 (fun x y => mat_vec (nutation_matrix x) (mat_vec (precession_matrix x) (mat_vec bias_matrix y))) (p_time g) (points g)).
  { rewrite map2_left, map2_comp. reflexivity. }
  rewrite E. unfold rotate_by_earth_rotation_angle.
  rewrite !map_length, map2_length, L, Nat.eqb_refl by auto. cbn [bind]. rewrite map_map.
  rewrite map2_left, map2_comp.
  apply position3d_ok. now rewrite !map_length.
Qed.
Lemma itrs_to_gcrs_ok {U} n (g : position U) : of_size n g ->
  let l := map2 to_gcrs (p_time g) (points g) in
  itrs_to_gcrs g = Ok (Position (p_time g) (map vx l) (map vy l) (map vz l) (p_unit g)).
Proof.
  intros S l. unfold itrs_to_gcrs. cbv zeta. rewrite (columns_ok n) by auto. cbn [bind].
  assert (L : length (p_time g) = length (points g)) by (rewrite (points_length n) by auto; apply S).
  unfold rotate_by_earth_rotation_angle. rewrite !map_length, L, Nat.eqb_refl. cbn [bind].
  assert (MN : mapM np_inv (map nutation_matrix (p_time g)) = Ok (map (fun t => inv_of (nutation_matrix t)) (p_time g))).
  { rewrite mapM_map. apply mapM_all. intros t. apply (inv_of_ok _ (nutation_rigid t)). }
  assert (MP : mapM np_inv (map precession_matrix (p_time g)) = Ok (map (fun t => inv_of (precession_matrix t)) (p_time g))).
  { rewrite mapM_map. apply mapM_all. intros t. apply (inv_of_ok _ (precession_rigid t)). }
  rewrite MN, MP. cbn [bind]. destruct (inv_of_ok _ bias_rigid) as (B & _). rewrite B.
  assert (E1 : map2 rotate_row (map earth_rotation_angle (p_time g)) (points g) = map2 (fun t v => rotate_row (earth_rotation_angle t) v) (p_time g) (points g)).
  { apply map2_left. }
  rewrite E1. rewrite broadcast_same by (rewrite map_length, map2_length; auto). cbn [bind].
  rewrite map2_left, map2_comp.
  rewrite broadcast_same by (rewrite map_length, map2_length; auto). cbn [bind].
  rewrite map2_left, map2_comp. rewrite map_map2.
  apply position3d_ok. now rewrite !map_length.
Qed.
