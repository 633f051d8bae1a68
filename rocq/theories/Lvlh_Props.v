(** The LVLH frame: C62. *)
From Coq Require Import List Reals Arith Lia Lra Psatz.
From Verif Require Import Py PyLemmas Num Time_Model Rot_Model Rot_Spec Rot_Proofs Rot_Props Geo_Model Geo_Spec Geo_Props Geo_Dir Lvlh_Model Lvlh_Spec Lvlh_Proofs.
Import ListNotations.
Open Scope R_scope.
Open Scope list_scope.

(** ** Lists given by their entries *)
Definition upto {A} (n : nat) (f : nat -> A) : list A := map f (seq 0 n).
Lemma upto_length {A} n (f : nat -> A) : length (upto n f) = n.
Proof. unfold upto. now rewrite map_length, seq_length. Qed.
Lemma upto_nth {A} n (f : nat -> A) i d : (i < n)%nat -> nth i (upto n f) d = f i.
Proof.
  intros I. unfold upto. rewrite (nth_indep _ d (f 0%nat)) by (now rewrite map_length, seq_length). rewrite map_nth. now rewrite seq_nth.
Qed.
Lemma upto_map {A B} (g : A -> B) n f : map g (upto n f) = upto n (fun i => g (f i)).
Proof. unfold upto. now rewrite map_map. Qed.
Lemma upto_map2 {A B C} (g : A -> B -> C) n f h : map2 g (upto n f) (upto n h) = upto n (fun i => g (f i) (h i)).
Proof.
  unfold upto, map2. induction (seq 0 n) as [|k l IH]; [reflexivity|]. cbn [map combine fst snd]. now rewrite IH.
Qed.
Lemma upto_broadcast {A B C} (g : A -> B -> C) n f h : np_broadcast g (upto n f) (upto n h) = Ok (upto n (fun i => g (f i) (h i))).
Proof. rewrite broadcast_same by now rewrite !upto_length. now rewrite upto_map2. Qed.
Lemma upto_ext {A} n (f g : nat -> A) : (forall i, (i < n)%nat -> f i = g i) -> upto n f = upto n g.
Proof. intros H. unfold upto. apply map_ext_in. intros i I. apply in_seq in I. apply H. lia. Qed.
Lemma list_upto {A} (l : list A) d : l = upto (length l) (fun i => nth i l d).
Proof.
  induction l as [|a l IH]; [reflexivity|]. unfold upto in *. cbn [length seq map nth]. f_equal. rewrite <- seq_shift, map_map. exact IH.
Qed.
Lemma points_upto {U} n (p : position U) : of_size n p -> points p = upto n (point p).
Proof.
  intros S. rewrite (list_upto (points p) (V 0 0 0)), (points_length n) by auto. apply upto_ext. intros i I. now rewrite (point_nth n).
Qed.
Lemma columns_upto {U} n (p : position U) : of_size n p -> columns (p_x p) (p_y p) (p_z p) = Ok (upto n (point p)).
Proof. intros S. rewrite (columns_ok n) by auto. now rewrite (points_upto n). Qed.
Lemma matrix_upto n f g : gcrs_to_lvlh_matrix (upto n f) (upto n g) = Ok (upto n (fun i => lvlh_rows (f i) (g i))).
Proof. unfold gcrs_to_lvlh_matrix. rewrite !upto_length, Nat.eqb_refl. now rewrite upto_map2. Qed.
Lemma lvlh_ok {U W} n (p : position U) (v : position W) : of_size n p -> of_size n v ->
  gcrs_to_lvlh p v = Ok (lvlh_of (p_time p) (upto n (fun i => nm_vec (lvlh_rows (point p i) (point v i)) (fin_vec (point p i)))) (p_unit p),
                         lvlh_of (p_time p) (upto n (fun i => nm_vec (lvlh_rows (point p i) (point v i)) (fin_vec (point v i)))) (p_unit v)).
Proof.
  intros P Q. unfold gcrs_to_lvlh. cbv zeta. rewrite !(columns_upto n) by auto. cbn [bind]. rewrite matrix_upto. cbn [bind].
  rewrite !upto_map, !upto_broadcast. reflexivity.
Qed.
Lemma lvlh_nth {U} n t f (u : U) i : (i < n)%nat -> lvlh_point (lvlh_of t (upto n f) u) i = f i.
Proof. intros I. unfold lvlh_point, lvlh_of. cbn [l_x l_y l_z]. rewrite !upto_map, !upto_nth by auto. now destruct (f i). Qed.

Lemma mat_ext m m' : (forall d, mat_vec m d = mat_vec m' d) -> m = m'.
Proof.
  intros ALL. assert (R : forall r r', (forall d, row_times r d = row_times r' d) -> r = r').
  { intros r r' H. pose proof (H (V 1 0 0)) as A1. pose proof (H (V 0 1 0)) as A2. pose proof (H (V 0 0 1)) as A3.
    unfold row_times in *. cbn [vx vy vz] in *. apply vec_ext; lra. }
  destruct m as [a b c], m' as [a' b' c']. unfold mat_vec in ALL. cbn [r0 r1 r2] in ALL.
  f_equal; apply R; intros d; specialize (ALL d); congruence.
Qed.

(** ** C62 *)
(** Every point is turned by one rotation, which brings its position to minus its length on
    the third axis and its velocity into the plane of the first (on the positive side) and
    third axes.  There is only one such rotation. *)
Theorem C62_lvlh_frame :
  forall (U W : Type) n (gcrs : position U) (velocity : position W), of_size n gcrs -> of_size n velocity ->
    exists position' velocity', gcrs_to_lvlh gcrs velocity = Ok (position', velocity') /\
      l_time position' = p_time gcrs /\ l_time velocity' = p_time gcrs /\
      l_unit position' = p_unit gcrs /\ l_unit velocity' = p_unit velocity /\
      length (l_x position') = n /\ length (l_x velocity') = n /\
      forall i, (i < n)%nat -> product (point gcrs i) (point velocity i) <> zero ->
        exists m, rotation m /\
          lvlh_point position' i = numbers (mat_vec m (point gcrs i)) /\
          lvlh_point velocity' i = numbers (mat_vec m (point velocity i)) /\
          mat_vec m (point gcrs i) = V 0 0 (- norm (point gcrs i)) /\
          vy (mat_vec m (point velocity i)) = 0 /\ 0 < vx (mat_vec m (point velocity i)) /\
          forall m', rotation m' -> mat_vec m' (point gcrs i) = V 0 0 (- norm (point gcrs i)) ->
            vy (mat_vec m' (point velocity i)) = 0 -> 0 < vx (mat_vec m' (point velocity i)) -> m' = m.
Proof.
  intros U W n p v P Q. rewrite (lvlh_ok n) by auto. do 2 eexists. split; [reflexivity|]. do 4 (split; [reflexivity|]).
  split; [cbn [lvlh_of l_x]; now rewrite map_length, upto_length|]. split; [cbn [lvlh_of l_x]; now rewrite map_length, upto_length|].
  intros i I H. rewrite !lvlh_nth by auto. set (r := point p i) in *. set (w := point v i) in *. clearbody r w.
  exists (M (forward r w) (right r w) (down r)). rewrite !(lvlh_rows_real r w H), !nm_fin.
  pose proof (norm_pos _ H) as N1. pose proof (norm_pos _ (product_nz _ _ H)) as N2.
  split; [now apply frame|]. do 2 (split; [reflexivity|]). rewrite !on_axes_mat, on_axes_down, on_axes_velocity by auto. cbn [vx vy vz].
  split; [reflexivity|]. split; [reflexivity|]. split; [apply Rdiv_lt_0_compat; lra|].
  intros m' (D & VO) E1 E2 E3.
  (* the images of r and w are determined *)
  set (x := vx (mat_vec m' w)) in *. set (z := vz (mat_vec m' w)).
  assert (EW : mat_vec m' w = V x 0 z) by (apply vec_ext; cbn [vx vy vz]; auto).
  assert (EZ : z = - dot r w / norm r).
  { pose proof (D r w) as DD. rewrite E1, EW in DD. unfold dot in DD at 1. cbn [vx vy vz] in DD. rewrite <- DD. field. lra. }
  assert (EX : x = norm (product r w) / norm r).
  { assert (X2 : norm r * norm r * (x * x) = norm (product r w) * norm (product r w)).
    { rewrite (norm2 (product r w)). transitivity (dot r r * dot w w - dot r w * dot r w); [|unfold dot, product; cbn [vx vy vz]; ring].
      pose proof (D w w) as DW. pose proof (D r w) as DR. rewrite E1, EW in DR. rewrite EW in DW. rewrite <- DW, <- DR, <- (norm2 r). unfold dot. cbn [vx vy vz]. ring. }
    assert (NX : norm r * x = norm (product r w)); [|rewrite <- NX; field; lra].
    apply Rsqr_inj; unfold Rsqr; nra. }
  (* so is the image of every vector *)
  assert (ALL : forall d, mat_vec m' d = on_axes r w d).
  { intros d. pose proof (D r d) as DR. pose proof (D w d) as DW. pose proof (VO r w d) as VV. rewrite E1 in DR, VV. rewrite EW in DW, VV.
    rewrite seen_axes by auto. unfold seen. rewrite <- norm_product. destruct (mat_vec m' d) as [a b c]. unfold dot in DR at 1. unfold dot in DW at 1. unfold volume in VV at 1. cbn [vx vy vz] in DR, DW, VV.
    assert (C3 : c = - dot r d / norm r) by (rewrite <- DR; field; lra).
    assert (C1 : a = (dot w d - z * c) / x) by (rewrite <- DW; field; lra).
    assert (C2 : b = - volume r w d / (norm r * x)). { apply Rmult_eq_reg_l with (norm r * x); [|nra]. replace (norm r * x * b) with (- (- norm r * (x * b))) by ring. rewrite <- VV. field. split; nra. }
    f_equal.
    - rewrite C1, C3, EZ, EX, <- (norm2 r). field. lra.
    - rewrite C2, EX. field. lra.
    - exact C3. }
  apply mat_ext. exact ALL.
Qed.
(** A position and a velocity on one line have no such frame: the first two coordinates are
    not-a-number. *)
Theorem C62_collinear :
  forall (U W : Type) n (gcrs : position U) (velocity : position W) position' velocity',
    of_size n gcrs -> of_size n velocity -> gcrs_to_lvlh gcrs velocity = Ok (position', velocity') ->
    forall i, (i < n)%nat -> product (point gcrs i) (point velocity i) = zero ->
      nth i (l_x position') (Fin 0) = NaN /\ nth i (l_y position') (Fin 0) = NaN /\
      nth i (l_x velocity') (Fin 0) = NaN /\ nth i (l_y velocity') (Fin 0) = NaN.
Proof.
  intros U W n p v p' v' P Q E i I H. rewrite (lvlh_ok n) in E by auto. injection E as <- <-. unfold lvlh_of. cbn [l_x l_y].
  rewrite !upto_map, !upto_nth by auto. set (r := point p i) in *. set (w := point v i) in *. clearbody r w.
  assert (Y : row_y (lvlh_rows r w) = NV NaN NaN NaN).
  { unfold lvlh_rows. cbn [row_y]. rewrite cross_fin, H, norm_fin, opp_fin.
    assert (N : norm zero = 0). { unfold norm, dot, zero. cbn [vx vy vz]. replace (0 * 0 + 0 * 0 + 0 * 0) with 0 by ring. apply sqrt_0. }
    rewrite N. unfold nv_divide, fin_vec, opposite, times, zero, n_div. cbn [nx ny nz vx vy vz].
    destruct (Req_EM_T 0 0); [|lra]. replace (-1 * 0) with 0 by ring. destruct (Rlt_dec 0 0); [lra|]. reflexivity. }
  assert (X : row_x (lvlh_rows r w) = NV NaN NaN NaN).
  { transitivity (nv_cross (row_y (lvlh_rows r w)) (row_z (lvlh_rows r w))); [reflexivity|]. rewrite Y. unfold nv_cross. cbn [nx ny nz]. 
    destruct (row_z (lvlh_rows r w)) as [[] [] []]; reflexivity. }
  unfold nm_vec. cbn [nx ny]. rewrite X, Y. unfold nv_dot. cbn [nx ny nz n_mul n_add]. repeat split; reflexivity.
Qed.
Example C62_case : product (V 7000 0 0) (V 1 7.5 0) <> zero /\ of_size 1 (Position [2460000] [7000] [0] [0] tt) /\ of_size 1 (Position [2460000] [1] [7.5] [0] tt) /\
  point (Position [2460000] [7000] [0] [0] tt) 0 = V 7000 0 0 /\ point (Position [2460000] [1] [7.5] [0] tt) 0 = V 1 7.5 0 /\
  product (V 7000 0 0) (V 1 0 0) = zero.
Proof.
  split; [|split; [|split; [|split; [|split]]]]; try (repeat split; reflexivity).
  - unfold product, zero. cbn [vx vy vz]. intros E. injection E as _ _ E. lra.
  - unfold product, zero. cbn [vx vy vz]. f_equal; ring.
Qed.
Print Assumptions C62_lvlh_frame.
Print Assumptions C62_collinear.
