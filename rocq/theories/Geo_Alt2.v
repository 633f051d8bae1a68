(** The iteration of [_altitude] on arrays: it ends, and how near its values are. *)
From Coq Require Import List Reals Arith Bool Lia Lra Psatz.
From Verif Require Import Py PyLemmas Num Time_Model Rot_Model Rot_Spec Rot_Proofs Geo_Model Geo_Spec Geo_Alt.
Import ListNotations.
Open Scope R_scope.
Open Scope list_scope.

Lemma map2_cons {X Y Z} (f : X -> Y -> Z) x l y k : map2 f (x :: l) (y :: k) = f x y :: map2 f l k.
Proof. reflexivity. Qed.
Definition h0 (p z : R) : R := rr p z - sqrt (A * B).
Definition m0 (p z : R) : R := (A + h0 p z) / (A + h0 p z - cc).
Fixpoint mk (p z : R) (k : nat) : R := match k with O => m0 p z | S j => g_ p z (mk p z j) end.
Definition hk (p z : R) (k : nat) : R := match k with O => h0 p z | S j => h_ p z (mk p z j) end.
Definition vals (v : vec) (k : nat) : num * num :=
  let p := axis_distance v in let z := vz v in (Fin (hk p z k), Fin (atan (z / p * mk p z k))).
Definition far_point (v : vec) : Prop := far (axis_distance v) (vz v).

Lemma sqrtAB : B <= sqrt (A * B) <= A.
Proof.
  pose proof A_pos. pose proof B_pos. pose proof B_lt_A. split.
  - rewrite <- (sqrt_square B) at 1 by lra. apply sqrt_le_1_alt. nra.
  - rewrite <- (sqrt_square A) by lra. apply sqrt_le_1_alt. rewrite sqrt_square by lra. nra.
Qed.
Lemma start_big p z : far p z -> 6335 <= A + h0 p z.
Proof. intros (_ & F). unfold h0. pose proof sqrtAB. pose proof B_val. lra. Qed.
Lemma m0_range p z : far p z -> 1 <= m0 p z <= 1.01.
Proof.
  intros F. pose proof (start_big p z F) as L. pose proof cc_bounds. unfold m0. set (s := A + h0 p z) in *. split.
  - apply Rmult_le_reg_r with (s - cc); [lra|]. unfold Rdiv. rewrite Rmult_assoc, Rinv_l by lra. lra.
  - apply Rmult_le_reg_r with (s - cc); [lra|]. unfold Rdiv. rewrite Rmult_assoc, Rinv_l by lra. lra.
Qed.
Lemma mk_range p z k : far p z -> 1 <= mk p z k <= 1.01.
Proof. intros F. induction k; cbn [mk]; [now apply m0_range|apply g_range; auto; lra]. Qed.
Lemma axis2 v : axis_distance v * axis_distance v = vx v ^ 2 + vy v ^ 2.
Proof. unfold axis_distance. apply sqrt_sqrt. pose proof (pow2_ge_0 (vx v)). pose proof (pow2_ge_0 (vy v)). lra. Qed.
Lemma start_value v : altitude_start v = Fin (h0 (axis_distance v) (vz v)).
Proof. unfold altitude_start, h0, rr. rewrite axis2. do 4 f_equal. ring. Qed.
Lemma first_vals_eq v : far_point v -> first_vals v = vals v 0.
Proof.
  intros F. unfold first_vals, vals. cbv zeta. rewrite start_value. cbn [hk mk].
  pose proof (start_big _ _ F). pose proof cc_bounds as C. pose proof cc_kap as CK. destruct F as (P & _).
  rewrite latitude_from_fin; [|lra|lra|].
  - unfold m0. do 5 f_equal. rewrite CK. ring.
  - rewrite (Rmult_comm (1 - kap)). rewrite <- CK. lra.
Qed.
Lemma next_vals v k : far_point v -> new_vals v (snd (vals v k)) = vals v (S k).
Proof.
  intros F. unfold vals. cbn [snd]. rewrite new_vals_step; [reflexivity|apply F|].
  pose proof (mk_range (axis_distance v) (vz v) k F). pose proof (S_far (axis_distance v) (vz v) (mk (axis_distance v) (vz v) k) F ltac:(lra)).
  pose proof cc_bounds. lra.
Qed.
Definition states (l : list vec) (k : nat) : list (num * num) := map (fun v => vals v k) l.
Lemma next_states l k : Forall far_point l ->
  map2 (fun v hp => new_vals v (snd hp)) l (states l k) = states l (S k).
Proof.
  unfold states. induction l as [|v l IH]; intros F; [reflexivity|]. inversion F; subst. cbn [map]. rewrite map2_cons.
  rewrite next_vals by auto. f_equal. auto.
Qed.
Lemma first_states l : Forall far_point l -> map first_vals l = states l 0.
Proof. intros F. apply map_ext_in. intros v I. apply first_vals_eq. now apply (Forall_forall far_point l). Qed.

(** ** It ends *)
Lemma mean_small {X} (l : list X) (f : X -> R) e : 0 < e -> (forall x, In x l -> f x <= e) ->
  forall r, n_mean (map (fun x => Fin (f x)) l) = Fin r -> r <= e.
Proof.
  intros E H r. unfold n_mean. rewrite map_length.
  assert (S : n_sum (map (fun x => Fin (f x)) l) = Fin (fold_right (fun x a => f x + a) 0 l)).
  { clear H. induction l; [reflexivity|]. cbn [map n_sum fold_right]. fold (n_sum (map (fun x => Fin (f x)) l)). now rewrite IHl. }
  rewrite S. clear S. assert (L : fold_right (fun x a => f x + a) 0 l <= INR (length l) * e).
  { clear r. induction l; [cbn; lra|]. cbn [fold_right length]. rewrite S_INR. assert (f a <= e) by (apply H; now left).
    assert (fold_right (fun x a => f x + a) 0 l <= INR (length l) * e) by (apply IHl; intros; apply H; now right). lra. }
  unfold n_div. destruct (Req_EM_T _ 0) as [Z|Z].
  - destruct (Rlt_dec _ _); [discriminate|]. destruct (Rlt_dec _ _); discriminate.
  - intros Q. injection Q as <-. assert (0 < INR (length l)) by (pose proof (pos_INR (length l)); lra).
    apply Rmult_le_reg_r with (INR (length l)); auto. unfold Rdiv. rewrite Rmult_assoc, Rinv_l by auto. lra.
Qed.
Lemma mean_stop {X} (l : list X) (f : X -> R) e : 0 < e -> (forall x, In x l -> f x <= e) ->
  n_lt (Fin e) (n_mean (map (fun x => Fin (f x)) l)) = false.
Proof.
  intros E H. pose proof (mean_small l f e E H) as M. destruct (n_mean _) as [r|[]|] eqn:N; try reflexivity.
  - cbn [n_lt]. destruct (Rlt_dec e r); [|reflexivity]. pose proof (M r eq_refl). lra.
  - (* an infinite mean: division by zero with a positive sum *)
    exfalso. clear M. unfold n_mean in N. rewrite map_length in N. destruct l as [|a l].
    + cbn in N. unfold n_div in N. destruct (Req_EM_T 0 0); [|discriminate]. destruct (Rlt_dec 0 0); [lra|]. discriminate.
    + assert (S : exists s, n_sum (map (fun x => Fin (f x)) (a :: l)) = Fin s).
      { clear. induction (a :: l) as [|b k (s & IH)]; [exists 0; reflexivity|]. exists (f b + s). cbn [map n_sum fold_right].
        fold (n_sum (map (fun x => Fin (f x)) k)). now rewrite IH. }
      destruct S as (s & ->) in N. unfold n_div in N. destruct (Req_EM_T _ 0) as [Z|Z]; [|discriminate].
      assert (0 < INR (length (a :: l))) by (apply lt_0_INR; cbn; lia). lra.
Qed.
Lemma map2_same {X} (f g : X -> num) (l : list X) : map2 n_sub (map f l) (map g l) = map (fun x => n_sub (f x) (g x)) l.
Proof. induction l; [reflexivity|]. cbn [map]. now rewrite map2_cons, IHl. Qed.
Lemma atan_lip x y : Rabs (atan x - atan y) <= Rabs (x - y).
Proof.
  assert (M : forall a b, a < b -> 0 <= atan b - atan a <= b - a).
  { intros a b L. destruct (MVT_cor2 atan (fun x => / (1 + x ^ 2)) a b L) as (c & E & _).
    { intros. apply derivable_pt_lim_atan. }
    rewrite E. assert (D : 0 < / (1 + c ^ 2) <= 1).
    { pose proof (pow2_ge_0 c). split; [apply Rinv_0_lt_compat; lra|]. rewrite <- Rinv_1. apply Rinv_le_contravar; lra. }
    nra. }
  destruct (Rtotal_order x y) as [L|[->|L]].
  - pose proof (M _ _ L). rewrite !Rabs_left1 by lra. lra.
  - rewrite !Rminus_eq_0, Rabs_R0. lra.
  - pose proof (M _ _ L). rewrite !Rabs_right by lra. lra.
Qed.
Lemma mk_step p z k : far p z -> Rabs (mk p z (S k) - mk p z k) <= 0.007 ^ k.
Proof.
  intros F. induction k.
  - rewrite pow_O. pose proof (mk_range p z 1 F). pose proof (mk_range p z 0 F). apply Rabs_le. lra.
  - cbn [mk] in *. pose proof (mk_range p z k F). pose proof (mk_range p z (S k) F) as R2. cbn [mk] in R2.
    eapply Rle_trans; [apply g_lip; auto; lra|]. cbn [pow]. apply Rmult_le_compat_l; [lra|exact IHk].
Qed.
Lemma hk_step p z k : far p z -> Rabs (hk p z (S (S k)) - hk p z (S k)) <= (Rabs z + 12850) * 0.007 ^ k.
Proof.
  intros F. cbn [hk]. pose proof (mk_range p z k F). pose proof (mk_range p z (S k) F). 
  eapply Rle_trans; [apply h_lip; auto; lra|]. pose proof (Rabs_pos z). apply Rmult_le_compat_l; [lra|]. now apply mk_step.
Qed.
Lemma small_power C e : 0 <= C -> 0 < e -> exists n, C * 0.007 ^ n <= e.
Proof.
  intros HC E. destruct (pow_lt_1_zero 0.007) with (y := e / (C + 1)) as (n & N).
  - rewrite Rabs_right; lra.
  - apply Rdiv_lt_0_compat; lra.
  - exists n. specialize (N n (le_n _)). rewrite Rabs_right in N by (apply Rle_ge, pow_le; lra).
    assert (0 <= 0.007 ^ n) by (apply pow_le; lra).
    apply Rle_trans with ((C + 1) * 0.007 ^ n); [nra|]. apply Rmult_lt_compat_l with (r := C + 1) in N; [|lra].
    replace ((C + 1) * (e / (C + 1))) with e in N by (field; lra). lra.
Qed.
Lemma pow_mono k n : (k <= n)%nat -> 0.007 ^ n <= 0.007 ^ k.
Proof.
  intros L. induction L; [lra|]. cbn [pow]. assert (0 <= 0.007 ^ m) by (apply pow_le; lra). lra.
Qed.
Lemma all_small (l : list vec) e : 0 < e -> Forall far_point l -> exists n, forall v, In v l ->
  let p := axis_distance v in let z := vz v in
  hk p z (S n) - hk p z n <= e /\ atan (z / p * mk p z (S n)) - atan (z / p * mk p z n) <= e.
Proof.
  intros E F.
  assert (G : exists n, forall k, (n <= k)%nat -> forall v, In v l ->
    let p := axis_distance v in let z := vz v in
    hk p z (S k) - hk p z k <= e /\ atan (z / p * mk p z (S k)) - atan (z / p * mk p z k) <= e).
  { induction F as [|v l FV F (n1 & IH)]; [exists O; intros ? ? ? []|].
    set (p := axis_distance v) in *. set (z := vz v) in *.
    destruct (small_power (Rabs z + 12850) e) as (n2 & N2); auto. { pose proof (Rabs_pos z). lra. }
    destruct (small_power (Rabs (z / p)) e) as (n3 & N3); auto. { apply Rabs_pos. }
    exists (S (n1 + n2 + n3)). intros k K w [<-|I]; [|apply IH; auto; lia]. fold p z. destruct k as [|j]; [lia|]. split.
    - eapply Rle_trans; [apply Rle_abs|]. eapply Rle_trans; [apply hk_step; exact FV|]. eapply Rle_trans; [|exact N2].
      pose proof (Rabs_pos z). apply Rmult_le_compat_l; [lra|apply pow_mono; lia].
    - eapply Rle_trans; [apply Rle_abs|]. eapply Rle_trans; [apply atan_lip|]. rewrite <- Rmult_minus_distr_l, Rabs_mult.
      eapply Rle_trans; [|exact N3]. apply Rmult_le_compat_l; [apply Rabs_pos|]. eapply Rle_trans; [apply mk_step; exact FV|]. apply pow_mono; lia. }
  destruct G as (n & G). exists n. intros v I. apply G; auto.
Qed.
Lemma keep_going_states l k : keep_going (states l k) (states l (S k)) =
  (n_lt (Fin (A * tolerance)) (n_mean (map (fun v => Fin (hk (axis_distance v) (vz v) (S k) - hk (axis_distance v) (vz v) k)) l))
   || n_lt (Fin tolerance) (n_mean (map (fun v => Fin (atan (vz v / axis_distance v * mk (axis_distance v) (vz v) (S k))
                                        - atan (vz v / axis_distance v * mk (axis_distance v) (vz v) k))) l)))%bool.
Proof. unfold keep_going, states. rewrite !map_map, !map2_same. reflexivity. Qed.
Lemma stops l : Forall far_point l -> exists n, keep_going (states l n) (states l (S n)) = false.
Proof.
  intros F. destruct (all_small l tolerance) as (n & N); auto. { unfold tolerance. lra. }
  exists n. rewrite keep_going_states. rewrite !mean_stop; auto.
  - unfold tolerance. lra.
  - intros v I. apply (N v I).
  - pose proof A_pos. unfold tolerance. lra.
  - intros v I. destruct (N v I) as (N1 & _). eapply Rle_trans; [exact N1|]. rewrite A_val. unfold tolerance. lra.
Qed.
Lemma loop_from l n k : Forall far_point l -> keep_going (states l (k + n)) (states l (S (k + n))) = false ->
  exists j, altitude_loop l (states l k) (map fst (states l j)).
Proof.
  intros F. revert k. induction n; intros k H.
  - rewrite Nat.add_0_r in H. exists k. apply loop_ends. now rewrite next_states.
  - destruct (keep_going (states l k) (states l (S k))) eqn:G.
    + destruct (IHn (S k)) as (j & J). { now replace (S k + n)%nat with (k + S n)%nat by lia. }
      exists j. apply loop_continues; now rewrite next_states.
    + exists k. apply loop_ends. now rewrite next_states.
Qed.
Lemma loop_result l k result : Forall far_point l -> altitude_loop l (states l k) result ->
  exists j, (k <= j)%nat /\ result = map fst (states l j).
Proof.
  intros F L. remember (states l k) as s eqn:E. revert k E. induction L as [o H|o r H L IH]; intros k ->.
  - exists k. auto.
  - rewrite next_states in IH by auto. destruct (IH (S k) eq_refl) as (j & J & ->). exists j. split; auto. lia.
Qed.
Lemma loop_unique l s r1 r2 : altitude_loop l s r1 -> altitude_loop l s r2 -> r1 = r2.
Proof.
  intros L1. revert r2. induction L1 as [o H|o r H L IH]; intros r2 L2; inversion L2; subst; try congruence. now apply IH.
Qed.
