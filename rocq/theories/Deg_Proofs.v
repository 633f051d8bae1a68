(** The value of the conflict degree and the orders it induces. *)
From Coq Require Import List ZArith QArith Qabs Qround Bool Arith Permutation Sorted Lia Lqa.
From Verif Require Import Py PyLemmas Sched_Model Sched_Spec Sched_Proofs Sched_Proofs2 Sched_Proofs3
  Sched_Proofs4 Deg_Spec.
Import ListNotations.
Open Scope nat_scope.
Open Scope list_scope.

Lemma Qle_bool_cases x y : (Qle_bool x y = true /\ x <= y)%Q \/ (Qle_bool x y = false /\ y < x)%Q.
Proof.
  destruct (Qle_bool x y) eqn:E; [left; split; auto; now apply Qle_bool_iff|right; split; auto].
  apply Qnot_le_lt. intros L. apply Qle_bool_iff in L. congruence.
Qed.
Lemma meets_iff v w : meets v w = are_vtws_overlapping v w.
Proof.
  unfold meets, are_vtws_overlapping.
  destruct (Qle_bool_cases (v_rise w) (v_set v)) as [(-> & A)|(-> & A)],
    (Qle_bool_cases (v_rise v) (v_set w)) as [(-> & B)|(-> & B)],
    (Qltb (v_set v) (v_rise w)) eqn:C, (Qltb (v_set w) (v_rise v)) eqn:D; cbn; auto; exfalso; qb; lra.
Qed.

Lemma overlap_value v w : (v_rise v < v_set v)%Q -> (v_rise w < v_set w)%Q -> meets v w = true ->
  exists x, julian_day_overlap v w = Some (PQty x) /\ (x == measured_overlap v w)%Q.
Proof.
  intros A B M. rewrite meets_iff in M. unfold are_vtws_overlapping in M.
  unfold julian_day_overlap, measured_overlap, strictly_inside. cbv zeta.
  destruct (Qltb (v_set v) (v_rise w)) eqn:E1; [discriminate|].
  destruct (Qltb (v_set w) (v_rise v)) eqn:E2; [discriminate|]. cbn [orb].
  destruct (Qltb (v_rise v) (v_rise w) && Qltb (v_set w) (v_set v))%bool; [eexists; split; [reflexivity|lra]|].
  destruct (Qltb (v_rise w) (v_rise v) && Qltb (v_set v) (v_set w))%bool; [eexists; split; [reflexivity|lra]|].
  destruct (Qltb (v_rise w) (v_set v)) eqn:B3.
  - destruct (Qeqb (v_rise w) (v_set v)) eqn:Q; [exfalso; qb; lra|]. eexists. split; [reflexivity|lra].
  - destruct (Qeqb (v_rise w) (v_set v)) eqn:Q; [|exfalso; qb; lra].
    destruct (Qltb (v_rise v) (v_set w)) eqn:B4; [|exfalso; qb; lra].
    eexists. split; [reflexivity|lra].
Qed.

Lemma overlapping_list h v : set_of_overlapping_vtws h v = filter (meets v) (all_windows h).
Proof.
  unfold set_of_overlapping_vtws, all_windows. induction (reqs h) as [|r l IH]; [reflexivity|].
  cbn [flat_map map concat]. rewrite filter_app, IH. f_equal. apply filter_ext. intros w. now rewrite meets_iff.
Qed.

Lemma total_value v : forall l a, (forall w, In w l -> exists x, julian_day_overlap v w = Some (PQty x) /\
    (x == measured_overlap v w)%Q) ->
  exists y, total_overlap (PQty a) v l = Ok (PQty y) /\ (y == a + total (map (measured_overlap v) l))%Q.
Proof.
  induction l as [|w l IH]; intros a H; cbn [total_overlap map total].
  - exists a. split; [reflexivity|ring].
  - destruct (H w) as (x & E & X); [now left|]. rewrite E. cbn [num_add bind].
    destruct (IH (a + x)%Q) as (y & Ey & Y); [intros u Iu; apply H; now right|].
    exists y. split; auto. rewrite Y, X. ring.
Qed.

Lemma in_all_windows h r v : In r (reqs h) -> In v (r_vtws r) -> In v (all_windows h).
Proof. intros A B. unfold all_windows. apply in_concat. exists (r_vtws r). split; auto. now apply in_map. Qed.
Lemma all_windows_in h v : In v (all_windows h) -> exists r, In r (reqs h) /\ In v (r_vtws r).
Proof.
  unfold all_windows. intros H. apply in_concat in H. destruct H as (l & Il & Iv).
  apply in_map_iff in Il. destruct Il as (r & <- & Ir). eauto.
Qed.

Lemma degree_value h v : ordered_windows h -> In v (all_windows h) ->
  exists x, conflict_degree h v = Ok (PQty x) /\ (x == measured_degree h v)%Q.
Proof.
  intros O Iv. destruct (all_windows_in _ _ Iv) as (r & Ir & Jv).
  unfold conflict_degree, measured_degree, mean_over, mean. cbv zeta. rewrite overlapping_list, map_length.
  assert (H : forall w, In w (filter (meets v) (all_windows h)) ->
    exists x, julian_day_overlap v w = Some (PQty x) /\ (x == measured_overlap v w)%Q).
  { intros w Iw. apply filter_In in Iw. destruct Iw as (Iw & M).
    destruct (all_windows_in _ _ Iw) as (q & Iq & Jw). apply overlap_value; eauto. }
  assert (Sv : In v (filter (meets v) (all_windows h))).
  { apply filter_In. split; auto. unfold meets. pose proof (O r v Ir Jv).
    apply andb_true_iff. split; apply Qle_bool_iff; lra. }
  destruct (filter (meets v) (all_windows h)) as [|w l]; [destruct Sv|].
  cbn [total_overlap map total]. destruct (H w) as (x & E & X); [now left|]. rewrite E. cbn [num_add bind].
  destruct (total_value v l (0 + x)%Q) as (y & Ey & Y); [intros u Iu; apply H; now right|].
  rewrite Ey. cbn [bind num_div length]. eexists. split; [reflexivity|]. rewrite Y, X.
  apply Qmult_comp; [ring|reflexivity].
Qed.

(** ** Reordering the windows of requests changes no degree *)
Lemma total_perm l l' : Permutation l l' -> (total l == total l')%Q.
Proof.
  induction 1 as [|x l l' P IH|x y l|l l' l'' P IH Q JH]; cbn [total].
  - reflexivity.
  - now rewrite IH.
  - ring.
  - now rewrite IH.
Qed.
Lemma filter_perm {A} (f : A -> bool) l l' : Permutation l l' -> Permutation (filter f l) (filter f l').
Proof.
  induction 1 as [|x l l' P IH|x y l|l l' l'' P IH Q JH]; cbn [filter].
  - auto.
  - destruct (f x); auto.
  - destruct (f x), (f y); auto. constructor.
  - eapply perm_trans; eauto.
Qed.
Lemma all_windows_perm h h' : Forall2 reorder_windows (reqs h) (reqs h') ->
  Permutation (all_windows h) (all_windows h').
Proof.
  unfold all_windows. induction 1 as [|r r' l l' [(A & B) _] F IH]; [constructor|]. cbn [map concat].
  apply Permutation_app; auto. unfold same_static in *. tauto.
Qed.
Lemma mean_over_perm f h h' v : Permutation (all_windows h) (all_windows h') ->
  (mean_over f h v == mean_over f h' v)%Q.
Proof.
  intros P. unfold mean_over, mean. rewrite !map_length.
  pose proof (filter_perm (meets v) _ _ P) as F. rewrite (Permutation_length F).
  apply Qmult_comp; [|reflexivity]. apply total_perm. now apply Permutation_map.
Qed.

Lemma vtw_sorted l : (forall y, In y l -> is_qty (fst y) = true) -> forall l', py_sortedM pair_lt_vtw l = Ok l' ->
  StronglySorted (fun p q => num_lt (fst p) (fst q) = Ok true) l'.
Proof.
  induction l as [|x l IH]; intros Hq l' H.
  - injection H as <-. constructor.
  - cbn [py_sortedM] in H. apply bind_Ok in H. destruct H as (k & Ek & H).
    pose proof (py_sortedM_perm _ _ _ Ek) as P.
    assert (Hk : forall y, In y k -> is_qty (fst y) = true).
    { intros y Iy. apply Hq. right. eapply Permutation_in; [symmetry; eauto|auto]. }
    assert (Sk : StronglySorted (fun p q => num_lt (fst p) (fst q) = Ok true) k).
    { apply IH; auto. intros y Iy. apply Hq. now right. }
    pose proof (vtw_insert_differs k x l' H (Hq x (or_introl eq_refl)) Hk Sk) as D.
    destruct (vtw_insert_ok k x) as (l2 & E2 & S2); auto. { apply Hq. now left. }
    rewrite H in E2. now injection E2 as <-.
Qed.

Definition increasing (f : vtw -> Q) (l : list vtw) : Prop := StronglySorted (fun v w => (f v < f w)%Q) l.

Lemma sorted_map_snd {A B} (R : A -> A -> Prop) (T : B -> B -> Prop) : forall l : list (A * B),
  StronglySorted (fun p q => R (fst p) (fst q)) l ->
  (forall p q, In p l -> In q l -> R (fst p) (fst q) -> T (snd p) (snd q)) -> StronglySorted T (map snd l).
Proof.
  induction 1 as [|p l Sl IH F]; intros H; cbn [map]; constructor.
  - apply IH. intros x y Ix Iy. apply H; now right.
  - apply Forall_forall. intros b Ib. apply in_map_iff in Ib. destruct Ib as (q & <- & Iq).
    rewrite Forall_forall in F. apply H; [now left|now right|auto].
Qed.

Lemma combine_Forall2 {A B} (R : A -> B -> Prop) : forall l l', Forall2 R l l' ->
  forall p, In p (combine l' l) -> R (snd p) (fst p).
Proof.
  induction 1 as [|x y l l' E F IH]; intros p Ip; [destruct Ip|]. destruct Ip as [<-|Ip]; auto.
Qed.

Lemma sort_vtws_of_order h i h' r' : ordered_windows h -> sort_vtws_of h i = Ok h' ->
  nth_error (reqs h') i = Some r' -> increasing (measured_degree h) (r_vtws r').
Proof.
  intros O H N. unfold sort_vtws_of in H.
  apply bind_Ok in H. destruct H as (r & Er & H). apply py_nth_Ok in Er.
  apply bind_Ok in H. destruct H as (dg & Ed & H).
  apply bind_Ok in H. destruct H as (so & Es & H). injection H as <-. cbn [reqs] in N.
  rewrite nth_error_upd, Nat.eqb_refl, Er in N. cbn in N. injection N as <-. cbn.
  pose proof (mapM_length _ _ _ Ed) as Ln. pose proof (mapM_Forall2 _ _ _ Ed) as F.
  assert (V : forall p, In p (combine dg (r_vtws r)) -> exists x, fst p = PQty x /\ (x == measured_degree h (snd p))%Q).
  { intros p Ip. pose proof (combine_Forall2 _ _ _ F p Ip) as E. destruct p as [x v]. cbn in *.
    apply in_combine_r in Ip. destruct (degree_value h v O) as (y & Ey & Y).
    { eapply in_all_windows; eauto. eapply nth_error_In; eauto. }
    exists y. split; [congruence|auto]. }
  unfold increasing. apply sorted_map_snd with (R := fun x y => num_lt x y = Ok true).
  - apply vtw_sorted with (combine dg (r_vtws r)); auto. intros p Ip. destruct (V p Ip) as (x & -> & _). reflexivity.
  - pose proof (Permutation_sym (py_sortedM_perm _ _ _ Es)) as P.
    intros p q Ip Iq L. destruct (V p (Permutation_in _ P Ip)) as (x & Ex & X).
    destruct (V q (Permutation_in _ P Iq)) as (y & Ey & Y). rewrite Ex, Ey in L. cbn in L. injection L as L.
    qb. lra.
Qed.

Lemma ordered_reorder h h' : ordered_windows h -> Forall2 reorder_windows (reqs h) (reqs h') -> ordered_windows h'.
Proof.
  intros O F r v Ir Iv. destruct (Forall2_In_r _ _ _ _ F Ir) as (q & Iq & (A & _)).
  apply (O q v Iq). unfold same_static in A. eapply Permutation_in; [symmetry; apply A|auto].
Qed.

Lemma increasing_ext f g l : (forall v, (f v == g v)%Q) -> increasing f l -> increasing g l.
Proof.
  intros E. induction 1 as [|v l Sl IH F]; constructor; auto. eapply Forall_impl; [|exact F].
  intros w. cbn. now rewrite !E.
Qed.

Lemma for_each_seq {S} (P : nat -> S -> Prop) body : forall n a s s',
  (forall i s s', P i s -> body i s = Ok s' -> P (Datatypes.S i) s') ->
  P a s -> for_each (seq a n) body s = Ok s' -> P (a + n) s'.
Proof.
  induction n as [|n IH]; intros a s s' Hb H0 H; cbn [seq for_each] in H.
  - injection H as <-. now rewrite Nat.add_0_r.
  - apply bind_Ok in H. destruct H as (s1 & E & H). rewrite Nat.add_succ_r, <- Nat.add_succ_l. eauto.
Qed.

Lemma sort_windows_order h h' : ordered_windows h -> h_n h = length (reqs h) ->
  sort_vtws_by_increasing_conflict_degree h = Ok h' ->
  Forall2 reorder_windows (reqs h) (reqs h') /\
  forall r', In r' (reqs h') -> increasing (measured_degree h) (r_vtws r').
Proof.
  intros O Ln H. pose proof (sort_vtws_conflict_spec _ _ H) as (F & _). split; auto.
  unfold sort_vtws_by_increasing_conflict_degree in H.
  pose (P := fun i g => Forall2 reorder_windows (reqs h) (reqs g) /\
     forall j r', j < i -> nth_error (reqs g) j = Some r' -> increasing (measured_degree h) (r_vtws r')).
  assert (Q : P (0 + h_n h) h').
  { apply (for_each_seq P (fun i h => sort_vtws_of h i) (h_n h) 0 h h'); auto.
    - intros i s s' (R & J) E. pose proof (sort_vtws_of_spec _ _ _ E) as (R' & _).
      assert (R2 : Forall2 reorder_windows (reqs h) (reqs s')).
      { eapply Forall2_trans; [exact reorder_trans| |]; eauto. }
      split; auto. intros j r' Lj N. destruct (Nat.eq_dec j i) as [->|Nj].
      + apply increasing_ext with (measured_degree s).
        * intros v. symmetry. apply mean_over_perm. now apply all_windows_perm.
        * eapply sort_vtws_of_order; eauto. eapply ordered_reorder; eauto.
      + apply (J j); [lia|]. revert E. unfold sort_vtws_of. intros E.
        apply bind_Ok in E. destruct E as (r & Er & E). apply bind_Ok in E. destruct E as (dg & Ed & E).
        apply bind_Ok in E. destruct E as (so & Es & E). injection E as <-. cbn [reqs] in N.
        rewrite nth_error_upd in N. destruct (Nat.eqb_spec i j); [congruence|auto].
    - split; [|intros j r' L; lia]. apply Forall2_refl. split; auto using same_static_refl, same_booking_refl. }
  destruct Q as (_ & Q). intros r' Ir. apply In_nth_error in Ir. destruct Ir as (j & N). apply (Q j); auto.
  assert (j < length (reqs h')) by (apply nth_error_Some; congruence).
  rewrite <- (Forall2_len _ _ _ F) in H0. lia.
Qed.

(** ** Requests by the degree of their booked window *)
Definition key_le (p q : num * nat) : Prop :=
  exists x y, fst p = PQty x /\ fst q = PQty y /\ (x <= y)%Q.

Lemma pair_insert_sorted : forall l x l', is_qty (fst x) = true -> (forall y, In y l -> is_qty (fst y) = true) ->
  StronglySorted key_le l -> py_insertM pair_lt x l = Ok l' -> StronglySorted key_le l'.
Proof.
  assert (T : forall a b, is_qty (fst a) = true -> is_qty (fst b) = true ->
     (pair_lt a b = Ok true -> key_le a b) /\ (pair_lt a b = Ok false -> key_le b a)).
  { intros [[a|a] i] [[b|b] j]; cbn; try discriminate. intros _ _. unfold pair_lt, key_le. cbn [fst snd num_eq num_lt].
    destruct (Qeqb a b) eqn:E; split; intros H; do 2 eexists; repeat split; qb; try lra; injection H as H; qb; lra. }
  assert (Tr : forall a b c, key_le a b -> key_le b c -> key_le a c).
  { intros a b c (x & y & A & B & L) (y' & z & B' & C & M). exists x, z. repeat split; auto.
    assert (y' = y) as -> by congruence. lra. }
  induction l as [|y l IH]; intros x l' Hx Hq Sl H; cbn [py_insertM] in H.
  - injection H as <-. repeat constructor.
  - apply bind_Ok in H. destruct H as (b & E & H). inversion Sl as [|? ? Sl' F]; subst.
    destruct (T y x) as (T1 & T2); [apply Hq; now left|auto|]. destruct b.
    + apply bind_Ok in H. destruct H as (k & Ek & H). injection H as <-. constructor.
      * eapply IH; eauto. intros z Iz. apply Hq. now right.
      * apply Forall_forall. intros z Iz. pose proof (py_insertM_perm _ _ _ _ Ek) as P.
        apply (Permutation_in _ (Permutation_sym P)) in Iz. destruct Iz as [<-|Iz]; auto.
        rewrite Forall_forall in F. auto.
    + injection H as <-. constructor; auto. constructor; auto. eapply Forall_impl; [|exact F]. eauto.
Qed.
Lemma pair_sorted : forall l l', (forall y, In y l -> is_qty (fst y) = true) ->
  py_sortedM pair_lt l = Ok l' -> StronglySorted key_le l'.
Proof.
  induction l as [|x l IH]; intros l' Hq H; cbn [py_sortedM] in H.
  - injection H as <-. constructor.
  - apply bind_Ok in H. destruct H as (k & Ek & H). eapply pair_insert_sorted; [| | |exact H].
    + apply Hq. now left.
    + intros y Iy. apply Hq. right. eapply Permutation_in; [symmetry; eapply py_sortedM_perm; eauto|auto].
    + apply IH; auto. intros y Iy. apply Hq. now right.
Qed.

Lemma StronglySorted_snoc {A} (R : A -> A -> Prop) : forall l x, StronglySorted R l -> Forall (fun y => R y x) l ->
  StronglySorted R (l ++ [x]).
Proof.
  induction l as [|y l IH]; intros x Sl F; cbn; [repeat constructor|].
  inversion Sl; subst. inversion F; subst. constructor; [now apply IH|]. apply Forall_app. split; auto.
Qed.
Lemma StronglySorted_rev {A} (R : A -> A -> Prop) : forall l, StronglySorted R l ->
  StronglySorted (fun x y => R y x) (rev l).
Proof.
  induction 1 as [|x l Sl IH F]; cbn; [constructor|]. apply StronglySorted_snoc; auto.
  apply Forall_forall. intros y Iy. apply in_rev in Iy. rewrite Forall_forall in F. auto.
Qed.
Lemma StronglySorted_Forall2 {A B} (R : A -> A -> Prop) (T : B -> B -> Prop) (E : A -> B -> Prop) :
  (forall a a' b b', R a a' -> E a b -> E a' b' -> T b b') -> forall l l', StronglySorted R l -> Forall2 E l l' ->
  StronglySorted T l'.
Proof.
  intros H l l' Sl. revert l'. induction Sl as [|a l Sl IH F]; intros l' G; inversion G; subst; constructor; auto.
  apply Forall_forall. intros b' Ib. destruct (Forall2_In_r _ _ _ _ H4 Ib) as (a' & Ia & Ea).
  rewrite Forall_forall in F. eauto.
Qed.
Lemma Forall2_map_l {A B C} (R : B -> C -> Prop) (f : A -> B) : forall l l', Forall2 R (map f l) l' ->
  Forall2 (fun a c => R (f a) c) l l'.
Proof. induction l as [|a l IH]; intros l' H; inversion H; subst; constructor; auto. Qed.

Lemma sort_requests_order h h' : ordered_windows h -> indices_valid h ->
  (forall r, In r (reqs h) -> r_sched r = true) -> sort_by_decreasing_conflict_degree h = Ok h' ->
  Permutation (reqs h) (reqs h') /\
  StronglySorted (fun r q => exists v w, booked_window r = Some v /\ booked_window q = Some w /\
    (measured_degree h w <= measured_degree h v)%Q) (reqs h').
Proof.
  intros O V Al H. split; [eapply sort_conflict_spec; eauto|].
  unfold sort_by_decreasing_conflict_degree in H.
  apply bind_Ok in H. destruct H as (dg & Ed & H).
  apply bind_Ok in H. destruct H as (so & Es & H).
  apply bind_Ok in H. destruct H as (l & El & H). injection H as <-. cbn [reqs].
  pose proof (mapM_length _ _ _ Ed) as Ln. pose proof (mapM_Forall2 _ _ _ Ed) as F.
  assert (D : forall p, In p (combine dg (seq 0 (length dg))) -> exists r v x, nth_error (reqs h) (snd p) = Some r /\
     booked_window r = Some v /\ fst p = PQty x /\ (x == measured_degree h v)%Q).
  { assert (G : forall k dl rl, Forall2 (fun r x => request_conflict_degree h r = Ok x) rl dl ->
      (forall j r, nth_error rl j = Some r -> nth_error (reqs h) (k + j) = Some r) ->
      forall p, In p (combine dl (seq k (length dl))) -> exists r, nth_error (reqs h) (snd p) = Some r /\
         request_conflict_degree h r = Ok (fst p)).
    { clear. intros k dl. revert k. induction dl as [|x dl IH]; intros k rl F N p Ip; [destruct Ip|].
      inversion F; subst. cbn [length seq combine] in Ip. destruct Ip as [<-|Ip].
      - exists x0. split; auto. cbn. rewrite <- (Nat.add_0_r k). now apply N.
      - eapply (IH (S k)); eauto. intros j r Hj. rewrite Nat.add_succ_l, <- Nat.add_succ_r. now apply N. }
    intros p Ip. destruct (G 0 dg (reqs h) F (fun j r E => E) p Ip) as (r & Nr & Er).
    assert (Ir : In r (reqs h)) by (eapply nth_error_In; eauto).
    unfold request_conflict_degree in Er. rewrite (Al r Ir) in Er.
    destruct (V r Ir (Al r Ir)) as (k & v & Ek & Nv). rewrite Ek, (proj2 (py_nth_Ok _ _ _) Nv) in Er. cbn [bind] in Er.
    destruct (degree_value h v O) as (x & Ex & X).
    { eapply in_all_windows; eauto. eapply nth_error_In; eauto. }
    exists r, v, x. repeat split; auto; [unfold booked_window; now rewrite Ek|congruence]. }
  assert (Sso : StronglySorted key_le so).
  { eapply pair_sorted; [|exact Es]. intros p Ip. destruct (D p Ip) as (r & v & x & _ & _ & -> & _). reflexivity. }
  apply mapM_Forall2 in El. rewrite <- map_rev in El. apply Forall2_map_l in El.
  pose proof (StronglySorted_rev _ _ Sso) as Sr.
  pose proof (Permutation_sym (py_sortedM_perm _ _ _ Es)) as P.
  assert (El' : Forall2 (fun p r => In p so /\ nth_error (reqs h) (snd p) = Some r) (rev so) l).
  { assert (Inr : forall p, In p (rev so) -> In p so) by (intros p; now rewrite <- in_rev).
    revert Inr El. generalize (rev so). intros k Inr El. induction El as [|p r k l E El IH]; constructor.
    - split; [apply Inr; now left|now apply py_nth_Ok].
    - apply IH. intros q Iq. apply Inr. now right. }
  revert El'. apply StronglySorted_Forall2 with (R := fun x y => key_le y x); auto.
  intros p q r s (x & y & Fx & Fy & L) (Ip & Np) (Iq & Nq).
  destruct (D p (Permutation_in _ P Ip)) as (r' & v & a & Nr & Bv & Ea & A).
  destruct (D q (Permutation_in _ P Iq)) as (s' & w & b & Ns & Bw & Eb & B).
  assert (r' = r) as -> by congruence. assert (s' = s) as -> by congruence.
  exists v, w. repeat split; auto. rewrite <- A, <- B.
  assert (b = x) as -> by congruence. assert (a = y) as -> by congruence. auto.
Qed.

(** ** When the degree is the mean overlap *)
Lemma well_placed_measure v w : (v_rise v <= v_set v)%Q -> (v_rise w <= v_set w)%Q -> well_placed v w ->
  (measured_overlap v w == intersection_length v w)%Q.
Proof.
  intros A B W. unfold measured_overlap, strictly_inside, intersection_length, Qmin2, Qmax2.
  destruct (Qle_bool_cases (v_set v) (v_set w)) as [(-> & L1)|(-> & L1)], (Qle_bool_cases (v_rise v) (v_rise w)) as [(-> & L2)|(-> & L2)];
  destruct (Qltb (v_rise v) (v_rise w)) eqn:E1, (Qltb (v_set w) (v_set v)) eqn:E2,
    (Qltb (v_rise w) (v_rise v)) eqn:E3, (Qltb (v_set v) (v_set w)) eqn:E4; cbn [andb];
  destruct (Qeqb (v_rise w) (v_set v)) eqn:E5; qb; destruct W as [W|[W|W]]; lra.
Qed.
Lemma total_ext f g (l : list vtw) : (forall w, In w l -> (f w == g w)%Q) ->
  (total (map f l) == total (map g l))%Q.
Proof.
  induction l as [|w l IH]; intros H; cbn [map total]; [reflexivity|]. rewrite IH, (H w); [reflexivity|now left|].
  intros u Iu. apply H. now right.
Qed.
Lemma degree_right h v : ordered_windows h -> In v (all_windows h) ->
  (forall w, In w (all_windows h) -> meets v w = true -> well_placed v w) ->
  (measured_degree h v == mean_overlap h v)%Q.
Proof.
  intros O Iv W. unfold measured_degree, mean_overlap, mean_over, mean. rewrite !map_length.
  apply Qmult_comp; [|reflexivity]. apply total_ext. intros w Iw. apply filter_In in Iw. destruct Iw as (Iw & M).
  destruct (all_windows_in _ _ Iv) as (r & Ir & Jv). destruct (all_windows_in _ _ Iw) as (q & Iq & Jw).
  apply well_placed_measure; auto; apply Qlt_le_weak; eauto.
Qed.
