(** Every operation of the request handler: counters, preservation of requests and
    of the validity of bookings; ties of conflict degrees. *)
From Coq Require Import List ZArith QArith Qabs Qround Bool Arith Permutation Sorted Lia Lqa.
From Verif Require Import Py PyLemmas Sched_Model Sched_Spec Sched_Proofs Sched_Proofs2 Sched_Proofs3.
Import ListNotations.
Open Scope nat_scope.
Open Scope list_scope.

Definition op_step (r r' : request) : Prop :=
  same_static r r' /\ (same_booking r r' \/ no_booking r' \/ booked_well r').

Lemma op_refl r : op_step r r.
Proof. split; [apply same_static_refl|left; apply same_booking_refl]. Qed.
Lemma reorder_op r r' : reorder_windows r r' -> op_step r r'.
Proof. intros [A B]. split; auto. Qed.
Lemma removal_op r r' : removal_step r r' -> op_step r r'.
Proof.
  intros H. split; [now apply removal_step_static|]. destruct H as [->| ->]; [left; apply same_booking_refl|].
  right. left. repeat split.
Qed.
Lemma insertion_op r r' : insertion_step r r' -> op_step r r'.
Proof. intros H. apply insertion_step_props in H. destruct H as (A & [B|(_ & B)]); split; auto. Qed.

(** Reordering followed by a removal or insertion. *)
Lemma reorder_then_op a b c : reorder_windows a b -> op_step b c -> op_step a c.
Proof.
  intros [A1 A2] [B1 B2]. split; [eauto using same_static_trans|].
  destruct B2 as [B2|[B2|B2]]; eauto using same_booking_trans.
Qed.

Lemma counters_insert is h n h' : counters_ok h -> insert_loop is h n = Ok h' -> counters_ok h'.
Proof.
  intros [C1 C2] H. apply insert_loop_step in H. destruct H as (F & E1 & E2).
  unfold counters_ok, scheduled_count, scheduled in *. fold (count (reqs h)) in *. fold (count (reqs h')).
  split; [rewrite E1, C1; eapply Forall2_len; eauto|]. lia.
Qed.

Lemma sorted_handler lt h : counters_ok h ->
  let h' := mkH (py_sorted lt (reqs h)) (h_n h) (h_nsched h) in
  counters_ok h' /\ evolves op_step h h'.
Proof.
  intros C h'. assert (P : Permutation (reqs h) (reqs h')) by apply py_sorted_perm.
  split; [eapply counters_perm; eauto|]. apply evolves_perm; auto using op_refl.
Qed.

Lemma evolves_op_then h1 h2 h3 :
  Permutation (reqs h1) (reqs h2) -> evolves op_step h2 h3 -> evolves op_step h1 h3.
Proof. intros P (l & Q & F). exists l. split; auto. eapply perm_trans; eauto. Qed.

Lemma remove_first_op h n h' : counters_ok h -> remove_first_n_scheduled h n = Ok h' ->
  counters_ok h' /\ evolves op_step h h'.
Proof.
  intros C H. destruct (remove_first_spec h n C) as (h2 & m & E & C' & F & _).
  rewrite E in H. injection H as <-. split; auto. apply evolves_pos.
  eapply Forall2_impl'; [exact removal_op|exact F].
Qed.

Lemma insert_op is h n h' : counters_ok h -> insert_loop is h n = Ok h' ->
  counters_ok h' /\ evolves op_step h h'.
Proof.
  intros C H. split; [eapply counters_insert; eauto|]. apply insert_loop_step in H.
  apply evolves_pos. eapply Forall2_impl'; [exact insertion_op|apply H].
Qed.

Lemma operation_spec o h h' : counters_ok h -> run_operation o h = Ok h' ->
  counters_ok h' /\
  (evolves op_step h h' \/
   exists loc dl du pr qu lk ws, o = OpAdd loc dl du pr qu lk ws /\
     reqs h' = reqs h ++ [new_request loc dl du pr qu lk ws]).
Proof.
  intros C H. destruct o; cbn [run_operation] in H.
  - injection H as <-. split.
    + destruct C as [C1 C2]. unfold add_request, counters_ok, scheduled_count, scheduled in *. cbn [reqs h_n h_nsched].
      rewrite filter_app, !app_length. cbn. rewrite C1, C2. split; lia.
    + right. do 7 eexists. split; reflexivity.
  - injection H as <-. destruct (sorted_handler (fun x y => (r_prio y <? r_prio x)%Z) h C). auto.
  - injection H as <-. destruct (sorted_handler (fun x y => (length (r_vtws y) <? length (r_vtws x))%nat) h C). auto.
  - injection H as <-. destruct (sorted_handler (fun x y => (length (r_vtws x) <? length (r_vtws y))%nat) h C). auto.
  - apply sort_conflict_spec in H. destruct H as (P & E1 & E2).
    split; [eapply counters_perm; eauto|]. left. apply evolves_perm; auto using op_refl.
  - apply sort_vtws_conflict_spec in H. destruct H as (F & E1 & E2).
    split; [eapply counters_reorder; eauto|]. left. apply evolves_pos. eapply Forall2_impl'; [exact reorder_op|auto].
  - injection H as <-. pose proof (sort_vtws_rise_spec h) as F.
    split; [eapply counters_reorder; eauto|]. left. apply evolves_pos. eapply Forall2_impl'; [exact reorder_op|auto].
  - rewrite (unschedule_all_spec h (proj1 C)) in H. injection H as <-. split.
    + destruct C as [C1 C2]. split; cbn; [now rewrite map_length|].
      unfold scheduled_count, scheduled. cbn. now rewrite filter_unbook.
    + left. apply evolves_pos. eapply Forall2_impl'; [exact removal_op|apply unbook_step].
  - destruct which as [|[|[|[|[|w]]]]]; cbn in H; try (injection H as <-; split; auto; left; apply evolves_perm; auto using op_refl).
    + destruct (random_removal_spec rnd h n C) as (h2 & E & C' & F & _). rewrite E in H. injection H as <-.
      split; auto. left. apply evolves_pos. eapply Forall2_impl'; [exact removal_op|exact F].
    + destruct (sorted_handler (fun x y => (r_prio y <? r_prio x)%Z) h C) as (C' & _).
      apply remove_first_op in H; auto. destruct H as (C'' & Ev). split; auto. left.
      eapply evolves_op_then; [|exact Ev]. apply py_sorted_perm.
    + destruct (sorted_handler (fun x y => (length (r_vtws y) <? length (r_vtws x))%nat) h C) as (C' & _).
      apply remove_first_op in H; auto. destruct H as (C'' & Ev). split; auto. left.
      eapply evolves_op_then; [|exact Ev]. apply py_sorted_perm.
    + unfold conflict_removal in H. apply bind_Ok in H. destruct H as (h1 & E & H).
      apply sort_conflict_spec in E. destruct E as (P & E1 & E2).
      apply remove_first_op in H; [|eapply counters_perm; eauto]. destruct H as (C'' & Ev). split; auto. left.
      eapply evolves_op_then; eauto.
  - destruct which as [|[|[|[|w]]]]; cbn in H; try (injection H as <-; split; auto; left; apply evolves_perm; auto using op_refl).
    + destruct (sorted_handler (fun x y => (r_prio y <? r_prio x)%Z) h C) as (C' & _).
      apply insert_op in H; auto. destruct H as (C'' & Ev). split; auto. left.
      eapply evolves_op_then; [|exact Ev]. apply py_sorted_perm.
    + destruct (sorted_handler (fun x y => (length (r_vtws x) <? length (r_vtws y))%nat) h C) as (C' & _).
      apply insert_op in H; auto. destruct H as (C'' & Ev). split; auto. left.
      eapply evolves_op_then; [|exact Ev]. apply py_sorted_perm.
    + unfold minimum_conflict_insertion in H. apply bind_Ok in H. destruct H as (h1 & E & H).
      apply sort_vtws_conflict_spec in E. destruct E as (F & E1 & E2).
      apply insert_op in H; [|eapply counters_reorder; eauto]. destruct H as (C'' & Ev). split; auto. left.
      eapply (evolves_trans reorder_windows op_step op_step); [exact reorder_then_op|apply evolves_pos; exact F|exact Ev].
  - unfold initialize_solution in H. cbv zeta in H.
    destruct (sorted_handler (fun x y => (r_prio y <? r_prio x)%Z) h C) as (C' & _).
    set (h1 := sort_by_decreasing_priority h) in *.
    pose proof (sort_vtws_rise_spec h1) as F.
    assert (C2 : counters_ok (sort_vtws_by_increasing_rise_time h1)) by (eapply counters_reorder; eauto).
    apply insert_op in H; auto. destruct H as (C'' & Ev). split; auto. left.
    apply (evolves_op_then h h1 h'); [apply (py_sorted_perm (fun x y => (r_prio y <? r_prio x)%Z))|].
    eapply (evolves_trans reorder_windows op_step op_step); [exact reorder_then_op|apply evolves_pos; exact F|exact Ev].
Qed.

Lemma allowed_static r r' v s : same_static r r' -> allowed r v s -> allowed r' v s.
Proof.
  intros (_ & E2 & E3 & _ & E5 & _) (A & B & C & q & D & E). unfold allowed. rewrite E2, E3, E5. eauto 10.
Qed.

Definition valid_booking (r : request) : Prop := r_sched r = true -> booked_in_some_window r.

Lemma booked_well_some r : booked_well r -> booked_in_some_window r.
Proof.
  intros (A & B & k & v & s & C & D & E & F). split; auto. split; auto. exists v, s. split; auto. split; auto.
  eapply nth_error_In; eauto.
Qed.

Lemma op_step_valid r r' : op_step r r' -> valid_booking r -> valid_booking r'.
Proof.
  intros (St & [(B1 & B2 & B3 & B4)|[(B & _)|B]]) V S.
  - rewrite B1 in S. destruct (V S) as (_ & D & v & s & Es & Iv & Al).
    split; [congruence|]. split.
    + rewrite B3, D. f_equal. symmetry. apply St.
    + exists v, s. split; [congruence|]. split; [|eapply allowed_static; eauto].
      destruct St as (_&_&_&_&_&_&P). eapply Permutation_in; eauto.
  - congruence.
  - now apply booked_well_some.
Qed.

Lemma reachable_from h os h' : counters_ok h -> (forall r, In r (reqs h) -> valid_booking r) ->
  run_history os h = Ok h' -> counters_ok h' /\ (forall r, In r (reqs h') -> valid_booking r).
Proof.
  revert h. induction os as [|o os IH]; cbn [run_history]; intros h C V H; [injection H as <-; auto|].
  destruct (run_operation o h) as [h1|] eqn:E; [|discriminate].
  destruct (operation_spec o h h1 C E) as (C1 & Ev). apply (IH h1); auto.
  intros r I. destruct Ev as [(l & P & F)|(loc & dl & du & pr & qu & lk & ws & -> & Er)].
  - destruct (Forall2_In_r _ _ _ _ F I) as (q & Iq & St). eapply op_step_valid; eauto.
    apply V. eapply Permutation_in; [symmetry; eauto|auto].
  - rewrite Er in I. apply in_app_iff in I. destruct I as [I|[<-|[]]]; auto. intros S. discriminate.
Qed.

Lemma reachable_inv h : reachable h -> counters_ok h /\ (forall r, In r (reqs h) -> valid_booking r).
Proof.
  intros (os & H). apply (reachable_from empty_handler os h); [split; reflexivity|intros r []|exact H].
Qed.

Lemma valid_filled h : (forall r, In r (reqs h) -> valid_booking r) -> filled (reqs h).
Proof. intros V r I S. destruct (V r I S) as (_ & D & v & s & E & _). eauto. Qed.

(** ** Window indices *)
(** Operations that never reorder the windows of a request. *)
Definition keeps_window_order (o : operation) : bool :=
  match o with
  | OpSortWindowsConflict | OpSortWindowsRise | OpInitialize => false
  | OpInsert which _ => negb (which =? 2)%nat
  | _ => true
  end.

Definition index_step (r r' : request) : Prop :=
  (r_vtws r' = r_vtws r /\ r_dur r' = r_dur r /\ r_deadline r' = r_deadline r /\ r_qual r' = r_qual r /\
   same_booking r r') \/ r_sched r' = false \/ booked_well r'.
Definition index_valid (r : request) : Prop := r_sched r = true -> booked_well r.

Lemma index_step_valid r r' : index_step r r' -> index_valid r -> index_valid r'.
Proof.
  intros [(E1 & E2 & E3 & E4 & B1 & B2 & B3 & B4)|[H|H]] V S; [|congruence|auto].
  rewrite B1 in S. destruct (V S) as (_ & D & k & v & s & Ek & Es & N & A).
  split; [congruence|]. split; [congruence|]. exists k, v, s. repeat split; try congruence; unfold allowed in *; rewrite ?E2, ?E3, ?E4; tauto.
Qed.
Lemma index_refl r : index_step r r.
Proof. left. repeat split; auto. Qed.
Lemma removal_index r r' : removal_step r r' -> index_step r r'.
Proof. intros [->| ->]; [apply index_refl|right; left; reflexivity]. Qed.
Lemma insertion_index r r' : insertion_step r r' -> index_step r r'.
Proof. intros [->|(_ & B & _)]; [apply index_refl|right; right; auto]. Qed.

Lemma remove_first_index h n h' : counters_ok h -> remove_first_n_scheduled h n = Ok h' ->
  evolves index_step h h'.
Proof.
  intros C H. destruct (remove_first_spec h n C) as (h2 & m & E & C' & F & _).
  rewrite E in H. injection H as <-. apply evolves_pos.
  eapply Forall2_impl'; [exact removal_index|exact F].
Qed.
Lemma insert_index is h n h' : insert_loop is h n = Ok h' -> evolves index_step h h'.
Proof.
  intros H. apply insert_loop_step in H.
  apply evolves_pos. eapply Forall2_impl'; [exact insertion_index|apply H].
Qed.
Lemma evolves_perm_then R h1 h2 h3 :
  Permutation (reqs h1) (reqs h2) -> evolves R h2 h3 -> evolves R h1 h3.
Proof. intros P (l & Q & F). exists l. split; auto. eapply perm_trans; eauto. Qed.

Lemma operation_index o h h' : counters_ok h -> keeps_window_order o = true ->
  run_operation o h = Ok h' ->
  (forall r, In r (reqs h) -> index_valid r) -> (forall r, In r (reqs h') -> index_valid r).
Proof.
  intros C K H V.
  assert (G : evolves index_step h h' -> forall r, In r (reqs h') -> index_valid r).
  { intros (l & P & F) r I. destruct (Forall2_In_r _ _ _ _ F I) as (q & Iq & St).
    eapply index_step_valid; eauto. apply V. eapply Permutation_in; [symmetry; eauto|auto]. }
  destruct o; cbn [run_operation keeps_window_order] in *; try discriminate.
  - injection H as <-. cbn. intros r I. apply in_app_iff in I. destruct I as [I|[<-|[]]]; auto. intros S. discriminate.
  - injection H as <-. apply G, evolves_perm; auto using index_refl. apply py_sorted_perm.
  - injection H as <-. apply G, evolves_perm; auto using index_refl. apply py_sorted_perm.
  - injection H as <-. apply G, evolves_perm; auto using index_refl. apply py_sorted_perm.
  - apply sort_conflict_spec in H. apply G, evolves_perm; auto using index_refl. apply H.
  - rewrite (unschedule_all_spec h (proj1 C)) in H. injection H as <-. apply G, evolves_pos.
    eapply Forall2_impl'; [exact removal_index|apply unbook_step].
  - destruct which as [|[|[|[|[|w]]]]]; cbn in H; try (injection H as <-; auto; fail).
    + destruct (random_removal_spec rnd h n C) as (h2 & E & C' & F & _). rewrite E in H. injection H as <-.
      apply G, evolves_pos. eapply Forall2_impl'; [exact removal_index|exact F].
    + destruct (sorted_handler (fun x y => (r_prio y <? r_prio x)%Z) h C) as (C' & _).
      apply remove_first_index in H; auto. apply G.
      eapply evolves_perm_then; [|exact H]. apply py_sorted_perm.
    + destruct (sorted_handler (fun x y => (length (r_vtws y) <? length (r_vtws x))%nat) h C) as (C' & _).
      apply remove_first_index in H; auto. apply G.
      eapply evolves_perm_then; [|exact H]. apply py_sorted_perm.
    + unfold conflict_removal in H. apply bind_Ok in H. destruct H as (h1 & E & H).
      apply sort_conflict_spec in E. destruct E as (P & E1 & E2).
      apply remove_first_index in H; [|eapply counters_perm; eauto]. apply G.
      eapply evolves_perm_then; eauto.
  - destruct which as [|[|[|[|w]]]]; cbn in H, K; try discriminate; try (injection H as <-; auto; fail).
    + apply insert_index in H. apply G. eapply evolves_perm_then; [|exact H]. apply py_sorted_perm.
    + apply insert_index in H. apply G. eapply evolves_perm_then; [|exact H]. apply py_sorted_perm.
Qed.

(** ** Ties of conflict degrees *)
Definition degree_differs (p q : num * vtw) : Prop := num_eq (fst p) (fst q) = false.

Lemma num_eq_sym x y : num_eq x y = num_eq y x.
Proof. destruct x, y; cbn; auto; (destruct (Qeqb x x0) eqn:A, (Qeqb x0 x) eqn:B; auto; qb; exfalso; (apply B || apply A); symmetry; auto). Qed.

Lemma vtw_insert_ok : forall l x, is_qty (fst x) = true -> (forall y, In y l -> is_qty (fst y) = true) ->
  StronglySorted (fun p q => num_lt (fst p) (fst q) = Ok true) l ->
  (forall y, In y l -> degree_differs x y) ->
  exists l', py_insertM pair_lt_vtw x l = Ok l' /\ StronglySorted (fun p q => num_lt (fst p) (fst q) = Ok true) l'.
Proof.
  induction l as [|[y w] l IH]; intros [x v] Hx H So D; cbn [py_insertM].
  - exists [(x, v)]. split; auto. repeat constructor.
  - pose proof (D (y, w) (or_introl eq_refl)) as Dy. unfold degree_differs in Dy. cbn [fst] in *.
    pose proof (H (y, w) (or_introl eq_refl)) as Hy. cbn [fst] in Hy.
    assert (pair_lt_vtw (y, w) (x, v) = num_lt y x) as ->
      by (unfold pair_lt_vtw; cbn [fst]; now rewrite (num_eq_sym y x), Dy).
    destruct x as [x|x], y as [y|y]; try discriminate. cbn [num_lt bind num_eq] in *.
    inversion So as [|? ? So' Fo]; subst.
    destruct (Qltb y x) eqn:L.
    + destruct (IH (PQty x, v)) as (l' & E & S'); auto.
      { intros z Iz. apply H. now right. }
      { intros z Iz. apply D. now right. }
      rewrite E. cbn [bind]. eexists. split; [reflexivity|]. constructor; auto.
      apply Forall_forall. intros z Iz. apply py_insertM_perm in E.
      apply (Permutation_in z (Permutation_sym E)) in Iz. destruct Iz as [<-|Iz].
      * cbn. now rewrite L.
      * rewrite Forall_forall in Fo. now apply Fo.
    + eexists. split; [reflexivity|]. constructor; auto. constructor.
      * cbn. f_equal. qb. destruct (Qlt_le_dec x y); auto. exfalso. apply Dy. lra.
      * apply Forall_forall. intros [z u] Iz. rewrite Forall_forall in Fo. specialize (Fo _ Iz). cbn in *.
        destruct z as [z|z]; [discriminate|]. injection Fo as Fo. f_equal. qb.
        destruct (Qlt_le_dec x z); auto. lra.
Qed.

Lemma vtw_insert_differs : forall l x l', py_insertM pair_lt_vtw x l = Ok l' ->
  is_qty (fst x) = true -> (forall y, In y l -> is_qty (fst y) = true) ->
  StronglySorted (fun p q => num_lt (fst p) (fst q) = Ok true) l ->
  (forall y, In y l -> degree_differs x y).
Proof.
  induction l as [|[y w] l IH]; intros [x v] l' H Hx Hq So z Iz; [destruct Iz|].
  cbn [py_insertM] in H. apply bind_Ok in H. destruct H as (b & Eb & H).
  unfold pair_lt_vtw in Eb. cbn [fst] in Eb. destruct (num_eq y x) eqn:E; [discriminate|].
  inversion So as [|? ? So' Fo]; subst. rewrite Forall_forall in Fo.
  destruct Iz as [<-|Iz].
  - unfold degree_differs. cbn. now rewrite num_eq_sym.
  - destruct b.
    + apply bind_Ok in H. destruct H as (r & Er & H). eapply IH; eauto. intros u Iu. apply Hq. now right.
    + pose proof (Hq (y, w) (or_introl eq_refl)) as Hy. pose proof (Hq z (or_intror Iz)) as Hz.
      specialize (Fo _ Iz). unfold degree_differs. cbn [fst] in *. destruct z as [z u]. cbn [fst] in *.
      destruct x as [x|x], y as [y|y], z as [z|z]; try discriminate. cbn in *. injection Eb as Eb. injection Fo as Fo. qb. lra.
Qed.

(** Sorting windows succeeds exactly when their conflict degrees are pairwise different. *)
Lemma vtw_sort_exact l : (forall y, In y l -> is_qty (fst y) = true) ->
  (exists l', py_sortedM pair_lt_vtw l = Ok l') <-> ForallOrdPairs degree_differs l.
Proof.
  intros Hq.
  assert (G : forall l, (forall y, In y l -> is_qty (fst y) = true) ->
    (forall l', py_sortedM pair_lt_vtw l = Ok l' ->
       StronglySorted (fun p q => num_lt (fst p) (fst q) = Ok true) l' /\ ForallOrdPairs degree_differs l) /\
    (ForallOrdPairs degree_differs l -> exists l', py_sortedM pair_lt_vtw l = Ok l')).
  { clear. induction l as [|x l IH]; intros Hq.
    - split; [intros l' [= <-]; split; constructor|]. intros _. exists []. reflexivity.
    - destruct IH as (I1 & I2); [intros y Iy; apply Hq; now right|]. cbn [py_sortedM]. split.
      + intros l' H. apply bind_Ok in H. destruct H as (k & Ek & H).
        destruct (I1 k Ek) as (Sk & Dk). pose proof (py_sortedM_perm _ _ _ Ek) as P.
        assert (Hk : forall y, In y k -> is_qty (fst y) = true).
        { intros y Iy. apply Hq. right. eapply Permutation_in; [symmetry; eauto|auto]. }
        pose proof (vtw_insert_differs k x l' H (Hq x (or_introl eq_refl)) Hk Sk) as D.
        destruct (vtw_insert_ok k x) as (l2 & E2 & S2); auto. { apply Hq. now left. }
        rewrite H in E2. injection E2 as <-. split; auto. constructor; auto.
        apply Forall_forall. intros y Iy. apply D. eapply Permutation_in; eauto.
      + intros D. inversion D as [|? ? Dx Dl]; subst. destruct (I2 Dl) as (k & Ek). rewrite Ek. cbn [bind].
        destruct (I1 k Ek) as (Sk & _). pose proof (py_sortedM_perm _ _ _ Ek) as P.
        destruct (vtw_insert_ok k x) as (l2 & E2 & S2); eauto.
        * apply Hq. now left.
        * intros y Iy. apply Hq. right. eapply Permutation_in; [symmetry; eauto|auto].
        * intros y Iy. rewrite Forall_forall in Dx. apply Dx. eapply Permutation_in; [symmetry; eauto|auto]. }
  destruct (G l Hq) as (G1 & G2). split; auto. intros (l' & E). now apply (G1 l').
Qed.
