(** The request-handler and operator properties (C13-C30, C41). *)
From Coq Require Import List ZArith QArith Qabs Qround Bool Arith Permutation Sorted Lia Lqa Qfield.
From Verif Require Import Py PyLemmas Sched_Model Sched_Spec Sched_Proofs Sched_Proofs2
  Sched_Proofs3 Sched_Proofs4.
Import ListNotations.
Open Scope nat_scope.
Open Scope list_scope.

(** ** Concrete handlers used as examples and witnesses *)
Definition att0 : attitude := mkAtt [] [] [] [] 0.
Definition win (a b : Q) : vtw := mkVtw a b att0.
Definition day : Q := 86400.
(** Request A: priority 5, two windows; request B: priority 1, one window. *)
Definition add_A : operation := OpAdd 0 100 day 5 1 NoLook [win 0 10; win 20 25].
Definition add_B : operation := OpAdd 1 100 day 1 1 NoLook [win 0 10].
(** Request Z: its deadline passed, it can never be scheduled. *)
Definition add_Z : operation := OpAdd 2 (-1) day 9 1 NoLook [win 0 10].

Definition run (os : list operation) : handler :=
  match run_history os empty_handler with Ok h => h | Raise _ => empty_handler end.
Lemma run_reachable os :
  match run_history os empty_handler with Ok _ => true | Raise _ => false end = true -> reachable (run os).
Proof.
  unfold run. destruct (run_history os empty_handler) as [h|] eqn:E; [|discriminate].
  intros _. now exists os.
Qed.
Definition ex_h : handler := run [add_A; add_B; add_Z; OpInitialize].

Example ex_h_reachable : reachable ex_h.
Proof. apply run_reachable. vm_compute. reflexivity. Qed.
(** Sorted by priority: Z (not schedulable), A booked, B conflicts with A. *)
Example ex_h_state : map r_prio (reqs ex_h) = [9; 5; 1]%Z /\ map r_sched (reqs ex_h) = [false; true; false].
Proof. vm_compute. auto. Qed.

(** C13. Counters. *)
Theorem C13_counters_exact :
  forall h, reachable h ->
    h_len h = length (reqs h) /\ h_nsched h = Z.of_nat (length (filter r_sched (reqs h))).
Proof. intros h R. destruct (reachable_inv h R) as ((C1 & C2) & _). split; auto. Qed.

Example C13_example : reachable ex_h /\ h_nsched ex_h = 1%Z /\ h_len ex_h = 3.
Proof. split; [exact ex_h_reachable|]. vm_compute. auto. Qed.

(** C14. Random, priority and opportunity removal never fail and unschedule exactly
    min(n, scheduled) requests. *)
Theorem C14_removal_count :
  forall f rnd h n, reachable h ->
    f = random_removal \/ f = (fun _ => priority_removal) \/ f = (fun _ => opportunity_removal) ->
    exists h', f rnd h n = Ok h' /\
      scheduled_count h' = (scheduled_count h - Z.min (Z.max n 0) (scheduled_count h))%Z /\
      length (reqs h') = length (reqs h).
Proof.
  intros f rnd h n R Hf. destruct (reachable_inv h R) as (C & _). clear R.
  assert (G : forall lt, exists h', remove_first_n_scheduled (mkH (py_sorted lt (reqs h)) (h_n h) (h_nsched h)) n = Ok h' /\
      scheduled_count h' = (scheduled_count h - Z.min (Z.max n 0) (scheduled_count h))%Z /\
      length (reqs h') = length (reqs h)).
  { intros lt. destruct (sorted_handler lt h C) as (C' & _).
    set (g := mkH (py_sorted lt (reqs h)) (h_n h) (h_nsched h)) in *.
    destruct (remove_first_spec g n C') as (h' & m & E & _ & F & P & Q & K).
    exists h'. split; auto.
    assert (Eg : scheduled_count g = scheduled_count h).
    { unfold scheduled_count, scheduled. f_equal. apply Permutation_length, filter_perm.
      apply Permutation_sym, py_sorted_perm. }
    split.
    - rewrite <- Eg. apply Permutation_length in P. rewrite app_length in P.
      unfold scheduled_count, scheduled in *. rewrite Q. fold (count (firstn m (reqs g))) in P. lia.
    - rewrite <- (Forall2_len _ _ _ F). cbn. apply py_sorted_length. }
  destruct Hf as [->|[->| ->]]; [|apply G|apply G].
  destruct (random_removal_spec rnd h n C) as (h' & E & _ & F & K).
  exists h'. split; auto. split; auto. symmetry. eapply Forall2_len; eauto.
Qed.

Example C14_example : exists h', random_removal (fun i => i) ex_h 0 = Ok h' /\ scheduled_count h' = 1%Z.
Proof. eexists. split; vm_compute; reflexivity. Qed.
Example C14_example2 : exists h', random_removal (fun i => i) (run [add_A; OpAdd 1 100 day 1 1 NoLook [win 30 40]; OpInitialize]) 1
   = Ok h' /\ map r_sched (reqs h') = [false; true].
Proof. eexists. split; vm_compute; reflexivity. Qed.

(** C15. Victims: no request left scheduled ranks above a request removed. *)
Lemma sorted_split {A} (R : A -> A -> Prop) l m :
  StronglySorted R l -> forall a b, In a (firstn m l) -> In b (skipn m l) -> R a b.
Proof.
  intros S. revert m. induction S as [|x l S IH F]; intros [|m] a b; cbn; try tauto.
  intros [<-|I] J; eauto. rewrite Forall_forall in F. apply F.
  rewrite <- (firstn_skipn m l). apply in_or_app. auto.
Qed.

Lemma victims lt (Rk : request -> request -> Prop) h n :
  counters_ok h ->
  StronglySorted Rk (py_sorted lt (reqs h)) ->
  exists h' removed kept,
    remove_first_n_scheduled (mkH (py_sorted lt (reqs h)) (h_n h) (h_nsched h)) n = Ok h' /\
    Permutation (scheduled h) (removed ++ kept) /\ Permutation (scheduled h') kept /\
    Z.of_nat (length removed) = Z.min (Z.max n 0) (scheduled_count h) /\
    forall a b, In a removed -> In b kept -> Rk a b.
Proof.
  intros C So. destruct (sorted_handler lt h C) as (C' & _).
  set (g := mkH (py_sorted lt (reqs h)) (h_n h) (h_nsched h)) in *.
  destruct (remove_first_spec g n C') as (h' & m & E & _ & F & P & Q & K).
  exists h', (filter r_sched (firstn m (reqs g))), (filter r_sched (skipn m (reqs g))).
  assert (Pg : Permutation (scheduled h) (scheduled g)).
  { apply filter_perm. apply py_sorted_perm. }
  split; auto. split; [|split; [|split]].
  - eapply perm_trans; [exact Pg|]. now symmetry.
  - unfold scheduled. now rewrite Q.
  - unfold count in K. rewrite K. unfold scheduled_count. now rewrite (Permutation_length Pg).
  - intros a b Ia Ib. apply filter_In in Ia, Ib. eapply sorted_split; [exact So|apply Ia|apply Ib].
Qed.

Lemma prio_sorted l :
  StronglySorted (fun a b => (r_prio b <= r_prio a)%Z) (py_sorted (fun x y => (r_prio y <? r_prio x)%Z) l).
Proof.
  pose proof (py_sorted_sorted (fun x y : request => (r_prio y <? r_prio x)%Z)) as S.
  unfold py_le in S.
  assert (G : StronglySorted (fun x y => (r_prio x <? r_prio y)%Z = false) (py_sorted (fun x y => (r_prio y <? r_prio x)%Z) l)).
  { apply S; intros; lia. }
  revert G. generalize (py_sorted (fun x y : request => (r_prio y <? r_prio x)%Z) l).
  induction 1; constructor; auto. eapply Forall_impl; [|eassumption]. cbn. intros. lia.
Qed.
Lemma opp_sorted l :
  StronglySorted (fun a b => length (r_vtws b) <= length (r_vtws a))
    (py_sorted (fun x y => (length (r_vtws y) <? length (r_vtws x))%nat) l).
Proof.
  pose proof (py_sorted_sorted (fun x y : request => (length (r_vtws y) <? length (r_vtws x))%nat)) as S.
  unfold py_le in S.
  assert (G : StronglySorted (fun x y => (length (r_vtws x) <? length (r_vtws y))%nat = false)
     (py_sorted (fun x y => (length (r_vtws y) <? length (r_vtws x))%nat) l)).
  { apply S; [intros x y z; rewrite !Nat.ltb_ge; lia|intros x y; rewrite Nat.ltb_lt, Nat.ltb_ge; lia]. }
  revert G. generalize (py_sorted (fun x y : request => (length (r_vtws y) <? length (r_vtws x))%nat) l).
  induction 1; constructor; auto. eapply Forall_impl; [|eassumption]. cbn. intros a0 Ha. now apply Nat.ltb_ge.
Qed.

Theorem C15_priority_removal_victims :
  forall h n, reachable h ->
  exists h' removed kept,
    priority_removal h n = Ok h' /\
    Permutation (scheduled h) (removed ++ kept) /\ Permutation (scheduled h') kept /\
    Z.of_nat (length removed) = Z.min (Z.max n 0) (scheduled_count h) /\
    forall a b, In a removed -> In b kept -> (r_prio b <= r_prio a)%Z.
Proof.
  intros h n R. destruct (reachable_inv h R) as (C & _).
  apply (victims (fun x y => (r_prio y <? r_prio x)%Z)); auto. apply prio_sorted.
Qed.
Theorem C15_opportunity_removal_victims :
  forall h n, reachable h ->
  exists h' removed kept,
    opportunity_removal h n = Ok h' /\
    Permutation (scheduled h) (removed ++ kept) /\ Permutation (scheduled h') kept /\
    Z.of_nat (length removed) = Z.min (Z.max n 0) (scheduled_count h) /\
    forall a b, In a removed -> In b kept -> length (r_vtws b) <= length (r_vtws a).
Proof.
  intros h n R. destruct (reachable_inv h R) as (C & _).
  apply (victims (fun x y => (length (r_vtws y) <? length (r_vtws x))%nat)); auto. apply opp_sorted.
Qed.

Definition ex_two : handler := run [add_B; OpAdd 3 100 day 7 1 NoLook [win 30 40]; OpInitialize].
Example C15_example : reachable ex_two /\ scheduled_count ex_two = 2%Z /\
  exists h', priority_removal ex_two 1 = Ok h' /\ map r_prio (scheduled h') = [1%Z].
Proof.
  split; [apply run_reachable; vm_compute; reflexivity|]. split; [vm_compute; reflexivity|].
  eexists. split; vm_compute; reflexivity.
Qed.

(** C16. No operation other than adding loses, duplicates or alters a request; adding
    appends one. *)
Theorem C16_requests_preserved :
  forall o h h', reachable h -> run_operation o h = Ok h' ->
    evolves same_static h h' \/
    exists loc dl du pr qu lk ws, o = OpAdd loc dl du pr qu lk ws /\
      reqs h' = reqs h ++ [mkReq false None None None loc dl du pr qu lk ws].
Proof.
  intros o h h' R H. destruct (reachable_inv h R) as (C & _).
  destruct (operation_spec o h h' C H) as (_ & [Ev|Ad]); [left|right; exact Ad].
  eapply evolves_impl; [|exact Ev]. intros x y St. apply St.
Qed.

Example C16_example : exists h', run_operation (OpInsert 1 3) ex_h = Ok h' /\ map r_prio (reqs h') = [9; 1; 5]%Z.
Proof. eexists. split; vm_compute; reflexivity. Qed.

(** C17. Newly scheduled requests satisfy their constraints ([booked_well], [allowed] in
    Sched_Spec). *)
Lemma insertion_function_step f rnd h n h' : counters_ok h -> In f insertion_functions -> f rnd h n = Ok h' ->
  exists g, Permutation (reqs h) (reqs g) /\ counters_ok g /\
  exists k, Forall2 reorder_windows (reqs g) (reqs k) /\ counters_ok k /\
    insert_loop (seq 0 (h_n k)) k n = Ok h'.
Proof.
  intros C I H. cbn in I. destruct I as [<-|[<-|[<-|[]]]].
  - exists (sort_by_decreasing_priority h). split; [apply py_sorted_perm|].
    destruct (sorted_handler (fun x y => (r_prio y <? r_prio x)%Z) h C) as (C' & _). split; auto.
    exists (sort_by_decreasing_priority h). split; auto.
    apply Forall2_refl. split; auto using same_static_refl, same_booking_refl.
  - exists (sort_by_increasing_opportunity h). split; [apply py_sorted_perm|].
    destruct (sorted_handler (fun x y => (length (r_vtws x) <? length (r_vtws y))%nat) h C) as (C' & _). split; auto.
    exists (sort_by_increasing_opportunity h). split; auto.
    apply Forall2_refl. split; auto using same_static_refl, same_booking_refl.
  - unfold minimum_conflict_insertion in H. apply bind_Ok in H. destruct H as (h1 & E & H).
    exists h. split; auto. split; auto. exists h1.
    apply sort_vtws_conflict_spec in E. destruct E as (F & E1 & E2). split; auto. split; auto.
    eapply counters_reorder; eauto.
Qed.

Definition insertion_outcome (r r' : request) : Prop :=
  same_static r r' /\ (same_booking r r' \/ (r_sched r = false /\ booked_well r')).

Lemma insertion_function_outcome f rnd h n h' : counters_ok h -> In f insertion_functions -> f rnd h n = Ok h' ->
  evolves insertion_outcome h h'.
Proof.
  intros C I H. destruct (insertion_function_step f rnd h n h' C I H) as (g & P & Cg & k & F & Ck & L).
  apply insert_loop_step in L. destruct L as (L & _).
  apply (evolves_perm_then insertion_outcome h g h' P).
  apply (evolves_trans reorder_windows insertion_step insertion_outcome g k h').
  - intros x y z [A1 A2] St. apply insertion_step_props in St. destruct St as (B1 & B2).
    split; [eauto using same_static_trans|].
    destruct B2 as [B2|(S & B2)]; [left; eauto using same_booking_trans|right]. split; auto.
    destruct A2 as (E & _). congruence.
  - now apply evolves_pos.
  - now apply evolves_pos.
Qed.

Theorem C17_new_bookings_satisfy_constraints :
  forall f rnd h n h', reachable h -> In f insertion_functions -> f rnd h n = Ok h' ->
    evolves (fun r r' => same_static r r' /\ (r_sched r = false -> r_sched r' = true -> booked_well r')) h h'.
Proof.
  intros f rnd h n h' R I H. destruct (reachable_inv h R) as (C & _).
  eapply evolves_impl; [|eapply insertion_function_outcome; eauto].
  intros x y (A & B). split; auto. intros S1 S2. destruct B as [(E & _)|(_ & B)]; [congruence|auto].
Qed.

(** Also: every booking of every reachable handler satisfies its constraints. *)
Theorem C17_every_booking_allowed :
  forall h r, reachable h -> In r (reqs h) -> r_sched r = true -> booked_in_some_window r.
Proof. intros h r R I S. destruct (reachable_inv h R) as (_ & V). now apply V. Qed.

Example C17_example : exists h', greedy_insertion (run [add_A]) 1 = Ok h' /\
  (exists r, reqs h' = [r] /\ r_sched r = true /\ exists s, r_start r = Some s /\ s == 11 # 2).
Proof.
  eexists. split; [vm_compute; reflexivity|]. eexists. split; [reflexivity|]. split; [reflexivity|].
  eexists. split; [reflexivity|]. vm_compute. reflexivity.
Qed.

(** C18. Existing bookings are kept and at most [n] requests are added. *)
Theorem C18_insertion_keeps_bookings :
  forall f rnd h n h', reachable h -> In f insertion_functions -> f rnd h n = Ok h' ->
    evolves (fun r r' => same_static r r' /\ (r_sched r = true -> same_booking r r')) h h' /\
    ((0 <= n)%Z -> (scheduled_count h <= scheduled_count h' <= scheduled_count h + n)%Z).
Proof.
  intros f rnd h n h' R I H. destruct (reachable_inv h R) as (C & _). split.
  - eapply evolves_impl; [|eapply insertion_function_outcome; eauto].
    intros x y (A & B). split; auto. intros S. destruct B as [B|(E & _)]; [auto|congruence].
  - intros N. destruct (insertion_function_step f rnd h n h' C I H) as (g & P & Cg & k & F & Ck & L).
    pose proof (insert_loop_limit _ _ _ _ L N) as U.
    assert (E : count (reqs k) = count (reqs h)).
    { rewrite (count_reorder _ _ F). symmetry. now apply count_perm. }
    apply insert_loop_step in L. destruct L as (L & _).
    assert (Lo : count (reqs k) <= count (reqs h')).
    { clear - L. induction L as [|x y l l' St L IH]; auto. rewrite !count_cons.
      destruct (r_sched x) eqn:Sx; [|destruct (r_sched y); lia].
      rewrite (step_keeps x y St Sx), Sx. lia. }
    unfold scheduled_count, scheduled. fold (count (reqs h)) (count (reqs h')). lia.
Qed.

Example C18_example : exists h', minimum_opportunity_insertion (run [add_A; add_B; OpInsert 0 1]) 2 = Ok h' /\
  map r_sched (reqs h') = [true; true].
Proof. eexists. split; vm_compute; reflexivity. Qed.

Lemma insert_maximal k n h' : counters_ok k -> (forall q, In q (reqs k) -> valid_booking q) ->
  insert_loop (seq 0 (h_n k)) k n = Ok h' -> (Z.of_nat (length (reqs k)) <= n)%Z ->
  (forall r, In r (reqs k) -> (0 < r_dur r)%Q) ->
  forall r v s, In r (reqs h') -> r_sched r = false -> In v (r_vtws r) ->
    proposed_start r v s -> allowed r v s ->
    exists q s' d', In q (removelast (reqs h')) /\ booked_during q s' d' /\
                    intervals_meet s (days (r_dur r)) s' d'.
Proof.
  intros Ck Vk L N Pos r v s Ir Sr Iv Ps Al.
  assert (Fk : filled (reqs k)) by now apply valid_filled.
  pose proof (insert_loop_done _ _ _ _ L) as D.
  pose proof (insert_loop_step _ _ _ _ L) as (St & E1 & _).
  assert (Ch : h_n h' = length (reqs h')).
  { rewrite E1, (proj1 Ck). eapply Forall2_len; eauto. }
  assert (Fh : filled (reqs h')) by (eapply insertion_filled; eauto).
  apply In_nth_error in Ir. destruct Ir as (i & Ni).
  assert (Li : i < length (reqs h')) by (apply nth_error_Some; congruence).
  assert (T : try_window h' r v = Ok None).
  { apply (D) with (i := i); auto.
    - right. rewrite seq_length, (proj1 Ck). lia.
    - apply Ck.
    - apply in_seq. lia. }
  pose proof (try_window_None _ _ _ T s Ps Al) as Cf.
  destruct (conflict_exists_spec h' s (in_days (r_dur r)) Ch Fh) as (b & Eb & Hb).
  rewrite Cf in Eb. injection Eb as <-. destruct (proj1 Hb eq_refl) as (q & s' & d' & Iq & Sq & Tq & Dq & M).
  exists q, s', (days d'). split; [|split].
  - rewrite removelast_firstn_len. replace (Nat.pred (length (reqs h'))) with (length (reqs h') - 1) by lia. auto.
  - split; auto. exists d'. repeat split; auto. 
  - assert (Pall : forall x, In x (reqs h') -> (0 < r_dur x)%Q).
    { intros x Ix. destruct (Forall2_In_r _ _ _ _ St Ix) as (x0 & Ix0 & Sx).
      apply insertion_step_props in Sx. destruct Sx as ((_ & _ & -> & _) & _). auto. }
    assert (Pd : forall x, (0 < x)%Q -> (0 < in_days x)%Q).
    { intros x Px. unfold in_days. apply Qlt_shift_div_l; lra. }
    assert (Iq' : In q (reqs h')).
    { rewrite <- (firstn_skipn (length (reqs h') - 1) (reqs h')). apply in_or_app. auto. }
    assert (Eq : d' = r_dur q).
    { assert (Vq : valid_booking q).
      { destruct (Forall2_In_r _ _ _ _ St Iq') as (x0 & Ix0 & Sx). eapply op_step_valid; [apply insertion_op; eauto|auto]. }
      destruct (Vq Sq) as (_ & Dq' & _). congruence. }
    apply meets_iff; auto; [apply Pd, Pall; eapply nth_error_In; eauto|].
    rewrite Eq. apply Pd, Pall. auto.
Qed.

Lemma insertion_maximal_any f rnd h n h' : counters_ok h ->
  (forall q, In q (reqs h) -> valid_booking q) -> In f insertion_functions -> f rnd h n = Ok h' ->
  (Z.of_nat (length (reqs h)) <= n)%Z ->
  (forall r, In r (reqs h) -> (0 < r_dur r)%Q) ->
  forall r v s, In r (reqs h') -> r_sched r = false -> In v (r_vtws r) ->
    proposed_start r v s -> allowed r v s ->
    exists q s' d', In q (removelast (reqs h')) /\ booked_during q s' d' /\
                    intervals_meet s (days (r_dur r)) s' d'.
Proof.
  intros C V I H N Pos.
  destruct (insertion_function_step f rnd h n h' C I H) as (g & P & Cg & k & F & Ck & L).
  apply (insert_maximal k n h'); auto.
  - intros q Iq. destruct (Forall2_In_r _ _ _ _ F Iq) as (q0 & Iq0 & St).
    eapply op_step_valid; [apply reorder_op; eauto|]. apply V.
    eapply Permutation_in; [symmetry; eauto|auto].
  - rewrite <- (Forall2_len _ _ _ F), <- (Permutation_length P). exact N.
  - intros x Ix. destruct (Forall2_In_r _ _ _ _ F Ix) as (x1 & Ix1 & ((_ & _ & -> & _) & _)).
    apply Pos. eapply Permutation_in; [symmetry; eauto|auto].
Qed.

(** C19. Insertion is maximal: with a limit of at least the number of requests, a request
    still unscheduled has no window where its proposed start is allowed and free.  The
    clash is with a request that is not in the last position (the conflict test does not
    look at that one, see C20/C21). *)
Theorem C19_insertion_maximal :
  forall f rnd h n h', reachable h -> In f insertion_functions -> f rnd h n = Ok h' ->
    (Z.of_nat (length (reqs h)) <= n)%Z ->
    (forall r, In r (reqs h) -> (0 < r_dur r)%Q) ->
    forall r v s, In r (reqs h') -> r_sched r = false -> In v (r_vtws r) ->
      proposed_start r v s -> allowed r v s ->
      exists q s' d', In q (removelast (reqs h')) /\ booked_during q s' d' /\
                      intervals_meet s (days (r_dur r)) s' d'.
Proof.
  intros f rnd h n h' R I H N Pos. destruct (reachable_inv h R) as (C & V).
  exact (insertion_maximal_any f rnd h n h' C V I H N Pos).
Qed.
(** The initial solution is maximal as well: it is the result of an unlimited insertion. *)
Theorem C19_initial_solution_maximal :
  forall h h', reachable h -> initialize_solution h = Ok h' ->
    (forall r, In r (reqs h) -> (0 < r_dur r)%Q) ->
    forall r v s, In r (reqs h') -> r_sched r = false -> In v (r_vtws r) ->
      proposed_start r v s -> allowed r v s ->
      exists q s' d', In q (removelast (reqs h')) /\ booked_during q s' d' /\
                      intervals_meet s (days (r_dur r)) s' d'.
Proof.
  intros h h' R H Pos. unfold initialize_solution in H. cbv zeta in H.
  destruct (reachable_inv h R) as (C & V).
  destruct (sorted_handler (fun x y => (r_prio y <? r_prio x)%Z) h C) as (C' & _).
  set (h1 := sort_by_decreasing_priority h) in *.
  assert (P : Permutation (reqs h) (reqs h1)) by apply py_sorted_perm.
  pose proof (sort_vtws_rise_spec h1) as F.
  set (h2 := sort_vtws_by_increasing_rise_time h1) in *.
  assert (C2 : counters_ok h2) by (eapply counters_reorder; eauto).
  apply (insert_maximal h2 (Z.of_nat (h_n h2)) h'); auto.
  - intros q Iq. destruct (Forall2_In_r _ _ _ _ F Iq) as (q0 & Iq0 & St).
    eapply op_step_valid; [apply reorder_op; eauto|]. apply V.
    eapply Permutation_in; [symmetry; eauto|auto].
  - rewrite (proj1 C2). lia.
  - intros x Ix. destruct (Forall2_In_r _ _ _ _ F Ix) as (x1 & Ix1 & ((_ & _ & -> & _) & _)).
    apply Pos. eapply Permutation_in; [symmetry; eauto|auto].
Qed.

Example C19_example : exists h', greedy_insertion (run [add_A; add_B; add_Z]) 3 = Ok h' /\
  map (fun r => (r_prio r, r_sched r)) (reqs h') = [(9%Z, false); (5%Z, true); (1%Z, false)].
Proof. eexists. split; vm_compute; reflexivity. Qed.

(** C20. The conflict test is exact for all requests except the one in the last
    position, which it never looks at. *)
Theorem C20_conflict_test_partial :
  forall h s d, reachable h -> (forall r, In r (reqs h) -> (0 < r_dur r)%Q) -> (0 < d)%Q ->
    exists b, does_conflict_exist h s d = Ok b /\
      (b = true <-> exists r s' d', In r (removelast (reqs h)) /\ booked_during r s' d' /\
                                    intervals_meet s d s' d').
Proof.
  intros h s d R Pos Pd. destruct (reachable_inv h R) as ((C1 & C2) & V).
  destruct (conflict_exists_spec h s d C1 (valid_filled h V)) as (b & Eb & Hb).
  exists b. split; auto. rewrite Hb.
  rewrite removelast_firstn_len. replace (Nat.pred (length (reqs h))) with (length (reqs h) - 1) by lia.
  assert (Pdd : forall x, (0 < x)%Q -> (0 < in_days x)%Q).
  { intros x Px. unfold in_days. apply Qlt_shift_div_l; lra. }
  assert (K : forall r sd, In r (firstn (length (reqs h) - 1) (reqs h)) -> r_sched r = true ->
              r_sdur r = Some sd -> (0 < in_days sd)%Q).
  { intros r sd I S D. assert (I' : In r (reqs h)).
    { rewrite <- (firstn_skipn (length (reqs h) - 1) (reqs h)). apply in_or_app. auto. }
    destruct (V r I' S) as (_ & D' & _). rewrite D in D'. injection D' as ->. auto. }
  split.
  - intros (r & s' & sd & I & S & T & D & M). exists r, s', (days sd). split; auto. split.
    + split; auto. exists sd. repeat split; auto.
    + apply meets_iff; auto. eapply K; eauto.
  - intros (r & s' & d' & I & (S & sd & T & D & E) & M). exists r, s', sd. repeat split; auto.
    apply meets_iff; auto; [eapply K; eauto|].
    destruct M as (t & A & B). exists t. unfold days in E. fold (in_days sd) in E. rewrite E in B. auto.
Qed.

(** The full statement (with [reqs h] for [removelast (reqs h)]) is false. *)
Theorem C20_conflict_test_refuted :
  exists h s d r s' d', reachable h /\ (0 < d)%Q /\ In r (reqs h) /\ booked_during r s' d' /\
    intervals_meet s d s' d' /\ does_conflict_exist h s d = Ok false.
Proof.
  exists (run [add_B; OpInitialize]), (11 # 2)%Q, 1%Q. do 3 eexists.
  split; [apply run_reachable; vm_compute; reflexivity|]. split; [reflexivity|].
  split; [left; reflexivity|]. split; [split; [reflexivity|]; eexists; repeat split; reflexivity|].
  split; [|vm_compute; reflexivity].
  exists (11 # 2)%Q. vm_compute. repeat split; discriminate.
Qed.

(** C21. Bookings can overlap ... *)
Definition clash_history : list operation :=
  [add_A; add_B; OpInsert 1 2; OpRemove 1 (fun i => i) 1; OpInsert 0 2].

Theorem C21_no_clashes_refuted :
  exists h, reachable h /\ ~ no_clashes (reqs h).
Proof.
  exists (run clash_history). split; [apply run_reachable; vm_compute; reflexivity|]. intros H.
  apply (H 0 1 _ _ (Nat.neq_0_succ 0) eq_refl eq_refl).
  do 4 eexists. split; [|split].
  - split; [vm_compute; reflexivity|]. eexists. split; [vm_compute; reflexivity|]. split; [vm_compute; reflexivity|reflexivity].
  - split; [vm_compute; reflexivity|]. eexists. split; [vm_compute; reflexivity|]. split; [vm_compute; reflexivity|reflexivity].
  - exists (11 # 2)%Q. vm_compute. repeat split; discriminate.
Qed.

(** ... but an insertion never creates an overlap when the request in the last position is
    not booked beforehand; removals and sorts never do; so the initial greedy solution has
    no overlaps. *)
Theorem C21_insertion_no_clash_partial :
  forall h n h', reachable h -> no_clashes (reqs h) ->
    (forall r, nth_error (reqs h) (length (reqs h) - 1) = Some r -> r_sched r = false) ->
    insert_first_n h n = Ok h' -> no_clashes (reqs h').
Proof.
  intros h n h' R NC Last H. destruct (reachable_inv h R) as ((C1 & C2) & V).
  unfold insert_first_n in H. apply (insert_no_clash (h_n h) 0 h n h'); auto.
  now apply valid_filled.
Qed.

Theorem C21_removal_no_clash_partial :
  forall f rnd h n h', reachable h -> In f removal_functions -> no_clashes (reqs h) ->
    f rnd h n = Ok h' -> no_clashes (reqs h').
Proof.
  intros f rnd h n h' R I NC H. destruct (reachable_inv h R) as (C & V).
  assert (G : forall g, counters_ok g -> Permutation (reqs h) (reqs g) ->
              remove_first_n_scheduled g n = Ok h' -> no_clashes (reqs h')).
  { intros g Cg P E. destruct (remove_first_spec g n Cg) as (h2 & m & E2 & _ & F & _).
    rewrite E in E2. injection E2 as <-. eapply removal_keeps_disjoint; [exact F|].
    eapply no_clashes_perm; eauto. }
  cbn in I. destruct I as [<-|[<-|[<-|[<-|[]]]]].
  - destruct (random_removal_spec rnd h n C) as (h2 & E & _ & F & _). rewrite E in H. injection H as <-.
    eapply removal_keeps_disjoint; eauto.
  - eapply G; [| |exact H]; [apply (sorted_handler (fun x y => (r_prio y <? r_prio x)%Z) h C)|apply py_sorted_perm].
  - eapply G; [| |exact H]; [apply (sorted_handler (fun x y => (length (r_vtws y) <? length (r_vtws x))%nat) h C)|apply py_sorted_perm].
  - unfold conflict_removal in H. apply bind_Ok in H. destruct H as (h1 & E & H).
    apply sort_conflict_spec in E. destruct E as (P & E1 & E2).
    eapply G; [eapply counters_perm; eauto|exact P|exact H].
Qed.

Theorem C21_initial_solution_no_clash_partial :
  forall h h', reachable h -> (forall r, In r (reqs h) -> r_sched r = false) ->
    initialize_solution h = Ok h' -> no_clashes (reqs h').
Proof.
  intros h h' R U H. unfold initialize_solution in H. cbv zeta in H.
  destruct (reachable_inv h R) as (C & V).
  destruct (sorted_handler (fun x y => (r_prio y <? r_prio x)%Z) h C) as (C' & _).
  set (h1 := sort_by_decreasing_priority h) in *.
  pose proof (sort_vtws_rise_spec h1) as F.
  set (h2 := sort_vtws_by_increasing_rise_time h1) in *.
  assert (C2 : counters_ok h2) by (eapply counters_reorder; eauto).
  assert (U2 : forall r, In r (reqs h2) -> r_sched r = false).
  { intros r I. destruct (Forall2_In_r _ _ _ _ F I) as (q & Iq & (_ & (-> & _))). apply U.
    eapply Permutation_in; [|exact Iq]. apply Permutation_sym, py_sorted_perm. }
  destruct C2 as (C2 & _).
  unfold insert_first_n in H. eapply (insert_no_clash (h_n h2) 0 h2); eauto.
  - intros r I S. rewrite (U2 r I) in S. discriminate.
  - intros i j r r' _ Ni _ (s & d & s' & d' & (S & _) & _). apply nth_error_In in Ni. rewrite (U2 r Ni) in S. discriminate.
  - intros r Nr _. apply U2. eapply nth_error_In; eauto.
Qed.

Example C21_example : exists h', initialize_solution (run [add_A; add_B; OpAdd 4 100 day 1 1 NoLook [win 30 40]]) = Ok h' /\
  scheduled_count h' = 2%Z.
Proof. eexists. split; vm_compute; reflexivity. Qed.

(** C22. Image quality. *)
Theorem C22_image_quality :
  forall v s, (v_rise v < v_set v)%Q -> (v_rise v < s)%Q -> (s < v_set v)%Q ->
    let middle := ((v_rise v + v_set v) / 2)%Q in
    (exists q, image_quality v s = Ok q /\ (1 <= q <= 10)%Z /\ (q = 10%Z <-> (s == middle)%Q)) /\
    (forall t, (Qabs (s - middle) <= Qabs (t - middle))%Q ->
       exists p q, image_quality v s = Ok p /\ image_quality v t = Ok q /\ (q <= p)%Z).
Proof.
  intros v s O A B middle. split; [apply quality_range; auto|].
  intros t Ht. apply quality_mono; auto.
Qed.
Example C22_example : image_quality (win 0 10) 5 = Ok 10%Z /\ image_quality (win 0 10) 7 = Ok 6%Z /\
  image_quality (win 0 10) (99 # 10) = Ok 1%Z.
Proof. repeat split; vm_compute; reflexivity. Qed.

(** C23. Look-angle search. *)
Theorem C23_look_angle_search :
  forall pitch d times rise set_,
    length pitch = length times -> StronglySorted Qlt times ->
    (exists t, In t times /\ (t == rise)%Q) -> (exists t, In t times /\ (t == set_)%Q) ->
    (rise < set_)%Q ->
    exists o l r tl tr pl pr,
      look_angle_time pitch (LookQty d) times rise set_ = Ok o /\
      nth_error times l = Some tl /\ (tl == rise)%Q /\ nth_error pitch l = Some pl /\
      nth_error times r = Some tr /\ (tr == set_)%Q /\ nth_error pitch r = Some pr /\
      (o = None <-> (0 < (pl - d) * (pr - d))%Q) /\
      (forall t, o = Some t -> (rise <= t < set_)%Q /\
         exists i a b, nth_error times i = Some t /\ nth_error pitch i = Some a /\
           nth_error pitch (S i) = Some b /\ ((a - d) * (b - d) <= 0)%Q).
Proof.
  intros pitch d times rise set_ Le So Hr Hs O.
  destruct (first_index_found _ _ 0 Hr) as (l & Fl). destruct (first_index_found _ _ 0 Hs) as (r & Fr).
  destruct (look_angle_spec _ d _ _ _ _ _ Le Fl Fr) as (pl & pr & o & Nl & Nr & E & Hn & Hs').
  apply first_index_spec in Fl, Fr. rewrite Nat.sub_0_r in Fl, Fr.
  destruct Fl as (_ & _ & tl & Tl & El). destruct Fr as (_ & _ & tr & Tr & Er).
  exists o, l, r, tl, tr, pl, pr. repeat (split; [assumption|]).
  assert (Mono : forall i j x y, i < j -> nth_error times i = Some x -> nth_error times j = Some y -> (x < y)%Q).
  { clear - So. induction So as [|z l So IH F]; intros [|i] [|j] x y L; cbn; try lia; try discriminate.
    - intros [= <-] N. rewrite Forall_forall in F. apply F. eapply nth_error_In; eauto.
    - intros A B. eapply IH; [|exact A|exact B]. lia. }
  assert (Lr : l < r).
  { destruct (lt_eq_lt_dec l r) as [[L|L]|L]; auto.
    - subst. rewrite Tl in Tr. injection Tr as <-. lra.
    - pose proof (Mono _ _ _ _ L Tr Tl). lra. }
  intros t ->. destruct (Hs' t eq_refl) as (i & Ni & _ & Hi). destruct (Hi Lr) as ((I1 & I2) & a & b & A & B & M).
  split; [|exists i, a, b; auto].
  split.
  - destruct (Nat.eq_dec l i) as [->|]; [rewrite Tl in Ni; injection Ni as <-; lra|].
    assert (l < i) as L by lia. pose proof (Mono _ _ _ _ L Tl Ni). lra.
  - pose proof (Mono _ _ _ _ I2 Ni Tr). lra.
Qed.
Example C23_example : look_angle_time [0; 2; 4; 6; 8]%Q (LookQty 5) [0; 1; 2; 3; 4]%Q 0 4 = Ok (Some 2%Q) /\
  look_angle_time [6; 7; 8]%Q (LookQty 5) [0; 1; 2]%Q 0 2 = Ok None.
Proof. split; vm_compute; reflexivity. Qed.

(** C24. The sorts are stable. *)
Theorem C24_sorts_stable :
  forall h,
    stable_sort_of (fun a b => (r_prio b <= r_prio a)%Z) (fun a b => (r_prio a =? r_prio b)%Z)
      (reqs h) (reqs (sort_by_decreasing_priority h)) /\
    stable_sort_of (fun a b => length (r_vtws b) <= length (r_vtws a))
      (fun a b => (length (r_vtws a) =? length (r_vtws b))%nat)
      (reqs h) (reqs (sort_by_decreasing_opportunity h)) /\
    stable_sort_of (fun a b => length (r_vtws a) <= length (r_vtws b))
      (fun a b => (length (r_vtws a) =? length (r_vtws b))%nat)
      (reqs h) (reqs (sort_by_increasing_opportunity h)) /\
    Forall2 (fun r r' => r' = set_vtws (r_vtws r') r /\
               stable_sort_of (fun v w => (v_rise v <= v_rise w)%Q) (fun v w => Qeqb (v_rise v) (v_rise w))
                 (r_vtws r) (r_vtws r'))
      (reqs h) (reqs (sort_vtws_by_increasing_rise_time h)).
Proof.
  assert (G : forall A (lt : A -> A -> bool) (le : A -> A -> Prop) (tie : A -> A -> bool) l,
    (forall x y, lt y x = false <-> le x y) -> (forall x y z, le x y -> le y z -> le x z) ->
    (forall x y, lt x y = true -> lt y x = false) ->
    (forall x y, tie x y = py_tie lt x y) -> stable_sort_of le tie l (py_sorted lt l)).
  { intros A lt le tie l H1 H2 H3 H4. split; [apply py_sorted_perm|]. split.
    - pose proof (py_sorted_sorted lt) as S. unfold py_le in S.
      assert (S' : StronglySorted (fun x y => lt y x = false) (py_sorted lt l)).
      { apply S; auto. intros x y z. rewrite !H1. eauto. }
      revert S'. generalize (py_sorted lt l). induction 1; constructor; auto.
      eapply Forall_impl; [|eassumption]. cbn. intros x Hx. now apply H1.
    - intros x. rewrite (filter_ext (tie x) (py_tie lt x) (H4 x)). rewrite (filter_ext (tie x) (py_tie lt x) (H4 x)).
      apply py_sorted_stable. unfold py_le. intros a b c. rewrite !H1. eauto. }
  intros h. split; [|split; [|split]].
  - apply G; unfold py_tie; intros; lia.
  - apply G; unfold py_tie; intros; rewrite ?Nat.ltb_lt, ?Nat.ltb_ge in *; try lia.
    destruct (Nat.eqb_spec (length (r_vtws x)) (length (r_vtws y))), (Nat.ltb_spec (length (r_vtws y)) (length (r_vtws x))),
      (Nat.ltb_spec (length (r_vtws x)) (length (r_vtws y))); cbn; auto; lia.
  - apply G; unfold py_tie; intros; rewrite ?Nat.ltb_lt, ?Nat.ltb_ge in *; try lia.
    destruct (Nat.eqb_spec (length (r_vtws x)) (length (r_vtws y))), (Nat.ltb_spec (length (r_vtws y)) (length (r_vtws x))),
      (Nat.ltb_spec (length (r_vtws x)) (length (r_vtws y))); cbn; auto; lia.
  - cbn. induction (reqs h) as [|r l IH]; cbn; constructor; auto. split; [reflexivity|]. cbn.
    apply G; unfold py_tie; intros.
    + now rewrite Qltb_niff.
    + eapply Qle_trans; eauto.
    + qb. lra.
    + apply eq_true_iff_eq. qb. split; intros; lra.
Qed.
Example C24_example :
  map r_loc (reqs (sort_by_decreasing_priority (run [add_B; add_A; OpAdd 7 100 day 1 1 NoLook []]))) = [0; 1; 7].
Proof. vm_compute. reflexivity. Qed.

(** C25. The window index of a booking can become wrong ... *)
Theorem C25_window_index_refuted :
  exists h r, reachable h /\ In r (reqs h) /\ r_sched r = true /\
    forall k v s, r_vidx r = Some k -> nth_error (r_vtws r) k = Some v -> r_start r = Some s ->
      ~ (v_rise v <= s <= v_set v)%Q.
Proof.
  exists (run [add_A; OpInsert 0 1; OpInsert 2 1]). eexists.
  split; [apply run_reachable; vm_compute; reflexivity|]. split; [left; reflexivity|]. split; [reflexivity|].
  intros k v s [= <-] [= <-] [= <-] (H & _). vm_compute in H. now apply H.
Qed.

(** ... only through operations that reorder windows. *)
Theorem C25_window_index_partial :
  forall os h, forallb keeps_window_order os = true -> run_history os empty_handler = Ok h ->
    forall r, In r (reqs h) -> r_sched r = true -> booked_well r.
Proof.
  intros os h K H.
  assert (G : forall os h0, counters_ok h0 -> (forall r, In r (reqs h0) -> index_valid r) ->
     forallb keeps_window_order os = true -> run_history os h0 = Ok h ->
     forall r, In r (reqs h) -> index_valid r).
  { clear K H. intros os'. induction os' as [|o os' IH]; cbn [run_history forallb]; intros h0 C V K H.
    - now injection H as <-.
    - apply andb_true_iff in K. destruct K as (K1 & K2).
      destruct (run_operation o h0) as [h1|] eqn:E; [|discriminate].
      apply (IH h1); auto; [apply (operation_spec o h0 h1 C E)|]. eapply operation_index; eauto. }
  apply (G os empty_handler); auto; [split; reflexivity|intros r []].
Qed.
Example C25_example : forallb keeps_window_order clash_history = true.
Proof. reflexivity. Qed.

(** C26. Overlap test: exact.  Overlap duration: right exactly in [right_case]. *)
Theorem C26_overlap_test :
  forall v w, (v_rise v <= v_set v)%Q -> (v_rise w <= v_set w)%Q ->
    (are_vtws_overlapping v w = true <-> windows_intersect v w) /\
    are_vtws_overlapping v w = are_vtws_overlapping w v.
Proof.
  intros v w A B. split; [now apply overlapping_iff|].
  unfold are_vtws_overlapping. f_equal. apply orb_comm.
Qed.
Theorem C26_overlap_duration_partial :
  forall v w, (v_rise v <= v_set v)%Q -> (v_rise w <= v_set w)%Q -> windows_intersect v w ->
    (exists x, julian_day_overlap v w = Some (PQty x) /\ (x == intersection_length v w)%Q) <->
    ((v_rise v < v_rise w /\ v_set w < v_set v) \/
     (v_rise w < v_rise v /\ v_set v < v_set w) \/
     (v_rise v <= v_rise w /\ v_rise w < v_set v /\ v_set v <= v_set w))%Q.
Proof. exact overlap_duration_iff. Qed.
Theorem C26_overlap_duration_refuted :
  (exists v w x, (v_rise v < v_set v)%Q /\ (v_rise w < v_set w)%Q /\ windows_intersect v w /\
     julian_day_overlap v w = Some (PQty x) /\ ~ (x == intersection_length v w)%Q) /\
  (exists v, (v_rise v <= v_set v)%Q /\ julian_day_overlap v v = None).
Proof.
  split.
  - exists (win 5 15), (win 0 10). eexists. split; [reflexivity|]. split; [reflexivity|]. split; [|split].
    + exists 6%Q. vm_compute. repeat split; discriminate.
    + reflexivity.
    + vm_compute. discriminate.
  - exists (win 1 1). split; [vm_compute; discriminate|reflexivity].
Qed.
Example C26_example : exists x, julian_day_overlap (win 0 10) (win 5 15) = Some (PQty x) /\ (x == 5)%Q.
Proof. eexists. split; reflexivity. Qed.

(** C27. Conflict-degree sorting fails ... *)
Theorem C27_conflict_sort_refuted :
  (exists h, reachable h /\ sort_by_decreasing_conflict_degree h = Raise TypeError /\
             conflict_removal h 1 = Raise TypeError) /\
  (exists h, reachable h /\ minimum_conflict_insertion h 1 = Raise TypeError).
Proof.
  split.
  - exists ex_h. split; [exact ex_h_reachable|]. split; vm_compute; reflexivity.
  - exists (run [OpAdd 0 100 day 5 1 NoLook [win 0 10; win 20 30]]).
    split; [apply run_reachable; vm_compute; reflexivity|]. vm_compute. reflexivity.
Qed.
(** ... exactly as soon as some but not all requests are scheduled. *)
Theorem C27_conflict_sort_exact_partial :
  forall h, ordered_windows h -> indices_valid h ->
    ((exists h', sort_by_decreasing_conflict_degree h = Ok h') <->
     ((forall r, In r (reqs h) -> r_sched r = true) \/ (forall r, In r (reqs h) -> r_sched r = false))) /\
    ((exists r, In r (reqs h) /\ r_sched r = true) -> (exists r, In r (reqs h) /\ r_sched r = false) ->
     sort_by_decreasing_conflict_degree h = Raise TypeError).
Proof.
  intros h O V. destruct (sort_conflict_exact h O V) as (A & B). split; [split; auto|].
  - intros (h' & E).
    destruct (forallb r_sched (reqs h)) eqn:F1; [left; now apply forallb_forall|].
    destruct (forallb (fun r => negb (r_sched r)) (reqs h)) eqn:F2.
    { right. intros r I. rewrite forallb_forall in F2. apply negb_true_iff. auto. }
    rewrite B in E; [discriminate|]. intros [H|H].
    + rewrite (proj2 (forallb_forall r_sched (reqs h)) H) in F1. discriminate.
    + rewrite (proj2 (forallb_forall (fun r => negb (r_sched r)) (reqs h))) in F2; [discriminate|].
      intros x I. now rewrite (H x I).
  - intros (r & Ir & Sr) (q & Iq & Sq). apply B. intros [H|H]; [rewrite (H q Iq) in Sq|rewrite (H r Ir) in Sr]; discriminate.
Qed.
(** Ranking the windows of a request fails exactly when two of them have equal degrees. *)
Theorem C27_window_sort_exact_partial :
  forall h r i, ordered_windows h -> nth_error (reqs h) i = Some r ->
    exists degrees, mapM (conflict_degree h) (r_vtws r) = Ok degrees /\
      ((exists h', sort_vtws_of h i = Ok h') <->
       ForallOrdPairs (fun x y => num_eq x y = false) degrees).
Proof.
  intros h r i O N.
  assert (Q : forall v, In v (r_vtws r) -> exists x, conflict_degree h v = Ok (PQty x)).
  { intros v Iv. eapply conflict_degree_ok; eauto. eapply nth_error_In; eauto. }
  destruct (mapM_Ok (conflict_degree h) (r_vtws r)) as (dg & Ed).
  { intros v Iv. destruct (Q v Iv) as (x & E). eauto. }
  exists dg. split; auto. unfold sort_vtws_of. rewrite (proj2 (py_nth_Ok _ _ _) N). cbn [bind].
  rewrite Ed. cbn [bind].
  pose proof (mapM_length _ _ _ Ed) as Ln. pose proof (mapM_Forall2 _ _ _ Ed) as F.
  assert (Hq : forall y, In y (combine dg (r_vtws r)) -> is_qty (fst y) = true).
  { intros [x v] I. apply in_combine_l in I. destruct (Forall2_In_r _ _ _ _ F I) as (w & Iw & Ew).
    destruct (Q w Iw) as (z & Ez). cbn. assert (x = PQty z) as -> by congruence. reflexivity. }
  pose proof (vtw_sort_exact _ Hq) as X.
  assert (Y : ForallOrdPairs degree_differs (combine dg (r_vtws r)) <-> ForallOrdPairs (fun x y => num_eq x y = false) dg).
  { clear - Ln. revert Ln. generalize (r_vtws r). induction dg as [|x dg IH]; intros [|v l] Ln; cbn in *; try discriminate.
    - split; constructor.
    - injection Ln as Ln. specialize (IH l Ln). split; intros H; inversion H as [|? ? Fx Fr]; subst; constructor; try tauto.
      + apply Forall_forall. intros y Iy. rewrite Forall_forall in Fx.
        rewrite <- (map_fst_combine dg l) in Iy by auto. apply in_map_iff in Iy. destruct Iy as (p & <- & Ip).
        apply (Fx p Ip).
      + apply Forall_forall. intros [y w] Iy. apply in_combine_l in Iy. rewrite Forall_forall in Fx. apply (Fx y Iy). }
  rewrite <- Y, <- X. split.
  - intros (h' & E). apply bind_Ok in E. destruct E as (so & Es & _). eauto.
  - intros (so & Es). rewrite Es. cbn. eauto.
Qed.
Example C27_example : ordered_windows ex_h /\ indices_valid ex_h /\
  exists h', sort_by_decreasing_conflict_degree ex_two = Ok h'.
Proof.
  split; [|split].
  - intros r v Ir Iv. vm_compute in Ir. repeat (destruct Ir as [<-|Ir]; [vm_compute in Iv;
      repeat (destruct Iv as [<-|Iv]; [reflexivity|]); destruct Iv|]). destruct Ir.
  - intros r Ir S. vm_compute in Ir. repeat (destruct Ir as [<-|Ir]; [try discriminate; do 2 eexists; split; reflexivity|]). destruct Ir.
  - eexists. vm_compute. reflexivity.
Qed.

(** C28. Iteration visits all requests but the last. *)
Theorem C28_iteration_partial :
  forall h, reachable h -> h_items h = Ok (removelast (reqs h)).
Proof.
  intros h R. destruct (reachable_inv h R) as ((C1 & C2) & V). rewrite (h_items_spec h C1).
  rewrite removelast_firstn_len. do 2 f_equal. lia.
Qed.
Theorem C28_iteration_refuted :
  forall h, reachable h -> reqs h <> [] -> h_items h <> Ok (reqs h).
Proof.
  intros h R N H. rewrite (C28_iteration_partial h R) in H. injection H as H.
  pose proof (app_removelast_last (new_request 0 0 0 0 0 NoLook []) N) as E. rewrite H in E.
  apply (f_equal (@length request)) in E. rewrite app_length in E. cbn in E. lia.
Qed.
Example C28_example : h_items (run [add_A]) = Ok [] /\ length (reqs (run [add_A])) = 1.
Proof. split; vm_compute; reflexivity. Qed.

(** C29. is_complete ignores the last request. *)
Theorem C29_is_complete_partial :
  forall h, reachable h ->
    exists b, is_complete h = Ok b /\ (b = true <-> forall r, In r (removelast (reqs h)) -> r_sched r = true).
Proof.
  intros h R. unfold is_complete. rewrite (C28_iteration_partial h R). cbn [bind].
  eexists. split; [reflexivity|]. apply forallb_forall.
Qed.
Theorem C29_is_complete_refuted :
  exists h r, reachable h /\ is_complete h = Ok true /\ In r (reqs h) /\ r_sched r = false.
Proof.
  exists (run [add_Z; OpInitialize]). eexists. split; [apply run_reachable; vm_compute; reflexivity|].
  split; [vm_compute; reflexivity|]. split; [left; reflexivity|reflexivity].
Qed.
(** A False answer is always right. *)
Theorem C29_is_complete_false_sound_partial :
  forall h, reachable h -> is_complete h = Ok false -> exists r, In r (reqs h) /\ r_sched r = false.
Proof.
  intros h R H. unfold is_complete in H. rewrite (C28_iteration_partial h R) in H. cbn in H. injection H as H.
  destruct (existsb (fun r => negb (r_sched r)) (reqs h)) eqn:E.
  - apply existsb_exists in E. destruct E as (r & I & S). exists r. split; auto. now apply negb_true_iff.
  - exfalso. assert (K : forallb r_sched (removelast (reqs h)) = true); [|congruence].
    apply forallb_forall. intros r I. assert (I' : In r (reqs h)).
    { rewrite removelast_firstn_len in I. rewrite <- (firstn_skipn (Nat.pred (length (reqs h))) (reqs h)).
      apply in_or_app. auto. }
    destruct (r_sched r) eqn:S; auto. 
    assert (existsb (fun r => negb (r_sched r)) (reqs h) = true); [|congruence].
    apply existsb_exists. exists r. now rewrite S.
Qed.

(** C30. Cost = minus the value of all requests but the last. *)
Lemma cost_value l : fold_left (fun c r => if r_sched r then (c - r_prio r)%Z else c) l 0%Z = (- value l)%Z.
Proof.
  assert (G : forall l c, fold_left (fun c r => if r_sched r then (c - r_prio r)%Z else c) l c = (c - value l)%Z).
  { clear. induction l as [|r l IH]; intros c; cbn; [unfold value; cbn; lia|].
    rewrite IH. unfold value. cbn. destruct (r_sched r); cbn; lia. }
  rewrite G. lia.
Qed.
Theorem C30_cost_partial :
  forall h, reachable h -> cost h = Ok (- value (removelast (reqs h)))%Z.
Proof.
  intros h R. unfold cost. rewrite (C28_iteration_partial h R). cbn [bind]. now rewrite cost_value.
Qed.
Theorem C30_cost_refuted :
  (exists h, reachable h /\ cost h = Ok 0%Z /\ value (reqs h) = 5%Z) /\
  (exists h h' c c', reachable h /\ reachable h' /\ Permutation (reqs h) (reqs h') /\
     cost h = Ok c /\ cost h' = Ok c' /\ c <> c').
Proof.
  split.
  - exists (run [add_A; OpInitialize]). split; [apply run_reachable; vm_compute; reflexivity|]. split; vm_compute; reflexivity.
  - exists (run [add_A; add_Z; OpInitialize]), (run [add_A; add_Z; OpInitialize; OpSortIncOpportunity; OpSortDecOpportunity]).
    do 2 eexists. split; [apply run_reachable; vm_compute; reflexivity|]. split; [apply run_reachable; vm_compute; reflexivity|].
    split; [|split; [vm_compute; reflexivity|split; [vm_compute; reflexivity|discriminate]]].
    vm_compute. apply perm_swap.
Qed.

(** C41. Without a look angle the observation starts half a duration after the middle of
    the window, so its centre is a whole duration late, and it only fits when shorter than
    a third of the window. *)
Theorem C41_placement_partial :
  forall r v s, r_look r = NoLook -> proposed_start r v s ->
    let middle := ((v_rise v + v_set v) / 2)%Q in let d := days (r_dur r) in
    (s + d / 2 == middle + d)%Q /\
    ((v_rise v < v_set v)%Q -> (0 <= d)%Q ->
     (v_rise v < s)%Q /\ ((s + d < v_set v)%Q <-> (d * 3 < v_set v - v_rise v)%Q)).
Proof.
  intros r v s L P middle d. unfold proposed_start in P. rewrite L in P. fold d in P.
  assert (E : (s * 2 == v_rise v + v_set v + d)%Q) by (rewrite P; field).
  assert (M : (middle * 2 == v_rise v + v_set v)%Q) by (unfold middle; field).
  assert (H : (d / 2 * 2 == d)%Q) by field.
  split; [lra|]. intros O Pd. split; [lra|]. split; intros; lra.
Qed.
Theorem C41_centred_refuted :
  exists h r, reachable h /\ In r (reqs h) /\ r_look r = NoLook /\ r_sched r = true /\
    exists k v s d, r_vidx r = Some k /\ nth_error (r_vtws r) k = Some v /\ booked_during r s d /\
      ~ (s + d / 2 == (v_rise v + v_set v) / 2)%Q.
Proof.
  exists (run [add_B; OpInitialize]). eexists. split; [apply run_reachable; vm_compute; reflexivity|].
  split; [left; reflexivity|]. split; [reflexivity|]. split; [reflexivity|].
  do 4 eexists. split; [reflexivity|]. split; [reflexivity|]. split.
  - split; [reflexivity|]. eexists. repeat split; reflexivity.
  - vm_compute. discriminate.
Qed.
(** A request whose duration fills a third of its only window is never scheduled. *)
Theorem C41_fits_refuted :
  exists h', run_history [OpAdd 0 100 (4 * day) 5 1 NoLook [win 0 10]; OpInitialize] empty_handler = Ok h' /\
    scheduled_count h' = 0%Z.
Proof. eexists. split; vm_compute; reflexivity. Qed.

Print Assumptions C13_counters_exact.
Print Assumptions C14_removal_count.
Print Assumptions C15_priority_removal_victims.
Print Assumptions C15_opportunity_removal_victims.
Print Assumptions C16_requests_preserved.
Print Assumptions C17_new_bookings_satisfy_constraints.
Print Assumptions C17_every_booking_allowed.
Print Assumptions C18_insertion_keeps_bookings.
Print Assumptions C19_insertion_maximal.
Print Assumptions C19_initial_solution_maximal.
Print Assumptions C20_conflict_test_partial.
Print Assumptions C20_conflict_test_refuted.
Print Assumptions C21_no_clashes_refuted.
Print Assumptions C21_insertion_no_clash_partial.
Print Assumptions C21_removal_no_clash_partial.
Print Assumptions C21_initial_solution_no_clash_partial.
Print Assumptions C22_image_quality.
Print Assumptions C23_look_angle_search.
Print Assumptions C24_sorts_stable.
Print Assumptions C25_window_index_refuted.
Print Assumptions C25_window_index_partial.
Print Assumptions C26_overlap_test.
Print Assumptions C26_overlap_duration_partial.
Print Assumptions C26_overlap_duration_refuted.
Print Assumptions C27_conflict_sort_refuted.
Print Assumptions C27_conflict_sort_exact_partial.
Print Assumptions C27_window_sort_exact_partial.
Print Assumptions C28_iteration_partial.
Print Assumptions C28_iteration_refuted.
Print Assumptions C29_is_complete_partial.
Print Assumptions C29_is_complete_refuted.
Print Assumptions C29_is_complete_false_sound_partial.
Print Assumptions C30_cost_partial.
Print Assumptions C30_cost_refuted.
Print Assumptions C41_placement_partial.
Print Assumptions C41_centred_refuted.
Print Assumptions C41_fits_refuted.
