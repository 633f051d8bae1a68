(** What each round of the search started by Scheduler.generate does, added after mutation
    testing (C78). *)
From Coq Require Import List ZArith QArith Bool Arith Permutation Lia Lqa.
From Verif Require Import Py PyLemmas Sched_Model Sched_Spec Sched_Proofs Sched_Proofs2
  Sched_Proofs3 Sched_Proofs4 Sched_Props Alns_Model Alns_Spec Alns_Proofs Alns_Proofs2
  Alns_Props Gen_Model Gen_Spec Gen_Proofs Gen_Props.
Import ListNotations.
Open Scope nat_scope.
Open Scope list_scope.

Lemma removal_count f rnd h n h' : counters_ok h -> In f removal_functions -> f rnd h n = Ok h' ->
  scheduled_count h' = (scheduled_count h - Z.min (Z.max n 0) (scheduled_count h))%Z.
Proof.
  intros C I H.
  assert (G : forall g, counters_ok g -> Permutation (reqs h) (reqs g) ->
      remove_first_n_scheduled g n = Ok h' ->
      scheduled_count h' = (scheduled_count h - Z.min (Z.max n 0) (scheduled_count h))%Z).
  { intros g Cg Pg Hg. destruct (remove_first_spec g n Cg) as (h2 & m & E & _ & F & P & Q & K).
    rewrite E in Hg. injection Hg as ->.
    assert (Eg : scheduled_count g = scheduled_count h).
    { unfold scheduled_count, scheduled. f_equal. apply Permutation_length, filter_perm. now apply Permutation_sym. }
    rewrite <- Eg. apply Permutation_length in P. rewrite app_length in P.
    unfold scheduled_count, scheduled in *. rewrite Q. fold (count (firstn m (reqs g))) in P. lia. }
  destruct I as [<-|[<-|[<-|[<-|[]]]]]; cbn in H.
  - destruct (random_removal_spec rnd h n C) as (h2 & E & _ & F & K). rewrite E in H. now injection H as <-.
  - destruct (sorted_handler (fun x y => (r_prio y <? r_prio x)%Z) h C) as (C' & _).
    eapply G; [exact C'| |exact H]. apply py_sorted_perm.
  - destruct (sorted_handler (fun x y => (length (r_vtws y) <? length (r_vtws x))%nat) h C) as (C' & _).
    eapply G; [exact C'| |exact H]. apply py_sorted_perm.
  - unfold conflict_removal in H. apply bind_Ok in H. destruct H as (h1 & E & H).
    apply sort_conflict_spec in E. destruct E as (P & E1 & E2).
    eapply G; [eapply counters_perm; eauto|exact P|exact H].
Qed.

Lemma search_round ex h mi an re ds h1 best log : reachable h ->
  search ex h mi an re ds = Ok (h1, best, log) ->
  h_n h1 = length (reqs h) /\
  forall k e, nth_error log k = Some e ->
    e_current e = current_after h1 (firstn k log) /\
    solution_of (reqs h) (e_current e) /\ solution_of (reqs h) (e_destroyed e) /\
    (exists f, In f removal_functions /\
       f (d_rnd1 (ds k)) (e_current e) (quarter (h_n h1)) = Ok (e_destroyed e)) /\
    (exists g, In g insertion_functions /\
       g (d_rnd2 (ds k)) (e_destroyed e) (Z.of_nat (h_n h1)) = Ok (e_candidate e)).
Proof.
  intros R H. destruct (search_inv _ _ _ _ _ _ _ _ _ R H) as (S1 & Sb & R1 & Ei & Es).
  assert (E1 : h_n h1 = length (reqs h)).
  { destruct S1 as ((C1 & _) & _ & _ & l & P & F). rewrite C1, (Permutation_length P). symmetry. eapply Forall2_len; eauto. }
  split; auto. intros k e Nk.
  assert (Hd : forall f rnd x y, In f removal_functions -> solution_of (reqs h) x -> f rnd x (quarter (h_n h1)) = Ok y -> solution_of (reqs h) y).
  { intros f rnd x y I Sx Ef. destruct (removal_is_op f rnd x (quarter (h_n h1)) I) as (o & Eo & No).
    eapply solution_op; eauto. now rewrite Eo. }
  assert (Hc : forall x, In x (candidates log) -> solution_of (reqs h) x).
  { refine (proj2 (C32_invariants_preserved _ (schedule_problem ex) (solution_of (reqs h)) h1 mi an re _ _ ds best log S1 Hd _ Es)).
    intros f rnd x y I Sx Ef. destruct (insertion_is_op f rnd x (Z.of_nat (h_n h1)) I) as (o & Eo & No).
    eapply solution_op; eauto. now rewrite Eo. }
  unfold solve in Es. apply bind_Ok in Es. destruct Es as (c & Ec & Es). apply bind_Ok in Es. destruct Es as (b & Eb & Es).
  destruct b; [injection Es as <- <-; destruct k; discriminate|].
  pose proof (rounds_trace (schedule_problem ex) an re _ _ _ _ _ _ _ Es k e Nk) as Tr.
  destruct Tr as (H1 & _ & _ & _ & _ & _ & (f & Nf & Ff) & (g & Ng & Fg) & _).
  cbn [s_cur] in H1.
  assert (Sc : solution_of (reqs h) (e_current e)).
  { rewrite H1. unfold current_after.
    assert (K : forall (l : list handler) d, In (last l d) (d :: l)).
    { clear. intros l d. destruct l as [|x l] using rev_ind; [now left|].
      rewrite last_last. right. apply in_or_app. right. now left. }
    destruct (K (map e_candidate (filter e_accepted (firstn k log))) h1) as [<-|I]; auto.
    apply Hc. apply in_map_iff in I. destruct I as (x & <- & I). apply filter_In in I. destruct I as (I & _).
    unfold candidates. apply in_map. rewrite <- (firstn_skipn k log). apply in_or_app. now left. }
  apply nth_error_In in Nf, Ng.
  split; auto. split; auto. split; [eapply Hd; eauto|]. split; eauto.
Qed.

(** [q] is [n / 4] rounded up: the least number with four times [q] at least [n]. *)
Definition quarter_rounded_up (n q : nat) : Prop :=
  n <= 4 * q /\ forall m, n <= 4 * m -> q <= m.

(** C78. In every round of the search the destroy step takes the current solution - the last
    accepted candidate, or the initial one - and unschedules a quarter (rounded up) of the
    number of requests, or all scheduled ones if there are fewer. *)
Theorem C78_rounds_remove_a_quarter :
  forall exceeds h max_iter annealing react ds h1 best log, reachable h ->
    search exceeds h max_iter annealing react ds = Ok (h1, best, log) ->
    forall k e, nth_error log k = Some e ->
      e_current e = current_after h1 (firstn k log) /\
      exists q, quarter_rounded_up (length (reqs h)) q /\
        scheduled_count (e_destroyed e) =
          (scheduled_count (e_current e) - Z.min (Z.of_nat q) (scheduled_count (e_current e)))%Z.
Proof.
  intros ex h mi an re ds h1 best log R H k e Nk.
  destruct (search_round _ _ _ _ _ _ _ _ _ R H) as (E1 & T).
  destruct (T k e Nk) as (Ec & Sc & Sd & (f & If & Ff) & _). split; auto.
  pose proof (Z.div_mod (Z.of_nat (length (reqs h)) + 3) 4 ltac:(lia)) as Dm.
  pose proof (Z.mod_pos_bound (Z.of_nat (length (reqs h)) + 3) 4 ltac:(lia)) as Mb.
  pose proof (Z.div_pos (Z.of_nat (length (reqs h)) + 3) 4 ltac:(lia) ltac:(lia)) as Dp.
  exists (Z.to_nat (quarter (length (reqs h)))). unfold quarter.
  split; [split; [lia|intros m Hm; lia]|].
  rewrite (removal_count f _ _ _ _ (proj1 Sc) If Ff). rewrite E1. unfold quarter. do 2 f_equal. lia.
Qed.
(** ... and the repair step is not limited: no unscheduled request of the candidate could
    still be booked at the proposed start of one of its windows. *)
Theorem C78_rounds_repair_fully :
  forall exceeds h max_iter annealing react ds h1 best log, reachable h ->
    search exceeds h max_iter annealing react ds = Ok (h1, best, log) ->
    (forall r, In r (reqs h) -> (0 < r_dur r)%Q) ->
    forall e, In e log ->
    forall r v s, In r (reqs (e_candidate e)) -> r_sched r = false -> In v (r_vtws r) ->
      proposed_start r v s -> allowed r v s ->
      exists q s' d', In q (removelast (reqs (e_candidate e))) /\ booked_during q s' d' /\
                      intervals_meet s (days (r_dur r)) s' d'.
Proof.
  intros ex h mi an re ds h1 best log R H Pos e Ie. apply In_nth_error in Ie. destruct Ie as (k & Nk).
  destruct (search_round _ _ _ _ _ _ _ _ _ R H) as (E1 & T).
  destruct (T k e Nk) as (Ec & Sc & Sd & _ & (g & Ig & Fg)).
  destruct Sd as (C & V & _ & l & P & F).
  refine (insertion_maximal_any g _ _ _ _ C V Ig Fg _ _).
  - rewrite E1, (Permutation_length P), (Forall2_len _ _ _ F). lia.
  - intros r Ir. destruct (Forall2_In_r _ _ _ _ F Ir) as (r0 & I0 & (_ & _ & -> & _)).
    apply Pos. eapply Permutation_in; [symmetry; eauto|auto].
Qed.
(** The run of C21's example: the search stops after two rounds. *)
Example C78_example :
  exists log, search exceeds_exp four_requests 100 (1 # 2) (1 # 2) four_draws = Ok (four_handler, four_best, log) /\
    length log = 2 /\ map (fun e => (scheduled_count (e_current e), scheduled_count (e_destroyed e))) (firstn 2 log) = [(3, 2); (4, 3)]%Z.
Proof.
  exists four_log. split; [|split; vm_compute; reflexivity].
  unfold search.
  assert (h_n four_requests =? 0 = false) as -> by (vm_compute; reflexivity).
  assert (initialize_solution four_requests = Ok four_handler) as ->.
  { assert (match initialize_solution four_requests with Ok _ => true | Raise _ => false end = true) as X by (vm_compute; reflexivity).
    unfold four_handler. destruct (initialize_solution four_requests); [reflexivity|discriminate]. }
  cbn [bind]. assert (h_n four_handler = 4) as -> by (vm_compute; reflexivity).
  change (quarter 4) with 1%Z. change (Z.of_nat 4) with 4%Z. rewrite four_run. reflexivity.
Qed.

Print Assumptions C78_rounds_remove_a_quarter.
Print Assumptions C78_rounds_repair_fully.
