(** Properties of schedules made with floating-point numbers (C113-C115). *)
From Coq Require Import List ZArith Bool Arith Permutation Reals Lra Lia Psatz.
From Flocq Require Import Core.Core.
From Verif Require Import Py PyLemmas Fl_Model Fl_Spec Fl_Proofs Fl_Props Fls_Model Fls_Spec Fls_Proofs Fls_Proofs2 Fls_Proofs3.
Import ListNotations.
Open Scope R_scope.
Open Scope list_scope.

(** C113. After any history of the request handler, in floating point: every booking is for the
    duration asked for, starts after its window rises, ends before the window sets and before
    the deadline, exactly as real numbers, and has the quality asked for up to what rounding
    can change. *)
Theorem C113_bookings_satisfy_constraints :
  forall h r, reachable h -> In r (reqs h) -> r_sched r = true ->
    exists s v, booked_at r s /\ In v (r_vtws r) /\ in_window r v s /\ in_time r s /\ good_enough r v s.
Proof.
  intros h r R I S. destruct (reachable_inv h R) as (_ & V & O). destruct (V r I S) as (_ & D & v & s & E & Iv & Al).
  exists s, v. split; [split; auto|]. split; auto. apply allowed_real; auto.
Qed.
(** Insertions keep every request and every booking. *)
Theorem C113_insertion_keeps_bookings :
  forall f rnd h n h', reachable h -> In f insertion_functions -> f rnd h n = Ok h' ->
    evolves (fun r r' => same_static r r' /\ (r_sched r = true -> same_booking r r')) h h'.
Proof.
  intros f rnd h n h' R I H. destruct (reachable_inv h R) as (C & _).
  assert (G : forall is g, insert_loop is g n = Ok h' -> forall a, Permutation (reqs h) (reqs a) -> Forall2 reorder_windows (reqs a) (reqs g) ->
     evolves (fun r r' => same_static r r' /\ (r_sched r = true -> same_booking r r')) h h').
  { intros is g L a P F. apply insert_loop_step in L. destruct L as (L & _). exists (reqs a). split; auto. revert L. clear - F. revert F. generalize (reqs a), (reqs g), (reqs h').
    intros l1 l2 l3 F. revert l3. induction F as [|x y l1 l2 (A & B) F IH]; intros l3 L; inversion L as [|y' z l2' l3' St L']; subst; constructor; auto.
    split; [eapply same_static_trans; [exact A|apply insertion_step_props; auto]|]. intros S.
    assert (Sy : r_sched y = true) by (destruct B as (-> & _); auto). apply step_keeps in St. rewrite (St Sy). exact B. }
  assert (Rf : forall l, Forall2 reorder_windows l l) by (intros l; apply Forall2_refl; intros x; split; [apply same_static_refl|apply same_booking_refl]).
  cbn in I. destruct I as [<-|[<-|[<-|[]]]].
  - apply (G _ _ H (sort_by_decreasing_priority h)); [apply py_sorted_perm|apply Rf].
  - apply (G _ _ H (sort_by_increasing_opportunity h)); [apply py_sorted_perm|apply Rf].
  - unfold minimum_conflict_insertion in H. apply bind_Ok in H. destruct H as (g & E & H). apply sort_vtws_conflict_spec in E. destruct E as (F & _).
    eapply (G _ _ H h); [apply Permutation_refl|exact F].
Qed.

(** C114. The initial solution of the floating-point scheduler has no two observations that
    overlap by more than three quarters of a tick (30 microseconds); an insertion creates no
    larger overlap unless the last request was booked before it; removals and sorts never do. *)
Theorem C114_initial_solution :
  forall h h', reachable h -> (forall r, In r (reqs h) -> r_sched r = false) ->
    initialize_solution h = Ok h' -> nearly_disjoint (reqs h').
Proof.
  intros h h' R U H. destruct (reachable_inv h R) as (C & V & O).
  unfold initialize_solution in H. cbv zeta in H.
  destruct (sorted_handler (fun x y => (r_prio y <? r_prio x)%Z) h C) as (C1 & Ev1).
  set (h1 := sort_by_decreasing_priority h) in *.
  assert (P : Permutation (reqs h) (reqs h1)) by apply py_sorted_perm.
  pose proof (sort_vtws_rise_spec h1) as F. set (h2 := sort_vtws_by_increasing_rise_time h1) in *.
  assert (C2 : counters_ok h2) by (eapply counters_reorder; eauto).
  assert (U2 : forall r, In r (reqs h2) -> r_sched r = false).
  { intros r I. destruct (Forall2_In_r _ _ _ _ F I) as (q & Iq & (_ & (-> & _))). apply U.
    eapply Permutation_in; [|exact Iq]. now apply Permutation_sym. }
  assert (Iv2 : invariant h2).
  { apply (evolves_invariant h h2 C2); [|split; auto]. eapply (evolves_op_then h h1 h2 P). apply evolves_pos. eapply Forall2_impl'; [exact reorder_op|exact F]. }
  apply no_clashes_iff. eapply insert_no_clash; [exact H| |exact Iv2| |].
  - apply C2.
  - intros i j r r' _ A _ (s & s' & (S & _) & _). rewrite (U2 r) in S; [discriminate|]. eapply nth_error_In; eauto.
  - intros r A _. apply U2. eapply nth_error_In; eauto.
Qed.
Theorem C114_insertion_partial :
  forall h n h', reachable h -> nearly_disjoint (reqs h) ->
    (forall r, nth_error (reqs h) (length (reqs h) - 1) = Some r -> r_sched r = false) ->
    insert_first_n h n = Ok h' -> nearly_disjoint (reqs h').
Proof.
  intros h n h' R ND Last H. pose proof (reachable_inv h R) as Iv. apply no_clashes_iff. apply no_clashes_iff in ND.
  unfold insert_first_n in H. eapply insert_no_clash; [exact H| |exact Iv|exact ND|]; [apply Iv|]. intros r A _. now apply Last.
Qed.
Theorem C114_removals :
  forall f rnd h n h', reachable h -> In f removal_functions -> nearly_disjoint (reqs h) ->
    f rnd h n = Ok h' -> nearly_disjoint (reqs h').
Proof.
  intros f rnd h n h' R I NC H. destruct (reachable_inv h R) as (C & V & O). apply no_clashes_iff. apply no_clashes_iff in NC.
  assert (G : forall g, counters_ok g -> Permutation (reqs h) (reqs g) ->
              remove_first_n_scheduled g n = Ok h' -> no_clashes (reqs h')).
  { intros g Cg P E. destruct (remove_first_spec g n Cg) as (h2 & m & E2 & _ & F & _).
    rewrite E in E2. injection E2 as <-. eapply removal_keeps_disjoint; [exact F|].
    eapply no_clashes_perm; eauto. }
  cbn in I. destruct I as [<-|[<-|[<-|[<-|[]]]]].
  - destruct (random_removal_spec rnd h n C) as (h2 & E & _ & F & _). rewrite E in H. injection H as <-.
    eapply removal_keeps_disjoint; eauto.
  - eapply G; [| |exact H]; [apply (sorted_handler (fun x y => (r_prio y <? r_prio x)%Z) h C)|apply py_sorted_perm].
  - eapply G; [| |exact H]; [apply (sorted_handler (fun x y => (length (r_vtws y) <? length (r_vtws x))%nat) h C)|apply py_sorted_perm].
  - unfold conflict_removal in H. apply bind_Ok in H. destruct H as (h1 & E & H). apply sort_conflict_spec in E. destruct E as (P & E1 & E2).
    eapply G; [| |exact H]; [eapply counters_perm; eauto|exact P].
Qed.

(** C115. An unlimited insertion leaves no request out for which there is room: if the middle
    of a window would do with two ticks to spare (and quality to spare for the rounding), then
    some booking, not of the last request, touches it or comes within two ticks. *)
Lemma quality_lipschitz a b s m : a < b -> Rabs (exact_quality a b s - exact_quality a b m) <= 18 * Rabs (s - m) / (b - a).
Proof.
  intros L. unfold exact_quality. set (c := (a + b) / 2).
  replace (10 - 9 * Rabs (s - c) / ((b - a) / 2) - (10 - 9 * Rabs (m - c) / ((b - a) / 2))) with (18 / (b - a) * (Rabs (m - c) - Rabs (s - c))) by (field; lra).
  rewrite Rabs_mult. rewrite (Rabs_pos_eq (18 / (b - a))) by (apply Rle_mult_inv_pos; lra).
  replace (18 * Rabs (s - m) / (b - a)) with (18 / (b - a) * Rabs (s - m)) by (field; lra).
  apply Rmult_le_compat_l; [apply Rle_mult_inv_pos; lra|].
  replace (s - m) with (- ((m - c) - (s - c))) by ring. rewrite Rabs_Ropp. apply Rabs_triang_inv2.
Qed.
Lemma overlap_shift s m d t e : overlap s d t e <= overlap m d t e + Rabs (s - m).
Proof.
  unfold overlap. pose proof (Rle_abs (s - m)) as A. pose proof (Rle_abs (- (s - m))) as B. rewrite Rabs_Ropp in B.
  unfold Rmin, Rmax. repeat destruct (Rle_dec _ _); lra.
Qed.
Lemma roomy_allowed r v : r_look r = NoLook -> ordinary_request r -> In v (r_vtws r) -> roomy r v (middle_start r v) ->
  allowed r v (fstart (v_rise v) (v_set v) (in_days (r_dur r))).
Proof.
  intros NL Or I (R1 & R2 & R3 & R4). pose proof Or as (Jd & Sd & W). pose proof (W v I) as Wv. pose proof Wv as ((Jr & Ur) & (Js & Uss) & L & _).
  destruct (fstart_near r v Sd Wv) as (F & A). set (s := fstart (v_rise v) (v_set v) (in_days (r_dur r))) in *. set (m := middle_start r v) in *.
  assert (Em : m = (value (v_rise v) + value (v_set v) + real_days (r_dur r)) / 2) by reflexivity. clearbody m.
  assert (P : proposed_start r v s) by (unfold proposed_start; rewrite NL; reflexivity). clearbody s.
  pose proof tick_small as T. pose proof (quality_lipschitz (value (v_rise v)) (value (v_set v)) (value s) m) as Q. pose proof A as A'. rewrite Rabs_bound in A.
  assert (Sp : 0 <= real_days (r_dur r)) by (destruct Sd as (_ & X); unfold real_days; lra).
  assert (J : julian_date s) by (split; auto; destruct Jr as (_ & Br), Js as (_ & Bs); lra).
  destruct (C111_tests_complete s (r_dur r) (v_rise v) (v_set v) (r_deadline r) _ J Jr Js Jd Sd (in_days_convert _) ltac:(lra) ltac:(lra) ltac:(lra)) as (T1 & T2).
  split; auto. split; auto. split; auto.
  destruct (C112_quality_accurate (v_rise v) (v_set v) s Jr Js J ltac:(lra) L) as (x & E & _ & X). exists (Zfloor x). split; auto.
  apply Zfloor_lub. assert (LL : value (v_rise v) < value (v_set v)) by lra. specialize (Q LL). set (len := value (v_set v) - value (v_rise v)) in *.
  assert (Lp : 0 < len) by (unfold len; lra). clearbody len.
  assert (Q' : 18 * Rabs (value s - m) / len <= 20 * tick / len).
  { unfold Rdiv. apply Rmult_le_compat_r; [left; now apply Rinv_0_lt_compat|]. lra. }
  rewrite Rabs_bound in Q, X. replace (60 * tick / len) with (40 * tick / len + 20 * tick / len) in R4 by (field; lra). lra.
Qed.

Lemma done_overlap h r v i : invariant h -> nth_error (reqs h) i = Some r -> r_sched r = false -> done_with h i ->
  r_look r = NoLook -> In v (r_vtws r) -> roomy r v (middle_start r v) ->
  exists q t, In q (removelast (reqs h)) /\ booked_at q t /\
    - 2 * tick <= overlap (middle_start r v) (real_days (r_dur r)) (value t) (real_days (r_dur q)).
Proof.
  intros Iv N S D NL I Ro. pose proof Iv as ((E & _) & V & O). assert (Ir : In r (reqs h)) by (eapply nth_error_In; eauto). pose proof (O r Ir) as Or.
  pose proof (roomy_allowed r v NL Or I Ro) as Al. pose proof (D r N S v I) as T. pose proof (try_window_None h r v T _ Al) as C.
  destruct (fstart_near r v (proj1 (proj2 Or)) (proj2 (proj2 Or) v I)) as (_ & A). set (s := fstart (v_rise v) (v_set v) (in_days (r_dur r))) in *. clearbody s.
  destruct (conflict_exists_spec h s (in_days (r_dur r)) E (valid_filled h V)) as (b & Eb & Hb).
  rewrite C in Eb. assert (b = true) by congruence. subst b. destruct (proj1 Hb eq_refl) as (q & t & d & Iq & Sq & Eq & Dq & M).
  assert (Iq' : In q (reqs h)) by (eapply In_firstn; eauto).
  assert (Bq : booked_at q t). { split; auto. split; auto. apply (V q Iq' Sq). }
  exists q, t. split; [rewrite removelast_firstn_len; replace (Nat.pred (length (reqs h))) with (length (reqs h) - 1)%nat by lia; exact Iq|]. split; auto.
  destruct (allowed_date r v s Or I Al) as (J & _). destruct (allowed_real r v s Or I Al) as (IW & _).
  pose proof (in_window_end r v s (proj2 (proj2 Or) v I) IW) as En.
  destruct (booked_good h q t Iv Iq' Bq) as (J2 & Sd2 & En2). assert (d = r_dur q) by (destruct Bq as (_ & _ & X); congruence). subst d.
  pose proof (C111_conflict_test s (r_dur r) t (r_dur q) _ _ J J2 (proj1 (proj2 Or)) Sd2 (in_days_convert _) (in_days_convert _) En En2) as X.
  rewrite M in X. pose proof (overlap_shift (value s) (middle_start r v) (real_days (r_dur r)) (value t) (real_days (r_dur q))) as Y. pose proof tick_small. lra.
Qed.

Theorem C115_insertion_maximal :
  forall f rnd h n h', reachable h -> In f insertion_functions -> f rnd h n = Ok h' ->
    (Z.of_nat (length (reqs h)) <= n)%Z ->
    forall r v, In r (reqs h') -> r_sched r = false -> r_look r = NoLook -> In v (r_vtws r) ->
      roomy r v (middle_start r v) ->
      exists q t, In q (removelast (reqs h')) /\ booked_at q t /\
        - 2 * tick <= overlap (middle_start r v) (real_days (r_dur r)) (value t) (real_days (r_dur q)).
Proof.
  intros f rnd h n h' R I H Hn r v Ir S NL Iv Ro. pose proof (reachable_inv h R) as Inv.
  assert (G : forall g, invariant g -> length (reqs g) = length (reqs h) -> insert_first_n g n = Ok h' ->
     exists q t, In q (removelast (reqs h')) /\ booked_at q t /\ - 2 * tick <= overlap (middle_start r v) (real_days (r_dur r)) (value t) (real_days (r_dur q))).
  { intros g Ig Lg E. unfold insert_first_n in E. pose proof (insert_invariant _ _ _ _ E Ig) as Ih. pose proof Ig as ((C1 & _) & Vg & _).
    apply In_nth_error in Ir. destruct Ir as (i & Ni). eapply done_overlap; eauto. eapply (insert_loop_done _ _ _ _ E).
    - right. rewrite seq_length, C1, Lg. exact Hn.
    - exact C1.
    - now apply valid_filled.
    - apply in_seq. split; [lia|]. pose proof (insert_loop_step _ _ _ _ E) as (F & _). apply Forall2_len in F. assert (i < length (reqs h'))%nat by (apply nth_error_Some; congruence). lia. }
  cbn in I. destruct I as [<-|[<-|[<-|[]]]].
  - destruct (sorted_handler (fun x y => (r_prio y <? r_prio x)%Z) h (proj1 Inv)) as (C1 & Ev1). apply (G (sort_by_decreasing_priority h)); auto.
    + eapply evolves_invariant; eauto.
    + symmetry. apply Permutation_length. apply py_sorted_perm.
  - destruct (sorted_handler (fun x y => (length (r_vtws x) <? length (r_vtws y))%nat) h (proj1 Inv)) as (C1 & Ev1). apply (G (sort_by_increasing_opportunity h)); auto.
    + eapply evolves_invariant; eauto.
    + symmetry. apply Permutation_length. apply py_sorted_perm.
  - unfold minimum_conflict_insertion in H. apply bind_Ok in H. destruct H as (g & E & H). apply sort_vtws_conflict_spec in E. destruct E as (F & E1 & E2).
    apply (G g); auto; [|symmetry; eapply Forall2_len; eauto].
    assert (Cg : counters_ok g) by (eapply counters_reorder; eauto; apply Inv).
    eapply evolves_invariant; [exact Cg| |exact Inv]. apply evolves_pos. eapply Forall2_impl'; [exact reorder_op|exact F].
Qed.

(** ** Concrete cases *)
Definition at_tick (n k : Z) : float := fadd (of_Z n) (fdiv (of_Z k) (of_Z 2147483648)).
Lemma at_tick_ok n k : (2200000 <= n <= 3900000)%Z -> (0 <= k <= 1000)%Z -> finite (at_tick n k) /\ value (at_tick n k) = IZR n + IZR k * tick.
Proof.
  intros N K. destruct (of_Z_ok k ltac:(lia)) as (F1 & V1). destruct (of_Z_ok 2147483648 ltac:(lia)) as (F4 & V4). destruct (of_Z_ok n ltac:(lia)) as (F5 & V5).
  assert (Kr : 0 <= IZR k <= 1000) by (split; apply IZR_le; lia). assert (Nr : 2200000 <= IZR n <= 3900000) by (split; apply IZR_le; lia).
  destruct (fdiv_ok (of_Z k) (of_Z 2147483648) F1) as (Fw & Vw); [rewrite V4; lra|rewrite V1, V4; apply small_abs, Rabs_le; lra|].
  rewrite V1, V4, rnd_fmt in Vw by (replace (IZR k / 2147483648) with (IZR k * bpow radix2 (-31)) by (cbn; lra); apply fmt_int; lia).
  destruct (fadd_ok (of_Z n) (fdiv (of_Z k) (of_Z 2147483648)) F5 Fw) as (Ft & Vt); [rewrite V5, Vw; apply small_abs, Rabs_le; lra|].
  rewrite V5, Vw, rnd_fmt in Vt by (replace (IZR n + IZR k / 2147483648) with (IZR (n * 2147483648 + k) * bpow radix2 (-31)) by (rewrite plus_IZR, mult_IZR; cbn; lra); apply fmt_int; lia).
  split; [exact Ft|]. unfold at_tick. rewrite Vt. unfold tick. lra.
Qed.
Lemma at_tick_date n k : (2200000 <= n <= 3900000)%Z -> (0 <= k <= 1000)%Z -> ordinary_date (at_tick n k).
Proof.
  intros N K. destruct (at_tick_ok n k N K) as (F & V). assert (Kr : 0 <= IZR k <= 1000) by (split; apply IZR_le; lia). assert (Nr : 2200000 <= IZR n <= 3900000) by (split; apply IZR_le; lia).
  pose proof tick_small as T. assert (0 <= IZR k * tick <= 1) by (split; nra). split; [split; [exact F|]|]; rewrite V; lra.
Qed.
Definition window_of (n m k : Z) : vtw := mkVtw (at_tick n k) (at_tick m k) (mkAtt [] [] Udeg).
Lemma window_of_ok n m k : (2200000 <= n < m)%Z -> (m <= n + 1000)%Z -> (m <= 3900000)%Z -> (0 <= k <= 1000)%Z -> ordinary_window (window_of n m k).
Proof.
  intros N L M K. split; [apply at_tick_date; cbn; lia|]. split; [apply at_tick_date; cbn; lia|]. split; [|intros t []].
  cbn [window_of v_rise v_set]. destruct (at_tick_ok n k ltac:(lia) K) as (_ & ->). destruct (at_tick_ok m k ltac:(lia) K) as (_ & ->).
  assert (IZR m <= IZR n + 1000) by (rewrite <- plus_IZR; apply IZR_le; lia). lra.
Qed.
Definition ask (dur : float) (prio : Z) (v : vtw) : operation := OpAdd 0 (of_Z 2460000) dur prio 1 NoLook [v].
Lemma ask_ok dur prio v : some_seconds dur -> ordinary_window v -> ordinary_operation (ask dur prio v).
Proof.
  intros S W. cbn [ask ordinary_operation]. split; [apply jd_int; lia|]. split; [exact S|]. intros w [<-|[]]. exact W.
Qed.
Definition after (os : list operation) : res handler := run_history os empty_handler.
(** Two requests of ten minutes in the same window: the more important one is booked. *)
Definition two_asks : list operation := [ask (of_Z 600) 1 (window_of 2451544 2451546 0); ask (of_Z 600) 2 (window_of 2451544 2451546 0)].
Lemma two_asks_ok : Forall ordinary_operation two_asks.
Proof.
  unfold two_asks. apply Forall_cons; [|apply Forall_cons; [|apply Forall_nil]]; (apply ask_ok; [apply seconds_int|apply window_of_ok]; lia).
Qed.
Example C113_case : exists h, reachable h /\ map r_sched (reqs h) = [true; false] /\ map r_prio (reqs h) = [2; 1]%Z.
Proof.
  assert (C : match after (two_asks ++ [OpInitialize]) with Ok h => (map r_sched (reqs h), map r_prio (reqs h)) | Raise _ => ([], []) end = ([true; false], [2; 1]%Z)) by (vm_compute; reflexivity).
  destruct (after (two_asks ++ [OpInitialize])) as [h|] eqn:E; [|discriminate]. exists h. injection C as C1 C2. split; [|auto].
  exists (two_asks ++ [OpInitialize]). split; [|exact E]. apply Forall_app. split; [exact two_asks_ok|]. apply Forall_cons; [exact Logic.I|apply Forall_nil].
Qed.
Example C115_case : exists h h' r v, reachable h /\ greedy_insertion h 2 = Ok h' /\ length (reqs h) = 2%nat /\
  In r (reqs h') /\ r_sched r = false /\ r_look r = NoLook /\ In v (r_vtws r) /\ roomy r v (middle_start r v).
Proof.
  assert (C : match after two_asks with Ok h => length (reqs h) | Raise _ => O end = 2%nat) by (vm_compute; reflexivity).
  destruct (after two_asks) as [h|] eqn:E; [|discriminate]. exists h.
  assert (Eh : h = mkH [new_request 0 (of_Z 2460000) (of_Z 600) 1 1 NoLook [window_of 2451544 2451546 0]; new_request 0 (of_Z 2460000) (of_Z 600) 2 1 NoLook [window_of 2451544 2451546 0]] 2 0).
  { unfold after, two_asks, ask in E. cbn [run_history run_operation] in E. unfold add_request, empty_handler in E. cbn [reqs h_n h_nsched app] in E. congruence. }
  assert (D : match greedy_insertion h 2 with Ok h' => map r_sched (reqs h') | Raise _ => [] end = [true; false]) by (rewrite Eh; vm_compute; reflexivity).
  destruct (greedy_insertion h 2) as [h'|] eqn:G; [|discriminate]. exists h'.
  assert (R : reachable h) by (exists two_asks; split; [exact two_asks_ok|exact E]).
  destruct (reqs h') as [|r1 [|r [|r3 l]]] eqn:L; try discriminate. cbn [map] in D. injection D as D1 D2.
  assert (Ir : In r (reqs h')) by (rewrite L; right; now left).
  destruct (C113_insertion_keeps_bookings (fun _ => greedy_insertion) (fun i => i) h 2 h' R (or_introl eq_refl) G) as (k & P & F).
  destruct (Forall2_In_r _ _ _ _ F Ir) as (q & Iq & (_ & Q2 & Q3 & _ & Q5 & Q6 & Q7) & _). apply (Permutation_in _ (Permutation_sym P)) in Iq. rewrite Eh in Iq. cbn [reqs] in Iq.
  assert (Q : r_deadline q = of_Z 2460000 /\ r_dur q = of_Z 600 /\ r_qual q = 1%Z /\ r_look q = NoLook /\ r_vtws q = [window_of 2451544 2451546 0]) by (destruct Iq as [<-|[<-|[]]]; repeat split).
  destruct Q as (K1 & K2 & K3 & K4 & K5). exists r, (window_of 2451544 2451546 0). rewrite K1 in Q2. rewrite K2 in Q3. rewrite K3 in Q5. rewrite K4 in Q6. rewrite K5 in Q7.
  split; auto. split; auto. split; [rewrite Eh; reflexivity|]. split; [try rewrite L; right; now left|]. split; auto. split; auto.
  split; [eapply Permutation_in; [exact Q7|now left]|].
  unfold roomy, middle_start, exact_quality, real_days. rewrite Q2, Q3, Q5. cbn [window_of v_rise v_set].
  destruct (at_tick_ok 2451544 0 ltac:(lia) ltac:(lia)) as (_ & ->). destruct (at_tick_ok 2451546 0 ltac:(lia) ltac:(lia)) as (_ & ->).
  destruct (of_Z_ok 600 ltac:(lia)) as (_ & ->). destruct (of_Z_ok 2460000 ltac:(lia)) as (_ & ->). pose proof tick_small as T. rewrite Rmult_0_l, !Rplus_0_r.
  split; [lra|]. split; [lra|]. split; [lra|].
  replace ((2451544 + 2451546 + 600 / 86400) / 2 - (2451544 + 2451546) / 2) with (1 / 288) by lra. rewrite Rabs_pos_eq by lra. lra.
Qed.

(** C114, refuted: "no overlap at all".  Two observations of 50 microseconds in windows one tick
    apart are booked so that they overlap by a quarter of a tick. *)
Definition blink : float := fdiv (of_Z 432000) (of_Z 8589934592).
Lemma blink_ok : some_seconds blink /\ value blink = 432000 / 8589934592.
Proof.
  destruct (of_Z_ok 432000 ltac:(lia)) as (F2 & V2). destruct (of_Z_ok 8589934592 ltac:(lia)) as (F3 & V3).
  destruct (fdiv_ok (of_Z 432000) (of_Z 8589934592) F2) as (Fd & Vd); [rewrite V3; lra|rewrite V2, V3; apply small_abs, Rabs_le; lra|].
  rewrite V2, V3, rnd_fmt in Vd by (replace (432000 / 8589934592) with (IZR 432000 * bpow radix2 (-33)) by (cbn; lra); apply fmt_int; lia).
  split; [split; [apply moderate_pos; [exact Fd|]|]; unfold blink; rewrite Vd; lra|exact Vd].
Qed.
Definition two_blinks : list operation := [ask blink 2 (window_of 2451544 2451546 0); ask blink 1 (window_of 2451544 2451546 1)].
Theorem C114_disjoint_refuted :
  exists h h' r r' s s', reachable h /\ (forall x, In x (reqs h) -> r_sched x = false) /\ initialize_solution h = Ok h' /\
    reqs h' = [r; r'] /\ booked_at r s /\ booked_at r' s' /\ 0 < overlap_of r s r' s'.
Proof.
  destruct (after two_blinks) as [h|] eqn:E; [|exfalso; revert E; unfold after, two_blinks, ask; cbn [run_history run_operation]; congruence].
  assert (Eh : h = mkH [new_request 0 (of_Z 2460000) blink 2 1 NoLook [window_of 2451544 2451546 0]; new_request 0 (of_Z 2460000) blink 1 1 NoLook [window_of 2451544 2451546 1]] 2 0).
  { unfold after, two_blinks, ask in E. cbn [run_history run_operation] in E. unfold add_request, empty_handler in E. cbn [reqs h_n h_nsched app] in E. congruence. }
  assert (Fo : Forall ordinary_operation two_blinks) by (unfold two_blinks; apply Forall_cons; [|apply Forall_cons; [|apply Forall_nil]]; (apply ask_ok; [apply blink_ok|apply window_of_ok; lia])).
  assert (R : reachable h) by (exists two_blinks; split; [exact Fo|exact E]).
  assert (D : match initialize_solution h with
              | Ok h' => match reqs h' with
                         | [r; r'] => match r_start r, r_start r' with
                                      | Some s, Some s' => r_sched r && r_sched r' && feq s (at_tick 2451545 1) && feq s' (at_tick 2451545 2)
                                      | _, _ => false
                                      end
                         | _ => false
                         end
              | Raise _ => false
              end = true) by (rewrite Eh; vm_compute; reflexivity).
  destruct (initialize_solution h) as [h'|] eqn:G; [|discriminate].
  destruct (reqs h') as [|r [|r' [|r3 l]]] eqn:L; try discriminate. destruct (r_start r) as [s|] eqn:S; [|discriminate]. destruct (r_start r') as [s'|] eqn:S'; [|discriminate].
  apply andb_true_iff in D. destruct D as (D & D4). apply andb_true_iff in D. destruct D as (D & D3). apply andb_true_iff in D. destruct D as (D1 & D2).
  assert (Iv : invariant h').
  { apply reachable_inv. exists (two_blinks ++ [OpInitialize]). split; [apply Forall_app; split; [exact Fo|apply Forall_cons; [exact Logic.I|apply Forall_nil]]|].
    change (after (two_blinks ++ [OpInitialize]) = Ok h'). unfold after, two_blinks, ask in E |- *. cbn [app run_history run_operation] in E |- *. injection E as E. rewrite E, G. reflexivity. }
  assert (B : forall x t, In x (reqs h') -> r_sched x = true -> r_start x = Some t -> booked_at x t).
  { intros x t I Sx Tx. split; auto. split; auto. apply (proj1 (proj2 Iv) x I Sx). }
  assert (Br : booked_at r s) by (apply B; auto; rewrite L; now left). assert (Br' : booked_at r' s') by (apply B; auto; rewrite L; right; now left).
  exists h, h', r, r', s, s'. split; auto. split; [rewrite Eh; cbn [reqs]; intros x [<-|[<-|[]]]; reflexivity|]. split; auto. split; auto. split; auto. split; auto.
  assert (Du : forall x, In x (reqs h') -> r_dur x = blink).
  { intros x I. destruct (operation_spec OpInitialize h h' (proj1 (reachable_inv h R)) G) as (_ & [(k & P & F)|(? & ? & ? & ? & ? & ? & ? & X & _)]); [|discriminate].
    destruct (Forall2_In_r _ _ _ _ F I) as (q & Iq & ((_ & _ & -> & _) & _)). apply (Permutation_in _ (Permutation_sym P)) in Iq. rewrite Eh in Iq. destruct Iq as [<-|[<-|[]]]; reflexivity. }
  destruct (at_tick_ok 2451545 1 ltac:(lia) ltac:(lia)) as (F1 & V1). destruct (at_tick_ok 2451545 2 ltac:(lia) ltac:(lia)) as (F2 & V2).
  destruct (booked_good h' r s Iv ltac:(rewrite L; now left) Br) as ((Fs & _) & _). destruct (booked_good h' r' s' Iv ltac:(rewrite L; right; now left) Br') as ((Fs' & _) & _).
  apply feq_iff in D3; auto. apply feq_iff in D4; auto. unfold overlap_of, real_days. rewrite (Du r), (Du r') by (rewrite L; cbn; tauto).
  rewrite D3, D4, V1, V2. destruct blink_ok as (_ & ->). unfold overlap, tick. rewrite Rmin_left, Rmax_right by lra. lra.
Qed.
(** The same history shows that the hypotheses of C114 hold of something. *)
Example C114_case : exists h h', reachable h /\ (forall x, In x (reqs h) -> r_sched x = false) /\ initialize_solution h = Ok h' /\
  exists r r' s s', reqs h' = [r; r'] /\ booked_at r s /\ booked_at r' s'.
Proof. destruct C114_disjoint_refuted as (h & h' & r & r' & s & s' & A & B & C & D & E & F & _). exists h, h'. split; auto. split; auto. split; auto. exists r, r', s, s'. auto. Qed.

Print Assumptions C113_bookings_satisfy_constraints.
Print Assumptions C113_insertion_keeps_bookings.
Print Assumptions C114_initial_solution.
Print Assumptions C114_insertion_partial.
Print Assumptions C114_removals.
Print Assumptions C114_disjoint_refuted.
Print Assumptions C115_insertion_maximal.
