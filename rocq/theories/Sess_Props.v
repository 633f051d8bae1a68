(** Properties of sessions with a scheduler (C105-C107). *)
From Coq Require Import List ZArith QArith Bool Arith Permutation Lia.
From Verif Require Import Py PyLemmas Sched_Model Sched_Spec Sched_Proofs Sched_Proofs2 Sched_Proofs4
  Vtw_Model Vtw_Spec Vtw_Proofs Alns_Model Alns_Spec Gen_Model Gen_Spec Gen_Proofs Sess_Model Sess_Spec Sess_Proofs.
Import ListNotations.
Open Scope nat_scope.
Open Scope list_scope.

(** C105. Whatever was called before, also calls that raised: the observations returned by a
    call of [generate] answer distinct accepted requests, each with an observation of the
    place and duration asked for, over before the deadline, inside a window computed for that
    place and light, of the quality asked for. *)
Theorem C105_observations_answer_requests :
  forall satellite threshold cs k ws,
    nth_error (answers satellite threshold cs) k = Some (Windows ws) ->
    exists served rest,
      Permutation (accepted_asks (firstn k cs) (firstn k (answers satellite threshold cs))) (served ++ rest) /\
      Forall2 (fulfils satellite threshold) served ws.
Proof.
  intros sat th cs k ws H. unfold answers in *.
  destruct (session_at sat th cs [] _ k _ (good_new sat th) H) as (c & s1 & s2 & N & D & G). cbn [app] in G.
  destruct c as [a|ex mi an re ds]; cbn [do_call] in D.
  - destruct (scheduler_add s1 a); discriminate.
  - destruct (scheduler_generate ex s1 mi an re ds) as (s3, [ws'|e]) eqn:E; [|discriminate]. injection D as _ ->.
    eapply good_windows; eauto.
Qed.

(** No request is lost, doubled or altered: after any session the scheduler holds the accepted
    requests, in some order. *)
Theorem C105_requests_kept :
  forall satellite threshold cs,
    let after := session cs (mkScheduler satellite threshold empty_handler) in
    exists l, Permutation (accepted_asks cs (snd after)) l /\ Forall2 recorded l (reqs (sch_handler (fst after))).
Proof.
  intros sat th cs after.
  assert (K : forall cs asks s, good sat th asks s -> good sat th (asks ++ accepted_asks cs (snd (session cs s))) (fst (session cs s))).
  { clear. induction cs as [|c cs IH]; intros asks s G; cbn [session]; [cbn; now rewrite app_nil_r|].
    destruct (do_call c s) as (s1, a) eqn:E. specialize (IH _ _ (good_call _ _ _ _ _ _ _ G E)). destruct (session cs s1) as (s2, l). cbn [fst snd] in *.
    now rewrite accepted_cons, app_assoc. }
  destruct (K cs [] _ (good_new sat th)) as (_ & _ & _ & l & P & F). cbn [app] in P. exists l. split; auto. fold after in F.
  clear - F. induction F as [|a r l m (ws & _ & (L1 & L2 & L3 & L4 & L5 & L6 & _)) F IH]; constructor; auto. repeat split; auto.
Qed.

(** A new scheduler needs a satellite and a number. *)
Theorem C105_construction :
  forall is_satellite is_number satellite threshold,
    match new_scheduler is_satellite is_number satellite threshold with
    | Ok s => is_satellite = true /\ is_number = true /\ s = mkScheduler satellite threshold empty_handler
    | Raise e => e = TypeError /\ (is_satellite = false \/ is_number = false)
    end.
Proof. intros [|] [|] sat th; cbn; auto. Qed.

(** C106. At every sample taken during a returned observation the satellite stands above the
    threshold at the place asked for, in the light asked for. *)
Theorem C106_observed_while_visible :
  forall satellite threshold cs k ws, (forall loc, times_increase (sky_samples satellite loc)) ->
    nth_error (answers satellite threshold cs) k = Some (Windows ws) ->
    exists served rest,
      Permutation (accepted_asks (firstn k cs) (firstn k (answers satellite threshold cs))) (served ++ rest) /\
      Forall2 (seen_throughout satellite threshold) served ws.
Proof.
  intros sat th cs k ws Inc H. destruct (C105_observations_answer_requests _ _ _ _ _ H) as (sv & rs & P & F). exists sv, rs. split; auto.
  clear - F Inc. induction F as [|a w sv ws (L & D & _ & vt & v & q & G & Iv & R & St & _) F IH]; constructor; auto. split; auto.
  intros s Is (T1 & T2). destruct (In_nth_error _ _ Is) as (i & N). rewrite D in T2.
  assert (X1 : (v_rise v < s_time s)%Q) by (eapply Qlt_le_trans; eauto). assert (X2 : (s_time s < v_set v)%Q) by (eapply Qle_lt_trans; eauto).
  destruct (window_qualifies _ _ _ _ _ _ v (Inc (k_loc a)) G Iv (Qlt_trans _ _ _ X1 X2) i s N X1 (Qlt_le_weak _ _ X2)) as (s' & N' & X).
  assert (s' = s) by congruence. now subst.
Qed.

(** C107. Calling [generate] again, with the same random draws, returns the same observations,
    any number of times. *)
Theorem C107_generate_repeatable :
  forall satellite threshold cs exceeds max_iter annealing react ds before ws n,
    let again := CGenerate exceeds max_iter annealing react ds in
    answers satellite threshold (cs ++ [again]) = before ++ [Windows ws] ->
    answers satellite threshold (cs ++ repeat again n) = before ++ repeat (Windows ws) n.
Proof.
  intros sat th cs ex mi an re ds before ws n again H. unfold answers in *.
  assert (App : forall cs cs' s, session (cs ++ cs') s = (fst (session cs' (fst (session cs s))), snd (session cs s) ++ snd (session cs' (fst (session cs s))))).
  { clear. induction cs as [|c cs IH]; intros cs' s; cbn [app session]; [cbn [fst snd app]; now destruct (session cs' s)|].
    destruct (do_call c s) as (s1, a). rewrite IH. destruct (session cs s1) as (s2, l). reflexivity. }
  assert (Gd : forall cs asks s, good sat th asks s -> exists asks', good sat th asks' (fst (session cs s))).
  { clear. induction cs as [|c cs IH]; intros asks s G; cbn [session]; [eauto|]. destruct (do_call c s) as (s1, a) eqn:E.
    destruct (IH _ _ (good_call _ _ _ _ _ _ _ G E)) as (asks' & G'). exists asks'. now destruct (session cs s1). }
  rewrite App in H |- *. cbn [snd] in H |- *. destruct (Gd cs [] _ (good_new sat th)) as (asks & G).
  set (s := fst (session cs _)) in *. clearbody s. cbn [session] in H. destruct (do_call again s) as (s1, a) eqn:E. cbn [snd] in H. apply app_inj_tail in H. destruct H as (-> & ->). f_equal.
  assert (Fix : do_call again s1 = (s1, Windows ws)).
  { unfold again in *. cbn [do_call] in *. destruct (scheduler_generate ex s mi an re ds) as (s2, [ws'|e]) eqn:Eg; [|discriminate]. injection E as -> ->.
    assert (Eg' := Eg). unfold scheduler_generate in Eg' |- *. destruct (h_n (sch_handler s) =? 0) eqn:N0; [discriminate|].
    destruct (initialize_st (sch_handler s)) as (h1, [e|]) eqn:Ei; [discriminate|]. injection Eg' as <- Es. cbn [sch_handler sch_sky sch_threshold].
    apply initialize_ok in Ei. pose proof G as (_ & _ & R & _). pose proof (initialize_twice _ _ R Ei) as T.
    assert (N1 : h_n h1 =? 0 = false).
    { rewrite <- N0. f_equal. unfold initialize_solution in Ei. cbv zeta in Ei. unfold insert_first_n in Ei. apply insert_loop_step in Ei. destruct Ei as (_ & X & _). rewrite X. reflexivity. }
    rewrite N1. apply initialize_ok in T. rewrite T. rewrite Es. reflexivity. }
  assert (Rep : forall n, snd (session (repeat again n) s1) = repeat (Windows ws) n).
  { clear - Fix. induction n as [|n IH]; cbn [repeat session]; auto. rewrite Fix. destruct (session (repeat again n) s1) as (s2, l). cbn [snd] in *. now rewrite IH. }
  destruct n as [|n]; auto. cbn [repeat session]. rewrite E. specialize (Rep n). destruct (session (repeat again n) s1) as (s2, l). cbn [snd] in *. now rewrite Rep.
Qed.

(** A satellite seen alike from every place, rising between the samples 0 and 1, setting after
    the sample 3. *)
Definition pass : list sample :=
  [mkSample 0 (-5) 10; mkSample 1 20 10; mkSample 2 60 10; mkSample 3 20 10; mkSample 4 (-5) 10; mkSample 5 (-30) 10].
Definition pass_sky : sky := mkSky true (fun _ => pass) (fun loc => mkAtt [] [] [] [] loc).
Definition low_ask : ask := mkAsk 0 100 43200 1 1 NoLook Daytime.
Definition high_ask : ask := mkAsk 1 100 43200 5 1 NoLook Daytime.
(** never served: over before it could begin *)
Definition late_ask : ask := mkAsk 2 0 43200 0 1 NoLook Daytime.
(** rejected: the place is never in the dark *)
Definition dark_ask : ask := mkAsk 2 0 43200 0 1 NoLook Night.
Definition greedy : call := CGenerate exceeds_exp 0 (1 # 2) (1 # 2) (fun _ => mkDraws 0 0 0 (fun _ => 0) (fun _ => 0)).

Example C105_case :
  exists w, answers pass_sky 10 [greedy; CAdd dark_ask; CAdd late_ask; CAdd low_ask; greedy] =
      [Failed PyException; Failed IndexError; Accepted; Accepted; Windows [w]] /\ o_loc w = 0 /\ (o_start w == 7 # 4)%Q.
Proof. eexists. split; [vm_compute; reflexivity|split; reflexivity]. Qed.
Example C106_case : forall loc, times_increase (sky_samples pass_sky loc).
Proof.
  intros loc i j s s' L A B. cbn [sky_samples pass_sky] in *. unfold pass in *.
  do 6 (destruct i as [|i]; [injection A as <-; do 6 (destruct j as [|j]; [try lia; injection B as <-; reflexivity|]); destruct j; discriminate|]). destruct i; discriminate.
Qed.

(** Refuted: the result depends on when a request was made.  The requests of an earlier
    [generate] keep their place: a more important request made later is not served, while
    it would have been, had it been made before the first [generate]. *)
Theorem C107_order_matters_refuted :
  exists satellite threshold early late run w w',
    k_prio early = 1%Z /\ k_prio late = 5%Z /\ o_loc w = k_loc early /\ o_loc w' = k_loc late /\ k_loc early <> k_loc late /\
    answers satellite threshold [CAdd late_ask; CAdd early; run; CAdd late; run] =
      [Accepted; Accepted; Windows [w]; Accepted; Windows [w]] /\
    answers satellite threshold [CAdd late_ask; CAdd early; CAdd late; run] =
      [Accepted; Accepted; Accepted; Windows [w']].
Proof.
  exists pass_sky, 10%Q, low_ask, high_ask, greedy. do 2 eexists. repeat match goal with |- _ /\ _ => split end.
  6: vm_compute; reflexivity. 6: vm_compute; reflexivity. all: try reflexivity. discriminate.
Qed.

Print Assumptions C105_observations_answer_requests.
Print Assumptions C105_requests_kept.
Print Assumptions C105_construction.
Print Assumptions C106_observed_while_visible.
Print Assumptions C107_generate_repeatable.
Print Assumptions C107_order_matters_refuted.
