(** End-to-end properties of Scheduler.generate (C21, C36-C39, C42, C76). *)
From Coq Require Import List ZArith QArith Bool Arith Permutation Lia Lqa Lra Reals Qreals.
From Verif Require Import Py PyLemmas Sched_Model Sched_Spec Sched_Proofs Sched_Proofs2
  Sched_Proofs3 Sched_Proofs4 Sched_Props Alns_Model Alns_Spec Alns_Proofs Alns_Proofs2
  Alns_Props Gen_Model Gen_Spec Gen_Proofs.
Import ListNotations.
Open Scope nat_scope.
Open Scope list_scope.

(** C37. Every window returned by [generate] serves a request of its own: the handler's
    requests can be split into some served ones, matching the windows one to one, and the
    rest. *)
Theorem C37_windows_honour_requests :
  forall exceeds h max_iter annealing react ds h' ws, reachable h ->
    generate exceeds h max_iter annealing react ds = Ok (h', ws) ->
    exists served rest, Permutation (reqs h) (served ++ rest) /\ Forall2 serves served ws.
Proof.
  intros ex h mi an re ds h' ws R H. unfold generate in H.
  apply bind_Ok in H. destruct H as (((h1, best), log) & Es & H). cbn in H.
  apply bind_Ok in H. destruct H as (ws' & Ee & H). injection H as <- E. subst ws'.
  destruct (search_inv _ _ _ _ _ _ _ _ _ R Es) as (_ & Sb & _).
  destruct (emit_split _ _ _ Sb Ee) as (served & rest & P & F & _). eauto.
Qed.

(** Four requests for which a run returns overlapping observations. *)
Definition four_requests : handler :=
  run [OpAdd 0 1000 day 7 1 NoLook [win 0 10; win 20 30; win 60 70];
       OpAdd 1 1000 day 5 1 NoLook [win 20 30];
       OpAdd 2 1000 day 8 1 NoLook [win 20 30; win 40 50; win 0 10];
       OpAdd 3 1000 day 2 1 NoLook [win 40 50; win 0 10]].
Definition four_draws (k : nat) : draws :=
  match k with
  | O => mkDraws (5 # 8) (3 # 8) (1 # 2) (fun _ => 2) (fun _ => 0)
  | _ => mkDraws 0 (1 # 8) (1 # 2) (fun _ => 4) (fun _ => 0)
  end.
Example C37_example :
  exists h' ws, generate exceeds_exp four_requests 0 (1 # 2) (1 # 2) four_draws = Ok (h', ws) /\ length ws = 2.
Proof. do 2 eexists. split; [vm_compute; reflexivity|reflexivity]. Qed.

(** C21. End to end: a run of [generate] on four requests returns two observations that
    overlap. *)
Definition four_oracle (u x : Q) : bool := Qleb x (-1).
Definition four_handler : handler :=
  match initialize_solution four_requests with Ok h => h | Raise _ => empty_handler end.
Definition four_search : res (handler * list (entry handler)) :=
  solve (schedule_problem four_oracle) four_handler 100 (1 # 2) (1 # 2) 1 4 four_draws.
Definition four_best : handler := match four_search with Ok (b, _) => b | Raise _ => empty_handler end.
Definition four_log : list (entry handler) := match four_search with Ok (_, l) => l | Raise _ => [] end.

Lemma exceeds_zero u x : (u < 1)%Q -> (x == 0)%Q -> exceeds_exp u x = false.
Proof.
  intros U X. unfold exceeds_exp. destruct (Rlt_dec _ _) as [L|L]; auto. exfalso.
  apply Qlt_Rlt in U. rewrite (Qeq_eqR _ _ X) in L.
  assert (Q2R 0 = 0)%R as E0 by (unfold Q2R; cbn; lra). assert (Q2R 1 = 1)%R as E1 by (unfold Q2R; cbn; lra).
  rewrite E0, exp_0 in L. rewrite E1 in U. lra.
Qed.

Definition easy (e : entry handler) : bool :=
  match cost (e_current e), cost (e_candidate e) with
  | Ok cc, Ok ct =>
      let cc := inject_Z cc in let ct := inject_Z ct in
      if Qltb ct cc then true
      else let x := (100 * (ct - cc) / (e_temperature e * cc))%Q in Qeqb x 0 || Qleb x (-1)
  | _, _ => true
  end.
Lemma easy_same e d : easy e = true -> (d_accept d == 1 # 2)%Q ->
  same_answer (fun h => rmap inject_Z (cost h)) four_oracle exceeds_exp d e.
Proof.
  intros H U cc ct Ec Et L. unfold easy in H. destruct (cost (e_current e)) as [a|]; [|discriminate].
  destruct (cost (e_candidate e)) as [b|]; [|discriminate]. cbn in Ec, Et. injection Ec as <-. injection Et as <-.
  rewrite L in H. cbv zeta in H. unfold four_oracle. apply orb_prop in H.
  destruct (Qleb _ (-1)) eqn:X.
  - symmetry. apply exceeds_small; qb; auto. rewrite U. Lqa.lra.
  - destruct H as [H|H]; [|discriminate]. symmetry. apply exceeds_zero; qb; auto. rewrite U. reflexivity.
Qed.
Lemma four_run : solve (schedule_problem exceeds_exp) four_handler 100 (1 # 2) (1 # 2) 1 4 four_draws = Ok (four_best, four_log).
Proof.
  apply (solve_congr (fun h => rmap inject_Z (cost h)) is_complete removal_functions insertion_functions four_oracle exceeds_exp).
  - change (four_search = Ok (four_best, four_log)).
    assert (match four_search with Ok _ => true | Raise _ => false end = true) as X by (vm_compute; reflexivity).
    unfold four_best, four_log. destruct four_search as [(b, l)|]; [reflexivity|discriminate].
  - intros m e N. apply easy_same.
    + assert (A : forallb easy four_log = true) by (vm_compute; reflexivity).
      apply (proj1 (forallb_forall _ _) A). eapply nth_error_In; eauto.
    + destruct m; reflexivity.
Qed.
Theorem C21_generate_overlap_refuted :
  exists h ds h' ws i j w w', reachable h /\
    (forall k, unit_draw (d_destroy (ds k)) /\ unit_draw (d_repair (ds k)) /\ unit_draw (d_accept (ds k))) /\
    generate exceeds_exp h 100 (1 # 2) (1 # 2) ds = Ok (h', ws) /\
    i <> j /\ nth_error ws i = Some w /\ nth_error ws j = Some w' /\ observations_overlap w w'.
Proof.
  exists four_requests, four_draws, four_handler.
  set (ws := match emit four_best with Ok l => l | Raise _ => [] end). exists ws, 1, 2.
  exists (nth 1 ws (mkObs 0 0 0 (mkAtt [] [] [] [] 0))), (nth 2 ws (mkObs 0 0 0 (mkAtt [] [] [] [] 0))).
  split; [apply run_reachable; vm_compute; reflexivity|].
  split; [intros [|k]; repeat split; vm_compute; try discriminate; reflexivity|].
  split.
  - unfold generate, search.
    assert (h_n four_requests =? 0 = false) as -> by (vm_compute; reflexivity).
    assert (initialize_solution four_requests = Ok four_handler) as ->.
    { assert (match initialize_solution four_requests with Ok _ => true | Raise _ => false end = true) as X by (vm_compute; reflexivity).
      unfold four_handler. destruct (initialize_solution four_requests); [reflexivity|discriminate]. }
    cbn [bind]. assert (h_n four_handler = 4) as -> by (vm_compute; reflexivity).
    change (quarter 4) with 1%Z. change (Z.of_nat 4) with 4%Z. rewrite four_run. cbn [bind fst snd].
    assert (emit four_best = Ok ws) as ->; [|reflexivity].
    assert (match emit four_best with Ok _ => true | Raise _ => false end = true) as X by (vm_compute; reflexivity).
    unfold ws. destruct (emit four_best); [reflexivity|discriminate].
  - split; [discriminate|]. split; [vm_compute; reflexivity|]. split; [vm_compute; reflexivity|].
    exists (51 # 2)%Q. repeat split; vm_compute; congruence.
Qed.

(** C38. Exactly the scheduled requests of the best solution other than its last one are
    returned, in order, and emission cannot fail. *)
Theorem C38_scheduled_emitted_partial :
  forall exceeds h max_iter annealing react ds h1 best log, reachable h ->
    search exceeds h max_iter annealing react ds = Ok (h1, best, log) ->
    exists ws, generate exceeds h max_iter annealing react ds = Ok (h1, ws) /\
      Forall2 (fun r w => serves r w /\ r_start r = Some (o_start w)) (filter r_sched (removelast (reqs best))) ws.
Proof.
  intros ex h mi an re ds h1 best log R Es.
  destruct (search_inv _ _ _ _ _ _ _ _ _ R Es) as (_ & Sb & _).
  destruct (emit_total _ _ Sb) as (ws & Ee). exists ws. unfold generate. rewrite Es. cbn [bind fst snd].
  rewrite Ee. split; [reflexivity|]. destruct (emit_spec _ _ _ Sb Ee) as (l & -> & F).
  clear - F. induction F as [|r w l ws (H1 & H2 & _) F IH]; constructor; auto.
Qed.
(** A scheduler with one request never returns anything, although the request has been
    scheduled whenever possible. *)
Theorem C38_scheduled_emitted_refuted :
  forall exceeds h max_iter annealing react ds h' ws, reachable h -> length (reqs h) = 1 ->
    generate exceeds h max_iter annealing react ds = Ok (h', ws) -> ws = [].
Proof.
  intros ex h mi an re ds h' ws R L H. unfold generate in H.
  apply bind_Ok in H. destruct H as (((h1, best), log) & Es & H). cbn in H.
  apply bind_Ok in H. destruct H as (ws' & Ee & H). injection H as <- E. subst ws'.
  destruct (search_inv _ _ _ _ _ _ _ _ _ R Es) as (_ & Sb & _).
  destruct (emit_spec _ _ _ Sb Ee) as (l & -> & F).
  destruct Sb as (_ & _ & _ & m & Pm & Fm). apply Permutation_length in Pm.
  destruct (reqs best) as [|q [|q' qs]]; cbn in F; try (now inversion F).
  exfalso. inversion Fm as [|? ? ? ? _ F2]; subst. inversion F2; subst. cbn in Pm. lia.
Qed.
Example C38_refuted_example :
  exists h' r, generate exceeds_exp (run [add_A]) 100 (1 # 2) (1 # 2) four_draws = Ok (h', []) /\
    reqs h' = [r] /\ r_sched r = true.
Proof. do 2 eexists. split; [vm_compute; reflexivity|split; reflexivity]. Qed.

(** C39. Refuted for every schedule: the attitude of a returned window is empty. *)
Theorem C39_attitude_empty_refuted :
  forall exceeds h max_iter annealing react ds h' ws w, reachable h ->
    generate exceeds h max_iter annealing react ds = Ok (h', ws) -> In w ws ->
    a_time (o_att w) = [] /\ a_roll (o_att w) = [] /\ a_pitch (o_att w) = [] /\ a_yaw (o_att w) = [].
Proof.
  intros ex h mi an re ds h' ws w R H I. unfold generate in H.
  apply bind_Ok in H. destruct H as (((h1, best), log) & Es & H). cbn in H.
  apply bind_Ok in H. destruct H as (ws' & Ee & H). injection H as <- E. subst ws'.
  destruct (search_inv _ _ _ _ _ _ _ _ _ R Es) as (_ & Sb & _).
  destruct (emit_spec _ _ _ Sb Ee) as (l & -> & F).
  destruct (Forall2_In_r _ _ _ _ F I) as (r & _ & _ & _ & X). exact X.
Qed.

(** C76. A returned schedule cannot be saved. *)
Theorem C76_saving_fails_refuted :
  forall exceeds h max_iter annealing react ds h' ws, reachable h ->
    generate exceeds h max_iter annealing react ds = Ok (h', ws) ->
    observation_rows ws = Raise (match ws with [] => PyException | _ => IndexError end).
Proof.
  intros ex h mi an re ds h' ws R H. destruct ws as [|w ws]; [reflexivity|].
  destruct (C39_attitude_empty_refuted _ _ _ _ _ _ _ _ w R H (or_introl eq_refl)) as (_ & E & _).
  unfold observation_rows. cbn [mapM]. rewrite E. reflexivity.
Qed.

(** C42. The returned windows are worth at least as much as the initial solution without
    its last request. *)
Theorem C42_at_least_initial_partial :
  forall exceeds h max_iter annealing react ds h' ws, reachable h ->
    generate exceeds h max_iter annealing react ds = Ok (h', ws) ->
    initialize_solution h = Ok h' /\
    exists served rest, Permutation (reqs h) (served ++ rest) /\ Forall2 serves served ws /\
      (value (removelast (reqs h')) <= worth served)%Z.
Proof.
  intros ex h mi an re ds h' ws R H. unfold generate in H.
  apply bind_Ok in H. destruct H as (((h1, best), log) & Es & H). cbn in H.
  apply bind_Ok in H. destruct H as (ws' & Ee & H). injection H as <- E. subst ws'.
  destruct (search_inv _ _ _ _ _ _ _ _ _ R Es) as (S1 & Sb & R1 & Ei & Eso). split; auto.
  destruct (emit_split _ _ _ Sb Ee) as (served & rest & P & F & W). exists served, rest. split; auto. split; auto.
  destruct (C31_never_worse_than_initial _ _ _ _ _ _ _ _ _ _ _ Eso) as (cb & c0 & Eb & E0 & L).
  cbn in E0, Eb. rewrite (cost_of_solution _ _ S1) in E0. rewrite (cost_of_solution _ _ Sb) in Eb. cbn in E0, Eb.
  injection E0 as <-. injection Eb as <-. rewrite <- Zle_Qle in L. lia.
Qed.
Theorem C42_at_least_initial_refuted :
  exists h h' ws, reachable h /\ generate exceeds_exp h 100 (1 # 2) (1 # 2) four_draws = Ok (h', ws) /\
    value (reqs h') = 5%Z /\ ws = [].
Proof.
  exists (run [add_A]). do 2 eexists. split; [apply run_reachable; vm_compute; reflexivity|].
  split; [vm_compute; reflexivity|split; reflexivity].
Qed.
Example C42_example :
  exists h' ws, generate exceeds_exp four_requests 0 (1 # 2) (1 # 2) four_draws = Ok (h', ws) /\
    value (removelast (reqs h')) = 15%Z.
Proof. do 2 eexists. split; [vm_compute; reflexivity|reflexivity]. Qed.

(** C36. End to end: with an infeasible and a feasible request the search divides by a
    zero cost. *)
Theorem C36_generate_fails_refuted :
  exists h ds, reachable h /\
    (forall k, unit_draw (d_destroy (ds k)) /\ unit_draw (d_repair (ds k)) /\ unit_draw (d_accept (ds k))) /\
    generate exceeds_exp h 100 (8 # 10) (5 # 10) ds = Raise ZeroDivisionError.
Proof.
  exists (run [add_A; add_Z]), (fun _ => mkDraws 0 0 0 (fun _ => 0) (fun _ => 0)).
  split; [apply run_reachable; vm_compute; reflexivity|].
  split; [intros k; repeat split; vm_compute; congruence|]. vm_compute. reflexivity.
Qed.

Print Assumptions C21_generate_overlap_refuted.
Print Assumptions C36_generate_fails_refuted.
Print Assumptions C37_windows_honour_requests.
Print Assumptions C38_scheduled_emitted_partial.
Print Assumptions C38_scheduled_emitted_refuted.
Print Assumptions C39_attitude_empty_refuted.
Print Assumptions C42_at_least_initial_partial.
Print Assumptions C76_saving_fails_refuted.
