(** Proofs about Scheduler.generate. *)
From Coq Require Import List ZArith QArith Bool Arith Permutation Lia Lqa Reals Qreals.
From Verif Require Import Py PyLemmas Sched_Model Sched_Spec Sched_Proofs Sched_Proofs2
  Sched_Proofs3 Sched_Proofs4 Sched_Props Alns_Model Alns_Spec Alns_Proofs Alns_Proofs2
  Alns_Props Gen_Model Gen_Spec.
Import ListNotations.
Open Scope nat_scope.
Open Scope list_scope.

(** ** The state of the best solution relative to the requests added *)

(** Invariant of every solution the search builds from the requests [l0]. *)
Definition solution_of (l0 : list request) (h : handler) : Prop :=
  counters_ok h /\ (forall r, In r (reqs h) -> valid_booking r) /\
  (forall r, In r (reqs h) -> r_sched r = true -> exists k, r_vidx r = Some k /\ k < length (r_vtws r)) /\
  exists l, Permutation l0 l /\ Forall2 same_static l (reqs h).

Lemma op_step_index r r' : op_step r r' ->
  (r_sched r = true -> exists k, r_vidx r = Some k /\ k < length (r_vtws r)) ->
  (r_sched r' = true -> exists k, r_vidx r' = Some k /\ k < length (r_vtws r')).
Proof.
  intros ((_ & _ & _ & _ & _ & _ & P) & [(E1 & _ & _ & E4)|[(S & _)|B]]) H S'.
  - rewrite E1 in S'. destruct (H S') as (k & Ek & Lk). exists k. rewrite E4. split; auto.
    now rewrite <- (Permutation_length P).
  - congruence.
  - destruct B as (_ & _ & k & v & s & Ek & _ & Nk & _). exists k. split; auto.
    apply nth_error_Some. congruence.
Qed.

Lemma solution_op l0 o h h' : solution_of l0 h -> run_operation o h = Ok h' ->
  (forall loc dl du pr qu lk ws, o <> OpAdd loc dl du pr qu lk ws) -> solution_of l0 h'.
Proof.
  intros (C & V & I & l & P & F) H NA. destruct (operation_spec o h h' C H) as (C' & [(m & Pm & Fm)|Ad]).
  2:{ destruct Ad as (loc & dl & du & pr & qu & lk & ws & -> & _). now destruct (NA loc dl du pr qu lk ws). }
  split; auto.
  assert (Vm : forall r, In r m -> valid_booking r).
  { intros r Ir. apply V. eapply Permutation_in; [symmetry; eauto|auto]. }
  assert (Im : forall r, In r m -> r_sched r = true -> exists k, r_vidx r = Some k /\ k < length (r_vtws r)).
  { intros r Ir. apply I. eapply Permutation_in; [symmetry; eauto|auto]. }
  split; [|split].
  - intros r Ir. destruct (Forall2_In_r _ _ _ _ Fm Ir) as (q & Iq & St). eapply op_step_valid; eauto.
  - intros r Ir. destruct (Forall2_In_r _ _ _ _ Fm Ir) as (q & Iq & St). eapply op_step_index; eauto.
  - destruct (Forall2_perm _ _ _ _ F Pm) as (l' & Pl & Fl). exists l'. split; [eapply perm_trans; eauto|].
    clear - Fl Fm. revert Fm. generalize (reqs h'). induction Fl; intros k Fm; inversion Fm as [|? ? ? ? St]; subst; constructor; auto.
    eapply same_static_trans; [eassumption|]. now destruct St.
Qed.

Lemma reachable_index h : reachable h ->
  forall r, In r (reqs h) -> r_sched r = true -> exists k, r_vidx r = Some k /\ k < length (r_vtws r).
Proof.
  intros (os & H). 
  assert (G : forall os h0, counters_ok h0 ->
    (forall r, In r (reqs h0) -> r_sched r = true -> exists k, r_vidx r = Some k /\ k < length (r_vtws r)) ->
    run_history os h0 = Ok h ->
    forall r, In r (reqs h) -> r_sched r = true -> exists k, r_vidx r = Some k /\ k < length (r_vtws r)).
  { clear. induction os as [|o os IH]; intros h0 C I H; cbn [run_history] in H; [now injection H as <-|].
    destruct (run_operation o h0) as [h1|] eqn:E; [|discriminate].
    destruct (operation_spec o h0 h1 C E) as (C' & [(m & Pm & Fm)|Ad]); apply (IH h1); auto.
    - intros r Ir. destruct (Forall2_In_r _ _ _ _ Fm Ir) as (q & Iq & St). eapply op_step_index; eauto.
      intros S. apply I; auto. eapply Permutation_in; [symmetry; eauto|auto].
    - destruct Ad as (loc & dl & du & pr & qu & lk & ws & _ & ->). intros r Ir S.
      apply in_app_or in Ir. destruct Ir as [Ir|[<-|[]]]; auto. discriminate. }
  apply (G os empty_handler); auto; [split; reflexivity|intros r []].
Qed.

Lemma solution_self h : reachable h -> solution_of (reqs h) h.
Proof.
  intros R. destruct (reachable_inv h R) as (C & V). split; auto. split; auto. split; [now apply reachable_index|].
  exists (reqs h). split; auto. apply Forall2_refl, same_static_refl.
Qed.

Lemma removal_is_op f rnd h n : In f removal_functions ->
  exists o, run_operation o h = f rnd h n /\ forall loc dl du pr qu lk ws, o <> OpAdd loc dl du pr qu lk ws.
Proof.
  intros I. apply In_nth_error in I. destruct I as (k & N). exists (OpRemove k rnd n).
  split; [cbn; now rewrite N|discriminate].
Qed.
Lemma insertion_is_op f rnd h n : In f insertion_functions ->
  exists o, run_operation o h = f rnd h n /\ forall loc dl du pr qu lk ws, o <> OpAdd loc dl du pr qu lk ws.
Proof.
  intros I. apply In_nth_error in I. destruct I as (k & N). exists (OpInsert k n).
  split; [cbn; rewrite N|discriminate].
  cbn in N. destruct k as [|[|[|k]]]; cbn in N; try (injection N as <-; reflexivity). destruct k; discriminate.
Qed.

Lemma search_inv ex h mi an re ds h1 best log : reachable h ->
  search ex h mi an re ds = Ok (h1, best, log) ->
  solution_of (reqs h) h1 /\ solution_of (reqs h) best /\ reachable h1 /\ initialize_solution h = Ok h1 /\
  solve (schedule_problem ex) h1 mi an re (quarter (h_n h1)) (Z.of_nat (h_n h1)) ds = Ok (best, log).
Proof.
  intros R H. unfold search in H. destruct (h_n h =? 0); [discriminate|].
  apply bind_Ok in H. destruct H as (h0 & E & H). apply bind_Ok in H. destruct H as ((b, lg) & Es & H).
  cbn in H. injection H as <- <- <-.
  assert (S1 : solution_of (reqs h) h0).
  { eapply (solution_op _ OpInitialize); [now apply solution_self|exact E|discriminate]. }
  split; auto. split; [|split; [|split; auto]].
  - refine (proj1 (C32_invariants_preserved _ (schedule_problem ex) (solution_of (reqs h)) h0 mi an re _ _ ds b lg S1 _ _ Es)).
    + intros f rnd x y I Sx Ef. destruct (removal_is_op f rnd x (quarter (h_n h0)) I) as (o & Eo & No).
      eapply solution_op; eauto. now rewrite Eo.
    + intros f rnd x y I Sx Ef. destruct (insertion_is_op f rnd x (Z.of_nat (h_n h0)) I) as (o & Eo & No).
      eapply solution_op; eauto. now rewrite Eo.
  - destruct R as (os & Ho). exists (os ++ [OpInitialize]).
    clear - Ho E. revert Ho. generalize empty_handler. induction os as [|o os IH]; intros h2 Ho; cbn in *.
    + injection Ho as ->. cbn. now rewrite E.
    + destruct (run_operation o h2); [|discriminate]. auto.
Qed.

Lemma emit_one_ok r : booked_in_some_window r -> (exists k, r_vidx r = Some k /\ k < length (r_vtws r)) ->
  exists w s v, emit_one r = Ok w /\ r_start r = Some s /\ In v (r_vtws r) /\ allowed r v s /\
    o_start w = s /\ o_dur w = r_dur r /\ o_loc w = r_loc r /\
    a_time (o_att w) = [] /\ a_roll (o_att w) = [] /\ a_pitch (o_att w) = [] /\ a_yaw (o_att w) = [].
Proof.
  intros (S & D & v & s & Es & Iv & Al) (k & Ek & Lk).
  destruct (nth_error (r_vtws r) k) as [w|] eqn:N; [|apply nth_error_None in N; lia].
  unfold emit_one. rewrite Ek, Es, D. rewrite (proj2 (py_nth_Ok _ _ _) N). cbn.
  eexists _, s, v. split; [reflexivity|]. cbn. repeat split; auto; apply Al.
Qed.

Lemma emit_spec l0 h ws : solution_of l0 h -> emit h = Ok ws ->
  exists l, l = filter r_sched (removelast (reqs h)) /\ Forall2 (fun r w => serves r w /\ r_start r = Some (o_start w) /\
     a_time (o_att w) = [] /\ a_roll (o_att w) = [] /\ a_pitch (o_att w) = [] /\ a_yaw (o_att w) = []) l ws.
Proof.
  intros ((C1 & _) & V & I & _) H. unfold emit in H. rewrite (h_items_spec h C1) in H. cbn [bind] in H.
  replace (length (reqs h) - 1) with (Nat.pred (length (reqs h))) in H by lia.
  rewrite <- removelast_firstn_len in H. eexists. split; [reflexivity|].
  apply mapM_Forall2 in H.
  assert (K : forall r, In r (filter r_sched (removelast (reqs h))) -> In r (reqs h) /\ r_sched r = true).
  { intros r Ir. apply filter_In in Ir. destruct Ir as (Ir & S). split; auto.
    rewrite removelast_firstn_len in Ir. rewrite <- (firstn_skipn (Nat.pred (length (reqs h))) (reqs h)).
    apply in_or_app. now left. }
  revert H K. generalize (filter r_sched (removelast (reqs h))).
  induction 1 as [|r w l ws E F IH]; intros K; constructor; [|apply IH; intros; apply K; now right].
  destruct (K r (or_introl eq_refl)) as (Ir & S).
  destruct (emit_one_ok r (V r Ir S) (I r Ir S)) as (w' & s & v & E' & Es & Iv & Al & W1 & W2 & W3 & W4).
  rewrite E in E'. injection E' as <-. split; [|split; [congruence|auto]].
  split; auto. split; auto. exists v. rewrite W1. auto.
Qed.

Lemma emit_total l0 h : solution_of l0 h -> exists ws, emit h = Ok ws.
Proof.
  intros ((C1 & _) & V & I & _). unfold emit. rewrite (h_items_spec h C1). cbn [bind].
  apply mapM_Ok. intros r Ir. apply filter_In in Ir. destruct Ir as (Ir & S).
  assert (Ir' : In r (reqs h)).
  { rewrite <- (firstn_skipn (length (reqs h) - 1) (reqs h)). apply in_or_app. now left. }
  destruct (emit_one_ok r (V r Ir' S) (I r Ir' S)) as (w & _ & _ & E & _). eauto.
Qed.


(** ** The search only depends on the oracle through the questions it asks *)

(** In round [m] with log entry [e] the two oracles answer the same question alike. *)
Definition same_answer {Sol} (cost : Sol -> res Q) (ex1 ex2 : Q -> Q -> bool) (d : draws) (e : entry Sol) : Prop :=
  forall cc ct, cost (e_current e) = Ok cc -> cost (e_candidate e) = Ok ct -> Qltb ct cc = false ->
    ex1 (d_accept d) (100 * (ct - cc) / (e_temperature e * cc))%Q =
    ex2 (d_accept d) (100 * (ct - cc) / (e_temperature e * cc))%Q.

Section Congruence.
  Context {Sol : Type}.
  Variable (cost : Sol -> res Q) (comp : Sol -> res bool) (de re : list (operator Sol)).
  Let pb ex := mkProblem cost comp de re ex.

  Lemma round_congr ex1 ex2 p l nr na d s s' e b :
    round (pb ex1) p l nr na d s = Ok (s', e, b) -> same_answer cost ex1 ex2 d e ->
    round (pb ex2) p l nr na d s = Ok (s', e, b).
  Proof.
    unfold round. intros H A.
    apply bind_Ok in H; destruct H as (i & Ei & H).
    apply bind_Ok in H; destruct H as (j & Ej & H).
    apply bind_Ok in H; destruct H as (fd & Efd & H).
    apply bind_Ok in H; destruct H as (t1 & Et1 & H).
    apply bind_Ok in H; destruct H as (fr & Efr & H).
    apply bind_Ok in H; destruct H as (tmp & Etmp & H).
    apply bind_Ok in H; destruct H as (acc & Eacc & H).
    apply bind_Ok in H; destruct H as (sc & Esc & H).
    apply bind_Ok in H; destruct H as (ct & Ect & H).
    apply bind_Ok in H; destruct H as (cb & Ecb & H).
    apply bind_Ok in H; destruct H as (dn & Edn & H).
    assert (A' : e_current e = s_cur s /\ e_candidate e = tmp /\ e_temperature e = s_T s).
    { destruct dn; injection H as <- <- <-; auto. }
    destruct A' as (A1 & A2 & A3). unfold same_answer in A. rewrite A1, A2, A3 in A.
    assert (Ac' : accept (pb ex2) (d_accept d) tmp (s_cur s) (s_T s) = Ok acc).
    { unfold accept in *. cbn [pb p_cost p_exceeds] in *.
      apply bind_Ok in Eacc. destruct Eacc as (cc & Ec & Ac). apply bind_Ok in Ac. destruct Ac as (ct' & Et & Ac).
      rewrite Ec, Et. cbn [bind]. destruct (Qltb ct' cc) eqn:L; auto. destruct (Qeqb _ _); auto.
      destruct (Qltb exp_limit _); auto. rewrite <- Ac. do 2 f_equal. symmetry. now apply A. }
    change (p_cost (pb ex2)) with (p_cost (pb ex1)). change (p_complete (pb ex2)) with (p_complete (pb ex1)).
    change (p_destroy (pb ex2)) with (p_destroy (pb ex1)). change (p_repair (pb ex2)) with (p_repair (pb ex1)).
    rewrite Ei; cbn [bind]. rewrite Ej; cbn [bind]. rewrite Efd; cbn [bind]. rewrite Et1; cbn [bind].
    rewrite Efr; cbn [bind]. rewrite Etmp; cbn [bind]. rewrite Ac'; cbn [bind]. cbv zeta in *. rewrite Esc; cbn [bind].
    rewrite Ect; cbn [bind]. rewrite Ecb; cbn [bind]. rewrite Edn; cbn [bind]. exact H.
  Qed.

  Lemma rounds_congr ex1 ex2 p l nr na : forall k ds s b log,
    rounds (pb ex1) p l nr na k ds s = Ok (b, log) ->
    (forall m e, nth_error log m = Some e -> same_answer cost ex1 ex2 (ds m) e) ->
    rounds (pb ex2) p l nr na k ds s = Ok (b, log).
  Proof.
    induction k as [|k IH]; intros ds s b log H A; cbn [rounds] in *; auto.
    apply bind_Ok in H. destruct H as (((s', e), d) & E & H).
    assert (A0 : same_answer cost ex1 ex2 (ds 0) e).
    { apply A. destruct d; [injection H as <- <-; reflexivity|].
      apply bind_Ok in H. destruct H as ((b', lg) & _ & H). injection H as <- <-. reflexivity. }
    rewrite (round_congr _ _ _ _ _ _ _ _ _ _ _ E A0). cbn [bind].
    destruct d; auto. apply bind_Ok in H. destruct H as ((b', lg) & Er & H). injection H as <- <-.
    rewrite (IH (fun m => ds (S m)) _ _ _ Er); [reflexivity|]. intros m e' N. apply (A (S m)). exact N.
  Qed.

  Lemma solve_congr ex1 ex2 init mi p l nr na ds b log :
    solve (pb ex1) init mi p l nr na ds = Ok (b, log) ->
    (forall m e, nth_error log m = Some e -> same_answer cost ex1 ex2 (ds m) e) ->
    solve (pb ex2) init mi p l nr na ds = Ok (b, log).
  Proof.
    unfold solve. intros H A. cbn [pb p_cost p_complete p_destroy p_repair] in *.
    apply bind_Ok in H. destruct H as (c & Ec & H). apply bind_Ok in H. destruct H as (d & Ed & H).
    rewrite Ec. cbn [bind]. rewrite Ed. cbn [bind]. destruct d; auto.
    eapply rounds_congr; eauto.
  Qed.
End Congruence.

Lemma emit_split l0 h ws : solution_of l0 h -> emit h = Ok ws ->
  exists served rest, Permutation l0 (served ++ rest) /\ Forall2 serves served ws /\
    worth served = value (removelast (reqs h)).
Proof.
  intros Sb Ee. rename h into best.
  destruct (emit_spec _ _ _ Sb Ee) as (l & El & F).
  destruct Sb as (_ & _ & _ & m & Pm & Fm).
  (* split the best solution's requests into emitted and others *)
  assert (Sp : exists rest, Permutation (reqs best) (l ++ rest)).
  { subst l. exists (filter (fun r => negb (r_sched r)) (removelast (reqs best)) ++
                     match reqs best with [] => [] | _ => [last (reqs best) (new_request 0 0 0 0 0 NoLook [])] end).
    assert (Pf : forall k, Permutation k (filter r_sched k ++ filter (fun r => negb (r_sched r)) k)).
    { clear. induction k as [|r k IH]; cbn; auto. destruct (r_sched r); cbn; auto using Permutation_cons.
      eapply perm_trans; [apply perm_skip; exact IH|]. apply Permutation_middle. }
    destruct (reqs best) as [|q qs] eqn:Eq; [constructor|]. rewrite <- Eq.
    assert (N : reqs best <> []) by congruence.
    rewrite (app_removelast_last (new_request 0 0 0 0 0 NoLook []) N) at 1.
    rewrite app_assoc. apply Permutation_app_tail. apply Pf. }
  destruct Sp as (rest & Pr).
  assert (Fm' : Forall2 (fun a b => same_static b a) (reqs best) m).
  { clear - Fm. induction Fm; constructor; auto. }
  destruct (Forall2_perm _ _ _ _ (Forall2_flip _ _ _ Fm') Pr) as (m' & P' & F').
  apply Forall2_app_inv_r in F'. destruct F' as (served & rest' & F1 & F2 & ->).
  exists served, rest'. split; [eapply perm_trans; eauto|]. split.
  2:{ unfold value. rewrite <- El. unfold worth. clear - F1. induction F1 as [|a b la lb Sab F1 IH]; cbn; auto.
      destruct Sab as (_ & _ & _ & Pr & _). lia. }
  clear - F F1. revert ws F. induction F1 as [|a b la lb Sab F1 IH]; intros ws F; inversion F; subst; constructor; auto.
  destruct H1 as ((D & L & v & Iv & Al) & _). destruct Sab as (A1 & A2 & A3 & A4 & A5 & A6 & A7).
  split; [congruence|]. split; [congruence|]. exists v. split; [eapply Permutation_in; [symmetry; exact A7|exact Iv]|].
  unfold allowed in *. now rewrite A2, A3, A5 in Al.
Qed.

Lemma cost_of_solution l0 h : solution_of l0 h -> cost h = Ok (- value (removelast (reqs h)))%Z.
Proof.
  intros ((C1 & _) & _). unfold cost. rewrite (h_items_spec h C1). cbn [bind].
  rewrite removelast_firstn_len, cost_value. do 3 f_equal. replace (length (reqs h) - 1) with (Nat.pred (length (reqs h))) by lia. reflexivity.
Qed.
