(** Proofs about Scheduler.generate in floating point. *)
From Coq Require Import List ZArith Bool Arith Permutation Reals Lra Lia.
From Verif Require Import Py PyLemmas Fl_Model Fl_Spec Fl_Proofs Fls_Model Fls_Spec Fls_Proofs Fls_Proofs2 Fls_Proofs3
  Fla_Model Fla_Spec Fla_Proofs Fla_Proofs2 Fla_Proofs3 Fla_Proofs4 Fla_Props.
Import ListNotations.
Open Scope nat_scope.
Open Scope list_scope.

(** Invariant of every solution the search builds from the requests [l0]. *)
Definition solution_of (l0 : list request) (h : handler) : Prop :=
  invariant h /\
  (forall r, In r (reqs h) -> r_sched r = true -> exists k, r_vidx r = Some k /\ k < length (r_vtws r)) /\
  exists l, Permutation l0 l /\ Forall2 same_static l (reqs h).

Lemma op_step_index r r' : op_step r r' ->
  (r_sched r = true -> exists k, r_vidx r = Some k /\ k < length (r_vtws r)) ->
  (r_sched r' = true -> exists k, r_vidx r' = Some k /\ k < length (r_vtws r')).
Proof.
  intros ((_ & _ & _ & _ & _ & _ & P) & [(E1 & _ & _ & E4)|[(S & _)|B]]) H S'.
  - rewrite E1 in S'. destruct (H S') as (k & Ek & Lk). exists k. rewrite E4. split; auto.
    now rewrite <- (Permutation_length P).
  - congruence.
  - destruct B as (_ & _ & k & v & s & Ek & _ & Nk & _). exists k. split; auto.
    apply nth_error_Some. congruence.
Qed.

Lemma solution_op l0 o h h' : solution_of l0 h -> run_operation o h = Ok h' ->
  (forall loc dl du pr qu lk ws, o <> OpAdd loc dl du pr qu lk ws) -> solution_of l0 h'.
Proof.
  intros (Iv & I & l & P & F) H NA. destruct (operation_spec o h h' (proj1 Iv) H) as (C' & [(m & Pm & Fm)|Ad]).
  2:{ destruct Ad as (loc & dl & du & pr & qu & lk & ws & -> & _). now destruct (NA loc dl du pr qu lk ws). }
  assert (Im : forall r, In r m -> r_sched r = true -> exists k, r_vidx r = Some k /\ k < length (r_vtws r)).
  { intros r Ir. apply I. eapply Permutation_in; [symmetry; eauto|auto]. }
  split; [|split].
  - eapply evolves_invariant; [exact C'|exists m; eauto|exact Iv].
  - intros r Ir. destruct (Forall2_In_r _ _ _ _ Fm Ir) as (q & Iq & St). eapply op_step_index; eauto.
  - destruct (Forall2_perm _ _ _ _ F Pm) as (l' & Pl & Fl). exists l'. split; [eapply perm_trans; eauto|].
    clear - Fl Fm. revert Fm. generalize (reqs h'). induction Fl as [|x y la lb Sxy Fl IH]; intros k Fm; inversion Fm as [|? ? ? ? St]; subst; [apply Forall2_nil|apply Forall2_cons]; auto.
    eapply same_static_trans; [eassumption|]. now destruct St.
Qed.

Lemma reachable_index h : reachable h ->
  forall r, In r (reqs h) -> r_sched r = true -> exists k, r_vidx r = Some k /\ k < length (r_vtws r).
Proof.
  intros (os & _ & H). 
  assert (G : forall os h0, counters_ok h0 ->
    (forall r, In r (reqs h0) -> r_sched r = true -> exists k, r_vidx r = Some k /\ k < length (r_vtws r)) ->
    run_history os h0 = Ok h ->
    forall r, In r (reqs h) -> r_sched r = true -> exists k, r_vidx r = Some k /\ k < length (r_vtws r)).
  { clear. induction os as [|o os IH]; intros h0 C I H; cbn [run_history] in H; [now injection H as <-|].
    destruct (run_operation o h0) as [h1|] eqn:E; [|discriminate].
    destruct (operation_spec o h0 h1 C E) as (C' & [(m & Pm & Fm)|Ad]); apply (IH h1); auto.
    - intros r Ir. destruct (Forall2_In_r _ _ _ _ Fm Ir) as (q & Iq & St). eapply op_step_index; eauto.
      intros S. apply I; auto. eapply Permutation_in; [symmetry; eauto|auto].
    - destruct Ad as (loc & dl & du & pr & qu & lk & ws & _ & ->). intros r Ir S.
      apply in_app_or in Ir. destruct Ir as [Ir|[<-|[]]]; auto. discriminate. }
  apply (G os empty_handler); auto; [split; reflexivity|intros r []].
Qed.

Lemma solution_self h : reachable h -> solution_of (reqs h) h.
Proof.
  intros R. split; [now apply reachable_inv|]. split; [now apply reachable_index|].
  exists (reqs h). split; auto. apply Forall2_refl, same_static_refl.
Qed.

Lemma removal_is_op f rnd h n : In f removal_functions ->
  exists o, run_operation o h = f rnd h n /\ forall loc dl du pr qu lk ws, o <> OpAdd loc dl du pr qu lk ws.
Proof.
  intros I. apply In_nth_error in I. destruct I as (k & N). exists (OpRemove k rnd n).
  split; [cbn; now rewrite N|discriminate].
Qed.
Lemma insertion_is_op f rnd h n : In f insertion_functions ->
  exists o, run_operation o h = f rnd h n /\ forall loc dl du pr qu lk ws, o <> OpAdd loc dl du pr qu lk ws.
Proof.
  intros I. apply In_nth_error in I. destruct I as (k & N). exists (OpInsert k n).
  split; [cbn; rewrite N|discriminate].
  cbn in N. destruct k as [|[|[|k]]]; cbn in N; try (injection N as <-; reflexivity). destruct k; discriminate.
Qed.

Lemma search_inv ex h mi an re ds h1 best log : reachable h ->
  search ex h mi an re ds = Ok (h1, best, log) ->
  solution_of (reqs h) h1 /\ solution_of (reqs h) best /\ initialize_solution h = Ok h1 /\
  solve (schedule_problem ex) h1 mi an re (quarter (h_n h1)) (Z.of_nat (h_n h1)) ds = Ok (best, log).
Proof.
  intros R H. unfold search in H. destruct (h_n h =? 0); [discriminate|].
  apply bind_Ok in H. destruct H as (h0 & E & H). apply bind_Ok in H. destruct H as ((b, lg) & Es & H).
  cbn [fst snd] in H. assert (h1 = h0 /\ best = b /\ log = lg) as (-> & -> & ->) by (split; [congruence|split; congruence]).
  assert (S1 : solution_of (reqs h) h0).
  { eapply (solution_op _ OpInitialize); [now apply solution_self|exact E|discriminate]. }
  split; auto. split; [|split; auto].
  refine (proj1 (C119_invariants_preserved _ (schedule_problem ex) (solution_of (reqs h)) h0 mi an re _ _ ds b lg S1 _ _ Es)).
  - intros f rnd x y I Sx Ef. destruct (removal_is_op f rnd x (quarter (h_n h0)) I) as (o & Eo & No).
    eapply solution_op; eauto. now rewrite Eo.
  - intros f rnd x y I Sx Ef. destruct (insertion_is_op f rnd x (Z.of_nat (h_n h0)) I) as (o & Eo & No).
    eapply solution_op; eauto. now rewrite Eo.
Qed.

Lemma emit_one_ok r : ordinary_request r -> booked_in_some_window r -> (exists k, r_vidx r = Some k /\ k < length (r_vtws r)) ->
  exists w s, emit_one r = Ok w /\ r_start r = Some s /\ o_start w = s /\ serves r w.
Proof.
  intros O (S & D & v & s & Es & Iv & Al) (k & Ek & Lk).
  destruct (nth_error (r_vtws r) k) as [w|] eqn:N; [|apply nth_error_None in N; lia].
  unfold emit_one. rewrite Ek, Es, D. rewrite (proj2 (py_nth_Ok _ _ _) N). cbn [bind].
  exists (mkObs s (r_dur r) (r_loc r)), s. split; [reflexivity|]. split; [reflexivity|]. split; [reflexivity|].
  split; [reflexivity|]. split; [reflexivity|]. exists v. split; auto. apply allowed_real; auto.
Qed.

Lemma emit_spec l0 h : solution_of l0 h ->
  exists ws, emit h = Ok ws /\ Forall2 (fun r w => serves r w /\ r_start r = Some (o_start w)) (filter r_sched (removelast (reqs h))) ws.
Proof.
  intros (((C1 & _) & V & O) & I & _). unfold emit. rewrite (h_items_spec h C1). cbn [bind].
  replace (length (reqs h) - 1) with (Nat.pred (length (reqs h))) by lia. rewrite <- removelast_firstn_len.
  assert (K : forall r, In r (filter r_sched (removelast (reqs h))) -> In r (reqs h) /\ r_sched r = true).
  { intros r Ir. apply filter_In in Ir. destruct Ir as (Ir & S). split; auto.
    rewrite removelast_firstn_len in Ir. rewrite <- (firstn_skipn (Nat.pred (length (reqs h))) (reqs h)).
    apply in_or_app. now left. }
  revert K. generalize (filter r_sched (removelast (reqs h))).
  induction l as [|r l IH]; intros K; [exists []; split; [reflexivity|apply Forall2_nil]|].
  destruct IH as (ws & E & F); [intros; apply K; now right|].
  destruct (K r (or_introl eq_refl)) as (Ir & S).
  destruct (emit_one_ok r (O r Ir) (V r Ir S) (I r Ir S)) as (w & s & Ew & Es & Ws & Sv).
  exists (w :: ws). cbn [mapM]. rewrite Ew. cbn [bind]. rewrite E. split; [reflexivity|]. apply Forall2_cons; auto. split; [exact Sv|congruence].
Qed.

Lemma cost_worth l : fold_left (fun c r => if r_sched r then (c - r_prio r)%Z else c) l 0%Z = (- worth (filter r_sched l))%Z.
Proof.
  assert (G : forall l c, fold_left (fun c r => if r_sched r then (c - r_prio r)%Z else c) l c = (c - worth (filter r_sched l))%Z).
  { clear. induction l as [|r l IH]; intros c; cbn [fold_left filter]; [unfold worth; cbn; lia|].
    rewrite IH. destruct (r_sched r); unfold worth; cbn [map fold_right]; lia. }
  rewrite G. lia.
Qed.
Lemma cost_of_solution l0 h : solution_of l0 h -> cost h = Ok (- worth (filter r_sched (removelast (reqs h))))%Z.
Proof.
  intros (((C1 & _) & _) & _). unfold cost. rewrite (h_items_spec h C1). cbn [bind].
  rewrite cost_worth, removelast_firstn_len. replace (length (reqs h) - 1) with (Nat.pred (length (reqs h))) by lia. reflexivity.
Qed.

Lemma serves_static a b w : same_static a b -> serves b w -> serves a w.
Proof.
  intros (A1 & A2 & A3 & A4 & A5 & A6 & A7) (D & L & v & Iv & W & T & Q). split; [congruence|]. split; [congruence|].
  exists v. split; [eapply Permutation_in; [symmetry; exact A7|exact Iv]|]. unfold in_window, in_time, good_enough in *. rewrite A2, A3, A5 in *. auto.
Qed.
Lemma emit_split l0 h ws : solution_of l0 h -> emit h = Ok ws ->
  exists served rest, Permutation l0 (served ++ rest) /\ Forall2 serves served ws /\
    worth served = worth (filter r_sched (removelast (reqs h))).
Proof.
  intros Sb Ee. destruct (emit_spec _ _ Sb) as (ws' & Ew & F). rewrite Ee in Ew. assert (ws' = ws) by congruence. subst ws'.
  destruct Sb as (_ & _ & m & Pm & Fm). set (l := filter r_sched (removelast (reqs h))) in *.
  assert (Sp : exists rest, Permutation (reqs h) (l ++ rest)).
  { assert (Pf : forall k, Permutation k (filter r_sched k ++ filter (fun r => negb (r_sched r)) k)).
    { clear. induction k as [|r k IH]; cbn [filter]; [apply Permutation_refl|]. destruct (r_sched r); cbn [negb app]; [now apply perm_skip|].
      eapply perm_trans; [apply perm_skip; exact IH|]. apply Permutation_middle. }
    destruct (reqs h) as [|q qs] eqn:Eq; [exists []; apply Permutation_refl|].
    exists (filter (fun r => negb (r_sched r)) (removelast (q :: qs)) ++ [last (q :: qs) q]). 
    rewrite (app_removelast_last q (l := q :: qs)) at 1 by discriminate.
    rewrite app_assoc. apply Permutation_app_tail. apply Pf. }
  destruct Sp as (rest & Pr).
  destruct (Forall2_perm _ _ _ _ Fm Pr) as (m' & P' & F').
  apply Forall2_app_inv_r in F'. destruct F' as (served & rest' & F1 & F2 & ->).
  exists served, rest'. split; [eapply perm_trans; eauto|]. clearbody l. split.
  2:{ unfold worth. clear - F1. induction F1 as [|a b la lb Sab F1 IH]; cbn [map fold_right]; auto.
      destruct Sab as (_ & _ & _ & Pr & _). lia. }
  clear - F F1. revert ws F. induction F1 as [|a b la lb Sab F1 IH]; intros ws F; inversion F as [|? w ? ws' (Sv & _) F']; subst; [apply Forall2_nil|apply Forall2_cons]; auto.
  eapply serves_static; eauto.
Qed.
