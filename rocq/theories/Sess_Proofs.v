(** Proofs about sessions. *)
From Coq Require Import List ZArith QArith Bool Arith Permutation Lia Sorted.
From Verif Require Import Py PyLemmas Sched_Model Sched_Spec Sched_Proofs Sched_Proofs2 Sched_Proofs3 Sched_Proofs4 Sched_Props
  Vtw_Model Vtw_Spec Vtw_Proofs Alns_Model Alns_Spec Alns_Proofs Alns_Props Gen_Model Gen_Spec Gen_Proofs Sess_Model Sess_Spec.
Import ListNotations.
Open Scope nat_scope.
Open Scope list_scope.

(** ** Sorting twice *)
Lemma py_sorted_id {A} (lt : A -> A -> bool) l : StronglySorted (py_le lt) l -> py_sorted lt l = l.
Proof.
  induction 1 as [|x l SS IH F]; auto. cbn [py_sorted]. rewrite IH. destruct l as [|y l]; auto. cbn [py_insert].
  inversion F as [|? ? E _]; subst. unfold py_le in E. now rewrite E.
Qed.
Definition prio_lt (x y : request) : bool := (r_prio y <? r_prio x)%Z.
Lemma prio_sorted l : StronglySorted (py_le prio_lt) (py_sorted prio_lt l).
Proof.
  apply py_sorted_sorted.
  - intros x y z. unfold py_le, prio_lt. rewrite !Z.ltb_ge. lia.
  - intros x y. unfold prio_lt. rewrite Z.ltb_lt, Z.ltb_ge. lia.
Qed.
Lemma sorted_Forall2 (R : request -> request -> Prop) l l' : (forall x y, R x y -> r_prio y = r_prio x) -> Forall2 R l l' ->
  StronglySorted (py_le prio_lt) l -> StronglySorted (py_le prio_lt) l'.
Proof.
  intros H F. induction F as [|x y l l' Rxy F IH]; intros SS; [constructor|]. inversion SS as [|? ? S1 F1]; subst. constructor; auto.
  rewrite Forall_forall in *. intros z Iz. destruct (Forall2_In_r _ _ _ _ F Iz) as (w & Iw & Rw). pose proof (F1 w Iw) as E.
  unfold py_le, prio_lt in *. now rewrite (H _ _ Rxy), (H _ _ Rw).
Qed.
Lemma sort_prio_id h : StronglySorted (py_le prio_lt) (reqs h) -> sort_by_decreasing_priority h = h.
Proof. intros SS. unfold sort_by_decreasing_priority. fold prio_lt. destruct h as [l n c]. cbn [reqs h_n h_nsched] in *. now rewrite (py_sorted_id prio_lt l SS). Qed.

Definition rise_lt (v w : vtw) : bool := Qltb (v_rise v) (v_rise w).
Lemma rise_sorted l : StronglySorted (py_le rise_lt) (py_sorted rise_lt l).
Proof.
  apply py_sorted_sorted.
  - intros x y z. unfold py_le, rise_lt. rewrite !Qltb_niff. intros H1 H2. eapply Qle_trans; eauto.
  - intros x y. unfold rise_lt. rewrite Qltb_iff, Qltb_niff. apply Qlt_le_weak.
Qed.
Definition rise_ordered (r : request) : Prop := StronglySorted (py_le rise_lt) (r_vtws r).
Lemma sort_rise_id h : Forall rise_ordered (reqs h) -> sort_vtws_by_increasing_rise_time h = h.
Proof.
  intros F. unfold sort_vtws_by_increasing_rise_time. destruct h as [l n c]. cbn [reqs h_n h_nsched] in *. f_equal. clear n c.
  induction F as [|r l O F IH]; auto. cbn [map]. f_equal; auto. fold rise_lt. rewrite (py_sorted_id rise_lt _ O). destruct r; reflexivity.
Qed.

(** ** The insertion loop with its state *)
Lemma insert_st_spec : forall is h n,
  match insert_loop_st is h n with
  | (g, None) => insert_loop is h n = Ok g
  | (g, Some e) => insert_loop is h n = Raise e /\ exists m, (0 <= m)%Z /\ insert_loop is h m = Ok g
  end.
Proof.
  induction is as [|i is IH]; intros h n; cbn [insert_loop_st insert_loop]; auto. destruct (n =? 0)%Z eqn:N; auto.
  destruct (py_nth (reqs h) i) as [r|e]; [|split; [reflexivity|exists 0%Z; split; [lia|reflexivity]]]. cbn [bind] in *.
  assert (Skip : forall g, (exists m, (0 <= m)%Z /\ insert_loop is h m = Ok g) -> exists m, (0 <= m)%Z /\ (if (m =? 0)%Z then Ok h else insert_loop is h m) = Ok g).
  { intros g (m & M & E). exists m. split; auto. destruct (Z.eqb_spec m 0) as [->|]; auto. rewrite <- E. destruct is; reflexivity. }
  destruct (r_sched r) eqn:S.
  - specialize (IH h n). destruct (insert_loop_st is h n) as (g, [e|]); auto. destruct IH as (E & X). split; auto.
  - destruct (find_slot h r 0 (r_vtws r)) as [[(k, s)|]|e]; [| |split; [reflexivity|exists 0%Z; split; [lia|reflexivity]]].
    + cbn [bind]. destruct (schedule_request h i k s (r_dur r)) as [h'|e]; [|split; [reflexivity|exists 0%Z; split; [lia|reflexivity]]]. cbn [bind]. specialize (IH h' (n - 1)%Z).
      destruct (insert_loop_st is h' (n - 1)) as (g, [e|]); auto. destruct IH as (E & m & M & Em). split; auto.
      exists (m + 1)%Z. split; [lia|]. destruct (Z.eqb_spec (m + 1) 0); [lia|]. now replace (m + 1 - 1)%Z with m by lia.
    + cbn [bind]. specialize (IH h n). destruct (insert_loop_st is h n) as (g, [e|]); auto. destruct IH as (E & X). split; auto.
Qed.

Definition ordered (h : handler) : handler := sort_vtws_by_increasing_rise_time (sort_by_decreasing_priority h).
Lemma ordered_prio h : StronglySorted (py_le prio_lt) (reqs (ordered h)).
Proof.
  eapply sorted_Forall2 with (R := fun x y => r_prio y = r_prio x) (l := reqs (sort_by_decreasing_priority h)); auto.
  - unfold ordered, sort_vtws_by_increasing_rise_time. cbn [reqs]. induction (reqs (sort_by_decreasing_priority h)) as [|r l IH]; constructor; auto.
  - apply prio_sorted.
Qed.
Lemma ordered_rise h : Forall rise_ordered (reqs (ordered h)).
Proof.
  unfold ordered, sort_vtws_by_increasing_rise_time. cbn [reqs]. apply Forall_forall. intros r I. apply in_map_iff in I. destruct I as (q & <- & _). apply rise_sorted.
Qed.

(** ** Histories *)
Lemma history_app os os' h : run_history (os ++ os') h = match run_history os h with Ok g => run_history os' g | Raise e => Raise e end.
Proof. revert h. induction os as [|o os IH]; intros h; cbn [app run_history]; auto. destruct (run_operation o h); auto. Qed.
Definition no_add (o : operation) : Prop := forall loc dl du pr qu lk ws, o <> OpAdd loc dl du pr qu lk ws.
Lemma solution_history l0 os : Forall no_add os -> forall h h', solution_of l0 h -> run_history os h = Ok h' -> solution_of l0 h'.
Proof.
  induction 1 as [|o os N F IH]; intros h h' So H; cbn [run_history] in H; [now injection H as <-|].
  destruct (run_operation o h) as [h1|] eqn:E; [|discriminate]. eapply IH; [|exact H]. eapply solution_op; eauto.
Qed.
(** The handler after the initial solution, complete or not. *)
Lemma initialize_history h g f : initialize_st h = (g, f) -> exists os, Forall no_add os /\ run_history os h = Ok g.
Proof.
  unfold initialize_st. cbv zeta. fold (ordered h). intros H.
  pose proof (insert_st_spec (seq 0 (h_n (ordered h))) (ordered h) (Z.of_nat (h_n (ordered h)))) as X. rewrite H in X.
  assert (G : exists m, insert_first_n (ordered h) m = Ok g).
  { destruct f as [e|]; [destruct X as (_ & m & _ & E); now exists m|]. eexists. exact X. }
  destruct G as (m & E). exists [OpSortPriority; OpSortWindowsRise; OpInsert 0 m]. split.
  - repeat constructor; intros ? ? ? ? ? ? ?; discriminate.
  - cbn [run_history run_operation nth_error insertion_functions]. fold (ordered h). unfold greedy_insertion. rewrite (sort_prio_id _ (ordered_prio h)), E. reflexivity.
Qed.
Lemma initialize_ok h g : initialize_st h = (g, None) <-> initialize_solution h = Ok g.
Proof.
  unfold initialize_st, initialize_solution. cbv zeta. fold (ordered h). unfold insert_first_n.
  pose proof (insert_st_spec (seq 0 (h_n (ordered h))) (ordered h) (Z.of_nat (h_n (ordered h)))) as X.
  destruct (insert_loop_st _ _ _) as (g', [e|]).
  - destruct X as (E & _). rewrite E. split; discriminate.
  - rewrite X. split; intros [= ->]; reflexivity.
Qed.
Lemma initialize_fail h e : snd (initialize_st h) = Some e <-> initialize_solution h = Raise e.
Proof.
  unfold initialize_st, initialize_solution. cbv zeta. fold (ordered h). unfold insert_first_n.
  pose proof (insert_st_spec (seq 0 (h_n (ordered h))) (ordered h) (Z.of_nat (h_n (ordered h)))) as X.
  destruct (insert_loop_st _ _ _) as (g', [e'|]); cbn [snd].
  - destruct X as (E & _). rewrite E. split; intros [= ->]; reflexivity.
  - rewrite X. split; discriminate.
Qed.
(** With [Gen_Model.generate]. *)
Lemma generate_same exceeds s mi an re ds :
  snd (scheduler_generate exceeds s mi an re ds) = rmap snd (generate exceeds (sch_handler s) mi an re ds).
Proof.
  unfold scheduler_generate, generate, search. destruct (h_n (sch_handler s) =? 0); [reflexivity|].
  destruct (initialize_st (sch_handler s)) as (h1, [e|]) eqn:E.
  - assert (F : initialize_solution (sch_handler s) = Raise e) by (apply initialize_fail; now rewrite E). rewrite F. reflexivity.
  - apply initialize_ok in E. rewrite E. cbn [snd bind]. destruct (solve _ _ _ _ _ _ _ _) as [(b, lg)|e]; [|reflexivity]. cbn [bind fst snd]. destruct (emit b); reflexivity.
Qed.

(** ** The invariant of a session *)
Section satellite.
Variables (sat : sky) (th : Q).
Definition vtws_of (a : ask) : res (list vtw) :=
  generate_vtws (sky_velocity sat) (sky_samples sat (k_loc a)) (sky_attitude sat (k_loc a)) th (k_light a).
Definition request_for (a : ask) (r : request) : Prop :=
  exists vtws, vtws_of a = Ok vtws /\ same_static (new_request (k_loc a) (k_deadline a) (k_dur a) (k_prio a) (k_qual a) (k_look a) vtws) r.
Definition good (asks : list ask) (s : scheduler) : Prop :=
  sch_sky s = sat /\ sch_threshold s = th /\ reachable (sch_handler s) /\
  exists l, Permutation asks l /\ Forall2 request_for l (reqs (sch_handler s)).

Lemma request_for_static a r r' : request_for a r -> same_static r r' -> request_for a r'.
Proof. intros (ws & E & S) S'. exists ws. split; auto. eapply same_static_trans; eauto. Qed.
Lemma good_solution asks s h' : good asks s -> solution_of (reqs (sch_handler s)) h' ->
  exists l, Permutation asks l /\ Forall2 request_for l (reqs h').
Proof.
  intros (_ & _ & _ & l & P & F) (_ & _ & _ & m & Pm & Fm). destruct (Forall2_perm _ _ _ _ F Pm) as (l' & Pl & Fl). exists l'. split; [eapply perm_trans; eauto|].
  clear - Fl Fm. revert Fm. generalize (reqs h'). induction Fl as [|a r l' m Q F IH]; intros k Fm; inversion Fm; subst; constructor; auto. eapply request_for_static; eauto.
Qed.
Lemma good_add asks s a s' : good asks s -> scheduler_add s a = Ok s' -> good (asks ++ [a]) s'.
Proof.
  intros (E1 & E2 & R & l & P & F) H. unfold scheduler_add in H. rewrite E1, E2 in H. apply bind_Ok in H. destruct H as (ws & Ew & H). injection H as <-.
  split; auto. split; auto. cbn [sch_handler]. split.
  - destruct R as (os & Ho). exists (os ++ [OpAdd (k_loc a) (k_deadline a) (k_dur a) (k_prio a) (k_qual a) (k_look a) ws]). rewrite history_app, Ho. reflexivity.
  - exists (l ++ [a]). split; [now apply Permutation_app_tail|]. cbn [reqs add_request]. apply Forall2_app; auto. constructor; [|constructor]. exists ws. split; [exact Ew|apply same_static_refl].
Qed.
Lemma good_generate asks s ex mi an re ds s' r : good asks s -> scheduler_generate ex s mi an re ds = (s', r) -> good asks s'.
Proof.
  intros G H. unfold scheduler_generate in H. destruct (h_n (sch_handler s) =? 0); [now injection H as <- _|].
  destruct (initialize_st (sch_handler s)) as (h1, f) eqn:E.
  assert (Es : s' = mkScheduler (sch_sky s) (sch_threshold s) h1) by (destruct f; now injection H as <- _). subst s'. clear H.
  destruct (initialize_history _ _ _ E) as (os & NA & Ho). pose proof G as (E1 & E2 & (os0 & R) & _). split; auto. split; auto. cbn [sch_handler]. split.
  - exists (os0 ++ os). now rewrite history_app, R.
  - eapply good_solution; eauto. eapply solution_history; eauto. apply solution_self. now exists os0.
Qed.
Lemma good_call asks s c s' a : good asks s -> do_call c s = (s', a) -> good (asks ++ accepted_asks [c] [a]) s'.
Proof.
  intros G H. destruct c as [k|ex mi an re ds]; cbn [do_call] in H.
  - destruct (scheduler_add s k) as [s1|e] eqn:E; injection H as <- <-; cbn [accepted_asks combine flat_map app]; [now apply good_add with s|now rewrite app_nil_r].
  - assert (N : accepted_asks [CGenerate ex mi an re ds] [a] = []) by reflexivity. rewrite N, app_nil_r.
    destruct (scheduler_generate ex s mi an re ds) as (s1, [ws|e]) eqn:E; injection H as <- <-; eapply good_generate; eauto.
Qed.
Lemma accepted_cons c cs a al : accepted_asks (c :: cs) (a :: al) = accepted_asks [c] [a] ++ accepted_asks cs al.
Proof. unfold accepted_asks. cbn [combine flat_map]. now rewrite app_nil_r. Qed.
Lemma session_at cs : forall asks s k a, good asks s -> nth_error (snd (session cs s)) k = Some a ->
  exists c s1 s2, nth_error cs k = Some c /\ do_call c s1 = (s2, a) /\ good (asks ++ accepted_asks (firstn k cs) (firstn k (snd (session cs s)))) s1.
Proof.
  induction cs as [|c cs IH]; intros asks s k a G H; [destruct k; discriminate|]. cbn [session] in H |- *.
  destruct (do_call c s) as (s1, b) eqn:E. specialize (IH (asks ++ accepted_asks [c] [b]) s1). destruct (session cs s1) as (s2, l) eqn:E2. cbn [snd] in *.
  destruct k as [|k].
  - injection H as <-. exists c, s, s1. split; auto. split; auto. cbn [firstn accepted_asks combine flat_map]. now rewrite app_nil_r.
  - destruct (IH k a (good_call _ _ _ _ _ G E) H) as (c' & s3 & s4 & N & D & G'). exists c', s3, s4. split; auto. split; auto. cbn [firstn]. rewrite accepted_cons. now rewrite app_assoc.
Qed.
Lemma good_new : good [] (mkScheduler sat th empty_handler).
Proof. split; auto. split; auto. split; [now exists []|]. exists []. split; [constructor|constructor]. Qed.

(** What a call of generate returns. *)
Lemma good_windows asks s ex mi an re ds s' ws : good asks s -> scheduler_generate ex s mi an re ds = (s', Ok ws) ->
  exists served rest, Permutation asks (served ++ rest) /\ Forall2 (fulfils sat th) served ws.
Proof.
  intros G H. assert (E : rmap snd (generate ex (sch_handler s) mi an re ds) = Ok ws) by (rewrite <- generate_same, H; reflexivity).
  destruct (generate ex (sch_handler s) mi an re ds) as [(h', ws')|] eqn:Eg; [|discriminate]. cbn in E. injection E as ->.
  unfold generate in Eg. apply bind_Ok in Eg. destruct Eg as (((h1, best), log) & Es & Ee). cbn [fst snd] in Ee. apply bind_Ok in Ee. destruct Ee as (ws' & Ee & X). injection X as _ X. subst ws'.
  pose proof G as (_ & _ & R & _). destruct (search_inv _ _ _ _ _ _ _ _ _ R Es) as (_ & Sb & _).
  destruct (good_solution _ _ _ G Sb) as (l & P & F). destruct (emit_spec _ _ _ Sb Ee) as (sl & -> & Fw).
  assert (Sel : forall (l : list ask) m k, Forall2 request_for l m -> (exists t, m = k ++ t) ->
     exists served rest, Permutation l (served ++ rest) /\ Forall2 request_for served (filter r_sched k)).
  { clear. intros l m k F. revert k. induction F as [|a r l m Q F IH]; intros k (t & E).
    - destruct k; [|discriminate]. exists [], []. split; constructor.
    - destruct k as [|r' k]; [exists [], (a :: l); split; [reflexivity|constructor]|]. injection E as <- E. destruct (IH k (ex_intro _ t E)) as (sv & rs & P & F').
      cbn [filter]. destruct (r_sched r).
      + exists (a :: sv), rs. split; [now constructor|constructor; auto].
      + exists sv, (a :: rs). split; auto. now apply Permutation_cons_app. }
  destruct (Sel l (reqs best) (removelast (reqs best)) F) as (sv & rs & Ps & Fs).
  { destruct (reqs best) as [|r m] eqn:El; [exists []; reflexivity|]. exists [last (r :: m) r]. apply app_removelast_last. discriminate. }
  exists sv, rs. split; [eapply perm_trans; eauto|]. clear - Fs Fw. revert Fw. generalize ws. induction Fs as [|a r sv fl Q F IH]; intros w Fw; inversion Fw as [|? o ? ws' (Sv & _) Fw']; subst; constructor; auto.
  destruct Q as (vt & Ev & (L1 & L2 & L3 & L4 & L5 & L6 & L7)). destruct Sv as (D & L & v & Iv & A1 & A2 & A3 & q & Eq & Lq). cbn [new_request r_loc r_deadline r_dur r_prio r_qual r_look r_vtws] in *.
  split; [congruence|]. split; [congruence|]. split; [congruence|]. exists vt, v, q. split; [exact Ev|]. split; [eapply Permutation_in; [symmetry; eauto|auto]|]. split; auto. split; [congruence|]. split; auto. congruence.
Qed.
End satellite.

(** Inside a window that rises before it sets every sample qualifies. *)
Lemma window_qualifies vel l att th light vtws v : times_increase l -> generate_vtws vel l att th light = Ok vtws -> In v vtws -> (v_rise v < v_set v)%Q ->
  forall i s, nth_error l i = Some s -> (v_rise v < s_time s)%Q -> (s_time s <= v_set v)%Q -> qualifies l th light i.
Proof.
  intros Inc H Iv RS i s N T1 T2.
  assert (V : vel = true) by (destruct vel; auto; discriminate). subst vel.
  assert (T : (0 <= th <= 90)%Q).
  { unfold generate_vtws in H. cbn in H. destruct (Qltb th 0 || Qltb 90 th) eqn:X; [discriminate|]. apply orb_false_iff in X. rewrite !Qltb_niff in X. auto. }
  assert (Nl : light <> OtherLight).
  { intros ->. unfold generate_vtws, window_indices in H. cbn in H. destruct (_ || _); discriminate. }
  destruct (qualifies_some l th light) as [Q|Q]; [|rewrite (generate_vtws_none l att th light Nl T Q) in H; discriminate].
  destruct (generate_vtws_spec l att th light Nl T Q) as (runs & ws' & E & A & F). assert (ws' = vtws) by congruence. subst ws'.
  destruct (Forall2_In_r _ _ _ _ F Iv) as ((a, b) & Ir & _ & (sb & Nb & Eb) & (sa & Na & Ea)). cbn [fst snd] in *.
  apply A in Ir. destruct Ir as (L & P & _).
  assert (NE : forall j j' x y, nth_error l j = Some x -> nth_error l j' = Some y -> (s_time x < s_time y)%Q -> j < j').
  { intros j j' x y Hx Hy Lt. destruct (lt_eq_lt_dec j j') as [[?| ->]|G]; auto; exfalso.
    - assert (x = y) by congruence. subst. now apply Qlt_irrefl in Lt.
    - pose proof (Inc j' j y x G Hy Hx). apply (Qlt_irrefl (s_time x)). eapply Qlt_trans; eauto. }
  destruct (Nat.eqb_spec a 0) as [->|A0].
  - exfalso. assert (length l - 1 < b) by (eapply NE; eauto; congruence). assert (b < length l) by (apply nth_error_Some; congruence). lia.
  - apply P. assert (a - 1 < i) by (eapply NE; eauto; congruence). split; [lia|]. destruct (le_lt_dec i b) as [|G]; auto. exfalso.
    pose proof (Inc b i sb s G Nb N) as X. rewrite Eb in X. apply (Qlt_irrefl (s_time s)). eapply Qle_lt_trans; eauto.
Qed.

(** ** The initial solution is a fixed point *)
Lemma find_slot_all h r : forall l k, (forall v, In v l -> try_window h r v = Ok None) -> find_slot h r k l = Ok None.
Proof. induction l as [|v l IH]; intros k H; cbn [find_slot]; auto. rewrite (H v) by now left. cbn [bind]. apply IH. intros; apply H; now right. Qed.
Lemma insert_nothing h n : forall is, (forall i, In i is -> i < length (reqs h) /\ done_with h i) -> insert_loop is h n = Ok h.
Proof.
  induction is as [|i is IH]; intros H; cbn [insert_loop]; auto. destruct (n =? 0)%Z; auto. destruct (H i (or_introl eq_refl)) as (L & D).
  destruct (py_nth_lt (reqs h) i L) as (r & E). rewrite E. cbn [bind]. apply py_nth_Ok in E. destruct (r_sched r) eqn:S; [apply IH; intros; apply H; now right|].
  rewrite find_slot_all by (intros v I; exact (D r E S v I)). cbn [bind]. apply IH. intros; apply H; now right.
Qed.
Lemma initialize_twice h h1 : reachable h -> initialize_solution h = Ok h1 -> initialize_solution h1 = Ok h1.
Proof.
  intros R H. destruct (reachable_inv h R) as ((C1 & _) & V).
  unfold initialize_solution in H. cbv zeta in H. fold (ordered h) in H. unfold insert_first_n in H.
  assert (L0 : h_n (ordered h) = length (reqs (ordered h))).
  { unfold ordered, sort_vtws_by_increasing_rise_time, sort_by_decreasing_priority. cbn [h_n reqs]. now rewrite map_length, py_sorted_length. }
  assert (Fl : filled (reqs (ordered h))).
  { intros r I S. unfold ordered, sort_vtws_by_increasing_rise_time in I. cbn [reqs] in I. apply in_map_iff in I. destruct I as (q & <- & Iq). cbn [set_vtws r_sched r_start r_sdur] in *.
    apply (valid_filled h V); auto. eapply Permutation_in; [symmetry; apply py_sorted_perm|exact Iq]. }
  pose proof (insert_loop_step _ _ _ _ H) as (F & E1 & _).
  assert (D : forall i, In i (seq 0 (h_n (ordered h))) -> done_with h1 i) by (eapply insert_loop_done; eauto; rewrite seq_length; lia).
  assert (PS : StronglySorted (py_le prio_lt) (reqs h1)).
  { eapply sorted_Forall2; [|exact F|apply ordered_prio]. intros x y St. destruct (insertion_step_props x y St) as ((_ & _ & _ & X & _) & _). exact X. }
  assert (RS : Forall rise_ordered (reqs h1)).
  { apply Forall_forall. intros r I. destruct (Forall2_In_r _ _ _ _ F I) as (q & Iq & St). pose proof (ordered_rise h) as O. rewrite Forall_forall in O. specialize (O q Iq). unfold rise_ordered in *.
    destruct St as [->|(_ & _ & k & v & st & -> & _)]; exact O. }
  unfold initialize_solution. cbv zeta. rewrite (sort_prio_id _ PS), (sort_rise_id _ RS). unfold insert_first_n. apply insert_nothing.
  assert (Ll : length (reqs h1) = length (reqs (ordered h))) by (symmetry; eapply Forall2_len; eauto).
  intros i I. rewrite E1 in I. split; [apply in_seq in I; lia|now apply D].
Qed.
