(** Sorts and insertion operators of the floating-point scheduler; every operation keeps the
    counters, the requests and the validity of bookings. *)
From Coq Require Import List ZArith Bool Arith Permutation Sorted Lia.
From Verif Require Import Py PyLemmas Fl_Model Fls_Model Fls_Spec Fls_Proofs.
Import ListNotations.
Open Scope nat_scope.
Open Scope list_scope.

(** The start time the scheduler proposes for [r] in window [v]. *)
Definition proposed_start (r : request) (v : vtw) (s : float) : Prop :=
  match r_look r with
  | NoLook => s = fstart (v_rise v) (v_set v) (in_days (r_dur r))
  | lk => look_angle_time (a_pitch (v_att v)) (a_unit (v_att v)) lk (a_time (v_att v)) (v_rise v) (v_set v)
          = Ok (Some s)
  end.
(** The tests that a booking at [s] in window [v] has passed. *)
Definition allowed (r : request) (v : vtw) (s : float) : Prop :=
  proposed_start r v s /\
  fwithin s (in_days (r_dur r)) (v_rise v) (v_set v) = true /\
  fdeadline s (in_days (r_dur r)) (r_deadline r) = true /\
  exists q, fquality (v_rise v) (v_set v) s = Ok q /\ (r_qual r <= q)%Z.
Definition booked_well (r : request) : Prop :=
  r_sched r = true /\ r_sdur r = Some (r_dur r) /\
  exists k v s, r_vidx r = Some k /\ r_start r = Some s /\
    nth_error (r_vtws r) k = Some v /\ allowed r v s.
Definition booked_in_some_window (r : request) : Prop :=
  r_sched r = true /\ r_sdur r = Some (r_dur r) /\
  exists v s, r_start r = Some s /\ In v (r_vtws r) /\ allowed r v s.

(** ** Sorts *)
Lemma same_static_refl r : same_static r r.
Proof. repeat split; auto. Qed.
Lemma same_booking_refl r : same_booking r r.
Proof. repeat split; auto. Qed.
Lemma same_static_trans a b c : same_static a b -> same_static b c -> same_static a c.
Proof.
  intros (?&?&?&?&?&?&?) (?&?&?&?&?&?&?). repeat split; try congruence. eapply perm_trans; eauto.
Qed.
Lemma same_booking_trans a b c : same_booking a b -> same_booking b c -> same_booking a c.
Proof. intros (?&?&?&?) (?&?&?&?). repeat split; congruence. Qed.

Lemma evolves_perm (R : request -> request -> Prop) h h' :
  (forall r, R r r) -> Permutation (reqs h) (reqs h') -> evolves R h h'.
Proof. intros Hr P. exists (reqs h'). split; auto. now apply Forall2_refl. Qed.
Lemma evolves_pos (R : request -> request -> Prop) h h' :
  Forall2 R (reqs h) (reqs h') -> evolves R h h'.
Proof. intros F. exists (reqs h). auto. Qed.
Lemma evolves_trans (R S T : request -> request -> Prop) h1 h2 h3 :
  (forall x y z, R x y -> S y z -> T x z) ->
  evolves R h1 h2 -> evolves S h2 h3 -> evolves T h1 h3.
Proof.
  intros H (l & P & F) (m & Q & G).
  destruct (Forall2_perm R l (reqs h2) m F Q) as (k & Pk & Fk).
  exists k. split; [eapply perm_trans; eauto|]. eapply Forall2_trans; eauto.
Qed.
Lemma evolves_impl (R S : request -> request -> Prop) h h' :
  (forall x y, R x y -> S x y) -> evolves R h h' -> evolves S h h'.
Proof. intros H (l & P & F). exists l. split; auto. eapply Forall2_impl'; eauto. Qed.

Lemma counters_perm h h' : counters_ok h -> Permutation (reqs h) (reqs h') ->
  h_n h' = h_n h -> h_nsched h' = h_nsched h -> counters_ok h'.
Proof.
  intros [C1 C2] P E1 E2. unfold counters_ok, scheduled_count, scheduled in *.
  fold (count (reqs h)) in *. fold (count (reqs h')). rewrite E1, E2, C1, C2.
  split; [now apply Permutation_length|]. now rewrite (count_perm _ _ P).
Qed.

Lemma mapM_py_nth_seq {A} (l : list A) : Forall2 (fun i x => py_nth l i = Ok x) (seq 0 (length l)) l.
Proof.
  assert (G : forall (k m : list A), Forall2 (fun i x => py_nth (k ++ m) i = Ok x) (seq (length k) (length m)) m).
  { intros k m. revert k. induction m as [|x m IH]; intros k; cbn; constructor.
    - apply py_nth_Ok. rewrite nth_error_app2 by lia. now rewrite Nat.sub_diag.
    - specialize (IH (k ++ [x])). rewrite app_length in IH. cbn in IH. rewrite Nat.add_1_r in IH.
      rewrite <- app_assoc in IH. exact IH. }
  apply (G []).
Qed.

Lemma Forall2_flip {A B} (R : A -> B -> Prop) l l' : Forall2 R l l' -> Forall2 (fun y x => R x y) l' l.
Proof. induction 1; auto. Qed.
Lemma Forall2_fun {A B} (f : A -> res B) l k m :
  Forall2 (fun x y => f x = Ok y) l k -> Forall2 (fun x y => f x = Ok y) l m -> k = m.
Proof.
  intros H. revert m. induction H; intros m G; inversion G; subst; auto. f_equal; [congruence|auto].
Qed.

Lemma map_snd_combine {A B} (l : list A) (l' : list B) : length l = length l' -> map snd (combine l l') = l'.
Proof. revert l'; induction l; intros [|y l']; cbn; intros H; try discriminate; auto. f_equal. auto. Qed.
Lemma map_fst_combine {A B} (l : list A) (l' : list B) : length l = length l' -> map fst (combine l l') = l.
Proof. revert l'; induction l; intros [|y l']; cbn; intros H; try discriminate; auto. f_equal. auto. Qed.

Lemma sort_conflict_spec h h' : sort_by_decreasing_conflict_degree h = Ok h' ->
  Permutation (reqs h) (reqs h') /\ h_n h' = h_n h /\ h_nsched h' = h_nsched h.
Proof.
  unfold sort_by_decreasing_conflict_degree. intros H.
  apply bind_Ok in H. destruct H as (dg & Ed & H).
  apply bind_Ok in H. destruct H as (so & Es & H).
  apply bind_Ok in H. destruct H as (l & El & H). injection H as <-. cbn. split; auto.
  apply py_sortedM_perm in Es. apply mapM_length in Ed. apply mapM_Forall2 in El.
  apply (Permutation_map snd) in Es. rewrite map_snd_combine in Es by now rewrite seq_length.
  rewrite Ed in Es.
  assert (P : Permutation (rev (map snd so)) (seq 0 (length (reqs h)))).
  { eapply perm_trans; [apply Permutation_sym, Permutation_rev|]. now symmetry. }
  apply Forall2_flip in El.
  destruct (Forall2_perm _ _ _ _ El P) as (k & Pk & Fk). apply Forall2_flip in Fk.
  rewrite (Forall2_fun _ _ _ _ Fk (mapM_py_nth_seq (reqs h))) in Pk. now symmetry.
Qed.

Definition reorder_windows (r r' : request) : Prop := same_static r r' /\ same_booking r r'.

Lemma sort_vtws_of_spec h i h' : sort_vtws_of h i = Ok h' ->
  Forall2 reorder_windows (reqs h) (reqs h') /\ h_n h' = h_n h /\ h_nsched h' = h_nsched h.
Proof.
  unfold sort_vtws_of. intros H.
  apply bind_Ok in H. destruct H as (r & Er & H).
  apply bind_Ok in H. destruct H as (dg & Ed & H).
  apply bind_Ok in H. destruct H as (so & Es & H). injection H as <-. cbn. split; auto.
  apply py_nth_Ok in Er.
  apply Forall2_upd; [split; auto using same_static_refl, same_booking_refl|].
  intros x Hx. assert (x = r) as -> by congruence.
  split; [|repeat split; auto]. repeat split; auto. cbn.
  apply py_sortedM_perm in Es. apply (Permutation_map snd) in Es.
  rewrite map_snd_combine in Es; auto. now apply mapM_length in Ed.
Qed.

Lemma for_each_rel {S} (R : S -> S -> Prop) body is : forall s s',
  (forall s, R s s) -> (forall a b c, R a b -> R b c -> R a c) ->
  (forall i s s', body i s = Ok s' -> R s s') ->
  for_each is body s = Ok s' -> R s s'.
Proof.
  induction is as [|i is IH]; intros s s' Hr Ht Hb; cbn.
  - intros [= <-]. auto.
  - intros H. apply bind_Ok in H. destruct H as (s1 & E & H). eauto.
Qed.

Lemma reorder_trans a b c : reorder_windows a b -> reorder_windows b c -> reorder_windows a c.
Proof. intros [A1 A2] [B1 B2]. split; eauto using same_static_trans, same_booking_trans. Qed.

Lemma sort_vtws_conflict_spec h h' : sort_vtws_by_increasing_conflict_degree h = Ok h' ->
  Forall2 reorder_windows (reqs h) (reqs h') /\ h_n h' = h_n h /\ h_nsched h' = h_nsched h.
Proof.
  unfold sort_vtws_by_increasing_conflict_degree.
  apply (for_each_rel (fun h h' => Forall2 reorder_windows (reqs h) (reqs h') /\
    h_n h' = h_n h /\ h_nsched h' = h_nsched h)).
  - intros s. split; auto. apply Forall2_refl. split; auto using same_static_refl, same_booking_refl.
  - intros a b c (F & E1 & E2) (G & E3 & E4). split; [|split; congruence].
    eapply Forall2_trans; [exact reorder_trans| |]; eauto.
  - intros i s s'. apply sort_vtws_of_spec.
Qed.

Lemma sort_vtws_rise_spec h :
  Forall2 reorder_windows (reqs h) (reqs (sort_vtws_by_increasing_rise_time h)).
Proof.
  cbn. induction (reqs h) as [|r l IH]; cbn; constructor; auto.
  split; repeat split; auto. cbn. apply py_sorted_perm.
Qed.

Lemma count_reorder l l' : Forall2 reorder_windows l l' -> count l' = count l.
Proof.
  induction 1 as [|r r' l l' [_ (S & _)] F IH]; auto. rewrite !count_cons. now rewrite S, IH.
Qed.

Lemma counters_reorder h h' : counters_ok h -> Forall2 reorder_windows (reqs h) (reqs h') ->
  h_n h' = h_n h -> h_nsched h' = h_nsched h -> counters_ok h'.
Proof.
  intros [C1 C2] F E1 E2. unfold counters_ok, scheduled_count, scheduled in *.
  fold (count (reqs h)) in *. fold (count (reqs h')). rewrite E1, E2, C1, C2.
  split; [eapply Forall2_len; eauto|]. now rewrite (count_reorder _ _ F).
Qed.

(** ** Conflict test *)
Definition filled (l : list request) : Prop :=
  forall r, In r l -> r_sched r = true -> exists s d, r_start r = Some s /\ r_sdur r = Some d.

Lemma conflict_loop_spec l start dd : filled l ->
  exists b, conflict_loop l start dd = Ok b /\
    (b = true <-> exists r s d, In r l /\ r_sched r = true /\ r_start r = Some s /\
                                r_sdur r = Some d /\ fconflict start dd s (in_days d) = true).
Proof.
  induction l as [|r l IH]; intros F.
  - exists false. split; auto. split; [discriminate|]. intros (? & ? & ? & [] & _).
  - cbn [conflict_loop].
    assert (F' : filled l) by (intros x Ix; apply F; now right).
    destruct (IH F') as (b & E & Hb). clear IH.
    destruct (r_sched r) eqn:S.
    + destruct (F r (or_introl eq_refl) S) as (s & d & Es & Ed). rewrite Es, Ed.
      assert (D : fconflict start dd s (in_days d) = true -> exists r0 s0 d0, In r0 (r :: l) /\ r_sched r0 = true /\ r_start r0 = Some s0 /\
                  r_sdur r0 = Some d0 /\ fconflict start dd s0 (in_days d0) = true).
      { intros M. exists r, s, d. split; [now left|]. auto. }
      assert (X : (if fle start s && flt s (fadd start dd) then Ok true
         else if flt start (fadd s (in_days d)) && fle (fadd s (in_days d)) (fadd start dd) then Ok true
         else if fle s start && fle (fadd start dd) (fadd s (in_days d)) then Ok true
         else conflict_loop l start dd) = if fconflict start dd s (in_days d) then Ok true else conflict_loop l start dd).
      { unfold fconflict. cbv zeta. destruct (fle start s && flt s (fadd start dd)); [reflexivity|].
        destruct (flt start (fadd s (in_days d)) && fle (fadd s (in_days d)) (fadd start dd)); [reflexivity|].
        destruct (fle s start && fle (fadd start dd) (fadd s (in_days d))); reflexivity. }
      cbv zeta. rewrite X. clear X. destruct (fconflict start dd s (in_days d)) eqn:B1.
      { exists true. split; auto. split; auto. }
      exists b. split; auto. rewrite Hb. split.
      * intros (x & sx & dx & I & R). exists x, sx, dx. split; [now right|auto].
      * intros (x & sx & dx & [<-|I] & A1 & A2 & A3 & A4); [|exists x, sx, dx; auto].
        exfalso. rewrite Es in A2. rewrite Ed in A3. injection A2 as <-. injection A3 as <-. congruence.
    + exists b. split; auto. rewrite Hb. split.
      * intros (x & sx & dx & I & R). exists x, sx, dx. split; [now right|auto].
      * intros (x & sx & dx & [<-|I] & A1 & R); [congruence|exists x, sx, dx; auto].
Qed.

Lemma filled_firstn l k : filled l -> filled (firstn k l).
Proof.
  intros F r I. apply F. rewrite <- (firstn_skipn k l). apply in_or_app. now left.
Qed.

Lemma conflict_exists_spec h start dd : h_n h = length (reqs h) -> filled (reqs h) ->
  exists b, does_conflict_exist h start dd = Ok b /\
    (b = true <-> exists r s d, In r (firstn (length (reqs h) - 1) (reqs h)) /\ r_sched r = true /\
        r_start r = Some s /\ r_sdur r = Some d /\ fconflict start dd s (in_days d) = true).
Proof.
  intros E F. unfold does_conflict_exist. rewrite (h_items_spec h E). cbn [bind].
  apply conflict_loop_spec. now apply filled_firstn.
Qed.

(** ** Windows *)
Lemma try_window_Some h r v s : try_window h r v = Ok (Some s) ->
  allowed r v s /\ does_conflict_exist h s (in_days (r_dur r)) = Ok false.
Proof.
  unfold try_window. intros H. apply bind_Ok in H. destruct H as (o & Eo & H).
  destruct o as [st|]; [|discriminate].
  destruct (is_window_within_vtw_bounds st (in_days (r_dur r)) v) eqn:B1; cbn [negb] in H; [|discriminate].
  destruct (does_window_meet_deadline st (in_days (r_dur r)) (r_deadline r)) eqn:B2; cbn [negb] in H; [|discriminate].
  apply bind_Ok in H. destruct H as (q & Eq & H).
  destruct q; cbn [negb] in H; [|discriminate].
  apply bind_Ok in H. destruct H as (c & Ec & H). destruct c; [discriminate|].
  assert (st = s) by congruence. subst st. clear H.
  unfold is_image_quality_met in Eq. apply bind_Ok in Eq. destruct Eq as (qq & E1 & E2).
  assert (E3 : (r_qual r <=? qq)%Z = true) by congruence. apply Z.leb_le in E3.
  split; auto. split; [|split; [exact B1|split; [exact B2|exists qq; split; [exact E1|exact E3]]]].
  unfold proposed_start. destruct (r_look r); auto. congruence.
Qed.

Lemma try_window_None h r v : try_window h r v = Ok None ->
  forall s, allowed r v s -> does_conflict_exist h s (in_days (r_dur r)) = Ok true.
Proof.
  unfold try_window. intros H s (P & A1 & A2 & q & A4 & A5).
  assert (E : match r_look r with
       | NoLook => Ok (Some (fstart (v_rise v) (v_set v) (in_days (r_dur r))))
       | lk => look_angle_time (a_pitch (v_att v)) (a_unit (v_att v)) lk (a_time (v_att v)) (v_rise v) (v_set v)
       end = Ok (Some s)).
  { unfold proposed_start in P. destruct (r_look r); auto. now rewrite P. }
  cbv zeta in H. rewrite E in H. cbn [bind] in H.
  unfold is_window_within_vtw_bounds, does_window_meet_deadline in H.
  rewrite A1, A2 in H. cbn [negb] in H. unfold is_image_quality_met, image_quality in H. rewrite A4 in H.
  cbn [bind] in H. apply Z.leb_le in A5. rewrite A5 in H. cbn [negb] in H.
  apply bind_Ok in H. destruct H as (c & Ec & H). destruct c; [auto|discriminate].
Qed.

(** [Ok None] only depends on the handler through the conflict test. *)
Lemma try_window_mono h h' r v :
  (forall s d, does_conflict_exist h s d = Ok true -> does_conflict_exist h' s d = Ok true) ->
  try_window h r v = Ok None -> try_window h' r v = Ok None.
Proof.
  intros M. unfold try_window. cbv zeta.
  match goal with |- context [bind ?x _] => destruct x as [[st|]|] end; cbn [bind]; auto.
  destruct (is_window_within_vtw_bounds _ _ _); cbn [negb]; auto.
  destruct (does_window_meet_deadline _ _ _); cbn [negb]; auto.
  destruct (is_image_quality_met _ _ _) as [[]|]; cbn [bind negb]; auto.
  intros H. apply bind_Ok in H. destruct H as (c & Ec & H). destruct c; [|discriminate].
  rewrite (M _ _ Ec). reflexivity.
Qed.

Lemma find_slot_Some h r : forall l k j s, find_slot h r k l = Ok (Some (j, s)) ->
  exists i v, j = k + i /\ nth_error l i = Some v /\ try_window h r v = Ok (Some s).
Proof.
  induction l as [|v l IH]; cbn; intros k j s H; [discriminate|].
  apply bind_Ok in H. destruct H as (o & Eo & H). destruct o as [st|].
  - injection H as <- <-. exists 0, v. split; [lia|]. auto.
  - destruct (IH _ _ _ H) as (i & w & -> & A & B). exists (S i), w. split; [lia|]. auto.
Qed.
Lemma find_slot_None h r : forall l k, find_slot h r k l = Ok None ->
  forall v, In v l -> try_window h r v = Ok None.
Proof.
  induction l as [|v l IH]; cbn; intros k H w; [tauto|].
  apply bind_Ok in H. destruct H as (o & Eo & H). destruct o as [st|]; [discriminate|].
  intros [<-|I]; eauto.
Qed.

(** ** The insertion loop *)
Lemma insert_loop_inv (P : handler -> Prop) :
  (forall h i r k s h', P h -> nth_error (reqs h) i = Some r -> r_sched r = false ->
     find_slot h r 0 (r_vtws r) = Ok (Some (k, s)) ->
     schedule_request h i k s (r_dur r) = Ok h' -> P h') ->
  forall is h n h', insert_loop is h n = Ok h' -> P h -> P h'.
Proof.
  intros St. induction is as [|i is IH]; cbn [insert_loop]; intros h n h' H Ph; [now injection H as <-|].
  destruct (n =? 0)%Z; [now injection H as <-|].
  apply bind_Ok in H. destruct H as (r & Er & H). apply py_nth_Ok in Er.
  destruct (r_sched r) eqn:S; [eauto|].
  apply bind_Ok in H. destruct H as (o & Eo & H).
  destruct o as [[k s]|]; [|eauto].
  apply bind_Ok in H. destruct H as (h1 & E1 & H). eauto.
Qed.

Lemma schedule_request_Ok h i k s d h' : schedule_request h i k s d = Ok h' ->
  h' = mkH (upd (reqs h) i (book k s d)) (h_n h) (h_nsched h + 1).
Proof. unfold schedule_request. intros H. apply bind_Ok in H. destruct H as (r & E & H). now injection H as <-. Qed.

(** What happens to each request. *)
Definition insertion_step (r r' : request) : Prop :=
  r' = r \/
  (r_sched r = false /\ booked_well r' /\
   exists k s, r' = book k s (r_dur r) r).

Lemma insertion_step_trans a b c : insertion_step a b -> insertion_step b c -> insertion_step a c.
Proof.
  intros [->|(A & B & C)]; auto. intros [->|(A' & _)]; [right; auto|].
  destruct B as (B & _). congruence.
Qed.

Lemma booking_step h r k s : r_sched r = false -> find_slot h r 0 (r_vtws r) = Ok (Some (k, s)) ->
  insertion_step r (book k s (r_dur r) r).
Proof.
  intros S F. apply find_slot_Some in F. destruct F as (i & v & -> & N & T).
  apply try_window_Some in T. destruct T as (A & _). right. split; auto. cbn in N. split.
  - split; [reflexivity|]. split; [reflexivity|]. exists i, v, s. split; [reflexivity|]. split; [reflexivity|]. split; [exact N|exact A].
  - exists i, s. auto.
Qed.

Lemma insert_loop_step is h n h' : insert_loop is h n = Ok h' ->
  Forall2 insertion_step (reqs h) (reqs h') /\ h_n h' = h_n h /\
  (h_nsched h' - h_nsched h = Z.of_nat (count (reqs h')) - Z.of_nat (count (reqs h)))%Z.
Proof.
  intros H.
  refine (insert_loop_inv (fun g => Forall2 insertion_step (reqs h) (reqs g) /\ h_n g = h_n h /\
    (h_nsched g - h_nsched h = Z.of_nat (count (reqs g)) - Z.of_nat (count (reqs h)))%Z) _ is h n h' H _).
  - intros g i r k s g' (F & E1 & E2) N S Fs Sc. apply schedule_request_Ok in Sc. subst g'. cbn [reqs h_n h_nsched].
    split; [|split; auto].
    + eapply Forall2_trans; [exact insertion_step_trans|exact F|].
      apply Forall2_upd; [now left|]. intros x Hx. assert (x = r) as -> by congruence.
      eapply booking_step; eauto.
    + pose proof (count_upd (reqs g) i (book k s (r_dur r)) r N) as C. rewrite S in C. cbn in C. lia.
  - split; [|split; [auto|lia]]. apply Forall2_refl. now left.
Qed.

Lemma insertion_step_props r r' : insertion_step r r' ->
  same_static r r' /\ (same_booking r r' \/ (r_sched r = false /\ booked_well r')).
Proof.
  intros [->|(A & B & k & s & ->)].
  - split; [apply same_static_refl|left; apply same_booking_refl].
  - split; [repeat split; auto|right; auto].
Qed.

Lemma insertion_filled l l' : Forall2 insertion_step l l' -> filled l -> filled l'.
Proof.
  intros F Fl r' I S. destruct (Forall2_In_r _ _ _ _ F I) as (r & Ir & [->|(_ & (_ & D & k & v & s & _ & St & _) & _)]).
  - apply Fl; auto.
  - eauto.
Qed.

(** At most [n] insertions. *)
Lemma insert_loop_limit is : forall h n h', insert_loop is h n = Ok h' -> (0 <= n)%Z ->
  (Z.of_nat (count (reqs h')) <= Z.of_nat (count (reqs h)) + n)%Z.
Proof.
  induction is as [|i is IH]; cbn [insert_loop]; intros h n h' H N; [injection H as <-; lia|].
  destruct (Z.eqb_spec n 0); [injection H as <-; lia|].
  apply bind_Ok in H. destruct H as (r & Er & H). apply py_nth_Ok in Er.
  destruct (r_sched r) eqn:S; [eauto|].
  apply bind_Ok in H. destruct H as (o & Eo & H).
  destruct o as [[k s]|]; [|eauto].
  apply bind_Ok in H. destruct H as (h1 & E1 & H). apply schedule_request_Ok in E1. subst h1.
  apply IH in H; [|lia]. cbn [reqs] in H.
  pose proof (count_upd (reqs h) i (book k s (r_dur r)) r Er) as C. rewrite S in C. cbn in C. lia.
Qed.

(** Bookings only add conflicts. *)
Definition keeps_bookings (r r' : request) : Prop := r_sched r = true -> r' = r.

Lemma step_keeps r r' : insertion_step r r' -> keeps_bookings r r'.
Proof. intros [->|(A & _)] S; congruence. Qed.

Lemma conflict_mono h h' : h_n h = length (reqs h) -> h_n h' = h_n h -> filled (reqs h) ->
  filled (reqs h') -> Forall2 keeps_bookings (reqs h) (reqs h') ->
  forall s d, does_conflict_exist h s d = Ok true -> does_conflict_exist h' s d = Ok true.
Proof.
  intros E E' Fl Fl' K s d H.
  assert (L : length (reqs h) = length (reqs h')) by (eapply Forall2_len; eauto).
  destruct (conflict_exists_spec h s d E Fl) as (b & Eb & Hb).
  destruct (conflict_exists_spec h' s d) as (b' & Eb' & Hb'); [congruence|auto|].
  rewrite Eb in H. injection H as ->. rewrite Eb'. f_equal. apply Hb'.
  destruct (proj1 Hb eq_refl) as (r & sr & dr & I & A1 & A2 & A3 & A4).
  exists r, sr, dr. split; auto. rewrite <- L.
  apply In_nth_error in I. destruct I as (j & Nj).
  assert (Lj : j < length (firstn (length (reqs h) - 1) (reqs h))).
  { apply nth_error_Some. congruence. }
  rewrite firstn_length in Lj.
  assert (Nj' : nth_error (reqs h) j = Some r).
  { rewrite <- (firstn_skipn (length (reqs h) - 1) (reqs h)). rewrite nth_error_app1; auto.
    rewrite firstn_length. lia. }
  destruct (Forall2_nth _ _ _ K j r Nj') as (r' & Nr' & Kr). rewrite (Kr A1) in Nr'.
  apply nth_error_In with j. rewrite <- Nr'.
  rewrite <- (firstn_skipn (length (reqs h) - 1) (reqs h')) at 2.
  rewrite nth_error_app1; auto. rewrite firstn_length. lia.
Qed.

(** Processed requests are scheduled or have no window left. *)
Definition done_with (h : handler) (i : nat) : Prop :=
  forall r, nth_error (reqs h) i = Some r -> r_sched r = false ->
  forall v, In v (r_vtws r) -> try_window h r v = Ok None.

Lemma done_mono h h' i : h_n h = length (reqs h) -> h_n h' = h_n h -> filled (reqs h) ->
  Forall2 insertion_step (reqs h) (reqs h') -> done_with h i -> done_with h' i.
Proof.
  intros E E' Fl F D r N S v I.
  destruct (Forall2_nth_r _ _ _ F i r N) as (r0 & N0 & [->|(_ & (B & _) & _)]); [|congruence].
  apply try_window_mono with h; [|eapply D; eauto].
  apply conflict_mono; auto.
  - eapply insertion_filled; eauto.
  - eapply Forall2_impl'; [exact step_keeps|exact F].
Qed.

Lemma insert_loop_done : forall is h n h',
  insert_loop is h n = Ok h' -> (n < 0 \/ Z.of_nat (length is) <= n)%Z ->
  h_n h = length (reqs h) -> filled (reqs h) ->
  forall i, In i is -> done_with h' i.
Proof.
  induction is as [|i is IH]; cbn [insert_loop]; intros h n h' H N E Fl j I; [destruct I|].
  cbn [length] in N. destruct (Z.eqb_spec n 0); [lia|].
  apply bind_Ok in H. destruct H as (r & Er & H). apply py_nth_Ok in Er.
  destruct (r_sched r) eqn:S.
  { destruct I as [<-|I]; [|eapply IH; eauto; lia].
    apply insert_loop_step in H. destruct H as (F & E1 & _).
    intros x Nx Sx. destruct (Forall2_nth _ _ _ F i r Er) as (r' & Nr' & St).
    apply step_keeps in St. rewrite (St S) in Nr'. congruence. }
  apply bind_Ok in H. destruct H as (o & Eo & H).
  destruct o as [[k s]|].
  - apply bind_Ok in H. destruct H as (h1 & E1 & H). apply schedule_request_Ok in E1.
    assert (F1 : Forall2 insertion_step (reqs h) (reqs h1)).
    { subst h1. cbn. apply Forall2_upd; [now left|]. intros x Hx. assert (x = r) as -> by congruence.
      eapply booking_step; eauto. }
    assert (E2 : h_n h1 = length (reqs h1)).
    { subst h1. cbn. now rewrite upd_length. }
    assert (Fl1 : filled (reqs h1)) by (eapply insertion_filled; eauto).
    destruct I as [<-|I]; [|eapply IH; eauto; lia].
    apply insert_loop_step in H. destruct H as (F & E3 & _).
    intros x Nx Sx.
    assert (N1 : nth_error (reqs h1) i = Some (book k s (r_dur r) r)).
    { subst h1. cbn. rewrite nth_error_upd, Nat.eqb_refl, Er. reflexivity. }
    destruct (Forall2_nth _ _ _ F i _ N1) as (r' & Nr' & St).
    apply step_keeps in St. rewrite (St eq_refl) in Nr'. rewrite Nr' in Nx. injection Nx as <-. discriminate.
  - destruct I as [<-|I]; [|eapply IH; eauto; lia].
    apply insert_loop_step in H. destruct H as (F & E3 & _).
    eapply done_mono; eauto.
    intros x Nx Sx v Iv. assert (x = r) as -> by congruence. eapply find_slot_None; eauto.
Qed.

(** ** Operations *)
Definition op_step (r r' : request) : Prop :=
  same_static r r' /\ (same_booking r r' \/ no_booking r' \/ booked_well r').

Lemma op_refl r : op_step r r.
Proof. split; [apply same_static_refl|left; apply same_booking_refl]. Qed.
Lemma reorder_op r r' : reorder_windows r r' -> op_step r r'.
Proof. intros [A B]. split; auto. Qed.
Lemma removal_op r r' : removal_step r r' -> op_step r r'.
Proof.
  intros H. split; [now apply removal_step_static|]. destruct H as [->| ->]; [left; apply same_booking_refl|].
  right. left. repeat split.
Qed.
Lemma insertion_op r r' : insertion_step r r' -> op_step r r'.
Proof. intros H. apply insertion_step_props in H. destruct H as (A & [B|(_ & B)]); split; auto. Qed.

(** Reordering followed by a removal or insertion. *)
Lemma reorder_then_op a b c : reorder_windows a b -> op_step b c -> op_step a c.
Proof.
  intros [A1 A2] [B1 B2]. split; [eauto using same_static_trans|].
  destruct B2 as [B2|[B2|B2]]; eauto using same_booking_trans.
Qed.

Lemma counters_insert is h n h' : counters_ok h -> insert_loop is h n = Ok h' -> counters_ok h'.
Proof.
  intros [C1 C2] H. apply insert_loop_step in H. destruct H as (F & E1 & E2).
  unfold counters_ok, scheduled_count, scheduled in *. fold (count (reqs h)) in *. fold (count (reqs h')).
  split; [rewrite E1, C1; eapply Forall2_len; eauto|]. lia.
Qed.

Lemma sorted_handler lt h : counters_ok h ->
  let h' := mkH (py_sorted lt (reqs h)) (h_n h) (h_nsched h) in
  counters_ok h' /\ evolves op_step h h'.
Proof.
  intros C h'. assert (P : Permutation (reqs h) (reqs h')) by apply py_sorted_perm.
  split; [eapply counters_perm; eauto|]. apply evolves_perm; auto using op_refl.
Qed.

Lemma evolves_op_then h1 h2 h3 :
  Permutation (reqs h1) (reqs h2) -> evolves op_step h2 h3 -> evolves op_step h1 h3.
Proof. intros P (l & Q & F). exists l. split; auto. eapply perm_trans; eauto. Qed.

Lemma remove_first_op h n h' : counters_ok h -> remove_first_n_scheduled h n = Ok h' ->
  counters_ok h' /\ evolves op_step h h'.
Proof.
  intros C H. destruct (remove_first_spec h n C) as (h2 & m & E & C' & F & _).
  rewrite E in H. injection H as <-. split; auto. apply evolves_pos.
  eapply Forall2_impl'; [exact removal_op|exact F].
Qed.

Lemma insert_op is h n h' : counters_ok h -> insert_loop is h n = Ok h' ->
  counters_ok h' /\ evolves op_step h h'.
Proof.
  intros C H. split; [eapply counters_insert; eauto|]. apply insert_loop_step in H.
  apply evolves_pos. eapply Forall2_impl'; [exact insertion_op|apply H].
Qed.

Lemma operation_spec o h h' : counters_ok h -> run_operation o h = Ok h' ->
  counters_ok h' /\
  (evolves op_step h h' \/
   exists loc dl du pr qu lk ws, o = OpAdd loc dl du pr qu lk ws /\
     reqs h' = reqs h ++ [new_request loc dl du pr qu lk ws]).
Proof.
  intros C H. destruct o; cbn [run_operation] in H.
  - injection H as <-. split.
    + destruct C as [C1 C2]. unfold add_request, counters_ok, scheduled_count, scheduled in *. cbn [reqs h_n h_nsched].
      rewrite filter_app, !app_length. cbn. rewrite C1, C2. split; lia.
    + right. do 7 eexists. split; reflexivity.
  - injection H as <-. destruct (sorted_handler (fun x y => (r_prio y <? r_prio x)%Z) h C). auto.
  - injection H as <-. destruct (sorted_handler (fun x y => (length (r_vtws y) <? length (r_vtws x))%nat) h C). auto.
  - injection H as <-. destruct (sorted_handler (fun x y => (length (r_vtws x) <? length (r_vtws y))%nat) h C). auto.
  - apply sort_conflict_spec in H. destruct H as (P & E1 & E2).
    split; [eapply counters_perm; eauto|]. left. apply evolves_perm; auto using op_refl.
  - apply sort_vtws_conflict_spec in H. destruct H as (F & E1 & E2).
    split; [eapply counters_reorder; eauto|]. left. apply evolves_pos. eapply Forall2_impl'; [exact reorder_op|auto].
  - injection H as <-. pose proof (sort_vtws_rise_spec h) as F.
    split; [eapply counters_reorder; eauto|]. left. apply evolves_pos. eapply Forall2_impl'; [exact reorder_op|auto].
  - rewrite (unschedule_all_spec h (proj1 C)) in H. injection H as <-. split.
    + destruct C as [C1 C2]. split; cbn; [now rewrite map_length|].
      unfold scheduled_count, scheduled. cbn. now rewrite filter_unbook.
    + left. apply evolves_pos. eapply Forall2_impl'; [exact removal_op|apply unbook_step].
  - destruct which as [|[|[|[|[|w]]]]]; cbn in H; try (injection H as <-; split; auto; left; apply evolves_perm; auto using op_refl).
    + destruct (random_removal_spec rnd h n C) as (h2 & E & C' & F & _). rewrite E in H. injection H as <-.
      split; auto. left. apply evolves_pos. eapply Forall2_impl'; [exact removal_op|exact F].
    + destruct (sorted_handler (fun x y => (r_prio y <? r_prio x)%Z) h C) as (C' & _).
      apply remove_first_op in H; auto. destruct H as (C'' & Ev). split; auto. left.
      eapply evolves_op_then; [|exact Ev]. apply py_sorted_perm.
    + destruct (sorted_handler (fun x y => (length (r_vtws y) <? length (r_vtws x))%nat) h C) as (C' & _).
      apply remove_first_op in H; auto. destruct H as (C'' & Ev). split; auto. left.
      eapply evolves_op_then; [|exact Ev]. apply py_sorted_perm.
    + unfold conflict_removal in H. apply bind_Ok in H. destruct H as (h1 & E & H).
      apply sort_conflict_spec in E. destruct E as (P & E1 & E2).
      apply remove_first_op in H; [|eapply counters_perm; eauto]. destruct H as (C'' & Ev). split; auto. left.
      eapply evolves_op_then; eauto.
  - destruct which as [|[|[|[|w]]]]; cbn in H; try (injection H as <-; split; auto; left; apply evolves_perm; auto using op_refl).
    + destruct (sorted_handler (fun x y => (r_prio y <? r_prio x)%Z) h C) as (C' & _).
      apply insert_op in H; auto. destruct H as (C'' & Ev). split; auto. left.
      eapply evolves_op_then; [|exact Ev]. apply py_sorted_perm.
    + destruct (sorted_handler (fun x y => (length (r_vtws x) <? length (r_vtws y))%nat) h C) as (C' & _).
      apply insert_op in H; auto. destruct H as (C'' & Ev). split; auto. left.
      eapply evolves_op_then; [|exact Ev]. apply py_sorted_perm.
    + unfold minimum_conflict_insertion in H. apply bind_Ok in H. destruct H as (h1 & E & H).
      apply sort_vtws_conflict_spec in E. destruct E as (F & E1 & E2).
      apply insert_op in H; [|eapply counters_reorder; eauto]. destruct H as (C'' & Ev). split; auto. left.
      eapply (evolves_trans reorder_windows op_step op_step); [exact reorder_then_op|apply evolves_pos; exact F|exact Ev].
  - unfold initialize_solution in H. cbv zeta in H.
    destruct (sorted_handler (fun x y => (r_prio y <? r_prio x)%Z) h C) as (C' & _).
    set (h1 := sort_by_decreasing_priority h) in *.
    pose proof (sort_vtws_rise_spec h1) as F.
    assert (C2 : counters_ok (sort_vtws_by_increasing_rise_time h1)) by (eapply counters_reorder; eauto).
    apply insert_op in H; auto. destruct H as (C'' & Ev). split; auto. left.
    apply (evolves_op_then h h1 h'); [apply (py_sorted_perm (fun x y => (r_prio y <? r_prio x)%Z))|].
    eapply (evolves_trans reorder_windows op_step op_step); [exact reorder_then_op|apply evolves_pos; exact F|exact Ev].
Qed.

Lemma allowed_static r r' v s : same_static r r' -> allowed r v s -> allowed r' v s.
Proof.
  intros (_ & E2 & E3 & _ & E5 & E6 & _) (A & B & C & q & D & E). unfold allowed, proposed_start in *. rewrite E2, E3, E5, E6. eauto 10.
Qed.

Definition valid_booking (r : request) : Prop := r_sched r = true -> booked_in_some_window r.

Lemma booked_well_some r : booked_well r -> booked_in_some_window r.
Proof.
  intros (A & B & k & v & s & C & D & E & F). split; auto. split; auto. exists v, s. split; auto. split; auto.
  eapply nth_error_In; eauto.
Qed.

Lemma op_step_valid r r' : op_step r r' -> valid_booking r -> valid_booking r'.
Proof.
  intros (St & [(B1 & B2 & B3 & B4)|[(B & _)|B]]) V S.
  - rewrite B1 in S. destruct (V S) as (_ & D & v & s & Es & Iv & Al).
    split; [congruence|]. split.
    + rewrite B3, D. f_equal. symmetry. apply St.
    + exists v, s. split; [congruence|]. split; [|eapply allowed_static; eauto].
      destruct St as (_&_&_&_&_&_&P). eapply Permutation_in; eauto.
  - congruence.
  - now apply booked_well_some.
Qed.

(** Reordering, booking and unbooking keep a request ordinary. *)
Lemma ordinary_static r r' : same_static r r' -> ordinary_request r -> ordinary_request r'.
Proof.
  intros (_ & E2 & E3 & _ & _ & _ & P) (A & B & C). unfold ordinary_request. rewrite E2, E3. split; auto. split; auto.
  intros v I. apply C. eapply Permutation_in; [symmetry; exact P|exact I].
Qed.
Definition invariant (h : handler) : Prop :=
  counters_ok h /\ (forall r, In r (reqs h) -> valid_booking r) /\ (forall r, In r (reqs h) -> ordinary_request r).
Lemma evolves_invariant h h' : counters_ok h' -> evolves op_step h h' -> invariant h -> invariant h'.
Proof.
  intros C (l & P & F) (_ & V & O). split; auto. split; intros r I; destruct (Forall2_In_r _ _ _ _ F I) as (q & Iq & St);
    (assert (Iq' : In q (reqs h)) by (eapply Permutation_in; [symmetry; eauto|auto])).
  - eapply op_step_valid; eauto.
  - eapply ordinary_static; [apply St|auto].
Qed.
Lemma operation_invariant o h h' : ordinary_operation o -> run_operation o h = Ok h' -> invariant h -> invariant h'.
Proof.
  intros Oo E Iv. pose proof Iv as (C & V & O). destruct (operation_spec o h h' C E) as (C1 & Ev).
  destruct Ev as [Ev|(loc & dl & du & pr & qu & lk & ws & -> & Er)]; [eapply evolves_invariant; eauto|].
  split; auto. rewrite Er. split; intros r I; apply in_app_iff in I; destruct I as [I|[<-|[]]]; auto. intros S. discriminate.
Qed.
Lemma history_invariant os : forall h h', Forall ordinary_operation os -> run_history os h = Ok h' -> invariant h -> invariant h'.
Proof.
  induction os as [|o os IH]; cbn [run_history]; intros h h' Fo H Iv; [injection H as <-; auto|].
  apply Forall_cons_iff in Fo. destruct Fo as (Oo & Fo).
  destruct (run_operation o h) as [h1|] eqn:E; [|discriminate]. apply (IH h1); auto. eapply operation_invariant; eauto.
Qed.
Lemma reachable_inv h : reachable h -> invariant h.
Proof.
  intros (os & Fo & H). apply (history_invariant os empty_handler h); auto. split; [split; reflexivity|split; intros r []].
Qed.
Lemma valid_filled h : (forall r, In r (reqs h) -> valid_booking r) -> filled (reqs h).
Proof. intros V r I S. destruct (V r I S) as (_ & D & v & s & E & _). eauto. Qed.
