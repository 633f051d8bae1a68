(** Sorts and insertion operators. *)
From Coq Require Import List ZArith QArith Qabs Qround Bool Arith Permutation Sorted Lia Lqa Qfield.
From Verif Require Import Py PyLemmas Sched_Model Sched_Spec Sched_Proofs.
Import ListNotations.
Open Scope nat_scope.
Open Scope list_scope.

(** ** Sorts *)
Lemma same_static_refl r : same_static r r.
Proof. repeat split; auto. Qed.
Lemma same_booking_refl r : same_booking r r.
Proof. repeat split; auto. Qed.
Lemma same_static_trans a b c : same_static a b -> same_static b c -> same_static a c.
Proof.
  intros (?&?&?&?&?&?&?) (?&?&?&?&?&?&?). repeat split; try congruence. eapply perm_trans; eauto.
Qed.
Lemma same_booking_trans a b c : same_booking a b -> same_booking b c -> same_booking a c.
Proof. intros (?&?&?&?) (?&?&?&?). repeat split; congruence. Qed.

Lemma evolves_perm (R : request -> request -> Prop) h h' :
  (forall r, R r r) -> Permutation (reqs h) (reqs h') -> evolves R h h'.
Proof. intros Hr P. exists (reqs h'). split; auto. now apply Forall2_refl. Qed.
Lemma evolves_pos (R : request -> request -> Prop) h h' :
  Forall2 R (reqs h) (reqs h') -> evolves R h h'.
Proof. intros F. exists (reqs h). auto. Qed.
Lemma evolves_trans (R S T : request -> request -> Prop) h1 h2 h3 :
  (forall x y z, R x y -> S y z -> T x z) ->
  evolves R h1 h2 -> evolves S h2 h3 -> evolves T h1 h3.
Proof.
  intros H (l & P & F) (m & Q & G).
  destruct (Forall2_perm R l (reqs h2) m F Q) as (k & Pk & Fk).
  exists k. split; [eapply perm_trans; eauto|]. eapply Forall2_trans; eauto.
Qed.
Lemma evolves_impl (R S : request -> request -> Prop) h h' :
  (forall x y, R x y -> S x y) -> evolves R h h' -> evolves S h h'.
Proof. intros H (l & P & F). exists l. split; auto. eapply Forall2_impl'; eauto. Qed.

Lemma counters_perm h h' : counters_ok h -> Permutation (reqs h) (reqs h') ->
  h_n h' = h_n h -> h_nsched h' = h_nsched h -> counters_ok h'.
Proof.
  intros [C1 C2] P E1 E2. unfold counters_ok, scheduled_count, scheduled in *.
  fold (count (reqs h)) in *. fold (count (reqs h')). rewrite E1, E2, C1, C2.
  split; [now apply Permutation_length|]. now rewrite (count_perm _ _ P).
Qed.

Lemma mapM_py_nth_seq {A} (l : list A) : Forall2 (fun i x => py_nth l i = Ok x) (seq 0 (length l)) l.
Proof.
  assert (G : forall (k m : list A), Forall2 (fun i x => py_nth (k ++ m) i = Ok x) (seq (length k) (length m)) m).
  { intros k m. revert k. induction m as [|x m IH]; intros k; cbn; constructor.
    - apply py_nth_Ok. rewrite nth_error_app2 by lia. now rewrite Nat.sub_diag.
    - specialize (IH (k ++ [x])). rewrite app_length in IH. cbn in IH. rewrite Nat.add_1_r in IH.
      rewrite <- app_assoc in IH. exact IH. }
  apply (G []).
Qed.

Lemma Forall2_flip {A B} (R : A -> B -> Prop) l l' : Forall2 R l l' -> Forall2 (fun y x => R x y) l' l.
Proof. induction 1; auto. Qed.
Lemma Forall2_fun {A B} (f : A -> res B) l k m :
  Forall2 (fun x y => f x = Ok y) l k -> Forall2 (fun x y => f x = Ok y) l m -> k = m.
Proof.
  intros H. revert m. induction H; intros m G; inversion G; subst; auto. f_equal; [congruence|auto].
Qed.

Lemma map_snd_combine {A B} (l : list A) (l' : list B) : length l = length l' -> map snd (combine l l') = l'.
Proof. revert l'; induction l; intros [|y l']; cbn; intros H; try discriminate; auto. f_equal. auto. Qed.
Lemma map_fst_combine {A B} (l : list A) (l' : list B) : length l = length l' -> map fst (combine l l') = l.
Proof. revert l'; induction l; intros [|y l']; cbn; intros H; try discriminate; auto. f_equal. auto. Qed.

Lemma sort_conflict_spec h h' : sort_by_decreasing_conflict_degree h = Ok h' ->
  Permutation (reqs h) (reqs h') /\ h_n h' = h_n h /\ h_nsched h' = h_nsched h.
Proof.
  unfold sort_by_decreasing_conflict_degree. intros H.
  apply bind_Ok in H. destruct H as (dg & Ed & H).
  apply bind_Ok in H. destruct H as (so & Es & H).
  apply bind_Ok in H. destruct H as (l & El & H). injection H as <-. cbn. split; auto.
  apply py_sortedM_perm in Es. apply mapM_length in Ed. apply mapM_Forall2 in El.
  apply (Permutation_map snd) in Es. rewrite map_snd_combine in Es by now rewrite seq_length.
  rewrite Ed in Es.
  assert (P : Permutation (rev (map snd so)) (seq 0 (length (reqs h)))).
  { eapply perm_trans; [apply Permutation_sym, Permutation_rev|]. now symmetry. }
  apply Forall2_flip in El.
  destruct (Forall2_perm _ _ _ _ El P) as (k & Pk & Fk). apply Forall2_flip in Fk.
  rewrite (Forall2_fun _ _ _ _ Fk (mapM_py_nth_seq (reqs h))) in Pk. now symmetry.
Qed.

Definition reorder_windows (r r' : request) : Prop := same_static r r' /\ same_booking r r'.

Lemma sort_vtws_of_spec h i h' : sort_vtws_of h i = Ok h' ->
  Forall2 reorder_windows (reqs h) (reqs h') /\ h_n h' = h_n h /\ h_nsched h' = h_nsched h.
Proof.
  unfold sort_vtws_of. intros H.
  apply bind_Ok in H. destruct H as (r & Er & H).
  apply bind_Ok in H. destruct H as (dg & Ed & H).
  apply bind_Ok in H. destruct H as (so & Es & H). injection H as <-. cbn. split; auto.
  apply py_nth_Ok in Er.
  apply Forall2_upd; [split; auto using same_static_refl, same_booking_refl|].
  intros x Hx. assert (x = r) as -> by congruence.
  split; [|repeat split; auto]. repeat split; auto. cbn.
  apply py_sortedM_perm in Es. apply (Permutation_map snd) in Es.
  rewrite map_snd_combine in Es; auto. now apply mapM_length in Ed.
Qed.

Lemma for_each_rel {S} (R : S -> S -> Prop) body is : forall s s',
  (forall s, R s s) -> (forall a b c, R a b -> R b c -> R a c) ->
  (forall i s s', body i s = Ok s' -> R s s') ->
  for_each is body s = Ok s' -> R s s'.
Proof.
  induction is as [|i is IH]; intros s s' Hr Ht Hb; cbn.
  - intros [= <-]. auto.
  - intros H. apply bind_Ok in H. destruct H as (s1 & E & H). eauto.
Qed.

Lemma reorder_trans a b c : reorder_windows a b -> reorder_windows b c -> reorder_windows a c.
Proof. intros [A1 A2] [B1 B2]. split; eauto using same_static_trans, same_booking_trans. Qed.

Lemma sort_vtws_conflict_spec h h' : sort_vtws_by_increasing_conflict_degree h = Ok h' ->
  Forall2 reorder_windows (reqs h) (reqs h') /\ h_n h' = h_n h /\ h_nsched h' = h_nsched h.
Proof.
  unfold sort_vtws_by_increasing_conflict_degree.
  apply (for_each_rel (fun h h' => Forall2 reorder_windows (reqs h) (reqs h') /\
    h_n h' = h_n h /\ h_nsched h' = h_nsched h)).
  - intros s. split; auto. apply Forall2_refl. split; auto using same_static_refl, same_booking_refl.
  - intros a b c (F & E1 & E2) (G & E3 & E4). split; [|split; congruence].
    eapply Forall2_trans; [exact reorder_trans| |]; eauto.
  - intros i s s'. apply sort_vtws_of_spec.
Qed.

Lemma sort_vtws_rise_spec h :
  Forall2 reorder_windows (reqs h) (reqs (sort_vtws_by_increasing_rise_time h)).
Proof.
  cbn. induction (reqs h) as [|r l IH]; cbn; constructor; auto.
  split; repeat split; auto. cbn. apply py_sorted_perm.
Qed.

Lemma count_reorder l l' : Forall2 reorder_windows l l' -> count l' = count l.
Proof.
  induction 1 as [|r r' l l' [_ (S & _)] F IH]; auto. rewrite !count_cons. now rewrite S, IH.
Qed.

Lemma counters_reorder h h' : counters_ok h -> Forall2 reorder_windows (reqs h) (reqs h') ->
  h_n h' = h_n h -> h_nsched h' = h_nsched h -> counters_ok h'.
Proof.
  intros [C1 C2] F E1 E2. unfold counters_ok, scheduled_count, scheduled in *.
  fold (count (reqs h)) in *. fold (count (reqs h')). rewrite E1, E2, C1, C2.
  split; [eapply Forall2_len; eauto|]. now rewrite (count_reorder _ _ F).
Qed.

(** ** Conflict test *)
Definition filled (l : list request) : Prop :=
  forall r, In r l -> r_sched r = true -> exists s d, r_start r = Some s /\ r_sdur r = Some d.

(** The three conditions of does_conflict_exist. *)
Definition meets (start dd s e : Q) : Prop :=
  ((start <= s /\ s < start + dd) \/ (start < e /\ e <= start + dd) \/
   (s <= start /\ start + dd <= e))%Q.

Lemma conflict_loop_spec l start dd : filled l ->
  exists b, conflict_loop l start dd = Ok b /\
    (b = true <-> exists r s d, In r l /\ r_sched r = true /\ r_start r = Some s /\
                                r_sdur r = Some d /\ meets start dd s (s + in_days d)).
Proof.
  induction l as [|r l IH]; intros F.
  - exists false. split; auto. split; [discriminate|]. intros (? & ? & ? & [] & _).
  - cbn [conflict_loop].
    assert (F' : filled l) by (intros x Ix; apply F; now right).
    destruct (IH F') as (b & E & Hb). clear IH.
    destruct (r_sched r) eqn:S.
    + destruct (F r (or_introl eq_refl) S) as (s & d & Es & Ed). rewrite Es, Ed.
      set (e := (s + in_days d)%Q) in *.
      assert (D : meets start dd s e -> exists r0 s0 d0, In r0 (r :: l) /\ r_sched r0 = true /\ r_start r0 = Some s0 /\
                  r_sdur r0 = Some d0 /\ meets start dd s0 (s0 + in_days d0)).
      { intros M. exists r, s, d. split; [now left|]. auto. }
      destruct (Qleb start s && Qltb s (start + dd))%bool eqn:B1.
      { exists true. split; auto. split; auto. intros _. apply D. left. now qb. }
      destruct (Qltb start e && Qleb e (start + dd))%bool eqn:B2.
      { exists true. split; auto. split; auto. intros _. apply D. right. left. now qb. }
      destruct (Qleb s start && Qleb (start + dd) e)%bool eqn:B3.
      { exists true. split; auto. split; auto. intros _. apply D. right. right. now qb. }
      exists b. split; auto. rewrite Hb. split.
      * intros (x & sx & dx & I & R). exists x, sx, dx. split; [now right|auto].
      * intros (x & sx & dx & [<-|I] & A1 & A2 & A3 & A4); [|exists x, sx, dx; auto].
        exfalso. rewrite Es in A2. rewrite Ed in A3. injection A2 as <-. injection A3 as <-.
        fold e in A4. unfold meets in A4. qb. lra.
    + exists b. split; auto. rewrite Hb. split.
      * intros (x & sx & dx & I & R). exists x, sx, dx. split; [now right|auto].
      * intros (x & sx & dx & [<-|I] & A1 & R); [congruence|exists x, sx, dx; auto].
Qed.

Lemma meets_iff start dd s d : (0 < dd)%Q -> (0 < d)%Q ->
  meets start dd s (s + d) <-> intervals_meet start dd s d.
Proof.
  intros P1 P2. unfold meets, intervals_meet. split.
  - intros H. destruct (Qlt_le_dec start s).
    + exists s. lra.
    + exists start. lra.
  - intros (t & A & B). destruct (Qlt_le_dec start s); [left; lra|].
    destruct (Qlt_le_dec (start + dd) (s + d)); [right; right; lra|]. right. left. lra.
Qed.
(** Soundness needs no sign condition. *)
Lemma meet_meets start dd s d : intervals_meet start dd s d -> meets start dd s (s + d).
Proof. intros (t & A & B). apply meets_iff; [lra|lra|]. exists t. auto. Qed.

Lemma filled_firstn l k : filled l -> filled (firstn k l).
Proof.
  intros F r I. apply F. rewrite <- (firstn_skipn k l). apply in_or_app. now left.
Qed.

Lemma conflict_exists_spec h start dd : h_n h = length (reqs h) -> filled (reqs h) ->
  exists b, does_conflict_exist h start dd = Ok b /\
    (b = true <-> exists r s d, In r (firstn (length (reqs h) - 1) (reqs h)) /\ r_sched r = true /\
        r_start r = Some s /\ r_sdur r = Some d /\ meets start dd s (s + in_days d)).
Proof.
  intros E F. unfold does_conflict_exist. rewrite (h_items_spec h E). cbn [bind].
  apply conflict_loop_spec. now apply filled_firstn.
Qed.

(** ** Windows *)
Lemma try_window_Some h r v s : try_window h r v = Ok (Some s) ->
  allowed r v s /\ proposed_start r v s /\ does_conflict_exist h s (in_days (r_dur r)) = Ok false.
Proof.
  unfold try_window. intros H. apply bind_Ok in H. destruct H as (o & Eo & H).
  destruct o as [st|]; [|discriminate].
  destruct (is_window_within_vtw_bounds st (in_days (r_dur r)) v) eqn:B1; cbn [negb] in H; [|discriminate].
  destruct (does_window_meet_deadline st (in_days (r_dur r)) (r_deadline r)) eqn:B2; cbn [negb] in H; [|discriminate].
  apply bind_Ok in H. destruct H as (q & Eq & H).
  destruct q; cbn [negb] in H; [|discriminate].
  apply bind_Ok in H. destruct H as (c & Ec & H). destruct c; [discriminate|]. injection H as ->.
  unfold is_window_within_vtw_bounds, does_window_meet_deadline in *. qb.
  unfold is_image_quality_met in Eq. apply bind_Ok in Eq. destruct Eq as (qq & E1 & E2).
  injection E2 as E2. apply Z.leb_le in E2.
  split; [|split; auto].
  - unfold allowed, days. fold (in_days (r_dur r)). repeat split; try tauto. eauto.
  - unfold proposed_start. destruct (r_look r); auto. now injection Eo as <-.
Qed.

Lemma try_window_None h r v : try_window h r v = Ok None ->
  forall s, proposed_start r v s -> allowed r v s ->
  does_conflict_exist h s (in_days (r_dur r)) = Ok true.
Proof.
  unfold try_window. intros H s P (A1 & A2 & A3 & q & A4 & A5).
  assert (E : match r_look r with
       | NoLook => Ok (Some ((v_rise v + v_set v + in_days (r_dur r)) / 2)%Q)
       | lk => look_angle_time (a_pitch (v_att v)) lk (a_time (v_att v)) (v_rise v) (v_set v)
       end = Ok (Some s)).
  { unfold proposed_start in P. destruct (r_look r); auto. now rewrite P. }
  cbv zeta in H. rewrite E in H. cbn [bind] in H. unfold days in *. fold (in_days (r_dur r)) in *.
  assert (is_window_within_vtw_bounds s (in_days (r_dur r)) v = true) as B1.
  { unfold is_window_within_vtw_bounds. now qb. }
  assert (does_window_meet_deadline s (in_days (r_dur r)) (r_deadline r) = true) as B2.
  { unfold does_window_meet_deadline. now qb. }
  rewrite B1, B2 in H. cbn [negb] in H. unfold is_image_quality_met in H. rewrite A4 in H.
  cbn [bind] in H. apply Z.leb_le in A5. rewrite A5 in H. cbn [negb] in H.
  apply bind_Ok in H. destruct H as (c & Ec & H). destruct c; [auto|discriminate].
Qed.

(** [Ok None] only depends on the handler through the conflict test. *)
Lemma try_window_mono h h' r v :
  (forall s d, does_conflict_exist h s d = Ok true -> does_conflict_exist h' s d = Ok true) ->
  try_window h r v = Ok None -> try_window h' r v = Ok None.
Proof.
  intros M. unfold try_window. cbv zeta.
  match goal with |- context [bind ?x _] => destruct x as [[st|]|] end; cbn [bind]; auto.
  destruct (is_window_within_vtw_bounds _ _ _); cbn [negb]; auto.
  destruct (does_window_meet_deadline _ _ _); cbn [negb]; auto.
  destruct (is_image_quality_met _ _ _) as [[]|]; cbn [bind negb]; auto.
  intros H. apply bind_Ok in H. destruct H as (c & Ec & H). destruct c; [|discriminate].
  rewrite (M _ _ Ec). reflexivity.
Qed.

Lemma find_slot_Some h r : forall l k j s, find_slot h r k l = Ok (Some (j, s)) ->
  exists i v, j = k + i /\ nth_error l i = Some v /\ try_window h r v = Ok (Some s).
Proof.
  induction l as [|v l IH]; cbn; intros k j s H; [discriminate|].
  apply bind_Ok in H. destruct H as (o & Eo & H). destruct o as [st|].
  - injection H as <- <-. exists 0, v. split; [lia|]. auto.
  - destruct (IH _ _ _ H) as (i & w & -> & A & B). exists (S i), w. split; [lia|]. auto.
Qed.
Lemma find_slot_None h r : forall l k, find_slot h r k l = Ok None ->
  forall v, In v l -> try_window h r v = Ok None.
Proof.
  induction l as [|v l IH]; cbn; intros k H w; [tauto|].
  apply bind_Ok in H. destruct H as (o & Eo & H). destruct o as [st|]; [discriminate|].
  intros [<-|I]; eauto.
Qed.

(** ** The insertion loop *)
Lemma insert_loop_inv (P : handler -> Prop) :
  (forall h i r k s h', P h -> nth_error (reqs h) i = Some r -> r_sched r = false ->
     find_slot h r 0 (r_vtws r) = Ok (Some (k, s)) ->
     schedule_request h i k s (r_dur r) = Ok h' -> P h') ->
  forall is h n h', insert_loop is h n = Ok h' -> P h -> P h'.
Proof.
  intros St. induction is as [|i is IH]; cbn [insert_loop]; intros h n h' H Ph; [now injection H as <-|].
  destruct (n =? 0)%Z; [now injection H as <-|].
  apply bind_Ok in H. destruct H as (r & Er & H). apply py_nth_Ok in Er.
  destruct (r_sched r) eqn:S; [eauto|].
  apply bind_Ok in H. destruct H as (o & Eo & H).
  destruct o as [[k s]|]; [|eauto].
  apply bind_Ok in H. destruct H as (h1 & E1 & H). eauto.
Qed.

Lemma schedule_request_Ok h i k s d h' : schedule_request h i k s d = Ok h' ->
  h' = mkH (upd (reqs h) i (book k s d)) (h_n h) (h_nsched h + 1).
Proof. unfold schedule_request. intros H. apply bind_Ok in H. destruct H as (r & E & H). now injection H as <-. Qed.

(** What happens to each request. *)
Definition insertion_step (r r' : request) : Prop :=
  r' = r \/
  (r_sched r = false /\ booked_well r' /\
   exists k v s, r' = book k s (r_dur r) r /\ nth_error (r_vtws r) k = Some v /\ proposed_start r v s).

Lemma insertion_step_trans a b c : insertion_step a b -> insertion_step b c -> insertion_step a c.
Proof.
  intros [->|(A & B & C)]; auto. intros [->|(A' & _)]; [right; auto|].
  destruct B as (B & _). congruence.
Qed.

Lemma booking_step h r k s : r_sched r = false -> find_slot h r 0 (r_vtws r) = Ok (Some (k, s)) ->
  insertion_step r (book k s (r_dur r) r).
Proof.
  intros S F. apply find_slot_Some in F. destruct F as (i & v & -> & N & T).
  apply try_window_Some in T. destruct T as (A & Pr & _). right. split; auto. cbn in N. split.
  - split; [reflexivity|]. split; [reflexivity|]. exists i, v, s. cbn. unfold allowed in *. cbn. tauto.
  - exists i, v, s. auto.
Qed.

Lemma insert_loop_step is h n h' : insert_loop is h n = Ok h' ->
  Forall2 insertion_step (reqs h) (reqs h') /\ h_n h' = h_n h /\
  (h_nsched h' - h_nsched h = Z.of_nat (count (reqs h')) - Z.of_nat (count (reqs h)))%Z.
Proof.
  intros H.
  refine (insert_loop_inv (fun g => Forall2 insertion_step (reqs h) (reqs g) /\ h_n g = h_n h /\
    (h_nsched g - h_nsched h = Z.of_nat (count (reqs g)) - Z.of_nat (count (reqs h)))%Z) _ is h n h' H _).
  - intros g i r k s g' (F & E1 & E2) N S Fs Sc. apply schedule_request_Ok in Sc. subst g'. cbn [reqs h_n h_nsched].
    split; [|split; auto].
    + eapply Forall2_trans; [exact insertion_step_trans|exact F|].
      apply Forall2_upd; [now left|]. intros x Hx. assert (x = r) as -> by congruence.
      eapply booking_step; eauto.
    + pose proof (count_upd (reqs g) i (book k s (r_dur r)) r N) as C. rewrite S in C. cbn in C. lia.
  - split; [|split; [auto|lia]]. apply Forall2_refl. now left.
Qed.

Lemma insertion_step_props r r' : insertion_step r r' ->
  same_static r r' /\ (same_booking r r' \/ (r_sched r = false /\ booked_well r')).
Proof.
  intros [->|(A & B & k & v & s & -> & _)].
  - split; [apply same_static_refl|left; apply same_booking_refl].
  - split; [repeat split; auto|right; auto].
Qed.

Lemma insertion_filled l l' : Forall2 insertion_step l l' -> filled l -> filled l'.
Proof.
  intros F Fl r' I S. destruct (Forall2_In_r _ _ _ _ F I) as (r & Ir & [->|(_ & (_ & D & k & v & s & _ & St & _) & _)]).
  - apply Fl; auto.
  - eauto.
Qed.

(** At most [n] insertions. *)
Lemma insert_loop_limit is : forall h n h', insert_loop is h n = Ok h' -> (0 <= n)%Z ->
  (Z.of_nat (count (reqs h')) <= Z.of_nat (count (reqs h)) + n)%Z.
Proof.
  induction is as [|i is IH]; cbn [insert_loop]; intros h n h' H N; [injection H as <-; lia|].
  destruct (Z.eqb_spec n 0); [injection H as <-; lia|].
  apply bind_Ok in H. destruct H as (r & Er & H). apply py_nth_Ok in Er.
  destruct (r_sched r) eqn:S; [eauto|].
  apply bind_Ok in H. destruct H as (o & Eo & H).
  destruct o as [[k s]|]; [|eauto].
  apply bind_Ok in H. destruct H as (h1 & E1 & H). apply schedule_request_Ok in E1. subst h1.
  apply IH in H; [|lia]. cbn [reqs] in H.
  pose proof (count_upd (reqs h) i (book k s (r_dur r)) r Er) as C. rewrite S in C. cbn in C. lia.
Qed.

(** Bookings only add conflicts. *)
Definition keeps_bookings (r r' : request) : Prop := r_sched r = true -> r' = r.

Lemma step_keeps r r' : insertion_step r r' -> keeps_bookings r r'.
Proof. intros [->|(A & _)] S; congruence. Qed.

Lemma conflict_mono h h' : h_n h = length (reqs h) -> h_n h' = h_n h -> filled (reqs h) ->
  filled (reqs h') -> Forall2 keeps_bookings (reqs h) (reqs h') ->
  forall s d, does_conflict_exist h s d = Ok true -> does_conflict_exist h' s d = Ok true.
Proof.
  intros E E' Fl Fl' K s d H.
  assert (L : length (reqs h) = length (reqs h')) by (eapply Forall2_len; eauto).
  destruct (conflict_exists_spec h s d E Fl) as (b & Eb & Hb).
  destruct (conflict_exists_spec h' s d) as (b' & Eb' & Hb'); [congruence|auto|].
  rewrite Eb in H. injection H as ->. rewrite Eb'. f_equal. apply Hb'.
  destruct (proj1 Hb eq_refl) as (r & sr & dr & I & A1 & A2 & A3 & A4).
  exists r, sr, dr. split; auto. rewrite <- L.
  apply In_nth_error in I. destruct I as (j & Nj).
  assert (Lj : j < length (firstn (length (reqs h) - 1) (reqs h))).
  { apply nth_error_Some. congruence. }
  rewrite firstn_length in Lj.
  assert (Nj' : nth_error (reqs h) j = Some r).
  { rewrite <- (firstn_skipn (length (reqs h) - 1) (reqs h)). rewrite nth_error_app1; auto.
    rewrite firstn_length. lia. }
  destruct (Forall2_nth _ _ _ K j r Nj') as (r' & Nr' & Kr). rewrite (Kr A1) in Nr'.
  apply nth_error_In with j. rewrite <- Nr'.
  rewrite <- (firstn_skipn (length (reqs h) - 1) (reqs h')) at 2.
  rewrite nth_error_app1; auto. rewrite firstn_length. lia.
Qed.

(** Processed requests are scheduled or have no window left. *)
Definition done_with (h : handler) (i : nat) : Prop :=
  forall r, nth_error (reqs h) i = Some r -> r_sched r = false ->
  forall v, In v (r_vtws r) -> try_window h r v = Ok None.

Lemma done_mono h h' i : h_n h = length (reqs h) -> h_n h' = h_n h -> filled (reqs h) ->
  Forall2 insertion_step (reqs h) (reqs h') -> done_with h i -> done_with h' i.
Proof.
  intros E E' Fl F D r N S v I.
  destruct (Forall2_nth_r _ _ _ F i r N) as (r0 & N0 & [->|(_ & (B & _) & _)]); [|congruence].
  apply try_window_mono with h; [|eapply D; eauto].
  apply conflict_mono; auto.
  - eapply insertion_filled; eauto.
  - eapply Forall2_impl'; [exact step_keeps|exact F].
Qed.

Lemma insert_loop_done : forall is h n h',
  insert_loop is h n = Ok h' -> (n < 0 \/ Z.of_nat (length is) <= n)%Z ->
  h_n h = length (reqs h) -> filled (reqs h) ->
  forall i, In i is -> done_with h' i.
Proof.
  induction is as [|i is IH]; cbn [insert_loop]; intros h n h' H N E Fl j I; [destruct I|].
  cbn [length] in N. destruct (Z.eqb_spec n 0); [lia|].
  apply bind_Ok in H. destruct H as (r & Er & H). apply py_nth_Ok in Er.
  destruct (r_sched r) eqn:S.
  { destruct I as [<-|I]; [|eapply IH; eauto; lia].
    apply insert_loop_step in H. destruct H as (F & E1 & _).
    intros x Nx Sx. destruct (Forall2_nth _ _ _ F i r Er) as (r' & Nr' & St).
    apply step_keeps in St. rewrite (St S) in Nr'. congruence. }
  apply bind_Ok in H. destruct H as (o & Eo & H).
  destruct o as [[k s]|].
  - apply bind_Ok in H. destruct H as (h1 & E1 & H). apply schedule_request_Ok in E1.
    assert (F1 : Forall2 insertion_step (reqs h) (reqs h1)).
    { subst h1. cbn. apply Forall2_upd; [now left|]. intros x Hx. assert (x = r) as -> by congruence.
      eapply booking_step; eauto. }
    assert (E2 : h_n h1 = length (reqs h1)).
    { subst h1. cbn. now rewrite upd_length. }
    assert (Fl1 : filled (reqs h1)) by (eapply insertion_filled; eauto).
    destruct I as [<-|I]; [|eapply IH; eauto; lia].
    apply insert_loop_step in H. destruct H as (F & E3 & _).
    intros x Nx Sx.
    assert (N1 : nth_error (reqs h1) i = Some (book k s (r_dur r) r)).
    { subst h1. cbn. rewrite nth_error_upd, Nat.eqb_refl, Er. reflexivity. }
    destruct (Forall2_nth _ _ _ F i _ N1) as (r' & Nr' & St).
    apply step_keeps in St. rewrite (St eq_refl) in Nr'. rewrite Nr' in Nx. injection Nx as <-. discriminate.
  - destruct I as [<-|I]; [|eapply IH; eauto; lia].
    apply insert_loop_step in H. destruct H as (F & E3 & _).
    eapply done_mono; eauto.
    intros x Nx Sx v Iv. assert (x = r) as -> by congruence. eapply find_slot_None; eauto.
Qed.
