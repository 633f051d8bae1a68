(** What the tests of the floating-point scheduler mean in real numbers. *)
From Coq Require Import List ZArith Bool Arith Permutation Reals Lra Lia Psatz.
From Flocq Require Import Core.Core.
From Verif Require Import Py PyLemmas Fl_Model Fl_Spec Fl_Proofs Fl_Props Fls_Model Fls_Spec Fls_Proofs Fls_Proofs2.
Import ListNotations.
Open Scope R_scope.
Open Scope list_scope.

Lemma in_days_convert x : fconvert x Us Udy = Ok (in_days x).
Proof. apply convert_other; reflexivity. Qed.
Lemma in_days_ok dur : some_seconds dur -> some_days (in_days dur) /\ Rabs (value (in_days dur) - real_days dur) <= tick / 8.
Proof. intros S. exact (seconds_days dur (in_days dur) S (in_days_convert dur)). Qed.

Lemma look_angle_In pitch u lk times a b s : look_angle_time pitch u lk times a b = Ok (Some s) -> In s times.
Proof.
  destruct lk as [|x|x w]; cbn [look_angle_time]; intros H; try discriminate.
  apply bind_Ok in H. destruct H as (p & _ & H). apply bind_Ok in H. destruct H as (d & _ & H). cbv zeta in H.
  apply bind_Ok in H. destruct H as (l & _ & H). apply bind_Ok in H. destruct H as (r & _ & H).
  apply bind_Ok in H. destruct H as (lv & _ & H). apply bind_Ok in H. destruct H as (rv & _ & H).
  destruct (flt (of_Z 0) (fmul lv rv)); [discriminate|].
  apply bind_Ok in H. destruct H as (i & _ & H). apply bind_Ok in H. destruct H as (t & Et & H).
  assert (t = s) by congruence. subst t. apply py_nth_Ok in Et. eapply nth_error_In; eauto.
Qed.

Lemma fstart_near r v : some_seconds (r_dur r) -> ordinary_window v ->
  finite (fstart (v_rise v) (v_set v) (in_days (r_dur r))) /\
  Rabs (value (fstart (v_rise v) (v_set v) (in_days (r_dur r))) - middle_start r v) <= 17 / 16 * tick.
Proof.
  intros S ((Jr & Ur) & (Js & Us) & _). destruct (in_days_ok _ S) as (D & E). pose proof D as (_ & Bd).
  destruct (C112_start_accurate (v_rise v) (v_set v) (in_days (r_dur r)) Jr Js D ltac:(lra)) as (F & A). split; auto.
  unfold middle_start. rewrite Rabs_bound in *. lra.
Qed.

Lemma tick_small : 0 < tick < / 1000000. Proof. unfold tick. lra. Qed.

Lemma allowed_date r v s : ordinary_request r -> In v (r_vtws r) -> allowed r v s -> julian_date s /\ value s <= 4100000.
Proof.
  intros (_ & Sd & W) I (P & T & _). pose proof (W v I) as Wv. pose proof Wv as ((Jr & Ur) & (Js & Us) & _ & Wt).
  unfold proposed_start in P. destruct (r_look r) as [|x|x u].
  - destruct (fstart_near r v Sd Wv) as (F & A). rewrite <- P in F, A. unfold fwithin in T. apply andb_true_iff in T. destruct T as (T & _).
    apply flt_iff in T; [|apply Jr|exact F]. destruct Jr as (_ & Br). pose proof tick_small.
    assert (0 <= real_days (r_dur r) <= 65536) by (destruct Sd as (_ & B); unfold real_days; lra).
    unfold middle_start in A. rewrite Rabs_bound in A. split; [split; auto|]; lra.
  - apply look_angle_In in P. destruct (Wt s P). split; auto. lra.
  - apply look_angle_In in P. destruct (Wt s P). split; auto. lra.
Qed.

Lemma allowed_real r v s : ordinary_request r -> In v (r_vtws r) -> allowed r v s ->
  in_window r v s /\ in_time r s /\ good_enough r v s.
Proof.
  intros O I Al. destruct (allowed_date r v s O I Al) as (J & U). destruct O as (Jd & Sd & W). destruct Al as (_ & T1 & T2 & q & Q1 & Q2).
  destruct (W v I) as ((Jr & Ur) & (Js & Us) & L & _).
  assert (IW : in_window r v s) by (exact (C111_window_test_safe s (r_dur r) (v_rise v) (v_set v) _ J Jr Js Sd (in_days_convert _) T1)).
  split; auto. split; [exact (C111_deadline_test_safe s (r_dur r) (r_deadline r) _ J Jd Sd (in_days_convert _) T2)|].
  destruct IW as (A & B). assert (0 <= real_days (r_dur r)) by (destruct Sd as (_ & X); unfold real_days; lra).
  destruct (C112_quality_accurate (v_rise v) (v_set v) s Jr Js J ltac:(lra) L) as (x & E & _ & X).
  rewrite E in Q1. assert (Zfloor x = q) by congruence. subst q. unfold good_enough, quality_margin. rewrite Rabs_bound in X.
  pose proof (Zfloor_lb x) as Lb. apply IZR_le in Q2. lra.
Qed.

Lemma in_window_end r v s : ordinary_window v -> in_window r v s -> value s + real_days (r_dur r) <= 4194303.
Proof. intros (_ & (_ & U) & _) (_ & B). lra. Qed.

(** A booking. *)
Lemma booked_good h r s : invariant h -> In r (reqs h) -> booked_at r s ->
  julian_date s /\ some_seconds (r_dur r) /\ value s + real_days (r_dur r) <= 4194303.
Proof.
  intros (_ & V & O) I (S & E & _). destruct (V r I S) as (_ & _ & v & t & Et & Iv & Al). assert (t = s) by congruence. subst t.
  specialize (O r I). destruct (allowed_date r v s O Iv Al) as (J & _). destruct (allowed_real r v s O Iv Al) as (A & _).
  split; auto. split; [apply O|]. eapply in_window_end; [|exact A]. now apply O.
Qed.
Lemma overlap_sym s d t e : overlap s d t e = overlap t e s d.
Proof. unfold overlap. now rewrite Rmin_comm, Rmax_comm. Qed.

(** ** Overlaps *)
Definition clash (r r' : request) : Prop :=
  exists s s', booked_at r s /\ booked_at r' s' /\ 3 / 4 * tick < overlap_of r s r' s'.
Definition no_clashes (l : list request) : Prop :=
  forall i j r r', i <> j -> nth_error l i = Some r -> nth_error l j = Some r' -> ~ clash r r'.
Lemma no_clashes_iff l : no_clashes l <-> nearly_disjoint l.
Proof.
  split.
  - intros H i j r r' s s' N A B Bs Bs'. destruct (Rle_lt_dec (overlap_of r s r' s') (3 / 4 * tick)) as [|G]; auto.
    exfalso. apply (H i j r r' N A B). exists s, s'. auto.
  - intros H i j r r' N A B (s & s' & Bs & Bs' & G). pose proof (H i j r r' s s' N A B Bs Bs'). lra.
Qed.
Lemma clash_sym r r' : clash r r' -> clash r' r.
Proof. intros (s & s' & A & B & C). exists s', s. split; auto. split; auto. unfold overlap_of in *. now rewrite overlap_sym. Qed.
Lemma clash_static r r' q q' : r_dur r' = r_dur r -> r_dur q' = r_dur q -> same_booking r r' -> same_booking q q' -> clash r' q' -> clash r q.
Proof.
  intros D D' (A1 & A2 & A3 & _) (B1 & B2 & B3 & _) (s & s' & (X1 & X2 & X3) & (Y1 & Y2 & Y3) & L). exists s, s'.
  unfold booked_at, overlap_of in *. rewrite D, D' in *. repeat split; congruence.
Qed.

Open Scope nat_scope.
Lemma no_clashes_cons x l :
  no_clashes (x :: l) <-> (forall y, In y l -> ~ clash x y) /\ no_clashes l.
Proof.
  split.
  - intros H. split.
    + intros y I. apply In_nth_error in I. destruct I as (j & N). apply (H 0 (S j)); auto.
    + intros i j r r' Nij A B. apply (H (S i) (S j)); auto.
  - intros (H1 & H2) [|i] [|j] r r' Nij; cbn; try tauto.
    + intros [= <-] N. apply H1. eapply nth_error_In; eauto.
    + intros N [= <-] C. apply clash_sym in C. revert C. apply H1. eapply nth_error_In; eauto.
    + intros A B. apply (H2 i j); auto.
Qed.
Lemma no_clashes_perm l l' : Permutation l l' -> no_clashes l -> no_clashes l'.
Proof.
  induction 1; auto.
  - rewrite !no_clashes_cons. intros (A & B). split; auto.
    intros y I. apply A. eapply Permutation_in; [symmetry; eauto|auto].
  - rewrite !no_clashes_cons. intros (A & B & C). split; [|split]; auto.
    + intros z [<-|I]; auto. intros K. apply clash_sym in K. revert K. apply A. now left.
    + intros z I. apply A. now right.
Qed.
Lemma no_clashes_weaken l l' :
  Forall2 (fun r r' => r_dur r' = r_dur r /\ (r_sched r' = true -> same_booking r r')) l l' -> no_clashes l -> no_clashes l'.
Proof.
  intros F H i j r r' N A B C.
  destruct (Forall2_nth_r _ _ _ F i r A) as (q & Nq & Dq & Kq).
  destruct (Forall2_nth_r _ _ _ F j r' B) as (q' & Nq' & Dq' & Kq').
  apply (H i j q q' N Nq Nq'). pose proof C as (s & s' & (S1 & _) & (S2 & _) & _). eapply clash_static; [exact Dq|exact Dq'| | |exact C]; auto.
Qed.
Lemma removal_keeps_disjoint l l' : Forall2 removal_step l l' -> no_clashes l -> no_clashes l'.
Proof.
  intros F. apply no_clashes_weaken. eapply Forall2_impl'; [|exact F].
  intros x y [->| ->]; (split; [reflexivity|]); intros S; [apply same_booking_refl|discriminate].
Qed.
Lemma reorder_keeps_disjoint l l' : Forall2 reorder_windows l l' -> no_clashes l -> no_clashes l'.
Proof.
  intros F. apply no_clashes_weaken. eapply Forall2_impl'; [|exact F]. intros x y (A & B). split; auto. apply A.
Qed.

Lemma nth_error_firstn {A} (l : list A) k j x :
  j < k -> nth_error l j = Some x -> In x (firstn k l).
Proof.
  intros L N. apply nth_error_In with j.
  assert (j < length l) by (apply nth_error_Some; congruence).
  rewrite <- (firstn_skipn k l) in N. rewrite nth_error_app1 in N; auto.
  rewrite firstn_length. lia.
Qed.
Lemma In_firstn {A} (l : list A) k x : In x (firstn k l) -> In x l.
Proof. intros I. rewrite <- (firstn_skipn k l). apply in_or_app. now left. Qed.

Lemma no_conflict_no_clash h s k r v :
  invariant h -> In r (reqs h) -> In v (r_vtws r) -> allowed r v s ->
  does_conflict_exist h s (in_days (r_dur r)) = Ok false ->
  forall q, In q (firstn (length (reqs h) - 1) (reqs h)) -> ~ clash (book k s (r_dur r) r) q.
Proof.
  intros Iv Ir Ivv Al C q Iq (s1 & s2 & B1 & B2 & L). pose proof Iv as ((E & _) & V & O).
  destruct B1 as (_ & T1 & _). cbn in T1. assert (s1 = s) by congruence. subst s1. clear T1.
  destruct (conflict_exists_spec h s (in_days (r_dur r)) E (valid_filled h V)) as (b & Eb & Hb).
  rewrite C in Eb. assert (b = false) by congruence. subst b. clear Eb.
  assert (N : fconflict s (in_days (r_dur r)) s2 (in_days (r_dur q)) = false).
  { destruct (fconflict s (in_days (r_dur r)) s2 (in_days (r_dur q))) eqn:X; auto. exfalso.
    assert (false = true); [|discriminate]. apply Hb. destruct B2 as (S2 & T2 & U2). exists q, s2, (r_dur q). auto. }
  pose proof (O r Ir) as Or. destruct (allowed_date r v s Or Ivv Al) as (J & _). destruct (allowed_real r v s Or Ivv Al) as (IW & _).
  pose proof Or as (_ & Sd & W). pose proof (in_window_end r v s (W v Ivv) IW) as En.
  destruct (booked_good h q s2 Iv (In_firstn _ _ _ Iq) B2) as (J2 & Sd2 & En2).
  pose proof (C111_conflict_test s (r_dur r) s2 (r_dur q) _ _ J J2 Sd Sd2 (in_days_convert _) (in_days_convert _) En En2) as X.
  rewrite N in X. unfold overlap_of in L. cbn [r_dur book] in L. apply (Rlt_not_le _ _ L). exact X.
Qed.

Lemma insert_invariant is h n h' : insert_loop is h n = Ok h' -> invariant h -> invariant h'.
Proof. intros H Iv. destruct (insert_op is h n h' (proj1 Iv) H) as (C & Ev). eapply evolves_invariant; eauto. Qed.
Lemma book_invariant h i r k s : invariant h -> nth_error (reqs h) i = Some r -> r_sched r = false ->
  find_slot h r 0 (r_vtws r) = Ok (Some (k, s)) -> invariant (mkH (upd (reqs h) i (book k s (r_dur r))) (h_n h) (h_nsched h + 1)).
Proof.
  intros Iv N S Fs. pose proof Iv as (C & _). apply (evolves_invariant h); auto.
  - destruct C as (C1 & C2). unfold counters_ok, scheduled_count, scheduled in *. cbn [reqs h_n h_nsched]. rewrite upd_length. split; auto.
    pose proof (count_upd (reqs h) i (book k s (r_dur r)) r N) as K. rewrite S in K. cbn in K. unfold count in K. lia.
  - apply evolves_pos. cbn [reqs]. apply Forall2_upd; [apply op_refl|]. intros x Hx. assert (x = r) as -> by congruence. apply insertion_op. eapply booking_step; eauto.
Qed.

Lemma insert_no_clash : forall m a h n h',
  insert_loop (seq a m) h n = Ok h' -> a + m = length (reqs h) ->
  invariant h -> no_clashes (reqs h) ->
  (forall r, nth_error (reqs h) (length (reqs h) - 1) = Some r -> m <> 0 -> r_sched r = false) ->
  no_clashes (reqs h').
Proof.
  induction m as [|m IH]; cbn [seq insert_loop]; intros a h n h' H Am Iv NC Last.
  { now injection H as <-. }
  destruct (n =? 0)%Z; [now injection H as <-|].
  apply bind_Ok in H. destruct H as (r & Er & H). apply py_nth_Ok in Er.
  destruct (r_sched r) eqn:S.
  { apply (IH (Datatypes.S a) h n h'); auto. lia. }
  apply bind_Ok in H. destruct H as (o & Eo & H).
  destruct o as [[k s]|]; [|apply (IH (Datatypes.S a) h n h'); auto; lia].
  apply bind_Ok in H. destruct H as (h1 & E1 & H). apply schedule_request_Ok in E1.
  pose proof (book_invariant h a r k s Iv Er S Eo) as Iv1. rewrite <- E1 in Iv1.
  apply find_slot_Some in Eo. destruct Eo as (i & v & -> & Nv & T). apply nth_error_In in Nv.
  apply try_window_Some in T. destruct T as (Al & C).
  apply IH in H; auto; subst h1; cbn [reqs h_n] in *; rewrite ?upd_length; auto; try lia.
  - intros x y q q' Nxy. rewrite !nth_error_upd.
    assert (K : forall z w, z <> a -> nth_error (reqs h) z = Some w -> ~ clash (book (0 + i) s (r_dur r) r) w).
    { intros z w Nz Nw. destruct (Nat.eq_dec z (length (reqs h) - 1)) as [->|Nz'].
      - intros (s1 & s2 & _ & (S2 & _) & _). rewrite (Last w Nw) in S2; [discriminate|lia].
      - apply no_conflict_no_clash with h v; auto; [eapply nth_error_In; eauto|]. apply nth_error_firstn with z; auto.
        assert (z < length (reqs h)) by (apply nth_error_Some; congruence). lia. }
    destruct (Nat.eqb_spec a x) as [<-|Nx], (Nat.eqb_spec a y) as [<-|Ny]; try tauto.
    + rewrite Er. cbn [option_map]. intros [= <-] Nq. apply (K y); auto.
    + rewrite Er. cbn [option_map]. intros Nq [= <-] Cl. apply clash_sym in Cl. revert Cl. apply (K x); auto.
    + apply NC; auto.
  - intros x. rewrite nth_error_upd. destruct (Nat.eqb_spec a (length (reqs h) - 1)) as [Ea|Na].
    + intros _ Nm. lia.
    + intros Nx _. apply (Last x Nx). lia.
Qed.
