(** Clashes, image quality, look-angle search, overlaps, conflict degrees. *)
From Coq Require Import List ZArith QArith Qabs Qround Bool Arith Permutation Sorted Lia Lqa Qfield.
From Verif Require Import Py PyLemmas Sched_Model Sched_Spec Sched_Proofs Sched_Proofs2.
Import ListNotations.
Open Scope nat_scope.
Open Scope list_scope.

(** ** Clashes *)
Lemma clash_sym r r' : clash r r' -> clash r' r.
Proof.
  intros (s & d & s' & d' & A & B & t & C & D). exists s', d', s, d. split; auto. split; auto.
  exists t. auto.
Qed.

Lemma no_clashes_cons x l :
  no_clashes (x :: l) <-> (forall y, In y l -> ~ clash x y) /\ no_clashes l.
Proof.
  split.
  - intros H. split.
    + intros y I. apply In_nth_error in I. destruct I as (j & N). apply (H 0 (S j)); auto.
    + intros i j r r' Nij A B. apply (H (S i) (S j)); auto.
  - intros (H1 & H2) [|i] [|j] r r' Nij; cbn; try tauto.
    + intros [= <-] N. apply H1. eapply nth_error_In; eauto.
    + intros N [= <-] C. apply clash_sym in C. revert C. apply H1. eapply nth_error_In; eauto.
    + intros A B. apply (H2 i j); auto.
Qed.

Lemma no_clashes_perm l l' : Permutation l l' -> no_clashes l -> no_clashes l'.
Proof.
  induction 1; auto.
  - rewrite !no_clashes_cons. intros (A & B). split; auto.
    intros y I. apply A. eapply Permutation_in; [symmetry; eauto|auto].
  - rewrite !no_clashes_cons. intros (A & B & C). split; [|split]; auto.
    + intros z [<-|I]; auto. intros K. apply clash_sym in K. revert K. apply A. now left.
    + intros z I. apply A. now right.
Qed.

Lemma no_clashes_weaken l l' :
  Forall2 (fun r r' => r_sched r' = true -> same_booking r r') l l' -> no_clashes l -> no_clashes l'.
Proof.
  intros F H i j r r' N A B (s & d & s' & d' & (S1 & sd1 & T1 & U1 & V1) & (S2 & sd2 & T2 & U2 & V2) & M).
  destruct (Forall2_nth_r _ _ _ F i r A) as (q & Nq & Kq).
  destruct (Forall2_nth_r _ _ _ F j r' B) as (q' & Nq' & Kq').
  destruct (Kq S1) as (E1 & E2 & E3 & _). destruct (Kq' S2) as (E1' & E2' & E3' & _).
  apply (H i j q q' N Nq Nq'). exists s, d, s', d'. split; [|split; auto].
  - split; [congruence|]. exists sd1. repeat split; congruence.
  - split; [congruence|]. exists sd2. repeat split; congruence.
Qed.

Lemma removal_keeps_disjoint l l' : Forall2 removal_step l l' -> no_clashes l -> no_clashes l'.
Proof.
  intros F. apply no_clashes_weaken. eapply Forall2_impl'; [|exact F].
  intros x y [->| ->] S; [apply same_booking_refl|discriminate].
Qed.

Lemma no_conflict_no_clash h s k dur r :
  h_n h = length (reqs h) -> filled (reqs h) ->
  does_conflict_exist h s (in_days dur) = Ok false ->
  forall q, In q (firstn (length (reqs h) - 1) (reqs h)) -> ~ clash (book k s dur r) q.
Proof.
  intros E F C q I (s1 & d1 & s2 & d2 & (S1 & sd1 & T1 & U1 & V1) & (S2 & sd2 & T2 & U2 & V2) & M).
  cbn in T1, U1. injection T1 as <-. injection U1 as <-.
  destruct (conflict_exists_spec h s (in_days dur) E F) as (b & Eb & Hb).
  rewrite C in Eb. injection Eb as <-.
  assert (false = true); [|discriminate]. apply Hb. exists q, s2, sd2. repeat split; auto.
  apply meet_meets. destruct M as (t & A & B). exists t. unfold in_days, days in *. 
  rewrite V1 in A. rewrite V2 in B. auto.
Qed.

Lemma nth_error_firstn {A} (l : list A) k j x :
  j < k -> nth_error l j = Some x -> In x (firstn k l).
Proof.
  intros L N. apply nth_error_In with j.
  assert (j < length l) by (apply nth_error_Some; congruence).
  rewrite <- (firstn_skipn k l) in N. rewrite nth_error_app1 in N; auto.
  rewrite firstn_length. lia.
Qed.

Lemma insert_no_clash : forall m a h n h',
  insert_loop (seq a m) h n = Ok h' -> a + m = length (reqs h) ->
  h_n h = length (reqs h) -> filled (reqs h) -> no_clashes (reqs h) ->
  (forall r, nth_error (reqs h) (length (reqs h) - 1) = Some r -> m <> 0 -> r_sched r = false) ->
  no_clashes (reqs h').
Proof.
  induction m as [|m IH]; cbn [seq insert_loop]; intros a h n h' H Am E Fl NC Last.
  { now injection H as <-. }
  destruct (n =? 0)%Z; [now injection H as <-|].
  apply bind_Ok in H. destruct H as (r & Er & H). apply py_nth_Ok in Er.
  destruct (r_sched r) eqn:S.
  { apply (IH (Datatypes.S a) h n h'); auto. lia. }
  apply bind_Ok in H. destruct H as (o & Eo & H).
  destruct o as [[k s]|]; [|apply (IH (Datatypes.S a) h n h'); auto; lia].
  apply bind_Ok in H. destruct H as (h1 & E1 & H). apply schedule_request_Ok in E1.
  assert (Fl1 : filled (reqs h1)).
  { eapply insertion_filled; [|exact Fl]. subst h1. cbn. apply Forall2_upd; [now left|].
    intros x Hx. assert (x = r) as -> by congruence. eapply booking_step; eauto. }
  apply find_slot_Some in Eo. destruct Eo as (i & v & -> & Nv & T).
  apply try_window_Some in T. destruct T as (_ & _ & C).
  apply IH in H; auto; subst h1; cbn [reqs h_n] in *; rewrite ?upd_length; auto; try lia.
  - intros x y q q' Nxy. rewrite !nth_error_upd.
    assert (K : forall z w, z <> a -> nth_error (reqs h) z = Some w -> ~ clash (book i s (r_dur r) r) w).
    { intros z w Nz Nw. destruct (Nat.eq_dec z (length (reqs h) - 1)) as [->|Nz'].
      - intros (s1 & d1 & s2 & d2 & _ & (S2 & _) & _). rewrite (Last w Nw) in S2; [discriminate|lia].
      - apply no_conflict_no_clash with h; auto. apply nth_error_firstn with z; auto.
        assert (z < length (reqs h)) by (apply nth_error_Some; congruence). lia. }
    destruct (Nat.eqb_spec a x) as [<-|Nx], (Nat.eqb_spec a y) as [<-|Ny]; try tauto.
    + rewrite Er. cbn [option_map]. intros [= <-] Nq. apply (K y); auto.
    + rewrite Er. cbn [option_map]. intros Nq [= <-] Cl. apply clash_sym in Cl. revert Cl. apply (K x); auto.
    + apply NC; auto.
  - intros x. rewrite nth_error_upd. destruct (Nat.eqb_spec a (length (reqs h) - 1)) as [Ea|Na].
    + intros _ Nm. lia.
    + intros Nx _. apply (Last x Nx). lia.
Qed.

(** ** Image quality *)
Section Quality.
  Open Scope Q_scope.
  Variable v : vtw.
  Hypothesis ord : v_rise v < v_set v.
  Let nadir := (v_rise v + v_set v) / 2.
  Let half := nadir - v_rise v.

  Lemma nadir_eq : nadir * 2 == v_rise v + v_set v.
  Proof. unfold nadir. field. Qed.

  Lemma half_pos : 0 < half.
  Proof. unfold half. pose proof nadir_eq. lra. Qed.

  Lemma quality_value s : image_quality v s = Ok (Qfloor (10 - 9 * Qabs (s - nadir) / half)).
  Proof.
    unfold image_quality. fold nadir. fold half. pose proof half_pos.
    destruct (Qeqb half 0) eqn:E; auto. qb. lra.
  Qed.

  Lemma Qabs_cases x : (0 <= x /\ Qabs x == x) \/ (x <= 0 /\ Qabs x == - x).
  Proof.
    destruct (Qlt_le_dec x 0).
    - right. split; [lra|]. apply Qabs_neg. lra.
    - left. split; auto. now apply Qabs_pos.
  Qed.

  Lemma quality_range s : v_rise v < s -> s < v_set v ->
    exists q, image_quality v s = Ok q /\ (1 <= q <= 10)%Z /\ (q = 10%Z <-> s == nadir).
  Proof.
    intros A B. rewrite quality_value. eexists. split; [reflexivity|].
    pose proof half_pos as HP.
    assert (R : Qabs (s - nadir) < half).
    { destruct (Qabs_cases (s - nadir)) as [[_ E]|[_ E]]; rewrite E; unfold half; pose proof nadir_eq; lra. }
    assert (R0 : 0 <= Qabs (s - nadir)) by apply Qabs_nonneg.
    set (x := 9 * Qabs (s - nadir) / half).
    assert (X0 : 0 <= x).
    { unfold x. apply Qle_shift_div_l; auto. lra. }
    assert (X1 : x < 9).
    { unfold x. apply Qlt_shift_div_r; auto. lra. }
    split.
    - split.
      + change 1%Z with (Qfloor (inject_Z 1)) at 1. apply Qfloor_resp_le.
        change (inject_Z 1) with 1. lra.
      + change 10%Z with (Qfloor (inject_Z 10)) at 2. apply Qfloor_resp_le.
        change (inject_Z 10) with 10. lra.
    - split.
      + intros F. pose proof (Qfloor_le (10 - x)) as L. rewrite F in L. change (inject_Z 10) with 10 in L.
        assert (x == 0) as Z by lra. unfold x in Z.
        assert (Z2 : 9 * Qabs (s - nadir) == 0).
        { setoid_replace (9 * Qabs (s - nadir)) with (9 * Qabs (s - nadir) / half * half) by (field; lra).
          rewrite Z. lra. }
        destruct (Qabs_cases (s - nadir)) as [[_ E]|[_ E]]; rewrite E in Z2; lra.
      + intros E. assert (x == 0) as Z.
        { unfold x. setoid_replace (s - nadir) with 0 by lra. change (Qabs 0) with 0. field. lra. }
        assert (E10 : 10 - x == inject_Z 10) by (change (inject_Z 10) with 10; lra).
        transitivity (Qfloor (inject_Z 10)); [|apply Qfloor_Z].
        apply Z.le_antisymm; apply Qfloor_resp_le; rewrite E10; apply Qle_refl.
  Qed.

  Lemma quality_mono s t : Qabs (s - nadir) <= Qabs (t - nadir) ->
    exists p q, image_quality v s = Ok p /\ image_quality v t = Ok q /\ (q <= p)%Z.
  Proof.
    intros H. rewrite !quality_value. do 2 eexists. split; [reflexivity|]. split; [reflexivity|].
    apply Qfloor_resp_le. pose proof half_pos as HP.
    assert (9 * Qabs (s - nadir) / half <= 9 * Qabs (t - nadir) / half).
    { apply Qle_shift_div_l; auto.
      setoid_replace (9 * Qabs (s - nadir) / half * half) with (9 * Qabs (s - nadir)) by (field; lra). lra. }
    lra.
  Qed.
End Quality.

(** ** Look-angle search *)
Lemma first_index_spec x l : forall i k, first_index x l i = Ok k ->
  i <= k /\ k - i < length l /\ exists y, nth_error l (k - i) = Some y /\ (y == x)%Q.
Proof.
  induction l as [|y l IH]; cbn; intros i k H; [discriminate|].
  destruct (Qeqb y x) eqn:E.
  - injection H as <-. rewrite Nat.sub_diag. split; [lia|]. split; [lia|]. exists y. qb. auto.
  - apply IH in H. destruct H as (A & B & z & C & D). split; [lia|]. split; [lia|].
    exists z. split; auto. replace (k - i) with (S (k - S i)) by lia. exact C.
Qed.
Lemma first_index_found x l : forall i, (exists y, In y l /\ (y == x)%Q) ->
  exists k, first_index x l i = Ok k.
Proof.
  induction l as [|y l IH]; cbn; intros i (z & I & E); [destruct I|].
  destruct (Qeqb y x) eqn:B; eauto. destruct I as [<-|I]; [|eauto]. qb. tauto.
Qed.

Lemma bisect_spec off : forall fuel l r lv,
  l < r -> r < length off -> r - l <= fuel -> nth_error off l = Some lv ->
  (forall rv, nth_error off r = Some rv -> (lv * rv <= 0)%Q) ->
  exists i, bisect_angle fuel off l r lv = Ok i /\ l <= i < r /\
    exists a b, nth_error off i = Some a /\ nth_error off (S i) = Some b /\ (a * b <= 0)%Q.
Proof.
  induction fuel as [|f IH]; intros l r lv L R F N B; [lia|].
  cbn [bisect_angle]. destruct (Nat.ltb_spec (l + 1) r) as [G|G].
  - set (mid := (l + r) / 2).
    assert (M : l < mid < r).
    { unfold mid. split.
      - apply Nat.lt_le_trans with ((l + l + 2) / 2); [|apply Nat.div_le_mono; lia].
        replace (l + l + 2) with ((l + 1) * 2) by lia. rewrite Nat.div_mul by lia. lia.
      - apply Nat.div_lt_upper_bound; lia. }
    destruct (nth_error off mid) as [mv|] eqn:Nm; [|apply nth_error_None in Nm; lia].
    rewrite (proj2 (py_nth_Ok _ _ _) Nm). cbn [bind].
    destruct (Qltb 0 (lv * mv)) eqn:C; qb.
    + destruct (IH mid r mv) as (i & E & I & H); auto; try lia.
      { intros rv Nr. pose proof (B rv Nr).
        destruct (Qlt_le_dec 0 (mv * rv)) as [P|]; auto. exfalso.
        assert (0 < (lv * mv) * (mv * rv))%Q.
        { setoid_replace 0%Q with (0 * 0)%Q by ring. apply Qmult_lt_compat_nonneg; lra. }
        assert ((lv * mv) * (mv * rv) == (mv * mv) * (lv * rv))%Q by ring.
        assert (0 <= mv * mv)%Q.
        { destruct (Qlt_le_dec mv 0).
          - setoid_replace (mv * mv)%Q with ((- mv) * (- mv))%Q by ring. apply Qmult_le_0_compat; lra.
          - apply Qmult_le_0_compat; lra. }
        assert (0 <= (mv * mv) * - (lv * rv))%Q by (apply Qmult_le_0_compat; lra). lra. }
      exists i. split; auto. split; [lia|auto].
    + destruct (IH l mid lv) as (i & E & I & H); auto; try lia.
      { intros rv Nr. rewrite Nm in Nr. injection Nr as <-. lra. }
      exists i. split; auto. split; [lia|auto].
  - exists l. split; auto. split; [lia|].
    destruct (nth_error off r) as [rv|] eqn:Nr; [|apply nth_error_None in Nr; lia].
    exists lv, rv. replace (S l) with r by lia. repeat split; auto.
Qed.

Lemma bisect_stop off fuel l r lv : r <= l -> bisect_angle fuel off l r lv = Ok l.
Proof.
  intros H. destruct fuel; cbn [bisect_angle]; auto.
  destruct (Nat.ltb_spec (l + 1) r); [lia|reflexivity].
Qed.

(** Everything about the search in one statement: [off i] is the angle offset at
    sample [i], [l] and [r] are the samples of the rise and set times. *)
Lemma look_angle_spec pitch d times rise set_ l r :
  length pitch = length times ->
  first_index rise times 0 = Ok l -> first_index set_ times 0 = Ok r ->
  exists pl pr o, nth_error pitch l = Some pl /\ nth_error pitch r = Some pr /\
    look_angle_time pitch (LookQty d) times rise set_ = Ok o /\
    (o = None <-> (0 < (pl - d) * (pr - d))%Q) /\
    (forall t, o = Some t -> exists i, nth_error times i = Some t /\
       (r <= l -> i = l) /\
       (l < r -> l <= i < r /\ exists a b, nth_error pitch i = Some a /\ nth_error pitch (S i) = Some b /\
                   ((a - d) * (b - d) <= 0)%Q)).
Proof.
  intros Le Fl Fr. unfold look_angle_time. rewrite Fl, Fr. cbn [bind].
  destruct (first_index_spec _ _ _ _ Fl) as (_ & Bl & _).
  destruct (first_index_spec _ _ _ _ Fr) as (_ & Br & _).
  rewrite Nat.sub_0_r in Bl, Br.
  destruct (nth_error pitch l) as [pl|] eqn:Nl; [|apply nth_error_None in Nl; lia].
  destruct (nth_error pitch r) as [pr|] eqn:Nr; [|apply nth_error_None in Nr; lia].
  exists pl, pr.
  pose proof (map_nth_error (fun p => p - d)%Q _ _ Nl) as Ol.
  pose proof (map_nth_error (fun p => p - d)%Q _ _ Nr) as Or.
  rewrite (proj2 (py_nth_Ok _ _ _) Ol), (proj2 (py_nth_Ok _ _ _) Or). cbn [bind].
  destruct (Qltb 0 ((pl - d) * (pr - d))) eqn:C; qb.
  - exists None. repeat split; auto; discriminate.
  - set (off := map (fun p => p - d)%Q pitch) in *.
    assert (Lo : length off = length times) by (unfold off; now rewrite map_length).
    destruct (Nat.lt_ge_cases l r) as [L|L].
    + destruct (bisect_spec off (r - l) l r (pl - d)%Q) as (i & Ei & I & a & b & Na & Nb & P); auto; try lia.
      { intros rv Nv. rewrite Or in Nv. injection Nv as <-. auto. }
      rewrite Ei. cbn [bind].
      destruct (nth_error times i) as [t|] eqn:Nt; [|apply nth_error_None in Nt; lia].
      rewrite (proj2 (py_nth_Ok _ _ _) Nt). cbn [bind].
      exists (Some t). repeat split; auto; try discriminate.
      * intros H. lra.
      * intros t' [= <-]. exists i. split; auto. split; [lia|]. intros _. split; auto.
        unfold off in Na, Nb.
        rewrite nth_error_map in Na, Nb.
        destruct (nth_error pitch i); [|discriminate]. destruct (nth_error pitch (S i)); [|discriminate].
        cbn in Na, Nb. injection Na as <-. injection Nb as <-. eauto.
    + rewrite bisect_stop by auto. cbn [bind].
      destruct (nth_error times l) as [t|] eqn:Nt; [|apply nth_error_None in Nt; lia].
      rewrite (proj2 (py_nth_Ok _ _ _) Nt). cbn [bind].
      exists (Some t). repeat split; auto; try discriminate.
      * intros H. lra.
      * intros t' [= <-]. exists l. split; auto. split; auto. lia.
Qed.

(** ** When insertion cannot fail *)
Definition sane_window (lk : look) (v : vtw) : Prop :=
  (v_rise v < v_set v)%Q /\
  match lk with
  | NoLook => True
  | LookFloat _ => False
  | LookQty _ =>
      length (a_pitch (v_att v)) = length (a_time (v_att v)) /\
      (exists t, In t (a_time (v_att v)) /\ (t == v_rise v)%Q) /\
      (exists t, In t (a_time (v_att v)) /\ (t == v_set v)%Q)
  end.
Definition sane_request (r : request) : Prop :=
  forall v, In v (r_vtws r) -> sane_window (r_look r) v.

Lemma try_window_ok h r v : h_n h = length (reqs h) -> filled (reqs h) ->
  sane_window (r_look r) v -> exists o, try_window h r v = Ok o.
Proof.
  intros E F (O & L). unfold try_window. cbv zeta.
  assert (X : exists o, match r_look r with
       | NoLook => Ok (Some ((v_rise v + v_set v + in_days (r_dur r)) / 2)%Q)
       | lk => look_angle_time (a_pitch (v_att v)) lk (a_time (v_att v)) (v_rise v) (v_set v)
       end = Ok o).
  { destruct (r_look r) as [|x|x]; [eauto|destruct L|].
    destruct L as (Le & Hr & Hs).
    destruct (first_index_found _ _ 0 Hr) as (l & Fl). destruct (first_index_found _ _ 0 Hs) as (k & Fk).
    destruct (look_angle_spec _ x _ _ _ _ _ Le Fl Fk) as (pl & pr & o & _ & _ & Eo & _). eauto. }
  destruct X as (o & ->). cbn [bind]. destruct o as [st|]; eauto.
  destruct (is_window_within_vtw_bounds _ _ _); cbn [negb]; eauto.
  destruct (does_window_meet_deadline _ _ _); cbn [negb]; eauto.
  unfold is_image_quality_met. rewrite (quality_value v O). cbn [bind].
  destruct (_ <=? _)%Z; cbn [negb]; eauto.
  destruct (conflict_exists_spec h st (in_days (r_dur r)) E F) as (b & -> & _). cbn. eauto.
Qed.

Lemma find_slot_ok h r : h_n h = length (reqs h) -> filled (reqs h) ->
  forall l k, (forall v, In v l -> sane_window (r_look r) v) -> exists o, find_slot h r k l = Ok o.
Proof.
  intros E F. induction l as [|v l IH]; cbn; intros k H; [eauto|].
  destruct (try_window_ok h r v) as (o & ->); auto. cbn. destruct o; eauto.
Qed.

Lemma insert_loop_ok : forall is h n,
  h_n h = length (reqs h) -> filled (reqs h) -> (forall i, In i is -> i < length (reqs h)) ->
  (forall r, In r (reqs h) -> sane_request r) -> exists h', insert_loop is h n = Ok h'.
Proof.
  induction is as [|i is IH]; cbn [insert_loop]; intros h n E F B S; [eauto|].
  destruct (n =? 0)%Z; [eauto|].
  destruct (py_nth_lt (reqs h) i) as (r & Er); [apply B; now left|]. rewrite Er. cbn [bind].
  destruct (r_sched r) eqn:Sc.
  { apply IH; auto. intros j I. apply B. now right. }
  pose proof (proj1 (py_nth_Ok _ _ _) Er) as Nr.
  destruct (find_slot_ok h r E F (r_vtws r) 0) as (o & Eo); [apply S; eapply nth_error_In; eauto|].
  rewrite Eo. cbn [bind]. destruct o as [[k s]|].
  - unfold schedule_request. rewrite Er. cbn [bind]. apply IH; cbn [reqs h_n]; rewrite ?upd_length; auto.
    + eapply insertion_filled; [|exact F]. apply Forall2_upd; [now left|].
      intros x Hx. assert (x = r) as -> by congruence. eapply booking_step; eauto.
    + intros j I. apply B. now right.
    + intros x I. apply In_nth_error in I. destruct I as (j & N). rewrite nth_error_upd in N.
      destruct (Nat.eqb_spec i j) as [->|]; [|apply S; eapply nth_error_In; eauto].
      rewrite Nr in N. cbn in N. injection N as <-. intros v Iv. cbn in *.
      apply (S r); auto. eapply nth_error_In; eauto.
  - apply IH; auto. intros j I. apply B. now right.
Qed.

(** ** Overlaps *)
Section Overlap.
  Open Scope Q_scope.
  Lemma overlapping_iff v w : v_rise v <= v_set v -> v_rise w <= v_set w ->
    are_vtws_overlapping v w = true <-> windows_intersect v w.
  Proof.
    intros A B. unfold are_vtws_overlapping, windows_intersect. qb. split.
    - intros (C & D). destruct (Qlt_le_dec (v_rise v) (v_rise w)).
      + exists (v_rise w). lra.
      + exists (v_rise v). lra.
    - intros (t & C & D). lra.
  Qed.

  Lemma Qmax2_spec x y : (x <= y /\ Qmax2 x y = y) \/ (y < x /\ Qmax2 x y = x).
  Proof. unfold Qmax2. destruct (Qle_bool x y) eqn:E; [left|right]; split; auto.
    - now apply Qle_bool_iff. - apply Qnot_le_lt. rewrite <- Qle_bool_iff. congruence. Qed.
  Lemma Qmin2_spec x y : (x <= y /\ Qmin2 x y = x) \/ (y < x /\ Qmin2 x y = y).
  Proof. unfold Qmin2. destruct (Qle_bool x y) eqn:E; [left|right]; split; auto.
    - now apply Qle_bool_iff. - apply Qnot_le_lt. rewrite <- Qle_bool_iff. congruence. Qed.

  Definition right_case (v w : vtw) : Prop :=
    (v_rise v < v_rise w /\ v_set w < v_set v) \/
    (v_rise w < v_rise v /\ v_set v < v_set w) \/
    (v_rise v <= v_rise w /\ v_rise w < v_set v /\ v_set v <= v_set w).

  Lemma overlap_duration_iff v w : v_rise v <= v_set v -> v_rise w <= v_set w ->
    windows_intersect v w ->
    (exists x, julian_day_overlap v w = Some (PQty x) /\ x == intersection_length v w) <-> right_case v w.
  Proof.
    intros A B I. apply overlapping_iff in I; auto. unfold are_vtws_overlapping in I.
    unfold julian_day_overlap, right_case, intersection_length. cbv zeta.
    destruct (Qltb (v_set v) (v_rise w) || Qltb (v_set w) (v_rise v))%bool; [discriminate|]. clear I.
    pose proof (Qmax2_spec (v_rise v) (v_rise w)) as Mx. pose proof (Qmin2_spec (v_set v) (v_set w)) as Mn.
    destruct (Qltb (v_rise v) (v_rise w) && Qltb (v_set w) (v_set v))%bool eqn:B1.
    { qb. split; [auto|]. intros _. eexists. split; [reflexivity|].
      destruct Mx as [[? ->]|[? ->]], Mn as [[? ->]|[? ->]]; lra. }
    destruct (Qltb (v_rise w) (v_rise v) && Qltb (v_set v) (v_set w))%bool eqn:B2.
    { qb. split; [auto|]. intros _. eexists. split; [reflexivity|].
      destruct Mx as [[? ->]|[? ->]], Mn as [[? ->]|[? ->]]; lra. }
    destruct (Qltb (v_rise w) (v_set v)) eqn:B3.
    { qb. split.
      - intros (x & [= <-] & E). right. right.
        destruct Mx as [[? Ex]|[? Ex]], Mn as [[? En]|[? En]]; rewrite Ex, En in E; lra.
      - intros H. eexists. split; [reflexivity|].
        destruct Mx as [[? ->]|[? ->]], Mn as [[? ->]|[? ->]]; lra. }
    destruct (Qltb (v_rise v) (v_set w)) eqn:B4.
    { qb. split.
      - intros (x & [= <-] & E).
        destruct Mx as [[? Ex]|[? Ex]], Mn as [[? En]|[? En]]; rewrite Ex, En in E; lra.
      - intros H. lra. }
    qb. split; [intros (x & H & _); discriminate|]. intros H. lra.
  Qed.
End Overlap.

(** ** Conflict degrees *)
Lemma overlap_quantity v w : (v_rise v < v_set v)%Q -> (v_rise w < v_set w)%Q ->
  are_vtws_overlapping v w = true -> exists x, julian_day_overlap v w = Some (PQty x).
Proof.
  intros A B O. unfold are_vtws_overlapping in O. unfold julian_day_overlap. cbv zeta.
  destruct (Qltb (v_set v) (v_rise w) || Qltb (v_set w) (v_rise v))%bool; [discriminate|].
  destruct (Qltb (v_rise v) (v_rise w) && Qltb (v_set w) (v_set v))%bool; eauto.
  destruct (Qltb (v_rise w) (v_rise v) && Qltb (v_set v) (v_set w))%bool; eauto.
  destruct (Qltb (v_rise w) (v_set v)) eqn:B3; eauto.
  destruct (Qltb (v_rise v) (v_set w)) eqn:B4; eauto.
  qb. lra.
Qed.

Definition ordered_windows (h : handler) : Prop :=
  forall r v, In r (reqs h) -> In v (r_vtws r) -> (v_rise v < v_set v)%Q.

Lemma total_overlap_qty v : forall l acc,
  (forall w, In w l -> exists x, julian_day_overlap v w = Some (PQty x)) ->
  l <> [] \/ (exists x, acc = PQty x) ->
  exists y, total_overlap acc v l = Ok (PQty y).
Proof.
  induction l as [|w l IH]; cbn; intros acc H N.
  - destruct N as [N|(x & ->)]; [tauto|eauto].
  - destruct (H w) as (x & E); [now left|]. rewrite E.
    destruct acc; cbn; apply IH; eauto.
Qed.

Lemma conflict_degree_ok h r v : ordered_windows h -> In r (reqs h) -> In v (r_vtws r) ->
  exists x, conflict_degree h v = Ok (PQty x).
Proof.
  intros O Ir Iv. unfold conflict_degree. cbv zeta.
  assert (M : In v (set_of_overlapping_vtws h v)).
  { unfold set_of_overlapping_vtws. apply in_flat_map. exists r. split; auto.
    apply filter_In. split; auto. unfold are_vtws_overlapping. pose proof (O r v Ir Iv). qb. lra. }
  destruct (total_overlap_qty v (set_of_overlapping_vtws h v) (PNum 0)) as (y & E).
  - intros w Iw. unfold set_of_overlapping_vtws in Iw. apply in_flat_map in Iw.
    destruct Iw as (q & Iq & Iw). apply filter_In in Iw. destruct Iw as (Iw & Ow).
    apply overlap_quantity; eauto.
  - left. intros E. rewrite E in M. destruct M.
  - rewrite E. cbn [bind]. destruct (set_of_overlapping_vtws h v); [destruct M|]. cbn. eauto.
Qed.

Definition is_qty (x : num) : bool := match x with PQty _ => true | PNum _ => false end.

Lemma pair_lt_same x i y j : is_qty x = is_qty y -> exists b, pair_lt (x, i) (y, j) = Ok b.
Proof. unfold pair_lt. cbn. destruct x, y; cbn; try discriminate; intros _; destruct (Qeqb _ _); eauto. Qed.
Lemma pair_lt_diff x i y j : is_qty x <> is_qty y -> pair_lt (x, i) (y, j) = Raise TypeError.
Proof. unfold pair_lt. cbn. destruct x, y; cbn; try tauto; auto. Qed.

Lemma insertM_same b : forall l x, is_qty (fst x) = b ->
  (forall y, In y l -> is_qty (fst y) = b) -> exists l', py_insertM pair_lt x l = Ok l'.
Proof.
  induction l as [|[y j] l IH]; intros [x i] Hx H; cbn [py_insertM]; eauto.
  destruct (pair_lt_same y j x i) as (c & ->).
  { pose proof (H (y, j) (or_introl eq_refl)). cbn in *. congruence. }
  cbn [bind]. destruct c; eauto. destruct (IH (x, i)) as (l' & ->); auto.
  - intros z Iz. apply H. now right.
  - cbn. eauto.
Qed.

Lemma sortedM_pair l :
  (exists b, forall y, In y l -> is_qty (fst y) = b) /\ (exists l', py_sortedM pair_lt l = Ok l') \/
  (~ exists b, forall y, In y l -> is_qty (fst y) = b) /\ py_sortedM pair_lt l = Raise TypeError.
Proof.
  induction l as [|[x i] l IH].
  - left. split; [exists true; intros y []|]. exists []. auto.
  - cbn [py_sortedM]. destruct IH as [((b & Hb) & l' & E)|(Nb & E)].
    + rewrite E. cbn [bind]. pose proof (py_sortedM_perm _ _ _ E) as P.
      destruct l as [|p l].
      * apply Permutation_nil in P. subst l'. left. split; [|cbn; eauto].
        exists (is_qty x). intros y [<-|[]]. reflexivity.
      * assert (Hb' : forall y, In y l' -> is_qty (fst y) = b).
        { intros y Iy. apply Hb. eapply Permutation_in; [symmetry; eauto|auto]. }
        destruct (Bool.bool_dec (is_qty x) b) as [<-|N].
        -- left. split.
           ++ exists (is_qty x). intros y [<-|I]; auto.
           ++ apply insertM_same with (is_qty x); auto.
        -- right. split.
           ++ intros (c & Hc). apply N. rewrite <- (Hb p (or_introl eq_refl)).
              rewrite (Hc p); [|right; now left]. apply (Hc (x, i)). now left.
           ++ destruct l' as [|[y j] l'].
              { apply Permutation_sym, Permutation_nil in P. discriminate. }
              cbn [py_insertM]. rewrite pair_lt_diff; auto.
              intros C. apply N. rewrite <- C. apply (Hb' (y, j)). now left.
    + right. rewrite E. split; auto. intros (b & Hb). apply Nb. exists b. intros y I. apply Hb. now right.
Qed.

Definition indices_valid (h : handler) : Prop :=
  forall r, In r (reqs h) -> r_sched r = true ->
  exists k v, r_vidx r = Some k /\ nth_error (r_vtws r) k = Some v.

Lemma request_degree h r : ordered_windows h -> indices_valid h -> In r (reqs h) ->
  exists x, request_conflict_degree h r = Ok x /\ is_qty x = r_sched r.
Proof.
  intros O V I. unfold request_conflict_degree. destruct (r_sched r) eqn:S.
  - destruct (V r I S) as (k & v & -> & N). rewrite (proj2 (py_nth_Ok _ _ _) N). cbn [bind].
    destruct (conflict_degree_ok h r v) as (x & E); auto; [eapply nth_error_In; eauto|]. eauto.
  - exists (PNum 0). auto.
Qed.

Lemma sort_conflict_exact h : ordered_windows h -> indices_valid h ->
  ((forall r, In r (reqs h) -> r_sched r = true) \/ (forall r, In r (reqs h) -> r_sched r = false) ->
     exists h', sort_by_decreasing_conflict_degree h = Ok h') /\
  (~ ((forall r, In r (reqs h) -> r_sched r = true) \/ (forall r, In r (reqs h) -> r_sched r = false)) ->
     sort_by_decreasing_conflict_degree h = Raise TypeError).
Proof.
  intros O V. unfold sort_by_decreasing_conflict_degree.
  destruct (mapM_Ok (request_conflict_degree h) (reqs h)) as (dg & Ed).
  { intros r I. destruct (request_degree h r O V I) as (x & E & _). eauto. }
  rewrite Ed. cbn [bind].
  pose proof (mapM_length _ _ _ Ed) as Ln. pose proof (mapM_Forall2 _ _ _ Ed) as F.
  assert (Q : forall b, (forall y, In y (combine dg (seq 0 (length dg))) -> is_qty (fst y) = b) <->
                        (forall r, In r (reqs h) -> r_sched r = b)).
  { intros b. assert (Fs : map fst (combine dg (seq 0 (length dg))) = dg).
    { apply map_fst_combine. now rewrite seq_length. }
    split; intros H.
    - intros r Ir. destruct (Forall2_In_l _ _ _ _ F Ir) as (x & Ix & Ex).
      destruct (request_degree h r O V Ir) as (x' & Ex' & <-).
      assert (x' = x) as -> by congruence. rewrite <- Fs in Ix. apply in_map_iff in Ix.
      destruct Ix as (p & <- & Ip). auto.
    - intros y Iy. apply (in_map fst) in Iy. rewrite Fs in Iy.
      destruct (Forall2_In_r _ _ _ _ F Iy) as (r & Ir & Er).
      destruct (request_degree h r O V Ir) as (x' & Ex' & Hx).
      assert (x' = fst y) as <- by congruence. rewrite Hx. auto. }
  destruct (sortedM_pair (combine dg (seq 0 (length dg)))) as [((b & Hb) & so & Es)|(Nb & Es)]; rewrite Es; cbn [bind].
  - assert (T : exists h', (l <- mapM (py_nth (reqs h)) (rev (map snd so)) ;; Ok (mkH l (h_n h) (h_nsched h))) = Ok h').
    { destruct (mapM_Ok (py_nth (reqs h)) (rev (map snd so))) as (l & El).
      - intros i Ii. apply in_rev in Ii. apply in_map_iff in Ii. destruct Ii as (p & <- & Ip).
        apply py_sortedM_perm in Es. apply (Permutation_in p (Permutation_sym Es)) in Ip.
        destruct p as [a c]. apply in_combine_r in Ip. apply in_seq in Ip. apply py_nth_lt. cbn. lia.
      - rewrite El. cbn. eauto. }
    split; auto. intros N. exfalso. apply N. pose proof (proj1 (Q b) Hb). destruct b; auto.
  - split; auto. intros [A|A]; exfalso; apply Nb; [exists true|exists false]; exact (proj2 (Q _) A).
Qed.
