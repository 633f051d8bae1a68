(** Iteration, counters and removal operators of the floating-point scheduler. *)
From Coq Require Import List ZArith Bool Arith Permutation Sorted Lia.
From Verif Require Import Py PyLemmas Fl_Model Fls_Model Fls_Spec.
Import ListNotations.
Open Scope nat_scope.
Open Scope list_scope.

Definition count (l : list request) : nat := length (filter r_sched l).

Lemma count_app l1 l2 : count (l1 ++ l2) = count l1 + count l2.
Proof. unfold count. now rewrite filter_app, app_length. Qed.
Lemma count_cons r l : count (r :: l) = (if r_sched r then 1 else 0) + count l.
Proof. unfold count. cbn. destruct (r_sched r); cbn; lia. Qed.
Lemma count_le l : count l <= length l.
Proof. induction l; [cbn; lia|]. rewrite count_cons. cbn. destruct (r_sched a); lia. Qed.
Lemma count_perm l l' : Permutation l l' -> count l = count l'.
Proof. intros H. apply Permutation_length. now apply filter_perm. Qed.
Lemma count_unbook l : count (map unbook l) = 0.
Proof. induction l; auto. Qed.
Lemma count_upd l i f r :
  nth_error l i = Some r ->
  count (upd l i f) + (if r_sched r then 1 else 0) = count l + (if r_sched (f r) then 1 else 0).
Proof.
  intros H. destruct (upd_split l i f r H) as (l1 & l2 & -> & _ & ->).
  rewrite !count_app, !count_cons. lia.
Qed.

(** ** Iteration *)
Lemma h_iter_spec h : h_n h = length (reqs h) ->
  forall fuel i, h_n h <= fuel + i ->
  h_iter (S fuel) h i = Ok (firstn (h_n h - 1 - i) (skipn i (reqs h))).
Proof.
  intros E fuel. induction fuel as [|f IH]; intros i F.
  - cbn [h_iter]. unfold h_next. destruct (Nat.ltb_spec (S i) (h_n h)); [lia|]. cbn.
    replace (h_n h - 1 - i) with 0 by lia. reflexivity.
  - remember (S f) as g. cbn [h_iter]. unfold h_next.
    destruct (Nat.ltb_spec (S i) (h_n h)) as [L|L].
    + destruct (nth_error (reqs h) i) as [r|] eqn:N; [|apply nth_error_None in N; lia].
      rewrite (proj2 (py_nth_Ok (reqs h) i r) N). cbn [bind]. subst g. rewrite IH by lia. cbn [bind].
      apply nth_error_split in N. destruct N as (l1 & l2 & -> & <-).
      replace (h_n h - 1 - length l1) with (S (h_n h - 1 - S (length l1))) by lia.
      rewrite !skipn_app, Nat.sub_diag, skipn_all, (skipn_all2 l1) by lia.
      replace (S (length l1) - length l1) with 1 by lia. reflexivity.
    + cbn. replace (h_n h - 1 - i) with 0 by lia. reflexivity.
Qed.

Lemma h_items_spec h : h_n h = length (reqs h) ->
  h_items h = Ok (firstn (length (reqs h) - 1) (reqs h)).
Proof.
  intros E. unfold h_items. rewrite h_iter_spec by (auto; lia). rewrite E, Nat.sub_0_r. reflexivity.
Qed.

(** ** unschedule_all *)
Lemma unschedule_range l2 : forall l1 n c,
  for_each (seq (length l1) (length l2)) (fun i h => unschedule_request h i) (mkH (l1 ++ l2) n c)
  = Ok (mkH (l1 ++ map unbook l2) n (c - Z.of_nat (length l2))).
Proof.
  induction l2 as [|r l2 IH]; intros l1 n c.
  - cbn. do 2 f_equal. lia.
  - cbn [length seq for_each]. unfold unschedule_request at 1. cbn [reqs h_n h_nsched].
    rewrite (proj2 (py_nth_Ok (l1 ++ r :: l2) (length l1) r)).
    2:{ rewrite nth_error_app2 by lia. now rewrite Nat.sub_diag. }
    cbn [bind].
    assert (upd (l1 ++ r :: l2) (length l1) unbook = (l1 ++ [unbook r]) ++ l2) as ->.
    { clear. induction l1; cbn; auto. now f_equal. }
    specialize (IH (l1 ++ [unbook r]) n (c - 1)%Z). rewrite app_length in IH. cbn in IH.
    rewrite Nat.add_1_r in IH. rewrite IH. rewrite <- app_assoc. cbn [map app]. do 2 f_equal. lia.
Qed.

Lemma unschedule_all_spec h : h_n h = length (reqs h) ->
  unschedule_all h = Ok (mkH (map unbook (reqs h)) (h_n h) 0).
Proof.
  intros E. unfold unschedule_all. rewrite E. destruct h as [l n c]. cbn [reqs h_n] in *.
  pose proof (unschedule_range l [] n c) as H. cbn [length app] in H. rewrite H. cbn. now rewrite E.
Qed.

(** ** _remove_first_n *)
Definition unb (r : request) : request := if r_sched r then unbook r else r.

Lemma remove_loop_spec l2 : forall fuel l1 hn c n,
  length l2 < fuel -> (n <= Z.of_nat (count l2))%Z ->
  exists m, m <= length l2 /\ Z.of_nat (count (firstn m l2)) = Z.max n 0 /\
    remove_loop fuel (mkH (l1 ++ l2) hn c) (length l1) n =
    Ok (mkH (l1 ++ map unb (firstn m l2) ++ skipn m l2) hn (c - Z.max n 0)).
Proof.
  induction l2 as [|r l2 IH]; intros fuel l1 hn c n F N.
  - exists 0. cbn. split; [lia|]. split; [unfold count in *; cbn in *; lia|].
    destruct fuel; cbn [remove_loop]; (destruct (Z.gtb_spec n 0) as [G|G]; [cbn in N; lia|]);
      do 2 f_equal; lia.
  - destruct fuel as [|f]; [lia|]. cbn [remove_loop].
    destruct (Z.gtb_spec n 0) as [G|G].
    2:{ exists 0. cbn. split; [lia|]. split; [unfold count; cbn; lia|]. do 2 f_equal. lia. }
    unfold is_request_scheduled, unschedule_request. cbn [reqs h_n h_nsched].
    assert (nth_error (l1 ++ r :: l2) (length l1) = Some r) as NE.
    { rewrite nth_error_app2 by lia. now rewrite Nat.sub_diag. }
    rewrite (proj2 (py_nth_Ok _ _ _) NE). cbn [bind rmap].
    rewrite count_cons in N. cbn [length] in F.
    destruct (r_sched r) eqn:S.
    + assert (upd (l1 ++ r :: l2) (length l1) unbook = (l1 ++ [unbook r]) ++ l2) as ->.
      { clear. induction l1; cbn; auto. now f_equal. }
      destruct (IH f (l1 ++ [unbook r]) hn (c - 1)%Z (n - 1)%Z) as (m & M1 & M2 & M3); [lia|lia|].
      rewrite app_length in M3. cbn in M3. rewrite Nat.add_1_r in M3. rewrite M3.
      exists (Datatypes.S m). cbn [firstn skipn map length]. rewrite count_cons, S. split; [lia|]. split; [lia|].
      rewrite <- !app_assoc. cbn [app]. unfold unb at 2. rewrite S.
      do 2 f_equal. lia.
    + destruct (IH f (l1 ++ [r]) hn c n) as (m & M1 & M2 & M3); [lia|lia|].
      rewrite app_length in M3. cbn in M3. rewrite Nat.add_1_r in M3.
      rewrite <- !app_assoc in M3. cbn [app] in M3. rewrite M3.
      exists (Datatypes.S m). cbn [firstn skipn map length]. rewrite count_cons, S. split; [lia|]. split; [lia|].
      cbn [app]. unfold unb at 2. rewrite S. reflexivity.
Qed.

(** What a removal operator does on a list of requests. *)
Definition removal_step (r r' : request) : Prop :=
  r' = r \/ r' = unbook r.

Lemma removal_step_static r r' : removal_step r r' -> same_static r r'.
Proof. intros [->| ->]; repeat split; auto. Qed.

Definition split_removed (l l' removed kept : list request) : Prop :=
  Permutation (filter r_sched l) (removed ++ kept) /\ filter r_sched l' = kept.

Lemma filter_unb l : filter r_sched (map unb l) = [].
Proof. induction l; auto. cbn. unfold unb at 1. destruct (r_sched a) eqn:E; cbn; [|rewrite E]; auto. Qed.
Lemma filter_unbook l : filter r_sched (map unbook l) = [].
Proof. induction l; auto. Qed.

Lemma unb_step l : Forall2 removal_step l (map unb l).
Proof.
  induction l; cbn; constructor; auto. unfold removal_step, unb. destruct (r_sched a); auto.
Qed.
Lemma unbook_step l : Forall2 removal_step l (map unbook l).
Proof. induction l; cbn; constructor; auto. now right. Qed.
Lemma refl_step l : Forall2 removal_step l l.
Proof. apply Forall2_refl. now left. Qed.

Lemma remove_first_spec h n : counters_ok h ->
  exists h' m, remove_first_n_scheduled h n = Ok h' /\ counters_ok h' /\
    Forall2 removal_step (reqs h) (reqs h') /\
    Permutation (filter r_sched (firstn m (reqs h)) ++ filter r_sched (skipn m (reqs h))) (filter r_sched (reqs h)) /\
    filter r_sched (reqs h') = filter r_sched (skipn m (reqs h)) /\
    Z.of_nat (count (firstn m (reqs h))) = Z.min (Z.max n 0) (scheduled_count h).
Proof.
  intros [C1 C2]. unfold remove_first_n_scheduled.
  unfold scheduled_count, scheduled in *. fold (count (reqs h)) in *.
  destruct (Z.geb_spec n (h_nsched h)) as [G|G].
  - rewrite (unschedule_all_spec h C1). eexists. exists (length (reqs h)). split; [reflexivity|].
    split; [|split; [|split; [|split]]]; cbn [reqs h_n h_nsched].
    + split; cbn; [now rewrite map_length|]. unfold scheduled_count, scheduled. cbn.
      now rewrite filter_unbook.
    + apply unbook_step.
    + now rewrite firstn_all, skipn_all, app_nil_r.
    + now rewrite filter_unbook, skipn_all.
    + rewrite firstn_all. lia.
  - destruct h as [l hn c]. cbn [reqs h_n h_nsched] in *.
    destruct (remove_loop_spec l (S (length l)) [] hn c n) as (m & M1 & M2 & M3); [lia|lia|].
    cbn [app length] in M3. rewrite M3. eexists. exists m. split; [reflexivity|].
    assert (E : filter r_sched (map unb (firstn m l) ++ skipn m l) = filter r_sched (skipn m l)).
    { now rewrite filter_app, filter_unb. }
    assert (K : count l = count (firstn m l) + count (skipn m l)).
    { rewrite <- count_app. now rewrite firstn_skipn. }
    split; [|split; [|split; [|split]]]; cbn [reqs].
    + split; cbn [reqs h_n h_nsched].
      * rewrite app_length, map_length, <- app_length, firstn_skipn. exact C1.
      * unfold scheduled_count, scheduled. cbn [reqs]. rewrite E. fold (count (skipn m l)). lia.
    + rewrite <- (firstn_skipn m l) at 1. apply Forall2_app; [apply unb_step|apply refl_step].
    + now rewrite <- filter_app, firstn_skipn.
    + exact E.
    + pose proof (count_le (skipn m l)). lia.
Qed.

(** ** random_removal *)
Definition sched_at (l : list request) (i : nat) : bool :=
  match nth_error l i with Some r => r_sched r | None => false end.
Definition count_at (l : list request) (is : list nat) : nat := length (filter (sched_at l) is).

Lemma list_remove_perm x l : In x l -> Permutation l (x :: list_remove x l).
Proof.
  induction l as [|y l IH]; cbn; [tauto|]. destruct (Nat.eqb_spec x y) as [->|N]; auto.
  intros [<-|I]; [tauto|]. eapply perm_trans; [apply perm_skip, IH, I|apply perm_swap].
Qed.

Lemma choice_In c l : l <> [] -> exists x, choice c l = Ok x /\ In x l.
Proof.
  destruct l as [|a l]; [tauto|]. intros _. unfold choice.
  destruct (py_nth_lt (a :: l) (c mod length (a :: l))) as (x & E).
  { apply Nat.mod_upper_bound. cbn. lia. }
  exists x. split; auto. apply py_nth_Ok in E. eapply nth_error_In; eauto.
Qed.

Definition removal_strict (r r' : request) : Prop :=
  r' = r \/ (r_sched r = true /\ r' = unbook r).

Lemma count_at_upd l i is :
  ~ In i is -> count_at (upd l i unbook) is = count_at l is.
Proof.
  intros H. unfold count_at. f_equal. apply filter_ext_in. intros j I. unfold sched_at.
  rewrite nth_error_upd. destruct (Nat.eqb_spec i j) as [->|]; auto. tauto.
Qed.

Lemma random_loop_spec rnd : forall fuel h unchecked n,
  length unchecked < fuel -> NoDup unchecked ->
  (forall i, In i unchecked -> i < length (reqs h)) ->
  (n <= Z.of_nat (count_at (reqs h) unchecked))%Z ->
  exists h', random_removal_loop fuel rnd h unchecked n = Ok h' /\
    h_n h' = h_n h /\ h_nsched h' = (h_nsched h - Z.max n 0)%Z /\
    Forall2 removal_strict (reqs h) (reqs h') /\
    Z.of_nat (count (reqs h')) = (Z.of_nat (count (reqs h)) - Z.max n 0)%Z.
Proof.
  induction fuel as [|f IH]; intros h un n F ND B N; [lia|].
  cbn [random_removal_loop]. destruct (Z.gtb_spec n 0) as [G|G].
  2:{ exists h. repeat split; try lia. apply Forall2_refl. now left. }
  destruct (choice_In (rnd f) un) as (i & Ei & Ii).
  { intros ->. cbn in N. lia. }
  rewrite Ei. cbn [bind]. pose proof (B i Ii) as Bi.
  destruct (nth_error (reqs h) i) as [r|] eqn:NE; [|apply nth_error_None in NE; lia].
  unfold is_request_scheduled. rewrite (proj2 (py_nth_Ok _ _ _) NE). cbn [rmap bind].
  pose proof (list_remove_perm i un Ii) as P.
  assert (ND' : NoDup (i :: list_remove i un)) by (eapply Permutation_NoDup; eauto).
  inversion ND' as [|? ? Ni ND'']; subst.
  assert (L : length un = S (length (list_remove i un))) by (now rewrite (Permutation_length P)).
  assert (K : count_at (reqs h) un = (if r_sched r then 1 else 0) + count_at (reqs h) (list_remove i un)).
  { unfold count_at. rewrite (Permutation_length (filter_perm (sched_at (reqs h)) _ _ P)). cbn.
    unfold sched_at at 1. rewrite NE. destruct (r_sched r); cbn; lia. }
  destruct (r_sched r) eqn:S.
  - unfold unschedule_request. rewrite (proj2 (py_nth_Ok _ _ _) NE). cbn [bind].
    destruct (IH (mkH (upd (reqs h) i unbook) (h_n h) (h_nsched h - 1)) (list_remove i un) (n - 1)%Z)
      as (h' & E & A1 & A2 & A3 & A4); cbn [reqs h_n h_nsched] in *.
    + lia.
    + auto.
    + intros j Ij. rewrite upd_length. apply B. eapply Permutation_in; [symmetry; eauto|]. now right.
    + rewrite count_at_upd by auto. lia.
    + exists h'. split; [exact E|]. split; [lia|]. split; [lia|]. split.
      * apply (Forall2_trans removal_strict removal_strict removal_strict) with (l2 := upd (reqs h) i unbook); auto.
        -- intros x y z [->|[Sx ->]] [->|[Sy ->]]; [now left|right; auto|right; auto|discriminate].
        -- apply Forall2_upd; [now left|]. intros x Hx. right. split; congruence.
      * pose proof (count_upd (reqs h) i unbook r NE) as Q. rewrite S in Q. cbn in Q. lia.
  - destruct (IH h (list_remove i un) n) as (h' & E & A1 & A2 & A3 & A4); auto; try lia.
    { intros j Ij. apply B. eapply Permutation_in; [symmetry; eauto|]. now right. }
    exists h'. auto 10.
Qed.

Lemma count_at_seq l k : k <= length l -> count_at l (seq 0 k) = count (firstn k l).
Proof.
  intros H. unfold count_at, count. revert k H.
  induction l as [|r l IH]; intros k H; destruct k as [|k]; cbn; auto; cbn in H; [lia|].
  change (sched_at (r :: l) 0) with (r_sched r).
  assert (E : length (filter (sched_at (r :: l)) (seq 1 k)) = length (filter r_sched (firstn k l))).
  { rewrite <- IH by lia. rewrite <- seq_shift.
    clear. induction (seq 0 k) as [|a s IHs]; cbn; auto.
    assert (sched_at (r :: l) (S a) = sched_at l a) as -> by reflexivity.
    destruct (sched_at l a); cbn; auto. }
  destruct (r_sched r); cbn; now rewrite E.
Qed.

Lemma random_removal_spec rnd h n : counters_ok h ->
  exists h', random_removal rnd h n = Ok h' /\ counters_ok h' /\
    Forall2 removal_step (reqs h) (reqs h') /\
    scheduled_count h' = (scheduled_count h - Z.min (Z.max n 0) (scheduled_count h))%Z.
Proof.
  intros [C1 C2]. unfold random_removal.
  unfold scheduled_count, scheduled in *. fold (count (reqs h)) in *.
  destruct (Z.geb_spec n (h_nsched h)) as [G|G].
  - rewrite (unschedule_all_spec h C1). eexists. split; [reflexivity|].
    split; [|split]; cbn [reqs h_n h_nsched].
    + split; cbn; [now rewrite map_length|]. unfold scheduled_count, scheduled. cbn.
      now rewrite filter_unbook.
    + apply unbook_step.
    + rewrite filter_unbook. cbn. lia.
  - set (k := h_len h - 1). assert (Hk : k <= length (reqs h)) by (unfold k, h_len; lia).
    assert (n <= Z.of_nat (count_at (reqs h) (seq 0 k)))%Z as N.
    { rewrite count_at_seq by auto.
      assert (count (reqs h) = count (firstn k (reqs h)) + count (skipn k (reqs h))).
      { rewrite <- count_app. now rewrite firstn_skipn. }
      pose proof (count_le (skipn k (reqs h))) as L. rewrite skipn_length in L.
      unfold k, h_len in *. lia. }
    destruct (random_loop_spec rnd (S (length (seq 0 k))) h (seq 0 k) n)
      as (h' & E & A1 & A2 & A3 & A4); auto.
    + apply seq_NoDup.
    + intros i I. apply in_seq in I. lia.
    + exists h'. split; [exact E|]. unfold counters_ok, scheduled_count, scheduled.
      fold (count (reqs h')). split; [split|split].
      * rewrite A1, C1. eapply Forall2_len; eauto.
      * lia.
      * eapply Forall2_impl'; [|exact A3]. intros x y [->|[_ ->]]; [now left|now right].
      * pose proof (count_le (reqs h')). lia.
Qed.
