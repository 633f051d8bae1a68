(** Operators, copies and the search on the heap. *)
From Coq Require Import List ZArith QArith Bool Arith Permutation Lia.
From Verif Require Import Py PyLemmas Sched_Model Vtw_Model Alns_Model Gen_Model Sess_Model Sess_Proofs Heap_Model Heap_Spec Heap_Proofs.
Import ListNotations.
Open Scope nat_scope.
Open Scope list_scope.

(** ** Operators *)
Lemma random_loop_ok a rnd : forall fuel H h un n, reads H a h -> step H a (h_random_loop fuel rnd a un n) (random_removal_loop fuel rnd h un n).
Proof.
  induction fuel as [|f IH]; intros H h un n R; cbn [h_random_loop random_removal_loop]; destruct (n >? 0)%Z; try (now apply step_ret).
  - split; cbn; auto using frame_refl.
  - destruct (choice (rnd f) un) as [i|e]; cbn [bind]; [|now apply step_read_raise]. eapply step_read; [reflexivity|].
    pose proof (is_scheduled_ok _ _ _ i R) as E. destruct (is_request_scheduled h i) as [b|e]; cbn [bind]; [|now apply step_read_raise].
    eapply step_read; [exact E|]. destruct b; [|now apply IH]. eapply step_bind; [now apply unschedule_ok|]. intros h' H' _ _ R'. now apply IH.
Qed.
Lemma random_removal_ok H a h rnd n : reads H a h -> step H a (h_random_removal rnd a n) (random_removal rnd h n).
Proof.
  intros R0. pose proof R0 as (la & l & R). change (reads_at H a la l h) in R. unfold h_random_removal, random_removal.
  eapply step_read; [apply (get_handler_ok _ _ _ _ _ R)|]; cbv beta iota. destruct (n >=? h_nsched h)%Z; [now apply unschedule_all_ok|]. now apply random_loop_ok.
Qed.
Lemma remove_loop_ok a : forall fuel H h i n, reads H a h -> step H a (h_remove_loop fuel a i n) (remove_loop fuel h i n).
Proof.
  induction fuel as [|f IH]; intros H h i n R; cbn [h_remove_loop remove_loop]; destruct (n >? 0)%Z; try (now apply step_ret).
  - split; cbn; auto using frame_refl.
  - pose proof (is_scheduled_ok _ _ _ i R) as E. destruct (is_request_scheduled h i) as [b|e]; cbn [bind]; [|now apply step_read_raise].
    eapply step_read; [exact E|]. destruct b; [|now apply IH]. eapply step_bind; [now apply unschedule_ok|]. intros h' H' _ _ R'. now apply IH.
Qed.
Lemma remove_first_n_ok H a h n : reads H a h -> step H a (h_remove_first_n a n) (remove_first_n_scheduled h n).
Proof.
  intros R0. pose proof R0 as (la & l & R). change (reads_at H a la l h) in R. unfold h_remove_first_n, remove_first_n_scheduled.
  eapply step_read; [apply (get_handler_ok _ _ _ _ _ R)|]; cbv beta iota. destruct (n >=? h_nsched h)%Z; [now apply unschedule_all_ok|].
  eapply step_read; [apply (get_items_ok _ _ _ _ _ R)|]. destruct R as (_ & _ & F & _). cbv beta. replace (length l) with (length (reqs h)) by (symmetry; exact (Forall2_len _ _ _ F)). now apply remove_loop_ok.
Qed.
Lemma step_bind_Ok H a m k h1 r : step H a m (Ok h1) -> (forall H', H' = fst (m H) -> reads H' a h1 -> step H' a k r) -> step H a (mbind m (fun _ => k)) r.
Proof.
  intros S K. change r with (bind (Ok h1) (fun _ => r)). eapply step_bind; [exact S|]. intros h' H' E1 E2 R. injection E1 as <-. now apply K.
Qed.
(** Operators in the lists of the two models correspond. *)
Definition implements (f' : (nat -> nat) -> addr -> Z -> M unit) (f : (nat -> nat) -> handler -> Z -> res handler) : Prop :=
  forall H a h rnd n, reads H a h -> step H a (f' rnd a n) (f rnd h n).
Lemma removals_ok : Forall2 implements h_removal_functions removal_functions.
Proof.
  unfold h_removal_functions, removal_functions, h_sort_priority, h_sort_decreasing_opportunity. repeat apply Forall2_cons; try apply Forall2_nil; intros H a h rnd n R.
  - now apply random_removal_ok.
  - eapply step_bind_Ok; [apply (sort_ok _ _ _ h R)|]. intros H' _ R'. apply (remove_first_n_ok _ _ (sort_by_decreasing_priority h)). exact R'.
  - eapply step_bind_Ok; [apply (sort_ok _ _ _ h R)|]. intros H' _ R'. apply (remove_first_n_ok _ _ (sort_by_decreasing_opportunity h)). exact R'.
  - unfold conflict_removal. eapply step_bind; [now apply sort_conflict_ok|]. intros h' H' _ _ R'. now apply remove_first_n_ok.
Qed.

(** The insertion loop, with what it leaves behind when it raises. *)
Definition step_st (H : heap) (a : addr) (m : M unit) (r : handler * option exn) : Prop :=
  frame a H (fst (m H)) /\ reads (fst (m H)) a (fst r) /\ snd (m H) = match snd r with None => Ok tt | Some e => Raise e end.
Lemma step_st_read {A} H a (m : M A) x k r : m H = (H, Ok x) -> step_st H a (k x) r -> step_st H a (mbind m k) r.
Proof. intros E S. unfold step_st, mbind in *. now rewrite E. Qed.
Lemma step_st_raise {A} H a (m : M A) e k h : reads H a h -> m H = (H, Raise e) -> step_st H a (mbind m k) (h, Some e).
Proof. intros R E. unfold step_st, mbind. rewrite E. cbn. auto using frame_refl. Qed.
Lemma step_st_bind H a m k h1 r : step H a m (Ok h1) -> (forall H', H' = fst (m H) -> reads H' a h1 -> step_st H' a k r) -> step_st H a (mbind m (fun _ => k)) r.
Proof.
  intros (Fr & S & R) K. unfold step_st, mbind. destruct (m H) as (H', o) eqn:E. cbn [fst snd] in *. subst o.
  destruct (K H' eq_refl R) as (Fr' & S'). split; [eapply frame_trans; eauto|exact S'].
Qed.
Lemma insert_loop_ok a : forall is H h n, reads H a h -> step_st H a (h_insert_loop is a n) (insert_loop_st is h n).
Proof.
  induction is as [|i is IH]; intros H h n R0; cbn [h_insert_loop insert_loop_st]; [split; cbn; auto using frame_refl|].
  destruct (n =? 0)%Z; [split; cbn; auto using frame_refl|].
  pose proof R0 as (la & l & R). change (reads_at H a la l h) in R. pose proof R as (_ & _ & F & _). pose proof (request_at_ok _ _ _ _ _ i R) as E.
  destruct (holds_nth _ _ _ i F) as [(x & r & Ex & Er & Eo)|(Ex & Er)]; rewrite Ex in E; rewrite Er; [|now apply step_st_raise].
  eapply step_st_read; [exact E|]. eapply step_st_read; [unfold get_request; rewrite Eo; reflexivity|].
  destruct (r_sched r); [now apply IH|]. eapply step_st_read; [apply (contents_ok _ _ _ R0)|].
  destruct (find_slot h r 0 (r_vtws r)) as [[(k, s)|]|e]; [| |now apply step_st_raise].
  - eapply step_st_read; [reflexivity|]. pose proof (schedule_ok H a h i k s (r_dur r) R0) as S. unfold schedule_request in *. rewrite Er in *. cbn [bind] in *.
    eapply step_st_bind; [exact S|]. intros H' _ R'. now apply IH.
  - eapply step_st_read; [reflexivity|]. now apply IH.
Qed.
Lemma insert_st_eq is h n : insert_loop is h n = match insert_loop_st is h n with (g, None) => Ok g | (_, Some e) => Raise e end.
Proof. pose proof (insert_st_spec is h n) as X. destruct (insert_loop_st is h n) as (g, [e|]); tauto. Qed.
Lemma step_of_st H a m r : step_st H a m r -> step H a m (match r with (g, None) => Ok g | (_, Some e) => Raise e end).
Proof. intros (Fr & R & S). split; auto. destruct r as (g, [e|]); cbn in *; auto. Qed.
Lemma insert_first_n_ok H a h n : reads H a h -> step H a (h_insert_first_n a n) (insert_first_n h n).
Proof.
  intros R0. pose proof R0 as (la & l & R). change (reads_at H a la l h) in R. unfold h_insert_first_n, insert_first_n.
  eapply step_read; [apply (get_handler_ok _ _ _ _ _ R)|]; cbv beta iota. rewrite insert_st_eq. apply step_of_st. now apply insert_loop_ok.
Qed.
Lemma insertions_ok : Forall2 implements h_insertion_functions insertion_functions.
Proof.
  unfold h_insertion_functions, insertion_functions, h_sort_priority, h_sort_increasing_opportunity. repeat apply Forall2_cons; try apply Forall2_nil; intros H a h rnd n R.
  - eapply step_bind_Ok; [apply (sort_ok _ _ _ h R)|]. intros H' _ R'. apply (insert_first_n_ok _ _ (sort_by_decreasing_priority h)). exact R'.
  - eapply step_bind_Ok; [apply (sort_ok _ _ _ h R)|]. intros H' _ R'. apply (insert_first_n_ok _ _ (sort_by_increasing_opportunity h)). exact R'.
  - unfold minimum_conflict_insertion. eapply step_bind; [now apply sort_windows_conflict_ok|]. intros h' H' _ _ R'. now apply insert_first_n_ok.
Qed.
Lemma initialize_ok' H a h : reads H a h -> step_st H a (h_initialize a) (initialize_st h).
Proof.
  intros R. unfold h_initialize, h_sort_priority. eapply step_st_bind; [apply (sort_ok _ _ _ h R)|]. intros H1 _ R1. eapply step_st_bind; [apply (sort_rise_ok _ _ _ R1)|].
  intros H2 _ R0. clear R R1. fold (sort_by_decreasing_priority h) in R0. unfold initialize_st. set (g := sort_vtws_by_increasing_rise_time _) in *.
  pose proof R0 as (la & l & R). change (reads_at H2 a la l g) in R. eapply step_st_read; [apply (get_handler_ok _ _ _ _ _ R)|]; cbv beta iota.
  unfold h_insert_first_n. eapply step_st_read; [apply (get_handler_ok _ _ _ _ _ R)|]; cbv beta iota. now apply insert_loop_ok.
Qed.
Lemma nodup_snoc (l : list addr) x : NoDup l -> ~ In x l -> NoDup (l ++ [x]).
Proof.
  intros N I. apply (Permutation_NoDup (l := x :: l)); [apply Permutation_cons_append|]. now constructor.
Qed.
Lemma add_ok H a h loc dl du pr qu lk vs : reads H a h -> step H a (h_add_request a loc dl du pr qu lk vs) (Ok (add_request h loc dl du pr qu lk vs)).
Proof.
  intros (la & l & R). change (reads_at H a la l h) in R. pose proof R as (A & L & F & N). unfold h_add_request.
  eapply step_read; [apply (get_handler_ok _ _ _ _ _ R)|]; cbv beta iota. pose proof (write_handler _ _ _ _ _ (S (h_n h)) (h_nsched h) R) as R1.
  pose proof (frame_write _ _ _ _ _ a _ R ltac:(now left) _ R1) as Fr. set (H1 := upd H a _) in *.
  assert (X : step H1 a (l <~ get_list la ;; ra <~ alloc (ORequest (new_request loc dl du pr qu lk vs)) ;; write la (OList (l ++ [ra]))) (Ok (add_request h loc dl du pr qu lk vs))).
  { clear R A L F N Fr. clearbody H1. clear H. rename H1 into H. rename R1 into R. pose proof R as (A & L & F & N). cbn [h_n h_nsched reqs] in A, F.
    eapply step_read; [apply (get_list_ok _ _ _ _ _ R)|]. set (r := new_request loc dl du pr qu lk vs). unfold step, mbind, alloc. cbn [write fst snd].
    pose proof (nth_lt _ _ _ A) as La. pose proof (nth_lt _ _ _ L) as Ll. assert (a <> la) by congruence.
    assert (Lt : forall x, In x l -> x < length H) by (intros x I; destruct (Forall2_In_l _ _ _ _ F I) as (q & _ & E); eapply nth_lt; eauto).
    assert (R' : reads_at (upd (H ++ [ORequest r]) la (fun _ => OList (l ++ [length H]))) a la (l ++ [length H]) (add_request h loc dl du pr qu lk vs)).
    { split; [rewrite upd_other by auto; now apply nth_app|]. split; [apply (upd_same _ _ _ _ (nth_app _ _ _ _ L))|]. split.
      - cbn [add_request reqs]. apply Forall2_app.
        + apply holds_write_other; [now apply holds_app|]. intros I. destruct (Forall2_In_l _ _ _ _ F I) as (q & _ & E). congruence.
        + constructor; [|constructor]. rewrite upd_other by lia. rewrite nth_error_app2, Nat.sub_diag by lia. reflexivity.
      - apply nodup_snoc; auto. intros I. apply Lt in I. lia. }
    split; [|split; auto; exists la, (l ++ [length H]); exact R']. split; [rewrite upd_length, app_length; lia|]. split.
    - intros x o E Nx. rewrite (parts_reads _ _ _ _ _ R) in Nx. rewrite upd_other; [now apply nth_app|]. intros <-. apply Nx. right; now left.
    - intros x I0. assert (I : In x (a :: la :: l ++ [length H])) by (rewrite <- (parts_reads _ _ _ _ _ R'); exact I0). rewrite (parts_reads _ _ _ _ _ R). destruct I as [<-|[<-|I]]; [left; now left|left; right; now left|].
      apply in_app_iff in I. destruct I as [I|[<-|[]]]; [left; right; now right|right; lia]. }
  destruct X as (Fr' & S & R'). split; [eapply frame_trans; eauto|split; auto].
Qed.

(** ** Copies *)
Lemma lookup_none a memo : (forall x y, In (x, y) memo -> x <> a) -> lookup a memo = None.
Proof.
  induction memo as [|(x, y) memo IH]; cbn; auto. intros K. destruct (Nat.eqb_spec a x) as [->|]; [exfalso; apply (K x y); auto|]. apply IH. intros x' y' I. apply (K x' y'). auto.
Qed.
Lemma copy_requests_ok : forall l rs H memo, holds_requests H l rs -> NoDup l -> (forall x y, In (x, y) memo -> ~ In x l) ->
  exists bs, copy_requests l memo H = (H ++ map ORequest rs, Ok bs) /\ bs = seq (length H) (length rs).
Proof.
  induction l as [|a l IH]; intros rs H memo F N K; inversion F as [|? r ? rs' E F']; subst.
  - exists []. cbn. rewrite app_nil_r. auto.
  - inversion N as [|? ? Na Nl]; subst. cbn [copy_requests]. rewrite lookup_none by (intros x y I <-; apply (K _ _ I); now left).
    unfold mbind. unfold get_request. rewrite E. unfold alloc. cbv beta iota.
    destruct (IH rs' (H ++ [ORequest r]) ((a, length H) :: memo)) as (bs & Eb & Bs); auto.
    + now apply holds_app.
    + intros x y [I|I]; [injection I as <- <-; exact Na|]. intros J. apply (K _ _ I). now right.
    + unfold addr, heap in *. rewrite Eb. exists (length H :: bs). cbn [ret map]. rewrite <- app_assoc. split; [reflexivity|]. cbn [length seq]. rewrite Bs, app_length. cbn [length]. now rewrite Nat.add_1_r.
Qed.
Lemma holds_seq : forall rs H, holds_requests (H ++ map ORequest rs) (seq (length H) (length rs)) rs.
Proof.
  induction rs as [|r rs IH]; intros H; cbn [map length seq]; constructor.
  - rewrite nth_error_app2, Nat.sub_diag by lia. reflexivity.
  - specialize (IH (H ++ [ORequest r])). rewrite <- app_assoc, app_length, Nat.add_1_r in IH. exact IH.
Qed.
Lemma deepcopy_ok H a h : reads H a h ->
  exists new b, deepcopy a H = (H ++ new, Ok b) /\ reads (H ++ new) b h /\ forall x, In x (parts (H ++ new) b) -> length H <= x.
Proof.
  intros (la & l & R). change (reads_at H a la l h) in R. pose proof R as (A & L & F & N).
  destruct (copy_requests_ok l (reqs h) H [] F N) as (bs & E & Bs); [intros x y []|].
  unfold deepcopy, mbind. rewrite (get_handler_ok _ _ _ _ _ R), (get_list_ok _ _ _ _ _ R), E. unfold alloc. cbv beta iota.
  set (k := length (reqs h)) in *. assert (L1 : length (H ++ map ORequest (reqs h)) = length H + k) by (rewrite app_length, map_length; reflexivity).
  set (H1 := H ++ map ORequest (reqs h)) in *. set (H2 := (H1 ++ [OList bs]) ++ [OHandler (length H1) (h_n h) (h_nsched h)]).
  assert (R' : reads_at H2 (length (H1 ++ [OList bs])) (length H1) bs h).
  { split; [unfold H2; rewrite nth_error_app2, Nat.sub_diag by lia; reflexivity|]. split.
    - unfold H2. apply nth_app. rewrite nth_error_app2, Nat.sub_diag by lia. reflexivity.
    - split; [unfold H2; apply holds_app, holds_app; unfold H1; rewrite Bs; apply holds_seq|rewrite Bs; apply seq_NoDup]. }
  exists (map ORequest (reqs h) ++ [OList bs; OHandler (length H1) (h_n h) (h_nsched h)]), (length (H1 ++ [OList bs])).
  assert (EH : H ++ map ORequest (reqs h) ++ [OList bs; OHandler (length H1) (h_n h) (h_nsched h)] = H2) by (unfold H2, H1; now rewrite <- !app_assoc).
  rewrite EH. split; [reflexivity|]. split; [exists (length H1), bs; exact R'|]. intros x I. rewrite (parts_reads _ _ _ _ _ R') in I. rewrite app_length in I. cbn [length] in I.
  destruct I as [<-|[<-|I]]; [rewrite L1; lia|rewrite L1; lia|]. rewrite Bs in I. apply in_seq in I. lia.
Qed.
