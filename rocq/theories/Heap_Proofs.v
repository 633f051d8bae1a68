(** Statements on the heap do what the functions of Sched_Model.v do to the contents. *)
From Coq Require Import List ZArith QArith Bool Arith Permutation Lia.
From Verif Require Import Py PyLemmas Sched_Model Vtw_Model Alns_Model Gen_Model Sess_Model Sess_Proofs Heap_Model Heap_Spec.
Import ListNotations.
Open Scope nat_scope.
Open Scope list_scope.

Definition holds_requests (H : heap) (l : list addr) (rs : list request) : Prop :=
  Forall2 (fun x r => nth_error H x = Some (ORequest r)) l rs.
Definition reads_at (H : heap) (a la : addr) (l : list addr) (h : handler) : Prop :=
  nth_error H a = Some (OHandler la (h_n h) (h_nsched h)) /\ nth_error H la = Some (OList l) /\
  holds_requests H l (reqs h) /\ NoDup l.
Lemma parts_reads H a la l h : reads_at H a la l h -> parts H a = a :: la :: l.
Proof. intros (A & L & _). unfold parts. now rewrite A, L. Qed.
Definition frame (a : addr) (H H' : heap) : Prop :=
  length H <= length H' /\ kept_but a H H' /\ forall x, In x (parts H' a) -> In x (parts H a) \/ length H <= x.
Lemma frame_refl a H : frame a H H.
Proof. repeat split; auto. intros x o E _. exact E. Qed.
Lemma nth_lt {A} (l : list A) x o : nth_error l x = Some o -> x < length l.
Proof. intros E. apply nth_error_Some. congruence. Qed.
Lemma frame_trans a H1 H2 H3 : frame a H1 H2 -> frame a H2 H3 -> frame a H1 H3.
Proof.
  intros (L1 & K1 & P1) (L2 & K2 & P2). split; [lia|]. split.
  - intros x o E N. apply K2; [now apply K1|]. intros I. destruct (P1 x I) as [I'|G]; [tauto|]. apply nth_lt in E. lia.
  - intros x I. destruct (P2 x I) as [I'|G]; [destruct (P1 x I'); auto|right; lia].
Qed.

(** ** Two handlers *)
Lemma parts_lt H b h x : reads H b h -> In x (parts H b) -> x < length H.
Proof.
  intros (lb & l & R) I. rewrite (parts_reads _ _ _ _ _ R) in I. destruct R as (A & L & F & _).
  destruct I as [<-|[<-|I]]; [eapply nth_lt; eauto|eapply nth_lt; eauto|].
  destruct (Forall2_In_l _ _ _ _ F I) as (r & _ & E). eapply nth_lt; eauto.
Qed.
Lemma reads_kept H H' b h : reads H b h -> (forall x o, In x (parts H b) -> nth_error H x = Some o -> nth_error H' x = Some o) ->
  reads H' b h /\ parts H' b = parts H b.
Proof.
  intros (lb & l & R) K. pose proof (parts_reads _ _ _ _ _ R) as P. rewrite P in *. destruct R as (A & L & F & N).
  assert (R' : reads_at H' b lb l h).
  { split; [apply K; auto; now left|]. split; [apply K; auto; right; now left|]. split; [|exact N].
    unfold holds_requests in *. clear A L N. revert F K. generalize (reqs h). clear. intros rs F. induction F as [|x r l rs E F IH]; intros K; constructor.
    - apply K; auto. right; right; now left.
    - apply IH. intros y o [I|[I|I]]; apply K; [now left|right; now left|right; right; now right]. }
  split; [exists lb, l; exact R'|]. now rewrite (parts_reads _ _ _ _ _ R').
Qed.
Lemma apart_sym H a b : apart H a b -> apart H b a.
Proof. intros X x I J. exact (X x J I). Qed.
Lemma frame_other a b h H H' : frame a H H' -> reads H b h -> apart H a b ->
  reads H' b h /\ parts H' b = parts H b /\ apart H' a b.
Proof.
  intros (L & K & P) R A. destruct (reads_kept H H' b h R) as (R' & E).
  { intros x o I E. apply K; auto. intros J. exact (A x J I). }
  split; auto. split; auto. intros x I J. rewrite E in J. destruct (P x I) as [I'|G]; [exact (A x I' J)|].
  pose proof (parts_lt _ _ _ _ R J). lia.
Qed.

(** ** Reading *)
Lemma get_handler_ok H a la l h : reads_at H a la l h -> get_handler a H = (H, Ok (la, h_n h, h_nsched h)).
Proof. intros (A & _). unfold get_handler. now rewrite A. Qed.
Lemma get_list_ok H a la l h : reads_at H a la l h -> get_list la H = (H, Ok l).
Proof. intros (_ & L & _). unfold get_list. now rewrite L. Qed.
Lemma get_items_ok H a la l h : reads_at H a la l h -> get_items a H = (H, Ok l).
Proof. intros R. unfold get_items, mbind. rewrite (get_handler_ok _ _ _ _ _ R). now apply (get_list_ok _ _ _ _ _ R). Qed.
Lemma get_requests_ok H l rs : holds_requests H l rs -> get_requests l H = (H, Ok rs).
Proof.
  intros F. induction F as [|x r l rs E F IH]; auto. cbn [get_requests]. unfold mbind. unfold get_request at 1. rewrite E. rewrite IH. reflexivity.
Qed.
Lemma contents_ok H a h : reads H a h -> contents a H = (H, Ok h).
Proof.
  intros (la & l & R). change (reads_at H a la l h) in R. unfold contents, mbind. rewrite (get_handler_ok _ _ _ _ _ R), (get_list_ok _ _ _ _ _ R).
  destruct R as (_ & _ & F & _). rewrite (get_requests_ok _ _ _ F). destruct h; reflexivity.
Qed.
Lemma request_at_ok H a la l h i : reads_at H a la l h -> request_at a i H = (H, py_nth l i).
Proof. intros R. unfold request_at, mbind. now rewrite (get_items_ok _ _ _ _ _ R). Qed.
Lemma holds_nth H l rs i : holds_requests H l rs ->
  (exists x r, py_nth l i = Ok x /\ py_nth rs i = Ok r /\ nth_error H x = Some (ORequest r)) \/
  (py_nth l i = Raise IndexError /\ py_nth rs i = Raise IndexError).
Proof.
  intros F. unfold py_nth. destruct (nth_error l i) as [x|] eqn:E.
  - destruct (Forall2_nth _ _ _ F i x E) as (r & Er & Ex). left. exists x, r. now rewrite Er.
  - right. assert (nth_error rs i = None) as ->; auto. apply nth_error_None. rewrite <- (Forall2_len _ _ _ F). now apply nth_error_None.
Qed.

(** ** Writing *)
Lemma upd_at {A} (l : list A) i f j : nth_error (upd l i f) j = if i =? j then option_map f (nth_error l j) else nth_error l j.
Proof.
  revert i j. induction l as [|x l IH]; intros [|i] [|j]; cbn; auto. destruct (i =? j); auto.
Qed.
Lemma upd_same H x o o' : nth_error H x = Some o -> nth_error (upd H x (fun _ => o')) x = Some (o' : obj).
Proof. intros E. rewrite upd_at, Nat.eqb_refl, E. reflexivity. Qed.
Lemma upd_other H x y (o' : obj) : x <> y -> nth_error (upd H x (fun _ => o')) y = nth_error H y.
Proof. intros N. rewrite upd_at. now apply Nat.eqb_neq in N as ->. Qed.
Lemma frame_write H a la l h x o : reads_at H a la l h -> In x (a :: la :: l) ->
  forall h', reads_at (upd H x (fun _ => o)) a la l h' -> frame a H (upd H x (fun _ => o)).
Proof.
  intros R I h' R'. split; [rewrite upd_length; lia|]. split.
  - intros y oy E N. rewrite upd_other; auto. intros <-. rewrite (parts_reads _ _ _ _ _ R) in N. tauto.
  - intros y Iy. rewrite (parts_reads _ _ _ _ _ R'), (parts_reads _ _ _ _ _ R) in *. auto.
Qed.
Lemma holds_write_other H l rs x o : holds_requests H l rs -> ~ In x l -> holds_requests (upd H x (fun _ => o)) l rs.
Proof.
  intros F N. unfold holds_requests in *. induction F as [|y r l rs E F IH]; constructor; cbn in N.
  - rewrite upd_other; auto.
  - apply IH. tauto.
Qed.
Lemma holds_write H l rs i x r f : holds_requests H l rs -> NoDup l -> nth_error l i = Some x -> nth_error rs i = Some r ->
  holds_requests (upd H x (fun _ => ORequest (f r))) l (upd rs i f).
Proof.
  intros F. revert i. induction F as [|y q l rs E F IH]; intros i N El Er; [destruct i; discriminate|].
  inversion N as [|? ? Ny Nl]; subst. destruct i as [|i]; cbn [nth_error] in El, Er; cbn [upd].
  - injection El as ->. injection Er as ->. constructor; [now apply (upd_same _ _ _ _ E)|]. now apply holds_write_other.
  - constructor; [|now apply IH]. rewrite upd_other; auto. intros <-. apply Ny. eapply nth_error_In; eauto.
Qed.
Lemma write_request H a la l h i x r f : reads_at H a la l h -> nth_error l i = Some x -> nth_error (reqs h) i = Some r ->
  reads_at (upd H x (fun _ => ORequest (f r))) a la l (mkH (upd (reqs h) i f) (h_n h) (h_nsched h)).
Proof.
  intros (A & L & F & N) El Er. destruct (Forall2_nth _ _ _ F i x El) as (r' & Er' & Ex). assert (r' = r) as -> by congruence.
  assert (x <> a) by congruence. assert (x <> la) by congruence.
  split; [rewrite upd_other; auto|]. split; [rewrite upd_other; auto|]. split; [|exact N]. now apply holds_write.
Qed.
Lemma write_handler H a la l h n s : reads_at H a la l h ->
  reads_at (upd H a (fun _ => OHandler la n s)) a la l (mkH (reqs h) n s).
Proof.
  intros (A & L & F & N). assert (a <> la) by congruence.
  split; [now apply (upd_same _ _ _ _ A)|]. split; [rewrite upd_other; auto|]. split; [|exact N]. apply holds_write_other; auto.
  intros I. destruct (Forall2_In_l _ _ _ _ F I) as (r & _ & E). congruence.
Qed.
Lemma nth_app {A} (l m : list A) x o : nth_error l x = Some o -> nth_error (l ++ m) x = Some o.
Proof. intros E. rewrite nth_error_app1; auto. eapply nth_lt; eauto. Qed.
Lemma holds_app H m l rs : holds_requests H l rs -> holds_requests (H ++ m) l rs.
Proof. intros F. unfold holds_requests in *. induction F; constructor; auto. now apply nth_app. Qed.

(** ** Statements and functions *)
Definition step (H : heap) (a : addr) (m : M unit) (r : res handler) : Prop :=
  frame a H (fst (m H)) /\
  match r with Ok h' => snd (m H) = Ok tt /\ reads (fst (m H)) a h' | Raise e => snd (m H) = Raise e end.
Lemma step_ret H a h : reads H a h -> step H a (ret tt) (Ok h).
Proof. intros R. split; [apply frame_refl|]. split; auto. Qed.
Lemma step_bind H a m k r f : step H a m r ->
  (forall h' H', r = Ok h' -> H' = fst (m H) -> reads H' a h' -> step H' a k (f h')) -> step H a (mbind m (fun _ => k)) (bind r f).
Proof.
  intros (Fr & S) K. unfold step, mbind. destruct (m H) as (H', o) eqn:E. cbn [fst snd] in *. destruct r as [h'|e].
  - destruct S as (-> & R). destruct (K h' H' eq_refl eq_refl R) as (Fr' & S'). cbn [bind]. split; [eapply frame_trans; eauto|exact S'].
  - subst o. cbn [bind fst snd]. auto.
Qed.
(** A statement that first reads. *)
Lemma step_read {A} H a (m : M A) x k r : m H = (H, Ok x) -> step H a (k x) r -> step H a (mbind m k) r.
Proof. intros E S. unfold step, mbind in *. now rewrite E. Qed.
Lemma step_read_raise {A} H a (m : M A) e k : m H = (H, Raise e) -> step H a (mbind m k) (Raise e).
Proof. intros E. unfold step, mbind. rewrite E. cbn. split; auto using frame_refl. Qed.

Lemma change_ok H a h i f : reads H a h ->
  step H a (change a i f) (_ <- py_nth (reqs h) i ;; Ok (mkH (upd (reqs h) i f) (h_n h) (h_nsched h))).
Proof.
  intros (la & l & R). change (reads_at H a la l h) in R. unfold change. pose proof (request_at_ok _ _ _ _ _ i R) as E.
  pose proof R as (_ & _ & F & _). destruct (holds_nth _ _ _ i F) as [(x & r & Ex & Er & Eo)|(Ex & Er)]; rewrite Ex in E; rewrite Er; cbn [bind].
  - apply step_read with x; auto. apply step_read with r; [unfold get_request; now rewrite Eo|].
    apply py_nth_Ok in Ex. apply py_nth_Ok in Er. pose proof (write_request _ _ _ _ _ i x r f R Ex Er) as R'.
    split; cbn [write fst snd]; [|split; auto; now exists la, l]. eapply frame_write; eauto. right; right. eapply nth_error_In; eauto.
  - now apply step_read_raise.
Qed.
Lemma count_ok H a h d : reads H a h -> step H a (count a d) (Ok (mkH (reqs h) (h_n h) (h_nsched h + d))).
Proof.
  intros (la & l & R). change (reads_at H a la l h) in R. unfold count. eapply step_read; [apply (get_handler_ok _ _ _ _ _ R)|].
  pose proof (write_handler _ _ _ _ _ (h_n h) (h_nsched h + d)%Z R) as R'. split; cbn [write fst snd]; [|split; auto; now exists la, l].
  eapply frame_write; eauto. now left.
Qed.
Lemma step_Ok_eq H a m r r' : step H a m r -> r = r' -> step H a m r'.
Proof. now intros S <-. Qed.
Lemma schedule_ok H a h i k s d : reads H a h -> step H a (h_schedule_request a i k s d) (schedule_request h i k s d).
Proof.
  intros R. unfold h_schedule_request. eapply step_Ok_eq.
  - eapply step_bind; [apply change_ok; exact R|]. intros h' H' E -> R'. apply (count_ok _ _ h'). exact R'.
  - unfold schedule_request. destruct (py_nth (reqs h) i); reflexivity.
Qed.
Lemma unschedule_ok H a h i : reads H a h -> step H a (h_unschedule_request a i) (unschedule_request h i).
Proof.
  intros R. unfold h_unschedule_request. eapply step_Ok_eq.
  - eapply step_bind; [apply change_ok; exact R|]. intros h' H' E -> R'. apply (count_ok _ _ h'). exact R'.
  - unfold unschedule_request. destruct (py_nth (reqs h) i); reflexivity.
Qed.
Lemma for_ok a (body : nat -> M unit) (f : nat -> handler -> res handler) :
  (forall H h i, reads H a h -> step H a (body i) (f i h)) ->
  forall is H h, reads H a h -> step H a (h_for is body) (for_each is f h).
Proof.
  intros B. induction is as [|i is IH]; intros H h R; cbn [h_for for_each]; [now apply step_ret|].
  eapply step_bind; [now apply B|]. intros h' H' E _ R'. now apply IH.
Qed.
Lemma unschedule_all_ok H a h : reads H a h -> step H a (h_unschedule_all a) (unschedule_all h).
Proof.
  intros R0. pose proof R0 as (la & l & R). change (reads_at H a la l h) in R. unfold h_unschedule_all, unschedule_all. eapply step_read; [apply (get_handler_ok _ _ _ _ _ R)|].
  eapply step_bind; [apply (for_ok a _ (fun i h => unschedule_request h i)); [intros; now apply unschedule_ok|exact R0]|].
  clear. intros h' H' _ _ (la & l & R). change (reads_at H' a la l h') in R. eapply step_read; [apply (get_handler_ok _ _ _ _ _ R)|].
  pose proof (write_handler _ _ _ _ _ (h_n h') 0%Z R) as R'. split; cbn [write fst snd]; [|split; auto; now exists la, l].
  eapply frame_write; eauto. now left.
Qed.
Lemma is_scheduled_ok H a h i : reads H a h -> h_is_scheduled a i H = (H, is_request_scheduled h i).
Proof.
  intros (la & l & R). change (reads_at H a la l h) in R. unfold h_is_scheduled, is_request_scheduled, mbind. rewrite (request_at_ok _ _ _ _ _ i R).
  destruct R as (_ & _ & F & _). destruct (holds_nth _ _ _ i F) as [(x & r & -> & -> & Eo)|(-> & ->)]; auto. unfold get_request. now rewrite Eo.
Qed.

(** ** A new list *)
Lemma set_items_ok H a la l h l' rs' : reads_at H a la l h -> holds_requests H l' rs' -> NoDup l' -> (forall x, In x l' -> In x l) ->
  step H a (set_items a l') (Ok (mkH rs' (h_n h) (h_nsched h))).
Proof.
  intros R F' N' Sub. pose proof R as (A & L & F & N). unfold step, set_items, mbind, alloc, get_handler. rewrite (nth_app _ _ _ _ A). cbn [write fst snd].
  pose proof (nth_lt _ _ _ A) as La.
  assert (R' : reads_at (upd (H ++ [OList l']) a (fun _ => OHandler (length H) (h_n h) (h_nsched h))) a (length H) l' (mkH rs' (h_n h) (h_nsched h))).
  { split; [apply (upd_same _ _ _ _ (nth_app _ _ _ _ A))|]. split; [rewrite upd_other by lia; rewrite nth_error_app2, Nat.sub_diag by lia; reflexivity|].
    split; [|exact N']. apply holds_write_other; [now apply holds_app|]. intros I. destruct (Forall2_In_l _ _ _ _ F' I) as (r & _ & E). congruence. }
  split; [|split; auto; exists (length H), l'; exact R']. split; [rewrite upd_length, app_length; lia|]. split.
  - intros x o E Nx. rewrite (parts_reads _ _ _ _ _ R) in Nx. rewrite upd_other; [now apply nth_app|]. intros <-. apply Nx. now left.
  - intros x I. rewrite (parts_reads _ _ _ _ _ R') in I. rewrite (parts_reads _ _ _ _ _ R). destruct I as [<-|[<-|I]]; [left; now left|right; lia|]. left. right; right. auto.
Qed.
Lemma insert_snd {A B} (lt : B -> B -> bool) (x : A * B) l :
  map snd (py_insert (fun p q => lt (snd p) (snd q)) x l) = py_insert lt (snd x) (map snd l).
Proof. induction l as [|y l IH]; cbn; auto. destruct (lt (snd y) (snd x)); cbn; congruence. Qed.
Lemma sorted_snd {A B} (lt : B -> B -> bool) (l : list (A * B)) :
  map snd (py_sorted (fun p q => lt (snd p) (snd q)) l) = py_sorted lt (map snd l).
Proof. induction l as [|x l IH]; cbn; auto. now rewrite insert_snd, IH. Qed.
Lemma combine_fst {A B} (R : A -> B -> Prop) l rs : Forall2 R l rs -> map fst (combine l rs) = l /\ map snd (combine l rs) = rs /\ Forall (fun p => R (fst p) (snd p)) (combine l rs).
Proof. induction 1 as [|x y l rs E F (I1 & I2 & I3)]; cbn; auto. rewrite I1, I2. auto. Qed.
Lemma split_Forall2 {A B} (R : A -> B -> Prop) ps : Forall (fun p => R (fst p) (snd p)) ps -> Forall2 R (map fst ps) (map snd ps).
Proof. induction 1; cbn; constructor; auto. Qed.
Lemma sort_ok lt H a h : reads H a h -> step H a (h_sort lt a) (Ok (mkH (py_sorted lt (reqs h)) (h_n h) (h_nsched h))).
Proof.
  intros (la & l & R). change (reads_at H a la l h) in R. pose proof R as (_ & _ & F & N). unfold h_sort.
  eapply step_read; [apply (get_items_ok _ _ _ _ _ R)|]. eapply step_read; [apply (get_requests_ok _ _ _ F)|].
  destruct (combine_fst (A := addr) (B := request) _ _ _ F) as (C1 & C2 & C3). set (ps := combine l (reqs h)) in *. set (lt' := fun x y : addr * request => lt (snd x) (snd y)).
  pose proof (py_sorted_perm lt' ps) as P. assert (E : map snd (py_sorted lt' ps) = py_sorted lt (reqs h)) by (unfold lt'; now rewrite sorted_snd, C2).
  rewrite <- E. apply (set_items_ok _ _ _ _ _ _ _ R).
  - apply (split_Forall2 (fun x r => nth_error H x = Some (ORequest r))). rewrite Forall_forall in *. intros p I. apply C3. eapply Permutation_in; [symmetry; exact P|exact I].
  - eapply Permutation_NoDup; [apply Permutation_map; exact P|]. now rewrite C1.
  - intros x I. rewrite <- C1. eapply Permutation_in; [apply Permutation_map; symmetry; exact P|exact I].
Qed.
Lemma mapM_holds H l rs is : holds_requests H l rs ->
  match mapM (py_nth rs) is with
  | Ok rs' => exists l', mapM (py_nth l) is = Ok l' /\ holds_requests H l' rs'
  | Raise e => mapM (py_nth l) is = Raise e
  end.
Proof.
  intros F. induction is as [|i is IH]; cbn [mapM]; [exists []; split; auto; constructor|].
  destruct (holds_nth _ _ _ i F) as [(x & r & -> & -> & E)|(-> & ->)]; cbn [bind]; auto. destruct (mapM (py_nth rs) is) as [rs'|e]; cbn [bind].
  - destruct IH as (l' & -> & F'). exists (x :: l'). split; auto. constructor; auto.
  - now rewrite IH.
Qed.
Lemma py_nth_inj {A} (l : list A) is l' : NoDup l -> NoDup is -> mapM (py_nth l) is = Ok l' -> NoDup l'.
Proof.
  intros N Ni E. apply mapM_Forall2 in E. induction E as [|i x is l' Ei E IH]; constructor; inversion Ni; subst.
  - intros I. destruct (Forall2_In_r _ _ _ _ E I) as (j & Ij & Ej). apply py_nth_Ok in Ei. apply py_nth_Ok in Ej.
    assert (i = j) as -> by (eapply (proj1 (NoDup_nth_error l) N); [eapply nth_lt; eauto|congruence]). contradiction.
  - auto.
Qed.
Lemma sort_conflict_ok H a h : reads H a h -> step H a (h_sort_conflict a) (sort_by_decreasing_conflict_degree h).
Proof.
  intros R0. pose proof R0 as (la & l & R). change (reads_at H a la l h) in R. pose proof R as (_ & _ & F & N).
  unfold h_sort_conflict, sort_by_decreasing_conflict_degree. eapply step_read; [apply (contents_ok _ _ _ R0)|].
  destruct (mapM (request_conflict_degree h) (reqs h)) as [ds|e]; cbn [bind]; [|now apply step_read_raise].
  eapply step_read; [reflexivity|]. destruct (py_sortedM pair_lt (combine ds (seq 0 (length ds)))) as [srt|e] eqn:S; cbn [bind]; [|now apply step_read_raise].
  eapply step_read; [reflexivity|]. eapply step_read; [apply (get_items_ok _ _ _ _ _ R)|].
  assert (Ns : NoDup (rev (map snd srt))).
  { apply py_sortedM_perm in S. apply NoDup_rev. eapply Permutation_NoDup; [apply Permutation_map; exact S|].
    assert (E : map snd (combine ds (seq 0 (length ds))) = seq 0 (length ds)).
    { generalize 0. clear. induction ds as [|d ds IH]; intros k; cbn; auto. now rewrite IH. }
    rewrite E. apply seq_NoDup. }
  pose proof (mapM_holds _ _ _ (rev (map snd srt)) F) as X. destruct (mapM (py_nth (reqs h)) (rev (map snd srt))) as [rs'|e]; cbn [bind].
  - destruct X as (l' & E & F'). rewrite E. eapply step_read; [reflexivity|]. apply (set_items_ok _ _ _ _ _ _ _ R); auto.
    + exact (py_nth_inj l _ l' N Ns E).
    + intros x I. apply mapM_Forall2 in E. destruct (Forall2_In_r _ _ _ _ E I) as (i & _ & Ei). apply py_nth_Ok in Ei. eapply nth_error_In; eauto.
  - rewrite X. now apply step_read_raise.
Qed.
Lemma sort_windows_of_ok H a h i : reads H a h -> step H a (h_sort_windows_of a i) (sort_vtws_of h i).
Proof.
  intros R0. pose proof R0 as (la & l & R). change (reads_at H a la l h) in R. pose proof R as (_ & _ & F & N).
  unfold h_sort_windows_of, sort_vtws_of. pose proof (request_at_ok _ _ _ _ _ i R) as E. pose proof (change_ok H a h i) as C.
  destruct (holds_nth _ _ _ i F) as [(x & r & Ex & Er & Eo)|(Ex & Er)]; rewrite Ex in E; rewrite Er in *; cbn [bind] in *; [|now apply step_read_raise].
  eapply step_read; [exact E|]. eapply step_read; [unfold get_request; rewrite Eo; reflexivity|]. eapply step_read; [apply (contents_ok _ _ _ R0)|].
  destruct (mapM (conflict_degree h) (r_vtws r)) as [ds|e]; cbn [bind]; [|now apply step_read_raise].
  eapply step_read; [reflexivity|]. destruct (py_sortedM pair_lt_vtw (combine ds (r_vtws r))) as [srt|e] eqn:S; cbn [bind]; [|now apply step_read_raise].
  eapply step_read; [reflexivity|]. now apply C.
Qed.
Lemma sort_windows_conflict_ok H a h : reads H a h -> step H a (h_sort_windows_conflict a) (sort_vtws_by_increasing_conflict_degree h).
Proof.
  intros R0. pose proof R0 as (la & l & R). change (reads_at H a la l h) in R. unfold h_sort_windows_conflict, sort_vtws_by_increasing_conflict_degree.
  eapply step_read; [apply (get_handler_ok _ _ _ _ _ R)|]. apply (for_ok a _ (fun i h => sort_vtws_of h i)); [intros; now apply sort_windows_of_ok|exact R0].
Qed.
Lemma change_all_ok f a la : forall l2 H l1 rs1 rs2 n s, reads_at H a la (l1 ++ l2) (mkH (rs1 ++ rs2) n s) -> length l1 = length rs1 ->
  snd (h_change_all f l2 H) = Ok tt /\ reads_at (fst (h_change_all f l2 H)) a la (l1 ++ l2) (mkH (rs1 ++ map f rs2) n s) /\
  frame a H (fst (h_change_all f l2 H)).
Proof.
  induction l2 as [|x l2 IH]; intros H l1 rs1 rs2 n s R L.
  - pose proof R as (_ & _ & F & _). cbn [reqs] in F. apply Forall2_len in F. rewrite !app_length in F. cbn in F. destruct rs2; [|cbn in F; lia]. cbn. auto using frame_refl.
  - pose proof R as (_ & _ & F & _). cbn [reqs] in F. pose proof (Forall2_len _ _ _ F) as Len. rewrite !app_length in Len. cbn in Len. destruct rs2 as [|r rs2]; [cbn in Len; lia|].
    assert (El : nth_error (l1 ++ x :: l2) (length l1) = Some x) by (rewrite nth_error_app2, Nat.sub_diag by lia; reflexivity).
    assert (Er : nth_error (rs1 ++ r :: rs2) (length l1) = Some r) by (rewrite L, nth_error_app2, Nat.sub_diag by lia; reflexivity).
    destruct (Forall2_nth _ _ _ F _ _ El) as (r' & Er' & Ex). assert (r' = r) as -> by congruence.
    pose proof (write_request _ _ _ _ _ (length l1) x r f R El Er) as R'. cbn [reqs h_n h_nsched] in R'.
    assert (U : upd (rs1 ++ r :: rs2) (length l1) f = (rs1 ++ [f r]) ++ rs2).
    { rewrite L, <- app_assoc. clear. cbn [app]. induction rs1 as [|q rs1 IH]; cbn [app length upd]; [reflexivity|]. now rewrite IH. }
    rewrite U in R'. pose proof (frame_write _ _ _ _ _ x _ R ltac:(right; right; eapply nth_error_In; eauto) _ R') as Fr.
    cbn [h_change_all]. unfold mbind. unfold get_request at 1 2 3. rewrite Ex. cbn [write fst snd].
    replace (l1 ++ x :: l2) with ((l1 ++ [x]) ++ l2) in R' |- * by now rewrite <- app_assoc.
    destruct (IH _ _ _ _ _ _ R') as (S & R2 & Fr2); [rewrite !app_length; cbn; lia|]. cbn [map].
    replace (rs1 ++ f r :: map f rs2) with ((rs1 ++ [f r]) ++ map f rs2) by now rewrite <- app_assoc.
    split; [exact S|]. split; [exact R2|]. eapply frame_trans; eauto.
Qed.
Lemma sort_rise_ok H a h : reads H a h -> step H a (h_sort_windows_rise a) (Ok (sort_vtws_by_increasing_rise_time h)).
Proof.
  intros (la & l & R). change (reads_at H a la l h) in R. unfold h_sort_windows_rise. eapply step_read; [apply (get_items_ok _ _ _ _ _ R)|].
  set (f := fun r => set_vtws (py_sorted (fun v w => Qltb (v_rise v) (v_rise w)) (r_vtws r)) r).
  assert (R1 : reads_at H a la ([] ++ l) (mkH ([] ++ reqs h) (h_n h) (h_nsched h))) by (destruct h; exact R).
  destruct (change_all_ok f a la l H [] [] _ _ _ R1 eq_refl) as (S & R' & Fr). split; auto. split; auto. exists la, l. exact R'.
Qed.
