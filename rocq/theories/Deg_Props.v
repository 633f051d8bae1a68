(** What conflict-degree orders are orders of (C175). *)
From Coq Require Import List ZArith QArith Bool Arith Permutation Sorted Lia Lqa.
From Verif Require Import Py PyLemmas Sched_Model Sched_Spec Sched_Proofs Sched_Proofs2 Sched_Proofs3
  Sched_Proofs4 Sched_Props Deg_Spec Deg_Proofs.
Import ListNotations.
Open Scope nat_scope.
Open Scope list_scope.

(** C175. Sorting windows by conflict degree should put the windows of each request by
    increasing mean overlap, and sorting requests by conflict degree should put them by
    decreasing mean overlap of the window they are booked in.  Neither is so: a window
    that begins after another one it overlaps is charged the span of both. *)
Theorem C175_order_refuted :
  (exists h h' r' v w, reachable h /\ sort_vtws_by_increasing_conflict_degree h = Ok h' /\
     In r' (reqs h') /\ r_vtws r' = [v; w] /\ (mean_overlap h w < mean_overlap h v)%Q) /\
  (exists h h' r q v w, reachable h /\ (forall r, In r (reqs h) -> r_sched r = true) /\
     sort_by_decreasing_conflict_degree h = Ok h' /\ reqs h' = [r; q] /\
     booked_window r = Some v /\ booked_window q = Some w /\
     (mean_overlap h v < mean_overlap h w)%Q).
Proof.
  split.
  - exists (run [OpAdd 0 100 day 5 1 NoLook [win 0 10; win 5 14]]).
    do 4 eexists. split; [apply run_reachable; vm_compute; reflexivity|].
    split; [vm_compute; reflexivity|]. split; [now left|]. split; reflexivity.
  - exists (run [OpAdd 0 100 day 5 1 NoLook [win 0 10]; OpAdd 1 100 day 4 1 NoLook [win 5 14]; OpInitialize]).
    do 5 eexists. split; [apply run_reachable; vm_compute; reflexivity|].
    split; [intros r Ir; vm_compute in Ir; destruct Ir as [<-|[<-|[]]]; reflexivity|].
    split; [vm_compute; reflexivity|]. repeat split.
Qed.

(** The order the windows really get: strictly increasing in the mean of the measure
    above, whatever order requests and windows were in before. *)
Theorem C175_window_order_partial :
  forall h h', reachable h -> ordered_windows h -> sort_vtws_by_increasing_conflict_degree h = Ok h' ->
    length (reqs h') = length (reqs h) /\
    forall i r, nth_error (reqs h) i = Some r ->
      exists r', nth_error (reqs h') i = Some r' /\ Permutation (r_vtws r) (r_vtws r') /\
        StronglySorted (fun v w => (measured_degree h v < measured_degree h w)%Q) (r_vtws r').
Proof.
  intros h h' R O H. destruct (reachable_inv h R) as ((C & _) & _).
  destruct (sort_windows_order h h' O) as (F & G); auto.
  split; [symmetry; eapply Forall2_len; eauto|].
  intros i r N. destruct (nth_error (reqs h') i) as [r'|] eqn:N'.
  - exists r'. split; auto. split; [|apply G; eapply nth_error_In; eauto].
    assert (X : reorder_windows r r').
    { revert i N N'. clear - F. induction F as [|a b l l' E F IH]; intros [|i] N N'; cbn in *; try discriminate.
      - injection N as <-. now injection N' as <-.
      - eauto. }
    destruct X as (A & _). apply A.
  - apply nth_error_None in N'. rewrite <- (Forall2_len _ _ _ F) in N'.
    assert (i < length (reqs h)) by (apply nth_error_Some; congruence). lia.
Qed.

(** The order the requests get when all of them are booked: decreasing in the same mean. *)
Theorem C175_request_order_partial :
  forall h h', ordered_windows h -> indices_valid h -> (forall r, In r (reqs h) -> r_sched r = true) ->
    sort_by_decreasing_conflict_degree h = Ok h' ->
    Permutation (reqs h) (reqs h') /\
    StronglySorted (fun r q => exists v w, booked_window r = Some v /\ booked_window q = Some w /\
      (measured_degree h w <= measured_degree h v)%Q) (reqs h').
Proof. exact sort_requests_order. Qed.

(** Both measures agree for a window that is well placed with respect to every window
    it meets, so among such windows the order is the order of mean overlap. *)
Theorem C175_mean_overlap_partial :
  forall h v, ordered_windows h -> In v (all_windows h) ->
    (forall w, In w (all_windows h) -> meets v w = true -> well_placed v w) ->
    (measured_degree h v == mean_overlap h v)%Q.
Proof. exact degree_right. Qed.

(** Windows 0-10, 2-5 and 20-30: the first contains the second, the third is alone. *)
Definition nested : handler := run [OpAdd 0 100 day 5 1 NoLook [win 20 30; win 0 10; win 2 5]].
Example C175_example :
  reachable nested /\ ordered_windows nested /\
  (exists h', sort_vtws_by_increasing_conflict_degree nested = Ok h' /\
     map r_vtws (reqs h') = [[win 2 5; win 0 10; win 20 30]]) /\
  (mean_overlap nested (win 0 10) == 13 # 2)%Q /\ (measured_degree nested (win 0 10) == 13 # 2)%Q /\
  (forall v w, In v (all_windows nested) -> In w (all_windows nested) -> meets v w = true -> well_placed v w).
Proof.
  split; [apply run_reachable; vm_compute; reflexivity|]. split.
  { intros r v Ir Iv. vm_compute in Ir. destruct Ir as [<-|[]]. vm_compute in Iv.
    repeat (destruct Iv as [<-|Iv]; [reflexivity|]). destruct Iv. }
  split; [eexists; split; vm_compute; reflexivity|]. split; [reflexivity|]. split; [reflexivity|].
  intros v w Iv Iw. vm_compute in Iv, Iw.
  repeat (destruct Iv as [<-|Iv]; [repeat (destruct Iw as [<-|Iw]; [try discriminate; intros _; unfold well_placed; cbn [v_rise v_set]; lra|]); destruct Iw|]).
  destruct Iv.
Qed.
Example C175_example_requests :
  let h := run [OpAdd 0 100 day 5 1 NoLook [win 0 10]; OpAdd 1 100 day 4 1 NoLook [win 5 14]; OpInitialize] in
  ordered_windows h /\ indices_valid h /\ (forall r, In r (reqs h) -> r_sched r = true) /\
  exists h', sort_by_decreasing_conflict_degree h = Ok h'.
Proof.
  cbv zeta. split; [|split; [|split]].
  - intros r v Ir Iv. vm_compute in Ir. repeat (destruct Ir as [<-|Ir]; [vm_compute in Iv;
      repeat (destruct Iv as [<-|Iv]; [reflexivity|]); destruct Iv|]). destruct Ir.
  - intros r Ir S. vm_compute in Ir. repeat (destruct Ir as [<-|Ir]; [try discriminate; do 2 eexists; split; reflexivity|]). destruct Ir.
  - intros r Ir; vm_compute in Ir; destruct Ir as [<-|[<-|[]]]; reflexivity.
  - eexists. vm_compute. reflexivity.
Qed.

Print Assumptions C175_order_refuted.
Print Assumptions C175_window_order_partial.
Print Assumptions C175_request_order_partial.
Print Assumptions C175_mean_overlap_partial.
