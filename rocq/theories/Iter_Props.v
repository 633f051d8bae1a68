(** C125: loops over one collection inside each other. *)
From Coq Require Import List ZArith QArith Bool Arith Lia.
From Verif Require Import Py PyLemmas Sched_Model Sched_Spec Sched_Proofs Sched_Proofs2 Sched_Proofs3 Sched_Proofs4 Sched_Props Vtw_Model Vtw_Spec Iter_Model.
Import ListNotations.
Open Scope nat_scope.
Open Scope list_scope.

Lemma simple_loop : forall n c, w_index c <= length (w_data c) -> length (w_data c) - w_index c < n ->
  window_loop n leave_alone c = Some (skipn (w_index c) (w_data c), mkColl (w_data c) 0).
Proof.
  induction n as [|n IH]; intros c L G; [lia|]. cbn [window_loop]. unfold w_next. destruct (nth_error (w_data c) (w_index c)) as [w|] eqn:E.
  - assert (X : w_index c < length (w_data c)) by (apply nth_error_Some; congruence). cbn [leave_alone]. unfold leave_alone at 1. rewrite IH by (cbn; lia). cbn [w_data w_index].
    assert (Y : skipn (w_index c) (w_data c) = w :: skipn (S (w_index c)) (w_data c)); [|now rewrite Y].
    clear - E. revert E. generalize (w_index c). induction (w_data c) as [|x l IH]; intros [|i] E; try discriminate; cbn; [now injection E as ->|now apply IH].
  - apply nth_error_None in E. rewrite skipn_all2 by lia. reflexivity.
Qed.
(** A loop alone takes every window, in order, and the next one does the same. *)
Theorem C125_loops_in_turn :
  forall c calls, w_index c = 0 -> length (w_data c) < calls ->
    window_loop calls leave_alone c = Some (w_data c, c).
Proof. intros [d i] calls E L. cbn in E, L. subst i. rewrite simple_loop by (cbn; lia). reflexivity. Qed.

Lemma simple_loop_reset : forall n c c', w_index c <= length (w_data c) -> option_map snd (window_loop n leave_alone c) = Some c' -> c' = mkColl (w_data c) 0.
Proof.
  induction n as [|n IH]; intros c c' L; cbn [window_loop]; [discriminate|]. unfold w_next. destruct (nth_error (w_data c) (w_index c)) as [w|] eqn:E.
  - assert (X : w_index c < length (w_data c)) by (apply nth_error_Some; congruence). unfold leave_alone at 1.
    specialize (IH (mkColl (w_data c) (S (w_index c)))). cbn [w_data w_index] in IH. destruct (window_loop n leave_alone (mkColl (w_data c) (S (w_index c)))) as [[l d]|]; cbn in *; [|discriminate].
    intros Y. injection Y as <-. now apply IH; [lia|].
  - cbn. congruence.
Qed.
(** Refuted for windows: a loop over a collection that is not empty, inside a loop over the same
    collection, makes the outer one run forever; it takes the first window again and again. *)
Theorem C125_nested_windows_refuted :
  forall c w rest, w_data c = w :: rest -> w_index c = 0 ->
    (forall calls inner, window_loop calls (inner_window_loop inner) c = None) /\
    (forall calls inner, length (w_data c) <= inner -> window_prefix calls (inner_window_loop inner) c = repeat w calls).
Proof.
  intros c w rest D Z. destruct c as [d i]. cbn in D, Z. subst d i. split.
  - intros calls inner. induction calls as [|n IH]; auto. cbn [window_loop]. unfold w_next. cbn [w_data w_index nth_error]. unfold inner_window_loop at 1.
    destruct (option_map snd (window_loop inner leave_alone (mkColl (w :: rest) 1))) as [c'|] eqn:E; auto. apply simple_loop_reset in E; [|cbn; lia]. subst c'. cbn [w_data]. now rewrite IH.
  - intros calls inner L. cbn [w_data length] in L. induction calls as [|n IH]; auto. cbn [window_prefix repeat]. unfold w_next. cbn [w_data w_index nth_error]. f_equal. unfold inner_window_loop at 1.
    rewrite simple_loop by (cbn; lia). cbn [option_map snd w_data]. exact IH.
Qed.

Lemma simple_requests h : h_n h = length (reqs h) -> forall n i, length (reqs h) - i < n -> i < length (reqs h) ->
  request_steps n h (fun _ j => Some (Ok j)) i = Some (Ok (firstn (length (reqs h) - 1 - i) (skipn i (reqs h)), length (reqs h))).
Proof.
  intros C. induction n as [|n IH]; intros i L K; [lia|]. cbn [request_steps]. unfold h_next. rewrite C. destruct (Nat.ltb_spec (S i) (length (reqs h))) as [G|G].
  - unfold py_nth. destruct (nth_error (reqs h) i) as [r|] eqn:E; [|apply nth_error_None in E; lia]. cbn [bind]. rewrite IH by lia.
    assert (Y : skipn i (reqs h) = r :: skipn (S i) (reqs h)).
    { clear - E. revert E. generalize i. induction (reqs h) as [|x l IH]; intros [|j] E; try discriminate; cbn; [now injection E as ->|now apply IH]. }
    rewrite Y. replace (length (reqs h) - 1 - i) with (S (length (reqs h) - 1 - S i)) by lia. reflexivity.
  - replace (length (reqs h) - 1 - i) with 0 by lia. cbn [firstn]. do 4 f_equal. lia.
Qed.
(** Refuted for requests: the inner loop over the same handler ends the outer one, which takes
    the first request only. *)
Theorem C125_nested_requests_refuted :
  forall h r rest, reachable h -> reqs h = r :: rest -> rest <> [] ->
    forall calls inner, 2 <= calls -> length (reqs h) < inner ->
      exists k, request_loop calls h (inner_request_loop inner h) = Some (Ok ([r], k)).
Proof.
  intros h r rest R D N calls inner L I. destruct (reachable_inv h R) as ((C & _) & _). assert (2 <= length (reqs h)) by (rewrite D; destruct rest; [congruence|cbn; lia]).
  destruct calls as [|[|n]]; try lia. exists (S (length (reqs h))). unfold request_loop. cbn [request_steps]. unfold h_next at 1. rewrite C. destruct (Nat.ltb_spec 1 (length (reqs h))); [|lia].
  unfold py_nth. rewrite D at 1. cbn [nth_error bind]. unfold inner_request_loop at 1, request_loop. rewrite simple_requests by (auto; lia). cbn [rmap snd].
  unfold h_next. rewrite C. destruct (Nat.ltb_spec (S (length (reqs h))) (length (reqs h))); [lia|]. reflexivity.
Qed.

Example C125_windows_case : window_prefix 5 (inner_window_loop 9) (add_all [Visible 7; Visible 8; Visible 9] new_collection) = repeat (Visible 7) 5.
Proof. vm_compute. reflexivity. Qed.
Example C125_requests_case : reachable (run [add_A; add_A; add_A]) /\ length (reqs (run [add_A; add_A; add_A])) = 3.
Proof. split; [apply run_reachable; vm_compute; reflexivity|reflexivity]. Qed.

Print Assumptions C125_loops_in_turn.
Print Assumptions C125_nested_windows_refuted.
Print Assumptions C125_nested_requests_refuted.
