(** The rows of a saved schedule, added after mutation testing (C76). *)
From Coq Require Import List ZArith QArith Lia.
From Verif Require Import Py PyLemmas Sched_Model Gen_Model.
Import ListNotations.
Open Scope list_scope.

(** The first sample of a list, if there is one. *)
Definition first_sample (l : list Q) (x : Q) : Prop := exists rest, l = x :: rest.
Lemma py_nth_first l x : py_nth l 0 = Ok x <-> first_sample l x.
Proof.
  destruct l as [|y l]; cbn; split; try discriminate; try (intros (r & E); discriminate).
  - intros E. injection E as <-. now exists l.
  - intros (r & E). now injection E as <- _.
Qed.
(** ** C76: windows can be saved exactly when there are windows and each has a sample of each angle of
    its attitude; the row of a window has its start, duration and location and those samples. *)
Theorem C76_saved_rows_partial :
  forall ws rows,
    observation_rows ws = Ok rows <->
    ws <> [] /\
    Forall2 (fun w row => exists roll pitch yaw,
      first_sample (a_roll (o_att w)) roll /\ first_sample (a_pitch (o_att w)) pitch /\ first_sample (a_yaw (o_att w)) yaw /\
      row = (o_start w, o_dur w, o_loc w, roll, pitch, yaw)) ws rows.
Proof.
  intros ws rows. set (f := fun w : observation => roll <- py_nth (a_roll (o_att w)) 0 ;; pitch <- py_nth (a_pitch (o_att w)) 0 ;; yaw <- py_nth (a_yaw (o_att w)) 0 ;; Ok (o_start w, o_dur w, o_loc w, roll, pitch, yaw)).
  assert (F : forall w row, f w = Ok row <-> exists roll pitch yaw, first_sample (a_roll (o_att w)) roll /\ first_sample (a_pitch (o_att w)) pitch /\ first_sample (a_yaw (o_att w)) yaw /\ row = (o_start w, o_dur w, o_loc w, roll, pitch, yaw)).
  { intros w row. unfold f. split.
    - intros H. apply bind_Ok in H. destruct H as (r & R & H). apply bind_Ok in H. destruct H as (p & P & H). apply bind_Ok in H. destruct H as (y & Y & H). injection H as <-.
      exists r, p, y. repeat split; auto; now apply py_nth_first.
    - intros (r & p & y & R & P & Y & ->). apply py_nth_first in R, P, Y. now rewrite R; cbn [bind]; rewrite P; cbn [bind]; rewrite Y. }
  assert (M : forall l ys, mapM f l = Ok ys <-> Forall2 (fun w row => f w = Ok row) l ys).
  { induction l as [|w l IH]; intros ys; cbn [mapM].
    - split; [intros E; injection E as <-; constructor|intros K; inversion K; reflexivity].
    - split.
      + intros H. apply bind_Ok in H. destruct H as (y & Y & H). apply bind_Ok in H. destruct H as (zs & Zs & H). injection H as <-. constructor; auto. now apply IH.
      + intros K. inversion K as [|? y ? zs Y Zs]; subst. rewrite Y. cbn [bind]. apply IH in Zs. rewrite Zs. reflexivity. }
  assert (I : forall (P Q0 : observation -> Q * Q * nat * Q * Q * Q -> Prop) l k, (forall a b, P a b -> Q0 a b) -> Forall2 P l k -> Forall2 Q0 l k) by (intros P Q0 l k H K; induction K; constructor; auto).
  unfold observation_rows. fold f. destruct ws as [|w ws]; [split; [discriminate|intros (X & _); congruence]|]. rewrite M. split.
  - intros K. split; [discriminate|]. revert K. apply I. intros a b. apply F.
  - intros (_ & K). revert K. apply I. intros a b. apply F.
Qed.
Example C76_saved_rows_case :
  observation_rows [mkObs 1 30 4 (mkAtt [1; 2] [10; 11] [20; 21] [30; 31] 4)] = Ok [(1, 30, 4%nat, 10, 20, 30)].
Proof. reflexivity. Qed.
Print Assumptions C76_saved_rows_partial.
