(** Frame conversions of [Coordinate]: C68. *)
From Coq Require Import List Reals Arith Lia Lra Bool.
From Verif Require Import Py PyLemmas Num Time_Model Rot_Model Rot_Spec Rot_Proofs Rot_Props Geo_Model Geo_Spec Geo_Props Geo_Props4 Disp_Model.
Import ListNotations.
Open Scope R_scope.
Open Scope list_scope.

(** ** Words *)
(** An object of [n] times and points that [Coordinate] accepts. *)
Definition sized (n : nat) (o : object) : Prop :=
  match o with
  | Itrs p | Gcrs p => of_size n p
  | Wgs84Given w => length (wd_time w) = n /\ length (wd_latitude w) = n /\ length (wd_longitude w) = n /\ length (wd_height w) = n
  | _ => False
  end.
Definition a_frame (f : frame) : Prop := f = ITRS \/ f = GCRS \/ f = WGS84 \/ f = AzEl.

Lemma frame_eqb_eq f g : frame_eqb f g = true <-> f = g.
Proof. destruct f, g; cbn; split; congruence. Qed.
Lemma wgs84_size n w : length (wd_time w) = n /\ length (wd_latitude w) = n /\ length (wd_longitude w) = n /\ length (wd_height w) = n ->
  of_size n (wgs84_to_itrs (wd_time w) (wd_latitude w) (wd_longitude w) (wd_height w) (wd_angular w) (wd_length w)).
Proof.
  intros (A & B & C & D). unfold wgs84_to_itrs, of_size. cbn [p_time p_x p_y p_z]. rewrite !map_length.
  assert (L : length (map2 (fun a b => wgs84_point (to_rad (wd_angular w) (fst a)) (to_rad (wd_angular w) (snd a)) (to_km (wd_length w) b)) (combine (wd_latitude w) (wd_longitude w)) (wd_height w)) = n).
  { unfold map2. rewrite map_length, !combine_length. lia. }
  rewrite L. auto.
Qed.
Lemma gcrs_ok n (p : position R) : of_size n p -> exists q, gcrs_to_itrs p = Ok q /\ of_size n q /\ itrs_to_gcrs q = Ok p.
Proof. intros S. destruct (C56_gcrs_to_itrs_and_back R n p S) as (q & E & Q & _ & B). eauto. Qed.
Lemma itrs_ok n (p : position R) : of_size n p -> exists q, itrs_to_gcrs p = Ok q.
Proof. intros S. destruct (C56_itrs_to_gcrs_and_back R n p S) as (q & E & _). eauto. Qed.

(** What comes out of the conversions of a position in the terrestrial frame. *)
Lemma from_itrs n p f l out : of_size n p -> a_frame f -> f <> ITRS -> convert_from_itrs p f l out ->
  (out = Raise ValueError <-> f = AzEl /\ l = None) /\ (forall e, out = Raise e -> e = ValueError) /\ (forall o, out = Ok o -> class_of o = f).
Proof.
  intros S F NI C. unfold convert_from_itrs in C. destruct F as [->|[->|[->| ->]]]; cbn [frame_eqb] in C; [congruence| | |].
  - destruct (itrs_ok n p S) as (q & E). rewrite E in C. cbn [rmap] in C. subst. repeat split; try congruence.
    + intros []; congruence.
    + intros o O. injection O as <-. reflexivity.
  - unfold wgs84_conversion in C. rewrite (km_points_ok n p S) in C. destruct C as (w & _ & ->). repeat split; try congruence.
    + intros []; congruence.
    + intros o O. injection O as <-. reflexivity.
  - unfold azel_conversion in C. destruct l as [l|]; [rewrite (azel_ok n p l S) in C; cbn [rmap] in C|]; subst; repeat split; try congruence.
    + intros []; congruence.
    + intros o O. injection O as <-. reflexivity.
Qed.
(** Every conversion agrees with going through the terrestrial frame. *)
Theorem C68_through_itrs :
  forall n o, sized n o ->
    exists i, of_size n i /\ converts o ITRS None (Ok (Itrs i)) /\
      (forall f l out, a_frame f -> f <> class_of o -> (converts o f l out <-> converts (Itrs i) f l out)) /\
      (class_of o = GCRS -> forall l out, converts (Itrs i) GCRS l out <-> out = Ok o) /\
      match o with
      | Itrs p => i = p
      | Gcrs p => gcrs_to_itrs p = Ok i
      | Wgs84Given w => i = wgs84_to_itrs (wd_time w) (wd_latitude w) (wd_longitude w) (wd_height w) (wd_angular w) (wd_length w)
      | _ => True
      end.
Proof.
  intros n o S. destruct o as [p|p|w|w|a|]; cbn [sized] in S; try contradiction.
  - exists p. split; [auto|]. split; [reflexivity|]. split; [reflexivity|]. split; [discriminate|reflexivity].
  - destruct (gcrs_ok n p S) as (q & E & Q & B). exists q. split; [auto|]. unfold converts, isinstance. cbn [class_of frame_eqb orb]. unfold convert_from_gcrs, convert_from_itrs. rewrite E.
    split; [reflexivity|]. split; [|split; [|reflexivity]].
    + intros f l out [->|[->|[->| ->]]] N; cbn [frame_eqb orb]; try reflexivity. congruence.
    + intros _ l out. cbn [frame_eqb orb]. rewrite B. reflexivity.
  - pose proof (wgs84_size n w S) as Q. eexists. split; [exact Q|]. unfold converts, isinstance. cbn [class_of frame_eqb orb]. unfold convert_from_wgs84, convert_from_itrs.
    split; [reflexivity|]. split; [|split; [discriminate|reflexivity]]. intros f l out [->|[->|[->| ->]]] N; cbn [frame_eqb orb]; try reflexivity. congruence.
Qed.
(** Of the requested kind, identity on the present kind, and ValueError exactly for AzEl
    without a location. *)
Theorem C68_dispatch :
  forall n o f l out, sized n o -> a_frame f -> converts o f l out ->
    (out = Raise ValueError <-> f = AzEl /\ l = None) /\
    (forall e, out = Raise e -> e = ValueError) /\
    (forall o', out = Ok o' -> class_of o' = f) /\
    (class_of o = f -> out = Ok o) /\
    (f <> AzEl -> converts o f None out).
Proof.
  intros n o f l out S F C. assert (AZ : class_of o <> AzEl) by (destruct o; cbn in *; congruence || contradiction).
  assert (LI : f <> AzEl -> converts o f None out).
  { intros N. destruct F as [->|[->|[->| ->]]]; try congruence; destruct o; exact C. }
  destruct (frame_eqb (class_of o) f) eqn:EQ.
  - apply frame_eqb_eq in EQ. subst f. unfold converts, isinstance in C. replace (frame_eqb (class_of o) (class_of o)) with true in C by (symmetry; now apply frame_eqb_eq). cbn [orb] in C. subst out.
    repeat split; try congruence; auto; intros []; congruence.
  - assert (N : f <> class_of o) by (intros ->; rewrite (proj2 (frame_eqb_eq _ _) eq_refl) in EQ; discriminate).
    destruct (C68_through_itrs n o S) as (i & SI & CI & ALL & _ & _). destruct (frame_eqb f ITRS) eqn:FI.
    + apply frame_eqb_eq in FI. subst f. apply ALL in C; auto. cbn in C. subst out. repeat split; try congruence; auto.
      * intros []; congruence.
      * intros o' O. injection O as <-. reflexivity.
    + assert (NI : f <> ITRS) by (intros ->; discriminate). apply ALL in C; auto.
      assert (C' : convert_from_itrs i f l out). { unfold converts, isinstance in C. cbn [class_of] in C. destruct F as [->|[->|[->| ->]]]; [congruence| | |]; exact C. }
      destruct (from_itrs n i f l out SI F NI C') as (X & Y & Z). split; [exact X|]. split; [exact Y|]. split; [exact Z|]. split; [congruence|exact LI].
Qed.
(** Every request but one for WGS84 (see C86) is answered, by one outcome. *)
Theorem C68_answers :
  forall n o f l, sized n o -> a_frame f -> f <> WGS84 \/ class_of o = WGS84 -> exists out, forall out', converts o f l out' <-> out' = out.
Proof.
  intros n o f l S F W.
  assert (I : forall i, f <> ITRS -> f <> WGS84 -> exists out, forall out', convert_from_itrs i f l out' <-> out' = out).
  { intros i NI NW. unfold convert_from_itrs, azel_conversion. destruct F as [->|[->|[->| ->]]]; try congruence; cbn [frame_eqb].
    - eexists. intros. reflexivity.
    - destruct l; eexists; intros; reflexivity. }
  destruct o as [p|p|w|w|a|]; cbn [sized] in S; try contradiction.
  - destruct W as [W|W]; [|discriminate]. unfold converts, isinstance. cbn [class_of]. destruct F as [->|[->|[->| ->]]]; try congruence; cbn [frame_eqb orb].
    + eexists; intros; reflexivity.
    + apply I; congruence.
    + apply I; congruence.
  - destruct W as [W|W]; [|discriminate]. destruct (gcrs_ok n p S) as (q & E & _). unfold converts, isinstance, convert_from_gcrs, azel_conversion. cbn [class_of]. rewrite E. destruct F as [->|[->|[->| ->]]]; try congruence; cbn [frame_eqb orb].
    + eexists; intros; reflexivity.
    + eexists; intros; reflexivity.
    + destruct l; eexists; intros; reflexivity.
  - unfold converts, isinstance, convert_from_wgs84, azel_conversion. cbn [class_of]. destruct F as [->|[->|[->| ->]]]; cbn [frame_eqb orb]; try (eexists; intros; reflexivity).
    destruct l; eexists; intros; reflexivity.
Qed.
(** Only the three frames are accepted, and a class that is none of the four frames gives
    the constant [NotImplemented]. *)
Theorem C68_accepted :
  (forall o, coordinate o = Ok o <-> class_of o = ITRS \/ class_of o = GCRS \/ class_of o = WGS84) /\
  (forall o, coordinate o = Ok o \/ coordinate o = Raise ValueError) /\
  (forall n o l out, sized n o -> converts o OtherClass l out <-> out = Ok NotImplemented) /\
  (forall n o l out, sized n o -> converts o BaseClass l out <-> out = Ok o).
Proof.
  split; [|split; [|split]].
  - intros [] ; cbn; split; intros H; try tauto; try discriminate; intuition congruence.
  - intros []; cbn; auto.
  - intros n o l out S. destruct o as [p|p|w|w|a|]; cbn [sized] in S; try contradiction; try reflexivity.
    unfold converts, isinstance. cbn [class_of frame_eqb orb]. unfold convert_from_gcrs. destruct (gcrs_ok n p S) as (q & -> & _). reflexivity.
  - intros n o l out S. destruct o as [p|p|w|w|a|]; cbn [sized] in S; try contradiction; reflexivity.
Qed.
Example C68_case : sized 1 (Gcrs (Position [2460462.5] [7000] [0] [500] 1000)) /\ sized 1 (Wgs84Given (Wgs84Data [2460462.5] [52] [-106] [500] 1 1000)) /\
  converts (Gcrs (Position [2460462.5] [7000] [0] [500] 1000)) AzEl None (Raise ValueError).
Proof.
  split; [repeat split; reflexivity|]. split; [repeat split; reflexivity|]. unfold converts, isinstance. cbn [class_of frame_eqb orb]. unfold convert_from_gcrs.
  destruct (gcrs_ok 1 (Position [2460462.5] [7000] [0] [500] 1000)) as (q & -> & _); [repeat split; reflexivity|]. reflexivity.
Qed.
Print Assumptions C68_through_itrs.
Print Assumptions C68_dispatch.
Print Assumptions C68_answers.
Print Assumptions C68_accepted.
