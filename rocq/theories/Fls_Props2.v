(** The look-angle search in floating point (C116). *)
From Coq Require Import List ZArith Bool Arith Sorted Reals Lra Lia Psatz.
From Flocq Require Import Core.Core.
From Verif Require Import Py PyLemmas Fl_Model Fl_Spec Fl_Proofs Fl_Props Fls_Model Fls_Spec Fls_Proofs Fls_Proofs2 Fls_Proofs3.
Import ListNotations.
Open Scope R_scope.
Open Scope list_scope.

Lemma two_pow_400 : 2 ^ 400 = bpow radix2 400.
Proof. rewrite <- IZR_Zpower by lia. rewrite pow_IZR. f_equal. Qed.

(** Floats of at least [2 ^ e] are multiples of [2 ^ (e - 52)]. *)
Lemma coarse x e : fmt x -> x = 0 \/ bpow radix2 e <= Rabs x -> (-1000 <= e)%Z -> exists k, x = IZR k * bpow radix2 (e - 52).
Proof.
  intros F [->|B] E; [exists 0%Z; ring|].
  unfold fmt, generic_format, F2R, scaled_mantissa in F. cbn [Fnum Fexp] in F. set (m := Ztrunc _) in F. unfold cexp in F.
  assert (M : (e + 1 <= mag radix2 x)%Z) by (apply mag_ge_bpow; replace (e + 1 - 1)%Z with e by lia; exact B).
  assert (C : (e - 52 <= SpecFloat.fexp 53 1024 (mag radix2 x))%Z) by (rewrite fexp_FLT; unfold FLT_exp; lia).
  exists (m * 2 ^ (SpecFloat.fexp 53 1024 (mag radix2 x) - (e - 52)))%Z. rewrite mult_IZR.
  change 2%Z with (radix_val radix2). rewrite IZR_Zpower by lia. rewrite Rmult_assoc, <- bpow_plus. rewrite F at 1. do 2 f_equal. lia.
Qed.
Lemma angle_gap x d : angle x -> angle d -> value x - value d <> 0 -> bpow radix2 (-452) <= Rabs (value x - value d).
Proof.
  intros (Fx & Ax) (Fd & Ad) N. rewrite two_pow_400 in Ax, Ad. rewrite <- bpow_opp in Ax, Ad.
  destruct (coarse (value x) (-400)) as (k & Ek); [apply value_fmt|destruct Ax as [|(A & _)]; auto|lia|].
  destruct (coarse (value d) (-400)) as (j & Ej); [apply value_fmt|destruct Ad as [|(A & _)]; auto|lia|].
  change (-400 - 52)%Z with (-452)%Z in *. rewrite Ek, Ej in *. rewrite <- Rmult_minus_distr_r, <- minus_IZR in *.
  rewrite Rabs_mult, (Rabs_pos_eq (bpow radix2 (-452))) by apply bpow_ge_0. rewrite <- (Rmult_1_l (bpow radix2 (-452))) at 1.
  apply Rmult_le_compat_r; [apply bpow_ge_0|]. rewrite <- abs_IZR. apply IZR_le. assert (k - j <> 0)%Z by (intros Z; rewrite Z in N; apply N; ring). lia.
Qed.
Lemma angle_small x d : angle x -> angle d -> Rabs (value x - value d) <= bpow radix2 401.
Proof.
  intros (Fx & Ax) (Fd & Ad). rewrite two_pow_400 in Ax, Ad. change 401%Z with (400 + 1)%Z. rewrite bpow_plus. replace (bpow radix2 1) with 2 by (cbn; lra). pose proof (bpow_gt_0 radix2 400) as P.
  assert (X : Rabs (value x) <= bpow radix2 400) by (destruct Ax as [->|]; [rewrite Rabs_R0; lra|tauto]).
  assert (D : Rabs (value d) <= bpow radix2 400) by (destruct Ad as [->|]; [rewrite Rabs_R0; lra|tauto]).
  set (q := bpow radix2 400) in *. clearbody q. apply Rabs_bound. apply Rabs_bound in X. apply Rabs_bound in D. lra.
Qed.

(** The offset keeps its sign. *)
Definition sized (x : R) : Prop := x = 0 \/ bpow radix2 (-452) <= Rabs x <= bpow radix2 401.
Lemma offset_ok x d : angle x -> angle d -> finite (fsub x d) /\ sized (value (fsub x d)) /\
  (value (fsub x d) = 0 <-> value x - value d = 0) /\ (0 < value (fsub x d) <-> 0 < value x - value d).
Proof.
  intros Ax Ad. pose proof (angle_small x d Ax Ad) as S. destruct (fsub_ok x d (proj1 Ax) (proj1 Ad)) as (F & V).
  { eapply Rle_trans; [exact S|apply bpow_le; lia]. }
  split; auto. rewrite V. pose proof (angle_gap x d Ax Ad) as G. set (y := value x - value d) in *. clearbody y. clear V F Ax Ad x d.
  pose proof (bpow_gt_0 radix2 (-452)) as P.
  destruct (Req_dec y 0) as [->|N]; [rewrite rnd_0; split; [now left|split; tauto]|]. specialize (G N).
  assert (Hi : Rabs (rnd y) <= bpow radix2 401) by (apply rnd_abs_le; [lia|exact S]).
  destruct (Rlt_le_dec y 0) as [L|L].
  - rewrite Rabs_left in G by auto. assert (K : bpow radix2 (-452) <= rnd (- y)) by (apply rnd_ge; [apply fmt_pow; lia|exact G]). rewrite rnd_opp in K.
    split; [right; split; auto; rewrite Rabs_left; lra|]. split; split; intros; lra.
  - rewrite Rabs_pos_eq in G by auto. assert (K : bpow radix2 (-452) <= rnd y) by (apply rnd_ge; [apply fmt_pow; lia|exact G]).
    split; [right; split; auto; rewrite Rabs_pos_eq; lra|]. split; split; intros; lra.
Qed.
(** The sign test on a product. *)
Lemma product_sign a b : finite a -> finite b -> sized (value a) -> sized (value b) -> flt (of_Z 0) (fmul a b) = true <-> 0 < value a * value b.
Proof.
  intros Fa Fb Sa Sb. destruct (of_Z_ok 0 ltac:(lia)) as (F0 & V0).
  assert (Hi : Rabs (value a * value b) <= bpow radix2 802).
  { rewrite Rabs_mult. change 802%Z with (401 + 401)%Z. rewrite bpow_plus. apply Rmult_le_compat; try apply Rabs_pos.
    - destruct Sa as [->|]; [rewrite Rabs_R0; apply bpow_ge_0|tauto].
    - destruct Sb as [->|]; [rewrite Rabs_R0; apply bpow_ge_0|tauto]. }
  destruct (fmul_ok a b Fa Fb) as (F & V). { eapply Rle_trans; [exact Hi|apply bpow_le; lia]. }
  rewrite flt_iff by auto. rewrite V0, V. split; intros H.
  - destruct (Rlt_le_dec 0 (value a * value b)) as [|L]; auto. apply rnd_le in L. rewrite rnd_0 in L. lra.
  - assert (G : bpow radix2 (-904) <= value a * value b).
    { rewrite <- (Rabs_pos_eq (value a * value b)) by lra. rewrite Rabs_mult. change (-904)%Z with (-452 + -452)%Z. rewrite bpow_plus.
      apply Rmult_le_compat; try apply bpow_ge_0; [destruct Sa as [E|]|destruct Sb as [E|]]; try tauto; rewrite E in H; exfalso; revert H; rewrite ?Rmult_0_l, ?Rmult_0_r; apply Rlt_irrefl. }
    eapply Rlt_le_trans; [apply (bpow_gt_0 radix2 (-904))|]. apply rnd_ge; [apply fmt_pow; lia|exact G].
Qed.
Lemma sign_test x y d : angle x -> angle y -> angle d ->
  flt (of_Z 0) (fmul (fsub x d) (fsub y d)) = true <-> 0 < (value x - value d) * (value y - value d).
Proof.
  intros Ax Ay Ad. destruct (offset_ok x d Ax Ad) as (Fx & Sx & Zx & Px). destruct (offset_ok y d Ay Ad) as (Fy & Sy & Zy & Py).
  rewrite product_sign by auto. set (a := value (fsub x d)) in *. set (b := value (fsub y d)) in *. set (p := value x - value d) in *. set (q := value y - value d) in *.
  clearbody a b p q. clear - Zx Zy Px Py. destruct (Rtotal_order p 0) as [L|[L|L]], (Rtotal_order q 0) as [M|[M|M]]; split; intros H; nra.
Qed.

Open Scope nat_scope.
Section Search.
  Variables (pitch : list float) (d : float).
  Hypothesis Ap : forall p, In p pitch -> angle p.
  Hypothesis Ad : angle d.
  Let off := map (fun p => fsub p d) pitch.

  Lemma nth_off i o : nth_error off i = Some o -> exists p, nth_error pitch i = Some p /\ o = fsub p d.
  Proof. unfold off. rewrite nth_error_map. destruct (nth_error pitch i) as [p|]; [|discriminate]. cbn. intros [= <-]. eauto. Qed.

  Lemma bisect_spec : forall fuel l r pl,
    l < r -> r < length pitch -> r - l <= fuel -> nth_error pitch l = Some pl ->
    (forall pr, nth_error pitch r = Some pr -> ((value pl - value d) * (value pr - value d) <= 0)%R) ->
    exists i, bisect_angle fuel off l r (fsub pl d) = Ok i /\ l <= i < r /\
      exists a b, nth_error pitch i = Some a /\ nth_error pitch (S i) = Some b /\ ((value a - value d) * (value b - value d) <= 0)%R.
  Proof.
    induction fuel as [|f IH]; intros l r pl L R F N B; [lia|].
    cbn [bisect_angle]. destruct (Nat.ltb_spec (l + 1) r) as [G|G].
    - set (mid := (l + r) / 2).
      assert (M : l < mid < r).
      { unfold mid. split.
        - apply Nat.lt_le_trans with ((l + l + 2) / 2); [|apply Nat.div_le_mono; lia].
          replace (l + l + 2) with ((l + 1) * 2) by lia. rewrite Nat.div_mul by lia. lia.
        - apply Nat.div_lt_upper_bound; lia. }
      destruct (nth_error pitch mid) as [pm|] eqn:Nm; [|apply nth_error_None in Nm; lia].
      assert (Om : nth_error off mid = Some (fsub pm d)) by (unfold off; now rewrite nth_error_map, Nm).
      rewrite (proj2 (py_nth_Ok _ _ _) Om). cbn [bind].
      pose proof (sign_test pl pm d (Ap _ (nth_error_In _ _ N)) (Ap _ (nth_error_In _ _ Nm)) Ad) as C.
      destruct (flt (of_Z 0) (fmul (fsub pl d) (fsub pm d))).
      + destruct (IH mid r pm) as (i & E & I & H); auto; try lia.
        { intros pr Nr. pose proof (B pr Nr) as X. pose proof (proj1 C eq_refl) as Y. clear - X Y.
          set (x := (value pl - value d)%R) in *. set (y := (value pm - value d)%R) in *. set (z := (value pr - value d)%R) in *. clearbody x y z.
          destruct (Rlt_le_dec x 0), (Rlt_le_dec y 0); nra. }
        exists i. split; auto. split; [lia|auto].
      + destruct (IH l mid pl) as (i & E & I & H); auto; try lia.
        { intros pr Nr. rewrite Nm in Nr. injection Nr as <-. destruct (Rlt_le_dec 0 ((value pl - value d) * (value pm - value d))) as [X|X]; auto. apply C in X. discriminate. }
        exists i. split; auto. split; [lia|auto].
    - exists l. split; auto. split; [lia|].
      destruct (nth_error pitch r) as [pr|] eqn:Nr; [|apply nth_error_None in Nr; lia].
      exists pl, pr. replace (S l) with r by lia. repeat split; auto.
  Qed.
End Search.

Lemma first_index_spec x l : finite x -> (forall y, In y l -> finite y) -> forall i k, first_index x l i = Ok k ->
  i <= k /\ exists y, nth_error l (k - i) = Some y /\ value y = value x.
Proof.
  intros Fx. induction l as [|y l IH]; cbn [first_index]; intros Fl i k H; [discriminate|].
  destruct (feq y x) eqn:E.
  - injection H as <-. rewrite Nat.sub_diag. split; [lia|]. exists y. split; auto. apply feq_iff; auto. apply Fl. now left.
  - apply IH in H; [|intros z Iz; apply Fl; now right]. destruct H as (A & z & C & D). split; [lia|].
    exists z. split; auto. replace (k - i) with (S (k - S i)) by lia. exact C.
Qed.
Lemma first_index_found x l : finite x -> (forall y, In y l -> finite y) -> forall i, (exists y, In y l /\ value y = value x) ->
  exists k, first_index x l i = Ok k.
Proof.
  intros Fx. induction l as [|y l IH]; cbn [first_index]; intros Fl i (z & I & E); [destruct I|].
  destruct (feq y x) eqn:B; eauto. destruct I as [<-|I]; [|apply IH; eauto; intros w Iw; apply Fl; now right].
  apply feq_iff in E; [congruence| |auto]. apply Fl. now left.
Qed.

(** C116. The search for a look angle on floats: for samples at increasing times with angles
    that are zero or neither absurdly small nor large, it finds the samples of the rise and set
    times and returns nothing exactly if the wanted angle is not between the angles there;
    otherwise it returns the time of a sample at or after the rise and before the set such
    that the wanted angle lies between the angle there and the angle of the next sample.
    Angles are those in degrees after conversion. *)
Theorem C116_look_angle_search :
  forall pitch u wanted w times rise set_ angles goal,
    mapM (fun p => fconvert p u Udeg) pitch = Ok angles -> fconvert wanted w Udeg = Ok goal ->
    (forall p, In p angles -> angle p) -> angle goal ->
    length pitch = length times -> (forall t, In t times -> finite t) -> finite rise -> finite set_ ->
    StronglySorted (fun s t => (value s < value t)%R) times ->
    (exists t, In t times /\ value t = value rise) -> (exists t, In t times /\ value t = value set_) ->
    (value rise < value set_)%R ->
    exists o l r tl tr pl pr,
      look_angle_time pitch u (LookQty wanted w) times rise set_ = Ok o /\
      nth_error times l = Some tl /\ value tl = value rise /\ nth_error angles l = Some pl /\
      nth_error times r = Some tr /\ value tr = value set_ /\ nth_error angles r = Some pr /\
      (o = None <-> (0 < (value pl - value goal) * (value pr - value goal))%R) /\
      (forall t, o = Some t -> (value rise <= value t < value set_)%R /\
         exists i a b, nth_error times i = Some t /\ nth_error angles i = Some a /\
           nth_error angles (S i) = Some b /\ ((value a - value goal) * (value b - value goal) <= 0)%R).
Proof.
  intros pitch u wanted w times rise set_ angles d Ea Ed Ap Ad Le Ft Fr Fs So Hr Hs O.
  assert (Le' : length angles = length times) by (rewrite <- Le; eapply mapM_length; eauto).
  destruct (first_index_found rise times Fr Ft 0 Hr) as (l & Fl). destruct (first_index_found set_ times Fs Ft 0 Hs) as (r & Fr').
  destruct (first_index_spec rise times Fr Ft 0 l Fl) as (_ & tl & Tl & El). destruct (first_index_spec set_ times Fs Ft 0 r Fr') as (_ & tr & Tr & Er). rewrite Nat.sub_0_r in Tl, Tr.
  assert (Bl : l < length times) by (apply nth_error_Some; congruence). assert (Br : r < length times) by (apply nth_error_Some; congruence).
  destruct (nth_error angles l) as [pl|] eqn:Nl; [|apply nth_error_None in Nl; lia].
  destruct (nth_error angles r) as [pr|] eqn:Nr; [|apply nth_error_None in Nr; lia].
  assert (Mono : forall i j x y, i < j -> nth_error times i = Some x -> nth_error times j = Some y -> (value x < value y)%R).
  { clear - So. induction So as [|z l So IH F]; intros [|i] [|j] x y L; cbn; try lia; try discriminate.
    - intros [= <-] N. rewrite Forall_forall in F. apply F. eapply nth_error_In; eauto.
    - intros A B. apply (IH i j); auto; lia. }
  assert (Llr : l < r).
  { destruct (Nat.lt_total l r) as [|[->|L]]; auto; exfalso; [rewrite Tl in Tr; injection Tr as <-; lra|]. pose proof (Mono _ _ _ _ L Tr Tl). lra. }
  pose proof (sign_test pl pr d (Ap _ (nth_error_In _ _ Nl)) (Ap _ (nth_error_In _ _ Nr)) Ad) as C.
  assert (Ol : nth_error (map (fun p => fsub p d) angles) l = Some (fsub pl d)) by now rewrite nth_error_map, Nl.
  assert (Or : nth_error (map (fun p => fsub p d) angles) r = Some (fsub pr d)) by now rewrite nth_error_map, Nr.
  destruct (flt (of_Z 0) (fmul (fsub pl d) (fsub pr d))) eqn:X.
  - exists None, l, r, tl, tr, pl, pr. split; [|repeat (split; [assumption|]); split; [split; [intros _; now apply C|reflexivity]|discriminate]].
    cbn [look_angle_time]. rewrite Ea, Ed. cbn [bind]. rewrite Fl, Fr'. cbn [bind]. rewrite (proj2 (py_nth_Ok _ _ _) Ol), (proj2 (py_nth_Ok _ _ _) Or). cbn [bind]. now rewrite X.
  - destruct (bisect_spec angles d Ap Ad (r - l) l r pl Llr ltac:(lia) ltac:(lia) Nl) as (i & Ei & I & a & b & Na & Nb & P).
    { intros q Nq. rewrite Nr in Nq. injection Nq as <-. destruct (Rlt_le_dec 0 ((value pl - value d) * (value pr - value d))) as [Y|Y]; auto. apply C in Y. discriminate. }
    destruct (nth_error times i) as [t|] eqn:Nt; [|apply nth_error_None in Nt; lia].
    exists (Some t), l, r, tl, tr, pl, pr. split.
    { cbn [look_angle_time]. rewrite Ea, Ed. cbn [bind]. rewrite Fl, Fr'. cbn [bind]. rewrite (proj2 (py_nth_Ok _ _ _) Ol), (proj2 (py_nth_Ok _ _ _) Or). cbn [bind]. rewrite X, Ei. cbn [bind].
      now rewrite (proj2 (py_nth_Ok _ _ _) Nt). }
    repeat (split; [assumption|]). split; [split; [discriminate|intros Y; apply C in Y; discriminate]|].
    intros t' [= <-]. split; [|exists i, a, b; auto]. split.
    + destruct (Nat.eq_dec i l) as [->|]; [rewrite Nt in Tl; injection Tl as <-; lra|]. assert (l < i) as L by lia. pose proof (Mono _ _ _ _ L Tl Nt). lra.
    + pose proof (Mono _ _ _ _ (proj2 I) Nt Tr). lra.
Qed.

(** Three samples, one day apart, with angles 10, 30 and 20 degrees: the wanted 15 degrees lie
    between the first two. *)
Definition three_angles : list float := [of_Z 10; of_Z 30; of_Z 20].
Definition three_times : list float := [of_Z 2451545; of_Z 2451546; of_Z 2451547].
Lemma angle_int n : (1 <= n <= 360)%Z -> angle (of_Z n).
Proof.
  intros N. destruct (of_Z_ok n ltac:(lia)) as (F & V). split; auto. right. rewrite V. assert (B : (1 <= IZR n <= 360)%R) by (split; apply IZR_le; lia).
  rewrite Rabs_pos_eq by lra. rewrite two_pow_400, <- bpow_opp. split.
  - eapply Rle_trans; [apply (bpow_le radix2 _ 0); lia|]. cbn. lra.
  - eapply Rle_trans; [|apply (bpow_le radix2 10); lia]. cbn. lra.
Qed.
Example C116_case :
  mapM (fun p => fconvert p Udeg Udeg) three_angles = Ok three_angles /\ fconvert (of_Z 15) Udeg Udeg = Ok (of_Z 15) /\
  (forall p, In p three_angles -> angle p) /\ angle (of_Z 15) /\ length three_angles = length three_times /\
  (forall t, In t three_times -> finite t) /\ StronglySorted (fun s t => (value s < value t)%R) three_times /\
  (value (of_Z 2451545) < value (of_Z 2451547))%R.
Proof.
  destruct (of_Z_ok 2451545 ltac:(lia)) as (F1 & V1). destruct (of_Z_ok 2451546 ltac:(lia)) as (F2 & V2). destruct (of_Z_ok 2451547 ltac:(lia)) as (F3 & V3).
  split; [reflexivity|]. split; [reflexivity|]. split; [intros p [<-|[<-|[<-|[]]]]; apply angle_int; lia|]. split; [apply angle_int; lia|]. split; [reflexivity|].
  split; [intros t [<-|[<-|[<-|[]]]]; assumption|]. split; [|rewrite V1, V3; lra].
  apply SSorted_cons; [apply SSorted_cons; [apply SSorted_cons; [apply SSorted_nil|apply Forall_nil]|]|].
  - apply Forall_cons; [rewrite V2, V3; lra|apply Forall_nil].
  - apply Forall_cons; [rewrite V1, V2; lra|apply Forall_cons; [rewrite V1, V3; lra|apply Forall_nil]].
Qed.

Print Assumptions C116_look_angle_search.
