(** Printed angles: C73. *)
From Coq Require Import String Ascii List Reals NArith ZArith Bool Arith Lia Lra.
From Verif Require Import Py Num Time_Model Text_Model Text_Spec Text_Num Text_Proofs Text_Props.
Import ListNotations.
Open Scope list_scope.
Open Scope R_scope.

(** ** Words *)
(** [s] reads "d degrees, m minutes, h hundredths of a second": two or three digits for the
    degrees, two for the minutes, two before and two after the point for the seconds. *)
Definition sexagesimal (s : text) (d m h : N) : Prop :=
  exists ds ms ss hs i f,
    s = ds ++ [176%N] ++ ms ++ [8242%N] ++ ss ++ lit "." ++ hs ++ [8243%N] /\
    (figures 2 ds d \/ figures 3 ds d) /\ figures 2 ms m /\ figures 2 ss i /\ figures 2 hs f /\ h = (100 * i + f)%N.
(** The angle in seconds of arc. *)
Definition arcseconds (d m h : N) : R := 3600 * IZR (Z.of_N d) + 60 * IZR (Z.of_N m) + IZR (Z.of_N h) / 100.

Lemma Rmod_bounds x m : 0 < m -> 0 <= Rmod x m < m.
Proof.
  intros M. unfold Rmod. pose proof (Int_part_bounds (x / m)) as [A B].
  assert (X : x = m * (x / m)) by (field; lra). set (q := IZR (Int_part (x / m))) in *. clearbody q. rewrite X at 1 2. set (y := x / m) in *. clearbody y. nra.
Qed.
Lemma Int_part_unique x z : IZR z <= x < IZR z + 1 -> Int_part x = z.
Proof.
  intros [A B]. pose proof (Int_part_bounds x) as [C D]. assert (H1 : IZR z < IZR (Int_part x + 1)) by (rewrite plus_IZR; lra). assert (H2 : IZR (Int_part x) < IZR (z + 1)) by (rewrite plus_IZR; lra).
  apply lt_IZR in H1, H2. lia.
Qed.
Lemma Int_part_nonneg x : 0 <= x -> (0 <= Int_part x)%Z.
Proof. intros H. pose proof (Int_part_bounds x) as [_ B]. assert (A : IZR (-1) < IZR (Int_part x)) by lra. apply lt_IZR in A. lia. Qed.
Lemma Int_part_below x z : x < IZR z -> (Int_part x < z)%Z.
Proof. intros H. pose proof (Int_part_bounds x) as [A _]. apply lt_IZR. lra. Qed.
Lemma of_to z : (0 <= z)%Z -> Z.of_N (Z.to_N z) = z.
Proof. apply Z2N.id. Qed.
(** The angle split into whole degrees, whole minutes and seconds. *)
Lemma split_angle a : 0 <= a ->
  let d := Int_part a in let m := Int_part (Rmod (a * 60) 60) in
  a * 3600 = 3600 * IZR d + 60 * IZR m + Rmod (a * 3600) 60.
Proof.
  intros A d m. unfold m, Rmod. replace (a * 60 / 60) with a by field. replace (a * 3600 / 60) with (a * 60) by field. fold d.
  assert (E : Int_part (a * 60 - 60 * IZR d) = (Int_part (a * 60) - 60 * d)%Z).
  { apply Int_part_unique. rewrite minus_IZR, mult_IZR. pose proof (Int_part_bounds (a * 60)). lra. }
  rewrite E, minus_IZR, mult_IZR. ring.
Qed.
Lemma pad_whole ds i : numeral ds i -> (length ds <= 2)%nat -> figures 2 (repeat 48%N (2 - length ds) ++ ds) i.
Proof.
  intros (D & V & _) I. split; [apply Forall_app; split; auto; apply zeros_digits|]. split; [now rewrite zeros_value|]. rewrite app_length, repeat_length. lia.
Qed.
(** The printed degrees, minutes and seconds. *)
Lemma sexagesimal_parts a : 0 <= a < 1000 ->
  sexagesimal (sexagesimal_string a) (Z.to_N (Int_part a)) (Z.to_N (Int_part (Rmod (a * 60) 60))) (scaled 2 (Rmod (a * 3600) 60)).
Proof.
  intros [A0 A1]. unfold sexagesimal_string.
  pose proof (Rmod_bounds (a * 60) 60 ltac:(lra)) as M. pose proof (Rmod_bounds (a * 3600) 60 ltac:(lra)) as S.
  set (sec := Rmod (a * 3600) 60) in *. clearbody sec. set (mi := Rmod (a * 60) 60) in *. clearbody mi.
  assert (DN : (Z.to_N (Int_part a) < 1000)%N). { pose proof (Int_part_below a 1000 A1). pose proof (Int_part_nonneg a A0). lia. }
  assert (MN : (Z.to_N (Int_part mi) < 60)%N). { pose proof (Int_part_below mi 60 (proj2 M)). pose proof (Int_part_nonneg mi (proj1 M)). lia. }
  set (d := Z.to_N (Int_part a)) in *. clearbody d. set (m := Z.to_N (Int_part mi)) in *. clearbody m.
  assert (K : (scaled 2 sec <= 6000)%N).
  { pose proof (scaled_mono 2 sec 60 ltac:(lra)) as H. replace (scaled 2 60) with 6000%N in H; auto. unfold scaled. replace (60 * 10 ^ 2) with (IZR 6000) by (cbn; lra). now rewrite half_even_IZR. }
  destruct (fixed_abs_parts 2 sec ltac:(lia)) as (ss & hs & E & SS & HS & LS). set (k := scaled 2 sec) in *. clearbody k.
  change (10 ^ N.of_nat 2)%N with 100%N in *.
  assert (L2 : (length ss <= 2)%nat). { rewrite LS. apply str_N_length_le; [lia|]. change (10 ^ N.of_nat 2)%N with 100%N. assert (k / 100 <= 60)%N by (apply (N.div_le_mono k 6000 100); lia). lia. }
  exists (firstn 3 (zfill 2 (str_N d))), (firstn 2 (zfill 2 (str_N m))), (repeat 48%N (2 - length ss) ++ ss), hs, (k / 100)%N, (k mod 100)%N.
  split; [|split; [|split; [|split; [|split]]]].
  - cbn [fixed]. destruct (Rlt_dec sec 0); [lra|]. rewrite E. f_equal. f_equal. f_equal. f_equal. unfold zfill. rewrite <- !app_assoc. f_equal. f_equal.
    rewrite !app_length. destruct HS as (_ & _ & HS). rewrite HS. cbn [lit length map list_ascii_of_string]. lia.
  - destruct (N.lt_ge_cases d 100) as [L|L].
    + left. pose proof (zfill_ok 2 d ltac:(lia) L) as F. rewrite firstn_all2; [exact F|]. destruct F as (_ & _ & ->). lia.
    + right. unfold zfill. destruct (str_N_ok d) as ((D & V & _) & U & _). assert (L3 : (length (str_N d) = 3)%nat).
      { apply Nat.le_antisymm; [apply str_N_length_le; [lia|exact DN]|]. destruct (Nat.le_gt_cases 3 (length (str_N d))) as [|G]; auto.
        assert (10 ^ N.of_nat (length (str_N d)) <= 10 ^ 2)%N by (apply N.pow_le_mono_r; lia). change (10 ^ 2)%N with 100%N in *. lia. }
      rewrite L3. cbn [repeat Nat.sub app]. rewrite firstn_all2 by lia. repeat split; auto.
  - pose proof (zfill_ok 2 m ltac:(lia)) as F. change (10 ^ N.of_nat 2)%N with 100%N in F. specialize (F ltac:(lia)). rewrite firstn_all2; [exact F|]. destruct F as (_ & _ & ->). lia.
  - now apply pad_whole.
  - exact HS.
  - apply N.div_mod. lia.
Qed.
(** ** C73 *)
(** For every angle below 1000 degrees the string reads as whole degrees, minutes below 60
    and at most 60.00 seconds, together within half a hundredth of a second of the angle; the
    seconds are 60.00 exactly when the angle is at most 0.005 seconds below a whole minute. *)
Theorem C73_sexagesimal_partial :
  forall a, 0 <= a < 1000 ->
    exists d m h, sexagesimal (sexagesimal_string a) d m h /\ (m < 60)%N /\ (h <= 6000)%N /\
      Rabs (a * 3600 - arcseconds d m h) <= 1 / 200 /\
      (h = 6000%N <-> exists k : Z, IZR k * 60 - 0.005 <= a * 3600 < IZR k * 60).
Proof.
  intros a A. do 3 eexists. split; [apply sexagesimal_parts; auto|].
  pose proof (Rmod_bounds (a * 60) 60 ltac:(lra)) as M. pose proof (Rmod_bounds (a * 3600) 60 ltac:(lra)) as S.
  pose proof (split_angle a (proj1 A)) as SA. cbv zeta in SA. pose proof (Int_part_nonneg a (proj1 A)) as DN. pose proof (Int_part_nonneg _ (proj1 M)) as MN. pose proof (Int_part_below (Rmod (a * 60) 60) 60 (proj2 M)) as MB.
  assert (RW : exists q : Z, a * 3600 = 60 * IZR q + Rmod (a * 3600) 60) by (exists (Int_part (a * 3600 / 60)); unfold Rmod; ring). destruct RW as (q & RW).
  set (sec := Rmod (a * 3600) 60) in *. clearbody sec. set (mi := Int_part (Rmod (a * 60) 60)) in *. clearbody mi. set (d := Int_part a) in *. clearbody d.
  split; [lia|].
  assert (K : (scaled 2 sec <= 6000)%N).
  { pose proof (scaled_mono 2 sec 60 ltac:(lra)) as H. replace (scaled 2 60) with 6000%N in H; auto. unfold scaled. replace (60 * 10 ^ 2) with (IZR 6000) by (cbn; lra). now rewrite half_even_IZR. }
  split; [exact K|]. split.
  - unfold arcseconds. rewrite !of_to by lia. rewrite SA. replace (3600 * IZR d + 60 * IZR mi + sec - (3600 * IZR d + 60 * IZR mi + IZR (Z.of_N (scaled 2 sec)) / 100)) with (sec - IZR (Z.of_N (scaled 2 sec)) / 100) by ring.
    pose proof (scaled_near 2 sec (proj1 S)) as H. replace (10 ^ 2) with 100 in H by (cbn; lra). lra.
  - assert (P : (59.995 <= sec -> (6000 <= half_even (sec * 10 ^ 2))%Z) /\ (sec < 59.995 -> (half_even (sec * 10 ^ 2) <= 5999)%Z)).
    { replace (sec * 10 ^ 2) with (sec * 100) by (cbn; lra). split; intros H.
      - assert (E : half_even 5999.5 = 6000%Z). { unfold half_even. assert (I : Int_part 5999.5 = 5999%Z) by (apply Int_part_unique; lra). rewrite I. destruct (Rlt_dec _ _); [lra|]. destruct (Rlt_dec _ _); reflexivity. }
        rewrite <- E. apply half_even_mono. lra.
      - destruct (Z.le_gt_cases (half_even (sec * 100)) 5999) as [|G]; auto. assert (G' : (6000 <= half_even (sec * 100))%Z) by lia. apply IZR_le in G'. pose proof (half_even_near (sec * 100)) as N. apply Rabs_le_inv in N. lra. }
    destruct P as [P1 P2]. unfold scaled in *. set (h := half_even (sec * 10 ^ 2)) in *. clearbody h. split.
    + intros H. exists (q + 1)%Z. rewrite plus_IZR. destruct (Rlt_le_dec sec 59.995) as [L|L]; [specialize (P2 L); lia|]. lra.
    + intros (k & K1 & K2). assert (k = q + 1)%Z.
      { assert (B1 : IZR k < IZR (q + 2)) by (rewrite plus_IZR; lra). assert (B2 : IZR q < IZR k) by lra. apply lt_IZR in B1, B2. lia. }
      subst k. rewrite plus_IZR in *. assert (59.995 <= sec) by lra. specialize (P1 H). lia.
Qed.
(** 59.996 seconds are printed as 60.00 seconds, with the minutes left at 00. *)
Theorem C73_sixty_seconds_refuted :
  sexagesimal_string (59.996 / 3600) = lit "00" ++ [176%N] ++ lit "00" ++ [8242%N] ++ lit "60.00" ++ [8243%N].
Proof.
  unfold sexagesimal_string.
  assert (E1 : Int_part (59.996 / 3600) = 0%Z) by (apply Int_part_unique; lra).
  assert (E2 : Rmod (59.996 / 3600 * 60) 60 = 59.996 / 60). { unfold Rmod. rewrite (Int_part_unique _ 0); lra. }
  assert (E3 : Int_part (59.996 / 60) = 0%Z) by (apply Int_part_unique; lra).
  assert (E4 : Rmod (59.996 / 3600 * 3600) 60 = 59.996). { unfold Rmod. rewrite (Int_part_unique _ 0); lra. }
  rewrite E1, E2, E3, E4. cbn [fixed]. destruct (Rlt_dec 59.996 0); [lra|]. unfold fixed_abs.
  assert (E5 : half_even (59.996 * 10 ^ 2) = 6000%Z). { apply half_even_unique. apply Rabs_def1; cbn; lra. }
  rewrite E5. vm_compute. reflexivity.
Qed.
Example C73_case : sexagesimal_string 37.432 = lit "37" ++ [176%N] ++ lit "25" ++ [8242%N] ++ lit "55.20" ++ [8243%N].
Proof.
  unfold sexagesimal_string.
  assert (E1 : Int_part 37.432 = 37%Z) by (apply Int_part_unique; lra).
  assert (E2 : Rmod (37.432 * 60) 60 = 25.92). { unfold Rmod. rewrite (Int_part_unique _ 37); lra. }
  assert (E3 : Int_part 25.92 = 25%Z) by (apply Int_part_unique; lra).
  assert (E4 : Rmod (37.432 * 3600) 60 = 55.2). { unfold Rmod. rewrite (Int_part_unique _ 2245); lra. }
  rewrite E1, E2, E3, E4. cbn [fixed]. destruct (Rlt_dec 55.2 0); [lra|]. unfold fixed_abs.
  assert (E5 : half_even (55.2 * 10 ^ 2) = 5520%Z). { apply half_even_unique. apply Rabs_def1; cbn; lra. }
  rewrite E5. vm_compute. reflexivity.
Qed.
Print Assumptions C73_sexagesimal_partial.
Print Assumptions C73_sixty_seconds_refuted.
