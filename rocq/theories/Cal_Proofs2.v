(** The array code of from_julian and the Gregorian correction. *)
From Coq Require Import List ZArith QArith Qround Bool Arith Lia Lqa.
From Verif Require Import Py PyLemmas Cal_Model Cal_Spec Cal_Proofs.
Import ListNotations.
Open Scope Z_scope.
Open Scope list_scope.

(** ** Arrays *)
Lemma np_where_all l k : (forall b, In b l -> b = true) -> np_where k l = seq k (length l).
Proof.
  revert k. induction l as [|b l IH]; intros k H; cbn; auto.
  rewrite (H b (or_introl eq_refl)). f_equal. apply IH. intros x I. apply H. now right.
Qed.
Lemma np_where_length l k : (length (np_where k l) <= length l)%nat.
Proof. revert k. induction l as [|[] l IH]; intros k; cbn; auto; specialize (IH (S k)); lia. Qed.
Lemma np_where_short l k : In false l -> (length (np_where k l) < length l)%nat.
Proof.
  revert k. induction l as [|b l IH]; intros k I; [destruct I|]. cbn.
  destruct b; cbn.
  - destruct I as [I|I]; [discriminate|]. specialize (IH (S k) I). lia.
  - pose proof (np_where_length l (S k)). lia.
Qed.
Lemma map_nth_seq {A} (l pre : list A) d : map (fun i => nth i (pre ++ l) d) (seq (length pre) (length l)) = l.
Proof.
  revert pre. induction l as [|x l IH]; intros pre; cbn; auto.
  rewrite app_nth2, Nat.sub_diag by lia. cbn. f_equal.
  specialize (IH (pre ++ [x])). rewrite <- app_assoc in IH. cbn in IH.
  rewrite app_length in IH. cbn in IH. now rewrite Nat.add_1_r in IH.
Qed.
Lemma assign_all {A} (a v pre : list A) : length v = length a ->
  fold_left (fun l p => upd l (fst p) (fun _ => snd p)) (combine (seq (length pre) (length a)) v) (pre ++ a) = pre ++ v.
Proof.
  revert v pre. induction a as [|x a IH]; intros [|w v] pre L; cbn in *; try lia; auto.
  assert (U : upd (pre ++ x :: a) (length pre) (fun _ => w) = pre ++ w :: a).
  { clear. induction pre; cbn; congruence. }
  rewrite U. specialize (IH v (pre ++ [w]) ltac:(lia)). rewrite <- !app_assoc in IH. cbn in IH.
  rewrite app_length in IH. cbn in IH. now rewrite Nat.add_1_r in IH.
Qed.
Lemma combine_map_both {A B C D} (f : A -> C) (g : A -> D) (h : C -> D -> B) l :
  map (fun p => h (fst p) (snd p)) (combine (map f l) (map g l)) = map (fun x => h (f x) (g x)) l.
Proof. induction l; cbn; congruence. Qed.
Lemma map2_map {A B C D} (f : A -> C) (g : A -> D) (h : C -> D -> B) l :
  map2 h (map f l) (map g l) = map (fun x => h (f x) (g x)) l.
Proof. apply combine_map_both. Qed.

(** One entry of the corrected array. *)
Definition shifted (a : Z) : Z :=
  if 2291161 <=? a then
    let alpha := Qtrunc ((inject_Z a - (186721625 # 100)) / days_in_julian_century) in
    a + 1 + alpha - Qtrunc (inject_Z alpha / 4)
  else a.

Lemma correction_all a : (forall x, In x a -> 2291161 <= x) -> gregorian_correction a = Ok (map shifted a).
Proof.
  intros H. unfold gregorian_correction. cbv zeta.
  rewrite np_where_all.
  2:{ intros b I. apply in_map_iff in I. destruct I as (x & <- & I). apply Z.leb_le. auto. }
  rewrite map_length.
  rewrite <- (map_map (fun i => nth i a 0) (fun x => Qtrunc ((inject_Z x - (186721625 # 100)) / days_in_julian_century))).
  change (map (fun i => nth i a 0) (seq 0 (length a))) with (map (fun i => nth i ([] ++ a) 0) (seq (length (@nil Z)) (length a))).
  rewrite map_nth_seq. unfold np_broadcast. rewrite !map_length, Nat.eqb_refl. cbn [bind].
  rewrite combine_map_both, !map_length, Nat.eqb_refl. cbn [bind]. rewrite map_map.
  rewrite combine_map_both. unfold np_assign. rewrite map_length, seq_length, Nat.eqb_refl. f_equal.
  etransitivity; [apply (assign_all a _ [])|].
  - now rewrite map_length.
  - cbn [app]. apply map_ext_in. intros x I. unfold shifted. rewrite (proj2 (Z.leb_le _ _) (H x I)). reflexivity.
Qed.
Lemma correction_one a : gregorian_correction [a] = Ok [shifted a].
Proof.
  destruct (Z.leb_spec 2291161 a) as [L|L].
  - rewrite correction_all; [reflexivity|]. intros x [<-|[]]. exact L.
  - unfold gregorian_correction, shifted. cbn [map np_where].
    destruct (Z.leb_spec 2291161 a); [lia|]. reflexivity.
Qed.
Lemma correction_fails a : (2 <= length a)%nat -> (exists x, In x a /\ x < 2291161) ->
  gregorian_correction a = Raise ValueError.
Proof.
  intros L (x & I & X). unfold gregorian_correction. cbv zeta.
  set (ind := np_where 0 (map (fun x => 2291161 <=? x) a)).
  assert (M : (length ind < length a)%nat).
  { unfold ind. rewrite <- (map_length (fun x => 2291161 <=? x) a). apply np_where_short.
    apply in_map_iff. exists x. split; auto. now apply Z.leb_gt. }
  clearbody ind. destruct a as [|x1 [|x2 a]]; cbn [length] in L; try lia.
  set (al := map _ ind).
  assert (La : length al = length ind) by apply map_length. clearbody al.
  unfold np_broadcast. rewrite map_length. 
  assert (length (x1 :: x2 :: a) =? length al = false)%nat as -> by (apply Nat.eqb_neq; lia).
  cbn [map].
  destruct al as [|y [|z al]]; [reflexivity| |reflexivity].
  cbn [bind map length]. cbn [Nat.eqb bind]. unfold np_assign. cbn in La.
  rewrite <- La. reflexivity.
Qed.

(** One entry of the results. *)
Definition part_c (b : Z) : Z := Qtrunc ((inject_Z b - (1221 # 10)) / days_per_year).
Definition part_d (b : Z) : Z := Qtrunc (days_per_year * inject_Z (part_c b)).
Definition part_e (b : Z) : Z := Qtrunc (inject_Z (b - part_d b) / (306001 # 10000)).
Definition one_year (a : Z) : Z := year_of (part_c (a + 1524)) (month_of (part_e (a + 1524))).
Definition one_month (a : Z) : Z := month_of (part_e (a + 1524)).
Definition one_day (a : Z) : Z :=
  let b := a + 1524 in b - part_d b - Qtrunc ((306001 # 10000) * inject_Z (part_e b)).

Lemma from_julian_map js :
  gregorian_correction (map (fun x => Qtrunc (x + (1 # 2))) js) = Ok (map (fun x => shifted (Qtrunc (x + (1 # 2)))) js) ->
  from_julian js =
    Ok (map (fun x => one_year (shifted (Qtrunc (x + (1 # 2))))) js,
        map (fun x => one_month (shifted (Qtrunc (x + (1 # 2))))) js,
        map (fun x => (inject_Z (one_day (shifted (Qtrunc (x + (1 # 2))))) + Qpymod (x + (1 # 2)) 1)%Q) js).
Proof.
  intros H. unfold from_julian. cbv zeta. rewrite !map_map, H. cbn [bind].
  rewrite ?map_map, ?map2_map, ?map_map, ?map2_map, ?map_map, ?map2_map, ?map_map, ?map2_map.
  unfold one_year, one_month, one_day, part_e, part_d, part_c. reflexivity.
Qed.
Lemma from_julian_one x : from_julian [x] =
  Ok ([one_year (shifted (Qtrunc (x + (1 # 2))))], [one_month (shifted (Qtrunc (x + (1 # 2))))],
      [(inject_Z (one_day (shifted (Qtrunc (x + (1 # 2))))) + Qpymod (x + (1 # 2)) 1)%Q]).
Proof. apply from_julian_map. apply correction_one. Qed.

(** ** The scalar algorithm *)
Lemma one_core a : 0 <= a -> core a = mkDate (one_year a) (one_month a) (one_day a).
Proof.
  intros A. unfold core, one_year, one_month, one_day. cbv zeta. set (b := a + 1524).
  assert (Ec : part_c b = (20 * b - 2442) / 7305).
  { unfold part_c, days_per_year. apply (Qtrunc_div (20 * b - 2442) 7305); [lia|].
    unfold Qdiv, Qinv, Qmult, Qminus, Qplus, Qopp, Qeq, inject_Z. cbn -[Z.mul Z.add]. lia. }
  rewrite <- Ec. set (c := part_c b) in *.
  assert (C0 : 0 <= c) by (rewrite Ec; apply Z.div_pos; lia).
  assert (Ed : part_d b = 1461 * c / 4).
  { unfold part_d, days_per_year. fold c. apply (Qtrunc_div (1461 * c) 4); [lia|].
    unfold Qmult, Qeq, inject_Z. cbn -[Z.mul Z.add]. lia. }
  rewrite <- Ed. set (d := part_d b) in *.
  assert (D0 : 0 <= b - d).
  { pose proof (Z.div_mod (20 * b - 2442) 7305 ltac:(lia)) as C1; pose proof (Z.mod_pos_bound (20 * b - 2442) 7305 ltac:(lia)) as C2; rewrite <- Ec in C1.
    pose proof (Z.div_mod (1461 * c) 4 ltac:(lia)) as D1; pose proof (Z.mod_pos_bound (1461 * c) 4 ltac:(lia)) as D2; rewrite <- Ed in D1. lia. }
  assert (Ee : part_e b = 10000 * (b - d) / 306001).
  { unfold part_e. fold d. apply (Qtrunc_div (10000 * (b - d)) 306001); [lia|].
    unfold Qdiv, Qinv, Qmult, Qeq, inject_Z. cbn -[Z.mul Z.add Z.sub]. lia. }
  rewrite <- Ee. set (e := part_e b) in *.
  assert (E0 : 0 <= e) by (rewrite Ee; apply Z.div_pos; lia).
  assert (Ef : Qtrunc ((306001 # 10000) * inject_Z e) = 306001 * e / 10000).
  { apply (Qtrunc_div (306001 * e) 10000); [lia|]. unfold Qmult, Qeq, inject_Z. cbn -[Z.mul Z.add]. lia. }
  now rewrite Ef.
Qed.

(** The correction, in integers. *)
Definition century (n : Z) : Z := (4 * n - 7468865) / 146100.
Lemma shifted_spec n : 2291161 <= n -> shifted n = n + 1 + century n - century n / 4.
Proof.
  intros N. unfold shifted. rewrite (proj2 (Z.leb_le _ _) N). cbv zeta.
  assert (E : Qtrunc ((inject_Z n - (186721625 # 100)) / days_in_julian_century) = century n).
  { unfold days_in_julian_century, century. apply (Qtrunc_div (4 * n - 7468865) 146100); [lia|].
    unfold Qdiv, Qinv, Qmult, Qminus, Qplus, Qopp, Qeq, inject_Z. cbn -[Z.mul Z.add]. lia. }
  rewrite E. f_equal. apply (Qtrunc_div (century n) 4).
  - unfold century. apply Z.div_pos; lia.
  - unfold Qdiv, Qinv, Qmult, Qeq, inject_Z. cbn -[Z.mul Z.add]. lia.
Qed.
Lemma shifted_nonneg n : 0 <= n -> 0 <= shifted n.
Proof.
  intros N. destruct (Z.leb_spec 2291161 n) as [L|L].
  - rewrite shifted_spec by auto. assert (0 <= century n) by (apply Z.div_pos; lia).
    pose proof (Z.div_le_upper_bound (century n) 4 (century n) ltac:(lia) ltac:(lia)). lia.
  - unfold shifted. destruct (Z.leb_spec 2291161 n); lia.
Qed.

Lemma day_trunc jd : (- (1 # 2) <= jd)%Q -> Qtrunc (jd + (1 # 2)) = day_containing jd /\ 0 <= day_containing jd.
Proof.
  intros H. unfold day_containing. split; [apply Qtrunc_floor; lra|].
  assert (Z : (0 <= jd + (1 # 2))%Q) by lra. apply Qfloor_resp_le in Z. exact Z.
Qed.

(** Any result of from_julian is the Julian calendar date of the shifted day. *)
Lemma from_julian_spec jd : (- (1 # 2) <= jd)%Q ->
  let t := julian_date (shifted (day_containing jd)) in
  exists x, from_julian [jd] = Ok ([year t], [month t], [x]) /\ (x == inject_Z (day t) + part_of_day jd)%Q.
Proof.
  intros H t. destruct (day_trunc jd H) as (E & N).
  rewrite from_julian_one, E. unfold t.
  rewrite <- core_spec by now apply shifted_nonneg. rewrite one_core by now apply shifted_nonneg. cbn [year month day].
  eexists. split; [reflexivity|]. rewrite Qpymod1. unfold part_of_day, day_containing. reflexivity.
Qed.

Lemma part_of_day_range jd : (0 <= part_of_day jd < 1)%Q.
Proof.
  unfold part_of_day, day_containing. pose proof (Qfloor_le (jd + (1 # 2))) as A.
  pose proof (Qlt_floor (jd + (1 # 2))) as B. rewrite inject_Z_plus in B. change (inject_Z 1) with 1%Q in B. split; lra.
Qed.

(** ** The Gregorian calendar *)
Lemma valid_bounds leap t : valid leap t ->
  (month t <= 2 -> 1 <= before_month (month t) + day t <= 60) /\
  (2 < month t -> 60 <= before_month (month t) + day t <= 365).
Proof.
  destruct t as [y m d]. unfold valid. cbn [year month day]. intros (M & D). 
  months m W; revert D; vm_compute month_length; vm_compute before_month; destruct (leap y); lia.
Qed.
Lemma month_length_other leap leap' y m : 1 <= m <= 12 -> m <> 2 -> month_length leap y m = month_length leap' y m.
Proof. intros M N. months m W; try lia; reflexivity. Qed.

Lemma month_length_feb leap y : month_length leap y 2 = if leap y then 29 else 28.
Proof. reflexivity. Qed.

(** Complete centuries from 1 March 400. *)
Definition true_century (n : Z) : Z := (4 * n - 7468865) / 146097.

Lemma true_shift n : first_gregorian <= n ->
  let k := true_century n in julian_date (n + 1 + k - k / 4) = gregorian_date n.
Proof.
  intros N k. unfold first_gregorian in N.
  pose proof (Z.div_mod (4 * n - 7468865) 146097 ltac:(lia)) as K1.
  pose proof (Z.mod_pos_bound (4 * n - 7468865) 146097 ltac:(lia)) as K2.
  change ((4 * n - 7468865) / 146097) with k in K1.
  assert (K : 146097 * k <= 4 * n - 7468865 < 146097 * k + 146097) by lia. clear K1 K2. clearbody k.
  pose proof (Z.div_mod k 4 ltac:(lia)) as Q1. pose proof (Z.mod_pos_bound k 4 ltac:(lia)) as Q2.
  set (s := k / 4) in *. set (r := k mod 4) in *. clearbody s r.
  set (a := n + 1 + k - s). assert (A : 0 <= a) by (unfold a; lia).
  destruct (julian_date_spec a A) as (V & D).
  apply gregorian_date_unique; [exact N| |].
  all: pose proof (valid_bounds _ _ V) as (B1 & B2).
  all: destruct (julian_date a) as [y m d]; destruct V as (V1 & V2); unfold julian_days in D; cbn [year month day] in *.
  all: set (x := before_month m + d) in *.
  all: assert (D' : 365 * (y - 1) + (y - 1) / 4 + x + (if (2 <? m) && julian_leap y then 1 else 0) + 1721423 = a) by (unfold x; lia).
  - split; cbn [year month day]; auto.
    destruct (Z.eq_dec m 2) as [->|N2]; [|now rewrite (month_length_other gregorian_leap julian_leap)].
    rewrite month_length_feb in *. revert V2 D'. cbn [Z.ltb Z.compare Pos.compare Pos.compare_cont andb].
    intros V2 D'. destruct (gregorian_leap y) eqn:G.
    { destruct (julian_leap y); lia. }
    apply gregorian_leap_false in G.
    destruct (julian_leap y) eqn:J; [apply julian_leap_iff in J|lia].
    destruct (Z.eq_dec d 29) as [->|]; [exfalso|lia].
    destruct G as [G|(G1 & G2)]; [lia|]. 
    revert D'. unfold x. vm_compute (before_month 2). intros D'. clear D B1 B2 V1 V2 x.
    unfold a in D'. clear a A.
    pose proof (Z.div_mod y 400 ltac:(lia)) as Y1. pose proof (Z.mod_pos_bound y 400 ltac:(lia)) as Y2.
    assert (C : y mod 400 = 100 \/ y mod 400 = 200 \/ y mod 400 = 300).
    { clear - G1 G2 Y2. assert (E : (y mod 400) mod 100 = y mod 100).
      { rewrite (Z.mod_eq y 400), (Z.mod_eq (y - _)) by lia. rewrite (Z.mod_eq y 100) by lia.
        replace (y - 400 * (y / 400)) with (y + (- (4 * (y / 400))) * 100) by ring.
        rewrite Z.div_add by lia. ring. }
      rewrite G1 in E. revert E Y2 G2. generalize (y mod 400). intros z E Y2 G2.
      pose proof (Z.div_mod z 100 ltac:(lia)). assert (z / 100 = 0 \/ z / 100 = 1 \/ z / 100 = 2 \/ z / 100 = 3) by lia. lia. }
    set (w := y / 400) in *. assert (E : y = 400 * w + 100 \/ y = 400 * w + 200 \/ y = 400 * w + 300) by lia.
    clearbody w. clear - E D' K Q1 Q2 N.
    assert (F : (y - 1) / 4 = y / 4 - 1).
    { destruct E as [->|[->| ->]]; Z.div_mod_to_equations; lia. }
    rewrite F in D'. 
    assert (F2 : 4 * (y / 4) = y) by (destruct E as [->|[->| ->]]; Z.div_mod_to_equations; lia).
    lia.
  - unfold gregorian_days. cbn [year month day].
    assert (G : 365 * (y - 1) + (y - 1) / 4 - (y - 1) / 100 + (y - 1) / 400 + x
      + (if (2 <? m) && gregorian_leap y then 1 else 0) + 1721425 = n); [|unfold x in G; lia].
    clear D. clearbody x. clear V1 V2 d. unfold a in D'. clear a A.
    pose proof (Z.div_mod (y - 1) 4 ltac:(lia)) as P1. pose proof (Z.mod_pos_bound (y - 1) 4 ltac:(lia)) as P2.
    pose proof (Z.div_mod (y - 1) 100 ltac:(lia)) as H1. pose proof (Z.mod_pos_bound (y - 1) 100 ltac:(lia)) as H2.
    assert (Eq : (y - 1) / 400 = (y - 1) / 100 / 4) by (rewrite Z.div_div by lia; reflexivity).
    pose proof (Z.div_mod ((y - 1) / 100) 4 ltac:(lia)) as S1. pose proof (Z.mod_pos_bound ((y - 1) / 100) 4 ltac:(lia)) as S2.
    rewrite Eq.
    assert (L4 : julian_leap y = true <-> (y - 1) mod 4 = 3).
    { rewrite julian_leap_iff. clear. Z.div_mod_to_equations; lia. }
    assert (G4 : gregorian_leap y = true <-> (y - 1) mod 4 = 3 /\ ((y - 1) mod 100 <> 99 \/ ((y - 1) / 100) mod 4 = 3)).
    { rewrite gregorian_leap_iff.
      assert (y mod 4 = 0 <-> (y - 1) mod 4 = 3) as -> by (clear; Z.div_mod_to_equations; lia).
      assert (y mod 100 = 0 <-> (y - 1) mod 100 = 99) as T by (clear; Z.div_mod_to_equations; lia).
      destruct (Z.eq_dec ((y - 1) mod 100) 99) as [T1|T1]; [|tauto].
      assert (T2 : y = 100 * ((y - 1) / 100 + 1)) by lia.
      assert (y mod 400 = 0 <-> ((y - 1) / 100) mod 4 = 3) as ->; [|tauto].
      set (h := (y - 1) / 100) in *. clearbody h. rewrite T2. clear. Z.div_mod_to_equations; lia. }
    set (p := (y - 1) / 4) in *. set (p' := (y - 1) mod 4) in *. 
    set (h := (y - 1) / 100) in *. set (h' := (y - 1) mod 100) in *.
    set (q := h / 4) in *. set (h4 := h mod 4) in *.
    clearbody q h4. clearbody p p' h h'. clear Eq.
    destruct (Z.ltb_spec 2 m) as [M|M]; cbn [andb] in *.
    + specialize (B2 M). clear B1.
      destruct (julian_leap y), (gregorian_leap y); lia.
    + specialize (B1 M). clear B2 L4 G4.
      lia.
Qed.
