(** The calendar in floating point is the exact calendar. *)
From Coq Require Import List ZArith QArith Qround Qreals Reals Lra Lia Bool Psatz.
From Flocq Require Import Core.Core IEEE754.BinarySingleNaN IEEE754.Binary IEEE754.Bits Relative Sterbenz.
From Verif Require Import Py PyLemmas Cal_Model Cal_Spec Cal_Proofs Cal_Proofs2 Fl_Model Fl_Spec Fl_Proofs Flc_Model Flc_Spec Flc_Proofs Flc_Proofs2.
Import ListNotations.
Open Scope Z_scope.
Open Scope list_scope.

Lemma Q2R_frac q : Q2R q = (IZR (Qnum q) / IZR (Z.pos (Qden q)))%R. Proof. reflexivity. Qed.
Lemma trunc_Q q : Ztrunc (Q2R q) = Qtrunc q.
Proof. rewrite Q2R_frac. unfold Qtrunc. apply Ztrunc_quot. lia. Qed.
Lemma floor_Q q : Zfloor (Q2R q) = Qfloor q.
Proof. rewrite Q2R_frac. destruct q as [n d]. cbn [Qnum Qden Qfloor]. apply Zfloor_div. lia. Qed.
Lemma Q2R_int z : Q2R (inject_Z z) = IZR z. Proof. unfold Q2R, inject_Z. cbn. lra. Qed.
Lemma Q2R_half : Q2R (1 # 2) = (/ 2)%R. Proof. unfold Q2R. cbn. lra. Qed.

(** Every finite float is a rational number. *)
Lemma float_rational x : finite x -> exists q, is_exactly x q.
Proof.
  intros F. destruct x as [s|s|s pl H|s m e B]; cbn in F; try discriminate.
  - exists 0%Q. split; [reflexivity|]. unfold Q2R. cbn. lra.
  - destruct (Z.le_ge_cases 0 e) as [L|L].
    + exists (inject_Z (signed s m * 2 ^ e)). split; [reflexivity|]. rewrite value_finite, Q2R_int, mult_IZR. f_equal.
      change 2%Z with (radix_val radix2). now rewrite IZR_Zpower.
    + exists (signed s m # Z.to_pos (2 ^ (- e))). split; [reflexivity|]. rewrite value_finite, Q2R_frac. cbn [Qnum Qden].
      rewrite Z2Pos.id by (apply Z.pow_pos_nonneg; lia). change 2%Z with (radix_val radix2). rewrite IZR_Zpower by lia.
      unfold Rdiv. rewrite <- bpow_opp. f_equal. f_equal. lia.
Qed.

(** ** The correction *)
Lemma np_where_in l : forall k i, In i (np_where k l) -> (k <= i)%nat /\ nth (i - k) l false = true.
Proof.
  induction l as [|b l IH]; cbn [np_where]; intros k i; [contradiction|]. destruct b.
  - intros [<-|I]; [rewrite Nat.sub_diag; auto|]. apply IH in I. destruct I as (A & B). split; [lia|].
    replace (i - k)%nat with (S (i - S k))%nat by lia. exact B.
  - intros I. apply IH in I. destruct I as (A & B). split; [lia|]. replace (i - k)%nat with (S (i - S k))%nat by lia. exact B.
Qed.
Lemma century_range n : 2291161 <= n <= 8388608 -> 11 <= century n <= 200.
Proof. intros N. unfold century. pose proof (Z.div_mod (4 * n - 7468865) 146100 ltac:(lia)). pose proof (Z.mod_pos_bound (4 * n - 7468865) 146100 ltac:(lia)). lia. Qed.
Lemma century_Q n : 2291161 <= n -> Qtrunc ((inject_Z n - (186721625 # 100)) / days_in_julian_century) = century n.
Proof.
  intros N. unfold days_in_julian_century, century. apply (Qtrunc_div (4 * n - 7468865) 146100); [lia|].
  unfold Qdiv, Qinv, Qmult, Qminus, Qplus, Qopp, Qeq, inject_Z. cbn -[Z.mul Z.add]. lia.
Qed.
Lemma fcorrection a : (forall x, In x a -> x <= 8388608) -> fgregorian_correction a = gregorian_correction a.
Proof.
  intros A. unfold fgregorian_correction, gregorian_correction. cbv zeta.
  set (ind := np_where 0 (map (fun x => 2291161 <=? x) a)).
  assert (R : forall i, In i ind -> 2291161 <= nth i a 0 <= 8388608).
  { intros i I. apply np_where_in in I. destruct I as (_ & I). rewrite Nat.sub_0_r in I.
    destruct (Nat.lt_ge_cases i (length a)) as [L|L].
    - rewrite (nth_indep _ false (2291161 <=? 0)) in I by now rewrite map_length. rewrite (map_nth (fun x => 2291161 <=? x)) in I.
      apply Z.leb_le in I. split; auto. apply A. now apply nth_In.
    - rewrite nth_overflow in I by (rewrite map_length; lia). discriminate. }
  clearbody ind.
  assert (E : map (fun i => astype_int (fdiv (fsub (of_Z (nth i a 0)) (literal 186721625 100)) (of_Z 36525))) ind
            = map (fun i => century (nth i a 0)) ind).
  { apply map_ext_in. intros i I. apply fcentury. auto. }
  assert (E' : map (fun i => Qtrunc ((inject_Z (nth i a 0) - (186721625 # 100)) / days_in_julian_century)) ind
            = map (fun i => century (nth i a 0)) ind).
  { apply map_ext_in. intros i I. apply century_Q. apply R in I. lia. }
  rewrite E, E'.
  assert (X : map (fun x => astype_int (fdiv (of_Z x) (of_Z 4))) (map (fun i => century (nth i a 0)) ind)
            = map (fun x => Qtrunc (inject_Z x / 4)) (map (fun i => century (nth i a 0)) ind)).
  { apply map_ext_in. intros x I. apply in_map_iff in I. destruct I as (i & <- & I). pose proof (century_range _ (R i I)) as C.
    rewrite fdiv_int by lia. symmetry. apply (Qtrunc_div (century (nth i a 0)) 4); [lia|].
    unfold Qdiv, Qinv, Qmult, Qeq, inject_Z. cbn -[Z.mul Z.add]. lia. }
  rewrite X. reflexivity.
Qed.
Lemma correction_cases a : gregorian_correction a = Ok (map shifted a) \/ gregorian_correction a = Raise ValueError.
Proof.
  destruct a as [|x [|y a]].
  - left. apply correction_all. intros x [].
  - left. apply correction_one.
  - destruct (forallb (fun z => 2291161 <=? z) (x :: y :: a)) eqn:E.
    + left. apply correction_all. rewrite forallb_forall in E. intros z I. apply Z.leb_le. auto.
    + right. apply correction_fails; [cbn; lia|]. apply not_true_iff_false in E.
      destruct (existsb (fun z => z <? 2291161) (x :: y :: a)) eqn:X.
      * apply existsb_exists in X. destruct X as (z & I & L). exists z. split; auto. now apply Z.ltb_lt.
      * elim E. apply forallb_forall. intros z I. apply Z.leb_le. destruct (Z.lt_ge_cases z 2291161) as [L|L]; auto.
        apply not_true_iff_false in X. elim X. apply existsb_exists. exists z. split; auto. now apply Z.ltb_lt.
Qed.
Lemma shifted_range a : 0 <= a <= 4194304 -> 0 <= shifted a <= 4200000.
Proof.
  intros A. destruct (Z.leb_spec 2291161 a) as [L|L].
  - rewrite shifted_spec by auto. pose proof (century_range a ltac:(lia)). pose proof (Z.div_mod (century a) 4 ltac:(lia)). pose proof (Z.mod_pos_bound (century a) 4 ltac:(lia)). lia.
  - unfold shifted. destruct (Z.leb_spec 2291161 a); lia.
Qed.

(** ** The entries *)
Lemma parts b : 1524 <= b -> part_c b = (20 * b - 2442) / 7305 /\ part_d b = 1461 * part_c b / 4 /\
  part_e b = 10000 * (b - part_d b) / 306001 /\ Qtrunc ((306001 # 10000) * inject_Z (part_e b)) = 306001 * part_e b / 10000 /\
  0 <= part_c b <= b /\ 123 <= b - part_d b <= 488 /\ 4 <= part_e b <= 15.
Proof.
  intros A.
  assert (Ec : part_c b = (20 * b - 2442) / 7305).
  { unfold part_c, days_per_year. apply (Qtrunc_div (20 * b - 2442) 7305); [lia|].
    unfold Qdiv, Qinv, Qmult, Qminus, Qplus, Qopp, Qeq, inject_Z. cbn -[Z.mul Z.add]. lia. }
  set (c := part_c b) in *.
  assert (C0 : 0 <= c) by (rewrite Ec; apply Z.div_pos; lia).
  assert (Ed : part_d b = 1461 * c / 4).
  { unfold part_d, days_per_year. fold c. apply (Qtrunc_div (1461 * c) 4); [lia|].
    unfold Qmult, Qeq, inject_Z. cbn -[Z.mul Z.add]. lia. }
  set (d := part_d b) in *.
  pose proof (Z.div_mod (20 * b - 2442) 7305 ltac:(lia)) as C1; pose proof (Z.mod_pos_bound (20 * b - 2442) 7305 ltac:(lia)) as C2; rewrite <- Ec in C1.
  pose proof (Z.div_mod (1461 * c) 4 ltac:(lia)) as D1; pose proof (Z.mod_pos_bound (1461 * c) 4 ltac:(lia)) as D2; rewrite <- Ed in D1.
  assert (G : 123 <= b - d <= 488) by lia.
  assert (Ee : part_e b = 10000 * (b - d) / 306001).
  { unfold part_e. fold d. apply (Qtrunc_div (10000 * (b - d)) 306001); [lia|].
    unfold Qdiv, Qinv, Qmult, Qeq, inject_Z. cbn -[Z.mul Z.add Z.sub]. lia. }
  set (e := part_e b) in *.
  pose proof (Z.div_mod (10000 * (b - d)) 306001 ltac:(lia)) as E1; pose proof (Z.mod_pos_bound (10000 * (b - d)) 306001 ltac:(lia)) as E2; rewrite <- Ee in E1.
  assert (W : 4 <= e <= 15) by lia.
  assert (Ef : Qtrunc ((306001 # 10000) * inject_Z e) = 306001 * e / 10000).
  { apply (Qtrunc_div (306001 * e) 10000); [lia|]. unfold Qmult, Qeq, inject_Z. cbn -[Z.mul Z.add]. lia. }
  split; [exact Ec|]. split; [exact Ed|]. split; [exact Ee|]. split; [exact Ef|]. lia.
Qed.

Definition fc (b : Z) : Z := astype_int (fdiv (fsub (of_Z b) (literal 1221 10)) (literal 36525 100)).
Definition fd (b : Z) : Z := astype_int (fmul (literal 36525 100) (of_Z (fc b))).
Definition fe (b : Z) : Z := astype_int (fdiv (of_Z (b - fd b)) (literal 306001 10000)).
Definition fyear (a : Z) : Z := year_of (fc (a + 1524)) (month_of (fe (a + 1524))).
Definition fmonth (a : Z) : Z := month_of (fe (a + 1524)).
Definition fdayz (a : Z) : Z := let b := a + 1524 in b - fd b - astype_int (fmul (literal 306001 10000) (of_Z (fe b))).
Lemma fparts a : 0 <= a <= 4200000 -> fyear a = one_year a /\ fmonth a = one_month a /\ fdayz a = one_day a.
Proof.
  intros A. unfold fyear, fmonth, fdayz, one_year, one_month, one_day. cbv zeta. set (b := a + 1524).
  destruct (parts b ltac:(lia)) as (P1 & P2 & P3 & P4 & P5 & P6 & P7).
  assert (Ec : fc b = part_c b) by (rewrite P1; apply fpart_c; lia).
  pose proof (Z.div_mod (20 * b - 2442) 7305 ltac:(lia)) as C1; pose proof (Z.mod_pos_bound (20 * b - 2442) 7305 ltac:(lia)) as C2; rewrite <- P1 in C1.
  assert (Ed : fd b = part_d b) by (unfold fd; rewrite Ec, P2; apply fpart_d; lia).
  assert (Ee : fe b = part_e b) by (unfold fe; rewrite Ed, P3; apply fpart_e; lia).
  rewrite Ec, Ed, Ee, P4. rewrite fpart_f by lia. auto.
Qed.
Lemma ffrom_julian_map js :
  fgregorian_correction (map (fun x => astype_int (fadd x (literal 5 10))) js) = Ok (map (fun x => shifted (astype_int (fadd x (literal 5 10)))) js) ->
  ffrom_julian js =
    Ok (map (fun x => fyear (shifted (astype_int (fadd x (literal 5 10))))) js,
        map (fun x => fmonth (shifted (astype_int (fadd x (literal 5 10))))) js,
        map (fun x => fadd (of_Z (fdayz (shifted (astype_int (fadd x (literal 5 10)))))) (fpymod (fadd x (literal 5 10)) (of_Z 1))) js).
Proof.
  intros H. unfold ffrom_julian. cbv zeta. rewrite !map_map, H. cbn [bind].
  rewrite ?map_map, ?map2_map, ?map_map, ?map2_map, ?map_map, ?map2_map, ?map_map, ?map2_map.
  unfold fyear, fmonth, fdayz, fe, fd, fc. reflexivity.
Qed.

(** ** Exactness *)
Open Scope R_scope.
Lemma half_ok : finite (literal 5 10) /\ value (literal 5 10) = / 2.
Proof. destruct (literal_exact 5 10 1 (-1)) as (F & V); try lia; [cbn; lra|]. split; auto. rewrite V. lra. Qed.
Lemma one_ok : finite (of_Z 1) /\ value (of_Z 1) = 1. Proof. apply of_Z_ok. lia. Qed.
Lemma fmt_ww k : (Z.abs k <= 9007199254740992)%Z -> fmt (IZR k * ww).
Proof. intros K. rewrite ww_pow. apply fmt_int; lia. Qed.
Lemma dated_grid x : dated x -> exists k, value x = IZR k * ww /\ (4503599627370496 <= k < 9007197107257344)%Z.
Proof.
  intros (F & B). destruct (jd_grid x) as (k & E & K). { split; auto. lra. }
  exists k. split; auto. split; [lia|]. apply lt_IZR. rewrite E in B. unfold ww in B. lra.
Qed.
Lemma shift_ok x : dated x -> finite (fadd x (literal 5 10)) /\ value (fadd x (literal 5 10)) = value x + / 2.
Proof.
  intros D. destruct half_ok as (Fh & Vh). destruct (fadd_ok x (literal 5 10)) as (F & V); [apply D|auto| |].
  { destruct D as (_ & D). rewrite Vh. apply small_abs, Rabs_le. lra. }
  split; auto. rewrite V, Vh. destruct (dated_grid x D) as (k & E & K). rewrite E.
  replace (IZR k * ww + / 2) with (IZR (k + 1073741824) * ww) by (rewrite plus_IZR; unfold ww; lra).
  apply rnd_fmt. apply fmt_ww. lia.
Qed.
(** The remainder by one of a number on the grid. *)
Lemma frac_grid y k : finite y -> value y = IZR k * ww -> finite (fpymod y (of_Z 1)) /\
  value (fpymod y (of_Z 1)) = IZR (k mod 2147483648) * ww /\ value (fpymod y (of_Z 1)) = modulo (value y) 1.
Proof.
  intros F V. destruct one_ok as (F1 & V1). destruct (fpymod_ok y (of_Z 1) F F1) as (Ff & Vf).
  { rewrite V1. split; [lra|]. pose proof pow_1000. lra. }
  rewrite V1 in Vf.
  assert (M : modulo (value y) 1 = IZR (k mod 2147483648) * ww).
  { apply modulo_unique with (k / 2147483648)%Z; [lra| |].
    - pose proof (Z.mod_pos_bound k 2147483648 ltac:(lia)) as (A & B). apply (IZR_le 0) in A. apply IZR_lt in B. unfold ww. lra.
    - rewrite V, (Z.div_mod k 2147483648) at 1 by lia. rewrite plus_IZR, mult_IZR. unfold ww. lra. }
  rewrite M, rnd_fmt in Vf.
  - split; auto. split; auto. now rewrite M.
  - apply fmt_ww. pose proof (Z.mod_pos_bound k 2147483648 ltac:(lia)). lia.
Qed.

Lemma stands_day x q : dated x -> is_exactly x q ->
  astype_int (fadd x (literal 5 10)) = Qtrunc (q + (1 # 2)) /\ (2097152 <= Qtrunc (q + (1 # 2)) <= 4194304)%Z /\
  exists j, (0 <= j < 2147483648)%Z /\ finite (fpymod (fadd x (literal 5 10)) (of_Z 1)) /\
    value (fpymod (fadd x (literal 5 10)) (of_Z 1)) = IZR j * ww /\ Q2R (Qpymod (q + (1 # 2)) 1) = IZR j * ww.
Proof.
  intros D (_ & S). destruct (shift_ok x D) as (F & V). destruct (dated_grid x D) as (k & E & K).
  assert (V' : value (fadd x (literal 5 10)) = Q2R (q + (1 # 2))) by (rewrite V, S, Q2R_plus, Q2R_half; reflexivity).
  split; [|split].
  - rewrite astype_ok; auto; [rewrite V'; apply trunc_Q|]. rewrite V. destruct D as (_ & D). apply Rabs_lt. lra.
  - rewrite <- trunc_Q, <- V', V. destruct D as (_ & D).
    pose proof (Ztrunc_le (IZR 2097152) (value x + / 2) ltac:(lra)) as A. pose proof (Ztrunc_le (value x + / 2) (IZR 4194304) ltac:(lra)) as B.
    rewrite Ztrunc_IZR in A, B. lia.
  - set (y := fadd x (literal 5 10)) in *. 
    assert (G : value y = IZR (k + 1073741824) * ww) by (rewrite V, E, plus_IZR; unfold ww; lra).
    destruct (frac_grid y (k + 1073741824) F G) as (Ff & Vf & Mf).
    exists ((k + 1073741824) mod 2147483648)%Z. split; [apply Z.mod_pos_bound; lia|]. split; auto. split; auto.
    rewrite <- Vf, Mf. unfold modulo. unfold Qpymod. rewrite Q2R_minus, Q2R_mult, Q2R_int, <- V'.
    assert (Q1 : Q2R 1 = 1) by (unfold Q2R; cbn; lra). rewrite Q1. f_equal. f_equal. f_equal.
    rewrite <- floor_Q. rewrite Q2R_div by (intros H; discriminate H). rewrite Q1, V'. reflexivity.
Qed.

Lemma Forall2_split {A B} (P : A -> B -> Prop) l m : Forall2 P l m -> exists z, l = map fst z /\ m = map snd z /\ forall p, In p z -> P (fst p) (snd p).
Proof.
  induction 1 as [|x y l m H _ (z & -> & -> & I)]; [exists []; repeat split; intros p []|].
  exists ((x, y) :: z). split; [reflexivity|]. split; [reflexivity|]. intros p [<-|J]; auto.
Qed.
Lemma Forall2_build {A B C} (P : B -> C -> Prop) (f : A -> B) (g : A -> C) z : (forall p, In p z -> P (f p) (g p)) -> Forall2 P (map f z) (map g z).
Proof. induction z as [|p z IH]; cbn; intros H; constructor; auto. Qed.

Lemma one_day_range a : (0 <= a)%Z -> (1 <= one_day a <= 31)%Z /\ (1 <= one_month a <= 12)%Z.
Proof.
  intros A. pose proof (one_core a A) as E. rewrite core_spec in E by auto. destruct (julian_date_spec a A) as ((V1 & V2) & _).
  rewrite E in V1, V2. cbn [year month day] in V1, V2.
  assert (month_length julian_leap (one_year a) (one_month a) <= 31)%Z; [|lia].
  destruct (length_pos julian_leap (one_year a) (one_month a) V1) as (_ & L); exact L.
Qed.

Theorem from_julian_exact js qs : Forall dated js -> Forall2 is_exactly js qs ->
  match from_julian qs with
  | Ok (ys, ms, ds) => exists ds', ffrom_julian js = Ok (ys, ms, ds') /\ Forall2 is_exactly ds' ds /\
      Forall (fun d => exists n j, (1 <= n <= 31)%Z /\ (0 <= j < 2147483648)%Z /\ value d = IZR n + IZR j * ww) ds' /\ Forall (fun m => (1 <= m <= 12)%Z) ms
  | Raise e => ffrom_julian js = Raise e
  end.
Proof.
  intros D S. destruct (Forall2_split _ _ _ S) as (z & -> & -> & I). clear S.
  assert (Dz : forall p, In p z -> dated (fst p)). { intros p J. rewrite Forall_forall in D. apply D. now apply in_map. } clear D.
  assert (A : map (fun x => astype_int (fadd x (literal 5 10))) (map fst z) = map (fun x => Qtrunc (x + (1 # 2))) (map snd z)).
  { rewrite !map_map. apply map_ext_in. intros p J. apply stands_day; auto. }
  assert (R : forall x, In x (map (fun x => Qtrunc (x + (1 # 2))) (map snd z)) -> (2097152 <= x <= 4194304)%Z).
  { intros x J. rewrite map_map in J. apply in_map_iff in J. destruct J as (p & <- & J). destruct (stands_day _ _ (Dz p J) (I p J)) as (_ & B & _). exact B. }
  assert (FC : fgregorian_correction (map (fun x => astype_int (fadd x (literal 5 10))) (map fst z)) = gregorian_correction (map (fun x => Qtrunc (x + (1 # 2))) (map snd z))).
  { rewrite A. apply fcorrection. intros x J. apply R in J. lia. }
  destruct (correction_cases (map (fun x => Qtrunc (x + (1 # 2))) (map snd z))) as [C|C].
  - assert (Cq : gregorian_correction (map (fun x => Qtrunc (x + (1 # 2))) (map snd z)) = Ok (map (fun x => shifted (Qtrunc (x + (1 # 2)))) (map snd z))).
    { rewrite C. now rewrite (map_map _ shifted). }
    rewrite (from_julian_map _ Cq). rewrite ffrom_julian_map.
    2:{ rewrite FC, C, <- A. now rewrite (map_map _ shifted). }
    assert (Sh : forall p, In p z -> (0 <= shifted (Qtrunc (snd p + (1 # 2))) <= 4200000)%Z).
    { intros p J. apply shifted_range. destruct (stands_day _ _ (Dz p J) (I p J)) as (_ & B & _). lia. }
    eexists. split; [|split; [|split]].
    + f_equal. f_equal. f_equal.
      * rewrite !map_map. apply map_ext_in. intros p J. destruct (stands_day _ _ (Dz p J) (I p J)) as (-> & _). apply fparts. auto.
      * rewrite !map_map. apply map_ext_in. intros p J. destruct (stands_day _ _ (Dz p J) (I p J)) as (-> & _). apply fparts. auto.
    + rewrite !map_map. apply Forall2_build. intros p J. destruct (stands_day _ _ (Dz p J) (I p J)) as (-> & B & j & Jr & Ff & Vf & Qf).
      destruct (fparts _ (Sh p J)) as (_ & _ & ->). set (n := one_day (shifted (Qtrunc (snd p + (1 # 2))))).
      assert (N : (1 <= n <= 31)%Z) by (apply one_day_range; apply Sh; auto). clearbody n.
      destruct (of_Z_ok n ltac:(lia)) as (Fn & Vn).
      assert (Nr : 1 <= IZR n <= 31) by (split; apply IZR_le; lia). assert (Jr' : 0 <= IZR j * ww <= 1). { destruct Jr as (J1 & J2). apply (IZR_le 0) in J1. apply IZR_lt in J2. unfold ww. lra. }
      destruct (fadd_ok (of_Z n) (fpymod (fadd (fst p) (literal 5 10)) (of_Z 1)) Fn Ff) as (F & V). { rewrite Vn, Vf. apply small_abs, Rabs_le. lra. }
      split; auto. rewrite V, Vn, Vf, Q2R_plus, Q2R_int, Qf. apply rnd_fmt.
      replace (IZR n + IZR j * ww) with (IZR (n * 2147483648 + j) * ww) by (rewrite plus_IZR, mult_IZR; unfold ww; lra). apply fmt_ww. lia.
    + rewrite !map_map. apply Forall_forall. intros d J. apply in_map_iff in J. destruct J as (p & <- & J).
      destruct (stands_day _ _ (Dz p J) (I p J)) as (-> & B & j & Jr & Ff & Vf & Qf).
      destruct (fparts _ (Sh p J)) as (_ & _ & ->). set (n := one_day (shifted (Qtrunc (snd p + (1 # 2))))).
      assert (N : (1 <= n <= 31)%Z) by (apply one_day_range; apply Sh; auto). clearbody n.
      destruct (of_Z_ok n ltac:(lia)) as (Fn & Vn).
      assert (Nr : 1 <= IZR n <= 31) by (split; apply IZR_le; lia). assert (Jr' : 0 <= IZR j * ww <= 1). { destruct Jr as (J1 & J2). apply (IZR_le 0) in J1. apply IZR_lt in J2. unfold ww. lra. }
      destruct (fadd_ok (of_Z n) (fpymod (fadd (fst p) (literal 5 10)) (of_Z 1)) Fn Ff) as (F & V). { rewrite Vn, Vf. apply small_abs, Rabs_le. lra. }
      exists n, j. split; auto. split; auto. rewrite V, Vn, Vf. apply rnd_fmt.
      replace (IZR n + IZR j * ww) with (IZR (n * 2147483648 + j) * ww) by (rewrite plus_IZR, mult_IZR; unfold ww; lra). apply fmt_ww. lia.
    + rewrite !map_map. apply Forall_forall. intros d J. apply in_map_iff in J. destruct J as (p & <- & J). apply one_day_range. apply Sh. auto.
  - assert (from_julian (map snd z) = Raise ValueError) as ->. { unfold from_julian. cbv zeta. rewrite (map_map _ Qtrunc), C. reflexivity. }
    unfold ffrom_julian. cbv zeta. rewrite (map_map _ astype_int), FC, C. reflexivity.
Qed.
