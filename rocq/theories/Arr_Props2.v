(** C97-C101: integer arrays, array comparisons, operands, shared arrays, unit
    identity. *)
From Coq Require Import String List ZArith QArith Qfield Bool Lia.
From Verif Require Import Py PyLemmas Units_Model Units_Spec Units_Proofs Units_Proofs2
  Arr_Model Arr_Proofs Arr_Props.
Import ListNotations.
Open Scope nat_scope.
Open Scope list_scope.

(** ** C97: converting integer arrays *)

(** Every integer (or boolean) array refuses every conversion that changes the
    unit, and every sum, product, quotient and comparison that needs one. *)
Theorem C97_integer_arrays_refuted :
  forall env h r a t l v d,
    aq_data r = Ref a -> nth_error h a = Some (mkArray t l) -> t <> F64 ->
    sized env (aq_unit r) -> sized env v ->
    dimension (aq_unit r) = Ok d -> dimension v = Ok d ->
    repr_unit (aq_unit r) <> repr_unit v ->
    (forall cp, snd (a_convert cp r v h) = Raise TypeError) /\
    snd (a_to r v h) = Raise TypeError /\
    (forall x, let q := mkAQ x v in
       snd (a_add q (AQty r) h) = Raise TypeError /\
       snd (a_mul q (AQty r) h) = Raise TypeError /\
       snd (a_div q (AQty r) h) = Raise TypeError /\
       snd (a_eq q (AQty r) h) = Raise TypeError /\
       snd (a_lt q (AQty r) h) = Raise TypeError /\
       snd (a_gt q (AQty r) h) = Raise TypeError).
Proof.
  intros env h r a t l v d D N T Su Sv Du Dv R.
  assert (forall cp, exists h', a_convert cp r v h = (h', Raise TypeError)) as Conv.
  { intros cp. destruct (a_convert_array cp r v h a t l D N) as (more & ->).
    destruct (factor_spec env _ _ d Su Sv Du Dv) as [(E & _)|(_ & f & -> & _)]; [congruence|].
    destruct t; [congruence| |]; eauto. }
  split; [intros cp; destruct (Conv cp) as (h' & ->); reflexivity|].
  assert (exists h', a_to r v h = (h', Raise TypeError)) as (h' & To).
  { destruct (Conv (fun i => i)) as (h' & E). exists h'. unfold a_to, mbind. now rewrite E. }
  rewrite To. split; [reflexivity|].
  intros x q. unfold a_eq, a_lt, a_gt. cbn [a_add a_mul a_div a_cmp]. unfold mbind, lift, q.
  cbn [aq_unit]. rewrite Du, Dv, String.eqb_refl. cbn [negb]. now rewrite To.
Qed.

Example C97_case : snd (a_to ex_int (UN u_km) ex_heap) = Raise TypeError.
Proof. reflexivity. Qed.

(** In its own unit an integer array can be read out, unchanged. *)
Theorem C97_same_unit_partial :
  forall h r a x d,
    aq_data r = Ref a -> nth_error h a = Some x -> dimension (aq_unit r) = Ok d ->
    exists h' y, a_to r (aq_unit r) h = (h', Ok y) /\ entries h' y = a_data x /\ type_of h' y = a_type x.
Proof.
  intros h r a [t l] d D N E.
  destruct (a_convert_array (fun i => i) r (aq_unit r) h a t l D N) as (more & C).
  unfold a_to, mbind. rewrite C. unfold factor. rewrite E. cbn [bind]. rewrite !String.eqb_refl. cbn [negb].
  do 2 eexists. split; [reflexivity|]. cbn. now rewrite nth_new.
Qed.

(** ** C98: comparing arrays *)
Definition bits (h : heap) (c : acmp) : list Q :=
  match c with
  | ABool b => [q_of_bool b]
  | ABits a => entries h (Ref a)
  | ANotImpl => []
  end.

Lemma acompare_spec f x y n h :
  live h x -> live h y -> fits n (entries h x) (entries h y) ->
  exists h' c, acompare f x y h = (h', Ok c) /\ extends h h' /\ length (bits h' c) = n /\ c <> ANotImpl /\
    forall i, i < n ->
      nth i (bits h' c) 0%Q = q_of_bool (f (stretch (entries h x) i) (stretch (entries h y) i)).
Proof.
  intros Lx Ly F.
  destruct (broadcast_ok (fun a b => q_of_bool (f a b)) _ _ n 0%Q F) as (l & E & Ln & N).
  destruct x as [a|a|a], y as [b|b|b]; cbn [acompare].
  3, 6, 7, 8, 9: rewrite E; cbn [mbind alloc ret]; do 2 eexists; split; [reflexivity|];
            split; [apply ext_app|]; cbn [bits entries]; rewrite nth_new; cbn [a_data];
            split; [exact Ln|]; split; [discriminate|exact N].
  all: cbn [entries hd stretch] in *; do 2 eexists; split; [reflexivity|]; split; [apply ext_refl|];
    assert (n = 1) as -> by (unfold fits in F; cbn in F; lia); cbn [bits length]; split; [reflexivity|];
    split; [discriminate|]; intros i H; replace i with 0 by lia; cbn; reflexivity.
Qed.

Lemma cmp_spec env f h q r d n :
  ok h q -> ok h r -> floats h r -> match_lengths h n q r ->
  sized env (aq_unit q) -> sized env (aq_unit r) ->
  dimension (aq_unit q) = Ok d -> dimension (aq_unit r) = Ok d ->
  exists h' c y, a_cmp f q (AQty r) h = (h', Ok c) /\ extends h h' /\ length (bits h' c) = n /\ c <> ANotImpl /\
    (forall i, y i * si_size (aq_unit q) == si_at h r i)%Q /\
    forall i, i < n -> nth i (bits h' c) 0%Q = q_of_bool (f (at_ h q i) (y i)).
Proof.
  intros Lq Lr F Ml Sq Sr Dq Dr.
  destruct (second_operand env h q r d n Lq Lr F Ml Sq Sr Dq Dr) as (h1 & y & E & X & Ly & Lq1 & Eq & Ft & N).
  cbn [a_cmp]. unfold mbind, lift. rewrite Dq, Dr, String.eqb_refl. cbn [negb]. rewrite E.
  destruct (acompare_spec f (aq_data q) y n h1 Lq1 Ly Ft) as (h2 & c & A & X2 & Cz & Nn & Nz).
  exists h2, c, (stretch (entries h1 y)). split; [exact A|]. split; [now apply (ext_trans h h1)|].
  split; [exact Cz|]. split; [exact Nn|]. split; [exact N|].
  intros i H. rewrite (Nz i H), Eq. reflexivity.
Qed.

(** [==], [<] and [>] give, position by position, the comparison of the sizes. *)
Theorem C98_elementwise_partial :
  forall env h q r d n,
    ok h q -> ok h r -> floats h r -> match_lengths h n q r ->
    sized env (aq_unit q) -> sized env (aq_unit r) ->
    dimension (aq_unit q) = Ok d -> dimension (aq_unit r) = Ok d ->
    (exists h' c, a_eq q (AQty r) h = (h', Ok c) /\ length (bits h' c) = n /\
       forall i, i < n -> (nth i (bits h' c) 0 == 1)%Q /\ (si_at h q i == si_at h r i)%Q \/
                          (nth i (bits h' c) 0 == 0)%Q /\ ~ (si_at h q i == si_at h r i)%Q) /\
    (exists h' c, a_lt q (AQty r) h = (h', Ok c) /\ length (bits h' c) = n /\
       forall i, i < n -> (nth i (bits h' c) 0 == 1)%Q /\ (si_at h q i < si_at h r i)%Q \/
                          (nth i (bits h' c) 0 == 0)%Q /\ ~ (si_at h q i < si_at h r i)%Q) /\
    (exists h' c, a_gt q (AQty r) h = (h', Ok c) /\ length (bits h' c) = n /\
       forall i, i < n -> (nth i (bits h' c) 0 == 1)%Q /\ (si_at h r i < si_at h q i)%Q \/
                          (nth i (bits h' c) 0 == 0)%Q /\ ~ (si_at h r i < si_at h q i)%Q).
Proof.
  intros env h q r d n Lq Lr F Ml Sq Sr Dq Dr.
  pose proof (si_size_pos env _ Sq) as P.
  split; [|split].
  - destruct (cmp_spec env Qeqb h q r d n Lq Lr F Ml Sq Sr Dq Dr) as (h' & c & y & E & _ & C & _ & Y & N).
    exists h', c. split; [exact E|]. split; [exact C|]. intros i H. rewrite (N i H).
    assert (Qeqb (at_ h q i) (y i) = true <-> (si_at h q i == si_at h r i)%Q) as B.
    { rewrite Qeqb_iff, <- (Y i). unfold si_at. apply scale_eq, P. }
    rewrite <- B. destruct (Qeqb (at_ h q i) (y i)); [left|right]; split; try reflexivity. discriminate.
  - destruct (cmp_spec env Qltb h q r d n Lq Lr F Ml Sq Sr Dq Dr) as (h' & c & y & E & _ & C & _ & Y & N).
    exists h', c. split; [exact E|]. split; [exact C|]. intros i H. rewrite (N i H).
    assert (Qltb (at_ h q i) (y i) = true <-> (si_at h q i < si_at h r i)%Q) as B.
    { rewrite Qltb_iff, <- (Y i). unfold si_at. apply scale_lt, P. }
    rewrite <- B. destruct (Qltb (at_ h q i) (y i)); [left|right]; split; try reflexivity. discriminate.
  - destruct (cmp_spec env (fun x y => Qltb y x) h q r d n Lq Lr F Ml Sq Sr Dq Dr) as (h' & c & y & E & _ & C & _ & Y & N).
    exists h', c. split; [exact E|]. split; [exact C|]. intros i H. rewrite (N i H).
    assert (Qltb (y i) (at_ h q i) = true <-> (si_at h r i < si_at h q i)%Q) as B.
    { rewrite Qltb_iff, <- (Y i). unfold si_at. apply scale_lt, P. }
    rewrite <- B. destruct (Qltb (y i) (at_ h q i)); [left|right]; split; try reflexivity. discriminate.
Qed.

(** [<=], [>=] and [!=] raise ValueError whenever two or more entries are compared. *)
Theorem C98_le_ge_ne_refuted :
  forall env h q r d n,
    ok h q -> ok h r -> floats h r -> match_lengths h n q r -> 2 <= n ->
    sized env (aq_unit q) -> sized env (aq_unit r) ->
    dimension (aq_unit q) = Ok d -> dimension (aq_unit r) = Ok d ->
    snd (a_le q (AQty r) h) = Raise ValueError /\
    snd (a_ge q (AQty r) h) = Raise ValueError /\
    snd (a_ne q (AQty r) h) = Raise ValueError.
Proof.
  intros env h q r d n Lq Lr F Ml N2 Sq Sr Dq Dr.
  destruct (cmp_spec env Qeqb h q r d n Lq Lr F Ml Sq Sr Dq Dr) as (h' & c & y & E & _ & C & _).
  assert (truth c h' = (h', Raise ValueError)) as T.
  { destruct c as [b|a|]; cbn [bits truth] in *; cbn [length] in C; try lia.
    destruct (entries h' (Ref a)) as [|x [|z r']]; cbn in C; try lia. reflexivity. }
  unfold a_le, a_ge, a_ne, mbind. change (a_cmp Qeqb) with a_eq in E. rewrite E, T. auto.
Qed.

(** With a single entry on both sides they work. *)
Theorem C98_single_entry_partial :
  forall env h q r d,
    ok h q -> ok h r -> floats h r -> match_lengths h 1 q r ->
    sized env (aq_unit q) -> sized env (aq_unit r) ->
    dimension (aq_unit q) = Ok d -> dimension (aq_unit r) = Ok d ->
    (exists h' c b, a_le q (AQty r) h = (h', Ok c) /\ bits h' c = [q_of_bool b] /\
       (b = true <-> si_at h q 0 <= si_at h r 0)%Q) /\
    (exists h' c b, a_ge q (AQty r) h = (h', Ok c) /\ bits h' c = [q_of_bool b] /\
       (b = true <-> si_at h r 0 <= si_at h q 0)%Q) /\
    (exists h' b, a_ne q (AQty r) h = (h', Ok (ABool b)) /\
       (b = true <-> ~ si_at h q 0 == si_at h r 0)%Q).
Proof.
  intros env h q r d Lq Lr F Ml Sq Sr Dq Dr.
  pose proof (si_size_pos env _ Sq) as P.
  destruct (cmp_spec env Qeqb h q r d 1 Lq Lr F Ml Sq Sr Dq Dr) as (h1 & c & y & E & X & C & Nc & Y & N).
  specialize (N 0 (le_n _)).
  set (b := Qeqb (at_ h q 0) (y 0)) in *.
  assert (bits h1 c = [q_of_bool b]) as B.
  { destruct (bits h1 c) as [|z [|]]; cbn in C; try lia. cbn in N. now subst z. }
  assert (truth c h1 = (h1, Ok b)) as T.
  { destruct c as [b'|a|]; cbn [bits truth] in *; [| |congruence].
    - injection B as B. unfold ret. f_equal. f_equal. destruct b', b; auto; discriminate.
    - rewrite B. now destruct b. }
  assert (b = true <-> (si_at h q 0 == si_at h r 0)%Q) as Be.
  { unfold b. rewrite Qeqb_iff, <- (Y 0). unfold si_at. apply scale_eq, P. }
  change (a_cmp Qeqb) with a_eq in E.
  assert (ok h1 q /\ ok h1 r /\ floats h1 r /\ match_lengths h1 1 q r /\
          si_at h1 q 0 = si_at h q 0 /\ si_at h1 r 0 = si_at h r 0) as (Lq1 & Lr1 & F1 & Ml1 & Iq & Ir).
  { repeat split.
    - now apply (live_ext h).
    - now apply (live_ext h).
    - intros a D. rewrite (type_ext h h1) by auto. apply (F a D).
    - unfold match_lengths, count. rewrite !(entries_ext h h1) by auto. exact Ml.
    - unfold si_at, at_. now rewrite (entries_ext h h1).
    - unfold si_at, at_. now rewrite (entries_ext h h1). }
  destruct (C98_elementwise_partial env h1 q r d 1 Lq1 Lr1 F1 Ml1 Sq Sr Dq Dr)
    as (_ & (h2 & c2 & E2 & C2 & N2) & (h3 & c3 & E3 & C3 & N3)).
  specialize (N2 0 (le_n _)). specialize (N3 0 (le_n _)). rewrite Iq, Ir in *.
  unfold a_le, a_ge, a_ne, mbind. rewrite E, T. split; [|split].
  - destruct b eqn:Eb.
    + exists h1, c, true. split; [reflexivity|]. split; [exact B|]. split; auto. intros _.
      destruct Be as [Be _]. rewrite (Be eq_refl). apply Qle_refl.
    + destruct (bits h2 c2) as [|z [|]] eqn:Bz; cbn in C2; try lia. cbn in N2.
      rewrite E2. exists h2, c2.
      destruct (cmp_spec env Qltb h1 q r d 1 Lq1 Lr1 F1 Ml1 Sq Sr Dq Dr) as (h4 & c4 & y4 & E4 & _ & C4 & _ & _ & N4).
      change (a_cmp Qltb) with a_lt in E4. rewrite E4 in E2. injection E2 as -> ->.
      specialize (N4 0 (le_n _)). rewrite Bz in N4. cbn in N4. subst z.
      eexists. split; [reflexivity|]. split; [exact Bz|].
      destruct (Qltb _ _); cbn in N2; split; intros H; try discriminate.
      * destruct N2 as [[_ L]|[Q _]]; [now apply Qlt_le_weak|discriminate].
      * auto.
      * exfalso. destruct N2 as [[Q _]|[_ L]]; [discriminate|].
        apply Qle_lteq in H as [H|H]; [auto|]. apply Be in H. discriminate.
  - destruct b eqn:Eb.
    + exists h1, c, true. split; [reflexivity|]. split; [exact B|]. split; auto. intros _.
      destruct Be as [Be _]. rewrite (Be eq_refl). apply Qle_refl.
    + destruct (bits h3 c3) as [|z [|]] eqn:Bz; cbn in C3; try lia. cbn in N3.
      rewrite E3. exists h3, c3.
      destruct (cmp_spec env (fun x y => Qltb y x) h1 q r d 1 Lq1 Lr1 F1 Ml1 Sq Sr Dq Dr) as (h4 & c4 & y4 & E4 & _ & C4 & _ & _ & N4).
      change (a_cmp (fun x y => Qltb y x)) with a_gt in E4. rewrite E4 in E3. injection E3 as -> ->.
      specialize (N4 0 (le_n _)). rewrite Bz in N4. cbn in N4. subst z.
      eexists. split; [reflexivity|]. split; [exact Bz|].
      destruct (Qltb _ _); cbn in N3; split; intros H; try discriminate.
      * destruct N3 as [[_ L]|[Q _]]; [now apply Qlt_le_weak|discriminate].
      * auto.
      * exfalso. destruct N3 as [[Q _]|[_ L]]; [discriminate|].
        apply Qle_lteq in H as [H|H]; [auto|]. apply Qeq_sym in H. apply Be in H. discriminate.
  - exists h1, (negb b). split; [reflexivity|]. rewrite <- Be. destruct b; cbn; intuition congruence.
Qed.

Example C98_case :
  snd (a_le ex_m (AQty ex_km) ex_heap) = Raise ValueError /\
  snd (a_ne ex_m (AQty ex_m) ex_heap) = Raise ValueError /\
  bits (fst (a_lt ex_m (AQty ex_km) ex_heap)) (ABits 4) = [1; 1; 1]%Q.
Proof. repeat split. Qed.

(** ** C99: operations leave their operands alone *)

(** No operation changes any array object that existed before it, whether it
    returns or raises. *)
Theorem C99_operands_unchanged :
  forall q o v cp h,
    untouched h (fst (a_neg q h)) /\ untouched h (fst (a_add q o h)) /\
    untouched h (fst (a_sub q o h)) /\ untouched h (fst (a_rsub q o h)) /\
    untouched h (fst (a_mul q o h)) /\ untouched h (fst (a_div q o h)) /\
    untouched h (fst (a_rdiv q o h)) /\ untouched h (fst (a_convert cp q v h)) /\
    untouched h (fst (a_to q v h)) /\
    untouched h (fst (a_eq q o h)) /\ untouched h (fst (a_ne q o h)) /\
    untouched h (fst (a_lt q o h)) /\ untouched h (fst (a_le q o h)) /\
    untouched h (fst (a_gt q o h)) /\ untouched h (fst (a_ge q o h)).
Proof.
  intros. repeat split; apply ext_untouched; auto with arr;
    first [apply grows_neg|apply grows_add|apply grows_sub|apply grows_rsub|apply grows_mul|apply grows_div
          |apply grows_rdiv|apply grows_convert|apply grows_to|apply grows_eq|apply grows_ne|apply grows_lt
          |apply grows_le|apply grows_gt|apply grows_ge].
Qed.

(** The writes of a program to array [a], in order. *)
Fixpoint own_writes (a : nat) (p : list action) : list (nat * Q) :=
  match p with
  | [] => []
  | UWrite b i x :: r => if Nat.eqb b a then (i, x) :: own_writes a r else own_writes a r
  | _ :: r => own_writes a r
  end.
Definition apply_writes (l : list Q) (w : list (nat * Q)) : list Q :=
  fold_left (fun l ix => upd l (fst ix) (fun _ => snd ix)) w l.

Lemma step_array s c a x :
  nth_error (fst s) a = Some x ->
  nth_error (fst (step s c)) a =
  Some (match c with
        | UWrite b i v => if Nat.eqb b a then mkArray (a_type x) (upd (a_data x) i (fun _ => v)) else x
        | _ => x
        end).
Proof.
  intros N.
  assert (forall h', extends (fst s) h' -> nth_error h' a = Some x) as K.
  { intros h' E. now apply (ext_untouched _ _ E). }
  assert (forall i k, (forall q, extends (fst s) (fst (k q))) -> nth_error (fst (with1 s i k)) a = Some x) as W1.
  { intros i k G. unfold with1. match goal with |- context [match ?m with _ => _ end] => destruct m end; [apply K, G|exact N]. }
  assert (forall i o k, (forall q r, extends (fst s) (fst (k q r))) -> nth_error (fst (with2 s i o k)) a = Some x) as W2.
  { intros i o k G. unfold with2. match goal with |- context [match ?m with _ => _ end] => destruct m end; [|exact N].
    match goal with |- context [match ?m with _ => _ end] => destruct m end; [apply K, G|exact N]. }
  assert (forall r, fst (bind_result s r) = fst r) as B.
  { intros [h [q|e]]; reflexivity. }
  destruct c; cbn [step fst];
    try (apply W1; intros; rewrite ?B; cbn [drop_result fst];
         first [apply grows_neg|apply grows_convert|apply grows_to]);
    try (apply W2; intros; rewrite ?B; cbn [drop_result fst];
         first [apply grows_add|apply grows_sub|apply grows_rsub|apply grows_mul|apply grows_div
               |apply grows_rdiv|apply grows_eq|apply grows_ne|apply grows_lt
               |apply grows_le|apply grows_gt|apply grows_ge]).
  - apply K, ext_app.
  - unfold write. rewrite nth_error_upd, N. destruct (Nat.eqb a0 a); reflexivity.
  - exact N.
Qed.

(** In every program, of any length, an array object holds what it held at the
    start, changed only by the program's own writes into that object. *)
Theorem C99_history :
  forall p s a x,
    nth_error (fst s) a = Some x ->
    nth_error (fst (run s p)) a =
    Some (mkArray (a_type x) (apply_writes (a_data x) (own_writes a p))).
Proof.
  induction p as [|c p IH]; intros s a x N.
  - cbn. rewrite N. now destruct x.
  - unfold run in *. cbn [fold_left].
    rewrite (IH (step s c) a _ (step_array s c a x N)).
    destruct c; cbn [own_writes]; try reflexivity.
    destruct (Nat.eqb a0 a); reflexivity.
Qed.

Example C99_case :
  let p := [UConvert (fun i => i + 100) 0 (UN u_mm); UWrite 3 0 7%Q; UMul 0 (GQty 1); UWrite 0 2 9%Q; USub 1 (GQty 0)] in
  let s := run (ex_heap, [ex_m; ex_km]) p in
  nth_error (fst s) 0 = Some (mkArray F64 [1; 2; 9]%Q) /\ length (snd s) = 5 /\ length (fst s) = 9.
Proof. cbv. repeat split. Qed.

(** ** C100: shared arrays *)

(** A quantity is not independent of the array it was built from: a later write
    into that array changes the quantity. *)
Theorem C100_independent_refuted :
  forall h e t l u i x,
    i < length l ->
    let s := run (h, e) [UArray t l; UQuantity (Ref (length h)) u; UWrite (length h) i x] in
    exists q, nth_error (snd s) (length e) = Some q /\
              nth i (entries (fst s) (aq_data q)) 0%Q = x.
Proof.
  intros h e t l u i x H. cbn. eexists. split.
  - rewrite nth_error_app2, Nat.sub_diag; auto. reflexivity.
  - cbn. unfold write. rewrite nth_error_upd, Nat.eqb_refl, nth_new. cbn.
    revert i H. induction l as [|y l IH]; intros [|i] H; cbn in *; auto; try lia. apply IH. lia.
Qed.

(** Every quantity an operation returns holds a number or an array object that did
    not exist before, so it shares its array with no earlier quantity. *)
Theorem C100_results_are_new_partial :
  forall q o v cp h s,
    (snd (a_neg q h) = Ok s \/ snd (a_add q o h) = Ok s \/ snd (a_sub q o h) = Ok s \/
     snd (a_rsub q o h) = Ok s \/ snd (a_mul q o h) = Ok s \/ snd (a_div q o h) = Ok s \/
     snd (a_rdiv q o h) = Ok s \/ snd (a_convert cp q v h) = Ok s) ->
    forall a, aq_data s = Ref a -> nth_error h a = None.
Proof.
  intros q o v cp h s H a E.
  assert (exists h', new_in h h' (aq_data s)) as (h' & N).
  { destruct H as [H|[H|[H|[H|[H|[H|[H|H]]]]]]]; eexists;
      [ apply (newq_neg q h s H) | apply (newq_add q o h s H) | apply (newq_sub q o h s H)
      | apply (newq_rsub q o h s H) | apply (newq_mul q o h s H) | apply (newq_div q o h s H)
      | apply (newq_rdiv q o h s H) | apply (newq_convert cp q v h s H) ]. }
  rewrite E in N. cbn in N. apply nth_error_None. lia.
Qed.

(** In a program whose arrays are all created by it, and that never builds two
    quantities from the same array object, no two quantities share an array: a
    write to the array of one leaves all others as they are. *)
Definition builds_private (s : state) (c : action) : Prop :=
  match c with
  | UQuantity d _ => live (fst s) d /\ forall a, d = Ref a -> ~ exists q, In q (snd s) /\ aq_data q = Ref a
  | _ => True
  end.
Fixpoint private (s : state) (p : list action) : Prop :=
  match p with
  | [] => True
  | c :: r => builds_private s c /\ private (step s c) r
  end.
Definition refs (e : list aqty) : list nat :=
  flat_map (fun q => match aq_data q with Ref a => [a] | _ => [] end) e.

Lemma refs_in e a : In a (refs e) <-> exists q, In q e /\ aq_data q = Ref a.
Proof.
  unfold refs. rewrite in_flat_map. split; intros (q & I & D); exists q; split; auto.
  - destruct (aq_data q); cbn in D; try easy. destruct D as [->|[]]; auto.
  - rewrite D. cbn. auto.
Qed.

Lemma nodup_snoc (l : list nat) a : NoDup l -> ~ In a l -> NoDup (l ++ [a]).
Proof.
  intros N I. apply NoDup_rev in N. rewrite <- (rev_involutive (l ++ [a])), rev_app_distr.
  apply NoDup_rev. cbn. constructor; auto. now rewrite <- in_rev.
Qed.

Lemma refs_snoc e q : refs (e ++ [q]) = refs e ++ match aq_data q with Ref a => [a] | _ => [] end.
Proof. unfold refs. rewrite flat_map_app. cbn. now rewrite app_nil_r. Qed.

Definition separate (s : state) : Prop :=
  NoDup (refs (snd s)) /\ forall a, In a (refs (snd s)) -> a < length (fst s).

Lemma separate_grow s h' : extends (fst s) h' -> separate s -> separate (h', snd s).
Proof.
  intros [l E] [N L]. split; [exact N|]. intros a I. cbn. rewrite E, app_length.
  specialize (L a I). lia.
Qed.

Lemma separate_bind s r :
  extends (fst s) (fst r) -> (forall q, snd r = Ok q -> new_in (fst s) (fst r) (aq_data q)) ->
  separate s -> separate (bind_result s r).
Proof.
  intros E K S. pose proof (separate_grow s (fst r) E S) as [N L]. destruct S as [_ L0].
  destruct r as [h [q|e]]; cbn in *; [|split; auto].
  specialize (K q eq_refl). red. cbn. rewrite refs_snoc.
  destruct (aq_data q) as [z|x|a]; cbn in K; rewrite ?app_nil_r; try (split; auto; fail).
  split.
  - apply nodup_snoc; auto. intros I. apply L0 in I. lia.
  - intros b I. apply in_app_iff in I as [I|[<-|[]]]; auto. lia.
Qed.

Lemma separate_step s c : builds_private s c -> separate s -> separate (step s c).
Proof.
  intros B S.
  assert (forall i k, (forall q, separate (k q)) -> separate (with1 s i k)) as W1.
  { intros i k G. unfold with1. match goal with |- context [match ?m with _ => _ end] => destruct m end; auto. }
  assert (forall i o k, (forall q r, separate (k q r)) -> separate (with2 s i o k)) as W2.
  { intros i o k G. unfold with2. match goal with |- context [match ?m with _ => _ end] => destruct m end; auto.
    match goal with |- context [match ?m with _ => _ end] => destruct m end; auto. }
  destruct c; cbn [step];
    try (apply W1; intros; first
      [ apply separate_bind; auto; [apply grows_neg|apply newq_neg]
      | apply separate_bind; auto; [apply grows_convert|apply newq_convert]
      | apply separate_grow; auto; apply grows_to ]; fail);
    try (apply W2; intros; first
      [ apply separate_bind; auto; [apply grows_add|apply newq_add]
      | apply separate_bind; auto; [apply grows_sub|apply newq_sub]
      | apply separate_bind; auto; [apply grows_rsub|apply newq_rsub]
      | apply separate_bind; auto; [apply grows_mul|apply newq_mul]
      | apply separate_bind; auto; [apply grows_div|apply newq_div]
      | apply separate_bind; auto; [apply grows_rdiv|apply newq_rdiv]
      | apply separate_grow; auto;
        first [apply grows_eq|apply grows_ne|apply grows_lt|apply grows_le|apply grows_gt|apply grows_ge] ]; fail).
  - apply separate_grow; auto. apply ext_app.
  - destruct S as [N L]. split; [exact N|]. intros b I. cbn. unfold write. rewrite upd_length. auto.
  - destruct S as [N L], B as [B1 B2]. red. cbn. rewrite refs_snoc. cbn.
    destruct d as [z|x|a]; rewrite ?app_nil_r; try (split; auto; fail).
    split.
    + apply nodup_snoc; auto. intros I. apply refs_in in I. now apply (B2 a).
    + intros b I. apply in_app_iff in I as [I|[<-|[]]]; auto.
Qed.

Theorem C100_no_sharing_partial :
  forall p, private ([], []) p ->
    let s := run ([], []) p in
    forall i j q r a,
      nth_error (snd s) i = Some q -> nth_error (snd s) j = Some r -> i <> j ->
      aq_data q = Ref a ->
      forall k x, entries (write (fst s) a k x) (aq_data r) = entries (fst s) (aq_data r).
Proof.
  assert (forall p s, private s p -> separate s -> separate (run s p)) as R.
  { induction p as [|c p IH]; intros s P S; auto. destruct P as [P1 P2]. unfold run in *. cbn [fold_left].
    apply IH; auto. now apply separate_step. }
  intros p P s i j q r a Ni Nj Ne D k x.
  assert (separate s) as [N _].
  { apply R; auto. split; [constructor|intros b []]. }
  destruct (aq_data r) as [z|y|b] eqn:Dr; auto. cbn. unfold write. rewrite nth_error_upd.
  destruct (Nat.eqb_spec a b) as [->|_]; auto. exfalso.
  clear - N Ni Nj Ne D Dr. revert i j Ni Nj Ne N. generalize (snd s). intros e.
  induction e as [|w e IH]; intros [|i] [|j] Ni Nj Ne N; cbn in *; try discriminate; try lia.
  - injection Ni as ->. unfold refs in N. cbn in N. rewrite D in N. cbn in N. inversion N as [|? ? N1 N2]. apply N1.
    apply refs_in. exists r. split; auto. eapply nth_error_In; eauto.
  - injection Nj as ->. unfold refs in N. cbn in N. rewrite Dr in N. cbn in N. inversion N as [|? ? N1 N2]. apply N1.
    apply refs_in. exists q. split; auto. eapply nth_error_In; eauto.
  - apply (IH i j); auto. unfold refs in N. cbn in N. destruct (aq_data w); cbn in N; auto. now inversion N.
Qed.

Example C100_case :
  let p := [UArray F64 [1%Q; 2%Q]; UQuantity (Ref 0) (UN u_m); UConvert (fun i => i + 100) 0 (UN u_km);
            UAdd 0 (GQty 1)] in
  private ([], []) p /\ map aq_data (snd (run ([], []) p)) = [Ref 0; Ref 1; Ref 3].
Proof. cbv -[lt]. repeat split; try lia. intros a _ (q & [] & _). Qed.

(** ** C101: converting to the unit a quantity already has *)

(** The copy's unit is a new object, and unit objects are combined by identity: a
    length converted to metres and multiplied by a metre is in "m m", and the
    dimension of metres over metres cannot be computed. *)
Theorem C101_own_unit_refuted :
  forall cp h x, (forall i, cp i <> i) ->
    let q := mkAQ (PyFloat x) (UN u_m) in
    let before := aq_unit q in
    exists s, a_convert cp q (UN u_m) h = (h, Ok s) /\
      repr_unit (aq_unit s) = repr_unit before /\
      repr_unit (u_mul before (UN u_m)) = "CompoundUnit(""m2"")"%string /\
      repr_unit (u_mul (aq_unit s) (UN u_m)) = "CompoundUnit(""m m"")"%string /\
      (exists d, dimension (u_div before (UN u_m)) = Ok d) /\
      dimension (u_div (aq_unit s) (UN u_m)) = Raise AttributeError.
Proof.
  intros cp h x C q before. eexists. split; [reflexivity|].
  split; [reflexivity|]. split; [reflexivity|]. cbn [aq_unit].
  specialize (C 0).
  change (copy_unit cp (aq_unit q)) with (UN (mkNamed (cp 0) (n_name u_m) (n_scale u_m) (n_bases u_m))).
  destruct (cp 0) as [|k]; [easy|].
  split; [reflexivity|]. split; [eexists; reflexivity|]. reflexivity.
Qed.

(** The numbers and the printed unit do not change, for any quantity. *)
Theorem C101_own_unit_partial :
  forall cp h q d,
    ok h q -> dimension (aq_unit q) = Ok d ->
    exists h' s, a_convert cp q (aq_unit q) h = (h', Ok s) /\
      entries h' (aq_data s) = entries h (aq_data q) /\ type_of h' (aq_data s) = type_of h (aq_data q) /\
      repr_unit (aq_unit s) = repr_unit (aq_unit q) /\ dimension (aq_unit s) = dimension (aq_unit q) /\
      si_size (aq_unit s) = si_size (aq_unit q).
Proof.
  intros cp h q d L D.
  assert (factor (aq_unit q) (aq_unit q) = Ok None) as F.
  { unfold factor. rewrite D. cbn [bind]. now rewrite !String.eqb_refl. }
  destruct (aq_data q) as [z|x|a] eqn:E.
  1, 2: rewrite a_convert_number, F by (rewrite E; discriminate); do 2 eexists; split; [reflexivity|];
    cbn [aq_data aq_unit]; rewrite E, repr_copy, dimension_copy, si_size_copy; auto 6.
  red in L. rewrite E in L. cbn in L.
  destruct (nth_error h a) as [[t l]|] eqn:N; [|apply nth_error_None in N; lia].
  destruct (a_convert_array cp q (aq_unit q) h a t l E N) as (more & ->). rewrite F.
  do 2 eexists; split; [reflexivity|]. cbn [aq_data aq_unit entries type_of].
  rewrite nth_new, N, repr_copy, dimension_copy, si_size_copy. auto 6.
Qed.

Print Assumptions C96_add.
Print Assumptions C98_elementwise_partial.
Print Assumptions C99_history.
Print Assumptions C100_no_sharing_partial.
Print Assumptions C101_own_unit_refuted.
