(** C96-C101: quantities holding numpy arrays. *)
From Coq Require Import String List ZArith QArith Qfield Bool Lia.
From Verif Require Import Py PyLemmas Units_Model Units_Spec Units_Proofs Units_Proofs2 Arr_Model Arr_Proofs.
Import ListNotations.
Open Scope nat_scope.
Open Scope list_scope.

(** ** Specification *)

(** The number a quantity holds at position [i] ([stretch], Arr_Proofs: numbers and
    one-entry arrays stand for every position) and its size in SI units. *)
Definition at_ (h : heap) (q : aqty) (i : nat) : Q := stretch (entries h (aq_data q)) i.
Definition si_at (h : heap) (q : aqty) (i : nat) : Q := (at_ h q i * si_size (aq_unit q))%Q.
Definition count (h : heap) (q : aqty) : nat := length (entries h (aq_data q)).

(** Two quantities have compatible lengths with common length [n]: equal lengths,
    or one of them is a number or one-entry array. *)
Definition match_lengths (h : heap) (n : nat) (q r : aqty) : Prop :=
  (count h q = n /\ (count h r = n \/ count h r = 1)) \/ (count h r = n /\ count h q = 1).

(** The quantity's array exists; it is a number or an array of floats. *)
Definition ok (h : heap) (q : aqty) : Prop := live h (aq_data q).
Definition floats (h : heap) (q : aqty) : Prop :=
  forall a, aq_data q = Ref a -> type_of h (aq_data q) = F64.

(** All array objects that exist keep their type and entries. *)
Definition untouched (h h' : heap) : Prop :=
  forall a x, nth_error h a = Some x -> nth_error h' a = Some x.

Lemma ext_untouched h h' : extends h h' -> untouched h h'.
Proof.
  intros [l ->] a x H. rewrite nth_error_app1; auto. apply nth_error_Some. congruence.
Qed.

(** Concrete example used below: [1, 2, 3] m, [10, 20, 30] km, int array [1, 2]. *)
Definition ex_heap : heap :=
  [mkArray F64 [1%Q; 2%Q; 3%Q]; mkArray F64 [10%Q; 20%Q; 30%Q]; mkArray I64 [1%Q; 2%Q]].
Definition ex_m : aqty := mkAQ (Ref 0) (UN u_m).
Definition ex_km : aqty := mkAQ (Ref 1) (UN u_km).
Definition ex_int : aqty := mkAQ (Ref 2) (UN u_m).
Definition ex_env (s : string) : Q := if String.eqb s "km" then 1000%Q else 1%Q.

Example ex_hypotheses :
  ok ex_heap ex_m /\ ok ex_heap ex_km /\ floats ex_heap ex_km /\
  match_lengths ex_heap 3 ex_m ex_km /\
  sized ex_env (aq_unit ex_m) /\ sized ex_env (aq_unit ex_km) /\
  dimension (aq_unit ex_m) = Ok "L"%string /\ dimension (aq_unit ex_km) = Ok "L"%string.
Proof.
  repeat split; try (cbn; lia); try reflexivity.
  left. split; [|left]; reflexivity.
Qed.

(** ** C96 *)
Lemma stretch_mul l k i : (stretch (map (fun x => x * k) l) i == stretch l i * k)%Q.
Proof.
  destruct l as [|x [|y r]]; cbn [map stretch].
  - destruct i; cbn; ring.
  - reflexivity.
  - change (nth i (map (fun x => x * k) (x :: y :: r)) 0 == nth i (x :: y :: r) 0 * k)%Q.
    generalize (x :: y :: r). clear. intros l. revert i.
    induction l as [|x l IH]; intros [|i]; cbn; try ring; auto.
Qed.

Lemma to_array env h q v d :
  ok h q -> floats h q -> sized env (aq_unit q) -> sized env v ->
  dimension (aq_unit q) = Ok d -> dimension v = Ok d ->
  forall cp, exists h' q' k,
    a_convert cp q v h = (h', Ok q') /\ extends h h' /\ live h' (aq_data q') /\
    length (entries h' (aq_data q')) = length (entries h (aq_data q)) /\
    (forall i, stretch (entries h' (aq_data q')) i == stretch (entries h (aq_data q)) i * k)%Q /\
    (k * si_size v == si_size (aq_unit q))%Q /\
    repr_unit (aq_unit q') = repr_unit v /\ (si_size (aq_unit q') == si_size v)%Q.
Proof.
  intros L F Su Sv Du Dv cp.
  destruct (factor_spec env _ _ d Su Sv Du Dv) as [(R & E & S)|(R & f & E & S)].
  - destruct (aq_data q) as [z|x|a] eqn:D.
    1, 2: exists h, (mkAQ (aq_data q) (copy_unit cp (aq_unit q))), 1%Q;
      rewrite a_convert_number, E by (rewrite D; discriminate); split; [reflexivity|];
      split; [apply ext_refl|]; cbn [aq_data aq_unit]; rewrite D;
      rewrite repr_copy, si_size_copy; repeat split; auto; try (now rewrite S);
      try (intros i; cbn; ring); rewrite S; ring.
    red in L. rewrite D in L. cbn in L.
    destruct (nth_error h a) as [[t l]|] eqn:N; [|apply nth_error_None in N; lia].
    destruct (a_convert_array cp q v h a t l D N) as (more & ->). rewrite E.
    do 2 eexists. exists 1%Q. split; [reflexivity|]. split; [apply ext_app|].
    cbn [aq_data aq_unit live entries]. rewrite app_length, nth_new, N, repr_copy, si_size_copy.
    cbn [length a_data]. repeat split; auto; try lia; try (now rewrite S).
    + intros i. ring.
    + rewrite S. ring.
  - destruct (aq_data q) as [z|x|a] eqn:D.
    1, 2: rewrite a_convert_number, E by (rewrite D; discriminate);
      do 2 eexists; exists f; split; [reflexivity|];
      split; [apply ext_refl|]; cbn [aq_data aq_unit]; rewrite D;
      repeat split; auto; try (now rewrite S); intros i; cbn; ring.
    red in L. rewrite D in L. cbn in L.
    destruct (nth_error h a) as [[t l]|] eqn:N; [|apply nth_error_None in N; lia].
    destruct (a_convert_array cp q v h a t l D N) as (more & ->). rewrite E.
    specialize (F a D). rewrite D in F. cbn in F. rewrite N in F. cbn in F. subst t.
    do 2 eexists. exists f. split; [reflexivity|]. split; [apply ext_app|].
    cbn [aq_data aq_unit live entries]. rewrite app_length, nth_new, N.
    cbn [length a_data]. repeat split; auto; try lia; try (now rewrite S).
    + now rewrite map_length.
    + intros i. apply stretch_mul.
Qed.

(** Converting an array of floats converts every entry. *)
Theorem C96_convert :
  forall env cp h q v d,
    ok h q -> floats h q -> sized env (aq_unit q) -> sized env v ->
    dimension (aq_unit q) = Ok d -> dimension v = Ok d ->
    exists h' q', a_convert cp q v h = (h', Ok q') /\ count h' q' = count h q /\
      repr_unit (aq_unit q') = repr_unit v /\ (si_size (aq_unit q') == si_size v)%Q /\
      (forall i, si_at h' q' i == si_at h q i)%Q.
Proof.
  intros env cp h q v d L F Su Sv Du Dv.
  destruct (to_array env h q v d L F Su Sv Du Dv cp) as (h' & q' & k & E & _ & _ & C & N & K & R & S).
  exists h', q'. split; [exact E|]. split; [exact C|]. split; [exact R|]. split; [exact S|].
  intros i. unfold si_at, at_. rewrite (N i), S, <- K. ring.
Qed.

Lemma fits_conv n (a b b' : list Q) : length b' = length b -> fits n a b -> fits n a b'.
Proof. unfold fits. intros ->. auto. Qed.

(** The converted second operand, and the first operand afterwards. *)
Lemma second_operand env h q r d n :
  ok h q -> ok h r -> floats h r -> match_lengths h n q r ->
  sized env (aq_unit q) -> sized env (aq_unit r) ->
  dimension (aq_unit q) = Ok d -> dimension (aq_unit r) = Ok d ->
  exists h' y, a_to r (aq_unit q) h = (h', Ok y) /\ extends h h' /\
    live h' y /\ live h' (aq_data q) /\ entries h' (aq_data q) = entries h (aq_data q) /\
    fits n (entries h' (aq_data q)) (entries h' y) /\
    forall i, (stretch (entries h' y) i * si_size (aq_unit q) == si_at h r i)%Q.
Proof.
  intros Lq Lr F Ml Sq Sr Dq Dr.
  destruct (to_array env h r (aq_unit q) d Lr F Sr Sq Dr Dq (fun i => i))
    as (h' & r' & k & E & X & L' & C & N & K & _ & _).
  exists h', (aq_data r'). unfold a_to, mbind. rewrite E. split; [reflexivity|].
  split; [exact X|]. split; [exact L'|]. split; [now apply (live_ext h)|].
  rewrite (entries_ext h h') by auto. split; [reflexivity|].
  split; [now apply (fits_conv n _ (entries h (aq_data r)))|].
  intros i. rewrite N. unfold si_at, at_. rewrite <- K. ring.
Qed.

Lemma inject_add a b : (inject_Z (a + b) == inject_Z a + inject_Z b)%Q.
Proof. now rewrite inject_Z_plus. Qed.
Lemma inject_mul a b : (inject_Z (a * b) == inject_Z a * inject_Z b)%Q.
Proof. now rewrite inject_Z_mult. Qed.

Lemma at_nth h q i : i < count h q -> at_ h q i = nth i (entries h (aq_data q)) 0%Q.
Proof. apply stretch_nth. Qed.

(** Adding quantities adds entry by entry, in the first operand's unit. *)
Theorem C96_add :
  forall env h q r d n,
    ok h q -> ok h r -> floats h r -> match_lengths h n q r ->
    sized env (aq_unit q) -> sized env (aq_unit r) ->
    dimension (aq_unit q) = Ok d -> dimension (aq_unit r) = Ok d ->
    exists h' s, a_add q (AQty r) h = (h', Ok s) /\ ok h' s /\ count h' s = n /\
      aq_unit s = aq_unit q /\
      forall i, i < n -> (si_at h' s i == si_at h q i + si_at h r i)%Q.
Proof.
  intros env h q r d n Lq Lr F Ml Sq Sr Dq Dr.
  destruct (second_operand env h q r d n Lq Lr F Ml Sq Sr Dq Dr) as (h1 & y & E & X & Ly & Lq1 & Eq & Ft & N).
  cbn [a_add]. unfold mbind at 1 2, lift. rewrite Dq, Dr, String.eqb_refl. cbn [negb].
  unfold mbind at 1. rewrite E.
  destruct (arith_spec Z.add Qplus (aq_data q) y n h1 inject_add Lq1 Ly Ft) as (h2 & z & A & X2 & Lz & Cz & Nz).
  unfold mbind. rewrite A. cbn [ret].
  exists h2, (mkAQ z (aq_unit q)). split; [reflexivity|]. split; [exact Lz|]. split; [exact Cz|].
  split; [reflexivity|]. intros i H. unfold si_at at 1. rewrite at_nth by (unfold count; cbn [aq_data]; lia).
  cbn [aq_data aq_unit]. rewrite Nz, Eq by auto.
  unfold si_at at 1, at_. rewrite <- N. ring.
Qed.

(** Negation. *)
Lemma neg_spec h q :
  ok h q ->
  exists h' s, a_neg q h = (h', Ok s) /\ extends h h' /\ ok h' s /\ count h' s = count h q /\
    aq_unit s = aq_unit q /\ (floats h q -> floats h' s) /\
    forall i, (at_ h' s i == - at_ h q i)%Q.
Proof.
  intros L. unfold a_neg, ok, floats, count, at_ in *. destruct (aq_data q) as [z|x|a] eqn:D; cbn.
  1, 2: do 2 eexists; split; [reflexivity|]; split; [apply ext_refl|]; cbn; split; [exact I|];
    split; [reflexivity|]; split; [reflexivity|]; split; [discriminate|]; intros i;
    unfold Qeq, inject_Z; cbn; lia.
  - unfold mbind, load. destruct (nth_error h a) as [[t l]|] eqn:N;
      [|apply nth_error_None in N; cbn in L; lia].
    cbn. do 2 eexists. split; [reflexivity|]. split; [apply ext_app|]. cbn.
    rewrite app_length, nth_new. cbn. split; [lia|]. rewrite map_length. split; [reflexivity|].
    split; [reflexivity|]. split.
    + intros G a' _. apply (G a eq_refl).
    + intros i. destruct l as [|x [|y r]]; cbn [map stretch].
      * destruct i; reflexivity.
      * reflexivity.
      * change (nth i (map Qopp (x :: y :: r)) 0 == - nth i (x :: y :: r) 0)%Q.
        change 0%Q with (- 0)%Q at 1. rewrite map_nth. reflexivity.
Qed.

Theorem C96_neg :
  forall h q, ok h q ->
    exists h' s, a_neg q h = (h', Ok s) /\ count h' s = count h q /\ aq_unit s = aq_unit q /\
      forall i, (si_at h' s i == - si_at h q i)%Q.
Proof.
  intros h q L. destruct (neg_spec h q L) as (h' & s & E & _ & _ & C & U & _ & N).
  exists h', s. split; [exact E|]. split; [exact C|]. split; [exact U|]. intros i. unfold si_at. rewrite (N i), U. ring.
Qed.

(** Subtraction. *)
Theorem C96_sub :
  forall env h q r d n,
    ok h q -> ok h r -> floats h r -> match_lengths h n q r ->
    sized env (aq_unit q) -> sized env (aq_unit r) ->
    dimension (aq_unit q) = Ok d -> dimension (aq_unit r) = Ok d ->
    exists h' s, a_sub q (AQty r) h = (h', Ok s) /\ ok h' s /\ count h' s = n /\
      aq_unit s = aq_unit q /\
      forall i, i < n -> (si_at h' s i == si_at h q i - si_at h r i)%Q.
Proof.
  intros env h q r d n Lq Lr F Ml Sq Sr Dq Dr.
  destruct (neg_spec h r Lr) as (h1 & m & E & X & Lm & Cm & Um & Fm & Nm).
  assert (entries h1 (aq_data q) = entries h (aq_data q)) as Eq by now apply entries_ext.
  destruct (C96_add env h1 q m d n) as (h2 & s & A & Ls & C & U & N); auto.
  - now apply (live_ext h).
  - unfold match_lengths, count in *. rewrite Eq, Cm. exact Ml.
  - now rewrite Um.
  - now rewrite Um.
  - exists h2, s. unfold a_sub. cbn [a_oneg]. unfold mbind. rewrite E. cbn [ret].
    split; [exact A|]. split; [exact Ls|]. split; [exact C|]. split; [exact U|].
    intros i H. rewrite (N i H). unfold si_at. rewrite (Nm i), Um.
    unfold at_ at 1. rewrite Eq. unfold at_. ring.
Qed.

(** A number on the right: added, subtracted, multiplied in the quantity's unit; on
    the left of a minus sign: the quantity is subtracted from it. *)
Definition number_of (o : aoperand) : option Q :=
  match o with AInt z => Some (inject_Z z) | AFloat x => Some x | _ => None end.

Lemma number_arith fz f q o x h :
  (forall a b, inject_Z (fz a b) == f (inject_Z a) (inject_Z b))%Q ->
  ok h q -> number_of o = Some x ->
  exists h' z d, match o with AInt k => PyInt k | AFloat v => PyFloat v | _ => PyInt 0 end = d /\
    arith fz f (aq_data q) d h = (h', Ok z) /\ extends h h' /\ live h' z /\
    length (entries h' z) = count h q /\
    forall i, i < count h q -> (nth i (entries h' z) 0 == f (at_ h q i) x)%Q.
Proof.
  intros FZ L E. set (d := match o with AInt k => PyInt k | AFloat v => PyFloat v | _ => PyInt 0 end).
  assert (entries h d = [x]) as D by (destruct o; cbn in *; congruence).
  destruct (arith_spec fz f (aq_data q) d (count h q) h FZ L) as (h' & z & A & X & Lz & C & N).
  - destruct o; cbn in *; auto.
  - rewrite D. left. split; auto.
  - exists h', z, d. split; [reflexivity|]. split; [exact A|]. split; [exact X|]. split; [exact Lz|].
    split; [exact C|]. intros i H. rewrite (N i H), D. reflexivity.
Qed.

Theorem C96_numbers :
  forall h q o x, ok h q -> number_of o = Some x ->
    (exists h' s, a_add q o h = (h', Ok s) /\ count h' s = count h q /\ aq_unit s = aq_unit q /\
       forall i, i < count h q -> (at_ h' s i == at_ h q i + x)%Q) /\
    (exists h' s, a_sub q o h = (h', Ok s) /\ count h' s = count h q /\ aq_unit s = aq_unit q /\
       forall i, i < count h q -> (at_ h' s i == at_ h q i - x)%Q) /\
    (exists h' s, a_rsub q o h = (h', Ok s) /\ count h' s = count h q /\ aq_unit s = aq_unit q /\
       forall i, i < count h q -> (at_ h' s i == x - at_ h q i)%Q) /\
    (exists h' s, a_mul q o h = (h', Ok s) /\ count h' s = count h q /\ aq_unit s = aq_unit q /\
       forall i, i < count h q -> (at_ h' s i == at_ h q i * x)%Q).
Proof.
  assert (forall h q o x, ok h q -> number_of o = Some x ->
    exists h' s, a_add q o h = (h', Ok s) /\ ok h' s /\ count h' s = count h q /\ aq_unit s = aq_unit q /\
       forall i, i < count h q -> (at_ h' s i == at_ h q i + x)%Q) as Add.
  { intros h q o x L E.
    destruct (number_arith Z.add Qplus q o x h inject_add L E) as (h' & z & d & D & A & X & Lz & C & N).
    exists h', (mkAQ z (aq_unit q)). split.
    - destruct o; cbn [number_of a_add] in *; try discriminate; unfold mbind; subst d; now rewrite A.
    - split; [exact Lz|]. split; [exact C|]. split; [reflexivity|]. intros i H.
      rewrite at_nth by (unfold count; cbn [aq_data]; lia). cbn [aq_data]. apply N, H. }
  assert (forall h q o x, ok h q -> number_of o = Some x ->
    exists h' s, a_sub q o h = (h', Ok s) /\ ok h' s /\ count h' s = count h q /\ aq_unit s = aq_unit q /\
       forall i, i < count h q -> (at_ h' s i == at_ h q i - x)%Q) as Sub.
  { intros h q o x L E. unfold a_sub.
    destruct o as [z|v| |]; cbn in E; try discriminate; injection E as <-; cbn [a_oneg]; unfold mbind, ret.
    - destruct (Add h q (AInt (- z)) _ L eq_refl) as (h' & s & A & Ls & C & U & N).
      exists h', s. split; [exact A|]. split; [exact Ls|]. split; [exact C|]. split; [exact U|].
      intros i H. rewrite (N i H), inject_Z_opp. ring.
    - destruct (Add h q (AFloat (- v)) _ L eq_refl) as (h' & s & A & Ls & C & U & N).
      exists h', s. split; [exact A|]. split; [exact Ls|]. split; [exact C|]. split; [exact U|].
      intros i H. rewrite (N i H). ring. }
  intros h q o x L E. split; [|split; [|split]].
  - destruct (Add h q o x L E) as (h' & s & A & Ls & C & U & N). exists h', s. auto.
  - destruct (Sub h q o x L E) as (h' & s & A & Ls & C & U & N). exists h', s. auto.
  - destruct (Sub h q o x L E) as (h' & s & A & Ls & C & U & N).
    destruct (neg_spec h' s Ls) as (h2 & m & B & _ & _ & C2 & U2 & _ & N2).
    exists h2, m. unfold a_rsub, mbind. rewrite A. split; [exact B|]. rewrite C2, U2.
    split; [exact C|]. split; [exact U|]. intros i H. rewrite (N2 i), (N i H). ring.
  - destruct (number_arith Z.mul Qmult q o x h inject_mul L E) as (h' & z & d & D & A & X & Lz & C & N).
    exists h', (mkAQ z (aq_unit q)). split.
    + destruct o; cbn [number_of a_mul] in *; try discriminate; unfold mbind; subst d; now rewrite A.
    + split; [exact C|]. split; [reflexivity|]. intros i H.
      rewrite at_nth by (unfold count; cbn [aq_data]; lia). cbn [aq_data]. apply N, H.
Qed.

(** Multiplication: with equal dimensions the second operand is brought to the
    first one's unit and the unit is squared; otherwise entries and units are
    multiplied. *)
Theorem C96_mul :
  forall env h q r n,
    ok h q -> ok h r -> match_lengths h n q r ->
    sized env (aq_unit q) -> sized env (aq_unit r) ->
    (forall d, dimension (aq_unit q) = Ok d -> dimension (aq_unit r) = Ok d -> floats h r ->
      exists h' s, a_mul q (AQty r) h = (h', Ok s) /\ count h' s = n /\
        aq_unit s = u_pow (aq_unit q) 2 /\
        forall i, i < n ->
          (at_ h' s i * (si_size (aq_unit q) * si_size (aq_unit q)) == si_at h q i * si_at h r i)%Q) /\
    (forall d d', dimension (aq_unit q) = Ok d -> dimension (aq_unit r) = Ok d' -> d <> d' ->
      exists h' s, a_mul q (AQty r) h = (h', Ok s) /\ count h' s = n /\
        aq_unit s = u_mul (aq_unit q) (aq_unit r) /\
        forall i, i < n -> (at_ h' s i == at_ h q i * at_ h r i)%Q).
Proof.
  intros env h q r n Lq Lr Ml Sq Sr. split.
  - intros d Dq Dr F.
    destruct (second_operand env h q r d n Lq Lr F Ml Sq Sr Dq Dr) as (h1 & y & E & X & Ly & Lq1 & Eq & Ft & N).
    cbn [a_mul]. unfold mbind at 1 2, lift. rewrite Dq, Dr, String.eqb_refl.
    unfold mbind at 1. rewrite E.
    destruct (arith_spec Z.mul Qmult (aq_data q) y n h1 inject_mul Lq1 Ly Ft) as (h2 & z & A & X2 & Lz & Cz & Nz).
    unfold mbind. rewrite A. cbn [ret].
    exists h2, (mkAQ z (u_pow (aq_unit q) 2)). split; [reflexivity|]. split; [exact Cz|].
    split; [reflexivity|]. intros i H. rewrite at_nth by (unfold count; cbn [aq_data]; lia). cbn [aq_data].
    rewrite Nz, Eq by auto. rewrite <- N. unfold si_at, at_. ring.
  - intros d d' Dq Dr Nd. cbn [a_mul]. unfold mbind at 1 2, lift. rewrite Dq, Dr.
    apply String.eqb_neq in Nd. rewrite Nd.
    destruct (arith_spec Z.mul Qmult (aq_data q) (aq_data r) n h inject_mul Lq Lr Ml) as (h2 & z & A & X2 & Lz & Cz & Nz).
    unfold mbind. rewrite A. cbn [ret].
    exists h2, (mkAQ z (u_mul (aq_unit q) (aq_unit r))). split; [reflexivity|]. split; [exact Cz|].
    split; [reflexivity|]. intros i H. rewrite at_nth by (unfold count; cbn [aq_data]; lia). cbn [aq_data].
    apply Nz, H.
Qed.

(** Division, where no entry of the divisor is zero. *)
Lemma adiv_spec x y n h :
  live h x -> live h y -> fits n (entries h x) (entries h y) ->
  (forall i, i < n -> ~ (stretch (entries h y) i == 0)%Q) ->
  exists h' z, adiv x y h = (h', Ok z) /\ extends h h' /\ live h' z /\
    length (entries h' z) = n /\
    forall i, i < n -> (nth i (entries h' z) 0 == stretch (entries h x) i / stretch (entries h y) i)%Q.
Proof.
  intros Lx Ly F Nz.
  destruct (broadcast_ok Qdiv _ _ n 0%Q F) as (l & E & Ln & N).
  assert (forall h', h' = h ++ [mkArray F64 l] ->
          extends h h' /\ live h' (Ref (length h)) /\ entries h' (Ref (length h)) = l) as K.
  { intros h' ->. split; [apply ext_app|]. cbn. rewrite app_length, nth_new. cbn. split; auto; lia. }
  destruct x as [a|a|a], y as [b|b|b]; cbn [adiv].
  3, 6, 7, 8, 9: rewrite E; cbn [mbind alloc ret]; do 2 eexists; split; [reflexivity|];
            destruct (K _ eq_refl) as (K1 & K2 & K3); rewrite K3;
            split; [exact K1|]; split; [exact K2|]; split; [exact Ln|];
            intros i H; rewrite N by auto; apply Qeq_refl.
  all: assert (n = 1) as Hn by (unfold fits in F; cbn in F; lia); specialize (Nz 0 ltac:(lia)); clear Hn; cbn [entries hd stretch] in *; unfold mbind, lift, py_div;
    rewrite (Qeqb_nz _ Nz); do 2 eexists; split; [reflexivity|]; split; [apply ext_refl|]; split; [exact I|];
    assert (n = 1) as -> by (unfold fits in F; cbn in F; lia); cbn; split; auto;
    intros i H; replace i with 0 by lia; cbn; reflexivity.
Qed.

Theorem C96_div :
  forall env h q r n,
    ok h q -> ok h r -> match_lengths h n q r ->
    sized env (aq_unit q) -> sized env (aq_unit r) ->
    (forall i, i < n -> ~ (at_ h r i == 0)%Q) ->
    (forall d, dimension (aq_unit q) = Ok d -> dimension (aq_unit r) = Ok d -> floats h r ->
      exists h' s, a_div q (AQty r) h = (h', Ok s) /\ count h' s = n /\
        aq_unit s = u_div (aq_unit q) (aq_unit q) /\
        forall i, i < n -> (at_ h' s i == si_at h q i / si_at h r i)%Q) /\
    (forall d d', dimension (aq_unit q) = Ok d -> dimension (aq_unit r) = Ok d' -> d <> d' ->
      exists h' s, a_div q (AQty r) h = (h', Ok s) /\ count h' s = n /\
        aq_unit s = u_div (aq_unit q) (aq_unit r) /\
        forall i, i < n -> (at_ h' s i == at_ h q i / at_ h r i)%Q).
Proof.
  intros env h q r n Lq Lr Ml Sq Sr Nz.
  pose proof (si_size_pos env _ Sq) as Pq. pose proof (si_size_pos env _ Sr) as Pr.
  assert (~ si_size (aq_unit q) == 0)%Q as Zq by (intros C; rewrite C in Pq; now apply Qlt_irrefl in Pq).
  assert (~ si_size (aq_unit r) == 0)%Q as Zr by (intros C; rewrite C in Pr; now apply Qlt_irrefl in Pr).
  split.
  - intros d Dq Dr F.
    destruct (second_operand env h q r d n Lq Lr F Ml Sq Sr Dq Dr) as (h1 & y & E & X & Ly & Lq1 & Eq & Ft & N).
    cbn [a_div]. unfold mbind at 1 2, lift. rewrite Dq, Dr, String.eqb_refl.
    unfold mbind at 1. rewrite E.
    assert (forall i, i < n -> ~ (stretch (entries h1 y) i == 0)%Q) as Ny.
    { intros i Hi C. specialize (N i). rewrite C in N. unfold si_at in N.
      apply (Nz i Hi). apply (Qmult_inj_r _ _ (si_size (aq_unit r)) Zr). rewrite <- N. ring. }
    destruct (adiv_spec (aq_data q) y n h1 Lq1 Ly Ft Ny) as (h2 & z & A & X2 & Lz & Cz & Nq).
    unfold mbind. rewrite A. cbn [ret].
    exists h2, (mkAQ z (u_div (aq_unit q) (aq_unit q))). split; [reflexivity|]. split; [exact Cz|].
    split; [reflexivity|]. intros i H. rewrite at_nth by (unfold count; cbn [aq_data]; lia). cbn [aq_data].
    rewrite Nq, Eq by auto. rewrite <- N. unfold si_at, at_. field. split; [exact Zq|]. apply Ny, H.
  - intros d d' Dq Dr Nd. cbn [a_div]. unfold mbind at 1 2, lift. rewrite Dq, Dr.
    apply String.eqb_neq in Nd. rewrite Nd.
    destruct (adiv_spec (aq_data q) (aq_data r) n h Lq Lr Ml Nz) as (h2 & z & A & X2 & Lz & Cz & Nq).
    unfold mbind. rewrite A. cbn [ret].
    exists h2, (mkAQ z (u_div (aq_unit q) (aq_unit r))). split; [reflexivity|]. split; [exact Cz|].
    split; [reflexivity|]. intros i H. rewrite at_nth by (unfold count; cbn [aq_data]; lia). cbn [aq_data].
    apply Nq, H.
Qed.

(** Lengths that do not fit are reported, not truncated. *)
Theorem C96_lengths_rejected :
  forall env h q r d,
    ok h q -> ok h r -> floats h r ->
    sized env (aq_unit q) -> sized env (aq_unit r) ->
    dimension (aq_unit q) = Ok d -> dimension (aq_unit r) = Ok d ->
    count h q <> count h r -> count h q <> 1 -> count h r <> 1 ->
    snd (a_add q (AQty r) h) = Raise ValueError /\
    snd (a_mul q (AQty r) h) = Raise ValueError /\
    snd (a_div q (AQty r) h) = Raise ValueError /\
    snd (a_eq q (AQty r) h) = Raise ValueError /\
    snd (a_lt q (AQty r) h) = Raise ValueError /\
    snd (a_gt q (AQty r) h) = Raise ValueError.
Proof.
  intros env h q r d Lq Lr F Sq Sr Dq Dr N1 N2 N3.
  destruct (to_array env h r (aq_unit q) d Lr F Sr Sq Dr Dq (fun i => i))
    as (h' & r' & k & E & X & L' & C & _).
  assert (a_to r (aq_unit q) h = (h', Ok (aq_data r'))) as T by (unfold a_to, mbind; now rewrite E).
  assert (length (entries h' (aq_data q)) <> length (entries h' (aq_data r'))) as B1
    by (rewrite (entries_ext h h'), C by auto; exact N1).
  assert (length (entries h' (aq_data q)) <> 1) as B2 by (rewrite (entries_ext h h') by auto; exact N2).
  assert (length (entries h' (aq_data r')) <> 1) as B3 by (rewrite C; exact N3).
  assert (exists a, aq_data q = Ref a) as [a Da].
  { unfold count in N2. destruct (aq_data q); eauto; cbn in N2; lia. }
  unfold a_eq, a_lt, a_gt. cbn [a_add a_mul a_div a_cmp]. unfold mbind, lift.
  rewrite Dq, Dr, String.eqb_refl. cbn [negb]. rewrite T, Da in *.
  unfold arith, adiv, acompare. rewrite !broadcast_bad by auto. now destruct (aq_data r').
Qed.

(** Different dimensions are reported for every data, of any type and length. *)
Theorem C96_dimensions_rejected :
  forall h q r dq dr,
    dimension (aq_unit q) = Ok dq -> dimension (aq_unit r) = Ok dr -> dq <> dr ->
    (forall cp, a_convert cp q (aq_unit r) h = (h, Raise ValueError)) /\
    a_to q (aq_unit r) h = (h, Raise ValueError) /\
    a_add q (AQty r) h = (h, Raise ArithmeticError) /\
    (ok h r -> snd (a_sub q (AQty r) h) = Raise ArithmeticError) /\
    a_eq q (AQty r) h = (h, Raise ArithmeticError) /\
    a_ne q (AQty r) h = (h, Raise ArithmeticError) /\
    a_lt q (AQty r) h = (h, Raise ArithmeticError) /\
    a_le q (AQty r) h = (h, Raise ArithmeticError) /\
    a_gt q (AQty r) h = (h, Raise ArithmeticError) /\
    a_ge q (AQty r) h = (h, Raise ArithmeticError).
Proof.
  intros h q r dq dr Dq Dr N. apply String.eqb_neq in N.
  assert (forall h r, dimension (aq_unit r) = Ok dr -> a_add q (AQty r) h = (h, Raise ArithmeticError)) as A.
  { intros g s D. cbn [a_add]. unfold mbind, lift. rewrite Dq, D, N. reflexivity. }
  assert (forall cp, a_convert cp q (aq_unit r) h = (h, Raise ValueError)) as V.
  { intros cp. unfold a_convert, mbind, lift. rewrite Dq, Dr, N. reflexivity. }
  assert (forall f, a_cmp f q (AQty r) h = (h, Raise ArithmeticError)) as C.
  { intros f. cbn [a_cmp]. unfold mbind, lift. rewrite Dq, Dr, N. reflexivity. }
  unfold a_ne, a_le, a_ge, a_eq, a_lt, a_gt, a_to, mbind. rewrite !C, V, (A h r Dr).
  repeat split; auto.
  intros L. destruct (neg_spec h r L) as (h' & s & E & _ & _ & _ & U & _).
  unfold a_sub. cbn [a_oneg]. unfold mbind. rewrite E. cbn [ret]. rewrite A; auto. now rewrite U.
Qed.

Example C96_case :
  let r := a_add ex_m (AQty ex_km) ex_heap in
  exists s, snd r = Ok s /\ Forall2 Qeq (entries (fst r) (aq_data s)) [10001; 20002; 30003]%Q.
Proof. cbv. eexists. split; [reflexivity|]. repeat constructor. Qed.
