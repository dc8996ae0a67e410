(** Counting loops and bit vectors on [N]: tools shared by all models. *)
From Coq Require Import List ZArith NArith Lia Bool.
Import ListNotations.
Local Open Scope N_scope.

(** for (i = lo; i < lo + n; i++) a = body(i, a);  *)
Fixpoint for_up {A} (n : nat) (i : N) (body : N -> A -> A) (a : A) : A :=
  match n with
  | O => a
  | S k => for_up k (i + 1) body (body i a)
  end.

Lemma for_up_inv {A} (P : N -> A -> Prop) body : forall n i a,
  P i a ->
  (forall j x, i <= j < i + N.of_nat n -> P j x -> P (j + 1) (body j x)) ->
  P (i + N.of_nat n) (for_up n i body a).
Proof.
  induction n as [|n IH]; intros i a H0 Hs.
  - simpl. replace (i + 0) with i by lia. exact H0.
  - cbn [for_up]. replace (i + N.of_nat (S n)) with ((i + 1) + N.of_nat n) by lia.
    apply IH.
    + apply Hs; [lia|exact H0].
    + intros j x Hj. apply Hs. lia.
Qed.

Lemma for_up_snoc {A} (body : N -> A -> A) : forall n i a,
  for_up (S n) i body a = body (i + N.of_nat n) (for_up n i body a).
Proof.
  induction n as [|n IH]; intros i a.
  - simpl. f_equal. lia.
  - change (for_up (S (S n)) i body a) with (for_up (S n) (i + 1) body (body i a)).
    rewrite IH. cbn [for_up]. f_equal. lia.
Qed.

(** Wrap-around to [w] bits. *)
Definition wrap (w x : N) : N := x mod 2 ^ w.

Lemma wrap_lt w x : wrap w x < 2 ^ w.
Proof. unfold wrap. apply N.mod_lt. apply N.pow_nonzero. lia. Qed.
Lemma wrap_small w x : x < 2 ^ w -> wrap w x = x.
Proof. intros H. unfold wrap. apply N.mod_small. exact H. Qed.
Lemma wrap_testbit w x i : N.testbit (wrap w x) i = (i <? w) && N.testbit x i.
Proof.
  unfold wrap. destruct (N.ltb_spec i w) as [H|H].
  - rewrite N.mod_pow2_bits_low by exact H. reflexivity.
  - rewrite N.mod_pow2_bits_high by exact H. reflexivity.
Qed.

(** Bits of a number below [2^w]. *)
Lemma testbit_above w x i : x < 2 ^ w -> w <= i -> N.testbit x i = false.
Proof.
  intros Hx Hi. destruct (N.eq_dec x 0) as [->|Hz]; [apply N.bits_0|].
  apply N.bits_above_log2. apply N.lt_le_trans with w; [|exact Hi].
  apply N.log2_lt_pow2; lia.
Qed.
Lemma below_of_bits w x : (forall i, w <= i -> N.testbit x i = false) -> x < 2 ^ w.
Proof.
  intros H.
  assert (E : x = wrap w x).
  { apply N.bits_inj. intros i. rewrite wrap_testbit.
    destruct (N.ltb_spec i w); simpl; [reflexivity|]. apply H; lia. }
  rewrite E. apply wrap_lt.
Qed.
Lemma bits_ext_below w x y : x < 2 ^ w -> y < 2 ^ w ->
  (forall i, i < w -> N.testbit x i = N.testbit y i) -> x = y.
Proof.
  intros Hx Hy H. apply N.bits_inj. intros i.
  destruct (N.lt_ge_cases i w) as [Hi|Hi]; [apply H; exact Hi|].
  rewrite (testbit_above w x), (testbit_above w y) by assumption. reflexivity.
Qed.

Definition b2n (b : bool) : N := if b then 1 else 0.

Lemma testbit_1 j : N.testbit 1 j = (j =? 0).
Proof. destruct j as [|[p|p|]]; reflexivity. Qed.
Lemma testbit_b2n b j : N.testbit (b2n b) j = b && (j =? 0).
Proof. destruct b; simpl b2n; [apply testbit_1|apply N.bits_0]. Qed.

Lemma shiftr_land1 x i : N.land (N.shiftr x i) 1 = b2n (N.testbit x i).
Proof.
  apply N.bits_inj. intros j.
  rewrite N.land_spec, N.shiftr_spec, testbit_1, testbit_b2n by lia.
  destruct (N.eqb_spec j 0) as [->|Hj]; rewrite ?andb_false_r; auto.
Qed.

Lemma b2n_land a b : N.land (b2n a) (b2n b) = b2n (a && b).
Proof. destruct a, b; reflexivity. Qed.
Lemma b2n_lor a b : N.lor (b2n a) (b2n b) = b2n (a || b).
Proof. destruct a, b; reflexivity. Qed.

Lemma shiftl_b2n_testbit b i j : N.testbit (N.shiftl (b2n b) i) j = b && (j =? i).
Proof.
  destruct b; simpl b2n.
  - rewrite N.shiftl_1_l. rewrite N.pow2_bits_eqb. rewrite N.eqb_sym. reflexivity.
  - rewrite N.shiftl_0_l, N.bits_0. reflexivity.
Qed.

Lemma pow2_bits i j : N.testbit (2 ^ i) j = (j =? i).
Proof. rewrite N.pow2_bits_eqb. apply N.eqb_sym. Qed.

(** Building a word bit by bit: result |= bit(i) << i. *)
Lemma bit_loop_testbit (w : N) (n : nat) (f : N -> bool) j :
  N.of_nat n <= w ->
  N.testbit (for_up n 0 (fun i r => N.lor r (wrap w (N.shiftl (b2n (f i)) i))) 0) j
  = (j <? N.of_nat n) && f j.
Proof.
  intros Hn. revert j.
  apply (for_up_inv (fun k r => forall j, N.testbit r j = (j <? k) && f j)
    (fun i r => N.lor r (wrap w (N.shiftl (b2n (f i)) i))) n 0 0).
  - intros j. rewrite N.bits_0. destruct (N.ltb_spec j 0); [lia|reflexivity].
  - intros k x Hk IH j. rewrite N.lor_spec, IH, wrap_testbit, shiftl_b2n_testbit.
    destruct (N.eqb_spec j k) as [->|Hjk].
    + destruct (N.ltb_spec k k), (N.ltb_spec k (k + 1)), (N.ltb_spec k w); try lia.
      simpl. rewrite andb_true_r. reflexivity.
    + rewrite !andb_false_r, orb_false_r.
      destruct (N.ltb_spec j k), (N.ltb_spec j (k + 1)); try lia; reflexivity.
Qed.

(** Number of set bits, least significant first (the loop
    [while (v) { count += v & 1; v >>= 1; }]). *)
Fixpoint pos_count (p : positive) : N :=
  match p with
  | xH => 1
  | xO q => pos_count q
  | xI q => 1 + pos_count q
  end.
Definition popcount (x : N) : N := match x with 0 => 0 | Npos p => pos_count p end.

Lemma popcount_0_iff x : popcount x = 0 <-> x = 0.
Proof.
  destruct x as [|p]; simpl; [tauto|]. split; [|discriminate].
  induction p as [q IH|q IH|]; cbn [pos_count]; intros H; [lia| |discriminate].
  apply IH in H; discriminate.
Qed.
Lemma popcount_double x : popcount (2 * x) = popcount x.
Proof. destruct x; reflexivity. Qed.
Lemma popcount_succ_double x : popcount (2 * x + 1) = 1 + popcount x.
Proof. destruct x; reflexivity. Qed.
Lemma popcount_pow2 i : popcount (2 ^ i) = 1.
Proof.
  induction i using N.peano_ind; [reflexivity|].
  rewrite N.pow_succ_r'. rewrite popcount_double. exact IHi.
Qed.
(** exactly one set bit *)
Lemma popcount_1_iff x : popcount x = 1 <-> exists i, x = 2 ^ i.
Proof.
  split; [|intros [i ->]; apply popcount_pow2].
  destruct x as [|p]; cbn [popcount]; [intros H; discriminate H|].
  induction p as [q IH|q IH|]; cbn [pos_count]; intros H.
  - assert (Hq : popcount (Npos q) = 0) by (simpl; lia).
    apply (proj1 (popcount_0_iff _)) in Hq. discriminate Hq.
  - destruct (IH H) as [i Hi]. exists (i + 1).
    rewrite N.add_1_r, N.pow_succ_r', <- Hi. reflexivity.
  - exists 0. reflexivity.
Qed.

Lemma lxor_below w a b : a < 2 ^ w -> b < 2 ^ w -> N.lxor a b < 2 ^ w.
Proof.
  intros Ha Hb. apply below_of_bits. intros i Hi.
  rewrite N.lxor_spec, (testbit_above w a), (testbit_above w b); auto.
Qed.
Lemma land_below w a b : a < 2 ^ w -> N.land a b < 2 ^ w.
Proof.
  intros Ha. apply below_of_bits. intros i Hi.
  rewrite N.land_spec, (testbit_above w a); auto.
Qed.
Lemma lor_below w a b : a < 2 ^ w -> b < 2 ^ w -> N.lor a b < 2 ^ w.
Proof.
  intros Ha Hb. apply below_of_bits. intros i Hi.
  rewrite N.lor_spec, (testbit_above w a), (testbit_above w b); auto.
Qed.
Lemma shiftr_below w a k : a < 2 ^ w -> N.shiftr a k < 2 ^ w.
Proof.
  intros Ha. apply below_of_bits. intros i Hi.
  rewrite N.shiftr_spec by lia. apply (testbit_above w a); [exact Ha|lia].
Qed.
Lemma pow2_below w i : i < w -> 2 ^ i < 2 ^ w.
Proof. intros. apply N.pow_lt_mono_r; lia. Qed.
