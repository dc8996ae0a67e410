(** Interleaving, injected upsets, the checksum and the triple variants. *)
From Coq Require Import List NArith ZArith Bool Lia Reals Lra SpecFloat.
From Flocq Require Import Core.
From Flocq.IEEE754 Require Import BinarySingleNaN.
Import ListNotations.
From Verif Require Import Outcome Words Arith Floats FloatsR HealthFloat FloatsS Health_Proofs SimpleTMR_Model SimpleTMR_Proofs CrcOrder_Proofs Bits_Model BitsFloat_Proofs MBP_Model MBP_Spec MBP_Proofs MBP2_Proofs MBP3_Proofs MBP4_Proofs.
Local Open Scope N_scope.
Local Arguments N.add : simpl never.
Local Arguments N.mul : simpl never.
Local Arguments N.pow : simpl never.
Local Arguments N.lxor : simpl never.
Local Arguments N.shiftl : simpl never.
Local Arguments N.shiftr : simpl never.
Local Arguments N.testbit : simpl never.
Local Arguments wrap : simpl never.

(** *** interleaving *)
Definition spread (p : N -> N) (n : nat) (f : N -> bool) (a : N) : N := for_up n 0 (fun i r => N.lor r (wrap 32 (N.shiftl (b2n (f i)) (p i)))) a.
Lemma spread_bit p q f n j : (forall i, (i < N.of_nat n) -> p i < 32 /\ q (p i) = i) ->
  N.testbit (spread p n f 0) j = (j <? 32) && (q j <? N.of_nat n) && (p (q j) =? j) && f (q j).
Proof.
  intros H. unfold spread. induction n as [|n IH].
  - cbn [for_up]. rewrite N.bits_0. replace (q j <? N.of_nat 0) with false by (symmetry; apply N.ltb_ge; lia). rewrite andb_false_r. reflexivity.
  - rewrite for_up_snoc. replace (0 + N.of_nat n) with (N.of_nat n) by lia. rewrite N.lor_spec, wrap_testbit, shiftl_b2n_testbit. rewrite IH by (intros i Hi; apply H; lia). clear IH.
    destruct (H (N.of_nat n) ltac:(lia)) as [P Q]. destruct (N.eqb_spec j (p (N.of_nat n))) as [->|E].
    + rewrite Q, N.eqb_refl. replace (p (N.of_nat n) <? 32) with true by (symmetry; apply N.ltb_lt, P). replace (N.of_nat n <? N.of_nat n) with false by (symmetry; apply N.ltb_irrefl).
      replace (N.of_nat n <? N.of_nat (S n)) with true by (symmetry; apply N.ltb_lt; lia). cbn [andb orb]. apply andb_true_r.
    + rewrite !andb_false_r, orb_false_r. destruct (N.eqb_spec (p (q j)) j) as [E2|E2]; [|rewrite !andb_false_r; reflexivity].
      rewrite !andb_true_r. do 2 f_equal. destruct (N.ltb_spec (q j) (N.of_nat n)), (N.ltb_spec (q j) (N.of_nat (S n))); try reflexivity; try lia.
      exfalso. apply E. replace (N.of_nat n) with (q j) by lia. congruence.
Qed.
(** where bit i of the value sits in the interleaved word, and back *)
Definition pos (i : N) : N := if i mod 2 =? 0 then i / 2 else 16 + i / 2.
Definition src (j : N) : N := if j <? 16 then 2 * j else 2 * (j - 16) + 1.
Lemma pos_src j : j < 32 -> src j < 32 /\ pos (src j) = j.
Proof.
  intros Hj. unfold src, pos. destruct (N.ltb_spec j 16) as [L|L].
  - split; [lia|]. rewrite N.mul_comm, N.mod_mul, N.div_mul by lia. reflexivity.
  - split; [lia|]. rewrite (N.mul_comm 2 (j - 16)), N.add_comm, N.mod_add, N.div_add by lia. change (1 mod 2 =? 0) with false. change (1 / 2) with 0. cbv iota. lia.
Qed.
Lemma src_pos i : i < 32 -> pos i < 32 /\ src (pos i) = i.
Proof.
  intros Hi. unfold pos, src. pose proof (N.div_mod i 2 ltac:(lia)) as D. pose proof (N.mod_lt i 2 ltac:(lia)) as M. set (q := i / 2) in *. set (r := i mod 2) in *. clearbody q r.
  destruct (N.eqb_spec r 0) as [E|E].
  - replace (q <? 16) with true by (symmetry; apply N.ltb_lt; lia). lia.
  - replace (16 + q <? 16) with false by (symmetry; apply N.ltb_ge; lia). lia.
Qed.
Lemma apply_spread v : applyBitInterleaving v = spread pos 32 (N.testbit v) 0.
Proof.
  assert (X : forall (f g : N -> N -> N), (forall i a, f i a = g i a) -> forall n i a, for_up n i f a = for_up n i g a).
  { intros f g H. induction n as [|n IH]; intros i a; cbn [for_up]; [reflexivity|]. rewrite H. apply IH. }
  unfold applyBitInterleaving, spread. apply X. intros i a. cbv zeta. rewrite shiftr_land1. unfold pos. destruct (i mod 2 =? 0); reflexivity.
Qed.
Lemma apply_bit v j : N.testbit (applyBitInterleaving v) j = (j <? 32) && N.testbit v (src j).
Proof.
  rewrite apply_spread. rewrite (spread_bit pos src) by (intros i Hi; apply src_pos; lia). destruct (N.ltb_spec j 32) as [Hj|Hj]; [|reflexivity].
  destruct (pos_src j Hj) as [A B]. rewrite B, N.eqb_refl. replace (src j <? N.of_nat 32) with true by (symmetry; apply N.ltb_lt; lia). reflexivity.
Qed.
Lemma undo_bit v i : word v -> N.testbit (undoBitInterleaving v) i = (i <? 32) && N.testbit v (pos i).
Proof.
  intros Hv. unfold undoBitInterleaving.
  assert (G : forall n, (n <= 16)%nat -> N.testbit (for_up n 0 (fun i r => N.lor (N.lor r (wrap 32 (N.shiftl (N.land (N.shiftr v i) 1) (i * 2)))) (wrap 32 (N.shiftl (N.land (N.shiftr v (i + 16)) 1) (i * 2 + 1)))) 0) i =
    (i <? 2 * N.of_nat n) && N.testbit v (pos i)).
  { induction n as [|n IH]; intros Hn.
    - cbn [for_up]. rewrite N.bits_0. replace (i <? 2 * N.of_nat 0) with false by (symmetry; apply N.ltb_ge; lia). reflexivity.
    - rewrite for_up_snoc. replace (0 + N.of_nat n) with (N.of_nat n) by lia. rewrite !N.lor_spec, IH by lia. clear IH. rewrite !shiftr_land1, !wrap_testbit, !shiftl_b2n_testbit. set (m := N.of_nat n) in *.
      assert (Hm : m < 16) by lia. replace (N.of_nat (S n)) with (m + 1) by lia. clearbody m. unfold pos.
      pose proof (N.div_mod i 2 ltac:(lia)) as D. pose proof (N.mod_lt i 2 ltac:(lia)) as M. set (q := i / 2) in *. set (r := i mod 2) in *. clearbody q r.
      destruct (N.eqb_spec i (m * 2)) as [E1|E1]; destruct (N.eqb_spec i (m * 2 + 1)) as [E2|E2]; try lia.
      + replace q with m by lia. replace (r =? 0) with true by (symmetry; apply N.eqb_eq; lia). replace (i <? 32) with true by (symmetry; apply N.ltb_lt; lia).
        replace (i <? 2 * m) with false by (symmetry; apply N.ltb_ge; lia). replace (i <? 2 * (m + 1)) with true by (symmetry; apply N.ltb_lt; lia).
        rewrite !andb_false_r, orb_false_r, andb_true_r. reflexivity.
      + replace q with m by lia. replace (r =? 0) with false by (symmetry; apply N.eqb_neq; lia). replace (i <? 32) with true by (symmetry; apply N.ltb_lt; lia).
        replace (i <? 2 * m) with false by (symmetry; apply N.ltb_ge; lia). replace (i <? 2 * (m + 1)) with true by (symmetry; apply N.ltb_lt; lia).
        rewrite !andb_false_r, andb_true_r. cbn [andb orb]. f_equal. lia.
      + rewrite !andb_false_r, !orb_false_r. f_equal. destruct (N.ltb_spec i (2 * m)), (N.ltb_spec i (2 * (m + 1))); try reflexivity; lia. }
  etransitivity; [exact (G 16%nat (le_n _))|]. reflexivity.
Qed.
Local Opaque applyBitInterleaving undoBitInterleaving.
Lemma apply_word v : word (applyBitInterleaving v).
Proof. apply (below_of_bits 32). intros i Hi. rewrite apply_bit. replace (i <? 32) with false by (symmetry; apply N.ltb_ge, Hi). reflexivity. Qed.
Lemma undo_word v : word v -> word (undoBitInterleaving v).
Proof. intros Hv. apply (below_of_bits 32). intros i Hi. rewrite undo_bit by exact Hv. replace (i <? 32) with false by (symmetry; apply N.ltb_ge, Hi). reflexivity. Qed.
Lemma undo_xor u e : word u -> word e -> undoBitInterleaving (N.lxor u e) = N.lxor (undoBitInterleaving u) (undoBitInterleaving e).
Proof.
  intros Hu He. apply N.bits_inj. intros i. rewrite N.lxor_spec, !undo_bit by (try assumption; apply (lxor_below 32); assumption). rewrite N.lxor_spec.
  destruct (i <? 32); [reflexivity|]. reflexivity.
Qed.
Lemma undo_apply v : word v -> undoBitInterleaving (applyBitInterleaving v) = v.
Proof.
  intros Hv. apply (bits_ext_below 32); [apply undo_word, apply_word|exact Hv|]. intros i Hi. rewrite undo_bit by apply apply_word. rewrite apply_bit.
  destruct (src_pos i Hi) as [A B]. rewrite B. replace (i <? 32) with true by (symmetry; apply N.ltb_lt, Hi). replace (pos i <? 32) with true by (symmetry; apply N.ltb_lt, A). reflexivity.
Qed.
Lemma apply_undo v : word v -> applyBitInterleaving (undoBitInterleaving v) = v.
Proof.
  intros Hv. apply (bits_ext_below 32); [apply apply_word|exact Hv|]. intros i Hi. rewrite apply_bit, undo_bit by exact Hv.
  destruct (pos_src i Hi) as [A B]. rewrite B. replace (i <? 32) with true by (symmetry; apply N.ltb_lt, Hi). replace (src i <? 32) with true by (symmetry; apply N.ltb_lt, A). reflexivity.
Qed.
Lemma undo_pow j : j < 32 -> undoBitInterleaving (2 ^ j) = 2 ^ src j.
Proof.
  intros Hj. destruct (pos_src j Hj) as [A B]. apply (bits_ext_below 32); [apply undo_word, (pow2_below 32), Hj|apply pow2_below, A|]. intros i Hi. rewrite undo_bit by (apply (pow2_below 32), Hj).
  rewrite !pow2_bits. replace (i <? 32) with true by (symmetry; apply N.ltb_lt, Hi). cbn [andb]. apply eq_true_iff_eq. rewrite !N.eqb_eq. split.
  - intros <-. symmetry. apply (src_pos i Hi).
  - intros ->. exact B.
Qed.
Lemma burst v j : word v -> j + 1 < 32 -> exists a b, a < 32 /\ b < 32 /\ (a + 2 <= b \/ b + 2 <= a) /\
  undoBitInterleaving (flipped (flipped (applyBitInterleaving v) j) (j + 1)) = flipped (flipped v a) b.
Proof.
  intros Hv Hj. exists (src j), (src (j + 1)). destruct (pos_src j ltac:(lia)) as [A _]. destruct (pos_src (j + 1) Hj) as [B _]. split; [exact A|]. split; [exact B|]. split.
  - unfold src. destruct (N.ltb_spec j 16), (N.ltb_spec (j + 1) 16); lia.
  - unfold flipped. assert (P1 : word (2 ^ j)) by (apply (pow2_below 32); lia). assert (P2 : word (2 ^ (j + 1))) by (apply (pow2_below 32); lia).
    rewrite (undo_xor _ _ (lxor_below 32 _ _ (apply_word v) P1) P2), (undo_xor _ _ (apply_word v) P1), (undo_apply v Hv), (undo_pow j ltac:(lia)), (undo_pow (j + 1) Hj). reflexivity.
Qed.

(** *** the checksum *)
Lemma cks_spec s : calculateChecksum s = (let v := fst (getValue s) in N.lxor (N.lxor (N.lxor (N.shiftl (byte v 0) 3) (N.shiftl (byte v 1) 2)) (N.shiftl (byte v 2) 1)) (byte v 3)).
Proof.
  unfold calculateChecksum. cbv zeta. set (v := fst (getValue s)). clearbody v. cbn [for_up]. change (0 + 1) with 1. change (1 + 1) with 2. change (2 + 1) with 3.
  pose proof (byte_lt v 0) as B0. pose proof (byte_lt v 1) as B1. pose proof (byte_lt v 2) as B2. pose proof (byte_lt v 3) as B3.
  set (a := byte v 0) in *. set (b := byte v 1) in *. set (c := byte v 2) in *. set (d := byte v 3) in *. clearbody a b c d.
  rewrite N.shiftl_0_l. change (wrap 32 0) with 0. rewrite N.lxor_0_l.
  assert (W : forall x k w, x < 2 ^ w -> w + k <= 32 -> N.shiftl x k < 2 ^ 32).
  { intros x k w Hx Hw. apply (below_of_bits 32). intros i Hi. rewrite N.shiftl_spec_high' by lia. apply (testbit_above w); [exact Hx|lia]. }
  assert (W' : forall x k w, x < 2 ^ w -> N.shiftl x k < 2 ^ (w + k)).
  { intros x k w Hx. apply below_of_bits. intros i Hi. rewrite N.shiftl_spec_high' by lia. apply (testbit_above w); [exact Hx|lia]. }
  assert (Up : forall x, x < 256 -> forall w, 8 <= w -> x < 2 ^ w) by (intros x Hx w Hw; apply N.lt_le_trans with (2 ^ 8); [exact Hx|apply N.pow_le_mono_r; lia]).
  rewrite (wrap_small 32 (N.shiftl a 1)) by (apply (W a 1 8); [exact B0|lia]).
  assert (X1 : N.lxor (N.shiftl a 1) b < 2 ^ 9) by (apply lxor_below; [apply (W' a 1 8), B0|apply Up; [exact B1|lia]]).
  rewrite (wrap_small 32 (N.shiftl (N.lxor (N.shiftl a 1) b) 1)) by (apply (W _ 1 9); [exact X1|lia]).
  assert (X2 : N.lxor (N.shiftl (N.lxor (N.shiftl a 1) b) 1) c < 2 ^ 10) by (apply lxor_below; [apply (W' _ 1 9), X1|apply Up; [exact B2|lia]]).
  rewrite (wrap_small 32) by (apply (W _ 1 10); [exact X2|lia]). rewrite !N.shiftl_lxor, !N.shiftl_shiftl. reflexivity.
Qed.
Definition ck_hit (s : ckp) (w : N) : ckp := mkck (hit_value (base s) w) (checksum_ s).
Lemma ck_fresh s v : s = ck_new v \/ (exists s0, coding_scheme_ (base s0) = NONE /\ s = ck_setValue s0 v) ->
  coding_scheme_ (base s) = NONE /\ valid_ (base s) = true /\ value_ (base s) = v /\ checksum_ s = calculateChecksum (base s).
Proof.
  intros [-> |(s0 & E & ->)]; [auto|]. unfold ck_setValue. cbn [base checksum_]. unfold setValue. rewrite E. auto.
Qed.
Lemma none_get v e b : getValue (mkmb v NONE e b) = (v, mkmb v NONE e b).
Proof. unfold getValue, hasError. cbn [valid_ coding_scheme_]. destruct b; cbn [negb value_]; [reflexivity|]. unfold correctErrors, hasError. cbn [valid_ negb coding_scheme_ snd]. reflexivity. Qed.
Lemma none_get' s : coding_scheme_ s = NONE -> fst (getValue s) = value_ s.
Proof. destruct s as [v c e b]. cbn [coding_scheme_]. intros ->. rewrite none_get. reflexivity. Qed.
Lemma shiftl_inj x y k : N.shiftl x k = N.shiftl y k -> x = y.
Proof. rewrite !N.shiftl_mul_pow2. intros H. apply N.mul_cancel_r in H; [exact H|apply N.pow_nonzero; lia]. Qed.
Lemma ck_detects s v w k : (s = ck_new v \/ (exists s0, coding_scheme_ (base s0) = NONE /\ s = ck_setValue s0 v)) -> differ_in_byte k v w -> ck_hasError (ck_hit s w) = true.
Proof.
  intros Hs D. destruct (ck_fresh s v Hs) as (Ec & _ & Ev & Ek). pose proof (differ_bytes k v w D) as Db. destruct D as (Hv & Hw & Hk & Nvw & _).
  unfold ck_hasError. cbn [ck_hit base checksum_]. rewrite Ek, !cks_spec. cbv zeta. rewrite (none_get' (base s) Ec), (none_get' (hit_value (base s) w)) by exact Ec. cbn [hit_value value_]. rewrite Ev.
  apply eq_true_not_negb. intros E. apply N.eqb_eq in E. apply Nvw. apply word_bytes; [exact Hv|exact Hw|]. intros i Hi. destruct (N.eq_dec i k) as [->|N]; [|symmetry; apply Db, N].
  assert (C : k = 0 \/ k = 1 \/ k = 2 \/ k = 3) by lia.
  assert (K : forall x y a b, N.lxor (N.lxor x a) b = N.lxor (N.lxor y a) b -> x = y).
  { intros x y a b H. apply N.lxor_eq. replace (N.lxor x y) with (N.lxor (N.lxor (N.lxor x a) b) (N.lxor (N.lxor y a) b)); [rewrite H; apply N.lxor_nilpotent|].
    apply N.bits_inj. intros n. rewrite !N.lxor_spec. destruct (N.testbit x n), (N.testbit y n), (N.testbit a n), (N.testbit b n); reflexivity. }
  assert (L : forall x y a, N.lxor a x = N.lxor a y -> x = y).
  { intros x y a H. apply (K x y a 0). rewrite !N.lxor_0_r, !(N.lxor_comm _ a). exact H. }
  assert (L2 : forall x y b, N.lxor x b = N.lxor y b -> x = y) by (intros x y b H; apply (K x y b 0); rewrite !N.lxor_0_r; exact H).
  destruct C as [->|[->|[->| ->]]]; rewrite ?(Db 0), ?(Db 1), ?(Db 2), ?(Db 3) in E by lia.
  - apply (shiftl_inj _ _ 3). apply L2, L2, L2 in E. exact E.
  - apply (shiftl_inj _ _ 2). apply L2, L2, L in E. exact E.
  - apply (shiftl_inj _ _ 1). apply L2, L in E. exact E.
  - apply L in E. exact E.
Qed.
Lemma ck_ok s v : (s = ck_new v \/ (exists s0, coding_scheme_ (base s0) = NONE /\ s = ck_setValue s0 v)) -> ck_hasError s = false /\ fst (getValue (base s)) = v.
Proof.
  intros Hs. destruct (ck_fresh s v Hs) as (Ec & _ & Ev & Ek). split; [unfold ck_hasError; rewrite Ek, N.eqb_refl; reflexivity|]. rewrite none_get' by exact Ec. exact Ev.
Qed.

(** *** triples *)
Lemma core_masks_int ty v i w : is_int ty = true -> core_get (eqT ty) (write3 (core_new v) i w) = v.
Proof.
  intros H. unfold core_get, core_new. destruct i as [|[|[|i]]]; cbn [write3 c0 c1 c2]; rewrite !eqT_int by exact H; rewrite ?N.eqb_refl; try reflexivity.
  - destruct (N.eqb_spec w v); [congruence|reflexivity].
  - destruct (N.eqb_spec v w); reflexivity.
Qed.
Lemma byte_xor v e i : byte (N.lxor v e) i = N.lxor (byte v i) (byte e i).
Proof. apply N.bits_inj. intros k. rewrite N.lxor_spec, !byte_bit, N.lxor_spec. destruct (k <? 8); reflexivity. Qed.
Lemma blind v : ck_hasError (mkck (hit_value (base (ck_new v)) (flipped (flipped v 16) 25)) (checksum_ (ck_new v))) = false /\ flipped (flipped v 16) 25 <> v.
Proof.
  split.
  - destruct (ck_fresh (ck_new v) v (or_introl eq_refl)) as (Ec & _ & Ev & Ek). unfold ck_hasError. cbn [base checksum_]. rewrite Ek, !cks_spec. cbv zeta.
    rewrite (none_get' (base (ck_new v)) Ec), (none_get' (hit_value (base (ck_new v)) _)) by exact Ec. cbn [hit_value value_]. rewrite Ev.
    unfold flipped. rewrite (N.lxor_assoc v). set (e := N.lxor (2 ^ 16) (2 ^ 25)).
    assert (E0 : byte e 0 = 0) by reflexivity. assert (E1 : byte e 1 = 0) by reflexivity. assert (E2 : byte e 2 = 1) by reflexivity. assert (E3 : byte e 3 = 2) by reflexivity. clearbody e.
    rewrite !byte_xor, E0, E1, E2, E3, !N.lxor_0_r, N.shiftl_lxor. change (N.shiftl 1 1) with 2.
    set (a := N.shiftl (byte v 0) 3). set (b := N.shiftl (byte v 1) 2). set (c := N.shiftl (byte v 2) 1). set (d := byte v 3). clearbody a b c d.
    apply negb_false_iff, N.eqb_eq. apply N.bits_inj. intros k. rewrite !N.lxor_spec. destruct (N.testbit a k), (N.testbit b k), (N.testbit c k), (N.testbit d k), (N.testbit 2 k); reflexivity.
  - unfold flipped. intros E. pose proof (f_equal (fun x => N.testbit x 16) E) as Q. cbv beta in Q. rewrite !N.lxor_spec, !pow2_bits in Q. change (16 =? 16) with true in Q. change (16 =? 25) with false in Q.
    destruct (N.testbit v 16); discriminate.
Qed.
Lemma fresh_ham s c v : holding s c v -> ham c -> syndrome s = 0 /\ negb (lget (parities (value_ s)) 6 =? lget (ecc_data_ s) 6) = false.
Proof.
  intros H Hc. pose proof (data_syndrome s c v 0 H Hc) as Y. pose proof (data_overall s c v 0 H Hc) as O. rewrite N.lxor_0_r, (hit_self s c v H) in Y, O. rewrite Y, O. split; reflexivity.
Qed.
Lemma syndrome_ext s s' : value_ s = value_ s' -> ecc_data_ s = ecc_data_ s' -> syndrome s = syndrome s'.
Proof. intros A B. unfold syndrome. rewrite A, B. reflexivity. Qed.
Lemma secded_ext s s' : syndrome s' = 0 -> negb (lget (parities (value_ s')) 6 =? lget (ecc_data_ s') 6) = false -> value_ s = value_ s' -> ecc_data_ s = ecc_data_ s' -> correctSECDED s = (true, s).
Proof. intros Y O A B. unfold correctSECDED. rewrite (syndrome_ext s s' A B), Y, A, B, O. reflexivity. Qed.
Lemma secded_invalid s v : holding s SECDED v -> let r := correctErrors (markInvalid s) in fst r = true /\ hasError (snd r) = true.
Proof.
  intros H. cbv zeta. destruct (fresh_ham s SECDED v H (or_intror eq_refl)) as (Y & O). destruct (holding_fields s _ _ H) as (_ & Ec & _).
  assert (E : correctErrors (markInvalid s) = (true, markInvalid s)).
  { unfold correctErrors. change (hasError (markInvalid s)) with true. cbn [negb]. change (coding_scheme_ (markInvalid s)) with (coding_scheme_ s). rewrite Ec.
    apply (secded_ext (markInvalid s) s Y O); reflexivity. }
  rewrite E. split; reflexivity.
Qed.
Lemma rs_invalid s v : holding s REED_SOLOMON v -> word v -> let r := correctErrors (markInvalid s) in fst r = true /\ hasError (snd r) = true.
Proof.
  intros H Hv. cbv zeta. destruct (rs_ecc s v H) as (Ev & Ec & _ & _ & C & _). unfold correctErrors. change (hasError (markInvalid s)) with true. cbn [negb]. change (coding_scheme_ (markInvalid s)) with (coding_scheme_ s). rewrite Ec.
  rewrite crs_unfold. change (value_ (markInvalid s)) with (value_ s). change (ecc_data_ (markInvalid s)) with (ecc_data_ s). change (valid_ (markInvalid s)) with false. rewrite Ev.
  destruct (find_some_of (fun t => listeqb (checks (set_byte v (fst t) (snd t))) (ecc_data_ s) [0; 1; 2; 3]) trials (0, byte v 0)) as ([i j] & -> & I & F).
  - apply in_trials. split; [lia|apply byte_lt].
  - cbn [fst snd]. replace (set_byte v 0 (byte v 0)) with v; [|unfold set_byte; rewrite N.lxor_nilpotent, N.shiftl_0_l, N.lxor_0_r; reflexivity].
    apply listeqb_spec. intros i Hi. apply in4 in Hi. symmetry. apply C, Hi.
  - split; reflexivity.
Qed.
Lemma flip_differs v i : word v -> i < 32 -> differ_in_byte (i / 8) v (flipped v i).
Proof.
  intros Hv Hi. split; [exact Hv|]. split; [apply (lxor_below 32); [exact Hv|apply pow2_below, Hi]|]. split; [apply N.div_lt_upper_bound; lia|]. unfold flipped. split.
  - intros E. pose proof (f_equal (fun x => N.testbit x i) E) as Q. cbv beta in Q. rewrite N.lxor_spec, pow2_bits, N.eqb_refl in Q. destruct (N.testbit v i); discriminate.
  - intros j Hj. rewrite N.lxor_spec, pow2_bits. destruct (N.eqb_spec j i) as [->|]; [contradiction|]. symmetry. apply xorb_false_r.
Qed.
Lemma true_means_clean s c v i : word v -> holding s c v -> i < 32 ->
  let r := correctErrors (hit_value s (flipped v i)) in c <> NONE -> fst r = true -> hasError (snd r) = false /\ value_ (snd r) = v.
Proof.
  intros Hv H Hi. cbv zeta. intros Nc T. destruct (fresh s c v H Hv) as (F & _). destruct (holding_fields s c v H) as (Ev & _).
  assert (K : correctErrors (hit_value s (flipped v i)) = (true, s)).
  { destruct c; [congruence| | |].
    - apply (hamming_single s v i H Hi).
    - destruct (secded_single s v i H Hi) as (_ & A & B). destruct (Bool.bool_dec (N.odd (popcount (i + 1))) false) as [E|E]; [apply A, E|].
      destruct (B E) as [B1 _]. rewrite B1 in T. discriminate.
    - apply (rs_single s v (flipped v i) (i / 8) H (flip_differs v i Hv Hi)). }
  rewrite K. cbn [snd]. auto.
Qed.
