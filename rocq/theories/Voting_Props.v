(** C07-C12, C54, C55: voting strategies and fault-pattern detection. *)
From Coq Require Import List NArith ZArith Bool SpecFloat.
Import ListNotations.
From Verif Require Import Outcome Words Arith Floats Voting_Model Voting_Spec Voting_Proofs
  Detect_Proofs Confidence_Proofs Weighted_Proofs.
Local Open Scope N_scope.

(** C07 *)
Theorem C07_bitLevelVote_is_majority : forall (t : aty) (a b c : N),
  valid t a -> valid t b -> valid t c ->
  bitwise_majority a b c (bitLevelVote t a b c) /\ valid t (bitLevelVote t a b c).
Proof.
  intros t a b c Ha Hb Hc.
  exact (conj (bitLevelVote_majority t a b c Ha Hb Hc)
              (majority_valid t a b c _ Ha Hb Hc (bitLevelVote_majority t a b c Ha Hb Hc))).
Qed.
Print Assumptions C07_bitLevelVote_is_majority.
Example C07_nonvacuous : valid F32 0x3f800000 /\ bitLevelVote F32 0x3f800000 0x3f800001 0xbf800000 = 0x3f800000.
Proof. split; reflexivity. Qed.

(** C08: integers, every strategy, every garbage in the widened temporaries *)
Theorem C08_integer_votes_are_majority : forall (t : aty) (a b c : N),
  is_int t = true -> valid t a -> valid t b -> valid t c ->
  bitwise_majority a b c (standardVote t a b c) /\
  (forall ga gb gc, bitwise_majority a b c (burstErrorVote t ga gb gc a b c)) /\
  (forall ga gb gc, bitwise_majority a b c (fastBitCorrection t ga gb gc a b c)) /\
  (forall g, bitwise_majority a b c (EV_wordErrorVote t g a b c)) /\
  (forall g, bitwise_majority a b c (ET_wordErrorVote t g a b c)) /\
  (forall g g' p, bitwise_majority a b c (EV_adaptiveVote t g g' a b c p)) /\
  (forall g g' p, bitwise_majority a b c (ET_adaptiveVote t g g' a b c p)).
Proof.
  intros t a b c Hi Ha Hb Hc. pose proof (int_faithful t a b c Hi) as F.
  exact (conj (standardVote_majority t a b c Ha Hb Hc F)
        (conj (burstErrorVote_majority t a b c Ha Hb Hc)
        (conj (fastBitCorrection_majority t a b c Ha Hb Hc)
        (conj (EV_wordErrorVote_majority t a b c Ha Hb Hc F)
        (conj (ET_wordErrorVote_majority t a b c Ha Hb Hc)
        (conj (EV_adaptive_majority t a b c Ha Hb Hc F)
              (ET_adaptive_majority t a b c Ha Hb Hc F))))))).
Qed.
Print Assumptions C08_integer_votes_are_majority.

(** the same for float and double, unless two copies are zeros of opposite sign *)
Theorem C08_float_votes_are_majority : forall (t : aty) (a b c : N),
  valid t a -> valid t b -> valid t c ->
  (forall x y, In x [a; b; c] -> In y [a; b; c] -> is_zero t x = true -> is_zero t y = true -> x = y) ->
  bitwise_majority a b c (standardVote t a b c) /\
  (forall g, bitwise_majority a b c (EV_wordErrorVote t g a b c)) /\
  (forall g g' p, bitwise_majority a b c (EV_adaptiveVote t g g' a b c p)) /\
  (forall g g' p, bitwise_majority a b c (ET_adaptiveVote t g g' a b c p)).
Proof.
  intros t a b c Ha Hb Hc Z. pose proof (float_faithful t a b c Z) as F.
  exact (conj (standardVote_majority t a b c Ha Hb Hc F)
        (conj (EV_wordErrorVote_majority t a b c Ha Hb Hc F)
        (conj (EV_adaptive_majority t a b c Ha Hb Hc F)
              (ET_adaptive_majority t a b c Ha Hb Hc F)))).
Qed.
Print Assumptions C08_float_votes_are_majority.
Example C08_nonvacuous :
  EV_adaptiveVote I8 (mkg 1 2 3 4 5 6) (mkg 9 8 7 6 5 4) 0x0f 0x3c 0xf1 UNKNOWN = 0x3d /\ valid I8 0xf1.
Proof. split; vm_compute; reflexivity. Qed.

(** C09 *)
Theorem C09_disjoint_upsets_corrected : forall (t : aty) (v m1 m2 m3 : N),
  is_int t = true -> valid t v -> valid t m1 -> valid t m2 -> valid t m3 -> no_shared_bit m1 m2 m3 ->
  let a := N.lxor v m1 in let b := N.lxor v m2 in let c := N.lxor v m3 in
  bitLevelVote t a b c = v /\ standardVote t a b c = v /\
  (forall ga gb gc, burstErrorVote t ga gb gc a b c = v /\ fastBitCorrection t ga gb gc a b c = v) /\
  (forall g, EV_wordErrorVote t g a b c = v /\ ET_wordErrorVote t g a b c = v) /\
  (forall g g' p, EV_adaptiveVote t g g' a b c p = v /\ ET_adaptiveVote t g g' a b c p = v).
Proof.
  intros t v m1 m2 m3 Hi Hv H1 H2 H3 D a b c.
  assert (Ha : valid t a) by exact (lxor_below _ _ _ Hv H1).
  assert (Hb : valid t b) by exact (lxor_below _ _ _ Hv H2).
  assert (Hc : valid t c) by exact (lxor_below _ _ _ Hv H3).
  destruct (C08_integer_votes_are_majority t a b c Hi Ha Hb Hc) as (S & B & Q & W & W' & A & A').
  pose proof (fun r => disjoint_masks v m1 m2 m3 r D) as K.
  exact (conj (K _ (bitLevelVote_majority t a b c Ha Hb Hc))
        (conj (K _ S)
        (conj (fun ga gb gc => conj (K _ (B ga gb gc)) (K _ (Q ga gb gc)))
        (conj (fun g => conj (K _ (W g)) (K _ (W' g)))
              (fun g g' p => conj (K _ (A g g' p)) (K _ (A' g g' p))))))).
Qed.
Print Assumptions C09_disjoint_upsets_corrected.
Example C09_nonvacuous : no_shared_bit 0x0f 0x30 0xc0.
Proof.
  intros i. rewrite <- !N.land_spec. change (N.land 0x0f 0x30) with 0. change (N.land 0x0f 0xc0) with 0.
  change (N.land 0x30 0xc0) with 0. rewrite !N.bits_0. auto.
Qed.

(** C10. 4- and 8-byte types: one flipped bit in any copy is SINGLE_BIT. *)
Theorem C10_single_bit_recognised_partial : forall (t : aty) (k : nat) (v i : N) (ga gb gc : N),
  exact_width t = true -> valid t v -> i < width t ->
  let '(a, b, c) := hit3 k v (2 ^ i) in
  EV_detectFaultPattern t ga gb gc a b c = Ret SINGLE_BIT /\
  ET_detectFaultPattern t ga gb gc a b c = Ret SINGLE_BIT.
Proof.
  intros t k v i ga gb gc E Hv Hi.
  pose proof (EV_single t ga gb gc k v i E Hv Hi) as H1.
  pose proof (ET_single t ga gb gc k v i E Hv Hi) as H2.
  destruct (hit3 k v (2 ^ i)) as [[a b] c]. exact (conj H1 H2).
Qed.
Print Assumptions C10_single_bit_recognised_partial.

(** 1- and 2-byte types: the answer depends on uninitialised bytes *)
Theorem C10_small_types_refuted : forall (t : aty), t = I8 \/ t = I16 ->
  exists ga gb gc, EV_detectFaultPattern t ga gb gc 5 5 (N.lxor 5 (2 ^ 0)) <> Ret SINGLE_BIT.
Proof.
  intros t [-> | ->]; exists 0, 0, 7; vm_compute; discriminate.
Qed.
Print Assumptions C10_small_types_refuted.

(** types of at most 4 bytes: both detectors complete on every input *)
Theorem C10_no_ub_up_to_32_bits_partial : forall (t : aty) (ga gb gc a b c : N), sizeof t <= 4 ->
  completes (EV_detectFaultPattern t ga gb gc a b c) /\ completes (ET_detectFaultPattern t ga gb gc a b c).
Proof.
  intros t ga gb gc a b c H.
  assert (E : uwidth t = 32) by (destruct t; try reflexivity; vm_compute in H; congruence).
  exact (conj (EV_detect32_complete t ga gb gc a b c E) (ET_detect32_complete t ga gb gc a b c E)).
Qed.
Print Assumptions C10_no_ub_up_to_32_bits_partial.

(** 8-byte types: exactly which one-copy upsets [m] make the detector shift out of range *)
Theorem C10_ub_for_64_bit_refuted : forall (t : aty) (k : nat) (v m ga gb gc : N),
  uwidth t = 64 -> valid t v -> valid t m -> m <> 0 ->
  let '(a, b, c) := hit3 k v m in
  (EV_detectFaultPattern t ga gb gc a b c = UB UB_shift_amount <->
   ~ (within m 0 8 \/ within m 8 16 \/ within m 16 24 \/ within m 24 64)) /\
  ((within m 0 8 \/ within m 8 16 \/ within m 16 24 \/ within m 24 64) ->
   completes (EV_detectFaultPattern t ga gb gc a b c)).
Proof. exact (fun t k v m ga gb gc => EV_detect64_hit t ga gb gc k v m). Qed.
Print Assumptions C10_ub_for_64_bit_refuted.
Example C10_ub_witness :
  EV_detectFaultPattern I64 0 0 0 0 0 0x101 = UB UB_shift_amount /\
  ET_detectFaultPattern I64 0 0 0 0 0 0x101 = UB UB_shift_amount /\
  EV_detectFaultPattern I64 0 0 0 7 7 (N.lxor 7 (2 ^ 40)) = Ret SINGLE_BIT.
Proof. repeat split; vm_compute; reflexivity. Qed.

(** C11 (refuted for EnhancedVoting): ADJACENT_BITS is never the answer. *)
Theorem C11_enhanced_voting_never_adjacent_refuted : forall (t : aty) (ga gb gc a b c : N),
  EV_detectFaultPattern t ga gb gc a b c <> Ret ADJACENT_BITS.
Proof. exact EV_never_adjacent. Qed.
Print Assumptions C11_enhanced_voting_never_adjacent_refuted.

(** EnhancedTMR's own detector recognises runs of two and three adjacent bits. *)
Theorem C11_enhanced_tmr_adjacent_partial : forall (t : aty) (k : nat) (v m lo len ga gb gc : N),
  exact_width t = true -> valid t v -> valid t m -> adjacent_run m lo len -> len = 2 \/ len = 3 ->
  let '(a, b, c) := hit3 k v m in
  ET_detectFaultPattern t ga gb gc a b c = Ret ADJACENT_BITS.
Proof. exact (fun t k v m lo len ga gb gc => ET_adjacent_hit t ga gb gc k v m lo len). Qed.
Print Assumptions C11_enhanced_tmr_adjacent_partial.
Example C11_nonvacuous : exists m, adjacent_run m 5 3 /\ valid I32 m /\ m = 0xe0.
Proof. exists (N.shiftl (N.ones 3) 5). repeat split. intros i. exact (run_mask_testbit 5 3 i). Qed.

(** C12 *)
Theorem C12_agreeing_pair_wins : forall (t : aty) (ga gb gc a b c : N) (wa wb wc : sf),
  (eqT t a b = true \/ eqT t a c = true -> weightedVote t ga gb gc a b c wa wb wc = a) /\
  (eqT t a b = false -> eqT t a c = false -> eqT t b c = true -> weightedVote t ga gb gc a b c wa wb wc = b).
Proof. exact weightedVote_agree. Qed.
Print Assumptions C12_agreeing_pair_wins.

(** equal weights in [2^-100, 2^100] give the bitwise majority *)
Theorem C12_equal_weights_majority_partial : forall (t : aty) (ga gb gc a b c : N) (w : sf),
  valid t a -> valid t b -> valid t c -> is_int t = true ->
  valid_binary 24 128 w = true -> SFleb (slit 1 (2 ^ 100)) w = true -> SFleb w (sofZ (2 ^ 100)) = true ->
  bitwise_majority a b c (weightedVote t ga gb gc a b c w w w).
Proof. exact weightedVote_equal_majority. Qed.
Print Assumptions C12_equal_weights_majority_partial.
Example C12_nonvacuous : valid_binary 24 128 (slit 1 10) = true /\ SFleb (slit 1 (2 ^ 100)) (slit 1 10) = true /\
  weightedVote I8 1 2 3 0x0f 0x3c 0xf1 (slit 1 10) (slit 1 10) (slit 1 10) = 0x3d.
Proof. repeat split; vm_compute; reflexivity. Qed.

(** all-zero weights: three different integers always give the all-ones word *)
Theorem C12_zero_weights_refuted : forall (t : aty) (ga gb gc a b c : N),
  valid t a -> valid t b -> valid t c -> is_int t = true -> a <> b -> a <> c -> b <> c ->
  weightedVote t ga gb gc a b c (sofZ 0) (sofZ 0) (sofZ 0) = 2 ^ width t - 1.
Proof. exact weightedVote_zero. Qed.
Print Assumptions C12_zero_weights_refuted.

(** C54: BYTE_ERROR means one byte, for types up to 32 bits; refuted for 64-bit types. *)
Theorem C54_byte_error_is_one_byte_partial : forall (t : aty) (k : nat) (v m ga gb gc : N),
  exact_width t = true -> width t = 32 -> valid t v -> valid t m -> m <> 0 ->
  let '(a, b, c) := hit3 k v m in
  EV_detectFaultPattern t ga gb gc a b c = Ret BYTE_ERROR <->
  popcount m <> 1 /\ exists j, j < 4 /\ within m (8 * j) (8 * j + 8).
Proof. exact EV_byte_error32. Qed.
Print Assumptions C54_byte_error_is_one_byte_partial.

Theorem C54_byte_error_64_refuted : forall (t : aty) (k : nat) (v m ga gb gc : N),
  uwidth t = 64 -> valid t v -> valid t m -> popcount m <> 1 -> m <> 0 -> within m 24 64 ->
  let '(a, b, c) := hit3 k v m in EV_detectFaultPattern t ga gb gc a b c = Ret BYTE_ERROR.
Proof. exact EV_byte_error64. Qed.
Print Assumptions C54_byte_error_64_refuted.
Example C54_nonvacuous : EV_detectFaultPattern I64 0 0 0 0 0 (2 ^ 24 + 2 ^ 63) = Ret BYTE_ERROR /\
  EV_detectFaultPattern I32 0 0 0 0 0 0x8100 = Ret BYTE_ERROR.
Proof. split; vm_compute; reflexivity. Qed.

(** C55 *)
Theorem C55_confidence_pattern_agrees : forall (t : aty) (ga gb gc a b c : N),
  omap fst (EV_detectWithConfidence t ga gb gc a b c) = EV_detectFaultPattern t ga gb gc a b c.
Proof. exact confidence_same_pattern. Qed.
Print Assumptions C55_confidence_pattern_agrees.

(** confidence is 1.0 when all copies agree and strictly between 0 and 1 otherwise *)
Theorem C55_confidence_range_partial : forall (t : aty) (ga gb gc a b c : N) (p : FaultPattern) (x : sf),
  exact_width t = true -> valid t a -> valid t b -> valid t c ->
  EV_detectWithConfidence t ga gb gc a b c = Ret (p, x) ->
  (a = b /\ a = c /\ p = UNKNOWN /\ x = sofZ 1) \/
  (~ (a = b /\ a = c) /\ SFltb (sofZ 0) x = true /\ SFltb x (sofZ 1) = true).
Proof. exact confidence_range_exact. Qed.
Print Assumptions C55_confidence_range_partial.

Theorem C55_small_type_confidence_refuted :
  exists ga gb gc p x, EV_detectWithConfidence I8 ga gb gc 0 255 0 = Ret (p, x) /\ SFltb x (sofZ 0) = true.
Proof. exists 0, 0x1fff, 0xfffffc. eexists _, _. split; vm_compute; reflexivity. Qed.
Print Assumptions C55_small_type_confidence_refuted.
