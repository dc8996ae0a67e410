(** C88-C100: multi-bit protection (neural/multi_bit_protection.hpp). *)
From Coq Require Import List NArith ZArith Bool SpecFloat Lia.
Import ListNotations.
From Verif Require Import Outcome Words Arith Floats HealthFloat SimpleTMR_Model MBP_Model MBP_Spec MBP_Proofs MBP2_Proofs MBP3_Proofs MBP4_Proofs MBP5_Proofs MBP6_Proofs.
Local Open Scope N_scope.

(** C88 for every scheme, an object constructed with or assigned v returns v and reports no error *)
Theorem C88_set_get : forall s c v, word v -> holding s c v ->
  hasError s = false /\ isValid s = true /\ correctErrors s = (true, s) /\ getValue s = (v, s).
Proof. intros s c v Hv H. destruct (fresh s c v H Hv) as (A & B & C & D). auto. Qed.
Example C88_nonvacuous : holding (setValue (markInvalid (hit_value (mb_new 7 SECDED) 12)) 0xDEADBEEF) SECDED 0xDEADBEEF /\ word 0xDEADBEEF.
Proof. split; [|reflexivity]. right. exists (markInvalid (hit_value (mb_new 7 SECDED) 12)). split; [vm_compute; reflexivity|]. split; reflexivity. Qed.

(** C89 HAMMING corrects any single flipped data bit, and detects any two *)
Theorem C89_hamming_single : forall s v i, holding s HAMMING v -> i < 32 ->
  let s' := hit_value s (flipped v i) in
  hasError s' = true /\ correctErrors s' = (true, s) /\ getValue s' = (v, s).
Proof. exact hamming_single. Qed.
Theorem C89_hamming_double_detected : forall s v i k, holding s HAMMING v -> i < 32 -> k < 32 -> i <> k ->
  hasError (hit_value s (flipped (flipped v i) k)) = true.
Proof. intros s v i k H. exact (hamming_detects s HAMMING v i k H (or_introl eq_refl)). Qed.
Example C89_nonvacuous : getValue (hit_value (mb_new 0xCAFEBABE HAMMING) (flipped 0xCAFEBABE 17)) = (0xCAFEBABE, mb_new 0xCAFEBABE HAMMING) /\ flipped 0xCAFEBABE 17 <> 0xCAFEBABE.
Proof. vm_compute. split; [reflexivity|discriminate]. Qed.

(** C90 claimed: damage to a check byte never changes the value HAMMING returns.  False for the six parity
    bytes: any change of byte k < 6 makes getValue flip data bit 2^k - 1.  True for the overall parity byte. *)
Theorem C90_hamming_check_byte_refuted : forall s v k x, holding s HAMMING v -> k < 6 -> x <> lget (ecc_data_ s) k ->
  let s' := hit_check s k x in
  correctErrors s' = (true, hit_value s' (flipped v (2 ^ k - 1))) /\ fst (getValue s') = flipped v (2 ^ k - 1).
Proof. exact hamming_check_upset. Qed.
Theorem C90_hamming_overall_byte_partial : forall s v x, holding s HAMMING v -> x <> lget (ecc_data_ s) 6 ->
  let s' := hit_check s 6 x in hasError s' = true /\ correctErrors s' = (false, s') /\ getValue s' = (v, s').
Proof. exact hamming_check6_upset. Qed.
Example C90_nonvacuous : fst (getValue (hit_check (mb_new 100 HAMMING) 3 (N.lxor (lget (ecc_data_ (mb_new 100 HAMMING)) 3) 1))) = 228.
Proof. vm_compute. reflexivity. Qed.

(** C91 claimed: SECDED corrects every single flipped data bit.  It does so exactly for the bits i with an even
    number of ones in i + 1; the others are reported as uncorrectable and the wrong value is returned. *)
Theorem C91_secded_single_refuted : forall s v i, holding s SECDED v -> i < 32 -> ~ even_bits (i + 1) ->
  let s' := hit_value s (flipped v i) in correctErrors s' = (false, s') /\ getValue s' = (flipped v i, s').
Proof. intros s v i H Hi E. exact (proj2 (proj2 (secded_single s v i H Hi)) E). Qed.
Theorem C91_secded_single_partial : forall s v i, holding s SECDED v -> i < 32 ->
  let s' := hit_value s (flipped v i) in
  hasError s' = true /\ (even_bits (i + 1) -> correctErrors s' = (true, s) /\ getValue s' = (v, s)).
Proof. intros s v i H Hi. destruct (secded_single s v i H Hi) as (A & B & _). exact (conj A B). Qed.
Example C91_nonvacuous : ~ even_bits (0 + 1) /\ even_bits (2 + 1) /\ fst (getValue (hit_value (mb_new 42 SECDED) (flipped 42 0))) = 43.
Proof. unfold even_bits. vm_compute. split; [discriminate|]. split; reflexivity. Qed.

(** C92 claimed: SECDED detects double errors and leaves the data alone.  Every double error is detected, but when
    d = (i+1) xor (k+1) has an odd number of ones and is at most 32, correctErrors reports success and flips a third bit. *)
Theorem C92_secded_double_refuted : forall s v i k, holding s SECDED v -> i < 32 -> k < 32 -> i <> k ->
  let w := flipped (flipped v i) k in let s' := hit_value s w in let d := N.lxor (i + 1) (k + 1) in
  ~ even_bits d -> d <= 32 -> correctErrors s' = (true, hit_value s (flipped w (d - 1))) /\ fst (getValue s') = flipped w (d - 1).
Proof. intros s v i k H Hi Hk N. exact (proj2 (proj2 (secded_double s v i k H Hi Hk N))). Qed.
Theorem C92_secded_double_partial : forall s v i k, holding s SECDED v -> i < 32 -> k < 32 -> i <> k ->
  let w := flipped (flipped v i) k in let s' := hit_value s w in let d := N.lxor (i + 1) (k + 1) in
  hasError s' = true /\ (even_bits d \/ 32 < d -> correctErrors s' = (false, s') /\ getValue s' = (w, s')).
Proof. intros s v i k H Hi Hk N. destruct (secded_double s v i k H Hi Hk N) as (A & B & _). exact (conj A B). Qed.
Example C92_nonvacuous :
  fst (correctErrors (hit_value (mb_new 0 SECDED) (flipped (flipped 0 0) 4))) = true /\ fst (getValue (hit_value (mb_new 0 SECDED) (flipped (flipped 0 0) 4))) = 25 /\
  even_bits (N.lxor (0 + 1) (1 + 1)).
Proof. vm_compute. auto. Qed.

(** C93 SECDED: damage to any one check byte is detected and never changes the value *)
Theorem C93_secded_check_byte : forall s v k x, holding s SECDED v -> k < 7 -> x <> lget (ecc_data_ s) k ->
  let s' := hit_check s k x in hasError s' = true /\ correctErrors s' = (k =? 6, s') /\ getValue s' = (v, s').
Proof. exact secded_check_upset. Qed.
Example C93_nonvacuous : 5 <> lget (ecc_data_ (mb_new 9 SECDED)) 2 /\ fst (getValue (hit_check (mb_new 9 SECDED) 2 5)) = 9.
Proof. vm_compute. split; [discriminate|reflexivity]. Qed.

(** C94 REED_SOLOMON detects every corruption of the value *)
Theorem C94_rs_detects_everything : forall s v w, word v -> word w -> holding s REED_SOLOMON v -> (hasError (hit_value s w) = true <-> w <> v).
Proof.
  intros s v w Hv Hw H. rewrite (rs_hasError s v w H Hv Hw). destruct (N.eqb_spec w v); cbn; split; intros; try discriminate; try reflexivity; congruence.
Qed.
Example C94_nonvacuous : hasError (hit_value (mb_new 0x12345678 REED_SOLOMON) (N.lxor 0x12345678 0x7ebdbd7e)) = true.
Proof. vm_compute. reflexivity. Qed.

(** C95 REED_SOLOMON repairs any corruption confined to one byte, and damage to a check byte never changes the value *)
Theorem C95_rs_single_byte : forall s v w k, holding s REED_SOLOMON v -> differ_in_byte k v w ->
  let s' := hit_value s w in hasError s' = true /\ correctErrors s' = (true, s) /\ getValue s' = (v, s).
Proof. exact rs_single. Qed.
Theorem C95_rs_check_byte : forall s v k x, holding s REED_SOLOMON v -> word v -> k < 8 -> x <> lget (ecc_data_ s) k ->
  let s' := hit_check s k x in hasError s' = true /\ correctErrors s' = (4 <=? k, s') /\ getValue s' = (v, s').
Proof. exact rs_check_upset. Qed.
Example C95_nonvacuous : differ_in_byte 2 0x00000000 0x00A50000.
Proof.
  unfold differ_in_byte. split; [reflexivity|]. split; [reflexivity|]. split; [reflexivity|]. split; [discriminate|]. intros i Hi. rewrite N.bits_0. symmetry.
  destruct (N.lt_ge_cases i 16) as [L|L].
  - change 10813440 with (N.shiftl 165 16). apply N.shiftl_spec_low, L.
  - change 10813440 with (N.shiftl 165 16). rewrite N.shiftl_spec_high' by exact L. apply (testbit_above 8); [reflexivity|].
    assert (24 <= i); [|lia]. destruct (N.lt_ge_cases i 24) as [A|A]; [|exact A]. exfalso. apply Hi.
    pose proof (N.div_mod i 8 ltac:(discriminate)) as D. pose proof (N.mod_lt i 8 ltac:(discriminate)) as M. set (q := i / 8) in *. set (r := i mod 8) in *. clearbody q r. lia.
Qed.

(** C96 claimed: correctErrors() == true means the object has no error afterwards.  False: an object marked
    invalid stays invalid (SECDED and REED_SOLOMON answer true), and a damaged SECDED parity byte or hash byte is
    never repaired.  True after any single-bit error in the data. *)
Theorem C96_true_means_clean_refuted :
  (forall s v, holding s SECDED v \/ holding s REED_SOLOMON v /\ word v -> let r := correctErrors (markInvalid s) in fst r = true /\ hasError (snd r) = true) /\
  (forall s v x, holding s SECDED v -> x <> lget (ecc_data_ s) 6 -> let r := correctErrors (hit_check s 6 x) in fst r = true /\ hasError (snd r) = true) /\
  (forall s v k x, holding s REED_SOLOMON v -> word v -> 4 <= k < 8 -> x <> lget (ecc_data_ s) k -> let r := correctErrors (hit_check s k x) in fst r = true /\ hasError (snd r) = true).
Proof.
  split; [|split].
  - intros s v [H|[H Hv]]; cbv zeta.
    + exact (secded_invalid s v H).
    + exact (rs_invalid s v H Hv).
  - intros s v x H Hx. cbv zeta. destruct (secded_check_upset s v 6 x H ltac:(reflexivity) Hx) as (E & K & _). rewrite K. auto.
  - intros s v k x H Hv Hk Hx. cbv zeta. destruct (rs_check_upset s v k x H Hv ltac:(lia) Hx) as (E & K & _). rewrite K. cbn [fst snd]. split; [apply N.leb_le; lia|exact E].
Qed.
Theorem C96_true_means_clean_partial : forall s c v i, word v -> holding s c v -> i < 32 ->
  let r := correctErrors (hit_value s (flipped v i)) in c <> NONE -> fst r = true -> hasError (snd r) = false /\ value_ (snd r) = v.
Proof. exact true_means_clean. Qed.
Example C96_nonvacuous : fst (correctErrors (hit_value (mb_new 77 SECDED) (flipped 77 4))) = true /\ 5 <> lget (ecc_data_ (mb_new 77 REED_SOLOMON)) 6.
Proof. vm_compute. split; [reflexivity|discriminate]. Qed.

(** C97 the interleaving is undone exactly, both ways round, and a burst that hits two neighbouring bits of the
    interleaved word becomes two flips at least two positions apart *)
Theorem C97_interleaving : forall v, word v ->
  undoBitInterleaving (applyBitInterleaving v) = v /\ applyBitInterleaving (undoBitInterleaving v) = v /\
  forall j, j + 1 < 32 -> exists a b, a < 32 /\ b < 32 /\ (a + 2 <= b \/ b + 2 <= a) /\
    undoBitInterleaving (flipped (flipped (applyBitInterleaving v) j) (j + 1)) = flipped (flipped v a) b.
Proof. intros v Hv. exact (conj (undo_apply v Hv) (conj (apply_undo v Hv) (fun j Hj => burst v j Hv Hj))). Qed.
Example C97_nonvacuous : applyBitInterleaving 0xDEADBEEF = 0xBEFFE36B /\ undoBitInterleaving 0xBEFFE36B = 0xDEADBEEF.
Proof. vm_compute. auto. Qed.

(** C98 for every rate up to 1 and whatever the generator draws, the injected damage is of the announced kind (and
    none for rates up to 0).  Outside that range the double-to-unsigned conversion is undefined. *)
Theorem C98_injected_damage : forall v rate t o, V64 rate = true -> fle rate (dofZ 1) = true -> draws t o ->
  exists w, applyMultiBitErrors v rate t o = Ret w /\ damage t (N.lxor v w) /\ (fle rate (dofZ 0) = true -> w = v).
Proof. exact upsets. Qed.
Theorem C98_outside_the_range : forall v o,
  applyMultiBitErrors v (S754_infinity false) RANDOM_MULTI o = UB UB_float_to_int /\ applyMultiBitErrors v S754_nan RANDOM_MULTI o = UB UB_float_to_int /\
  applyMultiBitErrors v (dofZ (2 ^ 30)) RANDOM_MULTI o = UB UB_float_to_int.
Proof. intros v o. split; [reflexivity|]. split; reflexivity. Qed.
Example C98_nonvacuous : let o := mko (fun _ => dlit 1 4) (fun i => i) (fun i => 2) in
  draws COLUMN_UPSET o /\ applyMultiBitErrors 0 (dlit 1 2) COLUMN_UPSET o = Ret 0 /\ applyMultiBitErrors 0 (dlit 1 4) COLUMN_UPSET o = Ret 0 /\
  applyMultiBitErrors 0 (dlit 3 10) SINGLE_BIT o = Ret 1.
Proof. cbv zeta. split; [split; [cbn; lia|intros; cbn; lia]|]. vm_compute. auto. Qed.

(** C99 ChecksumProtection: no alarm on an untouched object; any corruption confined to one byte is detected.  Two
    flipped bits can go unnoticed, and assigning through the base class (setValue is not virtual) leaves the old
    checksum behind. *)
Theorem C99_checksum_single_byte_partial : forall s v, s = ck_new v \/ (exists s0, coding_scheme_ (base s0) = NONE /\ s = ck_setValue s0 v) ->
  ck_hasError s = false /\ fst (getValue (base s)) = v /\
  forall k w, differ_in_byte k v w -> ck_hasError (mkck (hit_value (base s) w) (checksum_ s)) = true.
Proof.
  intros s v H. destruct (ck_ok s v H) as [A B]. split; [exact A|]. split; [exact B|]. intros k w D. exact (ck_detects s v w k H D).
Qed.
Theorem C99_checksum_refuted :
  (forall v, ck_hasError (mkck (hit_value (base (ck_new v)) (flipped (flipped v 16) 25)) (checksum_ (ck_new v))) = false /\ flipped (flipped v 16) 25 <> v) /\
  ck_hasError (ck_base_setValue (ck_new 1) 2) = true.
Proof. split; [exact blind|vm_compute; reflexivity]. Qed.
Example C99_nonvacuous : ck_hasError (mkck (hit_value (base (ck_new 5)) (flipped (flipped 5 16) 25)) (checksum_ (ck_new 5))) = false.
Proof. vm_compute. reflexivity. Qed.

(** C100 TripleModularRedundancy / AdaptiveTMRProtection (integer types): getValue() survives any damage to one copy,
    but the implicit conversion never consults the copies: it reads the separate base-class value, which a
    default-constructed object stores with no protection at all; and below the threshold AdaptiveTMRProtection reads it too. *)
Theorem C100_triple_get_partial : forall ty, is_int ty = true ->
  (forall s v i w, tp_getValue ty (mktp (tbase (tp_setValue s v)) (write3 (tmr_ (tp_setValue s v)) i w)) = v) /\
  (forall s v i w, protection_enabled_ s = true -> let s' := at_setValue s v in at_getValue ty (mkat (abase s') (write3 (atmr s') i w) (protection_enabled_ s') (radiation_threshold_ s')) = v).
Proof.
  intros ty H. split; [intros s v i w; exact (core_masks_int ty v i w H)|]. intros s v i w E. cbv zeta. unfold at_getValue, at_setValue. cbn [protection_enabled_ atmr]. rewrite E. exact (core_masks_int ty v i w H).
Qed.
Theorem C100_conversion_refuted : forall ty v w, is_int ty = true ->
  let s := tp_setValue tp_default v in let hit := mktp (hit_value (tbase s) w) (tmr_ s) in
  tp_getValue ty hit = v /\ tp_convert hit = w /\
  let a := at_setValue at_default v in at_getValue ty (mkat (hit_value (abase a) w) (atmr a) (protection_enabled_ a) (radiation_threshold_ a)) = w.
Proof.
  intros ty v w H. cbv zeta. split; [exact (core_masks_int ty v 3 w H)|]. split; reflexivity.
Qed.
Theorem C100_threshold : forall s level, protection_enabled_ (at_updateProtectionStatus s level) = fle (radiation_threshold_ s) level /\
  (level = S754_nan -> protection_enabled_ (at_updateProtectionStatus s level) = false).
Proof. intros s level. split; [reflexivity|]. intros ->. destruct s as [b m p t]. cbn. unfold fge, SFleb. destruct t; reflexivity. Qed.
Example C100_nonvacuous : tp_getValue I32 (mktp (tbase (tp_new 5)) (write3 (tmr_ (tp_new 5)) 1 99)) = 5.
Proof. reflexivity. Qed.

Print Assumptions C88_set_get.
Print Assumptions C89_hamming_single.
Print Assumptions C89_hamming_double_detected.
Print Assumptions C90_hamming_check_byte_refuted.
Print Assumptions C90_hamming_overall_byte_partial.
Print Assumptions C91_secded_single_refuted.
Print Assumptions C91_secded_single_partial.
Print Assumptions C92_secded_double_refuted.
Print Assumptions C92_secded_double_partial.
Print Assumptions C93_secded_check_byte.
Print Assumptions C94_rs_detects_everything.
Print Assumptions C95_rs_single_byte.
Print Assumptions C95_rs_check_byte.
Print Assumptions C96_true_means_clean_refuted.
Print Assumptions C96_true_means_clean_partial.
Print Assumptions C97_interleaving.
Print Assumptions C98_injected_damage.
Print Assumptions C98_outside_the_range.
Print Assumptions C99_checksum_single_byte_partial.
Print Assumptions C99_checksum_refuted.
Print Assumptions C100_triple_get_partial.
Print Assumptions C100_conversion_refuted.
Print Assumptions C100_threshold.
