(** Properties C13-C15, C56, C57: checksums. *)
From Coq Require Import List NArith Lia.
Import ListNotations.
From Verif Require Import Words Crc_Model Crc_Spec Crc_Proofs CrcOrder_Proofs.
Local Open Scope N_scope.

(** C13: five implementations, every byte string *)
Theorem C13_all_crc_agree : forall bs, is_bytes bs ->
  SpaceCRC_calculate bs = CRC_calculate bs /\ Unified_calculate bs = CRC_calculate bs /\
  CRC32_calculate bs = CRC_calculate bs /\ compute_crc32 bs = CRC_calculate bs.
Proof. exact all_agree. Qed.
Print Assumptions C13_all_crc_agree.
Example C13_nonvacuous : is_bytes [0x31; 0x32; 0x33; 0x34; 0x35; 0x36; 0x37; 0x38; 0x39] /\
  CRC_calculate [0x31; 0x32; 0x33; 0x34; 0x35; 0x36; 0x37; 0x38; 0x39] = 0xCBF43926.   (* the standard check value *)
Proof. split; [repeat constructor|vm_compute; reflexivity]. Qed.

(** C14 *)
Theorem C14_bursts_detected : forall bs bs', is_bytes bs -> is_bytes bs' -> length bs = length bs' ->
  bs <> bs' -> differ_within 32 bs bs' -> CRC_calculate bs <> CRC_calculate bs'.
Proof. exact burst_detected. Qed.
Print Assumptions C14_bursts_detected.

Theorem C14_injective_up_to_4_bytes : forall bs bs', is_bytes bs -> is_bytes bs' -> length bs = length bs' ->
  (length bs <= 4)%nat -> CRC_calculate bs = CRC_calculate bs' -> bs = bs'.
Proof. exact short_injective. Qed.
Print Assumptions C14_injective_up_to_4_bytes.
Example C14_nonvacuous : differ_within 32 [1; 2; 3; 4; 5] [1; 2; 0x43; 4; 5] /\ is_bytes [1; 2; 0x43; 4; 5].
Proof.
  split; [|repeat constructor].
  exists 0. intros i Hi. split; [lia|]. destruct (N.lt_ge_cases i (0 + 32)) as [G|G]; [exact G|]. exfalso. apply Hi.
  unfold msg_bit. assert (4 <= i / 8) by (apply N.div_le_lower_bound; lia).
  replace (N.to_nat (i / 8)) with (S (S (S (S (N.to_nat (i / 8) - 4))))) by lia. reflexivity.
Qed.

(** C15, with the bound shown to be exact *)
Theorem C15_double_bit_errors_detected : forall bs bs' p q, is_bytes bs -> is_bytes bs' -> length bs = length bs' ->
  N.of_nat (length bs) < 2 ^ 29 -> p <> q -> differ_exactly [p; q] bs bs' ->
  CRC_calculate bs <> CRC_calculate bs'.
Proof. exact double_detected. Qed.
Print Assumptions C15_double_bit_errors_detected.

Theorem C15_bound_is_tight : forall bs, is_bytes bs -> 2 ^ 29 <= N.of_nat (length bs) ->
  exists bs', is_bytes bs' /\ length bs' = length bs /\ differ_exactly [0; 2 ^ 32 - 1] bs bs' /\
              CRC_calculate bs = CRC_calculate bs'.
Proof. exact double_tight. Qed.
Print Assumptions C15_bound_is_tight.
Example C15_nonvacuous : differ_exactly [0; 9] [0; 0] [1; 2].
Proof.
  intros i. rewrite <- (diff_bit_iff [0; 0] [1; 2]) by repeat constructor.
  change (diff [0; 0] [1; 2]) with (N.lxor (2 ^ 0) (2 ^ 9)). rewrite N.lxor_spec, !pow2_bits. cbn [In].
  destruct (N.eqb_spec i 0) as [->|E0]; [cbn; intuition|].
  destruct (N.eqb_spec i 9) as [->|E9]; cbn; [intuition|]. split; [discriminate|]. intros [E|[E|[]]]; congruence.
Qed.

(** C56 *)
Theorem C56_six_bit_flips_detected : forall bs bs' ps, is_bytes bs -> is_bytes bs' -> length bs = length bs' ->
  (length bs <= 8)%nat -> ps <> [] -> NoDup ps -> (length ps <= 6)%nat -> differ_exactly ps bs bs' ->
  CRC_calculate bs <> CRC_calculate bs'.
Proof. exact six_detected. Qed.
Print Assumptions C56_six_bit_flips_detected.
Example C56_nonvacuous : differ_exactly [0; 9] [0; 0] [1; 2] /\ NoDup [0; 9] /\ is_bytes [1; 2].
Proof.
  split; [exact C15_nonvacuous|]. split; [|repeat constructor].
  repeat constructor; cbn; intuition discriminate.
Qed.

(** C57: rad_ml::memory::MemoryScrubber's table has only 252 initialisers: in every message context
    there is a byte for which flipping its lowest bit leaves the checksum unchanged. *)
Theorem C57_scrubber_crc_blind_refuted : forall pre post, exists b, b < 256 /\ N.lxor b 1 < 256 /\
  Scrubber_calculateCRC32 (pre ++ b :: post) = Scrubber_calculateCRC32 (pre ++ N.lxor b 1 :: post).
Proof. exact scrubber_blind. Qed.
Print Assumptions C57_scrubber_crc_blind_refuted.
Example C57_witness : length scrubber_initialiser = 252%nat /\
  Scrubber_calculateCRC32 [3] = Scrubber_calculateCRC32 [2] /\
  Scrubber_calculateCRC32 [3] <> CRC_calculate [3].
Proof. repeat split; vm_compute; congruence. Qed.
