(** Properties C16-C20, C58-C61 and the SpaceEnhancedTMR part of C07. *)
From Coq Require Import List NArith ZArith Bool Lia.
Import ListNotations.
From Verif Require Import Outcome Words Arith Floats Crc_Model Voting_Spec CrcTMR_Model CrcTMR_Spec CrcTMR_Proofs CrcTMRFloat_Proofs.
Local Open Scope N_scope.

Theorem C07_space_bitLevelVote_is_majority : forall t a b c, valid t a -> valid t b -> valid t c ->
  bitwise_majority a b c (sp_bitLevelVote t a b c).
Proof. exact sp_bitLevelVote_majority. Qed.
Print Assumptions C07_space_bitLevelVote_is_majority.

(** C16 *)
Theorem C16_one_copy_and_checksum_masked : forall t s v k c, eqT t v v = true ->
  let r := fst (et_get t (corrupt (set (et_crc t) s v) k c)) in
  eqT t r v = true /\ (r = v \/ r = cv c).
Proof. exact et_one_corrupt. Qed.
Print Assumptions C16_one_copy_and_checksum_masked.
Theorem C16_integers_exact : forall t s v k c, is_int t = true ->
  fst (et_get t (corrupt (set (et_crc t) s v) k c)) = v.
Proof. exact et_one_corrupt_int. Qed.
Print Assumptions C16_integers_exact.
Theorem C16_repair_restores : forall t s, let s' := snd (et_repair t s) in let v := fst (et_get t s) in
  fst (et_repair t s) = true /\ same_data s' (construct (et_crc t) v) /\
  (eqT t v v = true -> et_verify t s' = true).
Proof. exact et_repaired. Qed.
Print Assumptions C16_repair_restores.
Example C16_nonvacuous : eqT F64 0x3FF8000000000000 0x3FF8000000000000 = true.   (* 1.5 *)
Proof. reflexivity. Qed.

(** C17 *)
Theorem C17_survivor_found : forall t s v x y z, valid t v -> valid t x -> valid t y -> valid t z ->
  (x = v \/ burst32 v x) -> (y = v \/ burst32 v y) -> (z = v \/ burst32 v z) ->
  (x = v \/ y = v \/ z = v) ->
  fst (et_get t (hit_values (et_crc t) s v x y z)) = v.
Proof. exact et_survivor. Qed.
Print Assumptions C17_survivor_found.
Theorem C17_space_survivor_found : forall t fuel s v x y z, valid t v -> valid t x -> valid t y -> valid t z ->
  (x = v \/ burst32 v x) -> (y = v \/ burst32 v y) -> (z = v \/ burst32 v z) ->
  (x = v \/ y = v \/ z = v) -> eqT t v v = true ->
  exists s', sp_get t fuel (hit_values (sp_crc t) s v x y z) = Ret (v, SUCCESS, s').
Proof. exact sp_survivor. Qed.
Print Assumptions C17_space_survivor_found.
Theorem C17_any_corruption_up_to_4_bytes : forall t s v x y z, sizeof t <= 4 ->
  valid t v -> valid t x -> valid t y -> valid t z -> (x = v \/ y = v \/ z = v) ->
  fst (et_get t (hit_values (et_crc t) s v x y z)) = v.
Proof. exact et_survivor_small. Qed.
Print Assumptions C17_any_corruption_up_to_4_bytes.
Example C17_nonvacuous : burst32 7 (7 + 2 ^ 40) /\ valid I64 (7 + 2 ^ 40) /\ valid I64 7.
Proof.
  split; [|split; reflexivity]. split; [discriminate|]. exists 40. intros i Hi.
  change (7 + 2 ^ 40) with (N.lxor 7 (2 ^ 40)) in Hi. rewrite N.lxor_spec, pow2_bits in Hi.
  destruct (N.eqb_spec i 40) as [E|E]; [lia|]. exfalso. apply Hi. rewrite xorb_false_r. reflexivity.
Qed.

(** C18: the counters always balance; a get counts a detection iff some checksum is wrong; but copies
    that disagree with valid checksums are voted over silently *)
Theorem C18_detected_is_corrected_plus_uncorrectable : forall t v h,
  let s := fold_left (et_step t) h (construct (et_crc t) v) in detected s = corrected s + uncorrectable s.
Proof. exact et_history_balanced. Qed.
Print Assumptions C18_detected_is_corrected_plus_uncorrectable.
Theorem C18_get_counts_checksum_errors_partial : forall t s,
  detected (snd (et_get t s)) =
  if verifyChecksum (et_crc t) (c0 s) && verifyChecksum (et_crc t) (c1 s) && verifyChecksum (et_crc t) (c2 s)
  then detected s else detected s + 1.
Proof. exact et_get_counts. Qed.
Print Assumptions C18_get_counts_checksum_errors_partial.
Theorem C18_disagreement_counted_refuted : forall t s v w, is_int t = true -> v <> w ->
  let s' := corrupt (set (et_crc t) s v) 2 (mkcell w (et_crc t w)) in
  et_verify t s' = false /\ snd (et_get t s') = s'.
Proof. exact et_silent. Qed.
Print Assumptions C18_disagreement_counted_refuted.
Example C18_nonvacuous :
  detected (fold_left (et_step I32) [ESet 7; ECorrupt 1 (mkcell 5 0); EGet; ERepair; EGet] (construct (et_crc I32) 3)) = 2.
Proof. vm_compute. reflexivity. Qed.

(** C19 *)
Theorem C19_one_copy_and_checksum_masked : forall t fuel s v k c, eqT t v v = true ->
  exists r s', sp_get t fuel (corrupt (set (sp_crc t) s v) k c) = Ret (r, SUCCESS, s') /\
    eqT t r v = true /\ (r = v \/ r = cv c).
Proof. exact sp_one_corrupt. Qed.
Print Assumptions C19_one_copy_and_checksum_masked.
Theorem C19_integers_exact : forall t fuel s v k c, is_int t = true ->
  exists s', sp_get t fuel (corrupt (set (sp_crc t) s v) k c) = Ret (v, SUCCESS, s').
Proof. exact sp_one_corrupt_int. Qed.
Print Assumptions C19_integers_exact.
Theorem C19_repair_restores : forall t fuel s v st s', sp_get t fuel s = Ret (v, st, s') ->
  exists s2, sp_repair t fuel s = Ret (st, s2) /\ same_data s2 (construct (sp_crc t) v) /\ sp_verify t s2 = SUCCESS.
Proof. exact sp_repaired. Qed.
Print Assumptions C19_repair_restores.
Theorem C19_statistics_balance : forall t fuel s v st s', balanced s -> sp_get t fuel s = Ret (v, st, s') -> balanced s'.
Proof. exact sp_get_balanced. Qed.
Print Assumptions C19_statistics_balance.
Example C19_nonvacuous : sp_get I16 2 (corrupt (construct (sp_crc I16) 1000) 0 (mkcell 31 (sp_crc I16 31))) =
  Ret (1000, SUCCESS, corrupt (construct (sp_crc I16) 1000) 0 (mkcell 31 (sp_crc I16 31))).
Proof. vm_compute. reflexivity. Qed.

(** C20: the exact set of states on which get() never returns *)
Theorem C20_terminates_partial : forall t s,
  let a := cv (c0 s) in let b := cv (c1 s) in let c := cv (c2 s) in
  (votes (sp_crc t) s /\ is_int t = false /\ no_pair t a b c /\ stuck_pair t a b c ->
     forall fuel, sp_get t fuel s = OutOfFuel) /\
  (~ (votes (sp_crc t) s /\ is_int t = false /\ no_pair t a b c /\ stuck_pair t a b c) ->
     exists r, forall fuel, sp_get t (S (S fuel)) s = Ret r).
Proof. exact sp_get_cases. Qed.
Print Assumptions C20_terminates_partial.
Theorem C20_integers_terminate : forall t s, is_int t = true -> exists r, forall fuel, sp_get t (S (S fuel)) s = Ret r.
Proof. exact sp_get_int_terminates. Qed.
Print Assumptions C20_integers_terminate.
(** +0.0, 5.0 and a quiet NaN, all checksums stale *)
Theorem C20_terminates_refuted :
  (forall fuel, sp_get F32 fuel (mk3 (mkcell 0 0) (mkcell 0x40A00000 0) (mkcell 0x7FC00000 0) 0 0 0) = OutOfFuel) /\
  (forall fuel, sp_get F64 fuel (mk3 (mkcell 0 0) (mkcell 0x4014000000000000 0) (mkcell 0x7FF8000000000000 0) 0 0 0) = OutOfFuel).
Proof. exact sp_get_hangs. Qed.
Print Assumptions C20_terminates_refuted.
(** reachable from set(0.0) by upsets alone: bit flips in two of the copies and all checksums *)
Theorem C20_reachable_refuted : forall v, exists x y z, forall fuel,
  sp_get F32 fuel (corrupt (corrupt (corrupt (construct (sp_crc F32) v) 0 x) 1 y) 2 z) = OutOfFuel.
Proof. exact sp_hang_reachable. Qed.
Print Assumptions C20_reachable_refuted.

(** C58 *)
Theorem C58_nan_is_protected_refuted : forall t s v w, is_nan t v = true ->
  et_verify t (set (et_crc t) s v) = false /\
  fst (et_get t (corrupt (set (et_crc t) s v) 0 (mkcell w (et_crc t w)))) = w.
Proof. exact et_nan. Qed.
Print Assumptions C58_nan_is_protected_refuted.
(** value corruption that leaves the checksums alone is still survived for NaN *)
Theorem C58_nan_value_corruption_partial : forall t s v x, is_nan t v = true -> valid t v -> valid t x -> burst32 v x ->
  fst (et_get t (hit_values (et_crc t) s v x v v)) = v /\
  fst (et_get t (hit_values (et_crc t) s v v x v)) = v /\
  fst (et_get t (hit_values (et_crc t) s v v v x)) = v.
Proof. exact et_nan_values. Qed.
Print Assumptions C58_nan_value_corruption_partial.
Example C58_nonvacuous : is_nan F32 0x7FC00001 = true.
Proof. reflexivity. Qed.

(** C59: three distinct finite floats: the middle one *)
Theorem C59_median_of_distinct : forall t fuel s, is_int t = false ->
  let a := cv (c0 s) in let b := cv (c1 s) in let c := cv (c2 s) in
  valid t a -> valid t b -> valid t c -> fin3 t a b c -> no_pair t a b c -> votes (sp_crc t) s ->
  exists m st s', sp_get t fuel s = Ret (m, st, s') /\ In m [a; b; c] /\
    exists lo hi, In lo [a; b; c] /\ In hi [a; b; c] /\ ltT t lo m = true /\ ltT t m hi = true.
Proof. exact sp_get_median. Qed.
Print Assumptions C59_median_of_distinct.
Example C59_nonvacuous : (* 3.0, 1.0, 2.0 *)
  fin3 F32 0x40400000 0x3F800000 0x40000000 /\ no_pair F32 0x40400000 0x3F800000 0x40000000 /\
  median3 F32 0x40400000 0x3F800000 0x40000000 = 0x40000000.
Proof. vm_compute. repeat split. Qed.

(** C60 *)
Theorem C60_vote_stays_finite : forall t fuel s v st s', is_int t = false ->
  let a := cv (c0 s) in let b := cv (c1 s) in let c := cv (c2 s) in
  votes (sp_crc t) s -> no_pair t a b c -> (exists x, In x [a; b; c] /\ is_finite t x = true) ->
  sp_get t fuel s = Ret (v, st, s') -> is_finite t v = true.
Proof. exact sp_get_finite. Qed.
Print Assumptions C60_vote_stays_finite.
Example C60_nonvacuous : (* NaN, 3.0, infinity: 3.0 *)
  sp_majority F32 1 (mk3 (mkcell 0x7FC00000 0) (mkcell 0x40400000 0) (mkcell 0x7F800000 0) 0 0 0) = Ret 0x40400000.
Proof. reflexivity. Qed.

(** C61 *)
Theorem C61_verify_success_means_agreement_refuted : forall t s v w,
  sp_verify t (corrupt (set (sp_crc t) s v) 0 (mkcell w (sp_crc t w))) = SUCCESS.
Proof. exact sp_verify_blind. Qed.
Print Assumptions C61_verify_success_means_agreement_refuted.
Theorem C61_verify_sound_for_value_upsets_partial : forall t s v x y z, valid t v -> valid t x -> valid t y -> valid t z ->
  (x = v \/ burst32 v x) -> (y = v \/ burst32 v y) -> (z = v \/ burst32 v z) ->
  sp_verify t (hit_values (sp_crc t) s v x y z) = SUCCESS -> x = v /\ y = v /\ z = v.
Proof. exact sp_verify_sound. Qed.
Print Assumptions C61_verify_sound_for_value_upsets_partial.
