(** C38-C41, C68: ProtectedValue, AlignedProtectedMemory, InterleavedBitMemory. *)
From Coq Require Import List NArith ZArith Bool SpecFloat.
Import ListNotations.
From Verif Require Import Outcome Words Arith Floats Voting_Model Voting_Spec Protected_Model Protected_Spec Protected_Proofs.
Local Open Scope N_scope.

(** C38.  Integers of at most 4 bytes, one copy overwritten by any [x].  scrub() always restores
    the value, whatever the voting temporaries contain. *)
Theorem C38_scrub_restores_partial : forall t, is_int t = true -> sizeof t <= 4 -> forall j v x a b c e,
  valid t v -> valid t x -> one_copy_hit v x a b c ->
  pv_scrub t j (mkpv (Some (a, b, c)) e) = Ret (mkpv (Some (v, v, v)) e, negb (x =? v)).
Proof. exact pv_scrub_hit. Qed.
Print Assumptions C38_scrub_restores_partial.

(** get() and getOrFallback() never deliver a third value *)
Theorem C38_get_value_or_error_partial : forall t, is_int t = true -> sizeof t <= 4 -> forall j v x a b c e fb,
  valid t v -> valid t x -> one_copy_hit v x a b c ->
  let s := mkpv (Some (a, b, c)) e in
  (pv_get t j s = Ret (PValue v) /\ pv_getOrFallback t j s fb = Ret v) \/
  ((exists p conf, pv_get t j s = Ret (PError p conf)) /\ pv_getOrFallback t j s fb = Ret fb).
Proof. exact pv_get_or_fallback. Qed.
Print Assumptions C38_get_value_or_error_partial.

(** with equal bytes in the uninitialised temporaries (no condition for 4-byte types): get()
    reports ValueCorruptionError exactly when the upset is a loose burst *)
Theorem C38_error_iff_loose_burst_refuted : forall t, is_int t = true -> sizeof t <= 4 -> forall j g v x a b c e,
  valid t v -> valid t x -> one_copy_hit v x a b c -> j1 j = g -> j2 j = g -> j3 j = g ->
  (loose_burst (N.lxor v x) -> exists p conf, pv_get t j (mkpv (Some (a, b, c)) e) = Ret (PError p conf)) /\
  (~ loose_burst (N.lxor v x) -> pv_get t j (mkpv (Some (a, b, c)) e) = Ret (PValue v)).
Proof. exact pv_get_hit. Qed.
Print Assumptions C38_error_iff_loose_burst_refuted.
Example C38_nonvacuous : loose_burst 0x13a0 /\ ~ loose_burst 0xf0 /\
  (exists conf, pv_get I32 (mkj 0 0 0 (mkg 0 0 0 0 0 0) (mkg 0 0 0 0 0 0)) (mkpv (Some (7, N.lxor 7 0x13a0, 7)) None) = Ret (PError BURST_ERROR conf)).
Proof. split; [exact loose_witness|]. split; [exact not_loose_witness|]. eexists. vm_compute. reflexivity. Qed.

(** 1-byte types: unequal junk makes get() refuse even a single flipped bit *)
Theorem C38_small_types_junk_refuted : exists j p conf, pv_get I8 j (mkpv (Some (5, 5, 4)) None) = Ret (PError p conf).
Proof. exact small_type_error. Qed.
Print Assumptions C38_small_types_junk_refuted.

(** C39 *)
Theorem C39_get_repairs : forall t, is_int t = true -> sizeof t <= 4 -> forall j s a b c,
  am_copies s = (a, b, c) -> valid t a -> valid t b -> valid t c ->
  exists s' r, am_get t j s = Ret (s', r) /\ bitwise_majority a b c r /\ am_scrubbing s' = am_scrubbing s /\
    (am_scrubbing s = true -> am_copies s' = (r, r, r)) /\
    (am_scrubbing s = false -> s' = s).
Proof. exact am_get_spec. Qed.
Print Assumptions C39_get_repairs.
Theorem C39_scrub_reports_change : forall t, is_int t = true -> forall s v,
  am_copies (fst (am_scrub t s v)) = (v, v, v) /\ am_scrubbing (fst (am_scrub t s v)) = am_scrubbing s /\
  (snd (am_scrub t s v) = true <-> am_copies (fst (am_scrub t s v)) <> am_copies s).
Proof. exact am_scrub_all. Qed.
Print Assumptions C39_scrub_reports_change.
Example C39_nonvacuous :
  am_get I8 (mkj 1 2 3 (mkg 0 0 0 0 0 0) (mkg 0 0 0 0 0 0)) (am_corrupt (am_corrupt (am_new 0x0f) 1 0x3c) 2 0xf1) = Ret (mkam (0x3d, 0x3d, 0x3d) true, 0x3d).
Proof. vm_compute. reflexivity. Qed.

(** C40: round trip; every set of flips that hits no logical bit twice - in particular every single
    stored bit - is corrected by get() and removed by scrub() *)
Theorem C40_roundtrip : forall t j v, is_int t = true -> sizeof t <= 4 -> valid t v -> ib_get t j (ib_set t v) = Ret v.
Proof. exact ib_roundtrip. Qed.
Print Assumptions C40_roundtrip.
Theorem C40_single_stored_bit : forall t j v p, is_int t = true -> sizeof t <= 4 -> valid t v ->
  ib_get t j (N.lxor (ib_set t v) (2 ^ p)) = Ret v /\ ib_scrub t j (N.lxor (ib_set t v) (2 ^ p)) = Ret (ib_set t v, true).
Proof.
  intros t j v p Hi Hs Hv.
  exact (conj (ib_corrects t Hi Hs j v _ Hv (spread_single _ p)) (ib_scrub_restores t j v _ Hi Hs Hv (spread_single _ p))).
Qed.
Print Assumptions C40_single_stored_bit.
Theorem C40_spread_flips_corrected : forall t j v m, is_int t = true -> sizeof t <= 4 -> valid t v -> spread_flips (width t) m ->
  ib_get t j (N.lxor (ib_set t v) m) = Ret v /\ ib_scrub t j (N.lxor (ib_set t v) m) = Ret (ib_set t v, true).
Proof.
  intros t j v m Hi Hs Hv S. exact (conj (ib_corrects t Hi Hs j v m Hv S) (ib_scrub_restores t j v m Hi Hs Hv S)).
Qed.
Print Assumptions C40_spread_flips_corrected.
(** exactly which logical bits are lost *)
Theorem C40_exact_loss : forall t, is_int t = true -> sizeof t <= 4 -> forall j v m, valid t v ->
  exists r, ib_get t j (N.lxor (ib_set t v) m) = Ret r /\ forall i, i < width t ->
    N.testbit r i = xorb (N.testbit v i)
      (maj3 (N.testbit m (stored_at i 0)) (N.testbit m (stored_at i 1)) (N.testbit m (stored_at i 2))).
Proof. exact ib_get_exact. Qed.
Print Assumptions C40_exact_loss.
Example C40_nonvacuous : ib_set I8 0x81 = 0xe00007 /\ spread_flips 8 (2 ^ 5).
Proof. split; [reflexivity|apply spread_single]. Qed.

(** C41 (refuted): two adjacent stored bits belonging to one logical bit flip that bit, for every
    value and position; only the pairs across a logical boundary are harmless *)
Theorem C41_adjacent_flips_corrupt_refuted : forall t j v i c,
  is_int t = true -> sizeof t <= 4 -> valid t v -> i < width t -> c < 2 ->
  ib_get t j (N.lxor (ib_set t v) (N.lxor (2 ^ stored_at i c) (2 ^ (stored_at i c + 1)))) = Ret (N.lxor v (2 ^ i)).
Proof. exact ib_adjacent_breaks. Qed.
Print Assumptions C41_adjacent_flips_corrupt_refuted.
Theorem C41_boundary_pairs_partial : forall t j v i, is_int t = true -> sizeof t <= 4 -> valid t v ->
  ib_get t j (N.lxor (ib_set t v) (N.lxor (2 ^ stored_at i 2) (2 ^ (stored_at i 2 + 1)))) = Ret v.
Proof. intros t j v i Hi Hs Hv. exact (ib_corrects t Hi Hs j v _ Hv (spread_boundary _ i)). Qed.
Print Assumptions C41_boundary_pairs_partial.
Example C41_nonvacuous : valid I32 0xdeadbeef /\ 31 < width I32.
Proof. split; reflexivity. Qed.

(** C68: transform applies the function when get() delivers a value ... *)
Theorem C68_transform_value_partial : forall t j j' f v, (is_int t = true \/ is_nan t v = false /\ is_nan t (f v) = false) ->
  obind (pv_transform t j f (pv_new v)) (pv_get t j') = Ret (PValue (f v)).
Proof. exact transform_value. Qed.
Print Assumptions C68_transform_value_partial.
(** ... but the propagated error is not an error value: reading it is undefined *)
Theorem C68_error_not_propagated_refuted : forall t j j' f s p conf, pv_get t j s = Ret (PError p conf) ->
  obind (pv_transform t j f s) (pv_get t j') = UB UB_uninit.
Proof. exact transform_error. Qed.
Print Assumptions C68_error_not_propagated_refuted.
Example C68_nonvacuous : exists p conf, pv_get I32 (mkj 0 0 0 (mkg 0 0 0 0 0 0) (mkg 0 0 0 0 0 0)) (mkpv (Some (0, 0x13a0, 0)) None) = Ret (PError p conf).
Proof. eexists _, _. vm_compute. reflexivity. Qed.
