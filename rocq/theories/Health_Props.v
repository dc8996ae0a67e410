(** Properties C21-C26, C62, C63: the health-tracking containers. *)
From Coq Require Import List NArith ZArith Bool SpecFloat Lia.
Import ListNotations.
From Verif Require Import Outcome Words Arith Floats Crc_Model CrcTMR_Model Health_Model Health_Spec Health_Proofs HealthW_Proofs.
Local Open Scope N_scope.

(** C21: for every state, clock and draw; the callback, if any, does not call back into the object *)
Theorem C21_get_returns_agreed_value : forall t now draw s,
  locked s = false -> (forall r, cb s = Some r -> r = false) ->
  let a := ev (e0 s) in let b := ev (e1 s) in let c := ev (e2 s) in
  exists r s', te_get t now draw s = Ret (r, s') /\ locked s' = false /\
  In r [a; b; c] /\
  (forall x y, (x, y) = (a, b) \/ (x, y) = (a, c) \/ (x, y) = (b, c) -> eqT t x y = true -> eqT t r x = true).
Proof. exact te_get_value. Qed.
Print Assumptions C21_get_returns_agreed_value.
Example C21_nonvacuous :
  let s := te_corrupt 2 9 0 (te_construct I32 7 None 0) in
  locked s = false /\ cb s = None /\ eqT I32 (ev (e0 s)) (ev (e1 s)) = true /\ ev (e2 s) = 9.
Proof. repeat split. Qed.

(** C22 *)
Theorem C22_health_in_range : forall t v c now l s, Forall (fun o => is_raw o = false) l ->
  erun t (te_construct t v c now) l = Ret s -> Forall (between d01 d1) (te_healths s).
Proof. exact te_health_range. Qed.
Print Assumptions C22_health_in_range.
Theorem C22_health_positive_with_setRawCopy : forall t v c now l s,
  erun t (te_construct t v c now) l = Ret s ->
  Forall (fun h => flt d0 h = true /\ fle h d1 = true) (te_healths s).
Proof. exact te_health_range_raw. Qed.
Print Assumptions C22_health_positive_with_setRawCopy.
Example C22_nonvacuous :
  exists s, erun I32 (te_construct I32 7 (Some false) 0)
    [TCorrupt 1 3 0; TVerify; TGet 6000 d0; TSetRaw 2 8; TGet 6001 d0; TRegenerate] = Ret s.
Proof. eexists. vm_compute. reflexivity. Qed.

(** C23: clone() always re-locks the mutex it holds; every other operation returns with it released *)
Theorem C23_clone_refuted : forall t now draw s, te_clone t now draw s = UB UB_relock.
Proof. exact te_clone_deadlocks. Qed.
Print Assumptions C23_clone_refuted.
Theorem C23_other_operations_return_partial : forall t l s,
  locked s = false -> (forall r, cb s = Some r -> r = false) ->
  exists s', erun t s l = Ret s' /\ locked s' = false /\ cb s' = cb s.
Proof. exact te_run_returns. Qed.
Print Assumptions C23_other_operations_return_partial.

(** C24 *)
Theorem C24_integers : forall sg t s v k u ck, is_int t = true -> (k < 3)%nat -> valid t v -> valid t u ->
  exists s' s2, hw_get sg t (hw_corrupt (hw_set t s v) k u ck) = Ret (v, s') /\
    hw_repair sg t (hw_corrupt (hw_set t s v) k u ck) = Ret s2 /\
    forall i, hv (hsel s2 i) = v /\ hk (hsel s2 i) = hw_crc t v.
Proof. exact hw_one_corrupt_int. Qed.
Print Assumptions C24_integers.
Theorem C24_all_types_partial : forall sg t s v k u ck,
  (k < 3)%nat -> eqT t v v = true -> valid t v -> valid t u ->
  (is_nan t u = false \/ ck <> hw_crc t u) ->
  exists r s', hw_get sg t (hw_corrupt (hw_set t s v) k u ck) = Ret (r, s') /\ eqT t r v = true.
Proof. exact hw_one_corrupt. Qed.
Print Assumptions C24_all_types_partial.
Theorem C24_repair_restores : forall sg t s v s', hw_get sg t s = Ret (v, s') -> exists s2, hw_repair sg t s = Ret s2 /\
  forall i, hv (hsel s2 i) = v /\ hk (hsel s2 i) = hw_crc t v.
Proof. exact hw_repaired. Qed.
Print Assumptions C24_repair_restores.
(* a NaN with a matching checksum is put into a std::map as a key *)
Theorem C24_nan_key_refuted : forall sg t s v u, eqT t v v = true -> is_nan t u = true ->
  hw_get sg t (hw_corrupt (hw_set t s v) 0 u (hw_crc t u)) = UB UB_comparator.
Proof. exact hw_nan_ub. Qed.
Print Assumptions C24_nan_key_refuted.
Example C24_nonvacuous : valid I32 5 /\ valid I32 0xFFFFFFFF /\ is_nan F64 0x7FF8000000000000 = true.
Proof. repeat split. Qed.

(** C25: refuted by a reachable state; the strongest version that holds of every reachable state *)
Theorem C25_minority_wins_refuted : exists l s s', hrun true I32 (hw_construct I32 5) l = Ret s /\
  hv (h0 s) = 5 /\ hk (h0 s) = hw_crc I32 5 /\ hv (h1 s) = 5 /\ hk (h1 s) = hw_crc I32 5 /\
  hw_get true I32 s = Ret (9, s').
Proof. exact (ex_intro _ c25_history hw_minority_wins). Qed.
Print Assumptions C25_minority_wins_refuted.
Theorem C25_pair_wins_partial : forall sg t v0 l s v k,
  hrun sg t (hw_construct t v0) l = Ret s -> eqT t v v = true -> (k < 3)%nat ->
  (forall i, (i < 3)%nat -> i <> k -> hv (hsel s i) = v /\ hk (hsel s i) = hw_crc t v) ->
  hk (hsel s k) <> hw_crc t (hv (hsel s k)) \/
  (valid t v /\ valid t (hv (hsel s k)) /\ is_nan t (hv (hsel s k)) = false /\
   exists i, (i < 3)%nat /\ i <> k /\ fle (hh (hsel s k)) (hh (hsel s i)) = true) ->
  exists r s', hw_get sg t s = Ret (r, s') /\ eqT t r v = true.
Proof. exact hw_reachable_pair. Qed.
Print Assumptions C25_pair_wins_partial.
Example C25_nonvacuous : exists s, hrun true I32 (hw_construct I32 5) [HCorrupt 0 4 0; HGet; HRepair; HCorrupt 0 9 (hw_crc I32 9)] = Ret s /\
  hv (h1 s) = 5 /\ hk (h1 s) = hw_crc I32 5 /\ hv (h2 s) = 5 /\ hk (h2 s) = hw_crc I32 5 /\
  hv (h0 s) = 9 /\ fle (hh (h0 s)) (hh (h1 s)) = true.
Proof. eexists. split; [vm_compute; reflexivity|]. vm_compute. repeat split. Qed.

(** C26 *)
Theorem C26_ranges : forall sg t v l s, hrun sg t (hw_construct t v) l = Ret s ->
  Forall (between d005 d1) (hw_healths s) /\ Forall (fun h => (length h <= 10)%nat) (hw_hists s).
Proof. exact hw_ranges. Qed.
Print Assumptions C26_ranges.
Theorem C26_history_is_most_recent : forall bs c, (length (hist c) <= 10)%nat ->
  hist (fold_left (fun c b => updateHealthScore b c) bs c) = lastn 10 (hist c ++ bs).
Proof. exact hist_after_votes. Qed.
Print Assumptions C26_history_is_most_recent.
Example C26_nonvacuous : exists s, hrun true I32 (hw_construct I32 5) c25_history = Ret s.
Proof. eexists. vm_compute. reflexivity. Qed.

(** C62: the error callback runs with the mutex held *)
Theorem C62_reentrant_callback_refuted : forall t s, locked s = false -> cb s = Some true ->
  te_crc t (ev (e0 s)) <> ek (e0 s) -> te_verify t s = UB UB_relock.
Proof. exact te_reentrant_callback. Qed.
Print Assumptions C62_reentrant_callback_refuted.
Example C62_nonvacuous : let s := te_corrupt 0 8 0 (te_construct I32 7 (Some true) 0) in
  locked s = false /\ cb s = Some true /\ te_crc I32 (ev (e0 s)) <> ek (e0 s).
Proof. vm_compute. repeat split. discriminate. Qed.

(** C63: before the verification interval has passed, get() returns a copy whose checksum is wrong although
    two checksum-valid copies exist *)
Theorem C63_bad_crc_returned_refuted : forall t v a b now0 now, (now - now0 < 5000)%Z ->
  eqT t a b = false -> eqT t a v = false -> eqT t b v = false ->
  exists s s', erun t (te_construct t v None now0) [TCorrupt 0 a (N.lxor (te_crc t a) 1); TCorrupt 1 b (te_crc t b)] = Ret s /\
    ek (e0 s) <> te_crc t (ev (e0 s)) /\ ek (e1 s) = te_crc t (ev (e1 s)) /\ ek (e2 s) = te_crc t (ev (e2 s)) /\
    te_get t now d0 s = Ret (ev (e0 s), s').
Proof. exact te_bad_crc_returned. Qed.
Print Assumptions C63_bad_crc_returned_refuted.
Example C63_nonvacuous : eqT I32 1 2 = false /\ eqT I32 1 3 = false /\ eqT I32 2 3 = false.
Proof. repeat split. Qed.
