(** Properties C117-C123: the radiation-protection simulations (EDAC, TMR, scrubbing) and their metrics. *)
From Coq Require Import List NArith ZArith Bool Reals SpecFloat.
Import ListNotations.
From Verif Require Import Outcome Words Floats FloatsR HealthFloat Edac_Model Edac_Spec Edac_Proofs Edac2_Proofs Edac3_Proofs Edac4_Proofs.

(** C117 *)
Theorem C117_edac : forall m es, bytes m -> (1 <= length m)%nat -> legal_edac es ->
  (N.of_nat (length (edac_strikes (length m) es)) <= INT_MAX)%N ->
  exists m' c, apply_edac m es = Ret (m', c) /\ length m' = length m /\ bytes m' /\
    (forall k, (k < length m)%nat -> nth k m' 0%N = nth k m 0%N <-> recoverable (edac_strikes (length m) es) k = true) /\
    total c = N.of_nat (length (edac_strikes (length m) es)) /\
    corrections c = count (fun k => recoverable (edac_strikes (length m) es) k && damaged (edac_strikes (length m) es) k) (seq 0 (length m)) /\
    (corrections c <= total c)%N.
Proof. exact edac_sim. Qed.
Print Assumptions C117_edac.
Definition upset0 := mkEv BIT_FLIP 0 0.
Definition double1 := mkEv MULTI_BIT_UPSET 1 0.
Definition latch2 := mkEv LATCHUP 2 0.
Example C117_nonvacuous : legal_edac [(upset0, [(true, 3%N)]); (double1, [(true, 0%N); (true, 4%N)]); (latch2, [(true, 1%N); (false, 1%N); (true, 1%N)])] /\
  apply_edac [0x5A; 0x5A; 0x5A]%N [(upset0, [(true, 3%N)]); (double1, [(true, 0%N); (true, 4%N)]); (latch2, [(true, 1%N); (false, 1%N); (true, 1%N)])] =
  Ret ([0x5A; 0x58; 0x5A]%N, mkCounts 2 6).
Proof. split; [|vm_compute; reflexivity]. repeat constructor. Qed.

(** C118 *)
Theorem C118_tmr : forall m es, bytes m -> (1 <= length m)%nat -> (N.of_nat (length m) < 2 ^ 28)%N ->
  (N.of_nat (length (upsets es)) <= INT_MAX)%N -> legal_tmr (length m) es ->
  exists m' c, apply_tmr m es = Ret (m', c) /\ length m' = length m /\ bytes m' /\
    (forall p, In p (cells 8 (length m)) -> bit_at m' p = xorb (bit_at m p) (lost (length m) es p)) /\
    total c = count (upset (length m) es) (cells 8 (length m)) /\
    corrections c = count (fun p => upset (length m) es p && negb (lost (length m) es p)) (cells 8 (length m)).
Proof. exact tmr_sim. Qed.
Print Assumptions C118_tmr.
Example C118_nonvacuous : let d1 := mkTD None None None None None None true true false in
  let d2 := mkTD (Some 1%N) None None (Some 7%N) None None true false true in
  legal_tmr 2 [(upset0, d1); (double1, d2)] /\ apply_tmr [0x5A; 0x5A]%N [(upset0, d1); (double1, d2)] = Ret ([0x5B; 0x5A]%N, mkCounts 2 3).
Proof. split; [|vm_compute; reflexivity]. repeat constructor. Qed.

(** C119 *)
Theorem C119_scrubbing : forall m es, bytes m -> (1 <= length m)%nat -> (count hits es <= INT_MAX)%N ->
  exists c, apply_scrubbing m es = Ret (m, c) /\ total c = count hits es /\
    corrections c = count (fun k => existsb (fun b => inverted (scrub_strikes (length m) es) (k, b)) (seq 0 8)) (seq 0 (length m)) /\
    (corrections c <= total c)%N.
Proof. exact scrub_sim. Qed.
Print Assumptions C119_scrubbing.
Example C119_nonvacuous : apply_scrubbing [1; 2; 3]%N [upset0; double1; double1; latch2; latch2; latch2] = Ret ([1; 2; 3]%N, mkCounts 2 6).
Proof. vm_compute. reflexivity. Qed.

(** C120: for memories that are not empty *)
Theorem C120_defined_partial : forall m r, bytes m -> (1 <= length m)%nat -> (N.of_nat (length m) < 2 ^ 28)%N -> legal_run (length m) r ->
  (length (run_events r) <= MAX_EVENTS)%nat ->
  exists m' c, apply_technique m r = Ret (m', c, calculate_metrics (N.of_nat (length (run_events r))) c) /\
    (corrections c <= total c)%N /\ (total c <= 3 * N.of_nat (length (run_events r)))%N /\ length m' = length m.
Proof. exact defined. Qed.
Print Assumptions C120_defined_partial.
(* without protection every upset is counted, nothing is corrected and the memory stays as it is *)
Theorem C120_unprotected_partial : forall m es, (length es <= MAX_EVENTS)%nat ->
  exists mt, apply_technique m (RNone es) = Ret (m, mkCounts 0 (count (fun e => match etype e with TRANSIENT => false | _ => true end) es), mt).
Proof. exact unprotected. Qed.
Print Assumptions C120_unprotected_partial.
Theorem C120_empty_memory_refuted : (forall es, apply_technique [] (RTMR es) = UB UB_bad_iterator) /\
  (forall es, existsb (fun ed => hits (fst ed)) es = true -> apply_technique [] (REDAC es) = UB UB_div_zero) /\
  (forall es, existsb hits es = true -> apply_technique [] (RScrub es) = UB UB_div_zero).
Proof.
  split; [intros; reflexivity|]. split; intros es H; unfold apply_technique; [rewrite edac_empty by exact H|rewrite scrub_empty by exact H]; reflexivity.
Qed.
Print Assumptions C120_empty_memory_refuted.
Example C120_nonvacuous : exists m' c mt, apply_technique [7]%N (REDAC [(latch2, [(true, 0%N); (true, 1%N); (false, 0%N)])]) = Ret (m', c, mt) /\ total c = 3%N.
Proof. do 3 eexists. split; vm_compute; reflexivity. Qed.

(** C121: with at least one event *)
Theorem C121_metrics_partial : forall m r, bytes m -> (1 <= length m)%nat -> (N.of_nat (length m) < 2 ^ 28)%N -> legal_run (length m) r ->
  (1 <= length (run_events r) <= MAX_EVENTS)%nat ->
  exists m' c mt, apply_technique m r = Ret (m', c, mt) /\
  okd (seu_rate mt) /\ (0 <= R (seu_rate mt) <= 1)%R /\ R (seu_rate mt) = rnd64 (IZR (Z.of_N (total c)) / IZR (8 * Z.of_nat (length (run_events r)))) /\
  okd (ber mt) /\ (0 <= R (ber mt) <= 1)%R /\ (R (ber mt) = 0%R <-> corrections c = total c).
Proof. exact metrics_range. Qed.
Print Assumptions C121_metrics_partial.
Theorem C121_no_events_refuted : forall m r, bytes m -> (1 <= length m)%nat -> (N.of_nat (length m) < 2 ^ 28)%N -> run_events r = [] ->
  exists m' c mt, apply_technique m r = Ret (m', c, mt) /\
  seu_rate mt = S754_nan /\ ber mt = S754_nan /\ cross_section mt = S754_nan /\ mtbf mt = S754_nan.
Proof. exact metrics_empty. Qed.
Print Assumptions C121_no_events_refuted.
Example C121_nonvacuous : exists m' c mt, apply_technique [7]%N (RScrub [upset0; upset0; double1]) = Ret (m', c, mt) /\ fgt (ber mt) (dofZ 0) = true.
Proof. do 3 eexists. split; vm_compute; reflexivity. Qed.

(** C122 *)
Theorem C122_tmr_ber : forall m es m' c mt, bytes m -> (1 <= length m)%nat -> (N.of_nat (length m) < 2 ^ 28)%N -> legal_tmr (length m) es ->
  (1 <= length es <= MAX_EVENTS)%nat -> apply_technique m (RTMR es) = Ret (m', c, mt) -> (R (ber mt) = 0%R <-> m' = m).
Proof. exact tmr_ber. Qed.
Print Assumptions C122_tmr_ber.
Example C122_nonvacuous : let d := mkTD None None None None None None true false false in
  exists c mt, apply_technique [7; 8]%N (RTMR [(upset0, d); (double1, d)]) = Ret ([7; 8]%N, c, mt) /\ total c = 2%N /\ ber mt = dofZ 0.
Proof. do 2 eexists. split; [vm_compute; reflexivity|]. split; vm_compute; reflexivity. Qed.

(** C123: one direction for EDAC; the other direction fails for EDAC, scrubbing and no protection *)
Theorem C123_edac_ber_partial : forall m es m' c mt, bytes m -> (1 <= length m)%nat -> (N.of_nat (length m) < 2 ^ 28)%N -> legal_edac es ->
  (1 <= length es <= MAX_EVENTS)%nat -> apply_technique m (REDAC es) = Ret (m', c, mt) -> R (ber mt) = 0%R -> m' = m.
Proof. exact edac_ber. Qed.
Print Assumptions C123_edac_ber_partial.
Theorem C123_intact_but_ber_refuted :
  (exists c mt, apply_technique [7]%N (REDAC [(double1, [(true, 0%N); (false, 0%N)])]) = Ret ([7]%N, c, mt) /\ fgt (ber mt) (dofZ 0) = true) /\
  (exists c mt, apply_technique [7]%N (RScrub [upset0; double1]) = Ret ([7]%N, c, mt) /\ fgt (ber mt) (dofZ 0) = true) /\
  (exists c mt, apply_technique [7]%N (RNone [upset0]) = Ret ([7]%N, c, mt) /\ fgt (ber mt) (dofZ 0) = true).
Proof. repeat split; do 2 eexists; (split; [vm_compute; reflexivity|vm_compute; reflexivity]). Qed.
Print Assumptions C123_intact_but_ber_refuted.
Example C123_nonvacuous : exists c mt, apply_technique [7; 8]%N (REDAC [(upset0, [(true, 6%N)]); (mkEv BIT_FLIP 1 0, [(false, 6%N)])]) = Ret ([7; 8]%N, c, mt) /\ total c = 2%N /\ ber mt = dofZ 0.
Proof. do 2 eexists. split; [vm_compute; reflexivity|]. split; vm_compute; reflexivity. Qed.
