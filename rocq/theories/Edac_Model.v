(** Model of src/testing/protection_techniques.cpp (PT), the part its header exports, and of the Hamming code it uses.
    A byte is an [N] below 256, a std::vector<uint8_t> the list of its bytes.  The random draws are inputs: each event
    comes with what the generator answers while it is processed.  The `int` counters only grow, so they are computed
    without a bound and compared with INT_MAX at the end; they start at 0, as applyProtectionTechnique sets them.  Warnings written to std::cout, the descriptions of events and the
    class ReedSolomonCode (PT:73-179, private to the file and never used) are left out. *)
From Coq Require Import List NArith ZArith Bool SpecFloat.
Import ListNotations.
From Verif Require Import Outcome Words Floats.
Local Open Scope N_scope.

(* testing/radiation_simulator.hpp:38-51 *)
Inductive effect := BIT_FLIP | MULTI_BIT_UPSET | LATCHUP | TRANSIENT.
Record event := mkEv { etype : effect; eoffset : N; ebits : N }.
(* PT: event.type != SINGLE_EVENT_TRANSIENT *)
Definition hits (e : event) : bool := match etype e with TRANSIENT => false | _ => true end.
(* testing/protection_techniques.hpp:16-24 (let_threshold is always 0) *)
Record counts := mkCounts { corrections : N; total : N }.
Definition INT_MAX : N := 2147483647.
Definition int_result {A} (c : counts) (a : A) : outcome (A * counts) :=
  if (corrections c <=? INT_MAX) && (total c <=? INT_MAX) then Ret (a, c) else UB UB_signed_overflow.

Fixpoint set_at (l : list N) (i : nat) (x : N) : list N :=
  match l, i with [], _ => [] | _ :: r, O => x :: r | h :: r, S k => h :: set_at r k x end.
(* l[i] ^= (1 << b) on uint8_t *)
Definition flip_at (l : list N) (i b : N) : list N :=
  set_at l (N.to_nat i) (wrap 8 (N.lxor (nth (N.to_nat i) l 0) (N.shiftl 1 b))).

(** * HammingCode, PT:12-70 *)
Definition bit_of (x i : N) : N := N.land (N.shiftr x i) 1.
(* PT:19-33 *)
Definition hamming_encode (data : N) : N :=
  let d1 := bit_of data 0 in let d2 := bit_of data 1 in let d3 := bit_of data 2 in let d4 := bit_of data 3 in
  let p1 := N.lxor (N.lxor d1 d2) d4 in
  let p2 := N.lxor (N.lxor d1 d3) d4 in
  let p3 := N.lxor (N.lxor d2 d3) d4 in
  N.lor (N.lor (N.lor (N.lor (N.lor (N.lor (N.shiftl p1 0) (N.shiftl p2 1)) (N.shiftl d1 2)) (N.shiftl p3 3)) (N.shiftl d2 4)) (N.shiftl d3 5)) (N.shiftl d4 6).
(* PT:36-69 *)
Definition hamming_decode (cw : N) : N * bool :=
  let p1 := bit_of cw 0 in let p2 := bit_of cw 1 in let d1 := bit_of cw 2 in let p3 := bit_of cw 3 in
  let d2 := bit_of cw 4 in let d3 := bit_of cw 5 in let d4 := bit_of cw 6 in
  let s1 := N.lxor (N.lxor (N.lxor p1 d1) d2) d4 in
  let s2 := N.lxor (N.lxor (N.lxor p2 d1) d3) d4 in
  let s3 := N.lxor (N.lxor (N.lxor p3 d2) d3) d4 in
  let error_pos := N.lor (N.lor (N.shiftl s3 2) (N.shiftl s2 1)) s1 in
  let cw' := if error_pos =? 0 then cw else wrap 8 (N.lxor cw (N.shiftl 1 (error_pos - 1))) in
  let d1 := bit_of cw' 2 in let d2 := bit_of cw' 4 in let d3 := bit_of cw' 5 in let d4 := bit_of cw' 6 in
  (N.lor (N.lor (N.lor (N.shiftl d1 0) (N.shiftl d2 1)) (N.shiftl d3 2)) (N.shiftl d4 3), negb (error_pos =? 0)).

(** * applyTMR, PT:222-327 *)
(* what the generator answers for one event: for each copy the location and the bit ([None]: dis(gen) < 0.7, the event's own
   one is used; [Some x]: loc_dis or bit_dis answers x) and whether dis(gen) < 0.3 *)
Record tmr_draw := mkTD { loc1 : option N; loc2 : option N; loc3 : option N; bit1 : option N; bit2 : option N; bit3 : option N;
                          hit1 : bool; hit2 : bool; hit3 : bool }.
Definition or_own (o : option N) (own : N) : N := match o with None => own | Some x => x end.
(* PT:242-272 *)
Definition tmr_step (size : N) (st : list N * list N * list N) (ed : event * tmr_draw) : list N * list N * list N :=
  let '(m, c1, c2) := st in
  let '(e, d) := ed in
  if hits e then
    let base_loc := eoffset e mod size in
    let base_bit := ebits e mod 8 in
    (if hit1 d then flip_at m (or_own (loc1 d) base_loc) (or_own (bit1 d) base_bit) else m,
     if hit2 d then flip_at c1 (or_own (loc2 d) base_loc) (or_own (bit2 d) base_bit) else c1,
     if hit3 d then flip_at c2 (or_own (loc3 d) base_loc) (or_own (bit3 d) base_bit) else c2)
  else st.
(* PT:278-313: one bit, then one byte, then all bytes; the state is (corrected_byte, (corrected_bits, total_errors_found)) *)
Definition vote_bit (o m c1 c2 : N) (b : N) (st : N * (N * N)) : N * (N * N) :=
  let '(byte, (cor, tot)) := st in
  let bit0 := bit_of m b in let bit1 := bit_of c1 b in let bit2 := bit_of c2 b in
  let orig := bit_of o b in
  let majority := if 2 <=? bit0 + bit1 + bit2 then 1 else 0 in
  let '(cor, tot) :=
    if negb (bit0 =? orig) || negb (bit1 =? orig) || negb (bit2 =? orig)
    then (if majority =? orig then cor + 1 else cor, tot + 1) else (cor, tot) in
  (N.lor byte (N.shiftl majority b), (cor, tot)).
Fixpoint vote_all (os ms c1s c2s : list N) (st : N * N) : list N * (N * N) :=
  match os, ms, c1s, c2s with
  | o :: os, m :: ms, c1 :: c1s, c2 :: c2s =>
    let '(byte, st) := for_up 8 0 (vote_bit o m c1 c2) (0, st) in
    let '(rest, st) := vote_all os ms c1s c2s st in
    (byte :: rest, st)
  | _, _, _, _ => ([], st)
  end.
(* static_cast<int> of a size_t *)
Definition to_int (x : N) : Z := let y := Z.of_N (x mod 2 ^ 32) in if (y <? 2 ^ 31)%Z then y else (y - 2 ^ 32)%Z.
(* PT:222-327; result.total_errors++ (PT:244) is overwritten at the end (PT:317) but may overflow.
   PT:236: uniform_int_distribution<>(0, memory.size() - 1) needs 0 <= its second argument *)
Definition apply_tmr (memory : list N) (events : list (event * tmr_draw)) : outcome (list N * counts) :=
  let size := N.of_nat (length memory) in
  if (to_int ((size + 2 ^ 64 - 1) mod 2 ^ 64) <? 0)%Z then UB UB_bad_iterator
  else if INT_MAX <? N.of_nat (length (filter (fun ed => hits (fst ed)) events)) then UB UB_signed_overflow
  else
    let '(m, c1, c2) := fold_left (tmr_step size) events (memory, memory, memory) in
    let '(m', (cor, tot)) := vote_all memory m c1 c2 (0, 0) in
    int_result (mkCounts cor tot) m'.

(** * applyEDAC, PT:329-406 *)
(* PT:342-350 *)
Definition edac_encode (memory : list N) : list N :=
  flat_map (fun x => [hamming_encode (N.land x 0x0F); hamming_encode (N.land (N.shiftr x 4) 0x0F)]) memory.
(* PT:365-370 *)
Definition num_bits (e : event) : nat := match etype e with MULTI_BIT_UPSET => 2 | LATCHUP => 3 | _ => 1 end.
(* one drawn flip: (dis(gen) < 0.7, bit_dis(gen)), PT:375-378 *)
Definition edac_flip (loc : N) (enc : list N) (d : bool * N) : list N :=
  flip_at enc (loc + (if fst d then 0 else 1)) (snd d).
(* PT:359-382; [snd ed] lists what is drawn for the event: at least num_bits pairs *)
Definition edac_step (size : N) (st : list N * N) (ed : event * list (bool * N)) : list N * N :=
  let '(enc, tot) := st in
  let '(e, ds) := ed in
  if hits e then (fold_left (edac_flip ((eoffset e mod size) * 2)) (firstn (num_bits e) ds) enc, tot + N.of_nat (num_bits e)) else st.
(* PT:385-405 *)
Fixpoint edac_decode (orig enc : list N) (cor : N) : list N * N :=
  match orig, enc with
  | o :: os, e0 :: e1 :: es =>
    let '(lower, f0) := hamming_decode e0 in
    let '(upper, f1) := hamming_decode e1 in
    let corrected := N.lor (wrap 8 (N.shiftl upper 4)) lower in
    let cor := if (corrected =? o) && (f0 || f1) then cor + 1 else cor in
    let '(rest, cor) := edac_decode os es cor in
    (corrected :: rest, cor)
  | _, _ => ([], cor)
  end.
Definition apply_edac (memory : list N) (events : list (event * list (bool * N))) : outcome (list N * counts) :=
  let size := N.of_nat (length memory) in
  if (size =? 0) && existsb (fun ed => hits (fst ed)) events then UB UB_div_zero
  else
    let '(enc, tot) := fold_left (edac_step size) events (edac_encode memory, 0) in
    let '(m', cor) := edac_decode memory enc 0 in
    int_result (mkCounts cor tot) m'.

(** * applyScrubbing, PT:408-433 *)
Definition scrub_step (size : N) (st : list N * N) (e : event) : list N * N :=
  if hits e then (flip_at (fst st) (eoffset e mod size) (ebits e mod 8), snd st + 1) else st.
Fixpoint scrub_back (mem backup : list N) (cor : N) : list N * N :=
  match mem, backup with
  | m :: ms, b :: bs =>
    let '(x, cor) := if m =? b then (m, cor) else (b, cor + 1) in
    let '(rest, cor) := scrub_back ms bs cor in
    (x :: rest, cor)
  | _, _ => ([], cor)
  end.
Definition apply_scrubbing (memory : list N) (events : list event) : outcome (list N * counts) :=
  let size := N.of_nat (length memory) in
  if (size =? 0) && existsb hits events then UB UB_div_zero
  else
    let '(m, tot) := fold_left (scrub_step size) events (memory, 0) in
    let '(m', cor) := scrub_back m memory 0 in
    int_result (mkCounts cor tot) m'.

(** * applyProtectionTechnique, PT:181-220, and calculateMetrics, PT:435-455 *)
(* PT:206-213 *)
Definition apply_none (memory : list N) (events : list event) : outcome (list N * counts) :=
  int_result (mkCounts 0 (N.of_nat (length (filter hits events)))) memory.
(* seu_rate, cross_section, mtbf, ber *)
Record metrics := mkMetrics { seu_rate : sf; cross_section : sf; mtbf : sf; ber : sf }.
Definition calculate_metrics (nevents : N) (c : counts) : metrics :=
  let n := dofZ (Z.of_N nevents) in
  let total_bits := dmul n (dofZ 8) in
  let total_time := dofZ 1 in
  let tot := dofZ (Z.of_N (total c)) in
  let rate := ddiv tot (dmul total_bits total_time) in
  mkMetrics rate (ddiv tot (dmul total_bits n)) (ddiv (dofZ 1) (dmul rate (dofZ 3600)))
            (ddiv (dofZ (Z.of_N (total c) - Z.of_N (corrections c))) total_bits).
Inductive run := RNone (es : list event) | RTMR (es : list (event * tmr_draw)) | REDAC (es : list (event * list (bool * N))) | RScrub (es : list event).
Definition run_events (r : run) : list event :=
  match r with RNone es | RScrub es => es | RTMR es => map fst es | REDAC es => map fst es end.
Definition apply_technique (memory : list N) (r : run) : outcome (list N * counts * metrics) :=
  let o := match r with
           | RNone es => apply_none memory es
           | RTMR es => apply_tmr memory es
           | REDAC es => apply_edac memory es
           | RScrub es => apply_scrubbing memory es
           end in
  match o with
  | Ret (m, c) => Ret (m, c, calculate_metrics (N.of_nat (length (run_events r))) c)
  | UB r => UB r | Throw e => Throw e | OutOfFuel => OutOfFuel
  end.
