(** Model of HA = include/rad_ml/hw/hardware_acceleration.hpp: HardwareAccelerator, HardwareAcceleratorFactory and
    TMRAcceleratorIntegration.  std::exp is a parameter; a float of a tensor is its 32-bit pattern (PNN_Model).  std::to_string of a double is
    a parameter [show].  The error counter only moves in log_error, which is protected and which the header never calls; the clock it
    reads is left out.  A class derived from HardwareAccelerator is a function [run] from its state, the input and the buffer to its answer:
    the header itself makes only objects of the base class ([base_run]).  The performance maps are constants and left out. *)
From Coq Require Import String List NArith ZArith Bool Arith SpecFloat.
Import ListNotations.
From Verif Require Import Outcome Words Floats Bits_Model PNN_Model.
Local Open Scope outcome_scope.

(* HA:19-26 *)
Inductive atype := NO_ACCEL | RAD_HARD_CPU | RAD_HARD_GPU | RAD_TOL_FPGA | RAD_TOL_ASIC | HYBRID_SYSTEM.
(* HA:33-39 *)
Inductive scrub := NO_SCRUB | PERIODIC | CONTINUOUS | TRIGGERED | ADAPTIVE.
(* HA:44-49 *)
Inductive htmr := NO_TMR | BLOCK_LEVEL | REGISTER_LEVEL | COMPLETE.
(* HA:54-71 *)
Record acfg := mkA { a_type : atype; a_ecc : bool; a_tmr : htmr; a_scrub : scrub; a_interval : sf; a_power : sf; a_perf : sf; a_tol : sf; a_seu : sf }.
Definition default_acfg : acfg :=
  mkA NO_ACCEL true NO_TMR PERIODIC (dofZ 10) (dofZ 5) (dofZ 1) (S754_zero false) (S754_zero false).
(* HA:410-411 *)
Definition with_type (t : atype) (c : acfg) : acfg :=
  mkA t (a_ecc c) (a_tmr c) (a_scrub c) (a_interval c) (a_power c) (a_perf c) (a_tol c) (a_seu c).
Definition atype_eqb (x y : atype) : bool :=
  match x, y with
  | NO_ACCEL, NO_ACCEL | RAD_HARD_CPU, RAD_HARD_CPU | RAD_HARD_GPU, RAD_HARD_GPU | RAD_TOL_FPGA, RAD_TOL_FPGA
  | RAD_TOL_ASIC, RAD_TOL_ASIC | HYBRID_SYSTEM, HYBRID_SYSTEM => true
  | _, _ => false
  end.

Local Open Scope string_scope.
(* HA:74-84 *)
Definition type_string (t : atype) : string :=
  match t with NO_ACCEL => "None" | RAD_HARD_CPU => "Rad-Hard CPU" | RAD_HARD_GPU => "Rad-Hard GPU" | RAD_TOL_FPGA => "Rad-Tolerant FPGA"
             | RAD_TOL_ASIC => "Rad-Tolerant ASIC" | HYBRID_SYSTEM => "Hybrid System" end.
(* HA:87-95 *)
Definition tmr_string (t : htmr) : string :=
  match t with NO_TMR => "None" | BLOCK_LEVEL => "Block-Level" | REGISTER_LEVEL => "Register-Level" | COMPLETE => "Complete" end.
(* HA:98-107 *)
Definition scrub_string (s : scrub) : string :=
  match s with NO_SCRUB => "None" | PERIODIC => "Periodic" | CONTINUOUS => "Continuous" | TRIGGERED => "Triggered" | ADAPTIVE => "Adaptive" end.

(** ** HardwareAccelerator *)
(* HA:343-348 *)
Record accel := mkAcc { cfg : acfg; errors : N }.
(* HA:130-132 *)
Definition accel_new (c : acfg) : accel := mkAcc c 0.
(* HA:144-147 *)
Definition is_available (a : accel) : bool := negb (atype_eqb (a_type (cfg a)) NO_ACCEL).
(* HA:154-157 *)
Definition accel_initialize (a : accel) : bool := is_available a.
(* HA:166-170: the buffer is left as it is *)
Definition base_run (a : accel) (input buffer : list N) : accel * list N * bool := (a, buffer, false).
(* HA:199-201 *)
Definition trigger_scrubbing (a : accel) : bool := false.
(* HA:218-221 *)
Definition update_config (a : accel) (c : acfg) : accel * bool := (mkAcc c (errors a), true).
(* HA:228-234: total, uncorrectable, corrected *)
Definition error_stats (a : accel) : N * N * N := (errors a, 0%N, 0%N).

Definition newline : string := String (Ascii.ascii_of_nat 10) EmptyString.
Definition line (s : string) : string := s ++ newline.
Section Show.
Variables (show : sf -> string) (show_n : N -> string).
(* HA:241-259 *)
Definition diagnostics (a : accel) : string :=
  let c := cfg a in
  line "Hardware Accelerator Diagnostics" ++ line "--------------------------------" ++
  line ("Type: " ++ type_string (a_type c)) ++
  line ("Hardware ECC: " ++ (if a_ecc c then "Enabled" else "Disabled")) ++
  line ("TMR Approach: " ++ tmr_string (a_tmr c)) ++
  line ("Scrubbing Strategy: " ++ scrub_string (a_scrub c)) ++
  (match a_scrub c with NO_SCRUB => "" | _ => line ("Scrubbing Interval: " ++ show (a_interval c) ++ " sec") end) ++
  line ("Power Budget: " ++ show (a_power c) ++ " W") ++
  line ("Performance Factor: " ++ show (a_perf c)) ++
  line ("Total Errors: " ++ show_n (errors a)).
End Show.
Local Close Scope string_scope.

(* HA:272-291 *)
Definition type_score (t : atype) : sf :=
  match t with
  | RAD_HARD_CPU => dlit 95 100 | RAD_HARD_GPU => dlit 92 100 | RAD_TOL_FPGA => dlit 90 100 | RAD_TOL_ASIC => dlit 98 100
  | HYBRID_SYSTEM => dlit 93 100 | NO_ACCEL => dlit 85 100
  end.
(* HA:294-296 *)
Definition add_ecc (ecc : bool) (b : sf) : sf := if ecc then dadd b (dlit 3 100) else b.
(* HA:299-311 *)
Definition add_tmr (t : htmr) (b : sf) : sf :=
  match t with COMPLETE => dadd b (dlit 5 100) | REGISTER_LEVEL => dadd b (dlit 4 100) | BLOCK_LEVEL => dadd b (dlit 2 100) | NO_TMR => b end.
(* HA:314-331 *)
Definition add_scrub (t : atype) (s : scrub) (b : sf) : sf :=
  if atype_eqb t RAD_TOL_FPGA then
    match s with CONTINUOUS => dadd b (dlit 3 100) | PERIODIC => dadd b (dlit 2 100) | TRIGGERED => dadd b (dlit 1 100)
               | ADAPTIVE => dadd b (dlit 4 100) | NO_SCRUB => b end
  else b.
(* HA:270-331 *)
Definition base_reliability (c : acfg) : sf :=
  add_scrub (a_type c) (a_scrub c) (add_tmr (a_tmr c) (add_ecc (a_ecc c) (type_score (a_type c)))).
Section Lib.
Variable fexp : sf -> sf.
(* HA:334-339: std::min(0.999, x) *)
Definition env_factor (seu : sf) : sf := fexp (dmul (dofZ (-10)) seu).
Definition calculate_reliability (a : accel) (seu : sf) : sf :=
  fmin (dlit 999 1000) (dmul (base_reliability (cfg a)) (env_factor seu)).

(** ** HardwareAcceleratorFactory *)
(* HA:383-396 *)
Definition detect_available (t : atype) : bool :=
  match t with NO_ACCEL => true | RAD_HARD_CPU => false | RAD_HARD_GPU => false | RAD_TOL_FPGA => false | RAD_TOL_ASIC => false | HYBRID_SYSTEM => false end.
(* HA:405-416 *)
Definition create_accelerator (t : atype) (c : acfg) : accel := accel_new (with_type t c).
(* HA:424-452 *)
Definition create_best_available (c : acfg) : accel :=
  if detect_available RAD_TOL_ASIC then create_accelerator RAD_TOL_ASIC c
  else if detect_available RAD_HARD_GPU then create_accelerator RAD_HARD_GPU c
  else if detect_available RAD_TOL_FPGA then create_accelerator RAD_TOL_FPGA c
  else if detect_available RAD_HARD_CPU then create_accelerator RAD_HARD_CPU c
  else if detect_available HYBRID_SYSTEM then create_accelerator HYBRID_SYSTEM c
  else create_accelerator NO_ACCEL c.

(** ** TMRAcceleratorIntegration *)
(* HA:603-607 *)
Record integ := mkI { acc : accel; use_sw : bool }.
(* HA:472-475 *)
Definition integ_new (c : acfg) : integ := mkI (create_best_available c) true.
(* HA:482-495 *)
Definition integ_initialize (i : integ) : integ * bool :=
  let hw := accel_initialize (acc i) in
  (match a_tmr (cfg (acc i)) with COMPLETE => mkI (acc i) false | _ => i end, hw).

(* HA:528-536 *)
Definition vote3 (a b c : N) : N :=
  if f32eq a b || f32eq a c then a
  else if f32eq b c then b
  else f32div (f32add (f32add a b) c) 1077936128%N.
(* operator[] of a vector *)
Definition elem (l : list N) (j : nat) : outcome N := match nth_error l j with Some x => Ret x | None => UB UB_array_index end.
(* HA:527-537, from element j on: the buffer's own elements are overwritten one by one *)
Fixpoint vote_from (o0 o1 o2 : list N) (j : nat) (buffer : list N) : outcome (list N) :=
  match buffer with
  | [] => Ret []
  | _ :: r => a <- elem o0 j ;; b <- elem o1 j ;; c <- elem o2 j ;; t <- vote_from o0 o1 o2 (S j) r ;; Ret (vote3 a b c :: t)
  end.
(* vector::resize of an empty vector: n zeros *)
Definition zeros (n : nat) : list N := repeat 0%N n.
(* HA:504-540 *)
Definition tmr_execute {St} (run : St -> list N -> list N -> St * list N * bool) (use_sw_tmr : bool) (s : St) (input buffer : list N)
  : outcome (St * list N * bool) :=
  if negb use_sw_tmr then Ret (run s input buffer)
  else
    let '(s1, o0, k0) := run s input (zeros (length buffer)) in
    let '(s2, o1, k1) := run s1 input (zeros (length buffer)) in
    let '(s3, o2, k2) := run s2 input (zeros (length buffer)) in
    if negb (k0 && k1 && k2) then Ret (s3, buffer, false)
    else voted <- vote_from o0 o1 o2 0 buffer ;; Ret (s3, voted, true).
(* HA:504-540 with the accelerator the constructor made *)
Definition integ_execute (i : integ) (input buffer : list N) : outcome (integ * list N * bool) :=
  r <- tmr_execute base_run (use_sw i) (acc i) input buffer ;;
  let '(a, out, ok) := r in Ret (mkI a (use_sw i), out, ok).
(* HA:575-577 *)
Definition set_software_tmr (i : integ) (b : bool) : integ := mkI (acc i) b.
(* HA:547-549: get_accelerator().update_config(c) *)
Definition integ_update_config (i : integ) (c : acfg) : integ := mkI (fst (update_config (acc i) c)) (use_sw i).
(* HA:593-594 *)
Definition two_of_three (p : sf) : sf :=
  dadd (dmul (dmul (dmul (dofZ 3) p) p) (dsub (dofZ 1) p)) (dmul (dmul p p) p).
(* HA:585-600 *)
Definition system_reliability (i : integ) (seu : sf) : sf :=
  let hw := calculate_reliability (acc i) seu in
  if use_sw i then two_of_three hw else hw.
End Lib.
Section Show2.
Variables (show : sf -> string) (show_n : N -> string).
Local Open Scope string_scope.
(* HA:556-568 *)
Definition integ_diagnostics (i : integ) : string :=
  line "TMR Accelerator Integration Diagnostics" ++ line "----------------------------------------" ++
  line ("Hardware Accelerator: " ++ type_string (a_type (cfg (acc i)))) ++
  line ("Software TMR: " ++ (if use_sw i then "Enabled" else "Disabled")) ++ newline ++
  diagnostics show show_n (acc i).
End Show2.
