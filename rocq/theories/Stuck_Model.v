(** SB = include/rad_ml/tmr/enhanced_stuck_bit_tmr.hpp (tmr::EnhancedStuckBitTMR<T>)

    The primary template is for integral T: values are bit patterns of [w] = 8*sizeof(T) bits; >> and
    << on a signed T act on the two's complement pattern, so (x >> bit) & 1 is bit [bit].  The
    specialisations for float and double are the [sf_] definitions.  The bitsets are N masks, the
    per-bit uint8_t counters a function of the bit. getDiagnostics (text) is not modelled. *)
From Coq Require Import List NArith ZArith Bool SpecFloat.
Import ListNotations.
From Verif Require Import Outcome Words Arith Floats Health_Model.
Local Open Scope N_scope.

Definition d015 : sf := dlit 15 100.                   (* 0.15 *)
Definition d05 : sf := dlit 5 10.                      (* 0.5 *)

(* SB:172-186: copy, health score, stuck_value_masks *)
Record scell := mksc { sc : N; shl : sf; smask : N }.
(* potential_stuck_bits, error_consistency_counters *)
Record st := mkst { s0 : scell; s1 : scell; s2 : scell; pot : N; cnt : N -> N }.
Definition ssel (s : st) (i : nat) : scell := match i with 0%nat => s0 s | 1%nat => s1 s | _ => s2 s end.
Definition with_s (s : st) (a b c : scell) : st := mkst a b c (pot s) (cnt s).

(* SB:34-39 constructor *)
Definition st_construct (v : N) : st :=
  let c := mksc v d1 0 in mkst c c c 0 (fun _ => 0).
(* SB:61-72, 361-369 set *)
Definition st_set (v : N) (s : st) : st := st_construct v.
(* SB:144-148 corruptCopy *)
Definition st_corrupt (i : nat) (v : N) (s : st) : st :=
  let f c := mksc v (shl c) (smask c) in
  match i with
  | 0%nat => with_s s (f (s0 s)) (s1 s) (s2 s)
  | 1%nat => with_s s (s0 s) (f (s1 s)) (s2 s)
  | 2%nat => with_s s (s0 s) (s1 s) (f (s2 s))
  | _ => s
  end.

(* SB:236-245 updateHealthScores *)
Definition sup (ok : bool) (c : scell) : scell :=
  mksc (sc c) (if ok then fmin d1 (dadd (shl c) d005) else fmax d01 (dsub (shl c) d015)) (smask c).
(* SB:198-228 get_standard (health_scores_ is mutable) *)
Definition get_standard (s : st) : N * st :=
  let x0 := sc (s0 s) in let x1 := sc (s1 s) in let x2 := sc (s2 s) in
  if (x0 =? x1) || (x0 =? x2) then
    (x0, if x0 =? x1 then with_s s (sup true (s0 s)) (sup true (s1 s)) (sup (x2 =? x0) (s2 s))
         else with_s s (sup true (s0 s)) (sup (x1 =? x0) (s1 s)) (sup true (s2 s)))
  else if x1 =? x2 then (x1, with_s s (sup false (s0 s)) (sup true (s1 s)) (sup true (s2 s)))
  else (sc (ssel s (best_index (shl (s0 s)) (shl (s1 s)) (shl (s2 s)))), s).

(* the bit of a copy as an int *)
Definition bitv (c : scell) (b : N) : N := N.land (N.shiftr (sc c) b) 1.
(* bit_values[i] * health_scores_[i] *)
Definition wbit (c : scell) (b : N) : sf := dmul (dofZ (Z.of_N (bitv c b))) (shl c).
(* SB:264-323: the value of one bit of the mask-aware vote *)
Definition aware_bit (s : st) (b : N) : bool :=
  let a := s0 s in let c := s1 s in let e := s2 s in
  if N.testbit (pot s) b then
    let vote c p := if N.testbit (smask c) b then p else (fst p + bitv c b, snd p + 1) in
    let '(value, votes) := vote e (vote c (vote a (0, 0))) in
    if 0 <? votes then votes / 2 <? value
    else
      let ws := dadd (dadd (dadd d0 (wbit a b)) (wbit c b)) (wbit e b) in
      let tw := dadd (dadd (dadd d0 (shl a)) (shl c)) (shl e) in
      fgt tw d0 && fgt (ddiv ws tw) d05
  else 3 / 2 <? bitv a b + bitv c b + bitv e b.
Section W.
Variable w : N.                                       (* sizeof(T) * 8 *)
(* SB:252-327 get_with_stuck_bit_awareness *)
Definition get_aware (s : st) : N :=
  let x0 := sc (s0 s) in let x1 := sc (s1 s) in let x2 := sc (s2 s) in
  if (x0 =? x1) && (x1 =? x2) then x0
  else for_up (N.to_nat w) 0 (fun b r => if aware_bit s b then N.lor r (wrap w (N.shiftl 1 b)) else r) 0.
(* SB:46-54 get *)
Definition st_get (s : st) : N * st :=
  if negb (pot s =? 0) then (get_aware s, s) else get_standard s.

(* SB:347-366: one copy of update_stuck_bit_tracking *)
Definition set_bit (m b : N) (v : bool) : N := if v then N.setbit m b else N.clearbit m b.
Definition track_bit (x diff : N) (b : N) (p : N * N * (N -> N)) : N * N * (N -> N) :=
  let '(mask, po, co) := p in
  if N.testbit diff b then
    let n := if co b <? 255 then co b + 1 else co b in
    let co' := fun j => if j =? b then n else co j in
    let mask' := set_bit mask b (N.testbit x b) in
    (mask', (if 3 <=? n then N.setbit po b else po), co')
  else p.
Definition track_copy (v : N) (c : scell) (po : N) (co : N -> N) : scell * N * (N -> N) :=
  if sc c =? v then (c, po, co)
  else
    let '(m, po', co') := for_up (N.to_nat w) 0 (track_bit (sc c) (N.lxor (sc c) v)) (smask c, po, co) in
    (mksc (sc c) (shl c) m, po', co').
(* SB:332-368 *)
Definition track (s : st) : st :=
  let '(v, s) := get_standard s in
  let '(a, po, co) := track_copy v (s0 s) (pot s) (cnt s) in
  let '(b, po, co) := track_copy v (s1 s) po co in
  let '(c, po, co) := track_copy v (s2 s) po co in
  mkst a b c po co.

(* SB:390-416 repair_non_stuck_bits *)
Definition repair_bits (v : N) (c : scell) : scell :=
  if sc c =? v then c
  else
    let diff := N.lxor (sc c) v in
    let step b x := if N.testbit diff b && negb (N.testbit (smask c) b)
                    then set_bit x b (N.testbit v b) else x in
    mksc (for_up (N.to_nat w) 0 step (sc c)) (shl c) (smask c).
(* SB:426-449 check_only_stuck_bits_differ *)
Definition only_stuck_differ (v : N) (c : scell) : bool :=
  let diff := N.lxor (sc c) v in
  if diff =? 0 then true
  else for_up (N.to_nat w) 0 (fun b r => r && (negb (N.testbit diff b) || N.testbit (smask c) b)) true.
(* SB:93-107 *)
Definition rescore (v : N) (c : scell) : scell :=
  mksc (sc c)
    (if sc c =? v then fmin d1 (dadd (shl c) d01)
     else if only_stuck_differ v c then fmin d09 (dadd (shl c) d005)
     else fmax d01 (dsub (shl c) d02)) (smask c).
(* SB:81-108 repair *)
Definition st_repair (s : st) : st :=
  let s := track s in
  let '(v, s) := st_get s in
  with_s s (rescore v (repair_bits v (s0 s))) (rescore v (repair_bits v (s1 s))) (rescore v (repair_bits v (s2 s))).
End W.

(** *** the float and double specialisations, SB:458-540 and 543-625 (same text) *)
Section F.
Variable t : aty.
Record fst_ := mkf { f0 : N; f1 : N; f2 : N; fh0 : sf; fh1 : sf; fh2 : sf }.
Definition sf_set (v : N) : fst_ := mkf v v v d1 d1 d1.
Definition sf_get (s : fst_) : N :=
  if eqT t (f0 s) (f1 s) || eqT t (f0 s) (f2 s) then f0 s
  else if eqT t (f1 s) (f2 s) then f1 s
  else match best_index (fh0 s) (fh1 s) (fh2 s) with 0%nat => f0 s | 1%nat => f1 s | _ => f2 s end.
Definition sf_repair (s : fst_) : fst_ :=
  let v := sf_get s in
  let x c := if eqT t c v then c else v in
  let h c k := if eqT t c v then fmin d1 (dadd k d01) else fmax d01 (dsub k d02) in
  mkf (x (f0 s)) (x (f1 s)) (x (f2 s)) (h (f0 s) (fh0 s)) (h (f1 s) (fh1 s)) (h (f2 s) (fh2 s)).
Definition sf_corrupt (i : nat) (v : N) (s : fst_) : fst_ :=
  match i with
  | 0%nat => mkf v (f1 s) (f2 s) (fh0 s) (fh1 s) (fh2 s)
  | 1%nat => mkf (f0 s) v (f2 s) (fh0 s) (fh1 s) (fh2 s)
  | 2%nat => mkf (f0 s) (f1 s) v (fh0 s) (fh1 s) (fh2 s)
  | _ => s
  end.
End F.
