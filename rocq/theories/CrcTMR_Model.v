(** Checksummed triple redundancy.

    ET = include/rad_ml/core/redundancy/enhanced_tmr.hpp        (core::redundancy::EnhancedTMR<T>)
    SP = include/rad_ml/core/redundancy/space_enhanced_tmr.hpp  (core::redundancy::SpaceEnhancedTMR<T>)

    T ranges over the arithmetic types of [Arith].  The 64-bit statistics counters are unbounded
    naturals here (2^64 detections are out of reach).  std::cerr output is not modelled. *)
From Coq Require Import List NArith ZArith Bool SpecFloat.
Import ListNotations.
From Verif Require Import Outcome Words Arith Floats Crc_Model.
Local Open Scope N_scope.

(** one copy with its stored checksum *)
Record cell := mkcell { cv : N; ck : N }.
(* ET:551-557 values_, checksums_, error_stats_; SP:795-801 *)
Record tmr3 := mk3 { c0 : cell; c1 : cell; c2 : cell; detected : N; corrected : N; uncorrectable : N }.

(* ET:67-69 CRC::calculateForValue, SP:73-76 SpaceCRC::calculateForValue *)
Definition et_crc (t : aty) (v : N) : N := CRC_calculate (bytes_of (N.to_nat (sizeof t)) v).
Definition sp_crc (t : aty) (v : N) : N := SpaceCRC_calculate (bytes_of (N.to_nat (sizeof t)) v).

Section Common.
Variable t : aty.
Variable crc : N -> N.

(* ET:574-577, SP:459-462 verifyChecksum *)
Definition verifyChecksum (c : cell) : bool := crc (cv c) =? ck c.

(* ET:224-229 set, ET:562-566 recalculateChecksums; SP:258-264, 446-451.  Statistics unchanged. *)
Definition set (s : tmr3) (v : N) : tmr3 :=
  let c := mkcell v (crc v) in
  mk3 c c c (detected s) (corrected s) (uncorrectable s).
(* ET:101-112, SP:123-146 constructors *)
Definition construct (v : N) : tmr3 := set (mk3 (mkcell 0 0) (mkcell 0 0) (mkcell 0 0) 0 0 0) v.
(* ET:119-146, SP:153-178 copy construction / assignment: values and checksums, fresh statistics *)
Definition copy_of (o : tmr3) : tmr3 := mk3 (c0 o) (c1 o) (c2 o) 0 0 0.
(* ET:279-283, SP:325 resetErrorStats *)
Definition resetErrorStats (s : tmr3) : tmr3 := mk3 (c0 s) (c1 s) (c2 s) 0 0 0.
(* ET:615-622, SP:507-517 incrementErrorStats *)
Definition incrementErrorStats (s : tmr3) (ok : bool) : tmr3 :=
  mk3 (c0 s) (c1 s) (c2 s) (detected s + 1)
      (if ok then corrected s + 1 else corrected s)
      (if ok then uncorrectable s else uncorrectable s + 1).

Definition valid_count (s : tmr3) : N :=
  b2n (verifyChecksum (c0 s)) + b2n (verifyChecksum (c1 s)) + b2n (verifyChecksum (c2 s)).
(* the first copy whose checksum is valid (ET:176-181, 205-209; SP:207-213, 237-242) *)
Definition first_valid (s : tmr3) : N :=
  if verifyChecksum (c0 s) then cv (c0 s)
  else if verifyChecksum (c1 s) then cv (c1 s) else cv (c2 s).
(* ET:186-197, SP:218-232: a pair with valid checksums and equal values *)
Definition valid_pair (s : tmr3) : option N :=
  let v0 := verifyChecksum (c0 s) in let v1 := verifyChecksum (c1 s) in let v2 := verifyChecksum (c2 s) in
  if v0 && v1 && eqT t (cv (c0 s)) (cv (c1 s)) then Some (cv (c0 s))
  else if v0 && v2 && eqT t (cv (c0 s)) (cv (c2 s)) then Some (cv (c0 s))
  else if v1 && v2 && eqT t (cv (c1 s)) (cv (c2 s)) then Some (cv (c1 s))
  else None.
(** a radiation upset: copy [k] and its checksum become [c] *)
Definition corrupt (s : tmr3) (k : nat) (c : cell) : tmr3 :=
  match k with
  | 0%nat => mk3 c (c1 s) (c2 s) (detected s) (corrected s) (uncorrectable s)
  | 1%nat => mk3 (c0 s) c (c2 s) (detected s) (corrected s) (uncorrectable s)
  | 2%nat => mk3 (c0 s) (c1 s) c (detected s) (corrected s) (uncorrectable s)
  | _ => s
  end.
End Common.

(** *** EnhancedTMR *)
Section Enhanced.
Variable t : aty.
Notation crc := (et_crc t).
Notation vc := (verifyChecksum crc).

(* ET:584-608 performMajorityVoting *)
Definition et_majority (s : tmr3) : N :=
  let v0 := cv (c0 s) in let v1 := cv (c1 s) in let v2 := cv (c2 s) in
  if eqT t v0 v1 then v0
  else if eqT t v0 v2 then v0
  else if eqT t v1 v2 then v1
  else if vc (c0 s) && negb (vc (c1 s)) && negb (vc (c2 s)) then v0
  else if negb (vc (c0 s)) && vc (c1 s) && negb (vc (c2 s)) then v1
  else if negb (vc (c0 s)) && negb (vc (c1 s)) && vc (c2 s) then v2
  else v0.

(* ET:153-217 get *)
Definition et_get (s : tmr3) : N * tmr3 :=
  let n := valid_count crc s in
  if n =? 3 then (et_majority s, s)
  else if n =? 1 then (first_valid crc s, incrementErrorStats s true)
  else if n =? 2 then
    match valid_pair t crc s with
    | Some v => (v, incrementErrorStats s true)
    | None => (first_valid crc s, incrementErrorStats s false)
    end
  else (et_majority s, incrementErrorStats s false).

(* ET:236-248 repair (always returns true) *)
Definition et_repair (s : tmr3) : bool * tmr3 :=
  let '(v, s') := et_get s in (true, set crc s' v).

(* ET:255-265 verify *)
Definition et_verify (s : tmr3) : bool :=
  if vc (c0 s) && vc (c1 s) && vc (c2 s)
  then eqT t (cv (c0 s)) (cv (c1 s)) && eqT t (cv (c1 s)) (cv (c2 s))
  else false.
End Enhanced.

(** *** SpaceEnhancedTMR *)
(* core/error/status_code.hpp, the codes used here *)
Inductive status := SUCCESS | REDUNDANCY_FAILURE | RADIATION_DETECTION.

(** IEEE-754 helpers on patterns of a floating type *)
Definition mbits (t : aty) : N := match t with F32 => 23 | _ => 52 end.
Definition ebits (t : aty) : N := match t with F32 => 8 | _ => 11 end.
Definition is_finite (t : aty) (x : N) : bool := negb (f_exp (mbits t) (ebits t) x =? 2 ^ ebits t - 1).
Definition is_inf (t : aty) (x : N) : bool :=
  (f_exp (mbits t) (ebits t) x =? 2 ^ ebits t - 1) && (f_mant (mbits t) x =? 0).
Definition sf_of (t : aty) (x : N) : sf := sf_of_bits (mbits t) (ebits t) x.
Definition ltT (t : aty) (x y : N) : bool := flt (sf_of t x) (sf_of t y).

Section Space.
Variable t : aty.
Notation crc := (sp_crc t).
Notation vc := (verifyChecksum crc).

(* SP:528-558 bitLevelVote (integral types) *)
Definition sp_bitLevelVote (a b c : N) : N :=
  fst (for_up (N.to_nat (width t)) 0
    (fun _ '(result, mask) =>
       let count := b2n (negb (N.land a mask =? 0)) + b2n (negb (N.land b mask =? 0)) +
                    b2n (negb (N.land c mask =? 0)) in
       (if 2 <=? count then N.lor result mask else result, wrap (width t) (N.shiftl mask 1)))
    (0, 1)).

(* SP:681-691 majorityBit *)
Definition majorityBit (a b c pos : N) : N :=
  let mask := N.shiftl 1 pos in
  let count := b2n (negb (N.land a mask =? 0)) + b2n (negb (N.land b mask =? 0)) +
               b2n (negb (N.land c mask =? 0)) in
  if 2 <=? count then mask else 0.
(* SP:592-594, 608-610: OR of majorityBit over a run of [n] positions from [lo] (the code counts
   down, the OR is the same) *)
Definition majorityBits (a b c lo : N) (n : nat) : N :=
  for_up n lo (fun i r => N.lor r (majorityBit a b c i)) 0.

(* SP:697-700 isSpecialFloat: nan, infinity or zero *)
Definition isSpecialFloat (x : N) : bool := is_nan t x || is_inf t x || is_zero t x.

(* SP:754-770 findNearestValidExponent: median of the three exponents by three swaps *)
Definition findNearestValidExponent (a b c : N) : N :=
  let ea := N.land (N.shiftr a (mbits t)) (2 ^ ebits t - 1) in
  let eb := N.land (N.shiftr b (mbits t)) (2 ^ ebits t - 1) in
  let ec := N.land (N.shiftr c (mbits t)) (2 ^ ebits t - 1) in
  let '(ea, eb) := if eb <? ea then (eb, ea) else (ea, eb) in
  let '(eb, ec) := if ec <? eb then (ec, eb) else (eb, ec) in
  let '(ea, eb) := if eb <? ea then (eb, ea) else (ea, eb) in
  N.shiftl eb (mbits t).

(* std::nth_element on three elements: insertion sort with operator<, then the middle one *)
Fixpoint insert_sorted (x : N) (l : list N) : list N :=
  match l with
  | [] => [x]
  | y :: r => if ltT t x y then x :: l else y :: insert_sorted x r
  end.
Definition median3 (a b c : N) : N :=
  nth 1 (insert_sorted c (insert_sorted b (insert_sorted a []))) 0.

(* SP:776-791 findBestFloatFallback; U(0.0) is the all-zero pattern *)
Definition findBestFloatFallback (a b c : N) : N :=
  if is_finite t a && is_finite t b && is_finite t c then median3 a b c
  else if is_finite t a then a else if is_finite t b then b else if is_finite t c then c else 0.

(* SP:587-672 the structured vote on three non-special values *)
Definition structuredVote (a b c : N) : N :=
  let m := mbits t in let e := ebits t in
  let exp_mask := N.shiftl (2 ^ e - 1) m in
  let mantissa_mask := 2 ^ m - 1 in
  let sign := majorityBit a b c (m + e) in
  let exp0 := majorityBits a b c m (N.to_nat e) in
  let exp_only := N.land exp0 exp_mask in
  let exp := if (exp_only =? 0) || (exp_only =? exp_mask) then findNearestValidExponent a b c else exp0 in
  let mant := majorityBits a b c 0 (N.to_nat m) in
  let result := N.lor (N.lor sign exp) mant in
  if N.land result exp_mask =? exp_mask then findBestFloatFallback a b c
  else if is_nan t result || is_inf t result then findBestFloatFallback a b c
  else result.

(* std::numeric_limits<U>::epsilon() * 1000 and |x - y| < that, in U's arithmetic *)
Definition abs_sf (x : sf) : sf :=
  match x with
  | S754_zero _ => S754_zero false
  | S754_infinity _ => S754_infinity false
  | S754_finite _ p e => S754_finite false p e
  | S754_nan => S754_nan
  end.
Definition close (x y : N) : bool :=
  match t with
  | F32 => flt (abs_sf (ssub (sf_of t x) (sf_of t y))) (smul (slit 1 (2 ^ 23)) (sofZ 1000))
  | _ => flt (abs_sf (dsub (sf_of t x) (sf_of t y))) (dmul (dlit 1 (2 ^ 52)) (dofZ 1000))
  end.
(* std::numeric_limits<U>::quiet_NaN() *)
Definition quiet_nan : N := match t with F32 => 0x7FC00000 | _ => 0x7FF8000000000000 end.

(* SP:569-673 bitLevelVoteFloat and SP:706-748 handleSpecialFloatVoting, mutually recursive;
   [fuel] bounds the number of nested calls, running out is the outcome [OutOfFuel]. *)
Fixpoint bitLevelVoteFloat (fuel : nat) (a b c : N) : outcome N :=
  match fuel with
  | O => OutOfFuel
  | S k =>
    if isSpecialFloat a || isSpecialFloat b || isSpecialFloat c then
      (* handleSpecialFloatVoting *)
      let fin := filter (is_finite t) [a; b; c] in
      match fin with
      | [] =>
          if eqT t a b then Ret a else if eqT t a c then Ret a else if eqT t b c then Ret b
          else if is_nan t a && is_nan t b && is_nan t c then Ret quiet_nan else Ret 0
      | [f] => Ret f
      | f0 :: f1 :: r =>
          if close f0 f1 then Ret f0
          else bitLevelVoteFloat k f0 f1 (match r with [] => f0 | f2 :: _ => f2 end)
      end
    else Ret (structuredVote a b c)
  end.

(* SP:469-501 performMajorityVoting, arithmetic types *)
Definition sp_majority (fuel : nat) (s : tmr3) : outcome N :=
  let v0 := cv (c0 s) in let v1 := cv (c1 s) in let v2 := cv (c2 s) in
  if eqT t v0 v1 then Ret v0
  else if eqT t v0 v2 then Ret v0
  else if eqT t v1 v2 then Ret v1
  else if is_int t then Ret (sp_bitLevelVote v0 v1 v2)
  else if is_finite t v0 && is_finite t v1 && is_finite t v2 then Ret (findBestFloatFallback v0 v1 v2)
  else bitLevelVoteFloat fuel v0 v1 v2.

(* SP:186-251 get(value): the value written, the status, the new state *)
Definition sp_get (fuel : nat) (s : tmr3) : outcome (N * status * tmr3) :=
  let n := valid_count crc s in
  if n =? 3 then obind (sp_majority fuel s) (fun v => Ret (v, SUCCESS, s))
  else if n =? 1 then Ret (first_valid crc s, SUCCESS, incrementErrorStats s true)
  else if n =? 2 then
    match valid_pair t crc s with
    | Some v => Ret (v, SUCCESS, incrementErrorStats s true)
    | None => Ret (first_valid crc s, REDUNDANCY_FAILURE, incrementErrorStats s false)
    end
  else obind (sp_majority fuel s) (fun v => Ret (v, REDUNDANCY_FAILURE, incrementErrorStats s false)).

(* SP:271-283 repair *)
Definition sp_repair (fuel : nat) (s : tmr3) : outcome (status * tmr3) :=
  obind (sp_get fuel s) (fun '(v, st, s') => Ret (st, set crc s' v)).

(* SP:290-312 verify *)
Definition sp_verify (s : tmr3) : status :=
  if vc (c0 s) && vc (c1 s) && vc (c2 s) then SUCCESS
  else if eqT t (cv (c0 s)) (cv (c1 s)) || eqT t (cv (c0 s)) (cv (c2 s)) || eqT t (cv (c1 s)) (cv (c2 s))
  then RADIATION_DETECTION else REDUNDANCY_FAILURE.
End Space.
