(** Voting strategies.

    - core::redundancy::EnhancedVoting  include/rad_ml/core/redundancy/enhanced_voting.hpp  (EV)
    - the static votes of EnhancedTMR   include/rad_ml/core/redundancy/enhanced_tmr.hpp     (ET)

    Values are bit patterns ([Arith]).  Where the code copies sizeof(T) bytes into a wider
    uninitialised temporary (1- and 2-byte types in a uint32_t), the upper bytes are an extra
    argument [g]: formally an indeterminate value, here any value at all. *)
From Coq Require Import List NArith ZArith Bool SpecFloat.
Import ListNotations.
From Verif Require Import Outcome Words Arith Floats.
Local Open Scope N_scope.

(* EV:34-41, ET:75-82 *)
Inductive FaultPattern := SINGLE_BIT | ADJACENT_BITS | BYTE_ERROR | WORD_ERROR | BURST_ERROR | UNKNOWN.

(* EV:150,194,302,...: UintType = uint32_t if sizeof(T) <= 4, else uint64_t (its width) *)
Definition uwidth (t : aty) : N := if sizeof t <=? 4 then 32 else 64.

(* EV:152-155: UintType x_bits; memcpy(&x_bits, &x, sizeof(T)); upper bytes are [g] *)
Definition widen (t : aty) (g x : N) : N := wrap (uwidth t) (N.lor x (N.shiftl g (width t))).

(* EV:595-610, ET:627-635 countBits *)
Definition countBits (x : N) : N := popcount x.

(* EV:702-705, ET:704-707 hammingDistance *)
Definition hammingDistance (x y : N) : N := countBits (N.lxor x y).

(* EV:117-122: majority of the three bits at position i *)
Definition majority_bit (a b c i : N) : N :=
  let ba := N.land (N.shiftr a i) 1 in
  let bb := N.land (N.shiftr b i) 1 in
  let bc := N.land (N.shiftr c i) 1 in
  N.lor (N.lor (N.land ba bb) (N.land ba bc)) (N.land bb bc).

(* EV:93-129, ET:322-358 bitLevelVote; UintType has exactly sizeof(T) bytes *)
Definition bitLevelVote (t : aty) (a b c : N) : N :=
  for_up (N.to_nat (width t)) 0
    (fun i r => N.lor r (wrap (width t) (N.shiftl (majority_bit a b c i) i))) 0.

(* EV:71-78, ET:309-316 standardVote *)
Definition standardVote (t : aty) (a b c : N) : N :=
  if eqT t a b then a else if eqT t a c then a else if eqT t b c then b
  else bitLevelVote t a b c.

(* EV:765-777, ET:757-769 segmentBitVote, on a UintType of width [uw] *)
Definition segmentBitVote (uw a b c : N) (size : nat) : N :=
  for_up size 0 (fun i r => N.lor r (wrap uw (N.shiftl (majority_bit a b c i) i))) 0.

(* EV:191-234, ET:396-439 burstErrorVote *)
Definition burst_mask (uw shift : N) : N := wrap uw (N.shiftl (N.shiftl 1 8 - 1) shift).
Definition burst_segment (uw a b c : N) (shift : N) : N :=
  let mask := burst_mask uw shift in
  let sa := N.shiftr (N.land a mask) shift in
  let sb := N.shiftr (N.land b mask) shift in
  let sc := N.shiftr (N.land c mask) shift in
  if sa =? sb then sa else if sa =? sc then sa else if sb =? sc then sb
  else segmentBitVote uw sa sb sc 8.
Definition burstErrorVote (t : aty) (ga gb gc a b c : N) : N :=
  let uw := uwidth t in
  let a' := widen t ga a in let b' := widen t gb b in let c' := widen t gc c in
  let r := for_up (N.to_nat (width t / 8)) 0
    (fun s r => N.lor r (wrap uw (N.shiftl (burst_segment uw a' b' c' (s * 8)) (s * 8)))) 0 in
  wrap (width t) r.   (* memcpy of the low sizeof(T) bytes *)

(* EV:492-520 fastBitCorrection *)
Definition fastBitCorrection (t : aty) (ga gb gc a b c : N) : N :=
  let uw := uwidth t in
  let a' := widen t ga a in let b' := widen t gb b in let c' := widen t gc c in
  let r := for_up (N.to_nat (width t / 8)) 0
    (fun k r =>
       let i := k * 8 in   (* i += CHUNK_SIZE *)
       let mask := burst_mask uw i in
       let ca := N.shiftr (N.land a' mask) i in
       let cb := N.shiftr (N.land b' mask) i in
       let cc := N.shiftr (N.land c' mask) i in
       let m := N.lor (N.lor (N.land ca cb) (N.land ca cc)) (N.land cb cc) in
       N.lor r (wrap uw (N.shiftl m i))) 0 in
  wrap (width t) r.

(* EV:736-739: diff_bit_pos = 0; while (((diff >> pos) & 1) == 0) pos++;  on a nonzero diff *)
Fixpoint lowest_set (p : positive) : N :=
  match p with xO q => 1 + lowest_set q | _ => 0 end.
Definition diff_bit_pos (d : N) : N := match d with 0 => 0 | Npos p => lowest_set p end.

(* EV:720-754 reconstructFromClosestPair; reached with diff = 0 never enters the loop *)
Definition EV_reconstruct (t : aty) (ga gb go a b o : N) : N :=
  if eqT t a b then a
  else
    let a' := widen t ga a in let b' := widen t gb b in let o' := widen t go o in
    let diff := N.lxor a' b' in
    if countBits diff =? 1 then
      let bit_mask := wrap (uwidth t) (N.shiftl 1 (diff_bit_pos diff)) in
      let out_bit := N.land o' bit_mask in
      if N.land a' bit_mask =? out_bit then a else b
    else bitLevelVote t a b o.

(* ET:713-751 reconstructFromClosestPair *)
Definition lnotw (uw x : N) : N := N.lxor (wrap uw x) (N.ones uw).
Definition ET_reconstruct (t : aty) (ga gb go a b o : N) : N :=
  let uw := uwidth t in
  let a' := widen t ga a in let b' := widen t gb b in let o' := widen t go o in
  let agreement_mask := lnotw uw (N.lxor a' b') in
  let disagreement_mask := N.lxor a' b' in
  let r := for_up (N.to_nat (width t)) 0
    (fun i r =>
       let mask := wrap uw (N.shiftl 1 i) in
       if negb (N.land disagreement_mask mask =? 0) then
         let bit_a := N.land a' mask in
         let bit_b := N.land b' mask in
         let bit_o := N.land o' mask in
         if bit_a =? bit_o then N.lor r bit_a
         else if bit_b =? bit_o then N.lor r bit_b
         else N.lor r bit_a
       else r) (N.land a' agreement_mask) in
  wrap (width t) r.

(** The uninitialised upper bytes of one word vote: six temporaries (three of the vote, three of the
    reconstruction), arbitrary. *)
Record garbage := mkg { g1 : N; g2 : N; g3 : N; g4 : N; g5 : N; g6 : N }.

Section WordVote.
Variable reconstruct : aty -> N -> N -> N -> N -> N -> N -> N.
(* EV:147-173, ET:364-390 wordErrorVote *)
Definition wordErrorVote_with (t : aty) (g : garbage) (a b c : N) : N :=
  let a' := widen t (g1 g) a in let b' := widen t (g2 g) b in let c' := widen t (g3 g) c in
  let dab := hammingDistance a' b' in
  let dac := hammingDistance a' c' in
  let dbc := hammingDistance b' c' in
  if (dab <=? dac) && (dab <=? dbc) then reconstruct t (g4 g) (g5 g) (g6 g) a b c
  else if (dac <=? dab) && (dac <=? dbc) then reconstruct t (g4 g) (g5 g) (g6 g) a c b
  else reconstruct t (g4 g) (g5 g) (g6 g) b c a.
End WordVote.
Definition EV_wordErrorVote := wordErrorVote_with EV_reconstruct.
Definition ET_wordErrorVote := wordErrorVote_with ET_reconstruct.

(* EV:795-804 selectMostConfidentResult *)
Definition EV_selectMostConfident (t : aty) (a b c rbit rword rburst : N) : N :=
  if eqT t rbit a || eqT t rbit b || eqT t rbit c then rbit
  else if eqT t rword a || eqT t rword b || eqT t rword c then rword
  else if eqT t rburst a || eqT t rburst b || eqT t rburst c then rburst
  else rbit.

(* ET:775-802 selectMostConfidentResult *)
Definition ET_confidence (t : aty) (a b c r : N) : N :=
  b2n (eqT t r a) + b2n (eqT t r b) + b2n (eqT t r c).
Definition ET_selectMostConfident (t : aty) (a b c rbit rword rburst : N) : N :=
  let cb := ET_confidence t a b c rbit in
  let cw := ET_confidence t a b c rword in
  let cu := ET_confidence t a b c rburst in
  if (cw <=? cb) && (cu <=? cb) then rbit
  else if (cb <=? cw) && (cu <=? cw) then rword
  else rburst.

Section Adaptive.
Variable wordVote : aty -> garbage -> N -> N -> N -> N.
Variable select : aty -> N -> N -> N -> N -> N -> N -> N.
(* EV:250-286, ET:446-482 adaptiveVote; [g]: temporaries of the word vote, [gb]: of the burst vote *)
Definition adaptiveVote_with (t : aty) (g gb : garbage) (a b c : N) (p : FaultPattern) : N :=
  if eqT t a b then a else if eqT t a c then a else if eqT t b c then b
  else match p with
       | SINGLE_BIT | ADJACENT_BITS => bitLevelVote t a b c
       | WORD_ERROR => wordVote t g a b c
       | BURST_ERROR | BYTE_ERROR => burstErrorVote t (g1 gb) (g2 gb) (g3 gb) a b c
       | UNKNOWN =>
           select t a b c (bitLevelVote t a b c) (wordVote t g a b c)
                  (burstErrorVote t (g1 gb) (g2 gb) (g3 gb) a b c)
       end.
End Adaptive.
Definition EV_adaptiveVote := adaptiveVote_with EV_wordErrorVote EV_selectMostConfident.
Definition ET_adaptiveVote := adaptiveVote_with ET_wordErrorVote ET_selectMostConfident.

(** *** Fault pattern detection *)

(* EV:619-625 areAdjacentBits: while (temp & (temp+1)) temp |= temp+1; *)
Fixpoint adj_loop (fuel : nat) (uw temp : N) : outcome N :=
  match fuel with
  | O => OutOfFuel
  | S k => let t1 := wrap uw (temp + 1) in
           if N.land temp t1 =? 0 then Ret temp else adj_loop k uw (N.lor temp t1)
  end.
Definition EV_areAdjacentBits (uw diff : N) : outcome bool :=
  obind (adj_loop (S (N.to_nat uw)) uw diff)
        (fun temp => Ret (negb (N.land (wrap uw (temp + 1)) diff =? 0))).

(* EV:634-641, ET:653-660 areByteBoundary.  0xFF has type int, so 0xFF << (i*8) is undefined
   for i*8 >= 32; the int result 0xFF000000 of i = 3 is negative and sign-extends when
   converted to uint64_t. *)
Definition byte_mask (uw i : N) : outcome N :=
  if 32 <=? 8 * i then UB UB_shift_amount
  else let v := N.shiftl 255 (8 * i) in
       Ret (if v <? 2 ^ 31 then v else wrap uw (2 ^ 64 - 2 ^ 32 + v)).
Fixpoint byte_loop (n : nat) (uw i diff : N) : outcome bool :=
  match n with
  | O => Ret false
  | S k => obind (byte_mask uw i) (fun mask =>
             if N.land diff mask =? diff then Ret true else byte_loop k uw (i + 1) diff)
  end.
Definition areByteBoundary (uw diff : N) : outcome bool := byte_loop (N.to_nat (uw / 8)) uw 0 diff.

(* EV:650-665 areWordBoundary *)
Definition EV_areWordBoundary (uw diff : N) : bool :=
  if uw <=? 32 then 16 <? countBits diff
  else (N.land diff 0xFFFFFFFF =? diff) || (N.land diff 0xFFFFFFFF00000000 =? diff).

(* EV:676-686, 815-825: longest run of ones *)
Definition longest_run (uw diff : N) : N :=
  fst (for_up (N.to_nat uw) 0
    (fun i '(longest, cur) =>
       if N.land (N.shiftr diff i) 1 =? 1 then (N.max longest (cur + 1), cur + 1)
       else (longest, 0)) (0, 0)).

(* EV:674-693 areBurstPattern: longest_run >= 3 && longest_run >= total_bits * 0.6 (double) *)
Definition EV_areBurstPattern (uw diff : N) : bool :=
  let lr := longest_run uw diff in
  (3 <=? lr) &&
  fge (dofZ (Z.of_N lr)) (dmul (dofZ (Z.of_N (countBits diff))) (dlit 6 10)).

(* EV:344-370: classification of the difference pattern *)
Definition EV_classify (uw diff : N) : outcome FaultPattern :=
  if countBits diff =? 1 then Ret SINGLE_BIT
  else obind (EV_areAdjacentBits uw diff) (fun adj =>
    if adj then Ret ADJACENT_BITS
    else obind (areByteBoundary uw diff) (fun byte =>
      if byte then Ret BYTE_ERROR
      else if EV_areWordBoundary uw diff then Ret WORD_ERROR
      else if EV_areBurstPattern uw diff then Ret BURST_ERROR
      else Ret UNKNOWN)).

(* EV:322-342: the difference pattern of the outlier / of the closest pair *)
Definition closest_diff (dab dac dbc : N) : N :=
  let nab := countBits dab in let nac := countBits dac in let nbc := countBits dbc in
  if nab =? 0 then dac
  else if nac =? 0 then dab
  else if nbc =? 0 then dab
  else if (nab <=? nac) && (nab <=? nbc) then dab
  else if (nac <=? nab) && (nac <=? nbc) then dac
  else dbc.

(* EV:301-371 detectFaultPattern *)
Definition EV_detectFaultPattern (t : aty) (ga gb gc a b c : N) : outcome FaultPattern :=
  let a' := widen t ga a in let b' := widen t gb b in let c' := widen t gc c in
  let dab := N.lxor a' b' in let dac := N.lxor a' c' in let dbc := N.lxor b' c' in
  if (countBits dab =? 0) && (countBits dac =? 0) then Ret UNKNOWN
  else EV_classify (uwidth t) (closest_diff dab dac dbc).

(* EV:813-830 burstPatternConfidence *)
Definition burstPatternConfidence (uw diff : N) : sf :=
  let total := countBits diff in
  if 0 <? total then sdiv (sofZ (Z.of_N (longest_run uw diff))) (sofZ (Z.of_N total))
  else sofZ 0.

(* EV:432: 0.5f + 0.4f * (1.0f - (float)bits / (sizeof(T) * 8)) *)
Definition pair_confidence (t : aty) (bits : N) : sf :=
  sadd (slit 5 10) (smul (slit 4 10)
    (ssub (sofZ 1) (sdiv (sofZ (Z.of_N bits)) (sofZ (Z.of_N (width t)))))).

(* EV:387-476 detectFaultPatternWithConfidence (for b = c it takes diff_ac, which equals
   diff_ab then) *)
Definition EV_detectWithConfidence (t : aty) (ga gb gc a b c : N) : outcome (FaultPattern * sf) :=
  let uw := uwidth t in
  let a' := widen t ga a in let b' := widen t gb b in let c' := widen t gc c in
  let dab := N.lxor a' b' in let dac := N.lxor a' c' in let dbc := N.lxor b' c' in
  let nab := countBits dab in let nac := countBits dac in let nbc := countBits dbc in
  if (nab =? 0) && (nac =? 0) && (nbc =? 0) then Ret (UNKNOWN, sofZ 1)
  else
    let '(diff, conf) :=
      if nab =? 0 then (dac, slit 9 10)
      else if nac =? 0 then (dab, slit 9 10)
      else if nbc =? 0 then (dac, slit 9 10)
      else if (nab <=? nac) && (nab <=? nbc) then (dab, pair_confidence t nab)
      else if (nac <=? nab) && (nac <=? nbc) then (dac, pair_confidence t nac)
      else (dbc, pair_confidence t nbc) in
    if countBits diff =? 1 then Ret (SINGLE_BIT, fmin (sadd conf (slit 1 10)) (slit 99 100))
    else obind (EV_areAdjacentBits uw diff) (fun adj =>
      if adj then Ret (ADJACENT_BITS, conf)
      else obind (areByteBoundary uw diff) (fun byte =>
        if byte then Ret (BYTE_ERROR, conf)
        else if EV_areWordBoundary uw diff then Ret (WORD_ERROR, conf)
        else if EV_areBurstPattern uw diff
             then Ret (BURST_ERROR, smul conf (burstPatternConfidence uw diff))
        else Ret (UNKNOWN, smul conf (slit 8 10)))).

(* ET:641-647 areAdjacentBits *)
Definition ET_areAdjacentBits (diff : N) : bool :=
  if countBits diff <=? 1 then true
  else let shifted := N.shiftr diff 1 in
       negb (N.land diff shifted =? 0) && (countBits (N.lor diff shifted) <=? countBits diff + 1).

(* ET:666-675 areWordBoundary *)
Definition ET_areWordBoundary (uw diff : N) : bool :=
  if uw <=? 32 then true
  else (N.land diff 0xFFFFFFFF =? diff) || (N.land diff (lnotw uw 0xFFFFFFFF) =? diff).

(* ET:681-699 areBurstPattern: number of 0/1 transitions, least significant bit first *)
Definition transitions (uw diff : N) : N :=
  fst (for_up (N.to_nat uw) 0
    (fun i '(n, prev) =>
       let cur := negb (N.land diff (wrap uw (N.shiftl 1 i)) =? 0) in
       (if eqb cur prev then n else n + 1, cur)) (0, false)).
Definition ET_areBurstPattern (uw diff : N) : bool :=
  (transitions uw diff <=? 4) && (3 <? countBits diff).

(* && of three calls, left to right, short-circuit *)
Definition oand (x y : outcome bool) : outcome bool :=
  obind x (fun b => if b then y else Ret false).

(* ET:489-526 detectFaultPattern *)
Definition ET_detectFaultPattern (t : aty) (ga gb gc a b c : N) : outcome FaultPattern :=
  let uw := uwidth t in
  let a' := widen t ga a in let b' := widen t gb b in let c' := widen t gc c in
  let dab := N.lxor a' b' in let dac := N.lxor a' c' in let dbc := N.lxor b' c' in
  let max_diff := N.max (N.max (countBits dab) (countBits dac)) (countBits dbc) in
  if max_diff =? 1 then Ret SINGLE_BIT
  else if (max_diff <=? 3) && (ET_areAdjacentBits dab && ET_areAdjacentBits dac && ET_areAdjacentBits dbc)
  then Ret ADJACENT_BITS
  else obind (if max_diff <=? 8
              then oand (areByteBoundary uw dab) (oand (areByteBoundary uw dac) (areByteBoundary uw dbc))
              else Ret false) (fun byte =>
    if byte then Ret BYTE_ERROR
    else if (max_diff <=? 32) && (ET_areWordBoundary uw dab && ET_areWordBoundary uw dac && ET_areWordBoundary uw dbc)
    then Ret WORD_ERROR
    else if ET_areBurstPattern uw dab || ET_areBurstPattern uw dac || ET_areBurstPattern uw dbc
    then Ret BURST_ERROR
    else Ret UNKNOWN).

(* EV:538-570 weightedVote; weights are binary32 numbers *)
Definition weighted_bit (wa wb wc : sf) (ba bb bc : N) : N :=
  let s := sadd (sadd (smul (sofZ (Z.of_N ba)) wa) (smul (sofZ (Z.of_N bb)) wb))
                (smul (sofZ (Z.of_N bc)) wc) in
  if fge s (sdiv (sadd (sadd wa wb) wc) (sofZ 2)) then 1 else 0.
Definition weightedVote (t : aty) (ga gb gc a b c : N) (wa wb wc : sf) : N :=
  if eqT t a b && eqT t b c then a
  else if eqT t a b then a else if eqT t a c then a else if eqT t b c then b
  else
    let uw := uwidth t in
    let a' := widen t ga a in let b' := widen t gb b in let c' := widen t gc c in
    let r := for_up (N.to_nat (width t)) 0
      (fun i r => N.lor r (wrap uw (N.shiftl
         (weighted_bit wa wb wc (N.land (N.shiftr a' i) 1) (N.land (N.shiftr b' i) 1)
                       (N.land (N.shiftr c' i) 1)) i))) 0 in
    wrap (width t) r.
