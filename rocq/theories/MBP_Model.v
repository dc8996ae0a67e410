(** MB = include/rad_ml/neural/multi_bit_protection.hpp (multibit_protection.hpp is the same text)

    The class only compiles for sizeof(T) = 4 (MB:425: generateHammingCode is instantiated by every
    constructor).  A T is its 32-bit pattern (an [N] below 2^32): the code only moves it through unions.
    ecc_data_ is the list of its 32 bytes; a constructor leaves the bytes it does not write indeterminate
    and no scheme reads those, so [ecc_new] fills them with 0. *)
From Coq Require Import List NArith ZArith Bool SpecFloat.
Import ListNotations.
From Verif Require Import Outcome Words Floats Arith SimpleTMR_Model Bits_Model.
Local Open Scope N_scope.

(* MB:42-47 *)
Inductive scheme := NONE | HAMMING | SECDED | REED_SOLOMON.
(* MB:382-391 *)
Record mbp := mkmb { value_ : N; coding_scheme_ : scheme; ecc_data_ : list N; valid_ : bool }.

Fixpoint lset (l : list N) (i : nat) (x : N) : list N :=
  match l, i with
  | [], _ => []
  | _ :: r, O => x :: r
  | h :: r, S k => h :: lset r k x
  end.
Definition lget (l : list N) (i : N) : N := nth (N.to_nat i) l 0.
(* l[i] ^= x, on uint8_t *)
Definition lxorat (l : list N) (i : N) (x : N) : list N := lset l (N.to_nat i) (wrap 8 (N.lxor (lget l i) x)).

(* MB:437-458 (and again :475-501, 526-541, 576-602): the 7 parity bytes of a pattern *)
Definition parities6 (bits : N) : list N :=
  for_up 32 0 (fun i p =>
    if N.testbit bits i then
      for_up 6 0 (fun j p => if N.testbit (i + 1) j then lxorat p j 1 else p) p
    else p) (repeat 0 7).
Definition parities (bits : N) : list N :=
  let p := parities6 bits in
  let p := lset p 6 0 in
  let p := for_up 6 0 (fun i p => lxorat p 6 (lget p i)) p in
  for_up 32 0 (fun i p => lxorat p 6 (N.land (N.shiftr bits i) 1)) p.
(* MB:421-459 *)
Definition generateHammingCode (s : mbp) : mbp :=
  mkmb (value_ s) (coding_scheme_ s) (parities (value_ s) ++ [0] ++ skipn 8 (ecc_data_ s)) (valid_ s).
(* MB:466-509 *)
Definition checkHammingParity (s : mbp) : bool :=
  negb (forallb (fun i => lget (parities (value_ s)) i =? lget (ecc_data_ s) i) [0; 1; 2; 3; 4; 5; 6]).
(* MB:543-548, 604-609 *)
Definition syndrome (s : mbp) : N :=
  for_up 6 0 (fun i sy => if lget (parities6 (value_ s)) i =? lget (ecc_data_ s) i then sy else N.lor sy (N.shiftl 1 i)) 0.
Definition flip (s : mbp) (i : N) : mbp :=
  mkmb (N.lxor (value_ s) (N.shiftl 1 i)) (coding_scheme_ s) (ecc_data_ s) (valid_ s).
(* MB:516-559 *)
Definition correctHammingCode (s : mbp) : bool * mbp :=
  let sy := syndrome s in
  if (0 <? sy) && (sy <=? 32) then (true, flip s (sy - 1)) else (false, s).
(* MB:566-640 *)
Definition correctSECDED (s : mbp) : bool * mbp :=
  let sy := syndrome s in
  let overall := negb (lget (parities (value_ s)) 6 =? lget (ecc_data_ s) 6) in
  if (sy =? 0) && negb overall then (true, s)
  else if (0 <? sy) && overall then
    if sy <=? 32 then (true, flip s (sy - 1)) else (false, s)
  else if (sy =? 0) && overall then (true, s)
  else (false, s).

(* the bytes of a T, little endian *)
Definition byte (v i : N) : N := N.land (N.shiftr v (8 * i)) 255.
Definition set_byte (v i b : N) : N := N.lxor v (N.shiftl (N.lxor (byte v i) b) (8 * i)).
(* MB:661-674 (and :702-713, 757-768, 784-794) *)
Definition checks (v : N) : list N :=
  for_up 4 0 (fun i c =>
    let b := byte v i in
    [N.lxor (lget c 0) b;
     wrap 8 (N.lxor (lget c 1) (N.shiftl b (i mod 4)));
     N.lxor (lget c 2) (N.shiftr b (i mod 4));
     wrap 8 (N.lxor (lget c 3) (b * (i + 1)))]) [0; 0; 0; 0].
(* MB:676-680, 721-725 *)
Definition hash32 (v : N) : N :=
  for_up 4 0 (fun i h => wrap 32 (wrap 32 (wrap 32 (N.shiftl h 5) + h) + byte v i)) 0x5555.
Definition hash_bytes (h : N) : list N :=
  [N.land h 0xFF; N.land (N.shiftr h 8) 0xFF; N.land (N.shiftr h 16) 0xFF; N.land (N.shiftr h 24) 0xFF].
(* MB:648-686 *)
Definition generateReedSolomon (s : mbp) : mbp :=
  mkmb (value_ s) (coding_scheme_ s) (checks (value_ s) ++ hash_bytes (hash32 (value_ s)) ++ skipn 8 (ecc_data_ s)) (valid_ s).
Definition listeqb (a b : list N) (l : list N) : bool := forallb (fun i => lget a i =? lget b i) l.
(* MB:693-738 *)
Definition checkReedSolomon (s : mbp) : bool :=
  if negb (listeqb (checks (value_ s)) (ecc_data_ s) [0; 1; 2; 3]) then true
  else negb (forallb (fun i => lget (hash_bytes (hash32 (value_ s))) i =? lget (ecc_data_ s) (4 + i)) [0; 1; 2; 3]).
(* MB:748-811: byte positions in order, trial bytes in order, first match wins *)
Definition correctReedSolomon (s : mbp) : bool * mbp :=
  let v := value_ s in
  let try i j := listeqb (checks (set_byte v i j)) (ecc_data_ s) [0; 1; 2; 3] in
  let trials := flat_map (fun i => map (fun j => (i, N.of_nat j)) (seq 0 256)) [0; 1; 2; 3] in
  match find (fun t => try (fst t) (snd t)) trials with
  | Some (i, j) => (true, mkmb (set_byte v i j) (coding_scheme_ s) (ecc_data_ s) (valid_ s))
  | None => (false, s)
  end.

(* MB:396-416 *)
Definition updateECC (s : mbp) : mbp :=
  match coding_scheme_ s with
  | NONE => s
  | HAMMING | SECDED => generateHammingCode s
  | REED_SOLOMON => generateReedSolomon s
  end.
Definition ecc_new : list N := repeat 0 32.
(* MB:76-81 *)
Definition mb_new (v : N) (c : scheme) : mbp := updateECC (mkmb v c ecc_new true).
(* MB:64-68 *)
Definition mb_default : mbp := mb_new 0 NONE.
(* MB:109-114 (and :367-371) *)
Definition setValue (s : mbp) (v : N) : mbp := updateECC (mkmb v (coding_scheme_ s) (ecc_data_ s) true).
(* MB:121-141 *)
Definition hasError (s : mbp) : bool :=
  if negb (valid_ s) then true
  else match coding_scheme_ s with
       | NONE => false
       | HAMMING | SECDED => checkHammingParity s
       | REED_SOLOMON => checkReedSolomon s
       end.
(* MB:148-169: const, but value_ is mutable *)
Definition correctErrors (s : mbp) : bool * mbp :=
  if negb (hasError s) then (true, s)
  else match coding_scheme_ s with
       | NONE => (false, s)
       | HAMMING => correctHammingCode s
       | SECDED => correctSECDED s
       | REED_SOLOMON => correctReedSolomon s
       end.
(* MB:88-102 (and :378, operator T) *)
Definition getValue (s : mbp) : N * mbp :=
  if hasError s then let s' := snd (correctErrors s) in (value_ s', s') else (value_ s, s).
(* MB:174 *)
Definition markInvalid (s : mbp) : mbp := mkmb (value_ s) (coding_scheme_ s) (ecc_data_ s) false.
(* MB:181 *)
Definition isValid (s : mbp) : bool := valid_ s && negb (hasError s).

(* MB:188-212 *)
Definition applyBitInterleaving (v : N) : N :=
  for_up 32 0 (fun i r =>
    let b := N.land (N.shiftr v i) 1 in
    if i mod 2 =? 0 then N.lor r (wrap 32 (N.shiftl b (i / 2))) else N.lor r (wrap 32 (N.shiftl b (16 + i / 2)))) 0.
(* MB:220-237 *)
Definition undoBitInterleaving (v : N) : N :=
  for_up 16 0 (fun i r =>
    let r := N.lor r (wrap 32 (N.shiftl (N.land (N.shiftr v i) 1) (i * 2))) in
    N.lor r (wrap 32 (N.shiftl (N.land (N.shiftr v (i + 16)) 1) (i * 2 + 1)))) 0.

(** *** applyMultiBitErrors (MB:248-359).  The generator is an oracle: [real k] is the k-th value of dist(rng)
    and [int k] the k-th value of the integer distribution in use (the theorems quantify over every oracle whose
    values lie in the distributions' ranges). *)
Inductive upset := SINGLE_BIT | ADJACENT_BITS | ROW_UPSET | COLUMN_UPSET | RANDOM_MULTI.
Record oracle := mko { real : N -> sf; int1 : N -> N; int2 : N -> N }.
Definition to_unsigned (x : sf) : outcome N :=
  match trunc_sf x with
  | Some z => if ((0 <=? z) && (z <? 2 ^ 32))%Z then Ret (Z.to_N z) else UB UB_float_to_int
  | None => UB UB_float_to_int
  end.
Local Open Scope outcome_scope.
Definition applyMultiBitErrors (v : N) (error_rate : sf) (t : upset) (o : oracle) : outcome N :=
  if fle error_rate (dofZ 0) then Ret v
  else match t with
  | SINGLE_BIT => (* :270-280; int1 0 in [0, 31] *)
      if flt (real o 0) error_rate then Ret (N.lxor v (N.shiftl 1 (int1 o 0))) else Ret v
  | ADJACENT_BITS => (* :282-297; int1 0 in [0, 29], int2 0 in [2, 3] *)
      if flt (real o 0) error_rate
      then Ret (for_up (N.to_nat (int2 o 0)) 0 (fun i d => N.lxor d (wrap 32 (N.shiftl 1 (int1 o 0 + i)))) v)
      else Ret v
  | ROW_UPSET => (* :299-316; int1 0 in [0, 3], int2 i in [0, 7] *)
      if flt (real o 0) error_rate then
        k <- to_unsigned (dmul error_rate (dofZ 4)) ;;
        Ret (for_up (N.to_nat (wrap 32 (1 + k))) 0 (fun i d => N.lxor d (N.shiftl 1 (8 * int1 o 0 + int2 o i))) v)
      else Ret v
  | COLUMN_UPSET => (* :318-335; int1 0 in [0, 7], int2 i in [0, 3] *)
      if flt (real o 0) error_rate then
        k <- to_unsigned (dmul error_rate (dofZ 3)) ;;
        Ret (for_up (N.to_nat (wrap 32 (1 + k))) 0 (fun i d => N.lxor d (N.shiftl 1 (8 * int2 o i + int1 o 0))) v)
      else Ret v
  | RANDOM_MULTI => (* :337-356; int1 i in [0, 31] *)
      k <- to_unsigned (dmul error_rate (dofZ 8)) ;;
      Ret (for_up (N.to_nat k) 0 (fun i d =>
        if flt (real o i) error_rate then N.lxor d (N.shiftl 1 (8 * (int1 o i / 8) + int1 o i mod 8)) else d) v)
  end.

(** *** ChecksumProtection<T> (MB:820-878): a MultibitProtection with scheme NONE and a checksum *)
Record ckp := mkck { base : mbp; checksum_ : N }.
(* MB:862-877 *)
Definition calculateChecksum (s : mbp) : N :=
  let v := fst (getValue s) in
  for_up 4 0 (fun i sum => N.lxor (wrap 32 (N.shiftl sum 1)) (byte v i)) 0.
(* MB:825-833 *)
Definition ck_new (v : N) : ckp := let b := mb_new v NONE in mkck b (calculateChecksum b).
(* MB:838-842 *)
Definition ck_setValue (s : ckp) (v : N) : ckp := let b := setValue (base s) v in mkck b (calculateChecksum b).
(* setValue called through a reference to the base class: the function is not virtual *)
Definition ck_base_setValue (s : ckp) (v : N) : ckp := mkck (setValue (base s) v) (checksum_ s).
(* MB:847 *)
Definition ck_hasError (s : ckp) : bool := negb (checksum_ s =? calculateChecksum (base s)).

(** *** TripleModularRedundancy<T> (MB:886-930); hasError and correctErrors do not compile (core TMR has no verify(), and
    repair() returns void) *)
Record tmrp := mktp { tbase : mbp; tmr_ : copies3 N }.
(* MB:891-894 *)
Definition tp_default : tmrp := mktp mb_default (core_new 0).
(* MB:899-902 *)
Definition tp_new (v : N) : tmrp := mktp (mb_new v HAMMING) (core_new v).
(* MB:907 *)
Definition tp_getValue (ty : aty) (s : tmrp) : N := core_get (eqT ty) (tmr_ s).
(* MB:912-916 *)
Definition tp_setValue (s : tmrp) (v : N) : tmrp := mktp (setValue (tbase s) v) (core_set (tmr_ s) v).
(* MB:378: the inherited conversion calls the base class's getValue *)
Definition tp_convert (s : tmrp) : N := fst (getValue (tbase s)).

(** *** AdaptiveTMRProtection<T> (MB:939-1026) *)
Record atp := mkat { abase : mbp; atmr : copies3 N; protection_enabled_ : bool; radiation_threshold_ : sf }.
(* MB:944-959 *)
Definition at_default : atp := mkat mb_default (core_new 0) false (dlit 3 10).
Definition at_new (v : N) (threshold : sf) : atp := mkat (mb_new v HAMMING) (core_new v) false threshold.
(* MB:964-972 *)
Definition at_getValue (ty : aty) (s : atp) : N :=
  if protection_enabled_ s then core_get (eqT ty) (atmr s) else fst (getValue (abase s)).
(* MB:977-981 *)
Definition at_setValue (s : atp) (v : N) : atp :=
  mkat (setValue (abase s) v) (core_set (atmr s) v) (protection_enabled_ s) (radiation_threshold_ s).
(* MB:986 *)
Definition at_setRadiationThreshold (s : atp) (t : sf) : atp := mkat (abase s) (atmr s) (protection_enabled_ s) t.
(* MB:991-994 *)
Definition at_updateProtectionStatus (s : atp) (level : sf) : atp :=
  mkat (abase s) (atmr s) (fge level (radiation_threshold_ s)) (radiation_threshold_ s).
