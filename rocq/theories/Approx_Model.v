(** AT = include/rad_ml/tmr/approximate_tmr.hpp (tmr::ApproximateTMR<T>)

    Integral T: values are the mathematical integers [Z] in T's range, T given by its width and
    signedness; bool is separate.  A left shift of a negative value is undefined in C++17 (the
    project's standard) and arithmetic from C++20 on and in gcc: modelled as arithmetic.
    float/double: bit patterns.  Checksums are the CRC of the copy's bytes. *)
From Coq Require Import List NArith ZArith Bool.
Import ListNotations.
From Verif Require Import Outcome Words Arith Floats Crc_Model CrcTMR_Model.

(* AT:20-25 *)
Inductive approx := EXACT | REDUCED_PRECISION | RANGE_LIMITED | CUSTOM.

(** *** the class over an abstract T *)
Section AT.
Context {V : Type}.
Variable eqV : V -> V -> bool.
Variables reduce limit : V -> V.                       (* reducePrecision, limitRange *)
Variable crc : V -> N.                                 (* calculateChecksum *)
Record at_ := mkat { a0 : V; a1 : V; a2 : V; k0 : N; k1 : N; k2 : N }.
Record cfg := mkcfg { y0 : approx; y1 : approx; y2 : approx; custom : option (V -> V) }.
(* AT:45-49 default argument *)
Definition default_cfg : cfg := mkcfg EXACT REDUCED_PRECISION RANGE_LIMITED None.
(* AT:161-181 applyApproximation *)
Definition approximate (c : cfg) (y : approx) (v : V) : V :=
  match y with
  | EXACT => v
  | REDUCED_PRECISION => reduce v
  | RANGE_LIMITED => limit v
  | CUSTOM => match custom c with Some f => f v | None => v end
  end.
(* AT:94-103 set *)
Definition at_set (c : cfg) (v : V) : at_ :=
  let x := approximate c (y0 c) v in let y := approximate c (y1 c) v in let z := approximate c (y2 c) v in
  mkat x y z (crc x) (crc y) (crc z).
Definition is_exact (y : approx) : bool := match y with EXACT => true | _ => false end.
(* AT:63-87 get (getExactValue is the identity, AT:189-195) *)
Definition at_get (c : cfg) (s : at_) : V :=
  if eqV (a0 s) (a1 s) then a0 s
  else if eqV (a0 s) (a2 s) then a0 s
  else if eqV (a1 s) (a2 s) then a1 s
  else if is_exact (y0 c) then a0 s
  else if is_exact (y1 c) then a1 s
  else if is_exact (y2 c) then a2 s
  else a0 s.
(* AT:121-128, 287-290 verify *)
Definition at_verify (s : at_) : bool :=
  (k0 s =? crc (a0 s))%N && (k1 s =? crc (a1 s))%N && (k2 s =? crc (a2 s))%N.
(* AT:133-139 repair *)
Definition at_repair (c : cfg) (s : at_) : at_ := at_set c (at_get c s).
(** upset of one copy *)
Definition at_corrupt (i : nat) (u : V) (s : at_) : at_ :=
  match i with
  | 0%nat => mkat u (a1 s) (a2 s) (k0 s) (k1 s) (k2 s)
  | 1%nat => mkat (a0 s) u (a2 s) (k0 s) (k1 s) (k2 s)
  | _ => mkat (a0 s) (a1 s) u (k0 s) (k1 s) (k2 s)
  end.
End AT.

(** *** integral T *)
Record ity := mki { iw : Z; isg : bool }.             (* width in bits, signedness *)
Definition int_types : list ity :=
  [mki 8 true; mki 8 false; mki 16 true; mki 16 false; mki 32 true; mki 32 false; mki 64 true; mki 64 false].
Section I.
Variable t : ity.
Local Open Scope Z_scope.
Definition imin : Z := if isg t then - 2 ^ (iw t - 1) else 0.
Definition imax : Z := if isg t then 2 ^ (iw t - 1) - 1 else 2 ^ iw t - 1.
(* static_cast<T>: reduction modulo 2^w into range *)
Definition icast (x : Z) : Z :=
  if isg t then (x + 2 ^ (iw t - 1)) mod 2 ^ iw t - 2 ^ (iw t - 1) else x mod 2 ^ iw t.
(* AT:225-229 *)
Definition ireduce (v : Z) : Z :=
  let sh := if iw t <=? 16 then 2 else 3 in icast (Z.shiftl (Z.shiftr v sh) sh).
(* AT:251-255; std::min(a,b) = b < a ? b : a, std::max(a,b) = a < b ? b : a *)
Definition ilimit : Z := Z.quot imax 2.
Definition ilimitRange (v : Z) : Z :=
  let m := if ilimit <? v then ilimit else v in
  let lo := icast (- ilimit) in
  if m <? lo then lo else m.
(* AT:268-283 over the bytes of the two's complement pattern *)
Definition icrc (v : Z) : N := CRC_calculate (bytes_of (Z.to_nat (iw t / 8)) (Z.to_N (v mod 2 ^ iw t))).
End I.

(** *** bool: integer promotions, then conversion to bool *)
Definition breduce (b : bool) : bool := negb (Z.shiftl (Z.shiftr (if b then 1 else 0) 2) 2 =? 0)%Z.
Definition blimit : bool := negb (Z.quot 1 2 =? 0)%Z.   (* numeric_limits<bool>::max() / 2 *)
Definition blimitRange (b : bool) : bool :=
  let lt (x y : bool) := negb x && y in
  let m := if lt blimit b then blimit else b in
  let lo := negb (- (if blimit then 1 else 0) =? 0)%Z in
  if lt m lo then lo else m.

(** *** float / double *)
Section Fl.
Variable t : aty.
(* AT:207-223: clears the low 5 bits of the 64-bit union member; for float the other half of the union
   is not read back *)
Definition freduce (v : N) : N := N.ldiff v 31.
(* 1e6 and -1e6 *)
Definition flimit : N := match t with F32 => 0x49742400%N | _ => 0x412E848000000000%N end.
Definition fneglimit : N := N.lxor flimit (2 ^ (width t - 1)).
(* AT:246-250 *)
Definition flimitRange (v : N) : N :=
  let m := if ltT t flimit v then flimit else v in
  if ltT t m fneglimit then fneglimit else m.
Definition fcrc (v : N) : N := CRC_calculate (bytes_of (N.to_nat (sizeof t)) v).
End Fl.
