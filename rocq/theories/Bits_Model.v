(** FP = include/rad_ml/math/fixed_point.hpp, BO = include/rad_ml/math/branchless_ops.hpp,
    BM = include/rad_ml/utils/bit_manipulation.hpp, ST = include/rad_ml/core/error/status_code.hpp

    Integral types: width and signedness (Approx_Model.ity); values are the mathematical integers.
    Integer promotions and the usual arithmetic conversions are explicit.  Conversions to a signed
    type that cannot hold the value reduce modulo 2^w, right shifts of negative values are arithmetic
    (implementation-defined before C++20; what gcc, clang and msvc do). *)
From Coq Require Import List NArith ZArith Bool SpecFloat.
Import ListNotations.
From Verif Require Import Outcome Words Arith Floats Approx_Model.
Local Open Scope Z_scope.
Local Open Scope outcome_scope.

Definition int32 : ity := mki 32 true.
Definition int64 : ity := mki 64 true.
(* integer promotion *)
Definition promote (t : ity) : ity := if iw t <? 32 then int32 else t.
(* the usual arithmetic conversions of two promoted types *)
Definition common (a b : ity) : ity :=
  if iw a <? iw b then b else if iw b <? iw a then a else if isg a then b else a.
Definition fitsb (t : ity) (x : Z) : bool := (imin t <=? x) && (x <=? imax t).
(* the result of an arithmetic operator in type [t]: signed overflow is undefined, unsigned wraps *)
Definition arith (t : ity) (x : Z) : outcome Z :=
  if isg t then if fitsb t x then Ret x else UB UB_signed_overflow else Ret (icast t x).

(** *** FixedPoint<IntBits, FracBits, T> *)
Section FP.
Variable t : ity.
Variable F : Z.                                       (* FracBits *)
(* FP:32 static_cast<T>(1) << FracBits, converted to T *)
Definition scale : Z := icast t (2 ^ F).
(* FP:46-47 value * scale in the common type of int and T, then static_cast<T> *)
Definition fp_of_int (v : Z) : outcome Z :=
  let c := common int32 (promote t) in
  p <- arith c (icast c v * icast c scale) ;; Ret (icast t p).
(* FP:59-63, 65-69 (and += -=, FP:104-112) *)
Definition fp_add (a b : Z) : outcome Z := s <- arith (promote t) (a + b) ;; Ret (icast t s).
Definition fp_sub (a b : Z) : outcome Z := s <- arith (promote t) (a - b) ;; Ret (icast t s).
(* FP:71-86 (and *=): wider_t is std::int64_t in both branches *)
Definition fp_mul (a b : Z) : outcome Z :=
  let c := common int64 (promote t) in
  p <- arith c (icast c (icast int64 a) * icast c b) ;;
  Ret (icast t (Z.shiftr (icast int64 p) F)).
(* FP:88-103 (and /=).  [cpp17]: up to C++17 shifting a negative value left is undefined; from C++20
   on (and in gcc always) it multiplies *)
Definition fp_div (cpp17 : bool) (a b : Z) : outcome Z :=
  let c := common int64 (promote t) in
  let x := icast int64 a in
  if cpp17 && (x <? 0) then UB UB_shift_negative
  else
    let sh := icast int64 (x * 2 ^ F) in
    if cpp17 && (2 ^ 64 <=? x * 2 ^ F) then UB UB_signed_overflow
    else if icast c b =? 0 then UB UB_div_zero
    else q <- arith c (Z.quot (icast c sh) (icast c b)) ;; Ret (icast t q).
(* FP:49-56 (for T of at most 32 bits, whose scale is a double exactly) *)
Definition to_double (v : Z) : sf := ddiv (dofZ v) (dofZ scale).
Definition to_float (v : Z) : sf := sdiv (sofZ v) (sofZ scale).
End FP.
(* floating -> integer conversion: truncation; undefined when the truncated value is out of range *)
Definition trunc_sf (x : sf) : option Z :=
  match x with
  | S754_zero _ => Some 0
  | S754_finite s m e =>
      let a := if 0 <=? e then Z.pos m * 2 ^ e else Z.pos m / 2 ^ (- e) in Some (if s then - a else a)
  | _ => None
  end.
Definition fcast (t : ity) (x : sf) : outcome Z :=
  match trunc_sf x with Some z => if fitsb t z then Ret z else UB UB_float_to_int | None => UB UB_float_to_int end.
(* FP:40-41, 43-44 *)
Definition fp_of_double (t : ity) (F : Z) (x : sf) : outcome Z := fcast t (dmul x (dofZ (scale t F))).
Definition fp_of_float (t : ity) (F : Z) (x : sf) : outcome Z := fcast t (smul x (sofZ (scale t F))).
(* FP:115-137 *)
Definition fp_lt (a b : Z) : bool := a <? b.
Definition fp_eq (a b : Z) : bool := a =? b.

(** *** BranchlessOps.  T is bool or an integer type (for floating-point T the operators & | ~ do not exist) *)
Inductive bty := Bool | Int (t : ity).
Definition bprom (t : bty) : ity := match t with Bool => int32 | Int t => promote t end.
(* conversion to T *)
Definition bcast (t : bty) (x : Z) : Z := match t with Bool => if x =? 0 then 0 else 1 | Int t => icast t x end.
Definition b2z (b : bool) : Z := if b then 1 else 0.
(* (mask & a) | (~mask & b) in the promoted type, converted to T *)
Definition blend (t : bty) (mask a b : Z) : Z :=
  bcast t (Z.lor (Z.land mask a) (Z.land (icast (bprom t) (Z.lnot mask)) b)).
(* BO:27-31: -(a <= b) negates an int *)
Definition bo_min (t : bty) (a b : Z) : Z := let mask := bcast t (- b2z (a <=? b)) in blend t mask a b.
(* BO:41-45 *)
Definition bo_max (t : bty) (a b : Z) : Z := let mask := bcast t (- b2z (b <=? a)) in blend t mask a b.
(* BO:54-59 (T signed integral) *)
Definition bo_abs (t : ity) (x : Z) : outcome Z :=
  let mask := icast t (Z.shiftr x (iw t - 1)) in
  d <- arith (promote t) (Z.lxor x mask - mask) ;; Ret (icast t d).
(* BO:68-71 *)
Definition bo_sign (t : ity) (x : Z) : Z := icast t (b2z (0 <? x) - b2z (x <? 0)).
(* BO:82-86: [c] is condition != 0 *)
Definition bo_select (t : bty) (c : bool) (x y : Z) : Z :=
  let mask := bcast t (icast (bprom t) (- bcast t (b2z c))) in blend t mask x y.
(* BO:97-105 *)
Definition bo_clamp (t : bty) (x low high : Z) : Z :=
  let mask1 := bcast t (- b2z (x <=? high)) in
  let result := blend t mask1 x high in
  let mask2 := bcast t (- b2z (low <=? result)) in
  blend t mask2 result low.

(** *** BitManipulation *)
(* BM:32-49, 58-75: the bit pattern of a float (w = 32) or a double (w = 64) *)
Definition bm_flip_float (w : N) (x : N) (pos : Z) : N :=
  if (pos <? 0) || (Z.of_N w <=? pos) then x else N.lxor x (2 ^ Z.to_N pos).
(* BM:85-94; the shift is done in the promoted type.  sizeof(bool) = 1 *)
Definition bwidth (t : bty) : Z := match t with Bool => 8 | Int t => iw t end.
Definition one_shl (t : bty) (pos : Z) : Z := icast (bprom t) (2 ^ pos).
Definition bm_flip (t : bty) (v pos : Z) : Z :=
  if (pos <? 0) || (bwidth t <=? pos) then v else bcast t (Z.lxor v (one_shl t pos)).
(* BM:144-163; for floating-point T use the unsigned type of the same width *)
Definition bm_isset (t : bty) (v pos : Z) : bool :=
  if (pos <? 0) || (bwidth t <=? pos) then false else negb (Z.land v (one_shl t pos) =? 0).
(* BM:105-135: the object representations of a and b, [size] bytes as one little-endian number.
   UIntType has 8, 4, 2 or, for every other size, 1 byte *)
Definition uint_bits (size : N) : N := if (size =? 8)%N then 64 else if (size =? 4)%N then 32 else if (size =? 2)%N then 16 else 8.
Fixpoint count_loop (fuel : nat) (diff : N) (count : N) : N :=
  match fuel with
  | O => count
  | S k => if (diff =? 0)%N then count else count_loop k (N.shiftr diff 1) (count + N.land diff 1)
  end.
Definition bm_count (size a b : N) : N :=
  let w := uint_bits size in
  count_loop (S (N.to_nat w)) (N.lxor (a mod 2 ^ w) (b mod 2 ^ w)) 0.

(** *** core::error::StatusCode, Result *)
(* ST:24-34 *)
Inductive domain := D_SYSTEM | D_MEMORY | D_RADIATION | D_REDUNDANCY | D_NETWORK | D_COMPUTATION | D_IO | D_VALIDATION | D_APPLICATION.
(* ST:133-136; the message plays no role *)
Record status := mkst { dom : domain; code : N }.
Definition dom_eqb (a b : domain) : bool :=
  match a, b with
  | D_SYSTEM, D_SYSTEM | D_MEMORY, D_MEMORY | D_RADIATION, D_RADIATION | D_REDUNDANCY, D_REDUNDANCY | D_NETWORK, D_NETWORK
  | D_COMPUTATION, D_COMPUTATION | D_IO, D_IO | D_VALIDATION, D_VALIDATION | D_APPLICATION, D_APPLICATION => true
  | _, _ => false
  end.
(* ST:140 *)
Definition SUCCESS : status := mkst D_SYSTEM 0.
(* ST:141-150 *)
Definition predefined_errors : list status :=
  [mkst D_MEMORY 1; mkst D_REDUNDANCY 1; mkst D_RADIATION 1; mkst D_SYSTEM 1; mkst D_COMPUTATION 1; mkst D_COMPUTATION 2;
   mkst D_COMPUTATION 3; mkst D_VALIDATION 1; mkst D_RADIATION 2; mkst D_SYSTEM 2].
(* ST:75-77 *)
Definition st_isSuccess (s : status) : bool := dom_eqb (dom s) D_SYSTEM && (code s =? 0)%N.
(* ST:120-122 *)
Definition st_eq (a b : status) : bool := dom_eqb (dom a) (dom b) && (code a =? code b)%N.
(* ST:222-225; value_ of a scalar type is indeterminate (None) after the error constructor *)
Record result (V : Type) := mkres { rvalue : option V; rstatus : status; has_value : bool }.
Arguments mkres {V}. Arguments rvalue {V}. Arguments rstatus {V}. Arguments has_value {V}.
(* ST:169-170, 177-178 *)
Definition res_of_value {V} (v : V) : result V := mkres (Some v) SUCCESS true.
Definition res_of_status {V} (s : status) : result V := mkres None s false.
(* ST:185-187; ST:214-216 *)
Definition res_isSuccess {V} (r : result V) : bool := has_value r.
Definition res_isError {V} (r : result V) : bool := negb (has_value r).
Definition res_getStatus {V} (r : result V) : status := rstatus r.
(* ST:202-208: [out] is the caller's variable *)
Definition res_getValue {V} (r : result V) (out : V) : outcome (bool * V) :=
  if has_value r then match rvalue r with Some v => Ret (true, v) | None => UB UB_uninit end else Ret (false, out).
(* the implicit copy constructor of Result<T>, T scalar: every member is read *)
Definition res_copy {V} (r : result V) : outcome (result V) :=
  match rvalue r with Some v => Ret (mkres (Some v) (rstatus r) (has_value r)) | None => UB UB_uninit end.
(* ST:230-276 Result<void> *)
Record vresult := mkvr { vstatus : status; vsuccess : bool }.
Definition vres_ok : vresult := mkvr SUCCESS true.
Definition vres_of_status (s : status) : vresult := mkvr s (st_isSuccess s).
