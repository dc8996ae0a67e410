(** IEEE-754 arithmetic of float and double, round to nearest even, as computed by the
    standard library's SpecFloat (no axioms).  FLT_EVAL_METHOD = 0 is assumed (every
    operation rounds to its own type), and no fused multiply-add contraction. *)
From Coq Require Import ZArith NArith Bool SpecFloat.
From Verif Require Import Words Arith.
Local Open Scope Z_scope.

Notation sf := spec_float.

(* binary64 *)
Definition dadd : sf -> sf -> sf := SFadd 53 1024.
Definition dsub : sf -> sf -> sf := SFsub 53 1024.
Definition dmul : sf -> sf -> sf := SFmul 53 1024.
Definition ddiv : sf -> sf -> sf := SFdiv 53 1024.
Definition dofZ (z : Z) : sf := binary_normalize 53 1024 z 0 false.
(** decimal literal num/den, correctly rounded *)
Definition dlit (num den : Z) : sf := ddiv (dofZ num) (dofZ den).
(* binary32 *)
Definition sadd : sf -> sf -> sf := SFadd 24 128.
Definition ssub : sf -> sf -> sf := SFsub 24 128.
Definition smul : sf -> sf -> sf := SFmul 24 128.
Definition sdiv : sf -> sf -> sf := SFdiv 24 128.
Definition sofZ (z : Z) : sf := binary_normalize 24 128 z 0 false.
Definition slit (num den : Z) : sf := sdiv (sofZ num) (sofZ den).

Definition flt (x y : sf) : bool := SFltb x y.
Definition fle (x y : sf) : bool := SFleb x y.
Definition fgt (x y : sf) : bool := SFltb y x.
Definition fge (x y : sf) : bool := SFleb y x.
Definition feqb (x y : sf) : bool := SFeqb x y.

(** std::max(a,b) = (a < b) ? b : a,  std::min(a,b) = (b < a) ? b : a *)
Definition fmax (a b : sf) : sf := if flt a b then b else a.
Definition fmin (a b : sf) : sf := if flt b a then b else a.

(** The number a pattern with [m] mantissa and [e] exponent bits denotes. *)
Definition sf_of_bits (m e x : N) : sf :=
  let mant := f_mant m x in
  let ex := f_exp m e x in
  let s := N.testbit x (m + e) in
  let bias := 2 ^ (Z.of_N e - 1) - 1 in
  if (ex =? 2 ^ e - 1)%N then (if (mant =? 0)%N then S754_infinity s else S754_nan)
  else if (ex =? 0)%N then
    match mant with
    | 0%N => S754_zero s
    | Npos p => S754_finite s p (1 - bias - Z.of_N m)
    end
  else match (2 ^ m + mant)%N with
       | 0%N => S754_zero s
       | Npos p => S754_finite s p (Z.of_N ex - bias - Z.of_N m)
       end.
Definition sf32 (x : N) : sf := sf_of_bits 23 8 x.
Definition sf64 (x : N) : sf := sf_of_bits 52 11 x.
