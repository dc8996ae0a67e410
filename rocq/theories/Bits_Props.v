(** Properties C45-C48, C80-C82: FixedPoint, BranchlessOps, BitManipulation, Result. *)
From Coq Require Import List NArith ZArith Bool SpecFloat Reals.
Import ListNotations.
From Verif Require Import Outcome Words Arith Floats FloatsR Approx_Model Approx_Spec Bits_Model Bits_Spec Bits_Proofs Bits2_Proofs BitsFloat_Proofs.
Local Open Scope Z_scope.

(** C45.  Raw values a, b stand for a/2^F, b/2^F. *)
Theorem C45_add_sub_partial : forall t a b, in_range t a -> in_range t b ->
  (fp_add t a b = if fitsb t (a + b) then Ret (a + b)
                  else if isg t && (32 <=? iw t) then UB UB_signed_overflow else Ret (icast t (a + b))) /\
  (fp_sub t a b = if fitsb t (a - b) then Ret (a - b)
                  else if isg t && (32 <=? iw t) then UB UB_signed_overflow else Ret (icast t (a - b))).
Proof. intros t a b Ha Hb. exact (conj (fp_add_spec t a b Ha Hb) (fp_sub_spec t a b Ha Hb)). Qed.
Print Assumptions C45_add_sub_partial.
Theorem C45_multiply_floor_partial : forall t F a b, 0 <= F -> in_range t a -> in_range t b -> iw t < 32 \/ t = int32 ->
  in_range t (a * b / 2 ^ F) -> fp_mul t F a b = Ret (a * b / 2 ^ F).
Proof. exact fp_mul_floor. Qed.
Print Assumptions C45_multiply_floor_partial.
(* the same, in real numbers *)
Theorem C45_multiply_real_partial : forall t F a b, 0 <= F -> in_range t a -> in_range t b -> iw t < 32 \/ t = int32 ->
  in_range t (a * b / 2 ^ F) ->
  exists r, fp_mul t F a b = Ret r /\ (real_of F r <= real_of F a * real_of F b < real_of F r + real_of F 1)%R.
Proof. exact mul_real. Qed.
Print Assumptions C45_multiply_real_partial.
(* what an out-of-range product gives *)
Theorem C45_multiply_wraps_partial : forall t F a b, in_range t a -> in_range t b -> iw t < 32 \/ t = int32 ->
  fp_mul t F a b = Ret (icast t (Z.shiftr (a * b) F)).
Proof. exact fp_mul_spec. Qed.
Print Assumptions C45_multiply_wraps_partial.
(* with the C++20 (and gcc) meaning of <<; in C++17 a negative dividend is undefined behaviour *)
Theorem C45_divide_partial : forall t F cpp17 a b, in_range t a -> in_range t b -> iw t <= 32 -> 0 <= F < iw t ->
  fp_div t F cpp17 a b =
  if cpp17 && (a <? 0) then UB UB_shift_negative
  else if b =? 0 then UB UB_div_zero
  else Ret (icast t (Z.quot (a * 2 ^ F) b)).
Proof. exact fp_div_spec. Qed.
Print Assumptions C45_divide_partial.
Theorem C45_divide_negative_refuted :
  fp_div int32 16 true (- 65536) 65536 = UB UB_shift_negative /\ fp_div int32 16 false (- 65536) 65536 = Ret (- 65536).
Proof. split; vm_compute; reflexivity. Qed.
Print Assumptions C45_divide_negative_refuted.
(* 64-bit T: a representable product is undefined or wrong *)
Theorem C45_multiply_64_refuted : in_range int64 (2 ^ 32 * 2 ^ 32 / 2 ^ 32) /\
  fp_mul int64 32 (2 ^ 32) (2 ^ 32) = UB UB_signed_overflow /\
  in_range (mki 64 false) (2 ^ 32 * 2 ^ 32 / 2 ^ 32) /\ fp_mul (mki 64 false) 32 (2 ^ 32) (2 ^ 32) = Ret 0.
Proof. repeat split; try (vm_compute; auto 10; fail); vm_compute; congruence. Qed.
Print Assumptions C45_multiply_64_refuted.
Example C45_nonvacuous : in_range int32 (3 * 2 ^ 15) /\ fp_mul int32 16 (3 * 2 ^ 15) (- 5 * 2 ^ 15) = Ret (- 15 * 2 ^ 14) /\
  in_range int32 (3 * 2 ^ 15 * (- 5 * 2 ^ 15) / 2 ^ 16).
Proof. repeat split; try (vm_compute; auto 10; fail); vm_compute; congruence. Qed.

(** C46 *)
Theorem C46_min_max : forall t a b, value_of t a -> value_of t b -> bo_min t a b = Z.min a b /\ bo_max t a b = Z.max a b.
Proof. intros t a b Ha Hb. exact (conj (min_spec t a b Ha Hb) (max_spec t a b Ha Hb)). Qed.
Print Assumptions C46_min_max.
Theorem C46_select : forall t c x y, value_of t x -> value_of t y -> bo_select t c x y = if c then x else y.
Proof. exact select_spec. Qed.
Print Assumptions C46_select.
Theorem C46_clamp : forall t x low high, value_of t x -> value_of t low -> value_of t high ->
  bo_clamp t x low high = Z.max low (Z.min x high).
Proof. exact clamp_spec. Qed.
Print Assumptions C46_clamp.
Theorem C46_sign : forall t x, In t int_types -> isg t = true -> bo_sign t x = Z.sgn x.
Proof. exact sign_spec. Qed.
Print Assumptions C46_sign.
Theorem C46_abs : forall t x, in_range t x -> isg t = true -> x <> - 2 ^ (iw t - 1) -> bo_abs t x = Ret (Z.abs x).
Proof. exact abs_spec. Qed.
Print Assumptions C46_abs.
Theorem C46_abs_of_the_most_negative : forall t, In t int_types -> isg t = true ->
  bo_abs t (- 2 ^ (iw t - 1)) = if 32 <=? iw t then UB UB_signed_overflow else Ret (- 2 ^ (iw t - 1)).
Proof. exact abs_min. Qed.
Print Assumptions C46_abs_of_the_most_negative.
Example C46_nonvacuous : value_of (Int (mki 8 false)) 200 /\ bo_min (Int (mki 8 false)) 200 100 = 100 /\
  bo_clamp (Int (mki 64 true)) (-7) (-5) 9 = -5 /\ bo_abs (mki 16 true) (-9) = Ret 9.
Proof. repeat split; try (vm_compute; auto 10; fail); vm_compute; congruence. Qed.

(** C47: true for every integer type, float and double *)
Theorem C47_flip_one_bit_partial : forall t v pos, in_range t v -> 0 <= pos < iw t ->
  in_range t (bm_flip (Int t) v pos) /\
  forall j, 0 <= j < iw t -> Z.testbit (bm_flip (Int t) v pos) j = xorb (Z.testbit v j) (j =? pos).
Proof. exact flip_bits. Qed.
Print Assumptions C47_flip_one_bit_partial.
Theorem C47_flip_involutive_partial : forall t v pos, in_range t v -> bm_flip (Int t) (bm_flip (Int t) v pos) pos = v.
Proof. exact flip_involutive. Qed.
Print Assumptions C47_flip_involutive_partial.
Theorem C47_out_of_range : forall t v pos, pos < 0 \/ bwidth t <= pos -> bm_flip t v pos = v.
Proof. exact flip_out. Qed.
Print Assumptions C47_out_of_range.
Theorem C47_isBitSet : forall t v pos, in_range t v ->
  bm_isset (Int t) v pos = if (0 <=? pos) && (pos <? iw t) then Z.testbit v pos else false.
Proof. exact isset_spec. Qed.
Print Assumptions C47_isBitSet.
Theorem C47_float_flip : forall w x pos, (x < 2 ^ w)%N -> 0 <= pos < Z.of_N w ->
  (bm_flip_float w x pos < 2 ^ w)%N /\ bm_flip_float w (bm_flip_float w x pos) pos = x /\
  forall j, N.testbit (bm_flip_float w x pos) j = xorb (N.testbit x j) (j =? Z.to_N pos)%N.
Proof. intros w x pos Hx Hp. destruct (fflip_bits w x pos Hx Hp) as [A B]. exact (conj A (conj (fflip_involutive w x pos) B)). Qed.
Print Assumptions C47_float_flip.
(* countBitDifferences: for 1, 2, 4 and 8 byte objects all bits count, for others only the first byte *)
Theorem C47_count_is_hamming : forall size a b, bm_count size a b = hamming (N.to_nat (uint_bits size)) a b.
Proof. exact count_spec. Qed.
Print Assumptions C47_count_is_hamming.
Theorem C47_hamming_metric : forall w a b c, (a < 2 ^ N.of_nat w)%N -> (b < 2 ^ N.of_nat w)%N ->
  hamming w a b = hamming w b a /\ (hamming w a b = 0%N <-> a = b) /\ (hamming w a c <= hamming w a b + hamming w b c)%N.
Proof. intros w a b c Ha Hb. exact (conj (hamming_sym w a b) (conj (hamming_zero w a b Ha Hb) (hamming_triangle w a b c))). Qed.
Print Assumptions C47_hamming_metric.
Theorem C47_one_flip_is_distance_one : forall t v pos, in_range t v -> 0 <= pos < iw t ->
  bm_count (Z.to_N (iw t / 8)) (bits_of (iw t) v) (bits_of (iw t) (bm_flip (Int t) v pos)) = 1%N.
Proof. exact count_flip_int. Qed.
Print Assumptions C47_one_flip_is_distance_one.
Theorem C47_one_float_flip_is_distance_one : forall w x pos, 0 <= pos < Z.of_nat w -> (x < 2 ^ N.of_nat w)%N ->
  hamming w x (bm_flip_float (N.of_nat w) x pos) = 1%N.
Proof. exact hamming_flip. Qed.
Print Assumptions C47_one_float_flip_is_distance_one.
(* refuted for bool (flipping any of the bits 1..7 makes it true) and for objects of other sizes *)
Theorem C47_bool_refuted : forall v pos, 1 <= pos < 8 -> value_of Bool v -> bm_flip Bool v pos = 1.
Proof. exact flip_bool. Qed.
Print Assumptions C47_bool_refuted.
Theorem C47_other_sizes_refuted : bm_count 16 0 (2 ^ 128 - 256) = 0%N.
Proof. vm_compute. reflexivity. Qed.
Print Assumptions C47_other_sizes_refuted.
Example C47_nonvacuous : bm_flip (Int int32) (-1) 31 = 2 ^ 31 - 1 /\ bm_flip (Int (mki 8 true)) 0 7 = -128 /\
  bm_count 4 0xFF 0xF00F = 8%N /\ bm_isset (Int int64) (-1) 63 = true.
Proof. repeat split; vm_compute; reflexivity. Qed.

(** C48 *)
Theorem C48_success_status_refuted : forall V, let r : result V := res_of_status SUCCESS in
  res_isSuccess r = false /\ st_isSuccess (res_getStatus r) = true.
Proof. exact @res_success_status. Qed.
Print Assumptions C48_success_status_refuted.
Theorem C48_agrees_partial : forall V (r : result V),
  (exists v, r = res_of_value v) \/ (exists s, r = res_of_status s /\ st_isSuccess s = false) ->
  res_isSuccess r = st_isSuccess (res_getStatus r).
Proof. exact @res_agrees. Qed.
Print Assumptions C48_agrees_partial.
Theorem C48_getValue : forall V (r : result V) out, (exists v, r = res_of_value v) \/ (exists s, r = res_of_status s) ->
  exists o, res_getValue r out = Ret (res_isSuccess r, o) /\ (res_isSuccess r = false -> o = out) /\
  (forall v, r = res_of_value v -> o = v).
Proof. exact @res_get_iff. Qed.
Print Assumptions C48_getValue.
Theorem C48_void_agrees : forall r, r = vres_ok \/ (exists s, r = vres_of_status s) -> vsuccess r = st_isSuccess (vstatus r).
Proof. exact vres_agrees. Qed.
Print Assumptions C48_void_agrees.
(* every predefined error is an error, equality is equality of domain and code *)
Theorem C48_predefined : Forall (fun s => st_isSuccess s = false) predefined_errors /\
  forall a b, st_eq a b = true <-> dom a = dom b /\ code a = code b.
Proof. exact (conj predefined_are_errors st_eq_iff). Qed.
Print Assumptions C48_predefined.
Example C48_nonvacuous : res_isSuccess (res_of_value 5%N) = true /\ st_isSuccess (mkst D_SYSTEM 1) = false.
Proof. split; reflexivity. Qed.

(** C80: conversion to double and back is the identity for every admissible format of at most 32 bits; to float and back
    only below 2^24 *)
Theorem C80_double_roundtrip_partial : forall t F v, small_type t -> 0 <= F < iw t -> in_range t v ->
  fp_of_double t F (to_double t F v) = Ret v.
Proof. exact double_roundtrip. Qed.
Print Assumptions C80_double_roundtrip_partial.
Theorem C80_to_double_value_partial : forall t F v, small_type t -> 0 <= F < iw t -> ~ (isg t = true /\ F = iw t - 1) -> in_range t v ->
  R (to_double t F v) = real_of F v.
Proof. exact to_double_real. Qed.
Print Assumptions C80_to_double_value_partial.
Theorem C80_float_roundtrip_partial : forall t F v, small_type t -> 0 <= F < iw t -> in_range t v -> Z.abs v < 2 ^ 24 ->
  fp_of_float t F (to_float t F v) = Ret v.
Proof. exact float_roundtrip. Qed.
Print Assumptions C80_float_roundtrip_partial.
Theorem C80_float_roundtrip_refuted :
  (exists y, fp_of_float int32 16 (to_float int32 16 (2 ^ 24 + 1)) = Ret y /\ y <> 2 ^ 24 + 1) /\
  fp_of_float int32 16 (to_float int32 16 (2 ^ 31 - 1)) = UB UB_float_to_int.
Proof. exact (conj float_roundtrip_wrong float_roundtrip_ub). Qed.
Print Assumptions C80_float_roundtrip_refuted.
Example C80_nonvacuous : small_type int32 /\ in_range int32 (- 98765).
Proof. repeat split; try (vm_compute; auto 10; fail); vm_compute; congruence. Qed.

(** C81: with all bits but the sign fractional the product of 0.5 and 0.5 is -0.25 *)
Theorem C81_half_squared_refuted : exists x y, fp_of_double int32 31 (dlit 1 2) = Ret x /\ fp_mul int32 31 x x = Ret y /\
  feqb (to_double int32 31 x) (dlit 1 2) = true /\ feqb (to_double int32 31 y) (dlit (-1) 4) = true.
Proof. exact mul_wrong_sign. Qed.
Print Assumptions C81_half_squared_refuted.
(* int construction is exact whenever the value is representable *)
Theorem C81_of_int_partial : forall t F v, In t int_types -> 0 <= F < iw t - 1 -> in_range int32 v -> in_range t (v * 2 ^ F) ->
  isg t = true -> fp_of_int t F v = Ret (v * 2 ^ F).
Proof. exact fp_of_int_exact. Qed.
Print Assumptions C81_of_int_partial.
Example C81_nonvacuous : fp_of_int int32 16 (-5) = Ret (-5 * 65536) /\ fp_of_int int32 16 32768 = UB UB_signed_overflow.
Proof. split; vm_compute; reflexivity. Qed.

(** C82: copying an error result of a scalar type reads an indeterminate value *)
Theorem C82_copy_error_result_refuted : forall V s, res_copy (@res_of_status V s) = UB UB_uninit.
Proof. exact @res_copy_error. Qed.
Print Assumptions C82_copy_error_result_refuted.
