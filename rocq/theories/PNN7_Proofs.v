(** Patterns and numbers; ReLU. *)
From Coq Require Import List NArith ZArith Bool Arith Lia Reals Lra SpecFloat.
From Flocq Require Import Core.
From Flocq.IEEE754 Require Import BinarySingleNaN.
Import ListNotations.
From Verif Require Import Outcome Words Arith Floats FloatsR FloatsS PNN_Model PNN_Spec PNN2_Proofs.
Local Open Scope N_scope.

Lemma digits_lt m k : (Z.pos (digits2_pos m) <= k)%Z -> (Z.pos m < 2 ^ k)%Z.
Proof.
  intros H. rewrite Digits.Zpos_digits2_pos in H. pose proof (Digits.Zdigits_correct radix2 (Z.pos m)) as [_ U].
  rewrite Z.abs_eq in U by lia. apply Z.lt_le_trans with (1 := U). apply (Z.pow_le_mono_r 2); [reflexivity | exact H].
Qed.
Lemma digits_ge m : digits2_pos m = 24%positive -> (8388608 <= Z.pos m < 16777216)%Z.
Proof.
  intros H. pose proof (Digits.Zdigits_correct radix2 (Z.pos m)) as [L U]. rewrite <- Digits.Zpos_digits2_pos, H in L, U. rewrite Z.abs_eq in L, U by lia.
  cbn in L, U. lia.
Qed.
Lemma pattern_fields (s : bool) (e m : N) : e < 256 -> m < 8388608 ->
  let x := (if s then 2147483648 else 0) + (e * 8388608 + m) in
  x < 2 ^ 32 /\ N.testbit x 31 = s /\ f_exp 23 8 x = e /\ f_mant 23 x = m.
Proof.
  intros He Hm x.
  assert (Hx : x = ((if s then 256 else 0) + e) * 8388608 + m) by (unfold x; destruct s; lia).
  assert (H0 : x < 2 ^ 32) by (rewrite Hx; change (2 ^ 32) with 4294967296; destruct s; lia).
  assert (HM : f_mant 23 x = m). { unfold f_mant. rewrite Hx. change (2 ^ 23) with 8388608. rewrite N.add_comm, N.mod_add by discriminate. apply N.mod_small, Hm. }
  assert (HD : x / 8388608 = (if s then 256 else 0) + e). { rewrite Hx, N.add_comm, N.div_add by discriminate. rewrite N.div_small by exact Hm. apply N.add_0_l. }
  assert (HE : f_exp 23 8 x = e). { unfold f_exp. change (2 ^ 23) with 8388608. rewrite HD. change (2 ^ 8) with 256. destruct s; [|apply N.mod_small, He]. rewrite N.add_comm. change 256 with (1 * 256) at 1. rewrite N.mod_add by discriminate. apply N.mod_small, He. }
  split; [exact H0|]. split; [|split; [exact HE|exact HM]].
  pose proof (split32 x H0) as E. rewrite HE, HM in E. change (2 ^ 31) with 2147483648 in E. change (2 ^ 23) with 8388608 in E.
  destruct (N.testbit x 31), s; auto; unfold x in E; lia.
Qed.
Lemma sf32_of_fields (x : N) (s : bool) (e m : N) : N.testbit x 31 = s -> f_exp 23 8 x = e -> f_mant 23 x = m ->
  sf32 x = if e =? 255 then (if m =? 0 then S754_infinity s else S754_nan) else if e =? 0 then match m with 0 => S754_zero s | Npos p => S754_finite s p (-149) end
           else match 8388608 + m with 0 => S754_zero s | Npos p => S754_finite s p (Z.of_N e - 150) end.
Proof.
  intros Hs He Hm. unfold sf32, sf_of_bits. change (23 + 8) with 31. rewrite Hs, He, Hm. change (2 ^ 8 - 1) with 255. change (2 ^ 23) with 8388608.
  destruct (e =? 255); [reflexivity|]. destruct (e =? 0); [reflexivity|]. destruct (8388608 + m); [reflexivity|]. f_equal. change (2 ^ (Z.of_N 8 - 1) - 1)%Z with 127%Z. lia.
Qed.
Lemma bits32_ok x : valid_binary 24 128 x = true -> bits32 x < 2 ^ 32 /\ sf32 (bits32 x) = x.
Proof.
  destruct x as [s|s| |s m e]; intros V.
  - destruct s; split; vm_compute; reflexivity.
  - destruct s; split; vm_compute; reflexivity.
  - split; vm_compute; reflexivity.
  - cbn [valid_binary] in V. unfold bounded in V. apply andb_prop in V; destruct V as [C B]. apply Z.leb_le in B. unfold canonical_mantissa in C. apply Zeq_bool_eq in C.
    unfold SpecFloat.fexp, SpecFloat.emin in C. change (3 - 128 - 24)%Z with (-149)%Z in C.
    assert (HM : (Z.pos m < 16777216)%Z) by (apply (digits_lt m 24); lia).
    unfold bits32. destruct (N.ltb_spec (N.pos m) 8388608) as [Hm|Hm].
    + assert (E : e = (-149)%Z).
      { destruct (Z.eq_dec e (-149)); [assumption|]. exfalso. assert (D : digits2_pos m = 24%positive) by lia. apply digits_ge in D. lia. }
      destruct (pattern_fields s 0 (N.pos m) ltac:(lia) Hm) as (F0 & F1 & F2 & F3). replace (0 * 8388608 + N.pos m) with (N.pos m) in * by lia.
      split; [exact F0|]. rewrite (sf32_of_fields _ s 0 (N.pos m) F1 F2 F3). cbn [N.eqb]. subst e. reflexivity.
    + assert (E1 : (-149 <= e)%Z) by lia. change (128 - 24)%Z with 104%Z in B.
      destruct (pattern_fields s (Z.to_N (e + 150)) (N.pos m - 8388608) ltac:(lia) ltac:(lia)) as (F0 & F1 & F2 & F3).
      split; [exact F0|]. rewrite (sf32_of_fields _ _ _ _ F1 F2 F3).
      destruct (N.eqb_spec (Z.to_N (e + 150)) 255); [lia|]. destruct (N.eqb_spec (Z.to_N (e + 150)) 0); [lia|].
      replace (8388608 + (N.pos m - 8388608)) with (N.pos m) by lia. f_equal. lia.
Qed.
(** ReLU on finite numbers *)
Lemma relu_max x : x < 2 ^ 32 -> is_finite_SF (sf32 x) = true -> SF2R radix2 (sf32 (relu x)) = Rmax 0 (SF2R radix2 (sf32 x)).
Proof.
  intros Hx F. unfold relu, fgt, SFltb, SFcompare.
  destruct (sf32 x) as [s|s| |s m e] eqn:E; try discriminate F.
  - cbn [SF2R]. change (sf32 0) with (S754_zero false). cbn [SF2R]. rewrite Rmax_left; lra.
  - destruct s.
    + change (sf32 0) with (S754_zero false). cbn [SF2R]. rewrite Rmax_left; [reflexivity|]. apply F2R_le_0. cbn. lia.
    + unfold wrap. rewrite N.mod_small by exact Hx. rewrite E. cbn [SF2R]. rewrite Rmax_right; [reflexivity|]. apply F2R_ge_0. cbn. lia.
Qed.
