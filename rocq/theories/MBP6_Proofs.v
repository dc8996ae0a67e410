(** Injected upsets. *)
From Coq Require Import List NArith ZArith Bool Lia Reals Lra SpecFloat.
From Flocq Require Import Core.
From Flocq.IEEE754 Require Import BinarySingleNaN.
Import ListNotations.
From Verif Require Import Outcome Words Arith Floats FloatsR HealthFloat FloatsS Health_Proofs CrcOrder_Proofs Bits_Model BitsFloat_Proofs MBP_Model MBP_Spec MBP_Proofs.
Local Open Scope N_scope.
Local Arguments N.add : simpl never.
Local Arguments N.mul : simpl never.
Local Arguments N.pow : simpl never.
Local Arguments N.lxor : simpl never.
Local Arguments N.shiftl : simpl never.
Local Arguments N.shiftr : simpl never.
Local Arguments N.testbit : simpl never.
Local Arguments wrap : simpl never.

Section Reals.
Local Open Scope R_scope.
Lemma trunc_between x c : fin x = true -> 0 <= R x <= IZR c -> exists z, trunc_sf x = Some z /\ (0 <= z <= c)%Z.
Proof.
  destruct x as [s|s| |s m e]; cbn [fin is_finite_SF]; intros F [L U]; try discriminate.
  - exists 0%Z. split; [reflexivity|]. split; [lia|]. apply le_IZR. unfold R, SF2R in U. lra.
  - cbn [trunc_sf]. unfold R, SF2R, F2R in L, U. cbn [Fnum Fexp] in L, U. pose proof (bpow_gt_0 radix2 e) as P.
    destruct s; cbn [cond_Zopp] in L, U.
    + exfalso. assert (IZR (Z.neg m) < 0) by (apply (IZR_lt _ 0); lia). change (- Z.pos m)%Z with (Z.neg m) in *. nra.
    + destruct (Z.leb_spec 0 e) as [He|He].
      * eexists. split; [reflexivity|]. split; [assert (0 < 2 ^ e)%Z by (apply Z.pow_pos_nonneg; lia); lia|].
        apply le_IZR. rewrite mult_IZR. replace (IZR (2 ^ e)) with (bpow radix2 e); [exact U|]. rewrite <- (IZR_Zpower radix2) by exact He. reflexivity.
      * eexists. split; [reflexivity|]. assert (Q : (0 < 2 ^ (- e))%Z) by (apply Z.pow_pos_nonneg; lia). split; [apply Z.div_pos; lia|].
        assert (K : (Z.pos m <= c * 2 ^ (- e))%Z).
        { apply le_IZR. rewrite mult_IZR. replace (IZR (2 ^ - e)) with (bpow radix2 (- e)) by (rewrite <- (IZR_Zpower radix2) by lia; reflexivity).
          assert (B : bpow radix2 e * bpow radix2 (- e) = 1) by (rewrite <- bpow_plus; replace (e + - e)%Z with 0%Z by lia; reflexivity).
          pose proof (bpow_gt_0 radix2 (- e)). apply Rle_trans with (IZR (Z.pos m) * bpow radix2 e * bpow radix2 (- e)); [rewrite Rmult_assoc, B; lra|]. apply Rmult_le_compat_r; lra. }
        apply Z.div_le_upper_bound; lia.
Qed.
Lemma scaled rate c : V64 rate = true -> fle rate (dofZ 0) = false -> fle rate (dofZ 1) = true -> (0 <= c <= 8)%Z ->
  exists k, to_unsigned (dmul rate (dofZ c)) = Ret k /\ (k <= Z.to_N c)%N.
Proof.
  intros V L U Hc. destruct (ofZ_exact 0 ltac:(cbn; lia)) as [O0 R0]. destruct (ofZ_exact 1 ltac:(cbn; lia)) as [O1 R1]. destruct (ofZ_exact c ltac:(lia)) as [Oc Rc].
  assert (O : okd rate).
  { split; [exact V|]. destruct rate as [s|s| |s m e]; try reflexivity; try discriminate; destruct s; [exfalso; revert L; vm_compute dofZ; discriminate|exfalso; revert U; vm_compute dofZ; discriminate]. }
  assert (B : 0 <= R rate <= 1).
  { apply (fle_d rate _ O O1) in U. rewrite R1 in U. split; [|exact U]. destruct (Rle_lt_dec 0 (R rate)) as [|N]; [assumption|exfalso].
    assert (T : fle rate (dofZ 0) = true) by (apply (fle_d rate _ O O0); rewrite R0; lra). congruence. }
  assert (C : 0 <= IZR c <= 8) by (split; apply IZR_le; lia).
  destruct (mul_d rate (dofZ c) O Oc) as [Om Rm]; [rewrite Rc; unfold mid; nra|].
  destruct (trunc_between (dmul rate (dofZ c)) c) as (z & T & Z).
  - apply Om.
  - rewrite Rm, Rc, <- Rc. split.
    + rewrite <- R0. apply rnd64_ge; [exact O0|]. rewrite R0, Rc. nra.
    + apply rnd64_le; [exact Oc|]. rewrite Rc. nra.
  - exists (Z.to_N z). unfold to_unsigned. rewrite T. replace ((0 <=? z) && (z <? 2 ^ 32))%Z with true by (symmetry; apply andb_true_iff; split; [apply Z.leb_le|apply Z.ltb_lt]; lia).
    split; [reflexivity|]. lia.
Qed.
End Reals.

Lemma xor_bit v d i : N.lxor v (N.lxor d (N.shiftl 1 i)) = N.lxor (N.lxor v d) (2 ^ i).
Proof. rewrite N.shiftl_1_l, N.lxor_assoc. reflexivity. Qed.
Lemma row_loop v r f n : r <= 3 -> (forall i, f i <= 7) -> damage ROW_UPSET (N.lxor v (for_up n 0 (fun i d => N.lxor d (N.shiftl 1 (8 * r + f i))) v)).
Proof.
  intros Hr Hf. exists r. split; [lia|].
  apply (for_up_inv (fun _ d => forall i, N.testbit (N.lxor v d) i = true -> i / 8 = r) (fun i d => N.lxor d (N.shiftl 1 (8 * r + f i))) n 0 v).
  - intros i. rewrite N.lxor_nilpotent, N.bits_0. discriminate.
  - intros k d _ IH i. rewrite xor_bit, N.lxor_spec, pow2_bits. destruct (N.eqb_spec i (8 * r + f k)) as [->|E].
    + intros _. rewrite N.mul_comm, N.div_add_l by lia. specialize (Hf k). rewrite N.div_small by lia. lia.
    + rewrite xorb_false_r. apply IH.
Qed.
Lemma column_loop v b f n : b <= 7 -> (forall i, f i <= 3) -> damage COLUMN_UPSET (N.lxor v (for_up n 0 (fun i d => N.lxor d (N.shiftl 1 (8 * f i + b))) v)).
Proof.
  intros Hb Hf. exists b. split; [lia|].
  apply (for_up_inv (fun _ d => forall i, N.testbit (N.lxor v d) i = true -> i < 32 /\ i mod 8 = b) (fun i d => N.lxor d (N.shiftl 1 (8 * f i + b))) n 0 v).
  - intros i. rewrite N.lxor_nilpotent, N.bits_0. discriminate.
  - intros k d _ IH i. rewrite xor_bit, N.lxor_spec, pow2_bits. destruct (N.eqb_spec i (8 * f k + b)) as [->|E].
    + intros _. specialize (Hf k). split; [lia|]. rewrite N.mul_comm, N.add_comm, N.mod_add by lia. apply N.mod_small. lia.
    + rewrite xorb_false_r. apply IH.
Qed.
Lemma random_loop v g f n : N.of_nat n <= 8 -> (forall i, f i <= 31) ->
  damage RANDOM_MULTI (N.lxor v (for_up n 0 (fun i d => if g i : bool then N.lxor d (N.shiftl 1 (8 * (f i / 8) + f i mod 8)) else d) v)).
Proof.
  intros Hn Hf. cbn [damage]. set (F := fun i d => _).
  assert (G : forall m, word (N.lxor v (for_up m 0 F v)) /\ popcount (N.lxor v (for_up m 0 F v)) <= N.of_nat m).
  { induction m as [|m IH].
    - cbn [for_up]. rewrite N.lxor_nilpotent. split; [reflexivity|]. cbn. lia.
    - rewrite for_up_snoc. set (d := for_up m 0 F v) in *. clearbody d. unfold F. destruct (g (0 + N.of_nat m)); [|destruct IH; split; [assumption|lia]].
      rewrite <- N.div_mod by lia. rewrite xor_bit. destruct IH as [W P]. split.
      + apply (lxor_below 32); [exact W|]. apply pow2_below. specialize (Hf (0 + N.of_nat m)). lia.
      + pose proof (popcount_lxor_le (N.lxor v d) (2 ^ f (0 + N.of_nat m))) as Q. rewrite popcount_pow2 in Q. lia. }
  destruct (G n) as [W P]. split; [exact W|]. lia.
Qed.
Lemma xor_add2 i : N.lxor (2 ^ i) (2 ^ (i + 1)) = 2 ^ i + 2 ^ (i + 1).
Proof.
  symmetry. apply N.add_nocarry_lxor. apply N.bits_inj. intros k. rewrite N.land_spec, !pow2_bits, N.bits_0. destruct (N.eqb_spec k i), (N.eqb_spec k (i + 1)); try reflexivity; lia.
Qed.
Lemma xor_add3 i : N.lxor (N.lxor (2 ^ i) (2 ^ (i + 1))) (2 ^ (i + 2)) = 2 ^ i + 2 ^ (i + 1) + 2 ^ (i + 2).
Proof.
  rewrite <- xor_add2. symmetry. apply N.add_nocarry_lxor. apply N.bits_inj. intros k. rewrite N.land_spec, N.lxor_spec, !pow2_bits, N.bits_0.
  destruct (N.eqb_spec k i), (N.eqb_spec k (i + 1)), (N.eqb_spec k (i + 2)); try reflexivity; lia.
Qed.
Lemma wrap_pow i : i < 32 -> wrap 32 (N.shiftl 1 i) = 2 ^ i.
Proof. intros Hi. rewrite N.shiftl_1_l. apply wrap_small, pow2_below, Hi. Qed.
Lemma adjacent_loop v i n : i <= 29 -> 2 <= n <= 3 -> damage ADJACENT_BITS (N.lxor v (for_up (N.to_nat n) 0 (fun k d => N.lxor d (wrap 32 (N.shiftl 1 (i + k)))) v)).
Proof.
  intros Hi Hn. assert (C : n = 2 \/ n = 3) by lia. right. destruct C as [-> | ->].
  - left. exists i. split; [lia|]. change (N.to_nat 2) with 2%nat. cbn [for_up]. change (0 + 1) with 1. rewrite !wrap_pow by lia. rewrite N.add_0_r.
    rewrite !N.lxor_assoc, <- N.lxor_assoc, N.lxor_nilpotent, N.lxor_0_l. apply xor_add2.
  - right. exists i. split; [lia|]. change (N.to_nat 3) with 3%nat. cbn [for_up]. change (0 + 1) with 1. change (1 + 1) with 2. rewrite !wrap_pow by lia. rewrite N.add_0_r.
    rewrite <- xor_add3. apply N.bits_inj. intros k. rewrite !N.lxor_spec. destruct (N.testbit v k), (N.testbit (2 ^ i) k), (N.testbit (2 ^ (i + 1)) k), (N.testbit (2 ^ (i + 2)) k); reflexivity.
Qed.
Lemma no_damage t v : damage t (N.lxor v v).
Proof.
  rewrite N.lxor_nilpotent. destruct t; cbn [damage]; auto.
  - exists 0. split; [lia|]. intros i. rewrite N.bits_0. discriminate.
  - exists 0. split; [lia|]. intros i. rewrite N.bits_0. discriminate.
  - split; [reflexivity|]. cbn. lia.
Qed.
Lemma upsets v rate t o : V64 rate = true -> fle rate (dofZ 1) = true -> draws t o ->
  exists w, applyMultiBitErrors v rate t o = Ret w /\ damage t (N.lxor v w) /\ (fle rate (dofZ 0) = true -> w = v).
Proof.
  intros V U D. unfold applyMultiBitErrors. destruct (fle rate (dofZ 0)) eqn:L; [exists v; split; [reflexivity|split; [apply no_damage|auto]]|].
  assert (N0 : exists w, Ret v = Ret w /\ damage t (N.lxor v w) /\ (false = true -> w = v)) by (exists v; split; [reflexivity|split; [apply no_damage|auto]]).
  destruct t; cbn [draws] in D.
  - destruct (flt (real o 0) rate); [|exact N0]. eexists. split; [reflexivity|]. split; [|discriminate]. right. exists (int1 o 0). split; [lia|].
    rewrite N.shiftl_1_l, <- N.lxor_assoc, N.lxor_nilpotent, N.lxor_0_l. reflexivity.
  - destruct (flt (real o 0) rate); [|exact N0]. eexists. split; [reflexivity|]. split; [|discriminate]. apply adjacent_loop; apply D.
  - destruct (flt (real o 0) rate); [|exact N0]. destruct (scaled rate 4 V L U ltac:(lia)) as (k & -> & _). cbn [obind]. eexists. split; [reflexivity|]. split; [|discriminate].
    apply row_loop; apply D.
  - destruct (flt (real o 0) rate); [|exact N0]. destruct (scaled rate 3 V L U ltac:(lia)) as (k & -> & _). cbn [obind]. eexists. split; [reflexivity|]. split; [|discriminate].
    apply column_loop; apply D.
  - destruct (scaled rate 8 V L U ltac:(lia)) as (k & -> & Hk). cbn [obind]. eexists. split; [reflexivity|]. split; [|discriminate].
    apply random_loop; [change (Z.to_N 8) with 8 in Hk; lia|apply D].
Qed.
