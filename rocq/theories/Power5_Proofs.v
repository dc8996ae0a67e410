(** C114: a component alone; a sort; examples. *)
From Coq Require Import List NArith ZArith Bool SpecFloat Reals Permutation Lia Lra Sorted.
Import ListNotations.
From Flocq Require Import Core.
From Flocq.IEEE754 Require Import BinarySingleNaN.
From Verif Require Import Outcome Words Arith Floats FloatsR HealthFloat BitsFloat_Proofs RMA3_Proofs Power_Model Power_Spec Power_Proofs Power2_Proofs Power3_Proofs Power4_Proofs.
Local Open Scope R_scope.

Definition roomy (c : comp) : Prop := R (cmax c) - R (cmin c) >= / 1048576 /\ R (ccrit c) >= / 1048576 /\ 0 < R (cpmin c).
Lemma pow2_rnd k : (-1074 <= k <= 0)%Z -> rnd64 (bpow radix2 k) = bpow radix2 k.
Proof. intros H. replace (bpow radix2 k) with (IZR 1 * bpow radix2 k) by lra. apply fmt64; [reflexivity|lia]. Qed.
Lemma power_top c : level_ok c -> R (power c) <= R (cpmax c) * (1 + 3 * e53).
Proof.
  intros L. destruct (power_R c L) as (_ & _ & P). destruct (ratio_R c L) as (Or & Hr & _). destruct (dpow_R c (proj1 L)) as (Od & Rd & Hd).
  pose proof (proj1 L) as S. sens S.
  pose proof (sub_err _ _ OP Op ltac:(lra)) as E1. rewrite <- Rd in E1.
  assert (Q : 0 <= R (ratio_of c) * R (dsub (cpmax c) (cpmin c)) <= R (dsub (cpmax c) (cpmin c))) by nra.
  assert (M : R (power c) <= rnd64 (R (cpmin c) + R (dsub (cpmax c) (cpmin c)))).
  { rewrite P. apply rnd_mono. apply Rplus_le_compat_l. apply rnd64_le; [exact Od|lra]. }
  pose proof (add_err _ _ Op Od ltac:(lra)) as E2.
  set (d := R (dsub (cpmax c) (cpmin c))) in *. set (pm := R (cpmin c)) in *. set (px := R (cpmax c)) in *. set (pw := R (power c)) in *. clearbody d pm px pw.
  apply Rle_trans with (1 := M). apply Rle_trans with (1 := proj2 E2). clear -E1 HpP Hp0. lra.
Qed.
Lemma step_big c : sensible c -> roomy c -> (R (cmax c) - R (cmin c)) / 100 * (1 - 2 * e53) <= R (step_size c) /\ / 268435456 <= R (step_size c).
Proof.
  intros S (H1 & _ & _). destruct (step_R c S) as (_ & Rs & _). destruct (gap_R c S) as (_ & Rg & Hg). sens S.
  pose proof (sub_err _ _ OM Om ltac:(lra)) as E1. rewrite <- Rg in E1. set (g := R (dsub (cmax c) (cmin c))) in *. set (d := R (cmax c) - R (cmin c)) in *. clearbody g d.
  assert (G : / 2097152 <= g) by lra. 
  pose proof (rnd64_rel (g / 100)) as E2. assert (N : bpow radix2 (-1022) <= g / 100).
  { apply Rle_trans with (/ 268435456); [|lra]. change (/ 268435456) with (bpow radix2 (-28)). apply bpow_le. lia. }
  specialize (E2 N). rewrite <- Rs in E2. split; lra.
Qed.
Lemma sub_pos_zero x y : okd x -> okd y -> 0 < R y -> R x = R y -> dsub x y = S754_zero false.
Proof.
  intros [Vx Fx] [Vy Fy] Hy E. destruct (sign_pos x Vx Fx) as (mx & ex & ->); [lra|]. destruct (sign_pos y Vy Fy Hy) as (my & ey & ->).
  assert (S754_finite false mx ex = S754_finite false my ey) as ->.
  { rewrite <- (lift_sf 53 1024 _ Vx), <- (lift_sf 53 1024 _ Vy). f_equal. apply B2R_inj; [reflexivity|reflexivity|]. rewrite !lift_R. exact E. }
  unfold dsub, SFsub. rewrite Z.sub_diag. reflexivity.
Qed.
Lemma benefit_pos c : level_ok c -> roomy c -> flt (dofZ 0) (benefit c) = true.
Proof.
  intros L Rm. destruct (gain_R c L) as (Og & Rg & _). destruct (step_big c (proj1 L) Rm) as (_ & Hs). destruct Rm as (_ & Hc & Hp).
  assert (G : / 281474976710656 <= R (dmul (step_size c) (ccrit c))).
  { rewrite Rg. change (/ 281474976710656) with (bpow radix2 (-48)). rewrite <- (pow2_rnd (-48)) by lia. apply rnd_mono. change (bpow radix2 (-48)) with (/ 281474976710656).
    replace (/ 281474976710656) with (/ 268435456 * / 1048576) by lra. apply Rmult_le_compat; lra. }
  destruct (additional_R c L) as (Oa & Ra & Da & Ha). destruct zero_ok as [Z1 Z2]. destruct (okd_good _ Z1) as [Gz Ez].
  unfold benefit. destruct (Rle_lt_or_eq_dec 0 (R (additional c)) (proj1 Ha)) as [Pa|Za].
  - destruct (div_E _ _ Og Oa ltac:(lra) Pa) as [Gb Eb]. apply flt_E; auto. rewrite Ez, Z2, Eb. apply Rmin_glb_lt; [|apply top_pos].
    apply Rlt_le_trans with (bpow radix2 (-69)); [apply bpow_gt_0|]. rewrite <- (pow2_rnd (-69)) by lia. apply rnd_mono.
    change (bpow radix2 (-69)) with (/ 590295810358705651712). apply Rmult_le_reg_r with (R (additional c)); [exact Pa|]. unfold Rdiv. rewrite Rmult_assoc, Rinv_l, Rmult_1_r by lra. lra.
  - assert (Zs : additional c = S754_zero false).
    { destruct (power_R c L) as (Op & Hp' & _). destruct (power_R _ (next_ok c L)) as (Op' & _ & _). unfold additional. apply sub_pos_zero; auto; [lra|].
      pose proof (sub_err _ _ Op' Op Da) as Er. rewrite <- Ra, <- Za in Er. lra. }
    rewrite Zs. destruct Og as [Vg Fg]. destruct (sign_pos _ Vg Fg ltac:(lra)) as (m & e & ->). reflexivity.
Qed.
Lemma lone n : forall r id c B q, level_ok c -> roomy c -> okd r -> 0 <= R r <= B -> 0 < B <= 4503599627370496 -> R (cpmax c) <= B * (1 - / 1099511627776) ->
  B * (1 - q * e53) <= R r + R (power c) -> 0 <= q -> q + 4 * INR n <= 500 ->
  exists c', snd (upgrade_loop n r [(id, c)]) = [(id, c')] /\ level_ok c' /\ nolev c' = nolev c /\
    (R (ccur c') = R (cmax c) \/ R (ccur c) + INR n * (R (step_size c) - 2 * e53) <= R (ccur c')).
Proof.
  induction n as [|n IH]; intros r id c B q L Rm Or Hr HB HP HJ Hq Hn.
  - exists c. cbn [upgrade_loop snd INR]. split; [reflexivity|]. split; [exact L|]. split; [reflexivity|right; lra].
  - rewrite S_INR in *. pose proof (pos_INR n) as Pn. cbn [upgrade_loop].
    pose proof L as (Sc & Ocu & Hcu). pose proof (power_top c L) as Pt. pose proof (power_top _ (next_ok c L)) as Pt'. cbn [with_level cpmax] in Pt'.
    destruct (additional_R c L) as (Oa & Ra & Da & Ha). destruct (power_R c L) as (Op & Hp & _). destruct (power_R _ (next_ok c L)) as (Op' & Hp' & _). cbn [with_level cpmin] in Hp'.
    pose proof (sub_err _ _ Op' Op Da) as Ea. rewrite <- Ra in Ea.
    set (P := R (power c)) in *. set (P' := R (power (with_level c (next_level_of c)))) in *. set (a := R (additional c)) in *. set (rr := R r) in *.
    assert (P0 : 0 < P) by (destruct Rm as (_ & _ & X); lra).
    assert (Q : q * e53 <= 500 * e53) by (apply Rmult_le_compat_r; lra).
    assert (BQ : B * (q * e53) <= B * (500 * e53)) by (apply Rmult_le_compat_l; lra).
    assert (Rp : 0 < rr /\ a <= rr). { clearbody P P' a rr. clear -HP HJ Pt Pt' Da Ea BQ HB P0 Ha. split; lra. }
    destruct Rp as [Rp Ar]. destruct zero_ok as [Z1 Z2].
    assert (fgt r (dofZ 0) = true) as -> by (unfold fgt; apply flt_d; auto; rewrite Z2; exact Rp).
    cbn [scan_best]. unfold consider. destruct (fge (ccur c) (cmax c)) eqn:Eg.
    + cbn [snd]. exists c. split; [reflexivity|]. split; [exact L|]. split; [reflexivity|]. left. unfold fge in Eg. apply fle_d in Eg; [lra|apply Sc|exact Ocu].
    + assert (fgt (additional c) r = false) as -> by (unfold fgt; apply flt_dF; auto).
      fold (benefit c). change (fgt (benefit c) (fst (dofZ 0, @None nat))) with (flt (dofZ 0) (benefit c)). rewrite (benefit_pos c L Rm). cbn [snd nth_error upd].
      destruct (sub_d r (additional c) Or Oa) as [Or' Rr']; [apply midz; fold rr a; lra|].
      pose proof (sub_err r (additional c) Or Oa ltac:(fold rr a; lra)) as Er. rewrite <- Rr' in Er. fold rr a in Er.
      set (r' := R (dsub r (additional c))) in *.
      assert (Hr' : 0 <= r' <= rr) by (rewrite Rr'; split; [apply rnd_pos; fold rr a; lra|apply rnd64_le; [exact Or|fold rr a; lra]]).
      destruct (next_R c L) as (On & Rn & Hn').
      destruct (IH (dsub r (additional c)) id (with_level c (next_level_of c)) B (q + 4)) as (c' & I1 & I2 & I3 & I4); auto.
      * apply next_ok. exact L.
      * change (0 <= r' <= B). lra.
      * change (B * (1 - (q + 4) * e53) <= r' + P'). assert (D2 : P' - P <= a + 2 * e53 * a) by (apply inflate; [exact Da|apply Ea]). clearbody P P' a rr r'.
        clear -HJ Ea Er Hr Ar Ha D2 Da HB. nra.
      * lra.
      * lra.
      * exists c'. split; [exact I1|]. split; [exact I2|]. split; [exact I3|]. cbn [with_level cmax ccur] in I4. change (step_size (with_level c (next_level_of c))) with (step_size c) in I4.
        destruct I4 as [I4|I4]; [left; exact I4|].
        apply nolev_eq in I3. destruct I3 as (X1 & X2 & _). cbn [with_level cmin cmax] in X1, X2.
        destruct (Rle_or_lt (R (cmax c)) (rnd64 (R (ccur c) + R (step_size c)))) as [Cap|Free].
        -- rewrite Rmin_right in Rn by exact Cap.
           destruct (Rle_or_lt 0 (R (step_size c) - 2 * e53)) as [Sp|Sn].
           ++ left. destruct I2 as (_ & _ & Hc'). rewrite X2 in Hc'. assert (0 <= INR n * (R (step_size c) - 2 * e53)) by (apply Rmult_le_pos; lra). lra.
           ++ exfalso. destruct (step_big c Sc Rm) as (_ & Hs). lra.
        -- right. rewrite Rmin_left in Rn by lra. destruct (step_R c Sc) as (Os & _ & Hs). 
           assert (Lv : 0 <= R (ccur c) <= 1) by (destruct Sc as (_ & _ & _ & _ & _ & (? & ? & ?) & _); lra).
           pose proof (add_err _ _ Ocu Os ltac:(lra)) as E3. lra.
Qed.
Section O.
Variable ord : list sf -> list nat.
Hypothesis ordP : forall cs, Permutation (ord cs) (seq 0 (length cs)).
Lemma sorted_one x : sorted_comps ord [x] = [x].
Proof. pose proof (sorted_perm ord ordP [x]) as P. apply Permutation_sym in P. apply Permutation_length_1_inv in P. exact P. Qed.
Theorem alone w st0 ops t s k c : pap_run ord ops (pap_new w st0) = Ret (t, s) -> sensible_watts w -> present t [k] -> described t k = Some c -> sensible c -> roomy c ->
  R (cpmax c) <= R (pap_budget s) * (1 - / 1099511627776) ->
  exists x, pap_level k s = Some x /\ R (cmax c) - / 1099511627776 <= R x <= R (cmax c).
Proof.
  intros Hr Hw Hk Hd Sc Rm HB. pose proof (reachable_inv ord ordP w st0 ops t s Hr) as I.
  destruct (Hbud ord ordP w st0 ops t s Hr Hw) as (Ob & Hb & _).
  destruct (level_of ord _ _ _ _ _ _ I Hd) as (c1 & In1 & In2 & Lv & Nl). exists (ccur c1). split; [exact Lv|].
  destruct (inv_len ord _ _ _ _ _ I Hk) as [E1 _]. destruct (comps s) as [|[k0 c0] [|? ?]] eqn:Ec; try discriminate E1. clear E1.
  destruct In1 as [X|[]]. injection X as -> ->.
  pose proof Nl as Nl'. apply nolev_eq in Nl'. destruct Nl' as (N1 & N2 & N3 & N4 & N5).
  assert (S1 : sensible c1) by (apply (sensible_nolev c c1); [symmetry; exact Nl|exact Sc]).
  assert (R1 : roomy c1) by (unfold roomy; rewrite N1, N2, N3, N5; exact Rm).
  unfold rebalanced in In2. rewrite sorted_one in In2. set (b := pap_budget s) in *.
  cbn [at_min map fst snd sum_power fold_left] in In2. set (c0 := with_level c1 (cmin c1)) in *.
  destruct (power_min c1 S1) as [Op Rp]. fold c0 in Op, Rp. destruct zero_ok as [Z1 Z2].
  destruct (add_d (dofZ 0) (power c0) Z1 Op) as [Om Rm0]; [apply midz; rewrite Z2, Rp; destruct S1 as (_&_&_&_&_&_&(?&?&?)&_); lra|].
  assert (Rm1 : R (dadd (dofZ 0) (power c0)) = R (cpmin c1)) by (rewrite Rm0, Z2, Rplus_0_l, Rp; apply (rnd_R 53 1024); apply S1).
  pose proof S1 as S2. destruct S2 as (O1 & O2 & O3 & O4 & O5 & (H1 & H2 & H3) & (H4 & H5 & H6) & _).
  pose proof (proj2 (proj2 R1)) as Pp. rewrite <- N4 in HB. set (B := R b) in *.
  assert (HB0 : 0 < B). { destruct (Rle_or_lt B 0) as [X|X]; [|exact X]. exfalso. assert (B * (1 - / 1099511627776) <= 0) by (clear -X; clearbody B; lra). lra. }
  assert (HBm : R (cpmin c1) <= B) by (clearbody B; lra).
  set (m := dadd (dofZ 0) (power c0)) in *.
  assert (fgt m b = false) as Eg by (unfold fgt; apply flt_dF; auto; fold B; lra). rewrite Eg in In2.
  destruct (sub_d b m Ob Om) as [Or Rr]; [apply midz; fold B; lra|]. pose proof (sub_err b m Ob Om ltac:(fold B; lra)) as Er. rewrite <- Rr in Er. fold B in Er, Rr.
  destruct (lone 100 (dsub b m) k c0 B 1) as (c' & L1 & L2 & L3 & L4); auto.
  - apply min_level_ok. exact S1.
  - rewrite Rr. split; [apply rnd_pos; lra|]. apply (rnd64_le b); [exact Ob|]. fold B. lra.
  - lra.
  - rewrite Rp. rewrite Rm1 in Er. set (r0 := R (dsub b m)) in *. clearbody r0 B. clear -Er HB0 H4. lra.
  - lra.
  - simpl INR. lra.
  - rewrite L1 in In2. destruct In2 as [X|[]]. injection X as ->. rewrite <- N2.
    destruct L2 as (_ & _ & H7). apply nolev_eq in L3. destruct L3 as (X1 & X2 & _). cbn [c0 with_level cmin cmax] in X1, X2. split; [|lra].
    cbn [c0 with_level cmax ccur] in L4. change (step_size c0) with (step_size c1) in L4. destruct L4 as [L4|L4]; [lra|].
    destruct (step_big c1 S1 R1) as (Hs & _). replace (INR 100) with 100 in L4 by (simpl; lra). lra.
Qed.
End O.
