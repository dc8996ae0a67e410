From Coq Require Import List NArith ZArith Bool Lia Reals Lra Psatz SpecFloat.
From Flocq Require Import Core.
From Flocq.IEEE754 Require Import BinarySingleNaN.
Import ListNotations.
From Verif Require Import Outcome Words Arith Floats FloatsR HealthFloat FloatsS Bits_Model PNN_Model Train_Model RMA3_Proofs Power4_Proofs Strat6_Proofs MBP6_Proofs Train5_Proofs Tester_Model Tester_Spec Tester_Proofs Tester2_Proofs.

(** ** seeds *)
Section Seeds.
Local Open Scope N_scope.
Lemma lxor_mod a b k : N.lxor a b mod 2 ^ k = N.lxor (a mod 2 ^ k) (b mod 2 ^ k).
Proof.
  apply N.bits_inj. intros i. rewrite N.lxor_spec. destruct (N.lt_ge_cases i k) as [H|H].
  - rewrite !N.mod_pow2_bits_low by exact H. apply N.lxor_spec.
  - rewrite !N.mod_pow2_bits_high by exact H. reflexivity.
Qed.
Lemma mod_mod_64 x : (x mod two64) mod 2 ^ 32 = x mod 2 ^ 32.
Proof.
  unfold two64. replace (2 ^ 64) with (2 ^ 32 * 2 ^ 32) by reflexivity. rewrite N.mod_mul_r by discriminate. rewrite (N.mul_comm (2 ^ 32) (_ mod _)), N.mod_add by discriminate. apply N.mod_mod. discriminate.
Qed.
Lemma lxor_inj a b c : N.lxor a b = N.lxor a c -> b = c.
Proof. intros H. assert (E : N.lxor a (N.lxor a b) = N.lxor a (N.lxor a c)) by (rewrite H; reflexivity). rewrite <- !N.lxor_assoc, N.lxor_nilpotent, !N.lxor_0_l in E. exact E. Qed.
Lemma mix_low s x : mix s x mod 2 ^ 32 = N.lxor (s mod 2 ^ 32) ((x + (2654435769 + N.shiftl s 6 + N.shiftr s 2)) mod 2 ^ 32).
Proof. unfold mix. rewrite mod_mod_64, lxor_mod, mod_mod_64. f_equal. f_equal. lia. Qed.
Lemma mix_inj s x y : x < 2 ^ 32 -> y < 2 ^ 32 -> mix s x mod 2 ^ 32 = mix s y mod 2 ^ 32 -> x = y.
Proof.
  intros Hx Hy H. rewrite !mix_low in H. apply lxor_inj in H. set (c := 2654435769 + N.shiftl s 6 + N.shiftr s 2) in *. clearbody c.
  change (2 ^ 32) with 4294967296 in *.
  pose proof (N.div_mod (x + c) 4294967296 ltac:(discriminate)) as A. pose proof (N.div_mod (y + c) 4294967296 ltac:(discriminate)) as B. rewrite H in A.
  set (q1 := (x + c) / 4294967296) in *. set (q2 := (y + c) / 4294967296) in *. set (m := (y + c) mod 4294967296) in *. clearbody q1 q2 m. nia.
Qed.
Lemma seeds_differ arch d residual p e i j : i < 2 ^ 32 -> j < 2 ^ 32 -> i <> j ->
  seed_of arch d residual p e i mod 2 ^ 32 <> seed_of arch d residual p e j mod 2 ^ 32.
Proof. intros Hi Hj N H. apply N. unfold seed_of in H. exact (mix_inj _ _ _ Hi Hj H). Qed.
End Seeds.

(** ** means *)
Local Open Scope R_scope.
Section Sums.
Variables (f : res -> sf) (lo hi : Z).
Hypothesis LH : (lo <= 0 <= hi \/ 0 <= lo <= hi)%Z.
Lemma dsum_from rs : forall acc k, okd acc -> IZR (lo * k) <= R acc <= IZR (hi * k) -> (0 <= k)%Z ->
  (Z.abs lo * (k + Z.of_nat (length rs)) < 2 ^ 53)%Z -> (hi * (k + Z.of_nat (length rs)) < 2 ^ 53)%Z -> (forall r, In r rs -> inr (IZR lo) (IZR hi) (f r)) ->
  inr (IZR (lo * (k + Z.of_nat (length rs)))) (IZR (hi * (k + Z.of_nat (length rs)))) (fold_left (fun a r => dadd a (f r)) rs acc).
Proof.
  induction rs as [|x rs IH]; intros acc k O B K BL BH F; cbn [fold_left length].
  - replace (k + Z.of_nat 0)%Z with k by lia. split; assumption.
  - cbn [length] in BL, BH. replace (k + Z.of_nat (S (length rs)))%Z with ((k + 1) + Z.of_nat (length rs))%Z in * by lia.
    destruct (F x (or_introl eq_refl)) as [Ox Bx].
    set (L := Z.of_nat (length rs)) in *. assert (HL : (0 <= L)%Z) by (unfold L; lia).
    assert (A1 : (Z.abs (lo * (k + 1)) < 2 ^ 53)%Z) by (rewrite Z.abs_mul, (Z.abs_eq (k + 1)) by lia; nia).
    assert (A2 : (Z.abs (hi * (k + 1)) < 2 ^ 53)%Z) by (rewrite Z.abs_mul, (Z.abs_eq (k + 1)), (Z.abs_eq hi) by lia; nia).
    assert (S1 : IZR (lo * (k + 1)) <= R acc + R (f x) <= IZR (hi * (k + 1))).
    { replace (lo * (k + 1))%Z with (lo * k + lo)%Z by ring. replace (hi * (k + 1))%Z with (hi * k + hi)%Z by ring. rewrite !plus_IZR. lra. }
    destruct (add_d acc (f x) O Ox) as [Oa Ea].
    { unfold mid. split; [apply Rle_trans with (2 := proj1 S1)|apply Rle_trans with (1 := proj2 S1)]; apply IZR_le; lia. }
    apply (IH (dadd acc (f x)) (k + 1)%Z Oa); try assumption; try lia.
    + rewrite Ea. split; [apply rnd64_geZ|apply rnd64_leZ]; tauto.
    + intros r Hr. apply F. right. exact Hr.
Qed.
Lemma mean_range rs : rs <> [] -> (Z.abs lo * Z.of_nat (length rs) < 2 ^ 53)%Z -> (hi * Z.of_nat (length rs) < 2 ^ 53)%Z -> (Z.of_nat (length rs) < 2 ^ 53)%Z -> (forall r, In r rs -> inr (IZR lo) (IZR hi) (f r)) ->
  inr (IZR (lo * Z.of_nat (length rs))) (IZR (hi * Z.of_nat (length rs))) (dsum f rs) /\ inr (IZR lo) (IZR hi) (mean_of f rs) /\ R (mean_of f rs) = rnd64 (R (dsum f rs) / IZR (Z.of_nat (length rs))).
Proof.
  intros NE BL BH BN F. assert (P : (1 <= Z.of_nat (length rs))%Z) by (destruct rs; [contradiction|cbn [length]; lia]).
  assert (S : inr (IZR (lo * Z.of_nat (length rs))) (IZR (hi * Z.of_nat (length rs))) (dsum f rs)).
  { unfold dsum. apply (dsum_from rs (dofZ 0) 0%Z); try assumption; try (rewrite Z.add_0_l; assumption); [apply d0| |lia]. rewrite (proj2 d0), !Z.mul_0_r. lra. }
  split; [exact S|]. unfold mean_of. destruct S as [Os Bs]. set (n := Z.of_nat (length rs)) in *. destruct (ofZ_ex n ltac:(lia)) as [On En].
  assert (PN : 1 <= IZR n) by (apply IZR_le; exact P). rewrite !mult_IZR in Bs.
  assert (Q : IZR lo <= R (dsum f rs) / IZR n <= IZR hi).
  { split; apply (Rmult_le_reg_r (IZR n)); try lra; unfold Rdiv; rewrite Rmult_assoc, Rinv_l by lra; lra. }
  assert (A1 : (Z.abs lo < 2 ^ 53)%Z) by nia. assert (A2 : (Z.abs hi < 2 ^ 53)%Z) by nia.
  destruct (div_d (dsum f rs) (dofZ n) Os On) as [Od Ed].
  - rewrite En. lra.
  - rewrite En. unfold mid. split; [apply Rle_trans with (2 := proj1 Q)|apply Rle_trans with (1 := proj2 Q)]; apply IZR_le; lia.
  - rewrite En in Ed. split; [|exact Ed]. split; [exact Od|]. rewrite Ed. split; [apply rnd64_geZ|apply rnd64_leZ]; tauto.
Qed.
End Sums.
(** pointwise order is kept by the sum *)
Lemma dsum_mono (f g : res -> sf) (hi : Z) : (0 <= hi)%Z -> forall rs a b k, okd a -> okd b -> 0 <= R a -> R b <= IZR (hi * k) -> R a <= R b -> (0 <= k)%Z -> (hi * (k + Z.of_nat (length rs)) < 2 ^ 53)%Z ->
  (forall r, In r rs -> inr 0 (IZR hi) (f r) /\ inr 0 (IZR hi) (g r) /\ R (f r) <= R (g r)) ->
  R (fold_left (fun a r => dadd a (f r)) rs a) <= R (fold_left (fun a r => dadd a (g r)) rs b).
Proof.
  intros Hh. induction rs as [|x rs IH]; intros a b k Oa Ob A0 B1 L K BH F; cbn [fold_left]; [exact L|].
  destruct (F x (or_introl eq_refl)) as ([Of Bf] & [Og Bg] & Lx). cbn [length] in BH. replace (k + Z.of_nat (S (length rs)))%Z with ((k + 1) + Z.of_nat (length rs))%Z in BH by lia.
  set (Ln := Z.of_nat (length rs)) in *. assert (HL : (0 <= Ln)%Z) by (unfold Ln; lia).
  assert (A2 : (Z.abs (hi * (k + 1)) < 2 ^ 53)%Z) by (rewrite Z.abs_mul, (Z.abs_eq (k + 1)), (Z.abs_eq hi) by lia; nia).
  assert (S1 : R b + R (g x) <= IZR (hi * (k + 1))) by (replace (hi * (k + 1))%Z with (hi * k + hi)%Z by ring; rewrite plus_IZR; lra).
  assert (M : IZR (hi * (k + 1)) <= 9007199254740992) by (apply IZR_le; lia).
  destruct (add_d a (f x) Oa Of) as [O1 E1]; [unfold mid; lra|]. destruct (add_d b (g x) Ob Og) as [O2 E2]; [unfold mid; lra|].
  apply (IH _ _ (k + 1)%Z O1 O2); try lia.
  - rewrite E1. apply (rnd64_geZ 0); [lia|lra].
  - rewrite E2. apply rnd64_leZ; [exact A2|exact S1].
  - rewrite E1, E2. apply rnd64_mono. lra.
  - intros r Hr. apply F. right. exact Hr.
Qed.
Lemma mean_mono (f g : res -> sf) (hi : Z) rs : rs <> [] -> (0 <= hi)%Z -> (hi * Z.of_nat (length rs) < 2 ^ 53)%Z -> (Z.of_nat (length rs) < 2 ^ 53)%Z ->
  (forall r, In r rs -> inr 0 (IZR hi) (f r) /\ inr 0 (IZR hi) (g r) /\ R (f r) <= R (g r)) -> R (mean_of f rs) <= R (mean_of g rs).
Proof.
  intros NE Hh BH BN F. assert (P : (1 <= Z.of_nat (length rs))%Z) by (destruct rs; [contradiction|cbn [length]; lia]).
  destruct (mean_range f 0 hi ltac:(lia) rs NE ltac:(lia) BH BN (fun r H => proj1 (F r H))) as (_ & _ & Ef).
  destruct (mean_range g 0 hi ltac:(lia) rs NE ltac:(lia) BH BN (fun r H => proj1 (proj2 (F r H)))) as (_ & _ & Eg).
  rewrite Ef, Eg. apply rnd64_mono. unfold Rdiv. apply Rmult_le_compat_r; [apply Rlt_le, Rinv_0_lt_compat, IZR_lt; lia|].
  unfold dsum. apply (dsum_mono f g hi Hh rs (dofZ 0) (dofZ 0) 0%Z); try apply d0; try assumption; try lia; rewrite (proj2 d0); try rewrite Z.mul_0_r; lra.
Qed.

(** ** square root *)
Lemma sqrt_equiv prec emax (P : Prec_gt_0 prec) (L : Prec_lt_emax prec emax) (x : binary_float prec emax) : SFsqrt prec emax (B2SF x) = B2SF (Bsqrt mode_NE x).
Proof.
  case x as [sx|[]| |[] mx ex Bx]; try reflexivity. simpl. rewrite B2SF_SF2B.
  set (m := SFsqrt_core_binary _ _ _ _). case m as [[mz ez] lz]. apply bra_equiv.
Qed.
Lemma sqrt_d x : okd x -> 0 <= R x -> okd (SFsqrt 53 1024 x) /\ R (SFsqrt 53 1024 x) = rnd64 (sqrt (R x)).
Proof.
  intros [V F] N. pose proof (Bsqrt_correct 53 1024 _ _ mode_NE (lift 53 1024 x V)) as (A & B & _).
  pose proof (sqrt_equiv 53 1024 _ _ (lift 53 1024 x V)) as E. rewrite lift_sf in E. rewrite lift_R in A.
  split; [split|].
  - rewrite E. apply valid_binary_B2SF.
  - rewrite E. unfold fin. rewrite is_finite_SF_B2SF, B.
    destruct x as [s|s| |[] m e]; try discriminate F; try reflexivity.
    exfalso. change (0 <= IZR (Z.neg m) * bpow radix2 e) in N. pose proof (bpow_gt_0 radix2 e) as P. assert (NM : IZR (Z.neg m) < 0) by (apply IZR_lt; reflexivity). nra.
  - rewrite E. unfold R at 1. rewrite SF2R_B2SF. exact A.
Qed.
