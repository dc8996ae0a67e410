(** The threshold of isPartiallyCorrupted, and the clamped thresholds. *)
From Coq Require Import List NArith ZArith Bool SpecFloat Reals Lia Lra.
Import ListNotations.
From Flocq Require Import Core IEEE754.BinarySingleNaN.
From Verif Require Import Outcome Words Arith Floats FloatsR HealthFloat FloatsS BitsFloat_Proofs RMA3_Proofs Power2_Proofs Pred_Model Pred_Spec Pred_Proofs.
Local Open Scope R_scope.

Lemma identical_bounds a : forall b, (0 <= identical a b <= Z.of_nat (length a))%Z.
Proof. induction a as [|x a IH]; intros [|y b]; cbn [identical length]; try lia. specialize (IH b). destruct (x =? y)%Z; lia. Qed.
Lemma lit07 : okd (dlit 7 10) /\ 7/10 - 1/1000000000000 <= R (dlit 7 10) <= 7/10.
Proof. split; [split; vm_compute; reflexivity|]. vm_compute dlit. unfold R, SF2R, F2R. simpl. lra. Qed.
Lemma partial_iff a b : (Z.of_nat (length a) < 2 ^ 31)%Z -> is_partially_corrupted a b = true <-> (length a = length b /\ a <> [] /\ 7 * Z.of_nat (length a) <= 10 * identical a b)%Z.
Proof.
  intros L. unfold is_partially_corrupted. destruct (Nat.eqb_spec (length a) (length b)) as [E|E]; cbn [negb orb]; [|split; [discriminate|tauto]].
  destruct (Nat.eqb_spec (length a) 0) as [Z0|Z0]; [split; [discriminate|intros (_ & N & _); destruct a; [congruence|discriminate]]|].
  assert (N : a <> []) by (intros ->; apply Z0; reflexivity). pose proof (identical_bounds a b) as B. set (c := identical a b) in *. set (n := Z.of_nat (length a)) in *.
  destruct (ofZ_ex c ltac:(lia)) as [Oc Rc]. destruct (ofZ_ex n ltac:(lia)) as [On Rn]. destruct lit07 as [O7 B7].
  assert (Bn : 0 <= IZR n <= 2147483648) by (split; [apply IZR_le; lia|apply IZR_le; lia]).
  assert (Pn : IZR n * (7/10 - 1/1000000000000) <= IZR n * R (dlit 7 10) <= IZR n * (7/10)) by (split; apply Rmult_le_compat_l; lra).
  destruct (mul_d (dofZ n) (dlit 7 10) On O7) as [Om Rm]; [rewrite Rn; unfold mid; lra|]. rewrite Rn in Rm.
  assert (Lem : fge (dofZ c) (dmul (dofZ n) (dlit 7 10)) = true <-> R (dmul (dofZ n) (dlit 7 10)) <= IZR c) by (unfold fge; rewrite <- Rc; apply fle_d; assumption).
  rewrite Lem, Rm. split.
  - intros H. split; [exact E|]. split; [exact N|]. destruct (Z.le_gt_cases (7 * n) (10 * c)) as [C|C]; [exact C|]. exfalso.
    assert (C' : 10 * IZR c <= 7 * IZR n - 1) by (rewrite <- !mult_IZR, <- minus_IZR; apply IZR_le; lia).
    assert (F : rnd64 (IZR (16 * c + 1) * bpow radix2 (-4)) = IZR (16 * c + 1) * bpow radix2 (-4)) by (apply fmt64; lia).
    change (bpow radix2 (-4)) with (/ 16) in F. rewrite plus_IZR, mult_IZR in F.
    assert (M : rnd64 ((16 * IZR c + 1) * / 16) <= rnd64 (IZR n * R (dlit 7 10))) by (apply rnd_mono; lra). rewrite F in M. lra.
  - intros (_ & _ & C). assert (C' : 7 * IZR n <= 10 * IZR c) by (rewrite <- !mult_IZR; apply IZR_le; lia). rewrite <- (rnd_z c) by lia. apply rnd_mono. lra.
Qed.

(* whatever is given, the threshold in force is in [0, 1] *)
Lemma one_s : oks (sofZ 1) /\ R (sofZ 1) = 1.
Proof. split; [split; vm_compute; reflexivity|]. vm_compute sofZ. unfold R, SF2R, F2R. simpl. lra. Qed.
Lemma zero_s : oks (sofZ 0) /\ R (sofZ 0) = 0.
Proof. split; [split; vm_compute; reflexivity|]. vm_compute sofZ. reflexivity. Qed.
Lemma clamp_range t : valid_binary 24 128 t = true -> oks (clamp t) /\ 0 <= R (clamp t) <= 1.
Proof.
  intros V. destruct one_s as [O1 R1]. destruct zero_s as [O0 R0]. unfold clamp.
  assert (M : oks (fmin (sofZ 1) t) /\ R (fmin (sofZ 1) t) <= 1 \/ fmin (sofZ 1) t = S754_infinity true).
  { destruct t as [s|[|]| |s m e]; [| | | |].
    - left. assert (Ot : oks (S754_zero s)) by (split; reflexivity). unfold fmin. destruct (flt (S754_zero s) (sofZ 1)); [split; [exact Ot|cbn; lra]|split; [exact O1|lra]].
    - right. reflexivity.
    - left. split; [exact O1|]. change (fmin (sofZ 1) (S754_infinity false)) with (sofZ 1). lra.
    - left. change (fmin (sofZ 1) S754_nan) with (sofZ 1). split; [exact O1|lra].
    - left. assert (Ot : oks (S754_finite s m e)) by (split; [exact V|reflexivity]). unfold fmin. destruct (flt (S754_finite s m e) (sofZ 1)) eqn:C; [|split; [exact O1|lra]]. split; [exact Ot|]. apply (flt_s _ _ Ot O1) in C. lra. }
  destruct M as [[Om Lm]| ->]; [|split; [exact O0|]; change (fmax (sofZ 0) (S754_infinity true)) with (sofZ 0); lra].
  set (m := fmin (sofZ 1) t) in *. unfold fmax. destruct (flt (sofZ 0) m) eqn:C; [apply (flt_s _ _ O0 Om) in C; split; [exact Om|lra]|split; [exact O0|lra]].
Qed.
Lemma clamp_id t : oks t -> 0 <= R t <= 1 -> R (clamp t) = R t.
Proof.
  intros O B. destruct one_s as [O1 R1]. destruct zero_s as [O0 R0]. unfold clamp, fmin. destruct (flt t (sofZ 1)) eqn:C.
  - unfold fmax. destruct (flt (sofZ 0) t) eqn:D; [reflexivity|]. apply (flt_sF _ _ O0 O) in D. lra.
  - apply (flt_sF _ _ O O1) in C. unfold fmax. destruct (flt (sofZ 0) (sofZ 1)) eqn:D; [lra|]. apply (flt_sF _ _ O0 O1) in D. lra.
Qed.
