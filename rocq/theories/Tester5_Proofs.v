From Coq Require Import List NArith ZArith Bool Lia Reals Lra Psatz SpecFloat.
Import ListNotations.
From Verif Require Import Outcome Words Arith Floats FloatsR HealthFloat FloatsS Bits_Model PNN_Model Train_Model RMA3_Proofs Power4_Proofs Tester_Model Tester_Spec Tester_Proofs Tester2_Proofs Tester3_Proofs Tester4_Proofs.
Local Open Scope R_scope.

Lemma impact_mono a b : (hardness a <= hardness b)%N -> R (impact a) <= R (impact b).
Proof.
  intros H. destruct (impact_inr a) as [Oa _], (impact_inr b) as [Ob _]. apply (fle_d _ _ Oa Ob).
  destruct a, b; try (vm_compute; reflexivity); exfalso; cbn in H; lia.
Qed.
Lemma pres_mono base r1 r2 : inr 50 99 base -> inr 10 (R base) r1 -> inr 10 (R base) r2 -> R r1 <= R r2 -> R (dmul (ddiv r1 base) (dofZ 100)) <= R (dmul (ddiv r2 base) (dofZ 100)).
Proof.
  intros [Ob Bb] [O1 B1] [O2 B2] L. destruct (ofZ_ex 100 ltac:(lia)) as [O100 E100].
  assert (Q : forall r, 10 <= r <= R base -> 0 <= r / R base <= 1).
  { intros r Br. split; [apply Rlt_le, Rdiv_lt_0_compat; lra|]. apply (Rmult_le_reg_r (R base)); [lra|]. unfold Rdiv. rewrite Rmult_assoc, Rinv_l by lra. lra. }
  pose proof (Q _ B1) as Q1. pose proof (Q _ B2) as Q2.
  destruct (div_d r1 base O1 Ob) as [P1 E1]; [lra|midl|]. destruct (div_d r2 base O2 Ob) as [P2 E2]; [lra|midl|].
  assert (C1 : 0 <= R (ddiv r1 base) <= 1) by (rewrite E1; split; [apply (rnd64_geZ 0)|apply (rnd64_leZ 1)]; lia || lra).
  assert (C2 : 0 <= R (ddiv r2 base) <= 1) by (rewrite E2; split; [apply (rnd64_geZ 0)|apply (rnd64_leZ 1)]; lia || lra).
  destruct (mul_d _ (dofZ 100) P1 O100) as [_ M1]; [rewrite E100; midl|]. destruct (mul_d _ (dofZ 100) P2 O100) as [_ M2]; [rewrite E100; midl|].
  rewrite M1, M2, E100. apply rnd64_mono. apply Rmult_le_compat_r; [lra|]. rewrite E1, E2. apply rnd64_mono. unfold Rdiv. apply Rmult_le_compat_r; [apply Rlt_le, Rinv_0_lt_compat; lra|exact L].
Qed.
Section Lib.
Variables (flog fexp : sf -> sf) (noise : N -> sf * sf).
Hypothesis LOG : log_ok flog.
Hypothesis EXP : exp_ok fexp.
Hypothesis NOISE : noise_ok noise.
Lemma test_order nn arch drop residual p q e f t1 t2 r1 r2 : (forall s, noise s = nn) -> is_double drop -> at_least_as_strong p q -> (hardness e <= hardness f)%N ->
  test_with flog fexp noise arch drop residual q f t1 = Ret r1 -> test_with flog fexp noise arch drop residual p e t2 = Ret r2 ->
  r_base r1 = r_base r2 /\ R (r_rad r1) <= R (r_rad r2) /\ R (r_pres r1) <= R (r_pres r2).
Proof.
  intros NN VD S HH H1 H2. pose proof (test_sane _ _ _ _ _ _ _ _ _ _ LOG EXP NOISE VD H1) as (B1 & R1 & _). pose proof (test_sane _ _ _ _ _ _ _ _ _ _ LOG EXP NOISE VD H2) as (_ & R2 & _).
  destruct (test_inv _ _ _ _ _ _ _ _ _ _ H1) as (x1 & x2 & x3 & x4 & _ & _ & _ & _ & E1). destruct (test_inv _ _ _ _ _ _ _ _ _ _ H2) as (y1 & y2 & y3 & y4 & _ & _ & _ & _ & E2).
  rewrite NN in E1, E2. subst r1 r2. cbn [r_base r_rad r_pres] in *. split; [reflexivity|].
  assert (L : R (radiated (baseline fexp (ddiv (flog (connections arch)) (dofZ 10)) drop (residual && Nat.ltb 3 (length arch)) (fst nn)) (impact f) (protection_factor q) (snd nn))
           <= R (radiated (baseline fexp (ddiv (flog (connections arch)) (dofZ 10)) drop (residual && Nat.ltb 3 (length arch)) (fst nn)) (impact e) (protection_factor p) (snd nn))).
  { pose proof (NOISE 0%N) as N. rewrite NN in N. apply radiated_mono; try apply impact_inr; try apply factor_inr; try apply N; [exact B1|apply impact_mono; exact HH|apply factor_mono; exact S|lra]. }
  split; [exact L|]. apply pres_mono; assumption.
Qed.
End Lib.
