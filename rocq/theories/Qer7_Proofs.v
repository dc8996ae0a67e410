(** Radiation applied to memory: how many impacts there are, and the whole call. *)
From Coq Require Import List NArith ZArith Bool Arith Lia Reals Lra Psatz SpecFloat.
Import ListNotations.
From Flocq Require Import Core BinarySingleNaN.
From Verif Require Import Outcome Words Floats FloatsR HealthFloat Bits_Model MBP6_Proofs Train5_Proofs RMA3_Proofs Tester3_Proofs Hw_Proofs Hw2_Proofs Qft_Model Qft_Spec Qft2_Proofs Qft4_Proofs Qft5_Proofs Qft6_Proofs Qft7_Proofs Qft8_Proofs Qft9_Proofs Qer_Spec Qer_Proofs Qer2_Proofs Qer6_Proofs.
Local Open Scope R_scope.

Lemma step_exp_ok : exp_lib step_exp /\ exp_decay step_exp.
Proof.
  assert (D1 : V64 d1 = true) by (vm_compute; reflexivity). assert (D5 : V64 (dq 5 8) = true) by (vm_compute; reflexivity).
  assert (NH : okd (SFopp (dq 1 2)) /\ R (SFopp (dq 1 2)) = - / 2). { destruct half_R as [O H]. split; [apply opp_okd; exact O|]. rewrite opp_R, H. lra. }
  assert (F8 : R (dq 5 8) = 5 / 8). { assert (V : dq 5 8 = S754_finite false 5629499534213120 (-53)) by (vm_compute; reflexivity). rewrite V, fin_R. cbn [cond_Zopp]. change (b2 (-53)) with (/ IZR 9007199254740992). lra. }
  assert (S1 : forall x, x <> S754_nan -> step_exp x = if fle (dofZ 1000) x then S754_infinity false else if fle x (SFopp (dq 1 2)) then dq 5 8 else d1) by (intros x N; destruct x; congruence || reflexivity).
  destruct (ofZ_ex 1000 ltac:(lia)) as [O1 E1']. pose proof (okd_dbl _ O1) as DK. pose proof (okd_dbl _ (proj1 NH)) as DH. pose proof (okd_dbl _ (proj1 z_ok)) as DZ.
  assert (C0 : forall y, dbl y -> E y <= 0 -> fle (dofZ 1000) y = false). { intros y D L. destruct (fle (dofZ 1000) y) eqn:C; [|reflexivity]. apply (leE _ _ DK D) in C. rewrite (E_fin _ (proj2 O1)), E1' in C. lra. }
  assert (P1 : fle d0 (S754_infinity false) = true) by reflexivity. assert (P2 : fle d0 (dq 5 8) = true) by (vm_compute; reflexivity). assert (P3 : fle d0 d1 = true) by (vm_compute; reflexivity).
  assert (P4 : fle (dq 5 8) d1 = true) by (vm_compute; reflexivity). assert (P5 : fle d1 d1 = true) by (vm_compute; reflexivity). assert (P6 : fle (dq 5 8) (dq 5 8) = true) by (vm_compute; reflexivity).
  split; [split|].
  - reflexivity.
  - intros x H. assert (NX : {x = S754_nan} + {x <> S754_nan}) by (destruct x; (left; reflexivity) || (right; discriminate)). destruct NX as [->|N]; [reflexivity|]. rewrite (S1 x N). destruct (fle (dofZ 1000) x); [reflexivity|]. destruct (fle x _); assumption.
  - intros x H N. rewrite (S1 x N). destruct (fle (dofZ 1000) x); [exact P1|]. destruct (fle x _); assumption.
  - intros x H L. assert (N : x <> S754_nan) by (intros ->; discriminate L). assert (D : dbl x) by (split; assumption). apply (leE _ _ D DZ) in L. rewrite E0 in L. rewrite (S1 x N), (C0 x D L). destruct (fle x _); assumption.
  - intros x [V F] B. assert (Ox : okd x) by (split; assumption). pose proof (okd_dbl _ Ox) as D. rewrite (S1 x (proj2 D)), C0 by (try exact D; rewrite (E_fin _ F); lra).
    destruct (fle x (SFopp (dq 1 2))) eqn:C; [apply (fle_d _ _ Ox (proj1 NH)) in C; rewrite (proj2 NH) in C; rewrite F8; lra|rewrite (proj2 o_ok); lra].
  - intros x V L. assert (N : x <> S754_nan) by (intros ->; discriminate L). assert (D : dbl x) by (split; assumption). pose proof L as L'. apply (leE _ _ D DH) in L'. rewrite (E_fin _ (proj2 (proj1 NH))), (proj2 NH) in L'.
    rewrite (S1 x N), (C0 x D ltac:(lra)), L. exact P6.
Qed.

(** ** the number of impacts *)
Lemma rnd_up x : 0 <= x -> 0 <= rnd64 x <= x * (1 + / 9007199254740992) + / 1208925819614629174706176.
Proof.
  intros P. split; [apply rnd_pos; exact P|]. destruct (Rle_or_lt (b2 (-1022)) x) as [C|C].
  - pose proof (rnd64_rel x C). lra.
  - apply Rlt_le, (rnd_le 53 1024) in C. rewrite rnd_bpow in C by lia. assert (S1 : b2 (-1022) <= b2 (-80)) by (apply bpow_le; lia). change (b2 (-80)) with (/ 1208925819614629174706176) in S1. lra.
Qed.
Lemma to_u32_floor y : okd y -> 0 <= R y < 4294967295 -> to_u32 y = Ret (Z.to_N (Zfloor (R y))).
Proof.
  intros [V F] B. destruct (trunc_between y 4294967295 F ltac:(lra)) as (k & T & KB). pose proof (trunc_floor y k ltac:(lra) T) as K. unfold to_u32. rewrite T. replace ((0 <=? k) && (k <? 2 ^ 32))%Z with true by (symmetry; lia). subst k. reflexivity.
Qed.
Definition sites (p : sf) (size duration : N) : sf := dmul (dmul (dmul p (dofZ (Z.of_N size))) (ddiv (dofZ (Z.of_N duration)) (dofZ 1000))) (dq 1 100).
Lemma hundredth : okd (dq 1 100) /\ Rabs (R (dq 1 100) - / 100) <= / 1000000000000000.
Proof.
  split; [split; vm_compute; reflexivity|]. assert (V : dq 1 100 = S754_finite false 5764607523034235 (-59)) by (vm_compute; reflexivity). rewrite V, fin_R. cbn [cond_Zopp]. change (b2 (-59)) with (/ IZR 576460752303423488). apply Rabs_le. lra.
Qed.
Lemma sites_ok p size duration : inr 0 1 p -> (size <= 2 ^ 40)%N -> (duration < 2 ^ 32)%N -> (size * duration <= 2 ^ 40)%N ->
  okd (sites p size duration) /\ 0 <= R (sites p size duration) <= R p * IZR (Z.of_N (size * duration)) / 100000 + / 2.
Proof.
  intros [O B] HS HD HP. unfold sites. set (s := IZR (Z.of_N size)). set (d := IZR (Z.of_N duration)).
  assert (Bs : 0 <= s <= 1099511627776) by (unfold s; split; apply IZR_le; lia). assert (Bd : 0 <= d <= 4294967296) by (unfold d; split; apply IZR_le; lia).
  assert (Bp : s * d <= 1099511627776) by (unfold s, d; rewrite <- mult_IZR; apply IZR_le; lia).
  destruct (ofZ_ex (Z.of_N size) ltac:(lia)) as [Os Es]. fold s in Es. destruct (ofZ_ex (Z.of_N duration) ltac:(lia)) as [Od Ed]. fold d in Ed. destruct (ofZ_ex 1000 ltac:(lia)) as [Ok Ek].
  assert (M1 : 0 <= R p * s <= s) by (split; [apply Rmult_le_pos; lra|]; rewrite <- (Rmult_1_l s) at 2; apply Rmult_le_compat_r; lra).
  destruct (mul_d p (dofZ (Z.of_N size)) O Os) as [O1 E1]; [rewrite Es; unfold mid; lra|]. rewrite Es in E1.
  destruct (div_d (dofZ (Z.of_N duration)) (dofZ 1000) Od Ok) as [O2 E2]; [rewrite Ek; lra|rewrite Ed, Ek; unfold mid; lra|]. rewrite Ed, Ek in E2.
  pose proof (rnd_up (R p * s) ltac:(lra)) as U1. rewrite <- E1 in U1. pose proof (rnd_up (d / 1000) ltac:(lra)) as U2. rewrite <- E2 in U2.
  set (a := R (dmul p (dofZ (Z.of_N size)))) in *. set (b := R (ddiv (dofZ (Z.of_N duration)) (dofZ 1000))) in *.
  set (ps := R p * s) in *. set (e1 := / 9007199254740992) in *. set (e2 := / 1208925819614629174706176) in *. assert (K1 : 0 < e1 <= / 9007199254740000) by (unfold e1; lra). assert (K2 : 0 < e2 <= / 1208925819614000000000000) by (unfold e2; lra).
  assert (PD : 0 <= ps * d <= 1099511627776). { split; [apply Rmult_le_pos; lra|]. apply Rle_trans with (s * d); [apply Rmult_le_compat_r; lra|lra]. }
  assert (AB : 0 <= a * b <= ps * d / 1000 + 1).
  { split; [apply Rmult_le_pos; lra|]. apply Rle_trans with ((ps * (1 + e1) + e2) * (d / 1000 * (1 + e1) + e2)); [apply Rmult_le_compat; lra|].
    replace ((ps * (1 + e1) + e2) * (d / 1000 * (1 + e1) + e2)) with (ps * d / 1000 * ((1 + e1) * (1 + e1)) + ps * ((1 + e1) * e2) + d * ((1 + e1) * (e2 / 1000)) + e2 * e2) by field.
    assert (Q1 : (1 + e1) * (1 + e1) <= 1 + 3 * e1) by (clear -K1; nra). assert (Q2 : (1 + e1) * e2 <= / 1000000000000000000000) by (clear -K1 K2; nra). assert (Q3 : e2 * e2 <= / 1000000000000) by (clear -K2; nra).
    assert (T1 : ps * d / 1000 * ((1 + e1) * (1 + e1)) <= ps * d / 1000 * (1 + 3 * e1)) by (apply Rmult_le_compat_l; lra). assert (T2 : ps * ((1 + e1) * e2) <= ps * / 1000000000000000000000) by (apply Rmult_le_compat_l; lra).
    assert (T3 : d * ((1 + e1) * (e2 / 1000)) <= d * / 1000000000000000). { apply Rmult_le_compat_l; [lra|]. unfold Rdiv. rewrite <- Rmult_assoc. lra. }
    assert (T4 : ps * d / 1000 * (3 * e1) <= 1099511627776 / 1000 * (3 * e1)) by (apply Rmult_le_compat_r; lra). lra. }
  destruct (mul_d _ _ O1 O2) as [O3 E3]; [fold a b; unfold mid; lra|]. fold a b in E3. pose proof (rnd_up (a * b) ltac:(lra)) as U3. rewrite <- E3 in U3. set (c := R (dmul (dmul p (dofZ (Z.of_N size))) (ddiv (dofZ (Z.of_N duration)) (dofZ 1000)))) in *.
  assert (C1 : 0 <= c <= ps * d / 1000 + 2) by (fold e1 e2 in U3; split; [lra|]; assert (T5 : a * b * e1 <= 1099511630 * e1) by (apply Rmult_le_compat_r; lra); lra).
  destruct hundredth as [OH HH]. apply Rabs_le_inv in HH. destruct (mul_d _ _ O3 OH) as [O4 E4]; [fold c; unfold mid; split; nra|]. fold c in E4. split; [exact O4|].
  assert (CH : 0 <= c * R (dq 1 100) <= ps * d / 100000 + / 4). { split; [apply Rmult_le_pos; lra|]. apply Rle_trans with ((ps * d / 1000 + 2) * (/ 100 + / 1000000000000000)); [apply Rmult_le_compat; lra|]. lra. }
  pose proof (rnd_up _ (proj1 CH)) as U4. rewrite <- E4 in U4. split; [lra|]. assert (G : R p * IZR (Z.of_N (size * duration)) = ps * d) by (unfold ps, s, d; rewrite N2Z.inj_mul, mult_IZR; ring). rewrite G. fold e1 e2 in U4.
  assert (T6 : c * R (dq 1 100) * e1 <= 10995117 * e1) by (apply Rmult_le_compat_r; lra). lra.
Qed.
Lemma impacts_ok p size duration : inr 0 1 p -> (size <= 2 ^ 40)%N -> (duration < 2 ^ 32)%N -> (size * duration <= 2 ^ 40)%N ->
  exists n, impacts_of p size duration = Ret n /\ (1 <= n <= 1 + size * duration / 100000)%N.
Proof.
  intros P HS HD HP. destruct (sites_ok p size duration P HS HD HP) as [O B]. destruct P as [_ P]. assert (Q : 0 <= IZR (Z.of_N (size * duration)) <= 1099511627776) by (split; apply IZR_le; lia).
  assert (U : R (sites p size duration) <= IZR (Z.of_N (size * duration)) / 100000 + / 2). { apply Rle_trans with (1 := proj2 B). assert (R p * IZR (Z.of_N (size * duration)) <= 1 * IZR (Z.of_N (size * duration))) by (apply Rmult_le_compat_r; lra). lra. }
  unfold impacts_of. fold (sites p size duration). rewrite to_u32_floor by (try exact O; lra). cbn [obind]. eexists. split; [reflexivity|].
  assert (F : (Zfloor (R (sites p size duration)) <= 1 + Z.of_N (size * duration) / 100000)%Z).
  { assert (D : (Z.of_N (size * duration) < 100000 * (Z.of_N (size * duration) / 100000) + 100000)%Z) by (pose proof (Z.div_mod (Z.of_N (size * duration)) 100000 ltac:(lia)); pose proof (Z.mod_pos_bound (Z.of_N (size * duration)) 100000 ltac:(lia)); lia).
    assert (D2 : (Z.of_N (size * duration) + 1 <= 100000 * (Z.of_N (size * duration) / 100000) + 100000)%Z) by lia. apply IZR_le in D2. rewrite !plus_IZR, mult_IZR in D2. set (w := IZR (Z.of_N (size * duration))) in *.
    assert (L : IZR (Zfloor (R (sites p size duration))) < IZR (2 + Z.of_N (size * duration) / 100000)). { rewrite plus_IZR. pose proof (Zfloor_lb (R (sites p size duration))). lra. } apply lt_IZR in L. lia. }
  assert (C : (size * duration / 100000 = Z.to_N (Z.of_N (size * duration) / 100000))%N). { rewrite <- (N2Z.id (size * duration / 100000)), N2Z.inj_div. reflexivity. } lia.
Qed.
