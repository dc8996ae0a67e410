(** Two out of three; voting; executing three times. *)
From Coq Require Import String List NArith ZArith Bool Reals SpecFloat Lia Lra.
Import ListNotations.
From Flocq Require Import Core Relative.
From Flocq.IEEE754 Require Import BinarySingleNaN.
From Verif Require Import Outcome Words Floats FloatsR FloatsS HealthFloat Bits_Model PNN_Model PNN7_Proofs RMA3_Proofs Vae7_Proofs Hw_Model Hw_Spec Hw_Proofs.
Local Open Scope R_scope.

(** ** two of three *)
Lemma rnd64_abs x : 0 <= x <= 4 -> x - / 2251799813685248 <= rnd64 x <= x + / 2251799813685248.
Proof.
  intros H. destruct (Rle_or_lt (bpow radix2 (-1022)) x) as [G|L].
  - pose proof (rnd64_rel x G) as Q. lra.
  - assert (T : bpow radix2 (-1022) <= / 4503599627370496). { change (/ 4503599627370496) with (bpow radix2 (-52)). apply bpow_le. lia. }
    assert (A : 0 <= rnd64 x). { assert (Z0 : rnd64 0 = 0) by (unfold rnd; apply round_0; apply valid_rnd_N). rewrite <- Z0. apply (rnd_le 53 1024). lra. }
    assert (B : rnd64 x <= rnd64 (bpow radix2 (-1022))) by (apply (rnd_le 53 1024); lra). pose proof (rnd64_rel (bpow radix2 (-1022)) (Rle_refl _)) as C. lra.
Qed.
Lemma d3_ok : okd (dofZ 3) /\ R (dofZ 3) = 3. Proof. apply (ofZ_ex 3). lia. Qed.
Lemma d1_ok : okd (dofZ 1) /\ R (dofZ 1) = 1. Proof. apply (ofZ_ex 1). lia. Qed.
Lemma sc u t q : 0 <= q <= 1 -> - u <= t <= u -> - u <= t * q <= u.
Proof. intros Q T. split; nra. Qed.
Lemma two_three p : inr 0 1 p -> okd (two_of_three p) /\ 0 <= R (two_of_three p) /\ Rabs (R (two_of_three p) - (3 * R p * R p - 2 * R p * R p * R p)) <= / 1000000000000.
Proof.
  intros [O B]. set (q := R p) in *. destruct d3_ok as [O3 E3], d1_ok as [O1 E1]. unfold two_of_three.
  destruct (mul_d _ _ O3 O) as [Oa Ea]; [rewrite E3; fold q; unfold mid; lra|]. rewrite E3 in Ea. fold q in Ea. pose proof (rnd64_abs (3 * q) ltac:(lra)) as Ba. rewrite <- Ea in Ba.
  assert (Pa : 0 <= R (dmul (dofZ 3) p)). { rewrite Ea. assert (Z0 : rnd64 0 = 0) by (unfold rnd; apply round_0; apply valid_rnd_N). rewrite <- Z0. apply (rnd_le 53 1024). lra. }
  set (a := R (dmul (dofZ 3) p)) in *.
  assert (Z0 : rnd64 0 = 0) by (unfold rnd; apply round_0; apply valid_rnd_N).
  destruct (mul_d _ _ Oa O) as [Ob Eb]; [fold a q; unfold mid; nra|]. fold a q in Eb. pose proof (rnd64_abs (a * q) ltac:(nra)) as Bb. rewrite <- Eb in Bb.
  assert (Pb : 0 <= R (dmul (dmul (dofZ 3) p) p)) by (rewrite Eb, <- Z0; apply (rnd_le 53 1024); nra). set (b := R (dmul (dmul (dofZ 3) p) p)) in *.
  destruct (sub_d _ _ O1 O) as [Oc Ec]; [rewrite E1; fold q; unfold mid; lra|]. rewrite E1 in Ec. fold q in Ec. pose proof (rnd64_abs (1 - q) ltac:(lra)) as Bc. rewrite <- Ec in Bc.
  assert (Pc : 0 <= R (dsub (dofZ 1) p)) by (rewrite Ec, <- Z0; apply (rnd_le 53 1024); lra). set (c := R (dsub (dofZ 1) p)) in *.
  destruct (mul_d _ _ Ob Oc) as [Od Ed]; [fold b c; unfold mid; nra|]. fold b c in Ed. assert (b * c <= 4) by nra. pose proof (rnd64_abs (b * c) ltac:(nra)) as Bd. rewrite <- Ed in Bd.
  assert (Pd : 0 <= R (dmul (dmul (dmul (dofZ 3) p) p) (dsub (dofZ 1) p))) by (rewrite Ed, <- Z0; apply (rnd_le 53 1024); nra). set (d := R (dmul (dmul (dmul (dofZ 3) p) p) (dsub (dofZ 1) p))) in *.
  destruct (mul_d _ _ O O) as [Oe Ee]; [fold q; unfold mid; nra|]. fold q in Ee. pose proof (rnd64_abs (q * q) ltac:(nra)) as Be. rewrite <- Ee in Be.
  assert (Pe : 0 <= R (dmul p p)) by (rewrite Ee, <- Z0; apply (rnd_le 53 1024); nra). set (e := R (dmul p p)) in *.
  destruct (mul_d _ _ Oe O) as [Og Eg]; [fold e q; unfold mid; nra|]. fold e q in Eg. pose proof (rnd64_abs (e * q) ltac:(nra)) as Bg. rewrite <- Eg in Bg.
  assert (Pg : 0 <= R (dmul (dmul p p) p)) by (rewrite Eg, <- Z0; apply (rnd_le 53 1024); nra). set (g := R (dmul (dmul p p) p)) in *.
  assert (Q2 : 0 <= q * q <= 1) by nra.
  assert (Xb : Rabs (b - 3 * (q * q)) <= 2 * / 2251799813685248). { pose proof (sc (/ 2251799813685248) (a - 3 * q) q B ltac:(lra)). apply Rabs_le. lra. } apply Rabs_le_inv in Xb.
  assert (Xd : Rabs (d - 3 * (q * q) * (1 - q)) <= 7 * / 2251799813685248). { apply Rabs_le. assert (0 <= c <= 2) by lra. assert (M1 : Rabs (b * c - 3 * (q * q) * (1 - q)) <= 6 * / 2251799813685248); [|apply Rabs_le_inv in M1; lra].
    replace (b * c - 3 * (q * q) * (1 - q)) with ((b - 3 * (q * q)) * (1 - q) + b * (c - (1 - q))) by ring. apply Rabs_le. assert (Q1 : 0 <= 1 - q <= 1) by lra. pose proof (sc (2 * / 2251799813685248) (b - 3 * (q * q)) (1 - q) Q1 ltac:(lra)) as Y1.
    pose proof (sc (/ 2251799813685248) (c - (1 - q)) (b / 4) ltac:(lra) ltac:(lra)) as Y2. lra. } apply Rabs_le_inv in Xd.
  assert (Xg : Rabs (g - q * q * q) <= 2 * / 2251799813685248). { pose proof (sc (/ 2251799813685248) (e - q * q) q B ltac:(lra)). apply Rabs_le. lra. } apply Rabs_le_inv in Xg.
  clear - B Q2 Xd Xg Bd Bg Od Og Z0 Pd Pg. assert (Q3 : 0 <= q * q * q <= 1) by (clear - B Q2; nra). assert (Q4 : 0 <= (q * q) * (1 - q) <= 1) by (clear - B Q2; nra).
  destruct (add_d _ _ Od Og) as [Oh Eh]; [fold d g; unfold mid; lra|]. fold d g in Eh. split; [exact Oh|].
  assert (Ph : 0 <= R (dadd (dmul (dmul (dmul (dofZ 3) p) p) (dsub (dofZ 1) p)) (dmul (dmul p p) p))) by (rewrite Eh, <- Z0; apply (rnd_le 53 1024); lra). split; [exact Ph|]. rewrite Eh.
  assert (U : 3 * (q * q) * (1 - q) + q * q * q <= 1). { assert (0 <= (1 - q) * (1 - q) * (1 + 2 * q)) by (apply Rmult_le_pos; [nra|lra]). replace (3 * (q * q) * (1 - q) + q * q * q) with (1 - (1 - q) * (1 - q) * (1 + 2 * q)) by ring. lra. }
  pose proof (rnd64_abs (d + g) ltac:(lra)) as Bh. apply Rabs_le. replace (3 * q * q - 2 * q * q * q) with (3 * (q * q) * (1 - q) + q * q * q) by ring. lra.
Qed.
Lemma two_three_range p : inr 0 (R cap) p -> inr 0 1 (two_of_three p).
Proof.
  intros [O B]. destruct cap_ok as [_ C]. destruct (two_three p) as (Ot & P & Q); [split; [exact O|lra]|]. split; [exact Ot|]. split; [exact P|]. apply Rabs_le_inv in Q. set (q := R p) in *.
  assert (K : R cap <= 9991 / 10000). { assert (X : cap = ltac:(let x := eval vm_compute in cap in exact x)) by (vm_compute; reflexivity). rewrite X. lit_R. }
  assert (Y : (1 - q) * (1 - q) >= 81 / 100000000) by nra.
  assert (Z : 3 * q * q - 2 * q * q * q = 1 - (1 - q) * (1 - q) * (1 + 2 * q)) by ring. rewrite Z in Q.
  assert (W : (1 - q) * (1 - q) * (1 + 2 * q) >= 81 / 100000000) by nra. lra.
Qed.
Lemma two_three_better p : inr 0 (R cap) p -> 501 / 1000 <= R p -> R p < R (two_of_three p).
Proof.
  intros [O B] G. destruct cap_ok as [_ C]. destruct (two_three p) as (Ot & P & Q); [split; [exact O|lra]|]. apply Rabs_le_inv in Q. set (q := R p) in *.
  assert (K : R cap <= 9991 / 10000). { assert (X : cap = ltac:(let x := eval vm_compute in cap in exact x)) by (vm_compute; reflexivity). rewrite X. lit_R. }
  replace (3 * q * q - 2 * q * q * q) with (q + q * ((1 - q) * (2 * q - 1))) in Q by ring.
  assert (Y : (1 - q) * (2 * q - 1) >= 9 / 10000 * (2 / 1000)) by nra. nra.
Qed.
Lemma two_three_worse p : inr 0 (R cap) p -> / 1000000 <= R p <= 499 / 1000 -> R (two_of_three p) < R p.
Proof.
  intros [O B] G. destruct cap_ok as [_ C]. destruct (two_three p) as (Ot & P & Q); [split; [exact O|lra]|]. apply Rabs_le_inv in Q. set (q := R p) in *.
  replace (3 * q * q - 2 * q * q * q) with (q - q * ((1 - q) * (1 - 2 * q))) in Q by ring.
  assert (Y : (1 - q) * (1 - 2 * q) >= 1 / 2 * (2 / 1000)) by nra. nra.
Qed.

(** ** equality of floats *)
Lemma feqb_iff x y : feqb x y = true <-> (x = y /\ x <> S754_nan) \/ (exists s t, x = S754_zero s /\ y = S754_zero t).
Proof.
  unfold feqb, SFeqb. split.
  - destruct x as [s|[]| |[] m e]; destruct y as [t|[]| |[] m' e']; cbn [SFcompare]; try discriminate; try (intros; left; split; [reflexivity|discriminate]); try (right; eauto; fail).
    + destruct (Z.compare e e') eqn:K; cbn [CompOpp]; try discriminate. apply Z.compare_eq in K. destruct (Pos.compare_cont Eq m m') eqn:J; cbn [CompOpp]; try discriminate. intros _. change (Pos.compare m m' = Eq) in J. apply Pos.compare_eq in J. subst. left. split; [reflexivity|discriminate].
    + destruct (Z.compare e e') eqn:K; try discriminate. apply Z.compare_eq in K. destruct (Pos.compare_cont Eq m m') eqn:J; try discriminate. intros _. change (Pos.compare m m' = Eq) in J. apply Pos.compare_eq in J. subst. left. split; [reflexivity|discriminate].
  - intros [[<- N]|(s & t & -> & ->)]; [|reflexivity]. destruct x as [s|[]| |[] m e]; try congruence; cbn [SFcompare]; try reflexivity; rewrite Z.compare_refl; change (Pos.compare_cont Eq m m) with (Pos.compare m m); rewrite Pos.compare_refl; reflexivity.
Qed.
Lemma same_sym x y : same_float x y -> same_float y x.
Proof. unfold same_float. rewrite !feqb_iff. intros [[A B]|(s & t & A & B)]; [left; rewrite <- A; auto|right; eauto]. Qed.
Lemma same_trans x y z : same_float x y -> same_float y z -> same_float x z.
Proof.
  unfold same_float. rewrite !feqb_iff. intros [[A B]|(s & t & A & B)] [[C D]|(s' & t' & C & D)].
  - left. rewrite A. split; congruence.
  - right. exists s', t'. split; congruence.
  - right. exists s, t. split; congruence.
  - right. eauto.
Qed.
Lemma same_refl x : not_nan x -> same_float x x.
Proof. intros N. unfold same_float. apply feqb_iff. left. auto. Qed.
Lemma same_num x y : same_float x y -> num x = num y /\ not_nan x.
Proof. unfold same_float, num, not_nan. rewrite feqb_iff. intros [[A B]|(s & t & A & B)]; [rewrite A; split; [reflexivity|congruence]|]. rewrite A, B. split; [reflexivity|discriminate]. Qed.
Lemma f32eq_spec a b : f32eq a b = true <-> same_float a b.
Proof. reflexivity. Qed.

(** ** one element *)
Lemma vote_pair a b c x y z : (a, b, c) = (x, y, z) \/ (a, b, c) = (x, z, y) \/ (a, b, c) = (z, x, y) -> same_float x y -> (vote3 a b c = x \/ vote3 a b c = y \/ vote3 a b c = z) /\ same_float (vote3 a b c) x.
Proof.
  intros H L. unfold vote3. destruct H as [H|[H|H]]; injection H as -> -> ->; destruct (same_num _ _ L) as [_ N]; pose proof (same_refl _ N) as S1.
  - replace (f32eq x y) with true by (symmetry; exact L). cbn [orb]. auto.
  - replace (f32eq x y) with true by (symmetry; exact L). rewrite orb_true_r. auto.
  - destruct (f32eq z x || f32eq z y) eqn:K.
    + split; [auto|]. apply orb_prop in K as [K|K]; [exact K|]. eapply same_trans; [exact K|]. apply same_sym, L.
    + replace (f32eq x y) with true by (symmetry; exact L). auto.
Qed.
Definition no_pair (a b c : N) : Prop := ~ same_float a b /\ ~ same_float a c /\ ~ same_float b c.
Lemma vote_none a b c : no_pair a b c -> vote3 a b c = f32div (f32add (f32add a b) c) 1077936128.
Proof.
  intros (A & B & C). unfold vote3. destruct (f32eq a b) eqn:K1; [contradiction|]. destruct (f32eq a c) eqn:K2; [contradiction|]. destruct (f32eq b c) eqn:K3; [contradiction|]. reflexivity.
Qed.
Lemma three_sf : sf32 1077936128 = sofZ 3. Proof. vm_compute. reflexivity. Qed.
Lemma rnd32_err x : Rabs (rnd32 x - x) <= Rabs x * / 16777216 + bpow radix2 (-150).
Proof.
  destruct (error_N_FLT radix2 (-149) 24 ltac:(reflexivity) (fun z => negb (Z.even z)) x) as (eps & eta & A & B & C & D).
  change (round radix2 (FLT_exp (-149) 24) (Znearest (fun z => negb (Z.even z))) x) with (rnd32 x) in D. rewrite D. replace (x * (1 + eps) + eta - x) with (x * eps + eta) by ring.
  apply Rle_trans with (1 := Rabs_triang _ _). apply Rplus_le_compat.
  - rewrite Rabs_mult. apply Rmult_le_compat_l; [apply Rabs_pos|]. apply Rle_trans with (1 := A). replace (bpow radix2 (- (24) + 1)) with (/ 8388608) by reflexivity. lra.
  - assert (K : bpow radix2 (-150) = / 2 * bpow radix2 (-149)) by (change (-150)%Z with (-1 + -149)%Z; rewrite bpow_plus; reflexivity). rewrite K. exact B.
Qed.
Lemma vote_mean a b c M : no_pair a b c -> finite32 a -> finite32 b -> finite32 c -> Rabs (num a) <= M -> Rabs (num b) <= M -> Rabs (num c) <= M -> M <= bpow radix2 98 ->
  finite32 (vote3 a b c) /\ Rabs (num (vote3 a b c) - (num a + num b + num c) / 3) <= 3 * M * / 16777216 + bpow radix2 (-148).
Proof.
  intros N Fa Fb Fc Ma Mb Mc MM. rewrite (vote_none _ _ _ N). unfold finite32, num in *. rewrite sf32_div, !sf32_add, three_sf.
  pose proof (sf32_V a) as Va. pose proof (sf32_V b) as Vb. pose proof (sf32_V c) as Vc.
  assert (B100 : bpow radix2 100 = 4 * bpow radix2 98). { change 100%Z with (2 + 98)%Z. rewrite bpow_plus. reflexivity. }
  assert (P98 : 1000000 <= bpow radix2 98). { apply Rle_trans with (bpow radix2 20); [change (bpow radix2 20) with 1048576; lra|]. apply bpow_le. lia. }
  assert (T : bpow radix2 (-148) = 4 * bpow radix2 (-150)). { change (-148)%Z with (2 + -150)%Z. rewrite bpow_plus. reflexivity. }
  assert (T0 : 0 < bpow radix2 (-150)) by apply bpow_gt_0. assert (T1 : bpow radix2 (-150) <= 1). { change 1 with (bpow radix2 0). apply bpow_le. lia. }
  apply Rabs_le_inv in Ma. apply Rabs_le_inv in Mb. apply Rabs_le_inv in Mc.
  destruct (add_s _ _ (conj Va Fa) (conj Vb Fb)) as [Os Es]; [unfold mids; rewrite B100; lra|].
  pose proof (rnd32_err (R (sf32 a) + R (sf32 b))) as E1. rewrite <- Es in E1.
  assert (X1 : Rabs (R (sf32 a) + R (sf32 b)) <= 2 * M) by (apply Rabs_le; lra).
  set (s := R (sadd (sf32 a) (sf32 b))) in *. set (e := bpow radix2 (-150)) in *.
  assert (E1' : Rabs (s - (R (sf32 a) + R (sf32 b))) <= 2 * M * / 16777216 + e) by lra. apply Rabs_le_inv in E1'.
  assert (M0 : 0 <= M) by lra.
  destruct (add_s _ _ Os (conj Vc Fc)) as [Ot Et]; [fold s; unfold mids; rewrite B100; lra|]. fold s in Et.
  pose proof (rnd32_err (s + R (sf32 c))) as E2. rewrite <- Et in E2. fold e in E2.
  assert (X2 : Rabs (s + R (sf32 c)) <= 301 / 100 * M + e) by (apply Rabs_le; lra).
  set (t := R (sadd (sadd (sf32 a) (sf32 b)) (sf32 c))) in *.
  assert (E2' : Rabs (t - (s + R (sf32 c))) <= (301 / 100 * M + e) * / 16777216 + e) by lra. apply Rabs_le_inv in E2'. apply Rabs_le_inv in X2.
  destruct (ofZ_s 3 ltac:(lia)) as [O3 E3]. assert (R3 : R (sofZ 3) = 3). { assert (Q : sofZ 3 = ltac:(let x := eval vm_compute in (sofZ 3) in exact x)) by (vm_compute; reflexivity). rewrite Q. lit_R. }
  destruct (div_s _ _ Ot O3) as [Oq Eq]; [lra|fold t; rewrite R3; unfold mids; rewrite B100; lra|]. fold t in Eq. rewrite R3 in Eq. split; [apply Oq|].
  pose proof (rnd32_err (t / 3)) as E4. rewrite <- Eq in E4. fold e in E4. assert (X4 : Rabs (t / 3) <= 102 / 100 * M + e) by (apply Rabs_le; lra).
  set (q := R (sdiv (sadd (sadd (sf32 a) (sf32 b)) (sf32 c)) (sofZ 3))) in *.
  assert (E4' : Rabs (q - t / 3) <= (102 / 100 * M + e) * / 16777216 + e) by lra. apply Rabs_le_inv in E4'. rewrite T. apply Rabs_le. lra.
Qed.
(** a NaN among three values that do not agree, or two NaNs, give a NaN *)
Lemma nan_add x y : x = S754_nan \/ y = S754_nan -> sadd x y = S754_nan.
Proof. intros [->| ->]; [reflexivity|]. destruct x as [[]|[]| |[] m e]; reflexivity. Qed.
Lemma vote_nan a b c : no_pair a b c -> sf32 a = S754_nan \/ sf32 b = S754_nan \/ sf32 c = S754_nan -> sf32 (vote3 a b c) = S754_nan.
Proof.
  intros N H. rewrite (vote_none _ _ _ N). rewrite sf32_div, !sf32_add.
  assert (K : sadd (sadd (sf32 a) (sf32 b)) (sf32 c) = S754_nan). { destruct H as [H|[H|H]]; [apply nan_add; left; apply nan_add; auto|apply nan_add; left; apply nan_add; auto|apply nan_add; auto]. }
  rewrite K. reflexivity.
Qed.
Lemma nan_not_same a b : sf32 a = S754_nan \/ sf32 b = S754_nan -> ~ same_float a b.
Proof. unfold same_float. rewrite feqb_iff. intros [H|H] [[A B]|(s & t & A & B)]; congruence. Qed.

(** ** vectors *)
Lemma vote_from_ok o0 o1 o2 : forall buffer j, (j + length buffer <= length o0)%nat -> (j + length buffer <= length o1)%nat -> (j + length buffer <= length o2)%nat ->
  exists out, vote_from o0 o1 o2 j buffer = Ret out /\ length out = length buffer /\
    forall k, (k < length buffer)%nat -> nth k out 0%N = vote3 (nth (j + k) o0 0%N) (nth (j + k) o1 0%N) (nth (j + k) o2 0%N).
Proof.
  induction buffer as [|x r IH]; intros j L0 L1 L2; cbn [vote_from length] in *.
  - exists []. split; [reflexivity|]. split; [reflexivity|]. intros k K. lia.
  - assert (G : forall o, (j + S (length r) <= length o)%nat -> elem o j = Ret (nth j o 0%N)).
    { intros o L. unfold elem. rewrite (nth_error_nth' o 0%N) by lia. reflexivity. }
    rewrite !G by lia. cbn [obind]. destruct (IH (S j)) as (out & Ho & Lo & No); try lia. rewrite Ho. cbn [obind]. eexists. split; [reflexivity|]. split; [cbn; lia|].
    intros [|k] K; cbn [nth]; [rewrite Nat.add_0_r; reflexivity|]. rewrite No by (cbn in K; lia). replace (S j + k)%nat with (j + S k)%nat by lia. reflexivity.
Qed.
Lemma vote_from_short o0 o1 o2 : forall buffer j, (j + length buffer > Nat.min (length o0) (Nat.min (length o1) (length o2)))%nat -> (j <= Nat.min (length o0) (Nat.min (length o1) (length o2)))%nat ->
  vote_from o0 o1 o2 j buffer = UB UB_array_index.
Proof.
  induction buffer as [|x r IH]; intros j G L; cbn [vote_from length] in *; [lia|].
  assert (A : forall o, elem o j = (if (j <? length o)%nat then Ret (nth j o 0%N) else UB UB_array_index)).
  { intros o. unfold elem. destruct (Nat.ltb_spec j (length o)); [rewrite (nth_error_nth' o 0%N) by lia; reflexivity|]. rewrite (proj2 (nth_error_None o j)) by lia. reflexivity. }
  rewrite !A. destruct (Nat.ltb_spec j (length o0)); cbn [obind]; [|reflexivity]. destruct (Nat.ltb_spec j (length o1)); cbn [obind]; [|reflexivity]. destruct (Nat.ltb_spec j (length o2)); cbn [obind]; [|reflexivity].
  rewrite IH by lia. reflexivity.
Qed.
