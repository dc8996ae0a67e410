(** Range reasoning for binary32 quantities of moderate size, and integer -> float conversions. *)
From Coq Require Import ZArith NArith Lia Bool SpecFloat Reals Lra.
From Flocq Require Import Core Relative.
From Flocq.IEEE754 Require Import BinarySingleNaN.
From Verif Require Import Floats FloatsR HealthFloat.
Local Open Scope R_scope.

Section OfZ.
Variables prec emax : Z.
Context {Hp : Prec_gt_0 prec} {Hm : Prec_lt_emax prec emax}.
Lemma ofZ_R (z : Z) : Rabs (rnd prec emax (IZR z)) < bpow radix2 emax ->
  let x := SpecFloat.binary_normalize prec emax z 0 false in
  R x = rnd prec emax (IZR z) /\ fin x = true /\ valid_binary prec emax x = true.
Proof.
  intros Hb x. unfold x. rewrite (bn_equiv prec emax (Hp:=Hp) (Hm:=Hm)).
  pose proof (binary_normalize_correct prec emax Hp Hm mode_NE z 0 false) as H.
  cbv zeta in H. assert (F2R (Float radix2 z 0) = IZR z) as E by (unfold F2R; simpl; lra).
  rewrite E in H. rewrite Rlt_bool_true in H by exact Hb. destruct H as (H1 & H2 & _).
  unfold R, fin. rewrite SF2R_B2SF, is_finite_SF_B2SF. split; [exact H1|split; [exact H2|]].
  apply valid_binary_B2SF.
Qed.
End OfZ.

Notation V32 := (valid_binary 24 128).
Notation rnd32 := (rnd 24 128).
Definition oks (x : sf) : Prop := V32 x = true /\ fin x = true.
Definition sbig : sf := sofZ (2 ^ 100).
Definition smbig : sf := sofZ (- 2 ^ 100).
Lemma sbig_R : R sbig = bpow radix2 100.
Proof. unfold sbig. vm_compute sofZ. unfold R, SF2R, F2R. change (bpow radix2 100) with (IZR (2 ^ 100)). simpl. lra. Qed.
Lemma smbig_R : R smbig = - bpow radix2 100.
Proof. unfold smbig. vm_compute sofZ. unfold R, SF2R, F2R. change (bpow radix2 100) with (IZR (2 ^ 100)). simpl. lra. Qed.
Definition mids (x : Rdefinitions.R) : Prop := - bpow radix2 100 <= x <= bpow radix2 100.
Lemma mids_ovf x : mids x -> Rabs (rnd32 x) < bpow radix2 128.
Proof.
  intros H. apply (rnd_ovf 24 128 smbig sbig); [reflexivity|reflexivity|]. rewrite sbig_R, smbig_R. exact H.
Qed.
Lemma bpow100_big : 1000000 <= bpow radix2 100.
Proof. change (bpow radix2 100) with (IZR (2 ^ 100)). apply IZR_le. lia. Qed.
Lemma mids_small x : -1000000 <= x <= 1000000 -> mids x.
Proof. intros H. pose proof bpow100_big. unfold mids. lra. Qed.
Lemma add_s x y : oks x -> oks y -> mids (R x + R y) -> oks (sadd x y) /\ R (sadd x y) = rnd32 (R x + R y).
Proof.
  intros [Vx Fx] [Vy Fy] H. unfold sadd.
  destruct (add_R 24 128 x y Vx Vy Fx Fy (mids_ovf _ H)) as (A & B & C). unfold oks. auto.
Qed.
Lemma sub_s x y : oks x -> oks y -> mids (R x - R y) -> oks (ssub x y) /\ R (ssub x y) = rnd32 (R x - R y).
Proof.
  intros [Vx Fx] [Vy Fy] H. unfold ssub.
  destruct (sub_R 24 128 x y Vx Vy Fx Fy (mids_ovf _ H)) as (A & B & C). unfold oks. auto.
Qed.
Lemma mul_s x y : oks x -> oks y -> mids (R x * R y) -> oks (smul x y) /\ R (smul x y) = rnd32 (R x * R y).
Proof.
  intros [Vx Fx] [Vy Fy] H. unfold smul.
  destruct (mul_R 24 128 x y Vx Vy Fx Fy (mids_ovf _ H)) as (A & B & C). unfold oks. auto.
Qed.
Lemma div_s x y : oks x -> oks y -> R y <> 0 -> mids (R x / R y) -> oks (sdiv x y) /\ R (sdiv x y) = rnd32 (R x / R y).
Proof.
  intros [Vx Fx] [Vy Fy] Hy H. unfold sdiv.
  destruct (div_R 24 128 x y Vx Vy Fx Hy (mids_ovf _ H)) as (A & B & C). unfold oks. auto.
Qed.
Lemma flt_s x y : oks x -> oks y -> (flt x y = true <-> R x < R y).
Proof. intros [Vx Fx] [Vy Fy]. apply (ltb_R 24 128); assumption. Qed.
Lemma fle_s x y : oks x -> oks y -> (fle x y = true <-> R x <= R y).
Proof. intros [Vx Fx] [Vy Fy]. apply (leb_R 24 128); assumption. Qed.
Lemma flt_sF x y : oks x -> oks y -> (flt x y = false <-> R y <= R x).
Proof.
  intros Hx Hy. rewrite <- not_true_iff_false, (flt_s x y Hx Hy). split; [apply Rnot_lt_le|apply Rle_not_lt].
Qed.
Lemma rnd32_ge lo x : oks lo -> R lo <= x -> R lo <= rnd32 x.
Proof. intros [V F] H. rewrite <- (rnd_R 24 128 lo V). apply (rnd_le 24 128). exact H. Qed.
Lemma rnd32_le hi x : oks hi -> x <= R hi -> rnd32 x <= R hi.
Proof. intros [V F] H. rewrite <- (rnd_R 24 128 hi V). apply (rnd_le 24 128). exact H. Qed.

(** integers *)
Lemma ofZ_s z : (Z.abs z <= 2 ^ 64)%Z -> oks (sofZ z) /\ R (sofZ z) = rnd32 (IZR z).
Proof.
  intros H. destruct (ofZ_R 24 128 z) as (A & B & C).
  - apply mids_ovf. unfold mids. change (bpow radix2 100) with (IZR (2 ^ 100)). rewrite <- opp_IZR.
    assert (2 ^ 64 <= 2 ^ 100)%Z by (apply Z.pow_le_mono_r; lia).
    split; apply IZR_le; lia.
  - unfold oks. auto.
Qed.
Lemma ofZ_s_mono a b : (Z.abs a <= 2 ^ 64)%Z -> (Z.abs b <= 2 ^ 64)%Z -> (a <= b)%Z -> R (sofZ a) <= R (sofZ b).
Proof.
  intros Ha Hb H. rewrite (proj2 (ofZ_s a Ha)), (proj2 (ofZ_s b Hb)). apply (rnd_le 24 128). apply IZR_le. exact H.
Qed.
Lemma ofZ_d z : (Z.abs z <= 2 ^ 60)%Z -> okd (dofZ z) /\ R (dofZ z) = rnd64 (IZR z).
Proof.
  intros H. destruct (ofZ_R 53 1024 z) as (A & B & C).
  - apply mid_ovf. unfold mid. split; apply IZR_le; lia.
  - unfold okd. auto.
Qed.
