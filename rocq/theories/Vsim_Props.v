(** Properties C476-C477: the similarity of two vectors of floats (advanced/error_prediction.hpp). *)
From Coq Require Import List NArith ZArith Bool Arith Lia Reals Lra SpecFloat.
Import ListNotations.
From Flocq Require Import Core BinarySingleNaN.
From Verif Require Import Words Floats FloatsR Tester3_Proofs Vsim_Model.
Local Open Scope R_scope.

Notation V32 := (SpecFloat.valid_binary 24 128).
(** a finite float *)
Definition is_float (x : sf) : Prop := V32 x = true /\ x <> S754_nan /\ x <> S754_infinity true /\ x <> S754_infinity false.
Definition floats (a : list sf) : Prop := Forall is_float a.

#[local] Instance p24 : Prec_gt_0 24 := eq_refl.
#[local] Instance l24 : Prec_lt_emax 24 128 := eq_refl.
Lemma float_fin x : is_float x -> V32 x = true /\ fin x = true.
Proof. intros (V & N & I1 & I2). split; [exact V|]. destruct x as [s|[]| |s m e]; try congruence; reflexivity. Qed.
(** not negative, not NaN *)
Definition nn (x : sf) : Prop := V32 x = true /\ match x with S754_zero s | S754_infinity s | S754_finite s _ _ => s = false | S754_nan => False end.
Lemma b_valid (b : binary_float 24 128) : V32 (B2SF b) = true. Proof. apply valid_binary_B2SF. Qed.
Lemma b_nn (b : binary_float 24 128) : is_nan b = false -> Bsign b = false -> nn (B2SF b).
Proof. intros N S. split; [apply b_valid|]. destruct b; cbn in *; congruence. Qed.
Lemma ovf_notnan s (b : binary_float 24 128) : B2SF b = binary_overflow 24 128 mode_NE s -> is_nan b = false /\ Bsign b = s.
Proof. intros H. destruct b; cbn in H; try discriminate H. injection H as ->. split; reflexivity. Qed.
Lemma fin_notnan (b : binary_float 24 128) : is_finite b = true -> is_nan b = false. Proof. destruct b; cbn; congruence. Qed.
Lemma sub_num x y : is_float x -> is_float y -> V32 (ssub x y) = true /\ ssub x y <> S754_nan.
Proof.
  intros X Y. destruct (float_fin x X) as [VX FX]. destruct (float_fin y Y) as [VY FY]. pose proof (sub_equiv 24 128 (lift 24 128 x VX) (lift 24 128 y VY)) as Q. rewrite !lift_sf in Q. unfold ssub. rewrite Q. split; [apply b_valid|].
  pose proof (Bminus_correct 24 128 _ _ mode_NE (lift 24 128 x VX) (lift 24 128 y VY)) as H. rewrite !lift_fin in H. specialize (H FX FY). set (b := Bminus mode_NE _ _) in *.
  assert (N : is_nan b = false). { destruct (Rlt_bool _ _); [destruct H as (_ & H & _); apply fin_notnan, H|destruct H as [H _]; apply (ovf_notnan _ b H)]. } destruct b; cbn in *; congruence.
Qed.
Lemma sq_nn d : V32 d = true -> d <> S754_nan -> nn (smul d d).
Proof.
  intros V N. unfold smul. pose proof (mul_equiv 24 128 (lift 24 128 d V) (lift 24 128 d V)) as Q. rewrite lift_sf in Q. destruct d as [s|s| |s m e]; try congruence; try (cbn; destruct s; split; reflexivity).
  rewrite Q. pose proof (Bmult_correct 24 128 _ _ mode_NE (lift 24 128 _ V) (lift 24 128 _ V)) as H. set (b := Bmult mode_NE _ _) in *. rewrite xorb_nilpotent in H. destruct (Rlt_bool _ _).
  - destruct H as (_ & F & S). rewrite !lift_fin in F. cbn [fin is_finite_SF andb] in F. apply b_nn; [apply fin_notnan, F|apply S, fin_notnan, F].
  - destruct (ovf_notnan _ b H) as [A B]. apply b_nn; assumption.
Qed.
Lemma add_nn x y : nn x -> nn y -> nn (sadd x y).
Proof.
  intros [VX SX] [VY SY]. destruct x as [s|s| |s m e]; try contradiction; subst s; [| |].
  - destruct y as [s|s| |s m e]; try contradiction; subst s; split; try exact VY; reflexivity.
  - destruct y as [s|s| |s m e]; try contradiction; subst s; split; reflexivity.
  - destruct y as [s|s| |s m' e']; try contradiction; subst s; [split; [exact VX|reflexivity]|split; reflexivity|].
    unfold sadd. pose proof (add_equiv 24 128 (lift 24 128 _ VX) (lift 24 128 _ VY)) as Q. rewrite !lift_sf in Q. rewrite Q. pose proof (Bplus_correct 24 128 _ _ mode_NE (lift 24 128 _ VX) (lift 24 128 _ VY) eq_refl eq_refl) as H. set (b := Bplus mode_NE _ _) in *. rewrite !lift_R in H. destruct (Rlt_bool _ _).
    + destruct H as (_ & F & S). apply b_nn; [apply fin_notnan, F|]. assert (P : 0 < R (S754_finite false m e) + R (S754_finite false m' e')). { assert (forall k j, 0 < R (S754_finite false k j)) by (intros; apply F2R_gt_0; reflexivity). pose proof (H m e). pose proof (H m' e'). lra. } rewrite (Rcompare_Gt _ _ P) in S. exact S.
    + destruct H as [H _]. destruct (ovf_notnan _ b H) as [A B]. apply b_nn; [exact A|]. rewrite B. reflexivity.
Qed.
Lemma sqrt_nn x : nn x -> nn (SFsqrt 24 128 x).
Proof.
  intros [V S]. pose proof (sqrt_equiv 24 128 _ _ (lift 24 128 x V)) as E. rewrite lift_sf in E. rewrite E. pose proof (Bsqrt_correct 24 128 _ _ mode_NE (lift 24 128 x V)) as (_ & F & G).
  destruct x as [s|s| |s m e]; try contradiction; subst s; [split; reflexivity|split; reflexivity|]. cbn [lift SF2B] in F. apply fin_notnan in F. apply b_nn; [exact F|]. exact (G F).
Qed.
Lemma sum_nn l : Forall (fun p => is_float (fst p) /\ is_float (snd p)) l -> forall acc, nn acc -> nn (fold_left add_sq l acc).
Proof.
  induction 1 as [|p l [X Y] _ IH]; intros acc A; [exact A|]. cbn [fold_left]. apply IH. unfold add_sq. apply add_nn; [exact A|]. destruct (sub_num _ _ X Y). apply sq_nn; assumption.
Qed.
Lemma pairs a b : floats a -> floats b -> Forall (fun p => is_float (fst p) /\ is_float (snd p)) (combine a b).
Proof.
  intros A. revert b. induction A as [|x a X A IH]; intros b B; [constructor|]. destruct B as [|y b Y B]; [constructor|]. constructor; [split; assumption|apply IH, B].
Qed.
Lemma one_R : R (sofZ 1) = 1. Proof. replace (sofZ 1) with (S754_finite false 8388608 (-23)) by (vm_compute; reflexivity). unfold R, SF2R, F2R. cbn. lra. Qed.
Definition in_unit (r : sf) : Prop := V32 r = true /\ fle (S754_zero false) r = true /\ fle r (sofZ 1) = true.
Lemma quot_unit x : nn x -> in_unit (sdiv (sofZ 1) (sadd (sofZ 1) x)).
Proof.
  intros [V S].
  assert (Y : sadd (sofZ 1) x = S754_infinity false \/ (V32 (sadd (sofZ 1) x) = true /\ fin (sadd (sofZ 1) x) = true /\ 1 <= R (sadd (sofZ 1) x))).
  { assert (FX : x = S754_infinity false \/ fin x = true) by (destruct x as [s|s| |s m e]; try contradiction; subst; auto). destruct FX as [->|FX]; [left; reflexivity|].
    assert (PX : 0 <= R x) by (destruct x as [s|s| |s m e]; try contradiction; subst s; [apply Rle_refl|discriminate FX|apply F2R_ge_0; cbn; lia]).
    assert (VO : V32 (sofZ 1) = true) by (vm_compute; reflexivity). assert (FO : fin (sofZ 1) = true) by (vm_compute; reflexivity). pose proof one_R as OR.
    unfold sadd. pose proof (add_equiv 24 128 (lift 24 128 _ VO) (lift 24 128 _ V)) as Q. rewrite !lift_sf in Q. rewrite Q. pose proof (Bplus_correct 24 128 _ _ mode_NE (lift 24 128 _ VO) (lift 24 128 _ V)) as H. rewrite !lift_fin, !lift_R in H. specialize (H FO FX). set (b := Bplus mode_NE _ _) in *. destruct (Rlt_bool _ _).
    - right. destruct H as (A & F & _). split; [apply b_valid|]. split; [unfold fin; rewrite is_finite_SF_B2SF; exact F|]. unfold R at 1. rewrite SF2R_B2SF, A. apply Rle_trans with (rnd 24 128 (R (sofZ 1))); [rewrite (rnd_R 24 128 _ VO), OR; lra|apply (rnd_le 24 128); lra].
    - left. destruct H as [H _]. rewrite H. unfold lift. rewrite Bsign_SF2B. vm_compute. reflexivity. }
  assert (VO : V32 (sofZ 1) = true) by (vm_compute; reflexivity). assert (FO : fin (sofZ 1) = true) by (vm_compute; reflexivity). pose proof one_R as OR.
  destruct Y as [->|(VY & FY & GE)]; [split; [|split]; vm_compute; reflexivity|]. set (y := sadd (sofZ 1) x) in *. clearbody y.
  assert (B : 0 <= rnd 24 128 (R (sofZ 1) / R y) <= 1). { rewrite OR. assert (0 <= 1 / R y <= 1) as [A1 A2]. { unfold Rdiv. rewrite Rmult_1_l. split; [apply Rlt_le, Rinv_0_lt_compat; lra|]. rewrite <- Rinv_1. apply Rinv_le_contravar; lra. } split.
    - apply Rle_trans with (rnd 24 128 (R (S754_zero false))); [rewrite (rnd_R 24 128 (S754_zero false) eq_refl); apply Rle_refl|apply (rnd_le 24 128); exact A1].
    - apply Rle_trans with (rnd 24 128 (R (sofZ 1))); [apply (rnd_le 24 128); lra|]. rewrite (rnd_R 24 128 _ VO), OR. lra. }
  destruct (div_R 24 128 (sofZ 1) y VO VY FO) as (A & F & V2); [lra| |]. { rewrite Rabs_pos_eq by apply B. apply Rle_lt_trans with 1; [apply B|]. change 1 with (bpow radix2 0). apply bpow_lt. lia. }
  fold (sdiv (sofZ 1) y) in *. split; [exact V2|]. split.
  - apply (leb_R 24 128); [reflexivity|exact V2|reflexivity|exact F|]. rewrite A. change (R (S754_zero false)) with 0. apply B.
  - apply (leb_R 24 128); [exact V2|exact VO|exact F|exact FO|]. rewrite A. apply Rle_trans with 1; [apply B|rewrite OR; apply Rle_refl].
Qed.

(** ** symmetry *)
Lemma bra_opp s m e l : SpecFloat.binary_round_aux 24 128 (negb s) m e l = SFopp (SpecFloat.binary_round_aux 24 128 s m e l).
Proof. unfold SpecFloat.binary_round_aux. destruct (SpecFloat.shr_fexp 24 128 m e l) as [r1 e1]. destruct (SpecFloat.shr_fexp _ _ _ _ _) as [r2 e2]. destruct (SpecFloat.shr_m r2); try reflexivity. destruct (Z.leb e2 _); reflexivity. Qed.
Lemma br_opp m e : SpecFloat.binary_round 24 128 true m e = SFopp (SpecFloat.binary_round 24 128 false m e).
Proof. unfold SpecFloat.binary_round. destruct (SpecFloat.shl_align _ _ _) as [mz ez]. apply (bra_opp false). Qed.
Lemma sq_opp d : smul (SFopp d) (SFopp d) = smul d d. Proof. destruct d as [s|s| |s m e]; try reflexivity; destruct s; reflexivity. Qed.
Lemma sq_norm m e : smul (SpecFloat.binary_normalize 24 128 (- m) e false) (SpecFloat.binary_normalize 24 128 (- m) e false) = smul (SpecFloat.binary_normalize 24 128 m e false) (SpecFloat.binary_normalize 24 128 m e false).
Proof. destruct m as [|p|p]; [reflexivity| |]; cbn [Z.opp SpecFloat.binary_normalize]; rewrite br_opp; [apply sq_opp|symmetry; apply sq_opp]. Qed.
Lemma sq_sub x y : smul (ssub y x) (ssub y x) = smul (ssub x y) (ssub x y).
Proof.
  destruct x as [s|s| |s m e], y as [t|t| |t m' e']; try reflexivity; try (destruct s, t; reflexivity); try (destruct s; reflexivity); try (destruct t; reflexivity).
  unfold ssub, SFsub. rewrite (Z.min_comm e' e). set (A := cond_Zopp s _). set (B := cond_Zopp t _). replace (B - A)%Z with (- (A - B))%Z by lia. apply sq_norm.
Qed.
Lemma sum_sym a : forall b acc, fold_left add_sq (combine a b) acc = fold_left add_sq (combine b a) acc.
Proof. induction a as [|x a IH]; intros [|y b] acc; try reflexivity. cbn [combine fold_left]. rewrite IH. unfold add_sq at 2 4. cbn [fst snd]. rewrite sq_sub. reflexivity. Qed.

(** ** C476 *)
Theorem C476_range_and_symmetry : forall a b, floats a -> floats b -> in_unit (vsimilarity a b) /\ vsimilarity b a = vsimilarity a b /\ (length a <> length b -> vsimilarity a b = S754_zero false).
Proof.
  intros a b A B. split; [|split].
  - unfold vsimilarity. destruct (_ || _)%bool; [split; [|split]; vm_compute; reflexivity|]. apply quot_unit, sqrt_nn, sum_nn; [apply pairs; assumption|split; reflexivity].
  - unfold vsimilarity. rewrite (Nat.eqb_sym (length b) (length a)). destruct (length a =? length b)%nat eqn:L; [|reflexivity]. apply Nat.eqb_eq in L. rewrite <- L, (sum_sym b a). reflexivity.
  - intros N. apply Nat.eqb_neq in N. unfold vsimilarity. rewrite N. reflexivity.
Qed.
Example C476_nonvacuous : floats [sofZ 1; sofZ 2] /\ floats [sofZ 4; sofZ 6] /\ vsimilarity [sofZ 1; sofZ 2] [sofZ 4; sofZ 6] = sdiv (sofZ 1) (sofZ 6).
Proof. split; [|split; [|vm_compute; reflexivity]]; repeat constructor; try (vm_compute; reflexivity); vm_compute; discriminate. Qed.

(** ** C477 *)
Lemma self_zero x : is_float x -> smul (ssub x x) (ssub x x) = S754_zero false.
Proof. intros X. destruct (float_fin x X) as [V F]. destruct x as [s|s| |s m e]; try discriminate F; [destruct s; reflexivity|]. unfold ssub, SFsub. rewrite Z.sub_diag. reflexivity. Qed.
Lemma self_sum a : floats a -> fold_left add_sq (combine a a) (S754_zero false) = S754_zero false.
Proof. induction 1 as [|x a X A IH]; [reflexivity|]. cbn [combine fold_left]. unfold add_sq at 2. cbn [fst snd]. rewrite (self_zero x X). exact IH. Qed.
(** 1 is also the answer for vectors that differ; with an infinity a vector is not even similar to itself *)
Theorem C477_one_means_equal_refuted :
  (exists a b, floats a /\ floats b /\ a <> b /\ vsimilarity a b = sofZ 1) /\ (exists a, a <> [] /\ Forall (fun x => V32 x = true /\ x <> S754_nan) a /\ vsimilarity a a = S754_nan).
Proof.
  split.
  - exists [S754_zero false], [S754_finite false 8388608 (-50)]. split; [|split; [|split]]; [repeat constructor; discriminate|repeat constructor; discriminate|discriminate|vm_compute; reflexivity].
  - exists [S754_infinity false]. split; [discriminate|]. split; [repeat constructor; discriminate|vm_compute; reflexivity].
Qed.
Theorem C477_equal_means_one_partial : forall a, floats a -> a <> [] -> vsimilarity a a = sofZ 1.
Proof. intros a A N. unfold vsimilarity. rewrite Nat.eqb_refl. destruct a as [|x r]; [congruence|]. cbn [length Nat.eqb negb orb]. rewrite (self_sum _ A). vm_compute. reflexivity. Qed.
Example C477_nonvacuous : floats [sofZ 1; S754_zero true] /\ vsimilarity [sofZ 1; S754_zero true] [sofZ 1; S754_zero true] = sofZ 1.
Proof. split; [|vm_compute; reflexivity]. repeat constructor; try (vm_compute; reflexivity); vm_compute; discriminate. Qed.

Print Assumptions C476_range_and_symmetry.
Print Assumptions C477_one_means_equal_refuted.
Print Assumptions C477_equal_means_one_partial.
