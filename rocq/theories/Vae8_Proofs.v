(** Ranges: log-variances, decoded values, protected latent values, interpolation end points, the training split. *)
From Coq Require Import List NArith ZArith Bool Arith Lia SpecFloat Reals Lra Permutation.
Import ListNotations.
From Flocq Require Import Core Relative Mult_error.
From Flocq.IEEE754 Require Import BinarySingleNaN.
From Verif Require Import Outcome Words Arith Floats FloatsR HealthFloat FloatsS Bits_Model BitsFloat_Proofs MBP_Model MBP6_Proofs Train5_Proofs PNN_Model PNN_Spec PNN2_Proofs PNN7_Proofs Vae_Model Vae_Spec Vae_Proofs Vae2_Proofs Vae4_Proofs Vae7_Proofs.
Local Open Scope R_scope.

(** ** constants *)
Lemma c_one : oks (sf32 f_one) /\ R (sf32 f_one) = 1.
Proof. split; [split; reflexivity|]. vm_compute (sf32 f_one). unfold R, SF2R, F2R. cbn [Fnum Fexp]. change (bpow radix2 (-23)) with (/ 8388608). simpl cond_Zopp. lra. Qed.
Lemma c_two : oks (sf32 f_two) /\ R (sf32 f_two) = 2.
Proof. split; [split; reflexivity|]. vm_compute (sf32 f_two). unfold R, SF2R, F2R. cbn [Fnum Fexp]. change (bpow radix2 (-22)) with (/ 4194304). simpl cond_Zopp. lra. Qed.
Lemma c_ten : oks (sf32 f_ten) /\ R (sf32 f_ten) = 10.
Proof. split; [split; reflexivity|]. vm_compute (sf32 f_ten). unfold R, SF2R, F2R. cbn [Fnum Fexp]. change (bpow radix2 (-20)) with (/ 1048576). simpl cond_Zopp. lra. Qed.
Lemma c_mten : oks (sf32 f_mten) /\ R (sf32 f_mten) = -10.
Proof. split; [split; reflexivity|]. vm_compute (sf32 f_mten). unfold R, SF2R, F2R. cbn [Fnum Fexp]. change (bpow radix2 (-20)) with (/ 1048576). simpl cond_Zopp. lra. Qed.
Lemma sf_cases x : V32 x = true -> x = S754_nan \/ (exists s, x = S754_infinity s) \/ oks x.
Proof. intros V. destruct x; [right; right; split; [exact V|reflexivity]|right; left; eauto|left; reflexivity|right; right; split; [exact V|reflexivity]]. Qed.

(** ** the clamp of the log-variance *)
Lemma clamp_range x : between (-10) 10 (clamp_log_var x).
Proof.
  destruct c_ten as [O1 R1], c_mten as [O2 R2]. unfold clamp_log_var, f32max, f32min, f32lt, between.
  destruct (flt (sf32 x) (sf32 f_ten)) eqn:A.
  - destruct (flt (sf32 f_mten) (sf32 x)) eqn:B; [|split; [exact O2|lra]].
    destruct (sf_cases (sf32 x) (sf32_V x)) as [E|[[s E]|O]].
    + rewrite E in A. discriminate A.
    + rewrite E in A, B. destruct s; discriminate.
    + apply flt_s in A; [|exact O|exact O1]. apply flt_s in B; [|exact O2|exact O]. split; [exact O|lra].
  - destruct (flt (sf32 f_mten) (sf32 f_ten)) eqn:B; split; try assumption; lra.
Qed.

(** ** the logistic function and what decode makes of it *)
Lemma add_cases x y : oks x -> oks y -> 0 <= R x -> 0 <= R y ->
  sadd x y = S754_infinity false \/ (oks (sadd x y) /\ R (sadd x y) = rnd32 (R x + R y)).
Proof.
  intros [Vx Fx] [Vy Fy] Px Py.
  pose proof (Bplus_correct 24 128 _ _ mode_NE (lift 24 128 x Vx) (lift 24 128 y Vy)) as H. rewrite !lift_fin, !lift_R in H. specialize (H Fx Fy).
  pose proof (add_equiv 24 128 (lift 24 128 x Vx) (lift 24 128 y Vy)) as E. rewrite !lift_sf in E. unfold sadd. rewrite E.
  destruct (Rlt_bool _ _) eqn:L.
  - right. destruct H as (H1 & H2 & _). unfold oks, R, fin. rewrite SF2R_B2SF, is_finite_SF_B2SF. split; [split; [apply valid_binary_B2SF|exact H2]|exact H1].
  - left. destruct H as [H S]. rewrite H. unfold binary_overflow. cbn.
    assert (Sg : Bsign (lift 24 128 x Vx) = false); [|rewrite Sg; reflexivity].
    apply Bool.not_true_is_false. intros T. assert (T' : Bsign (lift 24 128 y Vy) = true) by congruence.
    assert (Nx : R x <= 0 /\ R y <= 0).
    { split.
      - rewrite <- (lift_R 24 128 x Vx). destruct (lift 24 128 x Vx) as [|[]| |[] m e B]; cbn in T |- *; try discriminate; try lra. unfold F2R. cbn. pose proof (bpow_gt_0 radix2 e). assert (IZR (Z.neg m) < 0) by (apply IZR_lt; lia). nra.
      - rewrite <- (lift_R 24 128 y Vy). destruct (lift 24 128 y Vy) as [|[]| |[] m e B]; cbn in T' |- *; try discriminate; try lra. unfold F2R. cbn. pose proof (bpow_gt_0 radix2 e). assert (IZR (Z.neg m) < 0) by (apply IZR_lt; lia). nra. }
    assert (R x + R y = 0) as Z by lra. rewrite Z in L. rewrite round_0 in L; [|auto with typeclass_instances]. rewrite Rabs_R0 in L. rewrite Rlt_bool_true in L; [discriminate|apply bpow_gt_0].
Qed.
Lemma logistic_pos e : e = S754_infinity false \/ (oks e /\ 0 <= R e) -> oks (sdiv (sf32 f_one) (sadd (sf32 f_one) e)) /\ 0 <= R (sdiv (sf32 f_one) (sadd (sf32 f_one) e)) <= 1.
Proof.
  destruct c_one as [O1 R1]. intros [->|[Oe Pe]].
  - replace (sdiv (sf32 f_one) (sadd (sf32 f_one) (S754_infinity false))) with (S754_zero false) by (vm_compute; reflexivity). split; [split; reflexivity|]. cbn. lra.
  - destruct (add_cases (sf32 f_one) e O1 Oe ltac:(lra) Pe) as [->|[Oa Ra]].
    + replace (sdiv (sf32 f_one) (S754_infinity false)) with (S754_zero false) by (vm_compute; reflexivity). split; [split; reflexivity|]. cbn. lra.
    + assert (G : 1 <= R (sadd (sf32 f_one) e)). { rewrite Ra. rewrite <- R1 at 1. apply rnd32_ge; [exact O1|lra]. }
      assert (B : 0 <= 1 / R (sadd (sf32 f_one) e) <= 1).
      { split; [apply Rlt_le, Rdiv_lt_0_compat; lra|]. apply Rmult_le_reg_r with (R (sadd (sf32 f_one) e)); [lra|]. unfold Rdiv. rewrite Rmult_assoc, Rinv_l; lra. }
      destruct (div_s (sf32 f_one) (sadd (sf32 f_one) e) O1 Oa) as [Od Rd]; [lra|apply mids_small; rewrite R1; lra|].
      split; [exact Od|]. rewrite Rd, R1. split.
      * change 0 with (R (S754_zero false)) at 1. apply rnd32_ge; [split; reflexivity|cbn; lra].
      * rewrite <- R1 at 2. apply rnd32_le; [exact O1|lra].
Qed.
Lemma sigmoid_range expf x : exp_ok expf -> is_nan32 (sigmoid expf x) \/ between 0 1 (sigmoid expf x).
Proof.
  intros H. unfold sigmoid, is_nan32, between. rewrite sf32_div, sf32_add, (sf32_lib _ _ (exp_float _ H)), sf32_neg.
  assert (Vx : V32 (SFopp (sf32 x)) = true) by (generalize (sf32_V x); destruct (sf32 x); auto).
  destruct (sf_cases _ Vx) as [E|E].
  - left. rewrite E, (exp_nan _ H). vm_compute. reflexivity.
  - right. apply logistic_pos. apply (exp_pos _ H); [exact Vx|]. intros C. rewrite C in E. destruct E as [[s E]|[_ E]]; discriminate.
Qed.
Lemma c_175 : oks (S754_finite false 14680064 (-23)) /\ R (S754_finite false 14680064 (-23)) = 175 / 100.
Proof. split; [split; reflexivity|]. unfold R, SF2R, F2R. cbn [Fnum Fexp]. change (bpow radix2 (-23)) with (/ 8388608). simpl cond_Zopp. lra. Qed.
Lemma inverse_range expf a : exp_ok expf -> is_nan32 a \/ between 0 1 a ->
  let y := (let e := f32sub (lib expf (f32abs a)) f_one in if f32ge0 a then e else f32neg e) in is_nan32 y \/ between 0 (175 / 100) y.
Proof.
  intros H. unfold is_nan32, between, f32ge0. destruct c_one as [O1 R1]. intros [E|[O [L U]]]; cbn zeta.
  - left. rewrite E. cbn [fge fle SFleb SFcompare]. change (fge S754_nan (S754_zero false)) with false. cbv iota. rewrite sf32_neg, sf32_sub, (sf32_lib _ _ (exp_float _ H)), sf32_abs, E. cbn [SFabs]. rewrite (exp_nan _ H). reflexivity.
  - right. assert (G : fge (sf32 a) (S754_zero false) = true). { unfold fge. apply (fle_s (S754_zero false) (sf32 a)); [split; reflexivity|exact O|cbn; exact L]. }
    rewrite G. rewrite sf32_sub, (sf32_lib _ _ (exp_float _ H)), sf32_abs.
    destruct (exp_unit _ H (SFabs (sf32 a))) as [Oe Re]; [apply ok_abs, O|rewrite R_abs, Rabs_pos_eq; lra|].
    destruct (sub_s _ _ Oe O1) as [Os Rs]; [apply mids_small; rewrite R1; lra|]. split; [exact Os|]. rewrite Rs, R1. split.
    + change 0 with (R (S754_zero false)) at 1. apply rnd32_ge; [split; reflexivity|cbn; lra].
    + rewrite <- (proj2 c_175). apply rnd32_le; [exact (proj1 c_175)|rewrite (proj2 c_175); lra].
Qed.
(** the outputs of a network whose last activation function is o are values of o *)
Lemma network_last o h ps : forall k x, length ps = S k -> Forall (fun y => exists u, y = o u) (network ps (repeat h k ++ [o]) x).
Proof.
  induction ps as [|[w b] ps IH]; intros k x L; [discriminate|]. destruct k as [|k].
  - destruct ps; [|discriminate]. cbn [repeat app network]. unfold dense. apply Forall_forall. intros y Hy. apply in_map_iff in Hy. destruct Hy as (j & <- & _). eexists. reflexivity.
  - cbn [repeat app network]. apply IH. cbn in L. lia.
Qed.
Lemma params_length s : PNN_Proofs.Inv s -> length (params s) = (length (sizes s) - 1)%nat.
Proof. intros H. unfold params. rewrite combine_length, !map_length, (PNN_Proofs.inv_w _ H), (PNN_Proofs.inv_b _ H). lia. Qed.
Lemma decoded_range expf tanhf v z : exp_ok expf -> VInv expf tanhf v -> Forall (fun y => is_nan32 y \/ between 0 (175 / 100) y) (decoded expf v z).
Proof.
  intros H I. pose proof (v_dec _ _ _ I) as D. pose proof (params_length _ (n_inv _ _ _ _ _ D)) as L. rewrite (n_sizes _ _ _ _ _ D) in L.
  unfold decoded, applyInverseLogarithmics. rewrite (n_acts _ _ _ _ _ D). apply Forall_map.
  assert (L' : length (params (dec v)) = S (length (dec_sizes v) - 2)). { rewrite L. unfold dec_sizes. cbn [length]. rewrite app_length. cbn. lia. }
  eapply Forall_impl; [|apply (network_last (sigmoid expf) leaky _ _ z L')]. intros a (u & ->). cbv beta. apply (inverse_range expf _ H). apply sigmoid_range, H.
Qed.

(** ** latent protection *)
Lemma same_sf x y : oks x -> oks y -> R x = R y -> R x <> 0 -> x = y.
Proof.
  intros [Vx Fx] [Vy Fy] E Nz. rewrite <- (lift_sf 24 128 x Vx), <- (lift_sf 24 128 y Vy). f_equal. apply B2R_inj.
  - destruct x as [s|s| |s m e]; try discriminate; [elim Nz; reflexivity|]. reflexivity.
  - destruct y as [s|s| |s m e]; try discriminate; [elim Nz; rewrite E; reflexivity|]. reflexivity.
  - rewrite !lift_R. exact E.
Qed.
Lemma twice_exact x : oks x -> Rabs (R x) < bpow radix2 127 -> sdiv (sadd x x) (sf32 f_two) = x.
Proof.
  intros [V F] B. destruct c_two as [O2 R2].
  assert (Fm : generic_format radix2 (SpecFloat.fexp 24 128) (R x)). { rewrite <- (rnd_R 24 128 x V). apply generic_format_round; [apply fexp_correct; reflexivity|auto with typeclass_instances]. }
  assert (Rt : rnd32 (R x + R x) = R x + R x).
  { apply round_generic; [auto with typeclass_instances|]. replace (R x + R x) with (R x * bpow radix2 1) by (change (bpow radix2 1) with 2; lra).
    change (SpecFloat.fexp 24 128) with (FLT_exp (-149) 24) in *. apply mult_bpow_pos_exact_FLT; [exact Fm|lia]. }
  destruct (Req_dec (R x) 0) as [Z|Nz].
  - destruct x as [s|s| |s m e]; try discriminate; [destruct s; vm_compute; reflexivity|]. exfalso. unfold R, SF2R in Z. apply eq_0_F2R in Z. destruct s; discriminate Z.
  - destruct (add_R 24 128 x x V V F F) as (A & A' & A'').
    { rewrite Rt. replace (R x + R x) with (R x * 2) by lra. rewrite Rabs_mult, (Rabs_pos_eq 2) by lra. change (bpow radix2 128) with (bpow radix2 (127 + 1)). rewrite bpow_plus. change (bpow radix2 1) with 2. lra. }
    rewrite Rt in A. assert (E : R (SFadd 24 128 x x) / R (sf32 f_two) = R x) by (rewrite A, R2; field).
    destruct (div_R 24 128 (SFadd 24 128 x x) (sf32 f_two) A'' (proj1 O2) A' ltac:(lra)) as (D & D' & D'').
    { rewrite E, (rnd_R 24 128 x V). apply Rlt_le_trans with (1 := B). apply bpow_le. lia. }
    rewrite E, (rnd_R 24 128 x V) in D. unfold sdiv, sadd. symmetry. apply same_sf; [split; assumption|split; assumption|symmetry; exact D|exact Nz].
Qed.
Lemma sub_self x : oks x -> exists s, ssub x x = S754_zero s.
Proof.
  intros [V F]. destruct (sub_R 24 128 x x V V F F) as (A & A' & A'').
  - replace (R x - R x) with 0 by lra. unfold rnd; rewrite round_0; [rewrite Rabs_R0; apply bpow_gt_0|auto with typeclass_instances].
  - replace (R x - R x) with 0 in A by lra. unfold rnd in A. rewrite round_0 in A; [|auto with typeclass_instances]. unfold ssub. destruct (SFsub 24 128 x x) as [s|s| |s m e]; try discriminate; [eauto|]. unfold R, SF2R in A. apply eq_0_F2R in A. destruct s; discriminate A.
Qed.
Lemma protect_calm a rad n1 n2 n3 : fgt rad (dlit 5 10) = false -> finite32 a -> Rabs (R (sf32 a)) < bpow radix2 127 ->
  sf32 (fst (protect_one a rad n1 n2 n3)) = sf32 a /\ snd (protect_one a rad n1 n2 n3) = false.
Proof.
  intros G O B. destruct (sub_self _ O) as [s Es]. unfold protect_one. rewrite G.
  assert (L : f32lt (f32abs (f32sub a a)) (f32abs (f32sub a a)) = false) by (unfold f32lt; rewrite sf32_abs, sf32_sub, Es; reflexivity).
  rewrite L. cbn [fst snd]. assert (E : sf32 (f32div (f32add a a) f_two) = sf32 a) by (rewrite sf32_div, sf32_add; exact (twice_exact _ O B)).
  split; [exact E|]. unfold f32lt. rewrite sf32_abs, sf32_sub, E, Es. vm_compute. reflexivity.
Qed.

(** ** interpolation end points *)
Lemma bounded32 x : oks x -> Rabs (R x) < bpow radix2 128.
Proof. intros [V F]. rewrite <- (lift_R 24 128 x V). apply abs_B2R_lt_emax. Qed.
Lemma add_zero x s : oks x -> x <> S754_zero true -> sadd x (S754_zero s) = x /\ sadd (S754_zero s) x = x.
Proof. intros [V F] Nz. destruct x as [[]|[]| |[] m e]; try discriminate; try (elim Nz; reflexivity); destruct s; split; reflexivity. Qed.
Lemma mul_one x : oks x -> smul (sf32 f_one) x = x.
Proof.
  intros [V F]. destruct c_one as [O1 R1]. destruct (Req_dec (R x) 0) as [Z|Nz].
  - destruct x as [s|s| |s m e]; try discriminate; [destruct s; vm_compute; reflexivity|]. exfalso. unfold R, SF2R in Z. apply eq_0_F2R in Z. destruct s; discriminate Z.
  - destruct (mul_R 24 128 (sf32 f_one) x (proj1 O1) V (proj2 O1) F) as (A & A' & A'').
    { rewrite R1, Rmult_1_l, (rnd_R 24 128 x V). apply bounded32. split; assumption. }
    rewrite R1, Rmult_1_l, (rnd_R 24 128 x V) in A. unfold smul. symmetry. apply same_sf; [split; assumption|split; assumption|symmetry; exact A|exact Nz].
Qed.
Lemma mul_zero x : oks x -> exists s, smul (S754_zero false) x = S754_zero s.
Proof. intros [V F]. destruct x as [s|s| |s m e]; try discriminate; exists s; destruct s; reflexivity. Qed.
Lemma blend_0 a b : finite32 a -> finite32 b -> sf32 a <> S754_zero true -> sf32 (blend 0 a b) = sf32 a.
Proof.
  intros Oa Ob Nz. unfold blend. rewrite sf32_add, !sf32_mul, sf32_sub. change (sf32 0) with (S754_zero false).
  replace (ssub (sf32 f_one) (S754_zero false)) with (sf32 f_one) by (vm_compute; reflexivity). rewrite (mul_one _ Oa). destruct (mul_zero _ Ob) as [s ->]. apply add_zero; assumption.
Qed.
Lemma blend_1 a b : finite32 a -> finite32 b -> sf32 b <> S754_zero true -> sf32 (blend f_one a b) = sf32 b.
Proof.
  intros Oa Ob Nz. unfold blend. rewrite sf32_add, !sf32_mul, sf32_sub.
  replace (ssub (sf32 f_one) (sf32 f_one)) with (S754_zero false) by (vm_compute; reflexivity). rewrite (mul_one _ Ob). destruct (mul_zero _ Oa) as [s ->]. apply add_zero; assumption.
Qed.

(** ** the split *)
Lemma rnd32_near x : 0 <= x -> x * (1 - / 16777216) - / 1099511627776 <= rnd32 x <= x * (1 + / 16777216) + / 1099511627776.
Proof.
  intros P. destruct (Rle_or_lt (bpow radix2 (-126)) x) as [G|L].
  - pose proof (relative_error_N_FLT radix2 (-149) 24 ltac:(reflexivity) (fun z => negb (Z.even z)) x) as E. rewrite (Rabs_pos_eq x) in E by lra.
    assert (E' : Rabs (rnd32 x - x) <= / 2 * bpow radix2 (-24 + 1) * x) by (apply E; exact G).
    replace (/ 2 * bpow radix2 (-24 + 1)) with (/ 16777216) in E'. 2:{ change (bpow radix2 (-24 + 1)) with (/ 8388608). lra. }
    apply Rabs_le_inv in E'. lra.
  - assert (Q : 0 <= rnd32 x <= / 1099511627776).
    { split.
      - rewrite <- (round_0 radix2 (SpecFloat.fexp 24 128) ZnearestE). apply (rnd_le 24 128). exact P.
      - assert (C : oks (S754_finite false 8388608 (-63)) /\ R (S754_finite false 8388608 (-63)) = / 1099511627776).
        { split; [split; reflexivity|]. unfold R, SF2R, F2R. cbn [Fnum Fexp]. change (bpow radix2 (-63)) with (/ 9223372036854775808). simpl cond_Zopp. lra. }
        rewrite <- (proj2 C). apply rnd32_le; [exact (proj1 C)|]. rewrite (proj2 C). apply Rlt_le, Rlt_le_trans with (1 := L). change (/ 1099511627776) with (bpow radix2 (-40)). apply bpow_le. lia. }
    assert (x <= / 1099511627776). { apply Rlt_le, Rlt_le_trans with (1 := L). change (/ 1099511627776) with (bpow radix2 (-40)). apply bpow_le. lia. }
    lra.
Qed.
Lemma ofN_exact n : (n <= 2 ^ 24)%N -> oks (sf32 (f32ofN n)) /\ R (sf32 (f32ofN n)) = IZR (Z.of_N n).
Proof.
  intros H. rewrite sf32_ofN by lia. destruct (ofZ_s (Z.of_N n)) as [O E]; [change (2 ^ 24)%N with 16777216%N in H; lia|]. split; [exact O|]. rewrite E.
  apply round_generic; [auto with typeclass_instances|]. destruct (N.eq_dec n (2 ^ 24)) as [->|Ne].
  - change (Z.of_N (2 ^ 24)) with (2 ^ 24)%Z. replace (IZR (2 ^ 24)) with (bpow radix2 24) by reflexivity. apply generic_format_bpow. vm_compute. discriminate.
  - change (SpecFloat.fexp 24 128) with (FLT_exp (-149) 24). apply generic_format_FLT. exists (Float radix2 (Z.of_N n) 0); [unfold F2R; cbn; lra|cbn [Fnum]|cbn; lia]. change (2 ^ 24)%N with 16777216%N in *. change (radix2 ^ 24)%Z with 16777216%Z. lia.
Qed.
Lemma split_count n s : (n <= 2 ^ 24)%N -> between 0 1 s ->
  exists k, to_size (sf32 (f32mul (f32ofN n) (f32sub f_one s))) = Ret k /\ (k <= n)%N /\ Rabs (IZR (Z.of_N k) - IZR (Z.of_N n) * (1 - R (sf32 s))) <= 4.
Proof.
  intros Hn [Os [L U]]. destruct (ofN_exact n Hn) as [On Rn]. destruct c_one as [O1 R1].
  assert (Nn : 0 <= IZR (Z.of_N n) <= 16777216). { change (2 ^ 24)%N with 16777216%N in Hn. split; [apply IZR_le; lia|apply (IZR_le _ 16777216); lia]. }
  rewrite sf32_mul, sf32_sub. destruct (sub_s _ _ O1 Os) as [Od Rd]; [apply mids_small; lra|]. rewrite R1 in Rd.
  assert (D : 0 <= R (ssub (sf32 f_one) (sf32 s)) <= 1).
  { rewrite Rd. split; [change 0 with (R (S754_zero false)) at 1; apply rnd32_ge; [split; reflexivity|cbn; lra]|rewrite <- R1 at 2; apply rnd32_le; [exact O1|lra]]. }
  pose proof (rnd32_near (1 - R (sf32 s)) ltac:(lra)) as Ed. rewrite <- Rd in Ed. set (d := R (ssub (sf32 f_one) (sf32 s))) in *. set (t := R (sf32 s)) in *.
  assert (P : 0 <= R (sf32 (f32ofN n)) * d <= IZR (Z.of_N n)) by (rewrite Rn; nra).
  destruct (mul_s _ _ On Od) as [Om Rm]; [fold d; unfold mids; change (bpow radix2 100) with (IZR (2 ^ 100)); split; [apply Rle_trans with 0; [rewrite <- opp_IZR; apply (IZR_le _ 0); lia|lra]|apply Rle_trans with (IZR (Z.of_N n)); [lra|apply IZR_le; change (2 ^ 24)%N with 16777216%N in Hn; lia]]|].
  fold d in Rm. rewrite Rn in P, Rm. pose proof (rnd32_near _ (proj1 P)) as Em. rewrite <- Rm in Em.
  assert (M : 0 <= R (smul (sf32 (f32ofN n)) (ssub (sf32 f_one) (sf32 s))) <= IZR (Z.of_N n)).
  { rewrite Rm. split; [change 0 with (R (S754_zero false)) at 1; apply rnd32_ge; [split; reflexivity|cbn; lra]|rewrite <- Rn at 2; apply rnd32_le; [exact On|rewrite Rn; lra]]. }
  destruct (trunc_between _ _ (proj2 Om) M) as (z & Tz & Bz). exists (Z.to_N z). unfold to_size. rewrite Tz.
  change (2 ^ 24)%N with 16777216%N in Hn. rewrite (proj2 (Z.leb_le 0 z)), (proj2 (Z.ltb_lt z (2 ^ 64))) by lia. cbn [andb]. split; [reflexivity|]. split; [lia|].
  pose proof (trunc_floor _ _ (proj1 M) Tz) as Fz. rewrite Z2N.id by lia. pose proof (Zfloor_lb (R (smul (sf32 (f32ofN n)) (ssub (sf32 f_one) (sf32 s))))) as F1. pose proof (Zfloor_ub (R (smul (sf32 (f32ofN n)) (ssub (sf32 f_one) (sf32 s))))) as F2. rewrite <- Fz in F1, F2.
  set (m := R (smul (sf32 (f32ofN n)) (ssub (sf32 f_one) (sf32 s)))) in *. set (r := IZR (Z.of_N n)) in *. apply Rabs_le.
  assert (H1 : Rabs (d - (1 - t)) <= / 8388608) by (apply Rabs_le; lra). apply Rabs_le_inv in H1. nra.
Qed.
