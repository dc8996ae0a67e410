From Coq Require Import List NArith ZArith Bool Lia Reals Lra SpecFloat.
From Flocq Require Import Core.
From Flocq.IEEE754 Require Import BinarySingleNaN.
Import ListNotations.
From Verif Require Import Outcome Words Arith Floats FloatsR HealthFloat FloatsS Approx_Model Approx_Spec Approx_Proofs Bits_Model Bits_Spec Bits_Proofs.
Local Open Scope R_scope.

Lemma fmt64 z e : (Z.abs z < 2 ^ 53)%Z -> (-1074 <= e)%Z -> rnd64 (IZR z * bpow radix2 e) = IZR z * bpow radix2 e.
Proof.
  intros Hz He. apply round_generic; [apply valid_rnd_N|]. apply (generic_format_FLT radix2 (-1074) 53).
  exists (Float radix2 z e); [reflexivity|exact Hz|exact He].
Qed.
Lemma fmt32 z e : (Z.abs z < 2 ^ 24)%Z -> (-149 <= e)%Z -> rnd32 (IZR z * bpow radix2 e) = IZR z * bpow radix2 e.
Proof.
  intros Hz He. apply round_generic; [apply valid_rnd_N|]. apply (generic_format_FLT radix2 (-149) 24).
  exists (Float radix2 z e); [reflexivity|exact Hz|exact He].
Qed.
Lemma trunc_exact x z : fin x = true -> R x = IZR z -> trunc_sf x = Some z.
Proof.
  destruct x as [s|s| |s m e]; cbn [fin is_finite_SF]; intros F H; try discriminate.
  - cbn in H. cbn. f_equal. symmetry. apply eq_IZR. symmetry. exact H.
  - cbn [trunc_sf]. unfold R, SF2R, F2R in H. cbn [Fnum Fexp] in H. f_equal.
    assert (K : (0 <= e)%Z -> z = (cond_Zopp s (Z.pos m) * 2 ^ e)%Z).
    { intros He. apply eq_IZR. rewrite <- H, mult_IZR. f_equal. rewrite <- (IZR_Zpower radix2) by exact He. reflexivity. }
    assert (K2 : (e < 0)%Z -> (cond_Zopp s (Z.pos m) = z * 2 ^ (- e))%Z).
    { intros He. apply eq_IZR. rewrite mult_IZR, <- H. replace (IZR (2 ^ - e)) with (bpow radix2 (- e)) by (rewrite <- (IZR_Zpower radix2) by lia; reflexivity).
      rewrite Rmult_assoc, <- bpow_plus. replace (e + - e)%Z with 0%Z by lia. cbn [bpow]. lra. }
    destruct (Z.leb_spec 0 e) as [He|He].
    + rewrite (K He). destruct s; cbn [cond_Zopp]; lia.
    + specialize (K2 He). assert (P : (0 < 2 ^ (- e))%Z) by (apply Z.pow_pos_nonneg; lia).
      destruct s; cbn [cond_Zopp] in K2.
      * replace (Z.pos m) with ((- z) * 2 ^ (- e))%Z by lia. rewrite Z.div_mul by lia. lia.
      * rewrite K2, Z.div_mul by lia. reflexivity.
Qed.
Lemma scale_cases t F : small_type t -> (0 <= F < iw t)%Z ->
  exists s : bool, IZR (scale t F) = (if s then - bpow radix2 F else bpow radix2 F) /\ (Z.abs (scale t F) <= 2 ^ 32)%Z /\
    (s = true <-> isg t = true /\ F = (iw t - 1)%Z).
Proof.
  intros [Ht W] HF. assert (P : (0 < 2 ^ F <= 2 ^ (iw t - 1))%Z) by (split; [apply Z.pow_pos_nonneg; lia|apply Z.pow_le_mono_r; lia]).
  assert (Q : (2 ^ (iw t - 1) <= 2 ^ 31)%Z) by (apply Z.pow_le_mono_r; lia).
  destruct (isg t && (F =? iw t - 1)%Z) eqn:E.
  - apply andb_true_iff in E. destruct E as [E1 E2]. apply Z.eqb_eq in E2. exists true. subst F.
    assert (scale t (iw t - 1) = - 2 ^ (iw t - 1))%Z as -> by (types Ht; cbn in E1; try discriminate; reflexivity).
    split; [rewrite opp_IZR, <- (IZR_Zpower radix2) by lia; reflexivity|]. split; [lia|]. tauto.
  - exists false. assert (scale t F = 2 ^ F)%Z as ->.
    { unfold scale. apply icast_id. split; [exact Ht|]. destruct (isg t) eqn:S.
      - cbn [andb] in E. apply Z.eqb_neq in E. assert (2 ^ F < 2 ^ (iw t - 1))%Z by (apply Z.pow_lt_mono_r; lia). lia.
      - assert (2 ^ F < 2 ^ (iw t))%Z by (apply Z.pow_lt_mono_r; lia). lia. }
    split; [rewrite <- (IZR_Zpower radix2) by lia; reflexivity|]. split; [lia|]. split; [discriminate|].
    intros [S ->]. rewrite S, Z.eqb_refl in E. discriminate.
Qed.
Lemma ofZ_exact z : (Z.abs z <= 2 ^ 33)%Z -> okd (dofZ z) /\ R (dofZ z) = IZR z.
Proof.
  intros H. destruct (ofZ_d z) as [O E]; [lia|]. split; [exact O|]. rewrite E.
  replace (IZR z) with (IZR z * bpow radix2 0) by (cbn; lra). apply fmt64; lia.
Qed.
Lemma small_abs z : (Z.abs z <= 2 ^ 33)%Z -> Rabs (IZR z) <= 8589934592.
Proof. intros H. rewrite <- abs_IZR. apply IZR_le. exact H. Qed.
Lemma bpow_F F : (0 <= F < 32)%Z -> 1 <= bpow radix2 F <= 4294967296.
Proof.
  intros H. replace 1 with (bpow radix2 0) by reflexivity. replace 4294967296 with (bpow radix2 32) by reflexivity.
  split; apply bpow_le; lia.
Qed.
Lemma to_double_R t F v : small_type t -> (0 <= F < iw t)%Z -> in_range t v ->
  okd (to_double t F v) /\ R (to_double t F v) = IZR v / IZR (scale t F).
Proof.
  intros Ts HF Hv. destruct (scale_cases t F Ts HF) as (s & Es & As & _).
  assert (Av : (Z.abs v <= 2 ^ 32)%Z) by (destruct Ts as [Ht W]; pose proof (narrow _ _ Hv W); lia).
  destruct (ofZ_exact v) as [O1 E1]; [lia|]. destruct (ofZ_exact (scale t F)) as [O2 E2]; [lia|].
  assert (B : 1 <= bpow radix2 F <= 4294967296) by (apply bpow_F; destruct Ts; lia).
  assert (N : IZR (scale t F) <> 0) by (rewrite Es; destruct s; lra).
  assert (Q : IZR v / IZR (scale t F) = IZR (if s then - v else v) * bpow radix2 (- F)).
  { rewrite Es, bpow_opp. destruct s; rewrite ?opp_IZR; field; lra. }
  assert (X : rnd64 (IZR v / IZR (scale t F)) = IZR v / IZR (scale t F)).
  { rewrite Q. apply fmt64; [destruct s; lia|destruct Ts; lia]. }
  destruct (div_d (dofZ v) (dofZ (scale t F)) O1 O2) as [O E].
  - rewrite E2. exact N.
  - rewrite E1, E2. unfold mid. pose proof (small_abs v ltac:(lia)) as SA. 
    assert (Rabs (IZR v / IZR (scale t F)) <= 8589934592).
    { unfold Rdiv. rewrite Rabs_mult, Rabs_inv. rewrite <- (Rmult_1_r 8589934592). apply Rmult_le_compat; try apply Rabs_pos; try exact SA.
      - left. apply Rinv_0_lt_compat. apply Rabs_pos_lt. exact N.
      - rewrite <- Rinv_1. apply Rinv_le; [lra|]. rewrite Es. destruct s; rewrite ?Rabs_Ropp, Rabs_pos_eq by lra; lra. }
    apply Rabs_le_inv in H. lra.
  - split; [exact O|]. unfold to_double. rewrite E, E1, E2. exact X.
Qed.
Theorem double_roundtrip t F v : small_type t -> (0 <= F < iw t)%Z -> in_range t v ->
  fp_of_double t F (to_double t F v) = Ret v.
Proof.
  intros Ts HF Hv. destruct (to_double_R t F v Ts HF Hv) as [O E]. destruct (scale_cases t F Ts HF) as (s & Es & As & _).
  assert (Av : (Z.abs v <= 2 ^ 32)%Z) by (destruct Ts as [Ht W]; pose proof (narrow _ _ Hv W); lia).
  destruct (ofZ_exact (scale t F)) as [O2 E2]; [lia|].
  assert (B : 1 <= bpow radix2 F <= 4294967296) by (apply bpow_F; destruct Ts; lia).
  assert (N : IZR (scale t F) <> 0) by (rewrite Es; destruct s; lra).
  assert (X : R (to_double t F v) * R (dofZ (scale t F)) = IZR v) by (rewrite E, E2; field; exact N).
  destruct (mul_d _ _ O O2) as [O3 E3].
  - rewrite X. unfold mid. pose proof (small_abs v ltac:(lia)) as SA. apply Rabs_le_inv in SA. lra.
  - unfold fp_of_double, fcast. rewrite (trunc_exact _ v).
    + rewrite (proj2 (fits_iff t v (proj1 Hv)) Hv). reflexivity.
    + apply O3.
    + rewrite E3, X. replace (IZR v) with (IZR v * bpow radix2 0) by (cbn; lra). apply fmt64; lia.
Qed.
Lemma real_of_bpow F v : (0 <= F)%Z -> real_of F v = IZR v / bpow radix2 F.
Proof. intros H. unfold real_of. f_equal. rewrite bpow_powerRZ. reflexivity. Qed.
Theorem to_double_real t F v : small_type t -> (0 <= F < iw t)%Z -> ~ (isg t = true /\ F = (iw t - 1)%Z) -> in_range t v ->
  R (to_double t F v) = real_of F v.
Proof.
  intros Ts HF NB Hv. destruct (to_double_R t F v Ts HF Hv) as [_ ->]. rewrite real_of_bpow by lia.
  destruct (scale_cases t F Ts HF) as ([|] & -> & _ & S); [exfalso; apply NB; apply S; reflexivity|reflexivity].
Qed.
Theorem mul_real t F a b : (0 <= F)%Z -> in_range t a -> in_range t b -> (iw t < 32)%Z \/ t = int32 ->
  in_range t (a * b / 2 ^ F) ->
  exists r, fp_mul t F a b = Ret r /\ real_of F r <= real_of F a * real_of F b < real_of F r + real_of F 1.
Proof.
  intros HF Ha Hb W Hr. exists (a * b / 2 ^ F)%Z. split; [apply fp_mul_floor; assumption|].
  rewrite !real_of_bpow by exact HF. pose proof (bpow_gt_0 radix2 F) as P.
  assert (E : IZR (2 ^ F) = bpow radix2 F) by (rewrite <- (IZR_Zpower radix2) by lia; reflexivity).
  assert (P2 : (0 < 2 ^ F)%Z) by (apply Z.pow_pos_nonneg; lia).
  pose proof (Z.div_mod (a * b) (2 ^ F) ltac:(lia)) as D. pose proof (Z.mod_pos_bound (a * b) (2 ^ F) P2) as M.
  set (q := (a * b / 2 ^ F)%Z) in *. set (m := ((a * b) mod 2 ^ F)%Z) in *. clearbody q m.
  assert (D2 : IZR a * IZR b = bpow radix2 F * IZR q + IZR m) by (rewrite <- E, <- !mult_IZR, <- plus_IZR; f_equal; exact D).
  assert (M2 : 0 <= IZR m < bpow radix2 F) by (rewrite <- E; split; [apply IZR_le|apply IZR_lt]; lia).
  set (p := bpow radix2 F) in *. clearbody p.
  replace (IZR a / p * (IZR b / p)) with ((IZR a * IZR b) / (p * p)) by (field; lra). rewrite D2.
  replace ((p * IZR q + IZR m) / (p * p)) with (IZR q / p + IZR m / p * / p) by (field; lra).
  assert (0 <= IZR m / p < 1).
  { split; [apply Rmult_le_pos; [lra|left; apply Rinv_0_lt_compat; exact P]|].
    apply (Rmult_lt_reg_r p); [exact P|]. unfold Rdiv. rewrite Rmult_assoc, Rinv_l, Rmult_1_r by lra. lra. }
  assert (0 < / p) by (apply Rinv_0_lt_compat; exact P).
  assert (0 <= IZR m / p * / p < 1 * / p).
  { split; [apply Rmult_le_pos; lra|]. apply Rmult_lt_compat_r; lra. }
  unfold Rdiv at 4. lra.
Qed.
(* FixedPoint<1, 31, int32_t>: the scale is -2^31 *)
Theorem mul_wrong_sign : exists x y, fp_of_double int32 31 (dlit 1 2) = Ret x /\ fp_mul int32 31 x x = Ret y /\
  feqb (to_double int32 31 x) (dlit 1 2) = true /\ feqb (to_double int32 31 y) (dlit (-1) 4) = true.
Proof. eexists _, _. repeat split; vm_compute; reflexivity. Qed.
(* to_float keeps only 24 bits *)
Theorem float_roundtrip_wrong : exists y, fp_of_float int32 16 (to_float int32 16 (2 ^ 24 + 1)) = Ret y /\ y <> (2 ^ 24 + 1)%Z.
Proof. exists (2 ^ 24)%Z. split; [vm_compute; reflexivity|discriminate]. Qed.
(* and the largest value does not survive at all *)
Theorem float_roundtrip_ub : fp_of_float int32 16 (to_float int32 16 (2 ^ 31 - 1)) = UB UB_float_to_int.
Proof. vm_compute. reflexivity. Qed.
Theorem float_roundtrip t F v : small_type t -> (0 <= F < iw t)%Z -> in_range t v -> (Z.abs v < 2 ^ 24)%Z ->
  fp_of_float t F (to_float t F v) = Ret v.
Proof.
  intros Ts HF Hv Av. destruct (scale_cases t F Ts HF) as (s & Es & As & _).
  destruct (ofZ_s v) as [O1 E1]; [lia|]. destruct (ofZ_s (scale t F)) as [O2 E2]; [lia|].
  assert (B : 1 <= bpow radix2 F <= 4294967296) by (apply bpow_F; destruct Ts; lia).
  assert (N : IZR (scale t F) <> 0) by (rewrite Es; destruct s; lra).
  assert (V1 : rnd32 (IZR v) = IZR v) by (replace (IZR v) with (IZR v * bpow radix2 0) by (cbn; lra); apply fmt32; lia).
  assert (V2 : rnd32 (IZR (scale t F)) = IZR (scale t F)).
  { replace (IZR (scale t F)) with (IZR (if s then -1 else 1) * bpow radix2 F) by (rewrite Es; destruct s; lra). apply fmt32; [destruct s; lia|lia]. }
  rewrite V1 in E1. rewrite V2 in E2.
  assert (X : rnd32 (IZR v / IZR (scale t F)) = IZR v / IZR (scale t F)).
  { replace (IZR v / IZR (scale t F)) with (IZR (if s then - v else v) * bpow radix2 (- F)).
    - apply fmt32; [destruct s; lia|destruct Ts; lia].
    - rewrite Es, bpow_opp. destruct s; rewrite ?opp_IZR; field; lra. }
  assert (Av2 : Rabs (IZR v) <= 16777216) by (rewrite <- abs_IZR; apply IZR_le; lia).
  assert (Hb : bpow radix2 100 >= 4294967296) by (apply Rle_ge; replace 4294967296 with (bpow radix2 32) by reflexivity; apply bpow_le; lia).
  destruct (div_s (sofZ v) (sofZ (scale t F)) O1 O2) as [O E].
  - rewrite E2. exact N.
  - rewrite E1, E2. unfold mids.
    assert (Rabs (IZR v / IZR (scale t F)) <= 16777216).
    { unfold Rdiv. rewrite Rabs_mult, Rabs_inv. rewrite <- (Rmult_1_r 16777216). apply Rmult_le_compat; try apply Rabs_pos; try exact Av2.
      - left. apply Rinv_0_lt_compat. apply Rabs_pos_lt. exact N.
      - rewrite <- Rinv_1. apply Rinv_le; [lra|]. rewrite Es. destruct s; rewrite ?Rabs_Ropp, Rabs_pos_eq by lra; lra. }
    apply Rabs_le_inv in H. lra.
  - rewrite E1, E2, X in E.
    assert (Y : R (sdiv (sofZ v) (sofZ (scale t F))) * R (sofZ (scale t F)) = IZR v) by (rewrite E, E2; field; exact N).
    destruct (mul_s _ _ O O2) as [O3 E3].
    + rewrite Y. unfold mids. apply Rabs_le_inv in Av2. lra.
    + unfold fp_of_float, fcast, to_float. rewrite (trunc_exact _ v).
      * rewrite (proj2 (fits_iff t v (proj1 Hv)) Hv). reflexivity.
      * apply O3.
      * rewrite E3, Y. exact V1.
Qed.
