(** Float patterns: what they denote, ranges of the autoencoder's functions. *)
From Coq Require Import List NArith ZArith Bool Arith Lia SpecFloat Reals Lra.
Import ListNotations.
From Flocq Require Import Core Relative.
From Flocq.IEEE754 Require Import BinarySingleNaN.
From Verif Require Import Outcome Words Arith Floats FloatsR HealthFloat FloatsS Bits_Model MBP_Model PNN_Model PNN_Spec PNN2_Proofs PNN7_Proofs Vae_Model Vae_Spec.
Local Open Scope R_scope.

(** ** every pattern denotes a float *)
Lemma canonical24 (p : positive) : (8388608 <= Z.pos p < 16777216)%Z -> Z.pos (digits2_pos p) = 24%Z.
Proof.
  intros [H1 H2]. rewrite Zpos_digits2_pos. apply Zdigits_unique. rewrite Z.abs_eq by lia. change (radix2 ^ (24 - 1))%Z with 8388608%Z. change (radix2 ^ 24)%Z with 16777216%Z. lia.
Qed.
Lemma digits_small (p : positive) : (Z.pos p < 8388608)%Z -> (Z.pos (digits2_pos p) <= 23)%Z.
Proof. intros H. rewrite Zpos_digits2_pos. apply Zdigits_le_Zpower. rewrite Z.abs_eq by lia. exact H. Qed.
Lemma sf32_V x : V32 (sf32 x) = true.
Proof.
  unfold sf32, sf_of_bits. change (23 + 8)%N with 31%N. change (2 ^ 8 - 1)%N with 255%N. change (2 ^ 23)%N with 8388608%N.
  change (2 ^ (Z.of_N 8 - 1) - 1)%Z with 127%Z. change (Z.of_N 23) with 23%Z.
  pose proof (f_mant_lt x) as Mx. pose proof (f_exp_lt x) as Ex. change (2 ^ 23)%N with 8388608%N in *. change (2 ^ 8)%N with 256%N in *.
  generalize dependent (f_mant 23 x); intros m Mx. generalize dependent (f_exp 23 8 x); intros e Ex. generalize (N.testbit x 31); intros s.
  destruct (N.eqb_spec e 255) as [->|Ne]; [destruct (N.eqb_spec m 0); reflexivity|].
  destruct (N.eqb_spec e 0) as [->|Ne0].
  - destruct m as [|p]; [reflexivity|]. change (V32 (S754_finite s p (1 - 127 - 23)%Z)) with (SpecFloat.bounded 24%Z 128%Z p (1 - 127 - 23)%Z). unfold SpecFloat.bounded, SpecFloat.canonical_mantissa. apply andb_true_intro. split; [|reflexivity].
    apply Zeq_bool_true. unfold SpecFloat.fexp, SpecFloat.emin. pose proof (digits_small p ltac:(lia)). pose proof (Zgt_pos_0 (digits2_pos p)). lia.
  - destruct (8388608 + m)%N as [|p] eqn:E; [lia|]. change (V32 (S754_finite s p (Z.of_N e - 127 - 23)%Z)) with (SpecFloat.bounded 24%Z 128%Z p (Z.of_N e - 127 - 23)%Z). unfold SpecFloat.bounded, SpecFloat.canonical_mantissa. apply andb_true_intro.
    split; [apply Zeq_bool_true; unfold SpecFloat.fexp, SpecFloat.emin; rewrite (canonical24 p) by lia; lia|]. apply Z.leb_le. lia.
Qed.
(** ** results of operations are floats *)
Lemma V_add x y : V32 x = true -> V32 y = true -> V32 (sadd x y) = true.
Proof. intros Vx Vy. unfold sadd. pose proof (add_equiv 24 128 (lift 24 128 x Vx) (lift 24 128 y Vy)) as E. rewrite !lift_sf in E. rewrite E. apply valid_binary_B2SF. Qed.
Lemma V_sub x y : V32 x = true -> V32 y = true -> V32 (ssub x y) = true.
Proof. intros Vx Vy. unfold ssub. pose proof (sub_equiv 24 128 (lift 24 128 x Vx) (lift 24 128 y Vy)) as E. rewrite !lift_sf in E. rewrite E. apply valid_binary_B2SF. Qed.
Lemma V_mul x y : V32 x = true -> V32 y = true -> V32 (smul x y) = true.
Proof. intros Vx Vy. unfold smul. pose proof (mul_equiv 24 128 (lift 24 128 x Vx) (lift 24 128 y Vy)) as E. rewrite !lift_sf in E. rewrite E. apply valid_binary_B2SF. Qed.
Lemma V_div x y : V32 x = true -> V32 y = true -> V32 (sdiv x y) = true.
Proof. intros Vx Vy. unfold sdiv. pose proof (div_equiv 24 128 (lift 24 128 x Vx) (lift 24 128 y Vy)) as E. rewrite !lift_sf in E. rewrite E. apply valid_binary_B2SF. Qed.
Lemma sf32_bits x : V32 x = true -> sf32 (bits32 x) = x. Proof. intros H. apply bits32_ok, H. Qed.
Lemma sf32_add a b : sf32 (f32add a b) = sadd (sf32 a) (sf32 b). Proof. apply sf32_bits, V_add; apply sf32_V. Qed.
Lemma sf32_sub a b : sf32 (f32sub a b) = ssub (sf32 a) (sf32 b). Proof. apply sf32_bits, V_sub; apply sf32_V. Qed.
Lemma sf32_mul a b : sf32 (f32mul a b) = smul (sf32 a) (sf32 b). Proof. apply sf32_bits, V_mul; apply sf32_V. Qed.
Lemma sf32_div a b : sf32 (f32div a b) = sdiv (sf32 a) (sf32 b). Proof. apply sf32_bits, V_div; apply sf32_V. Qed.
Lemma sf32_lib f a : float_fun f -> sf32 (lib f a) = f (sf32 a). Proof. intros H. apply sf32_bits, H, sf32_V. Qed.
Lemma sf32_ofN n : (n <= 2 ^ 64)%N -> sf32 (f32ofN n) = sofZ (Z.of_N n).
Proof. intros H. apply sf32_bits. apply (ofZ_s (Z.of_N n)). change (2 ^ 64)%Z with (Z.of_N (2 ^ 64)). lia. Qed.

(** sign and absolute value *)
Lemma exp_bits x k : N.testbit (f_exp 23 8 x) k = ((k <? 8)%N && N.testbit x (k + 23))%bool.
Proof.
  unfold f_exp. rewrite <- N.land_ones, <- N.shiftr_div_pow2, N.land_spec, N.shiftr_spec by lia. destruct (N.ltb_spec k 8).
  - rewrite N.ones_spec_low by lia. apply andb_true_r.
  - rewrite N.ones_spec_high by lia. apply andb_false_r.
Qed.
Lemma mant_bits x k : N.testbit (f_mant 23 x) k = ((k <? 23)%N && N.testbit x k)%bool.
Proof.
  unfold f_mant. rewrite <- N.land_ones, N.land_spec. destruct (N.ltb_spec k 23).
  - rewrite N.ones_spec_low by lia. apply andb_true_r.
  - rewrite N.ones_spec_high by lia. apply andb_false_r.
Qed.
Lemma wrap_bits n x k : N.testbit (wrap n x) k = ((k <? n)%N && N.testbit x k)%bool.
Proof.
  unfold wrap. rewrite <- N.land_ones, N.land_spec. destruct (N.ltb_spec k n).
  - rewrite N.ones_spec_low by lia. apply andb_true_r.
  - rewrite N.ones_spec_high by lia. apply andb_false_r.
Qed.
Lemma top_bits k : N.testbit 2147483648 k = (k =? 31)%N.
Proof. change 2147483648%N with (2 ^ 31)%N. rewrite N.pow2_bits_eqb. apply N.eqb_sym. Qed.
Lemma fields_abs x : N.testbit (f32abs x) 31 = false /\ f_exp 23 8 (f32abs x) = f_exp 23 8 x /\ f_mant 23 (f32abs x) = f_mant 23 x.
Proof.
  unfold f32abs. split; [rewrite wrap_bits; reflexivity|]. split; apply N.bits_inj; intros k; rewrite ?exp_bits, ?mant_bits, wrap_bits.
  - destruct (N.ltb_spec k 8); [|reflexivity]. rewrite (proj2 (N.ltb_lt (k + 23) 31)) by lia. reflexivity.
  - destruct (N.ltb_spec k 23); [|reflexivity]. rewrite (proj2 (N.ltb_lt k 31)) by lia. reflexivity.
Qed.
Lemma fields_neg x : N.testbit (f32neg x) 31 = negb (N.testbit x 31) /\ f_exp 23 8 (f32neg x) = f_exp 23 8 x /\ f_mant 23 (f32neg x) = f_mant 23 x.
Proof.
  unfold f32neg. split; [rewrite N.lxor_spec, wrap_bits, top_bits; cbn; apply xorb_true_r|]. split; apply N.bits_inj; intros k; rewrite ?exp_bits, ?mant_bits, N.lxor_spec, wrap_bits, top_bits.
  - destruct (N.ltb_spec k 8); [|reflexivity]. rewrite (proj2 (N.ltb_lt (k + 23) 32)), (proj2 (N.eqb_neq (k + 23) 31)) by lia. apply xorb_false_r.
  - destruct (N.ltb_spec k 23); [|reflexivity]. rewrite (proj2 (N.ltb_lt k 32)), (proj2 (N.eqb_neq k 31)) by lia. apply xorb_false_r.
Qed.
Lemma sf32_abs x : sf32 (f32abs x) = SFabs (sf32 x).
Proof.
  unfold sf32, sf_of_bits. change (23 + 8)%N with 31%N. destruct (fields_abs x) as (-> & -> & ->). generalize (f_mant 23 x) (f_exp 23 8 x); intros m e.
  destruct (e =? 2 ^ 8 - 1)%N; [destruct (m =? 0)%N; reflexivity|]. destruct (e =? 0)%N; [destruct m; reflexivity|]. destruct (2 ^ 23 + m)%N; reflexivity.
Qed.
Lemma sf32_neg x : sf32 (f32neg x) = SFopp (sf32 x).
Proof.
  unfold sf32, sf_of_bits. change (23 + 8)%N with 31%N. destruct (fields_neg x) as (-> & -> & ->). generalize (f_mant 23 x) (f_exp 23 8 x); intros m e.
  destruct (e =? 2 ^ 8 - 1)%N; [destruct (m =? 0)%N; reflexivity|]. destruct (e =? 0)%N; [destruct m; reflexivity|]. destruct (2 ^ 23 + m)%N; reflexivity.
Qed.
Lemma R_abs x : R (SFabs x) = Rabs (R x).
Proof.
  destruct x as [[]|[]| |[] m e]; cbn -[IZR bpow]; rewrite ?Rabs_R0; try reflexivity; unfold F2R; cbn -[bpow IZR].
  - rewrite Rabs_mult. rewrite (Rabs_pos_eq (bpow _ _)) by apply bpow_ge_0. rewrite <- abs_IZR. reflexivity.
  - rewrite Rabs_mult. rewrite (Rabs_pos_eq (bpow _ _)) by apply bpow_ge_0. rewrite <- abs_IZR. reflexivity.
Qed.
Lemma ok_abs x : oks x -> oks (SFabs x).
Proof. intros [V F]. destruct x as [[]|[]| |[] m e]; split; try exact V; try exact F; try reflexivity. Qed.
Lemma wrap32_sf x : sf32 (wrap 32 x) = sf32 x.
Proof.
  unfold sf32, sf_of_bits. change (23 + 8)%N with 31%N. rewrite wrap_bits. cbn [N.ltb N.compare Pos.compare Pos.compare_cont andb].
  assert (E : f_exp 23 8 (wrap 32 x) = f_exp 23 8 x). { apply N.bits_inj; intros k; rewrite ?exp_bits, ?wrap_bits. destruct (N.ltb_spec k 8); [|reflexivity]. rewrite (proj2 (N.ltb_lt (k + 23) 32)) by lia. reflexivity. }
  assert (M : f_mant 23 (wrap 32 x) = f_mant 23 x). { apply N.bits_inj; intros k; rewrite ?mant_bits, ?wrap_bits. destruct (N.ltb_spec k 23); [|reflexivity]. rewrite (proj2 (N.ltb_lt k 32)) by lia. reflexivity. }
  rewrite E, M. reflexivity.
Qed.
