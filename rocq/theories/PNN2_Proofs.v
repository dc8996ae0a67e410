(** Voting on activations: two different single-bit upsets of one float never compare equal. *)
From Coq Require Import List NArith ZArith Bool Arith Lia SpecFloat.
Import ListNotations.
From Verif Require Import Outcome Words Arith Floats Bits_Model MBP_Model PNN_Model PNN_Spec PNN_Proofs.
Local Open Scope N_scope.

Lemma feqb_inv x y : feqb x y = true -> (x = y /\ x <> S754_nan) \/ (exists s s', x = S754_zero s /\ y = S754_zero s').
Proof.
  unfold feqb, SFeqb, SFcompare. destruct x as [s|s| |s m e], y as [s'|s'| |s' m' e']; try discriminate; intros H; eauto;
    try (destruct s; discriminate); try (destruct s'; discriminate).
  - left; destruct s, s'; try discriminate; split; congruence.
  - left; destruct s, s'; try discriminate.
    + destruct (Z.compare_spec e e') as [->| |]; try discriminate.
      destruct (Pos.compare_cont Eq m m') eqn:E; try discriminate. apply Pos.compare_eq in E; subst; split; congruence.
    + destruct (Z.compare_spec e e') as [->| |]; try discriminate.
      destruct (Pos.compare_cont Eq m m') eqn:E; try discriminate. apply Pos.compare_eq in E; subst; split; congruence.
Qed.
Lemma split32 x : x < 2 ^ 32 -> x = (if N.testbit x 31 then 2 ^ 31 else 0) + f_exp 23 8 x * 2 ^ 23 + f_mant 23 x.
Proof.
  intros H. unfold f_exp, f_mant. rewrite N.testbit_odd, N.shiftr_div_pow2.
  pose proof (N.div_mod x (2 ^ 23) ltac:(discriminate)) as H1.
  pose proof (N.div_mod (x / 2 ^ 23) (2 ^ 8) ltac:(discriminate)) as H2.
  rewrite N.div_div in H2 by discriminate. change (2 ^ 23 * 2 ^ 8) with (2 ^ 31) in H2.
  assert (H3 : x / 2 ^ 31 < 2) by (apply N.div_lt_upper_bound; [discriminate|exact H]).
  assert (H4 : x / 2 ^ 31 = if N.odd (x / 2 ^ 31) then 1 else 0).
  { destruct (x / 2 ^ 31) as [|[p|p|]] eqn:E; try reflexivity; lia. }
  destruct (N.odd (x / 2 ^ 31)); rewrite H4 in H2; change (2 ^ 31) with 2147483648; change (2 ^ 23) with 8388608 in *; change (2 ^ 8) with 256 in *; lia.
Qed.
Lemma f_mant_lt x : f_mant 23 x < 2 ^ 23. Proof. apply N.mod_lt; discriminate. Qed.
Lemma f_exp_lt x : f_exp 23 8 x < 2 ^ 8. Proof. apply N.mod_lt; discriminate. Qed.
(** the fields of a pattern can be read off the number *)
Definition fields (x : sf) : bool * N * N :=
  match x with
  | S754_zero s => (s, 0, 0)
  | S754_infinity s => (s, 255, 0)
  | S754_nan => (false, 0, 0)
  | S754_finite s p e => if N.pos p <? 8388608 then (s, 0, N.pos p) else (s, Z.to_N (e + 150), N.pos p - 8388608)
  end.
Lemma fields_sf32 x : sf32 x <> S754_nan -> fields (sf32 x) = (N.testbit x 31, f_exp 23 8 x, f_mant 23 x).
Proof.
  unfold sf32, sf_of_bits. change (23 + 8) with 31. change (2 ^ 8 - 1) with 255. change (2 ^ 23) with 8388608.
  change (2 ^ (Z.of_N 8 - 1) - 1)%Z with 127%Z. change (Z.of_N 23) with 23%Z.
  pose proof (f_mant_lt x) as Mx. pose proof (f_exp_lt x) as Ex. change (2 ^ 23) with 8388608 in *. change (2 ^ 8) with 256 in *.
  generalize dependent (f_mant 23 x); intros m Mx. generalize dependent (f_exp 23 8 x); intros e Ex. generalize (N.testbit x 31); intros s.
  destruct (N.eqb_spec e 255) as [->|Ne].
  - destruct (N.eqb_spec m 0) as [->|]; [reflexivity|]. intros H; exfalso; apply H; reflexivity.
  - destruct (N.eqb_spec e 0) as [->|Ne0]; intros _.
    + destruct m as [|p]; [reflexivity|]. cbn [fields]. destruct (N.ltb_spec (N.pos p) 8388608); [reflexivity|lia].
    + destruct (8388608 + m) as [|p] eqn:E; [lia|]. cbn [fields]. destruct (N.ltb_spec (N.pos p) 8388608); [lia|].
      f_equal; [f_equal|]; lia.
Qed.
Lemma sf32_inj x y : x < 2 ^ 32 -> y < 2 ^ 32 -> sf32 x = sf32 y -> sf32 x <> S754_nan -> x = y.
Proof.
  intros Hx Hy E NE. pose proof (fields_sf32 x NE) as Fx. rewrite E in Fx, NE. rewrite (fields_sf32 y NE) in Fx.
  injection Fx as E1 E2 E3. rewrite (split32 x Hx), (split32 y Hy), E1, E2, E3. reflexivity.
Qed.
Lemma sf32_zero x s : x < 2 ^ 32 -> sf32 x = S754_zero s -> x = if s then 2 ^ 31 else 0.
Proof.
  intros Hx E. assert (NE : sf32 x <> S754_nan) by congruence. pose proof (fields_sf32 x NE) as F. rewrite E in F. injection F as F1 F2 F3.
  rewrite (split32 x Hx), <- F1, <- F2, <- F3. destruct s; reflexivity.
Qed.
Lemma f32eq_inv x y : x < 2 ^ 32 -> y < 2 ^ 32 -> f32eq x y = true -> x = y \/ N.lxor x y = 2 ^ 31.
Proof.
  intros Hx Hy H. apply feqb_inv in H. destruct H as [[E NE]|(s & s' & E1 & E2)].
  - left; apply sf32_inj; auto.
  - rewrite (sf32_zero x s Hx E1), (sf32_zero y s' Hy E2). destruct s, s'; auto.
Qed.
Lemma f32eq_zero x y : x < 2 ^ 32 -> y < 2 ^ 32 -> f32eq x y = true -> x <> y -> (x = 0 /\ y = 2 ^ 31) \/ (x = 2 ^ 31 /\ y = 0).
Proof.
  intros Hx Hy H NE. apply feqb_inv in H. destruct H as [[E NN]|(s & s' & E1 & E2)].
  - exfalso; apply NE, sf32_inj; auto.
  - revert NE; rewrite (sf32_zero x s Hx E1), (sf32_zero y s' Hy E2). destruct s, s'; auto; congruence.
Qed.

(** single-bit upsets *)
Lemma applyBitFlip_lt a k b : a < 2 ^ 32 -> k < 4 -> b < 8 -> applyBitFlip a k b < 2 ^ 32.
Proof.
  intros Ha Hk Hb. unfold applyBitFlip. rewrite N.shiftl_1_l.
  assert (H2 : 2 ^ (8 * k + b) < 2 ^ 32) by (apply N.pow_lt_mono_r; lia).
  rewrite <- (N.mod_small a (2 ^ 32)) by exact Ha. rewrite <- (N.mod_small (2 ^ (8 * k + b)) (2 ^ 32)) by exact H2.
  rewrite <- !N.land_ones.
  assert (E : N.lxor (N.land a (N.ones 32)) (N.land (2 ^ (8 * k + b)) (N.ones 32)) = N.land (N.lxor a (2 ^ (8 * k + b))) (N.ones 32)).
  { apply N.bits_inj; intros n. rewrite N.land_spec, !N.lxor_spec, !N.land_spec. destruct (N.testbit (N.ones 32) n); rewrite ?andb_true_r, ?andb_false_r; reflexivity. }
  rewrite E, N.land_ones. apply N.mod_lt; discriminate.
Qed.
Lemma flip_eq a k b k' b' : b < 8 -> b' < 8 -> applyBitFlip a k b = applyBitFlip a k' b' -> k = k' /\ b = b'.
Proof.
  intros Hb Hb' H. unfold applyBitFlip in H. rewrite !N.shiftl_1_l in H.
  apply (f_equal (N.lxor a)) in H. rewrite <- !N.lxor_assoc, N.lxor_nilpotent, !N.lxor_0_l in H.
  apply N.pow_inj_r in H; lia.
Qed.
Lemma flip_twice_ne a k b k' b' : N.lxor (applyBitFlip a k b) (applyBitFlip a k' b') = 2 ^ 31 ->
  8 * k + b < 32 -> 8 * k' + b' < 32 -> (8 * k + b = 31 /\ 8 * k' + b' = 31) \/ 8 * k + b <> 8 * k' + b'.
Proof.
  intros H H1 H2. destruct (N.eq_dec (8 * k + b) (8 * k' + b')) as [E|E]; [|auto].
  exfalso. unfold applyBitFlip in H. rewrite E, N.lxor_nilpotent in H. discriminate.
Qed.
(** the two copies compare equal only if the same bit was hit *)
Lemma flips_never_agree a k b k' b' : a < 2 ^ 32 -> k < 4 -> b < 8 -> k' < 4 -> b' < 8 ->
  f32eq (applyBitFlip a k b) (applyBitFlip a k' b') = true -> k = k' /\ b = b'.
Proof.
  intros Ha Hk Hb Hk' Hb' H.
  destruct (N.eq_dec (applyBitFlip a k b) (applyBitFlip a k' b')) as [E|NE]; [exact (flip_eq a k b k' b' Hb Hb' E)|].
  exfalso. pose proof (f32eq_zero _ _ (applyBitFlip_lt a k b Ha Hk Hb) (applyBitFlip_lt a k' b' Ha Hk' Hb') H NE) as G.
  unfold applyBitFlip in G. rewrite !N.shiftl_1_l in G.
  set (p := 8 * k + b) in *. set (q := 8 * k' + b') in *.
  assert (A : forall p q, N.lxor a (2 ^ p) = 0 -> N.lxor a (2 ^ q) = 2 ^ 31 -> False).
  { clear. intros p q H1 H2. apply N.lxor_eq in H1. subst a.
    destruct (N.eq_dec p q) as [->|NE]. { rewrite N.lxor_nilpotent in H2; discriminate. }
    pose proof (f_equal (fun z => N.testbit z p) H2) as B1. pose proof (f_equal (fun z => N.testbit z q) H2) as B2. cbv beta in B1, B2.
    rewrite N.lxor_spec, !N.pow2_bits_eqb in B1, B2.
    rewrite !N.eqb_refl in *. destruct (N.eqb_spec q p); [congruence|]. destruct (N.eqb_spec p q); [congruence|]. cbn [xorb] in *.
    symmetry in B1, B2. apply N.eqb_eq in B1, B2. congruence. }
  destruct G as [[G1 G2]|[G1 G2]]; eauto.
Qed.
Lemma f32eq_refl_or_nan a : f32eq a a = true \/ sf32 a = S754_nan.
Proof.
  unfold f32eq, feqb, SFeqb, SFcompare. destruct (sf32 a) as [s|s| |s m e]; auto; left.
  - destruct s; reflexivity.
  - rewrite Z.compare_refl. change (Pos.compare_cont Eq m m) with (Pos.compare m m). rewrite Pos.compare_refl. destruct s; reflexivity.
Qed.
Lemma f32eq_nan_l a b : sf32 a = S754_nan -> f32eq a b = false.
Proof. intros E; unfold f32eq, feqb, SFeqb; rewrite E; reflexivity. Qed.
Lemma vote_keeps a rad d t : a < 2 ^ 32 -> legal_act d ->
  (flips1 rad d = true -> flips2 rad d = true -> (byte1 d, bit1 d) <> (byte2 d, bit2 d)) -> fst (vote_activation a rad d t) = a.
Proof.
  intros Ha (L1 & L2 & L3 & L4) NC. unfold vote_activation. fold (flips1 rad d). fold (flips2 rad d).
  destruct (flips1 rad d) eqn:F1.
  - destruct (f32eq a (applyBitFlip a (byte1 d) (bit1 d))) eqn:E1; [reflexivity|].
    destruct (flips2 rad d) eqn:F2.
    + destruct (f32eq (applyBitFlip a (byte1 d) (bit1 d)) (applyBitFlip a (byte2 d) (bit2 d))) eqn:E2.
      * exfalso. apply flips_never_agree in E2; auto. destruct E2 as [Q1 Q2]. apply NC; auto. congruence.
      * match goal with |- fst (if ?b then _ else _) = _ => destruct b end; reflexivity.
    + destruct (f32eq (applyBitFlip a (byte1 d) (bit1 d)) a) eqn:E2.
      * exfalso. revert E1 E2. unfold f32eq, feqb, SFeqb. generalize (sf32 a) (sf32 (applyBitFlip a (byte1 d) (bit1 d))); intros x y.
        assert (S : forall x y, SFcompare x y = Some Eq -> SFcompare y x = Some Eq).
        { clear. intros [s|s| |s m e] [s'|s'| |s' m' e']; simpl; try discriminate; try (destruct s; congruence); try (destruct s'; congruence); try (destruct s, s'; congruence).
          destruct s, s'; try discriminate; rewrite (Z.compare_antisym e e'); destruct (e ?= e')%Z; try discriminate; simpl; intros H; injection H as H.
          - destruct (Pos.compare_cont Eq m m') eqn:E; try discriminate. apply Pos.compare_eq in E; subst. change (Pos.compare_cont Eq m' m') with (Pos.compare m' m'). rewrite Pos.compare_refl; reflexivity.
          - apply Pos.compare_eq in H; subst. change (Pos.compare_cont Eq m' m') with (Pos.compare m' m'). rewrite Pos.compare_refl; reflexivity. }
        specialize (S y x). destruct (SFcompare y x) as [[| |]|]; try discriminate. rewrite (S eq_refl). discriminate.
      * destruct (f32eq a a); reflexivity.
  - destruct (f32eq_refl_or_nan a) as [E|E]; [rewrite E; reflexivity|]. rewrite !(f32eq_nan_l a _ E). reflexivity.
Qed.
Lemma vote_all_keeps l rad d i t : Forall (fun a => a < 2 ^ 32) l -> (forall k, legal_act (d k)) ->
  (forall k, flips1 rad (d k) = true -> flips2 rad (d k) = true -> (byte1 (d k), bit1 (d k)) <> (byte2 (d k), bit2 (d k))) -> fst (vote_all l rad d i t) = l.
Proof.
  intros HF HL HN; revert i t; induction HF as [|a l Ha Hl IH]; intros i t; [reflexivity|].
  cbn [vote_all]. pose proof (vote_keeps a rad (d i) t Ha (HL i) (HN i)) as E. destruct (vote_activation a rad (d i) t) as [a' t1]; simpl in E; subst a'.
  specialize (IH (S i) t1). destruct (vote_all l rad d (S i) t1); simpl in *; congruence.
Qed.
Lemma transparent_collision s rad d : (forall l i, legal_act (d l i)) -> no_collision rad d -> transparent s rad d.
Proof.
  intros HL HN l x t Hx. unfold protectActivations. cbn [lvl with_st st].
  destruct (lvl s); try reflexivity; destruct (fgt rad (dlit 2 10)); try reflexivity;
    pose proof (vote_all_keeps x rad (d l) 0 t Hx (HL l) (HN l)) as E; destruct (vote_all x rad (d l) 0 t); exact E.
Qed.
Lemma protect_no_vote s x rad d : no_vote s rad -> protectActivations s x rad d = (x, s).
Proof.
  unfold protectActivations, no_vote. intros [[H1 H2]|H].
  - destruct (lvl s); try reflexivity; contradiction.
  - rewrite H; destruct (lvl s); reflexivity.
Qed.
