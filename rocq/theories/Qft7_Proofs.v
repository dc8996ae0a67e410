(** Floor and ceiling of doubles; multi-bit upsets; cascades. *)
From Coq Require Import List NArith ZArith Bool Arith Lia Reals Lra SpecFloat.
Import ListNotations.
From Flocq Require Import Core BinarySingleNaN.
From Verif Require Import Outcome Words Floats FloatsR HealthFloat Bits_Model RMA3_Proofs MBP6_Proofs Train5_Proofs Hw_Proofs Hw2_Proofs BitsFloat_Proofs Qft_Model Qft_Spec Qft2_Proofs Qft4_Proofs Qft5_Proofs Qft6_Proofs.
Local Open Scope R_scope.

Lemma mant_53 s m e : V64 (S754_finite s m e) = true -> (Z.pos m < 2 ^ 53)%Z.
Proof.
  intros V. apply andb_prop in V. destruct V as [C _]. apply Zeq_bool_eq in C. unfold SpecFloat.fexp, emin in C.
  assert (D : (Z.pos (digits2_pos m) <= 53)%Z) by lia. pose proof (Zdigits_correct radix2 (Z.pos m)) as K. rewrite <- Zpos_digits2_pos in K. cbv zeta in K. destruct K as [_ K]. rewrite Z.abs_eq in K by lia.
  apply Z.lt_le_trans with (1 := K). apply (Zpower_le radix2). exact D.
Qed.
Lemma dfloor_ok x : okd x -> okd (dfloor x) /\ R (dfloor x) = IZR (Zfloor (R x)).
Proof.
  intros [V F]. destruct x as [s|s| |s m e]; try discriminate F.
  - split; [split; [exact V|reflexivity]|]. cbn [dfloor]. unfold R. cbn [SF2R]. rewrite (Zfloor_IZR 0). reflexivity.
  - pose proof (mant_53 s m e V) as M53. cbn [dfloor]. destruct (Z.leb_spec 0 e) as [E0|E0].
    + split; [split; [exact V|reflexivity]|]. rewrite fin_R. rewrite <- (IZR_Zpower radix2 e E0), <- mult_IZR, Zfloor_IZR. reflexivity.
    + assert (D : (2 <= 2 ^ (- e))%Z). { change 2%Z with (2 ^ 1)%Z at 1. apply Z.pow_le_mono_r; lia. }
      assert (Q : Zfloor (R (S754_finite s m e)) = (cond_Zopp s (Z.pos m) / 2 ^ (- e))%Z).
      { rewrite fin_R. rewrite <- (Z.opp_involutive e) at 1. rewrite bpow_opp, <- (IZR_Zpower radix2 (- e)) by lia. apply (Zfloor_div (cond_Zopp s (Z.pos m)) (2 ^ (- e))). lia. }
      rewrite Q. set (z := (cond_Zopp s (Z.pos m) / 2 ^ (- e))%Z) in *. destruct (Z.eqb_spec z 0) as [Z0|Z0].
      * rewrite Z0. split; [split; reflexivity|]. unfold R. reflexivity.
      * apply ofZ_ex. assert (LB : (- Z.pos m <= z)%Z). { apply Z.div_le_lower_bound; [lia|]. destruct s; cbn [cond_Zopp]; nia. }
        assert (UB : (z <= Z.pos m)%Z). { apply Z.div_le_upper_bound; [lia|]. destruct s; cbn [cond_Zopp]; nia. } lia.
Qed.
Lemma dceil_ok x : okd x -> okd (dceil x) /\ R (dceil x) = IZR (Zceil (R x)).
Proof.
  intros O. unfold dceil. destruct (dfloor_ok _ (opp_okd x O)) as [OF EF]. split; [exact (opp_okd _ OF)|]. rewrite opp_R, EF, opp_R. unfold Zceil. rewrite opp_IZR. reflexivity.
Qed.
Lemma to_u32_int y z : okd y -> R y = IZR z -> (0 <= z < 2 ^ 32)%Z -> to_u32 y = Ret (Z.to_N z).
Proof.
  intros [V F] E Z0. assert (P : 0 <= R y) by (rewrite E; apply IZR_le; lia). destruct (trunc_between y z F) as (k & T & _); [rewrite E; split; [apply IZR_le; lia|lra]|].
  pose proof (trunc_floor y k P T) as K. rewrite E, Zfloor_IZR in K. subst k. unfold to_u32. rewrite T. replace ((0 <=? z) && (z <? 2 ^ 32))%Z with true by (symmetry; lia). reflexivity.
Qed.
Lemma to_u32_ub y : okd y -> 4294967296 <= R y -> to_u32 y = UB UB_float_to_int.
Proof.
  intros [V F] G. unfold to_u32. destruct (trunc_sf y) as [z|] eqn:T; [|reflexivity]. pose proof (trunc_floor y z ltac:(lra) T) as K. assert (Z1 : (4294967296 <= z)%Z) by (rewrite K; apply Zfloor_lub; exact G).
  replace ((0 <=? z) && (z <? 2 ^ 32))%Z with false by (symmetry; lia). reflexivity.
Qed.
Lemma u32_ceil x : okd x -> 0 <= R x <= 4294967295 -> to_u32 (dceil x) = Ret (Z.to_N (Zceil (R x))).
Proof.
  intros O B. destruct (dceil_ok x O) as [OC EC]. apply to_u32_int; [exact OC|exact EC|].
  assert (L : (0 <= Zceil (R x))%Z). { apply le_IZR. pose proof (Zceil_ub (R x)). lra. } assert (U : (Zceil (R x) <= 4294967295)%Z) by (apply Zceil_glb; lra). lia.
Qed.
(** ** multi-bit upsets *)
Lemma two_bnd : bnd 1 1 (dofZ 2). Proof. destruct (ofZ_ex 2 ltac:(lia)) as [O E]. split; [exact O|]. rewrite E. change (b2 1) with 2. lra. Qed.
Lemma twice_exact x : bnd (-20) 20 x -> bnd (-19) 21 (dmul x (dofZ 2)) /\ R (dmul x (dofZ 2)) = 2 * R x.
Proof.
  intros B. destruct (bnd_mul _ _ _ _ _ _ B two_bnd) as [B2 E2]; try lia. split; [exact B2|]. rewrite E2, (proj2 (ofZ_ex 2 ltac:(lia))).
  destruct (bnd_shape _ _ _ B) as (m & e & ->). destruct B as [[V _] [L U]]. rewrite fin_R. cbn [cond_Zopp].
  pose proof V as V'. apply andb_prop in V'. destruct V' as [C D]. apply Zle_bool_imp_le in D.
  assert (EB : (e <= 20)%Z). { apply (le_bpow radix2). apply Rle_trans with (2 := U). rewrite fin_R. cbn [cond_Zopp]. assert (1 <= IZR (Z.pos m)) by (apply IZR_le; lia). pose proof (bpow_ge_0 radix2 e). nra. }
  assert (EL : (-1074 <= e)%Z). { apply Zeq_bool_eq in C. unfold SpecFloat.fexp, emin in C. lia. }
  replace (IZR (Z.pos m) * b2 e * 2) with (IZR (Z.pos m) * b2 (e + 1)) by (rewrite bpow_plus; change (b2 1) with 2; ring). pose proof (mant_53 _ _ _ V).
  transitivity (IZR (Z.pos m) * b2 (e + 1)); [apply fmt64; lia|]. rewrite bpow_plus. change (b2 1) with 2. ring.
Qed.
Definition mbu_arg (m : material) (charge : sf) (t : ptype) : sf := dmul (ddiv charge (dmul (crit_fc m) (dofZ 2))) (clustering t).
Lemma clust_bnd t : bnd (-1) 2 (clustering t) /\ 1 <= R (clustering t) <= 3.
Proof.
  assert (H : bnd (-1) 2 (clustering t) /\ fle d1 (clustering t) = true /\ fle (clustering t) (dofZ 3) = true) by (destruct t; (split; [apply lit_bnd; vm_compute; reflexivity|]); split; vm_compute; reflexivity).
  destruct H as (B & L & U). split; [exact B|]. apply (fle_d _ _ (proj1 o_ok) (proj1 B)) in L. destruct (ofZ_ex 3 ltac:(lia)) as [O3 E3]. apply (fle_d _ _ (proj1 B) O3) in U. rewrite (proj2 o_ok) in L. rewrite E3 in U. lra.
Qed.
Lemma arg_ok m charge t : bnd (-20) 20 (crit_fc m) -> okd charge -> 2 * R (crit_fc m) <= R charge <= 1073741824 * R (crit_fc m) ->
  okd (mbu_arg m charge t) /\ 1 <= R (mbu_arg m charge t) <= 2147483648 /\ R (mbu_arg m charge t) = rnd64 (R (ddiv charge (dmul (crit_fc m) (dofZ 2))) * R (clustering t)) /\
  R (ddiv charge (dmul (crit_fc m) (dofZ 2))) = rnd64 (R charge / (2 * R (crit_fc m))) /\ 1 <= R (ddiv charge (dmul (crit_fc m) (dofZ 2))).
Proof.
  intros C O B. destruct (twice_exact _ C) as [TB TE]. pose proof (bnd_pos _ _ _ C) as CP. unfold mbu_arg. set (th := dmul (crit_fc m) (dofZ 2)) in *.
  assert (Q : 1 <= R charge / R th <= 536870912). { rewrite TE. assert (I : 0 < / (2 * R (crit_fc m))) by (apply Rinv_0_lt_compat; lra). assert (I1 : 2 * R (crit_fc m) * / (2 * R (crit_fc m)) = 1) by (field; lra). unfold Rdiv. split; nra. }
  destruct (div_d charge th O (proj1 TB)) as [Od Ed]; [rewrite TE; lra|apply (mid_of 0 536870912); lia || lra|].
  assert (QB : 1 <= R (ddiv charge th) <= 536870912) by (rewrite Ed; apply (rnd_int 1 536870912); lia || lra). destruct (clust_bnd t) as [KB K].
  destruct (mul_d _ _ Od (proj1 KB)) as [Om Em]; [apply (mid_of 0 2147483648); [lia|lia|nra]|]. split; [exact Om|]. split; [rewrite Em; apply (rnd_int 1 2147483648); [lia|lia|nra]|]. split; [exact Em|]. split; [rewrite Ed, TE; reflexivity|lra].
Qed.
Lemma mbu_small m charge t : bnd (-20) 20 (crit_fc m) -> dbl charge -> E charge < 2 * R (crit_fc m) -> mbuSize m charge t = Ret 1%N.
Proof.
  intros C D L. unfold mbuSize. cbv zeta. destruct (twice_exact _ C) as [TB TE].
  assert (H : flt charge (dmul (crit_fc m) (dofZ 2)) = true). { apply (ltE _ _ D (okd_dbl _ (proj1 TB))). rewrite (E_fin _ (proj2 (proj1 TB))), TE. exact L. } rewrite H. reflexivity.
Qed.
Lemma mbu_large m charge t : bnd (-20) 20 (crit_fc m) -> okd charge -> 2 * R (crit_fc m) <= R charge <= 1073741824 * R (crit_fc m) ->
  mbuSize m charge t = Ret (N.min 8 (Z.to_N (Zceil (R (mbu_arg m charge t))))) /\ (1 <= Zceil (R (mbu_arg m charge t)))%Z.
Proof.
  intros C O B. unfold mbuSize. cbv zeta. destruct (twice_exact _ C) as [TB TE]. destruct (arg_ok m charge t C O B) as (OA & BA & _).
  assert (H : flt charge (dmul (crit_fc m) (dofZ 2)) = false). { apply (flt_dF _ _ O (proj1 TB)). rewrite TE. lra. } rewrite H. fold (mbu_arg m charge t).
  rewrite u32_ceil; [|exact OA|lra]. cbn [obind]. assert (L : (1 <= Zceil (R (mbu_arg m charge t)))%Z) by (apply le_IZR; pose proof (Zceil_ub (R (mbu_arg m charge t))); lra). split; [|exact L]. f_equal. lia.
Qed.
