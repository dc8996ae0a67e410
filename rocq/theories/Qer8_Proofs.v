(** Radiation applied to memory: the whole call. *)
From Coq Require Import List NArith ZArith Bool Arith Lia Reals Lra Psatz SpecFloat.
Import ListNotations.
From Flocq Require Import Core BinarySingleNaN.
From Verif Require Import Outcome Words Floats FloatsR HealthFloat Bits_Model MBP6_Proofs Train5_Proofs RMA3_Proofs Tester3_Proofs Hw_Proofs Hw2_Proofs Qft_Model Qft_Spec Qft2_Proofs Qft4_Proofs Qft5_Proofs Qft6_Proofs Qft7_Proofs Qft8_Proofs Qft9_Proofs Qer_Spec Qer_Proofs Qer2_Proofs Qer6_Proofs Qer7_Proofs.
Local Open Scope R_scope.
Lemma phys_of m : physical m -> phys m.
Proof. intros [A B C D T]. split; [apply moderate_bnd, A|apply moderate_bnd, C|apply moderate_bnd, D|apply kelvin_warm, T]. Qed.
Section X.
Variables fexp fpow2 : sf -> sf.
Hypothesis X : exp_lib fexp.
Hypothesis P2 : pow2_lib fpow2.

Lemma mbu_range m q t : bnd (-20) 20 (crit_fc m) -> okd q -> R q <= 1073741824 * R (crit_fc m) -> exists k, mbuSize m q t = Ret k /\ (1 <= k <= 8)%N /\ (R q < 2 * R (crit_fc m) -> k = 1%N).
Proof.
  intros C O U. destruct (Rlt_or_le (R q) (2 * R (crit_fc m))) as [L|L].
  - exists 1%N. split; [apply mbu_small; [exact C|apply okd_dbl, O|rewrite (E_fin _ (proj2 O)); exact L]|]. split; [lia|auto].
  - destruct (mbu_large m q t C O (conj L U)) as [E1 E2]. eexists. split; [exact E1|]. split; [lia|intros; lra].
Qed.
Definition charge_limit (m : material) (l : sf) : Rdefinitions.R := 279 / 1000 * R l * (1 + boltzmann * R (temp_k m) / R (bandgap m)).
Lemma flip_zero m c t temp : fle c d0 = true -> bitFlipProbability fexp fpow2 m c t temp = d0.
Proof. intros H. unfold bitFlipProbability. cbv zeta. rewrite H. reflexivity. Qed.
Lemma apply_ok m rng bytes e l t dev duration : physical m -> masses (er_params m) t <> None -> kelvin l -> charge_limit m l <= 1073741824 * R (crit_fc m) ->
  bytes <> [] -> Forall is_byte bytes -> (forall i, draw_ok (length bytes) (rng i)) -> (N.of_nat (length bytes) <= 2 ^ 40)%N -> (duration < 2 ^ 32)%N -> (N.of_nat (length bytes) * duration <= 2 ^ 40)%N ->
  exists bytes' k, applyRadiation fexp fpow2 m rng (Some bytes) e l t dev duration = Ret (Some bytes', k) /\
    length bytes' = length bytes /\ Forall is_byte bytes' /\ (diff_bits bytes bytes' <= N.to_nat k)%nat /\ Nat.even (diff_bits bytes bytes') = Nat.even (N.to_nat k) /\
    (k <= 8 * (1 + N.of_nat (length bytes) * duration / 100000))%N /\ (charge_limit m l < 2 * R (crit_fc m) -> (k <= 1 + N.of_nat (length bytes) * duration / 100000)%N) /\
    (forall j, (forall i, j <> N.to_nat (d_byte (rng i))) -> nth_error bytes' j = nth_error bytes j) /\
    (l = d0 -> bytes' = bytes /\ k = 0%N).
Proof.
  intros PM MS KL CL NE FB DR HS HD HP. pose proof (phys_of m PM) as PH. destruct (masses (er_params m) t) as [mass|] eqn:MT; [|congruence].
  destruct (deposit_range fexp X m e l t mass PH MT) as (q & DQ & OQ & RQ); [destruct KL as [->|KL]; [left; reflexivity|right; apply moderate_bnd; exact KL]|].
  change kBr with boltzmann in RQ. fold (charge_limit m l) in RQ.
  destruct (mbu_range m q t (ph_crit m PH) OQ ltac:(lra)) as (mbu & MB & MR & M1). assert (PR := flip_range fexp fpow2 X P2 m q dev (temp_k m) (ph_gap m PH) (ph_crit m PH) (ph_temp m PH) (okd_dbl _ OQ)).
  set (p := bitFlipProbability fexp fpow2 m q dev (temp_k m)) in *. destruct (impacts_ok p _ duration PR HS HD HP) as (n & NI' & NB).
  set (w := (N.of_nat (length bytes) * duration / 100000)%N) in *. assert (W : (w <= 10995117)%N). { unfold w. apply N.div_le_upper_bound; [lia|]. lia. }
  destruct (loop_inv bytes mbu p rng (seq 0 (N.to_nat n))) with (bound := 0%N) (s := (bytes, 0%N)) as (s' & FE & INV & Z0 & J).
  { intros i _. destruct (DR i) as (_ & _ & B1 & B2). split; assumption. }
  { unfold inv. cbn [fst snd]. rewrite diff_refl. repeat split; try assumption; lia. }
  { rewrite seq_length. replace (N.min 8 mbu) with mbu by lia. nia. }
  destruct s' as [bytes' k]. destruct INV as (I1 & I2 & I3 & I4 & I5). cbn [fst snd] in *. rewrite seq_length in I5. replace (N.min 8 mbu) with mbu in I5 by lia.
  exists bytes', k. split.
  { unfold applyRadiation. destruct bytes as [|b0 br]; [congruence|]. rewrite DQ. cbn [obind]. fold p. rewrite MB. cbn [obind]. rewrite NI'. cbn [obind]. rewrite FE. reflexivity. }
  split; [exact I1|]. split; [exact I2|]. split; [exact I3|]. split; [exact I4|]. split; [nia|]. split; [intros LT; rewrite (M1 ltac:(lra)) in I5; lia|]. split; [intros j H; apply J; intros i _; apply H|].
  intros ->. assert (RZ : R d0 = 0) by apply z_ok. assert (Q0 : R q <= 0). { unfold charge_limit in RQ. rewrite RZ in RQ. lra. } assert (PZ : p = d0). { unfold p. apply flip_zero. apply (fle_d _ _ OQ (proj1 z_ok)). rewrite RZ. exact Q0. }
  assert (EQ : (bytes', k) = (bytes, 0%N)). { apply Z0. intros i _. destruct (DR i) as (FD & PD & _). rewrite PZ. apply flt_dF; [exact FD|apply z_ok|]. rewrite RZ. lra. } injection EQ as -> ->. auto.
Qed.
Lemma apply_throw m rng bytes e l t dev duration : masses (er_params m) t = None -> bytes <> [] -> applyRadiation fexp fpow2 m rng (Some bytes) e l t dev duration = Throw E_runtime_error.
Proof. intros H NE. unfold applyRadiation. destruct bytes; [congruence|]. rewrite (deposit_throw fexp m e l t H). reflexivity. Qed.

(** ** too many impacts *)
Lemma silicon_phys : physical silicon.
Proof.
  assert (M : forall x, litb (-20) 20 x = true -> moderate x). { intros x H. destruct (lit_bnd _ _ _ H) as [O B]. split; [exact O|]. change (b2 (-20)) with (/ 1048576) in B. change (b2 20) with 1048576 in B. exact B. }
  split; try (apply M; vm_compute; reflexivity). right. apply M. vm_compute. reflexivity.
Qed.
Lemma flip_high q : exp_decay fexp -> pow2_grows fpow2 -> okd q -> 24 <= R q <= 30 -> inr 0 1 (bitFlipProbability fexp fpow2 silicon q SRAM_6T (dofZ 300)) /\ 37 / 100 <= R (bitFlipProbability fexp fpow2 silicon q SRAM_6T (dofZ 300)).
Proof.
  intros XD PG O B. pose proof (phys_of _ silicon_phys) as [G L C W]. change (temp_k silicon) with (dofZ 300) in W. split; [apply (flip_range fexp fpow2 X P2); try assumption; apply okd_dbl, O|].
  assert (BS : dmul (crit_fc silicon) (device_factor SRAM_6T) = dofZ 15) by (vm_compute; reflexivity). assert (B15 : bnd (-24) 24 (dofZ 15)) by (apply lit_bnd; vm_compute; reflexivity).
  destruct (crit_range fexp X silicon _ _ G B15 W) as [CB CR]. assert (R15 : R (dofZ 15) = 15) by (apply (ofZ_ex 15); lia). assert (R300 : R (dofZ 300) = 300) by (apply (ofZ_ex 300); lia). rewrite R15, R300 in CR.
  unfold bitFlipProbability. rewrite BS. cbv zeta. set (cr := criticalCharge fexp silicon (dofZ 15) (dofZ 300)) in *.
  assert (P0 : forall x, okd x -> 0 < R x -> fle x d0 = false). { intros x Ox Px. destruct (fle x d0) eqn:Q; [|reflexivity]. apply (fle_d x d0 Ox (proj1 z_ok)) in Q. rewrite (proj2 z_ok) in Q. lra. }
  rewrite (P0 q O ltac:(lra)), (P0 cr (proj1 CB) ltac:(lra)). cbn [orb].
  assert (QD : 3 / 2 <= R q / R cr <= 4). { split; (apply Rmult_le_reg_r with (R cr); [lra|]); unfold Rdiv; rewrite (Rmult_assoc (R q)), Rinv_l by lra; lra. }
  destruct (div_d q cr O (proj1 CB) ltac:(lra)) as [OR ER]; [unfold mid; lra|]. pose proof (rnd64_abs (R q / R cr) ltac:(lra)) as RA. rewrite <- ER in RA. set (r := ddiv q cr) in *.
  destruct tenth_dec as [OT T]. apply Rabs_le_inv in T. assert (FT : flt r (dq 1 10) = false) by (apply (flt_dF _ _ OR OT); lra). rewrite FT. fold (weibull fexp fpow2 r).
  assert (NR : nneg r) by (apply nneg_okd; [exact OR|lra]). destruct (weibull_range fexp fpow2 X P2 _ NR) as [W1 E1']. rewrite (clamp_inr _ W1), E1'.
  assert (OD : okd (ddiv r d1) /\ R (ddiv r d1) = R r). { destruct (div_d r d1 OR (proj1 o_ok)) as [OD ED]; [rewrite (proj2 o_ok); lra|rewrite (proj2 o_ok); unfold Rdiv; rewrite Rinv_1, Rmult_1_r; unfold mid; lra|]. split; [exact OD|]. rewrite ED, (proj2 o_ok). unfold Rdiv. rewrite Rinv_1, Rmult_1_r. apply (rnd_R 53 1024). apply OR. }
  destruct OD as [OD ED]. destruct (pow2_acc fpow2 P2 d1 (proj1 o_ok)) as [FP AP]; [rewrite (proj2 o_ok); lra|]. rewrite (proj2 o_ok) in AP. apply Rabs_le_inv in AP.
  assert (GR : fle (fpow2 d1) (fpow2 (ddiv r d1)) = true). { apply PG; [apply o_ok|apply OD|vm_compute; reflexivity|]. apply (fle_d _ _ (proj1 o_ok) OD). rewrite (proj2 o_ok), ED. lra. }
  assert (DP : is_double (fpow2 (ddiv r d1))) by (apply (pow2_dbl fpow2 P2); apply OD). set (s := fpow2 (ddiv r d1)) in *.
  assert (DS : dbl s) by (split; [exact DP|]; intros EQ; rewrite EQ in GR; destruct (fpow2 d1) as [|[]| |[]]; discriminate GR). apply (leE _ _ (okd_dbl _ FP) DS) in GR. rewrite (E_fin _ (proj2 FP)) in GR.
  assert (NH : okd (SFopp (dq 1 2)) /\ R (SFopp (dq 1 2)) = - / 2). { destruct half_R as [OH H]. split; [apply opp_okd; exact OH|]. rewrite opp_R, H. lra. }
  assert (NS : dbl (SFopp s) /\ E (SFopp s) = - E s). { destruct DS as [V N]. destruct s as [[]|[]| |z m e]; try congruence; (split; [split; [exact V|discriminate]|]); cbn [E SFopp negb]; try lra; try (unfold R; cbn; lra). change (S754_finite (negb z) m e) with (SFopp (S754_finite z m e)). apply opp_R. }
  destruct NS as [DN EN]. assert (LE : fle (SFopp s) (SFopp (dq 1 2)) = true). { apply (leE _ _ DN (okd_dbl _ (proj1 NH))). rewrite EN, (E_fin _ (proj2 (proj1 NH))), (proj2 NH). lra. }
  pose proof (XD _ (proj1 DN) LE) as XF. assert (NX : inr 0 1 (fexp (SFopp s))) by (apply (neg_exp fexp X); split; [exact DN|rewrite EN; lra]). destruct NX as [OX BX].
  assert (F8 : okd (dq 5 8) /\ R (dq 5 8) = 5 / 8). { split; [split; vm_compute; reflexivity|]. assert (V : dq 5 8 = S754_finite false 5629499534213120 (-53)) by (vm_compute; reflexivity). rewrite V, fin_R. cbn [cond_Zopp]. change (b2 (-53)) with (/ IZR 9007199254740992). lra. }
  apply (fle_d _ _ OX (proj1 F8)) in XF. rewrite (proj2 F8) in XF. pose proof (rnd64_abs (1 - R (fexp (SFopp s))) ltac:(lra)). lra.
Qed.
Lemma sites_low p : inr 0 1 p -> 37 / 100 <= R p -> okd (sites p (2 ^ 20) (2 ^ 32 - 1)) /\ 4294967296 <= R (sites p (2 ^ 20) (2 ^ 32 - 1)).
Proof.
  intros [O B] L. unfold sites. change (Z.of_N (2 ^ 20)) with 1048576%Z. change (Z.of_N (2 ^ 32 - 1)) with 4294967295%Z. destruct (ofZ_ex 1048576 ltac:(lia)) as [Os Es].
  assert (DV : okd (ddiv (dofZ 4294967295) (dofZ 1000)) /\ 4294967 <= R (ddiv (dofZ 4294967295) (dofZ 1000)) <= 4294968).
  { destruct (ofZ_ex 4294967295 ltac:(lia)) as [Od Ed]. destruct (ofZ_ex 1000 ltac:(lia)) as [Ok Ek]. destruct (div_d _ _ Od Ok) as [O2 E2]; [rewrite Ek; lra|rewrite Ed, Ek; unfold mid; lra|]. split; [exact O2|]. rewrite E2, Ed, Ek. apply (rnd_int 4294967 4294968); lia || lra. }
  destruct DV as [OV BV]. destruct (mul_d p (dofZ 1048576) O Os) as [O1 E1]; [rewrite Es; unfold mid; lra|]. rewrite Es in E1. assert (B1 : 387973 <= R (dmul p (dofZ 1048576)) <= 1048576) by (rewrite E1; apply (rnd_int 387973 1048576); lia || lra).
  set (a := R (dmul p (dofZ 1048576))) in *. set (b := R (ddiv (dofZ 4294967295) (dofZ 1000))) in *. assert (AB : 1600000000000 <= a * b <= 5000000000000) by (clear -B1 BV; split; nra).
  destruct (mul_d _ _ O1 OV) as [O3 E3]; [fold a b; unfold mid; lra|]. fold a b in E3. assert (B3 : 1600000000000 <= R (dmul (dmul p (dofZ 1048576)) (ddiv (dofZ 4294967295) (dofZ 1000))) <= 5000000000000) by (rewrite E3; apply (rnd_int 1600000000000 5000000000000); lia || lra).
  set (c := R (dmul (dmul p (dofZ 1048576)) (ddiv (dofZ 4294967295) (dofZ 1000)))) in *. destruct hundredth as [OH HH]. apply Rabs_le_inv in HH. assert (CH : 15000000000 <= c * R (dq 1 100) <= 60000000000) by (clear -B3 HH; split; nra).
  destruct (mul_d _ _ O3 OH) as [O4 E4]; [fold c; unfold mid; lra|]. fold c in E4. split; [exact O4|]. rewrite E4. assert (Q : 15000000000 <= rnd64 (c * R (dq 1 100)) <= 60000000000) by (apply (rnd_int 15000000000 60000000000); lia || lra). lra.
Qed.
Lemma apply_ub rng bytes e : exp_decay fexp -> pow2_grows fpow2 -> N.of_nat (length bytes) = (2 ^ 20)%N ->
  applyRadiation fexp fpow2 silicon rng (Some bytes) e (dofZ 100) Proton SRAM_6T (2 ^ 32 - 1) = UB UB_float_to_int.
Proof.
  intros XD PG LB. pose proof silicon_phys as PM. pose proof (phys_of _ PM) as PH. assert (MT : masses (er_params silicon) Proton = Some (dq 16726219 (10 ^ 34)%positive)) by reflexivity.
  destruct (deposit_range fexp X silicon e (dofZ 100) Proton _ PH MT) as (q & DQ & OQ & RQ); [right; apply lit_bnd; vm_compute; reflexivity|].
  assert (R100 : R (dofZ 100) = 100) by (apply (ofZ_ex 100); lia). assert (R300 : R (temp_k silicon) = 300) by (apply (ofZ_ex 300); lia). assert (RG : 1 <= R (bandgap silicon)). { change (bandgap silicon) with (dq 112 100). assert (Q : fle d1 (dq 112 100) = true) by (vm_compute; reflexivity). apply (fle_d _ _ (proj1 o_ok)) in Q; [rewrite (proj2 o_ok) in Q; exact Q|split; vm_compute; reflexivity]. }
  assert (UQ : 24 <= R q < 30). { rewrite R100, R300 in RQ. split; [lra|]. apply Rle_lt_trans with (1 := proj2 RQ). assert (I : / R (bandgap silicon) <= 1) by (rewrite <- Rinv_1; apply Rinv_le; lra). assert (P : 0 < / R (bandgap silicon)) by (apply Rinv_0_lt_compat; lra). assert (K : 0 <= kBr <= 1 / 10000) by (unfold kBr; lra).
    unfold Rdiv. assert (T : kBr * 300 * / R (bandgap silicon) <= 3 / 100 * 1) by (apply Rmult_le_compat; lra). lra. }
  assert (C15 : R (crit_fc silicon) = 15) by (apply (ofZ_ex 15); lia). destruct (mbu_range silicon q Proton (ph_crit _ PH) OQ ltac:(lra)) as (mbu & MB & _).
  unfold applyRadiation. assert (NE : bytes <> []) by (intros ->; discriminate LB). destruct bytes as [|b0 br] eqn:EB; [congruence|]. rewrite <- EB in *. rewrite DQ. cbn [obind]. rewrite MB. cbn [obind]. change (temp_k silicon) with (dofZ 300).
  destruct (flip_high q XD PG OQ ltac:(lra)) as [PR PL]. set (p := bitFlipProbability fexp fpow2 silicon q SRAM_6T (dofZ 300)) in *. destruct (sites_low p PR PL) as [OS SL].
  rewrite LB. unfold impacts_of. fold (sites p (2 ^ 20) (2 ^ 32 - 1)). rewrite (to_u32_ub _ OS SL). reflexivity.
Qed.
End X.
