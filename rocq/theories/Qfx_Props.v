(** Properties C447-C451: the field factory, the simulation's energies, corrected defect energies, the order of the devices and the
    defaults of the decoherence rate. *)
From Coq Require Import List NArith ZArith Bool Arith Lia Reals Lra Psatz SpecFloat.
Import ListNotations.
From Flocq Require Import Core BinarySingleNaN.
From Verif Require Import Outcome Words Floats FloatsR HealthFloat Bits_Model RMA3_Proofs Tester3_Proofs Hw_Proofs Hw2_Proofs Qft_Model Qft_Spec Qft_Proofs Qft2_Proofs Qft3_Proofs Qft4_Proofs Qft5_Proofs Qft6_Proofs Qft7_Proofs Qft8_Proofs Qft9_Proofs Qer_Spec Qer_Proofs Qer2_Proofs Qer8_Proofs.
From Verif Require Qft_Props.

Section Lattice.
Local Open Scope Z_scope.
(** ** C447: the factory draws one complex number per lattice point *)
(** the documented spread of the initial noise *)
Definition documented_spread (t : ptype) : sf := match t with Electron | Proton => dq 1 2 | _ => d1 end.
Theorem C447_factory : forall fexp fsin fcos gauss dims sp t, Forall int32 dims -> t <> Photon ->
  (length dims = 3%nat -> Forall (fun d => 0 < d) dims -> points dims <= 2 ^ 31 ->
     exists f, createParticleField fexp fsin fcos gauss dims sp t = Ret f /\ built f /\ f_type f = t /\ f_spacing f = sp /\ f_dims f = dims /\
       forall k, (k < Z.to_nat (points dims))%nat -> nth_error (f_data f) k = Some (gauss d0 (documented_spread t) k)) /\
  (length dims <> 3%nat -> createParticleField fexp fsin fcos gauss dims sp t = Throw E_invalid_argument).
Proof.
  intros fexp fsin fcos gauss dims sp t A NP. split.
  - intros L P M. assert (PD : pos_dims dims). { apply Forall_forall. intros d I. pose proof (proj1 (Forall_forall _ _) P d I). pose proof (proj1 (Forall_forall _ _) A d I). cbn beta in *. big. lia. }
    assert (MP : points dims <= max_points) by (big; lia). pose proof (new_ok 3 dims sp t L PD MP) as N. destruct (new_built 3 dims sp t _ N A M) as (B & ED & ET & ES & _ & EDA).
    unfold createParticleField. rewrite N. cbn [obind]. set (f := mkF t sp dims (repeat czero (Z.to_nat (points dims)))) in *.
    exists (initializeGaussian gauss d0 (documented_spread t) f). split; [destruct t; try reflexivity; congruence|].
    destruct B as (B1 & B2 & B3). unfold initializeGaussian, with_data. split; [split; [exact B1|split; [cbn [f_data f_dims]; rewrite map_length, seq_length; exact B2|exact B3]]|].
    split; [reflexivity|]. split; [reflexivity|]. split; [reflexivity|]. intros k K. cbn [f_data]. rewrite nth_error_map. unfold f. cbn [f_data]. rewrite repeat_length.
    rewrite (nth_error_nth' _ 0%nat) by (rewrite seq_length; exact K). rewrite seq_nth by exact K. reflexivity.
  - intros L. unfold createParticleField, field_new. apply Nat.eqb_neq in L. rewrite L. reflexivity.
Qed.
Example C447_nonvacuous : Forall int32 [4; 5; 6] /\ length [4; 5; 6] = 3%nat /\ Forall (fun d => 0 < d) [4; 5; 6] /\ points [4; 5; 6] = 120.
Proof. big. repeat split; repeat constructor; lia. Qed.

(** ** C448: what the simulation reports is each field's energy after minus its energy before *)
Lemma energies_nth cabs q : forall fs es, energies cabs q fs = Ret es -> forall i f, nth_error fs i = Some f -> exists e, calculateTotalEnergy cabs q None f = Ret e /\ nth_error es i = Some e.
Proof.
  induction fs as [|g fs IH]; intros es H i f I; [destruct i; discriminate|]. cbn [energies] in H. destruct (calculateTotalEnergy cabs q None g) as [e| | |] eqn:EG; try discriminate. cbn [obind] in H.
  destruct (energies cabs q fs) as [r| | |] eqn:ER; try discriminate. cbn [obind] in H. injection H as <-. destruct i as [|i]; cbn [nth_error] in *; [injection I as <-; exists e; split; [exact EG|reflexivity]|]. exact (IH r eq_refl i f I).
Qed.
Lemma energies_len cabs q : forall fs es, energies cabs q fs = Ret es -> length es = length fs.
Proof.
  induction fs as [|g fs IH]; intros es H; cbn [energies] in H; [injection H as <-; reflexivity|]. destruct (calculateTotalEnergy cabs q None g); try discriminate. cbn [obind] in H. destruct (energies cabs q fs) as [r| | |]; try discriminate. injection H as <-. cbn [length]. f_equal. apply IH. reflexivity.
Qed.
Lemma zip_nth : forall a b i x y, nth_error a i = Some x -> nth_error b i = Some y -> nth_error (zip_sub a b) i = Some (dsub x y).
Proof. induction a as [|u a IH]; intros [|v b] [|i] x y A B; cbn in *; try discriminate; [congruence|]. apply IH; assumption. Qed.
Lemma zip_len : forall a b, length a = length b -> length (zip_sub a b) = length a.
Proof. induction a as [|u a IH]; intros [|v b] L; cbn in *; try discriminate; [reflexivity|]. f_equal. apply IH. congruence. Qed.
Lemma Forall2_len {A B} (P : A -> B -> Prop) l m : Forall2 P l m -> length l = length m.
Proof. induction 1; cbn; congruence. Qed.
Theorem C448_energies : forall fsin fcos cabs carg fs q steps fs' l, Forall built fs -> simulateMultiParticleInteraction fsin fcos cabs carg fs q steps = (fs', Ret l) ->
  length fs' = length fs /\ length l = length fs /\
  forall i f f' x, nth_error fs i = Some f -> nth_error fs' i = Some f' -> nth_error l i = Some x ->
    exists before after, calculateTotalEnergy cabs q None f = Ret before /\ calculateTotalEnergy cabs q None f' = Ret after /\ x = dsub after before.
Proof.
  intros fsin fcos cabs carg fs q steps fs' l B H. destruct (sim_shape fsin fcos cabs carg q fs steps fs' (Ret l) B H) as [SH LL]. assert (LF : length fs' = length fs) by (symmetry; exact (Forall2_len _ _ _ SH)). split; [exact LF|]. split; [exact (LL l eq_refl)|]. clear SH LL.
  unfold simulateMultiParticleInteraction in H. destruct (energies cabs q fs) as [e0| | |] eqn:E0; try discriminate. destruct (evolve_all fsin fcos cabs carg q fs) as [gs o]. destruct o as [u| | |]; try discriminate.
  destruct (energies cabs q gs) as [e1| | |] eqn:E1; try discriminate. cbn [obind] in H. injection H as <- <-. intros i f f' x I I' IX.
  destruct (energies_nth _ _ _ _ E0 i f I) as (b & EB & NB). destruct (energies_nth _ _ _ _ E1 i f' I') as (a & EA & NA). exists b, a. split; [exact EB|]. split; [exact EA|]. rewrite (zip_nth _ _ _ _ _ NA NB) in IX. congruence.
Qed.
Example C448_nonvacuous : forall fsin fcos cabs carg, exists fs' l, Forall built [uniform Electron [2; 2; 2] (d1, d0)] /\
  simulateMultiParticleInteraction fsin fcos cabs carg [uniform Electron [2; 2; 2] (d1, d0)] default_qparams 1 = (fs', Ret l).
Proof.
  intros. assert (B : Forall built [uniform Electron [2; 2; 2] (d1, d0)]) by (constructor; [apply Qft_Props.uniform_built; [repeat constructor; big; lia|cbn; lia]|constructor]).
  destruct (sim_fermions fsin fcos cabs carg default_qparams _ 1 B) as (es & E & S); [intros f [<-|[]]; discriminate|intros f [<-|[]]; left; reflexivity|]. eexists. eexists. split; [exact B|exact S].
Qed.
End Lattice.

Local Open Scope R_scope.
(** ** C449: zero-point motion lowers the energy of a defect, less so the warmer the crystal *)
Lemma sub_bnd x y : okd x -> okd y -> - b2 500 <= R x <= b2 500 -> 0 <= R y <= b2 500 -> okd (dsub x y) /\ R (dsub x y) = rnd64 (R x - R y).
Proof.
  intros [Vx Fx] [Vy Fy] X Y. assert (B6 : b2 501 = b2 500 + b2 500) by (change 501%Z with (500 + 1)%Z; rewrite bpow_plus; change (b2 1) with 2; ring).
  assert (O : Rabs (rnd64 (R x - R y)) < b2 1024).
  { pose proof (rnd_le 53 1024 (R x - R y) (b2 501) ltac:(lra)) as U. pose proof (rnd_le 53 1024 (- b2 501) (R x - R y) ltac:(lra)) as L. rewrite rnd_opp in L. rewrite rnd_bpow in U, L by lia. assert (b2 501 < b2 1024) by (apply bpow_lt; lia). apply Rabs_def1; lra. }
  destruct (sub_R 53 1024 x y Vx Vy Fx Fy O) as (E & F & V). split; [split; [exact V|exact F]|exact E].
Qed.
Lemma zp_anti hb mass lat t t' : bnd (-100) 100 hb -> bnd (-200) 100 mass -> bnd (-100) 100 lat -> warm t -> warm t' -> R t <= R t' -> R (zero_point hb mass lat t') <= R (zero_point hb mass lat t).
Proof.
  intros H M L W W' LT. assert (EV : bnd (-63) (-62) eV_J) by (apply lit_bnd; vm_compute; reflexivity). assert (T10 : bnd (-34) (-33) (dq 1 (10 ^ 10)%positive)) by (apply lit_bnd; vm_compute; reflexivity).
  assert (Z10 : bnd 3 4 (dofZ 10)) by (apply lit_bnd; vm_compute; reflexivity). assert (HF : bnd (-1) (-1) (dq 1 2)). { split; [apply half_R|]. rewrite (proj2 half_R). change (b2 (-1)) with (/ 2). lra. }
  unfold zero_point. cbv zeta. destruct (bnd_mul _ _ _ _ _ _ H EV) as [A1 _]; try lia. destruct (bnd_mul _ _ _ _ _ _ L T10) as [A2 _]; try lia. destruct (bnd_mul _ _ _ _ _ _ A2 A2) as [A3 _]; try lia.
  destruct (bnd_div _ _ _ _ _ _ Z10 A3) as [A4 _]; try lia. destruct (bnd_div _ _ _ _ _ _ A4 M) as [A5 _]; try lia.
  assert (A6 : bnd (-116) 236 (sqrt_d (ddiv (ddiv (dofZ 10) (dmul (dmul lat (dq 1 (10 ^ 10)%positive)) (dmul lat (dq 1 (10 ^ 10)%positive)))) mass))) by (apply bnd_sqrt; [eapply bnd_weak; [exact A5|lia|lia]|lia|lia]).
  destruct (bnd_mul _ _ _ _ _ _ HF A1) as [A7 _]; try lia. destruct (bnd_mul _ _ _ _ _ _ A7 A6) as [A8 _]; try lia. destruct (bnd_div _ _ _ _ _ _ A8 EV) as [A9 _]; try lia.
  destruct (bnd_mul _ _ _ _ _ _ A9 (scale_bnd t W)) as [_ E1]; try lia. destruct (bnd_mul _ _ _ _ _ _ A9 (scale_bnd t' W')) as [_ E2]; try lia. rewrite E1, E2. apply (rnd_le 53 1024).
  apply Rmult_le_compat_l; [apply Rlt_le, (bnd_pos _ _ _ A9)|].
  assert (HU : bnd 6 7 (dofZ 100)) by (apply lit_bnd; vm_compute; reflexivity).
  pose proof (zbnd_div (-20) 20 6 7 t (dofZ 100) W HU ltac:(lia) ltac:(lia)) as Q. pose proof (zbnd_div (-20) 20 6 7 t' (dofZ 100) W' HU ltac:(lia) ltac:(lia)) as Q'. apply zbnd_R in Q, Q'. destruct Q as [O B], Q' as [O' B'].
  destruct (one_plus 14 _ O B ltac:(lia)) as [B1 [F1 G1]]. destruct (one_plus 14 _ O' B' ltac:(lia)) as [B1' [F1' G1']].
  destruct (bnd_div 0 0 0 15 d1 _ one_bnd B1 ltac:(lia) ltac:(lia)) as [_ D1]. destruct (bnd_div 0 0 0 15 d1 _ one_bnd B1' ltac:(lia) ltac:(lia)) as [_ D1']. rewrite D1, D1'. apply (rnd_le 53 1024).
  assert (LE : R (dadd d1 (ddiv t (dofZ 100))) <= R (dadd d1 (ddiv t' (dofZ 100)))).
  { rewrite F1, F1'. apply (rnd_le 53 1024). apply Rplus_le_compat_l. destruct (warm_R t W) as [Ot Bt]. destruct (warm_R t' W') as [Ot' Bt']. destruct (ofZ_ex 100 ltac:(lia)) as [Oh Eh].
    destruct (div_d t (dofZ 100) Ot Oh) as [_ X]; [rewrite Eh; lra|rewrite Eh; apply (mid_of 0 1048576); [lia|lia|lra]|]. destruct (div_d t' (dofZ 100) Ot' Oh) as [_ X']; [rewrite Eh; lra|rewrite Eh; apply (mid_of 0 1048576); [lia|lia|lra]|].
    rewrite X, X'. apply (rnd_le 53 1024). rewrite Eh. lra. }
  unfold Rdiv. apply Rmult_le_compat_l; [rewrite (proj2 o_ok); lra|]. apply Rinv_le; lra.
Qed.
Theorem C449_zero_point : forall q t energy,
  (masses q t = None -> forall temp, correctedDefectEnergy temp energy q t = Throw E_runtime_error) /\
  (forall mass, masses q t = Some mass -> between (bpow radix2 (-200)) (bpow radix2 100) mass -> between (bpow radix2 (-100)) (bpow radix2 100) (hbar q) ->
     between (bpow radix2 (-100)) (bpow radix2 100) (q_spacing q) -> between (- bpow radix2 500) (bpow radix2 500) energy ->
     forall temp, kelvin temp -> exists e, correctedDefectEnergy temp energy q t = Ret e /\ finite_double e /\ R e <= R energy /\ (R energy = 0 -> R e < 0) /\
       forall temp', kelvin temp' -> R temp <= R temp' -> exists e', correctedDefectEnergy temp' energy q t = Ret e' /\ R e <= R e' <= R energy).
Proof.
  intros q t energy. unfold correctedDefectEnergy, getMass. split; [intros ->; reflexivity|]. intros mass -> M H L [OE BE] temp K. cbn [obind]. eexists. split; [reflexivity|].
  assert (B5 : b2 400 <= b2 500) by (apply bpow_le; lia).
  pose proof (zp_bnd _ _ _ temp H M L (kelvin_warm _ K)) as Z. pose proof (bnd_pos _ _ _ Z) as ZP. destruct Z as [OZ BZ]. destruct (sub_bnd energy _ OE OZ BE ltac:(lra)) as [OS ES]. split; [exact OS|].
  assert (LE : forall z, 0 < z -> rnd64 (R energy - z) <= R energy). { intros z P. rewrite <- (rnd_R 53 1024 energy (proj1 OE)) at 2. apply (rnd_le 53 1024). lra. }
  split; [rewrite ES; apply LE; exact ZP|]. split.
  - intros E0. rewrite ES, E0. pose proof (rnd_le 53 1024 (0 - R (zero_point (hbar q) mass (q_spacing q) temp)) (- b2 (-300)) ltac:(lra)) as U. rewrite rnd_opp, rnd_bpow in U by lia. pose proof (bpow_gt_0 radix2 (-300)). lra.
  - intros temp' K' LT. eexists. split; [reflexivity|]. pose proof (zp_bnd _ _ _ temp' H M L (kelvin_warm _ K')) as Z'. pose proof (bnd_pos _ _ _ Z') as ZP'. destruct Z' as [OZ' BZ']. destruct (sub_bnd energy _ OE OZ' BE ltac:(lra)) as [OS' ES'].
    pose proof (zp_anti _ _ _ temp temp' H M L (kelvin_warm _ K) (kelvin_warm _ K') LT) as A. rewrite ES, ES'. split; [apply (rnd_le 53 1024); lra|apply LE; exact ZP'].
Qed.
Example C449_nonvacuous : masses default_qparams Proton = Some (dq 16726219 (10 ^ 34)%positive) /\ between (bpow radix2 (-200)) (bpow radix2 100) (dq 16726219 (10 ^ 34)%positive) /\
  between (bpow radix2 (-100)) (bpow radix2 100) (hbar default_qparams) /\ between (bpow radix2 (-100)) (bpow radix2 100) (q_spacing default_qparams) /\ between (- bpow radix2 500) (bpow radix2 500) (dofZ 4) /\ kelvin (dofZ 300) /\ masses default_qparams Muon = None.
Proof.
  split; [reflexivity|]. split; [apply (lit_bnd (-200) 100); vm_compute; reflexivity|]. split; [apply (lit_bnd (-100) 100); vm_compute; reflexivity|]. split; [apply (lit_bnd (-100) 100); vm_compute; reflexivity|].
  split; [|split; [|reflexivity]].
  - destruct (ofZ_ex 4 ltac:(lia)) as [O E]. split; [exact O|]. rewrite E. assert (b2 2 <= b2 500) by (apply bpow_le; lia). change (b2 2) with 4 in *. lra.
  - right. destruct (ofZ_ex 300 ltac:(lia)) as [O E]. split; [exact O|]. rewrite E. lra.
Qed.

(** ** C450: a harder device flips no more easily, and a device of hardness h flips like a plain SRAM cell of h times the critical charge *)
(** documented critical charge of a device, in units of the material's *)
Definition hardness (t : dtype) : Rdefinitions.R := match t with DRAM => 8 / 10 | SRAM_6T => 1 | SRAM_8T => 14 / 10 | FLASH_MLC => 2 | FLASH_SLC => 5 | FRAM => 8 | MRAM => 10 end.
Ltac litnear := match goal with |- near 1 ?x _ => let y := eval vm_compute in x in let H := fresh in assert (H : x = y) by (vm_compute; reflexivity); apply lit_near; [apply lit_bnd; vm_compute; reflexivity|]; rewrite H, fin_R; cbn [cond_Zopp]; unfold u12; match goal with |- context [bpow radix2 ?e] => let v := eval vm_compute in (2 ^ (- e))%Z in change (bpow radix2 e) with (/ IZR v) end; apply Rabs_le; lra end.
Lemma hard_near t : near 1 (device_factor t) (hardness t) /\ bnd (-1) 4 (device_factor t).
Proof.
  split; [|destruct t; apply lit_bnd; vm_compute; reflexivity]. assert (Z : forall n, (1 <= n <= 10)%Z -> near 1 (dofZ n) (IZR n)). { intros n N. destruct (ofZ_ex n ltac:(lia)) as [O E]. assert (P : 1 <= IZR n) by (apply IZR_le; lia). split; [lra|]. rewrite E. unfold u12. lra. }
  destruct t; cbn [device_factor hardness]; try (apply Z; lia); try litnear.
Qed.
Lemma mul_one x : okd x -> 0 < R x -> R x <= b2 100 -> dmul x d1 = x.
Proof.
  intros O P U. assert (E : R (dmul x d1) = R x /\ okd (dmul x d1)).
  { destruct (mul_R 53 1024 x d1 (proj1 O) (proj1 (proj1 o_ok)) (proj2 O) (proj2 (proj1 o_ok))) as (E & F & V).
    - rewrite (proj2 o_ok), Rmult_1_r, (rnd_R 53 1024 _ (proj1 O)). rewrite Rabs_pos_eq by lra. apply Rle_lt_trans with (1 := U). apply bpow_lt. lia.
    - split; [|split; [exact V|exact F]]. fold (dmul x d1) in E. rewrite E, (proj2 o_ok), Rmult_1_r. apply (rnd_R 53 1024). apply O. }
  destruct E as [E [V F]]. destruct O as [Vx Fx]. 
  assert (G : forall a (Va : valid_binary 53 1024 a = true), B2SF (SF2B a Va) = a) by (intros a Va; apply B2SF_SF2B).
  rewrite <- (G _ V), <- (G x Vx). f_equal. apply B2R_inj.
  - destruct (dmul x d1) as [s|s| |s m e] eqn:Q; try discriminate F; [exfalso; change (R (S754_zero s)) with 0 in E; lra|reflexivity].
  - destruct x as [s|s| |s m e]; try discriminate Fx; [exfalso; change (R (S754_zero s)) with 0 in P; lra|reflexivity].
  - rewrite !B2R_SF2B. exact E.
Qed.
Lemma Rmax_mono a b c d : a <= b -> c <= d -> Rmax a c <= Rmax b d.
Proof. intros. apply Rmax_lub; [apply Rle_trans with b; [assumption|apply Rmax_l]|apply Rle_trans with d; [assumption|apply Rmax_r]]. Qed.
Lemma crit_mono fexp m base base' t : exp_lib fexp -> bnd (-20) 20 (bandgap m) -> bnd (-24) 24 base -> bnd (-24) 24 base' -> warm t -> R base <= R base' -> R (criticalCharge fexp m base t) <= R (criticalCharge fexp m base' t).
Proof.
  intros X G B B' W LE. unfold criticalCharge. cbv zeta. assert (PR : inr 0 1 (er_tunnel fexp (bandgap m) t)) by (apply (er_range fexp X); [eapply bnd_weak; [exact G|lia|lia]|apply warm_cold; exact W]).
  destruct (tf_range _ PR) as [T1 T2]. destruct (cf_range t W) as [C1 C2]. set (tf := dsub d1 _) in *. set (cf := dadd d1 _) in *.
  destruct (bnd_mul _ _ _ _ _ _ B T1) as [M1 E1]; try lia. destruct (bnd_mul _ _ _ _ _ _ M1 C1) as [M2 E2]; try lia. destruct (half_exact _ _ _ B) as [HE HB]; try lia. destruct (fmax_d _ _ (proj1 M2) (proj1 HB)) as [_ EM].
  destruct (bnd_mul _ _ _ _ _ _ B' T1) as [M1' E1']; try lia. destruct (bnd_mul _ _ _ _ _ _ M1' C1) as [M2' E2']; try lia. destruct (half_exact _ _ _ B') as [HE' HB']; try lia. destruct (fmax_d _ _ (proj1 M2') (proj1 HB')) as [_ EM'].
  rewrite EM, EM', HE, HE', E2, E2', E1, E1'. apply Rmax_mono; [|lra]. apply (rnd_le 53 1024). apply Rmult_le_compat_r; [lra|]. apply (rnd_le 53 1024). apply Rmult_le_compat_r; lra.
Qed.
Lemma dev_base m t : moderate (crit_fc m) -> bnd (-24) 24 (dmul (crit_fc m) (device_factor t)) /\ near 2 (dmul (crit_fc m) (device_factor t)) (R (crit_fc m) * hardness t).
Proof.
  intros C. apply moderate_bnd in C. destruct (hard_near t) as [N B]. destruct (near_mul 0 1 _ _ _ _ _ _ _ _ C B (near_self _ _ _ C) N) as [B1 N1]; try lia. split; [eapply bnd_weak; [exact B1|lia|lia]|exact N1].
Qed.
Lemma hard_order m t t' : moderate (crit_fc m) -> hardness t <= hardness t' -> R (dmul (crit_fc m) (device_factor t)) <= R (dmul (crit_fc m) (device_factor t')).
Proof.
  intros C H. pose proof (moderate_bnd _ C) as B. destruct (hard_near t) as [[_ N] BT]. destruct (hard_near t') as [[_ N'] BT']. destruct (bnd_mul _ _ _ _ _ _ B BT) as [_ E]; try lia. destruct (bnd_mul _ _ _ _ _ _ B BT') as [_ E']; try lia. rewrite E, E'. apply (rnd_le 53 1024). apply Rmult_le_compat_l; [apply Rlt_le, (bnd_pos _ _ _ B)|].
  unfold u12 in *. destruct t, t'; cbn [hardness] in *; lra.
Qed.
Lemma flip_device fexp fpow2 m c t t' temp : exp_lib fexp -> pow2_lib fpow2 -> lib_mono fexp -> pow2_grows fpow2 -> physical m -> warm temp -> dbl c -> hardness t <= hardness t' ->
  flt (ddiv c (criticalCharge fexp m (dmul (crit_fc m) (device_factor t')) temp)) (dq 1 10) = false \/ fle c d0 = true ->
  R (bitFlipProbability fexp fpow2 m c t' temp) <= R (bitFlipProbability fexp fpow2 m c t temp).
Proof.
  intros X P2 XM PM PH W D HH H. pose proof (moderate_bnd _ (phys_gap m PH)) as G. pose proof (phys_crit m PH) as C. destruct (dev_base m t C) as [B1 _]. destruct (dev_base m t' C) as [B2 _].
  destruct (crit_range fexp X m _ temp G B1 W) as [CB _]. destruct (crit_range fexp X m _ temp G B2 W) as [CB' _]. pose proof (crit_mono fexp m _ _ temp X G B1 B2 W (hard_order m t t' C HH)) as LC.
  unfold bitFlipProbability. cbv zeta. set (crit := criticalCharge fexp m (dmul (crit_fc m) (device_factor t)) temp) in *. set (crit' := criticalCharge fexp m (dmul (crit_fc m) (device_factor t')) temp) in *.
  destruct (fle c d0) eqn:L1; cbn [orb]; [lra|]. destruct H as [H|H]; [|discriminate].
  assert (P0 : forall x a b, bnd a b x -> fle x d0 = false). { intros x a b B. destruct (fle x d0) eqn:Q; [|reflexivity]. apply (fle_d x d0 (proj1 B) (proj1 z_ok)) in Q. pose proof (bnd_pos _ _ _ B). rewrite (proj2 z_ok) in Q. lra. }
  rewrite (P0 _ _ _ CB), (P0 _ _ _ CB'). assert (N : nneg c). { split; [exact D|]. destruct (Rle_or_lt (E c) 0) as [Q2|Q2]; [|lra]. rewrite <- E0 in Q2. apply (leE c d0 D (okd_dbl _ (proj1 z_ok))) in Q2. congruence. }
  pose proof (nneg_div c crit _ _ N CB) as Q1. pose proof (nneg_div c crit' _ _ N CB') as Q2. pose proof (nneg_div_anti c crit crit' _ _ _ _ N CB CB' LC) as LQ.
  assert (H2 : flt (ddiv c crit) (dq 1 10) = false). { destruct (flt (ddiv c crit) (dq 1 10)) eqn:Q; [|reflexivity]. pose proof (okd_dbl _ (proj1 tenth_dec)) as DT. apply (ltE _ _ (proj1 Q1) DT) in Q. assert (Q3 : E (ddiv c crit') < E (dq 1 10)) by lra. apply (ltE _ _ (proj1 Q2) DT) in Q3. congruence. }
  rewrite H, H2. fold (weibull fexp fpow2 (ddiv c crit)) (weibull fexp fpow2 (ddiv c crit')). destruct (weibull_range fexp fpow2 X P2 _ Q1) as [W1 _]. destruct (weibull_range fexp fpow2 X P2 _ Q2) as [W2 _].
  rewrite (clamp_inr _ W1), (clamp_inr _ W2). apply (weibull_mono fexp fpow2 X P2); assumption.
Qed.
Theorem C450_devices : forall fexp fpow2 m temp, exp_lib fexp -> pow2_lib fpow2 -> physical m -> kelvin temp ->
  (forall charge dev harder, lib_mono fexp -> pow2_grows fpow2 -> is_double charge -> charge <> S754_nan -> hardness dev <= hardness harder ->
     fle charge d0 = true \/ flt (ddiv charge (criticalCharge fexp m (dmul (crit_fc m) (device_factor harder)) temp)) (dq 1 10) = false ->
     fle (bitFlipProbability fexp fpow2 m charge harder temp) (bitFlipProbability fexp fpow2 m charge dev temp) = true) /\
  (forall dev, exists q, finite_double q /\ hardness dev * R (crit_fc m) * (1 - / 1000000000) <= R q <= hardness dev * R (crit_fc m) * (1 + / 1000000000) /\
     forall charge, bitFlipProbability fexp fpow2 m charge dev temp =
       bitFlipProbability fexp fpow2 (mkM (bandgap m) (mass_ratio m) (lattice_nm m) q (temp_k m)) charge SRAM_6T temp).
Proof.
  intros fexp fpow2 m temp X P2 PH K. pose proof (kelvin_warm _ K) as W. pose proof (moderate_bnd _ (phys_gap m PH)) as G. split.
  - intros c t t' XM PM V NN HH H. assert (D : dbl c) by (split; assumption). pose proof (moderate_bnd _ (phys_crit m PH)) as C.
    apply (fle_d _ _ (proj1 (flip_range fexp fpow2 X P2 m c t' temp G C W D)) (proj1 (flip_range fexp fpow2 X P2 m c t temp G C W D))). apply flip_device; try assumption. tauto.
  - intros dev. destruct (dev_base m dev (phys_crit m PH)) as [B N]. exists (dmul (crit_fc m) (device_factor dev)). split; [apply B|]. destruct N as [P N]. unfold u12 in N. split; [rewrite (Rmult_comm (hardness dev)); split; [|]; nra|].
    intros c. unfold bitFlipProbability. cbv zeta. cbn [crit_fc device_factor]. rewrite (mul_one (dmul (crit_fc m) (device_factor dev))); [reflexivity|apply B|apply (bnd_pos _ _ _ B)|]. destruct B as [_ [_ B]]. apply Rle_trans with (1 := B). apply bpow_le. lia.
Qed.
Example C450_nonvacuous : physical silicon /\ kelvin (dofZ 300) /\ hardness DRAM <= hardness MRAM /\ flt (ddiv (dofZ 30) (criticalCharge one_exp silicon (dmul (crit_fc silicon) (device_factor MRAM)) (dofZ 300))) (dq 1 10) = false /\
  flt (bitFlipProbability step_exp square silicon (dofZ 30) MRAM (dofZ 300)) (bitFlipProbability step_exp square silicon (dofZ 30) DRAM (dofZ 300)) = true.
Proof.
  split; [exact silicon_phys|]. split; [right; destruct (ofZ_ex 300 ltac:(lia)) as [O E]; split; [exact O|]; rewrite E; lra|]. split; [cbn [hardness]; lra|]. split; vm_compute; reflexivity.
Qed.

(** ** C451: rates and coefficients that are not given take their documented defaults *)
Theorem C451_defaults : forall d temp q rates coeffs t,
  (rates t = None -> decoherence d temp (mkX q rates coeffs) t = decoherence d temp (mkX q (fun _ => Some (dq 1 (10 ^ 12)%positive)) coeffs) t) /\
  (coeffs t = None -> decoherence d temp (mkX q rates coeffs) t = decoherence d temp (mkX q rates (fun _ => Some (dq 1 100))) t) /\
  (forall q' rates' coeffs', rates' t = rates t -> coeffs' t = coeffs t -> decoherence d temp (mkX q rates coeffs) t = decoherence d temp (mkX q' rates' coeffs') t) /\
  (forall c, rates t = Some d1 -> coeffs t = Some c -> entries d t = (None, None, None) -> decoherence d d0 (mkX q rates coeffs) t = dmul d1 (dadd d1 (dmul d0 c))).
Proof.
  intros d temp q rates coeffs t. unfold decoherence, getDeco, getDiss. cbn [deco_rates diss_coeffs]. split; [intros ->; reflexivity|]. split; [intros ->; reflexivity|]. split; [intros q' r' c' -> ->; reflexivity|].
  intros c -> -> H. unfold entries in H. injection H as H1 H2 H3. unfold total_defects, add_entry. rewrite H1, H2, H3. reflexivity.
Qed.
Example C451_nonvacuous : decoherence default_defects (dofZ 300) (mkX default_qparams (fun _ => None) (fun _ => None)) Proton <> decoherence default_defects (dofZ 300) (mkX default_qparams (fun _ => Some d1) (fun _ => None)) Proton.
Proof. vm_compute. discriminate. Qed.
Print Assumptions C447_factory.
Print Assumptions C448_energies.
Print Assumptions C449_zero_point.
Print Assumptions C450_devices.
Print Assumptions C451_defaults.
