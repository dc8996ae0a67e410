(** The exposure of a mission. *)
From Coq Require Import List NArith ZArith Bool Arith Lia Reals Lra SpecFloat.
Import ListNotations.
From Flocq Require Import Core Relative BinarySingleNaN.
From Verif Require Import Outcome Words Floats FloatsR HealthFloat FloatsS BitsFloat_Proofs Hw_Proofs Qft_Model Qft_Spec Qft4_Proofs Qft5_Proofs Env_Model Env_Spec Env_Proofs.
Local Open Scope R_scope.

Lemma rnd32_rel x : b2 (-126) <= x -> x * (1 - / 16777216) <= rnd32 x <= x * (1 + / 16777216).
Proof.
  intros H. assert (0 < x) by (apply Rlt_le_trans with (2 := H); apply bpow_gt_0).
  pose proof (relative_error_N_FLT radix2 (-149) 24 ltac:(reflexivity) (fun z => negb (Z.even z)) x) as Q.
  rewrite (Rabs_pos_eq x) in Q by lra.
  assert (Q' : Rabs (rnd32 x - x) <= / 2 * bpow radix2 (-24 + 1) * x) by (apply Q; exact H).
  replace (/ 2 * bpow radix2 (-24 + 1)) with (/ 16777216) in Q'.
  2:{ change (bpow radix2 (-24 + 1)) with (/ 8388608). lra. }
  apply Rabs_le_inv in Q'. lra.
Qed.
Lemma mant_24 s m e : V32 (S754_finite s m e) = true -> (Z.pos m < 2 ^ 24)%Z /\ (-149 <= e)%Z.
Proof.
  intros V. apply andb_prop in V. destruct V as [C _]. apply Zeq_bool_eq in C. unfold SpecFloat.fexp, emin in C.
  assert (D : (Z.pos (digits2_pos m) <= 24)%Z) by lia. pose proof (Zdigits_correct radix2 (Z.pos m)) as K. rewrite <- Zpos_digits2_pos in K. cbv zeta in K. destruct K as [_ K]. rewrite Z.abs_eq in K by lia.
  split; [|lia]. apply Z.lt_le_trans with (1 := K). apply (Zpower_le radix2). exact D.
Qed.
Lemma widen x : oks x -> okd (d_of_s x) /\ R (d_of_s x) = R x.
Proof.
  intros [V F]. destruct x as [s|s| |s m e]; try discriminate F.
  - split; [split; reflexivity|reflexivity].
  - destruct (mant_24 s m e V) as (M & L). cbn [d_of_s].
    assert (Q : R (S754_finite s m e) = IZR (cond_Zopp s (Z.pos m)) * b2 e) by reflexivity.
    assert (RN : rnd64 (IZR (cond_Zopp s (Z.pos m)) * b2 e) = IZR (cond_Zopp s (Z.pos m)) * b2 e).
    { apply fmt64; [|lia]. rewrite abs_cond_Zopp, Z.abs_eq by lia. lia. }
    pose proof (binary_normalize_correct 53 1024 ltac:(reflexivity) ltac:(reflexivity) mode_NE (cond_Zopp s (Z.pos m)) e s) as H. cbv zeta in H.
    change (F2R (Float radix2 (cond_Zopp s (Z.pos m)) e)) with (IZR (cond_Zopp s (Z.pos m)) * b2 e) in H. fold (rnd64 (IZR (cond_Zopp s (Z.pos m)) * b2 e)) in H.
    assert (B : Rabs (rnd64 (IZR (cond_Zopp s (Z.pos m)) * b2 e)) < b2 1024).
    { rewrite RN, <- Q. apply Rlt_trans with (b2 128); [exact (fin_bound 24 128 _ V)|apply bpow_lt; lia]. }
    unfold rnd in H, B. change (round radix2 (SpecFloat.fexp 53 1024) (round_mode mode_NE)) with (round radix2 (SpecFloat.fexp 53 1024) ZnearestE) in H.
    rewrite Rlt_bool_true in H by exact B. destruct H as (H1 & H2 & _).
    rewrite (bn_equiv 53 1024 (Hp := ltac:(reflexivity)) (Hm := ltac:(reflexivity))). unfold okd, R, fin. rewrite SF2R_B2SF, is_finite_SF_B2SF, valid_binary_B2SF.
    split; [split; [reflexivity|exact H2]|]. rewrite H1. exact RN.
Qed.
Lemma ofZ_near z : (0 < z <= int64_max)%Z -> oks (sofZ z) /\ IZR z * (1 - / 16777216) <= R (sofZ z) <= IZR z * (1 + / 16777216).
Proof.
  intros H. unfold int64_max in H. destruct (ofZ_s z) as (A & B); [lia|]. split; [exact A|]. rewrite B. apply rnd32_rel. apply Rle_trans with 1; [change 1 with (b2 0); apply bpow_le; lia|]. apply IZR_le. lia.
Qed.
Lemma sofZ0 : sofZ 0 = S754_zero false. Proof. reflexivity. Qed.
Definition term (x : sf) (z : Z) : sf := d_of_s (smul x (sofZ z)).
Lemma term_ok x z : flux_ok x -> (0 <= z <= int64_max)%Z ->
  okd (term x z) /\ (R (term x z) = 0 \/ b2 (-61) <= R (term x z)) /\ 0 <= R x * IZR z <= b2 94 /\ Rabs (R (term x z) - R x * IZR z) <= R x * IZR z / 8000000.
Proof.
  intros (V & F & C) Z0. unfold term. assert (PX : 0 <= R x) by (destruct C as [->|[C _]]; [lra|pose proof (bpow_gt_0 radix2 (-60)); lra]).
  assert (ox : oks x) by (split; assumption). assert (XU : R x <= b2 30). { destruct C as [->|[_ C]]; [apply bpow_ge_0|exact C]. }
  assert (ZU : 0 <= IZR z <= b2 63). { split; [apply IZR_le; lia|]. change (b2 63) with (IZR (2 ^ 63)). apply IZR_le. unfold int64_max in Z0. lia. }
  assert (PU : R x * IZR z <= b2 94). { apply Rle_trans with (b2 30 * b2 63); [apply Rmult_le_compat; lra|]. rewrite <- bpow_plus. apply bpow_le. lia. }
  assert (PP : 0 <= R x * IZR z) by (apply Rmult_le_pos; lra).
  destruct (Z.eq_dec z 0) as [->|NZ].
  { assert (Q : R (smul x (sofZ 0)) = 0 /\ oks (smul x (sofZ 0))).
    { destruct (mul_s x (sofZ 0)) as (A & B); [exact ox|split; reflexivity|change (R (sofZ 0)) with 0; rewrite Rmult_0_r; apply mids_small; lra|]. split; [|exact A]. rewrite B. change (R (sofZ 0)) with 0. rewrite Rmult_0_r. apply round_0. apply valid_rnd_N. }
    destruct Q as (Q1 & Q2). destruct (widen _ Q2) as (A & B). rewrite B, Q1. rewrite Rmult_0_r. split; [exact A|]. split; [left; reflexivity|]. split; [pose proof (bpow_ge_0 radix2 94); lra|]. rewrite Rminus_0_r, Rabs_R0. lra. }
  destruct (ofZ_near z ltac:(lia)) as (oz & NZ1). assert (Z1 : 1 <= IZR z) by (apply IZR_le; lia).
  set (zz := R (sofZ z)) in *.
  assert (ZZ : 0 < zz <= b2 64). { split; [nra|]. apply Rle_trans with (IZR z * (1 + / 16777216)); [lra|]. change (b2 64) with (b2 (63 + 1)). rewrite bpow_plus. change (b2 1) with 2. nra. }
  assert (MI : mids (R x * zz)). { split; [pose proof (bpow_ge_0 radix2 100); nra|]. apply Rle_trans with (b2 30 * b2 64); [apply Rmult_le_compat; lra|]. rewrite <- bpow_plus. apply bpow_le. lia. }
  destruct (mul_s x (sofZ z) ox oz MI) as (om & Rm). fold zz in Rm. destruct (widen _ om) as (ow & Rw). rewrite Rw, Rm. split; [exact ow|].
  destruct C as [C|[C _]].
  - rewrite C. rewrite !Rmult_0_l. assert (Q : rnd32 0 = 0) by (apply round_0; apply valid_rnd_N). rewrite Q. split; [left; reflexivity|]. split; [pose proof (bpow_ge_0 radix2 94); lra|]. rewrite Rminus_0_r, Rabs_R0. lra.
  - assert (L : b2 (-60) * (1 - / 16777216) <= R x * zz). { pose proof (bpow_gt_0 radix2 (-60)). apply Rmult_le_compat; try lra; nra. }
    assert (LN : b2 (-126) <= R x * zz). { apply Rle_trans with (2 := L). change (b2 (-60)) with (b2 (-126 + 66)). rewrite bpow_plus. change (b2 66) with 73786976294838206464. pose proof (bpow_gt_0 radix2 (-126)). nra. }
    pose proof (rnd32_rel _ LN) as Q. split.
    { right. change (b2 (-61)) with (b2 (-60 + -1)). rewrite bpow_plus. change (b2 (-1)) with (/ 2). pose proof (bpow_gt_0 radix2 (-60)). nra. }
    split; [lra|]. assert (A1 : R x * IZR z * (1 - / 16777216) <= R x * zz <= R x * IZR z * (1 + / 16777216)).
    { rewrite !Rmult_assoc. pose proof (bpow_gt_0 radix2 (-60)). split; apply Rmult_le_compat_l; lra. }
    set (P := R x * IZR z) in *. set (Y := R x * zz) in *. clearbody P Y. apply Rabs_le. nra.
Qed.
Lemma add_big x y : okd x -> okd y -> 0 <= R x + R y <= b2 200 -> okd (dadd x y) /\ R (dadd x y) = rnd64 (R x + R y).
Proof.
  intros [Vx Fx] [Vy Fy] B. assert (O : Rabs (rnd64 (R x + R y)) < b2 1024).
  { pose proof (rnd_pos _ (proj1 B)) as P. rewrite Rabs_pos_eq by exact P. apply Rle_lt_trans with (b2 200); [|apply bpow_lt; lia]. rewrite <- (rnd_bpow 200) by lia. apply (rnd_le 53 1024). lra. }
  destruct (add_R 53 1024 x y Vx Vy Fx Fy O) as (A & C & D). unfold okd, dadd. auto.
Qed.
Definition eps (k : nat) : Rdefinitions.R := / 8000000 + INR k * / 4503599627370496.
Definition sum_ok (k : nat) (acc : sf) (T : Rdefinitions.R) : Prop :=
  okd acc /\ (R acc = 0 \/ b2 (-61) <= R acc) /\ 0 <= T <= INR k * b2 94 /\ Rabs (R acc - T) <= T * eps k.
Lemma eps_le k : (k <= 1000)%nat -> eps k <= / 4000000.
Proof. intros H. unfold eps. apply le_INR in H. replace (INR 1000) with 1000 in H by (rewrite INR_IZR_INZ; reflexivity). nra. Qed.
Lemma sum_step k acc T x z : (k < 1000)%nat -> sum_ok k acc T -> flux_ok x -> (0 <= z <= int64_max)%Z -> sum_ok (S k) (dadd acc (term x z)) (T + R x * IZR z).
Proof.
  intros K (oa & La & BT & Ea) FX Z0. destruct (term_ok x z FX Z0) as (ot & Lt & Bp & Et). set (P := R x * IZR z) in *. set (v := term x z) in *.
  pose proof (eps_le k ltac:(lia)) as EK. assert (EP : 0 <= eps k) by (unfold eps; pose proof (pos_INR k); nra).
  assert (PA : 0 <= R acc) by (pose proof (bpow_gt_0 radix2 (-61)); lra). assert (PV : 0 <= R v) by (pose proof (bpow_gt_0 radix2 (-61)); lra).
  apply Rabs_le_inv in Ea. apply Rabs_le_inv in Et.
  assert (SK : INR (S k) * b2 94 = INR k * b2 94 + b2 94) by (rewrite S_INR; ring).
  assert (KB : INR k <= 1000). { apply Rle_trans with (INR 1000); [apply le_INR; lia|rewrite INR_IZR_INZ; apply Rle_refl]. }
  assert (UB : 0 <= R acc + R v <= b2 200).
  { split; [lra|]. assert (R acc <= 2 * T) by nra. assert (R v <= 2 * P) by lra. change (b2 200) with (b2 (94 + 106)). rewrite bpow_plus. change (b2 106) with 81129638414606681695789005144064. pose proof (bpow_gt_0 radix2 94). pose proof (pos_INR k). nra. }
  destruct (add_big acc v oa ot UB) as (os & Rs). rewrite S_INR in SK.
  assert (C : R acc + R v = 0 \/ b2 (-61) <= R acc + R v) by (pose proof (bpow_gt_0 radix2 (-61)); lra).
  assert (RE : Rabs (rnd64 (R acc + R v) - (R acc + R v)) <= (R acc + R v) * / 9007199254740992 /\ (rnd64 (R acc + R v) = 0 \/ b2 (-61) <= rnd64 (R acc + R v))).
  { destruct C as [C|C].
    - rewrite C, rnd_0. rewrite Rminus_0_r, Rabs_R0. split; [lra|left; reflexivity].
    - split.
      + assert (NB : b2 (-1022) <= R acc + R v) by (apply Rle_trans with (2 := C); apply bpow_le; lia). pose proof (rnd64_rel _ NB) as Q. apply Rabs_le. lra.
      + right. rewrite <- (rnd_bpow (-61)) by lia. apply (rnd_le 53 1024). exact C. }
  destruct RE as (RE & RL). apply Rabs_le_inv in RE. split; [exact os|]. rewrite Rs. split; [exact RL|]. split; [rewrite S_INR; lra|].
  assert (SE : eps (S k) = eps k + / 4503599627370496) by (unfold eps; rewrite S_INR; ring). rewrite SE. assert (T8 : P * / 8000000 <= P * eps k). { apply Rmult_le_compat_l; [lra|]. unfold eps. pose proof (pos_INR k). nra. }
  assert (S2 : R acc + R v <= 2 * (T + P)) by nra. apply Rabs_le. replace (R x * IZR z) with P by reflexivity. clearbody P. clear - RE Ea Et T8 S2. nra.
Qed.
Lemma sum_all h ps : forall k acc T, (k + List.length ps <= 1000)%nat -> Forall (phase_ok h) ps -> sum_ok k acc T ->
  exists k', (k' <= 1000)%nat /\ sum_ok k' (fold_left (add_exposure h) ps acc) (T + exact_exposure h ps).
Proof.
  induction ps as [|p r IH]; intros k acc T K F S0; cbn [List.length fold_left exact_exposure fold_right] in *.
  - exists k. split; [lia|]. rewrite Rplus_0_r. exact S0.
  - inversion F as [|? ? (D & X) F']; subst. unfold add_exposure at 2. unfold phase_flux in *. fold (exact_exposure h r). destruct (p_env p) as [a|].
    + pose proof (sum_step k acc T (e_flux (deref h a)) (p_dur p) ltac:(lia) S0 (X _ eq_refl) D) as S1. destruct (IH (S k) _ _ ltac:(lia) F' S1) as (k' & A & B). exists k'. split; [exact A|]. rewrite <- Rplus_assoc. exact B.
    + apply (IH k); [lia|exact F'|exact S0].
Qed.
Lemma exposure_ok h m : (List.length (m_phases m) <= 1000)%nat -> Forall (phase_ok h) (m_phases m) ->
  okd (calculateTotalRadiationExposure h m) /\ 0 <= exact_exposure h (m_phases m) /\ Rabs (R (calculateTotalRadiationExposure h m) - exact_exposure h (m_phases m)) <= exact_exposure h (m_phases m) / 4000000.
Proof.
  intros L F. destruct (sum_all h (m_phases m) 0 d0 0 ltac:(lia) F) as (k & K & (O & _ & B & A)).
  { split; [split; reflexivity|]. split; [left; reflexivity|]. split; [cbn [INR]; lra|]. change (R d0) with 0. rewrite Rminus_0_r, Rabs_R0. lra. }
  rewrite Rplus_0_l in *. split; [exact O|]. split; [lra|]. apply Rle_trans with (1 := A). pose proof (eps_le k K). unfold Rdiv. apply Rmult_le_compat_l; lra.
Qed.
Lemma exposure_grows h m p : (List.length (m_phases m) < 1000)%nat -> Forall (phase_ok h) (m_phases m) -> phase_ok h p ->
  R (calculateTotalRadiationExposure h m) <= R (calculateTotalRadiationExposure h (addPhase m p)).
Proof.
  intros L F (D & X). destruct (sum_all h (m_phases m) 0 d0 0 ltac:(lia) F) as (k & K & (O & LB & B & A)).
  { split; [split; reflexivity|]. split; [left; reflexivity|]. split; [cbn [INR]; lra|]. change (R d0) with 0. rewrite Rminus_0_r, Rabs_R0. lra. }
  unfold calculateTotalRadiationExposure, addPhase. cbn [m_phases]. rewrite fold_left_app. cbn [fold_left]. fold (calculateTotalRadiationExposure h m) in *. set (acc := calculateTotalRadiationExposure h m) in *.
  unfold add_exposure. unfold phase_flux in X. destruct (p_env p) as [a|]; [|apply Rle_refl]. specialize (X _ eq_refl). destruct (term_ok _ _ X D) as (ot & Lt & Bp & Et). fold (term (e_flux (deref h a)) (p_dur p)).
  set (v := term (e_flux (deref h a)) (p_dur p)) in *. assert (PV : 0 <= R v) by (pose proof (bpow_gt_0 radix2 (-61)); lra). assert (PA : 0 <= R acc) by (pose proof (bpow_gt_0 radix2 (-61)); lra).
  pose proof (eps_le k K) as EK. rewrite Rplus_0_l in *. assert (KB : INR k <= 1000). { apply Rle_trans with (INR 1000); [apply le_INR; lia|rewrite INR_IZR_INZ; apply Rle_refl]. }
  destruct (add_big acc v O ot) as (_ & Rs).
  { split; [lra|]. apply Rabs_le_inv in A. apply Rabs_le_inv in Et. assert (EP : 0 <= eps k) by (unfold eps; pose proof (pos_INR k); nra). set (T := exact_exposure h (m_phases m)) in *. assert (R acc <= 2 * T) by nra. assert (R v <= 2 * b2 94) by lra.
    change (b2 200) with (b2 (94 + 106)). rewrite bpow_plus. change (b2 106) with 81129638414606681695789005144064. pose proof (bpow_gt_0 radix2 94). pose proof (pos_INR k). nra. }
  rewrite Rs. rewrite <- (rnd_R 53 1024 acc (proj1 O)) at 1. apply (rnd_le 53 1024). lra.
Qed.
(** a positive literal flux *)
Definition lit32 (x : sf) : bool :=
  valid_binary 24 128 x && match x with S754_finite false m e => (-60 <=? Zdigits radix2 (Z.pos m) - 1 + e)%Z && (Zdigits radix2 (Z.pos m) + e <=? 30)%Z | _ => false end.
Lemma lit_flux x : lit32 x = true -> flux_ok x /\ 0 < R x.
Proof.
  unfold lit32. destruct x as [| | |[] m e]; try (rewrite andb_false_r; discriminate). intros H. apply andb_prop in H. destruct H as [V H]. apply andb_prop in H. destruct H as [A B].
  apply Z.leb_le in A, B. assert (Q : b2 (-60) <= R (S754_finite false m e) <= b2 30).
  { unfold R, SF2R, F2R. cbn [cond_Zopp Fnum Fexp].
    pose proof (Zdigits_correct radix2 (Z.pos m)) as D. cbv zeta in D. set (k := Zdigits radix2 (Z.pos m)) in *. assert (KP : (0 < k)%Z) by (apply Zdigits_gt_0; discriminate).
    rewrite Z.abs_eq in D by lia. destruct D as [D1 D2]. apply IZR_le in D1. apply IZR_lt in D2.
    rewrite IZR_Zpower in D1 by lia. rewrite IZR_Zpower in D2 by lia. pose proof (bpow_ge_0 radix2 e) as E0. split.
    - apply Rle_trans with (b2 (k - 1 + e)); [apply bpow_le; lia|]. rewrite bpow_plus. apply Rmult_le_compat_r; lra.
    - apply Rle_trans with (b2 (k + e)); [|apply bpow_le; lia]. rewrite bpow_plus. apply Rmult_le_compat_r; lra. }
  split; [split; [exact V|]; split; [reflexivity|right; exact Q]|]. pose proof (bpow_gt_0 radix2 (-60)). lra.
Qed.
(** the phases of a configuration *)
Definition conf_ok (h : heap) (es : list env) (p : phase) : Prop :=
  exists k, p_env p = Some (List.length h + k)%nat /\ (k < List.length es)%nat /\ (0 < p_dur p <= 2 ^ 40)%Z /\ lit32 (e_flux (nth k es blank)) = true.
Ltac conf := eexists; split; [reflexivity|]; split; [cbn [List.length leo_envs geo_envs lunar_envs mars_envs jupiter_envs probe_envs]; lia|]; split; [split; vm_compute; [reflexivity|discriminate]|vm_compute; reflexivity].
Lemma conf_all h t : Forall (conf_ok h (fst (configuration t))) (snd (configuration t) (addr h)) /\ (1 <= List.length (snd (configuration t) (addr h)) <= 6)%nat.
Proof.
  destruct t; cbn [configuration fst snd]; (split; [|cbn [leo_phases geo_phases lunar_phases mars_phases jupiter_phases probe_phases List.length]; lia]);
    unfold leo_phases, geo_phases, lunar_phases, mars_phases, jupiter_phases, probe_phases; repeat (apply Forall_cons; [conf|]); apply Forall_nil.
Qed.
Lemma conf_dur h t : (duration (snd (configuration t) (addr h)) <= int64_max)%Z.
Proof. destruct t; vm_compute; discriminate. Qed.
Lemma std_phase_ok h t : Forall (phase_ok (h ++ fst (configuration t))) (snd (configuration t) (addr h)).
Proof.
  destruct (conf_all h t) as (A & L). rewrite Forall_forall in *. intros p Hp. destruct (A p Hp) as (k & E & K & D & F). split; [unfold int64_max; lia|]. intros x Hx. unfold phase_flux in Hx. rewrite E in Hx. injection Hx as <-.
  rewrite deref_new. exact (proj1 (lit_flux _ F)).
Qed.
Definition worst_index (t : target) : nat := match t with EARTH_GEO | JUPITER => 3 | MOON => 2 | SOLAR_PROBE => 4 | _ => 1 end.
Ltac cmp := match goal with |- context [flt ?a ?b] => let Q := fresh in (assert (Q : flt a b = true) by (vm_compute; reflexivity)) || (assert (Q : flt a b = false) by (vm_compute; reflexivity)); rewrite Q; clear Q end.
Lemma less_new h es i j : phase_less (h ++ es) (addr h i) (addr h j) = flt (e_flux (nth i es blank)) (e_flux (nth j es blank)).
Proof. unfold phase_less, addr. rewrite !deref_new. reflexivity. Qed.
Lemma worst_std h t : worst (h ++ fst (configuration t)) (snd (configuration t) (addr h)) = p_env (nth (worst_index t) (snd (configuration t) (addr h)) (launch None)).
Proof.
  destruct t; cbn [configuration fst snd worst_index];
  unfold worst, leo_phases, geo_phases, lunar_phases, mars_phases, jupiter_phases, probe_phases, launch, reentry; cbn [max_loop fold_left p_env nth];
  repeat (rewrite less_new; cmp; cbv iota); reflexivity.
Qed.
Lemma worst_name h t : p_name (nth (worst_index t) (snd (configuration t) (addr h)) (launch None)) = worst_phase t /\ In (nth (worst_index t) (snd (configuration t) (addr h)) (launch None)) (snd (configuration t) (addr h)).
Proof. destruct t; (split; [reflexivity|apply nth_In; cbn [configuration snd leo_phases geo_phases lunar_phases mars_phases jupiter_phases probe_phases List.length worst_index]; lia]). Qed.
