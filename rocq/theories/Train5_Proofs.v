(** Batches, the frequency of injections, and calls that return. *)
From Coq Require Import List NArith ZArith Bool Arith Lia SpecFloat Reals Lra.
From Flocq Require Import Core.
From Flocq.IEEE754 Require Import BinarySingleNaN.
Import ListNotations.
From Verif Require Import Outcome Words Floats FloatsR FloatsS HealthFloat Approx_Model Bits_Model MBP6_Proofs PNN_Model PNN_Spec PNN_Proofs PNN3_Proofs PNN4_Proofs PNN5_Proofs Train_Model Train_Spec Train_Proofs Train2_Proofs Train3_Proofs Train4_Proofs.
Local Open Scope nat_scope.

Lemma wrap64_id z : (0 <= z < 2 ^ 64)%Z -> wrap64 z = z. Proof. intros H. apply Z.mod_small, H. Qed.
Lemma seg a n : map (fun i => (Z.of_nat a + Z.of_nat i)%Z) (seq 0 n) = map Z.of_nat (seq a n).
Proof. revert a; induction n as [|n IH]; intros a; [reflexivity|]. rewrite !seq_S, !map_app, IH. cbn [map plus]. rewrite Nat2Z.inj_add. reflexivity. Qed.
Lemma order_all num batch : (0 <= num < 2 ^ 63)%Z -> (1 <= batch < 2 ^ 31)%Z -> epoch_order num batch = Ret (map Z.of_nat (seq 0 (Z.to_nat num))).
Proof.
  intros Hn Hb. unfold epoch_order. rewrite (wrap64_id batch) by lia. rewrite (proj2 (Z.eqb_neq batch 0)) by lia. cbn zeta. rewrite (wrap64_id (num + batch - 1)) by lia. f_equal.
  set (B := ((num + batch - 1) / batch)%Z).
  assert (HB0 : (0 <= B)%Z) by (apply Z.div_pos; lia).
  assert (HB1 : (B * batch <= num + batch - 1)%Z) by (unfold B; rewrite Z.mul_comm; apply Z.mul_div_le; lia).
  assert (HB2 : (num <= B * batch)%Z). { unfold B. pose proof (Z.mod_pos_bound (num + batch - 1) batch ltac:(lia)). pose proof (Z.div_mod (num + batch - 1) batch ltac:(lia)). lia. }
  assert (G : forall n, (n <= Z.to_nat B)%nat ->
    concat (map (fun k => map (fun i => (wrap64 (Z.of_nat k * batch) + Z.of_nat i)%Z)
       (seq 0 (Z.to_nat (wrap64 (Z.min (wrap64 (wrap64 (Z.of_nat k * batch) + batch)) num - wrap64 (Z.of_nat k * batch)))))) (seq 0 n))
    = map Z.of_nat (seq 0 (Z.to_nat (Z.min (Z.of_nat n * batch) num)))).
  { induction n as [|n IH]; intros Hle.
    - cbn [seq map concat Z.of_nat Z.mul]. rewrite Z.min_l by lia. reflexivity.
    - rewrite seq_S, map_app, concat_app, IH by lia. cbn [plus map concat]. rewrite app_nil_r.
      assert (K : (Z.of_nat n * batch <= num - 1)%Z) by nia. rewrite (wrap64_id (Z.of_nat n * batch)) by nia. rewrite (wrap64_id (Z.of_nat n * batch + batch)) by nia.
      rewrite (Z.min_l (Z.of_nat n * batch) num) by lia.
      replace (Z.of_nat (S n) * batch)%Z with (Z.of_nat n * batch + batch)%Z by lia. rewrite (wrap64_id (Z.min _ _ - _)) by lia.
      set (a := Z.to_nat (Z.of_nat n * batch)). replace (Z.of_nat n * batch)%Z with (Z.of_nat a) by (unfold a; rewrite Z2Nat.id; nia).
      rewrite seg, <- map_app. f_equal. replace (Z.to_nat (Z.min (Z.of_nat a + batch) num)) with (a + Z.to_nat (Z.min (Z.of_nat a + batch) num - Z.of_nat a)).
      + rewrite seq_app. reflexivity.
      + assert (Z.of_nat a <= num - 1)%Z by (unfold a; rewrite Z2Nat.id; nia). lia. }
  rewrite (G (Z.to_nat B) ltac:(lia)). rewrite Z2Nat.id by exact HB0. rewrite Z.min_r by lia. reflexivity.
Qed.
Lemma order_zero num : epoch_order num 0 = UB UB_div_zero. Proof. reflexivity. Qed.
Lemma order_negative num batch : (- 2 ^ 31 <= batch < 0)%Z -> (1 - batch <= num < 2 ^ 63)%Z -> epoch_order num batch = Ret [].
Proof.
  intros Hb Hn. unfold epoch_order. assert (W : wrap64 batch = (2 ^ 64 + batch)%Z) by (unfold wrap64; rewrite <- (Z.mod_add batch 1) by lia; rewrite Z.mod_small by lia; lia).
  rewrite W. rewrite (proj2 (Z.eqb_neq _ 0)) by lia. cbn zeta.
  assert (W2 : wrap64 (num + (2 ^ 64 + batch) - 1) = (num + batch - 1)%Z) by (unfold wrap64; replace (num + (2 ^ 64 + batch) - 1)%Z with (num + batch - 1 + 1 * 2 ^ 64)%Z by lia; rewrite Z.mod_add by lia; apply Z.mod_small; lia).
  rewrite W2, Z.div_small by lia. reflexivity.
Qed.

(** the frequency *)
Local Open Scope R_scope.
Lemma freq_ok p : oks p -> bpow radix2 (-27) <= R p -> exists q, frequency p = Ret q /\ (1 <= q <= 2 ^ 27)%Z.
Proof.
  intros Op Hp. assert (E1 : oks (sofZ 1) /\ R (sofZ 1) = 1) by (split; [split; vm_compute; reflexivity|vm_compute; lra]). destruct E1 as [O1 E1].
  assert (P0 : 0 < bpow radix2 (-27)) by apply bpow_gt_0. assert (I : 0 < / R p <= bpow radix2 27).
  { split; [apply Rinv_0_lt_compat; lra|]. replace (bpow radix2 27) with (/ bpow radix2 (-27)) by (rewrite <- bpow_opp; reflexivity). apply Rinv_le; lra. }
  assert (B27 : bpow radix2 27 = 134217728) by (cbn; lra).
  destruct (div_s (sofZ 1) p O1 Op) as [[V D] E]; [lra|rewrite E1; unfold Rdiv; rewrite Rmult_1_l; unfold mids; assert (bpow radix2 27 <= bpow radix2 100) by (apply bpow_le; lia); assert (0 < bpow radix2 100) by apply bpow_gt_0; lra|].
  rewrite E1 in E. unfold Rdiv in E. rewrite Rmult_1_l in E.
  assert (Z0 : oks (sofZ 0) /\ R (sofZ 0) = 0) by (split; [split; vm_compute; reflexivity|vm_compute; lra]).
  assert (Z27 : oks (sofZ 134217728) /\ R (sofZ 134217728) = 134217728) by (split; [split; vm_compute; reflexivity|vm_compute; lra]).
  assert (L : 0 <= R (sdiv (sofZ 1) p)) by (rewrite E; destruct Z0 as [Z0 Z0']; rewrite <- Z0'; apply rnd32_ge; [exact Z0|lra]).
  assert (U : R (sdiv (sofZ 1) p) <= 134217728) by (rewrite E; destruct Z27 as [Z1 Z1']; rewrite <- Z1'; apply rnd32_le; [exact Z1|lra]).
  destruct (trunc_between (sdiv (sofZ 1) p) 134217728 D) as (z & Ez & Hz); [split; [exact L|exact U]|].
  unfold frequency, fcast. rewrite Ez. replace (fitsb int32 z) with true; [|unfold fitsb, imin, imax; cbn; symmetry; apply andb_true_intro; split; apply Z.leb_le; lia].
  cbn [obind]. exists (Z.max 1 z). split; [reflexivity|]. change (2 ^ 27)%Z with 134217728%Z. lia.
Qed.

Lemma trunc_floor x z : 0 <= R x -> trunc_sf x = Some z -> z = Zfloor (R x).
Proof.
  destruct x as [sg|sg| |sg m e]; cbn [trunc_sf]; intros L H; try discriminate.
  - injection H as <-. symmetry. unfold R, SF2R. apply (Zfloor_IZR 0).
  - injection H as <-. unfold R, SF2R, F2R in *. cbn [Fnum Fexp] in *. pose proof (bpow_gt_0 radix2 e) as P.
    destruct sg; cbn [cond_Zopp] in *.
    { exfalso. assert (IZR (- Z.pos m) < 0) by (apply IZR_lt; lia). nra. }
    destruct (Z.leb_spec 0 e) as [He|He].
    + rewrite <- IZR_Zpower by exact He. rewrite <- mult_IZR. symmetry. apply Zfloor_IZR.
    + symmetry. replace e with (- (- e))%Z at 1 by lia. rewrite bpow_opp, <- IZR_Zpower by lia. apply (Zfloor_div (Z.pos m) (2 ^ (- e))). apply Z.pow_nonzero; lia.
Qed.
Lemma freq_value p : oks p -> bpow radix2 (-27) <= R p -> exists q, frequency p = Ret q /\ q = Z.max 1 (Zfloor (rnd32 (1 / R p))).
Proof.
  intros Op Hp. assert (E1 : oks (sofZ 1) /\ R (sofZ 1) = 1) by (split; [split; vm_compute; reflexivity|vm_compute; lra]). destruct E1 as [O1 E1].
  assert (P0 : 0 < bpow radix2 (-27)) by apply bpow_gt_0. assert (I : 0 < / R p <= bpow radix2 27).
  { split; [apply Rinv_0_lt_compat; lra|]. replace (bpow radix2 27) with (/ bpow radix2 (-27)) by (rewrite <- bpow_opp; reflexivity). apply Rinv_le; lra. }
  assert (B27 : bpow radix2 27 = 134217728) by (cbn; lra).
  destruct (div_s (sofZ 1) p O1 Op) as [[V D] E]; [lra|rewrite E1; unfold Rdiv; rewrite Rmult_1_l; unfold mids; assert (bpow radix2 27 <= bpow radix2 100) by (apply bpow_le; lia); assert (0 < bpow radix2 100) by apply bpow_gt_0; lra|].
  rewrite E1 in E. unfold Rdiv in E. rewrite Rmult_1_l in E.
  assert (Z0 : oks (sofZ 0) /\ R (sofZ 0) = 0) by (split; [split; vm_compute; reflexivity|vm_compute; lra]).
  assert (Z27 : oks (sofZ 134217728) /\ R (sofZ 134217728) = 134217728) by (split; [split; vm_compute; reflexivity|vm_compute; lra]).
  assert (L : 0 <= R (sdiv (sofZ 1) p)) by (rewrite E; destruct Z0 as [Z0 Z0']; rewrite <- Z0'; apply rnd32_ge; [exact Z0|lra]).
  assert (U : R (sdiv (sofZ 1) p) <= 134217728) by (rewrite E; destruct Z27 as [Z1 Z1']; rewrite <- Z1'; apply rnd32_le; [exact Z1|lra]).
  destruct (trunc_between (sdiv (sofZ 1) p) 134217728 D) as (z & Ez & Hz); [split; [exact L|exact U]|].
  unfold frequency, fcast. rewrite Ez. replace (fitsb int32 z) with true; [|unfold fitsb, imin, imax; cbn; symmetry; apply andb_true_intro; split; apply Z.leb_le; lia].
  cbn [obind]. exists (Z.max 1 z). split; [reflexivity|]. f_equal.
  unfold Rdiv. rewrite Rmult_1_l, <- E. apply trunc_floor; assumption.
Qed.

(** how many weights are tested *)
Lemma tests_ok w : (Z.of_nat (fold_right (fun row t => length row + t)%nat O w) <= 2 ^ 31)%Z -> exists n, tests_of w = Ret n.
Proof.
  intros H. unfold tests_of. set (t := Z.of_nat _) in *. destruct (ofZ_s t) as [Ot _]; [lia|].
  assert (M : R (sofZ t) <= R (sofZ 2147483648)) by (apply ofZ_s_mono; lia). assert (M0 : R (sofZ 0) <= R (sofZ t)) by (apply ofZ_s_mono; lia).
  assert (Z0 : oks (sofZ 0) /\ R (sofZ 0) = 0) by (split; [split; vm_compute; reflexivity|vm_compute; lra]).
  assert (Z31 : oks (sofZ 2147483648) /\ R (sofZ 2147483648) = 2147483648) by (split; [split; vm_compute; reflexivity|vm_compute; lra]).
  assert (T : oks (slit 1 10) /\ 0 <= R (slit 1 10) <= 1) by (split; [split; vm_compute; reflexivity|vm_compute; lra]).
  destruct Z0 as [Z0 E0], Z31 as [Z31 E31], T as [OT [T0 T1]]. rewrite E31 in M. rewrite E0 in M0.
  assert (B : 0 <= R (sofZ t) * R (slit 1 10) <= 2147483648). { split; [apply Rmult_le_pos; assumption|]. apply Rle_trans with (R (sofZ t) * 1); [apply Rmult_le_compat_l; assumption|lra]. }
  destruct (mul_s (sofZ t) (slit 1 10) Ot OT) as [[V D] E].
  { unfold mids. assert (bpow radix2 31 <= bpow radix2 100) by (apply bpow_le; lia). assert (bpow radix2 31 = 2147483648) by (cbn; lra). lra. }
  assert (L : 0 <= R (smul (sofZ t) (slit 1 10))) by (rewrite E, <- E0; apply rnd32_ge; [exact Z0|lra]).
  assert (U : R (smul (sofZ t) (slit 1 10)) <= 2147483648) by (rewrite E, <- E31; apply rnd32_le; [exact Z31|lra]).
  destruct (trunc_between (smul (sofZ t) (slit 1 10)) 2147483648 D) as (z & Ez & Hz); [split; [exact L|exact U]|].
  unfold to_size. rewrite Ez. replace ((0 <=? z) && (z <? 2 ^ 64))%Z%bool with true; [|symmetry; apply andb_true_intro; split; [apply Z.leb_le|apply Z.ltb_lt]; lia].
  cbn [obind]. eexists; reflexivity.
Qed.
Local Open Scope nat_scope.
Lemma concat_length {A} (l : list (list A)) : length (concat l) = fold_right (fun x t => length x + t) 0 l.
Proof. induction l as [|x l IH]; cbn; [reflexivity|]. rewrite app_length, IH. reflexivity. Qed.
Lemma row_cells_length l i w : length (row_cells l i w) = fold_right (fun row t => length row + t) 0 w.
Proof. unfold row_cells. revert i; induction w as [|row w IH]; intros i; cbn [mapi concat fold_right]; [reflexivity|]. rewrite app_length, IH, map_length, seq_length. reflexivity. Qed.
Lemma layer_small m p : In p m -> fold_right (fun row t => length row + t) 0 (fst p) <= parameters m.
Proof.
  intros H. unfold parameters. rewrite <- wcells_eq. enough (G : forall l, fold_right (fun row t => length row + t) 0 (fst p) <= length (wcells l m)) by (specialize (G 0); lia).
  induction m as [|q m IH]; [destruct H|]. intros l. unfold wcells; cbn [mapi concat]. rewrite app_length, row_cells_length. destruct H as [-> | H]; [lia|].
  specialize (IH H (S l)). unfold wcells in IH. lia.
Qed.
Lemma tests_fit_ok m : (Z.of_nat (parameters m) <= 2 ^ 31)%Z -> tests_fit m.
Proof. intros H. apply Forall_forall. intros p Hp. apply tests_ok. pose proof (layer_small m p Hp). lia. Qed.

Lemma lens_shape m m' : shape m' = shape m -> lens (map fst m') = lens (map fst m).
Proof. intros H. unfold shape in H. apply (f_equal (map fst)) in H. rewrite !map_map in H. cbn [fst] in H. unfold lens. rewrite !map_map. exact H. Qed.
Lemma legal_shape m m' c : shape m' = shape m -> legal_cdraw m c -> legal_cdraw m' c.
Proof.
  intros H L l k Hl. assert (HL : length m' = length m). { unfold shape in H. rewrite <- (map_length (fun p => (map (@length N) (fst p), length (snd p))) m'), H. apply map_length. }
  rewrite HL in Hl. specialize (L l k Hl). destruct L as [v L]. pose proof (lens_shape m m' H) as E. 
  clear -L E. unfold get3 in *. set (i := fst (fst (c l k))) in *. set (j := snd (fst (c l k))) in *.
  assert (G : exists v, get3 (map fst m') l i j = Some v); [|exact G]. 
  destruct (nth_error (map fst m) l) as [w|] eqn:E1; [|discriminate]. destruct (nth_error w i) as [row|] eqn:E2; [|discriminate].
  pose proof (f_equal (fun z => nth_error z l) E) as H1. unfold lens in H1. rewrite !(nth_error_map _ l (map fst _)), E1 in H1. unfold get3. destruct (nth_error (map fst m') l) as [w'|]; [|discriminate H1].
  injection H1 as H1. pose proof (f_equal (fun z => nth_error z i) H1) as H2. cbn beta in H2. rewrite !nth_error_map, E2 in H2. destruct (nth_error w' i) as [row'|]; [|discriminate H2].
  injection H2 as H2. destruct (nth_error row' j) as [v'|] eqn:E3; [exists v'; reflexivity|]. apply nth_error_None in E3. assert (j < length row) by (apply nth_error_Some; congruence). lia.
Qed.
Lemma crit_fits_lens r m : crit_fits r m <-> match crit r with Some c => lens c = lens (map fst m) | None => True end.
Proof. unfold crit_fits, lens. destruct (crit r); [|tauto]. rewrite map_map. tauto. Qed.

Section S.
Variables (expf : sf -> sf) (s : pnn) (samples : list (list N * list N)).
Hypothesis HI : Inv s.
Hypothesis Hin : 0 < hd O (sizes s).
Hypothesis Hout : 0 < last (sizes s) O.
Hypothesis HF : Forall (fun p => length (fst p) = hd O (sizes s) /\ length (snd p) = last (sizes s) O) samples.
Variables (m0 : list (list (list N) * list N)) (batch freq : Z) (d : nat -> idraw) (cd : nat -> cdraw).
Hypothesis NE : samples <> [].
Hypothesis HB : (1 <= batch < 2 ^ 31)%Z.
Hypothesis HS : (Z.of_nat (length samples) < 2 ^ 63)%Z.
Hypothesis HQ : (1 <= freq <= 2 ^ 27)%Z.
Hypothesis HC : forall k, legal_cdraw m0 (cd k).
Lemma fits_small z : (0 <= z < 2 ^ 31)%Z -> fitsb int32 z = true.
Proof. intros H. unfold fitsb, imin, imax; cbn. apply andb_true_intro; split; apply Z.leb_le; lia. Qed.
Lemma fits_marked r c m : crit_fits r m -> crit_fits (marked expf s samples r c m) m.
Proof. rewrite !crit_fits_lens. unfold marked. cbn [crit with_crit]. intros H. rewrite lens_marks. unfold map_of. destruct (crit r); [exact H|apply lens_new]. Qed.
Lemma epochs_ok n e r c m : shape m = shape m0 -> crit_fits r m -> (0 <= flips r)%Z -> (flips r + Z.of_nat (parameters m0) * Z.of_nat n < 2 ^ 31)%Z -> (Z.of_nat (parameters m0) < 2 ^ 31)%Z ->
  exists r' s', epochs_from expf r (at_ s c m) samples batch freq e n d cd = Ret (r', s').
Proof.
  revert e r c m; induction n as [|n IH]; intros e r c m Sh CF F0 FB PB; cbn [epochs_from]; [eauto|].
  pose proof (hits_bound r (d e) m) as HB1. rewrite (parameters_shape m m0 Sh) in HB1.
  assert (ShS : shape (strucked r (d e) (Z.of_nat e) freq m) = shape m0) by (rewrite shape_strucked; exact Sh).
  destruct (epoch_ok expf s samples HI Hin Hout HF r c m batch freq (Z.of_nat e) (d e) (cd (S e)) NE) as (r1 & c1 & E1).
  - exists (map Z.of_nat (seq 0 (Z.to_nat (Z.of_nat (length samples))))). split; [apply order_all; [lia|exact HB]|]. rewrite Nat2Z.id. apply Forall_forall. intros k Hk. apply in_map_iff in Hk.
    destruct Hk as (q & <- & Hq). apply in_seq in Hq. rewrite Nat2Z.id. lia.
  - apply fits_small. lia.
  - apply fits_small. lia.
  - apply fits_small. lia.
  - exact CF.
  - apply (legal_shape m0); [exact ShS|apply HC].
  - apply tests_fit_ok. rewrite (parameters_shape _ m0 ShS). lia.
  - rewrite E1. cbn [obind fst snd]. destruct (epoch_ret expf s samples HI Hin Hout HF _ _ _ _ _ _ _ _ _ _ E1) as (c2 & _ & HR).
    assert (FI : (0 <= flips (injected s samples r (d e) (Z.of_nat e) freq m) <= flips r + Z.of_nat (parameters m0))%Z).
    { unfold injected. destruct (_ =? 0)%Z; [unfold after_round; cbn [flips with_drop with_flips]; lia|lia]. }
    assert (FR : flips r1 = flips (injected s samples r (d e) (Z.of_nat e) freq m)) by (destruct HR as [-> | (_ & _ & _ & ->)]; reflexivity).
    assert (CI : crit_fits (injected s samples r (d e) (Z.of_nat e) freq m) (strucked r (d e) (Z.of_nat e) freq m)).
    { rewrite crit_fits_lens in *. rewrite (lens_shape m (strucked r (d e) (Z.of_nat e) freq m)) by (rewrite shape_strucked; reflexivity).
      unfold injected. destruct (_ =? 0)%Z; exact CF. }
    apply IH; [exact ShS| |lia|lia|exact PB]. destruct HR as [-> | (_ & _ & _ & ->)]; [exact CI|apply fits_marked, CI].
Qed.
End S.
Lemma train_returns expf r s data labels samples cfg d cd : reachable s -> 0 < hd O (sizes s) -> 0 < last (sizes s) O -> as_samples (hd O (sizes s)) (last (sizes s) O) samples data labels ->
  samples <> [] -> (Z.of_nat (length samples) < 2 ^ 63)%Z -> (1 <= batch_size cfg < 2 ^ 31)%Z -> (epochs cfg < 2 ^ 31)%Z ->
  oks (prob r) -> (bpow radix2 (-27) <= R (prob r))%R -> crit_fits r (mirror s) -> (forall k, legal_cdraw (mirror s) (cd k)) ->
  (0 <= flips r)%Z -> (flips r + Z.of_nat (parameters (mirror s)) * Z.max 1 (epochs cfg) < 2 ^ 31)%Z ->
  exists r' s', rat_train expf r s data labels cfg d cd = Ret (r', s', getStats r').
Proof.
  intros HR Hin Hout HA NE HS HB HE HP HP2 CF HC F0 FB. pose proof (Inv_reachable s HR) as HI. pose proof HA as HA2. destruct HA as (_ & _ & HF).
  rewrite (rat_unfold expf s samples Hin Hout HF r data labels cfg d cd HA2).
  assert (PB : (Z.of_nat (parameters (mirror s)) < 2 ^ 31)%Z) by nia.
  destruct (freq_ok (prob r) HP HP2) as (q & Eq & Hq).
  assert (G : exists c0, match target r, crit r with true, None => updateCriticalityMap expf r s (sub_in samples) (sub_out samples) (cd O) | _, _ => Ret (r, s) end = Ret (first_map expf s samples r cd, at_ s c0 (mirror s)) /\ crit_fits (first_map expf s samples r cd) (mirror s)).
  { unfold first_map. destruct (target r); [|exists (counter s); rewrite <- at_self; auto]. destruct (crit r) as [k|] eqn:K; [exists (counter s); rewrite <- at_self; auto|].
    destruct (update_ok expf s samples HI Hin Hout HF r (counter s) (mirror s) (cd O) NE CF (HC O)) as [c0 E]; [apply tests_fit_ok; lia|].
    exists c0. rewrite <- at_self in E. split; [exact E|]. apply fits_marked; exact CF. }
  destruct G as (c0 & E0 & CF0). rewrite E0. cbn [obind fst snd]. rewrite Eq. cbn [obind]. destruct (acc_ok s samples HI Hin HF c0 (mirror s)) as [c1 E1]. rewrite E1. cbn [obind fst snd].
  destruct (first_map_core expf s samples r cd) as (_ & _ & _ & FF & _).
  destruct (epochs_ok expf s samples HI Hin Hout HF (mirror s) (batch_size cfg) q d cd NE HB HS Hq HC (Z.to_nat (epochs cfg)) O (first_map expf s samples r cd) c1 (mirror s) eq_refl CF0) as (r2 & s2 & E2).
  - rewrite FF; exact F0.
  - rewrite FF. nia.
  - exact PB.
  - rewrite E2. cbn [obind fst snd]. exists (finish r2 (epochs cfg) q), s2. reflexivity.
Qed.
