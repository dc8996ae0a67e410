(** C109-C115 about histories. *)
From Coq Require Import List NArith ZArith Bool SpecFloat Reals Permutation Lia Lra Sorted.
Import ListNotations.
From Flocq Require Import Core.
From Flocq.IEEE754 Require Import BinarySingleNaN.
From Verif Require Import Outcome Words Arith Floats FloatsR HealthFloat BitsFloat_Proofs RMA3_Proofs Power_Model Power_Spec Power_Proofs Power2_Proofs.
Local Open Scope R_scope.

Notation all_ok l := (Forall (fun x : Z * comp => level_ok (snd x)) l).
Notation all_sens l := (Forall (fun x : Z * comp => sensible (snd x)) l).
Lemma nolev_eq a b : nolev a = nolev b -> cmin a = cmin b /\ cmax a = cmax b /\ cpmin a = cpmin b /\ cpmax a = cpmax b /\ ccrit a = ccrit b.
Proof. destruct a, b. unfold nolev, with_level. cbn. intros H. injection H. auto. Qed.
Lemma some_inj {A} (a b : A) : Some a = Some b -> a = b.
Proof. congruence. Qed.
Lemma sensible_nolev a b : nolev a = nolev b -> sensible a -> sensible b.
Proof. intros H. apply nolev_eq in H. destruct H as (A & B & C & D & E). unfold sensible. rewrite A, B, C, D, E. auto. Qed.

(** *** Budgets *)
Lemma frac_budget w q : okd w -> okd q -> 0 <= R w -> 0 <= R q <= 1 -> okd (dmul w q) /\ R (dmul w q) = rnd64 (R w * R q) /\ 0 <= R (dmul w q) <= R w.
Proof.
  intros Ow Oq H Q. pose proof Ow as [Vw Fw]. pose proof Oq as [Vq Fq]. assert (B : 0 <= R w * R q <= R w) by nra.
  assert (N : 0 <= rnd64 (R w * R q) <= R w) by (split; [apply rnd_pos; lra|apply rnd64_le; [exact Ow|lra]]).
  destruct (mul_R 53 1024 w q Vw Vq Fw Fq) as (A1 & A2 & A3).
  { apply Rle_lt_trans with (Rabs (R w)); [|apply (fin_bound 53 1024); exact Vw]. rewrite !Rabs_pos_eq; lra. }
  change (SFmul 53 1024 w q) with (dmul w q) in *. split; [split; assumption|]. split; [exact A1|]. rewrite A1. exact N.
Qed.
Lemma frac_ok n : (n = 2 \/ n = 4 \/ n = 7 \/ n = 9)%Z -> okd (dlit n 10).
Proof. intros [ -> | [ -> | [ -> | -> ]]]; split; vm_compute; reflexivity. Qed.
Lemma frac_vals : 0 < R (dlit 2 10) /\ R (dlit 2 10) < R (dlit 4 10) /\ R (dlit 4 10) < R (dlit 7 10) /\ R (dlit 7 10) < R (dlit 9 10) /\ R (dlit 9 10) < 1.
Proof.
  destruct zero_ok as [Z1 Z2]. destruct (ofZ_ex 1 ltac:(reflexivity)) as [O1 O2].
  pose proof (flt_d (dofZ 0) (dlit 2 10) Z1 (frac_ok 2 ltac:(auto))) as A. pose proof (flt_d _ _ (frac_ok 2 ltac:(auto)) (frac_ok 4 ltac:(auto))) as B.
  pose proof (flt_d _ _ (frac_ok 4 ltac:(auto)) (frac_ok 7 ltac:(auto))) as C. pose proof (flt_d _ _ (frac_ok 7 ltac:(auto)) (frac_ok 9 ltac:(auto))) as D.
  pose proof (flt_d _ _ (frac_ok 9 ltac:(auto)) O1) as E. rewrite Z2 in A. rewrite O2 in E.
  repeat split; [apply A|apply B|apply C|apply D|apply E]; vm_compute; reflexivity.
Qed.
Theorem budgets_ordered w : okd w -> 0 <= R w ->
  let b st := pap_budget (pap_new w st) in
  (forall st, okd (b st)) /\
  0 <= R (b EMERGENCY) <= R (b LOW_POWER) /\ R (b LOW_POWER) <= R (b NOMINAL) /\ R (b NOMINAL) <= R (b SCIENCE) /\ R (b SCIENCE) <= R (b PEAK) /\ b PEAK = w.
Proof.
  intros Ow H b. destruct frac_vals as (V1 & V2 & V3 & V4 & V5).
  destruct (frac_budget w _ Ow (frac_ok 2 ltac:(auto)) H ltac:(lra)) as (A1 & A2 & A3).
  destruct (frac_budget w _ Ow (frac_ok 4 ltac:(auto)) H ltac:(lra)) as (B1 & B2 & B3).
  destruct (frac_budget w _ Ow (frac_ok 7 ltac:(auto)) H ltac:(lra)) as (C1 & C2 & C3).
  destruct (frac_budget w _ Ow (frac_ok 9 ltac:(auto)) H ltac:(lra)) as (D1 & D2 & D3).
  assert (M : forall x y, x <= y -> rnd64 (R w * x) <= rnd64 (R w * y)) by (intros; apply rnd_mono; apply Rmult_le_compat_l; lra).
  unfold b, pap_budget, pap_new, state_budget. cbn [watts pst]. split; [intros []; assumption|]. rewrite A2, B2, C2, D2 in *.
  split; [split; [apply rnd_pos; nra|apply M; lra]|]. split; [apply M; lra|]. split; [apply M; lra|]. split; [lra|reflexivity].
Qed.
Lemma budget_sens w st : sensible_watts w -> okd (state_budget w st) /\ 0 <= R (state_budget w st) <= 4503599627370496 /\ R (state_budget w st) <= R w.
Proof.
  intros [Ow H]. destruct frac_vals as (V1 & V2 & V3 & V4 & V5).
  destruct st; cbn [state_budget].
  - destruct (frac_budget w _ Ow (frac_ok 2 ltac:(auto)) ltac:(lra) ltac:(lra)) as (A1 & _ & A3). split; [exact A1|lra].
  - destruct (frac_budget w _ Ow (frac_ok 4 ltac:(auto)) ltac:(lra) ltac:(lra)) as (A1 & _ & A3). split; [exact A1|lra].
  - destruct (frac_budget w _ Ow (frac_ok 7 ltac:(auto)) ltac:(lra) ltac:(lra)) as (A1 & _ & A3). split; [exact A1|lra].
  - destruct (frac_budget w _ Ow (frac_ok 9 ltac:(auto)) ltac:(lra) ltac:(lra)) as (A1 & _ & A3). split; [exact A1|lra].
  - split; [exact Ow|lra].
Qed.

Section O.
Variable ord : list sf -> list nat.
Hypothesis ordP : forall cs, Permutation (ord cs) (seq 0 (length cs)).
Notation start l := (at_min (sorted_comps ord l)).

(** *** From the history to the components *)
Lemma inv_sens w st0 t s : inv ord w st0 t s -> all_sensible t -> all_sens (comps s).
Proof.
  intros I A. apply Forall_forall. intros [k c] H. cbn [snd]. pose proof (i_desc _ _ _ _ _ I k) as D.
  assert (L : lookup k (comps s) = Some c) by (apply lookup_in; [apply (ids_inc_nodup _ _ (i_inc _ _ _ _ _ I))|exact H]).
  rewrite L in D. destruct (described t k) as [d|] eqn:E; [|discriminate]. cbn in D. apply some_inj in D.
  apply (sensible_nolev d c); [symmetry; exact D|]. apply (A k d E).
Qed.
Lemma inv_ids w st0 t s ks : inv ord w st0 t s -> present t ks -> Permutation ks (map fst (comps s)).
Proof.
  intros I [ND P]. pose proof (ids_inc_nodup _ _ (i_inc _ _ _ _ _ I)) as N. apply NoDup_Permutation; auto.
  intros k. rewrite P. pose proof (i_desc _ _ _ _ _ I k) as D. destruct (lookup k (comps s)) as [c|] eqn:L.
  - destruct (described t k); [|discriminate]. split; [intros _|congruence]. apply lookup_in in L; [|exact N]. apply (in_map fst) in L. exact L.
  - destruct (described t k); [discriminate|]. apply lookup_none in L. split; [congruence|tauto].
Qed.
Lemma inv_len w st0 t s ks : inv ord w st0 t s -> present t ks -> length ks = length (comps s) /\ (Z.of_nat (length (comps s)) <= 2 ^ 31)%Z.
Proof.
  intros I P. pose proof (inv_ids _ _ _ _ _ I P) as Q. split; [rewrite (Permutation_length Q); apply map_length|].
  destruct (i_inc _ _ _ _ _ I) as [S F]. pose proof (i_cnt _ _ _ _ _ I) as C.
  assert (B : (length (map fst (comps s)) <= length (map Z.of_nat (seq 0 (Z.to_nat (counter s)))))%nat).
  { apply NoDup_incl_length; [apply (ids_inc_nodup _ _ (i_inc _ _ _ _ _ I))|]. intros k Hk. rewrite Forall_forall in F. specialize (F _ Hk).
    apply in_map_iff. exists (Z.to_nat k). split; [lia|]. apply in_seq. lia. }
  rewrite map_length, map_length, seq_length in B. lia.
Qed.
Lemma inv_min w st0 t s ks : inv ord w st0 t s -> present t ks -> min_watts t ks = rsum minR (comps s).
Proof.
  intros I P. pose proof (inv_ids _ _ _ _ _ I P) as Q.
  transitivity (min_watts t (map fst (comps s))).
  - clear P. unfold min_watts. induction Q; cbn [fold_right]; lra.
  - pose proof (ids_inc_nodup _ _ (i_inc _ _ _ _ _ I)) as N. pose proof (i_desc _ _ _ _ _ I) as D.
    assert (H : forall k c, In (k, c) (comps s) -> exists d, described t k = Some d /\ cpmin d = cpmin c).
    { intros k c Hin. specialize (D k). rewrite (proj2 (lookup_in k c _ N) Hin) in D. destruct (described t k) as [d|]; [|discriminate].
      exists d. split; [reflexivity|]. cbn in D. apply some_inj in D. apply nolev_eq in D. symmetry. apply D. }
    clear -H. unfold min_watts, rsum. induction (comps s) as [|[k c] r IH]; [reflexivity|]. cbn [map fst snd fold_right].
    destruct (H k c) as (d & E & M); [left; reflexivity|]. rewrite E, IH; [unfold minR; rewrite M; reflexivity|]. intros; apply H; right; assumption.
Qed.
Lemma count_INR ks l : length ks = length l -> count ks = INR (@length (Z * comp) l).
Proof. intros H. unfold count. rewrite H, <- INR_IZR_INZ. reflexivity. Qed.
Lemma level_of w st0 t s k d : inv ord w st0 t s -> described t k = Some d -> exists c, In (k, c) (comps s) /\ In (k, c) (rebalanced ord (pap_budget s) (comps s)) /\
  pap_level k s = Some (ccur c) /\ nolev c = nolev d.
Proof.
  intros I E. pose proof (i_desc _ _ _ _ _ I k) as D. rewrite E in D. destruct (lookup k (comps s)) as [c|] eqn:L; [|discriminate].
  assert (G : get_level k (comps s) = option_map ccur (lookup k (comps s))).
  { clear. induction (comps s) as [|[i c] r IH]; [reflexivity|]. cbn [get_level lookup]. destruct (i =? k)%Z; [reflexivity|exact IH]. }
  exists c. pose proof (ids_inc_nodup _ _ (i_inc _ _ _ _ _ I)) as N. apply lookup_in in L as Hin; [|exact N]. split; [exact Hin|]. split.
  - apply (Permutation_in (l := comps s)); [apply (i_set _ _ _ _ _ I)|exact Hin].
  - split; [unfold pap_level; rewrite G, L; reflexivity|]. cbn in D. apply some_inj in D. exact D.
Qed.

Section Run.
Variables (w : sf) (st0 : pstate) (l : list pop) (t : history) (s : pap) (ks : list Z).
Hypotheses (Hrun : pap_run ord l (pap_new w st0) = Ret (t, s)) (Hw : sensible_watts w) (Hs : all_sensible t) (Hk : present t ks).
Lemma Hinv : inv ord w st0 t s.
Proof. apply (reachable_inv ord ordP w st0 l). exact Hrun. Qed.
Lemma Hbud : okd (pap_budget s) /\ 0 <= R (pap_budget s) <= 4503599627370496 /\ R (pap_budget s) <= R w.
Proof. unfold pap_budget. rewrite (i_w _ _ _ _ _ Hinv). apply budget_sens. exact Hw. Qed.
Lemma normal_hist : min_watts t ks <= R (pap_budget s) * (1 - count ks * ulp52) -> fgt (sum_power (start (comps s))) (pap_budget s) = false.
Proof.
  intros H. destruct (inv_len _ _ _ _ _ Hinv Hk) as [E1 E2]. destruct Hbud as (B1 & B2 & _).
  apply normal_if; auto; [apply (inv_sens _ _ _ _ Hinv Hs)|lra|]. rewrite <- (inv_min _ _ _ _ _ Hinv Hk). rewrite (count_INR _ _ E1) in H. unfold ulp52 in H.
  replace (2 * e53) with (1 / 4503599627370496) by lra. exact H.
Qed.
Theorem levels_normal : min_watts t ks <= R (pap_budget s) * (1 - count ks * ulp52) ->
  forall k c, described t k = Some c -> exists x, pap_level k s = Some x /\ okd x /\ R (cmin c) <= R x <= R (cmax c).
Proof.
  intros H k d E. destruct (level_of _ _ _ _ _ _ Hinv E) as (c & _ & Hin & Lv & Nl). exists (ccur c). split; [exact Lv|].
  destruct (inv_len _ _ _ _ _ Hinv Hk) as [_ E2]. destruct Hbud as (B1 & B2 & _).
  destruct (rebalanced_normal ord ordP (pap_budget s) (comps s) E2 (inv_sens _ _ _ _ Hinv Hs) B1 B2 (normal_hist H)) as (A & _).
  rewrite Forall_forall in A. specialize (A _ Hin). cbn [snd] in A. apply nolev_eq in Nl. destruct Nl as (N1 & N2 & _). rewrite <- N1, <- N2. apply A.
Qed.
Theorem levels_emergency : min_watts t ks > R (pap_budget s) * (1 + count ks * ulp52) ->
  forall k c, described t k = Some c -> pap_level k s = Some (if fgt (ccrit c) (dlit 7 10) then cmin c else dmul (cmin c) (dlit 5 10)).
Proof.
  intros H k d E. destruct (level_of _ _ _ _ _ _ Hinv E) as (c & _ & Hin & Lv & Nl).
  destruct (inv_len _ _ _ _ _ Hinv Hk) as [E1 E2]. destruct Hbud as (B1 & B2 & _).
  apply rebalanced_emergency in Hin.
  - rewrite Lv, Hin. unfold emergency_level. apply nolev_eq in Nl. destruct Nl as (N1 & N2 & _ & _ & N3). rewrite N1, N3. reflexivity.
  - apply emergency_if; auto; [apply (inv_sens _ _ _ _ Hinv Hs)|lra|]. rewrite <- (inv_min _ _ _ _ _ Hinv Hk). rewrite (count_INR _ _ E1) in H. unfold ulp52 in H.
    replace (2 * e53) with (1 / 4503599627370496) by lra. exact H.
Qed.
Theorem levels_any : forall k c, described t k = Some c -> exists x, pap_level k s = Some x /\
  ((okd x /\ R (cmin c) <= R x <= R (cmax c)) \/ (fgt (ccrit c) (dlit 7 10) = false /\ x = dmul (cmin c) (dlit 5 10))).
Proof.
  intros k d E. destruct (level_of _ _ _ _ _ _ Hinv E) as (c & Hin0 & Hin & Lv & Nl). exists (ccur c). split; [exact Lv|].
  destruct (inv_len _ _ _ _ _ Hinv Hk) as [_ E2]. destruct Hbud as (B1 & B2 & _).
  pose proof (inv_sens _ _ _ _ Hinv Hs) as SS.
  apply nolev_eq in Nl. destruct Nl as (N1 & N2 & _ & _ & N3). rewrite <- N1, <- N2, <- N3.
  destruct (fgt (sum_power (start (comps s))) (pap_budget s)) eqn:EM.
  - pose proof (rebalanced_emergency _ _ _ _ _ EM Hin) as X. rewrite X. unfold emergency_level. destruct (fgt (ccrit c) (dlit 7 10)) eqn:G; [left|right; auto].
    assert (Sc : sensible c) by (rewrite Forall_forall in SS; apply (SS (k, c) Hin0)).
    destruct Sc as (O1 & _ & _ & _ & _ & (S1 & S2 & S3) & _). split; [exact O1|lra].
  - left. destruct (rebalanced_normal ord ordP (pap_budget s) (comps s) E2 SS B1 B2 EM) as (A & _).
    rewrite Forall_forall in A. specialize (A _ Hin). cbn [snd] in A. apply A.
Qed.
Theorem usage_normal : min_watts t ks <= R (pap_budget s) * (1 - count ks * ulp52) ->
  okd (pap_usage s) /\ R (pap_usage s) <= R (pap_budget s) * (1 + (3 * count ks + 152) * ulp52).
Proof.
  intros H. destruct (inv_len _ _ _ _ _ Hinv Hk) as [E1 E2]. destruct Hbud as (B1 & B2 & _).
  pose proof (usage_bound ord ordP (pap_budget s) (comps s) E2 (inv_sens _ _ _ _ Hinv Hs) B1 B2 (normal_hist H) (comps s) (i_set _ _ _ _ _ Hinv)) as [O U].
  split; [exact O|]. rewrite (count_INR _ _ E1). unfold ulp52. replace (1 / 4503599627370496) with (2 * e53) by lra. exact U.
Qed.

(** *** Effectiveness *)
Lemma eff_acc q : forall u v k, okd u -> okd v -> 0 <= R u <= R v -> R v <= IZR (Z.of_nat k) -> (Z.of_nat (k + length q) <= 2 ^ 31)%Z -> all_ok q ->
  let r := fold_left (fun u x => (dadd (fst u) (dmul (normalized (snd x)) (ccrit (snd x))), dadd (snd u) (ccrit (snd x)))) q (u, v) in
  okd (fst r) /\ okd (snd r) /\ 0 <= R (fst r) <= R (snd r) /\ R (snd r) <= 2147483648.
Proof.
  induction q as [|[i c] q IH]; intros u v k Ou Ov Huv Hv Hn F; cbn [fold_left].
  - cbv zeta. cbn [fst snd]. split; [exact Ou|]. split; [exact Ov|]. split; [exact Huv|]. apply Rle_trans with (1 := Hv). apply IZR_le. cbn [length] in Hn. lia.
  - inversion F as [|? ? L F']; subst. cbn [fst snd length] in *. destruct (ratio_R c L) as (Or & Hr & _). change (normalized c) with (ratio_of c).
    assert (Sc : okd (ccrit c) /\ 0 <= R (ccrit c) <= 1) by (split; apply L). destruct Sc as [Oc Hc].
    assert (Q : 0 <= R (ratio_of c) * R (ccrit c) <= R (ccrit c)) by nra.
    assert (Kb : IZR (Z.of_nat k) <= 2147483648) by (apply IZR_le; lia).
    destruct (mul_d (ratio_of c) (ccrit c) Or Oc) as [Om Rm]; [apply midz; lra|].
    assert (Hm : 0 <= R (dmul (ratio_of c) (ccrit c)) <= R (ccrit c)) by (rewrite Rm; split; [apply rnd_pos; lra|apply rnd64_le; [exact Oc|lra]]).
    destruct (add_d u _ Ou Om) as [O1 R1]; [apply midz; lra|]. destruct (add_d v _ Ov Oc) as [O2 R2]; [apply midz; lra|].
    apply (IH _ _ (S k)); auto.
    + rewrite R1, R2. split; [apply rnd_pos; lra|apply rnd_mono; lra].
    + rewrite R2. rewrite <- (rnd_z (Z.of_nat (S k))) by lia. apply rnd_mono. replace (Z.of_nat (S k)) with (Z.of_nat k + 1)%Z by lia. rewrite plus_IZR. lra.
    + lia.
Qed.
Theorem effectiveness_normal : min_watts t ks <= R (pap_budget s) * (1 - count ks * ulp52) -> okd (effectiveness s) /\ 0 <= R (effectiveness s) <= 1.
Proof.
  intros H. destruct (inv_len _ _ _ _ _ Hinv Hk) as [E1 E2]. destruct Hbud as (B1 & B2 & _).
  destruct (rebalanced_normal ord ordP (pap_budget s) (comps s) E2 (inv_sens _ _ _ _ Hinv Hs) B1 B2 (normal_hist H)) as (A & _).
  assert (A' : all_ok (comps s)) by (rewrite Forall_forall in *; intros x Hx; apply A; apply (Permutation_in (l := comps s)); [apply (i_set _ _ _ _ _ Hinv)|exact Hx]).
  destruct zero_ok as [Z1 Z2].
  pose proof (eff_acc (comps s) (dofZ 0) (dofZ 0) 0 Z1 Z1 ltac:(rewrite Z2; lra) ltac:(rewrite Z2; cbn; lra) E2 A') as X.
  unfold effectiveness. destruct (comps s) as [|x q] eqn:EC; [split; [exact Z1|rewrite Z2; lra]|]. rewrite <- EC in *. clear EC.
  cbv zeta in *. set (r := fold_left _ _ _) in *. clearbody r. destruct X as (X1 & X2 & X3 & X4).
  destruct (fgt (snd r) (dofZ 0)) eqn:G; [|split; [exact Z1|rewrite Z2; lra]].
  unfold fgt in G. apply flt_d in G; auto. rewrite Z2 in G.
  assert (Q : 0 <= R (fst r) / R (snd r) <= 1).
  { split; [apply Rmult_le_pos; [lra|left; apply Rinv_0_lt_compat; lra]|]. apply Rmult_le_reg_r with (R (snd r)); [lra|]. unfold Rdiv. rewrite Rmult_assoc, Rinv_l by lra. lra. }
  destruct (div_d _ _ X1 X2) as [O R']; [lra|apply midz; lra|]. split; [exact O|]. rewrite R'. split; [apply rnd_pos; lra|apply rnd_le1; lra].
Qed.
End Run.
End O.
