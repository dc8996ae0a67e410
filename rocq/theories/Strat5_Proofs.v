(** Monotonicity of levels, checkpoint intervals, policies, shares; the synergy factor. *)
From Coq Require Import String List NArith ZArith Bool SpecFloat Lia Reals Lra.
Import ListNotations.
From Flocq Require Import Core.
From Flocq.IEEE754 Require Import BinarySingleNaN.
From Verif Require Import Outcome Words Floats FloatsR HealthFloat Approx_Model Bits_Model Health_Proofs MBP6_Proofs RMA3_Proofs Power2_Proofs Power4_Proofs Strat_Model Strat_Spec Strat_Proofs Strat2_Proofs Strat3_Proofs Strat4_Proofs.
Local Open Scope R_scope.
Lemma L1em5 : okd lit1em5 /\ 9/1000000 < R lit1em5 < 11/1000000. Proof. unfold lit1em5. lit. Qed.
Lemma L15 : okd (dlit 15 10) /\ R (dlit 15 10) = 3/2. Proof. lit. Qed.
Lemma L05 : okd (dlit 5 10) /\ R (dlit 5 10) = /2. Proof. lit. Qed.
Lemma L07 : okd (dlit 7 10) /\ 69/100 < R (dlit 7 10) < 71/100. Proof. lit. Qed.
Lemma L09 : okd (dlit 9 10) /\ 89/100 < R (dlit 9 10) < 91/100. Proof. lit. Qed.
Lemma L04 : okd (dlit 4 10) /\ 39/100 < R (dlit 4 10) < 41/100. Proof. lit. Qed.
Lemma L03 : okd (dlit 3 10) /\ 29/100 < R (dlit 3 10) < 31/100. Proof. lit. Qed.
Lemma L02 : okd (dlit 2 10) /\ 19/100 < R (dlit 2 10) < 21/100. Proof. lit. Qed.
Lemma L001 : okd (dlit 1 1000) /\ 99/100000 < R (dlit 1 1000) < 101/100000. Proof. lit. Qed.
Local Opaque dlit dofZ dadd dsub dmul ddiv lit1em5.
Lemma env_le_R e e' : plausible e -> plausible e' -> env_le e e' ->
  (saa e = true -> saa e' = true) /\ R (solar e) <= R (solar e') /\ R (proton e) <= R (proton e') /\ R (electron e) <= R (electron e').
Proof.
  intros P P' (A & B & C & D). pose proof (pl_solar e P) as [O1 _]. pose proof (pl_solar e' P') as [O1' _]. pose proof (pl_proton e P) as [O2 _]. pose proof (pl_proton e' P') as [O2' _]. pose proof (pl_electron e P) as [O3 _]. pose proof (pl_electron e' P') as [O3' _].
  apply fle_d in B; auto. apply fle_d in C; auto. apply fle_d in D; auto.
Qed.
Lemma dose_R e : plausible e -> nz (2 * 10 ^ 12) (dose e) /\ R (dose e) <= 22000000 /\ R (dose e) = rnd64 (rnd64 (R (proton e) + R (electron e)) * R lit1em5).
Proof.
  intros P. pose proof (pl_proton e P) as Np. pose proof (pl_electron e P) as Ne. destruct (nz_add _ _ _ _ Np Ne ltac:(lia)) as [Na Ea]. destruct L1em5 as [O5 B5].
  assert (N5 : nz 1 lit1em5) by (split; [exact O5|lra]). destruct (nz_mul _ _ _ _ Na N5 ltac:(lia)) as [Nm Em]. unfold dose. split; [exact Nm|]. rewrite Em, Ea. split; [|reflexivity].
  apply rnd_up; [lia|]. rewrite <- Ea. destruct Na as [_ Ba]. change (IZR (10 ^ 12 + 10 ^ 12)) with 2000000000000 in Ba. nra.
Qed.
Lemma dose_mono e e' : plausible e -> plausible e' -> env_le e e' -> R (dose e) <= R (dose e').
Proof.
  intros P P' L. destruct (env_le_R e e' P P' L) as (_ & _ & B & C). destruct (dose_R e P) as (_ & _ & ->). destruct (dose_R e' P') as (_ & _ & ->). destruct L1em5 as [_ B5]. pose proof (pl_proton e P) as [_ Bp]. pose proof (pl_electron e P) as [_ Be].
  apply prod_mono; [split; [apply rnd_pos; lra|apply rnd_mono; lra]|lra].
Qed.
Lemma boost_R b c x y w : okd c -> 1 <= R c <= 2 -> nz w x -> nz w y -> (w * 2 < 2 ^ 53)%Z -> R x <= R y -> forall b' : bool, (b = true -> b' = true) ->
  let f (d : bool) z := if d then dmul z c else z in nz (w * 2) (f b x) /\ nz (w * 2) (f b' y) /\ R (f b x) <= R (f b' y).
Proof.
  intros Oc Bc Nx Ny W L b' I. assert (W0 : (0 <= w)%Z) by (destruct Nx as [_ B]; apply le_IZR; lra). assert (Nc : nz 2 c) by (split; [exact Oc|lra]).
  destruct (nz_mul _ _ _ _ Nx Nc W) as [Nm Em], (nz_mul _ _ _ _ Ny Nc W) as [Nm' Em']. pose proof Nx as [Ox Bx]. pose proof Ny as [Oy By].
  assert (U : forall z, nz w z -> nz (w * 2) z) by (intros z; apply nz_le; lia). cbv zeta.
  destruct b, b'; try (specialize (I eq_refl); discriminate); (split; [auto|]; split; [auto|]).
  - rewrite Em, Em'. apply prod_mono; lra.
  - rewrite Em'. apply Rle_trans with (R y); [exact L|]. apply rnd64_ge; [exact Oy|nra].
  - exact L.
Qed.
Definition tol_ok (m : material) : Prop := within (dlit 1 1000) (dofZ 1000000) (tolerance m).
Lemma tol_R m : tol_ok m -> okd (tolerance m) /\ 99/100000 < R (tolerance m).
Proof. intros H. destruct L001 as [O B]. destruct (nz_ofZ 1000000 ltac:(lia)) as [[O' _] _]. destruct (within_R _ _ _ O O' H) as [Ot Bt]. split; [exact Ot|lra]. Qed.
Definition gt_of (a b : sf) : bool := fgt a b.
Lemma fgt_mono t x y : okd t -> okd x -> okd y -> R x <= R y -> fgt x t = true -> fgt y t = true.
Proof. intros Ot Ox Oy L H. change (flt t x = true) in H. change (flt t y = true). apply flt_d in H; auto. apply flt_d; auto. lra. Qed.
Lemma fgt_monoF t x y : okd t -> okd x -> okd y -> R x <= R y -> fgt y t = false -> fgt x t = false.
Proof. intros Ot Ox Oy L H. destruct (fgt x t) eqn:E; [|reflexivity]. rewrite (fgt_mono t x y) in H; auto. Qed.
Lemma step4_mono a1 a2 a3 b1 b2 b3 l1 l2 l3 l4 : level_le l2 l1 -> level_le l3 l2 -> level_le l4 l3 -> (a1 = true -> b1 = true) -> (a2 = true -> b2 = true) -> (a3 = true -> b3 = true) ->
  let f (x1 x2 x3 : bool) := if x1 then l1 else if x2 then l2 else if x3 then l3 else l4 in level_le (f a1 a2 a3) (f b1 b2 b3).
Proof.
  intros L1 L2 L3 I1 I2 I3. unfold level_le in *. destruct a1; [rewrite I1 by reflexivity; cbn; lia|]. destruct a2; [rewrite I2 by reflexivity; cbn; destruct b1; lia|].
  destruct a3; [rewrite I3 by reflexivity; cbn; destruct b1, b2; lia|]. cbn. destruct b1, b2, b3; lia.
Qed.
Lemma orb_mono a b a' b' : (a = true -> a' = true) -> (b = true -> b' = true) -> (a || b = true -> a' || b' = true)%bool.
Proof. destruct a, b, a', b'; auto. Qed.
Lemma optimal_mono e e' m c c' : plausible e -> plausible e' -> env_le e e' -> tol_ok m -> up_to (dofZ 1) c -> up_to (dofZ 1) c' -> fle c c' = true ->
  level_le (optimal_level e m c) (optimal_level e' m c').
Proof.
  intros P P' L T C C' Hc. apply up_R in C; [|lia]. apply up_R in C'; [|lia]. apply fle_d in Hc; [|apply C|apply C'].
  destruct (tol_R m T) as [Ot Bt]. destruct (dose_R e P) as (Nd & Ud & _), (dose_R e' P') as (Nd' & Ud' & _). pose proof (dose_mono e e' P P' L) as Ld. destruct (env_le_R e e' P P' L) as (Ls & Lo & _).
  assert (N1 : nz 22000000 (dose e)) by (split; [apply Nd|split; [apply Nd|exact Ud]]). assert (N1' : nz 22000000 (dose e')) by (split; [apply Nd'|split; [apply Nd'|exact Ud']]).
  destruct (nz_div _ 1100 _ (tolerance m) N1 Ot ltac:(lia)) as [N2 E2]; [lra|lia|]. destruct (nz_div _ 1100 _ (tolerance m) N1' Ot ltac:(lia)) as [N2' E2']; [lra|lia|].
  assert (L2 : R (ddiv (dose e) (tolerance m)) <= R (ddiv (dose e') (tolerance m))) by (rewrite E2, E2'; apply quot_mono; [destruct N1 as [_ ?]; lra|lra]).
  destruct (nz_mul _ _ _ _ N2 C ltac:(lia)) as [N3 E3]. destruct (nz_mul _ _ _ _ N2' C' ltac:(lia)) as [N3' E3'].
  assert (L3 : R (dmul (ddiv (dose e) (tolerance m)) c) <= R (dmul (ddiv (dose e') (tolerance m)) c')) by (rewrite E3, E3'; apply prod_mono; [destruct N2 as [_ ?]; lra|destruct C as [_ ?]; lra]).
  destruct Z2 as [OZ2 EZ2]. destruct (boost_R (saa e) (dofZ 2) _ _ _ OZ2 ltac:(lra) N3 N3' ltac:(lia) L3 (saa e') Ls) as (N4 & N4' & L4).
  destruct L07 as [O7 B7], L15 as [O15 B15]. pose proof (pl_solar e P) as [Oso _]. pose proof (pl_solar e' P') as [Oso' _].
  destruct (boost_R (fgt (solar e) (dlit 7 10)) (dlit 15 10) _ _ _ O15 ltac:(lra) N4 N4' ltac:(lia) L4 (fgt (solar e') (dlit 7 10)) (fgt_mono _ _ _ O7 Oso Oso' Lo)) as (N5 & N5' & L5).
  unfold optimal_level. cbv zeta. cbv beta zeta in N5, N5', L5. destruct (nz_ofZ 5 ltac:(lia)) as [[O5 _] _]. destruct L09 as [O9 _], L05 as [O05 _], Z1 as [OZ1 _].
  apply (step4_mono _ _ _ _ _ _ HYBRID_REDUNDANCY HEALTH_WEIGHTED_TMR ENHANCED_TMR BASIC_TMR); try (unfold level_le; cbn; lia);
    apply orb_mono; apply fgt_mono; first [assumption|apply N5|apply N5'|apply C|apply C'].
Qed.

(** ** Checkpoint interval *)
Lemma flt_fle a b : flt a b = true -> fle a b = true.
Proof. unfold flt, fle, SFltb, SFleb. destruct (SFcompare a b) as [[]|]; congruence. Qed.
Lemma clamp_range lo hi a : fle lo lo = true -> fle lo hi = true -> fle hi hi = true -> let r := fmax lo (fmin hi a) in fle lo r = true /\ fle r hi = true.
Proof.
  intros A B C. unfold fmax, fmin. destruct (flt a hi) eqn:E1; [destruct (flt lo a) eqn:E2|destruct (flt lo hi) eqn:E2]; auto using flt_fle.
Qed.
Lemma clamp_mono lo hi a a' : okd lo -> okd hi -> okd a -> okd a' -> R a <= R a' -> fle (fmax lo (fmin hi a)) (fmax lo (fmin hi a')) = true.
Proof.
  intros Ol Oh Oa Oa' L. destruct (fmin_d hi a Oh Oa) as [O1 E1], (fmin_d hi a' Oh Oa') as [O2 E2]. destruct (fmax_d lo _ Ol O1) as [O3 E3], (fmax_d lo _ Ol O2) as [O4 E4].
  apply fle_d; auto. rewrite E3, E4, E1, E2. apply Rle_max_compat_l. apply Rle_min_compat_l. exact L.
Qed.
Definition factor_in (x : sf) : Prop := within (dlit 1 1000) (dofZ 1000000) x.
Lemma factor_in_R x : factor_in x -> okd x /\ 99/100000 < R x.
Proof. intros H. destruct L001 as [O B]. destruct (nz_ofZ 1000000 ltac:(lia)) as [[O' _] _]. destruct (within_R _ _ _ O O' H) as [Ot Bt]. split; [exact Ot|lra]. Qed.
Lemma fdiv_mono a x x' y y' : nz a x -> nz a x' -> (a * 1100 < 2 ^ 53)%Z -> R x <= R x' -> okd y -> okd y' -> 99/100000 < R y' -> R y' <= R y ->
  nz (a * 1100) (ddiv x y) /\ nz (a * 1100) (ddiv x' y') /\ R (ddiv x y) <= R (ddiv x' y').
Proof.
  intros N N' H L O O' B Ly. destruct (nz_div a 1100 x y N O ltac:(lia)) as [N2 E2]; [lra|lia|]. destruct (nz_div a 1100 x' y' N' O' ltac:(lia)) as [N2' E2']; [lra|lia|].
  split; [exact N2|]. split; [exact N2'|]. rewrite E2, E2'. apply quot_mono; [destruct N as [_ ?]; lra|lra].
Qed.
Lemma adjust_antitone c e e' t t' s s' y y' : up_to (dofZ 1000000) (base c) -> plausible e -> plausible e' -> env_le e e' ->
  factor_in t -> factor_in t' -> factor_in s -> factor_in s' -> factor_in y -> factor_in y' -> fle t t' = true -> fle s s' = true -> fle y y' = true ->
  fle (current (adjust c e' t' s' y')) (current (adjust c e t s y)) = true.
Proof.
  intros Bc P P' L Ft Ft' Fs Fs' Fy Fy' Ht Hs Hy. apply up_R in Bc; [|lia].
  destruct (factor_in_R _ Ft) as [Ot Bt], (factor_in_R _ Ft') as [Ot' Bt'], (factor_in_R _ Fs) as [Os Bs], (factor_in_R _ Fs') as [Os' Bs'], (factor_in_R _ Fy) as [Oy By], (factor_in_R _ Fy') as [Oy' By'].
  apply fle_d in Ht; auto. apply fle_d in Hs; auto. apply fle_d in Hy; auto.
  destruct (fdiv_mono _ _ _ t' t Bc Bc ltac:(lia) ltac:(lra) Ot' Ot Bt Ht) as (N1 & N1' & L1).
  destruct (fdiv_mono _ _ _ s' s N1 N1' ltac:(lia) L1 Os' Os Bs Hs) as (N2 & N2' & L2).
  destruct (fdiv_mono _ _ _ y' y N2 N2' ltac:(lia) L2 Oy' Oy By Hy) as (N3 & N3' & L3).
  destruct (env_le_R e e' P P' L) as (Ls & Lo & _). destruct Z2 as [O2 E2], Z1 as [O1 E1]. pose proof (pl_solar e P) as Nso. pose proof (pl_solar e' P') as Nso'.
  set (a := ddiv (ddiv (ddiv (base c) t) s) y) in *. set (a' := ddiv (ddiv (ddiv (base c) t') s') y') in *.
  assert (H4 : let f (d : bool) z := if d then ddiv z (dofZ 2) else z in nz (1000000 * 1100 * 1100 * 1100) (f (saa e) a) /\ nz (1000000 * 1100 * 1100 * 1100) (f (saa e') a') /\ R (f (saa e') a') <= R (f (saa e) a)).
  { cbv zeta. assert (D : forall z, nz (1000000 * 1100 * 1100 * 1100) z -> nz (1000000 * 1100 * 1100 * 1100) (ddiv z (dofZ 2)) /\ R (ddiv z (dofZ 2)) = rnd64 (R z / 2)).
    { intros z Nz. destruct (nz_div _ 1 z (dofZ 2) Nz O2 ltac:(lia)) as [A B]; [rewrite E2; lra|lia|]. rewrite E2 in B. rewrite Z.mul_1_r in A. auto. }
    destruct (D a N3') as [Da Ea], (D a' N3) as [Da' Ea'].
    destruct (saa e), (saa e'); try (specialize (Ls eq_refl); discriminate); (split; [auto|]; split; [auto|]).
    - rewrite Ea, Ea'. apply quot_mono; [destruct N3 as [_ ?]; lra|lra].
    - rewrite Ea'. apply Rle_trans with (R a'); [|exact L3]. apply rnd64_le; [apply N3|]. destruct N3 as [_ ?]; lra.
    - exact L3. }
  cbv zeta in H4. destruct H4 as (N4 & N4' & L4).
  assert (N1z : nz 1 (dofZ 1)) by (split; [exact O1|lra]). destruct (nz_add _ _ _ _ N1z Nso ltac:(lia)) as [N5 E5]. destruct (nz_add _ _ _ _ N1z Nso' ltac:(lia)) as [N5' E5']. rewrite E1 in E5, E5'.
  assert (B5 : 1 <= R (dadd (dofZ 1) (solar e))) by (rewrite E5, <- (rnd_z 1) at 1 by reflexivity; apply rnd_mono; destruct Nso as [_ ?]; lra).
  assert (L5 : R (dadd (dofZ 1) (solar e)) <= R (dadd (dofZ 1) (solar e'))) by (rewrite E5, E5'; apply rnd_mono; lra).
  destruct (nz_div _ 1 _ (dadd (dofZ 1) (solar e)) N4 (proj1 N5) ltac:(lia)) as [N6 E6]; [lra|lia|]. destruct (nz_div _ 1 _ (dadd (dofZ 1) (solar e')) N4' (proj1 N5') ltac:(lia)) as [N6' E6']; [lra|lia|].
  unfold adjust. cbv zeta. cbn [current]. fold a a'. destruct (nz_ofZ 10 ltac:(lia)) as [[O10 _] _], (nz_ofZ 3600 ltac:(lia)) as [[O36 _] _]. apply clamp_mono; auto; [apply N6'|apply N6|].
  rewrite E6, E6'. apply quot_mono; [destruct N4' as [_ ?]; lra|lra].
Qed.
Lemma adjust_range c e t s y : fle (dofZ 10) (current (adjust c e t s y)) = true /\ fle (current (adjust c e t s y)) (dofZ 3600) = true.
Proof. unfold adjust. cbn [current]. apply clamp_range; vm_compute; reflexivity. Qed.

(** ** Layer policy *)
Lemma need_mono e e' x y : nz 1 (solar e) -> nz 1 (solar e') -> (saa e = true -> saa e' = true) -> R (solar e) <= R (solar e') -> okd x -> okd y -> R x <= R y -> level_le (need_level e x) (need_level e' y).
Proof.
  intros [Os _] [Os' _] S L Ox Oy H. destruct L07 as [O7 _], L05 as [O5 _], L03 as [O3 _], L08 as [O8 _], L06 as [O6 _], L04 as [O4 _]. unfold need_level.
  apply (step4_mono _ _ _ _ _ _ HYBRID_REDUNDANCY HEALTH_WEIGHTED_TMR ENHANCED_TMR BASIC_TMR); try (unfold level_le; cbn; lia); repeat apply orb_mono; try exact S; apply fgt_mono; assumption.
Qed.
Lemma position_R n i s : (i < n)%nat -> (Z.of_nat n < 2 ^ 31)%Z -> nz 1 s -> okd (position_need n i s) /\
  (forall j s', (j <= i)%nat -> nz 1 s' -> R s <= R s' -> R (position_need n i s) <= R (position_need n j s')).
Proof.
  intros Hi Hn Ns. destruct L05 as [O5 E5], Z1 as [O1 E1].
  assert (G : forall k, (k < n)%nat -> nz 1 (dmul (ddiv (dofZ (Z.of_nat k)) (dofZ (Z.of_nat n))) (dlit 5 10)) /\ R (dmul (ddiv (dofZ (Z.of_nat k)) (dofZ (Z.of_nat n))) (dlit 5 10)) = rnd64 (rnd64 (IZR (Z.of_nat k) / IZR (Z.of_nat n)) * / 2) /\ R (dmul (ddiv (dofZ (Z.of_nat k)) (dofZ (Z.of_nat n))) (dlit 5 10)) <= / 2).
  { intros k Hk. destruct (nz_ofZ (Z.of_nat k) ltac:(lia)) as [Nk Ek], (nz_ofZ (Z.of_nat n) ltac:(lia)) as [Nn En]. pose proof (IZR_lt 0 (Z.of_nat n) ltac:(lia)) as Pn. pose proof (IZR_le 0 (Z.of_nat k) ltac:(lia)) as Pk. pose proof (IZR_lt (Z.of_nat k) (Z.of_nat n) ltac:(lia)) as Lk.
    assert (Q : 0 <= IZR (Z.of_nat k) / IZR (Z.of_nat n) <= 1).
    { split; [apply Rmult_le_pos; [lra|left; apply Rinv_0_lt_compat; lra]|]. apply Rmult_le_reg_r with (IZR (Z.of_nat n)); [lra|]. unfold Rdiv. rewrite Rmult_assoc, Rinv_l by lra. lra. }
    destruct (div_d (dofZ (Z.of_nat k)) (dofZ (Z.of_nat n)) (proj1 Nk) (proj1 Nn)) as [Od Ed]; [lra|rewrite Ek, En; apply midz; lra|]. rewrite Ek, En in Ed.
    assert (Nd : nz 1 (ddiv (dofZ (Z.of_nat k)) (dofZ (Z.of_nat n)))) by (split; [exact Od|]; rewrite Ed; split; [apply rnd_pos; lra|apply rnd_le1; lra]).
    assert (N5 : nz 1 (dlit 5 10)) by (split; [exact O5|lra]). destruct (nz_mul _ _ _ _ Nd N5 ltac:(lia)) as [Nm Em]. rewrite E5, Ed in Em. split; [exact Nm|]. split; [exact Em|].
    rewrite Em, <- E5. apply rnd64_le; [exact O5|]. rewrite E5. destruct Nd as [_ Bd]. rewrite Ed in Bd. lra. }
  assert (H : forall k, (k < n)%nat -> nz 1 (dsub (dofZ 1) (dmul (ddiv (dofZ (Z.of_nat k)) (dofZ (Z.of_nat n))) (dlit 5 10))) /\ R (dsub (dofZ 1) (dmul (ddiv (dofZ (Z.of_nat k)) (dofZ (Z.of_nat n))) (dlit 5 10))) = rnd64 (1 - R (dmul (ddiv (dofZ (Z.of_nat k)) (dofZ (Z.of_nat n))) (dlit 5 10)))).
  { intros k Hk. destruct (G k Hk) as ([Om Bm] & _ & Um). destruct (sub_d (dofZ 1) _ O1 Om) as [Os Es]; [rewrite E1; apply midz; lra|]. rewrite E1 in Es. split; [|exact Es]. split; [exact Os|]. rewrite Es. split; [apply rnd_pos; lra|apply rnd_le1; lra]. }
  unfold position_need. destruct (H i Hi) as [Ni Ei]. destruct (nz_mul _ _ _ _ Ns Ni ltac:(lia)) as [Nr Er]. split; [apply Nr|]. intros j s' Hj Ns' L. destruct (H j ltac:(lia)) as [Nj Ej]. destruct (nz_mul _ _ _ _ Ns' Nj ltac:(lia)) as [Nr' Er'].
  rewrite Er, Er'. apply prod_mono; [destruct Ns as [_ ?]; lra|]. split; [apply Ni|]. rewrite Ei, Ej. apply rnd_mono. destruct (G i Hi) as (_ & Gi & _), (G j ltac:(lia)) as (_ & Gj & _). apply Rplus_le_compat_l. apply Ropp_le_contravar. rewrite Gi, Gj. apply rnd_mono.
  apply Rmult_le_compat_r; [lra|]. apply rnd_mono. apply Rmult_le_compat_r; [left; apply Rinv_0_lt_compat; apply (IZR_lt 0); lia|]. apply IZR_le. lia.
Qed.
