(** The enhancement factor and the corrected counts. *)
From Coq Require Import List NArith ZArith Bool Arith Lia Reals Lra Psatz SpecFloat.
Import ListNotations.
From Flocq Require Import Core BinarySingleNaN.
From Verif Require Import Outcome Words Floats FloatsR HealthFloat Bits_Model RMA3_Proofs Tester3_Proofs Hw_Proofs Hw2_Proofs Qft_Model Qft_Spec Qft2_Proofs Qft4_Proofs Qft5_Proofs Qft6_Proofs Qft7_Proofs Qft8_Proofs Qft9_Proofs Qer_Spec Qer_Proofs Qer2_Proofs Qer3_Proofs Env3_Proofs Qin_Model Qin_Proofs Qin2_Proofs.
Local Open Scope R_scope.

Lemma n12_10 : okd (dq 12 10) /\ 12 / 10 - / 1000000 <= R (dq 12 10) <= 12 / 10 + / 1000000.
Proof. assert (H : dq 12 10 = S754_finite false 5404319552844595 (-52)) by (vm_compute; reflexivity). rewrite H. split; [split; reflexivity|]. rewrite fin_R. cbn [cond_Zopp]. change (b2 (-52)) with (/ 4503599627370496). lra. Qed.
Lemma n8_10 : okd (dq 8 10) /\ 8 / 10 - / 1000000 <= R (dq 8 10) <= 8 / 10 + / 1000000.
Proof. assert (H : dq 8 10 = S754_finite false 7205759403792794 (-53)) by (vm_compute; reflexivity). rewrite H. split; [split; reflexivity|]. rewrite fin_R. cbn [cond_Zopp]. change (b2 (-53)) with (/ 9007199254740992). lra. Qed.
Lemma n4_10 : okd (dq 4 10) /\ 4 / 10 - / 1000000 <= R (dq 4 10) <= 4 / 10 + / 1000000.
Proof. assert (H : dq 4 10 = S754_finite false 7205759403792794 (-54)) by (vm_compute; reflexivity). rewrite H. split; [split; reflexivity|]. rewrite fin_R. cbn [cond_Zopp]. change (b2 (-54)) with (/ 18014398509481984). lra. Qed.
Lemma n6_10 : okd (dq 6 10) /\ 6 / 10 - / 1000000 <= R (dq 6 10) <= 6 / 10 + / 1000000.
Proof. assert (H : dq 6 10 = S754_finite false 5404319552844595 (-53)) by (vm_compute; reflexivity). rewrite H. split; [split; reflexivity|]. rewrite fin_R. cbn [cond_Zopp]. change (b2 (-53)) with (/ 9007199254740992). lra. Qed.
Lemma n8_1000 : okd (dq 8 1000) /\ 8 / 1000 - / 1000000 <= R (dq 8 1000) <= 8 / 1000 + / 1000000.
Proof. assert (H : dq 8 1000 = S754_finite false 4611686018427388 (-59)) by (vm_compute; reflexivity). rewrite H. split; [split; reflexivity|]. rewrite fin_R. cbn [cond_Zopp]. change (b2 (-59)) with (/ 576460752303423488). lra. Qed.
Lemma n4_100 : okd (dq 4 100) /\ 4 / 100 - / 1000000 <= R (dq 4 100) <= 4 / 100 + / 1000000.
Proof. assert (H : dq 4 100 = S754_finite false 5764607523034235 (-57)) by (vm_compute; reflexivity). rewrite H. split; [split; reflexivity|]. rewrite fin_R. cbn [cond_Zopp]. change (b2 (-57)) with (/ 144115188075855872). lra. Qed.
Lemma n8_100 : okd (dq 8 100) /\ 8 / 100 - / 1000000 <= R (dq 8 100) <= 8 / 100 + / 1000000.
Proof. assert (H : dq 8 100 = S754_finite false 5764607523034235 (-56)) by (vm_compute; reflexivity). rewrite H. split; [split; reflexivity|]. rewrite fin_R. cbn [cond_Zopp]. change (b2 (-56)) with (/ 72057594037927936). lra. Qed.

Lemma rnd_ub x q : x <= q -> b2 (-1022) <= q -> rnd64 x <= q * (1 + / 9007199254740992).
Proof. intros H L. apply Rle_trans with (rnd64 q); [apply (rnd_le 53 1024); exact H|apply rnd64_rel; exact L]. Qed.
Lemma big_normal q : / 1048576 <= q -> b2 (-1022) <= q. Proof. apply small_normal. Qed.

(** ** enhancement: one factor per criterion *)
Definition factor (cap lim lo : Z) (c x : sf) : sf :=
  if flt x (dofZ lim) then dadd d1 (dmul (fmin (dofZ cap) (ddiv (dofZ lim) (fmax x (dofZ lo)))) c) else d1.
Section F.
Variables (cap lim lo : Z) (c : sf).
Hypothesis (H1 : (1 <= lo <= lim)%Z) (H2 : (lim < 1000)%Z) (H3 : (1 <= cap < 1000)%Z) (OC : okd c) (BC : 1 / 100 <= R c <= 1 / 10).
Lemma fac_den x : V64 x = true -> flt x (dofZ lim) = true -> okd (fmax x (dofZ lo)) /\ IZR lo <= R (fmax x (dofZ lo)) <= IZR lim /\ (R (fmax x (dofZ lo)) = IZR lo \/ E x = R (fmax x (dofZ lo))).
Proof.
  intros V F. destruct (ofZ_ex lim ltac:(lia)) as [OM EM]. destruct (ofZ_ex lo ltac:(lia)) as [OL EL]. destruct (flt_nn _ _ F) as [N _]. assert (D : dbl x) by (split; assumption). assert (IZR lo <= IZR lim) by (apply IZR_le; lia).
  apply (ltE _ _ D (okd_dbl _ OM)) in F. rewrite (E_fin _ (proj2 OM)), EM in F. unfold fmax. destruct (flt x (dofZ lo)) eqn:A; [split; [exact OL|]; split; [lra|left; exact EL]|].
  assert (B : IZR lo <= E x). { apply Rnot_lt_le. intros Q. rewrite <- EL, <- (E_fin _ (proj2 OL)) in Q. apply (ltE _ _ D (okd_dbl _ OL)) in Q. congruence. }
  assert (BB1 : IZR lim < BB). { pose proof (E_bound _ OM) as Q. rewrite (E_fin _ (proj2 OM)), EM in Q. lra. } assert (P1 : 1 <= IZR lo) by (apply IZR_le; lia).
  assert (FX : fin x = true). { destruct x as [s|[]| |s m e]; try reflexivity; cbn [E] in *; try lra. congruence. }
  split; [split; assumption|]. rewrite (E_fin _ FX) in *. split; [lra|right; reflexivity].
Qed.
Lemma fac_quot x : V64 x = true -> flt x (dofZ lim) = true -> okd (fmin (dofZ cap) (ddiv (dofZ lim) (fmax x (dofZ lo)))) /\ R (fmin (dofZ cap) (ddiv (dofZ lim) (fmax x (dofZ lo)))) = Rmin (IZR cap) (rnd64 (IZR lim / R (fmax x (dofZ lo)))) /\ 1 <= R (fmin (dofZ cap) (ddiv (dofZ lim) (fmax x (dofZ lo)))) <= IZR cap.
Proof.
  intros V F. destruct (fac_den x V F) as (OD & BD & _). set (d := fmax x (dofZ lo)) in *. clearbody d. destruct (ofZ_ex lim ltac:(lia)) as [OM EM]. destruct (ofZ_ex cap ltac:(lia)) as [OP EP].
  assert (P1 : 1 <= IZR lo) by (apply IZR_le; lia). assert (P3 : 1 <= IZR cap) by (apply IZR_le; lia). assert (P2 : IZR lim < 1000) by (apply IZR_lt; lia).
  assert (QB : 1 <= IZR lim / R d <= 1000). { split; [apply Rmult_le_reg_r with (R d); [lra|]; unfold Rdiv; rewrite Rmult_assoc, Rinv_l by lra; lra|]. apply Rmult_le_reg_r with (R d); [lra|]. unfold Rdiv. rewrite Rmult_assoc, Rinv_l by lra. nra. }
  destruct (div_d (dofZ lim) d OM OD ltac:(lra)) as [OQ EQ]; [rewrite EM; apply (mid_of 0 1000); [lia|lia|lra]|]. rewrite EM in EQ.
  assert (QR : 1 <= R (ddiv (dofZ lim) d)). { rewrite EQ. rewrite <- (rnd_bpow 0) at 1 by lia. apply (rnd_le 53 1024). change (b2 0) with 1. lra. } rewrite <- EQ.
  set (q := ddiv (dofZ lim) d) in *. set (k := dofZ cap) in *. clearbody q k. unfold fmin. destruct (flt q k) eqn:A.
  - apply (flt_d _ _ OQ OP) in A. rewrite EP in A. split; [exact OQ|]. split; [rewrite Rmin_right; lra|lra].
  - apply (flt_dF _ _ OQ OP) in A. rewrite EP in A. split; [exact OP|]. split; [rewrite Rmin_left; lra|lra].
Qed.
Lemma fac_range x : V64 x = true -> okd (factor cap lim lo c x) /\ 1 <= R (factor cap lim lo c x) <= (1 + (IZR cap * R c) * (1 + / 9007199254740992)) * (1 + / 9007199254740992).
Proof.
  intros V. assert (P3 : 1 <= IZR cap < 1000) by (split; [apply IZR_le; lia|apply IZR_lt; lia]). unfold factor. destruct (flt x (dofZ lim)) eqn:F; [|split; [apply o_ok|rewrite (proj2 o_ok); nra]].
  destruct (fac_quot x V F) as (OQ & _ & BQ). set (q := fmin _ _) in *. clearbody q. assert (B0 : 0 <= R q * R c <= IZR cap * R c) by (split; [nra|apply Rmult_le_compat_r; lra]).
  destruct (mul_d q c OQ OC) as [OM EM]; [apply (mid_of 0 1000); [lia|lia|split; [lra|nra]]|]. assert (B1 : 0 <= R (dmul q c) <= IZR cap * R c * (1 + / 9007199254740992)). { rewrite EM. split; [apply rnd_pos; lra|]. apply rnd_ub; [lra|apply big_normal; nra]. }
  assert (IZR cap * R c <= 100) by nra. destruct (add_d d1 (dmul q c) (proj1 o_ok) OM) as [OA EA]; [rewrite (proj2 o_ok); apply (mid_of 0 1000); [lia|lia|lra]|]. rewrite (proj2 o_ok) in EA. split; [exact OA|]. rewrite EA. split; [rewrite <- (rnd_bpow 0) at 1 by lia; apply (rnd_le 53 1024); change (b2 0) with 1; lra|]. apply rnd_ub; [lra|apply big_normal; lra].
Qed.
Lemma fac_anti x y : dbl x -> dbl y -> E x <= E y -> R (factor cap lim lo c y) <= R (factor cap lim lo c x).
Proof.
  intros X Y L. pose proof (fac_range x (proj1 X)) as [_ [RX _]]. unfold factor in *. assert (P3 : 1 <= IZR cap < 1000) by (split; [apply IZR_le; lia|apply IZR_lt; lia]). destruct (flt y (dofZ lim)) eqn:FY; [|rewrite (proj2 o_ok); exact RX].
  assert (FX : flt x (dofZ lim) = true). { destruct (ofZ_ex lim ltac:(lia)) as [OM _]. apply (ltE _ _ Y (okd_dbl _ OM)) in FY. apply (ltE _ _ X (okd_dbl _ OM)). lra. } rewrite FX in *.
  destruct (fac_quot x (proj1 X) FX) as (OQ & EQ & BQ). destruct (fac_quot y (proj1 Y) FY) as (OQ' & EQ' & BQ').
  assert (LD : R (fmax x (dofZ lo)) <= R (fmax y (dofZ lo)) /\ 0 < R (fmax x (dofZ lo))). { destruct (fac_den x (proj1 X) FX) as (OD & BD & CD). destruct (fac_den y (proj1 Y) FY) as (OD' & BD' & CD'). assert (1 <= IZR lo) by (apply IZR_le; lia). split; [|lra]. destruct (ofZ_ex lo ltac:(lia)) as [OL EL]. pose proof (max_mono x y (dofZ lo) X Y OL ltac:(rewrite EL; lra) L) as (_ & _ & _ & M). rewrite (E_fin _ (proj2 OD)), (E_fin _ (proj2 OD')) in M. exact M. }
  assert (PL : 0 <= IZR lim) by (apply IZR_le; lia). assert (LQ : R (fmin (dofZ cap) (ddiv (dofZ lim) (fmax y (dofZ lo)))) <= R (fmin (dofZ cap) (ddiv (dofZ lim) (fmax x (dofZ lo))))). { rewrite EQ, EQ'. apply Rle_min_compat_l, (rnd_le 53 1024). unfold Rdiv. apply Rmult_le_compat_l; [exact PL|]. apply Rinv_le; lra. }
  clear EQ EQ' RX. set (q := fmin _ (ddiv _ (fmax x _))) in *. set (q' := fmin _ (ddiv _ (fmax y _))) in *. clearbody q q'.
  assert (LP : R q' * R c <= R q * R c) by (apply Rmult_le_compat_r; lra). assert (UP : R q * R c <= 100) by nra. assert (LP0 : 0 <= R q' * R c) by nra.
  destruct (mul_d q c OQ OC) as [OM EM]; [apply (mid_of 0 1000); [lia|lia|lra]|]. destruct (mul_d q' c OQ' OC) as [OM' EM']; [apply (mid_of 0 1000); [lia|lia|lra]|].
  assert (LM : 0 <= R (dmul q' c) <= R (dmul q c) /\ R (dmul q c) <= 100). { rewrite EM, EM'. split; [split; [apply rnd_pos; lra|apply (rnd_le 53 1024); lra]|]. pose proof (proj2 (Qft6_Proofs.rnd_int 0 100 (R q * R c) ltac:(lia) ltac:(lia) ltac:(lra))). lra. }
  set (p := dmul q c) in *. set (p' := dmul q' c) in *. clearbody p p'. destruct (add_d d1 p (proj1 o_ok) OM) as [_ EA]; [rewrite (proj2 o_ok); apply (mid_of 0 1000); [lia|lia|lra]|]. destruct (add_d d1 p' (proj1 o_ok) OM') as [_ EA']; [rewrite (proj2 o_ok); apply (mid_of 0 1000); [lia|lia|lra]|]. rewrite EA, EA'. apply (rnd_le 53 1024). lra.
Qed.
End F.
Lemma mul_1l x : okd x -> 0 <= R x <= 1000 -> okd (dmul d1 x) /\ R (dmul d1 x) = R x.
Proof. intros O B. destruct (mul_d d1 x (proj1 o_ok) O) as [OM EM]; [rewrite (proj2 o_ok); apply (mid_of 0 1000); [lia|lia|lra]|]. split; [exact OM|]. rewrite EM, (proj2 o_ok), Rmult_1_l. apply rnd_id, O. Qed.
Lemma f1_range t : V64 t = true -> okd (factor 5 150 10 (dq 4 100) t) /\ 1 <= R (factor 5 150 10 (dq 4 100) t) <= 12001 / 10000.
Proof. intros V. destruct n4_100 as [O B]. destruct (fac_range 5 150 10 (dq 4 100) ltac:(lia) ltac:(lia) ltac:(lia) O ltac:(lra) t V) as [OF BF]. split; [exact OF|]. set (y := factor _ _ _ _ _) in *. set (c := dq 4 100) in *. clearbody y c. split; [lra|]. apply Rle_trans with (1 := proj2 BF). nra. Qed.
Lemma f2_range t : V64 t = true -> okd (factor 4 20 2 (dq 8 100) t) /\ 1 <= R (factor 4 20 2 (dq 8 100) t) <= 13201 / 10000.
Proof. intros V. destruct n8_100 as [O B]. destruct (fac_range 4 20 2 (dq 8 100) ltac:(lia) ltac:(lia) ltac:(lia) O ltac:(lra) t V) as [OF BF]. split; [exact OF|]. set (y := factor _ _ _ _ _) in *. set (c := dq 8 100) in *. clearbody y c. split; [lra|]. apply Rle_trans with (1 := proj2 BF). nra. Qed.
Lemma enh_eq t f : V64 t = true -> V64 f = true -> okd (enhancement t f) /\ R (enhancement t f) = rnd64 (R (factor 5 150 10 (dq 4 100) t) * R (factor 4 20 2 (dq 8 100) f)).
Proof.
  intros T F. destruct (f1_range t T) as [O1 B1]. destruct (f2_range f F) as [O2 B2]. unfold enhancement. cbv zeta. unfold factor in *.
  set (y1 := dadd d1 (dmul (fmin (dofZ 5) (ddiv (dofZ 150) (fmax t (dofZ 10)))) (dq 4 100))) in *. set (y2 := dadd d1 (dmul (fmin (dofZ 4) (ddiv (dofZ 20) (fmax f (dofZ 2)))) (dq 8 100))) in *. clearbody y1 y2.
  set (g1 := flt t (dofZ 150)) in *. set (g2 := flt f (dofZ 20)) in *. clearbody g1 g2. destruct g1, g2.
  - destruct (mul_1l y1 O1 ltac:(lra)) as [OM EM]. destruct (mul_d (dmul d1 y1) y2 OM O2) as [OX EX]; [rewrite EM; apply (mid_of 0 1000); [lia|lia|nra]|]. split; [exact OX|]. rewrite EX, EM. reflexivity.
  - destruct (mul_1l y1 O1 ltac:(lra)) as [OM EM]. split; [exact OM|]. rewrite (proj2 o_ok), Rmult_1_r, EM. symmetry. apply rnd_id, O1.
  - destruct (mul_1l y2 O2 ltac:(lra)) as [OM EM]. split; [exact OM|]. rewrite (proj2 o_ok), Rmult_1_l, EM. symmetry. apply rnd_id, O2.
  - split; [apply o_ok|]. rewrite (proj2 o_ok), Rmult_1_l. change 1 with (b2 0). symmetry. apply rnd_bpow. lia.
Qed.
Lemma enh_range t f : V64 t = true -> V64 f = true -> okd (enhancement t f) /\ 1 <= R (enhancement t f) <= 16 / 10.
Proof.
  intros T F. destruct (f1_range t T) as [O1 B1]. destruct (f2_range f F) as [O2 B2]. destruct (enh_eq t f T F) as [O Q]. split; [exact O|]. rewrite Q. set (a := factor _ _ _ _ t) in *. set (b := factor _ _ _ _ f) in *. clearbody a b.
  split; [rewrite <- (rnd_bpow 0) at 1 by lia; apply (rnd_le 53 1024); change (b2 0) with 1; nra|]. apply Rle_trans with (159 / 100 * (1 + / 9007199254740992)); [|lra]. apply rnd_ub; [nra|apply big_normal; lra].
Qed.
Lemma enh_anti t t' f f' : dbl t -> dbl t' -> dbl f -> dbl f' -> E t <= E t' -> E f <= E f' -> R (enhancement t' f') <= R (enhancement t f).
Proof.
  intros T T' F F' L M. rewrite (proj2 (enh_eq t f (proj1 T) (proj1 F))), (proj2 (enh_eq t' f' (proj1 T') (proj1 F'))). apply (rnd_le 53 1024).
  destruct n4_100 as [O B]. destruct n8_100 as [O8 B8]. pose proof (fac_anti 5 150 10 (dq 4 100) ltac:(lia) ltac:(lia) ltac:(lia) O ltac:(lra) t t' T T' L). pose proof (fac_anti 4 20 2 (dq 8 100) ltac:(lia) ltac:(lia) ltac:(lia) O8 ltac:(lra) f f' F F' M).
  pose proof (f1_range t' (proj1 T')). pose proof (f2_range f' (proj1 F')). apply Rmult_le_compat; lra.
Qed.

(** ** corrected counts *)
Definition cfac (a b p k : sf) : sf := dadd (dadd d1 (dmul a p)) (dmul b k).
Definition cor (c z v : sf) : sf := dadd (dmul v c) (dmul (dmul z (dmul v c)) (dq 8 1000)).
Lemma cor_eq a b p k z v : correct_value a b p k z v = cor (cfac a b p k) z v. Proof. reflexivity. Qed.
Lemma b2m (x : sf) : okd x -> 0 <= R x <= 1 -> nb 0 x. Proof. intros O B. split; [exact O|]. change (b2 0) with 1. exact B. Qed.
Definition small5 (x : sf) : Prop := okd x /\ 0 <= R x <= 51 / 1000.
Definition coef (x : sf) : Prop := okd x /\ 0 <= R x <= 121 / 100.
Lemma part_nb a p : coef a -> small5 p -> okd (dmul a p) /\ R (dmul a p) = rnd64 (R a * R p) /\ 0 <= R (dmul a p) <= R a * (51 / 1000) + / 1000000.
Proof.
  intros [OA BA] [OP BP]. assert (B : 0 <= R a * R p <= R a * (51 / 1000)) by (split; [apply Rmult_le_pos; lra|apply Rmult_le_compat_l; lra]). destruct (mul_d a p OA OP) as [OM EM]; [apply (mid_of 0 1); [lia|lia|lra]|]. split; [exact OM|]. split; [exact EM|]. rewrite EM. split; [apply rnd_pos; lra|].
  apply Rle_trans with ((R a * (51 / 1000) + / 1048576) * (1 + / 9007199254740992)); [apply rnd_ub; [lra|apply big_normal; lra]|nra].
Qed.
Lemma cfac_range a b p k : coef a -> coef b -> small5 p -> small5 k -> okd (cfac a b p k) /\ 1 <= R (cfac a b p k) <= 1 + R a * (51 / 1000) + R b * (51 / 1000) + / 100000 /\ R (cfac a b p k) = rnd64 (rnd64 (1 + rnd64 (R a * R p)) + rnd64 (R b * R k)).
Proof.
  intros A B P K. destruct (part_nb a p A P) as (O1 & E1 & B1). destruct (part_nb b k B K) as (O2 & E2 & B2). destruct A as [_ A]. destruct B as [_ B]. unfold cfac.
  destruct (add_d d1 (dmul a p) (proj1 o_ok) O1) as [O3 E3]; [rewrite (proj2 o_ok); apply (mid_of 0 2); [lia|lia|lra]|]. rewrite (proj2 o_ok) in E3.
  assert (B3 : 1 <= R (dadd d1 (dmul a p)) <= 1 + R a * (51 / 1000) + / 500000). { rewrite E3. split; [rewrite <- (rnd_bpow 0) at 1 by lia; apply (rnd_le 53 1024); change (b2 0) with 1; lra|]. apply Rle_trans with ((1 + R a * (51 / 1000) + / 1000000) * (1 + / 9007199254740992)); [apply rnd_ub; [lra|apply big_normal; lra]|lra]. }
  destruct (add_d _ (dmul b k) O3 O2) as [O4 E4]; [apply (mid_of 0 3); [lia|lia|lra]|]. split; [exact O4|]. split; [|rewrite E4, E3, E1, E2; reflexivity]. rewrite E4. split; [rewrite <- (rnd_bpow 0) at 1 by lia; apply (rnd_le 53 1024); change (b2 0) with 1; lra|].
  apply Rle_trans with ((1 + R a * (51 / 1000) + R b * (51 / 1000) + / 300000) * (1 + / 9007199254740992)); [apply rnd_ub; [lra|apply big_normal; lra]|lra].
Qed.
Lemma cfac_mono a b a' b' p k : coef a -> coef b -> coef a' -> coef b' -> small5 p -> small5 k -> R a <= R a' -> R b <= R b' -> R (cfac a b p k) <= R (cfac a' b' p k).
Proof.
  intros A B A' B' P K L M. rewrite (proj2 (proj2 (cfac_range a b p k A B P K))), (proj2 (proj2 (cfac_range a' b' p k A' B' P K))). destruct P as [_ P], K as [_ K]. apply (rnd_le 53 1024), Rplus_le_compat; [apply (rnd_le 53 1024), Rplus_le_compat_l|]; apply (rnd_le 53 1024), Rmult_le_compat_r; lra.
Qed.
Definition count (v : sf) : Prop := okd v /\ (R v = 0 \/ b2 (-900) <= R v <= b2 990).
Lemma count_nb v : count v -> nb 990 v. Proof. intros [O B]. split; [exact O|]. pose proof (bpow_gt_0 radix2 (-900)). pose proof (bpow_gt_0 radix2 990). lra. Qed.
Definition cf (c : sf) : Prop := okd c /\ 1 <= R c <= 1105 / 1000.
Lemma cf_nb c : cf c -> nb 1 c. Proof. intros [O B]. split; [exact O|]. change (b2 1) with 2. lra. Qed.
Lemma sm_nb z : small5 z -> nb 0 z. Proof. intros [O B]. split; [exact O|]. change (b2 0) with 1. lra. Qed.
Lemma e8_nb : nb 0 (dq 8 1000). Proof. destruct n8_1000 as [O B]. split; [exact O|]. change (b2 0) with 1. lra. Qed.
Lemma cor_mono c c' z v : cf c -> cf c' -> small5 z -> nb 990 v -> R c <= R c' -> okd (cor c z v) /\ okd (cor c' z v) /\ R (cor c z v) <= R (cor c' z v).
Proof.
  intros C C' Z V L. apply cf_nb in C, C'. apply sm_nb in Z. pose proof e8_nb as E8. unfold cor. set (e8 := dq 8 1000) in *. clearbody e8.
  destruct (nb_mul 990 1 v c V C ltac:(lia)) as [W _]. destruct (nb_mul 990 1 v c' V C' ltac:(lia)) as [W' _]. pose proof (mul_mono 990 1 v v c c' V V C C' ltac:(lia) (Rle_refl _) L) as LW. set (w := dmul v c) in *. set (w' := dmul v c') in *. clearbody w w'.
  destruct (nb_mul 0 (990 + 1) z w Z W ltac:(lia)) as [X _]. destruct (nb_mul 0 (990 + 1) z w' Z W' ltac:(lia)) as [X' _]. pose proof (mul_mono 0 (990 + 1) z z w w' Z Z W W' ltac:(lia) (Rle_refl _) LW) as LX. set (x := dmul z w) in *. set (x' := dmul z w') in *. clearbody x x'.
  destruct (nb_mul _ 0 x e8 X E8 ltac:(lia)) as [Y _]. destruct (nb_mul _ 0 x' e8 X' E8 ltac:(lia)) as [Y' _]. pose proof (mul_mono _ 0 x x' e8 e8 X X' E8 E8 ltac:(lia) LX (Rle_refl _)) as LY. set (y := dmul x e8) in *. set (y' := dmul x' e8) in *. clearbody y y'.
  apply (nb_weak _ 991) in Y; [|lia]. apply (nb_weak _ 991) in Y'; [|lia]. change (990 + 1)%Z with 991%Z in *.
  split; [apply (nb_add 991 w y W Y ltac:(lia))|]. split; [apply (nb_add 991 w' y' W' Y' ltac:(lia))|]. apply (add_mono_nb 991 w w' y y' W W' Y Y' ltac:(lia) LW LY).
Qed.
Lemma cor_range c z v : cf c -> small5 z -> count v -> okd (cor c z v) /\ R v <= R (cor c z v) <= R v * (R c + / 1000).
Proof.
  intros C Z V. pose proof (count_nb v V) as VN. pose proof (cf_nb c C) as CN. pose proof (sm_nb z Z) as ZN. pose proof e8_nb as E8. destruct n8_1000 as [_ B8]. split; [apply (cor_mono c c z v C C Z VN (Rle_refl _))|]. unfold cor. set (e8 := dq 8 1000) in *. clearbody e8.
  destruct C as [OC BC]. destruct Z as [OZ BZ]. destruct (nb_mul 990 1 v c VN CN ltac:(lia)) as [W EW]. pose proof (mul_ge_l 990 1 v c VN CN ltac:(lia) ltac:(lra)) as GW. set (w := dmul v c) in *.
  destruct (nb_mul 0 (990 + 1) z w ZN W ltac:(lia)) as [X EX]. set (x := dmul z w) in *. destruct (nb_mul _ 0 x e8 X E8 ltac:(lia)) as [Y EY]. set (y := dmul x e8) in *. apply (nb_weak _ 991) in Y; [|lia]. change (990 + 1)%Z with 991%Z in *. destruct (nb_add 991 w y W Y ltac:(lia)) as [_ ES]. pose proof (add_ge_l 991 w y W Y ltac:(lia)) as GS. split; [lra|]. rewrite ES. clearbody w x y. destruct V as [OV [V|V]].
  - rewrite V in *. rewrite Rmult_0_l, rnd_0 in EW. rewrite EW, Rmult_0_r, rnd_0 in EX. rewrite EX, Rmult_0_l, rnd_0 in EY. rewrite EW, EY, Rplus_0_l, rnd_0. lra.
  - pose proof (bpow_gt_0 radix2 (-900)) as P9. set (u := / 9007199254740992). assert (U : 0 < u < / 9000000000000000) by (unfold u; lra).
    assert (N : forall q, R v * / 1000000 <= q -> b2 (-1022) <= q). { intros q Q. apply Rle_trans with (2 := Q). apply Rle_trans with (b2 (-900) * b2 (-20)); [rewrite <- bpow_plus; apply bpow_le; lia|]. change (b2 (-20)) with (/ 1048576). apply Rmult_le_compat; lra. }
    assert (UW : R w <= R v * R c * (1 + u)). { rewrite EW. apply rnd_ub; [lra|]. apply N. nra. }
    assert (W0 : 0 < R w) by lra.
    assert (UX : R x <= 52 / 1000 * R w). { rewrite EX. apply Rle_trans with (51 / 1000 * R w * (1 + u)); [|nra]. apply rnd_ub; [apply Rmult_le_compat_r; lra|]. apply N. lra. }
    assert (UY : R y <= 5 / 10000 * R w). { rewrite EY. apply Rle_trans with (45 / 100000 * R w * (1 + u)); [|nra]. destruct X as [_ [X0 _]]. apply rnd_ub; [|apply N; lra]. apply Rle_trans with (52 / 1000 * R w * R e8); [apply Rmult_le_compat_r; lra|nra]. }
    apply Rle_trans with ((R w + 5 / 10000 * R w) * (1 + u)); [apply rnd_ub; [lra|apply N; lra]|].
    assert (UV : R w <= R v * (R c + / 100000)) by nra. clear - UV U W0 BC P9 V. nra.
Qed.
