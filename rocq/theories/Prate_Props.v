(** Properties C478-C479: the expected error rate (power/power_aware_protection.hpp). *)
From Coq Require Import List NArith ZArith Bool Arith Lia Reals Lra Psatz SpecFloat.
Import ListNotations.
From Flocq Require Import Core BinarySingleNaN Relative.
From Verif Require Import Outcome Words Floats FloatsR HealthFloat Bits_Model RMA3_Proofs Tester3_Proofs Hw_Proofs Hw2_Proofs Qft_Model Qft_Spec Qft2_Proofs Qft4_Proofs Qft5_Proofs Qft6_Proofs Qft8_Proofs Qft9_Proofs Qer_Spec Qer_Proofs Qer2_Proofs Qer3_Proofs Env3_Proofs Env4_Proofs EnvB_Spec EnvB_Props Phys_Props Qin_Proofs Qin2_Proofs Power_Model Prate_Model.
Local Open Scope R_scope.

(** every component has a protection level that is a number and not negative *)
Definition levels_ok (p : pap) : Prop := Forall (fun x => not_negative (ccur (snd x))) (comps p).
(** the same components, each at least as protected in p' *)
Definition better_protected (p p' : pap) : Prop := Forall2 (fun x y => fst x = fst y /\ fle (ccur (snd x)) (ccur (snd y)) = true) (comps p) (comps p').

Section P.
Variable fexp : sf -> sf.
Hypothesis X : exp_lib fexp.
Notation rate := (component_error_rate fexp).
Lemma five_b : bnd 2 3 (dofZ 5). Proof. apply lit_bnd. vm_compute. reflexivity. Qed.
Lemma nine_b : bnd (-1) 0 (dlit 9 10). Proof. apply lit_bnd. vm_compute. reflexivity. Qed.
Lemma base_b : bnd (-20) (-19) base_rate. Proof. apply lit_bnd. vm_compute. reflexivity. Qed.
Lemma bits_b : bnd 23 24 bits_per_component. Proof. apply lit_bnd. vm_compute. reflexivity. Qed.
Lemma exp_in l : nneg l -> nneg (fexp (dmul (SFopp (dofZ 5)) l)) /\ E (fexp (dmul (SFopp (dofZ 5)) l)) <= 1.
Proof.
  intros N. destruct (att_neg _ _ _ _ five_b N) as [D L]. pose proof (exp_pos _ X _ (proj1 D) (proj2 D)) as P. pose proof (exp_dbl _ X _ (proj1 D)) as V. set (y := fexp _) in *.
  assert (DY : dbl y) by (split; [exact V|intros Q; rewrite Q in P; discriminate P]). assert (D0 : dbl d0) by (apply okd_dbl, z_ok). split; [split; [exact DY|apply (leE d0 y D0 DY) in P; rewrite E0 in P; exact P]|].
  assert (D1 : dbl d1) by (apply N1). replace 1 with (E d1) by (apply E1). apply leE; [exact DY|exact D1|]. apply (exp_le1 _ X); [apply D|]. apply leE; [exact D|exact D0|]. rewrite E0. exact L.
Qed.
Lemma rate_nneg c : nneg (ccur c) -> nneg (rate c).
Proof. intros N. exact (proj2 (nneg_mul _ _ _ _ bits_b (proj1 (nneg_mul _ _ _ _ base_b (proj1 (nneg_mul _ _ _ _ nine_b (proj1 (exp_in _ N)))))))). Qed.
Lemma rate_max c : nneg (ccur c) -> E (rate c) <= 9.
Proof.
  intros N. destruct (exp_in _ N) as [NE LE]. unfold component_error_rate, protection_effectiveness. set (y := fexp _) in *. pose proof (nneg_mul _ _ _ _ nine_b NE) as [M1 _]. pose proof (nneg_mul _ _ _ _ nine_b N1) as [M1' _].
  assert (L1 : E (dmul (dlit 9 10) y) <= E (dmul (dlit 9 10) d1)) by (apply (nneg_mul_mono _ _ _ _ _ _ _ _ nine_b nine_b NE N1); [lra|rewrite E1; exact LE]). pose proof (nneg_mul _ _ _ _ base_b M1) as [M2 _]. pose proof (nneg_mul _ _ _ _ base_b M1') as [M2' _].
  assert (L2 : E (dmul base_rate (dmul (dlit 9 10) y)) <= E (dmul base_rate (dmul (dlit 9 10) d1))) by (apply (nneg_mul_mono _ _ _ _ _ _ _ _ base_b base_b M1 M1'); [lra|exact L1]).
  apply Rle_trans with (E (dmul (dmul base_rate (dmul (dlit 9 10) d1)) bits_per_component)); [apply (nneg_mul_mono_r _ _ _ _ _ bits_b M2 M2' L2)|]. replace 9 with (E (dofZ 9)) by (rewrite E_fin by (vm_compute; reflexivity); apply (ofZ_ex 9); lia). apply leE; [exact (proj1 (proj2 (nneg_mul _ _ _ _ bits_b M2')))|split; [vm_compute; reflexivity|vm_compute; discriminate]|vm_compute; reflexivity].
Qed.
Lemma rate_anti c c' : lib_mono fexp -> nneg (ccur c) -> nneg (ccur c') -> E (ccur c) <= E (ccur c') -> E (rate c') <= E (rate c).
Proof.
  intros M N N' L. destruct (exp_in _ N) as [NE _]. destruct (exp_in _ N') as [NE' _]. pose proof (nneg_mul _ _ _ _ nine_b NE) as [M1 _]. pose proof (nneg_mul _ _ _ _ nine_b NE') as [M1' _]. pose proof (nneg_mul _ _ _ _ base_b M1) as [M2 _]. pose proof (nneg_mul _ _ _ _ base_b M1') as [M2' _].
  unfold component_error_rate, protection_effectiveness. apply (nneg_mul_mono_r _ _ _ _ _ bits_b M2' M2). apply (nneg_mul_mono _ _ _ _ _ _ _ _ base_b base_b M1' M1); [lra|]. apply (nneg_mul_mono _ _ _ _ _ _ _ _ nine_b nine_b NE' NE); [lra|].
  destruct (att_neg _ _ _ _ five_b N) as [D _]. destruct (att_neg _ _ _ _ five_b N') as [D' _]. apply leE; [apply NE'|apply NE|]. apply M; [apply D'|apply D|]. apply leE; [exact D'|exact D|]. apply (att_mono _ _ _ _ _ five_b N N' L).
Qed.
Notation sum := (fold_left (fun total (x : Z * comp) => dadd total (rate (snd x)))).
Lemma rate_sum p : expected_error_rate fexp p = sum (comps p) (dofZ 0). Proof. unfold expected_error_rate. destruct (comps p); reflexivity. Qed.
Lemma sum_nneg l : Forall (fun x => nneg (ccur (snd x))) l -> forall acc, nneg acc -> nneg (sum l acc).
Proof. induction 1 as [|x l N _ IH]; intros acc A; [exact A|]. cbn [fold_left]. apply IH. apply (nneg_add _ _ A (rate_nneg _ N)). Qed.
Lemma sum_anti l l' : lib_mono fexp -> Forall2 (fun x y : Z * comp => nneg (ccur (snd x)) /\ nneg (ccur (snd y)) /\ E (ccur (snd x)) <= E (ccur (snd y))) l l' -> forall acc acc', nneg acc -> nneg acc' -> E acc' <= E acc -> E (sum l' acc') <= E (sum l acc).
Proof.
  intros M. induction 1 as [|x y l l' (N & N' & L) _ IH]; intros acc acc' A A' LA; [exact LA|]. cbn [fold_left]. apply IH; [apply (nneg_add _ _ A (rate_nneg _ N))|apply (nneg_add _ _ A' (rate_nneg _ N'))|].
  apply add_mono; [exact A'|apply rate_nneg, N'|exact A|apply rate_nneg, N|exact LA|apply rate_anti; assumption].
Qed.
Lemma sum_max l : Forall (fun x => nneg (ccur (snd x))) l -> forall acc k, nneg acc -> E acc <= IZR (9 * k) -> (0 <= k)%Z -> (9 * (k + Z.of_nat (length l)) < 2 ^ 53)%Z -> E (sum l acc) <= IZR (9 * (k + Z.of_nat (length l))).
Proof.
  induction 1 as [|x l N _ IH]; intros acc k A LE K B; [cbn [length fold_left Z.of_nat]; rewrite Z.add_0_r; exact LE|]. cbn [fold_left]. cbn [length] in *. rewrite Nat2Z.inj_succ in *. replace (k + Z.succ (Z.of_nat (length l)))%Z with (k + 1 + Z.of_nat (length l))%Z in * by lia.
  destruct (nneg_add _ _ A (rate_nneg _ N)) as [NA Q]. apply IH; [exact NA| |lia|lia]. rewrite Q. apply Rle_trans with (1 := Rmin_r _ _). pose proof (rate_max _ N) as R9.
  rewrite <- (RMA3_Proofs.rnd_int (9 * (k + 1))) by lia. apply (rnd_le 53 1024). rewrite Z.mul_add_distr_l, plus_IZR, Z.mul_1_r. lra.
Qed.
End P.
Lemma ok_nneg p : levels_ok p -> Forall (fun x => nneg (ccur (snd x))) (comps p).
Proof. intros H. eapply Forall_impl; [|exact H]. intros x N. apply nneg_not, N. Qed.
Lemma z_nneg : nneg (dofZ 0). Proof. split; [apply okd_dbl, z_ok|]. change (dofZ 0) with d0. rewrite E0. lra. Qed.

(** ** C478 *)
Theorem C478_error_rate_falls : forall fexp p p', exp_lib fexp -> lib_mono fexp -> levels_ok p -> levels_ok p' ->
  (better_protected p p' -> fle (expected_error_rate fexp p') (expected_error_rate fexp p) = true) /\
  (forall x, comps p' = comps p ++ [x] -> fle (expected_error_rate fexp p) (expected_error_rate fexp p') = true).
Proof.
  intros fexp p p' X M A A'. apply ok_nneg in A, A'. rewrite !rate_sum. pose proof (sum_nneg fexp X _ A _ z_nneg) as N. pose proof (sum_nneg fexp X _ A' _ z_nneg) as N'. split.
  - intros B. apply leE; [apply N'|apply N|]. apply sum_anti; [exact X|exact M| |apply z_nneg|apply z_nneg|lra]. unfold better_protected in B. clear N N'. revert A A' B. generalize (comps p) (comps p'). intros l l' A A' B. induction B as [|x y l l' [_ L] B IH]; [constructor|]. inversion A; inversion A'; subst. constructor; [|apply IH; assumption]. split; [assumption|]. split; [assumption|]. apply leE; [match goal with H : nneg (ccur (snd x)) |- _ => apply H end|match goal with H : nneg (ccur (snd y)) |- _ => apply H end|exact L].
  - intros x Q. apply leE; [apply N|apply N'|]. rewrite Q, fold_left_app. cbn [fold_left]. apply add_ge; [exact N|]. apply rate_nneg; [exact X|]. rewrite Q in A'. apply Forall_app in A'. destruct A' as [_ A']. inversion A'; assumption.
Qed.
(** ** C479 *)
Theorem C479_error_rate_bound : forall fexp p, exp_lib fexp -> levels_ok p -> (9 * Z.of_nat (length (comps p)) < 2 ^ 53)%Z ->
  finite_double (expected_error_rate fexp p) /\ 0 <= R (expected_error_rate fexp p) <= 9 * INR (length (comps p)).
Proof.
  intros fexp p X A B. apply ok_nneg in A. rewrite rate_sum. pose proof (sum_nneg fexp X _ A _ z_nneg) as N. pose proof (sum_max fexp X _ A (dofZ 0) 0 z_nneg) as S. change (dofZ 0) with d0 in S at 1. rewrite E0 in S. specialize (S ltac:(simpl; lra) ltac:(lia) B). rewrite Z.add_0_l, mult_IZR, <- INR_IZR_INZ in S.
  destruct (nneg_cases _ N) as [Q|[O P]]; [exfalso|split; [exact O|]; rewrite (E_fin _ (proj2 O)) in S; lra]. rewrite Q in S. cbn [E] in S. assert (IZR (9 * Z.of_nat (length (comps p))) < IZR (2 ^ 53)) by (apply IZR_lt, B). rewrite mult_IZR, <- INR_IZR_INZ in H. pose proof BB_eq. assert (bpow radix2 53 < bpow radix2 1024) by (apply bpow_lt; lia). change (bpow radix2 53) with (IZR (2 ^ 53)) in *. lra.
Qed.
Definition comp_at (l : sf) : comp := mkC d0 d1 l d0 d1 d1.
Definition two (a b : sf) : pap := mkP (dofZ 100) NOMINAL [(0%Z, comp_at a); (1%Z, comp_at b)] 2.
Example C478_nonvacuous : exp_lib stair_exp /\ lib_mono stair_exp /\ levels_ok (two d0 d0) /\ levels_ok (two d0 d1) /\ better_protected (two d0 d0) (two d0 d1) /\ flt (expected_error_rate stair_exp (two d0 d1)) (expected_error_rate stair_exp (two d0 d0)) = true.
Proof.
  split; [exact stair_ok|]. split; [exact stair_mono|]. split; [repeat constructor; vm_compute; reflexivity|]. split; [repeat constructor; vm_compute; reflexivity|]. split; [repeat constructor; vm_compute; reflexivity|]. vm_compute. reflexivity.
Qed.
(** with no protection two components have about 17.36 errors a day *)
Example C479_nonvacuous : exp_lib one_exp /\ levels_ok (two d0 d0) /\ flt (dofZ 1736) (dmul (dofZ 100) (expected_error_rate one_exp (two d0 d0))) = true /\ flt (dmul (dofZ 100) (expected_error_rate one_exp (two d0 d0))) (dofZ 1737) = true.
Proof. split; [exact one_exp_ok|]. split; [repeat constructor; vm_compute; reflexivity|]. split; vm_compute; reflexivity. Qed.

Print Assumptions C478_error_rate_falls.
Print Assumptions C479_error_rate_bound.
