(** Device sensitivity; radiation applied to memory. *)
From Coq Require Import List NArith ZArith Bool Arith Lia Reals Lra SpecFloat.
Import ListNotations.
From Flocq Require Import Core BinarySingleNaN.
From Verif Require Import Outcome Words Floats FloatsR HealthFloat Bits_Model RMA3_Proofs Tester3_Proofs Hw_Proofs Hw2_Proofs Qft_Model Qft_Spec Qft2_Proofs Qft4_Proofs Qft5_Proofs Qft6_Proofs Qft7_Proofs Qft8_Proofs Qft9_Proofs Qer_Spec Qer_Proofs Qer2_Proofs Qer3_Proofs Qer4_Proofs.
Local Open Scope R_scope.

(** ** sensitivity *)
Definition denom (m : material) (f : sf) : sf := dmul (dmul (dmul (dmul (dofZ 2) (mass_ratio m)) (dq 9109 (10 ^ 34)%positive)) (dmul f (dq 1 (10 ^ 9)%positive))) (dmul f (dq 1 (10 ^ 9)%positive)).
Definition numer : sf := dmul (dmul (dmul hbar_ev hbar_ev) M_PI) M_PI.
Lemma numer_bnd : bnd (-110) (-90) numer. Proof. apply lit_bnd. vm_compute. reflexivity. Qed.
Lemma denom_bnd m f : bnd (-20) 20 (mass_ratio m) -> bnd (-20) 20 f -> bnd (-219) (-95) (denom m f).
Proof.
  intros BM BF. assert (B2' : bnd 1 2 (dofZ 2)) by (apply lit_bnd; vm_compute; reflexivity). assert (BE : bnd (-100) (-99) (dq 9109 (10 ^ 34)%positive)) by (apply lit_bnd; vm_compute; reflexivity). assert (BN : bnd (-30) (-29) (dq 1 (10 ^ 9)%positive)) by (apply lit_bnd; vm_compute; reflexivity).
  destruct (bnd_mul _ _ _ _ _ _ B2' BM) as [X1 _]; try lia. destruct (bnd_mul _ _ _ _ _ _ X1 BE) as [X2 _]; try lia. destruct (bnd_mul _ _ _ _ _ _ BF BN) as [X3 _]; try lia. destruct (bnd_mul _ _ _ _ _ _ X2 X3) as [X4 _]; try lia. destruct (bnd_mul _ _ _ _ _ _ X4 X3) as [X5 _]; try lia.
  eapply bnd_weak; [exact X5|lia|lia].
Qed.
Lemma denom_mono m f f' : bnd (-20) 20 (mass_ratio m) -> bnd (-20) 20 f -> bnd (-20) 20 f' -> R f <= R f' -> R (denom m f) <= R (denom m f').
Proof.
  intros BM BF BF' L. assert (B2' : bnd 1 2 (dofZ 2)) by (apply lit_bnd; vm_compute; reflexivity). assert (BE : bnd (-100) (-99) (dq 9109 (10 ^ 34)%positive)) by (apply lit_bnd; vm_compute; reflexivity). assert (BN : bnd (-30) (-29) (dq 1 (10 ^ 9)%positive)) by (apply lit_bnd; vm_compute; reflexivity).
  destruct (bnd_mul _ _ _ _ _ _ B2' BM) as [X1 _]; try lia. destruct (bnd_mul _ _ _ _ _ _ X1 BE) as [X2 _]; try lia. destruct (bnd_mul _ _ _ _ _ _ BF BN) as [X3 E3]; try lia. destruct (bnd_mul _ _ _ _ _ _ BF' BN) as [Y3 F3]; try lia.
  destruct (bnd_mul _ _ _ _ _ _ X2 X3) as [X4 E4]; try lia. destruct (bnd_mul _ _ _ _ _ _ X2 Y3) as [Y4 F4]; try lia. destruct (bnd_mul _ _ _ _ _ _ X4 X3) as [X5 E5]; try lia. destruct (bnd_mul _ _ _ _ _ _ Y4 Y3) as [Y5 F5]; try lia.
  pose proof (bnd_pos _ _ _ BN). pose proof (bnd_pos _ _ _ X2). pose proof (bnd_pos _ _ _ X3). pose proof (bnd_pos _ _ _ X4).
  assert (L3 : R (dmul f (dq 1 (10 ^ 9)%positive)) <= R (dmul f' (dq 1 (10 ^ 9)%positive))) by (rewrite E3, F3; apply (rnd_le 53 1024); apply Rmult_le_compat_r; lra).
  assert (L4 : R (dmul (dmul (dmul (dofZ 2) (mass_ratio m)) (dq 9109 (10 ^ 34)%positive)) (dmul f (dq 1 (10 ^ 9)%positive))) <= R (dmul (dmul (dmul (dofZ 2) (mass_ratio m)) (dq 9109 (10 ^ 34)%positive)) (dmul f' (dq 1 (10 ^ 9)%positive)))) by (rewrite E4, F4; apply (rnd_le 53 1024); apply Rmult_le_compat_l; lra).
  unfold denom. rewrite E5, F5. apply (rnd_le 53 1024). apply Rmult_le_compat; lra.
Qed.
Definition small_factor (m : material) (f : sf) : sf := dadd d1 (ddiv (ddiv (ddiv numer (denom m f)) eV_J) (bandgap m)).
Lemma size_form m f : size_factor m f = if flt f (dofZ 100) then small_factor m f else d1. Proof. reflexivity. Qed.
Lemma small_ok m f : bnd (-20) 20 (mass_ratio m) -> bnd (-20) 20 (bandgap m) -> bnd (-20) 20 f -> bnd 0 213 (small_factor m f) /\ 1 <= R (small_factor m f) /\ 1048576 <= R (small_factor m f).
Proof.
  intros BM BG BF. pose proof (denom_bnd m f BM BF) as BD. assert (EV : bnd (-63) (-62) eV_J) by (apply lit_bnd; vm_compute; reflexivity). destruct (bnd_div _ _ _ _ _ _ numer_bnd BD) as [X1 _]; try lia. destruct (bnd_div _ _ _ _ _ _ X1 EV) as [X2 _]; try lia. destruct (bnd_div _ _ _ _ _ _ X2 BG) as [X3 _]; try lia.
  unfold small_factor. set (x := ddiv _ (bandgap m)) in *. assert (X4 : bnd 20 212 x) by (eapply bnd_weak; [exact X3|lia|lia]). destruct (one_plus 212 x (proj1 X4)) as (Y1 & Y2 & Y3); [split; [apply Rlt_le; exact (bnd_pos _ _ _ X4)|apply X4]|lia|].
  split; [exact Y1|]. split; [exact Y3|]. rewrite Y2. change 1048576 with (b2 20). rewrite <- (rnd_bpow 20) by lia. apply (rnd_le 53 1024). destruct X4 as [_ X4]. lra.
Qed.
Lemma small_mono m f f' : bnd (-20) 20 (mass_ratio m) -> bnd (-20) 20 (bandgap m) -> bnd (-20) 20 f -> bnd (-20) 20 f' -> R f <= R f' -> R (small_factor m f') <= R (small_factor m f).
Proof.
  intros BM BG BF BF' L. pose proof (denom_bnd m f BM BF) as BD. pose proof (denom_bnd m f' BM BF') as BD'. assert (EV : bnd (-63) (-62) eV_J) by (apply lit_bnd; vm_compute; reflexivity).
  destruct (bnd_div _ _ _ _ _ _ numer_bnd BD) as [X1 E1']; try lia. destruct (bnd_div _ _ _ _ _ _ X1 EV) as [X2 E2']; try lia. destruct (bnd_div _ _ _ _ _ _ X2 BG) as [X3 E3']; try lia.
  destruct (bnd_div _ _ _ _ _ _ numer_bnd BD') as [Y1 F1]; try lia. destruct (bnd_div _ _ _ _ _ _ Y1 EV) as [Y2 F2]; try lia. destruct (bnd_div _ _ _ _ _ _ Y2 BG) as [Y3 F3]; try lia.
  pose proof (bnd_pos _ _ _ BD). pose proof (bnd_pos _ _ _ BD'). pose proof (bnd_pos _ _ _ EV). pose proof (bnd_pos _ _ _ BG). pose proof (bnd_pos _ _ _ numer_bnd). pose proof (denom_mono m f f' BM BF BF' L) as LD.
  assert (L1 : R (ddiv numer (denom m f')) <= R (ddiv numer (denom m f))) by (rewrite E1', F1; apply (rnd_le 53 1024); unfold Rdiv; apply Rmult_le_compat_l; [lra|apply Rinv_le; lra]).
  assert (L2 : R (ddiv (ddiv numer (denom m f')) eV_J) <= R (ddiv (ddiv numer (denom m f)) eV_J)) by (rewrite E2', F2; apply (rnd_le 53 1024); unfold Rdiv; apply Rmult_le_compat_r; [apply Rlt_le, Rinv_0_lt_compat; lra|lra]).
  assert (L3 : R (ddiv (ddiv (ddiv numer (denom m f')) eV_J) (bandgap m)) <= R (ddiv (ddiv (ddiv numer (denom m f)) eV_J) (bandgap m))) by (rewrite E3', F3; apply (rnd_le 53 1024); unfold Rdiv; apply Rmult_le_compat_r; [apply Rlt_le, Rinv_0_lt_compat; lra|lra]).
  unfold small_factor. set (x := ddiv (ddiv (ddiv numer (denom m f')) eV_J) (bandgap m)) in *. set (y := ddiv (ddiv (ddiv numer (denom m f)) eV_J) (bandgap m)) in *. assert (X4 : bnd 20 212 x) by (eapply bnd_weak; [exact Y3|lia|lia]). assert (Y4 : bnd 20 212 y) by (eapply bnd_weak; [exact X3|lia|lia]).
  destruct (one_plus 212 x (proj1 X4)) as (_ & Q1 & _); [split; [apply Rlt_le; exact (bnd_pos _ _ _ X4)|apply X4]|lia|]. destruct (one_plus 212 y (proj1 Y4)) as (_ & Q2 & _); [split; [apply Rlt_le; exact (bnd_pos _ _ _ Y4)|apply Y4]|lia|].
  rewrite Q1, Q2. apply (rnd_le 53 1024). lra.
Qed.
Lemma hundred : okd (dofZ 100) /\ R (dofZ 100) = 100. Proof. apply (ofZ_ex 100). lia. Qed.
Lemma size_ok m f : bnd (-20) 20 (mass_ratio m) -> bnd (-20) 20 (bandgap m) -> bnd (-20) 20 f -> bnd 0 213 (size_factor m f) /\ 1 <= R (size_factor m f).
Proof.
  intros BM BG BF. rewrite size_form. destruct (flt f (dofZ 100)); [destruct (small_ok m f BM BG BF) as (A & B & _); split; assumption|]. rewrite (proj2 o_ok). split; [eapply bnd_weak; [exact one_bnd|lia|lia]|lra].
Qed.
Lemma size_mono m f f' : bnd (-20) 20 (mass_ratio m) -> bnd (-20) 20 (bandgap m) -> bnd (-20) 20 f -> bnd (-20) 20 f' -> R f <= R f' -> R (size_factor m f') <= R (size_factor m f).
Proof.
  intros BM BG BF BF' L. rewrite !size_form. destruct (flt f' (dofZ 100)) eqn:Q'.
  - apply (flt_d _ _ (proj1 BF') (proj1 hundred)) in Q'. rewrite (proj2 hundred) in Q'. assert (Q : flt f (dofZ 100) = true) by (apply (flt_d _ _ (proj1 BF) (proj1 hundred)); rewrite (proj2 hundred); lra). rewrite Q. apply small_mono; assumption.
  - rewrite (proj2 o_ok). destruct (flt f (dofZ 100)); [apply (small_ok m f BM BG BF)|rewrite (proj2 o_ok); lra].
Qed.
(** most robust first *)
Definition order : list dtype := [MRAM; FRAM; FLASH_SLC; SRAM_8T; FLASH_MLC; SRAM_6T; DRAM].
Definition order_of (t : dtype) : nat := match t with MRAM => 0 | FRAM => 1 | FLASH_SLC => 2 | SRAM_8T => 3 | FLASH_MLC => 4 | SRAM_6T => 5 | DRAM => 6 end.
Lemma base_bnd t : bnd (-4) 1 (base_sensitivity t). Proof. destruct t; apply lit_bnd; vm_compute; reflexivity. Qed.
Lemma base_order t t' : (order_of t <= order_of t')%nat -> R (base_sensitivity t) <= R (base_sensitivity t').
Proof.
  intros L. apply (fle_d _ _ (proj1 (base_bnd t)) (proj1 (base_bnd t'))). destruct t, t'; cbn in L; try lia; vm_compute; reflexivity.
Qed.
Lemma sens_mono m t t' f f' : bnd (-20) 20 (mass_ratio m) -> bnd (-20) 20 (bandgap m) -> bnd (-20) 20 f -> bnd (-20) 20 f' -> R f <= R f' -> (order_of t <= order_of t')%nat -> okd (deviceSensitivity m t f') /\ R (deviceSensitivity m t f') <= R (deviceSensitivity m t' f).
Proof.
  intros BM BG BF BF' L O. destruct (size_ok m f BM BG BF) as [B1 _]. destruct (size_ok m f' BM BG BF') as [B2' _]. pose proof (size_mono m f f' BM BG BF BF' L) as LS. pose proof (base_order t t' O) as LB. pose proof (base_bnd t) as BT. pose proof (base_bnd t') as BT'.
  unfold deviceSensitivity. destruct (bnd_mul _ _ _ _ _ _ BT B2') as [X1 E1']; try lia. destruct (bnd_mul _ _ _ _ _ _ BT' B1) as [X2 E2']; try lia. split; [exact (proj1 X1)|]. rewrite E1', E2'. apply (rnd_le 53 1024). pose proof (bnd_pos _ _ _ BT). pose proof (bnd_pos _ _ _ B2'). apply Rmult_le_compat; lra.
Qed.
Lemma sens_large m t f : flt f (dofZ 100) = false -> R (deviceSensitivity m t f) = R (base_sensitivity t).
Proof.
  intros H. unfold deviceSensitivity. rewrite size_form, H. destruct (bnd_mul _ _ _ _ _ _ (base_bnd t) one_bnd) as [_ ->]; try lia. rewrite (proj2 o_ok), Rmult_1_r. apply (rnd_R 53 1024). apply base_bnd.
Qed.
Lemma sens_small m t f : bnd (-20) 20 (mass_ratio m) -> bnd (-20) 20 (bandgap m) -> bnd (-20) 20 f -> flt f (dofZ 100) = true -> 65536 <= R (deviceSensitivity m t f).
Proof.
  intros BM BG BF H. unfold deviceSensitivity. rewrite size_form, H. destruct (small_ok m f BM BG BF) as (B1 & _ & G). destruct (bnd_mul _ _ _ _ _ _ (base_bnd t) B1) as [_ ->]; try lia. change 65536 with (b2 16). rewrite <- (rnd_bpow 16) by lia. apply (rnd_le 53 1024).
  destruct (base_bnd t) as [_ [BL _]]. change (b2 (-4)) with (/ 16) in BL. change (b2 16) with 65536. nra.
Qed.
