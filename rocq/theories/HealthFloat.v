(** Range reasoning for binary64 quantities of moderate size. *)
From Coq Require Import ZArith NArith Lia Bool SpecFloat Reals Lra.
From Flocq Require Import Core Relative.
From Flocq.IEEE754 Require Import BinarySingleNaN.
From Verif Require Import Floats FloatsR.
Local Open Scope R_scope.

Notation V64 := (valid_binary 53 1024).
Notation rnd64 := (rnd 53 1024).
Definition okd (x : sf) : Prop := V64 x = true /\ fin x = true.
Definition inr (lo hi : Rdefinitions.R) (x : sf) : Prop := okd x /\ lo <= R x <= hi.

Definition dbig : sf := dofZ (2 ^ 60).
Definition dmbig : sf := dofZ (- 2 ^ 60).
Lemma dbig_R : R dbig = 1152921504606846976.
Proof. unfold dbig. vm_compute dofZ. unfold R, SF2R, F2R. simpl. lra. Qed.
Lemma dmbig_R : R dmbig = -1152921504606846976.
Proof. unfold dmbig. vm_compute dofZ. unfold R, SF2R, F2R. simpl. lra. Qed.
Definition mid (x : Rdefinitions.R) : Prop := -1152921504606846976 <= x <= 1152921504606846976.
Lemma mid_ovf x : mid x -> Rabs (rnd64 x) < bpow radix2 1024.
Proof.
  intros H. apply (rnd_ovf 53 1024 dmbig dbig); [reflexivity|reflexivity|]. rewrite dbig_R, dmbig_R. exact H.
Qed.
Lemma add_d x y : okd x -> okd y -> mid (R x + R y) -> okd (dadd x y) /\ R (dadd x y) = rnd64 (R x + R y).
Proof.
  intros [Vx Fx] [Vy Fy] H. unfold dadd.
  destruct (add_R 53 1024 x y Vx Vy Fx Fy (mid_ovf _ H)) as (A & B & C). unfold okd. auto.
Qed.
Lemma sub_d x y : okd x -> okd y -> mid (R x - R y) -> okd (dsub x y) /\ R (dsub x y) = rnd64 (R x - R y).
Proof.
  intros [Vx Fx] [Vy Fy] H. unfold dsub.
  destruct (sub_R 53 1024 x y Vx Vy Fx Fy (mid_ovf _ H)) as (A & B & C). unfold okd. auto.
Qed.
Lemma mul_d x y : okd x -> okd y -> mid (R x * R y) -> okd (dmul x y) /\ R (dmul x y) = rnd64 (R x * R y).
Proof.
  intros [Vx Fx] [Vy Fy] H. unfold dmul.
  destruct (mul_R 53 1024 x y Vx Vy Fx Fy (mid_ovf _ H)) as (A & B & C). unfold okd. auto.
Qed.
Lemma div_d x y : okd x -> okd y -> R y <> 0 -> mid (R x / R y) -> okd (ddiv x y) /\ R (ddiv x y) = rnd64 (R x / R y).
Proof.
  intros [Vx Fx] [Vy Fy] Hy H. unfold ddiv.
  destruct (div_R 53 1024 x y Vx Vy Fx Hy (mid_ovf _ H)) as (A & B & C). unfold okd. auto.
Qed.
Lemma flt_d x y : okd x -> okd y -> (flt x y = true <-> R x < R y).
Proof. intros [Vx Fx] [Vy Fy]. apply (ltb_R 53 1024); assumption. Qed.
Lemma fle_d x y : okd x -> okd y -> (fle x y = true <-> R x <= R y).
Proof. intros [Vx Fx] [Vy Fy]. apply (leb_R 53 1024); assumption. Qed.
Lemma flt_dF x y : okd x -> okd y -> (flt x y = false <-> R y <= R x).
Proof.
  intros Hx Hy. rewrite <- not_true_iff_false, (flt_d x y Hx Hy). split; [apply Rnot_lt_le|apply Rle_not_lt].
Qed.
Lemma fmin_d a b : okd a -> okd b -> okd (fmin a b) /\ R (fmin a b) = Rmin (R a) (R b).
Proof.
  intros Ha Hb. unfold fmin. destruct (flt b a) eqn:E.
  - split; [exact Hb|]. apply flt_d in E; auto. rewrite Rmin_right by lra. reflexivity.
  - split; [exact Ha|]. apply flt_dF in E; auto. rewrite Rmin_left by lra. reflexivity.
Qed.
Lemma fmax_d a b : okd a -> okd b -> okd (fmax a b) /\ R (fmax a b) = Rmax (R a) (R b).
Proof.
  intros Ha Hb. unfold fmax. destruct (flt a b) eqn:E.
  - split; [exact Hb|]. apply flt_d in E; auto. rewrite Rmax_right by lra. reflexivity.
  - split; [exact Ha|]. apply flt_dF in E; auto. rewrite Rmax_left by lra. reflexivity.
Qed.
Lemma rnd64_ge lo x : okd lo -> R lo <= x -> R lo <= rnd64 x.
Proof. intros [V F] H. rewrite <- (rnd_R 53 1024 lo V). apply (rnd_le 53 1024). exact H. Qed.
Lemma rnd64_le hi x : okd hi -> x <= R hi -> rnd64 x <= R hi.
Proof. intros [V F] H. rewrite <- (rnd_R 53 1024 hi V). apply (rnd_le 53 1024). exact H. Qed.
(** relative error 2^-53 in the normal range *)
Lemma rnd64_rel x : bpow radix2 (-1022) <= x ->
  x * (1 - / 9007199254740992) <= rnd64 x <= x * (1 + / 9007199254740992).
Proof.
  intros H. assert (0 < x) by (apply Rlt_le_trans with (2 := H); apply bpow_gt_0).
  pose proof (relative_error_N_FLT radix2 (-1074) 53 Hp53 (fun z => negb (Z.even z)) x) as E.
  rewrite (Rabs_pos_eq x) in E by lra.
  assert (E' : Rabs (rnd64 x - x) <= / 2 * bpow radix2 (-53 + 1) * x) by (apply E; exact H).
  replace (/ 2 * bpow radix2 (-53 + 1)) with (/ 9007199254740992) in E'.
  2:{ change (bpow radix2 (-53 + 1)) with (/ 4503599627370496). lra. }
  apply Rabs_le_inv in E'. lra.
Qed.
Lemma small_normal x : / 1048576 <= x -> bpow radix2 (-1022) <= x.
Proof.
  intros H. apply Rle_trans with (2 := H). change (/ 1048576) with (bpow radix2 (-20)).
  apply bpow_le. lia.
Qed.
(* numeric literals: R of a concrete spec_float *)
Ltac lit_R := unfold R, SF2R, F2R; simpl; lra.
