(** Lemmas for the statements in Vae_Props. *)
From Coq Require Import List NArith ZArith Bool Arith Reals SpecFloat Lia Lra Permutation.
Import ListNotations.
From Verif Require Import Outcome Words Arith Floats FloatsR HealthFloat FloatsS Bits_Model MBP_Model PNN_Model PNN_Spec PNN_Proofs PNN2_Proofs PNN7_Proofs Residual_Model Vae_Model Vae_Spec.
From Verif Require Import Vae_Proofs Vae2_Proofs Vae3_Proofs Vae4_Proofs Vae5_Proofs Vae6_Proofs Vae7_Proofs Vae8_Proofs Vae9_Proofs.
Local Open Scope nat_scope.
Local Open Scope outcome_scope.

Lemma mean_empty loss : mean_loss loss [] = nan32. Proof. vm_compute. reflexivity. Qed.
Lemma epoch_empty loss : epoch_mean loss [] = nan32. Proof. vm_compute. reflexivity. Qed.
Lemma improves_nan d b : improves d b nan32 = false. Proof. unfold improves, f32lt. change (sf32 nan32) with S754_nan. reflexivity. Qed.
Lemma repeat_map {A B} (b : B) (l : list A) : map (fun _ => b) l = repeat b (length l). Proof. induction l; cbn; congruence. Qed.
Lemma best_nan d b k : best_after d b (repeat nan32 k) = b.
Proof. induction k; cbn [repeat best_after]; [reflexivity|]. rewrite improves_nan. exact IHk. Qed.
Lemma stale_nan d b k : forall z, stale_after d b z (repeat nan32 k) = (z + Z.of_nat k)%Z.
Proof. induction k as [|k IH]; intros z; cbn [repeat stale_after]; [lia|]. rewrite improves_nan, IH. lia. Qed.
Lemma index_nil {A} i : index i (@nil A) = []. Proof. reflexivity. Qed.
Lemma cut_nil {A} n : cut n (@nil A) = []. Proof. reflexivity. Qed.

(** ** blends *)
Lemma fin_not_nan x : fin x = true -> x <> S754_nan. Proof. intros H E. rewrite E in H. discriminate. Qed.
Lemma bits_lt a b : (f32add a b < 2 ^ 32)%N. Proof. apply bits32_ok. apply V_add; apply sf32_V. Qed.
Lemma blend0 a b : plain a -> finite32 b -> blend 0 a b = a.
Proof.
  intros (H1 & H2 & H3) Hb. pose proof (blend_0 a b H2 Hb H3) as E. apply sf32_inj; [apply bits_lt|exact H1|exact E|]. rewrite E. apply fin_not_nan, H2.
Qed.
Lemma blend1 a b : finite32 a -> plain b -> blend f_one a b = b.
Proof.
  intros Ha (H1 & H2 & H3). pose proof (blend_1 a b Ha H2 H3) as E. apply sf32_inj; [apply bits_lt|exact H1|exact E|]. rewrite E. apply fin_not_nan, H2.
Qed.
Lemma Forall_nth0 (P : N -> Prop) l i : Forall P l -> i < length l -> P (nth i l 0%N).
Proof. intros F H. rewrite Forall_forall in F. apply F, nth_In, H. Qed.
Lemma blended_0 n a b : length a = n -> length b = n -> Forall plain a -> Forall finite32 b -> blended 0 n a b = a.
Proof.
  intros La Lb Fa Fb. unfold blended. transitivity (map (fun i => nth i a 0%N) (seq 0 n)).
  - apply map_ext_in. intros i Hi. apply in_seq in Hi. apply (blend0 (nth i a 0%N) (nth i b 0%N)); [apply Forall_nth0|apply Forall_nth0]; auto; lia.
  - rewrite nth_seq_firstn by lia. apply firstn_all2. lia.
Qed.
Lemma blended_1 n a b : length a = n -> length b = n -> Forall finite32 a -> Forall plain b -> blended f_one n a b = b.
Proof.
  intros La Lb Fa Fb. unfold blended. transitivity (map (fun i => nth i b 0%N) (seq 0 n)).
  - apply map_ext_in. intros i Hi. apply in_seq in Hi. apply (blend1 (nth i a 0%N) (nth i b 0%N)); [apply Forall_nth0|apply Forall_nth0]; auto; lia.
  - rewrite nth_seq_firstn by lia. apply firstn_all2. lia.
Qed.
(** ** the split of 2^24 + 3 samples *)
Lemma split_large k : to_size (sf32 (f32mul (f32ofN 16777219) (f32sub f_one 0))) = Ret k -> (16777219 < k)%N.
Proof. assert (E : to_size (sf32 (f32mul (f32ofN 16777219) (f32sub f_one 0))) = Ret 16777220%N) by (vm_compute; reflexivity). rewrite E. intros H. injection H as <-. lia. Qed.
