(** C06: TripleModularRedundancy<float|double> with IEEE comparison. *)
From Coq Require Import NArith Bool Lia.
From Verif Require Import Words Arith SimpleTMR_Model.
Local Open Scope N_scope.

Definition flip (x i : N) : N := N.lxor x (2 ^ i).

Lemma flip_neq x i : flip x i <> x.
Proof.
  unfold flip. intros E. assert (N.testbit (N.lxor x (2 ^ i)) i = N.testbit x i) by (rewrite E; reflexivity).
  rewrite N.lxor_spec, pow2_bits, N.eqb_refl in H. destruct (N.testbit x i); discriminate.
Qed.
Lemma flip_valid t x i : valid t x -> i < width t -> valid t (flip x i).
Proof. intros Hx Hi. apply lxor_below; [exact Hx|apply pow2_below; exact Hi]. Qed.

Lemma sign_bit_lt t : sign_bit t < width t.
Proof. destruct t; reflexivity. Qed.

(* flipping one bit of a number gives an IEEE-equal number only for the sign of zero *)
Lemma eqT_flip t v i : is_int t = false -> valid t v -> i < width t -> is_nan t v = false ->
  eqT t v (flip v i) = is_zero t v && (i =? sign_bit t).
Proof.
  intros Ht Hv Hi Hn. rewrite eqT_spec, Hn, Ht. simpl.
  assert (E : (v =? flip v i) = false).
  { apply N.eqb_neq. intros E. symmetry in E. exact (flip_neq _ _ E). }
  rewrite E. simpl.
  destruct (is_zero t v) eqn:Z; simpl; [|rewrite andb_false_r; reflexivity].
  pose proof (is_zero_iff t v Hv) as Zv. rewrite Z in Zv.
  pose proof (is_zero_iff t (flip v i) (flip_valid t v i Hv Hi)) as Zf.
  destruct (N.eqb_spec i (sign_bit t)) as [->|Hne].
  - assert (is_zero t (flip v (sign_bit t)) = true) as K.
    { apply Zf. destruct (proj1 Zv eq_refl) as [->|[_ ->]].
      - right. split; [exact Ht|]. unfold flip. apply N.lxor_0_l.
      - left. unfold flip. apply N.lxor_nilpotent. }
    rewrite K.
    assert (is_nan t (flip v (sign_bit t)) = false) as ->; [|reflexivity].
    destruct (proj1 Zv eq_refl) as [->|[_ ->]]; destruct t; try discriminate Ht; reflexivity.
  - assert (is_zero t (flip v i) = false) as ->; [|apply andb_false_r].
    apply not_true_is_false. intros K. apply Zf in K.
    assert (Hb : N.testbit (flip v i) i = negb (N.testbit v i)).
    { unfold flip. rewrite N.lxor_spec, pow2_bits, N.eqb_refl. apply xorb_true_r. }
    assert (Hbv : N.testbit v i = false).
    { destruct (proj1 Zv eq_refl) as [->|[_ ->]]; [apply N.bits_0|].
      rewrite pow2_bits. apply N.eqb_neq. exact Hne. }
    rewrite Hbv in Hb. destruct K as [K|[_ K]]; rewrite K in Hb.
    + rewrite N.bits_0 in Hb. discriminate.
    + rewrite pow2_bits in Hb. apply N.eqb_eq in Hb. contradiction.
Qed.

Lemma float_tmr_flip t v k i : is_int t = false -> valid t v -> i < width t -> (k < 3)%nat ->
  core_get (eqT t) (write3 (core_new v) k (flip v i)) = v <->
  ~ (k = 0%nat /\ (is_nan t v = true \/ (is_zero t v = true /\ i = sign_bit t))).
Proof.
  intros Ht Hv Hi Hk. pose proof (flip_neq v i) as Hne.
  unfold core_get, core_new.
  destruct (is_nan t v) eqn:Hn.
  - assert (A : forall x, eqT t v x = false).
    { intros x. rewrite eqT_spec, Hn. reflexivity. }
    assert (B : forall x, eqT t x v = false) by (intros; rewrite eqT_sym; apply A).
    destruct k as [|[|[|k]]]; [| | |lia]; simpl; rewrite ?A, ?B; intuition congruence.
  - pose proof (eqT_flip t v i Ht Hv Hi Hn) as Hf.
    pose proof (eqT_refl t v) as Hr. rewrite Hn in Hr. simpl in Hr.
    pose proof (eqT_sym t (flip v i) v) as Hs. rewrite Hf in Hs.
    destruct k as [|[|[|k]]]; [| | |lia]; simpl; rewrite ?Hr, ?Hs, ?Hf.
    + destruct (is_zero t v) eqn:Z; simpl.
      * destruct (N.eqb_spec i (sign_bit t)); intuition congruence.
      * intuition congruence.
    + destruct (is_zero t v && (i =? sign_bit t)); intuition congruence.
    + intuition congruence.
Qed.
