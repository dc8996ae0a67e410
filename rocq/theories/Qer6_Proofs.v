(** Radiation applied to memory. *)
From Coq Require Import List NArith ZArith Bool Arith Lia.
Import ListNotations.
From Verif Require Import Outcome Words Floats Bits_Model Qft_Model Qft_Spec Qft_Proofs.
Local Open Scope nat_scope.

(** ** bits of bytes *)
Section Count.
Variable (A : Type).
Implicit Types f g h : A -> bool.
Definition diffs (f g : A -> bool) (l : list A) : nat := length (filter (fun i => negb (Bool.eqb (f i) (g i))) l).
Lemma diffs_tri f g h l : diffs f h l <= diffs f g l + diffs g h l /\ Nat.even (diffs f h l) = Nat.even (diffs f g l + diffs g h l).
Proof.
  unfold diffs. induction l as [|i l [I1 I2]]; [split; [apply Nat.le_refl|reflexivity]|]. cbn [filter].
  set (a := length (filter (fun i => negb (Bool.eqb (f i) (h i))) l)) in *. set (b := length (filter (fun i => negb (Bool.eqb (f i) (g i))) l)) in *. set (c := length (filter (fun i => negb (Bool.eqb (g i) (h i))) l)) in *.
  destruct (f i), (g i), (h i); cbn [Bool.eqb negb length]; fold a b c; rewrite ?Nat.add_succ_r, ?Nat.add_succ_l; (split; [lia|]); try exact I2; rewrite !Nat.even_succ, <- !Nat.negb_even; rewrite ?I2, ?negb_involutive; reflexivity.
Qed.
Lemma diffs_refl f l : diffs f f l = 0.
Proof. unfold diffs. induction l as [|i l IH]; [reflexivity|]. cbn [filter]. rewrite eqb_reflx. exact IH. Qed.
End Count.
Lemma byte_diffs a b : byte_diff a b = diffs N (N.testbit a) (N.testbit b) [0; 1; 2; 3; 4; 5; 6; 7]%N. Proof. reflexivity. Qed.
Lemma byte_tri a b c : byte_diff a c <= byte_diff a b + byte_diff b c /\ Nat.even (byte_diff a c) = Nat.even (byte_diff a b + byte_diff b c).
Proof. rewrite !byte_diffs. apply diffs_tri. Qed.
Lemma byte_refl a : byte_diff a a = 0. Proof. rewrite byte_diffs. apply diffs_refl. Qed.
Lemma flip_bit k : forall b s i, N.testbit (flip_bits b s k) i = xorb (N.testbit b i) ((s <=? i)%N && (i <? s + N.of_nat k)%N).
Proof.
  induction k as [|k IH]; intros b s i; cbn [flip_bits].
  - assert (H : (s <=? i)%N && (i <? s + N.of_nat 0)%N = false). { destruct (N.leb_spec s i), (N.ltb_spec i (s + N.of_nat 0)); try reflexivity. lia. } rewrite H, xorb_false_r. reflexivity.
  - rewrite IH, N.lxor_spec, N.pow2_bits_eqb, xorb_assoc. f_equal. destruct (N.eqb_spec s i), (N.leb_spec (s + 1) i), (N.leb_spec s i), (N.ltb_spec i (s + 1 + N.of_nat k)), (N.ltb_spec i (s + N.of_nat (S k))); try reflexivity; lia.
Qed.
Lemma flip_diff b s k : (s + N.of_nat k <= 8)%N -> byte_diff b (flip_bits b s k) = k.
Proof.
  intros H. unfold byte_diff. assert (F : filter (fun i => negb (Bool.eqb (N.testbit b i) (N.testbit (flip_bits b s k) i))) [0; 1; 2; 3; 4; 5; 6; 7]%N = filter (fun i => (s <=? i)%N && (i <? s + N.of_nat k)%N) [0; 1; 2; 3; 4; 5; 6; 7]%N).
  { apply filter_ext. intros i. rewrite flip_bit. destruct (N.testbit b i), ((s <=? i)%N && (i <? s + N.of_nat k)%N); reflexivity. }
  rewrite F. assert (K : k <= 8) by lia. assert (S8 : (s <= 8)%N) by lia.
  assert (D : exists n, s = N.of_nat n /\ n <= 8) by (exists (N.to_nat s); split; lia). destruct D as (n & -> & Hn).
  do 9 (destruct n as [|n]; [do 9 (destruct k as [|k]; [try reflexivity; exfalso; lia|]); exfalso; lia|]). lia.
Qed.
Lemma flip_byte b s k : is_byte b -> (s + N.of_nat k <= 8)%N -> is_byte (flip_bits b s k).
Proof.
  intros B H. unfold is_byte in *. destruct (N.eq_dec (flip_bits b s k) 0) as [->|NZ]; [lia|]. change 256%N with (2 ^ 8)%N. apply N.log2_lt_pow2; [lia|].
  destruct (N.lt_ge_cases (N.log2 (flip_bits b s k)) 8) as [C|C]; [exact C|exfalso]. pose proof (N.bit_log2 _ NZ) as T. rewrite flip_bit in T. set (j := N.log2 (flip_bits b s k)) in *.
  assert (TB : N.testbit b j = false). { destruct (N.eq_dec b 0) as [->|NB]; [apply N.bits_0|]. apply N.bits_above_log2. apply N.log2_lt_pow2; [lia|]. apply N.lt_le_trans with (2 ^ 8)%N; [exact B|apply N.pow_le_mono_r; lia]. }
  rewrite TB in T. destruct (N.leb_spec s j), (N.ltb_spec j (s + N.of_nat k)); try discriminate; lia.
Qed.
(** ** buffers *)
Lemma set_len {A} (l : list A) n v : length (set_nth l n v) = length l.
Proof. revert n. induction l as [|x l IH]; intros [|n]; cbn; try reflexivity. rewrite IH. reflexivity. Qed.
Lemma diff_refl l : diff_bits l l = 0. Proof. induction l as [|x l IH]; [reflexivity|]. cbn [diff_bits]. rewrite byte_refl, IH. reflexivity. Qed.
Lemma diff_set o : forall l n b v, length l = length o -> nth_error l n = Some b ->
  diff_bits o (set_nth l n v) <= diff_bits o l + byte_diff b v /\ Nat.even (diff_bits o (set_nth l n v)) = Nat.even (diff_bits o l + byte_diff b v).
Proof.
  induction o as [|x o IH]; intros l n b v L H; destruct l as [|y l]; try discriminate L; [destruct n; discriminate H|]. destruct n as [|n]; cbn [nth_error set_nth diff_bits] in *.
  - injection H as ->. destruct (byte_tri x b v) as [T1 T2]. split; [lia|]. rewrite !Nat.even_add, T2, Nat.even_add. destruct (Nat.even (byte_diff x b)), (Nat.even (byte_diff b v)), (Nat.even (diff_bits o l)); reflexivity.
  - injection L as L. destruct (IH l n b v L H) as [I1 I2]. split; [lia|]. rewrite !Nat.even_add, I2, Nat.even_add. destruct (Nat.even (byte_diff x y)), (Nat.even (byte_diff b v)), (Nat.even (diff_bits o l)); reflexivity.
Qed.
Lemma set_forall {A} (P : A -> Prop) l : forall n v, Forall P l -> P v -> Forall P (set_nth l n v).
Proof. induction l as [|x l IH]; intros [|n] v F Pv; cbn; try constructor; inversion F; subst; auto. Qed.
Definition inv (o : list N) (bound : N) (s : list N * N) : Prop :=
  length (fst s) = length o /\ Forall is_byte (fst s) /\ diff_bits o (fst s) <= N.to_nat (snd s) /\ Nat.even (diff_bits o (fst s)) = Nat.even (N.to_nat (snd s)) /\ (snd s <= bound)%N.
Lemma impact_inv o bound mbu p d s : inv o bound s -> (d_bit d < 8)%N -> N.to_nat (d_byte d) < length o -> (bound + N.min 8 mbu < 2 ^ 32)%N ->
  exists s', impact mbu p d s = Ret s' /\ inv o (bound + N.min 8 mbu) s' /\ (flt (d_prob d) p = false -> s' = s) /\
    (forall i, i <> N.to_nat (d_byte d) -> nth_error (fst s') i = nth_error (fst s) i).
Proof.
  intros (I1 & I2 & I3 & I4 & I5) DB DL NB. unfold impact. destruct (flt (d_prob d) p) eqn:F.
  - assert (NE : nth_error (fst s) (N.to_nat (d_byte d)) <> None) by (apply nth_error_Some; lia). destruct (nth_error (fst s) (N.to_nat (d_byte d))) as [b|] eqn:H; [|congruence]. eexists. split; [reflexivity|].
    set (k := N.min mbu (8 - d_bit d)). assert (K8 : (d_bit d + N.of_nat (N.to_nat k) <= 8)%N) by lia. assert (KM : (k <= N.min 8 mbu)%N) by lia. unfold inv. cbn [fst snd]. rewrite N.mod_small by lia. rewrite set_len.
    destruct (diff_set o (fst s) _ b (flip_bits b (d_bit d) (N.to_nat k)) I1 H) as [D1 D2]. rewrite flip_diff in D1, D2 by exact K8.
    split; [|split; [discriminate|]].
    + split; [exact I1|]. split; [apply set_forall; [exact I2|apply flip_byte; [|exact K8]]; rewrite Forall_forall in I2; apply I2; apply nth_error_In in H; exact H|]. split; [lia|]. split; [|lia]. rewrite D2, N2Nat.inj_add, !Nat.even_add, I4. reflexivity.
    + intros i NI. clear -NI. revert i NI. generalize (N.to_nat (d_byte d)) as n. generalize (fst s) as l. intros l n. revert n. induction l as [|x l IH]; intros [|n] [|i] NI; cbn; try reflexivity; try congruence. apply IH. congruence.
  - exists s. split; [reflexivity|]. split; [|split; [reflexivity|reflexivity]]. unfold inv. repeat split; try assumption. lia.
Qed.
Lemma loop_inv o mbu p rng (l : list nat) : (forall i, In i l -> (d_bit (rng i) < 8)%N /\ N.to_nat (d_byte (rng i)) < length o) -> forall bound s, inv o bound s -> (bound + N.of_nat (length l) * N.min 8 mbu < 2 ^ 32)%N ->
  exists s', for_each (fun i s => impact mbu p (rng i) s) l s = Ret s' /\ inv o (bound + N.of_nat (length l) * N.min 8 mbu) s' /\ ((forall i, In i l -> flt (d_prob (rng i)) p = false) -> s' = s) /\
    (forall j, (forall i, In i l -> j <> N.to_nat (d_byte (rng i))) -> nth_error (fst s') j = nth_error (fst s) j).
Proof.
  induction l as [|i l IH]; intros D bound s I B.
  - exists s. split; [reflexivity|]. cbn [length]. rewrite N.mul_0_l, N.add_0_r. auto.
  - cbn [length] in B |- *. cbn [for_each]. rewrite Nat2N.inj_succ, N.mul_succ_l in B. destruct (D i (or_introl eq_refl)) as [D1 D2]. destruct (impact_inv o bound mbu p (rng i) s I D1 D2) as (s1 & E & I' & Z & J); [lia|]. rewrite E. cbn [obind].
    destruct (IH (fun j Hj => D j (or_intror Hj)) _ _ I') as (s' & E' & I'' & Z' & J'); [lia|]. exists s'. split; [exact E'|]. split; [|split].
    + rewrite Nat2N.inj_succ, N.mul_succ_l. replace (bound + (N.of_nat (length l) * N.min 8 mbu + N.min 8 mbu))%N with (bound + N.min 8 mbu + N.of_nat (length l) * N.min 8 mbu)%N by lia. exact I''.
    + intros H. rewrite Z' by (intros j Hj; apply H; right; exact Hj). apply Z. apply H. left. reflexivity.
    + intros j H. rewrite J' by (intros k Hk; apply H; right; exact Hk). apply J. apply H. left. reflexivity.
Qed.
