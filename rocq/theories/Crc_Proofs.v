From Coq Require Import List NArith ZArith Bool Lia.
Import ListNotations.
From Verif Require Import Words Crc_Model Crc_Spec.
Local Open Scope N_scope.
Arguments N.mul : simpl never.
Arguments N.add : simpl never.
Arguments N.pow : simpl never.

(** The one-bit step as a linear map on all of [N]. *)
Definition poly : N := 0xEDB88320.
Definition L (x : N) : N := N.lxor (N.shiftr x 1) (if N.testbit x 0 then poly else 0).
Definition Li (n : nat) (x : N) : N := Nat.iter n L x.

Lemma land1 x : N.land x 1 = b2n (N.testbit x 0).
Proof. rewrite <- shiftr_land1. rewrite N.shiftr_0_r. reflexivity. Qed.

Lemma crc_bit_L x : crc_bit x = L x.
Proof. unfold crc_bit, L. rewrite land1. destruct (N.testbit x 0); reflexivity. Qed.
Lemma unified_bit_L x : unified_bit x = L x.
Proof. unfold unified_bit, L. rewrite land1. destruct (N.testbit x 0); reflexivity. Qed.
Lemma gen_bit_L x : gen_bit x = L x.
Proof.
  unfold gen_bit, L. rewrite land1. destruct (N.testbit x 0); cbn [b2n N.eqb negb].
  - rewrite N.lxor_comm. reflexivity.
  - rewrite N.lxor_0_r. reflexivity.
Qed.

Lemma L_lin x y : L (N.lxor x y) = N.lxor (L x) (L y).
Proof.
  unfold L. rewrite N.shiftr_lxor, N.lxor_spec.
  apply N.bits_inj; intros i. rewrite !N.lxor_spec.
  destruct (N.testbit x 0), (N.testbit y 0); cbn [xorb]; rewrite ?N.bits_0;
  repeat match goal with |- context [N.testbit ?a i] => destruct (N.testbit a i) end; reflexivity.
Qed.
Lemma L_double x : L (2 * x) = x.
Proof.
  unfold L. rewrite N.testbit_even_0, N.lxor_0_r.
  change (2 * x) with (2 * x). rewrite N.shiftr_div_pow2. change (2 ^ 1) with 2.
  rewrite N.mul_comm. apply N.div_mul. lia.
Qed.
Lemma L_0 : L 0 = 0. Proof. reflexivity. Qed.
Lemma L_below x : x < 2 ^ 32 -> L x < 2 ^ 32.
Proof.
  intros H. unfold L. apply lxor_below.
  - apply shiftr_below. exact H.
  - destruct (N.testbit x 0); reflexivity.
Qed.
Lemma L_inj0 x : x < 2 ^ 32 -> L x = 0 -> x = 0.
Proof.
  intros H E. unfold L in E. apply N.lxor_eq in E.
  destruct (N.testbit x 0) eqn:B.
  - exfalso. assert (T : N.testbit (N.shiftr x 1) 31 = true) by (rewrite E; reflexivity).
    rewrite N.shiftr_spec in T by lia. rewrite (testbit_above 32 x) in T; [discriminate|exact H|lia].
  - assert (D : x = N.b2n (N.testbit x 0) + 2 * N.div2 x) by (rewrite N.bit0_odd, N.add_comm; apply N.div2_odd).
    rewrite B in D. rewrite N.div2_spec in D. change (N.b2n false) with 0 in D. rewrite E in D. lia.
Qed.
Lemma lxor_0_eq x y : N.lxor x y = 0 -> x = y.
Proof. apply N.lxor_eq. Qed.
Lemma L_inj x y : x < 2 ^ 32 -> y < 2 ^ 32 -> L x = L y -> x = y.
Proof.
  intros Hx Hy E. apply N.lxor_eq. apply L_inj0; [apply lxor_below; assumption|].
  rewrite L_lin, E. apply N.lxor_nilpotent.
Qed.

Lemma Li_S n x : Li (S n) x = L (Li n x). Proof. reflexivity. Qed.
Lemma Li_S' n x : Li (S n) x = Li n (L x).
Proof. induction n as [|n IH]; [reflexivity|]. rewrite Li_S, IH. reflexivity. Qed.
Lemma Li_add n m x : Li (n + m) x = Li n (Li m x).
Proof. induction n as [|n IH]; [reflexivity|]. cbn [Nat.add]. rewrite !Li_S, IH. reflexivity. Qed.
Lemma Li_lin n x y : Li n (N.lxor x y) = N.lxor (Li n x) (Li n y).
Proof. induction n as [|n IH]; [reflexivity|]. rewrite !Li_S, IH, L_lin. reflexivity. Qed.
Lemma Li_0 n : Li n 0 = 0.
Proof. induction n as [|n IH]; [reflexivity|]. rewrite Li_S, IH. reflexivity. Qed.
Lemma Li_below n x : x < 2 ^ 32 -> Li n x < 2 ^ 32.
Proof. intros H. induction n as [|n IH]; [exact H|]. rewrite Li_S. apply L_below. exact IH. Qed.
Lemma Li_inj0 n x : x < 2 ^ 32 -> Li n x = 0 -> x = 0.
Proof.
  intros H. induction n as [|n IH]; intros E; [exact E|].
  rewrite Li_S in E. apply IH. apply L_inj0; [apply Li_below; exact H|exact E].
Qed.
Lemma Li_inj n x y : x < 2 ^ 32 -> y < 2 ^ 32 -> Li n x = Li n y -> x = y.
Proof.
  intros Hx Hy E. apply N.lxor_eq. apply (Li_inj0 n); [apply lxor_below; assumption|].
  rewrite Li_lin, E. apply N.lxor_nilpotent.
Qed.
Lemma Li_shift n x : Li n (2 ^ N.of_nat n * x) = x.
Proof.
  induction n as [|n IH]; [change (2 ^ N.of_nat 0) with 1; cbn; lia|].
  rewrite Li_S'. replace (2 ^ N.of_nat (S n) * x) with (2 * (2 ^ N.of_nat n * x)).
  - rewrite L_double. exact IH.
  - rewrite Nat2N.inj_succ, N.pow_succ_r'. lia.
Qed.

Lemma Li_shiftN k x : Li (N.to_nat k) (2 ^ k * x) = x.
Proof. rewrite <- (Li_shift (N.to_nat k) x) at 2. rewrite N2Nat.id. reflexivity. Qed.
Lemma Li_shift8 x : Li 8 (256 * x) = x.
Proof. exact (Li_shift 8 x). Qed.

(** The whole message as one little-endian number. *)
Fixpoint le_num (bs : list N) : N := match bs with [] => 0 | b :: r => b + 256 * le_num r end.

Lemma add_shift_lxor k b x : b < 2 ^ k -> b + 2 ^ k * x = N.lxor b (2 ^ k * x).
Proof.
  intros H. rewrite N.mul_comm, <- N.shiftl_mul_pow2.
  apply N.add_nocarry_lxor. apply N.bits_inj. intros i. rewrite N.land_spec, N.bits_0.
  destruct (N.ltb_spec i k) as [Hi|Hi].
  - rewrite N.shiftl_spec_low by exact Hi. apply andb_false_r.
  - rewrite (testbit_above k b i H Hi). reflexivity.
Qed.

Lemma le_num_cons b r : b < 256 -> le_num (b :: r) = N.lxor b (256 * le_num r).
Proof. intros H. cbn [le_num]. apply (add_shift_lxor 8). exact H. Qed.

Lemma for_up_const (f : N -> N) n i x : for_up n i (fun _ c => f c) x = Nat.iter n f x.
Proof.
  revert i x; induction n as [|n IH]; intros i x; [reflexivity|].
  cbn [for_up]. rewrite IH. 
  clear. induction n as [|n IH]; [reflexivity|].
  change (Nat.iter (S n) f (f x)) with (f (Nat.iter n f (f x))). rewrite IH. reflexivity.
Qed.
Lemma iter_ext (f g : N -> N) n x : (forall y, f y = g y) -> Nat.iter n f x = Nat.iter n g x.
Proof. intros E. induction n as [|n IH]; [reflexivity|]. 
  change (f (Nat.iter n f x) = g (Nat.iter n g x)). rewrite IH. apply E. Qed.

Definition byte_step (f : N -> N -> N) : Prop := forall c b, c < 2 ^ 32 -> b < 256 -> f c b = Li 8 (N.lxor c b).

Lemma crc_byte_step : byte_step crc_byte.
Proof. intros c b _ _. unfold crc_byte. rewrite for_up_const. apply iter_ext. exact crc_bit_L. Qed.
Lemma space_byte_step : byte_step space_byte.
Proof. intros c b _ _. unfold space_byte. cbv zeta. rewrite !crc_bit_L. reflexivity. Qed.
Lemma unified_byte_step :
  byte_step (fun crc b => for_up 8 0 (fun _ c => unified_bit c) (N.lxor crc b)).
Proof. intros c b _ _. rewrite for_up_const. apply iter_ext. exact unified_bit_L. Qed.

Lemma below_256 b : b < 256 -> b < 2 ^ 32.
Proof. intros H. apply N.lt_trans with 256; [exact H|reflexivity]. Qed.

Lemma table_step table :
  (forall i, i < 256 -> nth (N.to_nat i) table 0 = Li 8 i) -> byte_step (table_byte table).
Proof.
  intros T c b Hc Hb. unfold table_byte.
  set (x := N.lxor c b).
  assert (Ex : x = N.lxor (N.land x 255) (256 * N.shiftr x 8)).
  { rewrite <- (add_shift_lxor 8).
    - change 255 with (N.ones 8). rewrite N.land_ones, N.shiftr_div_pow2.
      rewrite N.add_comm. apply N.div_mod. discriminate.
    - change 255 with (N.ones 8). rewrite N.land_ones. apply N.mod_lt. discriminate. }
  rewrite T.
  2:{ change 255 with (N.ones 8). rewrite N.land_ones. apply N.mod_lt. discriminate. }
  rewrite Ex at 2. rewrite Li_lin.
  rewrite Li_shift8.
  rewrite N.lxor_comm. f_equal. unfold x. rewrite N.shiftr_lxor.
  replace (N.shiftr b 8) with 0; [rewrite N.lxor_0_r; reflexivity|].
  symmetry. rewrite N.shiftr_div_pow2. apply N.div_small. exact Hb.
Qed.

Lemma forallb_N (f : N -> bool) n : forallb (fun k => f (N.of_nat k)) (seq 0 n) = true ->
  forall i, i < N.of_nat n -> f i = true.
Proof.
  intros H i Hi. rewrite forallb_forall in H. specialize (H (N.to_nat i)).
  rewrite N2Nat.id in H. apply H. apply in_seq. lia.
Qed.
Lemma table_check table :
  forallb (fun k => nth (N.to_nat (N.of_nat k)) table 0 =? Li 8 (N.of_nat k)) (seq 0 256) = true ->
  forall i, i < 256 -> nth (N.to_nat i) table 0 = Li 8 i.
Proof.
  intros H i Hi. apply N.eqb_eq.
  apply (forallb_N (fun j => nth (N.to_nat j) table 0 =? Li 8 j) 256 H). exact Hi.
Qed.
Lemma gen_table_ok : forall i, i < 256 -> nth (N.to_nat i) gen_table 0 = Li 8 i.
Proof. apply table_check. vm_compute. reflexivity. Qed.
Lemma literal_table_ok : forall i, i < 256 -> nth (N.to_nat i) literal_table 0 = Li 8 i.
Proof. apply table_check. vm_compute. reflexivity. Qed.

Lemma fold_step f : byte_step f -> forall bs c, is_bytes bs -> c < 2 ^ 32 ->
  fold_left f bs c = Li (8 * length bs) (N.lxor c (le_num bs)).
Proof.
  intros Hf bs. induction bs as [|b r IH]; intros c Hb Hc.
  - cbn. rewrite N.lxor_0_r. reflexivity.
  - inversion Hb as [|b' r' Hb0 Hr]; subst. cbn [fold_left]. rewrite Hf by assumption.
    rewrite IH; [|exact Hr|apply Li_below; apply lxor_below; [exact Hc|apply below_256; exact Hb0]].
    rewrite le_num_cons by exact Hb0. cbn [length].
    replace (8 * S (length r))%nat with (8 * length r + 8)%nat by lia. rewrite Li_add. f_equal.
    rewrite <- N.lxor_assoc, (Li_lin 8 (N.lxor c b)). rewrite Li_shift8. reflexivity.
Qed.

(** every correct implementation computes this *)
Definition crc_value (bs : list N) : N :=
  not32 (Li (8 * length bs) (N.lxor 0xFFFFFFFF (le_num bs))).
Lemma calculate_value f : byte_step f -> forall bs, is_bytes bs ->
  not32 (fold_left f bs 0xFFFFFFFF) = crc_value bs.
Proof. intros Hf bs Hb. unfold crc_value. rewrite (fold_step f Hf bs) by (assumption || reflexivity). reflexivity. Qed.

Lemma CRC_value bs : is_bytes bs -> CRC_calculate bs = crc_value bs.
Proof. apply calculate_value. exact crc_byte_step. Qed.
Lemma Space_value bs : is_bytes bs -> SpaceCRC_calculate bs = crc_value bs.
Proof. apply calculate_value. exact space_byte_step. Qed.
Lemma Unified_value bs : is_bytes bs -> Unified_calculate bs = crc_value bs.
Proof. apply calculate_value. exact unified_byte_step. Qed.
Lemma CRC32_value bs : is_bytes bs -> CRC32_calculate bs = crc_value bs.
Proof. apply calculate_value. exact (table_step _ gen_table_ok). Qed.
Lemma compute_value bs : is_bytes bs -> compute_crc32 bs = crc_value bs.
Proof. apply calculate_value. exact (table_step _ literal_table_ok). Qed.

Lemma all_agree bs : is_bytes bs ->
  SpaceCRC_calculate bs = CRC_calculate bs /\ Unified_calculate bs = CRC_calculate bs /\
  CRC32_calculate bs = CRC_calculate bs /\ compute_crc32 bs = CRC_calculate bs.
Proof.
  intros H. rewrite CRC_value, Space_value, Unified_value, CRC32_value, compute_value by exact H. auto.
Qed.

(** *** Error detection *)
Lemma le_num_bit bs : is_bytes bs -> forall i, N.testbit (le_num bs) i = msg_bit bs i.
Proof.
  induction bs as [|b r IH]; intros Hb i.
  - unfold msg_bit. destruct (N.to_nat (i / 8)); cbn [le_num nth]; rewrite !N.bits_0; reflexivity.
  - inversion Hb as [|b' r' Hb0 Hr]; subst. rewrite le_num_cons by exact Hb0. rewrite N.lxor_spec.
    change 256 with (2 ^ 8). rewrite N.mul_comm, <- N.shiftl_mul_pow2.
    unfold msg_bit. destruct (N.ltb_spec i 8) as [Hi|Hi].
    + rewrite N.shiftl_spec_low by exact Hi. rewrite xorb_false_r.
      rewrite (N.div_small i 8) by exact Hi. rewrite N.mod_small by exact Hi. reflexivity.
    + rewrite N.shiftl_spec_high' by exact Hi. rewrite (testbit_above 8 b i) by (assumption || exact Hb0).
      rewrite xorb_false_l, IH by exact Hr. unfold msg_bit.
      replace i with ((i - 8) + 1 * 8) at 3 4 by lia. rewrite N.div_add, N.mod_add by lia.
      replace (N.to_nat ((i - 8) / 8 + 1)) with (S (N.to_nat ((i - 8) / 8))) by lia. reflexivity.
Qed.

Lemma le_num_below bs : is_bytes bs -> le_num bs < 2 ^ (8 * N.of_nat (length bs)).
Proof.
  intros Hb. apply below_of_bits. intros i Hi. rewrite le_num_bit by exact Hb.
  unfold msg_bit. rewrite nth_overflow; [apply N.bits_0|].
  assert (N.of_nat (length bs) <= i / 8) by (apply N.div_le_lower_bound; lia). lia.
Qed.

Lemma le_num_inj bs bs' : is_bytes bs -> is_bytes bs' -> length bs = length bs' ->
  le_num bs = le_num bs' -> bs = bs'.
Proof.
  revert bs'. induction bs as [|b r IH]; intros [|b' r'] H H' Hl E; try discriminate; [reflexivity|].
  inversion H; inversion H'; subst. cbn [le_num] in E.
  assert (b = b' /\ le_num r = le_num r') as [-> E'].
  { split.
    - apply (f_equal (fun x => x mod 256)) in E.
      rewrite (N.mul_comm 256 (le_num r)), (N.mul_comm 256 (le_num r')) in E.
      rewrite !N.mod_add in E by lia. rewrite !N.mod_small in E by assumption. exact E.
    - lia. }
  f_equal. apply IH; auto.
Qed.

(** the difference pattern of two equally long messages is detected iff its remainder is nonzero *)
Definition diff (bs bs' : list N) : N := N.lxor (le_num bs) (le_num bs').
Lemma not32_inj x y : not32 x = not32 y -> x = y.
Proof.
  unfold not32. intros E. apply (f_equal (fun z => N.lxor z 0xFFFFFFFF)) in E.
  rewrite !N.lxor_assoc, N.lxor_nilpotent, !N.lxor_0_r in E. exact E.
Qed.
Lemma collide_iff bs bs' : length bs = length bs' ->
  crc_value bs = crc_value bs' <-> Li (8 * length bs) (diff bs bs') = 0.
Proof.
  intros Hl. unfold crc_value, diff. rewrite <- Hl. split; intros E.
  - apply not32_inj in E. rewrite !Li_lin in E.
    rewrite Li_lin. rewrite (N.lxor_comm (Li _ 4294967295)), (N.lxor_comm (Li _ 4294967295)) in E.
    apply (f_equal (fun z => N.lxor z (Li (8 * length bs) 4294967295))) in E.
    rewrite !N.lxor_assoc, N.lxor_nilpotent, !N.lxor_0_r in E. rewrite E. apply N.lxor_nilpotent.
  - rewrite !Li_lin. rewrite Li_lin in E. apply N.lxor_eq in E. rewrite E. reflexivity.
Qed.
Lemma diff_bit bs bs' i : is_bytes bs -> is_bytes bs' ->
  N.testbit (diff bs bs') i = xorb (msg_bit bs i) (msg_bit bs' i).
Proof. intros H H'. unfold diff. rewrite N.lxor_spec, !le_num_bit by assumption. reflexivity. Qed.
Lemma diff_bit_iff bs bs' i : is_bytes bs -> is_bytes bs' ->
  N.testbit (diff bs bs') i = true <-> msg_bit bs i <> msg_bit bs' i.
Proof.
  intros H H'. rewrite diff_bit by assumption.
  destruct (msg_bit bs i), (msg_bit bs' i); cbn; split; intuition discriminate.
Qed.

(** lowest bits cleared: divide out *)
Lemma low_zero x k : (forall i, i < k -> N.testbit x i = false) -> x = 2 ^ k * N.shiftr x k.
Proof.
  intros H. rewrite N.mul_comm, <- N.shiftl_mul_pow2. apply N.bits_inj. intros i.
  destruct (N.ltb_spec i k) as [Hi|Hi].
  - rewrite N.shiftl_spec_low by exact Hi. apply H. exact Hi.
  - rewrite N.shiftl_spec_high' by exact Hi. rewrite N.shiftr_spec by lia. f_equal. lia.
Qed.
Lemma window_nonzero n lo d : d <> 0 ->
  (forall i, N.testbit d i = true -> lo <= i < lo + 32) -> d < 2 ^ N.of_nat n -> Li n d <> 0.
Proof.
  intros Hd Hw Hn E.
  set (k := N.min lo (N.of_nat n)).
  assert (Hlow : forall i, i < lo -> N.testbit d i = false).
  { intros i Hi. destruct (N.testbit d i) eqn:B; [|reflexivity]. apply Hw in B. lia. }
  destruct (N.le_gt_cases (N.of_nat n) lo) as [G|G].
  - apply Hd. apply N.bits_inj. intros i. rewrite N.bits_0.
    destruct (N.ltb_spec i lo) as [Hi|Hi]; [apply Hlow; exact Hi|].
    apply (testbit_above (N.of_nat n)); [exact Hn|lia].
  - rewrite (low_zero d lo Hlow) in E.
    replace n with ((n - N.to_nat lo) + N.to_nat lo)%nat in E by lia.
    rewrite Li_add, Li_shiftN in E. apply Li_inj0 in E.
    + apply Hd. rewrite (low_zero d lo Hlow), E. lia.
    + apply below_of_bits. intros i Hi. rewrite N.shiftr_spec by lia.
      destruct (N.testbit d (i + lo)) eqn:B; [|reflexivity]. apply Hw in B. lia.
Qed.

Lemma diff_0 bs bs' : is_bytes bs -> is_bytes bs' -> length bs = length bs' -> diff bs bs' = 0 -> bs = bs'.
Proof. intros H H' Hl E. apply le_num_inj; auto. apply N.lxor_eq. exact E. Qed.
Lemma diff_below bs bs' : is_bytes bs -> is_bytes bs' -> length bs = length bs' ->
  diff bs bs' < 2 ^ N.of_nat (8 * length bs).
Proof.
  intros H H' Hl. unfold diff. replace (N.of_nat (8 * length bs)) with (8 * N.of_nat (length bs)) by lia.
  apply lxor_below; [apply le_num_below; exact H|]. rewrite Hl. apply le_num_below. exact H'.
Qed.

Lemma burst_detected bs bs' : is_bytes bs -> is_bytes bs' -> length bs = length bs' -> bs <> bs' ->
  differ_within 32 bs bs' -> CRC_calculate bs <> CRC_calculate bs'.
Proof.
  intros H H' Hl Hne [lo Hw] E. rewrite !CRC_value in E by assumption.
  apply (collide_iff bs bs' Hl) in E. revert E.
  apply (window_nonzero _ lo).
  - intros D. apply Hne. apply diff_0; assumption.
  - intros i B. apply Hw. apply diff_bit_iff; assumption.
  - apply diff_below; assumption.
Qed.

Lemma msg_bit_beyond bs i : 8 * N.of_nat (length bs) <= i -> msg_bit bs i = false.
Proof.
  intros Hi. unfold msg_bit. rewrite nth_overflow; [apply N.bits_0|].
  assert (N.of_nat (length bs) <= i / 8) by (apply N.div_le_lower_bound; lia). lia.
Qed.
Lemma short_injective bs bs' : is_bytes bs -> is_bytes bs' -> length bs = length bs' ->
  (length bs <= 4)%nat -> CRC_calculate bs = CRC_calculate bs' -> bs = bs'.
Proof.
  intros H H' Hl H4 E. destruct (list_eq_dec N.eq_dec bs bs') as [D|D]; [exact D|].
  exfalso. apply (burst_detected bs bs' H H' Hl D); [|exact E].
  exists 0. intros i Hi. destruct (N.ltb_spec i 32) as [G|G]; [lia|].
  exfalso. apply Hi. rewrite !msg_bit_beyond by lia. reflexivity.
Qed.
