From Coq Require Import List NArith ZArith Lia Bool SpecFloat.
Import ListNotations.
From Verif Require Import Outcome Words Arith Floats Voting_Model Voting_Spec.
Local Open Scope N_scope.

Lemma uwidth_ge t : width t <= uwidth t.
Proof. destruct t; vm_compute; discriminate. Qed.

Lemma widen_low t g x i : i < width t -> N.testbit (widen t g x) i = N.testbit x i.
Proof.
  intros Hi. unfold widen. rewrite wrap_testbit, N.lor_spec, N.shiftl_spec_low by exact Hi.
  pose proof (uwidth_ge t). destruct (N.ltb_spec i (uwidth t)); [|lia].
  rewrite orb_false_r. reflexivity.
Qed.
Lemma widen_lt t g x : widen t g x < 2 ^ uwidth t.
Proof. apply wrap_lt. Qed.

Lemma majority_bit_spec a b c i :
  majority_bit a b c i = b2n (maj3 (N.testbit a i) (N.testbit b i) (N.testbit c i)).
Proof.
  unfold majority_bit. rewrite !shiftr_land1, !b2n_land, !b2n_lor. reflexivity.
Qed.

Lemma maj3_xx x y : maj3 x x y = x.
Proof. destruct x, y; reflexivity. Qed.
Lemma maj3_xyx x y : maj3 x y x = x.
Proof. destruct x, y; reflexivity. Qed.
Lemma maj3_yxx x y : maj3 y x x = x.
Proof. destruct x, y; reflexivity. Qed.
Lemma maj3_swap23 x y z : maj3 x y z = maj3 x z y.
Proof. destruct x, y, z; reflexivity. Qed.
Lemma maj3_rot x y z : maj3 x y z = maj3 y z x.
Proof. destruct x, y, z; reflexivity. Qed.
Lemma maj3_fff : maj3 false false false = false.
Proof. reflexivity. Qed.

Lemma for_up_ext {A} (f g : N -> A -> A) : (forall i a, f i a = g i a) -> forall n i a,
  for_up n i f a = for_up n i g a.
Proof. intros H. induction n as [|n IH]; intros i a; simpl; [reflexivity|]. rewrite H. apply IH. Qed.

Lemma bitLevelVote_testbit t a b c i :
  N.testbit (bitLevelVote t a b c) i =
  (i <? width t) && maj3 (N.testbit a i) (N.testbit b i) (N.testbit c i).
Proof.
  unfold bitLevelVote.
  rewrite (for_up_ext _ (fun i r => N.lor r (wrap (width t) (N.shiftl (b2n (maj3 (N.testbit a i) (N.testbit b i) (N.testbit c i))) i)))).
  2:{ intros. rewrite majority_bit_spec. reflexivity. }
  rewrite (bit_loop_testbit (width t) (N.to_nat (width t))
             (fun i => maj3 (N.testbit a i) (N.testbit b i) (N.testbit c i)) i) by lia.
  rewrite N2Nat.id. reflexivity.
Qed.

(** lift a statement about the low [width t] bits to the bitwise-majority specification *)
Lemma majority_of_low t a b c r :
  valid t a -> valid t b -> valid t c ->
  (forall i, N.testbit r i = (i <? width t) && maj3 (N.testbit a i) (N.testbit b i) (N.testbit c i)) ->
  bitwise_majority a b c r.
Proof.
  intros Ha Hb Hc H i. rewrite H. destruct (N.ltb_spec i (width t)) as [Hi|Hi]; [reflexivity|].
  rewrite (testbit_above _ a i Ha Hi), (testbit_above _ b i Hb Hi), (testbit_above _ c i Hc Hi).
  reflexivity.
Qed.
Lemma majority_unique a b c r r' : bitwise_majority a b c r -> bitwise_majority a b c r' -> r = r'.
Proof. intros H H'. apply N.bits_inj. intros i. rewrite H, H'. reflexivity. Qed.
Lemma majority_aab a c : bitwise_majority a a c a.
Proof. intros i. symmetry. apply maj3_xx. Qed.
Lemma majority_aba a b : bitwise_majority a b a a.
Proof. intros i. symmetry. apply maj3_xyx. Qed.
Lemma majority_abb a b : bitwise_majority a b b b.
Proof. intros i. symmetry. apply maj3_yxx. Qed.
Lemma majority_swap23 a b c r : bitwise_majority a b c r -> bitwise_majority a c b r.
Proof. intros H i. rewrite H. apply maj3_swap23. Qed.
Lemma majority_rot a b c r : bitwise_majority b c a r -> bitwise_majority a b c r.
Proof. intros H i. rewrite H, maj3_rot, maj3_rot. reflexivity. Qed.
Lemma majority_valid t a b c r : valid t a -> valid t b -> valid t c -> bitwise_majority a b c r -> valid t r.
Proof.
  intros Ha Hb Hc H. apply below_of_bits. intros i Hi. rewrite H.
  rewrite (testbit_above _ a i Ha Hi), (testbit_above _ b i Hb Hi), (testbit_above _ c i Hc Hi).
  reflexivity.
Qed.

Section Fixed.
Variable t : aty.
Variables a b c : N.
Hypotheses (Ha : valid t a) (Hb : valid t b) (Hc : valid t c).

Lemma bitLevelVote_majority : bitwise_majority a b c (bitLevelVote t a b c).
Proof. apply (majority_of_low t); auto. apply bitLevelVote_testbit. Qed.

(** equality on T identifies patterns among the three copies (true for integers, and for
    floats unless two copies are zeros of opposite sign) *)
Definition faithful_eq : Prop :=
  forall x y, In x [a; b; c] -> In y [a; b; c] -> eqT t x y = true -> x = y.

Lemma standardVote_majority : faithful_eq -> bitwise_majority a b c (standardVote t a b c).
Proof.
  intros F. unfold standardVote.
  destruct (eqT t a b) eqn:Eab; [assert (a = b) as <- by (apply F; simpl; auto); apply majority_aab|].
  destruct (eqT t a c) eqn:Eac; [assert (a = c) as <- by (apply F; simpl; auto); apply majority_aba|].
  destruct (eqT t b c) eqn:Ebc; [assert (b = c) as <- by (apply F; simpl; auto); apply majority_abb|].
  apply bitLevelVote_majority.
Qed.

(** *** segments *)
Lemma burst_mask_testbit uw shift k :
  N.testbit (burst_mask uw shift) k = (k <? uw) && ((shift <=? k) && (k <? shift + 8)).
Proof.
  unfold burst_mask. rewrite wrap_testbit. f_equal.
  change (N.shiftl 1 8 - 1) with (N.ones 8).
  destruct (N.leb_spec shift k) as [H|H]; cbn [andb].
  - rewrite N.shiftl_spec_high' by exact H.
    destruct (N.ltb_spec k (shift + 8)).
    + apply N.ones_spec_low. lia.
    + apply N.ones_spec_high. lia.
  - apply N.shiftl_spec_low. exact H.
Qed.

Lemma seg_testbit uw x shift j : shift + 8 <= uw ->
  N.testbit (N.shiftr (N.land x (burst_mask uw shift)) shift) j = (j <? 8) && N.testbit x (j + shift).
Proof.
  intros H. rewrite N.shiftr_spec by lia. rewrite N.land_spec, burst_mask_testbit.
  destruct (N.ltb_spec j 8), (N.ltb_spec (j + shift) uw), (N.leb_spec shift (j + shift)),
    (N.ltb_spec (j + shift) (shift + 8)); try lia; simpl;
    rewrite ?andb_true_r, ?andb_false_r; reflexivity.
Qed.

Lemma segmentBitVote_testbit uw x y z j : 8 <= uw ->
  N.testbit (segmentBitVote uw x y z 8) j =
  (j <? 8) && maj3 (N.testbit x j) (N.testbit y j) (N.testbit z j).
Proof.
  intros H. unfold segmentBitVote.
  rewrite (for_up_ext _ (fun i r => N.lor r (wrap uw (N.shiftl (b2n (maj3 (N.testbit x i) (N.testbit y i) (N.testbit z i))) i)))).
  2:{ intros. rewrite majority_bit_spec. reflexivity. }
  apply (bit_loop_testbit uw 8 (fun i => maj3 (N.testbit x i) (N.testbit y i) (N.testbit z i)) j).
  exact H.
Qed.

Lemma burst_segment_testbit uw x y z shift j : shift + 8 <= uw ->
  N.testbit (burst_segment uw x y z shift) j =
  (j <? 8) && maj3 (N.testbit x (j + shift)) (N.testbit y (j + shift)) (N.testbit z (j + shift)).
Proof.
  intros H. unfold burst_segment.
  pose proof (fun x => seg_testbit uw x shift j H) as S.
  destruct (N.eqb_spec (N.shiftr (N.land x (burst_mask uw shift)) shift)
                       (N.shiftr (N.land y (burst_mask uw shift)) shift)) as [E|_].
  { pose proof (S x) as Sx. pose proof (S y) as Sy. rewrite <- E in Sy. rewrite Sx. rewrite Sx in Sy.
    destruct (j <? 8); simpl in *; [|reflexivity]. rewrite Sy, maj3_xx. reflexivity. }
  destruct (N.eqb_spec (N.shiftr (N.land x (burst_mask uw shift)) shift)
                       (N.shiftr (N.land z (burst_mask uw shift)) shift)) as [E|_].
  { pose proof (S x) as Sx. pose proof (S z) as Sy. rewrite <- E in Sy. rewrite Sx. rewrite Sx in Sy.
    destruct (j <? 8); simpl in *; [|reflexivity]. rewrite Sy, maj3_xyx. reflexivity. }
  destruct (N.eqb_spec (N.shiftr (N.land y (burst_mask uw shift)) shift)
                       (N.shiftr (N.land z (burst_mask uw shift)) shift)) as [E|_].
  { pose proof (S y) as Sx. pose proof (S z) as Sy. rewrite <- E in Sy. rewrite Sx. rewrite Sx in Sy.
    destruct (j <? 8); simpl in *; [|reflexivity]. rewrite Sy, maj3_yxx. reflexivity. }
  rewrite segmentBitVote_testbit by lia. rewrite !S.
  destruct (j <? 8); reflexivity.
Qed.

(** assembling 8-bit segments *)
Lemma segments_testbit uw (n : nat) (f : N -> bool) (seg : N -> N) j :
  8 * N.of_nat n <= uw ->
  (forall s i, s < N.of_nat n -> N.testbit (seg (s * 8)) i = (i <? 8) && f (i + s * 8)) ->
  N.testbit (for_up n 0 (fun s r => N.lor r (wrap uw (N.shiftl (seg (s * 8)) (s * 8)))) 0) j
  = (j <? 8 * N.of_nat n) && f j.
Proof.
  intros Hn Hseg. revert j.
  pose proof (for_up_inv (fun k r => forall j, N.testbit r j = (j <? 8 * k) && f j)
    (fun s r => N.lor r (wrap uw (N.shiftl (seg (s * 8)) (s * 8)))) n 0 0) as I.
  rewrite N.add_0_l in I. apply I; clear I.
  - intros j. rewrite N.bits_0. destruct (N.ltb_spec j (8 * 0)); [lia|reflexivity].
  - intros k x Hk IH j. rewrite N.lor_spec, IH, wrap_testbit.
    destruct (N.le_gt_cases (k * 8) j) as [H|H].
    + rewrite N.shiftl_spec_high' by exact H. rewrite Hseg by lia.
      replace (j - k * 8 + k * 8) with j by lia.
      destruct (N.ltb_spec j (8 * k)), (N.ltb_spec j (8 * (k + 1))), (N.ltb_spec j uw),
        (N.ltb_spec (j - k * 8) 8); try lia; simpl; auto.
    + rewrite N.shiftl_spec_low by exact H. rewrite andb_false_r, orb_false_r.
      destruct (N.ltb_spec j (8 * k)), (N.ltb_spec j (8 * (k + 1))); try lia; reflexivity.
Qed.

Lemma segs_width : 8 * N.of_nat (N.to_nat (width t / 8)) = width t.
Proof. destruct t; reflexivity. Qed.

Lemma burstErrorVote_majority ga gb gc : bitwise_majority a b c (burstErrorVote t ga gb gc a b c).
Proof.
  apply (majority_of_low t); auto. intros i. unfold burstErrorVote. rewrite wrap_testbit.
  rewrite (segments_testbit (uwidth t) _
    (fun i => maj3 (N.testbit (widen t ga a) i) (N.testbit (widen t gb b) i) (N.testbit (widen t gc c) i))
    (burst_segment (uwidth t) (widen t ga a) (widen t gb b) (widen t gc c))).
  - rewrite segs_width. destruct (N.ltb_spec i (width t)); simpl; [|reflexivity].
    rewrite !widen_low by assumption. reflexivity.
  - rewrite segs_width. apply uwidth_ge.
  - intros s j Hs. apply burst_segment_testbit.
    pose proof (uwidth_ge t). pose proof segs_width. lia.
Qed.

Lemma fastBitCorrection_majority ga gb gc : bitwise_majority a b c (fastBitCorrection t ga gb gc a b c).
Proof.
  apply (majority_of_low t); auto. intros i. unfold fastBitCorrection. rewrite wrap_testbit.
  set (seg := fun sh => let mask := burst_mask (uwidth t) sh in
       let ca := N.shiftr (N.land (widen t ga a) mask) sh in
       let cb := N.shiftr (N.land (widen t gb b) mask) sh in
       let cc := N.shiftr (N.land (widen t gc c) mask) sh in
       N.lor (N.lor (N.land ca cb) (N.land ca cc)) (N.land cb cc)).
  change (for_up _ 0 _ 0) with
    (for_up (N.to_nat (width t / 8)) 0
      (fun s r => N.lor r (wrap (uwidth t) (N.shiftl (seg (s * 8)) (s * 8)))) 0).
  rewrite (segments_testbit (uwidth t) _
    (fun i => maj3 (N.testbit (widen t ga a) i) (N.testbit (widen t gb b) i) (N.testbit (widen t gc c) i)) seg).
  - rewrite segs_width. destruct (N.ltb_spec i (width t)); simpl; [|reflexivity].
    rewrite !widen_low by assumption. reflexivity.
  - rewrite segs_width. apply uwidth_ge.
  - intros s j Hs. unfold seg. cbv zeta.
    rewrite !N.lor_spec, !N.land_spec.
    pose proof (uwidth_ge t). pose proof segs_width.
    rewrite !seg_testbit by lia.
    destruct (j <? 8); reflexivity.
Qed.
End Fixed.

(** *** closest-pair reconstruction *)
Lemma diff_bit_pos_pow2 p : diff_bit_pos (2 ^ p) = p.
Proof.
  induction p as [|p IH] using N.peano_ind; [reflexivity|].
  rewrite N.pow_succ_r'. destruct (2 ^ p) as [|q] eqn:E.
  - exfalso. apply (N.pow_nonzero 2 p); [lia|exact E].
  - change (2 * N.pos q) with (N.pos (xO q)). cbn [diff_bit_pos lowest_set] in *. rewrite IH. lia.
Qed.

Lemma land_pow2_eq x y p : (N.land x (2 ^ p) =? N.land y (2 ^ p)) = eqb (N.testbit x p) (N.testbit y p).
Proof.
  destruct (N.eqb_spec (N.land x (2 ^ p)) (N.land y (2 ^ p))) as [E|E].
  - assert (H : N.testbit (N.land x (2 ^ p)) p = N.testbit (N.land y (2 ^ p)) p) by (rewrite E; reflexivity).
    rewrite !N.land_spec, pow2_bits, N.eqb_refl, !andb_true_r in H. rewrite H.
    symmetry. apply eqb_reflx.
  - symmetry. apply eqb_false_iff. intros H. apply E. apply N.bits_inj. intros i.
    rewrite !N.land_spec, pow2_bits. destruct (N.eqb_spec i p) as [->|]; [rewrite H; reflexivity|].
    rewrite !andb_false_r. reflexivity.
Qed.
Lemma land_pow2_zero x p : (N.land x (2 ^ p) =? 0) = negb (N.testbit x p).
Proof.
  pose proof (land_pow2_eq x 0 p) as H. rewrite N.land_0_l, N.bits_0 in H. rewrite H.
  destruct (N.testbit x p); reflexivity.
Qed.

Lemma exists_diff_bit t a b : valid t a -> valid t b -> a <> b ->
  exists i, i < width t /\ N.testbit a i <> N.testbit b i.
Proof.
  intros Ha Hb Hne.
  assert (Hx : N.lxor a b <> 0) by (intros E; apply Hne; apply N.lxor_eq; exact E).
  exists (N.log2 (N.lxor a b)). split.
  - apply N.log2_lt_pow2; [lia|]. apply lxor_below; assumption.
  - intros E. pose proof (N.bit_log2 _ Hx) as H. rewrite N.lxor_spec, E, xorb_nilpotent in H. discriminate.
Qed.

Lemma EV_reconstruct_majority t ga gb go a b o :
  valid t a -> valid t b -> valid t o -> (eqT t a b = true -> a = b) ->
  bitwise_majority a b o (EV_reconstruct t ga gb go a b o).
Proof.
  intros Ha Hb Ho Hf. unfold EV_reconstruct.
  destruct (eqT t a b) eqn:E; [rewrite (Hf eq_refl); apply majority_aab|].
  destruct (N.eqb_spec (countBits (N.lxor (widen t ga a) (widen t gb b))) 1) as [H1|_].
  2:{ apply bitLevelVote_majority; assumption. }
  destruct (N.eq_dec a b) as [<-|Hne].
  { destruct (_ =? _); apply majority_aab. }
  destruct (exists_diff_bit t a b Ha Hb Hne) as (k & Hk & Dk).
  unfold countBits in H1. apply popcount_1_iff in H1. destruct H1 as [p Hp].
  assert (Hdiff : forall i, i < width t -> xorb (N.testbit a i) (N.testbit b i) = (i =? p)).
  { intros i Hi. rewrite <- pow2_bits, <- Hp, N.lxor_spec, !widen_low by assumption. reflexivity. }
  assert (k = p) as ->.
  { apply N.eqb_eq. rewrite <- Hdiff by assumption. destruct (N.testbit a k), (N.testbit b k); auto. }
  rewrite Hp, diff_bit_pos_pow2, N.shiftl_1_l.
  rewrite wrap_small by (apply pow2_below; pose proof (uwidth_ge t); lia).
  rewrite land_pow2_eq, !widen_low by assumption.
  assert (Hagree : forall i, i <> p -> N.testbit a i = N.testbit b i).
  { intros i Hi. destruct (N.lt_ge_cases i (width t)) as [L|L].
    - specialize (Hdiff i L). destruct (N.eqb_spec i p); [contradiction|].
      destruct (N.testbit a i), (N.testbit b i); auto; discriminate.
    - rewrite (testbit_above _ a i Ha L), (testbit_above _ b i Hb L). reflexivity. }
  intros i. destruct (N.eq_dec i p) as [->|Hi].
  - destruct (eqb (N.testbit a p) (N.testbit o p)) eqn:Q.
    + apply eqb_prop in Q. rewrite <- Q. symmetry. apply maj3_xyx.
    + apply eqb_false_iff in Q.
      assert (N.testbit b p = N.testbit o p) as Eb
        by (destruct (N.testbit a p), (N.testbit b p), (N.testbit o p); congruence).
      rewrite <- Eb. symmetry. apply maj3_yxx.
  - rewrite (Hagree i Hi). rewrite maj3_xx. destruct (eqb _ _); [apply Hagree; exact Hi|reflexivity].
Qed.

Lemma lnotw_testbit uw x i : N.testbit (lnotw uw x) i = (i <? uw) && negb (N.testbit x i).
Proof.
  unfold lnotw. rewrite N.lxor_spec, wrap_testbit.
  destruct (N.ltb_spec i uw).
  - rewrite N.ones_spec_low by lia. simpl. apply xorb_true_r.
  - rewrite N.ones_spec_high by lia. reflexivity.
Qed.

Lemma ET_reconstruct_majority t ga gb go a b o :
  valid t a -> valid t b -> valid t o -> bitwise_majority a b o (ET_reconstruct t ga gb go a b o).
Proof.
  intros Ha Hb Ho. apply (majority_of_low t); auto. intros i.
  unfold ET_reconstruct. cbv zeta. rewrite wrap_testbit.
  set (a' := widen t ga a). set (b' := widen t gb b). set (o' := widen t go o).
  set (body := fun i r => _).
  set (r0 := N.land a' _).
  assert (I : forall j, j < uwidth t ->
    N.testbit (for_up (N.to_nat (width t)) 0 body r0) j =
    if eqb (N.testbit a' j) (N.testbit b' j) then N.testbit a' j
    else (j <? width t) && N.testbit o' j).
  { pose proof (for_up_inv (fun k r => forall j, j < uwidth t -> N.testbit r j =
      if eqb (N.testbit a' j) (N.testbit b' j) then N.testbit a' j
      else (j <? k) && N.testbit o' j) body (N.to_nat (width t)) 0 r0) as I.
    rewrite N.add_0_l, N2Nat.id in I. apply I; clear I.
    - intros j Hj. unfold r0. rewrite N.land_spec, lnotw_testbit, N.lxor_spec.
      destruct (N.ltb_spec j (uwidth t)); [|lia]. destruct (N.ltb_spec j 0); [lia|].
      destruct (N.testbit a' j), (N.testbit b' j); reflexivity.
    - intros k x Hk IH j Hj. unfold body. cbv zeta.
      assert (Hku : k < uwidth t) by (pose proof (uwidth_ge t); lia).
      rewrite N.shiftl_1_l, wrap_small by (apply pow2_below; exact Hku).
      rewrite land_pow2_zero, negb_involutive, N.lxor_spec, !land_pow2_eq.
      destruct (N.eq_dec j k) as [->|Hjk].
      + destruct (N.ltb_spec k (k + 1)); [|lia]. specialize (IH k Hku).
        destruct (N.ltb_spec k k); [lia|]. simpl in IH.
        destruct (N.testbit a' k) eqn:Ea, (N.testbit b' k) eqn:Eb, (N.testbit o' k) eqn:Eo; simpl;
          rewrite ?N.lor_spec, ?N.land_spec, ?pow2_bits, ?N.eqb_refl, ?Ea, ?Eb, ?IH; reflexivity.
      + assert (E : forall y, N.testbit (N.land y (2 ^ k)) j = false).
        { intros y. rewrite N.land_spec, pow2_bits. destruct (N.eqb_spec j k); [contradiction|].
          apply andb_false_r. }
        assert ((j <? k + 1) = (j <? k)) as ->.
        { destruct (N.ltb_spec j k), (N.ltb_spec j (k + 1)); try lia; reflexivity. }
        rewrite <- (IH j Hj).
        destruct (xorb _ _); [|reflexivity].
        destruct (eqb _ _); [|destruct (eqb _ _)]; rewrite N.lor_spec, E; apply orb_false_r. }
  destruct (N.ltb_spec i (width t)) as [Hi|Hi]; [|reflexivity]. cbn [andb].
  rewrite I by (pose proof (uwidth_ge t); lia).
  destruct (N.ltb_spec i (width t)); [|lia].
  unfold a', b', o'. rewrite !widen_low by assumption.
  destruct (N.testbit a i), (N.testbit b i), (N.testbit o i); reflexivity.
Qed.

Section Strategies.
Variable t : aty.
Variables a b c : N.
Hypotheses (Ha : valid t a) (Hb : valid t b) (Hc : valid t c) (F : faithful_eq t a b c).

Lemma wordErrorVote_majority_with rec :
  (forall ga gb go x y z, In x [a; b; c] -> In y [a; b; c] -> In z [a; b; c] ->
     bitwise_majority x y z (rec t ga gb go x y z)) ->
  forall g, bitwise_majority a b c (wordErrorVote_with rec t g a b c).
Proof.
  intros Hrec g. unfold wordErrorVote_with.
  destruct (_ && _); [apply Hrec; simpl; auto|].
  destruct (_ && _); [apply majority_swap23, Hrec; simpl; auto|].
  apply majority_rot, Hrec; simpl; auto.
Qed.

Lemma in_valid x : In x [a; b; c] -> valid t x.
Proof. intros [<-|[<-|[<-|[]]]]; assumption. Qed.

Lemma EV_wordErrorVote_majority g : bitwise_majority a b c (EV_wordErrorVote t g a b c).
Proof.
  apply wordErrorVote_majority_with. intros. apply EV_reconstruct_majority; auto using in_valid.
Qed.
Lemma ET_wordErrorVote_majority g : bitwise_majority a b c (ET_wordErrorVote t g a b c).
Proof.
  apply wordErrorVote_majority_with. intros. apply ET_reconstruct_majority; auto using in_valid.
Qed.

Lemma adaptive_majority_with wv sel p :
  (forall g, bitwise_majority a b c (wv t g a b c)) ->
  (forall x y z, In (sel t a b c x y z) [x; y; z]) ->
  forall g gb, bitwise_majority a b c (adaptiveVote_with wv sel t g gb a b c p).
Proof.
  intros Hw Hs g gb. unfold adaptiveVote_with.
  destruct (eqT t a b) eqn:Eab.
  { pose proof (F a b (or_introl eq_refl) (or_intror (or_introl eq_refl)) Eab) as E.
    intros i. rewrite <- E. symmetry. apply maj3_xx. }
  destruct (eqT t a c) eqn:Eac.
  { pose proof (F a c (or_introl eq_refl) (or_intror (or_intror (or_introl eq_refl))) Eac) as E.
    intros i. rewrite <- E. symmetry. apply maj3_xyx. }
  destruct (eqT t b c) eqn:Ebc.
  { pose proof (F b c (or_intror (or_introl eq_refl)) (or_intror (or_intror (or_introl eq_refl))) Ebc) as E.
    intros i. rewrite <- E. symmetry. apply maj3_yxx. }
  assert (B : bitwise_majority a b c (bitLevelVote t a b c)) by (apply bitLevelVote_majority; assumption).
  assert (U : bitwise_majority a b c (burstErrorVote t (g1 gb) (g2 gb) (g3 gb) a b c))
    by (apply burstErrorVote_majority; assumption).
  destruct p; auto.
  destruct (Hs (bitLevelVote t a b c) (wv t g a b c) (burstErrorVote t (g1 gb) (g2 gb) (g3 gb) a b c))
    as [E|[E|[E|[]]]]; rewrite <- E; auto.
Qed.

Lemma EV_adaptive_majority g gb p : bitwise_majority a b c (EV_adaptiveVote t g gb a b c p).
Proof.
  apply adaptive_majority_with; [apply EV_wordErrorVote_majority|].
  intros x y z. unfold EV_selectMostConfident.
  repeat match goal with |- context [if ?b then _ else _] => destruct b end; simpl; auto.
Qed.
Lemma ET_adaptive_majority g gb p : bitwise_majority a b c (ET_adaptiveVote t g gb a b c p).
Proof.
  apply adaptive_majority_with; [apply ET_wordErrorVote_majority|].
  intros x y z. unfold ET_selectMostConfident.
  repeat match goal with |- context [if ?b then _ else _] => destruct b end; simpl; auto.
Qed.
End Strategies.

Lemma int_faithful t a b c : is_int t = true -> faithful_eq t a b c.
Proof. intros Hi x y _ _ E. rewrite eqT_int in E by exact Hi. apply N.eqb_eq; exact E. Qed.

(** float: faithful unless two copies are zeros of opposite sign *)
Lemma float_faithful t a b c : 
  (forall x y, In x [a; b; c] -> In y [a; b; c] -> is_zero t x = true -> is_zero t y = true -> x = y) ->
  faithful_eq t a b c.
Proof.
  intros H x y Hx Hy E. rewrite eqT_spec in E.
  apply andb_prop in E. destruct E as [_ E]. apply orb_prop in E. destruct E as [E|E].
  - apply N.eqb_eq; exact E.
  - apply andb_prop in E. destruct E as [_ E]. apply andb_prop in E. destruct E. apply H; assumption.
Qed.

(** C09 *)
Lemma disjoint_masks v m1 m2 m3 r : no_shared_bit m1 m2 m3 ->
  bitwise_majority (N.lxor v m1) (N.lxor v m2) (N.lxor v m3) r -> r = v.
Proof.
  intros D M. apply N.bits_inj. intros i. rewrite M, !N.lxor_spec.
  destruct (D i) as (D1 & D2 & D3).
  destruct (N.testbit v i), (N.testbit m1 i), (N.testbit m2 i), (N.testbit m3 i); cbv in D1, D2, D3 |- *; congruence.
Qed.
