(** Proofs about the radiation-protection simulations: applyTMR and applyScrubbing. *)
From Coq Require Import List NArith ZArith Bool Arith Lia.
Import ListNotations.
From Verif Require Import Outcome Words Edac_Model Edac_Spec Edac_Proofs.

Lemma strikes_on_app a b m : strikes_on (a ++ b) m = strikes_on b (strikes_on a m).
Proof. unfold strikes_on. apply fold_left_app. Qed.
Lemma or_own_drawn o own : or_own o own = N.of_nat (drawn o (N.to_nat own)).
Proof. destruct o; simpl; lia. Qed.
Lemma tmr_fold n es : forall a b c,
  fold_left (tmr_step (N.of_nat n)) es (a, b, c) = (strikes_on (on_memory n es) a, strikes_on (on_copy1 n es) b, strikes_on (on_copy2 n es) c).
Proof.
  induction es as [|[e d] es IH]; intros a b c; [reflexivity|].
  cbn [fold_left]. unfold on_memory, on_copy1, on_copy2, upsets. cbn [filter fst]. unfold tmr_step at 2.
  destruct (hits e) eqn:Eh; [|apply IH].
  cbn [flat_map]. rewrite !strikes_on_app, IH.
  unfold strike1, strike2, strike3, own_cell. cbn [fst snd]. rewrite !or_own_drawn.
  destruct (hit1 d), (hit2 d), (hit3 d); reflexivity.
Qed.
Lemma own_in n e : (1 <= n)%nat -> in_range n (own_cell n e).
Proof.
  intros H. unfold own_cell, in_range. cbn [fst snd].
  pose proof (N.mod_lt (eoffset e) (N.of_nat n) ltac:(lia)). pose proof (N.mod_lt (ebits e) 8 ltac:(lia)). lia.
Qed.
Lemma drawn_lt k o own : below (N.of_nat k) o -> (own < k)%nat -> (drawn o own < k)%nat.
Proof. destruct o; simpl; lia. Qed.
Lemma upsets_forall {D} (P : event * D -> Prop) es : Forall P es -> Forall P (upsets es).
Proof. rewrite !Forall_forall. intros H x Hx. unfold upsets in Hx. rewrite filter_In in Hx. apply H. tauto. Qed.
Lemma forall_flat {A B} (P : B -> Prop) (f : A -> list B) l : Forall (fun a => Forall P (f a)) l -> Forall P (flat_map f l).
Proof. induction 1; simpl; [constructor|]. apply Forall_app. split; assumption. Qed.
Lemma tmr_range n es : (1 <= n)%nat -> legal_tmr n es ->
  Forall (in_range n) (on_memory n es) /\ Forall (in_range n) (on_copy1 n es) /\ Forall (in_range n) (on_copy2 n es).
Proof.
  intros Hn Hl. apply upsets_forall in Hl.
  repeat split; apply forall_flat; revert Hl; apply Forall_impl; intros [e d]; cbn [snd]; intros (L1 & L2 & L3 & B1 & B2 & B3);
  pose proof (own_in n e Hn) as [O1 O2]; unfold strike1, strike2, strike3;
  [destruct (hit1 d)|destruct (hit2 d)|destruct (hit3 d)]; constructor; try constructor; cbn [fst snd];
  try (apply drawn_lt; assumption); apply (drawn_lt 8); assumption.
Qed.
Lemma two_of_xor o a b c : two_of (xorb o a) (xorb o b) (xorb o c) = xorb o (two_of a b c).
Proof. destruct o, a, b, c; reflexivity. Qed.
Lemma wrong_xor o a b c : wrong o (xorb o a) (xorb o b) (xorb o c) = a || b || c.
Proof. destruct o, a, b, c; reflexivity. Qed.
Lemma to_int_size n : (1 <= n < 2 ^ 28)%N -> (to_int ((n + 2 ^ 64 - 1) mod 2 ^ 64) <? 0)%Z = false.
Proof.
  intros H. replace (n + 2 ^ 64 - 1)%N with ((n - 1) + 1 * 2 ^ 64)%N by lia. rewrite N.mod_add by discriminate.
  rewrite N.mod_small by lia. unfold to_int. rewrite N.mod_small by lia.
  replace (_ <? 2 ^ 31)%Z with true by (symmetry; apply Z.ltb_lt; lia). apply Z.ltb_ge. lia.
Qed.
Theorem tmr_sim m es : bytes m -> (1 <= length m)%nat -> (N.of_nat (length m) < 2 ^ 28)%N ->
  (N.of_nat (length (upsets es)) <= INT_MAX)%N -> legal_tmr (length m) es ->
  exists m' c, apply_tmr m es = Ret (m', c) /\ length m' = length m /\ bytes m' /\
    (forall p, In p (cells 8 (length m)) -> bit_at m' p = xorb (bit_at m p) (lost (length m) es p)) /\
    total c = count (upset (length m) es) (cells 8 (length m)) /\
    corrections c = count (fun p => upset (length m) es p && negb (lost (length m) es p)) (cells 8 (length m)).
Proof.
  intros Hb H1 H2 Hu Hl. destruct (tmr_range _ _ H1 Hl) as (R1 & R2 & R3).
  unfold apply_tmr. rewrite to_int_size by lia. fold (upsets es).
  replace (INT_MAX <? N.of_nat (length (upsets es)))%N with false by (symmetry; apply N.ltb_ge; exact Hu).
  rewrite tmr_fold. set (n := length m) in *.
  pose proof (vote_all_spec m (strikes_on (on_memory n es) m) (strikes_on (on_copy1 n es) m) (strikes_on (on_copy2 n es) m) 0 0
    (strikes_on_length _ _) (strikes_on_length _ _) (strikes_on_length _ _)) as V. cbv zeta in V.
  destruct (vote_all _ _ _ _ _) as [m' [cor tot]]. cbn [fst snd] in V. destruct V as (V1 & V2 & V3 & V4).
  injection V4 as -> ->. rewrite ?N.add_0_l. fold n.
  assert (B1 : forall p, bit_at (strikes_on (on_memory n es) m) p = xorb (bit_at m p) (inverted (on_memory n es) p)) by (intros; apply strikes_on_bit; assumption).
  assert (B2 : forall p, bit_at (strikes_on (on_copy1 n es) m) p = xorb (bit_at m p) (inverted (on_copy1 n es) p)) by (intros; apply strikes_on_bit; assumption).
  assert (B3 : forall p, bit_at (strikes_on (on_copy2 n es) m) p = xorb (bit_at m p) (inverted (on_copy2 n es) p)) by (intros; apply strikes_on_bit; assumption).
  assert (M : forall p, maj_at (strikes_on (on_memory n es) m) (strikes_on (on_copy1 n es) m) (strikes_on (on_copy2 n es) m) p = xorb (bit_at m p) (lost n es p)).
  { intros p. unfold maj_at, majority. rewrite B1, B2, B3. apply two_of_xor. }
  assert (W : forall p, wrong_at m (strikes_on (on_memory n es) m) (strikes_on (on_copy1 n es) m) (strikes_on (on_copy2 n es) m) p = upset n es p).
  { intros p. unfold wrong_at. rewrite B1, B2, B3. apply wrong_xor. }
  set (C1 := count _ _) in |- *. set (C2 := count _ _) in |- *.
  assert (E2 : C2 = count (upset n es) (cells 8 n)) by (apply count_ext; intros; apply W).
  assert (E1 : C1 = count (fun p => upset n es p && negb (lost n es p)) (cells 8 n)).
  { apply count_ext; intros p _. rewrite W, M. f_equal. destruct (bit_at m p), (lost n es p); reflexivity. }
  assert (L : (N.of_nat (length (cells 8 n)) <= INT_MAX)%N) by (rewrite cells_length; unfold INT_MAX; lia).
  pose proof (count_le (upset n es) (cells 8 n)). pose proof (count_le (fun p => upset n es p && negb (lost n es p)) (cells 8 n)).
  unfold int_result. cbn [corrections total].
  rewrite (proj2 (N.leb_le C1 INT_MAX)) by lia. rewrite (proj2 (N.leb_le C2 INT_MAX)) by lia. cbn [andb].
  exists m', (mkCounts C1 C2). split; [reflexivity|]. split; [exact V1|]. split; [exact V2|]. split; [|split; assumption].
  intros p Hp. apply cells_in in Hp as [Hp1 Hp2]. rewrite V3 by assumption. apply M.
Qed.

(** ** scrubbing *)
Lemma scrub_fold n es : forall m k,
  fold_left (scrub_step (N.of_nat n)) es (m, k) = (strikes_on (scrub_strikes n es) m, (k + count hits es)%N).
Proof.
  induction es as [|e es IH]; intros m k; [unfold count; simpl; f_equal; lia|].
  cbn [fold_left]. unfold scrub_strikes. cbn [filter]. rewrite count_cons. unfold scrub_step at 2. destruct (hits e).
  - rewrite IH. cbn [fst snd map]. unfold strikes_on. cbn [fold_left]. unfold own_cell. cbn [fst snd]. rewrite !N2Nat.id.
    unfold scrub_strikes. f_equal. lia.
  - rewrite IH. reflexivity.
Qed.
Lemma scrub_back_spec m : forall b k, length m = length b ->
  scrub_back m b k = (b, (k + count (fun i => negb (nth i m 0 =? nth i b 0)%N) (seq 0 (length b)))%N).
Proof.
  induction m as [|x m IH]; intros [|y b] k H; try discriminate H.
  - unfold count. simpl. f_equal. lia.
  - cbn [scrub_back length seq]. rewrite count_cons. cbn [nth].
    rewrite <- seq_shift, count_map.
    destruct (N.eqb_spec x y) as [->|D]; cbn [negb].
    + rewrite IH by (simpl in H; lia). f_equal.
    + rewrite IH by (simpl in H; lia). f_equal. cbn [nth]. lia.
Qed.
(** bytes that differ in some bit *)
Lemma byte_eq_bits x y : (x < 256)%N -> (y < 256)%N -> (forall b, (b < 8)%nat -> N.testbit x (N.of_nat b) = N.testbit y (N.of_nat b)) -> x = y.
Proof.
  intros Hx Hy H. apply N.bits_inj. intros j. destruct (N.lt_ge_cases j 8) as [L|L].
  - specialize (H (N.to_nat j) ltac:(lia)). now rewrite N2Nat.id in H.
  - rewrite (testbit_above 8 x), (testbit_above 8 y); auto.
Qed.
Theorem scrub_sim m es : bytes m -> (1 <= length m)%nat -> (count hits es <= INT_MAX)%N ->
  exists c, apply_scrubbing m es = Ret (m, c) /\ total c = count hits es /\
    corrections c = count (fun k => existsb (fun b => inverted (scrub_strikes (length m) es) (k, b)) (seq 0 8)) (seq 0 (length m)) /\
    (corrections c <= total c)%N.
Proof.
  intros Hb H1 Hc. set (n := length m) in *.
  assert (R : Forall (in_range n) (scrub_strikes n es)).
  { unfold scrub_strikes. apply Forall_forall. intros x Hx. apply in_map_iff in Hx as (e & <- & _). apply own_in. exact H1. }
  set (D := fun k => existsb (fun b => inverted (scrub_strikes n es) (k, b)) (seq 0 8)).
  assert (E : count (fun i => negb (nth i (strikes_on (scrub_strikes n es) m) 0 =? nth i m 0)%N) (seq 0 n) = count D (seq 0 n)).
  { apply count_ext. intros i Hi. destruct (D i) eqn:Ed.
    - unfold D in Ed. apply existsb_exists in Ed as (b & Hb' & Hi'). apply negb_true_iff. apply N.eqb_neq. intros Q.
      pose proof (strikes_on_bit (scrub_strikes n es) m (i, b) Hb R) as S. unfold bit_at in S. cbn [fst snd] in S. rewrite Q, Hi' in S.
      destruct (N.testbit _ _); discriminate S.
    - apply negb_false_iff. apply N.eqb_eq. apply byte_eq_bits; try apply nth_byte; try assumption; [apply strikes_on_bytes; assumption|].
      intros b Hb'. pose proof (strikes_on_bit (scrub_strikes n es) m (i, b) Hb R) as S. unfold bit_at in S. cbn [fst snd] in S. rewrite S.
      replace (inverted (scrub_strikes n es) (i, b)) with false; [apply xorb_false_r|]. symmetry.
      destruct (inverted (scrub_strikes n es) (i, b)) eqn:Q; [|reflexivity]. exfalso.
      rewrite <- not_true_iff_false in Ed. apply Ed. apply existsb_exists. exists b. split; [apply in_seq; lia|exact Q]. }
  assert (L : (count D (seq 0 n) <= count hits es)%N).
  { assert (Q : count hits es = N.of_nat (length (map fst (scrub_strikes n es)))) by (unfold count, scrub_strikes; rewrite !map_length; reflexivity).
    rewrite Q. apply nodup_count_in; [apply seq_NoDup|]. intros k _ Hk. unfold D in Hk. apply existsb_exists in Hk as (b & _ & Hi).
    apply inverted_in in Hi. apply in_map_iff. exists (k, b). auto. }
  unfold apply_scrubbing. fold n. replace (N.of_nat n =? 0)%N with false by (symmetry; apply N.eqb_neq; lia). cbn [andb].
  rewrite scrub_fold, N.add_0_l. rewrite scrub_back_spec by apply strikes_on_length. rewrite N.add_0_l. fold n. rewrite E.
  unfold int_result. cbn [corrections total]. rewrite (proj2 (N.leb_le _ INT_MAX)) by lia. rewrite (proj2 (N.leb_le _ INT_MAX)) by lia. cbn [andb].
  eexists. split; [reflexivity|]. cbn [corrections total]. repeat split; assumption.
Qed.
