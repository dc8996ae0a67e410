(** detectFaultPatternWithConfidence: pattern agrees with detectFaultPattern; confidence range. *)
From Coq Require Import List NArith ZArith Lia Bool SpecFloat.
Import ListNotations.
From Verif Require Import Outcome Words Arith Floats Voting_Model Voting_Spec Voting_Proofs Detect_Proofs.
Local Open Scope N_scope.

Lemma popcount_add_pow2 k : forall x, x < 2 ^ k -> popcount (x + 2 ^ k) = popcount x + 1.
Proof.
  induction k as [|k IH] using N.peano_ind; intros x Hx.
  - assert (x = 0) by (change (2 ^ 0) with 1 in Hx; lia). subst. reflexivity.
  - rewrite N.pow_succ_r' in *. assert (Hp : 0 < 2 ^ k) by (apply N.neq_0_lt_0, N.pow_nonzero; discriminate).
    pose proof (N.div_mod x 2 ltac:(lia)) as D. set (y := x / 2) in *.
    assert (Hm : x mod 2 = 0 \/ x mod 2 = 1) 
      by (clear; pose proof (N.mod_lt x 2 ltac:(discriminate)) as L; revert L; generalize (x mod 2); lia).
    assert (Hy : y < 2 ^ k) by (apply N.div_lt_upper_bound; lia).
    destruct Hm as [E|E]; rewrite E in D.
    + replace (x + 2 * 2 ^ k) with (2 * (y + 2 ^ k)) by lia. rewrite D, N.add_0_r, !popcount_double.
      apply IH; exact Hy.
    + replace (x + 2 * 2 ^ k) with (2 * (y + 2 ^ k) + 1) by lia. rewrite D, !popcount_succ_double, IH by exact Hy. lia.
Qed.

Lemma wrap_succ k x : wrap (k + 1) x = wrap k x + (if N.testbit x k then 2 ^ k else 0).
Proof.
  unfold wrap. rewrite N.add_1_r, N.pow_succ_r'. rewrite N.mul_comm.
  rewrite N.mod_mul_r by (try apply N.pow_nonzero; lia).
  rewrite <- N.shiftr_div_pow2, <- N.bit0_mod, N.shiftr_spec, N.add_0_l by lia.
  destruct (N.testbit x k); simpl N.b2n; lia.
Qed.

Lemma popcount_wrap_succ k x : popcount (wrap (k + 1) x) = popcount (wrap k x) + (if N.testbit x k then 1 else 0).
Proof.
  rewrite wrap_succ. destruct (N.testbit x k).
  - apply popcount_add_pow2, wrap_lt.
  - rewrite !N.add_0_r. reflexivity.
Qed.

Lemma popcount_le_width w x : x < 2 ^ w -> popcount x <= w.
Proof.
  intros H. rewrite <- (wrap_small w x H). clear H.
  induction w as [|w IH] using N.peano_ind.
  - unfold wrap. rewrite N.mod_1_r. simpl. lia.
  - rewrite <- N.add_1_r, popcount_wrap_succ. destruct (N.testbit x w); lia.
Qed.

Lemma longest_run_le uw x : x < 2 ^ uw -> longest_run uw x <= popcount x.
Proof.
  intros H. unfold longest_run. set (body := fun i lc => _).
  pose proof (for_up_inv (fun k (lc : N * N) => fst lc <= popcount (wrap k x) /\ snd lc <= popcount (wrap k x))
    body (N.to_nat uw) 0 (0, 0)) as I.
  rewrite N.add_0_l, N2Nat.id in I. rewrite (wrap_small uw x H) in I.
  apply I; clear I.
  - simpl. split; lia.
  - intros j [l c] Hj [H1 H2]. unfold body. rewrite shiftr_land1, popcount_wrap_succ.
    destruct (N.testbit x j); simpl b2n; cbn [N.eqb]; simpl fst in *; simpl snd in *.
    + change (1 =? 1) with true. cbn iota. cbn [fst snd]. split; lia.
    + change (0 =? 1) with false. cbn iota. cbn [fst snd]. split; lia.
Qed.

Definition omap {A B} (f : A -> B) (o : outcome A) : outcome B := obind o (fun a => Ret (f a)).

Lemma confidence_same_pattern t ga gb gc a b c :
  omap fst (EV_detectWithConfidence t ga gb gc a b c) = EV_detectFaultPattern t ga gb gc a b c.
Proof.
  unfold EV_detectWithConfidence, EV_detectFaultPattern. cbv zeta.
  set (a' := widen t ga a). set (b' := widen t gb b). set (c' := widen t gc c).
  assert (Z : forall x y, countBits (N.lxor x y) =? 0 = (x =? y)).
  { intros x y. destruct (N.eqb_spec x y) as [->|n].
    - rewrite N.lxor_nilpotent. reflexivity.
    - apply N.eqb_neq. intros E. apply (proj1 (popcount_0_iff _)) in E. apply N.lxor_eq in E. contradiction. }
  unfold closest_diff. cbv zeta. rewrite !Z.
  assert (K : forall diff conf, omap fst
    (if countBits diff =? 1 then Ret (SINGLE_BIT, fmin (sadd conf (slit 1 10)) (slit 99 100))
     else obind (EV_areAdjacentBits (uwidth t) diff) (fun adj =>
      if adj then Ret (ADJACENT_BITS, conf)
      else obind (areByteBoundary (uwidth t) diff) (fun byte =>
        if byte then Ret (BYTE_ERROR, conf)
        else if EV_areWordBoundary (uwidth t) diff then Ret (WORD_ERROR, conf)
        else if EV_areBurstPattern (uwidth t) diff
             then Ret (BURST_ERROR, smul conf (burstPatternConfidence (uwidth t) diff))
        else Ret (UNKNOWN, smul conf (slit 8 10))))) = EV_classify (uwidth t) diff).
  { intros diff conf. unfold EV_classify, omap. destruct (countBits diff =? 1); [reflexivity|].
    destruct (EV_areAdjacentBits (uwidth t) diff) as [x| | |]; try reflexivity. cbn [obind].
    destruct x; [reflexivity|].
    destruct (areByteBoundary (uwidth t) diff) as [y| | |]; try reflexivity. cbn [obind].
    destruct y; [reflexivity|].
    destruct (EV_areWordBoundary (uwidth t) diff); [reflexivity|].
    destruct (EV_areBurstPattern (uwidth t) diff); reflexivity. }
  destruct (N.eqb_spec a' b') as [Eab|Nab].
  - destruct (N.eqb_spec a' c') as [Eac|Nac]; cbn [andb].
    + rewrite <- Eab, <- Eac, N.eqb_refl. reflexivity.
    + apply K.
  - cbn [andb]. destruct (N.eqb_spec a' c') as [Eac|Nac]; [apply K|].
    destruct (N.eqb_spec b' c') as [Ebc|Nbc]; [rewrite K, Ebc; reflexivity|].
    destruct (_ && _); [apply K|]. destruct (_ && _); apply K.
Qed.

(** confidence in (0,1], strictly below 1 unless all copies agree *)
Definition conf_ok (x : sf) : bool := flt (sofZ 0) x && flt x (sofZ 1).

Definition nrange (n : nat) : list N := map N.of_nat (seq 1 n).

(* the reachable (confidence, bits) pairs: 0.9, or the closest pair's own bit count *)
Definition check (t : aty) : bool :=
  forallb (fun total =>
    forallb (fun conf =>
      conf_ok (fmin (sadd conf (slit 1 10)) (slit 99 100)) && conf_ok conf && conf_ok (smul conf (slit 8 10)) &&
      forallb (fun lr => if lr <=? total then
                 conf_ok (smul conf (sdiv (sofZ (Z.of_N lr)) (sofZ (Z.of_N total)))) else true)
              (nrange (N.to_nat (uwidth t))))
      [slit 9 10; pair_confidence t total])
    (nrange (N.to_nat (uwidth t))).
Lemma check_ok t : t <> I8 -> check t = true.
Proof. destruct t; intros H; try congruence; vm_compute; reflexivity. Qed.

Lemma nrange_in n x : 1 <= x <= N.of_nat n -> In x (nrange n).
Proof.
  intros H. unfold nrange. apply in_map_iff. exists (N.to_nat x). split; [apply N2Nat.id|].
  apply in_seq. lia.
Qed.

Lemma conf_table t total conf : t <> I8 -> 1 <= total <= uwidth t ->
  conf = slit 9 10 \/ conf = pair_confidence t total ->
  conf_ok (fmin (sadd conf (slit 1 10)) (slit 99 100)) = true /\ conf_ok conf = true /\
  conf_ok (smul conf (slit 8 10)) = true /\
  forall lr, 1 <= lr <= total ->
    conf_ok (smul conf (sdiv (sofZ (Z.of_N lr)) (sofZ (Z.of_N total)))) = true.
Proof.
  intros Ht Hn Hc. pose proof (check_ok t Ht) as C. unfold check in C.
  rewrite forallb_forall in C. specialize (C total).
  assert (In total (nrange (N.to_nat (uwidth t)))) as I by (apply nrange_in; lia).
  specialize (C I). rewrite forallb_forall in C. specialize (C conf).
  assert (In conf [slit 9 10; pair_confidence t total]) as J by (destruct Hc as [-> | ->]; [left|right; left]; reflexivity).
  specialize (C J).
  apply andb_prop in C. destruct C as [C C4]. apply andb_prop in C. destruct C as [C C3].
  apply andb_prop in C. destruct C as [C1 C2]. repeat split; auto.
  intros lr Hlr. rewrite forallb_forall in C4. specialize (C4 lr).
  assert (In lr (nrange (N.to_nat (uwidth t)))) as K by (apply nrange_in; lia).
  specialize (C4 K). cbv beta in C4. destruct (N.leb_spec lr total); [exact C4|lia].
Qed.

Lemma conf_branch t diff conf p x : t <> I8 -> diff < 2 ^ uwidth t -> diff <> 0 ->
  conf = slit 9 10 \/ conf = pair_confidence t (countBits diff) ->
  (if countBits diff =? 1 then Ret (SINGLE_BIT, fmin (sadd conf (slit 1 10)) (slit 99 100))
     else obind (EV_areAdjacentBits (uwidth t) diff) (fun adj =>
      if adj then Ret (ADJACENT_BITS, conf)
      else obind (areByteBoundary (uwidth t) diff) (fun byte =>
        if byte then Ret (BYTE_ERROR, conf)
        else if EV_areWordBoundary (uwidth t) diff then Ret (WORD_ERROR, conf)
        else if EV_areBurstPattern (uwidth t) diff
             then Ret (BURST_ERROR, smul conf (burstPatternConfidence (uwidth t) diff))
        else Ret (UNKNOWN, smul conf (slit 8 10))))) = Ret (p, x) ->
  conf_ok x = true.
Proof.
  intros Ht Hd Hz Hc.
  assert (Hn : 1 <= countBits diff <= uwidth t).
  { split; [|apply popcount_le_width; exact Hd].
    destruct (N.eq_dec (countBits diff) 0) as [E|E]; [|lia].
    apply (proj1 (popcount_0_iff _)) in E. contradiction. }
  destruct (conf_table t _ conf Ht Hn Hc) as (H1 & H2 & H3 & H4).
  destruct (countBits diff =? 1); [intros E; injection E as _ <-; exact H1|].
  destruct (EV_areAdjacentBits (uwidth t) diff) as [y| | |]; try discriminate. cbn [obind].
  destruct y; [intros E; injection E as _ <-; exact H2|].
  destruct (areByteBoundary (uwidth t) diff) as [y| | |]; try discriminate. cbn [obind].
  destruct y; [intros E; injection E as _ <-; exact H2|].
  destruct (EV_areWordBoundary (uwidth t) diff); [intros E; injection E as _ <-; exact H2|].
  destruct (EV_areBurstPattern (uwidth t) diff) eqn:B; intros E; injection E as _ <-; [|exact H3].
  unfold burstPatternConfidence. destruct (N.ltb_spec 0 (countBits diff)); [|lia].
  apply H4. split; [|apply longest_run_le; exact Hd].
  unfold EV_areBurstPattern in B. apply andb_prop in B. destruct B as [B _]. apply N.leb_le in B. lia.
Qed.

Lemma confidence_range t ga gb gc a b c p x : t <> I8 ->
  EV_detectWithConfidence t ga gb gc a b c = Ret (p, x) ->
  (widen t ga a = widen t gb b /\ widen t ga a = widen t gc c /\ p = UNKNOWN /\ x = sofZ 1) \/
  (~ (widen t ga a = widen t gb b /\ widen t ga a = widen t gc c) /\ conf_ok x = true).
Proof.
  intros Ht. unfold EV_detectWithConfidence. cbv zeta.
  pose proof (widen_lt t ga a) as La. pose proof (widen_lt t gb b) as Lb. pose proof (widen_lt t gc c) as Lc.
  set (a' := widen t ga a) in *. set (b' := widen t gb b) in *. set (c' := widen t gc c) in *.
  assert (Z : forall x y, countBits (N.lxor x y) =? 0 = (x =? y)).
  { intros u v. destruct (N.eqb_spec u v) as [->|n].
    - rewrite N.lxor_nilpotent. reflexivity.
    - apply N.eqb_neq. intros E. apply (proj1 (popcount_0_iff _)) in E. apply N.lxor_eq in E. contradiction. }
  assert (NZ : forall u v, u <> v -> N.lxor u v <> 0).
  { intros u v n E. apply N.lxor_eq in E. contradiction. }
  rewrite !Z.
  destruct (N.eqb_spec a' b') as [Eab|Nab].
  - destruct (N.eqb_spec a' c') as [Eac|Nac]; cbn [andb].
    + destruct (N.eqb_spec b' c') as [_|N']; [|congruence].
      intros E. injection E as <- <-. left. auto.
    + intros E. right. split; [tauto|]. eapply (conf_branch t (N.lxor a' c') _ p x Ht);
        [apply lxor_below; assumption|apply NZ; exact Nac|left; reflexivity|exact E].
  - cbn [andb]. intros E. right. split; [tauto|]. revert E.
    destruct (N.eqb_spec a' c') as [Eac|Nac].
    { intros E. eapply (conf_branch t _ _ p x Ht); [| | |exact E];
        [apply lxor_below; assumption|apply NZ; exact Nab|left; reflexivity]. }
    destruct (N.eqb_spec b' c') as [Ebc|Nbc].
    { intros E. eapply (conf_branch t _ _ p x Ht); [| | |exact E];
        [apply lxor_below; assumption|apply NZ; exact Nac|left; reflexivity]. }
    destruct (_ && _); [|destruct (_ && _)]; intros E;
      (eapply (conf_branch t _ _ p x Ht); [| | |exact E];
        [apply lxor_below; assumption|apply NZ; assumption|right; reflexivity]).
Qed.

Lemma confidence_range_exact t ga gb gc a b c p x :
  exact_width t = true -> valid t a -> valid t b -> valid t c ->
  EV_detectWithConfidence t ga gb gc a b c = Ret (p, x) ->
  (a = b /\ a = c /\ p = UNKNOWN /\ x = sofZ 1) \/
  (~ (a = b /\ a = c) /\ SFltb (sofZ 0) x = true /\ SFltb x (sofZ 1) = true).
Proof.
  intros E Ha Hb Hc H.
  assert (Ht : t <> I8) by (intros ->; discriminate E).
  destruct (confidence_range t ga gb gc a b c p x Ht H) as [K|[K1 K2]];
    rewrite !widen_exact in * by assumption; [left; exact K|right].
  split; [exact K1|]. apply andb_prop in K2. exact K2.
Qed.
