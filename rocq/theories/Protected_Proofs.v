(** Proofs about ProtectedValue, AlignedProtectedMemory and InterleavedBitMemory. *)
From Coq Require Import List NArith ZArith Bool Lia SpecFloat.
Import ListNotations.
From Verif Require Import Outcome Words Arith Floats Voting_Model Voting_Spec Voting_Proofs
  Detect_Proofs Confidence_Proofs Protected_Model Protected_Spec.
Local Open Scope N_scope.

(** *** longest run of ones *)
Lemma longest_run_spec uw m : m < 2 ^ uw -> longest_ones m (longest_run uw m).
Proof.
  intros Hm. unfold longest_run.
  set (body := fun i '(longest, cur) => _).
  pose (P := fun (i : N) (st : N * N) =>
    snd st <= i /\ ones_run m (i - snd st) (snd st) /\
    (i = snd st \/ N.testbit m (i - snd st - 1) = false) /\
    (exists lo, lo + fst st <= i /\ ones_run m lo (fst st)) /\
    (forall lo len, lo + len <= i -> ones_run m lo len -> len <= fst st)).
  assert (K : P (0 + N.of_nat (N.to_nat uw)) (for_up (N.to_nat uw) 0 body (0, 0))).
  { apply for_up_inv.
    - unfold P; cbn. repeat split; try lia.
      + intros i H. lia.
      + exists 0. split; [lia|]. intros i H. lia.
    - intros i [lg cur] Hi (H1 & H2 & H3 & (lo & H4 & H4') & H5). cbn [fst snd] in *. unfold body.
      rewrite shiftr_land1. destruct (N.testbit m i) eqn:B; cbn [b2n].
      + change (1 =? 1) with true. unfold P; cbn [fst snd].
        assert (R : ones_run m (i + 1 - (cur + 1)) (cur + 1)).
        { intros j Hj. destruct (N.eq_dec j i) as [->|N]; [exact B|]. apply H2. lia. }
        repeat split; try lia.
        * exact R.
        * destruct H3 as [H3|H3]; [left; lia|right]. rewrite <- H3. f_equal. lia.
        * destruct (N.le_gt_cases lg (cur + 1)) as [Q|Q].
          -- rewrite N.max_r by lia. exists (i + 1 - (cur + 1)). split; [lia|exact R].
          -- rewrite N.max_l by lia. exists lo. split; [lia|exact H4'].
        * intros lo' len Hb Hr. destruct (N.le_gt_cases (lo' + len) i) as [Q|Q].
          -- specialize (H5 lo' len Q Hr). lia.
          -- assert (len <= cur + 1); [|lia].
             destruct H3 as [H3|H3]; [lia|].
             destruct (N.le_gt_cases len (cur + 1)) as [|G]; [assumption|].
             exfalso. specialize (Hr (i - cur - 1)). rewrite Hr in H3; [discriminate|]. lia.
      + change (0 =? 1) with false. unfold P; cbn [fst snd]. repeat split; try lia.
        * intros j Hj. lia.
        * right. replace (i + 1 - 0 - 1) with i by lia. exact B.
        * exists lo. split; [lia|exact H4'].
        * intros lo' len Hb Hr. destruct (N.le_gt_cases (lo' + len) i) as [Q|Q]; [exact (H5 lo' len Q Hr)|].
          destruct (N.eq_dec len 0) as [->|Z]; [lia|].
          exfalso. assert (T : N.testbit m i = true) by (apply Hr; split; lia). congruence. }
  destruct K as (_ & _ & _ & (lo & _ & K1) & K2). rewrite N.add_0_l, N2Nat.id in K2.
  split; [exists lo; exact K1|].
  intros lo' len Hr. destruct (N.eq_dec len 0) as [->|Z]; [lia|].
  apply (K2 lo'); [|exact Hr].
  destruct (N.le_gt_cases (lo' + len) uw) as [|G]; [assumption|exfalso].
  assert (T : N.testbit m (lo' + len - 1) = true) by (apply Hr; lia).
  rewrite (testbit_above uw m) in T; [discriminate|exact Hm|lia].
Qed.

Lemma longest_unique m L L' : longest_ones m L -> longest_ones m L' -> L = L'.
Proof. intros [[lo H1] H2] [[lo' H1'] H2']. specialize (H2 _ _ H1'). specialize (H2' _ _ H1). lia. Qed.

(** *** one corrupted copy, same junk in the three temporaries *)
Lemma widen_lxor t g v m : uwidth t = 32 -> valid t v -> valid t m ->
  N.lxor (widen t g (N.lxor v m)) (widen t g v) = m.
Proof.
  intros U Hv Hm. apply N.bits_inj. intros i. rewrite N.lxor_spec. unfold widen. rewrite !wrap_testbit, !N.lor_spec, N.lxor_spec.
  assert (W : width t <= uwidth t) by (destruct t; vm_compute; discriminate).
  destruct (N.ltb_spec i (uwidth t)) as [Hi|Hi]; cbn [andb].
  - destruct (N.ltb_spec i (width t)) as [Hw|Hw].
    + rewrite N.shiftl_spec_low by exact Hw. destruct (N.testbit v i), (N.testbit m i); reflexivity.
    + rewrite (testbit_above _ v _ Hv Hw), (testbit_above _ m _ Hm Hw). cbn.
      destruct (N.testbit _ i); reflexivity.
  - cbn. symmetry. apply (testbit_above (width t)); [exact Hm|lia].
Qed.

Definition conf32 (m : N) : sf :=
  match EV_classify 32 m with
  | Ret SINGLE_BIT => fmin (sadd (slit 9 10) (slit 1 10)) (slit 99 100)
  | Ret BURST_ERROR => smul (slit 9 10) (burstPatternConfidence 32 m)
  | Ret UNKNOWN => smul (slit 9 10) (slit 8 10)
  | _ => slit 9 10
  end.

Lemma branch32 m conf : m < 2 ^ 32 -> conf = slit 9 10 ->
  (if countBits m =? 1 then Ret (SINGLE_BIT, fmin (sadd conf (slit 1 10)) (slit 99 100))
     else obind (EV_areAdjacentBits 32 m) (fun adj =>
      if adj then Ret (ADJACENT_BITS, conf)
      else obind (areByteBoundary 32 m) (fun byte =>
        if byte then Ret (BYTE_ERROR, conf)
        else if EV_areWordBoundary 32 m then Ret (WORD_ERROR, conf)
        else if EV_areBurstPattern 32 m
             then Ret (BURST_ERROR, smul conf (burstPatternConfidence 32 m))
        else Ret (UNKNOWN, smul conf (slit 8 10))))) =
  omap (fun p => (p, conf32 m)) (EV_classify 32 m).
Proof.
  intros Hm ->. unfold conf32, EV_classify.
  destruct (countBits m =? 1); [reflexivity|].
  rewrite (adjacent_never 32 m Hm). cbn [obind].
  destruct (areByteBoundary 32 m) as [b| | |]; cbn [obind]; try reflexivity.
  destruct b; [reflexivity|]. destruct (EV_areWordBoundary 32 m); [reflexivity|].
  destruct (EV_areBurstPattern 32 m); reflexivity.
Qed.

Lemma count_zero x y : countBits (N.lxor x y) =? 0 = (x =? y).
Proof.
  destruct (N.eqb_spec x y) as [->|n].
  - rewrite N.lxor_nilpotent. reflexivity.
  - apply N.eqb_neq. intros E. apply (proj1 (popcount_0_iff _)) in E. apply N.lxor_eq in E. contradiction.
Qed.

Lemma detect_hit_conf t g v m a b c : uwidth t = 32 -> valid t v -> valid t m -> m <> 0 ->
  one_copy_hit v (N.lxor v m) a b c ->
  EV_detectWithConfidence t g g g a b c = omap (fun p => (p, conf32 m)) (EV_classify 32 m).
Proof.
  intros U Hv Hm Z H. pose proof (widen_lxor t g v m U Hv Hm) as X.
  set (x := widen t g (N.lxor v m)) in *. set (y := widen t g v) in *.
  assert (Nxy : x =? y = false).
  { apply N.eqb_neq. intros E. rewrite E, N.lxor_nilpotent in X. auto. }
  assert (M32 : m < 2 ^ 32).
  { unfold valid in Hm. eapply N.lt_le_trans; [exact Hm|]. apply N.pow_le_mono_r; [lia|].
    destruct t; vm_compute in U |- *; congruence. }
  assert (Nyx : y =? x = false) by (rewrite N.eqb_sym; exact Nxy).
  unfold EV_detectWithConfidence. cbv zeta. rewrite !count_zero, U.
  destruct H as [H|[H|H]]; injection H as -> -> ->; fold x y;
    rewrite ?Nxy, ?Nyx, ?N.eqb_refl; cbn [andb]; rewrite ?(N.lxor_comm y x), X; apply branch32; auto.
Qed.

(* the float comparisons of confidence_threshold, for at most 32 bits *)
Definition thr_check : bool :=
  forallb (fun total => forallb (fun lr =>
     if lr <=? total then
       Bool.eqb (flt (smul (slit 9 10) (sdiv (sofZ (Z.of_N lr)) (sofZ (Z.of_N total)))) confidence_threshold) (9 * lr <? 7 * total)
       && Bool.eqb (fge (dofZ (Z.of_N lr)) (dmul (dofZ (Z.of_N total)) (dlit 6 10))) (3 * total <=? 5 * lr)
     else true) (nrange 32)) (nrange 32).
Lemma thr_ok : thr_check = true. Proof. vm_compute. reflexivity. Qed.
Lemma thr_table lr total : 1 <= lr <= total -> total <= 32 ->
  flt (smul (slit 9 10) (sdiv (sofZ (Z.of_N lr)) (sofZ (Z.of_N total)))) confidence_threshold = (9 * lr <? 7 * total) /\
  fge (dofZ (Z.of_N lr)) (dmul (dofZ (Z.of_N total)) (dlit 6 10)) = (3 * total <=? 5 * lr).
Proof.
  intros H1 H2. pose proof thr_ok as C. unfold thr_check in C. rewrite forallb_forall in C.
  specialize (C total (nrange_in 32 total ltac:(lia))). rewrite forallb_forall in C.
  specialize (C lr (nrange_in 32 lr ltac:(lia))). cbv beta in C. destruct (N.leb_spec lr total); [|lia].
  apply andb_prop in C. destruct C as [C1 C2]. apply eqb_prop in C1, C2. auto.
Qed.

Lemma in_byte_within m j : in_byte m j <-> within m (8 * j) (8 * j + 8).
Proof. unfold in_byte, within. split; intros H i B; specialize (H i B); lia. Qed.

Lemma byte_false32 m : m < 2 ^ 32 -> areByteBoundary 32 m = Ret false -> forall j, m <> 0 -> ~ in_byte m j.
Proof.
  intros Hm F j Z B. destruct (N.lt_ge_cases j 4) as [Hj|Hj].
  - assert (areByteBoundary 32 m = Ret true); [|congruence]. apply byte32_true.
    apply in_byte_within in B. assert (j = 0 \/ j = 1 \/ j = 2 \/ j = 3) as [->|[->|[->| ->]]] by lia; auto.
  - apply Z. apply N.bits_inj_0. intros i. destruct (N.testbit m i) eqn:T; [|reflexivity].
    specialize (B i T). rewrite (testbit_above 32 m) in T; [discriminate|exact Hm|lia].
Qed.

(* the confidence falls below the threshold exactly for loose bursts *)
Lemma low_confidence m p : m < 2 ^ 32 -> m <> 0 -> EV_classify 32 m = Ret p ->
  (flt (conf32 m) confidence_threshold = true <-> loose_burst m).
Proof.
  intros Hm Z E. unfold conf32. rewrite E.
  pose proof (longest_run_spec 32 m Hm) as LR.
  pose proof (longest_run_le 32 m Hm) as LE. pose proof (popcount_le_width 32 m Hm) as PW.
  unfold EV_classify in E.
  destruct (N.eqb_spec (countBits m) 1) as [C1|C1].
  { injection E as <-. split; [vm_compute; discriminate|]. intros ((B & _) & _). unfold countBits in C1. lia. }
  rewrite (adjacent_never 32 m Hm) in E. cbn [obind] in E.
  destruct (areByteBoundary 32 m) as [b| | |] eqn:BB; cbn [obind] in E; try discriminate.
  destruct b.
  { injection E as <-. split; [vm_compute; discriminate|]. intros (_ & NB & _).
    apply byte32_true in BB. exfalso.
    destruct BB as [W|[W|[W|W]]]; [apply (NB 0)|apply (NB 1)|apply (NB 2)|apply (NB 3)]; apply in_byte_within; exact W. }
  assert (P2 : 2 <= popcount m).
  { unfold countBits in C1. assert (popcount m <> 0) by (rewrite popcount_0_iff; exact Z). lia. }
  unfold EV_areWordBoundary in E. change (32 <=? 32) with true in E. cbv iota in E.
  destruct (N.ltb_spec 16 (countBits m)) as [WB|WB].
  { injection E as <-. split; [vm_compute; discriminate|]. intros ((_ & B) & _). unfold countBits in WB. lia. }
  unfold countBits in *.
  unfold EV_areBurstPattern, countBits in E.
  set (lr := longest_run 32 m) in *.
  destruct (N.leb_spec 3 lr) as [L3|L3].
  - destruct (thr_table lr (popcount m)) as [T1 T2]; [lia|lia|].
    cbn [andb] in E. rewrite T2 in E. destruct (N.leb_spec (3 * popcount m) (5 * lr)) as [R|R].
    + injection E as <-. unfold burstPatternConfidence, countBits. destruct (N.ltb_spec 0 (popcount m)); [|lia].
      fold lr. rewrite T1, N.ltb_lt. split.
      * intros Q. split; [lia|]. split; [intros j; apply byte_false32; assumption|]. exists lr. auto.
      * intros (_ & _ & L & HL & _ & _ & Q). rewrite (longest_unique _ _ _ LR HL). exact Q.
    + injection E as <-. split; [vm_compute; discriminate|].
      intros (_ & _ & L & HL & _ & Q & _). rewrite <- (longest_unique _ _ _ LR HL) in Q. lia.
  - cbn [andb] in E. injection E as <-. split; [vm_compute; discriminate|].
    intros (_ & _ & L & HL & Q & _). rewrite <- (longest_unique _ _ _ LR HL) in Q. lia.
Qed.

  Definition conf_lt1 (x : sf) : bool := flt x (sofZ 1).
  Definition check1 (t : aty) : bool :=
    forallb (fun total => forallb (fun conf =>
      conf_lt1 (fmin (sadd conf (slit 1 10)) (slit 99 100)) && conf_lt1 conf && conf_lt1 (smul conf (slit 8 10)) &&
      forallb (fun lr => if lr <=? total then
                 conf_lt1 (smul conf (sdiv (sofZ (Z.of_N lr)) (sofZ (Z.of_N total)))) else true)
              (0 :: nrange 32))
      [slit 9 10; pair_confidence t total]) (nrange 32).

Section PV.
  Variable t : aty.
  Hypothesis Hi : is_int t = true.
  Hypothesis Hs : sizeof t <= 4.

  Lemma U32 : uwidth t = 32.
  Proof. unfold uwidth. destruct (N.leb_spec (sizeof t) 4); [reflexivity|lia]. Qed.

  Lemma vote_hit j v x a b c p : valid t v -> valid t x -> one_copy_hit v x a b c ->
    EV_adaptiveVote t (jv j) (jw j) a b c p = v.
  Proof.
    intros Hv Hx H.
    destruct H as [H|[H|H]]; injection H as -> -> ->; unfold EV_adaptiveVote, adaptiveVote_with; rewrite !eqT_int by exact Hi;
      rewrite ?N.eqb_refl; destruct (N.eqb_spec x v) as [->|N]; rewrite ?N.eqb_refl; auto.
    - destruct (N.eqb_spec v x); [congruence|]. reflexivity.
  Qed.

  Lemma hit_all_equal v x a b c : one_copy_hit v x a b c ->
    eqT t a b && eqT t b c = (x =? v) /\ (x = v -> a = v /\ b = v /\ c = v).
  Proof.
    intros H. destruct H as [H|[H|H]]; injection H as -> -> ->; rewrite !eqT_int by exact Hi; rewrite ?N.eqb_refl; split;
      try (intros ->; auto).
    - apply andb_true_r.
    - rewrite (N.eqb_sym v x). destruct (x =? v); reflexivity.
    - rewrite N.eqb_sym. reflexivity.
  Qed.

  (* every outcome of get() after one hit: the value, or an error report; never another value *)
  Theorem pv_get_hit j g v x a b c e : valid t v -> valid t x -> one_copy_hit v x a b c ->
    j1 j = g -> j2 j = g -> j3 j = g ->
    (loose_burst (N.lxor v x) -> exists p conf, pv_get t j (mkpv (Some (a, b, c)) e) = Ret (PError p conf)) /\
    (~ loose_burst (N.lxor v x) -> pv_get t j (mkpv (Some (a, b, c)) e) = Ret (PValue v)).
  Proof.
    intros Hv Hx H G1 G2 G3. unfold pv_get. cbn [pcopies].
    destruct (hit_all_equal v x a b c H) as [Q1 Q2]. rewrite Q1.
    destruct (N.eqb_spec x v) as [->|N].
    - destruct (Q2 eq_refl) as (-> & _). split; [|reflexivity].
      intros ((B & _) & _). rewrite N.lxor_nilpotent in B. vm_compute in B. congruence.
    - assert (Hm : valid t (N.lxor v x)) by (apply lxor_below; assumption).
      assert (Zm : N.lxor v x <> 0) by (intros E; apply N.lxor_eq in E; congruence).
      assert (M32 : N.lxor v x < 2 ^ 32).
      { unfold valid in Hm. eapply N.lt_le_trans; [exact Hm|]. apply N.pow_le_mono_r; [lia|]. unfold width. lia. }
      assert (X : N.lxor v (N.lxor v x) = x).
      { rewrite <- N.lxor_assoc, N.lxor_nilpotent. apply N.lxor_0_l. }
      rewrite <- X in H.
      rewrite G1, G2, G3, (detect_hit_conf t g v (N.lxor v x) a b c U32 Hv Hm Zm H).
      destruct (classify32_complete (N.lxor v x) M32) as [p E]. rewrite E. cbn [omap obind].
      pose proof (low_confidence _ p M32 Zm E) as L. rewrite X in H.
      destruct (flt (conf32 (N.lxor v x)) confidence_threshold).
      + split; [eauto|]. intros NB. destruct NB. apply L. reflexivity.
      + split; [|intros _; rewrite (vote_hit j v x a b c p Hv Hx H); reflexivity].
        intros B. apply L in B. discriminate.
  Qed.

  (* whatever the temporaries contain *)
  Theorem pv_get_hit_any j v x a b c e : valid t v -> valid t x -> one_copy_hit v x a b c ->
    pv_get t j (mkpv (Some (a, b, c)) e) = Ret (PValue v) \/
    exists p conf, pv_get t j (mkpv (Some (a, b, c)) e) = Ret (PError p conf).
  Proof.
    intros Hv Hx H. unfold pv_get. cbn [pcopies]. destruct (hit_all_equal v x a b c H) as [Q1 Q2].
    destruct (eqT t a b && eqT t b c).
    - left. symmetry in Q1. apply N.eqb_eq in Q1. destruct (Q2 Q1) as (-> & _). reflexivity.
    - pose proof (confidence_same_pattern t (j1 j) (j2 j) (j3 j) a b c) as C.
      destruct (EV_detect32_complete t (j1 j) (j2 j) (j3 j) a b c U32) as [p E]. rewrite E in C.
      destruct (EV_detectWithConfidence t (j1 j) (j2 j) (j3 j) a b c) as [[p' conf]| | |]; try discriminate C.
      cbn [obind]. destruct (flt conf confidence_threshold); [right; eauto|left].
      rewrite (vote_hit j v x a b c p' Hv Hx H). reflexivity.
  Qed.

  Theorem pv_scrub_hit j v x a b c e : valid t v -> valid t x -> one_copy_hit v x a b c ->
    pv_scrub t j (mkpv (Some (a, b, c)) e) = Ret (mkpv (Some (v, v, v)) e, negb (x =? v)).
  Proof.
    intros Hv Hx H. unfold pv_scrub. cbn [pcopies perr]. destruct (hit_all_equal v x a b c H) as [Q1 Q2]. rewrite Q1.
    destruct (N.eqb_spec x v) as [E|E].
    - destruct (Q2 E) as (-> & -> & ->). reflexivity.
    - destruct (EV_detect32_complete t (j1 j) (j2 j) (j3 j) a b c U32) as [p D]. rewrite D. cbn [obind]. cbv zeta.
      rewrite (vote_hit j v x a b c p Hv Hx H). reflexivity.
  Qed.

  (** AlignedProtectedMemory *)
  Lemma check1_ok : check1 t = true.
  Proof.
    clear -Hi Hs. destruct t; [vm_compute; reflexivity | vm_compute; reflexivity | vm_compute; reflexivity | | discriminate Hi | discriminate Hi].
    exfalso. apply Hs. reflexivity.
  Qed.

  Lemma conf1_branch diff conf p x : diff < 2 ^ 32 -> diff <> 0 ->
    conf = slit 9 10 \/ conf = pair_confidence t (countBits diff) ->
    (if countBits diff =? 1 then Ret (SINGLE_BIT, fmin (sadd conf (slit 1 10)) (slit 99 100))
     else obind (EV_areAdjacentBits 32 diff) (fun adj =>
      if adj then Ret (ADJACENT_BITS, conf)
      else obind (areByteBoundary 32 diff) (fun byte =>
        if byte then Ret (BYTE_ERROR, conf)
        else if EV_areWordBoundary 32 diff then Ret (WORD_ERROR, conf)
        else if EV_areBurstPattern 32 diff
             then Ret (BURST_ERROR, smul conf (burstPatternConfidence 32 diff))
        else Ret (UNKNOWN, smul conf (slit 8 10))))) = Ret (p, x) ->
    conf_lt1 x = true.
  Proof.
    intros Hd Hz Hc.
    assert (Hn : 1 <= countBits diff <= 32).
    { split; [|apply popcount_le_width; exact Hd].
      destruct (N.eq_dec (countBits diff) 0) as [E|E]; [|lia].
      apply (proj1 (popcount_0_iff _)) in E. contradiction. }
    pose proof check1_ok as C. unfold check1 in C. rewrite forallb_forall in C.
    specialize (C (countBits diff) (nrange_in 32 (countBits diff) Hn)). rewrite forallb_forall in C.
    specialize (C conf). assert (I : In conf [slit 9 10; pair_confidence t (countBits diff)]) by (destruct Hc; subst; cbn; auto).
    specialize (C I). apply andb_prop in C. destruct C as [C C4]. apply andb_prop in C. destruct C as [C C3].
    apply andb_prop in C. destruct C as [C1 C2].
    destruct (countBits diff =? 1); [intros E; injection E as _ <-; exact C1|].
    destruct (EV_areAdjacentBits 32 diff) as [y| | |]; try discriminate. cbn [obind].
    destruct y; [intros E; injection E as _ <-; exact C2|].
    destruct (areByteBoundary 32 diff) as [y| | |]; try discriminate. cbn [obind].
    destruct y; [intros E; injection E as _ <-; exact C2|].
    destruct (EV_areWordBoundary 32 diff); [intros E; injection E as _ <-; exact C2|].
    destruct (EV_areBurstPattern 32 diff); intros E; injection E as _ <-; [|exact C3].
    unfold burstPatternConfidence. destruct (N.ltb_spec 0 (countBits diff)); [|lia].
    rewrite forallb_forall in C4. specialize (C4 (longest_run 32 diff)).
    pose proof (longest_run_le 32 diff Hd) as LE. unfold countBits in *.
    assert (I' : In (longest_run 32 diff) (0 :: nrange 32)).
    { destruct (N.eq_dec (longest_run 32 diff) 0) as [->|]; [left; reflexivity|right; apply nrange_in; lia]. }
    specialize (C4 I'). cbv beta in C4. destruct (N.leb_spec (longest_run 32 diff) (popcount diff)); [exact C4|lia].
  Qed.

  Lemma widen_inj g g' x y : valid t x -> valid t y -> widen t g x = widen t g' y -> x = y.
  Proof.
    intros Hx Hy E. apply (bits_ext_below (width t)); auto. intros i Hw.
    assert (W : width t <= uwidth t) by (destruct t; vm_compute; discriminate).
    assert (Q : N.testbit (widen t g x) i = N.testbit (widen t g' y) i) by (rewrite E; reflexivity).
    unfold widen in Q. rewrite !wrap_testbit, !N.lor_spec, !N.shiftl_spec_low, !orb_false_r in Q by exact Hw.
    destruct (N.ltb_spec i (uwidth t)); [exact Q|lia].
  Qed.

  Lemma conf_below_one ga gb gc a b c p x : valid t a -> valid t b -> valid t c -> ~ (a = b /\ a = c) ->
    EV_detectWithConfidence t ga gb gc a b c = Ret (p, x) -> flt x (sofZ 1) = true.
  Proof.
    intros Ha Hb Hc NE. unfold EV_detectWithConfidence. cbv zeta.
    pose proof (widen_lt t ga a) as La. pose proof (widen_lt t gb b) as Lb. pose proof (widen_lt t gc c) as Lc.
    assert (D : ~ (widen t ga a = widen t gb b /\ widen t ga a = widen t gc c)).
    { intros [E1 E2]. apply NE. split; eapply widen_inj; eauto. }
    rewrite U32 in *. set (a' := widen t ga a) in *. set (b' := widen t gb b) in *. set (c' := widen t gc c) in *.
    assert (NZ : forall u v, u <> v -> N.lxor u v <> 0).
    { intros u v n E. apply N.lxor_eq in E. contradiction. }
    assert (B : forall u v, u < 2 ^ 32 -> v < 2 ^ 32 -> N.lxor u v < 2 ^ 32) by (intros; apply lxor_below; assumption).
    rewrite !count_zero.
    destruct (N.eqb_spec a' b') as [Eab|Nab].
    - destruct (N.eqb_spec a' c') as [Eac|Nac]; [tauto|]. cbn [andb].
      intros E. eapply (conf1_branch _ _ p x); [| | |exact E]; auto.
    - cbn [andb]. destruct (N.eqb_spec a' c') as [Eac|Nac].
      { intros E. eapply (conf1_branch _ _ p x); [| | |exact E]; auto. }
      destruct (N.eqb_spec b' c') as [Ebc|Nbc].
      { intros E. eapply (conf1_branch _ _ p x); [| | |exact E]; auto. }
      destruct (_ && _); [|destruct (_ && _)]; intros E;
        (eapply (conf1_branch _ _ p x); [| | |exact E]; auto).
  Qed.

  Lemma majority_fun a b c r r' : bitwise_majority a b c r -> bitwise_majority a b c r' -> r = r'.
  Proof. intros H H'. apply N.bits_inj. intros i. rewrite H, H'. reflexivity. Qed.

  Lemma am_scrub_all s v : am_copies (fst (am_scrub t s v)) = (v, v, v) /\
    am_scrubbing (fst (am_scrub t s v)) = am_scrubbing s /\
    (snd (am_scrub t s v) = true <-> am_copies (fst (am_scrub t s v)) <> am_copies s).
  Proof.
    unfold am_scrub. destruct (am_copies s) as [[a b] c] eqn:E. rewrite !eqT_int by exact Hi.
    destruct (N.eqb_spec a v) as [->|Na], (N.eqb_spec b v) as [->|Nb], (N.eqb_spec c v) as [->|Nc]; cbn;
      (split; [reflexivity|split; [reflexivity|]]); split; try (intros _; congruence); try discriminate; intros H; congruence.
  Qed.

  Theorem am_get_spec j s a b c : am_copies s = (a, b, c) -> valid t a -> valid t b -> valid t c ->
    exists s' r, am_get t j s = Ret (s', r) /\ bitwise_majority a b c r /\ am_scrubbing s' = am_scrubbing s /\
      (am_scrubbing s = true -> am_copies s' = (r, r, r)) /\
      (am_scrubbing s = false -> s' = s).
  Proof.
    intros E Ha Hb Hc. unfold am_get. rewrite E.
    destruct (eqT t a b && eqT t b c) eqn:Q.
    - apply andb_prop in Q. rewrite !eqT_int in Q by exact Hi. destruct Q as [Q1 Q2].
      apply N.eqb_eq in Q1, Q2. subst. exists s, c. split; [reflexivity|]. split; [|auto].
      intros i. unfold maj3. destruct (N.testbit c i); reflexivity.
    - assert (NE : ~ (a = b /\ a = c)).
      { intros [-> ->]. rewrite eqT_int, N.eqb_refl in Q by exact Hi. discriminate. }
      pose proof (confidence_same_pattern t (j1 j) (j2 j) (j3 j) a b c) as C.
      destruct (EV_detect32_complete t (j1 j) (j2 j) (j3 j) a b c U32) as [p D]. rewrite D in C.
      destruct (EV_detectWithConfidence t (j1 j) (j2 j) (j3 j) a b c) as [[p' conf]| | |] eqn:W; try discriminate C.
      cbn [obind]. cbv zeta. set (r := EV_adaptiveVote t (jv j) (jw j) a b c p').
      assert (M : bitwise_majority a b c r).
      { apply EV_adaptive_majority; auto. apply int_faithful. exact Hi. }
      rewrite (conf_below_one _ _ _ _ _ _ _ _ Ha Hb Hc NE W), andb_true_r.
      destruct (am_scrub_all s r) as (S1 & S2 & S3).
      destruct (am_scrubbing s) eqn:SC.
      + eexists _, r. split; [reflexivity|]. rewrite S2. repeat split; auto. discriminate.
      + exists s, r. repeat split; auto. discriminate.
  Qed.

  (** InterleavedBitMemory *)
  Lemma dei_bits data copy i :
    N.testbit (ib_deinterleave t data copy) i = (i <? width t) && N.testbit data (i * 3 + copy).
  Proof.
    unfold ib_deinterleave. cbv zeta.
    pose proof (bit_loop_testbit (width t) (N.to_nat (width t)) (fun i => N.testbit data (i * 3 + copy)) i) as B.
    rewrite N2Nat.id in B. rewrite <- B by lia. f_equal.
    clear B. generalize 0 at 2 4. generalize 0. generalize (N.to_nat (width t)).
    induction n as [|n IH]; intros k r; cbn [for_up]; [reflexivity|]. rewrite shiftr_land1. apply IH.
  Qed.
  Lemma dei_valid data copy : valid t (ib_deinterleave t data copy).
  Proof.
    apply below_of_bits. intros i H. rewrite dei_bits. destruct (N.ltb_spec i (width t)); [lia|reflexivity].
  Qed.

  Lemma int_bits data v copy p : copy < 3 ->
    N.testbit (ib_interleave t data v copy) p =
    N.testbit data p || ((p mod 3 =? copy) && (p / 3 <? width t) && N.testbit v (p / 3)).
  Proof.
    intros Hc. unfold ib_interleave. cbv zeta.
    assert (SW : width t * 3 <= storage_width t) by (destruct t; vm_compute in Hs |- *; congruence).
    pose proof (N.div_mod p 3 ltac:(lia)) as DM. pose proof (N.mod_lt p 3 ltac:(lia)) as ML.
    assert (K : (fun k d => forall p, N.testbit d p =
              N.testbit data p || ((p mod 3 =? copy) && (p / 3 <? k) && N.testbit v (p / 3)))
           (0 + N.of_nat (N.to_nat (width t)))
           (for_up (N.to_nat (width t)) 0
             (fun i d => N.lor d (wrap (storage_width t) (N.shiftl (N.land (N.shiftr v i) 1) (i * 3 + copy)))) data)).
    { clear p DM ML. apply for_up_inv.
      - intros p. destruct (N.ltb_spec (p / 3) 0) as [Z|_]; [destruct (N.nlt_0_r _ Z)|]. rewrite andb_false_r. cbn [andb]. rewrite orb_false_r. reflexivity.
      - intros k d Hk IH p. rewrite N.lor_spec, IH, wrap_testbit, shiftr_land1, shiftl_b2n_testbit.
        rewrite N2Nat.id in Hk.
        pose proof (N.div_mod p 3 ltac:(lia)) as DM. pose proof (N.mod_lt p 3 ltac:(lia)) as ML.
        set (q := p / 3) in *. set (r := p mod 3) in *. clearbody q r.
        destruct (N.eqb_spec p (k * 3 + copy)) as [E|E].
        + assert (Eqk : q = k) by lia. assert (Erc : r = copy) by lia. subst q r. rewrite N.eqb_refl.
          destruct (N.ltb_spec k k), (N.ltb_spec k (k + 1)), (N.ltb_spec p (storage_width t)); try lia.
          cbn. rewrite orb_false_r, andb_true_r. reflexivity.
        + rewrite !andb_false_r, orb_false_r. f_equal. f_equal.
          destruct (N.eqb_spec r copy) as [Er|Er]; [|reflexivity]. cbn.
          destruct (N.ltb_spec q k), (N.ltb_spec q (k + 1)); try lia; reflexivity. }
    cbv beta in K. rewrite N.add_0_l, N2Nat.id in K. apply K.
  Qed.

  Lemma set_bits v p : N.testbit (ib_set t v) p = (p / 3 <? width t) && N.testbit v (p / 3).
  Proof.
    unfold ib_set. rewrite !int_bits by lia. rewrite N.bits_0. cbn [orb].
    pose proof (N.mod_lt p 3 ltac:(lia)) as ML.
    set (r := p mod 3) in *. clearbody r. assert (r = 0 \/ r = 1 \/ r = 2) as [->|[->| ->]] by lia;
      cbn; rewrite ?orb_false_r; reflexivity.
  Qed.

  Lemma slot_div i c : c < 3 -> (i * 3 + c) / 3 = i.
  Proof. intros H. rewrite N.div_add_l by lia. rewrite N.div_small by exact H. lia. Qed.

  Lemma dei_flipped v m c : c < 3 -> valid t v ->
    ib_deinterleave t (N.lxor (ib_set t v) m) c = N.lxor v (ib_deinterleave t m c).
  Proof.
    intros Hc Hv. apply N.bits_inj. intros i. rewrite N.lxor_spec, !dei_bits, N.lxor_spec, set_bits, slot_div by exact Hc.
    destruct (N.ltb_spec i (width t)) as [H|H]; cbn; [reflexivity|].
    rewrite (testbit_above _ _ _ Hv H). reflexivity.
  Qed.

  Lemma ib_get_majority j data : exists r, ib_get t j data = Ret r /\ valid t r /\
    bitwise_majority (ib_deinterleave t data 0) (ib_deinterleave t data 1) (ib_deinterleave t data 2) r.
  Proof.
    unfold ib_get. cbv zeta.
    destruct (EV_detect32_complete t (j1 j) (j2 j) (j3 j) (ib_deinterleave t data 0) (ib_deinterleave t data 1)
       (ib_deinterleave t data 2) U32) as [p D]. rewrite D. cbn [obind]. eexists. split; [reflexivity|].
    assert (M : bitwise_majority (ib_deinterleave t data 0) (ib_deinterleave t data 1) (ib_deinterleave t data 2)
       (EV_adaptiveVote t (jv j) (jw j) (ib_deinterleave t data 0) (ib_deinterleave t data 1) (ib_deinterleave t data 2) p)).
    { apply EV_adaptive_majority; try apply dei_valid. apply int_faithful. exact Hi. }
    split; [|exact M]. eapply majority_valid; [| | |exact M]; apply dei_valid.
  Qed.

  Theorem ib_corrects j v m : valid t v -> spread_flips (width t) m ->
    ib_get t j (N.lxor (ib_set t v) m) = Ret v.
  Proof.
    intros Hv S. destruct (ib_get_majority j (N.lxor (ib_set t v) m)) as (r & E & _ & M). rewrite E. f_equal.
    rewrite !dei_flipped in M by (auto; lia). eapply disjoint_masks; [|exact M].
    intros i. rewrite !dei_bits. destruct (N.ltb_spec i (width t)) as [H|H]; cbn [andb].
    - pose proof (fun c c' => S i c c' H) as Q. unfold stored_at in Q.
      replace (i * 3) with (3 * i) by lia.
      split; [|split]; apply not_true_is_false; intros B; apply andb_prop in B; destruct B as [B1 B2].
      + apply (Q 0 1); auto; lia.
      + apply (Q 0 2); auto; lia.
      + apply (Q 1 2); auto; lia.
    - auto.
  Qed.

  (* exactly: a logical bit is wrong iff at least two of its three stored bits were flipped *)
  Theorem ib_get_exact j v m : valid t v ->
    exists r, ib_get t j (N.lxor (ib_set t v) m) = Ret r /\ forall i, i < width t ->
      N.testbit r i = xorb (N.testbit v i)
        (maj3 (N.testbit m (stored_at i 0)) (N.testbit m (stored_at i 1)) (N.testbit m (stored_at i 2))).
  Proof.
    intros Hv. destruct (ib_get_majority j (N.lxor (ib_set t v) m)) as (r & E & _ & M). exists r. split; [exact E|].
    intros i H. rewrite (M i), !dei_flipped by (auto; lia). rewrite !N.lxor_spec, !dei_bits.
    destruct (N.ltb_spec i (width t)); [|lia]. cbn [andb]. unfold stored_at. replace (3 * i) with (i * 3) by lia.
    destruct (N.testbit v i), (N.testbit m (i * 3 + 0)), (N.testbit m (i * 3 + 1)), (N.testbit m (i * 3 + 2)); reflexivity.
  Qed.
End PV.

Lemma spread_single w p : spread_flips w (2 ^ p).
Proof.
  intros i c c' Hi Hc Hc' N B B'. rewrite pow2_bits in B, B'. apply N.eqb_eq in B, B'. unfold stored_at in *. lia.
Qed.
Lemma spread_zero w : spread_flips w 0.
Proof. intros i c c' _ _ _ _ B. rewrite N.bits_0 in B. discriminate. Qed.

Lemma ib_roundtrip t j v : is_int t = true -> sizeof t <= 4 -> valid t v -> ib_get t j (ib_set t v) = Ret v.
Proof.
  intros Hi Hs Hv. rewrite <- (N.lxor_0_r (ib_set t v)). apply ib_corrects; auto. apply spread_zero.
Qed.
Lemma ib_scrub_restores t j v m : is_int t = true -> sizeof t <= 4 -> valid t v -> spread_flips (width t) m ->
  ib_scrub t j (N.lxor (ib_set t v) m) = Ret (ib_set t v, true).
Proof. intros Hi Hs Hv S. unfold ib_scrub. rewrite (ib_corrects t Hi Hs j v m Hv S). reflexivity. Qed.

Lemma ib_adjacent_breaks t j v i c : is_int t = true -> sizeof t <= 4 -> valid t v -> i < width t -> c < 2 ->
  ib_get t j (N.lxor (ib_set t v) (N.lxor (2 ^ stored_at i c) (2 ^ (stored_at i c + 1)))) = Ret (N.lxor v (2 ^ i)).
Proof.
  intros Hi Hs Hv Hw Hc.
  set (m := N.lxor _ (2 ^ _)).
  destruct (ib_get_majority t Hi Hs j (N.lxor (ib_set t v) m)) as (r & E & Vr & _).
  destruct (ib_get_exact t Hi Hs j v m Hv) as (r' & E' & X).
  rewrite E in E'. injection E' as <-. rewrite E. f_equal.
  apply (bits_ext_below (width t)); [exact Vr| |].
  - apply lxor_below; [exact Hv|]. apply pow2_below. exact Hw.
  - intros i' Hi'. rewrite (X i' Hi'), N.lxor_spec, pow2_bits. f_equal. unfold m, maj3. rewrite !N.lxor_spec, !pow2_bits.
    unfold stored_at. assert (c = 0 \/ c = 1) as [->| ->] by lia.
    + destruct (N.eqb_spec i' i) as [->|N].
      * replace (3 * i + 0 =? 3 * i + 0) with true by (symmetry; apply N.eqb_eq; lia).
        replace (3 * i + 0 =? 3 * i + 0 + 1) with false by (symmetry; apply N.eqb_neq; lia).
        replace (3 * i + 1 =? 3 * i + 0) with false by (symmetry; apply N.eqb_neq; lia).
        replace (3 * i + 1 =? 3 * i + 0 + 1) with true by (symmetry; apply N.eqb_eq; lia). reflexivity.
      * repeat match goal with |- context [?a =? ?b] => replace (a =? b) with false by (symmetry; apply N.eqb_neq; lia) end.
        reflexivity.
    + destruct (N.eqb_spec i' i) as [->|N].
      * replace (3 * i + 1 =? 3 * i + 1) with true by (symmetry; apply N.eqb_eq; lia).
        replace (3 * i + 1 =? 3 * i + 1 + 1) with false by (symmetry; apply N.eqb_neq; lia).
        replace (3 * i + 2 =? 3 * i + 1) with false by (symmetry; apply N.eqb_neq; lia).
        replace (3 * i + 2 =? 3 * i + 1 + 1) with true by (symmetry; apply N.eqb_eq; lia).
        destruct (3 * i + 0 =? 3 * i + 1), (3 * i + 0 =? 3 * i + 1 + 1); reflexivity.
      * repeat match goal with |- context [?a =? ?b] => replace (a =? b) with false by (symmetry; apply N.eqb_neq; lia) end.
        reflexivity.
Qed.

Lemma spread_boundary w i : spread_flips w (N.lxor (2 ^ stored_at i 2) (2 ^ (stored_at i 2 + 1))).
Proof.
  intros i' c c' Hi Hc Hc' N B B'. rewrite N.lxor_spec, !pow2_bits in B, B'. unfold stored_at in *.
  destruct (N.eqb_spec (3 * i' + c) (3 * i + 2)), (N.eqb_spec (3 * i' + c) (3 * i + 2 + 1)); try discriminate B;
    destruct (N.eqb_spec (3 * i' + c') (3 * i + 2)), (N.eqb_spec (3 * i' + c') (3 * i + 2 + 1)); try discriminate B'; lia.
Qed.

(* an evenly-junked example of a loose burst *)
Lemma loose_witness : loose_burst 0x13a0.
Proof.
  unfold loose_burst. split; [vm_compute; split; discriminate|]. split.
  - intros j B. pose proof (B 5 eq_refl). pose proof (B 12 eq_refl). lia.
  - exists (longest_run 32 0x13a0). split; [apply longest_run_spec; reflexivity|]. vm_compute. repeat split; discriminate.
Qed.
Lemma not_loose_witness : ~ loose_burst 0xf0.
Proof. intros (_ & B & _). apply (B 0). intros i H. destruct (N.lt_ge_cases i 8); [lia|].
  rewrite (testbit_above 8) in H; [discriminate|reflexivity|assumption]. Qed.

Lemma pv_get_or_fallback t (Hi : is_int t = true) (Hs : sizeof t <= 4) j v x a b c e fb :
  valid t v -> valid t x -> one_copy_hit v x a b c ->
  let s := mkpv (Some (a, b, c)) e in
  (pv_get t j s = Ret (PValue v) /\ pv_getOrFallback t j s fb = Ret v) \/
  ((exists p conf, pv_get t j s = Ret (PError p conf)) /\ pv_getOrFallback t j s fb = Ret fb).
Proof.
  intros Hv Hx H s. destruct (pv_get_hit_any t Hi Hs j v x a b c e Hv Hx H) as [E|(p & conf & E)]; fold s in E;
    unfold pv_getOrFallback; rewrite E; [left|right]; split; eauto.
Qed.
Lemma small_type_error : exists j p conf, pv_get I8 j (mkpv (Some (5, 5, 4)) None) = Ret (PError p conf).
Proof.
  exists (mkj 0 0xf0f0f0 0x0f0f00 (mkg 0 0 0 0 0 0) (mkg 0 0 0 0 0 0)). eexists _, _. vm_compute. reflexivity.
Qed.
Lemma pv_new_get t j v : is_int t = true \/ is_nan t v = false -> pv_get t j (pv_new v) = Ret (PValue v).
Proof.
  intros H. unfold pv_get, pv_new. cbn [pcopies]. rewrite !eqT_refl.
  replace (is_nan t v) with false; [reflexivity|]. destruct H as [H|H]; [|auto]. destruct t; try discriminate H; reflexivity.
Qed.
Lemma transform_value t j j' f v : is_int t = true \/ is_nan t v = false /\ is_nan t (f v) = false ->
  obind (pv_transform t j f (pv_new v)) (pv_get t j') = Ret (PValue (f v)).
Proof.
  intros H. unfold pv_transform. rewrite pv_new_get by tauto. cbn [obind]. apply pv_new_get. tauto.
Qed.
Lemma transform_error t j j' f s p conf : pv_get t j s = Ret (PError p conf) ->
  obind (pv_transform t j f s) (pv_get t j') = UB UB_uninit.
Proof. intros E. unfold pv_transform. rewrite E. reflexivity. Qed.
