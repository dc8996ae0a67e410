(** Fault-pattern detection: C10, C11. *)
From Coq Require Import List NArith ZArith Lia Bool SpecFloat.
Import ListNotations.
From Verif Require Import Outcome Words Arith Floats Voting_Model Voting_Spec Voting_Proofs.
Local Open Scope N_scope.

Definition subset (x y : N) : Prop := forall i, N.testbit x i = true -> N.testbit y i = true.

Lemma low_ones_mod j temp : (forall i, i < j -> N.testbit temp i = true) -> temp mod 2 ^ j = 2 ^ j - 1.
Proof.
  intros H. replace (2 ^ j - 1) with (N.ones j) by (rewrite N.ones_equiv; lia).
  apply N.bits_inj. intros i. change (temp mod 2 ^ j) with (wrap j temp). rewrite wrap_testbit.
  destruct (N.ltb_spec i j).
  - rewrite N.ones_spec_low by lia. simpl. apply H; assumption.
  - rewrite N.ones_spec_high by lia. reflexivity.
Qed.

Lemma set_lowest_zero uw temp j : j < uw -> (forall i, i < j -> N.testbit temp i = true) ->
  forall i, i < j + 1 -> N.testbit (N.lor temp (wrap uw (temp + 1))) i = true.
Proof.
  intros Hj Hlow i Hi. rewrite N.lor_spec.
  destruct (N.eq_dec i j) as [->|Hne]; [|rewrite Hlow by lia; reflexivity].
  destruct (N.testbit temp j) eqn:E; [reflexivity|]. simpl.
  rewrite wrap_testbit. destruct (N.ltb_spec j uw); [|lia]. cbn [andb].
  pose proof (low_ones_mod j temp Hlow) as Hm.
  assert (Hp : 2 ^ j <> 0) by (apply N.pow_nonzero; lia).
  pose proof (N.div_mod temp (2 ^ j) Hp) as Hd. rewrite Hm in Hd.
  assert (E1 : temp + 1 = 2 ^ j * (temp / 2 ^ j + 1)) by lia.
  rewrite E1, N.mul_comm, <- N.shiftl_mul_pow2, N.shiftl_spec_high' by lia.
  rewrite N.sub_diag.
  rewrite N.testbit_odd, N.shiftr_div_pow2 in E.
  rewrite N.bit0_odd, N.odd_add, E. reflexivity.
Qed.

Lemma adj_loop_spec uw : forall fuel j temp,
  (j + N.of_nat fuel = uw + 1) -> temp < 2 ^ uw -> (forall i, i < j -> N.testbit temp i = true) ->
  (1 <= fuel)%nat ->
  exists r, adj_loop fuel uw temp = Ret r /\ subset temp r /\ N.land r (wrap uw (r + 1)) = 0.
Proof.
  induction fuel as [|k IH]; intros j temp Hj Ht Hlow Hf; [lia|].
  cbn [adj_loop]. cbv zeta.
  destruct (N.eqb_spec (N.land temp (wrap uw (temp + 1))) 0) as [E|E].
  - exists temp. split; [reflexivity|]. split; [intros i; auto|exact E].
  - destruct k as [|k].
    + exfalso. apply E. assert (j = uw) by lia. subst j.
      assert (temp = 2 ^ uw - 1).
      { rewrite <- (wrap_small uw temp Ht). apply low_ones_mod. exact Hlow. }
      subst temp. assert (2 ^ uw <> 0) by (apply N.pow_nonzero; lia).
      replace (2 ^ uw - 1 + 1) with (2 ^ uw) by lia.
      unfold wrap. rewrite N.mod_same by assumption. apply N.land_0_r.
    + destruct (IH (j + 1) (N.lor temp (wrap uw (temp + 1)))) as (r & Hr & Hs & Hz).
      * lia.
      * apply lor_below; [exact Ht|apply wrap_lt].
      * apply set_lowest_zero; [lia|exact Hlow].
      * lia.
      * exists r. split; [exact Hr|]. split; [|exact Hz].
        intros i Hi. apply Hs. rewrite N.lor_spec, Hi. reflexivity.
Qed.

(** areAdjacentBits always returns false *)
Lemma adjacent_never uw diff : diff < 2 ^ uw -> EV_areAdjacentBits uw diff = Ret false.
Proof.
  intros Hd. unfold EV_areAdjacentBits.
  destruct (adj_loop_spec uw (S (N.to_nat uw)) 0 diff) as (r & -> & Hs & Hz); [lia|exact Hd|lia|lia|].
  cbn [obind]. f_equal.
  assert (N.land (wrap uw (r + 1)) diff = 0) as ->; [|reflexivity].
  apply N.bits_inj. intros i. rewrite N.bits_0, N.land_spec.
  destruct (N.testbit diff i) eqn:E; [|apply andb_false_r].
  apply Hs in E. assert (H : N.testbit (N.land r (wrap uw (r + 1))) i = false) by (rewrite Hz; apply N.bits_0).
  rewrite N.land_spec, E in H. rewrite andb_true_r. exact H.
Qed.

(** all set bits of [x] lie in positions lo..hi-1 *)
Definition within (x lo hi : N) : Prop := forall i, N.testbit x i = true -> lo <= i < hi.

Lemma land_mask_within x m lo hi :
  (forall i, N.testbit m i = (lo <=? i) && (i <? hi)) ->
  (N.land x m =? x) = true <-> within x lo hi.
Proof.
  intros Hm. rewrite N.eqb_eq. split.
  - intros E i Hi. rewrite <- E, N.land_spec, Hm in Hi.
    apply andb_prop in Hi. destruct Hi as [_ Hi]. apply andb_prop in Hi. destruct Hi as [H1 H2].
    apply N.leb_le in H1. apply N.ltb_lt in H2. lia.
  - intros W. apply N.bits_inj. intros i. rewrite N.land_spec, Hm.
    destruct (N.testbit x i) eqn:E; [|reflexivity]. specialize (W i E).
    destruct (N.leb_spec lo i), (N.ltb_spec i hi); try lia; reflexivity.
Qed.

Lemma run_mask_testbit lo len : forall i, N.testbit (N.shiftl (N.ones len) lo) i = (lo <=? i) && (i <? lo + len).
Proof.
  intros i. destruct (N.leb_spec lo i) as [H|H]; cbn [andb].
  - rewrite N.shiftl_spec_high' by exact H. destruct (N.ltb_spec i (lo + len)).
    + apply N.ones_spec_low. lia.
    + apply N.ones_spec_high. lia.
  - apply N.shiftl_spec_low. exact H.
Qed.

Lemma byte32_complete diff : completes (areByteBoundary 32 diff).
Proof.
  unfold areByteBoundary. change (N.to_nat (32 / 8)) with 4%nat.
  unfold completes.
  cbn [byte_loop byte_mask obind].
  repeat (match goal with |- context [byte_mask 32 ?i] =>
     let v := eval vm_compute in (byte_mask 32 i) in change (byte_mask 32 i) with v; cbn [obind] end;
    destruct (N.land diff _ =? diff); [eauto|]).
  eauto.
Qed.

Lemma byte32_true diff : areByteBoundary 32 diff = Ret true <->
  within diff 0 8 \/ within diff 8 16 \/ within diff 16 24 \/ within diff 24 32.
Proof.
  pose proof (fun lo hi len => land_mask_within diff (N.shiftl (N.ones len) lo) lo hi) as L.
  assert (H0 := L 0 8 8 (run_mask_testbit 0 8)). assert (H1 := L 8 16 8 (run_mask_testbit 8 8)).
  assert (H2 := L 16 24 8 (run_mask_testbit 16 8)). assert (H3 := L 24 32 8 (run_mask_testbit 24 8)).
  rewrite <- H0, <- H1, <- H2, <- H3.
  unfold areByteBoundary. change (N.to_nat (32 / 8)) with 4%nat. cbn [byte_loop].
  change (byte_mask 32 0) with (Ret (N.shiftl (N.ones 8) 0)).
  change (byte_mask 32 (0 + 1)) with (Ret (N.shiftl (N.ones 8) 8)).
  change (byte_mask 32 (0 + 1 + 1)) with (Ret (N.shiftl (N.ones 8) 16)).
  change (byte_mask 32 (0 + 1 + 1 + 1)) with (Ret (N.shiftl (N.ones 8) 24)).
  cbn [obind].
  destruct (N.land diff (N.shiftl (N.ones 8) 0) =? diff); [intuition|].
  destruct (N.land diff (N.shiftl (N.ones 8) 8) =? diff); [intuition|].
  destruct (N.land diff (N.shiftl (N.ones 8) 16) =? diff); [intuition|].
  destruct (N.land diff (N.shiftl (N.ones 8) 24) =? diff); [intuition|].
  intuition discriminate.
Qed.

(** 64-bit: the four windows that do not reach the undefined shift *)
Definition windows64 (diff : N) : Prop :=
  within diff 0 8 \/ within diff 8 16 \/ within diff 16 24 \/ within diff 24 64.

Lemma byte64_cases diff : diff < 2 ^ 64 ->
  (windows64 diff /\ areByteBoundary 64 diff = Ret true) \/
  (~ windows64 diff /\ areByteBoundary 64 diff = UB UB_shift_amount).
Proof.
  intros Hd. unfold windows64.
  pose proof (fun lo hi len => land_mask_within diff (N.shiftl (N.ones len) lo) lo hi) as L.
  assert (H0 := L 0 8 8 (run_mask_testbit 0 8)). assert (H1 := L 8 16 8 (run_mask_testbit 8 8)).
  assert (H2 := L 16 24 8 (run_mask_testbit 16 8)). assert (H3 := L 24 64 40 (run_mask_testbit 24 40)).
  rewrite <- H0, <- H1, <- H2, <- H3.
  unfold areByteBoundary. change (N.to_nat (64 / 8)) with 8%nat. cbn [byte_loop].
  change (byte_mask 64 0) with (Ret (N.shiftl (N.ones 8) 0)).
  change (byte_mask 64 (0 + 1)) with (Ret (N.shiftl (N.ones 8) 8)).
  change (byte_mask 64 (0 + 1 + 1)) with (Ret (N.shiftl (N.ones 8) 16)).
  change (byte_mask 64 (0 + 1 + 1 + 1)) with (Ret (N.shiftl (N.ones 40) 24)).
  change (byte_mask 64 (0 + 1 + 1 + 1 + 1)) with (@UB N UB_shift_amount).
  cbn [obind].
  destruct (N.land diff (N.shiftl (N.ones 8) 0) =? diff); [left; intuition|].
  destruct (N.land diff (N.shiftl (N.ones 8) 8) =? diff); [left; intuition|].
  destruct (N.land diff (N.shiftl (N.ones 8) 16) =? diff); [left; intuition|].
  destruct (N.land diff (N.shiftl (N.ones 40) 24) =? diff); [left; intuition|].
  right. split; [intuition discriminate|reflexivity].
Qed.

(** a copy [k] of three hit by the xor mask [m] *)
Definition hit3 (k : nat) (v m : N) : N * N * N :=
  match k with
  | 0%nat => (N.lxor v m, v, v)
  | 1%nat => (v, N.lxor v m, v)
  | _ => (v, v, N.lxor v m)
  end.

Lemma lxor_l v m : N.lxor (N.lxor v m) v = m.
Proof. rewrite N.lxor_comm, <- N.lxor_assoc, N.lxor_nilpotent, N.lxor_0_l. reflexivity. Qed.
Lemma lxor_r v m : N.lxor v (N.lxor v m) = m.
Proof. rewrite <- N.lxor_assoc, N.lxor_nilpotent, N.lxor_0_l. reflexivity. Qed.

(** types whose UintType has exactly sizeof(T) bytes: no uninitialised bytes *)
Definition exact_width (t : aty) : bool := uwidth t =? width t.
Lemma widen_exact t g x : exact_width t = true -> valid t x -> widen t g x = x.
Proof.
  unfold exact_width. intros E Hx. apply N.eqb_eq in E.
  apply N.bits_inj. intros i. destruct (N.lt_ge_cases i (width t)) as [H|H].
  - apply widen_low; exact H.
  - unfold widen. rewrite wrap_testbit. destruct (N.ltb_spec i (uwidth t)); [lia|].
    symmetry. apply (testbit_above _ x i Hx H).
Qed.

Lemma EV_detect_hit t ga gb gc k v m : exact_width t = true -> valid t v -> valid t m -> m <> 0 ->
  let '(a, b, c) := hit3 k v m in
  EV_detectFaultPattern t ga gb gc a b c = EV_classify (uwidth t) m.
Proof.
  intros E Hv Hm Hz.
  assert (Hx : valid t (N.lxor v m)) by (apply lxor_below; assumption).
  assert (Hc : countBits m =? 0 = false).
  { apply N.eqb_neq. intros H. apply (proj1 (popcount_0_iff m)) in H. contradiction. }
  destruct k as [|[|k]]; cbn [hit3]; unfold EV_detectFaultPattern; cbv zeta;
    rewrite !widen_exact by assumption; rewrite ?lxor_l, ?lxor_r, ?N.lxor_nilpotent;
    unfold closest_diff; cbv zeta; change (countBits 0) with 0; rewrite ?Hc; reflexivity.
Qed.

Lemma ET_detect_hit_max t ga gb gc k v m : exact_width t = true -> valid t v -> valid t m ->
  let '(a, b, c) := hit3 k v m in
  countBits m = 1 -> ET_detectFaultPattern t ga gb gc a b c = Ret SINGLE_BIT.
Proof.
  intros E Hv Hm.
  assert (Hx : valid t (N.lxor v m)) by (apply lxor_below; assumption).
  destruct k as [|[|k]]; cbn [hit3]; intros Hc; unfold ET_detectFaultPattern; cbv zeta;
    rewrite !widen_exact by assumption; rewrite ?lxor_l, ?lxor_r, ?N.lxor_nilpotent;
    change (countBits 0) with 0; rewrite ?Hc; reflexivity.
Qed.

Lemma pow2_valid t i : i < width t -> valid t (2 ^ i).
Proof. apply pow2_below. Qed.

Lemma EV_single t ga gb gc k v i : exact_width t = true -> valid t v -> i < width t ->
  let '(a, b, c) := hit3 k v (2 ^ i) in
  EV_detectFaultPattern t ga gb gc a b c = Ret SINGLE_BIT.
Proof.
  intros E Hv Hi.
  pose proof (EV_detect_hit t ga gb gc k v (2 ^ i) E Hv (pow2_valid t i Hi)) as H.
  destruct (hit3 k v (2 ^ i)) as [[a b] c]. rewrite H by (apply N.pow_nonzero; lia).
  unfold EV_classify, countBits. rewrite popcount_pow2. reflexivity.
Qed.
Lemma ET_single t ga gb gc k v i : exact_width t = true -> valid t v -> i < width t ->
  let '(a, b, c) := hit3 k v (2 ^ i) in
  ET_detectFaultPattern t ga gb gc a b c = Ret SINGLE_BIT.
Proof.
  intros E Hv Hi.
  pose proof (ET_detect_hit_max t ga gb gc k v (2 ^ i) E Hv (pow2_valid t i Hi)) as H.
  destruct (hit3 k v (2 ^ i)) as [[a b] c]. apply H. apply popcount_pow2.
Qed.

Lemma closest_diff_lt uw x y z : x < 2 ^ uw -> y < 2 ^ uw -> z < 2 ^ uw -> closest_diff x y z < 2 ^ uw.
Proof.
  intros. unfold closest_diff. cbv zeta.
  repeat match goal with |- context [if ?b then _ else _] => destruct b end; assumption.
Qed.

(** *** completion *)
Lemma classify32_complete diff : diff < 2 ^ 32 -> completes (EV_classify 32 diff).
Proof.
  intros Hd. unfold EV_classify. destruct (countBits diff =? 1); [eexists; reflexivity|].
  rewrite (adjacent_never 32 diff Hd). cbn [obind].
  destruct (byte32_complete diff) as [b ->]. cbn [obind].
  destruct b; [eexists; reflexivity|].
  destruct (EV_areWordBoundary 32 diff); [eexists; reflexivity|].
  destruct (EV_areBurstPattern 32 diff); eexists; reflexivity.
Qed.

Lemma EV_detect32_complete t ga gb gc a b c : uwidth t = 32 ->
  completes (EV_detectFaultPattern t ga gb gc a b c).
Proof.
  intros E. unfold EV_detectFaultPattern. cbv zeta.
  destruct (_ && _); [eexists; reflexivity|]. rewrite E.
  apply classify32_complete.
  pose proof (widen_lt t ga a). pose proof (widen_lt t gb b). pose proof (widen_lt t gc c). rewrite E in *.
  apply closest_diff_lt; apply lxor_below; assumption.
Qed.

Lemma oand_complete x y : completes x -> completes y -> completes (oand x y).
Proof. intros [b ->] [d ->]. destruct b; eexists; reflexivity. Qed.

Lemma ET_detect32_complete t ga gb gc a b c : uwidth t = 32 ->
  completes (ET_detectFaultPattern t ga gb gc a b c).
Proof.
  intros E. unfold ET_detectFaultPattern. cbv zeta. rewrite E.
  destruct (_ =? 1); [eexists; reflexivity|].
  destruct ((_ <=? 3) && _); [eexists; reflexivity|].
  match goal with |- completes (obind ?o _) => assert (C : completes o) end.
  { destruct (_ <=? 8); [|eexists; reflexivity].
    apply oand_complete; [apply byte32_complete|].
    apply oand_complete; apply byte32_complete. }
  destruct C as [x ->]. cbn [obind]. destruct x; [eexists; reflexivity|].
  destruct (_ && _); [eexists; reflexivity|]. destruct (_ || _); eexists; reflexivity.
Qed.

Lemma single_windows i : i < 64 -> windows64 (2 ^ i).
Proof.
  intros Hi. unfold windows64, within.
  assert (forall lo hi, lo <= i < hi -> forall j, N.testbit (2 ^ i) j = true -> lo <= j < hi).
  { intros lo hi H j Hj. rewrite pow2_bits in Hj. apply N.eqb_eq in Hj. lia. }
  destruct (N.lt_ge_cases i 8); [left; apply H; lia|].
  destruct (N.lt_ge_cases i 16); [right; left; apply H; lia|].
  destruct (N.lt_ge_cases i 24); [right; right; left; apply H; lia|].
  right; right; right; apply H; lia.
Qed.

Lemma pow2_lt_inv i w : 2 ^ i < 2 ^ w -> i < w.
Proof. intros H. apply N.pow_lt_mono_r_iff in H; lia. Qed.

Lemma classify64_ub diff : diff < 2 ^ 64 ->
  (EV_classify 64 diff = UB UB_shift_amount <-> ~ windows64 diff) /\
  (windows64 diff -> completes (EV_classify 64 diff)).
Proof.
  intros Hd. unfold EV_classify.
  destruct (N.eqb_spec (countBits diff) 1) as [E|E].
  - apply popcount_1_iff in E. destruct E as [i ->].
    pose proof (single_windows i (pow2_lt_inv _ _ Hd)).
    split; [|intros; eexists; reflexivity]. split; [discriminate|tauto].
  - rewrite (adjacent_never 64 diff Hd). cbn [obind].
    destruct (byte64_cases diff Hd) as [[W ->]|[W ->]]; cbn [obind].
    + split; [split; [discriminate|tauto]|intros; eexists; reflexivity].
    + split; [split; [auto|auto]|tauto].
Qed.

Lemma EV_detect64_hit t ga gb gc k v m : uwidth t = 64 -> valid t v -> valid t m -> m <> 0 ->
  let '(a, b, c) := hit3 k v m in
  (EV_detectFaultPattern t ga gb gc a b c = UB UB_shift_amount <-> ~ windows64 m) /\
  (windows64 m -> completes (EV_detectFaultPattern t ga gb gc a b c)).
Proof.
  intros E Hv Hm Hz.
  assert (Ew : width t = 64) by (destruct t; try discriminate E; reflexivity).
  assert (Ex : exact_width t = true) by (unfold exact_width; rewrite E, Ew; reflexivity).
  pose proof (EV_detect_hit t ga gb gc k v m Ex Hv Hm Hz) as H.
  destruct (hit3 k v m) as [[a b] c]. rewrite H, E. apply classify64_ub.
  unfold valid in Hm. rewrite Ew in Hm. exact Hm.
Qed.

(** C11: EV never answers ADJACENT_BITS *)
Lemma EV_never_adjacent t ga gb gc a b c :
  EV_detectFaultPattern t ga gb gc a b c <> Ret ADJACENT_BITS.
Proof.
  unfold EV_detectFaultPattern. cbv zeta.
  destruct (_ && _); [discriminate|]. unfold EV_classify.
  destruct (countBits _ =? 1); [discriminate|].
  rewrite adjacent_never.
  2:{ apply closest_diff_lt; apply lxor_below; apply widen_lt. }
  cbn [obind]. destruct (areByteBoundary _ _) as [x| | |]; cbn [obind]; try discriminate.
  destruct x; [discriminate|].
  destruct (EV_areWordBoundary _ _); [discriminate|]. destruct (EV_areBurstPattern _ _); discriminate.
Qed.

(** ET: runs of two or three adjacent bits are recognised *)
Lemma popcount_shiftl x n : popcount (N.shiftl x n) = popcount x.
Proof.
  induction n as [|n IH] using N.peano_ind; [rewrite N.shiftl_0_r; reflexivity|].
  rewrite N.shiftl_succ_r. rewrite <- IH.
  destruct (N.shiftl x n); reflexivity.
Qed.
Lemma run_eq m lo len : adjacent_run m lo len -> m = N.shiftl (N.ones len) lo.
Proof. intros H. apply N.bits_inj. intros i. rewrite H, run_mask_testbit. reflexivity. Qed.

Lemma ET_adjacent_run m lo len : adjacent_run m lo len -> len = 2 \/ len = 3 ->
  ET_areAdjacentBits m = true /\ countBits m = len.
Proof.
  intros H Hl. pose proof (run_eq _ _ _ H) as E.
  assert (Hc : countBits m = len).
  { unfold countBits. rewrite E, popcount_shiftl. destruct Hl as [->| ->]; reflexivity. }
  split; [|exact Hc]. unfold ET_areAdjacentBits. rewrite Hc.
  destruct (N.leb_spec len 1); [lia|]. cbv zeta.
  apply andb_true_intro. split.
  - apply negb_true_iff. apply N.eqb_neq. intros Z.
    assert (N.testbit (N.land m (N.shiftr m 1)) lo = false) by (rewrite Z; apply N.bits_0).
    rewrite N.land_spec, N.shiftr_spec, !H in H1 by lia.
    destruct (N.leb_spec lo lo), (N.ltb_spec lo (lo + len)), (N.leb_spec lo (lo + 1)),
      (N.ltb_spec (lo + 1) (lo + len)); simpl in H1; try lia; discriminate.
  - apply N.leb_le.
    destruct (N.eq_dec lo 0) as [->|Hlo].
    + assert (N.lor m (N.shiftr m 1) = m) as ->; [|rewrite Hc; lia].
      apply N.bits_inj. intros i. rewrite N.lor_spec, N.shiftr_spec, !H by lia.
      destruct (N.leb_spec 0 i), (N.ltb_spec i (0 + len)), (N.leb_spec 0 (i + 1)),
        (N.ltb_spec (i + 1) (0 + len)); simpl; try lia; reflexivity.
    + assert (N.lor m (N.shiftr m 1) = N.shiftl (N.ones (len + 1)) (lo - 1)) as ->.
      { apply N.bits_inj. intros i. rewrite run_mask_testbit, N.lor_spec, N.shiftr_spec, !H by lia.
        destruct (N.leb_spec lo i), (N.ltb_spec i (lo + len)), (N.leb_spec lo (i + 1)),
          (N.ltb_spec (i + 1) (lo + len)), (N.leb_spec (lo - 1) i), (N.ltb_spec i (lo - 1 + (len + 1)));
          simpl; try lia; reflexivity. }
      unfold countBits. rewrite popcount_shiftl.
      destruct Hl as [->| ->]; vm_compute; discriminate.
Qed.

Lemma ET_adjacent_hit t ga gb gc k v m lo len : exact_width t = true -> valid t v -> valid t m ->
  adjacent_run m lo len -> len = 2 \/ len = 3 ->
  let '(a, b, c) := hit3 k v m in
  ET_detectFaultPattern t ga gb gc a b c = Ret ADJACENT_BITS.
Proof.
  intros E Hv Hm Hr Hl. destruct (ET_adjacent_run m lo len Hr Hl) as [Ha Hc].
  assert (Hx : valid t (N.lxor v m)) by (apply lxor_below; assumption).
  destruct k as [|[|k]]; cbn [hit3]; unfold ET_detectFaultPattern; cbv zeta;
    rewrite !widen_exact by assumption; rewrite ?lxor_l, ?lxor_r, ?N.lxor_nilpotent;
    change (countBits 0) with 0; change (ET_areAdjacentBits 0) with true; rewrite ?Ha, ?Hc;
    destruct Hl as [->| ->]; reflexivity.
Qed.

(** C54 *)
Lemma EV_byte_error32 t k v m ga gb gc : exact_width t = true -> width t = 32 ->
  valid t v -> valid t m -> m <> 0 ->
  let '(a, b, c) := hit3 k v m in
  EV_detectFaultPattern t ga gb gc a b c = Ret BYTE_ERROR <->
  popcount m <> 1 /\ exists j, j < 4 /\ within m (8 * j) (8 * j + 8).
Proof.
  intros E Ew Hv Hm Hz.
  assert (Eu : uwidth t = 32) by (unfold exact_width in E; apply N.eqb_eq in E; lia).
  pose proof (EV_detect_hit t ga gb gc k v m E Hv Hm Hz) as H.
  destruct (hit3 k v m) as [[a b] c]. rewrite H, Eu. unfold EV_classify.
  assert (L : m < 2 ^ 32) by (unfold valid in Hm; rewrite Ew in Hm; exact Hm).
  assert (Q : (exists j, j < 4 /\ within m (8 * j) (8 * j + 8)) <-> areByteBoundary 32 m = Ret true).
  { rewrite byte32_true. split.
    - intros (j & Hj & W). assert (j = 0 \/ j = 1 \/ j = 2 \/ j = 3) as [->|[->|[->| ->]]] by lia; auto.
    - intros [W|[W|[W|W]]]; [exists 0|exists 1|exists 2|exists 3]; (split; [lia|exact W]). }
  rewrite Q. unfold countBits. destruct (N.eqb_spec (popcount m) 1) as [E1|E1].
  - split; [discriminate|tauto].
  - rewrite (adjacent_never 32 m L). cbn [obind].
    destruct (byte32_complete m) as [x Ex]. rewrite Ex. cbn [obind]. destruct x.
    + tauto.
    + split; [|intros [_ K]; discriminate K].
      destruct (EV_areWordBoundary 32 m); [discriminate|]. destruct (EV_areBurstPattern 32 m); discriminate.
Qed.

Lemma EV_byte_error64 t k v m ga gb gc : uwidth t = 64 -> valid t v -> valid t m ->
  popcount m <> 1 -> m <> 0 -> within m 24 64 ->
  let '(a, b, c) := hit3 k v m in EV_detectFaultPattern t ga gb gc a b c = Ret BYTE_ERROR.
Proof.
  intros Eu Hv Hm H1 Hz W.
  assert (Ew : width t = 64) by (destruct t; try discriminate Eu; reflexivity).
  assert (Ex : exact_width t = true) by (unfold exact_width; rewrite Eu, Ew; reflexivity).
  pose proof (EV_detect_hit t ga gb gc k v m Ex Hv Hm Hz) as H.
  destruct (hit3 k v m) as [[a b] c]. rewrite H, Eu. unfold EV_classify, countBits.
  assert (L : m < 2 ^ 64) by (unfold valid in Hm; rewrite Ew in Hm; exact Hm).
  destruct (N.eqb_spec (popcount m) 1); [contradiction|].
  rewrite (adjacent_never 64 m L). cbn [obind].
  destruct (byte64_cases m L) as [[_ ->]|[K _]]; [reflexivity|]. elim K. unfold windows64. auto.
Qed.
