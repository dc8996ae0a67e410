From Coq Require Import List NArith ZArith Bool Lia SpecFloat.
Import ListNotations.
From Verif Require Import Outcome Words Arith Floats Voting_Spec Crc_Model Crc_Spec Crc_Proofs CrcTMR_Model CrcTMR_Spec.
Local Open Scope N_scope.

(** *** checksums of values *)
Lemma bytes_of_length n v : length (bytes_of n v) = n.
Proof. unfold bytes_of. rewrite map_length, seq_length. reflexivity. Qed.
Lemma bytes_of_bytes n v : is_bytes (bytes_of n v).
Proof.
  unfold is_bytes, bytes_of. apply Forall_forall. intros x Hx. apply in_map_iff in Hx as [i [<- _]].
  change 0xFF with (N.ones 8). rewrite N.land_ones. apply N.mod_lt. discriminate.
Qed.
Lemma bytes_of_bit n v i : msg_bit (bytes_of n v) i = (i <? 8 * N.of_nat n) && N.testbit v i.
Proof.
  unfold msg_bit. destruct (N.ltb_spec i (8 * N.of_nat n)) as [H|H].
  - assert (H8 : i / 8 < N.of_nat n) by (apply N.div_lt_upper_bound; lia).
    unfold bytes_of.
    set (f := fun k : nat => N.land (N.shiftr v (8 * N.of_nat k)) 255).
    rewrite (nth_indep _ 0 (f 0%nat)) by (rewrite map_length, seq_length; lia).
    rewrite (map_nth f), seq_nth by lia. unfold f. rewrite Nat.add_0_l, N2Nat.id.
    rewrite N.land_spec. change 255 with (N.ones 8).
    rewrite N.ones_spec_low by (apply N.mod_lt; discriminate).
    rewrite andb_true_r, N.shiftr_spec'. cbn [andb]. f_equal.
    pose proof (N.div_mod i 8 ltac:(discriminate)) as D. rewrite D at 3. lia.
  - cbn [andb]. rewrite nth_overflow; [apply N.bits_0|]. rewrite bytes_of_length.
    assert (N.of_nat n <= i / 8) by (apply N.div_le_lower_bound; lia). lia.
Qed.
Lemma sp_et_crc t v : sp_crc t v = et_crc t v.
Proof. unfold sp_crc, et_crc. apply all_agree. apply bytes_of_bytes. Qed.
Lemma size_width t : 8 * N.of_nat (N.to_nat (sizeof t)) = width t.
Proof. unfold width. rewrite N2Nat.id. reflexivity. Qed.
Lemma burst_crc t v w : valid t v -> valid t w -> burst32 v w -> et_crc t w <> et_crc t v.
Proof.
  intros Hv Hw [Hne [lo Hlo]]. unfold et_crc. apply burst_detected.
  - apply bytes_of_bytes.
  - apply bytes_of_bytes.
  - rewrite !bytes_of_length. reflexivity.
  - intros E. apply Hne. apply (bits_ext_below (width t)); [exact Hw|exact Hv|]. intros i Hi.
    pose proof (bytes_of_bit (N.to_nat (sizeof t)) v i) as B1.
    pose proof (bytes_of_bit (N.to_nat (sizeof t)) w i) as B2.
    rewrite size_width in B1, B2. apply N.ltb_lt in Hi. rewrite Hi in B1, B2. cbn [andb] in B1, B2.
    rewrite <- B1, <- B2, E. reflexivity.
  - exists lo. intros i Hi. apply Hlo. intros E. apply Hi. rewrite !bytes_of_bit, E. reflexivity.
Qed.
Lemma small_burst t v w : sizeof t <= 4 -> valid t v -> valid t w -> w <> v -> burst32 v w.
Proof.
  intros Hs Hv Hw Hne. split; [exact Hne|]. exists 0. intros i Hi. split; [lia|].
  destruct (N.lt_ge_cases i (0 + 32)) as [G|G]; [exact G|]. exfalso. apply Hi.
  rewrite !(testbit_above (width t)); auto; unfold width; lia.
Qed.

Lemma vc_set (crc : N -> N) v : verifyChecksum crc (mkcell v (crc v)) = true.
Proof. unfold verifyChecksum. cbn. apply N.eqb_refl. Qed.
Lemma vc_stale t (crc : N -> N) (Hc : forall x, crc x = et_crc t x) v w :
  valid t v -> valid t w -> burst32 v w -> verifyChecksum crc (mkcell w (crc v)) = false.
Proof.
  intros Hv Hw B. unfold verifyChecksum. cbn. apply N.eqb_neq. rewrite !Hc. apply burst_crc; assumption.
Qed.

(** *** C16 / C19: one corrupted cell *)

Lemma eqT_trans t x y z : eqT t x y = true -> eqT t y z = true -> eqT t x z = true.
Proof.
  rewrite !eqT_spec. destruct (is_nan t x), (is_nan t y), (is_nan t z); cbn; try discriminate.
  intros H1 H2. apply orb_true_iff in H1, H2. apply orb_true_iff.
  destruct H1 as [H1|H1]; [apply N.eqb_eq in H1; subst; exact H2|].
  destruct H2 as [H2|H2]; [apply N.eqb_eq in H2; subst; right; exact H1|].
  right. destruct (is_int t), (is_zero t x), (is_zero t y), (is_zero t z); cbn in *; auto.
Qed.

Lemma et_one_corrupt t s v k c : eqT t v v = true ->
  let r := fst (et_get t (corrupt (set (et_crc t) s v) k c)) in
  eqT t r v = true /\ (r = v \/ r = cv c).
Proof.
  intros Hvv. unfold et_get, valid_count, valid_pair, first_valid, et_majority, corrupt.
  destruct k as [|[|[|k]]]; cbn [c0 c1 c2 set cv detected corrected uncorrectable];
    rewrite ?vc_set; destruct (verifyChecksum (et_crc t) c) eqn:Vc; rewrite ?vc_set; cbn -[eqT];
    rewrite ?Hvv; repeat match goal with |- context [if eqT t ?a ?b then _ else _] => destruct (eqT t a b) eqn:? end;
    cbn -[eqT]; repeat split; auto;
    try (rewrite eqT_sym; assumption); try congruence.
Qed.

Lemma et_repaired t s : let s' := snd (et_repair t s) in let v := fst (et_get t s) in
  fst (et_repair t s) = true /\ same_data s' (construct (et_crc t) v) /\
  (eqT t v v = true -> et_verify t s' = true).
Proof.
  unfold et_repair. destruct (et_get t s) as [v s1]. cbn [fst snd].
  repeat split. intros H. unfold et_verify, set. cbn [c0 c1 c2 cv]. rewrite !vc_set, H. reflexivity.
Qed.

(** *** NaN *)
Lemma et_nan_unverifiable t s v : is_nan t v = true -> et_verify t (set (et_crc t) s v) = false.
Proof.
  intros H. unfold et_verify, set. cbn [c0 c1 c2 cv]. rewrite !vc_set, eqT_refl, H. reflexivity.
Qed.
Lemma et_nan_lost t s v w : is_nan t v = true ->
  fst (et_get t (corrupt (set (et_crc t) s v) 0 (mkcell w (et_crc t w)))) = w.
Proof.
  intros H. unfold et_get, valid_count, et_majority, corrupt. cbn [c0 c1 c2 set cv].
  rewrite !vc_set. cbn -[eqT].
  assert (E : forall x, eqT t x v = false).
  { intros x. rewrite eqT_spec, H. destruct (is_nan t x); reflexivity. }
  rewrite !E. reflexivity.
Qed.

(** *** C17: value corruption in up to two copies, checksums intact *)

Lemma et_survivor t s v x y z : valid t v -> valid t x -> valid t y -> valid t z ->
  (x = v \/ burst32 v x) -> (y = v \/ burst32 v y) -> (z = v \/ burst32 v z) ->
  (x = v \/ y = v \/ z = v) ->
  fst (et_get t (hit_values (et_crc t) s v x y z)) = v.
Proof.
  intros Hv Hx Hy Hz Bx By Bz Hone.
  assert (St : forall w, valid t w -> burst32 v w -> verifyChecksum (et_crc t) (mkcell w (et_crc t v)) = false)
    by (intros w Hw B; apply (vc_stale t (et_crc t) (fun _ => eq_refl)); assumption).
  unfold et_get, valid_count, valid_pair, first_valid, et_majority, hit_values.
  cbn [c0 c1 c2 cv].
  destruct Bx as [Ex|Bx]; destruct By as [Ey|By]; destruct Bz as [Ez|Bz];
    rewrite ?Ex, ?Ey, ?Ez, ?vc_set, ?(St x Hx Bx), ?(St y Hy By), ?(St z Hz Bz); cbn -[eqT];
    try (repeat match goal with |- context [if eqT t ?a ?b then _ else _] => destruct (eqT t a b) end; reflexivity).
  exfalso. destruct Bx as [Bx _], By as [By _], Bz as [Bz _]. tauto.
Qed.

Lemma sp_survivor t fuel s v x y z : valid t v -> valid t x -> valid t y -> valid t z ->
  (x = v \/ burst32 v x) -> (y = v \/ burst32 v y) -> (z = v \/ burst32 v z) ->
  (x = v \/ y = v \/ z = v) -> eqT t v v = true ->
  exists s', sp_get t fuel (hit_values (sp_crc t) s v x y z) = Ret (v, SUCCESS, s').
Proof.
  intros Hv Hx Hy Hz Bx By Bz Hone Hvv.
  assert (St : forall w, valid t w -> burst32 v w -> verifyChecksum (sp_crc t) (mkcell w (sp_crc t v)) = false)
    by (intros w Hw B; apply (vc_stale t (sp_crc t) (sp_et_crc t)); assumption).
  unfold sp_get, valid_count, valid_pair, first_valid, sp_majority, hit_values.
  cbn [c0 c1 c2 cv].
  destruct Bx as [Ex|Bx]; destruct By as [Ey|By]; destruct Bz as [Ez|Bz];
    rewrite ?Ex, ?Ey, ?Ez, ?vc_set, ?(St x Hx Bx), ?(St y Hy By), ?(St z Hz Bz); cbn -[eqT];
    rewrite ?Hvv; cbn -[eqT]; try (eexists; reflexivity).
  exfalso. destruct Bx as [Bx _], By as [By _], Bz as [Bz _]. tauto.
Qed.

(** *** C18: statistics *)
Lemma inc_balanced s b : balanced s -> balanced (incrementErrorStats s b).
Proof. unfold balanced, incrementErrorStats. destruct b; cbn; lia. Qed.
Lemma et_get_balanced t s : balanced s -> balanced (snd (et_get t s)).
Proof.
  intros H. unfold et_get. repeat match goal with |- context [if ?b then _ else _] => destruct b end; cbn [snd]; auto using inc_balanced.
  destruct (valid_pair t (et_crc t) s); cbn [snd]; auto using inc_balanced.
Qed.
Lemma et_step_balanced t s o : balanced s -> balanced (et_step t s o).
Proof.
  intros H. destruct o as [v| | | |o|k c]; cbn [et_step].
  - exact H.
  - apply et_get_balanced. exact H.
  - unfold et_repair. pose proof (et_get_balanced t s H) as G. destruct (et_get t s) as [v s']. exact G.
  - reflexivity.
  - reflexivity.
  - destruct k as [|[|[|k]]]; exact H.
Qed.
Lemma et_history_balanced t v h : balanced (fold_left (et_step t) h (construct (et_crc t) v)).
Proof.
  assert (G : forall s, balanced s -> balanced (fold_left (et_step t) h s)).
  { induction h as [|o h IH]; intros s H; [exact H|]. apply IH, et_step_balanced, H. }
  apply G. reflexivity.
Qed.
(* a get counts one detection exactly when some checksum is invalid *)
Lemma et_get_counts t s :
  detected (snd (et_get t s)) =
  if verifyChecksum (et_crc t) (c0 s) && verifyChecksum (et_crc t) (c1 s) && verifyChecksum (et_crc t) (c2 s)
  then detected s else detected s + 1.
Proof.
  unfold et_get, valid_count. unfold valid_pair.
  destruct (verifyChecksum (et_crc t) (c0 s)), (verifyChecksum (et_crc t) (c1 s)), (verifyChecksum (et_crc t) (c2 s));
    cbn -[eqT]; repeat match goal with |- context [if eqT t ?a ?b then _ else _] => destruct (eqT t a b) end; reflexivity.
Qed.
Lemma et_silent t s v w : is_int t = true -> v <> w ->
  let s' := corrupt (set (et_crc t) s v) 2 (mkcell w (et_crc t w)) in
  et_verify t s' = false /\ snd (et_get t s') = s'.
Proof.
  intros Hi Hne. unfold et_verify, et_get, valid_count, corrupt. cbn [c0 c1 c2 set cv].
  rewrite !vc_set. cbn -[eqT]. rewrite !(eqT_int t) by exact Hi. rewrite N.eqb_refl.
  split; [cbn; apply N.eqb_neq; exact Hne|reflexivity].
Qed.

(** *** SpaceEnhancedTMR *)
Lemma sp_one_corrupt t fuel s v k c : eqT t v v = true ->
  exists r s', sp_get t fuel (corrupt (set (sp_crc t) s v) k c) = Ret (r, SUCCESS, s') /\
    eqT t r v = true /\ (r = v \/ r = cv c).
Proof.
  intros Hvv. unfold sp_get, valid_count, valid_pair, first_valid, sp_majority, corrupt.
  destruct k as [|[|[|k]]]; cbn [c0 c1 c2 set cv detected corrected uncorrectable];
    rewrite ?vc_set; destruct (verifyChecksum (sp_crc t) c) eqn:Vc; rewrite ?vc_set; cbn -[eqT];
    rewrite ?Hvv; cbn -[eqT];
    repeat match goal with |- context [if eqT t ?a ?b then _ else _] => destruct (eqT t a b) eqn:?; cbn -[eqT] end;
    (eexists _, _; split; [reflexivity|]); repeat split; auto; try (rewrite eqT_sym; assumption); congruence.
Qed.
Lemma sp_repaired t fuel s v st s' : sp_get t fuel s = Ret (v, st, s') ->
  exists s2, sp_repair t fuel s = Ret (st, s2) /\ same_data s2 (construct (sp_crc t) v) /\ sp_verify t s2 = SUCCESS.
Proof.
  intros H. unfold sp_repair. rewrite H. cbn [obind]. eexists. split; [reflexivity|]. split; [repeat split|].
  unfold sp_verify, set. cbn [c0 c1 c2]. rewrite !vc_set. reflexivity.
Qed.

(* statistics of SpaceEnhancedTMR: get keeps detected = corrected + uncorrectable *)
Lemma sp_get_balanced t fuel s v st s' : balanced s -> sp_get t fuel s = Ret (v, st, s') -> balanced s'.
Proof.
  intros H. unfold sp_get.
  repeat match goal with |- context [if ?b then _ else _] => destruct b end.
  - destruct (sp_majority t fuel s); cbn [obind]; intros E; inversion E; subst; exact H.
  - intros E; inversion E; subst. apply inc_balanced, H.
  - destruct (valid_pair t (sp_crc t) s); intros E; inversion E; subst; apply inc_balanced, H.
  - destruct (sp_majority t fuel s); cbn [obind]; intros E; inversion E; subst. apply inc_balanced, H.
Qed.

(** bitLevelVote of SpaceEnhancedTMR is the bitwise majority *)
Lemma land_pow2_0 a i : negb (N.land a (2 ^ i) =? 0) = N.testbit a i.
Proof.
  destruct (N.testbit a i) eqn:B.
  - apply negb_true_iff, N.eqb_neq. intros E.
    assert (X : N.testbit (N.land a (2 ^ i)) i = true) by (rewrite N.land_spec, B, pow2_bits, N.eqb_refl; reflexivity).
    rewrite E, N.bits_0 in X. discriminate.
  - apply negb_false_iff, N.eqb_eq. apply N.bits_inj. intros j. rewrite N.land_spec, pow2_bits, N.bits_0.
    destruct (N.eqb_spec j i) as [->|]; [rewrite B; reflexivity|apply andb_false_r].
Qed.
Lemma count_maj x y z : (2 <=? b2n x + b2n y + b2n z) = maj3 x y z.
Proof. destruct x, y, z; reflexivity. Qed.

Lemma sp_bitLevelVote_majority t a b c : valid t a -> valid t b -> valid t c ->
  bitwise_majority a b c (sp_bitLevelVote t a b c).
Proof.
  intros Ha Hb Hc. unfold sp_bitLevelVote.
  set (body := fun (_ : N) (p : N * N) => _).
  pose (Inv := fun (k : N) (p : N * N) =>
    (k < width t -> snd p = 2 ^ k) /\
    forall j, N.testbit (fst p) j = (j <? k) && maj3 (N.testbit a j) (N.testbit b j) (N.testbit c j)).
  assert (H : Inv (0 + N.of_nat (N.to_nat (width t))) (for_up (N.to_nat (width t)) 0 body (0, 1))).
  { apply for_up_inv.
    - split; [reflexivity|]. intros j. cbn [fst]. rewrite N.bits_0.
      destruct (N.ltb_spec j 0); [lia|reflexivity].
    - intros k [r m] Hk [Hm Hr]. cbn [fst snd] in *. rewrite N2Nat.id in Hk.
      rewrite Hm by lia. unfold body, Inv. cbn [fst snd].
      rewrite !land_pow2_0, count_maj. split; cbn [fst snd].
      + intros Hk1. rewrite N.shiftl_mul_pow2. change (2 ^ 1) with 2.
        rewrite wrap_small.
        * rewrite N.pow_add_r. reflexivity.
        * replace (2 ^ k * 2) with (2 ^ (k + 1)) by (rewrite N.pow_add_r; reflexivity). apply pow2_below. exact Hk1.
      + intros j. assert (E : N.testbit (if maj3 (N.testbit a k) (N.testbit b k) (N.testbit c k)
                              then N.lor r (2 ^ k) else r) j =
                 N.testbit r j || ((j =? k) && maj3 (N.testbit a k) (N.testbit b k) (N.testbit c k))).
        { destruct (maj3 (N.testbit a k) (N.testbit b k) (N.testbit c k)).
          - rewrite N.lor_spec, pow2_bits, andb_true_r. reflexivity.
          - rewrite andb_false_r, orb_false_r. reflexivity. }
        rewrite E, Hr. clear E. destruct (N.eqb_spec j k) as [->|Hjk].
        * destruct (N.ltb_spec k k); [lia|]. destruct (N.ltb_spec k (k + 1)); [|lia]. reflexivity.
        * cbn [andb]. rewrite orb_false_r. destruct (N.ltb_spec j k), (N.ltb_spec j (k + 1)); try lia; reflexivity. }
  rewrite N.add_0_l, N2Nat.id in H. destruct H as [_ H]. intros j. rewrite H.
  destruct (N.ltb_spec j (width t)) as [G|G]; [reflexivity|].
  rewrite !(testbit_above (width t)) by assumption. reflexivity.
Qed.

(** *** termination of the float vote *)
Lemma not_finite_special t x : is_int t = false -> is_finite t x = false -> isSpecialFloat t x = true.
Proof.
  intros Hi H. unfold is_finite in H. apply negb_false_iff in H. unfold isSpecialFloat, is_nan, is_inf.
  destruct t; try discriminate; cbn [mbits ebits] in *; unfold f_nan; rewrite H; cbn [andb];
  destruct (f_mant _ x =? 0); reflexivity.
Qed.
Lemma finite_special t x : is_int t = false -> is_finite t x = true -> isSpecialFloat t x = is_zero t x.
Proof.
  intros Hi H. unfold is_finite in H. apply negb_true_iff in H. unfold isSpecialFloat, is_nan, is_inf.
  destruct t; try discriminate; cbn [mbits ebits] in *; unfold f_nan; rewrite H; reflexivity.
Qed.


Lemma loop_forever t f0 f1 : is_int t = false -> is_finite t f0 = true -> is_finite t f1 = true ->
  (is_zero t f0 = true \/ is_zero t f1 = true) -> close t f0 f1 = false ->
  forall fuel, bitLevelVoteFloat t fuel f0 f1 f0 = OutOfFuel.
Proof.
  intros Hi F0 F1 Hz Hc. induction fuel as [|k IH]; [reflexivity|].
  cbn [bitLevelVoteFloat]. rewrite !(finite_special t) by assumption.
  assert (E : is_zero t f0 || is_zero t f1 || is_zero t f0 = true)
    by (destruct Hz as [-> | ->]; rewrite ?orb_true_r; reflexivity).
  rewrite E. cbn [filter]. rewrite F0, F1, Hc. exact IH.
Qed.

Lemma float_vote_cases t a b c : is_int t = false ->
  is_finite t a && is_finite t b && is_finite t c = false ->
  (stuck_pair t a b c -> forall fuel, bitLevelVoteFloat t fuel a b c = OutOfFuel) /\
  (~ stuck_pair t a b c -> exists v, forall fuel, bitLevelVoteFloat t (S (S fuel)) a b c = Ret v).
Proof.
  intros Hi Hnf.
  assert (Sp : isSpecialFloat t a || isSpecialFloat t b || isSpecialFloat t c = true).
  { destruct (is_finite t a) eqn:A; [|rewrite (not_finite_special t a) by assumption; reflexivity].
    destruct (is_finite t b) eqn:B; [|rewrite (not_finite_special t b) by assumption; rewrite orb_true_r; reflexivity].
    destruct (is_finite t c) eqn:C; [discriminate|]. rewrite (not_finite_special t c) by assumption. apply orb_true_r. }
  assert (Fin : forall f, In f (filter (is_finite t) [a; b; c]) -> is_finite t f = true)
    by (intros f Hf; apply filter_In in Hf; apply Hf).
  assert (Len : (length (filter (is_finite t) [a; b; c]) <= 2)%nat).
  { cbn [filter]. destruct (is_finite t a), (is_finite t b), (is_finite t c); try discriminate; cbn; lia. }
  unfold stuck_pair. remember (filter (is_finite t) [a; b; c]) as l eqn:El.
  destruct l as [|f0 [|f1 [|f2 l]]]; [..|cbn in Len; lia].
  - split; [intros [f0 [f1 [E _]]]; discriminate|]. intros _.
    eexists. intros fuel. cbn [bitLevelVoteFloat]. rewrite Sp, <- El.
    instantiate (1 := if eqT t a b then a else if eqT t a c then a else if eqT t b c then b else if is_nan t a && is_nan t b && is_nan t c then quiet_nan t else 0).
    destruct (eqT t a b), (eqT t a c), (eqT t b c), (is_nan t a && is_nan t b && is_nan t c); reflexivity.
  - split; [intros [f1 [f2 [E _]]]; discriminate|]. intros _.
    exists f0. intros fuel. cbn [bitLevelVoteFloat]. rewrite Sp, <- El. reflexivity.
  - assert (F0 : is_finite t f0 = true) by (apply Fin; left; reflexivity).
    assert (F1 : is_finite t f1 = true) by (apply Fin; right; left; reflexivity).
    split.
    + intros [g0 [g1 [E [Hz Hc]]]]. injection E as <- <-. intros [|fuel]; [reflexivity|].
      cbn [bitLevelVoteFloat]. rewrite Sp, <- El, Hc. apply loop_forever; assumption.
    + intros Hns. destruct (close t f0 f1) eqn:Hc.
      * exists f0. intros fuel. cbn [bitLevelVoteFloat]. rewrite Sp, <- El, Hc. reflexivity.
      * assert (Z0 : is_zero t f0 = false /\ is_zero t f1 = false).
        { split; [destruct (is_zero t f0) eqn:Z|destruct (is_zero t f1) eqn:Z]; auto;
          exfalso; apply Hns; exists f0, f1; auto. }
        destruct Z0 as [Z0 Z1].
        exists (structuredVote t f0 f1 f0). intros fuel. cbn [bitLevelVoteFloat]. rewrite Sp, <- El, Hc.
        rewrite !(finite_special t) by assumption. rewrite Z0, Z1. reflexivity.
Qed.


Lemma sp_majority_cases t s : let a := cv (c0 s) in let b := cv (c1 s) in let c := cv (c2 s) in
  (is_int t = false /\ no_pair t a b c /\ stuck_pair t a b c -> forall fuel, sp_majority t fuel s = OutOfFuel) /\
  (~ (is_int t = false /\ no_pair t a b c /\ stuck_pair t a b c) ->
     exists v, forall fuel, sp_majority t (S (S fuel)) s = Ret v).
Proof.
  intros a b c. unfold sp_majority. fold a b c.
  destruct (eqT t a b) eqn:Eab.
  { split; [intros [_ [[H _] _]]; congruence|]. intros _. exists a. reflexivity. }
  destruct (eqT t a c) eqn:Eac.
  { split; [intros [_ [[_ [H _]] _]]; congruence|]. intros _. exists a. reflexivity. }
  destruct (eqT t b c) eqn:Ebc.
  { split; [intros [_ [[_ [_ H]] _]]; congruence|]. intros _. exists b. reflexivity. }
  destruct (is_int t) eqn:Hi.
  { split; [intros [H _]; discriminate|]. intros _. eexists. reflexivity. }
  destruct (is_finite t a && is_finite t b && is_finite t c) eqn:Hf.
  { split.
    - intros [_ [_ [f0 [f1 [E _]]]]]. exfalso. apply andb_true_iff in Hf as [Hf Hc]. apply andb_true_iff in Hf as [Ha Hb].
      cbn [filter] in E. rewrite Ha, Hb, Hc in E. discriminate.
    - intros _. eexists. reflexivity. }
  destruct (float_vote_cases t a b c Hi Hf) as [G1 G2]. split.
  - intros [_ [_ H]]. exact (G1 H).
  - intros H. apply G2. intros Hs. apply H. unfold no_pair. auto.
Qed.

(** which states make get() run forever *)
Lemma valid_count_le crc s : valid_count crc s <= 3.
Proof. unfold valid_count. destruct (verifyChecksum crc (c0 s)), (verifyChecksum crc (c1 s)), (verifyChecksum crc (c2 s)); cbn; lia. Qed.
Lemma sp_get_cases t s : let a := cv (c0 s) in let b := cv (c1 s) in let c := cv (c2 s) in
  (votes (sp_crc t) s /\ is_int t = false /\ no_pair t a b c /\ stuck_pair t a b c ->
     forall fuel, sp_get t fuel s = OutOfFuel) /\
  (~ (votes (sp_crc t) s /\ is_int t = false /\ no_pair t a b c /\ stuck_pair t a b c) ->
     exists r, forall fuel, sp_get t (S (S fuel)) s = Ret r).
Proof.
  intros a b c. unfold sp_get, votes. pose proof (valid_count_le (sp_crc t) s).
  pose proof (sp_majority_cases t s) as M. cbv zeta in M. fold a b c in M. destruct M as [M1 M2].
  destruct (N.eqb_spec (valid_count (sp_crc t) s) 3) as [E3|E3].
  { split.
    - intros [_ Hd] fuel. rewrite M1 by exact Hd. reflexivity.
    - intros Hd. destruct M2 as [v Hv]; [intros X; apply Hd; auto|]. eexists. intros fuel. rewrite Hv. reflexivity. }
  destruct (N.eqb_spec (valid_count (sp_crc t) s) 1) as [E1|E1].
  { split; [intros [[X|X] _]; lia|]. intros _. eexists. reflexivity. }
  destruct (N.eqb_spec (valid_count (sp_crc t) s) 2) as [E2|E2].
  { split; [intros [[X|X] _]; lia|]. intros _. destruct (valid_pair t (sp_crc t) s); eexists; reflexivity. }
  assert (E0 : valid_count (sp_crc t) s = 0) by lia.
  split.
  - intros [_ Hd] fuel. rewrite M1 by exact Hd. reflexivity.
  - intros Hd. destruct M2 as [v Hv]; [intros X; apply Hd; auto|]. eexists. intros fuel. rewrite Hv. reflexivity.
Qed.
