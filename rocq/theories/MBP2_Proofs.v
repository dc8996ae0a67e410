From Coq Require Import List NArith ZArith Bool Lia.
Import ListNotations.
From Verif Require Import Outcome Words MBP_Model MBP_Spec MBP_Proofs.
Local Open Scope N_scope.
Local Arguments N.add : simpl never.
Local Arguments N.mul : simpl never.
Local Arguments N.pow : simpl never.
Local Arguments N.lxor : simpl never.
Local Arguments N.shiftl : simpl never.
Local Arguments N.testbit : simpl never.

Definition ham (c : scheme) : Prop := c = HAMMING \/ c = SECDED.
Lemma update_ham v c e b : ham c -> updateECC (mkmb v c e b) = generateHammingCode (mkmb v c e b).
Proof. intros [-> | ->]; reflexivity. Qed.
Lemma update_fields v c e b : value_ (updateECC (mkmb v c e b)) = v /\ coding_scheme_ (updateECC (mkmb v c e b)) = c /\ valid_ (updateECC (mkmb v c e b)) = b.
Proof. destruct c; auto. Qed.
Lemma holding_update s c v : holding s c v -> exists e, length e = 32%nat /\ s = updateECC (mkmb v c e true).
Proof.
  intros [-> | (s0 & L & <- & ->)].
  - exists ecc_new. auto.
  - exists (ecc_data_ s0). auto.
Qed.
Lemma holding_fields s c v : holding s c v -> value_ s = v /\ coding_scheme_ s = c /\ valid_ s = true /\
  (ham c -> (forall j, j < 6 -> lget (ecc_data_ s) j = b2n (N.testbit (code v) j)) /\ lget (ecc_data_ s) 6 = b2n (overall_of v)).
Proof.
  intros H. destruct (holding_update s c v H) as (e & _ & ->). destruct (update_fields v c e true) as (-> & -> & ->). split; [reflexivity|]. split; [reflexivity|]. split; [reflexivity|].
  intros Hc. rewrite (update_ham v c e true Hc). apply generated. reflexivity.
Qed.
Lemma code_linear v e : N.lxor (code (N.lxor v e)) (code v) = code e.
Proof. rewrite code_lin. rewrite (N.lxor_comm (code v)), N.lxor_assoc, N.lxor_nilpotent, N.lxor_0_r. reflexivity. Qed.
Lemma overall_linear v e : xorb (overall_of (N.lxor v e)) (overall_of v) = overall_of e.
Proof.
  unfold overall_of. rewrite code_lin, par6_xor, par_lin.
  destruct (par6 (code v)), (par6 (code e)), (par v), (par e); reflexivity.
Qed.
Lemma data_holds s c v e : holding s c v -> ham c -> holds (hit_value s (N.lxor v e)) (code v) (overall_of v).
Proof.
  intros H Hc. destruct (holding_fields s c v H) as (_ & _ & _ & G). destruct (G Hc) as [G1 G2]. split; [apply code_lt|]. cbn [hit_value value_ ecc_data_]. split.
  - intros j Hj. rewrite G1 by exact Hj. apply b2n_eqb.
  - rewrite G2. apply b2n_eqb.
Qed.
Lemma neq_b2n b x : x <> b2n b -> (b2n b =? x) = false.
Proof. intros H. apply N.eqb_neq. congruence. Qed.
Lemma hit_get s k x j : (N.to_nat k < length (ecc_data_ s))%nat -> lget (ecc_data_ (hit_check s k x)) j = if j =? k then x else lget (ecc_data_ s) j.
Proof.
  intros H. cbn [hit_check ecc_data_]. unfold lget. rewrite lset_nth by exact H. destruct (N.eqb_spec j k) as [->|E]; [rewrite Nat.eqb_refl; reflexivity|].
  destruct (Nat.eqb_spec (N.to_nat j) (N.to_nat k)); [lia|reflexivity].
Qed.
Lemma holding_length s c v : holding s c v -> length (ecc_data_ s) = 32%nat.
Proof.
  assert (L8 : forall l : list N, length l = 32%nat -> length (skipn 8 l) = 24%nat) by (intros l Hl; rewrite skipn_length, Hl; reflexivity).
  intros H. destruct (holding_update s c v H) as (l & Hl & ->).
  assert (G : length (ecc_data_ (generateHammingCode (mkmb v c l true))) = 32%nat).
  { rewrite ecc_generate. rewrite !app_length. cbn [ecc_data_]. rewrite (L8 l Hl). destruct (parities_spec (value_ (mkmb v c l true))) as [-> _]. reflexivity. }
  destruct c; [exact Hl|exact G|exact G|].
  unfold updateECC. cbn [coding_scheme_ ecc_data_ generateReedSolomon value_]. rewrite !app_length, (L8 l Hl). unfold checks. cbn [for_up length hash_bytes]. reflexivity.
Qed.
Lemma check_holds s c v k x : holding s c v -> ham c -> k < 6 -> x <> lget (ecc_data_ s) k ->
  holds (hit_check s k x) (N.lxor (code v) (2 ^ k)) (overall_of v).
Proof.
  intros H Hc Hk Hx. pose proof (holding_length s c v H) as L. destruct (holding_fields s c v H) as (Ev & _ & _ & G). destruct (G Hc) as [G1 G2].
  split; [apply (lxor_below 6); [apply code_lt|apply pow2_below, Hk]|]. cbn [hit_check value_]. rewrite Ev. split.
  - intros j Hj. fold (hit_check s k x). rewrite hit_get by (rewrite L; lia). rewrite N.lxor_spec, pow2_bits. destruct (N.eqb_spec j k) as [->|E].
    + rewrite G1 in Hx by exact Hk. rewrite neq_b2n by exact Hx. destruct (N.testbit (code v) k); reflexivity.
    + rewrite G1 by exact Hj. rewrite xorb_false_r. apply b2n_eqb.
  - fold (hit_check s k x). rewrite hit_get by (rewrite L; lia). destruct (N.eqb_spec 6 k); [lia|]. rewrite G2. apply b2n_eqb.
Qed.
Lemma check6_holds s c v x : holding s c v -> ham c -> x <> lget (ecc_data_ s) 6 -> holds (hit_check s 6 x) (code v) (negb (overall_of v)).
Proof.
  intros H Hc Hx. pose proof (holding_length s c v H) as L. destruct (holding_fields s c v H) as (Ev & _ & _ & G). destruct (G Hc) as [G1 G2].
  split; [apply code_lt|]. cbn [hit_check value_]. rewrite Ev. split.
  - intros j Hj. fold (hit_check s 6 x). rewrite hit_get by (rewrite L; change (N.to_nat 6) with 6%nat; lia). destruct (N.eqb_spec j 6); [lia|]. rewrite G1 by exact Hj. apply b2n_eqb.
  - fold (hit_check s 6 x). rewrite hit_get by (rewrite L; change (N.to_nat 6) with 6%nat; lia). rewrite N.eqb_refl. rewrite G2 in Hx. rewrite neq_b2n by exact Hx. destruct (overall_of v); reflexivity.
Qed.
(* the compared bytes are those below 7 / 8 *)

(** *** a data error e *)
Section Data.
Variables (s : mbp) (c : scheme) (v e : N).
Hypothesis (H : holding s c v) (Hc : ham c).
Let s' := hit_value s (N.lxor v e).
Lemma data_syndrome : syndrome s' = code e.
Proof. rewrite (syndrome_spec s' _ _ (data_holds s c v e H Hc)). apply code_linear. Qed.
Lemma data_overall : negb (lget (parities (value_ s')) 6 =? lget (ecc_data_ s') 6) = overall_of e.
Proof. rewrite (overall_spec s' _ _ (data_holds s c v e H Hc)). apply overall_linear. Qed.
Lemma data_hasError : hasError s' = negb (code e =? 0) || overall_of e.
Proof.
  destruct (holding_fields s c v H) as (_ & Ec & Ev & _). unfold hasError. cbn [s' hit_value valid_ coding_scheme_]. rewrite Ec, Ev. cbn [negb].
  transitivity (checkHammingParity s'); [destruct Hc as [-> | ->]; reflexivity|].
  rewrite (check_spec s' _ _ (data_holds s c v e H Hc)). f_equal; [f_equal; f_equal; apply code_linear|apply overall_linear].
Qed.
Lemma data_back : flip s' (code e - 1) = hit_value s (N.lxor v (N.lxor e (2 ^ (code e - 1)))).
Proof. unfold flip. cbn [s' hit_value value_ coding_scheme_ ecc_data_ valid_]. rewrite N.shiftl_1_l, N.lxor_assoc. reflexivity. Qed.
End Data.
Lemma hit_self s c v : holding s c v -> hit_value s v = s.
Proof. intros H. destruct (holding_fields s c v H) as (E & _). destruct s as [sv sc se sb]. unfold hit_value. cbn [coding_scheme_ ecc_data_ valid_ value_] in *. congruence. Qed.

Lemma single_parts i : i < 32 -> code (2 ^ i) = i + 1 /\ (code (2 ^ i) =? 0) = false /\ overall_of (2 ^ i) = negb (N.odd (popcount (i + 1))).
Proof.
  intros Hi. destruct (code_pow i Hi) as [C P]. split; [exact C|]. split; [rewrite C; apply N.eqb_neq; lia|].
  unfold overall_of. rewrite C, P, par6_popcount by lia. apply xorb_true_r.
Qed.
Lemma hamming_single s v i : holding s HAMMING v -> i < 32 -> let s' := hit_value s (flipped v i) in
  hasError s' = true /\ correctErrors s' = (true, s) /\ getValue s' = (v, s).
Proof.
  intros H Hi. cbv zeta. destruct (single_parts i Hi) as (C & C0 & _). unfold flipped.
  pose proof (data_hasError s HAMMING v (2 ^ i) H (or_introl eq_refl)) as E. rewrite C0 in E. cbn [negb orb] in E.
  pose proof (data_syndrome s HAMMING v (2 ^ i) H (or_introl eq_refl)) as Y. rewrite C in Y.
  pose proof (data_back s v (2 ^ i)) as B. rewrite C in B.
  replace (i + 1 - 1) with i in B by lia. rewrite N.lxor_nilpotent, N.lxor_0_r, (hit_self s HAMMING v H) in B.
  set (s' := hit_value s (N.lxor v (2 ^ i))) in *.
  assert (K : correctErrors s' = (true, s)).
  { unfold correctErrors. rewrite E. cbn [negb]. replace (coding_scheme_ s') with HAMMING by (symmetry; exact (proj1 (proj2 (holding_fields s HAMMING v H)))).
    unfold correctHammingCode. rewrite Y. replace (0 <? i + 1) with true by (symmetry; apply N.ltb_lt; lia). replace (i + 1 <=? 32) with true by (symmetry; apply N.leb_le; lia).
    cbn [andb]. replace (i + 1 - 1) with i by lia. rewrite B. reflexivity. }
  split; [exact E|]. split; [exact K|]. unfold getValue. rewrite E, K. cbn [snd]. destruct (holding_fields s HAMMING v H) as (-> & _). reflexivity.
Qed.
Lemma secded_single s v i : holding s SECDED v -> i < 32 -> let s' := hit_value s (flipped v i) in
  hasError s' = true /\
  (even_bits (i + 1) -> correctErrors s' = (true, s) /\ getValue s' = (v, s)) /\
  (~ even_bits (i + 1) -> correctErrors s' = (false, s') /\ getValue s' = (flipped v i, s')).
Proof.
  intros H Hi. cbv zeta. destruct (single_parts i Hi) as (C & C0 & O). unfold flipped, even_bits.
  pose proof (data_hasError s SECDED v (2 ^ i) H (or_intror eq_refl)) as E. rewrite C0 in E. cbn [negb orb] in E.
  pose proof (data_syndrome s SECDED v (2 ^ i) H (or_intror eq_refl)) as Y. rewrite C in Y.
  pose proof (data_overall s SECDED v (2 ^ i) H (or_intror eq_refl)) as OV. rewrite O in OV.
  pose proof (data_back s v (2 ^ i)) as B. rewrite C in B.
  replace (i + 1 - 1) with i in B by lia. rewrite N.lxor_nilpotent, N.lxor_0_r, (hit_self s SECDED v H) in B.
  set (s' := hit_value s (N.lxor v (2 ^ i))) in *.
  assert (K : correctErrors s' = if negb (N.odd (popcount (i + 1))) then (true, s) else (false, s')).
  { unfold correctErrors. rewrite E. cbn [negb]. replace (coding_scheme_ s') with SECDED by (symmetry; exact (proj1 (proj2 (holding_fields s SECDED v H)))).
    unfold correctSECDED. rewrite Y, OV. replace (i + 1 =? 0) with false by (symmetry; apply N.eqb_neq; lia). replace (0 <? i + 1) with true by (symmetry; apply N.ltb_lt; lia). replace (i + 1 <=? 32) with true by (symmetry; apply N.leb_le; lia).
    cbn [andb]. replace (i + 1 - 1) with i by lia. rewrite B. destruct (negb (N.odd (popcount (i + 1)))); reflexivity. }
  split; [exact E|]. destruct (holding_fields s SECDED v H) as (Ev & _). unfold getValue. rewrite E, K. destruct (N.odd (popcount (i + 1))); cbn [negb]; split; intros Q.
  - discriminate.
  - auto.
  - cbn [snd]. rewrite Ev. auto.
  - exfalso. apply Q. reflexivity.
Qed.

(** two error bits *)
Lemma double_parts i k : i < 32 -> k < 32 -> i <> k -> let e := N.lxor (2 ^ i) (2 ^ k) in
  code e = N.lxor (i + 1) (k + 1) /\ code e <> 0 /\ overall_of e = N.odd (popcount (N.lxor (i + 1) (k + 1))) /\ code e < 64.
Proof.
  intros Hi Hk N. cbv zeta. destruct (code_pow i Hi) as [C1 P1]. destruct (code_pow k Hk) as [C2 P2].
  assert (C : code (N.lxor (2 ^ i) (2 ^ k)) = N.lxor (i + 1) (k + 1)) by (rewrite code_lin, C1, C2; reflexivity).
  split; [exact C|]. split; [rewrite C; intros Z; apply N.lxor_eq in Z; lia|]. split; [|apply code_lt].
  unfold overall_of. rewrite par_lin, P1, P2, C. cbn [xorb]. rewrite xorb_false_r. apply par6_popcount. rewrite <- C. apply code_lt.
Qed.
Lemma secded_double s v i k : holding s SECDED v -> i < 32 -> k < 32 -> i <> k ->
  let w := flipped (flipped v i) k in let s' := hit_value s w in let d := N.lxor (i + 1) (k + 1) in
  hasError s' = true /\
  (even_bits d \/ 32 < d -> correctErrors s' = (false, s') /\ getValue s' = (w, s')) /\
  (~ even_bits d -> d <= 32 -> correctErrors s' = (true, hit_value s (flipped w (d - 1))) /\ fst (getValue s') = flipped w (d - 1)).
Proof.
  intros H Hi Hk Nik. cbv zeta. destruct (double_parts i k Hi Hk Nik) as (C & C0 & O & C64). unfold flipped, even_bits. rewrite N.lxor_assoc.
  set (e := N.lxor (2 ^ i) (2 ^ k)) in *. set (d := N.lxor (i + 1) (k + 1)) in *.
  pose proof (data_hasError s SECDED v e H (or_intror eq_refl)) as E. replace (code e =? 0) with false in E by (symmetry; apply N.eqb_neq, C0). cbn [negb orb] in E.
  pose proof (data_syndrome s SECDED v e H (or_intror eq_refl)) as Y. rewrite C in Y, C0.
  pose proof (data_overall s SECDED v e H (or_intror eq_refl)) as OV. rewrite O in OV.
  pose proof (data_back s v e) as B. rewrite C in B. rewrite <- N.lxor_assoc in B.
  set (s' := hit_value s (N.lxor v e)) in *.
  assert (K : correctErrors s' = if N.odd (popcount d) then if d <=? 32 then (true, hit_value s (N.lxor (N.lxor v e) (2 ^ (d - 1)))) else (false, s') else (false, s')).
  { unfold correctErrors. rewrite E. cbn [negb]. replace (coding_scheme_ s') with SECDED by (symmetry; exact (proj1 (proj2 (holding_fields s SECDED v H)))).
    unfold correctSECDED. rewrite Y, OV. replace (d =? 0) with false by (symmetry; apply N.eqb_neq; exact C0). replace (0 <? d) with true by (symmetry; apply N.ltb_lt; lia).
    cbn [andb]. rewrite B. destruct (N.odd (popcount d)); cbn [andb]; [|reflexivity]. destruct (d <=? 32); reflexivity. }
  split; [exact E|]. unfold getValue. rewrite E, K. destruct (N.odd (popcount d)), (N.leb_spec d 32); split; intros Q; try (destruct Q; [discriminate|lia]); cbn [snd fst].
  - intros. auto.
  - auto.
  - intros Q2. lia.
  - auto.
  - intros. congruence.
  - auto.
  - intros. congruence.
Qed.
Lemma hamming_detects s c v i k : holding s c v -> ham c -> i < 32 -> k < 32 -> i <> k -> hasError (hit_value s (flipped (flipped v i) k)) = true.
Proof.
  intros H Hc Hi Hk Nik. destruct (double_parts i k Hi Hk Nik) as (_ & C0 & _). unfold flipped. rewrite N.lxor_assoc, (data_hasError s c v _ H Hc).
  replace (code _ =? 0) with false by (symmetry; apply N.eqb_neq, C0). reflexivity.
Qed.
(** *** errors in the check bytes *)
Lemma hit_check_fields s k x : value_ (hit_check s k x) = value_ s /\ coding_scheme_ (hit_check s k x) = coding_scheme_ s /\ valid_ (hit_check s k x) = valid_ s.
Proof. auto. Qed.
Lemma check_parts s c v k x : holding s c v -> ham c -> k < 6 -> x <> lget (ecc_data_ s) k -> let s' := hit_check s k x in
  hasError s' = true /\ syndrome s' = 2 ^ k /\ negb (lget (parities (value_ s')) 6 =? lget (ecc_data_ s') 6) = false.
Proof.
  intros H Hc Hk Hx. cbv zeta. pose proof (check_holds s c v k x H Hc Hk Hx) as Hh. destruct (holding_fields s c v H) as (Ev & Ec & Eva & _).
  assert (Y : syndrome (hit_check s k x) = 2 ^ k).
  { rewrite (syndrome_spec _ _ _ Hh). cbn [hit_check value_]. rewrite Ev, <- N.lxor_assoc, N.lxor_nilpotent. apply N.lxor_0_l. }
  assert (O : negb (lget (parities (value_ (hit_check s k x))) 6 =? lget (ecc_data_ (hit_check s k x)) 6) = false).
  { rewrite (overall_spec _ _ _ Hh). cbn [hit_check value_]. rewrite Ev. apply xorb_nilpotent. }
  split; [|split; assumption]. unfold hasError. cbn [hit_check valid_ coding_scheme_]. rewrite Eva, Ec. cbn [negb].
  transitivity (checkHammingParity (hit_check s k x)); [destruct Hc as [-> | ->]; reflexivity|].
  rewrite (check_spec _ _ _ Hh), <- (syndrome_spec _ _ _ Hh), Y. replace (2 ^ k =? 0) with false by (symmetry; apply N.eqb_neq, N.pow_nonzero; lia). reflexivity.
Qed.
Lemma check6_parts s c v x : holding s c v -> ham c -> x <> lget (ecc_data_ s) 6 -> let s' := hit_check s 6 x in
  hasError s' = true /\ syndrome s' = 0 /\ negb (lget (parities (value_ s')) 6 =? lget (ecc_data_ s') 6) = true.
Proof.
  intros H Hc Hx. cbv zeta. pose proof (check6_holds s c v x H Hc Hx) as Hh. destruct (holding_fields s c v H) as (Ev & Ec & Eva & _).
  assert (Y : syndrome (hit_check s 6 x) = 0).
  { rewrite (syndrome_spec _ _ _ Hh). cbn [hit_check value_]. rewrite Ev. apply N.lxor_nilpotent. }
  assert (O : negb (lget (parities (value_ (hit_check s 6 x))) 6 =? lget (ecc_data_ (hit_check s 6 x)) 6) = true).
  { rewrite (overall_spec _ _ _ Hh). cbn [hit_check value_]. rewrite Ev. destruct (overall_of v); reflexivity. }
  split; [|split; assumption]. unfold hasError. cbn [hit_check valid_ coding_scheme_]. rewrite Eva, Ec. cbn [negb].
  transitivity (checkHammingParity (hit_check s 6 x)); [destruct Hc as [-> | ->]; reflexivity|].
  rewrite (check_spec _ _ _ Hh). rewrite (overall_spec _ _ _ Hh) in O. rewrite O. apply orb_true_r.
Qed.
Lemma hamming_check_upset s v k x : holding s HAMMING v -> k < 6 -> x <> lget (ecc_data_ s) k ->
  let s' := hit_check s k x in correctErrors s' = (true, hit_value s' (flipped v (2 ^ k - 1))) /\ fst (getValue s') = flipped v (2 ^ k - 1).
Proof.
  intros H Hk Hx. cbv zeta. destruct (check_parts s HAMMING v k x H (or_introl eq_refl) Hk Hx) as (E & Y & _). destruct (holding_fields s HAMMING v H) as (Ev & Ec & Eva & _).
  assert (B : 0 < 2 ^ k <= 32) by (change 32 with (2 ^ 5); split; [apply N.neq_0_lt_0, N.pow_nonzero; lia|apply N.pow_le_mono_r; lia]).
  assert (K : correctErrors (hit_check s k x) = (true, hit_value (hit_check s k x) (flipped v (2 ^ k - 1)))).
  { unfold correctErrors. rewrite E. cbn [negb]. change (coding_scheme_ (hit_check s k x)) with (coding_scheme_ s). rewrite Ec. unfold correctHammingCode. rewrite Y.
    replace (0 <? 2 ^ k) with true by (symmetry; apply N.ltb_lt; lia). replace (2 ^ k <=? 32) with true by (symmetry; apply N.leb_le; lia). cbn [andb].
    unfold flip, flipped, hit_value. cbn [hit_check value_ coding_scheme_ ecc_data_ valid_]. rewrite Ev, N.shiftl_1_l. reflexivity. }
  split; [exact K|]. unfold getValue. rewrite E, K. reflexivity.
Qed.
Lemma hamming_check6_upset s v x : holding s HAMMING v -> x <> lget (ecc_data_ s) 6 ->
  let s' := hit_check s 6 x in hasError s' = true /\ correctErrors s' = (false, s') /\ getValue s' = (v, s').
Proof.
  intros H Hx. cbv zeta. destruct (check6_parts s HAMMING v x H (or_introl eq_refl) Hx) as (E & Y & _). destruct (holding_fields s HAMMING v H) as (Ev & Ec & Eva & _).
  assert (K : correctErrors (hit_check s 6 x) = (false, hit_check s 6 x)).
  { unfold correctErrors. rewrite E. cbn [negb]. change (coding_scheme_ (hit_check s 6 x)) with (coding_scheme_ s). rewrite Ec. unfold correctHammingCode. rewrite Y. reflexivity. }
  split; [exact E|]. split; [exact K|]. unfold getValue. rewrite E, K. cbn [snd hit_check value_]. rewrite Ev. reflexivity.
Qed.
Lemma secded_check_upset s v k x : holding s SECDED v -> k < 7 -> x <> lget (ecc_data_ s) k ->
  let s' := hit_check s k x in hasError s' = true /\ correctErrors s' = (k =? 6, s') /\ getValue s' = (v, s').
Proof.
  intros H Hk Hx. cbv zeta. destruct (holding_fields s SECDED v H) as (Ev & Ec & Eva & _). destruct (N.eqb_spec k 6) as [->|N6].
  - destruct (check6_parts s SECDED v x H (or_intror eq_refl) Hx) as (E & Y & O).
    assert (K : correctErrors (hit_check s 6 x) = (true, hit_check s 6 x)).
    { unfold correctErrors. rewrite E. cbn [negb]. change (coding_scheme_ (hit_check s 6 x)) with (coding_scheme_ s). rewrite Ec. unfold correctSECDED. rewrite Y, O. reflexivity. }
    split; [exact E|]. split; [exact K|]. unfold getValue. rewrite E, K. cbn [snd hit_check value_]. rewrite Ev. reflexivity.
  - destruct (check_parts s SECDED v k x H (or_intror eq_refl) ltac:(lia) Hx) as (E & Y & O).
    assert (K : correctErrors (hit_check s k x) = (false, hit_check s k x)).
    { unfold correctErrors. rewrite E. cbn [negb]. change (coding_scheme_ (hit_check s k x)) with (coding_scheme_ s). rewrite Ec. unfold correctSECDED. rewrite Y, O.
      assert (Z : 2 ^ k <> 0) by (apply N.pow_nonzero; lia). replace (2 ^ k =? 0) with false by (symmetry; apply N.eqb_neq, Z). replace (0 <? 2 ^ k) with true by (symmetry; apply N.ltb_lt; lia). reflexivity. }
    split; [exact E|]. split; [exact K|]. unfold getValue. rewrite E, K. cbn [snd hit_check value_]. rewrite Ev. reflexivity.
Qed.
