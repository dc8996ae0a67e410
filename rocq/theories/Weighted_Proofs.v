(** weightedVote: C12. *)
From Coq Require Import List NArith ZArith Lia Bool SpecFloat Reals Lra.
From Flocq Require Import Core Relative.
From Flocq.IEEE754 Require Import BinarySingleNaN.
From Verif Require Import Outcome Words Arith Floats FloatsR Voting_Model Voting_Spec Voting_Proofs.

Notation V32 := (valid_binary 24 128).
Notation rnd32 := (rnd 24 128).
Local Open Scope R_scope.

Lemma rnd32_rel x : bpow radix2 (-126) <= x -> x * (1 - / 16777216) <= rnd32 x <= x * (1 + / 16777216).
Proof.
  intros H. assert (0 < x) by (apply Rlt_le_trans with (2 := H); apply bpow_gt_0).
  pose proof (relative_error_N_FLT radix2 (-149) 24 Hp24 (fun z => negb (Z.even z)) x) as E.
  rewrite (Rabs_pos_eq x) in E by lra.
  assert (E' : Rabs (rnd32 x - x) <= / 2 * bpow radix2 (-24 + 1) * x).
  { apply E. exact H. }
  replace (/ 2 * bpow radix2 (-24 + 1)) with (/ 16777216) in E'.
  2:{ change (bpow radix2 (-24 + 1)) with (/ 8388608). lra. }
  apply Rabs_le_inv in E'. lra.
Qed.

(** numbers in the working range *)
Definition ok32 (x : sf) : Prop := V32 x = true /\ fin x = true.
Definition big : sf := sofZ (2 ^ 120).
Lemma big_R : R big = bpow radix2 120.
Proof. unfold big. vm_compute sofZ. unfold R, SF2R, F2R. simpl. lra. Qed.
Lemma big_V : V32 big = true. Proof. reflexivity. Qed.
Definition zer : sf := S754_zero false.
Lemma zer_R : R zer = 0. Proof. reflexivity. Qed.

Lemma no_ovf x : 0 <= x <= bpow radix2 120 -> Rabs (rnd32 x) < bpow radix2 128.
Proof.
  intros H. apply (rnd_ovf 24 128 zer big); [reflexivity|exact big_V|].
  rewrite big_R, zer_R. exact H.
Qed.

Lemma add_ok x y : ok32 x -> ok32 y -> 0 <= R x + R y <= bpow radix2 120 ->
  ok32 (sadd x y) /\ R (sadd x y) = rnd32 (R x + R y).
Proof.
  intros [Vx Fx] [Vy Fy] H. unfold sadd.
  destruct (add_R 24 128 x y Vx Vy Fx Fy (no_ovf _ H)) as (A & B & C). unfold ok32. auto.
Qed.
Lemma mul_ok x y : ok32 x -> ok32 y -> 0 <= R x * R y <= bpow radix2 120 ->
  ok32 (smul x y) /\ R (smul x y) = rnd32 (R x * R y).
Proof.
  intros [Vx Fx] [Vy Fy] H. unfold smul.
  destruct (mul_R 24 128 x y Vx Vy Fx Fy (no_ovf _ H)) as (A & B & C). unfold ok32. auto.
Qed.

Definition bit (b : bool) : sf := sofZ (Z.of_N (b2n b)).
Lemma bit_ok b : ok32 (bit b) /\ R (bit b) = if b then 1 else 0.
Proof.
  destruct b; (split; [split; reflexivity|]); unfold bit; simpl; unfold R, SF2R, F2R; simpl; lra.
Qed.

Section Equal.
Variable w : sf.
Hypothesis (Vw : V32 w = true) (Fw : fin w = true).
Hypothesis (Hlo : bpow radix2 (-100) <= R w) (Hhi : R w <= bpow radix2 100).
Let r := R w.

Lemma r_bounds : 0 < r /\ bpow radix2 (-100) <= r /\ r <= bpow radix2 100 /\ 8 * r <= bpow radix2 120 /\
  bpow radix2 (-126) <= r / 4.
Proof.
  assert (0 < bpow radix2 (-100)) by apply bpow_gt_0.
  assert (bpow radix2 120 = 1048576 * bpow radix2 100).
  { replace 120%Z with (20 + 100)%Z by lia. rewrite bpow_plus. simpl. lra. }
  assert (0 < bpow radix2 100) by apply bpow_gt_0.
  assert (bpow radix2 (-100) = 67108864 * bpow radix2 (-126)).
  { replace (-100)%Z with (26 + -126)%Z by lia. rewrite bpow_plus. simpl. lra. }
  assert (0 < bpow radix2 (-126)) by apply bpow_gt_0.
  unfold r. lra.
Qed.

Lemma ok_w : ok32 w. Proof. split; assumption. Qed.
Lemma rnd_w : rnd32 r = r. Proof. apply (rnd_R 24 128); assumption. Qed.

Lemma term b : ok32 (smul (bit b) w) /\ R (smul (bit b) w) = if b then r else 0.
Proof.
  destruct (bit_ok b) as [Ob Rb]. destruct r_bounds as (H0 & _ & _ & H8 & _).
  destruct (mul_ok (bit b) w Ob ok_w) as [O E].
  { rewrite Rb. fold r. destruct b; lra. }
  split; [exact O|]. rewrite E, Rb. fold r. destruct b.
  - rewrite Rmult_1_l. apply rnd_w.
  - rewrite Rmult_0_l. apply round_0. apply valid_rnd_N.
Qed.

Lemma rnd32_0 : rnd32 0 = 0.
Proof. apply round_0. apply valid_rnd_N. Qed.

(* the sum of the selected weights *)
Definition total (ba bb bc : bool) : sf :=
  sadd (sadd (smul (bit ba) w) (smul (bit bb) w)) (smul (bit bc) w).

Definition eps := / 16777216.

Lemma total_R ba bb bc : ok32 (total ba bb bc) /\
  (let k := ((if ba then 1 else 0) + (if bb then 1 else 0) + (if bc then 1 else 0))%R in
   k * r * ((1 - eps) * (1 - eps)) <= R (total ba bb bc) <= k * r * ((1 + eps) * (1 + eps))) /\ (maj3 ba bb bc = false -> R (total ba bb bc) <= r).
Proof.
  destruct r_bounds as (H0 & _ & _ & H8 & Hn).
  destruct (term ba) as [Oa Ra]. destruct (term bb) as [Ob Rb]. destruct (term bc) as [Oc Rc].
  destruct (add_ok _ _ Oa Ob) as [Oab Rab].
  { rewrite Ra, Rb. destruct ba, bb; lra. }
  rewrite Ra, Rb in Rab.
  pose proof (rnd32_rel (r + r)) as E2. pose proof rnd_w as Ew. pose proof rnd32_0 as E0.
  unfold eps.
  set (e := / 16777216) in *. assert (He : 0 < e < / 1000) by (unfold e; lra).
  assert (E2' : (r + r) * (1 - e) <= rnd32 (r + r) <= (r + r) * (1 + e)) by (apply E2; lra). clear E2.
  assert (Hre : 0 < r * e < r / 1000) by (split; nra).
  assert (Hs : 0 <= rnd32 ((if ba then r else 0) + (if bb then r else 0)) <= 3 * r).
  { destruct ba, bb; rewrite ?Rplus_0_l, ?Rplus_0_r, ?Ew, ?E0; lra. }
  destruct (add_ok _ _ Oab Oc) as [Oabc Rabc].
  { rewrite Rab, Rc. destruct bc; lra. }
  rewrite Rab, Rc in Rabc.
  split; [exact Oabc|]. fold (total ba bb bc) in Rabc. rewrite Rabc.
  pose proof (rnd32_rel (rnd32 (r + r) + r)) as E3.
  assert (E3' : (rnd32 (r + r) + r) * (1 - e) <= rnd32 (rnd32 (r + r) + r) <= (rnd32 (r + r) + r) * (1 + e)).
  { apply E3. lra. }
  assert (Err : rnd32 (rnd32 (r + r)) = rnd32 (r + r)).
  { apply round_generic; [apply valid_rnd_N|]. apply generic_format_round; [apply (vexp 24 128)|apply valid_rnd_N]. }
  destruct ba, bb, bc; cbn [maj3 andb orb];
    rewrite ?Rplus_0_l, ?Rplus_0_r, ?Ew, ?E0, ?Rplus_0_l, ?Rplus_0_r, ?Ew, ?E0, ?Err; split;
    try (intros; discriminate); try (intros; lra); try nra.
Qed.

Lemma half_R : exists h, sdiv (sadd (sadd w w) w) (sofZ 2) = h /\ ok32 h /\
  r * (1 + / 4) <= R h <= r * (2 - / 4).
Proof.
  destruct r_bounds as (H0 & _ & _ & H8 & Hn).
  destruct (add_ok w w ok_w ok_w) as [O2 R2]; [fold r; lra|].
  fold r in R2.
  assert (E2 : (r + r) * (1 - / 16777216) <= rnd32 (r + r) <= (r + r) * (1 + / 16777216)) by (apply rnd32_rel; lra).
  destruct (add_ok (sadd w w) w O2 ok_w) as [O3 R3]; [rewrite R2; fold r; lra|].
  fold r in R3. rewrite R2 in R3.
  assert (E3 : (rnd32 (r + r) + r) * (1 - / 16777216) <= rnd32 (rnd32 (r + r) + r) <= (rnd32 (r + r) + r) * (1 + / 16777216))
    by (apply rnd32_rel; lra).
  assert (R2' : R (sofZ 2) = 2) by (vm_compute sofZ; unfold R, SF2R, F2R; simpl; lra).
  assert (Hd : 0 <= R (sadd (sadd w w) w) / R (sofZ 2) <= bpow radix2 120) by (rewrite R3, R2'; lra).
  destruct O3 as [V3 F3].
  destruct (div_R 24 128 (sadd (sadd w w) w) (sofZ 2) V3 eq_refl F3) as (A & B & C).
  { rewrite R2'. lra. }
  { apply no_ovf. exact Hd. }
  eexists. split; [reflexivity|]. split; [split; assumption|].
  unfold sdiv. rewrite A, R3, R2'.
  assert (E4 : rnd32 (rnd32 (r + r) + r) / 2 * (1 - / 16777216)
     <= rnd32 (rnd32 (rnd32 (r + r) + r) / 2) <= rnd32 (rnd32 (r + r) + r) / 2 * (1 + / 16777216)).
  { apply rnd32_rel. lra. }
  lra.
Qed.

Lemma weighted_bit_equal ba bb bc :
  weighted_bit w w w (b2n ba) (b2n bb) (b2n bc) = b2n (maj3 ba bb bc).
Proof.
  unfold weighted_bit. cbv zeta.
  fold (bit ba) (bit bb) (bit bc). fold (total ba bb bc).
  destruct half_R as (h & -> & [Vh Fh] & Hb).
  destruct (total_R ba bb bc) as ([Vt Ft] & Ht & Hm). cbv zeta in Ht.
  destruct r_bounds as (H0 & _).
  unfold fge. pose proof (leb_R 24 128 h (total ba bb bc) Vh Vt Fh Ft) as L.
  unfold eps in Ht.
  destruct (maj3 ba bb bc) eqn:E.
  - assert (K : SFleb h (total ba bb bc) = true); [|rewrite K; reflexivity].
    apply L. destruct ba, bb, bc; try discriminate E; lra.
  - specialize (Hm eq_refl).
    assert (K : SFleb h (total ba bb bc) <> true).
    { intros K. apply L in K. lra. }
    destruct (SFleb h (total ba bb bc)); [congruence|reflexivity].
Qed.
End Equal.

Local Open Scope N_scope.
Lemma weightedVote_equal_majority t ga gb gc a b c w :
  valid t a -> valid t b -> valid t c -> is_int t = true ->
  V32 w = true -> SFleb (slit 1 (2 ^ 100)) w = true -> SFleb w (sofZ (2 ^ 100)) = true ->
  bitwise_majority a b c (weightedVote t ga gb gc a b c w w w).
Proof.
  intros Ha Hb Hc Hi Vw Hlo Hhi.
  assert (Fw : fin w = true).
  { destruct w as [s|s| |s m e]; try reflexivity; [destruct s|]; vm_compute in Hlo, Hhi; discriminate. }
  assert (Rlo : (bpow radix2 (-100) <= R w)%R).
  { apply (leb_R 24 128) in Hlo; [|reflexivity|exact Vw|reflexivity|exact Fw].
    replace (bpow radix2 (-100)) with (R (slit 1 (2 ^ 100))); [exact Hlo|].
    vm_compute slit. unfold R, SF2R, F2R. simpl. lra. }
  assert (Rhi : (R w <= bpow radix2 100)%R).
  { apply (leb_R 24 128) in Hhi; [|exact Vw|reflexivity|exact Fw|reflexivity].
    replace (bpow radix2 100) with (R (sofZ (2 ^ 100))); [exact Hhi|].
    vm_compute sofZ. unfold R, SF2R, F2R. simpl. lra. }
  unfold weightedVote. rewrite !(eqT_int t) by exact Hi.
  destruct (N.eqb_spec a b) as [<-|]; [destruct (a =? c); apply majority_aab|]. cbn [andb].
  destruct (N.eqb_spec a c) as [<-|]; [apply majority_aba|].
  destruct (N.eqb_spec b c) as [<-|]; [apply majority_abb|].
  apply (majority_of_low t); auto. intros i. cbv zeta. rewrite wrap_testbit.
  rewrite (for_up_ext _ (fun i r => N.lor r (wrap (uwidth t) (N.shiftl (b2n (maj3
     (N.testbit (widen t ga a) i) (N.testbit (widen t gb b) i) (N.testbit (widen t gc c) i))) i)))).
  2:{ intros j x. rewrite !shiftr_land1, (weighted_bit_equal w Vw Fw Rlo Rhi). reflexivity. }
  rewrite (bit_loop_testbit (uwidth t) (N.to_nat (width t))
    (fun i => maj3 (N.testbit (widen t ga a) i) (N.testbit (widen t gb b) i) (N.testbit (widen t gc c) i)) i).
  - rewrite N2Nat.id. destruct (N.ltb_spec i (width t)); [|reflexivity]. cbn [andb].
    rewrite !widen_low by assumption. reflexivity.
  - rewrite N2Nat.id. apply uwidth_ge.
Qed.

(** zero weights: every bit is set *)
Lemma weighted_bit_zero ba bb bc : weighted_bit (sofZ 0) (sofZ 0) (sofZ 0) (b2n ba) (b2n bb) (b2n bc) = 1.
Proof. destruct ba, bb, bc; reflexivity. Qed.

Lemma weightedVote_zero t ga gb gc a b c :
  valid t a -> valid t b -> valid t c -> is_int t = true -> a <> b -> a <> c -> b <> c ->
  weightedVote t ga gb gc a b c (sofZ 0) (sofZ 0) (sofZ 0) = 2 ^ width t - 1.
Proof.
  intros Ha Hb Hc Hi n1 n2 n3. unfold weightedVote. rewrite !(eqT_int t) by exact Hi.
  apply N.eqb_neq in n1, n2, n3. rewrite n1, n2, n3. cbn [andb]. cbv zeta.
  replace (2 ^ width t - 1) with (N.ones (width t)) by (rewrite N.ones_equiv; lia).
  apply N.bits_inj. intros i. rewrite wrap_testbit.
  rewrite (for_up_ext _ (fun i r => N.lor r (wrap (uwidth t) (N.shiftl (b2n true) i)))).
  2:{ intros j x. rewrite !shiftr_land1, weighted_bit_zero. reflexivity. }
  rewrite (bit_loop_testbit (uwidth t) (N.to_nat (width t)) (fun _ => true) i)
    by (rewrite N2Nat.id; apply uwidth_ge).
  rewrite N2Nat.id. destruct (N.ltb_spec i (width t)).
  - rewrite N.ones_spec_low by lia. reflexivity.
  - rewrite N.ones_spec_high by lia. reflexivity.
Qed.

Lemma weightedVote_agree t ga gb gc a b c wa wb wc :
  (eqT t a b = true \/ eqT t a c = true -> weightedVote t ga gb gc a b c wa wb wc = a) /\
  (eqT t a b = false -> eqT t a c = false -> eqT t b c = true -> weightedVote t ga gb gc a b c wa wb wc = b).
Proof.
  unfold weightedVote. split.
  - intros [E|E]; rewrite E; destruct (eqT t a b), (eqT t b c); reflexivity.
  - intros -> -> ->. reflexivity.
Qed.
