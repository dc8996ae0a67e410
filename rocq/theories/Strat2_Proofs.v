(** Health-weighted voting: scores, weights. *)
From Coq Require Import String List NArith ZArith Bool SpecFloat Lia Reals Lra.
Import ListNotations.
From Flocq Require Import Core.
From Flocq.IEEE754 Require Import BinarySingleNaN.
From Verif Require Import Outcome Words Floats FloatsR HealthFloat Approx_Model Bits_Model Health_Proofs Strat_Model Strat_Spec Strat_Proofs.
Local Open Scope R_scope.

Lemma L01 : okd (dlit 1 10) /\ 99/1000 < R (dlit 1 10) < 101/1000. Proof. lit. Qed.
Lemma L08 : okd (dlit 8 10) /\ 79/100 < R (dlit 8 10) < 81/100. Proof. lit. Qed.
Lemma L11 : okd (dlit 11 10) /\ 109/100 < R (dlit 11 10) < 111/100. Proof. lit. Qed.
Lemma L06 : okd (dlit 6 10) /\ 599/1000 < R (dlit 6 10) < 601/1000. Proof. lit. Qed.
Lemma L33 : okd (dlit 33 100) /\ 329/1000 < R (dlit 33 100) < 331/1000. Proof. lit. Qed.
Lemma L65 : okd (dlit 65 100) /\ 649/1000 < R (dlit 65 100) < 651/1000. Proof. lit. Qed.
Lemma Z1 : okd (dofZ 1) /\ R (dofZ 1) = 1. Proof. lit. Qed.
Lemma Z2 : okd (dofZ 2) /\ R (dofZ 2) = 2. Proof. lit. Qed.
Lemma Z3 : okd (dofZ 3) /\ R (dofZ 3) = 3. Proof. lit. Qed.
Lemma Z4 : okd (dofZ 4) /\ R (dofZ 4) = 4. Proof. lit. Qed.
Lemma Z0 : okd (dofZ 0) /\ R (dofZ 0) = 0. Proof. lit. Qed.
Local Opaque dlit dofZ dadd dsub dmul ddiv.

Definition hin (h : sf) : Prop := inr (R (dlit 1 10)) 1 h.
Lemma hin_one : hin (dofZ 1).
Proof. destruct Z1 as [O E], L01 as [_ B]. split; [exact O|lra]. Qed.
Lemma worse_R h : hin h -> hin (worse h) /\ R (worse h) <= R h /\ (R (dlit 1 10) < R h -> R (worse h) < R h).
Proof.
  intros [Oh [A B]]. destruct L01 as [O1 B1], L08 as [O8 B8].
  destruct (mul_d h (dlit 8 10) Oh O8) as [Om Em]; [unfold mid; nra|].
  destruct (fmax_d (dlit 1 10) (dmul h (dlit 8 10)) O1 Om) as [Of Ef]. unfold worse. rewrite Em in Ef.
  assert (U : rnd64 (R h * R (dlit 8 10)) <= R h) by (apply rnd64_le; [exact Oh|nra]).
  assert (N : bpow radix2 (-1022) <= R h * R (dlit 8 10)) by (apply small_normal; nra).
  destruct (rnd64_rel _ N) as [_ Up].
  split; [split; [exact Of|]; rewrite Ef; split; [apply Rmax_l|apply Rmax_lub; lra]|]. rewrite Ef. split; [apply Rmax_lub; lra|].
  intros S. apply Rmax_lub_lt; [exact S|]. nra.
Qed.
Lemma better_R h : hin h -> hin (better h) /\ R h <= R (better h).
Proof.
  intros [Oh [A B]]. destruct L01 as [O1 B1], L11 as [O8 B8], Z1 as [OO EO].
  destruct (mul_d h (dlit 11 10) Oh O8) as [Om Em]; [unfold mid; nra|].
  destruct (fmin_d (dofZ 1) (dmul h (dlit 11 10)) OO Om) as [Of Ef]. unfold better. rewrite Em, EO in Ef.
  assert (U : R h <= rnd64 (R h * R (dlit 11 10))) by (apply rnd64_ge; [exact Oh|nra]).
  assert (C : R h <= Rmin 1 (rnd64 (R h * R (dlit 11 10)))) by (apply Rmin_glb; lra).
  split; [split; [exact Of|]; rewrite Ef; split; [lra|apply Rmin_l]|]. rewrite Ef. exact C.
Qed.
Definition hgood (h : scores) : Prop := hin (s1 h) /\ hin (s2 h) /\ hin (s3 h).
Lemma fresh_good : hgood fresh. Proof. repeat split; try apply hin_one; destruct Z1 as [O E], L01 as [_ B]; cbn [s1 s2 s3 fresh]; lra. Qed.
Lemma health_vote_good {V} (K : kind V) h r1 r2 r3 : hgood h -> hgood (snd (health_vote K h r1 r2 r3)).
Proof.
  intros G. destruct G as (A & B & C). destruct (worse_R _ A) as [A' _], (worse_R _ B) as [B' _], (worse_R _ C) as [C' _].
  destruct (better_R _ A) as [A2 _], (better_R _ B) as [B2 _], (better_R _ C) as [C2 _].
  unfold health_vote. repeat match goal with |- context [if ?b then _ else _] => destruct b end; cbn [snd]; (split; [|split]); cbn [s1 s2 s3]; assumption.
Qed.
Lemma health_life_good {V} (K : kind V) h : health_life K h -> hgood h.
Proof.
  induction 1 as [|S f s h r s' h' L IH E]; [exact fresh_good|]. apply exec_health_inv in E. destruct E as (r1 & r2 & r3 & _ & _ & E). injection E as ->. apply health_vote_good. exact IH.
Qed.
Definition total_of (h : scores) : sf := dadd (dadd (s1 h) (s2 h)) (s3 h).
Lemma total_R h : hgood h -> okd (total_of h) /\ 29/100 <= R (total_of h) <= 4 /\
  (forall k, (k < 3)%nat -> R (score h k) <= R (total_of h)).
Proof.
  intros ([O1 [A1 B1]] & [O2 [A2 B2]] & [O3 [A3 B3]]). destruct L01 as [OL BL], Z2 as [OZ2 EZ2], Z4 as [OZ4 EZ4].
  destruct (add_d _ _ O1 O2) as [Oa Ea]; [unfold mid; lra|].
  assert (Ua : R (dadd (s1 h) (s2 h)) <= 2) by (rewrite Ea, <- EZ2; apply rnd64_le; [exact OZ2|lra]).
  assert (La : R (s1 h) <= R (dadd (s1 h) (s2 h))) by (rewrite Ea; apply rnd64_ge; [exact O1|lra]).
  assert (Lb : R (s2 h) <= R (dadd (s1 h) (s2 h))) by (rewrite Ea; apply rnd64_ge; [exact O2|lra]).
  assert (Na : bpow radix2 (-1022) <= R (s1 h) + R (s2 h)) by (apply small_normal; lra).
  destruct (rnd64_rel _ Na) as [Ra _]. rewrite <- Ea in Ra.
  destruct (add_d _ _ Oa O3) as [Ot Et]; [unfold mid; lra|].
  assert (Nt : bpow radix2 (-1022) <= R (dadd (s1 h) (s2 h)) + R (s3 h)) by (apply small_normal; lra).
  destruct (rnd64_rel _ Nt) as [Rt _]. rewrite <- Et in Rt.
  assert (G1 : R (dadd (s1 h) (s2 h)) <= R (total_of h)) by (unfold total_of; rewrite Et; apply rnd64_ge; [exact Oa|lra]).
  assert (G3 : R (s3 h) <= R (total_of h)) by (unfold total_of; rewrite Et; apply rnd64_ge; [exact O3|lra]).
  split; [exact Ot|]. split.
  - split; [unfold total_of; lra|]. unfold total_of. rewrite Et, <- EZ4. apply rnd64_le; [exact OZ4|lra].
  - intros k Hk. destruct k as [|[|[|k]]]; cbn [score]; lra || lia.
Qed.
Lemma score_in h k : hgood h -> hin (score h k).
Proof. intros (A & B & C). destruct k as [|[|k]]; assumption. Qed.
Lemma weight_R h k : hgood h -> (k < 3)%nat -> okd (weight h (score h k)) /\ 24/1000 <= R (weight h (score h k)) <= 1 /\ R (weight h (score h k)) = rnd64 (R (score h k) / R (total_of h)).
Proof.
  intros G Hk. destruct (total_R h G) as (Ot & Bt & Lt). specialize (Lt k Hk). destruct (score_in h k G) as [Os [A B]]. destruct L01 as [OL BL], Z1 as [OO EO].
  assert (Q1 : 247 / 10000 <= R (score h k) / R (total_of h)).
  { apply Rmult_le_reg_r with (R (total_of h)); [lra|]. unfold Rdiv at 2. rewrite Rmult_assoc, Rinv_l by lra. lra. }
  assert (Q2 : R (score h k) / R (total_of h) <= 1).
  { apply Rmult_le_reg_r with (R (total_of h)); [lra|]. unfold Rdiv. rewrite Rmult_assoc, Rinv_l by lra. lra. }
  destruct (div_d _ _ Os Ot) as [Od Ed]; [lra|unfold mid; lra|]. change (weight h (score h k)) with (ddiv (score h k) (total_of h)).
  split; [exact Od|]. split; [|exact Ed]. rewrite Ed. split.
  - destruct (rnd64_rel (R (score h k) / R (total_of h))) as [L _]; [apply small_normal; lra|]. lra.
  - rewrite <- EO. apply rnd64_le; [exact OO|]. lra.
Qed.
(** two scores of 1 outweigh any third *)
Lemma pair_wins h i j k : hgood h -> (i < 3)%nat -> (j < 3)%nat -> (k < 3)%nat -> i <> j -> i <> k -> j <> k -> R (score h i) = 1 -> R (score h j) = 1 ->
  fgt (dadd (weight h (score h i)) (weight h (score h j))) (dlit 6 10) = true.
Proof.
  intros G Hi Hj Hk N1 N2 N3 Ei Ej. destruct (total_R h G) as (Ot & Bt & Lt). destruct (weight_R h i G Hi) as (Oi & Bi & Wi), (weight_R h j G Hj) as (Oj & Bj & Wj).
  destruct (score_in h k G) as [Ok [A B]]. destruct L33 as [O33 B33], L65 as [O65 B65], L06 as [O6 B6], Z3 as [OZ3 EZ3], Z2 as [OZ2 EZ2], L01 as [OL BL].
  assert (T3 : R (total_of h) <= 3).
  { assert (S3 : forall x, (x < 3)%nat -> R (score h x) <= 1) by (intros x Hx; destruct (score_in h x G) as [_ [_ U]]; exact U).
    pose proof (S3 0%nat ltac:(lia)) as U1. pose proof (S3 1%nat ltac:(lia)) as U2. pose proof (S3 2%nat ltac:(lia)) as U3. cbn [score] in U1, U2, U3.
    destruct (score_in h 0 G) as [O1 [A1 _]], (score_in h 1 G) as [O2 [A2 _]], (score_in h 2 G) as [O3 [A3 _]]. cbn [score] in O1, O2, O3, A1, A2, A3.
    destruct (add_d _ _ O1 O2) as [Oa Ea]; [unfold mid; lra|].
    assert (Ua : R (dadd (s1 h) (s2 h)) <= 2) by (rewrite Ea, <- EZ2; apply rnd64_le; [exact OZ2|lra]).
    assert (La : R (s1 h) <= R (dadd (s1 h) (s2 h))) by (rewrite Ea; apply rnd64_ge; [exact O1|lra]).
    destruct (add_d _ _ Oa O3) as [Ot' Et]; [unfold mid; lra|]. unfold total_of. rewrite Et, <- EZ3. apply rnd64_le; [exact OZ3|lra]. }
  assert (Q : 331 / 1000 <= 1 / R (total_of h)).
  { apply Rmult_le_reg_r with (R (total_of h)); [lra|]. unfold Rdiv at 2. rewrite Rmult_assoc, Rinv_l by lra. lra. }
  assert (Li : 329/1000 < R (weight h (score h i))) by (rewrite Wi, Ei; apply Rlt_le_trans with (R (dlit 33 100)); [lra|apply rnd64_ge; [exact O33|lra]]).
  assert (Lj : 329/1000 < R (weight h (score h j))) by (rewrite Wj, Ej; apply Rlt_le_trans with (R (dlit 33 100)); [lra|apply rnd64_ge; [exact O33|lra]]).
  destruct (add_d _ _ Oi Oj) as [Oa Ea]; [unfold mid; lra|].
  change (fgt ?a ?b) with (flt b a). apply flt_d; [exact O6|exact Oa|]. rewrite Ea. apply Rlt_le_trans with (R (dlit 65 100)); [lra|]. apply rnd64_ge; [exact O65|lra].
Qed.
Lemma healthiest_value {V} w1 w2 w3 (r1 r2 r3 : V) : let r := healthiest w1 w2 w3 r1 r2 r3 in
  (value r = r1 /\ confidence r = w1 \/ value r = r2 /\ confidence r = w2 \/ value r = r3 /\ confidence r = w3) /\ detected r = Some true /\ corrected r = Some false.
Proof. unfold healthiest. repeat match goal with |- context [if ?b then _ else _] => destruct b end; cbn [value confidence undecided detected corrected]; auto. Qed.
Lemma comb_R h i j : hgood h -> (i < 3)%nat -> (j < 3)%nat -> i <> j -> okd (dadd (weight h (score h i)) (weight h (score h j))) /\ 0 < R (dadd (weight h (score h i)) (weight h (score h j))) <= 2.
Proof.
  intros G Hi Hj N. destruct (weight_R h i G Hi) as (Oi & Bi & Wi), (weight_R h j G Hj) as (Oj & Bj & Wj). destruct Z2 as [OZ2 EZ2].
  destruct (add_d _ _ Oi Oj) as [Oa Ea]; [unfold mid; lra|]. split; [exact Oa|]. split.
  - apply Rlt_le_trans with (R (weight h (score h i))); [lra|]. rewrite Ea. apply rnd64_ge; [exact Oi|lra].
  - rewrite Ea, <- EZ2. apply rnd64_le; [exact OZ2|]. lra.
Qed.
Lemma health_vote_value {V} (K : kind V) h r1 r2 r3 : let r := fst (health_vote K h r1 r2 r3) in
  (value r = r1 \/ value r = r2 \/ value r = r3) /\ detected r = Some (negb (agree3 K r1 r2 r3)).
Proof.
  unfold health_vote, agree3. destruct (healthiest_value (weight h (s1 h)) (weight h (s2 h)) (weight h (s3 h)) r1 r2 r3) as [D [F1 F2]].
  destruct (eqv K r1 r2 && eqv K r1 r3); cbn [fst value detected agreeing negb]; auto.
  destruct (eqv K r1 r2); [|destruct (eqv K r1 r3); [|destruct (eqv K r2 r3)]]; try (match goal with |- context [fgt ?a ?b] => destruct (fgt a b) end); cbn [fst value detected agreeing]; auto; (split; [destruct D as [[-> _]|[[-> _]|[-> _]]]; auto|exact F1]).
Qed.
Lemma lone_inv {V} (K : kind V) k h : per K -> (k < 3)%nat -> lone_fault K k h -> hgood h /\ forall j, (j < 3)%nat -> j <> k -> score h j = dofZ 1.
Proof.
  intros [Sy Tr] Hk. induction 1 as [|S f s h r1 r2 r3 r s' h' L [G IH] C O E]; [split; [exact fresh_good|]; intros [|[|j]]; reflexivity|].
  rewrite (exec_health K f s r1 r2 r3 s' h C) in E. injection E as _ <-. split; [apply health_vote_good; exact G|]. intros j Hj Nj. specialize (IH j Hj Nj). rewrite <- IH.
  unfold health_vote. destruct (eqv K r1 r2) eqn:E12, (eqv K r1 r3) eqn:E13; cbn [andb snd]; try reflexivity.
  - destruct k as [|[|k]]; cbn [others_agree] in O; [rewrite (Tr _ _ _ E12 O) in E13; discriminate|congruence|]. assert (k = 0)%nat by lia. subst k.
    destruct (fgt _ _); cbn [snd]; [|reflexivity]. destruct j as [|[|[|j]]]; try reflexivity; lia.
  - destruct k as [|[|k]]; cbn [others_agree] in O; [rewrite (Tr _ _ _ E13 (Sy _ _ O)) in E12; discriminate| |congruence].
    destruct (fgt _ _); cbn [snd]; [|reflexivity]. destruct j as [|[|[|j]]]; try reflexivity; lia.
  - destruct k as [|[|k]]; cbn [others_agree] in O; [|congruence|congruence]. rewrite O.
    destruct (fgt _ _); cbn [snd]; [|reflexivity]. destruct j as [|[|[|j]]]; try reflexivity; lia.
Qed.
Lemma lone_masks {V} (K : kind V) k h r1 r2 r3 : per K -> (k < 3)%nat -> lone_fault K k h -> others_agree K k r1 r2 r3 ->
  let r := fst (health_vote K h r1 r2 r3) in eqv K (value r) (other k r1 r2 r3) = true /\ corrected r = Some (negb (agree3 K r1 r2 r3)).
Proof.
  intros P Hk L O. destruct (lone_inv K k h P Hk L) as [G E]. destruct P as [Sy Tr]. destruct Z1 as [_ E1].
  assert (W : forall i j, (i < 3)%nat -> (j < 3)%nat -> i <> j -> i <> k -> j <> k -> fgt (dadd (weight h (score h i)) (weight h (score h j))) (dlit 6 10) = true).
  { intros i j Hi Hj N1 N2 N3. apply (pair_wins h i j k); auto; rewrite E; auto. }
  unfold health_vote, agree3. destruct (eqv K r1 r2) eqn:E12, (eqv K r1 r3) eqn:E13; cbn [andb negb].
  - cbn [fst value corrected]. split; [|reflexivity]. destruct k as [|[|k]]; cbn [other]; [exact E12|exact E13|]. apply (Tr _ _ _ E12 (Sy _ _ E12)).
  - destruct k as [|[|k]]; cbn [others_agree] in O; [rewrite (Tr _ _ _ E12 O) in E13; discriminate|congruence|].
    pose proof (W 0%nat 1%nat ltac:(lia) ltac:(lia) ltac:(lia) ltac:(lia) ltac:(lia)) as Q. cbn [score] in Q. rewrite Q. cbn [fst value corrected agreeing other]. split; [|reflexivity]. apply (Tr _ _ _ E12 (Sy _ _ E12)).
  - destruct k as [|[|k]]; cbn [others_agree] in O; [rewrite (Tr _ _ _ E13 (Sy _ _ O)) in E12; discriminate| |congruence].
    pose proof (W 0%nat 2%nat ltac:(lia) ltac:(lia) ltac:(lia) ltac:(lia) ltac:(lia)) as Q. cbn [score] in Q. rewrite Q. cbn [fst value corrected agreeing other]. split; [exact E13|reflexivity].
  - destruct k as [|[|k]]; cbn [others_agree] in O; [|congruence|congruence]. pose proof (W 1%nat 2%nat ltac:(lia) ltac:(lia) ltac:(lia) ltac:(lia) ltac:(lia)) as Q. cbn [score] in Q. rewrite O, Q. cbn [fst value corrected agreeing other]. split; [apply (Tr _ _ _ O (Sy _ _ O))|reflexivity].
Qed.
(* the scores after a vote in which some pair agrees *)
Lemma outvoted {V} (K : kind V) h r1 r2 r3 : hgood h -> some_pair K r1 r2 r3 = true -> forall k, (k < 3)%nat ->
  fle (score (snd (health_vote K h r1 r2 r3)) k) (score h k) = true.
Proof.
  intros G P k Hk.
  assert (Rf : forall j, fle (score h j) (score h j) = true) by (intros j; destruct (score_in h j G) as [O _]; apply fle_d; auto; lra).
  assert (Wf : forall j, fle (worse (score h j)) (score h j) = true).
  { intros j. pose proof (score_in h j G) as I. destruct (worse_R _ I) as [[Ow _] [L _]]. apply fle_d; [exact Ow|apply I|exact L]. }
  unfold some_pair in P. unfold health_vote. destruct (eqv K r1 r2 && eqv K r1 r3); cbn [snd]; [apply Rf|].
  destruct (eqv K r1 r2); [|destruct (eqv K r1 r3); [|cbn [orb] in P; rewrite P]]; (destruct (fgt _ _); cbn [snd]; [|apply Rf]);
    (destruct k as [|[|[|k]]]; [apply (Rf 0%nat) || apply (Wf 0%nat)|apply (Rf 1%nat) || apply (Wf 1%nat)|apply (Rf 2%nat) || apply (Wf 2%nat)|lia]).
Qed.

(** == of the instantiated types is a partial equivalence *)
Lemma per_int : per kint.
Proof. split; cbn [eqv kint]; intros *; rewrite !Z.eqb_eq; congruence. Qed.
Lemma per_bool : per kbool.
Proof. split; cbn [eqv kbool]; intros *; rewrite !eqb_true_iff; congruence. Qed.
Lemma feqb_cases a b : feqb a b = true <-> (a = b /\ a <> S754_nan) \/ (exists x y, a = S754_zero x /\ b = S754_zero y).
Proof.
  unfold feqb, SFeqb. split.
  - destruct a as [x|[]| |[] m e], b as [y|[]| |[] m' e']; cbn; try discriminate; intros H; try (left; split; [reflexivity|discriminate]); try (right; eauto; fail).
    + destruct (Z.compare_spec e e'); try discriminate. subst. change (Pos.compare_cont Eq m m') with (Pos.compare m m') in H. destruct (Pos.compare_spec m m'); try discriminate. subst. left. split; [reflexivity|discriminate].
    + destruct (Z.compare_spec e e'); try discriminate. subst. change (Pos.compare_cont Eq m m') with (Pos.compare m m') in H. destruct (Pos.compare_spec m m'); try discriminate. subst. left. split; [reflexivity|discriminate].
  - intros [[<- N]|(x & y & -> & ->)]; [|reflexivity]. destruct a as [x|[]| |[] m e]; cbn; try reflexivity; [congruence| |];
      rewrite Z.compare_refl; change (Pos.compare_cont Eq m m) with (Pos.compare m m); rewrite Pos.compare_refl; reflexivity.
Qed.
Lemma feqb_sym a b : feqb a b = true -> feqb b a = true.
Proof. rewrite !feqb_cases. intros [[-> N]|(x & y & -> & ->)]; [auto|right; eauto]. Qed.
Lemma feqb_trans a b c : feqb a b = true -> feqb b c = true -> feqb a c = true.
Proof. rewrite !feqb_cases. intros [[-> N]|(x & y & -> & ->)]; [auto|]. intros [[<- N]|(x' & y' & _ & ->)]; right; eauto. Qed.
Lemma per_float : per kfloat.
Proof. split; [exact feqb_sym|exact feqb_trans]. Qed.
Lemma per_vec : per kvec.
Proof.
  split; cbn [eqv kvec].
  - induction a as [|x a IH]; intros [|y b]; cbn [veq]; try discriminate; [reflexivity|]. rewrite !andb_true_iff. intros [A B]. split; [apply feqb_sym; exact A|apply IH; exact B].
  - induction a as [|x a IH]; intros [|y b] [|z c]; cbn [veq]; try discriminate; [reflexivity|]. rewrite !andb_true_iff. intros [A B] [C D]. split; [exact (feqb_trans _ _ _ A C)|exact (IH _ _ B D)].
Qed.
