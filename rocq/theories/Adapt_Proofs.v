(** Proofs about AdaptiveProtection. *)
From Coq Require Import List NArith ZArith Bool Arith Lia SpecFloat Reals Lra.
Import ListNotations.
From Flocq Require Import Core IEEE754.BinarySingleNaN.
From Verif Require Import Outcome Words Floats FloatsR HealthFloat BitsFloat_Proofs FloatsS RMA3_Proofs Power2_Proofs Adapt_Model Adapt_Spec.
Local Open Scope R_scope.

(** ** rounding *)
Lemma rnd_close x : 0 <= x -> x * (1 - / 9007199254740992) - bpow radix2 (-1022) <= rnd64 x <= x * (1 + / 9007199254740992) + bpow radix2 (-1022).
Proof.
  intros H. pose proof (bpow_gt_0 radix2 (-1022)) as T. destruct (Rle_lt_dec (bpow radix2 (-1022)) x) as [L|L].
  - pose proof (rnd64_rel x L). lra.
  - assert (A : 0 <= rnd64 x) by (apply rnd_pos; exact H).
    assert (B : rnd64 x <= bpow radix2 (-1022)).
    { assert (F : rnd64 (bpow radix2 (-1022)) = bpow radix2 (-1022)). { replace (bpow radix2 (-1022)) with (IZR 1 * bpow radix2 (-1022)) by lra. apply fmt64; lia. }
      rewrite <- F. apply rnd_mono. lra. }
    lra.
Qed.
Definition al : sf := dlit 3 10.
Definition be : sf := dsub (dofZ 1) (dlit 3 10).
Lemma al_ok : okd al.
Proof. split; vm_compute; reflexivity. Qed.
Lemma be_ok : okd be.
Proof. split; vm_compute; reflexivity. Qed.
Lemma al_R : R al = 5404319552844595 / 18014398509481984.
Proof.
  replace al with (S754_finite false 5404319552844595 (-54)) by (vm_compute; reflexivity). unfold R, SF2R, cond_Zopp, F2R. cbn [Fnum Fexp].
  change (bpow radix2 (-54)) with (/ IZR 18014398509481984). lra.
Qed.
Lemma be_R : R be = 6305039478318694 / 9007199254740992.
Proof.
  replace be with (S754_finite false 6305039478318694 (-53)) by (vm_compute; reflexivity). unfold R, SF2R, cond_Zopp, F2R. cbn [Fnum Fexp].
  change (bpow radix2 (-53)) with (/ IZR 9007199254740992). lra.
Qed.

(** ** one update *)
Definition rate_of (cnt el : Z) : sf := ddiv (dofZ cnt) (dofZ el).
Definition ema (cnt el : Z) (f : sf) : sf := dadd (dmul al (rate_of cnt el)) (dmul be f).
Definition flux_ok (f : sf) : Prop := okd f /\ 0 <= R f <= 8589934592.
Lemma rate_R cnt el : (0 <= cnt < 2 ^ 32)%Z -> (1 <= el < 2 ^ 53)%Z ->
  okd (rate_of cnt el) /\ R (rate_of cnt el) = rnd64 (IZR cnt / IZR el) /\ 0 <= IZR cnt / IZR el <= 4294967295.
Proof.
  intros Hc He. destruct (ofZ_ex cnt) as [C1 C2]; [lia|]. destruct (ofZ_ex el) as [E1 E2]; [lia|].
  assert (Ep : 1 <= IZR el) by (apply IZR_le; lia). assert (Cp : 0 <= IZR cnt <= 4294967295) by (split; apply IZR_le; lia).
  assert (Q : 0 <= IZR cnt / IZR el <= 4294967295).
  { split; [apply Rmult_le_pos; [lra|left; apply Rinv_0_lt_compat; lra]|]. apply (Rmult_le_reg_r (IZR el)); [lra|]. unfold Rdiv. rewrite Rmult_assoc, Rinv_l by lra. nra. }
  destruct (div_d (dofZ cnt) (dofZ el) C1 E1) as [A B]; [lra|rewrite C2, E2; unfold mid; lra|]. rewrite C2, E2 in B. auto.
Qed.
Lemma ema_R cnt el f : (0 <= cnt < 2 ^ 32)%Z -> (1 <= el < 2 ^ 53)%Z -> flux_ok f ->
  let q := R (rate_of cnt el) in let p := rnd64 (R al * q) in let g := rnd64 (R be * R f) in
  flux_ok (ema cnt el f) /\ R (ema cnt el f) = rnd64 (p + g) /\ 0 <= q <= 4294967295 /\ 0 <= p <= 1288490189 /\ 0 <= g <= 6012954215 /\ R (dmul be f) = g /\ okd (dmul be f).
Proof.
  intros Hc He [F1 F2] q p g. destruct (rate_R cnt el Hc He) as (Q1 & Q2 & Q3).
  assert (Q4 : 0 <= q <= 4294967295).
  { unfold q. rewrite Q2. split; [apply rnd_pos; lra|]. rewrite <- (rnd_z 4294967295) by reflexivity. apply rnd_mono. lra. }
  destruct (mul_d al (rate_of cnt el) al_ok Q1) as [P1 P2]; [fold q; rewrite al_R; unfold mid; lra|]. fold q p in P2.
  assert (P3 : 0 <= p <= 1288490189).
  { unfold p. rewrite al_R. split; [apply rnd_pos; lra|]. rewrite <- (rnd_z 1288490189) by reflexivity. apply rnd_mono. lra. }
  destruct (mul_d be f be_ok F1) as [G1 G2]; [rewrite be_R; unfold mid; lra|]. fold g in G2.
  assert (G3 : 0 <= g <= 6012954215).
  { unfold g. rewrite be_R. split; [apply rnd_pos; lra|]. rewrite <- (rnd_z 6012954215) by reflexivity. apply rnd_mono. lra. }
  destruct (add_d _ _ P1 G1) as [S1 S2]; [rewrite P2, G2; unfold mid; lra|]. rewrite P2, G2 in S2. fold (ema cnt el f) in S1, S2.
  split; [|split; [exact S2|split; [exact Q4|split; [exact P3|split; [exact G3|split; [exact G2|exact G1]]]]]]. split; [exact S1|]. rewrite S2. split; [apply rnd_pos; lra|].
  rewrite <- (rnd_z 8589934592) by reflexivity. apply rnd_mono. lra.
Qed.
Theorem ema_near cnt el f : (0 <= cnt < 2 ^ 32)%Z -> (1 <= el < 2 ^ 53)%Z -> flux_ok f ->
  nearly (R (ema cnt el f)) (3 / 10 * (IZR cnt / IZR el) + 7 / 10 * R f) (IZR cnt / IZR el + R f).
Proof.
  intros Hc He Hf. destruct (ema_R cnt el f Hc He Hf) as (_ & E & Q & P & G & _). destruct (rate_R cnt el Hc He) as (_ & Q2 & X). destruct Hf as [_ F2].
  rewrite E. rewrite Q2 in *. unfold nearly.
  pose proof (rnd_close _ (proj1 X)) as A1. set (x := IZR cnt / IZR el) in *. set (q := rnd64 x) in *.
  assert (Pa : 0 <= R al * q) by (rewrite al_R; lra). pose proof (rnd_close _ Pa) as A2. set (p := rnd64 (R al * q)) in *. rewrite al_R in A2.
  assert (Pb : 0 <= R be * R f) by (rewrite be_R; lra). pose proof (rnd_close _ Pb) as A3. set (g := rnd64 (R be * R f)) in *. rewrite be_R in A3.
  assert (Pc : 0 <= p + g) by lra. pose proof (rnd_close _ Pc) as A4.
  assert (T : 0 < bpow radix2 (-1022) /\ 1048576 * bpow radix2 (-1022) <= bpow radix2 (-1000)).
  { split; [apply bpow_gt_0|]. change (-1000)%Z with (20 + (-1020))%Z. change (-1022)%Z with (0 + (-1022))%Z. rewrite !bpow_plus.
    assert (bpow radix2 (-1022) <= bpow radix2 (-1020)) by (apply bpow_le; lia). assert (bpow radix2 20 = 1048576) by reflexivity. assert (bpow radix2 0 = 1) by reflexivity.
    rewrite H0, H1. lra. }
  set (t := bpow radix2 (-1022)) in *. destruct T as [T1 T2]. set (t2 := bpow radix2 (-1000)) in *. apply Rabs_le. split; lra.
Qed.
(** monotone bounds *)
Lemma ema_burst cnt el f : (0 <= cnt < 2 ^ 32)%Z -> (1 <= el < 2 ^ 53)%Z -> flux_ok f -> (4 * el <= cnt)%Z -> 1 <= R (ema cnt el f).
Proof.
  intros Hc He Hf H. destruct (ema_R cnt el f Hc He Hf) as (_ & E & Q & P & G & _). destruct (rate_R cnt el Hc He) as (_ & Q2 & X).
  assert (Ep : 1 <= IZR el) by (apply IZR_le; lia).
  assert (A : 4 <= IZR cnt / IZR el). { apply (Rmult_le_reg_r (IZR el)); [lra|]. unfold Rdiv. rewrite Rmult_assoc, Rinv_l by lra. rewrite Rmult_1_r, <- mult_IZR. apply IZR_le. lia. }
  assert (B : 4 <= R (rate_of cnt el)). { rewrite Q2. rewrite <- (rnd_z 4) by reflexivity. apply rnd_mono. exact A. }
  assert (C : 1 <= rnd64 (R al * R (rate_of cnt el))). { rewrite <- (rnd_z 1) at 1 by reflexivity. apply rnd_mono. rewrite al_R. lra. }
  rewrite E. rewrite <- (rnd_z 1) at 1 by reflexivity. apply rnd_mono. lra.
Qed.
Lemma ema_zero el f : (1 <= el < 2 ^ 53)%Z -> flux_ok f -> R (ema 0 el f) = rnd64 (R be * R f).
Proof.
  intros He Hf. destruct (ema_R 0 el f ltac:(lia) He Hf) as (_ & E & _ & _ & _ & G & GO). destruct (rate_R 0 el ltac:(lia) He) as (_ & Q2 & _).
  assert (Q0 : R (rate_of 0 el) = 0). { rewrite Q2. unfold Rdiv. rewrite Rmult_0_l. apply (rnd_z 0). reflexivity. }
  rewrite E, Q0, Rmult_0_r. replace (rnd64 0) with 0 by (symmetry; apply (rnd_z 0); reflexivity). rewrite Rplus_0_l. rewrite <- G. apply (rnd_R 53 1024). apply GO.
Qed.

(** ** states *)
Definition inv (s : ap) : Prop := flux_ok (flux s) /\ clock (last s).
Lemma recommended_band f : okd f -> in_band (recommended f) f.
Proof.
  intros O. unfold recommended, fge. destruct (ofZ_ex 1) as [A B]; [lia|].
  assert (T : okd (dlit 1 10)) by (split; vm_compute; reflexivity). assert (H : okd (dlit 1 100)) by (split; vm_compute; reflexivity).
  assert (N : forall x, okd x -> fle x f = false -> R f < R x). { intros x Ox Q. apply Rnot_le_lt. intros L. apply (fle_d x f Ox O) in L. congruence. }
  change (SFleb (dofZ 1) f) with (fle (dofZ 1) f). change (SFleb (dlit 1 10) f) with (fle (dlit 1 10) f). change (SFleb (dlit 1 100) f) with (fle (dlit 1 100) f).
  destruct (fle (dofZ 1) f) eqn:E1; [apply (fle_d _ _ A O) in E1; rewrite B in E1; exact E1|apply N in E1; [|exact A]; rewrite B in E1].
  destruct (fle (dlit 1 10) f) eqn:E2; [apply (fle_d _ _ T O) in E2; split; assumption|apply N in E2; [|exact T]].
  destruct (fle (dlit 1 100) f) eqn:E3; [apply (fle_d _ _ H O) in E3; split; assumption|apply N in E3; [|exact H]]. exact E3.
Qed.
Lemma level_eqb_eq a b : level_eqb a b = true <-> a = b.
Proof. destruct a, b; simpl; split; congruence. Qed.
(** what any operation that may change the level does *)
Definition noted_b (s s' : ap) : Prop := notes s' = if level_eqb (cur s) (cur s') then notes s else (map fst (cbs s), cur s') :: notes s.
Lemma notify_ret s s' : notify s = Ret s' -> cur s' = cur s /\ flux s' = flux s /\ flips_ s' = flips_ s /\ errs_ s' = errs_ s /\ last s' = last s /\ cbs s' = cbs s /\ next_handle s' = next_handle s /\
  notes s' = (map fst (cbs s), cur s) :: notes s.
Proof. unfold notify. destruct (existsb _ _); [discriminate|]. intros H. injection H as <-. repeat split. Qed.
Lemma adjust_ret s s' : adjust s = Ret s' -> cur s' = recommended (flux s) /\ flux s' = flux s /\ flips_ s' = flips_ s /\ errs_ s' = errs_ s /\ last s' = last s /\ cbs s' = cbs s /\
  next_handle s' = next_handle s /\ noted_b s s'.
Proof.
  unfold adjust. cbv zeta. destruct (level_eqb (recommended (flux s)) (cur s)) eqn:E.
  - intros H. injection H as <-. apply level_eqb_eq in E. unfold noted_b. rewrite (proj2 (level_eqb_eq _ _) eq_refl). auto 10.
  - intros H. apply notify_ret in H as (A & B & C & D & F & G & I & J). cbn [with_level cur flux flips_ errs_ last cbs next_handle notes] in *.
    unfold noted_b. rewrite A, J. replace (level_eqb (cur s) (recommended (flux s))) with false; [auto 10|].
    symmetry. apply not_true_iff_false. intros X. apply level_eqb_eq in X. rewrite <- X, (proj2 (level_eqb_eq _ _) eq_refl) in E. discriminate.
Qed.
Lemma quot_seconds a b : (0 < Z.quot (b - a) 1000000000)%Z -> Z.quot (b - a) 1000000000 = seconds a b.
Proof. intros H. unfold seconds. destruct (Z.le_gt_cases 0 (b - a)) as [L|L]; [apply Z.quot_div_nonneg; lia|]. exfalso. replace (b - a)%Z with (- (a - b))%Z in H by lia. rewrite Z.quot_opp_l in H by lia. pose proof (Z.quot_pos (a - b) 1000000000). lia. Qed.
Lemma seconds_quot a b : (1 <= seconds a b)%Z -> Z.quot (b - a) 1000000000 = seconds a b.
Proof. intros H. unfold seconds in *. apply Z.quot_div_nonneg; [|lia]. pose proof (Z.mul_div_le (b - a) 1000000000). lia. Qed.
Lemma seconds_bound a b : clock a -> clock b -> (seconds a b < 2 ^ 53)%Z.
Proof. unfold clock, seconds. intros A B. apply Z.div_lt_upper_bound; [lia|]. lia. Qed.
Lemma update_eff s a b now : inv s -> clock now -> (1 <= seconds (last s) now)%Z -> forall s', ap_update s a b now = Ret s' ->
  cur s' = recommended (flux s') /\ flux s' = ema (Z.of_N (wrap 32 (a + b))) (seconds (last s) now) (flux s) /\ flips_ s' = a /\ errs_ s' = b /\ last s' = now /\ cbs s' = cbs s /\
  next_handle s' = next_handle s /\ noted_b s s' /\ inv s'.
Proof.
  intros [F C] Cn El s' H. unfold ap_update in H. rewrite (seconds_quot _ _ El) in H. rewrite (proj2 (Z.ltb_lt 0 (seconds (last s) now))) in H by lia.
  apply adjust_ret in H as (A & B & Cc & D & E & G & I & J). cbn [cur flux flips_ errs_ last cbs next_handle notes] in *.
  change (flux s' = ema (Z.of_N (wrap 32 (a + b))) (seconds (last s) now) (flux s)) in B.
  split; [rewrite A, B; reflexivity|]. do 6 (split; [assumption|]). split; [exact J|]. split; [|rewrite E; exact Cn].
  rewrite B. apply ema_R; [pose proof (wrap_lt 32 (a + b)); lia|pose proof (seconds_bound _ _ C Cn); lia|exact F].
Qed.
Lemma update_drop s a b now : (seconds (last s) now < 1)%Z -> ap_update s a b now = Ret s.
Proof.
  intros H. unfold ap_update. destruct (Z.ltb_spec 0 (Z.quot (now - last s) 1000000000)) as [L|L]; [|reflexivity]. rewrite quot_seconds in L by exact L. lia.
Qed.
Lemma step_inv s o s' : inv s -> legal_ap o -> ap_step s o = Ret s' -> inv s'.
Proof.
  intros I L H. destruct o as [a b now|d|l|c|h]; cbn [ap_step] in H.
  - destruct (Z.lt_ge_cases (seconds (last s) now) 1) as [Q|Q]; [rewrite update_drop in H by exact Q; injection H as <-; exact I|].
    apply (update_eff s a b now I) in H; [apply H|apply L|lia].
  - unfold ap_temporarily_increase in H. destruct (level_eqb _ _); [injection H as <-; exact I|]. apply notify_ret in H as (A & B & _ & _ & C & _). unfold inv. rewrite B, C. exact I.
  - unfold ap_set_initial in H. destruct (level_eqb _ _); [injection H as <-; exact I|]. apply notify_ret in H as (A & B & _ & _ & C & _). unfold inv. rewrite B, C. exact I.
  - unfold ap_register in H. destruct (_ <=? _)%Z; [discriminate H|]. injection H as <-. exact I.
  - injection H as <-. exact I.
Qed.
Lemma new_inv l t : clock t -> inv (ap_new l t).
Proof.
  intros H. split; [|exact H]. split; [split; reflexivity|]. change (R (flux (ap_new l t))) with 0. lra.
Qed.
Lemma run_inv ops : forall s s', inv s -> Forall legal_ap ops -> ap_run s ops = Ret s' -> inv s'.
Proof.
  induction ops as [|o ops IH]; intros s s' I L H; [injection H as <-; exact I|]. cbn [ap_run] in H. inversion L; subst.
  destruct (ap_step s o) as [s1|r|e|] eqn:E; [|discriminate H|discriminate H|discriminate H]. apply (IH s1); [apply (step_inv s o); assumption|assumption|exact H].
Qed.
Theorem level_follows l t ops s a b now s' : clock t -> Forall legal_ap ops -> ap_run (ap_new l t) ops = Ret s -> legal_ap (AUpdate a b now) -> (1 <= seconds (last s) now)%Z ->
  (a + b < 2 ^ 32)%N -> ap_update s a b now = Ret s' ->
  okd (flux s') /\ 0 <= R (flux s') <= 8589934592 /\ in_band (cur s') (flux s') /\ flips_ s' = a /\ errs_ s' = b /\ last s' = now /\
  let rate := IZR (Z.of_N (a + b)) / IZR (seconds (last s) now) in nearly (R (flux s')) (3 / 10 * rate + 7 / 10 * R (flux s)) (rate + R (flux s)).
Proof.
  intros Ht L Hr (La & Lb & Ln) El Sm H. pose proof (run_inv _ _ _ (new_inv l t Ht) L Hr) as I.
  destruct (update_eff s a b now I Ln El s' H) as (A & B & C & D & E & _ & _ & _ & I'). destruct I' as [[O F] _].
  split; [exact O|]. split; [exact F|]. split; [rewrite A; apply recommended_band; exact O|]. do 3 (split; [assumption|]). cbv zeta.
  rewrite B. rewrite wrap_small by exact Sm. apply ema_near; [lia|pose proof (seconds_bound _ _ (proj2 I) Ln); lia|apply I].
Qed.
Theorem burst l t ops s a b now s' : clock t -> Forall legal_ap ops -> ap_run (ap_new l t) ops = Ret s -> legal_ap (AUpdate a b now) -> (1 <= seconds (last s) now)%Z ->
  (a + b < 2 ^ 32)%N -> (4 * seconds (last s) now <= Z.of_N (a + b))%Z -> ap_update s a b now = Ret s' -> cur s' = MAXIMUM.
Proof.
  intros Ht L Hr (La & Lb & Ln) El Sm Hb H. pose proof (run_inv _ _ _ (new_inv l t Ht) L Hr) as I.
  destruct (update_eff s a b now I Ln El s' H) as (A & B & _ & _ & _ & _ & _ & _ & I'). destruct I' as [[O F] _].
  assert (X : 1 <= R (flux s')). { rewrite B, wrap_small by exact Sm. apply ema_burst; [lia|pose proof (seconds_bound _ _ (proj2 I) Ln); lia|apply I|exact Hb]. }
  rewrite A. unfold recommended. destruct (ofZ_ex 1) as [P Q]; [lia|]. replace (fge (flux s') (dofZ 1)) with true; [reflexivity|].
  symmetry. apply (fle_d (dofZ 1) (flux s') P O). rewrite Q. exact X.
Qed.

(** ** notifications and handles *)
Theorem step_notes s o s' : ap_step s o = Ret s' -> noted_b s s'.
Proof.
  assert (Rf : forall x, noted_b x x) by (intros x; unfold noted_b; rewrite (proj2 (level_eqb_eq _ _) eq_refl); reflexivity).
  assert (W : forall l, level_eqb (cur s) l = false -> notify (with_level s l) = Ret s' -> noted_b s s').
  { intros l E H. apply notify_ret in H as (A & _ & _ & _ & _ & _ & _ & J). cbn [with_level cur cbs notes] in *. unfold noted_b. rewrite A, E. exact J. }
  intros H. destruct o as [a b now|d|l|c|h]; cbn [ap_step] in H.
  - unfold ap_update in H. cbv zeta in H. destruct (0 <? _)%Z; [|injection H as <-; apply Rf]. apply adjust_ret in H as (_ & _ & _ & _ & _ & _ & _ & J). exact J.
  - unfold ap_temporarily_increase in H. destruct (level_eqb (cur s) MAXIMUM) eqn:E; [injection H as <-; apply Rf|]. apply (W (raise_level (cur s))); [|exact H].
    destruct (cur s); try reflexivity. discriminate E.
  - unfold ap_set_initial in H. destruct (level_eqb (cur s) l) eqn:E; [injection H as <-; apply Rf|]. apply (W l); assumption.
  - unfold ap_register in H. destruct (_ <=? _)%Z; [discriminate H|]. injection H as <-. unfold noted_b. cbn. rewrite (proj2 (level_eqb_eq _ _) eq_refl). reflexivity.
  - injection H as <-. unfold noted_b. cbn. rewrite (proj2 (level_eqb_eq _ _) eq_refl). reflexivity.
Qed.
Definition hinv (s : ap) (n : nat) : Prop := next_handle s = Z.of_nat n /\ NoDup (map fst (cbs s)) /\ (forall h, In h (map fst (cbs s)) -> (0 <= h < next_handle s)%Z).
Lemma filter_nodup {A B} (f : A -> B) p l : NoDup (map f l) -> NoDup (map f (filter p l)).
Proof.
  induction l as [|x l IH]; intros H; [constructor|]. inversion H; subst. simpl. destruct (p x); [|auto]. simpl. constructor; [|auto].
  intros Q. apply H2. apply in_map_iff in Q as (y & E & Hy). apply filter_In in Hy. rewrite <- E. apply in_map. apply Hy.
Qed.
Lemma step_cbs s o s' : ap_step s o = Ret s' -> (forall c, o <> ARegister c) -> (forall h, o <> AUnregister h) -> cbs s' = cbs s /\ next_handle s' = next_handle s.
Proof.
  intros H N1 N2. destruct o as [a b now|d|l|c|h]; cbn [ap_step] in H.
  - unfold ap_update in H. cbv zeta in H. destruct (0 <? _)%Z; [|injection H as <-; auto]. apply adjust_ret in H as (_ & _ & _ & _ & _ & A & B & _). auto.
  - unfold ap_temporarily_increase in H. destruct (level_eqb _ _); [injection H as <-; auto|]. apply notify_ret in H as (_ & _ & _ & _ & _ & A & B & _). auto.
  - unfold ap_set_initial in H. destruct (level_eqb _ _); [injection H as <-; auto|]. apply notify_ret in H as (_ & _ & _ & _ & _ & A & B & _). auto.
  - exfalso. apply (N1 c). reflexivity.
  - exfalso. apply (N2 h). reflexivity.
Qed.
Lemma step_hinv s n o s' : hinv s n -> ap_step s o = Ret s' -> hinv s' (n + registrations [o]).
Proof.
  intros (A & B & C) H.
  assert (Oth : (forall c, o <> ARegister c) -> (forall h, o <> AUnregister h) -> hinv s' (n + registrations [o])).
  { intros N1 N2. destruct (step_cbs s o s' H N1 N2) as [E1 E2]. unfold hinv. rewrite E1, E2.
    replace (n + registrations [o])%nat with n by (destruct o as [? ? ?|?|?|c|?]; try (exfalso; apply (N1 c); reflexivity); cbn; lia). auto. }
  destruct o as [a b now|d|l|c|h]; try (apply Oth; discriminate).
  - cbn [ap_step] in H. unfold ap_register in H. destruct (_ <=? _)%Z; [discriminate H|]. injection H as <-. unfold hinv. cbn [next_handle cbs map fst]. split; [change (registrations [ARegister c]) with 1%nat; lia|].
    split; [constructor; [intros Q; apply C in Q; lia|exact B]|]. intros h [<-|Q]; [lia|apply C in Q; lia].
  - cbn [ap_step] in H. injection H as <-. unfold hinv. cbn [ap_unregister fst next_handle cbs]. split; [change (registrations [AUnregister h]) with 0%nat; lia|].
    split; [apply filter_nodup; exact B|]. intros k Q. apply C. apply in_map_iff in Q as (y & <- & Hy). apply in_map. apply filter_In in Hy. apply Hy.
Qed.
Lemma regs_cons o ops : registrations (o :: ops) = (registrations [o] + registrations ops)%nat.
Proof. unfold registrations. simpl. destruct o; reflexivity. Qed.
Lemma run_hinv ops : forall s s' n, hinv s n -> ap_run s ops = Ret s' -> hinv s' (n + registrations ops).
Proof.
  induction ops as [|o ops IH]; intros s s' n I H; [injection H as <-; simpl; rewrite Nat.add_0_r; exact I|]. cbn [ap_run] in H.
  destruct (ap_step s o) as [s1|r|e|] eqn:E; [|discriminate H|discriminate H|discriminate H]. rewrite regs_cons, Nat.add_assoc. apply (IH s1); [apply (step_hinv s n o); assumption|exact H].
Qed.
Theorem handles l t ops s : ap_run (ap_new l t) ops = Ret s -> NoDup (map fst (cbs s)) /\
  (forall c s' h, ap_register s c = Ret (s', h) -> h = Z.of_nat (registrations ops) /\ ~ In h (map fst (cbs s)) /\ cbs s' = (h, c) :: cbs s) /\
  (forall h s' r, ap_unregister s h = (s', r) -> (r = true <-> In h (map fst (cbs s))) /\ forall k, In k (map fst (cbs s')) <-> In k (map fst (cbs s)) /\ k <> h).
Proof.
  intros H. assert (I0 : hinv (ap_new l t) 0) by (split; [reflexivity|split; [constructor|intros h []]]).
  destruct (run_hinv _ _ _ _ I0 H) as (A & B & C). simpl in A. split; [exact B|]. split.
  - intros c s' h E. unfold ap_register in E. destruct (_ <=? _)%Z; [discriminate E|]. injection E as <- <-. split; [exact A|]. split; [intros Q; apply C in Q; lia|reflexivity].
  - intros h s' r E. unfold ap_unregister in E. injection E as <- <-. split.
    + rewrite existsb_exists. rewrite in_map_iff. split; intros (x & P & Q); exists x; [apply Z.eqb_eq in Q; auto|subst; split; [exact Q|apply Z.eqb_refl]].
    + intros k. cbn [cbs]. rewrite !in_map_iff. split.
      * intros (x & <- & Q). apply filter_In in Q as [Q1 Q2]. apply negb_true_iff, Z.eqb_neq in Q2. split; [exists x; auto|exact Q2].
      * intros [(x & <- & Q) N]. exists x. split; [reflexivity|]. apply filter_In. split; [exact Q|]. apply negb_true_iff, Z.eqb_neq. exact N.
Qed.
(** with callbacks that only look, every history is defined *)
Definition cinv (s : ap) : Prop := Forall (fun c => snd c = Observes) (cbs s).
Lemma notify_ok s : cinv s -> exists s', notify s = Ret s'.
Proof.
  intros H. unfold notify. replace (existsb _ (cbs s)) with false; [eexists; reflexivity|]. symmetry. apply not_true_iff_false. intros Q.
  apply existsb_exists in Q as (x & Hx & E). unfold cinv in H. rewrite Forall_forall in H. rewrite (H x Hx) in E. discriminate.
Qed.
Lemma step_ok s o n : cinv s -> observing o -> hinv s n -> (Z.of_nat (n + registrations [o]) <= 2147483647)%Z -> exists s', ap_step s o = Ret s' /\ cinv s'.
Proof.
  intros C O (A & _) Hn.
  assert (D : exists s', ap_step s o = Ret s').
  { destruct o as [a b now|d|l|c|h]; cbn [ap_step].
    - unfold ap_update, adjust. cbv zeta. destruct (0 <? _)%Z; [|eexists; reflexivity]. destruct (level_eqb _ _); [eexists; reflexivity|]. apply notify_ok. exact C.
    - unfold ap_temporarily_increase. destruct (level_eqb _ _); [eexists; reflexivity|]. apply notify_ok. exact C.
    - unfold ap_set_initial. destruct (level_eqb _ _); [eexists; reflexivity|]. apply notify_ok. exact C.
    - unfold ap_register. replace (2147483647 <=? next_handle s)%Z with false by (symmetry; apply Z.leb_gt; cbn in Hn; lia). eexists. reflexivity.
    - eexists. reflexivity. }
  destruct D as [s' D]. exists s'. split; [exact D|]. destruct o as [a b now|d|l|c|h];
    try (destruct (step_cbs _ _ _ D) as [E _]; [discriminate|discriminate|]; unfold cinv; rewrite E; exact C).
  - cbn [ap_step] in D. unfold ap_register in D. destruct (_ <=? _)%Z; [discriminate D|]. injection D as <-. constructor; [destruct c; [reflexivity|contradiction]|exact C].
  - cbn [ap_step] in D. injection D as <-. unfold cinv. cbn [ap_unregister fst cbs]. unfold cinv in C. rewrite Forall_forall in *. intros x Hx. apply filter_In in Hx. apply C. apply Hx.
Qed.
Theorem run_ok ops : forall s n, cinv s -> hinv s n -> Forall observing ops -> (Z.of_nat (n + registrations ops) <= 2147483647)%Z -> exists s', ap_run s ops = Ret s'.
Proof.
  induction ops as [|o ops IH]; intros s n C H L B; [eexists; reflexivity|]. inversion L; subst. rewrite regs_cons in B. cbn [ap_run].
  destruct (step_ok s o n C H2 H) as (s' & E & C'); [lia|]. rewrite E. apply (IH s' (n + registrations [o])%nat); [exact C'|apply (step_hinv s n o); assumption|assumption|lia].
Qed.

(** ** quiet *)
Definition decay (n : nat) : Rdefinitions.R := Rmax (9 / 1000) (8589934592 * (71 / 100) ^ n).
Lemma decay_step el f n : (1 <= el < 2 ^ 53)%Z -> flux_ok f -> R f <= decay n -> R (ema 0 el f) <= decay (S n).
Proof.
  intros He Hf H. rewrite ema_zero by assumption. unfold decay in *.
  assert (P : 0 < (71 / 100) ^ n) by (apply pow_lt; lra). cbn [pow].
  assert (F0 : 0 <= R f) by apply Hf. rewrite be_R.
  assert (X : 0 <= 6305039478318694 / 9007199254740992 * R f) by lra. pose proof (rnd_close _ X) as Cl.
  assert (T : bpow radix2 (-1022) <= / 1048576).
  { change (/ 1048576) with (bpow radix2 (-20)). apply bpow_le. lia. }
  set (t := bpow radix2 (-1022)) in *. pose proof (bpow_gt_0 radix2 (-1022)) as T0. fold t in T0.
  destruct (Rle_dec (R f) (9 / 1000)) as [L|L].
  - apply Rle_trans with (9 / 1000); [lra|apply Rmax_l].
  - unfold Rmax in H. destruct (Rle_dec (9 / 1000) (8589934592 * (71 / 100) ^ n)) as [M|M]; [|lra].
    apply Rle_trans with (8589934592 * (71 / 100 * (71 / 100) ^ n)); [lra|apply Rmax_r].
Qed.
Lemma frac_pow (n : nat) (a b : Z) : (71 ^ Z.of_nat n = a)%Z -> (100 ^ Z.of_nat n = b)%Z -> (0 < b)%Z -> (85907935854592 * a <= 99 * b)%Z -> 8589934592 * (71 / 100) ^ n <= 99 / 10001.
Proof.
  intros Ha Hb Hp H. unfold Rdiv. rewrite Rpow_mult_distr, pow_inv, !pow_IZR, Ha, Hb. apply IZR_lt in Hp. apply IZR_le in H. rewrite !mult_IZR in H.
  apply (Rmult_le_reg_r (IZR b * 10001)); [lra|].
  replace (8589934592 * (IZR a * / IZR b) * (IZR b * 10001)) with (85907935854592 * IZR a) by (field; lra).
  replace (99 * / 10001 * (IZR b * 10001)) with (99 * IZR b) by (field; lra). exact H.
Qed.
Lemma pow_small : 8589934592 * (71 / 100) ^ 82 <= 99 / 10001.
Proof. eapply (frac_pow 82); [vm_compute; reflexivity|vm_compute; reflexivity|apply Z.ltb_lt; vm_compute; reflexivity|apply Z.leb_le; vm_compute; reflexivity]. Qed.
Lemma decay_82 : decay 82 < R (dlit 1 100).
Proof.
  assert (L : 99 / 10000 <= R (dlit 1 100)).
  { replace (dlit 1 100) with (S754_finite false 5764607523034235 (-59)) by (vm_compute; reflexivity). unfold R, SF2R, cond_Zopp, F2R. cbn [Fnum Fexp].
    change (bpow radix2 (-59)) with (/ IZR 576460752303423488). lra. }
  unfold decay. apply Rmax_case; [lra|].
  apply Rle_lt_trans with (2 := Rlt_le_trans (99 / 10001) (99 / 10000) _ ltac:(lra) L). exact pow_small.
Qed.
Lemma decay_mono n m : (n <= m)%nat -> decay m <= decay n.
Proof.
  intros H. unfold decay. apply Rmax_lub; [apply Rmax_l|]. eapply Rle_trans; [|apply Rmax_r]. apply Rmult_le_compat_l; [lra|].
  replace m with (n + (m - n))%nat by lia. rewrite pow_add. assert (P : 0 < (71 / 100) ^ n) by (apply pow_lt; lra).
  assert (Q : (71 / 100) ^ (m - n) <= 1). { rewrite <- (pow1 (m - n)). apply pow_incr. lra. }
  rewrite <- (Rmult_1_r ((71 / 100) ^ n)) at 2. apply Rmult_le_compat_l; lra.
Qed.
Lemma quiet_gen : forall ops s s' n, inv s -> R (flux s) <= decay n -> quiet (last s) ops -> ap_run s ops = Ret s' ->
  inv s' /\ R (flux s') <= decay (n + length ops) /\ (ops <> [] -> cur s' = recommended (flux s')).
Proof.
  induction ops as [|o ops IH]; intros s s' n I D Q H.
  - injection H as <-. rewrite Nat.add_0_r. split; [exact I|]. split; [exact D|]. intros X. contradiction.
  - cbn [ap_run] in H. destruct o as [a b now|d|l|c|h]; try contradiction. destruct Q as (-> & -> & Cn & El & Q).
    destruct (ap_step s (AUpdate 0 0 now)) as [s1|r|e|] eqn:E; [|discriminate H|discriminate H|discriminate H]. cbn [ap_step] in E.
    destruct (update_eff s 0 0 now I Cn El s1 E) as (A & B & _ & _ & L & _ & _ & _ & I1).
    assert (D1 : R (flux s1) <= decay (S n)). { rewrite B. apply decay_step; [pose proof (seconds_bound _ _ (proj2 I) Cn); lia|apply I|exact D]. }
    rewrite <- L in Q. destruct (IH s1 s' (S n) I1 D1 Q H) as (I2 & D2 & C2). split; [exact I2|]. split; [cbn [length]; replace (n + S (length ops))%nat with (S n + length ops)%nat by lia; exact D2|].
    intros _. destruct ops as [|o ops]; [injection H as <-; exact A|]. apply C2. discriminate.
Qed.
Theorem quiet_minimal l t ops s calm s' : clock t -> Forall legal_ap ops -> ap_run (ap_new l t) ops = Ret s -> quiet (last s) calm -> (82 <= length calm)%nat ->
  ap_run s calm = Ret s' -> cur s' = MINIMAL.
Proof.
  intros Ht L Hr Q Hn H. pose proof (run_inv _ _ _ (new_inv l t Ht) L Hr) as I.
  destruct (quiet_gen calm s s' 0 I) as (I' & D & C); try assumption.
  - unfold decay. cbn [pow]. apply Rle_trans with (8589934592 * 1); [rewrite Rmult_1_r; apply I|apply Rmax_r].
  - rewrite C by (intros ->; simpl in Hn; lia). pose proof (recommended_band (flux s') (proj1 (proj1 I'))) as B.
    assert (S : R (flux s') < R (dlit 1 100)) by (eapply Rle_lt_trans; [exact D|]; eapply Rle_lt_trans; [apply (decay_mono 82); simpl; exact Hn|apply decay_82]).
    clear - B S. assert (T : R (dlit 1 100) <= R (dlit 1 10) <= 1).
    { assert (O1 : okd (dlit 1 10)) by (split; vm_compute; reflexivity). assert (O2 : okd (dlit 1 100)) by (split; vm_compute; reflexivity). destruct (ofZ_ex 1) as [O3 E]; [lia|].
      rewrite <- E. split; [apply (fle_d _ _ O2 O1)|apply (fle_d _ _ O1 O3)]; vm_compute; reflexivity. }
    set (a := R (dlit 1 100)) in *. set (b := R (dlit 1 10)) in *. destruct (recommended (flux s')); unfold in_band in B; fold a in B; fold b in B; [reflexivity|lra|lra|lra].
Qed.

Lemma noted_b_noted s s' : noted_b s s' -> noted s s'.
Proof.
  unfold noted_b, noted. destruct (level_eqb (cur s) (cur s')) eqn:E.
  - apply level_eqb_eq in E. intros H. split; [intros _; exact H|intros X; exfalso; apply X; symmetry; exact E].
  - intros H. split; [intros X; rewrite X, (proj2 (level_eqb_eq _ _) eq_refl) in E; discriminate|intros _; exact H].
Qed.
(** ** more errors *)
Lemma ema_mono c1 c2 el f : (0 <= c1 <= c2)%Z -> (c2 < 2 ^ 32)%Z -> (1 <= el < 2 ^ 53)%Z -> flux_ok f -> R (ema c1 el f) <= R (ema c2 el f).
Proof.
  intros H H2 He Hf. destruct (ema_R c1 el f ltac:(lia) He Hf) as (_ & E1 & _). destruct (ema_R c2 el f ltac:(lia) He Hf) as (_ & E2 & _).
  destruct (rate_R c1 el ltac:(lia) He) as (_ & Q1 & _). destruct (rate_R c2 el ltac:(lia) He) as (_ & Q2 & _).
  assert (Ep : 1 <= IZR el) by (apply IZR_le; lia). assert (L : IZR c1 <= IZR c2) by (apply IZR_le; lia).
  rewrite E1, E2. apply rnd_mono. apply Rplus_le_compat_r. apply rnd_mono. apply Rmult_le_compat_l; [rewrite al_R; lra|]. rewrite Q1, Q2. apply rnd_mono.
  apply Rmult_le_compat_r; [left; apply Rinv_0_lt_compat; lra|exact L].
Qed.
Lemma recommended_mono f g : okd f -> okd g -> R f <= R g -> (level_num (recommended f) <= level_num (recommended g))%nat.
Proof.
  intros Of Og H. unfold recommended, fge.
  assert (T : forall t, okd t -> fle t f = true -> fle t g = true) by (intros t Ot Q; apply (fle_d t f Ot Of) in Q; apply (fle_d t g Ot Og); lra).
  assert (O1 : okd (dofZ 1)) by (split; vm_compute; reflexivity). assert (O2 : okd (dlit 1 10)) by (split; vm_compute; reflexivity). assert (O3 : okd (dlit 1 100)) by (split; vm_compute; reflexivity).
  pose proof (T _ O1) as T1. pose proof (T _ O2) as T2. pose proof (T _ O3) as T3. unfold fle in T1, T2, T3.
  destruct (SFleb (dofZ 1) f); [rewrite T1 by reflexivity; cbn; lia|]. destruct (SFleb (dofZ 1) g); [repeat destruct (SFleb _ f); cbn; lia|].
  destruct (SFleb (dlit 1 10) f); [rewrite T2 by reflexivity; cbn; lia|]. destruct (SFleb (dlit 1 10) g); [repeat destruct (SFleb _ f); cbn; lia|].
  destruct (SFleb (dlit 1 100) f); [rewrite T3 by reflexivity; cbn; lia|]. destruct (SFleb (dlit 1 100) g); cbn; lia.
Qed.
Theorem update_mono l t ops s a b a' b' now s1 s2 : clock t -> Forall legal_ap ops -> ap_run (ap_new l t) ops = Ret s -> clock now ->
  (a + b <= a' + b')%N -> (a' + b' < 2 ^ 32)%N -> ap_update s a b now = Ret s1 -> ap_update s a' b' now = Ret s2 ->
  R (flux s1) <= R (flux s2) /\ ((1 <= seconds (last s) now)%Z -> (level_num (cur s1) <= level_num (cur s2))%nat).
Proof.
  intros Ht L Hr Hn H H2 U1 U2. pose proof (run_inv _ _ _ (new_inv l t Ht) L Hr) as I.
  destruct (Z.lt_ge_cases (seconds (last s) now) 1) as [Q|Q].
  { rewrite update_drop in U1 by exact Q. rewrite update_drop in U2 by exact Q. injection U1 as <-. injection U2 as <-. split; [lra|lia]. }
  assert (Q' : (1 <= seconds (last s) now)%Z) by lia.
  destruct (update_eff s a b now I Hn Q' s1 U1) as (A1 & B1 & _ & _ & _ & _ & _ & _ & I1). destruct (update_eff s a' b' now I Hn Q' s2 U2) as (A2 & B2 & _ & _ & _ & _ & _ & _ & I2).
  pose proof (seconds_bound _ _ (proj2 I) Hn) as Sb.
  assert (M : R (flux s1) <= R (flux s2)). { rewrite B1, B2, !wrap_small by lia. apply ema_mono; [lia|lia|lia|apply I]. }
  split; [exact M|]. intros _. rewrite A1, A2. apply recommended_mono; [apply I1|apply I2|exact M].
Qed.
(** counts that wrap *)
Lemma adjust_counts l f a b a2 b2 t c h n s' : adjust (mkAP l f a b t c h n) = Ret s' -> exists s2, adjust (mkAP l f a2 b2 t c h n) = Ret s2 /\ cur s2 = cur s' /\ flux s2 = flux s'.
Proof.
  unfold adjust. cbn [flux cur]. cbv zeta. generalize (recommended f). intros r. destruct (level_eqb r l); [intros H; injection H as <-; eexists; split; [reflexivity|split; reflexivity]|].
  unfold notify, with_level. cbn [cbs]. destruct (existsb _ c); [discriminate|]. intros H. injection H as <-. eexists. split; [reflexivity|split; reflexivity].
Qed.
Theorem update_wraps s a b now s1 : ap_update s a b now = Ret s1 ->
  exists s2, ap_update s (wrap 32 (a + b)) 0 now = Ret s2 /\ cur s2 = cur s1 /\ flux s2 = flux s1.
Proof.
  unfold ap_update. rewrite N.add_0_r. replace (wrap 32 (wrap 32 (a + b))) with (wrap 32 (a + b)).
  2:{ unfold wrap. rewrite N.mod_mod; [reflexivity|discriminate]. }
  cbv zeta. destruct (0 <? _)%Z; [|intros H; injection H as <-; eauto]. apply adjust_counts.
Qed.
(** a raised level *)
Theorem temp_spec s d s' : ap_temporarily_increase s d = Ret s' -> level_num (cur s') = Nat.min 3 (S (level_num (cur s))) /\ flux s' = flux s /\ last s' = last s /\ cbs s' = cbs s.
Proof.
  unfold ap_temporarily_increase. destruct (level_eqb (cur s) MAXIMUM) eqn:E.
  - apply level_eqb_eq in E. intros H. injection H as <-. rewrite E. auto.
  - intros H. apply notify_ret in H as (A & B & _ & _ & C & D & _). rewrite A, B, C, D. cbn [with_level cur flux last cbs]. repeat split. destruct (cur s); try discriminate E; reflexivity.
Qed.
Theorem idle_level ops : forall s s', Forall bookkeeping ops -> ap_run s ops = Ret s' -> cur s' = cur s.
Proof.
  induction ops as [|o ops IH]; intros s s' L H; [injection H as <-; reflexivity|]. inversion L; subst. cbn [ap_run] in H.
  destruct (ap_step s o) as [s1|r|e|] eqn:E; [|discriminate H|discriminate H|discriminate H]. rewrite (IH s1 s' H3 H).
  destruct o as [a b now|d|l|c|h]; try contradiction; cbn [ap_step] in E.
  - unfold ap_register in E. destruct (_ <=? _)%Z; [discriminate E|]. injection E as <-. reflexivity.
  - injection E as <-. reflexivity.
Qed.
