(** Proofs about the radiation-protection simulations: definedness and metrics. *)
From Coq Require Import List NArith ZArith Bool Arith Lia Reals Lra SpecFloat.
Import ListNotations.
From Flocq Require Import Core.
From Verif Require Import Outcome Words Floats FloatsR HealthFloat FloatsS BitsFloat_Proofs RMA3_Proofs Power2_Proofs Edac_Model Edac_Spec Edac_Proofs Edac2_Proofs Edac3_Proofs.

Lemma upsets_map {D} (es : list (event * D)) : (length (upsets es) <= length (map fst es))%nat.
Proof. unfold upsets. rewrite map_length. induction es as [|x es IH]; [auto|]. cbn [filter length]. destruct (hits (fst x)); cbn [length]; lia. Qed.
Lemma count_hits es : (count hits es <= N.of_nat (length es))%N.
Proof. apply count_le. Qed.
Lemma flat_le {A B} (f : A -> list B) k l : (forall x, (length (f x) <= k)%nat) -> (length (flat_map f l) <= k * length l)%nat.
Proof. intros H. induction l as [|x l IH]; [simpl; lia|]. cbn [flat_map length]. rewrite app_length. specialize (H x). lia. Qed.
Lemma edac_total n es : (length (edac_strikes n es) <= 3 * length (map fst es))%nat.
Proof.
  rewrite map_length. unfold edac_strikes. apply flat_le. intros [e ds]. unfold edac_strikes1. cbn [fst snd]. rewrite map_length.
  pose proof (firstn_le_length (how_many_bits e) ds) as Q.
  assert (how_many_bits e <= 3)%nat by (unfold how_many_bits; destruct (etype e); lia).
  rewrite firstn_length. lia.
Qed.
Lemma tmr_total n es : (count (upset n es) (cells 8 n) <= 3 * N.of_nat (length (map fst es)))%N.
Proof.
  pose proof (@upsets_map tmr_draw es) as U.
  assert (Q : (count (upset n es) (cells 8 n) <= N.of_nat (length (on_memory n es ++ on_copy1 n es ++ on_copy2 n es)))%N).
  { apply nodup_count_in; [apply cells_nodup|]. intros p _ H. unfold upset in H. rewrite !in_app_iff.
    apply orb_true_iff in H as [H|H]; [apply orb_true_iff in H as [H|H]|]; apply inverted_in in H; auto. }
  assert (A : forall f : event * tmr_draw -> list cell, (forall x, (length (f x) <= 1)%nat) -> (length (flat_map f (upsets es)) <= length (map fst es))%nat).
  { intros f Hf. pose proof (@flat_le (event * tmr_draw) cell f 1 (upsets es) Hf). lia. }
  rewrite !app_length in Q.
  assert (A1 : (length (on_memory n es) <= length (map fst es))%nat) by (apply A; intros [e d]; unfold strike1; destruct (hit1 d); simpl; lia).
  assert (A2 : (length (on_copy1 n es) <= length (map fst es))%nat) by (apply A; intros [e d]; unfold strike2; destruct (hit2 d); simpl; lia).
  assert (A3 : (length (on_copy2 n es) <= length (map fst es))%nat) by (apply A; intros [e d]; unfold strike3; destruct (hit3 d); simpl; lia).
  lia.
Qed.
Lemma maxev n : (n <= MAX_EVENTS)%nat -> (3 * N.of_nat n <= INT_MAX)%N.
Proof. unfold MAX_EVENTS, INT_MAX. intros H. assert (N.of_nat n <= 715827882)%N by lia. lia. Qed.
Theorem defined m r : bytes m -> (1 <= length m)%nat -> (N.of_nat (length m) < 2 ^ 28)%N -> legal_run (length m) r ->
  (length (run_events r) <= MAX_EVENTS)%nat ->
  exists m' c, apply_technique m r = Ret (m', c, calculate_metrics (N.of_nat (length (run_events r))) c) /\
    (corrections c <= total c)%N /\ (total c <= 3 * N.of_nat (length (run_events r)))%N /\ length m' = length m.
Proof.
  intros Hb H1 H2 Hl Hn. apply maxev in Hn. destruct r as [es|es|es|es]; cbn [run_events legal_run] in *; unfold apply_technique.
  - unfold apply_none, int_result. cbn [corrections total]. pose proof (count_hits es) as C. unfold count in C.
    rewrite (proj2 (N.leb_le 0 INT_MAX)) by lia. rewrite (proj2 (N.leb_le _ INT_MAX)) by lia. cbn [andb].
    do 2 eexists. split; [reflexivity|]. cbn [corrections total]. repeat split; lia.
  - pose proof (@upsets_map tmr_draw es) as U. pose proof (tmr_total (length m) es) as T.
    destruct (tmr_sim m es Hb H1 H2) as (m' & c & E & L & _ & _ & Q1 & Q2); [lia|exact Hl|].
    exists m', c. rewrite E. split; [reflexivity|]. rewrite Q1, Q2. split; [|split; [exact T|exact L]].
    rewrite (count_split (upset (length m) es) (fun p => lost (length m) es p)). lia.
  - pose proof (edac_total (length m) es) as T.
    destruct (edac_sim m es Hb H1 Hl) as (m' & c & E & L & _ & _ & Q1 & _ & Q2); [lia|].
    exists m', c. rewrite E. split; [reflexivity|]. split; [exact Q2|]. split; [lia|exact L].
  - pose proof (count_hits es) as C.
    destruct (scrub_sim m es Hb H1) as (c & E & Q1 & _ & Q2); [lia|].
    exists m, c. rewrite E. split; [reflexivity|]. split; [exact Q2|]. split; [lia|reflexivity].
Qed.

Theorem unprotected m es : (length es <= MAX_EVENTS)%nat ->
  exists mt, apply_technique m (RNone es) = Ret (m, mkCounts 0 (count (fun e => match etype e with TRANSIENT => false | _ => true end) es), mt).
Proof.
  intros Hn. apply maxev in Hn. unfold apply_technique, apply_none, int_result. cbn [corrections total]. pose proof (count_hits es) as C. unfold count in C.
  rewrite (proj2 (N.leb_le 0 INT_MAX)) by lia. rewrite (proj2 (N.leb_le _ INT_MAX)) by lia. cbn [andb]. eexists. reflexivity.
Qed.
(** ** metrics *)
Local Open Scope R_scope.
Lemma ratio (k n : Z) : (0 <= k < 2 ^ 50)%Z -> (1 <= n < 2 ^ 49)%Z -> (k <= 8 * n)%Z ->
  let q := ddiv (dofZ k) (dmul (dofZ n) (dofZ 8)) in okd q /\ 0 <= R q <= 1 /\ (R q = 0 <-> k = 0%Z) /\ R q = rnd64 (IZR k / IZR (8 * n)).
Proof.
  intros Hk Hn Hle q.
  destruct (ofZ_ex k) as [K1 K2]; [lia|]. destruct (ofZ_ex n) as [N1 N2]; [lia|]. destruct (ofZ_ex 8) as [E1 E2]; [lia|].
  assert (P : okd (dmul (dofZ n) (dofZ 8)) /\ R (dmul (dofZ n) (dofZ 8)) = IZR (8 * n)).
  { assert (B : 1 <= IZR n <= 562949953421312) by (split; apply IZR_le; lia).
    destruct (mul_d (dofZ n) (dofZ 8) N1 E1) as [A B']; [rewrite N2, E2; unfold mid; lra|]. split; [exact A|]. rewrite B', N2, E2.
    replace (IZR n * 8) with (IZR (8 * n)) by (rewrite mult_IZR; lra). apply rnd_int. lia. }
  destruct P as [P1 P2].
  assert (D : 0 < IZR (8 * n)) by (apply IZR_lt; lia).
  assert (Kp : 0 <= IZR k) by (apply IZR_le; lia). assert (Kl : IZR k <= IZR (8 * n)) by (apply IZR_le; lia).
  assert (F : 0 <= IZR k / IZR (8 * n) <= 1).
  { split; [apply Rmult_le_pos; [exact Kp|left; apply Rinv_0_lt_compat; exact D]|]. apply (Rmult_le_reg_r (IZR (8 * n))); [exact D|]. field_simplify; lra. }
  destruct (div_d (dofZ k) _ K1 P1) as [Q1 Q2]; [rewrite P2; lra|rewrite K2, P2; unfold mid; lra|]. fold q in Q1, Q2. rewrite K2, P2 in Q2.
  split; [exact Q1|]. rewrite Q2. split; [split; [apply rnd_pos; apply F|apply rnd_le1; apply F]|]. split; [|reflexivity]. split.
  - intros Z. destruct (Z.eq_dec k 0) as [->|Nz]; [reflexivity|]. exfalso.
    assert (B : bpow radix2 (-52) <= IZR k / IZR (8 * n)).
    { change (bpow radix2 (-52)) with (/ IZR (2 ^ 52)). apply (Rmult_le_reg_r (IZR (8 * n))); [exact D|].
      replace (IZR k / IZR (8 * n) * IZR (8 * n)) with (IZR k) by (field; lra).
      apply (Rmult_le_reg_l (IZR (2 ^ 52))); [apply IZR_lt; reflexivity|].
      rewrite <- Rmult_assoc, Rinv_r by (apply not_0_IZR; discriminate). rewrite Rmult_1_l, <- mult_IZR. apply IZR_le. nia. }
    apply rnd_mono in B. assert (E : rnd64 (bpow radix2 (-52)) = bpow radix2 (-52)).
    { replace (bpow radix2 (-52)) with (IZR 1 * bpow radix2 (-52)) by lra. apply fmt64; lia. }
    rewrite E, Z in B. pose proof (bpow_gt_0 radix2 (-52)). lra.
  - intros ->. replace (0 / IZR (8 * n)) with 0 by (field; lra). apply (rnd_int 0). lia.
Qed.
Theorem metrics_ok n c : (1 <= n < 2 ^ 40)%N -> (corrections c <= total c)%N -> (total c <= 8 * n)%N ->
  let mt := calculate_metrics n c in
  okd (seu_rate mt) /\ 0 <= R (seu_rate mt) <= 1 /\ R (seu_rate mt) = rnd64 (IZR (Z.of_N (total c)) / IZR (8 * Z.of_N n)) /\
  okd (ber mt) /\ 0 <= R (ber mt) <= 1 /\ (R (ber mt) = 0 <-> corrections c = total c).
Proof.
  intros Hn Hc Ht mt. unfold mt, calculate_metrics. cbn [seu_rate ber].
  assert (E : dmul (dmul (dofZ (Z.of_N n)) (dofZ 8)) (dofZ 1) = dmul (dofZ (Z.of_N n)) (dofZ 8) \/ True) by (right; exact I).
  destruct (ratio (Z.of_N (total c)) (Z.of_N n)) as (A1 & A2 & A3 & A4); [lia..|].
  destruct (ratio (Z.of_N (total c) - Z.of_N (corrections c)) (Z.of_N n)) as (B1 & B2 & B3 & B4); [lia..|].
  assert (M1 : okd (dmul (dmul (dofZ (Z.of_N n)) (dofZ 8)) (dofZ 1)) /\ R (dmul (dmul (dofZ (Z.of_N n)) (dofZ 8)) (dofZ 1)) = IZR (8 * Z.of_N n)
     /\ okd (dmul (dofZ (Z.of_N n)) (dofZ 8)) /\ R (dmul (dofZ (Z.of_N n)) (dofZ 8)) = IZR (8 * Z.of_N n)).
  { destruct (ofZ_ex (Z.of_N n)) as [N1 N2]; [lia|]. destruct (ofZ_ex 8) as [E1 E2]; [lia|]. destruct (ofZ_ex 1) as [O1 O2]; [lia|].
    assert (B : 1 <= IZR (Z.of_N n) <= 1099511627776) by (split; apply IZR_le; lia).
    assert (P : okd (dmul (dofZ (Z.of_N n)) (dofZ 8)) /\ R (dmul (dofZ (Z.of_N n)) (dofZ 8)) = IZR (8 * Z.of_N n)).
    { destruct (mul_d (dofZ (Z.of_N n)) (dofZ 8) N1 E1) as [A B']; [rewrite N2, E2; unfold mid; lra|]. split; [exact A|]. rewrite B', N2, E2.
      replace (IZR (Z.of_N n) * 8) with (IZR (8 * Z.of_N n)) by (rewrite mult_IZR; lra). apply rnd_int. lia. }
    destruct P as [P1 P2]. destruct (mul_d _ (dofZ 1) P1 O1) as [A B']; [rewrite P2, O2, mult_IZR; unfold mid; lra|].
    split; [exact A|]. split; [|split; assumption]. rewrite B', P2, O2, Rmult_1_r. apply rnd_int. lia. }
  destruct M1 as (M1 & M2 & M3 & M4).
  destruct (ofZ_ex (Z.of_N (total c))) as [T1 T2]; [lia|].
  assert (D : 1 <= IZR (8 * Z.of_N n)) by (apply IZR_le; lia).
  assert (F : 0 <= IZR (Z.of_N (total c)) / IZR (8 * Z.of_N n) <= 1).
  { assert (0 <= IZR (Z.of_N (total c))) by (apply IZR_le; lia). assert (IZR (Z.of_N (total c)) <= IZR (8 * Z.of_N n)) by (apply IZR_le; lia).
    split; [apply Rmult_le_pos; [lra|left; apply Rinv_0_lt_compat; lra]|]. apply (Rmult_le_reg_r (IZR (8 * Z.of_N n))); [lra|]. field_simplify; lra. }
  destruct (div_d (dofZ (Z.of_N (total c))) _ T1 M1) as [Q1 Q2]; [rewrite M2; lra|rewrite T2, M2; unfold mid; lra|]. rewrite T2, M2 in Q2.
  split; [exact Q1|]. rewrite Q2. rewrite A4 in A2. split; [exact A2|]. split; [reflexivity|]. split; [exact B1|]. split; [exact B2|].
  rewrite B3. split; lia.
Qed.
Lemma empty_nan c : total c = 0%N -> corrections c = 0%N -> seu_rate (calculate_metrics 0 c) = S754_nan /\ ber (calculate_metrics 0 c) = S754_nan /\
  cross_section (calculate_metrics 0 c) = S754_nan /\ mtbf (calculate_metrics 0 c) = S754_nan.
Proof. destruct c as [a b]. cbn [total corrections]. intros -> ->. repeat split; vm_compute; reflexivity. Qed.
Theorem metrics_empty m r : bytes m -> (1 <= length m)%nat -> (N.of_nat (length m) < 2 ^ 28)%N -> run_events r = [] ->
  exists m' c mt, apply_technique m r = Ret (m', c, mt) /\
  seu_rate mt = S754_nan /\ ber mt = S754_nan /\ cross_section mt = S754_nan /\ mtbf mt = S754_nan.
Proof.
  intros Hb H1 H2 Hr. destruct (defined m r Hb H1 H2) as (m' & c & E & A & B & _).
  - destruct r as [es|es|es|es]; cbn [run_events legal_run] in *; try exact I; apply map_eq_nil in Hr; subst; constructor.
  - rewrite Hr. simpl. lia.
  - rewrite Hr in *. cbn [length] in *. change (3 * N.of_nat 0)%N with 0%N in B. do 3 eexists. split; [exact E|]. apply empty_nan; lia.
Qed.
Theorem metrics_range m r : bytes m -> (1 <= length m)%nat -> (N.of_nat (length m) < 2 ^ 28)%N -> legal_run (length m) r ->
  (1 <= length (run_events r) <= MAX_EVENTS)%nat ->
  exists m' c mt, apply_technique m r = Ret (m', c, mt) /\
  okd (seu_rate mt) /\ 0 <= R (seu_rate mt) <= 1 /\ R (seu_rate mt) = rnd64 (IZR (Z.of_N (total c)) / IZR (8 * Z.of_nat (length (run_events r)))) /\
  okd (ber mt) /\ 0 <= R (ber mt) <= 1 /\ (R (ber mt) = 0 <-> corrections c = total c).
Proof.
  intros Hb H1 H2 Hl [E1 E2]. destruct (defined m r Hb H1 H2 Hl E2) as (m' & c & E & A & B & _).
  pose proof (maxev _ E2) as M. unfold INT_MAX in M.
  destruct (metrics_ok (N.of_nat (length (run_events r))) c) as (Q1 & Q2 & Q3 & Q4 & Q5 & Q6); [lia|exact A|lia|].
  do 3 eexists. split; [exact E|]. rewrite nat_N_Z in Q3. repeat split; try tauto; try apply Q1; try apply Q2; try apply Q4; try apply Q5; try apply Q6; exact Q3.
Qed.
(** ** empty memories *)
Lemma tmr_empty es : apply_tmr [] es = UB UB_bad_iterator.
Proof. reflexivity. Qed.
Lemma edac_empty es : existsb (fun ed => hits (fst ed)) es = true -> apply_edac [] es = UB UB_div_zero.
Proof. intros H. unfold apply_edac. rewrite H. reflexivity. Qed.
Lemma scrub_empty es : existsb hits es = true -> apply_scrubbing [] es = UB UB_div_zero.
Proof. intros H. unfold apply_scrubbing. rewrite H. reflexivity. Qed.

(** ** what ber = 0 says about the memory *)
Local Open Scope nat_scope.
Lemma count_pos {A} (P : A -> bool) l x : In x l -> P x = true -> (1 <= count P l)%N.
Proof.
  intros Hi Hp. destruct (N.eq_dec (count P l) 0) as [E|E]; [|lia]. rewrite count_zero in E. rewrite (E x Hi) in Hp. discriminate.
Qed.
Lemma bytes_ext a b : bytes a -> bytes b -> length a = length b -> (forall p, In p (cells 8 (length b)) -> bit_at a p = bit_at b p) -> a = b.
Proof.
  intros Ha Hb L H. apply (nth_ext _ _ 0%N 0%N L). intros i Hi. apply byte_eq_bits; try (apply nth_byte; assumption).
  intros k Hk. apply (H (i, k)). apply cells_in. simpl. lia.
Qed.
Theorem tmr_ber m es m' c mt : bytes m -> 1 <= length m -> (N.of_nat (length m) < 2 ^ 28)%N -> legal_tmr (length m) es ->
  1 <= length es <= MAX_EVENTS -> apply_technique m (RTMR es) = Ret (m', c, mt) -> (R (ber mt) = 0%R <-> m' = m).
Proof.
  intros Hb H1 H2 Hl He H.
  destruct (metrics_range m (RTMR es) Hb H1 H2 Hl) as (m2 & c2 & mt2 & E & _ & _ & _ & _ & _ & Q); [cbn [run_events]; rewrite map_length; exact He|].
  rewrite H in E. injection E as <- <- <-. rewrite Q.
  pose proof (@upsets_map tmr_draw es) as U. rewrite map_length in U. pose proof (maxev _ (proj2 He)) as M.
  destruct (tmr_sim m es Hb H1 H2) as (m3 & c3 & E & L & B & Bits & T & C); [lia|exact Hl|].
  unfold apply_technique in H. rewrite E in H. injection H as -> -> _. rewrite T, C.
  rewrite (count_split (upset (length m) es) (lost (length m) es)).
  assert (Z : count (fun p => upset (length m) es p && lost (length m) es p) (cells 8 (length m)) = 0%N <-> m' = m).
  { rewrite count_zero. split.
    - intros H. apply bytes_ext; auto. intros p Hp. rewrite Bits by exact Hp. specialize (H p Hp).
      assert (lost (length m) es p = false) as ->; [|apply xorb_false_r].
      destruct (lost (length m) es p) eqn:El; [|reflexivity]. rewrite andb_true_r in H.
      unfold lost, upset, two_of in *. destruct (inverted (on_memory _ _) p), (inverted (on_copy1 _ _) p), (inverted (on_copy2 _ _) p); discriminate.
    - intros -> p Hp. specialize (Bits p Hp). destruct (lost (length m) es p); [destruct (bit_at m p); discriminate Bits|apply andb_false_r]. }
  rewrite <- Z. split; lia.
Qed.
(** each damaged byte costs a strike, an unrecoverable one two *)
Definition in_byte (k : nat) (c : cell) : bool := Nat.div2 (fst c) =? k.
Lemma weight_strikes l cw : weight l cw <= length (filter (fun c : cell => fst c =? cw) l).
Proof.
  unfold weight. rewrite <- (map_length (fun c : cell => snd c) (filter (fun c : cell => fst c =? cw) l)).
  apply NoDup_incl_length; [apply NoDup_filter; apply seq_NoDup|]. intros b Hb. apply filter_In in Hb as [_ Hb]. apply inverted_in in Hb.
  apply in_map_iff. exists (cw, b). split; [reflexivity|]. apply filter_In. split; [exact Hb|]. apply Nat.eqb_refl.
Qed.
Lemma byte_strikes l k : length (filter (fun c : cell => fst c =? 2 * k) l) + length (filter (fun c : cell => fst c =? 2 * k + 1) l) = length (filter (in_byte k) l).
Proof.
  induction l as [|[a b] l IH]; [reflexivity|]. cbn [filter fst]. unfold in_byte at 1. cbn [fst].
  destruct (Nat.eqb_spec a (2 * k)) as [E1|D1]; destruct (Nat.eqb_spec a (2 * k + 1)) as [E|D2]; try lia.
  - subst a. rewrite Nat.div2_double, Nat.eqb_refl. cbn [length]. lia.
  - subst a. rewrite Nat.add_1_r, Nat.div2_succ_double, Nat.eqb_refl. cbn [length]. rewrite Nat.add_1_r in IH. lia.
  - destruct (Nat.eqb_spec (Nat.div2 a) k) as [<-|D]; [|exact IH]. exfalso. destruct (Nat.Even_or_Odd a) as [[x ->]|[x ->]].
    + apply D1. rewrite Nat.div2_double. reflexivity.
    + apply D2. rewrite Nat.add_1_r, Nat.div2_succ_double. lia.
Qed.
Fixpoint sum_up (f : nat -> nat) (l : list nat) : nat := match l with [] => 0 | k :: r => f k + sum_up f r end.
Lemma strikes_sum n (l : list cell) : Forall (fun c : cell => fst c < 2 * n) l -> length l = sum_up (fun k => length (filter (in_byte k) l)) (seq 0 n).
Proof.
  assert (Z : forall ks, sum_up (fun k => length (filter (in_byte k) [])) ks = 0) by (induction ks; simpl; auto).
  induction l as [|c l IH]; intros H; [rewrite Z; reflexivity|]. inversion H; subst. cbn [length]. rewrite IH by assumption.
  assert (G : forall ks, NoDup ks -> sum_up (fun k => length (filter (in_byte k) (c :: l))) ks =
     (if existsb (Nat.eqb (Nat.div2 (fst c))) ks then 1 else 0) + sum_up (fun k => length (filter (in_byte k) l)) ks).
  { induction ks as [|k ks IHk]; intros Hn; [reflexivity|]. inversion Hn; subst. cbn [sum_up existsb]. rewrite IHk by assumption.
    cbn [filter]. unfold in_byte at 1. destruct (Nat.eqb_spec (Nat.div2 (fst c)) k) as [E|E]; cbn [length orb].
    - replace (existsb (Nat.eqb (Nat.div2 (fst c))) ks) with false; [lia|]. symmetry. apply not_true_iff_false. intros Q.
      apply existsb_exists in Q as (y & Hy & Ey). apply Nat.eqb_eq in Ey. congruence.
    - lia. }
  rewrite G by apply seq_NoDup. replace (existsb _ _) with true; [reflexivity|]. symmetry. apply existsb_exists. exists (Nat.div2 (fst c)).
  split; [apply in_seq; split; [lia|]|apply Nat.eqb_refl]. simpl. apply Nat.div2_decr with (n := 2 * n) in H2 || idtac.
  rewrite Nat.div2_div. apply Nat.div_lt_upper_bound; lia.
Qed.
Lemma sum_count (f : nat -> nat) P Q l : (forall k, In k l -> P k = true -> 1 <= f k) -> (forall k, In k l -> Q k = true -> P k = false /\ 1 <= f k) ->
  (count P l + count Q l <= N.of_nat (sum_up f l))%N.
Proof.
  induction l as [|k l IH]; intros H1 H2; [reflexivity|]. rewrite !count_cons. cbn [sum_up].
  specialize (IH (fun x Hx => H1 x (or_intror Hx)) (fun x Hx => H2 x (or_intror Hx))).
  specialize (H1 k (or_introl eq_refl)). specialize (H2 k (or_introl eq_refl)).
  destruct (Q k); [destruct (H2 eq_refl) as [-> ?]; lia|]. destruct (P k); [specialize (H1 eq_refl)|]; lia.
Qed.
Theorem edac_ber m es m' c mt : bytes m -> 1 <= length m -> (N.of_nat (length m) < 2 ^ 28)%N -> legal_edac es ->
  1 <= length es <= MAX_EVENTS -> apply_technique m (REDAC es) = Ret (m', c, mt) -> R (ber mt) = 0%R -> m' = m.
Proof.
  intros Hb H1 H2 Hl He H.
  destruct (metrics_range m (REDAC es) Hb H1 H2 Hl) as (m2 & c2 & mt2 & E & _ & _ & _ & _ & _ & Q); [cbn [run_events]; rewrite map_length; exact He|].
  rewrite H in E. injection E as <- <- <-. rewrite Q.
  pose proof (edac_total (length m) es) as U. rewrite map_length in U. pose proof (maxev _ (proj2 He)) as M.
  destruct (edac_sim m es Hb H1 Hl) as (m3 & c3 & E & L & B & Bits & T & C & _); [lia|].
  unfold apply_technique in H. rewrite E in H. injection H as -> -> _. rewrite T, C. intros EQ.
  apply (nth_ext _ _ 0%N 0%N L). intros k Hk. rewrite L in Hk. apply Bits; [exact Hk|].
  destruct (recoverable (edac_strikes (length m) es) k) eqn:Er; [reflexivity|]. exfalso.
  set (S := edac_strikes (length m) es) in *.
  assert (R : Forall (fun c : cell => fst c < 2 * length m) S).
  { pose proof (edac_range (length m) es H1 Hl) as R. revert R. apply Forall_impl. intros a [? _]. assumption. }
  pose proof (strikes_sum _ _ R) as SS.
  assert (W : forall k, weight S (2 * k) + weight S (2 * k + 1) <= length (filter (in_byte k) S)).
  { intros j. rewrite <- byte_strikes. pose proof (weight_strikes S (2 * j)). pose proof (weight_strikes S (2 * j + 1)). lia. }
  pose proof (sum_count (fun k => length (filter (in_byte k) S)) (fun k => recoverable S k && damaged S k) (fun k => negb (recoverable S k)) (seq 0 (length m))) as X.
  assert (X' : (count (fun k => recoverable S k && damaged S k) (seq 0 (length m)) + count (fun k => negb (recoverable S k)) (seq 0 (length m)) <= N.of_nat (length S))%N).
  { rewrite SS. apply X.
    - intros j _ Hj. apply andb_true_iff in Hj as [_ Hj]. unfold damaged in Hj. specialize (W j). apply orb_true_iff in Hj as [Hj|Hj]; apply Nat.leb_le in Hj; lia.
    - intros j _ Hj. apply negb_true_iff in Hj. rewrite Hj. split; [reflexivity|]. unfold recoverable in Hj. specialize (W j).
      apply andb_false_iff in Hj as [Hj|Hj]; apply Nat.leb_gt in Hj; lia. }
  pose proof (count_pos (fun k => negb (recoverable S k)) (seq 0 (length m)) k) as Y.
  cbv beta in Y. rewrite Er in Y. specialize (Y ltac:(apply in_seq; lia) eq_refl). lia.
Qed.
