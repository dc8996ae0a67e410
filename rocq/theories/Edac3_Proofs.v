(** Proofs about the radiation-protection simulations: the Hamming code and applyEDAC. *)
From Coq Require Import List NArith ZArith Bool Arith Lia.
Import ListNotations.
From Verif Require Import Outcome Words Edac_Model Edac_Spec Edac_Proofs Edac2_Proofs.

Definition pop (e : N) : nat := length (filter (fun b => N.testbit e (N.of_nat b)) (seq 0 7)).
Definition range (n : nat) : list N := map N.of_nat (seq 0 n).
Lemma in_range_list n x : (x < N.of_nat n)%N -> In x (range n).
Proof. intros H. unfold range. apply in_map_iff. exists (N.to_nat x). split; [lia|]. apply in_seq. lia. Qed.
Definition ham_cond (r : N * bool) (d e : N) : bool :=
  let '(x, f) := r in
  (x <? 16)%N && eqb (x =? d)%N (pop e <=? 1) && (if (pop e <=? 1)%nat then eqb f (1 <=? pop e)%nat else true).
Lemma check2 (P : N -> N -> bool) a b : forallb (fun d => forallb (P d) (range b)) (range a) = true ->
  forall d e, (d < N.of_nat a)%N -> (e < N.of_nat b)%N -> P d e = true.
Proof.
  intros H d e Hd He. rewrite forallb_forall in H. specialize (H d (in_range_list a d Hd)). cbv beta in H.
  rewrite forallb_forall in H. exact (H e (in_range_list b e He)).
Qed.
Lemma ham_all : forallb (fun d => forallb ((fun d e => ham_cond (hamming_decode (N.lxor (hamming_encode d) e)) d e) d) (range 128)) (range 16) = true.
Proof. vm_compute. reflexivity. Qed.
Lemma ham_ok_true d e : (d < 16)%N -> (e < 128)%N -> ham_cond (hamming_decode (N.lxor (hamming_encode d) e)) d e = true.
Proof. intros Hd He. exact (check2 (fun d e => ham_cond (hamming_decode (N.lxor (hamming_encode d) e)) d e) 16 128 ham_all d e Hd He). Qed.
Lemma ham_of (r : N * bool) d e : ham_cond r d e = true ->
  exists x f, r = (x, f) /\ (x < 16)%N /\ (x = d <-> (pop e <= 1)%nat) /\ ((pop e <= 1)%nat -> f = (1 <=? pop e)%nat).
Proof.
  destruct r as [x f]. unfold ham_cond. intros H. exists x, f. split; [reflexivity|].
  apply andb_true_iff in H as [H H3]. apply andb_true_iff in H as [H1 H2]. split; [apply N.ltb_lt; exact H1|].
  apply eqb_prop in H2. split.
  - split; intros Q; [subst x; rewrite N.eqb_refl in H2; symmetry in H2; apply Nat.leb_le; exact H2|].
    apply Nat.leb_le in Q. rewrite Q in H2. apply N.eqb_eq. exact H2.
  - intros Q. apply Nat.leb_le in Q. rewrite Q in H3. apply eqb_prop. exact H3.
Qed.
Lemma ham d e : (d < 16)%N -> (e < 128)%N ->
  exists x f, hamming_decode (N.lxor (hamming_encode d) e) = (x, f) /\ (x < 16)%N /\ (x = d <-> (pop e <= 1)%nat) /\
    ((pop e <= 1)%nat -> f = (1 <=? pop e)%nat).
Proof. intros Hd He. exact (ham_of _ d e (ham_ok_true d e Hd He)). Qed.
Lemma enc_lt d : (d < 16)%N -> (hamming_encode d < 128)%N.
Proof.
  intros Hd. assert (H : forallb (fun d => (hamming_encode d <? 128)%N) (range 16) = true) by (vm_compute; reflexivity).
  rewrite forallb_forall in H. apply N.ltb_lt. apply (H d). apply (in_range_list 16). exact Hd.
Qed.

(** the two halves of a byte *)
Definition lo (x : N) := N.land x 15.
Definition hi (x : N) := N.land (N.shiftr x 4) 15.
Lemma half_ok x : (x < 256)%N -> (lo x < 16)%N /\ (hi x < 16)%N /\ forall a b, (a < 16)%N -> (b < 16)%N ->
   (N.lor (wrap 8 (N.shiftl b 4)) a < 256)%N /\ (N.lor (wrap 8 (N.shiftl b 4)) a = x <-> a = lo x /\ b = hi x).
Proof.
  intros Hx.
  assert (P : forall y, (y < 256)%N -> (lo y <? 16)%N && (hi y <? 16)%N && (N.lor (wrap 8 (N.shiftl (hi y) 4)) (lo y) =? y)%N = true).
  { intros y Hy. assert (H : forallb (fun y => (lo y <? 16)%N && (hi y <? 16)%N && (N.lor (wrap 8 (N.shiftl (hi y) 4)) (lo y) =? y)%N) (range 256) = true) by (vm_compute; reflexivity).
    rewrite forallb_forall in H. apply (H y). apply (in_range_list 256). exact Hy. }
  assert (Q : forall a b, (a < 16)%N -> (b < 16)%N -> let z := N.lor (wrap 8 (N.shiftl b 4)) a in (z <? 256)%N && (lo z =? a)%N && (hi z =? b)%N = true).
  { intros a b Ha Hb.
    assert (H : forallb (fun a => forallb (fun b => let z := N.lor (wrap 8 (N.shiftl b 4)) a in (z <? 256)%N && (lo z =? a)%N && (hi z =? b)%N) (range 16)) (range 16) = true) by (vm_compute; reflexivity).
    rewrite forallb_forall in H. specialize (H a (in_range_list 16 a Ha)). cbv beta in H. rewrite forallb_forall in H.
    exact (H b (in_range_list 16 b Hb)). }
  specialize (P x Hx). apply andb_true_iff in P as [P P3]. apply andb_true_iff in P as [P1 P2].
  split; [apply N.ltb_lt; exact P1|]. split; [apply N.ltb_lt; exact P2|]. intros a b Ha Hb. specialize (Q a b Ha Hb). cbv zeta in Q.
  apply andb_true_iff in Q as [Q Q3]. apply andb_true_iff in Q as [Q1 Q2]. apply N.eqb_eq in Q2, Q3, P3.
  split; [apply N.ltb_lt; exact Q1|]. split.
  - intros <-. auto.
  - intros [-> ->]. exact P3.
Qed.

(** encoded memory *)
Lemma edac_encode_length m : length (edac_encode m) = (2 * length m)%nat.
Proof. induction m as [|x m IH]; [reflexivity|]. unfold edac_encode in *. cbn [flat_map app length]. rewrite IH. lia. Qed.
Lemma edac_encode_nth m : forall k, (k < length m)%nat ->
  nth (2 * k) (edac_encode m) 0%N = hamming_encode (lo (nth k m 0%N)) /\ nth (2 * k + 1) (edac_encode m) 0%N = hamming_encode (hi (nth k m 0%N)).
Proof.
  induction m as [|x m IH]; intros [|k] H; cbn [length] in H; try lia; [split; reflexivity|].
  replace (2 * S k)%nat with (S (S (2 * k))) by lia. replace (S (S (2 * k)) + 1)%nat with (S (S (2 * k + 1))) by lia.
  unfold edac_encode in *. cbn [flat_map app nth]. apply IH. lia.
Qed.
Lemma edac_encode_bytes m : bytes m -> bytes (edac_encode m) /\ Forall (fun x => (x < 128)%N) (edac_encode m).
Proof.
  intros H. assert (Q : Forall (fun x => (x < 128)%N) (edac_encode m)).
  { unfold edac_encode. apply forall_flat. revert H. apply Forall_impl. intros x Hx. destruct (half_ok x Hx) as (A & B & _).
    constructor; [apply enc_lt; exact A|]. constructor; [apply enc_lt; exact B|constructor]. }
  split; [|exact Q]. revert Q. apply Forall_impl. intros; lia.
Qed.
(** the strikes *)
Lemma edac_fold_one n e : forall ds enc, fold_left (edac_flip ((eoffset e mod N.of_nat n) * 2)) ds enc =
  strikes_on (map (fun d : bool * N => (2 * fst (own_cell n e) + (if fst d then 0 else 1), N.to_nat (snd d))%nat) ds) enc.
Proof.
  induction ds as [|[c b] ds IH]; intros enc; [reflexivity|]. cbn [fold_left map]. rewrite IH. unfold strikes_on. cbn [fold_left fst snd].
  f_equal. unfold edac_flip. cbn [fst snd]. rewrite N2Nat.id. f_equal. unfold own_cell. cbn [fst]. destruct c; lia.
Qed.
Lemma edac_fold n es : forall enc k, legal_edac es -> fold_left (edac_step (N.of_nat n)) es (enc, k) =
  (strikes_on (edac_strikes n es) enc, (k + N.of_nat (length (edac_strikes n es)))%N).
Proof.
  induction es as [|[e ds] es IH]; intros enc k Hl; [simpl; f_equal; lia|].
  inversion Hl as [|? ? [L1 L2] Hr]; subst. cbn [fst snd] in L1, L2.
  cbn [fold_left]. unfold edac_strikes. cbn [flat_map]. fold (edac_strikes n es).
  rewrite strikes_on_app, app_length. unfold edac_step at 2.
  assert (E : hits e = true -> num_bits e = how_many_bits e) by (unfold hits, num_bits, how_many_bits; destruct (etype e); intros; try reflexivity; discriminate).
  destruct (hits e) eqn:Eh.
  - rewrite (E eq_refl), IH by exact Hr. rewrite edac_fold_one. unfold edac_strikes1. cbn [fst snd].
    rewrite map_length, firstn_length_le by exact L1. f_equal. lia.
  - rewrite IH by exact Hr. unfold edac_strikes1. cbn [fst snd].
    replace (how_many_bits e) with 0%nat by (unfold hits, how_many_bits in *; destruct (etype e); try discriminate; reflexivity).
    reflexivity.
Qed.
Lemma edac_range n es : (1 <= n)%nat -> legal_edac es -> Forall (fun c => (fst c < 2 * n)%nat /\ (snd c < 7)%nat) (edac_strikes n es).
Proof.
  intros Hn Hl. unfold edac_strikes. apply forall_flat. revert Hl. apply Forall_impl. intros [e ds] [_ H]. cbn [fst snd] in *.
  unfold edac_strikes1. cbn [fst snd]. apply Forall_forall. intros c Hc. apply in_map_iff in Hc as ([x b] & <- & Hd).
  pose proof (own_in n e Hn) as [O1 O2]. rewrite Forall_forall in H.
  assert (In (x, b) ds) by (rewrite <- (firstn_skipn (how_many_bits e) ds); apply in_or_app; left; exact Hd).
  specialize (H _ H0). cbn [fst snd] in *. destruct x; lia.
Qed.

(** decoding *)
Definition dec (e0 e1 : N) : N := N.lor (wrap 8 (N.shiftl (fst (hamming_decode e1)) 4)) (fst (hamming_decode e0)).
Definition flag (e0 e1 : N) : bool := snd (hamming_decode e0) || snd (hamming_decode e1).
Lemma edac_decode_spec o : forall enc cor, length enc = (2 * length o)%nat ->
  let r := edac_decode o enc cor in
  length (fst r) = length o /\ (forall k, (k < length o)%nat -> nth k (fst r) 0%N = dec (nth (2 * k) enc 0%N) (nth (2 * k + 1) enc 0%N)) /\
  snd r = (cor + count (fun k => (dec (nth (2 * k) enc 0) (nth (2 * k + 1) enc 0) =? nth k o 0) && flag (nth (2 * k) enc 0) (nth (2 * k + 1) enc 0)) (seq 0 (length o)))%N.
Proof.
  induction o as [|x o IH]; intros enc cor H r.
  - unfold r. cbn. split; [reflexivity|]. split; [intros; lia|]. unfold count. cbn. lia.
  - cbn [length] in H. destruct enc as [|e0 [|e1 enc]]; cbn [length] in H; try lia.
    unfold r. cbn [edac_decode].
    assert (E0 : hamming_decode e0 = (fst (hamming_decode e0), snd (hamming_decode e0))) by (destruct (hamming_decode e0); reflexivity).
    assert (E1 : hamming_decode e1 = (fst (hamming_decode e1), snd (hamming_decode e1))) by (destruct (hamming_decode e1); reflexivity).
    rewrite E0, E1. fold (dec e0 e1). fold (flag e0 e1).
    match goal with |- context [edac_decode o enc ?c] => pose proof (IH enc c ltac:(lia)) as G end. cbv zeta in G.
    destruct (edac_decode o enc _) as [rest cc]. cbn [fst snd] in *. destruct G as (G1 & G2 & G3).
    split; [cbn [length]; lia|]. split.
    + intros [|k] Hk; [reflexivity|]. replace (2 * S k)%nat with (S (S (2 * k))) by lia. replace (S (S (2 * k)) + 1)%nat with (S (S (2 * k + 1))) by lia.
      cbn [nth]. apply G2. cbn [length] in Hk. lia.
    + rewrite G3. cbn [length seq]. rewrite count_cons. cbn [Nat.mul Nat.add nth]. rewrite <- seq_shift, count_map.
      assert (Q : forall c : N, (c + (if (dec e0 e1 =? x)%N && flag e0 e1 then 1 else 0) = (if (dec e0 e1 =? x)%N && flag e0 e1 then c + 1 else c))%N)
        by (intros; destruct (_ && _); lia).
      rewrite N.add_assoc, Q. f_equal. apply count_ext. intros k _.
      replace (S k + (S k + 0))%nat with (S (S (2 * k))) by lia. replace (S (S (2 * k)) + 1)%nat with (S (S (2 * k + 1))) by lia. reflexivity.
Qed.

(** a struck codeword *)
Lemma struck l enc cw : Forall (fun c => (fst c < length enc)%nat /\ (snd c < 7)%nat) l -> bytes enc -> Forall (fun x => (x < 128)%N) enc -> (cw < length enc)%nat ->
  exists e, nth cw (strikes_on l enc) 0%N = N.lxor (nth cw enc 0%N) e /\ (e < 128)%N /\ pop e = weight l cw.
Proof.
  intros R B S Hc.
  assert (R8 : Forall (in_range (length enc)) l) by (revert R; apply Forall_impl; intros c [? ?]; split; lia).
  assert (I : forall b, N.testbit (nth cw (strikes_on l enc) 0%N) (N.of_nat b) = xorb (N.testbit (nth cw enc 0%N) (N.of_nat b)) (inverted l (cw, b))).
  { intros b. exact (strikes_on_bit l enc (cw, b) B R8). }
  exists (N.lxor (nth cw (strikes_on l enc) 0%N) (nth cw enc 0%N)). split; [|split].
  - rewrite (N.lxor_comm _ (nth cw enc 0%N)), <- N.lxor_assoc, N.lxor_nilpotent, N.lxor_0_l. reflexivity.
  - change 128%N with (2 ^ 7)%N. apply below_of_bits. intros j Hj. rewrite N.lxor_spec.
    rewrite <- (N2Nat.id j), I, xorb_comm, <- xorb_assoc, xorb_nilpotent, xorb_false_l.
    destruct (inverted l (cw, N.to_nat j)) eqn:E; [|reflexivity]. apply inverted_in in E. rewrite Forall_forall in R. specialize (R _ E). cbn [fst snd] in R. lia.
  - unfold pop, weight. f_equal. apply filter_ext. intros b. rewrite N.lxor_spec, I, xorb_comm, <- xorb_assoc, xorb_nilpotent, xorb_false_l. reflexivity.
Qed.
Lemma filter_pos {A} (P : A -> bool) l : (1 <= length (filter P l))%nat -> exists x, In x l /\ P x = true.
Proof. destruct (filter P l) as [|x r] eqn:E; simpl; [lia|]. intros _. exists x. apply filter_In. rewrite E. left. reflexivity. Qed.
Theorem edac_sim m es : bytes m -> (1 <= length m)%nat -> legal_edac es ->
  (N.of_nat (length (edac_strikes (length m) es)) <= INT_MAX)%N ->
  exists m' c, apply_edac m es = Ret (m', c) /\ length m' = length m /\ bytes m' /\
    (forall k, (k < length m)%nat -> nth k m' 0%N = nth k m 0%N <-> recoverable (edac_strikes (length m) es) k = true) /\
    total c = N.of_nat (length (edac_strikes (length m) es)) /\
    corrections c = count (fun k => recoverable (edac_strikes (length m) es) k && damaged (edac_strikes (length m) es) k) (seq 0 (length m)) /\
    (corrections c <= total c)%N.
Proof.
  intros Hb H1 Hl Hi. set (n := length m) in *. pose proof (edac_range n es H1 Hl) as R. set (L := edac_strikes n es) in *.
  destruct (edac_encode_bytes m Hb) as [EB E7]. pose proof (edac_encode_length m) as EL. fold n in EL.
  assert (D : forall k, (k < n)%nat -> let e0 := nth (2 * k) (strikes_on L (edac_encode m)) 0%N in let e1 := nth (2 * k + 1) (strikes_on L (edac_encode m)) 0%N in
    (dec e0 e1 < 256)%N /\ (dec e0 e1 = nth k m 0%N <-> recoverable L k = true) /\ (recoverable L k = true -> flag e0 e1 = damaged L k)).
  { intros k Hk e0 e1.
    destruct (struck L (edac_encode m) (2 * k)) as (x0 & X0 & Y0 & Z0); [rewrite EL; exact R|exact EB|exact E7|lia|].
    destruct (struck L (edac_encode m) (2 * k + 1)) as (x1 & X1 & Y1 & Z1); [rewrite EL; exact R|exact EB|exact E7|lia|].
    destruct (edac_encode_nth m k Hk) as [N0 N1]. rewrite N0 in X0. rewrite N1 in X1.
    destruct (half_ok (nth k m 0%N) (nth_byte m k Hb)) as (A & B & C).
    destruct (ham _ _ A Y0) as (d0 & f0 & F0 & G0 & I0 & J0). destruct (ham _ _ B Y1) as (d1 & f1 & F1 & G1 & I1 & J1).
    unfold dec, flag, e0, e1. rewrite X0, X1, F0, F1. cbn [fst snd]. destruct (C _ _ G0 G1) as [C1 C2].
    unfold recoverable, damaged. rewrite <- Z0, <- Z1. rewrite andb_true_iff, !Nat.leb_le. split; [exact C1|]. split.
    - rewrite C2, I0, I1. reflexivity.
    - intros [Q0 Q1]. rewrite (J0 Q0), (J1 Q1). reflexivity. }
  assert (E : count (fun k => (dec (nth (2 * k) (strikes_on L (edac_encode m)) 0) (nth (2 * k + 1) (strikes_on L (edac_encode m)) 0) =? nth k m 0)%N &&
      flag (nth (2 * k) (strikes_on L (edac_encode m)) 0%N) (nth (2 * k + 1) (strikes_on L (edac_encode m)) 0%N)) (seq 0 n) = count (fun k => recoverable L k && damaged L k) (seq 0 n)).
  { apply count_ext. intros k Hk. apply in_seq in Hk. destruct (D k ltac:(lia)) as (_ & D1 & D2).
    destruct (recoverable L k) eqn:Er.
    - rewrite (proj2 D1 eq_refl), N.eqb_refl, D2 by reflexivity. reflexivity.
    - destruct (N.eqb_spec (dec (nth (2 * k) (strikes_on L (edac_encode m)) 0%N) (nth (2 * k + 1) (strikes_on L (edac_encode m)) 0%N)) (nth k m 0%N)) as [Q|Q]; [apply D1 in Q; discriminate Q|reflexivity]. }
  assert (LE : (count (fun k => recoverable L k && damaged L k) (seq 0 n) <= N.of_nat (length L))%N).
  { rewrite <- (map_length (fun c : cell => Nat.div2 (fst c)) L). apply nodup_count_in; [apply seq_NoDup|]. intros k _ Hk. apply andb_true_iff in Hk as [_ Hd].
    unfold damaged in Hd. apply orb_true_iff in Hd as [Hd|Hd]; apply Nat.leb_le in Hd; apply filter_pos in Hd as (b & _ & Hd); apply inverted_in in Hd; apply in_map_iff.
    - exists ((2 * k)%nat, b). split; [cbn [fst]; apply Nat.div2_double|exact Hd].
    - exists ((2 * k + 1)%nat, b). split; [cbn [fst]; rewrite Nat.add_1_r; apply Nat.div2_succ_double|exact Hd]. }
  unfold apply_edac. fold n. replace (N.of_nat n =? 0)%N with false by (symmetry; apply N.eqb_neq; lia). cbn [andb].
  rewrite edac_fold by exact Hl. fold L. rewrite N.add_0_l.
  pose proof (edac_decode_spec m (strikes_on L (edac_encode m)) 0 ltac:(rewrite strikes_on_length; exact EL)) as V. cbv zeta in V.
  destruct (edac_decode m _ 0) as [m' cor]. cbn [fst snd] in V. destruct V as (V1 & V2 & V3). rewrite N.add_0_l in V3. fold n in V1, V2, V3. rewrite E in V3. subst cor.
  unfold int_result. cbn [corrections total]. rewrite (proj2 (N.leb_le _ INT_MAX)) by lia. rewrite (proj2 (N.leb_le _ INT_MAX)) by lia. cbn [andb].
  do 2 eexists. split; [reflexivity|]. split; [exact V1|]. split; [|split; [|cbn [total corrections]; split; [reflexivity|split; [reflexivity|exact LE]]]].
  - unfold bytes. apply Forall_nth. intros k d Hk. rewrite V1 in Hk. rewrite (nth_indep _ d 0%N) by lia. rewrite V2 by exact Hk. apply (D k Hk).
  - intros k Hk. rewrite V2 by exact Hk. apply (D k Hk).
Qed.
