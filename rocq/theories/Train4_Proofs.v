(** Whole training calls. *)
From Coq Require Import List NArith ZArith Bool Arith Lia SpecFloat Reals Lra.
From Flocq Require Import Core.
From Flocq.IEEE754 Require Import BinarySingleNaN.
Import ListNotations.
From Verif Require Import Outcome Words Floats FloatsR FloatsS Approx_Model Bits_Model PNN_Model PNN_Spec PNN_Proofs PNN3_Proofs PNN5_Proofs Train_Model Train_Spec Train_Proofs Train2_Proofs Train3_Proofs.
Local Open Scope nat_scope.

Section S.
Variables (expf : sf -> sf) (s : pnn) (samples : list (list N * list N)).
Hypothesis HI : Inv s.
Hypothesis Hin : 0 < hd O (sizes s).
Hypothesis Hout : 0 < last (sizes s) O.
Hypothesis HF : Forall (fun p => length (fst p) = hd O (sizes s) /\ length (snd p) = last (sizes s) O) samples.
Let f := network (params s) (acts s).

Lemma epochs_inv (P : nat -> rat -> list (list (list N) * list N) -> Prop) batch freq d cd :
  (forall e r m, P e r m -> P (S e) (injected s samples r (d e) (Z.of_nat e) freq m) (strucked r (d e) (Z.of_nat e) freq m)) ->
  (forall e r m, P e r m -> samples <> [] -> target r = true -> crit r <> None ->
     P (S e) (marked expf s samples (injected s samples r (d e) (Z.of_nat e) freq m) (cd (S e)) (strucked r (d e) (Z.of_nat e) freq m)) (strucked r (d e) (Z.of_nat e) freq m)) ->
  forall n e r c m r' s', P e r m -> epochs_from expf r (at_ s c m) samples batch freq e n d cd = Ret (r', s') -> exists c' m', s' = at_ s c' m' /\ P (e + n) r' m'.
Proof.
  intros H1 H2. induction n as [|n IH]; intros e r c m r' s' HP H; cbn [epochs_from] in H.
  - injection H as <- <-. exists c, m. rewrite Nat.add_0_r. auto.
  - apply obind_ret in H. destruct H as ([r1 s1] & E1 & H). cbn [fst snd] in H.
    destruct (epoch_ret expf s samples HI Hin Hout HF r c m batch freq (Z.of_nat e) (d e) (cd (S e)) r1 s1 E1) as (c1 & -> & [-> | (NE & T & K & ->)]).
    + destruct (IH (S e) _ c1 _ r' s' (H1 e r m HP) H) as (c' & m' & -> & HP'). exists c', m'. split; [reflexivity|]. replace (e + S n) with (S e + n) by lia. exact HP'.
    + destruct (IH (S e) _ c1 _ r' s' (H2 e r m HP NE T K) H) as (c' & m' & -> & HP'). exists c', m'. split; [reflexivity|]. replace (e + S n) with (S e + n) by lia. exact HP'.
Qed.
Definition first_map (r : rat) (cd : nat -> cdraw) : rat := match target r, crit r with true, None => marked expf s samples r (cd O) (mirror s) | _, _ => r end.
Definition finish (r : rat) (n freq : Z) : rat := with_drop r (sdiv (drop r) (sofZ (Z.max 1 (Z.quot n freq)))) (sdiv (recovery r) (sofZ (Z.max 1 (Z.quot n freq)))).

Lemma rat_unfold r data labels cfg d cd : as_samples (hd O (sizes s)) (last (sizes s) O) samples data labels ->
  rat_train expf r s data labels cfg d cd =
    obind (match target r, crit r with true, None => updateCriticalityMap expf r s (sub_in samples) (sub_out samples) (cd O) | _, _ => Ret (r, s) end) (fun q =>
    obind (frequency (prob r)) (fun freq =>
    obind (accuracy (snd q) samples) (fun b =>
    obind (epochs_from expf (fst q) (snd b) samples (batch_size cfg) freq O (Z.to_nat (epochs cfg)) d cd) (fun z =>
    Ret (finish (fst z) (epochs cfg) freq, snd z, Stats (flips (fst z)) (drop (finish (fst z) (epochs cfg) freq)) (recovery (finish (fst z) (epochs cfg) freq))))))).
Proof.
  intros (-> & -> & _). unfold rat_train.
  assert (F1 : Forall (fun x => length x = hd O (sizes s)) (map fst samples)) by (apply Forall_map; eapply Forall_impl; [|exact HF]; cbn; tauto).
  assert (F2 : Forall (fun x => length x = last (sizes s) O) (map snd samples)) by (apply Forall_map; eapply Forall_impl; [|exact HF]; cbn; tauto).
  rewrite (proj2 (Nat.eqb_neq (hd O (sizes s)) 0)) by lia. rewrite (proj2 (Nat.eqb_neq (last (sizes s) O) 0)) by lia.
  rewrite (concat_length_const _ _ F1), (concat_length_const _ _ F2), !map_length, Nat.div_mul, !Nat.mod_mul by lia. cbn [Nat.eqb negb]. rewrite Nat.eqb_refl. cbn [negb].
  assert (C1 : chunks (hd O (sizes s)) (length samples) (concat (map fst samples)) = map fst samples) by (rewrite <- (map_length fst samples) at 1; apply chunks_concat, F1).
  assert (C2 : chunks (last (sizes s) O) (length samples) (concat (map snd samples)) = map snd samples) by (rewrite <- (map_length snd samples) at 1; apply chunks_concat, F2).
  rewrite C1, C2, combine_split_map. reflexivity.
Qed.
Lemma rat_ret r data labels cfg d cd r' s' a : as_samples (hd O (sizes s)) (last (sizes s) O) samples data labels ->
  rat_train expf r s data labels cfg d cd = Ret (r', s', a) ->
  (target r = true -> crit r = None -> samples <> []) /\
  exists freq c1 r2, frequency (prob r) = Ret freq /\ epochs_from expf (first_map r cd) (at_ s c1 (mirror s)) samples (batch_size cfg) freq O (Z.to_nat (epochs cfg)) d cd = Ret (r2, s') /\
    r' = finish r2 (epochs cfg) freq /\ a = Stats (flips r') (drop r') (recovery r').
Proof.
  intros HA H. rewrite (rat_unfold r data labels cfg d cd HA) in H. apply obind_ret in H. destruct H as ([r1 s1] & E1 & H). apply obind_ret in H. destruct H as (freq & Ef & H).
  apply obind_ret in H. destruct H as ([b s2] & E2 & H). apply obind_ret in H. destruct H as ([r2 s3] & E3 & H). cbn [fst snd] in *. injection H as <- <- <-.
  assert (G : (target r = true -> crit r = None -> samples <> []) /\ r1 = first_map r cd /\ exists c0, s1 = at_ s c0 (mirror s)).
  { unfold first_map. destruct (target r); [|injection E1 as <- <-; split; [discriminate|]; split; [reflexivity|]; exists (counter s); apply at_self].
    destruct (crit r) as [k|]; [injection E1 as <- <-; split; [discriminate|]; split; [reflexivity|]; exists (counter s); apply at_self|].
    rewrite (at_self s) in E1 at 1. assert (NE : samples <> []). { intros E. rewrite (update_empty expf s samples Hin Hout HF _ _ _ _ E) in E1. discriminate E1. }
    destruct (update_ret expf s samples HI Hin Hout HF r _ _ _ r1 s1 NE E1) as (-> & c0 & ->). split; [auto|]. split; [reflexivity|]. exists c0; reflexivity. }
  destruct G as (G & -> & c0 & ->). split; [exact G|]. destruct (acc_ok s samples HI Hin HF c0 (mirror s)) as [c1 Ea]. rewrite Ea in E2. injection E2 as <- <-.
  exists freq, c1, r2. auto.
Qed.

(** ** consequences *)
Lemma shape_strucked r d e freq m : shape (strucked r d e freq m) = shape m.
Proof. unfold strucked. destruct (e mod freq =? 0)%Z; [apply shape_struck|reflexivity]. Qed.
Lemma first_map_core r cd : prob (first_map r cd) = prob r /\ target (first_map r cd) = target r /\ env (first_map r cd) = env r /\ flips (first_map r cd) = flips r /\ drop (first_map r cd) = drop r /\ recovery (first_map r cd) = recovery r.
Proof. unfold first_map. destruct (target r) eqn:E; [destruct (crit r)|]; repeat split; auto. Qed.

Definition core (r r' : rat) : Prop := prob r' = prob r /\ target r' = target r /\ env r' = env r.
Lemma core_refl r : core r r. Proof. repeat split. Qed.
Lemma core_trans a b c : core a b -> core b c -> core a c. Proof. intros (A & B & C) (D & E & F). repeat split; congruence. Qed.
Lemma core_injected r d e freq m : core r (injected s samples r d e freq m).
Proof. unfold injected. destruct (e mod freq =? 0)%Z; repeat split. Qed.
Lemma core_marked r d m : core r (marked expf s samples r d m). Proof. repeat split. Qed.

(* the network is only changed in its copies *)
Lemma rat_network r data labels cfg d cd r' s' a : as_samples (hd O (sizes s)) (last (sizes s) O) samples data labels ->
  rat_train expf r s data labels cfg d cd = Ret (r', s', a) -> (exists c' m', s' = at_ s c' m' /\ shape m' = shape (mirror s)) /\ core r r' /\ a = Stats (flips r') (drop r') (recovery r').
Proof.
  intros HA H. destruct (rat_ret _ _ _ _ _ _ _ _ _ HA H) as (_ & freq & c1 & r2 & _ & E & -> & ->).
  destruct (epochs_inv (fun _ r2 m => core r r2 /\ shape m = shape (mirror s)) (batch_size cfg) freq d cd) with (4 := E) as (c' & m' & -> & C & Sh).
  - intros e r0 m0 [C Sh]. split; [eapply core_trans; [exact C|apply core_injected]|]. rewrite shape_strucked. exact Sh.
  - intros e r0 m0 [C Sh] _ _ _. split; [eapply core_trans; [exact C|]; eapply core_trans; [apply core_injected|apply core_marked]|]. rewrite shape_strucked. exact Sh.
  - destruct (first_map_core r cd) as (A & B & D & _). split; [repeat split; assumption|reflexivity].
  - split; [exists c', m'; auto|]. split; [|reflexivity]. exact C.
Qed.

(* accuracies before and after are equal *)
Lemma ssub_self x : is_finite_SF x = true -> ssub x x = S754_zero false.
Proof.
  destruct x as [b|b| |b m e]; try discriminate; intros _; unfold ssub, SFsub.
  - destruct b; reflexivity.
  - rewrite Z.sub_diag. reflexivity.
Qed.
Local Open Scope R_scope.
Lemma acc_finite : samples <> [] -> (Z.of_nat (length samples) < 2 ^ 64)%Z -> is_finite_SF (acc_of f samples) = true.
Proof.
  intros NE B. unfold acc_of. set (k := length (filter (right f) samples)).
  assert (Hk : (k <= length samples)%nat) by (unfold k; clear; induction samples as [|p l IH]; cbn [filter length]; [lia|]; destruct (right f p); cbn [length]; lia).
  assert (H1 : (1 <= Z.of_nat (length samples))%Z) by (destruct samples; [congruence|cbn [length]; lia]).
  destruct (ofZ_s (Z.of_nat k)) as [Ok Rk]; [lia|]. destruct (ofZ_s (Z.of_nat (length samples))) as [On Rn]; [lia|].
  assert (M1 : R (sofZ 1) <= R (sofZ (Z.of_nat (length samples)))) by (apply ofZ_s_mono; lia).
  assert (M0 : R (sofZ 0) <= R (sofZ (Z.of_nat k))) by (apply ofZ_s_mono; lia).
  assert (M2 : R (sofZ (Z.of_nat k)) <= R (sofZ (Z.of_nat (length samples)))) by (apply ofZ_s_mono; lia).
  assert (E1 : R (sofZ 1) = 1) by (vm_compute; lra). assert (E0 : R (sofZ 0) = 0) by (vm_compute; lra). rewrite E1 in M1. rewrite E0 in M0.
  destruct (div_s _ _ Ok On) as [[_ D] _]; [lra| |exact D].
  apply mids_small. assert (0 <= R (sofZ (Z.of_nat k)) / R (sofZ (Z.of_nat (length samples))) <= 1); [|lra].
  split; [apply Rmult_le_pos; [exact M0|left; apply Rinv_0_lt_compat; lra]|]. apply (Rmult_le_reg_r (R (sofZ (Z.of_nat (length samples))))); [lra|].
  unfold Rdiv. rewrite Rmult_assoc, Rinv_l by lra. lra.
Qed.
Lemma lost_zero : samples <> [] -> (Z.of_nat (length samples) < 2 ^ 64)%Z -> lost s samples = S754_zero false.
Proof. intros NE B. unfold lost. apply ssub_self, (acc_finite NE B). Qed.
Lemma zero_div z : (1 <= z < 2 ^ 31)%Z -> sdiv (S754_zero false) (sofZ z) = S754_zero false.
Proof.
  intros Hz. destruct (ofZ_s z) as [[_ F] _]; [lia|]. assert (M1 : R (sofZ 1) <= R (sofZ z)) by (apply ofZ_s_mono; lia). assert (E1 : R (sofZ 1) = 1) by (vm_compute; lra). rewrite E1 in M1.
  destruct (sofZ z) as [b|b| |b m e]; try discriminate F; unfold R in M1; cbn [BinarySingleNaN.SF2R] in M1; [lra|]. destruct b; [|reflexivity].
  exfalso. pose proof (Flocq.Core.Float_prop.F2R_lt_0 Flocq.Core.Zaux.radix2 (Flocq.Core.Defs.Float _ (Z.neg m) e)) as Q. cbn in Q. specialize (Q ltac:(lia)).
  unfold SpecFloat.cond_Zopp in M1. cbn [Z.opp] in M1. lra.
Qed.
Local Open Scope nat_scope.
Definition quiet_stats (r : rat) : Prop := drop r = S754_zero false /\ recovery r = S754_zero false.
Lemma quiet_round r d m : samples <> [] -> (Z.of_nat (length samples) < 2 ^ 64)%Z -> quiet_stats r -> quiet_stats (after_round s samples r d m).
Proof.
  intros NE B [D V]. unfold quiet_stats, after_round. cbn [drop recovery with_drop]. rewrite D, V, (lost_zero NE B).
  split; [reflexivity|]. replace (sdiv (S754_zero false) (fmax (slit 1 1000) (S754_zero false))) with (S754_zero false) by (vm_compute; reflexivity). reflexivity.
Qed.
Lemma rat_quiet r data labels cfg d cd r' s' a : as_samples (hd O (sizes s)) (last (sizes s) O) samples data labels -> samples <> [] -> (Z.of_nat (length samples) < 2 ^ 64)%Z -> int_config cfg ->
  quiet_stats r -> rat_train expf r s data labels cfg d cd = Ret (r', s', a) -> quiet_stats r'.
Proof.
  intros HA NE B [IC _] Q H. destruct (rat_ret _ _ _ _ _ _ _ _ _ HA H) as (_ & freq & c1 & r2 & Ef & E & -> & _).
  destruct (epochs_inv (fun _ r2 m => quiet_stats r2) (batch_size cfg) freq d cd) with (4 := E) as (c' & m' & -> & Q2).
  - intros e r0 m0 Q0. unfold injected. destruct (_ =? 0)%Z; [apply quiet_round; assumption|exact Q0].
  - intros e r0 m0 Q0 _ _ _. change (quiet_stats (injected s samples r0 (d e) (Z.of_nat e) freq m0)). unfold injected. destruct (_ =? 0)%Z; [apply quiet_round; assumption|exact Q0].
  - destruct (first_map_core r cd) as (_ & _ & _ & _ & A & C). destruct Q as [Q1 Q2]. split; congruence.
  - destruct Q2 as [Q2 Q3]. unfold quiet_stats, finish. cbn [drop recovery with_drop]. rewrite Q2, Q3.
    assert (Z1 : (1 <= Z.max 1 (Z.quot (epochs cfg) freq) < 2 ^ 31)%Z).
    { unfold is_int in IC. assert (F1 : (1 <= freq)%Z) by (unfold frequency in Ef; apply obind_ret in Ef; destruct Ef as (z & _ & Ez); injection Ez as <-; lia).
      split; [lia|]. destruct (Z_lt_le_dec (epochs cfg) 0) as [N1|N1].
      - pose proof (Z.quot_opp_l (epochs cfg) freq ltac:(lia)) as A. pose proof (Z.quot_pos (- epochs cfg) freq ltac:(lia) ltac:(lia)). lia.
      - pose proof (Z.quot_le_upper_bound (epochs cfg) freq (epochs cfg)) as A. assert ((epochs cfg <= freq * epochs cfg)%Z) by nia. lia. }
    split; apply zero_div; exact Z1.
Qed.

(* flips *)
Lemma hits_core r r' d m m' : core r r' -> target r = false -> shape m' = shape m -> hits r' d m' = hits r d m.
Proof.
  intros (A & B & C) T Sh. rewrite (hits_shape r' d m' m Sh). unfold hits, weight_hit, bias_hit, chance, bias_chance. rewrite A, B, C, T. reflexivity.
Qed.
Lemma multiples_S e k : multiples (S e) k = multiples e k ++ (if (Z.of_nat e mod k =? 0)%Z then [e] else []).
Proof. unfold multiples. rewrite seq_S, filter_app. cbn [plus filter]. destruct (_ =? 0)%Z; reflexivity. Qed.
Lemma sum_app a b : sum (a ++ b) = (sum a + sum b)%Z.
Proof. unfold sum. induction a as [|x a IH]; cbn [app fold_right]; lia. Qed.
Lemma rat_flips r data labels cfg d cd r' s' a : as_samples (hd O (sizes s)) (last (sizes s) O) samples data labels -> target r = false ->
  rat_train expf r s data labels cfg d cd = Ret (r', s', a) ->
  exists freq, frequency (prob r) = Ret freq /\ flips r' = (flips r + sum (map (fun e => hits r (d e) (mirror s)) (multiples (Z.to_nat (epochs cfg)) freq)))%Z.
Proof.
  intros HA T H. destruct (rat_ret _ _ _ _ _ _ _ _ _ HA H) as (_ & freq & c1 & r2 & Ef & E & -> & _). exists freq. split; [exact Ef|].
  destruct (epochs_inv (fun e r2 m => core r r2 /\ shape m = shape (mirror s) /\ flips r2 = (flips r + sum (map (fun e => hits r (d e) (mirror s)) (multiples e freq)))%Z) (batch_size cfg) freq d cd) with (4 := E) as (c' & m' & -> & C & Sh & Fl).
  - intros e r0 m0 (C & Sh & Fl). split; [eapply core_trans; [exact C|apply core_injected]|]. split; [rewrite shape_strucked; exact Sh|].
    unfold injected. rewrite multiples_S, map_app, sum_app. destruct (_ =? 0)%Z; cbn [map sum fold_right]; [|rewrite Z.add_0_r; exact Fl].
    unfold after_round. cbn [flips with_drop with_flips]. rewrite (hits_core r r0 (d e) (mirror s) m0 C T Sh), Fl. lia.
  - intros e r0 m0 (C & _) _ T0 _. destruct C as (_ & C & _). congruence.
  - destruct (first_map_core r cd) as (A & B & D & G & _). split; [repeat split; assumption|]. split; [reflexivity|]. rewrite G. cbn. lia.
  - cbn [plus] in Fl. exact Fl.
Qed.

(* criticalities *)
Definition entries (P : sf -> Prop) (r : rat) : Prop := forall k l i j v, crit r = Some k -> get3 k l i j = Some v -> P v.
Lemma entries_marked (P : sf -> Prop) r d m : P (S754_zero false) -> P (level1 expf s samples) -> entries P r -> entries P (marked expf s samples r d m).
Proof.
  intros P0 P1 H k l i j v E G. unfold marked, with_crit in E. cbn [crit] in E. injection E as <-. rewrite get3_marks in G.
  destruct (get3 (map_of r m) l i j) as [z|] eqn:Ez; [|discriminate G]. cbn [option_map] in G. injection G as <-. destruct (existsb _ _); [exact P1|].
  unfold map_of in Ez. destruct (crit r) as [k|] eqn:Ek; [exact (H k l i j z Ek Ez)|]. rewrite (get3_new _ _ _ _ _ Ez). exact P0.
Qed.
Lemma entries_injected P r d e freq m : entries P r -> entries P (injected s samples r d e freq m).
Proof. intros H. unfold injected. destruct (e mod freq =? 0)%Z; exact H. Qed.
Lemma rat_entries (P : sf -> Prop) r data labels cfg d cd r' s' a : as_samples (hd O (sizes s)) (last (sizes s) O) samples data labels -> P (S754_zero false) -> P (level1 expf s samples) -> entries P r ->
  rat_train expf r s data labels cfg d cd = Ret (r', s', a) -> entries P r'.
Proof.
  intros HA P0 P1 H0 H. destruct (rat_ret _ _ _ _ _ _ _ _ _ HA H) as (_ & freq & c1 & r2 & Ef & E & -> & _).
  destruct (epochs_inv (fun _ r2 m => entries P r2) (batch_size cfg) freq d cd) with (4 := E) as (c' & m' & -> & Q2).
  - intros e r0 m0 Q0. apply entries_injected, Q0.
  - intros e r0 m0 Q0 _ _ _. apply entries_marked; auto. apply entries_injected, Q0.
  - unfold first_map. destruct (target r); [destruct (crit r); [exact H0|apply entries_marked; assumption]|exact H0].
  - exact Q2.
Qed.
(* the entry of a weight, once it is the level, stays *)
Definition marked_at (l i j : nat) (r : rat) : Prop := exists k, crit r = Some k /\ get3 k l i j = Some (level1 expf s samples).
Lemma marked_at_marked l i j r d m : marked_at l i j r -> marked_at l i j (marked expf s samples r d m).
Proof.
  intros (k & E & G). unfold marked. eexists. split; [reflexivity|]. rewrite get3_marks. unfold map_of. rewrite E, G. cbn [option_map]. destruct (existsb _ _); reflexivity.
Qed.
Lemma get3_exists_new m l i j : (exists v, get3 (map fst m) l i j = Some v) -> get3 (new_map m) l i j = Some (S754_zero false).
Proof. intros H. destruct (get3_lens s Hin _ (new_map m) l i j (eq_sym (lens_new m)) H) as [v G]. rewrite G. f_equal. exact (get3_new _ _ _ _ _ G). Qed.
Lemma rat_analysed r data labels cfg d cd r' s' a l i j n : as_samples (hd O (sizes s)) (last (sizes s) O) samples data labels -> target r = true -> crit r = None ->
  (exists v, get3 (map fst (mirror s)) l i j = Some v) -> tests_of (nth l (map fst (mirror s)) []) = Ret n -> analysed (cd O) n l i j ->
  rat_train expf r s data labels cfg d cd = Ret (r', s', a) -> marked_at l i j r'.
Proof.
  intros HA T K HX HT (t & Ht & ED) H. destruct (rat_ret _ _ _ _ _ _ _ _ _ HA H) as (_ & freq & c1 & r2 & Ef & E & -> & _).
  destruct (epochs_inv (fun _ r2 m => marked_at l i j r2) (batch_size cfg) freq d cd) with (4 := E) as (c' & m' & -> & Q2).
  - intros e r0 m0 Q0. unfold injected. destruct (_ =? 0)%Z; exact Q0.
  - intros e r0 m0 Q0 _ _ _. apply marked_at_marked. unfold injected. destruct (_ =? 0)%Z; exact Q0.
  - unfold first_map. rewrite T, K. unfold marked. eexists. split; [reflexivity|]. rewrite get3_marks. unfold map_of. rewrite K, (get3_exists_new _ _ _ _ HX). cbn [option_map].
    assert (X : existsb (fun l' => drawn l' (tests (cd O) (mirror s) l') l i j) (seq 0 (length (mirror s))) = true).
    { apply existsb_exists. exists l. split.
      - apply in_seq. split; [lia|]. cbn [plus]. destruct HX as [v HX]. unfold get3 in HX. destruct (nth_error (map fst (mirror s)) l) eqn:EN; [|discriminate HX].
        assert (l < length (map fst (mirror s))) by (apply nth_error_Some; congruence). rewrite map_length in H0. exact H0.
      - unfold drawn, tests, ntests. rewrite HT. apply existsb_exists. exists (cd O l t). split; [apply in_map, in_seq; lia|]. rewrite ED. cbn [fst snd]. unfold same3. rewrite !Nat.eqb_refl. reflexivity. }
    rewrite X. reflexivity.
  - exact Q2.
Qed.
End S.
