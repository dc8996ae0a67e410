(** Rejected data; a trained network is a network in use; an empty data set; environments. *)
From Coq Require Import List NArith ZArith Bool Arith Lia SpecFloat Reals Lra.
From Flocq Require Import Core.
From Flocq.IEEE754 Require Import BinarySingleNaN.
Import ListNotations.
From Verif Require Import Outcome Words Floats FloatsR FloatsS Approx_Model Bits_Model PNN_Model PNN_Spec PNN_Proofs PNN3_Proofs PNN4_Proofs PNN5_Proofs PNN6_Proofs Train_Model Train_Spec Train_Proofs Train2_Proofs Train3_Proofs Train4_Proofs Train5_Proofs.
Local Open Scope nat_scope.

Lemma chunks_length {A} n k (l : list A) : length (chunks n k l) = k.
Proof. revert l; induction k; intros; cbn; auto. Qed.
Lemma chunks_all {A} n k (l : list A) : length l = k * n -> concat (chunks n k l) = l /\ Forall (fun c => length c = n) (chunks n k l).
Proof.
  revert l; induction k as [|k IH]; intros l H; cbn [chunks concat].
  - destruct l; [auto|discriminate].
  - destruct (IH (skipn n l)) as [E F]; [rewrite skipn_length; lia|]. rewrite E, firstn_skipn. split; [reflexivity|]. constructor; [apply firstn_length_le; lia|exact F].
Qed.
Lemma map_fst_combine {A B} (a : list A) (b : list B) : length a = length b -> map fst (combine a b) = a.
Proof. revert b; induction a; intros [|y b] H; cbn; try discriminate; f_equal; auto. Qed.
Lemma map_snd_combine {A B} (a : list A) (b : list B) : length a = length b -> map snd (combine a b) = b.
Proof. revert b; induction a; intros [|y b] H; cbn; try discriminate; f_equal; auto. Qed.
Lemma regroup nin nout k data labels : length data = k * nin -> length labels = k * nout -> exists samples, as_samples nin nout samples data labels.
Proof.
  intros H1 H2. destruct (chunks_all nin k data H1) as [E1 F1]. destruct (chunks_all nout k labels H2) as [E2 F2].
  exists (combine (chunks nin k data) (chunks nout k labels)). pose proof (chunks_length nin k data) as L1. pose proof (chunks_length nout k labels) as L2.
  split; [rewrite map_fst_combine by congruence; auto|]. split; [rewrite map_snd_combine by congruence; auto|].
  apply Forall_forall. intros [x y] Hxy. rewrite Forall_forall in F1, F2. cbn [fst snd]. split; [apply F1; exact (in_combine_l _ _ _ _ Hxy)|apply F2; exact (in_combine_r _ _ _ _ Hxy)].
Qed.
Lemma rejects expf r s data labels cfg d cd : 0 < hd O (sizes s) -> 0 < last (sizes s) O -> ~ (exists samples, as_samples (hd O (sizes s)) (last (sizes s) O) samples data labels) ->
  rat_train expf r s data labels cfg d cd = Ret (r, s, Error).
Proof.
  intros Hin Hout HN. unfold rat_train. rewrite (proj2 (Nat.eqb_neq (hd O (sizes s)) 0)) by lia. rewrite (proj2 (Nat.eqb_neq (last (sizes s) O) 0)) by lia.
  destruct (Nat.eqb_spec (length data mod hd O (sizes s)) 0) as [M1|M1]; cbn [negb]; [|reflexivity].
  destruct (Nat.eqb_spec (length labels mod last (sizes s) O) 0) as [M2|M2]; cbn [negb]; [|reflexivity].
  destruct (Nat.eqb_spec (length data / hd O (sizes s) * last (sizes s) O) (length labels)) as [M3|M3]; cbn [negb]; [|reflexivity].
  exfalso. apply HN. apply (regroup _ _ (length data / hd O (sizes s))); [|auto]. pose proof (Nat.div_mod (length data) (hd O (sizes s)) ltac:(lia)). lia.
Qed.

(** ** the network after training *)
Definition follows (s s' : pnn) : Prop := exists ops, run s ops = Ret s'.
Lemma follows_refl s : follows s s. Proof. exists []. reflexivity. Qed.
Lemma run_app s a b s1 s2 : run s a = Ret s1 -> run s1 b = Ret s2 -> run s (a ++ b) = Ret s2.
Proof.
  revert s; induction a as [|o a IH]; intros s H1 H2; cbn [app run] in *; [congruence|]. apply obind_ret in H1. destruct H1 as (s' & E & H1). rewrite E. cbn [obind]. exact (IH s' H1 H2).
Qed.
Lemma follows_trans a b c : follows a b -> follows b c -> follows a c.
Proof. intros [x X] [y Y]. exists (x ++ y). exact (run_app _ _ _ _ _ X Y). Qed.
Lemma follows_forward s x y s' : forward s x (S754_zero false) no_draws = Ret (y, s') -> follows s s'.
Proof. intros H. exists [OForward x (S754_zero false) no_draws]. cbn [run step]. rewrite H. reflexivity. Qed.
Lemma follows_train s x y l s' : train s x y 1 0%N = Ret (l, s') -> follows s s'.
Proof. intros H. exists [OTrain x y 1]. cbn [run step]. rewrite H. reflexivity. Qed.
Lemma follows_loss s x y l s' : calculateLoss s x y = Ret (l, s') -> follows s s'.
Proof. intros H. apply (follows_train s x y l). cbn [train]. rewrite H. reflexivity. Qed.
Lemma follows_mirror s m : follows s (with_mirror s m). Proof. exists [OLayers m]. reflexivity. Qed.
Lemma follows_count sam s n q : count_correct s sam n = Ret q -> follows s (snd q).
Proof.
  revert s n; induction sam as [|[x y] sam IH]; intros s n H; cbn [count_correct] in H; [injection H as <-; apply follows_refl|].
  apply obind_ret in H. destruct H as ([o s1] & E & H). eapply follows_trans; [exact (follows_forward _ _ _ _ E)|exact (IH _ _ H)].
Qed.
Lemma follows_accuracy sam s q : accuracy s sam = Ret q -> follows s (snd q).
Proof. unfold accuracy. intros H. apply obind_ret in H. destruct H as (r & E & H). injection H as <-. exact (follows_count _ _ _ _ E). Qed.
Lemma follows_train_on sam s s' : train_on s sam = Ret s' -> follows s s'.
Proof.
  revert s; induction sam as [|[x y] sam IH]; intros s H; cbn [train_on] in H; [injection H as <-; apply follows_refl|].
  apply obind_ret in H. destruct H as ([l s1] & E & H). eapply follows_trans; [exact (follows_train _ _ _ _ _ E)|exact (IH _ H)].
Qed.
Lemma follows_order sam order s s' : train_order s sam order = Ret s' -> follows s s'.
Proof.
  revert s; induction order as [|k order IH]; intros s H; cbn [train_order] in H; [injection H as <-; apply follows_refl|].
  destruct (nth_error sam (Z.to_nat k)) as [[x y]|]; [|discriminate H].
  apply obind_ret in H. destruct H as ([l s1] & E & H). eapply follows_trans; [exact (follows_train _ _ _ _ _ E)|exact (IH _ H)].
Qed.
Lemma follows_inject r s d r' s' : injectRadiationEffects r s d = Ret (r', s') -> follows s s'.
Proof. rewrite inject_eq. destruct (_ && _)%bool; [|discriminate]. intros H. injection H as <- <-. apply follows_mirror. Qed.
Lemma follows_round r s sam freq d q : round r s sam freq d = Ret q -> follows s (snd q).
Proof.
  unfold round. intros H. apply obind_ret in H. destruct H as ([a s1] & E1 & H). apply obind_ret in H. destruct H as ([r2 s2] & E2 & H). apply obind_ret in H. destruct H as ([b s3] & E3 & H).
  apply obind_ret in H. destruct H as (s4 & E4 & H). apply obind_ret in H. destruct H as ([e s5] & E5 & H). apply obind_ret in H. destruct H as (z & _ & H). injection H as <-. cbn [fst snd] in *.
  apply (follows_accuracy sam s) in E1. apply follows_inject in E2. apply follows_accuracy in E3. apply follows_train_on in E4. apply follows_accuracy in E5. cbn [snd] in *.
  eapply follows_trans; [exact E1|]. eapply follows_trans; [exact E2|]. eapply follows_trans; [exact E3|]. eapply follows_trans; [exact E4|exact E5].
Qed.
Lemma follows_tests expf k s x y b l ts q : test_weights expf k s x y b l ts = Ret q -> follows s (snd q).
Proof.
  revert k s; induction ts as [|[[i j] bit] ts IH]; intros k s H; cbn [test_weights] in H; [injection H as <-; apply follows_refl|].
  apply obind_ret in H. destruct H as ([k1 s1] & E & H). eapply follows_trans; [|exact (IH _ _ H)]. cbn [snd]. clear H. unfold test_weight in E.
  destruct (get3 (map fst (mirror s)) l i j) as [o|]; [|discriminate E]. apply obind_ret in E. destruct E as ([l1 s2] & E1 & E). cbn [fst snd] in E. destruct (get3 k l i j); [|discriminate E]. injection E as <- <-.
  eapply follows_trans; [apply follows_mirror|]. eapply follows_trans; [exact (follows_loss _ _ _ _ _ E1)|apply follows_mirror].
Qed.
Lemma follows_layers expf d k s x y b ls q : test_layers expf d k s x y b ls = Ret q -> follows s (snd q).
Proof.
  revert k s; induction ls as [|l ls IH]; intros k s H; cbn [test_layers] in H; [injection H as <-; apply follows_refl|].
  apply obind_ret in H. destruct H as (n & _ & H). apply obind_ret in H. destruct H as ([k1 s1] & E & H). eapply follows_trans; [exact (follows_tests _ _ _ _ _ _ _ _ _ E)|exact (IH _ _ H)].
Qed.
Lemma follows_update expf r s x y d q : updateCriticalityMap expf r s x y d = Ret q -> follows s (snd q).
Proof.
  unfold updateCriticalityMap. destruct (_ || _)%bool; [discriminate|]. destruct (_ || _)%bool; [intros H; injection H as <-; apply follows_refl|]. destruct (_ || _)%bool; [discriminate|].
  intros H. apply obind_ret in H. destruct H as ([b s1] & E1 & H). apply obind_ret in H. destruct H as ([k s2] & E2 & H). cbn [fst snd] in *. injection H as <-. cbn [snd].
  eapply follows_trans; [exact (follows_loss _ _ _ _ _ E1)|exact (follows_layers _ _ _ _ _ _ _ _ _ E2)].
Qed.
Lemma follows_epoch expf r s sam batch freq e d c q : epoch expf r s sam batch freq e d c = Ret q -> follows s (snd q).
Proof.
  unfold epoch. intros H. apply obind_ret in H. destruct H as (order & _ & H). apply obind_ret in H. destruct H as (s1 & E1 & H). apply obind_ret in H. destruct H as ([r2 s2] & E2 & H).
  apply follows_order in E1. eapply follows_trans; [exact E1|]. assert (F2 : follows s1 s2) by (destruct (e mod freq =? 0)%Z; [exact (follows_round _ _ _ _ _ _ E2)|injection E2 as <- <-; apply follows_refl]).
  eapply follows_trans; [exact F2|]. destruct (target r2); [|injection H as <-; apply follows_refl]. destruct (crit r2); [|injection H as <-; apply follows_refl].
  apply obind_ret in H. destruct H as (z & _ & H). destruct (e mod z =? 0)%Z; [exact (follows_update _ _ _ _ _ _ _ H)|injection H as <-; apply follows_refl].
Qed.
Lemma follows_epochs expf sam batch freq d c n e r s q : epochs_from expf r s sam batch freq e n d c = Ret q -> follows s (snd q).
Proof.
  revert e r s; induction n as [|n IH]; intros e r s H; cbn [epochs_from] in H; [injection H as <-; apply follows_refl|].
  apply obind_ret in H. destruct H as ([r1 s1] & E & H). eapply follows_trans; [exact (follows_epoch _ _ _ _ _ _ _ _ _ _ E)|exact (IH _ _ _ H)].
Qed.
Lemma follows_rat expf r s data labels cfg d cd r' s' a : rat_train expf r s data labels cfg d cd = Ret (r', s', a) -> follows s s'.
Proof.
  unfold rat_train. destruct (Nat.eqb (hd O (sizes s)) 0); [discriminate|]. destruct (negb _); [intros H; injection H as <- <- <-; apply follows_refl|]. destruct (Nat.eqb (last (sizes s) O) 0); [discriminate|].
  destruct (negb _); [intros H; injection H as <- <- <-; apply follows_refl|]. destruct (negb _); [intros H; injection H as <- <- <-; apply follows_refl|].
  set (sam := combine _ _). intros H. apply obind_ret in H. destruct H as ([r1 s1] & E1 & H). apply obind_ret in H. destruct H as (fr & _ & H). apply obind_ret in H. destruct H as ([b s2] & E2 & H).
  apply obind_ret in H. destruct H as ([r3 s3] & E3 & H). cbn [fst snd] in *. injection H as <- <- <-.
  assert (F1 : follows s s1) by (destruct (target r); [destruct (crit r)|]; [injection E1 as <- <-; apply follows_refl|exact (follows_update _ _ _ _ _ _ _ E1)|injection E1 as <- <-; apply follows_refl]).
  eapply follows_trans; [exact F1|]. apply follows_accuracy in E2. eapply follows_trans; [exact E2|]. exact (follows_epochs _ _ _ _ _ _ _ _ _ _ _ E3).
Qed.
Lemma trained_reachable expf r s data labels cfg d cd r' s' a : reachable s -> rat_train expf r s data labels cfg d cd = Ret (r', s', a) -> reachable s'.
Proof.
  intros (ls & lv & init & s0 & ops & E0 & E) H. destruct (follows_rat _ _ _ _ _ _ _ _ _ _ _ H) as [ops' E']. exists ls, lv, init, s0, (ops ++ ops'). split; [exact E0|]. exact (run_app _ _ _ _ _ E E').
Qed.

(** ** no samples *)
Lemma nan_add x : sadd x S754_nan = S754_nan. Proof. destruct x; reflexivity. Qed.
Lemma nan_sub x : ssub S754_nan x = S754_nan. Proof. reflexivity. Qed.
Lemma lost_empty s : lost s [] = S754_nan. Proof. vm_compute. reflexivity. Qed.
Definition spoilt (r : rat) : Prop := drop r = S754_nan /\ recovery r = S754_nan.
Lemma rat_empty expf r s cfg d cd r' s' a : reachable s -> 0 < hd O (sizes s) -> 0 < last (sizes s) O -> (1 <= epochs cfg)%Z ->
  rat_train expf r s [] [] cfg d cd = Ret (r', s', a) -> spoilt r'.
Proof.
  intros HR Hin Hout HE H. pose proof (Inv_reachable s HR) as HI.
  assert (HA : as_samples (hd O (sizes s)) (last (sizes s) O) [] [] []) by (split; [reflexivity|]; split; [reflexivity|constructor]).
  assert (HF : Forall (fun p : list N * list N => length (fst p) = hd O (sizes s) /\ length (snd p) = last (sizes s) O) []) by constructor.
  destruct (rat_ret expf s [] HI Hin Hout HF r [] [] cfg d cd r' s' a HA H) as (_ & freq & c1 & r2 & Ef & E & -> & _).
  destruct (epochs_inv expf s [] HI Hin Hout HF (fun e r2 m => 1 <= e -> spoilt r2) (batch_size cfg) freq d cd) with (4 := E) as (c' & m' & -> & Q2).
  - intros e r0 m0 Q0 _. unfold injected. destruct (Z.of_nat e mod freq =? 0)%Z eqn:M.
    + unfold spoilt, after_round. cbn [drop recovery with_drop]. rewrite lost_empty. split; [apply nan_add|]. replace (sdiv S754_nan (fmax (slit 1 1000) S754_nan)) with S754_nan by reflexivity. apply nan_add.
    + destruct e; [rewrite Zmod_0_l in M; discriminate M|]. apply Q0. lia.
  - intros e r0 m0 Q0 NE. congruence.
  - lia.
  - destruct Q2 as [Q2 Q3]; [lia|]. split; cbn [drop recovery finish with_drop]; rewrite ?Q2, ?Q3; reflexivity.
Qed.
Lemma rat_empty_target expf r s cfg d cd : reachable s -> 0 < hd O (sizes s) -> 0 < last (sizes s) O -> target r = true -> crit r = None -> rat_train expf r s [] [] cfg d cd = UB UB_out_of_bounds.
Proof.
  intros HR Hin Hout T K. assert (HA : as_samples (hd O (sizes s)) (last (sizes s) O) [] [] []) by (split; [reflexivity|]; split; [reflexivity|constructor]).
  assert (HF : Forall (fun p : list N * list N => length (fst p) = hd O (sizes s) /\ length (snd p) = last (sizes s) O) []) by constructor.
  rewrite (rat_unfold expf s [] Hin Hout HF r [] [] cfg d cd HA). rewrite T, K. rewrite (at_self s), (update_empty expf s [] Hin Hout HF r (counter s) (mirror s) (cd 0) eq_refl). reflexivity.
Qed.
(** ** no frequency *)
Lemma rat_never expf r s data labels samples cfg d cd : reachable s -> 0 < hd O (sizes s) -> 0 < last (sizes s) O -> as_samples (hd O (sizes s)) (last (sizes s) O) samples data labels ->
  target r = false -> (frequency (prob r) = UB UB_float_to_int) -> rat_train expf r s data labels cfg d cd = UB UB_float_to_int.
Proof.
  intros HR Hin Hout HA T Ef. pose proof (Inv_reachable s HR) as HI. pose proof HA as (_ & _ & HF). rewrite (rat_unfold expf s samples Hin Hout HF r data labels cfg d cd HA). rewrite T. cbn [obind fst snd]. rewrite Ef. reflexivity.
Qed.
(** ** environments *)
Definition factorR (e : senv) : Rdefinitions.R := (match e with EARTH_ORBIT | ISS => 1 / 2 | MARS => 2 | JUPITER => 5 | EXTREME => 10 | _ => 1 end)%R.
Lemma factor_ok e : oks (env_factor e) /\ R (env_factor e) = factorR e.
Proof. destruct e; (split; [split; vm_compute; reflexivity|vm_compute; lra]). Qed.
Local Open Scope R_scope.
Lemma factor_range e : 0 <= factorR e <= 10. Proof. destruct e; cbn; lra. Qed.
Lemma prod_ok p e : oks p -> 0 <= R p <= 1 -> oks (smul p (env_factor e)) /\ R (smul p (env_factor e)) = rnd32 (R p * factorR e) /\ 0 <= R (smul p (env_factor e)) <= 10.
Proof.
  intros Op Hp. destruct (factor_ok e) as [Of Ef]. pose proof (factor_range e) as Hf.
  assert (B : 0 <= R p * factorR e <= 10). { split; [apply Rmult_le_pos; lra|]. apply Rle_trans with (1 * factorR e); [apply Rmult_le_compat_r; lra|lra]. }
  destruct (mul_s p (env_factor e) Op Of) as [O E]; [rewrite Ef; apply mids_small; lra|]. rewrite Ef in E. split; [exact O|]. split; [exact E|]. rewrite E.
  assert (Z0 : oks (sofZ 0) /\ R (sofZ 0) = 0) by (split; [split; vm_compute; reflexivity|vm_compute; lra]).
  assert (Z1 : oks (sofZ 10) /\ R (sofZ 10) = 10) by (split; [split; vm_compute; reflexivity|vm_compute; lra]). destruct Z0 as [Z0 E0], Z1 as [Z1 E1].
  split; [rewrite <- E0; apply rnd32_ge; [exact Z0|lra]|rewrite <- E1; apply rnd32_le; [exact Z1|lra]].
Qed.
Lemma rnd32_mono x y : x <= y -> rnd32 x <= rnd32 y.
Proof. intros H. apply round_le; [apply (FLT_exp_valid (-149) 24)|apply valid_rnd_N|exact H]. Qed.
Lemma harsher_chance p e e' : oks p -> 0 <= R p <= 1 -> factorR e <= factorR e' -> R (smul p (env_factor e)) <= R (smul p (env_factor e')).
Proof.
  intros Op Hp H. destruct (prod_ok p e Op Hp) as (_ & E & _). destruct (prod_ok p e' Op Hp) as (_ & E' & _). rewrite E, E'. apply rnd32_mono. apply Rmult_le_compat_l; lra.
Qed.
Lemma half_s : oks (slit 1 2) /\ R (slit 1 2) = 1 / 2. Proof. split; [split; vm_compute; reflexivity|vm_compute; lra]. Qed.
Lemma bias_ok p e : oks p -> 0 <= R p <= 1 -> oks (smul (smul p (env_factor e)) (slit 1 2)) /\ R (smul (smul p (env_factor e)) (slit 1 2)) = rnd32 (R (smul p (env_factor e)) * (1 / 2)).
Proof.
  intros Op Hp. destruct (prod_ok p e Op Hp) as (O & _ & B). destruct half_s as [Oh Eh]. destruct (mul_s _ _ O Oh) as [O2 E2]; [rewrite Eh; apply mids_small; lra|]. rewrite Eh in E2. auto.
Qed.
Lemma legal_oks u : legal_u u -> oks (fst u).
Proof. intros (V & L & U & _). split; [exact V|]. destruct (fst u) as [b|b| |b m e]; try reflexivity; [destruct b; discriminate|discriminate]. Qed.
Lemma harsher r r' d m : oks (prob r) -> 0 <= R (prob r) <= 1 -> prob r' = prob r -> target r = false -> target r' = false -> factorR (env r) <= factorR (env r') -> legal_idraw d ->
  (forall p, weight_hit r d p = true -> weight_hit r' d p = true) /\ (forall p, bias_hit r d p = true -> bias_hit r' d p = true) /\ (hits r d m <= hits r' d m)%Z.
Proof.
  intros Op Hp EP T T' HE [LW LB]. destruct (prod_ok _ (env r) Op Hp) as (O1 & _ & B1). destruct (prod_ok _ (env r') Op Hp) as (O2 & _ & B2). pose proof (harsher_chance _ _ _ Op Hp HE) as HC.
  destruct (bias_ok _ (env r) Op Hp) as (O3 & E3). destruct (bias_ok _ (env r') Op Hp) as (O4 & E4).
  assert (A1 : forall p, weight_hit r d p = true -> weight_hit r' d p = true).
  { intros [[l i] j]. unfold weight_hit, chance. rewrite T, T', EP. pose proof (legal_oks _ (LW l i j)) as Ou. rewrite (flt_s _ _ Ou O1), (flt_s _ _ Ou O2). lra. }
  assert (A2 : forall p, bias_hit r d p = true -> bias_hit r' d p = true).
  { intros [l j]. unfold bias_hit, bias_chance. rewrite EP. pose proof (legal_oks _ (LB l j)) as Ou. rewrite (flt_s _ _ Ou O3), (flt_s _ _ Ou O4), E3, E4.
    assert (rnd32 (R (smul (prob r) (env_factor (env r))) * (1 / 2)) <= rnd32 (R (smul (prob r) (env_factor (env r'))) * (1 / 2))) by (apply rnd32_mono; lra). lra. }
  split; [exact A1|]. split; [exact A2|]. unfold hits.
  assert (CL : forall (A : Type) (f g : A -> bool) (l : list A), (forall x, f x = true -> g x = true) -> (length (filter f l) <= length (filter g l))%nat).
  { intros A f g l H. induction l as [|x l IH]; [reflexivity|]. cbn [filter]. specialize (H x). destruct (f x); [rewrite (H eq_refl); cbn [length]; lia|]. destruct (g x); cbn [length]; lia. }
  pose proof (CL _ _ _ (weight_cells m) A1). pose proof (CL _ _ _ (bias_cells m) A2). lia.
Qed.
