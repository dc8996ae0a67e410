(** Forward passes, the setters and the simulated upsets keep the invariant. *)
From Coq Require Import List NArith ZArith Bool Arith Lia SpecFloat.
Import ListNotations.
From Verif Require Import Outcome Words Arith Floats Bits_Model MBP_Model PNN_Model PNN_Spec PNN_Proofs PNN2_Proofs.
Local Open Scope nat_scope.
Local Open Scope outcome_scope.

(** ** forward *)
Lemma params_counter s c : params (with_counter s c) = params s. Proof. reflexivity. Qed.
Lemma forward_network s x rad d : Inv s -> (forall l i, legal_act (d l i)) -> no_collision rad d -> float_valued (acts s) -> length x = hd O (sizes s) ->
  exists s', forward s x rad d = Ret (network (params s) (acts s) x, s').
Proof.
  intros HI HL HN HF Hx. unfold forward. rewrite Hx, Nat.eqb_refl. cbn [negb].
  pose proof (Inv_adapt s rad HI) as HI'. pose proof (adapt_shape s rad HI) as E.
  destruct (passes_network (adaptToRadiationLevel s rad) rad d (length (wts s)) 0 x HI') as [t Ht].
  - apply transparent_collision; auto.
  - rewrite E; exact HF.
  - rewrite E; reflexivity.
  - rewrite E; simpl. rewrite Hx; symmetry; apply nth_hd.
  - rewrite Ht. cbn [skipn]. exists (with_st (adaptToRadiationLevel s rad) t). rewrite E at 1 2. reflexivity.
Qed.
Lemma passes_quiet s rad d n l x : Inv s -> no_vote s rad -> l + n = length (wts s) -> length x = nth l (sizes s) O ->
  passes s (seq l n) x rad d = Ret (network (skipn l (params s)) (skipn l (acts s)) x, s).
Proof.
  intros HI NV; revert l x; induction n as [|n IH]; intros l x Hn Hx.
  - cbn [seq passes]. rewrite (skipn_all2 (params s)). 2: { unfold params; rewrite combine_length, !map_length; lia. }
    reflexivity.
  - cbn [seq passes]. rewrite neurons_layer; [|exact HI|lia]. cbn [obind fst snd]. rewrite (protect_no_vote _ _ _ _ NV).
    assert (Hl : l < length (params s) /\ l < length (acts s)).
    { unfold params; rewrite combine_length, !map_length, (inv_a s HI), (inv_b s HI). pose proof (inv_w s HI). lia. }
    destruct (nth_error_ex (params s) l) as [p Ep]; [tauto|]. destruct (nth_error_ex (acts s) l) as [f Ef]; [tauto|].
    rewrite IH; [|lia|apply layer_length]. rewrite (skipn_cons _ _ _ Ep), (skipn_cons _ _ _ Ef). destruct p as [w b]; cbn [network].
    rewrite (layer_dense s l x (w, b) f HI Ep Ef Hx). reflexivity.
Qed.
Lemma forward_quiet s x rad d : Inv s -> no_vote s rad -> length x = hd O (sizes s) ->
  exists c, forward s x rad d = Ret (network (params s) (acts s) x, with_counter s c).
Proof.
  intros HI NV Hx. unfold forward. rewrite Hx, Nat.eqb_refl. cbn [negb].
  pose proof (Inv_adapt s rad HI) as HI'. pose proof (adapt_shape s rad HI) as E. set (s1 := adaptToRadiationLevel s rad) in *.
  replace (length (wts s)) with (length (wts s1)) by (rewrite E; reflexivity).
  rewrite passes_quiet; auto.
  - exists (counter s1). cbn [skipn]. rewrite E at 1 2 3. reflexivity.
  - rewrite E; exact NV.
  - rewrite E; simpl. rewrite Hx; symmetry; apply nth_hd.
Qed.

(** ** changing one cell *)
Lemma Inv_put3 s l i j c m : Inv s -> ok_cell c -> Inv (with_mirror (with_w s (put3 (wts s) l i j c)) m).
Proof.
  intros [H1 H2 H3 H4 H5 H6 H7] Hc; constructor; try assumption.
  - simpl. unfold put3; rewrite upd_length; exact H2.
  - simpl. intros k w. unfold put3; rewrite nth_error_upd. destruct (Nat.eqb_spec k l) as [->|]; [|apply H5].
    destruct (nth_error (wts s) l) as [w0|] eqn:E; [|discriminate]. simpl; intros Hw; injection Hw as <-.
    destruct (H5 l w0 E) as [HL HF]. split; [rewrite upd_length; exact HL|].
    apply Forall_forall; intros r Hr. apply In_nth_error in Hr; destruct Hr as [p Hr]. rewrite nth_error_upd in Hr. rewrite Forall_forall in HF.
    destruct (Nat.eqb p i); [|apply HF; exact (nth_error_In _ _ Hr)].
    destruct (nth_error w0 p) as [r0|] eqn:E0; [|discriminate]. simpl in Hr; injection Hr as <-.
    destruct (HF r0 (nth_error_In _ _ E0)) as [HL0 HF0]. split; [rewrite upd_length; exact HL0|].
    apply Forall_forall; intros y Hy. apply In_nth_error in Hy; destruct Hy as [q Hy]. rewrite nth_error_upd in Hy. rewrite Forall_forall in HF0.
    destruct (Nat.eqb q j); [|apply HF0; exact (nth_error_In _ _ Hy)].
    destruct (nth_error r0 q); [|discriminate]. simpl in Hy; injection Hy as <-. exact Hc.
Qed.
Lemma Inv_put2 s l j c m : Inv s -> ok_cell c -> Inv (with_mirror (with_b s (put2 (bss s) l j c)) m).
Proof.
  intros [H1 H2 H3 H4 H5 H6 H7] Hc; constructor; try assumption.
  - simpl. unfold put2; rewrite upd_length; exact H3.
  - simpl. intros k w. unfold put2; rewrite nth_error_upd. destruct (Nat.eqb_spec k l) as [->|]; [|apply H6].
    destruct (nth_error (bss s) l) as [w0|] eqn:E; [|discriminate]. simpl; intros Hw; injection Hw as <-.
    destruct (H6 l w0 E) as [HL HF]. split; [rewrite upd_length; exact HL|].
    apply Forall_forall; intros y Hy. apply In_nth_error in Hy; destruct Hy as [q Hy]. rewrite nth_error_upd in Hy. rewrite Forall_forall in HF.
    destruct (Nat.eqb q j); [|apply HF; exact (nth_error_In _ _ Hy)].
    destruct (nth_error w0 q); [|discriminate]. simpl in Hy; injection Hy as <-. exact Hc.
Qed.
Definition cell (c : mbp) (v : N) : mbp := mkmb v NONE (ecc_data_ c) true.
Lemma cell_ok c v : ok_cell (cell c v). Proof. split; reflexivity. Qed.
Lemma mirror_id s : with_mirror s (mirror s) = s. Proof. destruct s; reflexivity. Qed.
Lemma with_mirror_w s w : with_mirror (with_w s w) (mirror s) = with_w s w. Proof. reflexivity. Qed.
Lemma with_mirror_b s w : with_mirror (with_b s w) (mirror s) = with_b s w. Proof. reflexivity. Qed.

Lemma raw_setWeight_ok s l i j v c : Inv s -> get3 (wts s) l i j = Some c -> raw_setWeight s l i j v = Ret (with_w s (put3 (wts s) l i j (cell c v))).
Proof. intros HI H; unfold raw_setWeight; rewrite H, (ok_strike c v (get3_ok s l i j c HI H)); reflexivity. Qed.
Lemma raw_setBias_ok s l j v c : Inv s -> get2 (bss s) l j = Some c -> raw_setBias s l j v = Ret (with_b s (put2 (bss s) l j (cell c v))).
Proof. intros HI H; unfold raw_setBias; rewrite H, (ok_strike c v (get2_ok s l j c HI H)); reflexivity. Qed.
Lemma Inv_raw_setWeight s l i j v s' : Inv s -> raw_setWeight s l i j v = Ret s' -> Inv s'.
Proof.
  intros HI H. destruct (get3 (wts s) l i j) as [c|] eqn:E; [|unfold raw_setWeight in H; rewrite E in H; discriminate].
  rewrite (raw_setWeight_ok s l i j v c HI E) in H; injection H as <-. rewrite <- with_mirror_w. apply Inv_put3; [exact HI|apply cell_ok].
Qed.
Lemma Inv_raw_setBias s l j v s' : Inv s -> raw_setBias s l j v = Ret s' -> Inv s'.
Proof.
  intros HI H. destruct (get2 (bss s) l j) as [c|] eqn:E; [|unfold raw_setBias in H; rewrite E in H; discriminate].
  rewrite (raw_setBias_ok s l j v c HI E) in H; injection H as <-. rewrite <- with_mirror_b. apply Inv_put2; [exact HI|apply cell_ok].
Qed.
Lemma getWeight_inv s l i j v s' : Inv s -> getWeight s l i j = Ret (v, s') -> s' = s /\ exists c, get3 (wts s) l i j = Some c /\ value_ c = v.
Proof.
  intros HI H. destruct (get3 (wts s) l i j) as [c|] eqn:E; [|unfold getWeight in H; rewrite E in H; discriminate].
  rewrite (getWeight_ok s l i j c HI E) in H; injection H as <- <-; eauto.
Qed.
Lemma getBias_inv s l j v s' : Inv s -> getBias s l j = Ret (v, s') -> s' = s /\ exists c, get2 (bss s) l j = Some c /\ value_ c = v.
Proof.
  intros HI H. destruct (get2 (bss s) l j) as [c|] eqn:E; [|unfold getBias in H; rewrite E in H; discriminate].
  rewrite (getBias_ok s l j c HI E) in H; injection H as <- <-; eauto.
Qed.
Definition mirror_w (m : list (list (list N) * list N)) l i j v : list (list (list N) * list N) := upd m l (fun p => (upd (fst p) i (fun r => upd r j (fun _ => v)), snd p)).
Definition mirror_b (m : list (list (list N) * list N)) l j v : list (list (list N) * list N) := upd m l (fun p => (fst p, upd (snd p) j (fun _ => v))).
Lemma setWeight_inv s l i j v s' : Inv s -> setWeight s l i j v = Ret s' ->
  exists c, get3 (wts s) l i j = Some c /\ s' = with_mirror (with_w s (put3 (wts s) l i j (cell c v))) (mirror_w (mirror s) l i j v).
Proof.
  intros HI; unfold setWeight. destruct (get3 (wts s) l i j) as [c|] eqn:E; [|discriminate].
  destruct (get3 (map fst (mirror s)) l i j); [|discriminate]. intros H; injection H as <-. exists c; split; [reflexivity|].
  rewrite (ok_set c v (get3_ok s l i j c HI E)). reflexivity.
Qed.
Lemma setBias_inv s l j v s' : Inv s -> setBias s l j v = Ret s' ->
  exists c, get2 (bss s) l j = Some c /\ s' = with_mirror (with_b s (put2 (bss s) l j (cell c v))) (mirror_b (mirror s) l j v).
Proof.
  intros HI; unfold setBias. destruct (get2 (bss s) l j) as [c|] eqn:E; [|discriminate].
  destruct (get2 (map snd (mirror s)) l j); [|discriminate]. intros H; injection H as <-. exists c; split; [reflexivity|].
  rewrite (ok_set c v (get2_ok s l j c HI E)). reflexivity.
Qed.
Lemma Inv_setWeight s l i j v s' : Inv s -> setWeight s l i j v = Ret s' -> Inv s'.
Proof. intros HI H. destruct (setWeight_inv s l i j v s' HI H) as (c & _ & ->). apply Inv_put3; [exact HI|apply cell_ok]. Qed.
Lemma Inv_setBias s l j v s' : Inv s -> setBias s l j v = Ret s' -> Inv s'.
Proof. intros HI H. destruct (setBias_inv s l j v s' HI H) as (c & _ & ->). apply Inv_put2; [exact HI|apply cell_ok]. Qed.

(** ** every call keeps the invariant *)
Lemma Inv_set_row s l i j row s' : Inv s -> set_row s l i j row = Ret s' -> Inv s'.
Proof.
  revert s j; induction row as [|v row IH]; intros s j HI H; simpl in H; [congruence|].
  apply obind_ret in H; destruct H as (s1 & H1 & H). exact (IH s1 (S j) (Inv_setWeight _ _ _ _ _ _ HI H1) H).
Qed.
Lemma Inv_set_rows s l i n m r : Inv s -> set_rows s l i n m = Ret r -> Inv (fst r).
Proof.
  revert s i; induction m as [|row m IH]; intros s i HI H; simpl in H.
  - injection H as <-; exact HI.
  - destruct (negb _). { injection H as <-; exact HI. }
    apply obind_ret in H; destruct H as (s1 & H1 & H). exact (IH s1 (S i) (Inv_set_row _ _ _ _ _ _ HI H1) H).
Qed.
Lemma Inv_set_biases s l j b s' : Inv s -> set_biases s l j b = Ret s' -> Inv s'.
Proof.
  revert s j; induction b as [|v b IH]; intros s j HI H; simpl in H; [congruence|].
  apply obind_ret in H; destruct H as (s1 & H1 & H). exact (IH s1 (S j) (Inv_setBias _ _ _ _ _ HI H1) H).
Qed.
Lemma Inv_setLayerWeights s l m r : Inv s -> setLayerWeights s l m = Ret r -> Inv (fst r).
Proof.
  intros HI; unfold setLayerWeights. destruct (Nat.leb _ _). { intros H; injection H as <-; exact HI. }
  destruct (negb _). { intros H; injection H as <-; exact HI. } apply Inv_set_rows, HI.
Qed.
Lemma Inv_setLayerBiases s l m r : Inv s -> setLayerBiases s l m = Ret r -> Inv (fst r).
Proof.
  intros HI; unfold setLayerBiases. destruct (Nat.leb _ _). { intros H; injection H as <-; exact HI. }
  destruct (negb _). { intros H; injection H as <-; exact HI. }
  intros H; apply obind_ret in H; destruct H as (s1 & H1 & H); injection H as <-. exact (Inv_set_biases _ _ _ _ _ HI H1).
Qed.
Lemma Inv_hit_weights s rad ds s' : Inv s -> hit_weights s rad ds = Ret s' -> Inv s'.
Proof.
  revert s; induction ds as [|d ds IH]; intros s HI H; simpl in H; [congruence|].
  apply obind_ret in H; destruct H as ([v s1] & H1 & H). destruct (getWeight_inv _ _ _ _ _ _ HI H1) as [-> _].
  apply obind_ret in H; destruct H as (v2 & H2 & H). apply obind_ret in H; destruct H as (s3 & H3 & H).
  exact (IH s3 (Inv_raw_setWeight _ _ _ _ _ _ HI H3) H).
Qed.
Lemma Inv_hit_biases s ds s' : Inv s -> hit_biases s ds = Ret s' -> Inv s'.
Proof.
  revert s; induction ds as [|d ds IH]; intros s HI H; simpl in H; [congruence|].
  apply obind_ret in H; destruct H as ([v s1] & H1 & H). destruct (getBias_inv _ _ _ _ _ HI H1) as [-> _].
  apply obind_ret in H; destruct H as (s3 & H3 & H). exact (IH s3 (Inv_raw_setBias _ _ _ _ _ HI H3) H).
Qed.
(** the repair at the end does nothing *)
Lemma radiation_inv s rad ws bs s' : Inv s -> applyRadiationEffects s rad ws bs = Ret s' -> fle rad (dofZ 0) = false ->
  exists num s1, to_size (dmul rad (dofZ 50)) = Ret num /\ hit_weights s rad (firstn (N.to_nat num) ws) = Ret s1 /\ Inv s1 /\
    (if advanced (lvl s1) then hit_biases s1 (firstn (N.to_nat (num / 5)%N) bs) else Ret s1) = Ret s' /\ Inv s'.
Proof.
  intros HI H E. unfold applyRadiationEffects in H. rewrite E in H.
  apply obind_ret in H; destruct H as (num & H1 & H). apply obind_ret in H; destruct H as (s1 & H2 & H).
  apply obind_ret in H; destruct H as (s2 & H3 & H). exists num, s1.
  pose proof (Inv_hit_weights _ _ _ _ HI H2) as I1.
  assert (I2 : Inv s2). { destruct (advanced (lvl s1)); [exact (Inv_hit_biases _ _ _ I1 H3) | congruence]. }
  assert (s' = s2). { pose proof (repairAll_id s2 I2) as R. destruct (lvl s2); injection H as <-; congruence. }
  subst s'. auto.
Qed.
Lemma Inv_radiation s rad ws bs s' : Inv s -> applyRadiationEffects s rad ws bs = Ret s' -> Inv s'.
Proof.
  intros HI H. destruct (fle rad (dofZ 0)) eqn:E.
  - unfold applyRadiationEffects in H; rewrite E in H; congruence.
  - destruct (radiation_inv s rad ws bs s' HI H E) as (num & s1 & _ & _ & _ & _ & I); exact I.
Qed.
Lemma losses_inv s samples total r : Inv s -> losses s samples total = Ret r -> exists c t, snd r = with_counter (with_st s t) c /\ Inv (snd r).
Proof.
  revert s total; induction samples as [|[x y] samples IH]; intros s total HI H.
  - injection H as <-. exists (counter s), (st s). split; [destruct s; reflexivity | exact HI].
  - cbn [losses] in H. apply obind_ret in H; destruct H as ([o s1] & H1 & H). cbn [fst snd] in H.
    pose proof (Inv_forward _ _ _ _ _ _ HI H1) as I1.
    destruct (IH s1 _ I1 H) as (c & t & E & I). exists c, t. split; [|exact I]. rewrite E.
    destruct (Nat.eqb_spec (length x) (hd O (sizes s))) as [Ex|Ex].
    + destruct (forward_shape s x (S754_zero false) no_draws HI Ex) as (y' & t' & c' & H' & _ & _). rewrite H1 in H'; injection H' as _ ->. reflexivity.
    + unfold forward in H1. apply Nat.eqb_neq in Ex; rewrite Ex in H1; discriminate.
Qed.
Lemma calculateLoss_inv s data labels r : Inv s -> calculateLoss s data labels = Ret r -> exists c t, snd r = with_counter (with_st s t) c /\ Inv (snd r).
Proof.
  intros HI; unfold calculateLoss. destruct (Nat.eqb _ _); [discriminate|].
  destruct (_ || _)%bool. { intros H; injection H as <-. exists (counter s), (st s). split; [destruct s; reflexivity|exact HI]. }
  intros H; apply obind_ret in H; destruct H as (q & H1 & H); injection H as <-. exact (losses_inv _ _ _ _ HI H1).
Qed.
Lemma train_inv s data labels e loss r : Inv s -> train s data labels e loss = Ret r -> exists c t, snd r = with_counter (with_st s t) c /\ Inv (snd r).
Proof.
  revert s loss; induction e as [|e IH]; intros s loss HI H.
  - injection H as <-. exists (counter s), (st s). split; [destruct s; reflexivity|exact HI].
  - cbn [train] in H. apply obind_ret in H; destruct H as ([o s1] & H1 & H). cbn [fst snd] in H.
    destruct (calculateLoss_inv _ _ _ _ HI H1) as (c1 & t1 & E1 & I1). cbn [snd] in *.
    destruct (IH s1 _ I1 H) as (c & t & E & I). exists c, t. split; [|exact I]. rewrite E, E1. reflexivity.
Qed.
Lemma Inv_step s o s' : Inv s -> step s o = Ret s' -> Inv s'.
Proof.
  intros HI. destruct o; cbn [step]; intros H.
  - destruct (forward s x rad d) as [[y s1]|u|e|] eqn:E; cbn [obind snd] in H; try discriminate; injection H as <-; [|exact HI].
    exact (Inv_forward _ _ _ _ _ _ HI E).
  - apply obind_ret in H; destruct H as (r & H1 & H); injection H as <-. exact (Inv_setLayerWeights _ _ _ _ HI H1).
  - apply obind_ret in H; destruct H as (r & H1 & H); injection H as <-. exact (Inv_setLayerBiases _ _ _ _ HI H1).
  - unfold setActivationFunction in H. destruct (Nat.leb _ _); injection H as <-; [exact HI|].
    destruct HI as [H1 H2 H3 H4 H5 H6 H7]; constructor; try assumption. simpl. rewrite upd_length; exact H4.
  - exact (Inv_radiation _ _ _ _ _ HI H).
  - injection H as <-. apply Inv_stats; [exact HI|reflexivity].
  - destruct (train s data labels epochs 0%N) as [[y s1]|u|e|] eqn:E; cbn [obind snd] in H; try discriminate; injection H as <-; [|exact HI].
    destruct (train_inv _ _ _ _ _ _ HI E) as (_ & _ & _ & I); exact I.
  - injection H as <-. apply Inv_mirror, HI.
Qed.
Lemma Inv_run s ops s' : Inv s -> run s ops = Ret s' -> Inv s'.
Proof.
  revert s; induction ops as [|o ops IH]; intros s HI H; simpl in H; [congruence|].
  apply obind_ret in H; destruct H as (s1 & H1 & H). exact (IH s1 (Inv_step _ _ _ HI H1) H).
Qed.
Lemma pairs_length l : length (pairs l) = length l - 1.
Proof. induction l as [|a [|b l] IH]; auto. cbn [pairs length] in *. rewrite IH. simpl; lia. Qed.
Lemma index_length {A} i (l : list A) : length (index i l) = length l.
Proof. revert i; induction l; intros; simpl; auto. Qed.
Lemma nth_error_index {A} (l : list A) i k : nth_error (index i l) k = option_map (fun x => (i + k, x)) (nth_error l k).
Proof. revert i k; induction l as [|a l IH]; intros i [|k]; simpl; auto; [rewrite Nat.add_0_r; reflexivity|]. rewrite IH. destruct (nth_error l k); simpl; auto. rewrite Nat.add_succ_r; reflexivity. Qed.
Lemma nth_error_pairs l k p : nth_error (pairs l) k = Some p -> p = (nth k l O, nth (S k) l O).
Proof.
  revert k; induction l as [|a [|b l] IH]; intros k H; try (destruct k; discriminate).
  destruct k as [|k]; cbn [pairs nth_error] in H; [injection H as <-; reflexivity|]. apply IH in H. rewrite H. reflexivity.
Qed.
Lemma Inv_new layer_sizes level init s : pnn_new layer_sizes level init = Ret s -> Inv s.
Proof.
  unfold pnn_new. destruct (Nat.ltb_spec (length layer_sizes) 2) as [|HL]; [discriminate|]. destruct (existsb _ _); [discriminate|].
  intros H; injection H as <-. constructor; cbn [sizes wts bss acts st detected corrected uncorrectable]; auto.
  - rewrite !map_length, index_length, pairs_length; reflexivity.
  - rewrite !map_length, index_length, pairs_length; reflexivity.
  - rewrite repeat_length; reflexivity.
  - intros l m. rewrite nth_error_map, nth_error_map, nth_error_index. destruct (nth_error (pairs layer_sizes) l) as [p|] eqn:E; [|discriminate].
    rewrite (nth_error_pairs _ _ _ E). simpl. intros H; injection H as <-. split; [rewrite !map_length, seq_length; reflexivity|].
    apply Forall_forall; intros r Hr. rewrite map_map in Hr. apply in_map_iff in Hr; destruct Hr as (i & <- & _).
    split; [rewrite !map_length, seq_length; reflexivity|]. apply Forall_forall; intros c Hc. rewrite map_map in Hc. apply in_map_iff in Hc; destruct Hc as (j & <- & _).
    split; reflexivity.
  - intros l m. rewrite nth_error_map, nth_error_map, nth_error_index. destruct (nth_error (pairs layer_sizes) l) as [p|] eqn:E; [|discriminate].
    rewrite (nth_error_pairs _ _ _ E). simpl. intros H; injection H as <-. split; [rewrite map_length, repeat_length; reflexivity|].
    apply Forall_forall; intros r Hr. apply in_map_iff in Hr; destruct Hr as (i & <- & _). split; reflexivity.
Qed.
Lemma Inv_reachable s : reachable s -> Inv s.
Proof. intros (ls & lv & init & s0 & ops & H0 & H). exact (Inv_run s0 ops s (Inv_new _ _ _ _ H0) H). Qed.
