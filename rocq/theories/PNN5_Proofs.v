(** Layer copies, simulated upsets, training. *)
From Coq Require Import List NArith ZArith Bool Arith Lia Reals Lra SpecFloat.
From Flocq Require Import Core.
Import ListNotations.
From Verif Require Import Outcome Words Arith Floats FloatsR HealthFloat Bits_Model MBP_Model MBP_Spec BitsFloat_Proofs MBP6_Proofs PNN_Model PNN_Spec PNN_Proofs PNN2_Proofs PNN3_Proofs PNN4_Proofs.
Local Open Scope nat_scope.
Local Open Scope outcome_scope.

(** ** the shape depends on the layer sizes only *)
Lemma list_repeat {A} (l : list A) x n : length l = n -> Forall (fun y => y = x) l -> l = repeat x n.
Proof. intros <-; induction 1; simpl; congruence. Qed.
Lemma shape_nth s l : Inv s -> nth_error (shape (params s)) l =
  if Nat.ltb l (length (sizes s) - 1) then Some (repeat (nth (S l) (sizes s) O) (nth l (sizes s) O), nth (S l) (sizes s) O) else None.
Proof.
  intros HI. destruct (Nat.ltb_spec l (length (sizes s) - 1)) as [H|H].
  - assert (Hl : l < length (wts s)) by (rewrite (inv_w s HI); exact H).
    destruct (shape_layer s l (params s) HI Hl eq_refl) as (p & Ep & S1 & S2 & S3).
    unfold shape. rewrite nth_error_map, Ep. cbn [option_map]. f_equal. rewrite S3. f_equal.
    apply list_repeat; [rewrite map_length; exact S1|]. apply Forall_forall; intros n Hn. apply in_map_iff in Hn; destruct Hn as (r & <- & Hr).
    rewrite Forall_forall in S2. apply S2, Hr.
  - apply nth_error_None. unfold shape, params. rewrite map_length, combine_length, !map_length, (inv_w s HI). lia.
Qed.
Lemma shape_sizes s s' : Inv s -> Inv s' -> sizes s' = sizes s -> shape (params s') = shape (params s).
Proof. intros HI HI' E. apply nth_error_ext; intros k. rewrite !shape_nth by assumption. rewrite E; reflexivity. Qed.

(** ** simulated upsets *)
Definition spared (s s' : pnn) : Prop := sizes s' = sizes s /\ lvl s' = lvl s /\ counter s' = counter s /\ acts s' = acts s /\ mirror s' = mirror s /\ st s' = st s.
Lemma spared_refl s : spared s s. Proof. repeat split. Qed.
Lemma spared_trans a b c : spared a b -> spared b c -> spared a c.
Proof. unfold spared; intuition congruence. Qed.
Lemma hit_weights_spec ds s rad s' : Inv s -> hit_weights s rad ds = Ret s' ->
  spared s s' /\ bss s' = bss s /\ length (wts s') = length (wts s) /\ (forall l i j, ~ drawn_weight ds l i j -> weight_at s' l i j = weight_at s l i j).
Proof.
  revert s; induction ds as [|d ds IH]; intros s HI H; cbn [hit_weights] in H.
  - injection H as <-. auto using spared_refl.
  - apply obind_ret in H; destruct H as ([v s1] & H1 & H). destruct (getWeight_inv _ _ _ _ _ _ HI H1) as [-> (c & Ec & _)]. cbn [fst snd] in H.
    apply obind_ret in H; destruct H as (v2 & H2 & H). apply obind_ret in H; destruct H as (s3 & H3 & H).
    destruct (IH s3 (Inv_raw_setWeight _ _ _ _ _ _ HI H3) H) as (A & B & L & C).
    rewrite (raw_setWeight_ok _ _ _ _ _ _ HI Ec) in H3. injection H3 as <-. split; [exact A|]. split; [exact B|]. split; [rewrite L; simpl; unfold put3; apply upd_length|].
    intros l i j ND. rewrite C.
    + unfold weight_at. cbn [wts with_w]. rewrite get3_put3. destruct (_ && _)%bool eqn:E; [|reflexivity]. exfalso. apply ND. exists d.
      apply andb_prop in E; destruct E as [E E3]; apply andb_prop in E; destruct E as [E1 E2]. apply Nat.eqb_eq in E1, E2, E3. subst. simpl; auto.
    + intros (d' & Hd & E). apply ND. exists d'. simpl; auto.
Qed.
Lemma hit_biases_spec ds s s' : Inv s -> hit_biases s ds = Ret s' ->
  spared s s' /\ wts s' = wts s /\ (forall l j, ~ drawn_bias ds l j -> bias_at s' l j = bias_at s l j).
Proof.
  revert s; induction ds as [|d ds IH]; intros s HI H; cbn [hit_biases] in H.
  - injection H as <-. auto using spared_refl.
  - apply obind_ret in H; destruct H as ([v s1] & H1 & H). destruct (getBias_inv _ _ _ _ _ HI H1) as [-> (c & Ec & _)]. cbn [fst snd] in H.
    apply obind_ret in H; destruct H as (s3 & H3 & H).
    destruct (IH s3 (Inv_raw_setBias _ _ _ _ _ HI H3) H) as (A & B & C).
    rewrite (raw_setBias_ok _ _ _ _ _ HI Ec) in H3. injection H3 as <-. split; [exact A|]. split; [exact B|].
    intros l j ND. rewrite C.
    + unfold bias_at. cbn [bss with_b]. rewrite get2_put2. destruct (_ && _)%bool eqn:E; [|reflexivity]. exfalso. apply ND. exists d.
      apply andb_prop in E; destruct E as [E1 E3]. apply Nat.eqb_eq in E1, E3. subst. simpl; auto.
    + intros (d' & Hd & E). apply ND. exists d'. simpl; auto.
Qed.
Lemma radiation_confined s rad ws bs s' : Inv s -> applyRadiationEffects s rad ws bs = Ret s' ->
  spared s s' /\ (fle rad (dofZ 0) = true -> s' = s) /\
  (fle rad (dofZ 0) = false -> exists n, to_size (dmul rad (dofZ 50)) = Ret n /\
     (forall l i j, ~ drawn_weight (firstn (N.to_nat n) ws) l i j -> weight_at s' l i j = weight_at s l i j) /\
     (forall l j, ~ drawn_bias (firstn (N.to_nat (n / 5)) bs) l j -> bias_at s' l j = bias_at s l j) /\
     (lvl s = NONE_ \/ lvl s = CHECKSUM_ONLY -> bss s' = bss s)).
Proof.
  intros HI H. destruct (fle rad (dofZ 0)) eqn:E.
  - unfold applyRadiationEffects in H; rewrite E in H. injection H as <-. split; [apply spared_refl|]. split; [auto|discriminate].
  - destruct (radiation_inv s rad ws bs s' HI H E) as (num & s1 & N1 & W1 & I1 & B1 & I2).
    destruct (hit_weights_spec _ _ _ _ HI W1) as (A & B & _ & C). 
    destruct (advanced (lvl s1)) eqn:L.
    + destruct (hit_biases_spec _ _ _ I1 B1) as (A' & B' & C').
      split; [exact (spared_trans _ _ _ A A')|]. split; [discriminate|]. intros _. exists num. split; [exact N1|]. split; [|split].
      * intros l i j ND. rewrite <- (C l i j ND). unfold weight_at. rewrite B'. reflexivity.
      * intros l j ND. rewrite (C' l j ND). unfold bias_at. rewrite B. reflexivity.
      * destruct A as (_ & A & _). rewrite A in L. intros [G|G]; rewrite G in L; discriminate.
    + injection B1 as <-. split; [exact A|]. split; [discriminate|]. intros _. exists num. split; [exact N1|]. split; [exact C|]. split; [|auto].
      intros l j ND. unfold bias_at; rewrite B; reflexivity.
Qed.
Lemma to_size_ok rad : valid_binary 53 1024 rad = true -> fle rad (dofZ 0) = false -> fle rad (dofZ 1) = true -> exists n, to_size (dmul rad (dofZ 50)) = Ret n /\ (n <= 50)%N.
Proof.
  intros V L U. destruct (ofZ_exact 0 ltac:(cbn; lia)) as [O0 R0]. destruct (ofZ_exact 1 ltac:(cbn; lia)) as [O1 R1]. destruct (ofZ_exact 50 ltac:(cbn; lia)) as [Oc Rc].
  assert (O : okd rad).
  { split; [exact V|]. destruct rad as [s|s| |s m e]; try reflexivity; try discriminate; destruct s; [exfalso; revert L; vm_compute dofZ; discriminate|exfalso; revert U; vm_compute dofZ; discriminate]. }
  assert (B : (0 <= R rad <= 1)%R).
  { apply (fle_d rad _ O O1) in U. rewrite R1 in U. split; [|exact U]. destruct (Rle_lt_dec 0 (R rad)) as [|NN]; [assumption|exfalso].
    assert (T : fle rad (dofZ 0) = true) by (apply (fle_d rad _ O O0); rewrite R0; lra). congruence. }
  destruct (mul_d rad (dofZ 50) O Oc) as [Om Rm]; [rewrite Rc; unfold mid; nra|].
  destruct (trunc_between (dmul rad (dofZ 50)) 50) as (z & T & Z).
  - apply Om.
  - rewrite Rm, Rc, <- Rc. split.
    + rewrite <- R0. apply rnd64_ge; [exact O0|]. rewrite R0, Rc. nra.
    + apply rnd64_le; [exact Oc|]. rewrite Rc. nra.
  - exists (Z.to_N z). unfold to_size. rewrite T. replace ((0 <=? z) && (z <? 2 ^ 64))%Z with true by (symmetry; apply andb_true_iff; split; [apply Z.leb_le|apply Z.ltb_lt]; lia).
    split; [reflexivity|]. lia.
Qed.
Lemma rate_ok u rad : valid_binary 53 1024 rad = true -> fle rad (dofZ 0) = false -> fle rad (dofZ 1) = true ->
  valid_binary 53 1024 u = true -> fle (dofZ 0) u = true -> fle u (dofZ 1) = true ->
  valid_binary 53 1024 (dmul u rad) = true /\ fle (dmul u rad) (dofZ 1) = true.
Proof.
  intros V L U Vu Lu Uu. destruct (ofZ_exact 0 ltac:(cbn; lia)) as [O0 R0]. destruct (ofZ_exact 1 ltac:(cbn; lia)) as [O1 R1].
  assert (O : okd rad).
  { split; [exact V|]. destruct rad as [s|s| |s m e]; try reflexivity; try discriminate; destruct s; [exfalso; revert L; vm_compute dofZ; discriminate|exfalso; revert U; vm_compute dofZ; discriminate]. }
  assert (Ou : okd u).
  { split; [exact Vu|]. destruct u as [s|s| |s m e]; try reflexivity; try discriminate; destruct s; [exfalso; revert Lu; vm_compute dofZ; discriminate|exfalso; revert Uu; vm_compute dofZ; discriminate]. }
  assert (B : (0 <= R rad <= 1)%R).
  { apply (fle_d rad _ O O1) in U. rewrite R1 in U. split; [|exact U]. destruct (Rle_lt_dec 0 (R rad)) as [|NN]; [assumption|exfalso].
    assert (T : fle rad (dofZ 0) = true) by (apply (fle_d rad _ O O0); rewrite R0; lra). congruence. }
  apply (fle_d _ _ O0 Ou) in Lu. apply (fle_d _ _ Ou O1) in Uu. rewrite R0 in Lu. rewrite R1 in Uu.
  destruct (mul_d u rad Ou O) as [Om Rm]; [unfold mid; nra|]. split; [apply Om|].
  apply (fle_d _ _ Om O1). rewrite Rm. apply rnd64_le; [exact O1|]. rewrite R1. nra.
Qed.
Lemma hit_weights_done ds s rad : Inv s -> valid_binary 53 1024 rad = true -> fle rad (dofZ 0) = false -> fle rad (dofZ 1) = true -> Forall (legal_wdraw s) ds ->
  exists s', hit_weights s rad ds = Ret s'.
Proof.
  intros HI V L U H. revert s HI H; induction ds as [|d ds IH]; intros s HI H; cbn [hit_weights]; [eauto|].
  inversion H as [|? ? Hd Hds Q1]; subst. destruct Hd as (D1 & D2 & D3 & D4 & D5 & D6 & D7 & _).
  destruct (get3_ex s _ _ _ HI D1 D2 D3) as [c Ec]. rewrite (getWeight_ok _ _ _ _ _ HI Ec). cbn [obind fst snd].
  assert (Q : exists v, (if advanced (lvl s) then applyMultiBitErrors (value_ c) (dmul (wu d) rad) (wtype d) (worc d) else Ret (applyBitFlip (value_ c) (wbyte d) (wbit d))) = Ret v).
  { destruct (advanced (lvl s)); [|eauto]. destruct (rate_ok (wu d) rad V L U D4 D5 D6) as [R1 R2].
    destruct (upsets (value_ c) (dmul (wu d) rad) (wtype d) (worc d) R1 R2 D7) as (w & E & _). eauto. }
  destruct Q as [v Ev]. rewrite Ev. cbn [obind]. rewrite (raw_setWeight_ok _ _ _ _ _ _ HI Ec). cbn [obind]. apply IH.
  - rewrite <- with_mirror_w. apply Inv_put3; [exact HI|apply cell_ok].
  - eapply Forall_impl; [|exact Hds]. intros e. unfold legal_wdraw. cbn [wts sizes with_w]. unfold put3. rewrite upd_length. auto.
Qed.
Lemma hit_biases_done ds s : Inv s -> Forall (legal_bdraw s) ds -> exists s', hit_biases s ds = Ret s'.
Proof.
  intros HI H. revert s HI H; induction ds as [|d ds IH]; intros s HI H; cbn [hit_biases]; [eauto|].
  inversion H as [|? ? Hd Hds Q1]; subst. destruct Hd as (D1 & D2 & _).
  assert (D1' : bl d < length (bss s)) by (rewrite (inv_b s HI), <- (inv_w s HI); exact D1).
  destruct (get2_ex s _ _ HI D1' D2) as [c Ec]. rewrite (getBias_ok _ _ _ _ HI Ec). cbn [obind fst snd].
  rewrite (raw_setBias_ok _ _ _ _ _ HI Ec). cbn [obind]. apply IH.
  - rewrite <- with_mirror_b. apply Inv_put2; [exact HI|apply cell_ok].
  - exact Hds.
Qed.
Lemma Forall_firstn {A} (P : A -> Prop) n l : Forall P l -> Forall P (firstn n l).
Proof. intros H; revert n; induction H; intros [|n]; simpl; auto. Qed.
Lemma radiation_done s rad ws bs : Inv s -> valid_binary 53 1024 rad = true -> fle rad (dofZ 1) = true -> Forall (legal_wdraw s) ws -> Forall (legal_bdraw s) bs ->
  exists s', applyRadiationEffects s rad ws bs = Ret s'.
Proof.
  intros HI V U HW HB. unfold applyRadiationEffects. destruct (fle rad (dofZ 0)) eqn:L; [eauto|].
  destruct (to_size_ok rad V L U) as (n & En & _). rewrite En. cbn [obind].
  destruct (hit_weights_done (firstn (N.to_nat n) ws) s rad HI V L U (Forall_firstn _ _ _ HW)) as [s1 E1]. rewrite E1. cbn [obind].
  destruct (hit_weights_spec _ _ _ _ HI E1) as ((A1 & A2 & _) & _ & AL & _).
  assert (Q : exists s2, (if advanced (lvl s1) then hit_biases s1 (firstn (N.to_nat (n / 5)) bs) else Ret s1) = Ret s2).
  { destruct (advanced (lvl s1)); [|eauto]. apply hit_biases_done; [exact (Inv_hit_weights _ _ _ _ HI E1)|].
    eapply Forall_impl; [|exact (Forall_firstn _ _ _ HB)]. intros d. unfold legal_bdraw. rewrite A1, AL. auto. }
  destruct Q as [s2 E2]. rewrite E2. cbn [obind]. eauto.
Qed.

(** ** the layer copies *)
Lemma step_sizes s o s' : Inv s -> mirror_fits s -> step s o = Ret s' ->
  sizes s' = sizes s /\ (keeps_shape s o -> mirror_fits s') /\ (plain o -> mirror s = params s -> mirror s' = params s').
Proof.
  intros HI HM H. assert (Same : forall s', s' = s -> sizes s' = sizes s /\ (keeps_shape s o -> mirror_fits s') /\ (plain o -> mirror s = params s -> mirror s' = params s')) by (intros ? ->; auto).
  destruct o; cbn [step] in H.
  - destruct (forward s x rad d) as [[y s1]|u|e|] eqn:E; cbn [obind snd] in H; try discriminate; injection H as <-; [|apply Same; reflexivity].
    destruct (Nat.eqb_spec (length x) (hd O (sizes s))) as [Ex|Ex].
    + destruct (forward_shape s x rad d HI Ex) as (y' & t' & c' & H' & _ & _). rewrite E in H'; injection H' as _ ->. repeat split; auto.
    + unfold forward in E. apply Nat.eqb_neq in Ex; rewrite Ex in E; discriminate.
  - apply obind_ret in H; destruct H as (r & H1 & H); injection H as <-.
    destruct (Nat.leb_spec (length (wts s)) l) as [Hl|Hl].
    { unfold setLayerWeights in H1. apply Nat.leb_le in Hl; rewrite Hl in H1. injection H1 as <-. apply Same; reflexivity. }
    destruct (Nat.eqb_spec (length m) (nth l (sizes s) O)) as [Hm|Hm].
    + destruct (setLayerWeights_edit s l m HI HM Hl Hm) as (s1 & E1 & D). rewrite E1 in H1; injection H1 as <-. cbn [fst].
      destruct D as (P & M & (R & _) & _ & I & F). repeat split; auto. intros _ EM. rewrite P, M, EM. reflexivity.
    + unfold setLayerWeights in H1. apply Nat.leb_gt in Hl; rewrite Hl in H1. apply Nat.eqb_neq in Hm; rewrite Hm in H1. injection H1 as <-. apply Same; reflexivity.
  - apply obind_ret in H; destruct H as (r & H1 & H); injection H as <-.
    destruct (Nat.leb_spec (length (bss s)) l) as [Hl|Hl].
    { unfold setLayerBiases in H1. apply Nat.leb_le in Hl; rewrite Hl in H1. injection H1 as <-. apply Same; reflexivity. }
    destruct (Nat.eqb_spec (length b) (nth (S l) (sizes s) O)) as [Hm|Hm].
    + destruct (setLayerBiases_edit s l b HI HM Hl Hm) as (s1 & E1 & D). rewrite E1 in H1; injection H1 as <-. cbn [fst].
      destruct D as (P & M & (R & _) & _ & I & F). repeat split; auto. intros _ EM. rewrite P, M, EM. reflexivity.
    + unfold setLayerBiases in H1. apply Nat.leb_gt in Hl; rewrite Hl in H1. apply Nat.eqb_neq in Hm; rewrite Hm in H1. injection H1 as <-. apply Same; reflexivity.
  - unfold setActivationFunction in H. destruct (Nat.leb _ _); injection H as <-; [apply Same; reflexivity|]. repeat split; auto.
  - pose proof (Inv_radiation _ _ _ _ _ HI H) as I'. destruct (radiation_confined _ _ _ _ _ HI H) as ((A1 & _ & _ & _ & A5 & _) & _).
    split; [exact A1|]. split; [|intros []]. intros _. unfold mirror_fits. rewrite A5, HM. symmetry; apply shape_sizes; auto.
  - injection H as <-. repeat split; auto.
  - destruct (train s data labels epochs 0%N) as [[y s1]|u|e|] eqn:E; cbn [obind snd] in H; try discriminate; injection H as <-; [|apply Same; reflexivity].
    destruct (train_inv _ _ _ _ _ _ HI E) as (c & t & E' & _). cbn [snd] in E'; subst s1. repeat split; auto.
  - injection H as <-. split; [reflexivity|]. split; [intros K; exact K|intros []].
Qed.
Lemma run_fits s0 ops s s' : Inv s -> mirror_fits s -> shape (params s) = shape (params s0) -> Forall (keeps_shape s0) ops -> run s ops = Ret s' -> mirror_fits s'.
Proof.
  intros HI HM HS H; revert s HI HM HS; induction H as [|o ops Ho Hops IH]; intros s HI HM HS E; cbn [run] in E; [congruence|].
  apply obind_ret in E; destruct E as (s1 & E1 & E). pose proof (Inv_step _ _ _ HI E1) as I1. destruct (step_sizes _ _ _ HI HM E1) as (S1 & F1 & _).
  apply (IH s1); auto.
  - apply F1. destruct o; cbn [keeps_shape] in *; auto. congruence.
  - rewrite <- HS. apply shape_sizes; auto.
Qed.
Lemma new_mirror ls lv init s : pnn_new ls lv init = Ret s -> mirror s = params s.
Proof.
  unfold pnn_new. destruct (Nat.ltb _ _); [discriminate|]. destruct (existsb _ _); [discriminate|]. intros H; injection H as <-.
  unfold params; cbn [mirror wts bss]. f_equal.
  - rewrite !map_map. apply map_ext; intros [l [a b]]. rewrite !map_map. apply map_ext; intros i. rewrite !map_map. apply map_ext; intros j. reflexivity.
  - rewrite !map_map. apply map_ext; intros [l [a b]]. induction b as [|b IH]; simpl; [reflexivity|]. rewrite <- IH; reflexivity.
Qed.
Lemma tidy_inv s : tidy s -> Inv s /\ mirror_fits s.
Proof.
  intros (ls & lv & init & s0 & ops & H0 & HF & H). pose proof (Inv_new _ _ _ _ H0) as I0. split; [exact (Inv_run _ _ _ I0 H)|].
  apply (run_fits s0 ops s0 s); auto. unfold mirror_fits. rewrite (new_mirror _ _ _ _ H0); reflexivity.
Qed.
Lemma plainly_mirror s : plainly_used s -> mirror s = params s.
Proof.
  intros (ls & lv & init & s0 & ops & H0 & HF & H). pose proof (Inv_new _ _ _ _ H0) as I0. pose proof (new_mirror _ _ _ _ H0) as M0. clear H0.
  revert s0 I0 M0 H; induction HF as [|o ops Ho Hops IH]; intros s0 I0 M0 H; cbn [run] in H; [congruence|].
  apply obind_ret in H; destruct H as (s1 & E1 & H). apply (IH s1); auto.
  - exact (Inv_step _ _ _ I0 E1).
  - assert (F0 : mirror_fits s0) by (unfold mirror_fits; rewrite M0; reflexivity).
    destruct (step_sizes _ _ _ I0 F0 E1) as (_ & _ & G). auto.
Qed.

(** ** loss *)
Lemma no_vote_zero s : no_vote s (S754_zero false). Proof. right; reflexivity. Qed.
Lemma losses_mse samples s total : Inv s -> Forall (fun p => length (fst p) = hd O (sizes s)) samples ->
  exists c, losses s samples total = Ret (fold_left (fun acc p => f32add acc (squared_error (network (params s) (acts s) (fst p)) (snd p))) samples total, with_counter s c).
Proof.
  intros HI H. assert (G : forall c total, exists c', losses (with_counter s c) samples total = Ret (fold_left (fun acc p => f32add acc (squared_error (network (params s) (acts s) (fst p)) (snd p))) samples total, with_counter s c')).
  2: { destruct (G (counter s) total) as [c' E]. exists c'. rewrite <- E. f_equal. destruct s; reflexivity. }
  clear total. induction H as [|[x y] samples Hx Hs IH]; intros c total.
  - exists c; reflexivity.
  - cbn [losses fst snd] in *. destruct (forward_quiet (with_counter s c) x (S754_zero false) no_draws (Inv_counter _ _ HI) (no_vote_zero _) Hx) as [c1 E1].
    rewrite E1. cbn [obind fst snd fold_left]. change (with_counter (with_counter s c) c1) with (with_counter s c1).
    destruct (IH c1 (f32add total (squared_error (network (params s) (acts s) x) y))) as [c' E]. exists c'. exact E.
Qed.
Lemma concat_length_const {A} (l : list (list A)) n : Forall (fun x => length x = n) l -> length (concat l) = length l * n.
Proof. induction 1 as [|x l Hx Hl IH]; simpl; auto. rewrite app_length, IH, Hx; reflexivity. Qed.
Lemma chunks_concat {A} (l : list (list A)) n : Forall (fun x => length x = n) l -> chunks n (length l) (concat l) = l.
Proof.
  induction 1 as [|x l Hx Hl IH]; simpl; auto. rewrite firstn_app, skipn_app, Hx, Nat.sub_diag. simpl. rewrite app_nil_r.
  rewrite firstn_all2 by lia. rewrite skipn_all2 by lia. simpl. rewrite IH. reflexivity.
Qed.
Lemma combine_split_map {A B} (l : list (A * B)) : combine (map fst l) (map snd l) = l.
Proof. induction l as [|[a b] l IH]; simpl; congruence. Qed.
Lemma calculateLoss_mse s data labels samples : Inv s -> 0 < hd O (sizes s) -> samples_of (hd O (sizes s)) (last (sizes s) O) samples data labels ->
  exists c, calculateLoss s data labels = Ret (mean_squared_error (network (params s) (acts s)) samples, with_counter s c).
Proof.
  intros HI Hn (-> & -> & NE & HF). unfold calculateLoss.
  assert (F1 : Forall (fun x => length x = hd O (sizes s)) (map fst samples)) by (apply Forall_map; eapply Forall_impl; [|exact HF]; cbn; tauto).
  assert (F2 : Forall (fun x => length x = last (sizes s) O) (map snd samples)) by (apply Forall_map; eapply Forall_impl; [|exact HF]; cbn; tauto).
  destruct (Nat.eqb_spec (hd O (sizes s)) 0); [lia|].
  rewrite (concat_length_const _ _ F1), (concat_length_const _ _ F2), !map_length, Nat.div_mul by lia. rewrite Nat.eqb_refl.
  destruct (Nat.eqb_spec (length samples) 0) as [E|E]; [destruct samples; [congruence|discriminate]|]. cbn [negb orb].
  assert (C1 : chunks (hd O (sizes s)) (length samples) (concat (map fst samples)) = map fst samples) by (rewrite <- (map_length fst samples) at 1; apply chunks_concat, F1).
  assert (C2 : chunks (last (sizes s) O) (length samples) (concat (map snd samples)) = map snd samples) by (rewrite <- (map_length snd samples) at 1; apply chunks_concat, F2).
  rewrite C1, C2, combine_split_map.
  destruct (losses_mse samples s 0%N HI) as [c Ec]; [eapply Forall_impl; [|exact HF]; cbn; tauto|]. rewrite Ec. cbn [obind fst snd]. exists c; reflexivity.
Qed.
Lemma train_mse s data labels samples e loss : Inv s -> 0 < hd O (sizes s) -> samples_of (hd O (sizes s)) (last (sizes s) O) samples data labels ->
  exists c, train s data labels e loss = Ret (match e with O => loss | S _ => mean_squared_error (network (params s) (acts s)) samples end, with_counter s c).
Proof.
  intros HI Hn HS. assert (G : forall e c loss, exists c', train (with_counter s c) data labels e loss = Ret (match e with O => loss | S _ => mean_squared_error (network (params s) (acts s)) samples end, with_counter s c')).
  2: { destruct (G e (counter s) loss) as [c' E]. exists c'. rewrite <- E. f_equal. destruct s; reflexivity. }
  clear e loss. induction e as [|e IH]; intros c loss.
  - exists c; reflexivity.
  - cbn [train]. destruct (calculateLoss_mse (with_counter s c) data labels samples (Inv_counter _ _ HI) Hn HS) as [c1 E1]. rewrite E1. cbn [obind fst snd].
    change (with_counter (with_counter s c) c1) with (with_counter s c1).
    destruct (IH c1 (mean_squared_error (network (params (with_counter s c)) (acts (with_counter s c))) samples)) as [c' E]. exists c'. rewrite E. destruct e; reflexivity.
Qed.
