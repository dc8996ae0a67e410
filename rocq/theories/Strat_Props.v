(** C201-C227: execution strategies, mission controller, PhysicsDrivenProtection, ProtectedNeuralLayer. *)
From Coq Require Import String List NArith ZArith Bool SpecFloat Lia.
Import ListNotations.
From Verif Require Import Outcome Words Floats Approx_Model Bits_Model Strat_Model Strat_Spec Strat_Proofs Strat2_Proofs Strat3_Proofs Strat4_Proofs Strat5_Proofs Strat6_Proofs Strat7_Proofs.
Local Open Scope Z_scope.

Definition d50_ok : delay_ok (dofZ 50). Proof. exists 50. vm_compute. reflexivity. Qed.
Lemma scripted {V} (a b c : V) l : three_calls script (a :: b :: c :: l) a b c l.
Proof. exists (b :: c :: l), (c :: l). repeat split; reflexivity. Qed.

(** Basic and hybrid *)
Theorem C201_masks : forall V S (K : kind V) (f : @op V S) s r1 r2 r3 s' v x, x = S_basic \/ (exists d, x = S_hybrid d /\ delay_ok d) ->
  three_calls f s r1 r2 r3 s' -> self_equal K v -> two_of v r1 r2 r3 -> exists r, execute K x f s = Ret (r, s', x) /\ eqv K (value r) v = true.
Proof.
  intros V S K f s r1 r2 r3 s' v x [->|(d & -> & D)] T E W; eexists; (split; [apply exec_basic || apply exec_hybrid; eassumption|]); apply plain_value; assumption.
Qed.
Theorem C201_flags : forall V S (K : kind V) (f : @op V S) s r1 r2 r3 s' x, x = S_basic \/ (exists d, x = S_hybrid d /\ delay_ok d) ->
  three_calls f s r1 r2 r3 s' -> exists r, execute K x f s = Ret (r, s', x) /\
  let all := eqv K r1 r2 && eqv K r1 r3 in let some := eqv K r1 r2 || eqv K r1 r3 || eqv K r2 r3 in
  detected r = Some (negb all) /\ corrected r = Some (negb all && some) /\
  confidence r = (if all then dofZ 1 else if some then (match x with S_basic => dlit 67 100 | _ => dlit 8 10 end) else dlit 33 100) /\ (value r = r1 \/ value r = r2).
Proof.
  intros V S K f s r1 r2 r3 s' x [->|(d & -> & D)] T; eexists; (split; [apply exec_basic || apply exec_hybrid; eassumption|]); apply plain_flags.
Qed.
Example C201_nonvacuous : three_calls script [7; 9; 7] 7 9 7 [] /\ self_equal kint 7 /\ two_of 7 7 9 7 /\ delay_ok (dofZ 50).
Proof. split; [apply scripted|]. split; [reflexivity|]. split; [right; left; auto|exact d50_ok]. Qed.

(** Enhanced *)
Theorem C202_enhanced_int : forall S (f : @op Z S) s r1 r2 r3 s' v, three_calls f s r1 r2 r3 s' -> two_of v r1 r2 r3 ->
  exists r, execute kint S_enhanced f s = Ret (r, s', S_enhanced) /\ value r = v.
Proof.
  intros S f s r1 r2 r3 s' v T W. rewrite (exec_enhanced kint f s r1 r2 r3 s' T).
  destruct (enhanced_value kint v r1 r2 r3 _ _ _ eq_refl eq_refl eq_refl (Z.eqb_refl v) W) as (r & -> & E). eexists. split; [reflexivity|]. apply Z.eqb_eq in E. exact E.
Qed.
Example C202_nonvacuous : three_calls script [7; 7; -1] 7 7 (-1) [] /\ two_of 7 7 7 (-1).
Proof. split; [apply scripted|left; auto]. Qed.

Theorem C203_flags_refuted : forall S (f : @op Z S) s v s', three_calls f s v v v s' ->
  exists r, execute kint S_enhanced f s = Ret (r, s', S_enhanced) /\ detected r = None /\ corrected r = None.
Proof.
  intros S f s v s' T. rewrite (exec_enhanced kint f s v v v s' T). rewrite (enhanced_silent kint v (v mod 2 ^ 64) (Z.eqb_refl v) eq_refl). eexists. split; [reflexivity|]. auto.
Qed.
Theorem C203_flags_partial : forall V S (K : kind V) (f : @op V S) s r1 r2 r3 s' r x, three_calls f s r1 r2 r3 s' -> execute K S_enhanced f s = Ret (r, s', x) ->
  eqv K r1 r2 && eqv K r1 r3 = false -> detected r = Some true /\ corrected r = Some (eqv K r1 r2 || eqv K r1 r3 || eqv K r2 r3).
Proof.
  intros V S K f s r1 r2 r3 s' r x T E A. rewrite (exec_enhanced K f s r1 r2 r3 s' T) in E. destruct (enhanced_vote K r1 r2 r3) as [r'| | |] eqn:Q; try discriminate E. cbn [obind] in E. injection E as <- _.
  exact (enhanced_disagree K r1 r2 r3 r' Q A).
Qed.
Example C203_nonvacuous : three_calls script [7; 7; 7] 7 7 7 [] /\ exists r, execute kint S_enhanced script [7; 7; 9] = Ret (r, [], S_enhanced) /\ detected r = Some true.
Proof. split; [apply scripted|]. eexists. split; [vm_compute; reflexivity|reflexivity]. Qed.

Theorem C204_enhanced_float_refuted : execute kfloat S_enhanced script [sofZ (-1); sofZ (-1); sofZ (-1)] = UB UB_float_to_int /\
  execute kfloat S_enhanced script [sofZ 1; S754_nan; sofZ 1] = UB UB_float_to_int /\ execute kfloat S_enhanced script [sofZ 1; sofZ 1; sofZ (2 ^ 64)] = UB UB_float_to_int.
Proof. split; [|split]; vm_compute; reflexivity. Qed.
Theorem C204_enhanced_float_partial : forall S (f : @op sf S) s r1 r2 r3 s' v, three_calls f s r1 r2 r3 s' -> float_up_to (2 ^ 63) r1 -> float_up_to (2 ^ 63) r2 -> float_up_to (2 ^ 63) r3 ->
  feqb v v = true -> two_of v r1 r2 r3 -> exists r, execute kfloat S_enhanced f s = Ret (r, s', S_enhanced) /\ feqb (value r) v = true.
Proof.
  intros S f s r1 r2 r3 s' v T B1 B2 B3 E W. rewrite (exec_enhanced kfloat f s r1 r2 r3 s' T). destruct (float_chk_in r1 B1) as [k1 K1], (float_chk_in r2 B2) as [k2 K2], (float_chk_in r3 B3) as [k3 K3].
  destruct (enhanced_value kfloat v r1 r2 r3 k1 k2 k3 K1 K2 K3 E W) as (r & -> & Q). eexists. split; [reflexivity|exact Q].
Qed.
Example C204_nonvacuous : float_up_to (2 ^ 63) (sofZ 3) /\ float_up_to (2 ^ 63) (sofZ 70000) /\ feqb (sofZ 3) (sofZ 3) = true /\ two_of (sofZ 3) (sofZ 3) (sofZ 70000) (sofZ 3).
Proof. split; [repeat split; vm_compute; reflexivity|]. split; [repeat split; vm_compute; reflexivity|]. split; [vm_compute; reflexivity|right; left; auto]. Qed.

(** Stuck bits *)
Theorem C205_stuck_masks_refuted : forall v x, v = 0 \/ v = 2 ^ 31 - 1 -> x <> 0 -> x <> 2 ^ 31 - 1 ->
  execute kint S_stuck script [v; v; x] = Ret (mkR x (dlit 6 10) (Some true) (Some true), [], S_stuck).
Proof.
  intros v x V N1 N2. rewrite (exec_stuck kint script _ v v x [] (scripted v v x [])). assert (A : stuck kint v = true) by (apply kint_stuck; exact V).
  assert (B : stuck kint x = false) by (destruct (stuck kint x) eqn:Q; [apply kint_stuck in Q; lia|reflexivity]). destruct (stuck_wrong kint v x A B) as [-> _]. reflexivity.
Qed.
Theorem C205_stuck_masks_partial : forall V S (K : kind V) (f : @op V S) s r1 r2 r3 s' v, three_calls f s r1 r2 r3 s' -> self_equal K v -> stuck K v = false -> two_of v r1 r2 r3 ->
  exists r, execute K S_stuck f s = Ret (r, s', S_stuck) /\ eqv K (value r) v = true.
Proof. intros V S K f s r1 r2 r3 s' v T E B W. rewrite (exec_stuck K f s r1 r2 r3 s' T). eexists. split; [reflexivity|]. apply stuck_value; assumption. Qed.
Example C205_nonvacuous : stuck kint 5 = false /\ self_equal kint 5 /\ three_calls script [5; 0; 5] 5 0 5 [] /\ two_of 5 5 0 5.
Proof. split; [reflexivity|]. split; [reflexivity|]. split; [apply scripted|right; left; auto]. Qed.

Theorem C206_no_false_alarm_refuted : exists r, execute kint S_stuck script [0; 0; 0] = Ret (r, [], S_stuck) /\ detected r = Some true /\ corrected r = Some false /\ confidence r = dlit 2 10.
Proof. eexists. split; [vm_compute; reflexivity|]. repeat split; reflexivity. Qed.
Theorem C206_no_false_alarm_partial : forall V S (K : kind V) (f : @op V S) s v s', three_calls f s v v v s' -> self_equal K v -> stuck K v = false ->
  execute K S_stuck f s = Ret (mkR v (dofZ 1) (Some false) (Some false), s', S_stuck).
Proof. intros V S K f s v s' T E B. rewrite (exec_stuck K f s v v v s' T), stuck_clean by assumption. reflexivity. Qed.
Example C206_nonvacuous : three_calls script [5; 5; 5] 5 5 5 [] /\ stuck kint 5 = false.
Proof. split; [apply scripted|reflexivity]. Qed.

Theorem C207_all_suspicious : forall S (f : @op Z S) s r1 r2 r3 s', three_calls f s r1 r2 r3 s' ->
  Forall (fun r => r = 0 \/ r = 2 ^ 31 - 1) [r1; r2; r3] -> exists v, two_of v r1 r2 r3 /\ execute kint S_stuck f s = Ret (mkR v (dlit 2 10) (Some true) (Some false), s', S_stuck).
Proof.
  intros S f s r1 r2 r3 s' T F. inversion F as [|? ? F1 G]; subst. inversion G as [|? ? F2 H]; subst. inversion H as [|? ? F3 _]; subst.
  rewrite (exec_stuck kint f s r1 r2 r3 s' T). assert (W : exists v, two_of v r1 r2 r3).
  { destruct F1, F2, F3; subst; first [exists 0; first [left; split; reflexivity|right; left; split; reflexivity|right; right; split; reflexivity]|exists (2 ^ 31 - 1); first [left; split; reflexivity|right; left; split; reflexivity|right; right; split; reflexivity]]. }
  destruct W as [v W]. exists v. split; [exact W|]. rewrite (kint_all_stuck r1 r2 r3 v) by (first [apply kint_stuck; assumption|exact W]). reflexivity.
Qed.
Example C207_nonvacuous : three_calls script [0; 2147483647; 0] 0 2147483647 0 [] /\ Forall (fun r => r = 0 \/ r = 2 ^ 31 - 1) [0; 2147483647; 0].
Proof. split; [apply scripted|]. repeat (apply Forall_cons; [(left; reflexivity) || (right; reflexivity)|]). apply Forall_nil. Qed.

(** Health weighted *)
Theorem C208_scores : forall V (K : kind V) h, health_life K h -> forall k, (k < 3)%nat -> fle (dlit 1 10) (score h k) = true /\ fle (score h k) (dofZ 1) = true.
Proof.
  intros V K h L k Hk. pose proof (score_in h k (health_life_good K h L)) as [O [A B]]. destruct L01 as [O1 _], Z1 as [OO EO]. split; apply HealthFloat.fle_d; auto. rewrite EO. exact B.
Qed.
Theorem C208_one_of_three : forall V S (K : kind V) (f : @op V S) s h r1 r2 r3 s', three_calls f s r1 r2 r3 s' -> exists r h', execute K (S_health h) f s = Ret (r, s', S_health h') /\
  (value r = r1 \/ value r = r2 \/ value r = r3) /\ detected r = Some (negb (eqv K r1 r2 && eqv K r1 r3)).
Proof. intros V S K f s h r1 r2 r3 s' T. rewrite (exec_health K f s r1 r2 r3 s' h T). do 2 eexists. split; [reflexivity|]. apply health_vote_value. Qed.
Example C208_nonvacuous : exists h, health_life kint h /\ score h 0 <> dofZ 1.
Proof.
  eexists. split; [eapply (HL_exec kint (list Z) script [9; 5; 5]); [apply HL_new|]; rewrite (exec_health kint script _ 9 5 5 [] fresh (scripted 9 5 5 [])); reflexivity|].
  vm_compute. discriminate.
Qed.

Fixpoint runs (h : scores) (n : nat) : scores := match n with O => h | S n => runs (snd (health_vote kint h 9 5 5)) n end.
Lemma runs_life n : forall h, one_wrong_life kint h -> one_wrong_life kint (runs h n).
Proof.
  induction n as [|n IH]; intros h L; [exact L|]. apply IH. eapply (OW_exec kint (list Z) script [9; 5; 5] h 5 9 5 5); [exact L|apply scripted|right; right; auto|].
  exact (exec_health kint script _ 9 5 5 [] h (scripted 9 5 5 [])).
Qed.
Theorem C209_masks_refuted : exists h r h', one_wrong_life kint h /\ execute kint (S_health h) script [5; 9; 5] = Ret (r, [], S_health h') /\ value r = 9 /\ corrected r = Some false.
Proof.
  exists (runs fresh 4). do 2 eexists. split; [apply runs_life, OW_new|]. split; [exact (exec_health kint script _ 5 9 5 [] _ (scripted 5 9 5 []))|]. split; vm_compute; reflexivity.
Qed.
Theorem C209_masks_partial : forall V S (K : kind V) (f : @op V S) s k h r1 r2 r3 s', per K -> (k < 3)%nat -> lone_fault K k h -> three_calls f s r1 r2 r3 s' -> others_agree K k r1 r2 r3 ->
  exists r h', execute K (S_health h) f s = Ret (r, s', S_health h') /\ eqv K (value r) (other k r1 r2 r3) = true /\ corrected r = Some (negb (eqv K r1 r2 && eqv K r1 r3)).
Proof. intros V S K f s k h r1 r2 r3 s' P Hk L T O. rewrite (exec_health K f s r1 r2 r3 s' h T). do 2 eexists. split; [reflexivity|]. apply (lone_masks K k h r1 r2 r3 P Hk L O). Qed.
Example C209_nonvacuous : per kint /\ per kbool /\ per kfloat /\ per kvec /\ lone_fault kint 0 (runs fresh 4) /\ others_agree kint 0 1 2 2.
Proof.
  split; [exact per_int|]. split; [exact per_bool|]. split; [exact per_float|]. split; [exact per_vec|]. split; [|reflexivity].
  assert (G : forall n h, lone_fault kint 0 h -> lone_fault kint 0 (runs h n)).
  { induction n as [|n IH]; intros h L; [exact L|]. apply IH. eapply (LF_exec kint 0 (list Z) script [9; 5; 5] h 9 5 5); [exact L|apply scripted|reflexivity|]. exact (exec_health kint script _ 9 5 5 [] h (scripted 9 5 5 [])). }
  apply G, LF_new.
Qed.

Theorem C210_no_reward_refuted : exists h r h', one_wrong_life kint h /\ execute kint (S_health h) script [1; 2; 3] = Ret (r, [], S_health h') /\ flt (score h 0) (score h' 0) = true.
Proof.
  exists (runs fresh 1). do 2 eexists. split; [apply runs_life, OW_new|]. split; [exact (exec_health kint script _ 1 2 3 [] _ (scripted 1 2 3 []))|]. vm_compute. reflexivity.
Qed.
Theorem C210_no_reward_partial : forall V S (K : kind V) (f : @op V S) s h r1 r2 r3 s', health_life K h -> three_calls f s r1 r2 r3 s' -> eqv K r1 r2 || eqv K r1 r3 || eqv K r2 r3 = true ->
  exists r h', execute K (S_health h) f s = Ret (r, s', S_health h') /\ forall k, (k < 3)%nat -> fle (score h' k) (score h k) = true.
Proof. intros V S K f s h r1 r2 r3 s' L T P. rewrite (exec_health K f s r1 r2 r3 s' h T). do 2 eexists. split; [reflexivity|]. apply outvoted; [exact (health_life_good K h L)|exact P]. Qed.
Example C210_nonvacuous : health_life kint fresh /\ three_calls script [9; 5; 5] 9 5 5 [] /\ (eqv kint 9 5 || eqv kint 9 5 || eqv kint 5 5 = true).
Proof. split; [apply HL_new|]. split; [apply scripted|reflexivity]. Qed.

(** Levels *)
Definition quiet : env := mkEnv false (dlit 1 10) (dofZ 1000) (dofZ 100) (dofZ 280) (dofZ 300).
Definition storm : env := mkEnv true (dlit 9 10) (dofZ 100000000) (dofZ 10000000) (dofZ 280) (dofZ 400).
Definition alu : material := mkMat (dofZ 276) (dofZ 100).
Ltac num := repeat split; vm_compute; (reflexivity || auto).
Lemma quiet_plausible : plausible quiet. Proof. num. Qed.
Lemma storm_plausible : plausible storm. Proof. num. Qed.
Lemma quiet_storm : env_le quiet storm. Proof. num. Qed.
Theorem C211_level_monotone : forall e e' m c c', plausible e -> plausible e' -> env_le e e' -> sane_factor (tolerance m) -> up_to (dofZ 1) c -> up_to (dofZ 1) c' -> fle c c' = true ->
  level_le (optimal_level e m c) (optimal_level e' m c').
Proof. exact optimal_mono. Qed.
Theorem C211_strategy : forall e m c, level_of (create_strategy e m c) = optimal_level e m c /\ level_le BASIC_TMR (optimal_level e m c).
Proof. intros e m c. unfold create_strategy, optimal_level. cbv zeta. repeat match goal with |- context [if ?b then _ else _] => destruct b end; (split; [reflexivity|unfold level_le; cbn; lia]). Qed.
Example C211_nonvacuous : plausible quiet /\ plausible storm /\ env_le quiet storm /\ sane_factor (tolerance alu) /\ optimal_level quiet alu (dlit 1 10) = BASIC_TMR /\ optimal_level storm alu (dlit 4 10) = HYBRID_REDUNDANCY.
Proof. split; [exact quiet_plausible|]. split; [exact storm_plausible|]. split; [exact quiet_storm|]. num. Qed.

Theorem C212_interval_range : forall b e t s y, fle (dofZ 10) (current (adjust (ckpt_new b) e t s y)) = true /\ fle (current (adjust (ckpt_new b) e t s y)) (dofZ 3600) = true.
Proof. intros. apply adjust_range. Qed.
Example C212_nonvacuous : current (adjust (ckpt_new (dofZ 300)) quiet S754_nan (dofZ 0) (dofZ (-1))) = dofZ 3600 /\ current (adjust (ckpt_new (dofZ 300)) quiet (dofZ 1) (dofZ 1) (dofZ (-1))) = dofZ 10.
Proof. num. Qed.

Theorem C213_interval_antitone : forall b e e' t t' s s' y y', up_to (dofZ 1000000) b -> plausible e -> plausible e' -> env_le e e' ->
  sane_factor t -> sane_factor t' -> sane_factor s -> sane_factor s' -> sane_factor y -> sane_factor y' -> fle t t' = true -> fle s s' = true -> fle y y' = true ->
  fle (current (adjust (ckpt_new b) e' t' s' y')) (current (adjust (ckpt_new b) e t s y)) = true.
Proof. intros b e e' t t' s s' y y'. apply (adjust_antitone (ckpt_new b)). Qed.
Example C213_nonvacuous : up_to (dofZ 1000000) (dofZ 300) /\ sane_factor (dofZ 1) /\ sane_factor (dofZ 2) /\ flt (current (adjust (ckpt_new (dofZ 300)) storm (dofZ 2) (dofZ 1) (dofZ 1))) (current (adjust (ckpt_new (dofZ 300)) quiet (dofZ 1) (dofZ 1) (dofZ 1))) = true.
Proof. num. Qed.

(** Layer policy *)
Theorem C214_emergency : forall p e i, (i < length (plevels p))%nat -> saa e = true \/ fgt (solar e) (dlit 7 10) = true -> get_layer_protection (optimize_policy p e) (Z.of_nat i) = HYBRID_REDUNDANCY.
Proof. intros p e i H E. rewrite get_optimized by exact H. apply need_hybrid. exact E. Qed.
Theorem C214_monotone : forall p p' e e' i j, plausible e -> plausible e' -> env_le e e' -> length (plevels p') = length (plevels p) -> Z.of_nat (length (plevels p)) < 2 ^ 31 ->
  (j <= i)%nat -> (i < length (plevels p))%nat -> up_to (dofZ 1) (nth i (psens p) S754_nan) -> up_to (dofZ 1) (nth j (psens p') S754_nan) -> fle (nth i (psens p) S754_nan) (nth j (psens p') S754_nan) = true ->
  level_le (get_layer_protection (optimize_policy p e) (Z.of_nat i)) (get_layer_protection (optimize_policy p' e') (Z.of_nat j)).
Proof. exact policy_mono. Qed.
Theorem C214_outside : forall p i, i < 0 \/ Z.of_nat (length (plevels p)) <= i -> get_layer_protection p i = BASIC_TMR.
Proof. exact get_outside. Qed.
Example C214_nonvacuous : let p := set_layer_sensitivity (policy_new 3) 1 (dlit 9 10) in
  map (get_layer_protection (optimize_policy p quiet)) [0; 1; 2; 3] = [ENHANCED_TMR; HEALTH_WEIGHTED_TMR; BASIC_TMR; BASIC_TMR] /\ up_to (dofZ 1) (nth 1 (psens p) S754_nan) /\ saa storm = true.
Proof. cbv zeta. num. Qed.

(** Mission controller *)
Theorem C215_level : forall l, glevel (ctl_run l) = in_force (rev l).
Proof. exact run_level. Qed.
Example C215_nonvacuous : glevel (ctl_run [C_enter "LAUNCH"; C_update quiet; C_set "X" STUCK_BIT_TMR; C_enter "X"; C_enter "NOWHERE"]%string) = STUCK_BIT_TMR.
Proof. reflexivity. Qed.

Theorem C216_phase_kept_refuted : glevel (ctl_run [C_enter "CRITICAL_OPERATION"%string]) = HYBRID_REDUNDANCY /\ glevel (ctl_run [C_enter "CRITICAL_OPERATION"%string; C_update quiet]) = BASIC_TMR.
Proof. split; vm_compute; reflexivity. Qed.
Theorem C216_phase_kept_partial : forall l l' k lv, configured k (rev l) = Some lv -> Forall (fun o => exists k' v, o = C_set k' v) l' -> glevel (ctl_run (l ++ C_enter k :: l')) = lv.
Proof.
  intros l l' k lv H F. rewrite run_level, rev_app_distr. cbn [rev]. rewrite <- app_assoc. cbn [app].
  assert (G : forall q r, Forall (fun o => exists k' v, o = C_set k' v) q -> in_force (q ++ r) = in_force r).
  { induction q as [|o q IH]; intros r Q; [reflexivity|]. inversion Q as [|? ? (k' & v & ->) Q']; subst. cbn [app in_force]. apply IH. exact Q'. }
  rewrite G by (apply Forall_rev; exact F). cbn [in_force]. rewrite H. reflexivity.
Qed.
Example C216_nonvacuous : configured "SAFE_MODE"%string (rev [C_update quiet]) = Some HYBRID_REDUNDANCY.
Proof. reflexivity. Qed.

Theorem C217_strategy_refuted : current_strategy (ctl_run [C_enter "LAUNCH"%string]) = UB UB_uninit.
Proof. reflexivity. Qed.
Theorem C217_strategy_partial : forall l, (exists e, In (C_update e) l) -> exists s, current_strategy (ctl_run l) = Ret s /\ level_of s = (match in_force (rev l) with NONE => BASIC_TMR | v => v end).
Proof. exact run_strategy. Qed.
Example C217_nonvacuous : exists e, In (C_update e) [C_update storm; C_enter "LAUNCH"%string].
Proof. exists storm. left. reflexivity. Qed.

(** PhysicsDrivenProtection *)
Theorem C218_phase_ignored_refuted : forall m now c, exists r, execute_protected kint (pdp_phase (pdp_new m 4 now) "SAFE_MODE") script 0 c [7; 7; 9] = Ret (r, []) /\ confidence r = dlit 67 100.
Proof. intros m now c. eexists. split; [vm_compute; reflexivity|reflexivity]. Qed.
Theorem C218_phase_ignored_partial : forall dexp dpow2 m n now l q, pdp_run dexp dpow2 (pdp_new m n now) l = Ret q ->
  exists q', pdp_run dexp dpow2 (pdp_new m n now) (without_phases l) = Ret q' /\
  forall V S (K : kind V) (f : @op V S) i c c' s, execute_protected K q f i c s = execute_protected K q' f i c' s.
Proof.
  intros dexp dpow2 m n now l q H. destruct (run_same dexp dpow2 l _ (pdp_new m n now) q (same_refl _) H) as (q' & H' & S). exists q'. split; [exact H'|]. intros. apply same_exec; [exact S|].
  exact (run_some dexp dpow2 _ _ _ (new_some m n now) H).
Qed.
Definition exp1 : sf -> sf := fun _ => dofZ 1.
Example C218_nonvacuous : exists q, pdp_run exp1 (fun x => x) (pdp_new alu 2 0) [P_phase "LAUNCH"; P_update 5000 storm (dofZ 50); P_phase "SAFE_MODE"] = Ret q.
Proof. eexists. vm_compute. reflexivity. Qed.

Definition demo_calls : list pdp_call := [P_sens 1 (dlit 9 10); P_update 5000 storm (dofZ 50)].
Definition demo_q : pdp := match pdp_run exp1 (fun x => x) (pdp_new alu 2 0) demo_calls with Ret q => q | _ => pdp_new alu 2 0 end.
Lemma demo_reached : exists q, reached exp1 (fun x => x) q /\ chosen_level q 0 = HYBRID_REDUNDANCY.
Proof.
  exists demo_q. split; [|vm_compute; reflexivity]. exists alu, 2%nat, 0, demo_calls.
  split; [repeat constructor; exact storm_plausible|]. split; [vm_compute; reflexivity|vm_compute; reflexivity].
Qed.
Lemma exp1_ok : never_negative exp1. Proof. intros x. vm_compute. reflexivity. Qed.

Theorem C219_protected_int : forall dexp dpow2 q, never_negative dexp -> reached dexp dpow2 q -> forall S (f : @op Z S) i c s r1 r2 r3 s' v, three_calls f s r1 r2 r3 s' -> two_of v r1 r2 r3 ->
  exists r, execute_protected kint q f i c s = Ret (r, s') /\ value r = v.
Proof.
  intros dexp dpow2 q N Q S f i c s r1 r2 r3 s' v T W. destruct (reached_ready dexp dpow2 q N Q) as [G D].
  destruct (exec_two kint q f i c s v r1 r2 r3 s' G per_int) as (r & Er & Ev); try (eexists; reflexivity); [intros; apply fresh_masks; assumption|exact D|apply Z.eqb_refl|exact T|exact W|].
  exists r. split; [exact Er|]. apply Z.eqb_eq. exact Ev.
Qed.
Example C219_nonvacuous : never_negative exp1 /\ (exists q, reached exp1 (fun x => x) q /\ chosen_level q 0 = HYBRID_REDUNDANCY) /\ three_calls script [7; 9; 7] 7 9 7 [] /\ two_of 7 7 9 7.
Proof. split; [exact exp1_ok|]. split; [exact demo_reached|]. split; [apply scripted|right; left; auto]. Qed.

Theorem C220_protected_float_refuted : forall m now c, execute_protected kfloat (pdp_new m 2 now) script 0 c [sofZ (-1); sofZ (-1); sofZ (-1)] = UB UB_float_to_int.
Proof. intros m now c. vm_compute. reflexivity. Qed.
Theorem C220_protected_float_partial : forall dexp dpow2 q, never_negative dexp -> reached dexp dpow2 q -> forall S (f : @op sf S) i c s r1 r2 r3 s' v,
  three_calls f s r1 r2 r3 s' -> float_up_to (2 ^ 63) r1 -> float_up_to (2 ^ 63) r2 -> float_up_to (2 ^ 63) r3 -> feqb v v = true -> two_of v r1 r2 r3 ->
  exists r, execute_protected kfloat q f i c s = Ret (r, s') /\ feqb (value r) v = true.
Proof.
  intros dexp dpow2 q N Q S f i c s r1 r2 r3 s' v T B1 B2 B3 E W. destruct (reached_ready dexp dpow2 q N Q) as [G D].
  apply (exec_two kfloat q f i c s v r1 r2 r3 s' G per_float (float_chk_in r1 B1) (float_chk_in r2 B2) (float_chk_in r3 B3)); auto. intros; apply fresh_masks; assumption.
Qed.
Example C220_nonvacuous : float_up_to (2 ^ 63) (sofZ 3) /\ float_up_to (2 ^ 63) (sofZ 4) /\ three_calls script [sofZ 3; sofZ 3; sofZ 4] (sofZ 3) (sofZ 3) (sofZ 4) [].
Proof. split; [num|]. split; [num|apply scripted]. Qed.

(** Resource allocation *)
Theorem C221_single_layer : forall dexp dpow2 m now, (forall x, a_double (dexp x)) ->
  allocated_level (alloc (pdp_new m 1 now)) 0 = HYBRID_REDUNDANCY /\
  forall p now' e stress q, pdp_update dexp dpow2 p now' e stress = Ret q -> total_res (alloc p) = dofZ 1 -> (exists s, sens p = [s] /\ a_double s) -> a_double (solar e) -> a_double (proton e) -> a_double (electron e) ->
  allocated_level (alloc q) 0 = HYBRID_REDUNDANCY.
Proof.
  intros dexp dpow2 m now V. split; [apply single_first|]. intros p now' e stress q H A (s & Es & Vs) V1 V2 V3. unfold pdp_update in H. destruct (update_scales _ _ _ _ _ _ _); cbn [obind] in H; try discriminate H. injection H as <-. cbn [alloc].
  rewrite Es. apply single_hybrid; assumption.
Qed.
Theorem C221_shares : forall dexp a sens e, plausible e -> up_to (dofZ 1000) (temperature_factor dexp (temperature e)) -> Forall (up_to (dofZ 1)) sens -> Z.of_nat (length sens) < 2 ^ 20 -> up_to (dofZ 1000000) (total_res a) ->
  forall i, (i < length sens)%nat -> let share k := nth k (shares (optimize_shares dexp a sens e)) S754_nan in
  fle (dofZ 0) (share i) = true /\ fle (share i) (total_res a) = true /\
  forall j, (j <= i)%nat -> fle (nth i sens S754_nan) (nth j sens S754_nan) = true -> fle (share i) (share j) = true.
Proof.
  intros dexp a sens e P T F N U i Hi share. pose proof (shares_R dexp a sens e P T (conj F N) U) as G. destruct (G i Hi) as (O & B & M). destruct Z0 as [O0 E0]. pose proof (up_R 1000000 _ ltac:(lia) U) as [OU _].
  split; [apply HealthFloat.fle_d; [exact O0|exact O|rewrite E0; apply B]|]. split; [apply HealthFloat.fle_d; [exact O|exact OU|apply B]|]. intros j Hj Hs. destruct (G j ltac:(lia)) as (Oj & _). apply HealthFloat.fle_d; [exact O|exact Oj|exact (M j Hj Hs)].
Qed.
Example C221_nonvacuous : up_to (dofZ 1000) (temperature_factor exp1 (temperature storm)) /\ Forall (up_to (dofZ 1)) [dlit 9 10; dlit 5 10] /\ up_to (dofZ 1000000) (dofZ 1) /\
  map (allocated_level (optimize_shares exp1 (allocator_new 2 (dofZ 1)) [dlit 9 10; dlit 5 10] storm)) [0; 1; 2] = [HEALTH_WEIGHTED_TMR; BASIC_TMR; BASIC_TMR].
Proof. split; [num|]. split; [repeat constructor; vm_compute; reflexivity|]. num. Qed.

(** ProtectedNeuralLayer *)
Theorem C222_forward : forall dexp dpow2 q, never_negative dexp -> reached dexp dpow2 q -> forall i c x l, nweights l <> [] -> nbiases l <> [] -> x <> [] -> (length (nweights l) / length x = length (nbiases l))%nat ->
  forward q i c x l = Ret (reference (nweights l) (nbiases l) x).
Proof. intros dexp dpow2 q N Q i c x l Hw Hb Hx E. destruct (reached_ready dexp dpow2 q N Q) as [G D]. apply forward_value; [exact G|exact D|]. apply forward_op_reference; assumption. Qed.
Definition l22 : nlayer := mkNl [sofZ 1; sofZ 2; sofZ (-3); sofZ 4] [sofZ 1; sofZ 0].
Example C222_nonvacuous : reference (nweights l22) (nbiases l22) [sofZ 5; sofZ 1] = [sofZ 8; sofZ 0] /\ (length (nweights l22) / length [sofZ 5; sofZ 1] = length (nbiases l22))%nat.
Proof. split; vm_compute; reflexivity. Qed.

Theorem C223_empty_input_refuted : forall m now c, forward (pdp_new m 4 now) 0 c [] l22 = UB UB_div_zero.
Proof. intros. vm_compute. reflexivity. Qed.
Theorem C223_empty_input_partial : forall dexp dpow2 q, never_negative dexp -> reached dexp dpow2 q -> forall i c x l, x <> [] -> exists v, forward q i c x l = Ret v.
Proof. intros dexp dpow2 q N Q i c x l Hx. destruct (reached_ready dexp dpow2 q N Q) as [G D]. destruct (forward_shape x l Hx) as [v E]. exists v. apply forward_value; assumption. Qed.
Example C223_nonvacuous : [sofZ 5; sofZ 1] <> []. Proof. discriminate. Qed.

Theorem C224_struck_weight_refuted : forall dexp dpow2 q, never_negative dexp -> reached dexp dpow2 q -> forall i c,
  exists l l' x v v', nbiases l' = nbiases l /\ length (nweights l') = length (nweights l) /\ nth 0 (nweights l') S754_nan = sofZ 8 /\ nth 0 (nweights l) S754_nan = sofZ 1 /\ skipn 1 (nweights l') = skipn 1 (nweights l) /\
  forward q i c x l = Ret v /\ forward q i c x l' = Ret v' /\ veq v v' = false.
Proof.
  intros dexp dpow2 q N Q i c. exists l22, (mkNl [sofZ 8; sofZ 2; sofZ (-3); sofZ 4] [sofZ 1; sofZ 0]), [sofZ 5; sofZ 1]. do 2 eexists. do 5 (split; [reflexivity|]).
  split; [apply (C222_forward dexp dpow2 q N Q); (discriminate || reflexivity)|]. split; [apply (C222_forward dexp dpow2 q N Q); (discriminate || reflexivity)|]. vm_compute. reflexivity.
Qed.
Theorem C224_struck_weight_partial : forall w w' b x i j, length w = length w' -> (forall k, (k < i * length x \/ (i + 1) * length x <= k)%nat -> nth k w S754_nan = nth k w' S754_nan) -> j <> i -> (j < length b)%nat ->
  nth j (reference w b x) S754_nan = nth j (reference w' b x) S754_nan.
Proof. exact row_indep. Qed.
Example C224_nonvacuous : let w' := [sofZ 8; sofZ 2; sofZ (-3); sofZ 4] in length (nweights l22) = length w' /\ forall k, (k < 0 * 2 \/ (0 + 1) * 2 <= k)%nat -> nth k (nweights l22) S754_nan = nth k w' S754_nan.
Proof. split; [reflexivity|]. intros [|[|k]] [H|H]; try lia. reflexivity. Qed.

Theorem C225_stores : forall dexp dpow2 q, never_negative dexp -> reached dexp dpow2 q -> forall i c l w, set_weights q i c l w = Ret (mkNl w (nbiases l)) /\ set_biases q i c l w = Ret (mkNl (nweights l) w).
Proof. intros dexp dpow2 q N Q i c l w. destruct (reached_ready dexp dpow2 q N Q) as [G D]. split; [apply set_weights_value|apply set_biases_value]; assumption. Qed.
Example C225_nonvacuous : exists q, reached exp1 (fun x => x) q /\ chosen_level q 0 = HYBRID_REDUNDANCY. Proof. exact demo_reached. Qed.

Theorem C226_delay : forall dexp dpow2 q, never_negative dexp -> reached dexp dpow2 q -> forall i c d, chosen_strategy q i c = Ret (S_hybrid d) -> exists z, fcast int32 d = Ret z /\ 50 <= z <= 2480800.
Proof.
  intros dexp dpow2 q N Q i c d H. destruct (reached_ready dexp dpow2 q N Q) as [G _]. unfold chosen_strategy in H. destruct (chosen_some q i G) as [C|[C|[C|C]]]; rewrite C in H; try discriminate H.
  injection H as <-. apply delay_between. exact (reached_scales dexp dpow2 q N Q).
Qed.
Example C226_nonvacuous : exists q c d, reached exp1 (fun x => x) q /\ chosen_strategy q 0 c = Ret (S_hybrid d).
Proof. destruct demo_reached as (q & R & C). exists q, (dofZ 1). eexists. split; [exact R|]. unfold chosen_strategy. rewrite C. reflexivity. Qed.

Theorem C227_synergy : forall t stress ys, a_double t -> a_double stress -> a_double ys -> fle (dofZ 1) (synergy_factor t stress ys) = true /\ fle (synergy_factor t stress ys) (dlit 15 10) = true.
Proof. exact synergy_R. Qed.
Example C227_nonvacuous : a_double (dofZ 400) /\ a_double S754_nan /\ synergy_factor (dofZ 400) (dofZ 200) (dofZ 276) = dlit 15 10 /\ synergy_factor S754_nan (dofZ 200) (dofZ 276) = dofZ 1.
Proof. num. Qed.

Theorem C228_emergency : forall dexp dpow2 m n now l p now' e st q i c, pdp_run dexp dpow2 (pdp_new m n now) l = Ret p -> pdp_update dexp dpow2 p now' e st = Ret q ->
  saa e = true \/ fgt (solar e) (dlit 7 10) = true -> 0 <= i < Z.of_nat n -> exists d, chosen_strategy q i c = Ret (S_hybrid d).
Proof.
  intros dexp dpow2 m n now l p now' e st q i c H U E I. eexists. eapply update_emergency; [exact U|exact E|]. rewrite (run_layers dexp dpow2 l _ _ H). cbn [pdp_new pol policy_new plevels]. rewrite repeat_length. exact I.
Qed.
Example C228_nonvacuous : exists q, pdp_update exp1 (fun x => x) (pdp_new alu 2 0) 5000 storm (dofZ 50) = Ret q /\ saa storm = true.
Proof. eexists. split; [vm_compute; reflexivity|reflexivity]. Qed.
Theorem C229_settled : forall dexp dpow2 p now e st q e' st' q', pdp_update dexp dpow2 p now e st = Ret q -> pdp_update dexp dpow2 q now e' st' = Ret q' ->
  protection_factor (scales q') = protection_factor (scales q).
Proof. intros dexp dpow2 p now e st q e' st' q' H H'. rewrite (update_still dexp dpow2 p now e st q e' st' q' H H'). reflexivity. Qed.
Definition upd (p : pdp) (e : env) : pdp := match pdp_update exp1 (fun x => x) p 5000 e (dofZ 50) with Ret q => q | _ => p end.
Example C229_nonvacuous : pdp_update exp1 (fun x => x) (pdp_new alu 2 0) 5000 quiet (dofZ 50) = Ret (upd (pdp_new alu 2 0) quiet) /\
  pdp_update exp1 (fun x => x) (upd (pdp_new alu 2 0) quiet) 5000 storm (dofZ 50) = Ret (upd (upd (pdp_new alu 2 0) quiet) storm).
Proof. split; vm_compute; reflexivity. Qed.

Print Assumptions C201_masks. Print Assumptions C201_flags. Print Assumptions C202_enhanced_int. Print Assumptions C203_flags_refuted. Print Assumptions C203_flags_partial. Print Assumptions C204_enhanced_float_refuted.
Print Assumptions C204_enhanced_float_partial. Print Assumptions C205_stuck_masks_refuted. Print Assumptions C205_stuck_masks_partial. Print Assumptions C206_no_false_alarm_refuted. Print Assumptions C206_no_false_alarm_partial.
Print Assumptions C207_all_suspicious. Print Assumptions C208_scores. Print Assumptions C208_one_of_three. Print Assumptions C209_masks_refuted. Print Assumptions C209_masks_partial. Print Assumptions C210_no_reward_refuted. Print Assumptions C210_no_reward_partial.
Print Assumptions C211_level_monotone. Print Assumptions C211_strategy. Print Assumptions C212_interval_range. Print Assumptions C213_interval_antitone. Print Assumptions C214_emergency. Print Assumptions C214_monotone. Print Assumptions C214_outside.
Print Assumptions C215_level. Print Assumptions C216_phase_kept_refuted. Print Assumptions C216_phase_kept_partial. Print Assumptions C217_strategy_refuted. Print Assumptions C217_strategy_partial. Print Assumptions C218_phase_ignored_refuted. Print Assumptions C218_phase_ignored_partial.
Print Assumptions C219_protected_int. Print Assumptions C220_protected_float_refuted. Print Assumptions C220_protected_float_partial. Print Assumptions C221_single_layer. Print Assumptions C221_shares. Print Assumptions C222_forward.
Print Assumptions C223_empty_input_refuted. Print Assumptions C223_empty_input_partial. Print Assumptions C224_struck_weight_refuted. Print Assumptions C224_struck_weight_partial. Print Assumptions C225_stores. Print Assumptions C226_delay. Print Assumptions C227_synergy.
Print Assumptions C228_emergency. Print Assumptions C229_settled.
