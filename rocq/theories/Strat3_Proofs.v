(** The controller, PhysicsDrivenProtection and the protected layer (no float arithmetic). *)
From Coq Require Import String List NArith ZArith Bool SpecFloat Lia.
Import ListNotations.
From Verif Require Import Outcome Words Floats Approx_Model Bits_Model Strat_Model Strat_Spec Strat_Proofs.
Local Open Scope Z_scope.
Local Opaque dlit dofZ dadd dsub dmul ddiv sadd smul.

(** ** MissionAwareProtectionController *)
Lemma ctl_run_snoc l o : ctl_run (l ++ [o]) = ctl_do (ctl_run l) o.
Proof. unfold ctl_run. rewrite fold_left_app. reflexivity. Qed.
Lemma built_in_find k : phase_find k (phases controller_new) = built_in k.
Proof.
  unfold controller_new, built_in. cbn [phases phase_find existsb].
  repeat match goal with |- context [String.eqb k ?s] => destruct (String.eqb_spec k s); [subst k; reflexivity|] end. reflexivity.
Qed.
Lemma run_configured k l : phase_find k (phases (ctl_run l)) = configured k (rev l).
Proof.
  induction l as [|o l IH] using rev_ind; [apply built_in_find|]. rewrite ctl_run_snoc, rev_app_distr. cbn [rev app]. destruct o as [e|k' v|k']; cbn [ctl_do configured].
  - exact IH.
  - unfold set_phase, phase_put. cbn [phases phase_find]. destruct (String.eqb k k'); [reflexivity|exact IH].
  - unfold enter_phase. destruct (phase_find k' (phases (ctl_run l))); exact IH.
Qed.
Lemma run_level l : glevel (ctl_run l) = in_force (rev l).
Proof.
  induction l as [|o l IH] using rev_ind; [reflexivity|]. rewrite ctl_run_snoc, rev_app_distr. cbn [rev app]. destruct o as [e|k v|k]; cbn [ctl_do in_force]; [reflexivity|exact IH|].
  unfold enter_phase. rewrite run_configured. destruct (configured k (rev l)); [reflexivity|exact IH].
Qed.
Lemma run_env l : (exists e, In (C_update e) l) -> exists e, cenv (ctl_run l) = Some e.
Proof.
  induction l as [|o l IH] using rev_ind; intros [e H]; [destruct H|]. rewrite ctl_run_snoc. destruct o as [e'|k v|k]; cbn [ctl_do].
  - exists e'. reflexivity.
  - apply IH. exists e. apply in_app_or in H. destruct H as [H|[H|[]]]; [exact H|discriminate].
  - unfold enter_phase. assert (I : exists e, In (C_update e) l) by (exists e; apply in_app_or in H; destruct H as [H|[H|[]]]; [exact H|discriminate]).
    destruct (phase_find k (phases (ctl_run l))); exact (IH I).
Qed.
Lemma run_strategy l : (exists e, In (C_update e) l) -> exists s, current_strategy (ctl_run l) = Ret s /\ level_of s = (match in_force (rev l) with NONE => BASIC_TMR | v => v end).
Proof.
  intros H. destruct (run_env l H) as [e E]. rewrite <- run_level. unfold current_strategy. rewrite E. destruct (glevel (ctl_run l)); eexists; (split; [reflexivity|reflexivity]).
Qed.

(** ** PhysicsDrivenProtection *)
Section PDP.
Variables (dexp dpow2 : sf -> sf).
Definition policy_some (p : policy) : Prop := Forall (fun l => l = BASIC_TMR \/ l = ENHANCED_TMR \/ l = HEALTH_WEIGHTED_TMR \/ l = HYBRID_REDUNDANCY) (plevels p).
Lemma need_level_some e n : let l := need_level e n in l = BASIC_TMR \/ l = ENHANCED_TMR \/ l = HEALTH_WEIGHTED_TMR \/ l = HYBRID_REDUNDANCY.
Proof. unfold need_level. repeat match goal with |- context [if ?b then _ else _] => destruct b end; auto. Qed.
Lemma optimize_some p e : policy_some (optimize_policy p e).
Proof. unfold policy_some, optimize_policy. cbn [plevels]. apply Forall_forall. intros l H. apply in_map_iff in H. destruct H as (i & <- & _). apply need_level_some. Qed.
Lemma do_some p o q : policy_some (pol p) -> pdp_do dexp dpow2 p o = Ret q -> policy_some (pol q).
Proof.
  destruct o as [i s|k|now e st]; cbn [pdp_do]; intros G H.
  - injection H as <-. unfold pdp_sensitivity. destruct (_ && _); exact G.
  - injection H as <-. exact G.
  - unfold pdp_update in H. destruct (update_scales _ _ _ _ _ _ _); cbn [obind] in H; try discriminate. injection H as <-. apply optimize_some.
Qed.
Lemma run_some : forall l p q, policy_some (pol p) -> pdp_run dexp dpow2 p l = Ret q -> policy_some (pol q).
Proof.
  induction l as [|o l IH]; intros p q G H; cbn [pdp_run] in H; [injection H as <-; exact G|].
  destruct (pdp_do dexp dpow2 p o) as [p'| | |] eqn:E; try discriminate. exact (IH _ _ (do_some _ _ _ G E) H).
Qed.
Lemma new_some m n now : policy_some (pol (pdp_new m n now)).
Proof. unfold policy_some, pdp_new. cbn [pol plevels policy_new]. apply Forall_forall. intros l H. apply repeat_spec in H. auto. Qed.
Lemma layer_some p i : policy_some p -> let l := get_layer_protection p i in l = BASIC_TMR \/ l = ENHANCED_TMR \/ l = HEALTH_WEIGHTED_TMR \/ l = HYBRID_REDUNDANCY.
Proof.
  intros G. unfold get_layer_protection, get_nth. destruct (_ && _) eqn:E; [|auto]. unfold policy_some in G. rewrite Forall_forall in G. apply G. apply nth_In.
  rewrite andb_true_iff, Z.leb_le, Z.ltb_lt in E. lia.
Qed.
Lemma share_some x : let l := share_level x in l = BASIC_TMR \/ l = ENHANCED_TMR \/ l = HEALTH_WEIGHTED_TMR \/ l = HYBRID_REDUNDANCY.
Proof. unfold share_level. repeat match goal with |- context [if ?b then _ else _] => destruct b end; auto. Qed.
Lemma alloc_some a i : let l := allocated_level a i in l = BASIC_TMR \/ l = ENHANCED_TMR \/ l = HEALTH_WEIGHTED_TMR \/ l = HYBRID_REDUNDANCY.
Proof. unfold allocated_level. destruct (_ || _); [auto|apply share_some]. Qed.
Lemma chosen_some p i : policy_some (pol p) -> let l := chosen_level p i in l = BASIC_TMR \/ l = ENHANCED_TMR \/ l = HEALTH_WEIGHTED_TMR \/ l = HYBRID_REDUNDANCY.
Proof. intros G. unfold chosen_level. destruct (_ <? _); [apply alloc_some|apply layer_some; exact G]. Qed.
(** equal except for the controller *)
Definition same_but (p q : pdp) : Prop := mat p = mat q /\ pol p = pol q /\ ck p = ck q /\ alloc p = alloc q /\ scales p = scales q /\ sens p = sens q.
Lemma do_same p q o p' : is_phase o = false -> same_but p q -> pdp_do dexp dpow2 p o = Ret p' -> exists q', pdp_do dexp dpow2 q o = Ret q' /\ same_but p' q'.
Proof.
  intros P (E1 & E2 & E3 & E4 & E5 & E6). destruct o as [i s|k|now e st]; cbn [pdp_do is_phase] in *; try discriminate; intros H.
  - injection H as <-. eexists. split; [reflexivity|]. unfold pdp_sensitivity. rewrite E6. destruct (_ && _); unfold same_but; cbn [mat pol ck alloc scales sens]; rewrite ?E1, ?E2, ?E3, ?E4, ?E5, ?E6; repeat (split; [reflexivity|]); reflexivity.
  - unfold pdp_update in *. rewrite <- E1, <- E5, <- E2, <- E3, <- E4, <- E6. destruct (update_scales _ _ _ _ _ _ _); cbn [obind] in *; try discriminate. injection H as <-. eexists. split; [reflexivity|]. unfold same_but; cbn [mat pol ck alloc scales sens]. auto 10.
Qed.
Lemma run_same : forall l p q p', same_but p q -> pdp_run dexp dpow2 p l = Ret p' -> exists q', pdp_run dexp dpow2 q (without_phases l) = Ret q' /\ same_but p' q'.
Proof.
  induction l as [|o l IH]; intros p q p' S H; cbn [pdp_run without_phases filter] in *; [injection H as <-; eauto|].
  destruct (pdp_do dexp dpow2 p o) as [p1| | |] eqn:E; try discriminate. destruct (is_phase o) eqn:P; cbn [negb].
  - destruct o as [i s|k|now e st]; try discriminate. cbn [pdp_do] in E. injection E as <-. exact (IH (pdp_phase p k) q p' S H).
  - destruct (do_same p q o p1 P S E) as (q1 & E' & S'). cbn [pdp_run]. rewrite E'. exact (IH p1 q1 p' S' H).
Qed.
Lemma same_exec p q : same_but p q -> policy_some (pol p) -> forall V S (K : kind V) (f : @op V S) i c c' s, execute_protected K p f i c s = execute_protected K q f i c' s.
Proof.
  intros (E1 & E2 & E3 & E4 & E5 & E6) G V S K f i c c' s. unfold execute_protected, chosen_strategy. assert (C : chosen_level p i = chosen_level q i) by (unfold chosen_level; rewrite E2, E4; reflexivity).
  rewrite <- C, E5. destruct (chosen_some p i G) as [Q|[Q|[Q|Q]]]; rewrite Q; reflexivity.
Qed.
Lemma same_refl p : same_but p p. Proof. repeat split; reflexivity. Qed.

(** a deterministic, side-effect free operation *)
Lemma exec_pure {V S} (K : kind V) p (f : @op V S) i c s v s' : policy_some (pol p) -> (exists k, chk K v = Ret k) -> delay_ok (dmul (dofZ 50) (protection_factor (scales p))) ->
  f s = Ret (v, s') -> f s' = Ret (v, s') -> exists r, execute_protected K p f i c s = Ret (r, s') /\ value r = v.
Proof.
  intros G [k Ck] D E1 E2. assert (T : three_calls f s v v v s') by (exists s', s'; auto). unfold execute_protected, chosen_strategy.
  destruct (chosen_some p i G) as [Q|[Q|[Q|Q]]]; rewrite Q; cbn [obind].
  - rewrite (exec_basic K f s v v v s' T). cbn [obind fst]. eexists. split; [reflexivity|]. destruct (plain_flags K (dlit 67 100) v v v) as (_ & _ & _ & [H|H]); exact H.
  - rewrite (exec_enhanced K f s v v v s' T). unfold enhanced_vote. rewrite Ck. cbn [obind fst]. eexists. split; [reflexivity|]. rewrite Z.eqb_refl. destruct (eqv K v v); reflexivity.
  - rewrite (exec_health K f s v v v s' fresh T). cbn [obind fst]. eexists. split; [reflexivity|]. unfold health_vote, healthiest. repeat match goal with |- context [if ?b then _ else _] => destruct b end; reflexivity.
  - rewrite (exec_hybrid K f s v v v s' _ D T). cbn [obind fst]. eexists. split; [reflexivity|]. destruct (plain_flags K (dlit 8 10) v v v) as (_ & _ & _ & [H|H]); exact H.
Qed.
(** two of three executions right *)
Lemma exec_two {V S} (K : kind V) p (f : @op V S) i c s v r1 r2 r3 s' : policy_some (pol p) -> per K -> (exists k, chk K r1 = Ret k) -> (exists k, chk K r2 = Ret k) -> (exists k, chk K r3 = Ret k) ->
  (forall h r1 r2 r3 v, h = fresh -> per K -> self_equal K v -> two_of v r1 r2 r3 -> eqv K (value (fst (health_vote K h r1 r2 r3))) v = true) ->
  delay_ok (dmul (dofZ 50) (protection_factor (scales p))) -> self_equal K v -> three_calls f s r1 r2 r3 s' -> two_of v r1 r2 r3 ->
  exists r, execute_protected K p f i c s = Ret (r, s') /\ eqv K (value r) v = true.
Proof.
  intros G P [k1 C1] [k2 C2] [k3 C3] HV D E T W. unfold execute_protected, chosen_strategy.
  destruct (chosen_some p i G) as [Q|[Q|[Q|Q]]]; rewrite Q; cbn [obind].
  - rewrite (exec_basic K f s _ _ _ s' T). cbn [obind fst]. eexists. split; [reflexivity|]. apply plain_value; assumption.
  - rewrite (exec_enhanced K f s _ _ _ s' T). destruct (enhanced_value K v r1 r2 r3 k1 k2 k3 C1 C2 C3 E W) as (r & Er & Ev). rewrite Er. cbn [obind fst]. eauto.
  - rewrite (exec_health K f s _ _ _ s' fresh T). cbn [obind fst]. eexists. split; [reflexivity|]. apply HV; auto.
  - rewrite (exec_hybrid K f s _ _ _ s' _ D T). cbn [obind fst]. eexists. split; [reflexivity|]. apply plain_value; assumption.
Qed.

(** ** ProtectedNeuralLayer *)
Lemma rows_nth : forall n m w i, (i < n)%nat -> nth i (rows n m w) [] = firstn m (skipn (i * m) w).
Proof.
  induction n as [|n IH]; intros m w i H; [lia|]. cbn [rows]. destruct i as [|i]; [reflexivity|]. cbn [nth]. rewrite IH by lia. f_equal. rewrite Nat.mul_succ_l, Nat.add_comm.
  generalize (i * m)%nat as q. clear. revert w. induction m as [|m IH]; intros w q; [reflexivity|]. destruct w as [|x w]; [rewrite !skipn_nil; reflexivity|]. cbn [skipn plus]. apply IH.
Qed.
Lemma rows_length n m w : length (rows n m w) = n.
Proof. revert w. induction n as [|n IH]; intros w; cbn [rows length]; [reflexivity|]. rewrite IH. reflexivity. Qed.
Lemma forward_op_reference x l : nweights l <> [] -> nbiases l <> [] -> x <> [] -> (length (nweights l) / length x = length (nbiases l))%nat ->
  forward_op x l = Ret (reference (nweights l) (nbiases l) x).
Proof.
  intros Hw Hb Hx E. unfold forward_op.
  assert (L : forall (y : list sf), y <> [] -> Nat.eqb (length y) 0 = false) by (intros [|a y] N; [congruence|reflexivity]).
  rewrite (L _ Hw), (L _ Hb), (L _ Hx). cbn [orb]. cbv zeta. rewrite E, (L _ Hb), Nat.eqb_refl. cbn [orb negb]. f_equal. unfold reference.
  apply nth_ext with (d := S754_nan) (d' := S754_nan); [rewrite !map_length, seq_length, combine_length, rows_length; lia|].
  intros i Hi. rewrite map_length, seq_length in Hi.
  rewrite (nth_indep _ S754_nan ((fun i => neuron (firstn (length x) (skipn (i * length x) (nweights l))) (nth i (nbiases l) S754_nan) x) 0%nat)) by (rewrite map_length, seq_length; exact Hi).
  rewrite map_nth with (f := fun i => neuron (firstn (length x) (skipn (i * length x) (nweights l))) (nth i (nbiases l) S754_nan) x). rewrite seq_nth by exact Hi.
  rewrite (nth_indep (map (fun q => row_result (fst q) (snd q) x) _) S754_nan ((fun q : list sf * sf => row_result (fst q) (snd q) x) ([], S754_nan))) by (rewrite map_length, combine_length, rows_length; lia).
  rewrite map_nth with (f := fun q : list sf * sf => row_result (fst q) (snd q) x). rewrite combine_nth by apply rows_length. cbn [fst snd]. rewrite rows_nth by exact Hi. cbn [plus]. reflexivity.
Qed.
Lemma forward_value p i c x l v : policy_some (pol p) -> delay_ok (dmul (dofZ 50) (protection_factor (scales p))) -> forward_op x l = Ret v -> forward p i c x l = Ret v.
Proof.
  intros G D E. unfold forward. destruct (exec_pure kvec p (fun l => obind (forward_op x l) (fun v => Ret (v, l))) i c l v l G) as (r & Er & <-); [eexists; reflexivity|exact D| | |rewrite Er; reflexivity]; rewrite E; reflexivity.
Qed.
Lemma set_weights_value p i c l w : policy_some (pol p) -> delay_ok (dmul (dofZ 50) (protection_factor (scales p))) -> set_weights p i c l w = Ret (mkNl w (nbiases l)).
Proof.
  intros G D. unfold set_weights. destruct (exec_pure kbool p (fun l => Ret (true, mkNl w (nbiases l))) i c l true (mkNl w (nbiases l)) G) as (r & Er & _); [eexists; reflexivity|exact D|reflexivity|reflexivity|]. rewrite Er. reflexivity.
Qed.
Lemma set_biases_value p i c l b : policy_some (pol p) -> delay_ok (dmul (dofZ 50) (protection_factor (scales p))) -> set_biases p i c l b = Ret (mkNl (nweights l) b).
Proof.
  intros G D. unfold set_biases. destruct (exec_pure kbool p (fun l => Ret (true, mkNl (nweights l) b)) i c l true (mkNl (nweights l) b) G) as (r & Er & _); [eexists; reflexivity|exact D|reflexivity|reflexivity|]. rewrite Er. reflexivity.
Qed.
End PDP.
