(** Properties C109-C116: PowerAwareProtection.  Every theorem is for every order std::sort may give equal criticalities. *)
From Coq Require Import List NArith ZArith Bool SpecFloat Reals Permutation Lra Lia.
Import ListNotations.
From Flocq Require Import Core.
From Flocq.IEEE754 Require Import BinarySingleNaN.
From Verif Require Import Outcome Words Arith Floats FloatsR HealthFloat RMA3_Proofs Power_Model Power_Spec Power_Proofs Power2_Proofs Power3_Proofs Power4_Proofs Power5_Proofs Power6_Proofs.
Local Open Scope R_scope.

(** C109: where the minimum powers fit the budget (up to rounding); below the minimum otherwise, by half for components of
    criticality up to 0.7 *)
Theorem C109_levels_in_range_partial : forall ord, any_sort ord -> forall w st0 ops t s ks, pap_run ord ops (pap_new w st0) = Ret (t, s) ->
  sensible_watts w -> all_sensible t -> present t ks -> min_watts t ks <= R (pap_budget s) * (1 - count ks * ulp52) ->
  forall k c, described t k = Some c -> exists x, pap_level k s = Some x /\ okd x /\ R (cmin c) <= R x <= R (cmax c).
Proof. intros ord [P _]. exact (levels_normal ord P). Qed.
Print Assumptions C109_levels_in_range_partial.
Theorem C109_levels_emergency_partial : forall ord, any_sort ord -> forall w st0 ops t s ks, pap_run ord ops (pap_new w st0) = Ret (t, s) ->
  sensible_watts w -> all_sensible t -> present t ks -> min_watts t ks > R (pap_budget s) * (1 + count ks * ulp52) ->
  forall k c, described t k = Some c -> pap_level k s = Some (if fgt (ccrit c) (dlit 7 10) then cmin c else dmul (cmin c) (dlit 5 10)).
Proof. intros ord [P _]. exact (levels_emergency ord P). Qed.
Print Assumptions C109_levels_emergency_partial.
Theorem C109_levels_always_partial : forall ord, any_sort ord -> forall w st0 ops t s ks, pap_run ord ops (pap_new w st0) = Ret (t, s) ->
  sensible_watts w -> all_sensible t -> present t ks ->
  forall k c, described t k = Some c -> exists x, pap_level k s = Some x /\
  ((okd x /\ R (cmin c) <= R x <= R (cmax c)) \/ (fgt (ccrit c) (dlit 7 10) = false /\ x = dmul (cmin c) (dlit 5 10))).
Proof. intros ord [P _]. exact (levels_any ord P). Qed.
Print Assumptions C109_levels_always_partial.
Theorem C109_minimum_refuted : forall ord, any_sort ord -> exists t s x, pap_run ord [ORegister below] (pap_new (dofZ 1) PEAK) = Ret (t, s) /\ all_sensible t /\
  described t 0 = Some below /\ pap_level 0 s = Some x /\ R x < R (cmin below) /\ flt (effectiveness s) (dofZ 0) = true.
Proof. exact below_minimum. Qed.
Print Assumptions C109_minimum_refuted.
(* a history that meets the hypotheses: two components, one described anew, a change of state and back *)
Definition story := [ORegister first_comp; ORegister second_comp; ORegister below; OState LOW_POWER; OUpdate 1 quarter; ORemove 2].
Lemma story_run : exists t s, pap_run ord_ins story (pap_new (dofZ 10) PEAK) = Ret (t, s) /\ sensible_watts (dofZ 10) /\ all_sensible t /\ present t [0; 1]%Z /\
  min_watts t [0; 1]%Z = 2 /\ pap_budget s = dofZ 4 /\ min_watts t [0; 1]%Z <= R (pap_budget s) * (1 - count [0; 1]%Z * ulp52) /\
  pap_level 0 s = Some (cmin first_comp) /\ pap_level 2 s = None.
Proof.
  eexists _, _. split; [vm_compute; reflexivity|]. split; [split; [apply okb_ok; vm_compute; reflexivity|rewrite (proj2 (ofZ_ex 10 ltac:(reflexivity))); lra]|].
  match goal with |- context [all_sensible ?u] => assert (D : forall k, described u k = if (k =? 2)%Z then None else if (k =? 1)%Z then Some quarter else if (k =? 2)%Z then Some below else if (k =? 1)%Z then Some second_comp
    else if (k =? 0)%Z then Some first_comp else None) by (intros k; unfold described; cbn [fold_left desc_step]; reflexivity) end.
  split; [|split; [|split]].
  - intros k c E. rewrite D in E. destruct (k =? 2)%Z; [discriminate|]. destruct (k =? 1)%Z; [injection E as <-; apply sensible_b_ok; vm_compute; reflexivity|].
    destruct (k =? 0)%Z; [injection E as <-; apply sensible_b_ok; vm_compute; reflexivity|discriminate].
  - split; [constructor; [cbn; intros [X|[]]; discriminate|constructor; [intros []|constructor]]|]. intros k. rewrite D. cbn [In].
    destruct (Z.eqb_spec k 2) as [->|N2]; [split; [intros [X|[X|[]]]; discriminate|congruence]|].
    destruct (Z.eqb_spec k 1) as [->|N1]; [split; [congruence|tauto]|].
    destruct (Z.eqb_spec k 0) as [->|N0]; [split; [congruence|tauto]|]. split; [intros [X|[X|[]]]; congruence|congruence].
  - unfold min_watts, described. cbn. unfold R, SF2R, Defs.F2R. simpl. lra.
  - split; [vm_compute; reflexivity|]. split; [|repeat split; vm_compute; reflexivity].
    replace (pap_budget _) with (dofZ 4) by (vm_compute; reflexivity). rewrite (proj2 (ofZ_ex 4 ltac:(reflexivity))).
    unfold count, ulp52, min_watts, described. cbn. unfold R, SF2R, Defs.F2R. simpl. lra.
Qed.
Example C109_nonvacuous : any_sort ord_ins /\ exists t s, pap_run ord_ins story (pap_new (dofZ 10) PEAK) = Ret (t, s) /\ sensible_watts (dofZ 10) /\ all_sensible t /\ present t [0; 1]%Z /\
  min_watts t [0; 1]%Z <= R (pap_budget s) * (1 - count [0; 1]%Z * ulp52).
Proof. split; [apply ord_ins_sorts|]. destruct story_run as (t & s & A & B & C & D & _ & _ & E & _). exists t, s. auto. Qed.

(** C110: up to rounding, where the minimum powers fit the budget *)
Theorem C110_within_budget_partial : forall ord, any_sort ord -> forall w st0 ops t s ks, pap_run ord ops (pap_new w st0) = Ret (t, s) ->
  sensible_watts w -> all_sensible t -> present t ks -> min_watts t ks <= R (pap_budget s) * (1 - count ks * ulp52) ->
  okd (pap_usage s) /\ R (pap_usage s) <= R (pap_budget s) * (1 + (3 * count ks + 152) * ulp52).
Proof. intros ord [P _]. exact (usage_normal ord P). Qed.
Print Assumptions C110_within_budget_partial.
Theorem C110_exactly_refuted : forall ord, any_sort ord -> exists t s, pap_run ord [ORegister tight] (pap_new (dlit 1 10) PEAK) = Ret (t, s) /\ all_sensible t /\
  min_watts t [0%Z] = 0 /\ okd (pap_usage s) /\ R (pap_budget s) < R (pap_usage s).
Proof. exact over_budget_rounding. Qed.
Print Assumptions C110_exactly_refuted.
Theorem C110_emergency_refuted : forall ord, any_sort ord ->
  (exists t s, pap_run ord [ORegister vital] (pap_new (dofZ 1) PEAK) = Ret (t, s) /\ all_sensible t /\ pap_usage s = dofZ 10 /\ pap_budget s = dofZ 1) /\
  (exists t s, pap_run ord [ORegister narrow] (pap_new (dofZ 1) PEAK) = Ret (t, s) /\ all_sensible t /\ okd (pap_usage s) /\ R (pap_usage s) < -29).
Proof. exact over_budget_emergency. Qed.
Print Assumptions C110_emergency_refuted.
Example C110_nonvacuous : exists t s, pap_run ord_ins story (pap_new (dofZ 10) PEAK) = Ret (t, s) /\ all_sensible t /\ min_watts t [0; 1]%Z = 2 /\ pap_budget s = dofZ 4.
Proof. destruct story_run as (t & s & A & B & C & D & E & F & _). exists t, s. auto. Qed.

(** C111 *)
Theorem C111_history_independent : forall ord, any_sort ord -> forall w st1 st2 l1 t1 s1 l2 t2 s2,
  pap_run ord l1 (pap_new w st1) = Ret (t1, s1) -> pap_run ord l2 (pap_new w st2) = Ret (t2, s2) ->
  mode st1 t1 = mode st2 t2 -> (forall k, same_desc (described t1 k) (described t2 k)) ->
  (forall k, pap_level k s1 = pap_level k s2) /\ pap_usage s1 = pap_usage s2 /\ effectiveness s1 = effectiveness s2 /\ pap_budget s1 = pap_budget s2.
Proof. intros ord [P _]. exact (history_free ord P). Qed.
Print Assumptions C111_history_independent.
(* two routes to the same situation *)
Example C111_nonvacuous : exists t1 s1 t2 s2,
  pap_run ord_ins [ORegister below; OState LOW_POWER; OUpdate 0 first_comp; ORegister second_comp] (pap_new (dofZ 10) PEAK) = Ret (t1, s1) /\
  pap_run ord_ins [ORegister first_comp; OState EMERGENCY; ORegister below; OUpdate 1 (with_level second_comp S754_nan); OState PEAK; OState LOW_POWER] (pap_new (dofZ 10) NOMINAL) = Ret (t2, s2) /\
  mode PEAK t1 = mode NOMINAL t2 /\ (forall k, same_desc (described t1 k) (described t2 k)) /\ described t1 0%Z <> described t1 1%Z.
Proof.
  eexists _, _, _, _. split; [vm_compute; reflexivity|]. split; [vm_compute; reflexivity|]. split; [reflexivity|]. split; [|vm_compute; congruence].
  intros k. unfold described. cbn [fold_left desc_step]. destruct (k =? 1)%Z, (k =? 0)%Z; cbn [same_desc]; auto 10.
Qed.

(** C112 *)
Theorem C112_bookkeeping : forall ord, any_sort ord -> forall w st0 ops t s, pap_run ord ops (pap_new w st0) = Ret (t, s) ->
  (exists n, ids_given t = map Z.of_nat (seq 0 n)) /\
  (forall k, (exists x, pap_level k s = Some x) <-> described t k <> None) /\
  (forall o x s', pap_do ord o s = Ret (x, s') ->
     match o with
     | ORegister _ => exists i, x = RId i /\ ~ In i (ids_given t)
     | OUpdate k _ | ORemove k => (x = RBool true <-> described t k <> None) /\ (x = RBool false <-> described t k = None)
     | OState _ => x = RUnit
     end).
Proof. intros ord [P _]. exact (bookkeeping ord P). Qed.
Print Assumptions C112_bookkeeping.
Theorem C112_total : forall ord w st0 ops t s o, pap_run ord ops (pap_new w st0) = Ret (t, s) -> any_sort ord -> all_sensible t ->
  (forall c, o = ORegister c \/ (exists k, o = OUpdate k c) -> sensible c) -> (Z.of_nat (length (ids_given t)) < 2 ^ 31 - 1)%Z ->
  exists x s', pap_do ord o s = Ret (x, s').
Proof. exact total. Qed.
Print Assumptions C112_total.
Example C112_nonvacuous : exists t s, pap_run ord_ins story (pap_new (dofZ 10) PEAK) = Ret (t, s) /\ ids_given t = [0; 1; 2]%Z /\
  described t 2 = None /\ described t 1 = Some quarter /\ (exists s', pap_do ord_ins (ORemove 2) s = Ret (RBool false, s')) /\ exists s', pap_do ord_ins (ORegister idle) s = Ret (RId 3, s').
Proof.
  eexists _, _. split; [vm_compute; reflexivity|]. split; [vm_compute; reflexivity|]. split; [vm_compute; reflexivity|]. split; [vm_compute; reflexivity|].
  split; eexists; vm_compute; reflexivity.
Qed.

(** C113: refuted in emergency mode (below zero) and for a component with min = max (NaN) *)
Theorem C113_score_in_unit_interval_partial : forall ord, any_sort ord -> forall w st0 ops t s ks, pap_run ord ops (pap_new w st0) = Ret (t, s) ->
  sensible_watts w -> all_sensible t -> present t ks -> min_watts t ks <= R (pap_budget s) * (1 - count ks * ulp52) ->
  okd (effectiveness s) /\ 0 <= R (effectiveness s) <= 1.
Proof. intros ord [P _]. exact (effectiveness_normal ord P). Qed.
Print Assumptions C113_score_in_unit_interval_partial.
Theorem C113_below_zero_refuted : forall ord, any_sort ord -> exists t s x, pap_run ord [ORegister below] (pap_new (dofZ 1) PEAK) = Ret (t, s) /\ all_sensible t /\
  described t 0 = Some below /\ pap_level 0 s = Some x /\ R x < R (cmin below) /\ flt (effectiveness s) (dofZ 0) = true.
Proof. exact below_minimum. Qed.
Print Assumptions C113_below_zero_refuted.
Theorem C113_not_a_number_refuted : forall ord, any_sort ord -> exists t s, pap_run ord [ORegister fixed_level] (pap_new (dofZ 100) PEAK) = Ret (t, s) /\
  pap_usage s = S754_nan /\ effectiveness s = S754_nan.
Proof. exact fixed_level_nan. Qed.
Print Assumptions C113_not_a_number_refuted.
Example C113_nonvacuous : exists t s, pap_run ord_ins story (pap_new (dofZ 10) PEAK) = Ret (t, s) /\ flt (dlit 4 10) (effectiveness s) = true /\ flt (effectiveness s) (dlit 6 10) = true.
Proof. eexists _, _. split; [vm_compute; reflexivity|]. split; vm_compute; reflexivity. Qed.

(** C114: for one component, up to 2^-40; refuted exactly, for a second component, and for criticality 0 *)
Theorem C114_alone_near_max_partial : forall ord, any_sort ord -> forall w st0 ops t s k c, pap_run ord ops (pap_new w st0) = Ret (t, s) ->
  sensible_watts w -> present t [k] -> described t k = Some c -> sensible c ->
  (R (cmax c) - R (cmin c) >= / 1048576 /\ R (ccrit c) >= / 1048576 /\ 0 < R (cpmin c)) -> R (cpmax c) <= R (pap_budget s) * (1 - / 1099511627776) ->
  exists x, pap_level k s = Some x /\ R (cmax c) - / 1099511627776 <= R x <= R (cmax c).
Proof. intros ord [P _]. exact (alone ord P). Qed.
Print Assumptions C114_alone_near_max_partial.
Theorem C114_exact_maximum_refuted : forall ord, any_sort ord -> exists t s x, pap_run ord [ORegister quarter] (pap_new (dofZ 1000) PEAK) = Ret (t, s) /\ all_sensible t /\
  pap_level 0 s = Some x /\ R x < R (cmax quarter).
Proof. exact short_of_max. Qed.
Print Assumptions C114_exact_maximum_refuted.
Theorem C114_second_gets_nothing_refuted : forall ord, any_sort ord -> exists t s,
  pap_run ord [ORegister first_comp; ORegister second_comp] (pap_new (dofZ 1000) PEAK) = Ret (t, s) /\ all_sensible t /\
  pap_level 1 s = Some (cmin second_comp) /\ R (pap_usage s) < 4 /\ pap_budget s = dofZ 1000.
Proof. exact second_gets_nothing. Qed.
Print Assumptions C114_second_gets_nothing_refuted.
Theorem C114_criticality_zero_refuted : forall ord, any_sort ord -> exists t s, pap_run ord [ORegister idle] (pap_new (dofZ 1000) PEAK) = Ret (t, s) /\ all_sensible t /\ pap_level 0 s = Some (cmin idle).
Proof. exact idle_not_raised. Qed.
Print Assumptions C114_criticality_zero_refuted.
Example C114_nonvacuous : exists t s, pap_run ord_ins [ORegister quarter] (pap_new (dofZ 1000) PEAK) = Ret (t, s) /\ present t [0%Z] /\ described t 0 = Some quarter /\ sensible quarter /\
  (R (cmax quarter) - R (cmin quarter) >= / 1048576 /\ R (ccrit quarter) >= / 1048576 /\ 0 < R (cpmin quarter)) /\ R (cpmax quarter) <= R (pap_budget s) * (1 - / 1099511627776).
Proof.
  eexists _, _. split; [vm_compute; reflexivity|]. split; [apply (present_one 0%Z quarter); intros j; reflexivity|]. split; [reflexivity|]. split; [apply sensible_b_ok; vm_compute; reflexivity|].
  replace quarter with (mkC (dlit 1 4) (dofZ 1) (dofZ 0) (dofZ 1) (dofZ 2) (dofZ 1)) by (vm_compute; reflexivity). cbn [cmin cmax cpmin cpmax ccrit pap_budget watts pst state_budget].
  replace (dlit 1 4) with (S754_finite false 4503599627370496 (-54)) by (vm_compute; reflexivity).
  rewrite (proj2 (ofZ_ex 1 ltac:(reflexivity))), (proj2 (ofZ_ex 2 ltac:(reflexivity))).
  match goal with |- context [R ?b * (1 - / 1099511627776)] => replace b with (dofZ 1000) by (vm_compute; reflexivity) end.
  rewrite (proj2 (ofZ_ex 1000 ltac:(reflexivity))). unfold R, SF2R, Defs.F2R. simpl. lra.
Qed.

(** C115 *)
Theorem C115_budgets_ordered : forall w, okd w -> 0 <= R w ->
  let b st := pap_budget (pap_new w st) in
  (forall st, okd (b st)) /\
  0 <= R (b EMERGENCY) <= R (b LOW_POWER) /\ R (b LOW_POWER) <= R (b NOMINAL) /\ R (b NOMINAL) <= R (b SCIENCE) /\ R (b SCIENCE) <= R (b PEAK) /\ b PEAK = w.
Proof. exact budgets_ordered. Qed.
Print Assumptions C115_budgets_ordered.
Theorem C115_budget_of_state : forall ord, any_sort ord -> forall w st0 ops t s, pap_run ord ops (pap_new w st0) = Ret (t, s) -> pap_budget s = pap_budget (pap_new w (mode st0 t)).
Proof. exact budget_hist. Qed.
Print Assumptions C115_budget_of_state.
Example C115_nonvacuous : okd (dofZ 10) /\ 0 <= R (dofZ 10) /\ pap_budget (pap_new (dofZ 10) EMERGENCY) = dofZ 2 /\ pap_budget (pap_new (dofZ 10) LOW_POWER) = dofZ 4 /\
  pap_budget (pap_new (dofZ 10) NOMINAL) = dofZ 7 /\ pap_budget (pap_new (dofZ 10) SCIENCE) = dofZ 9.
Proof. split; [apply okb_ok; vm_compute; reflexivity|]. split; [rewrite (proj2 (ofZ_ex 10 ltac:(reflexivity))); lra|]. repeat split; vm_compute; reflexivity. Qed.

(** C116 *)
Theorem C116_criticality_first : forall ord, any_sort ord -> forall w st0 ops t s i j a b, pap_run ord ops (pap_new w st0) = Ret (t, s) -> all_sensible t ->
  described t i = Some a -> described t j = Some b ->
  cmin a = cmin b -> cmax a = cmax b -> cpmin a = cpmin b -> cpmax a = cpmax b -> R (ccrit b) < R (ccrit a) ->
  exists x y, pap_level i s = Some x /\ pap_level j s = Some y /\ R y <= R x.
Proof. exact priority. Qed.
Print Assumptions C116_criticality_first.
(* the less critical one was there first *)
Example C116_nonvacuous : exists t s, pap_run ord_ins [ORegister second_comp; ORegister first_comp] (pap_new (dofZ 5) LOW_POWER) = Ret (t, s) /\ all_sensible t /\
  described t 1 = Some first_comp /\ described t 0 = Some second_comp /\ R (ccrit second_comp) < R (ccrit first_comp) /\ pap_level 0 s = Some (cmin second_comp).
Proof.
  eexists _, _. split; [vm_compute; reflexivity|]. split.
  - intros k c E0. cbn [described fold_left desc_step] in E0. destruct (k =? 1)%Z; [injection E0 as <-|destruct (k =? 0)%Z; [injection E0 as <-|discriminate]]; apply sensible_b_ok; vm_compute; reflexivity.
  - split; [reflexivity|]. split; [reflexivity|]. split; [|vm_compute; reflexivity]. apply flt_d; [apply okb_ok; vm_compute; reflexivity..|vm_compute; reflexivity].
Qed.
