(** A sort, and histories on which what one would like to hold does not. *)
From Coq Require Import List NArith ZArith Bool SpecFloat Reals Permutation Lia Lra Sorted.
Import ListNotations.
From Flocq Require Import Core.
From Flocq.IEEE754 Require Import BinarySingleNaN.
From Verif Require Import Outcome Words Arith Floats FloatsR HealthFloat BitsFloat_Proofs RMA3_Proofs Power_Model Power_Spec Power_Proofs Power2_Proofs Power3_Proofs Power4_Proofs Power5_Proofs.
Local Open Scope R_scope.

(** *** Insertion sort conforms *)
Definition cnth (cs : list sf) (i : nat) : sf := nth i cs (dofZ 0).
Fixpoint ins (cs : list sf) (i : nat) (l : list nat) : list nat :=
  match l with [] => [i] | j :: r => if flt (cnth cs i) (cnth cs j) then j :: ins cs i r else i :: l end.
Definition ord_ins (cs : list sf) : list nat := fold_right (ins cs) [] (seq 0 (length cs)).
Lemma ins_perm cs i l : Permutation (ins cs i l) (i :: l).
Proof. induction l as [|j r IH]; cbn [ins]; [reflexivity|]. destruct (flt _ _); [|reflexivity]. rewrite IH. apply perm_swap. Qed.
Lemma ord_ins_perm cs : Permutation (ord_ins cs) (seq 0 (length cs)).
Proof. unfold ord_ins. induction (seq 0 (length cs)) as [|i r IH]; cbn [fold_right]; [reflexivity|]. rewrite ins_perm, IH. reflexivity. Qed.
Definition geR (cs : list sf) (i j : nat) : Prop := R (cnth cs j) <= R (cnth cs i).
Lemma ins_sorted cs i l : (forall k, okd (cnth cs k)) -> StronglySorted (geR cs) l -> StronglySorted (geR cs) (ins cs i l).
Proof.
  intros O S. induction S as [|j r S IH F]; cbn [ins]; [repeat constructor|]. destruct (flt (cnth cs i) (cnth cs j)) eqn:E.
  - apply flt_d in E; auto. constructor; [exact IH|]. apply Forall_forall. intros k Hk. apply (Permutation_in _ (ins_perm cs i r)) in Hk. 
    destruct Hk as [<-|Hk]; [unfold geR; lra|]. rewrite Forall_forall in F. apply F. exact Hk.
  - apply flt_dF in E; auto. constructor; [constructor; assumption|]. constructor; [exact E|]. eapply Forall_impl; [|exact F]. unfold geR. intros k Hk. lra.
Qed.
Lemma sorted_nth (P : nat -> nat -> Prop) l : StronglySorted P l -> forall i j, (i < j < length l)%nat -> P (nth i l O) (nth j l O).
Proof.
  induction 1 as [|a r S IH F]; intros i j H; [cbn in H; lia|]. destruct j as [|j]; [lia|]. destruct i as [|i]; cbn [nth length] in *.
  - rewrite Forall_forall in F. apply F. apply nth_In. lia.
  - apply IH. lia.
Qed.
Theorem ord_ins_sorts : any_sort ord_ins.
Proof.
  split; [apply ord_ins_perm|]. intros cs i j F H.
  assert (O : forall k, okd (cnth cs k)).
  { intros k. unfold cnth. destruct (Nat.lt_ge_cases k (length cs)) as [L|G]; [|rewrite nth_overflow by exact G; apply zero_ok]. rewrite Forall_forall in F. apply F. apply nth_In. exact L. }
  assert (S : StronglySorted (geR cs) (ord_ins cs)).
  { unfold ord_ins. induction (seq 0 (length cs)) as [|k r IH]; cbn [fold_right]; [constructor|]. apply ins_sorted; assumption. }
  apply Rle_ge. apply (sorted_nth _ _ S i j). rewrite (Permutation_length (ord_ins_perm cs)), seq_length. exact H.
Qed.

(** *** Checking descriptions by computation *)
Definition okb (x : sf) : bool := V64 x && fin x.
Definition sensible_b (c : comp) : bool :=
  okb (cmin c) && okb (cmax c) && okb (cpmin c) && okb (cpmax c) && okb (ccrit c) &&
  fle (dofZ 0) (cmin c) && flt (cmin c) (cmax c) && fle (cmax c) (dofZ 1) &&
  fle (dofZ 0) (cpmin c) && fle (cpmin c) (cpmax c) && fle (cpmax c) (dofZ 1048576) && fle (dofZ 0) (ccrit c) && fle (ccrit c) (dofZ 1).
Lemma okb_ok x : okb x = true -> okd x.
Proof. unfold okb. intros H. apply andb_true_iff in H. exact H. Qed.
Lemma sensible_b_ok c : sensible_b c = true -> sensible c.
Proof.
  unfold sensible_b. rewrite !andb_true_iff. intros H. destruct H as ((((((((((((A & B) & C) & D) & E0) & F) & G) & H) & I) & J) & K) & L) & M).
  apply okb_ok in A, B, C, D, E0. destruct zero_ok as [Z1 Z2]. destruct (ofZ_ex 1 ltac:(reflexivity)) as [O1 O2]. destruct (ofZ_ex 1048576 ltac:(reflexivity)) as [P1 P2].
  apply fle_d in F, H, I, J, K, L, M; auto. apply flt_d in G; auto. rewrite Z2 in *. rewrite O2 in *. rewrite P2 in *. unfold sensible. auto 20.
Qed.

(** *** Which sort is used does not matter where there is one order *)
Lemma register_ext ord ord' c s : (let cs := map (fun x => ccrit (snd x)) (comps s) ++ [ccrit c] in ord cs = ord' cs) -> pap_register ord c s = pap_register ord' c s.
Proof.
  cbv zeta. intros H. unfold pap_register. destruct (_ =? _)%Z; [reflexivity|].
  assert (E : forall s', map (fun x => ccrit (snd x)) (comps s') = map (fun x => ccrit (snd x)) (comps s) ++ [ccrit c] -> rebalance ord s' = rebalance ord' s').
  { intros s' Hs. unfold rebalance, rebalanced, sorted_comps. rewrite Hs, H. reflexivity. }
  rewrite E; [reflexivity|]. cbn [comps]. rewrite map_app. reflexivity.
Qed.
Lemma perm_one ord x : (forall cs : list sf, Permutation (ord cs) (seq 0 (length cs))) -> ord [x] = [O].
Proof. intros P. specialize (P [x]). apply Permutation_sym in P. apply Permutation_length_1_inv in P. exact P. Qed.
Lemma sort_two ord x y : any_sort ord -> okd x -> okd y -> R y < R x -> ord [x; y] = [O; 1%nat].
Proof.
  intros [P S] Ox Oy H. specialize (P [x; y]). cbn [length seq] in P. apply Permutation_sym in P. apply Permutation_length_2_inv in P.
  destruct P as [P|P]; [exact P|]. exfalso. specialize (S [x; y] 0%nat 1%nat). rewrite P in S. cbn [nth length] in S.
  assert (R y >= R x); [|lra]. apply S; [repeat constructor; apply Ox || apply Oy|lia].
Qed.
Lemma run1 ord c w st0 t s : (forall cs, Permutation (ord cs) (seq 0 (length cs))) -> pap_run ord_ins [ORegister c] (pap_new w st0) = Ret (t, s) ->
  pap_run ord [ORegister c] (pap_new w st0) = Ret (t, s).
Proof.
  intros P H. cbn [pap_run pap_do] in *. rewrite (register_ext ord ord_ins); [exact H|]. cbv zeta. cbn [pap_new comps map app].
  rewrite (perm_one ord), (perm_one ord_ins); auto. apply ord_ins_perm.
Qed.
Definition mk (mn mx pn px cr : Z) : comp := mkC (dlit mn 100) (dlit mx 100) (dofZ 0) (dlit pn 100) (dlit px 100) (dlit cr 100).
Lemma present_one k c t : (forall j, described t j = if (j =? k)%Z then Some c else None) -> present t [k].
Proof.
  intros H. split; [constructor; [intros []|constructor]|]. intros j. rewrite H. cbn [In]. destruct (Z.eqb_spec j k) as [->|N]; split; intros X; try congruence.
  - left. reflexivity.
  - destruct X as [X|[]]. congruence.
Qed.
Lemma one_sensible k c t : (forall j, described t j = if (j =? k)%Z then Some c else None) -> sensible_b c = true -> all_sensible t.
Proof. intros H S j d E. rewrite H in E. destruct (j =? k)%Z; [|discriminate]. injection E as <-. apply sensible_b_ok. exact S. Qed.

(** in emergency mode a component is run below its minimum *)
Definition below : comp := mk 50 100 1000 2000 50.
Theorem below_minimum ord : any_sort ord -> exists t s x, pap_run ord [ORegister below] (pap_new (dofZ 1) PEAK) = Ret (t, s) /\ all_sensible t /\
  described t 0 = Some below /\ pap_level 0 s = Some x /\ R x < R (cmin below) /\ flt (effectiveness s) (dofZ 0) = true.
Proof.
  intros [P _]. eexists _, _, _. split; [apply run1; [exact P|vm_compute; reflexivity]|]. 
  split; [apply (one_sensible 0%Z below); [intros j; reflexivity|vm_compute; reflexivity]|].
  split; [reflexivity|]. split; [reflexivity|]. split; [|vm_compute; reflexivity].
  apply flt_d; [apply okb_ok|apply okb_ok|]; vm_compute; reflexivity.
Qed.
(** the power used is over the budget although the minimum fits it: by rounding *)
Definition tight : comp := mkC (dofZ 0) (dlit 1 10) (dofZ 0) (dofZ 0) (dofZ 1) (dofZ 1).
Theorem over_budget_rounding ord : any_sort ord -> exists t s, pap_run ord [ORegister tight] (pap_new (dlit 1 10) PEAK) = Ret (t, s) /\ all_sensible t /\
  min_watts t [0%Z] = 0 /\ okd (pap_usage s) /\ R (pap_budget s) < R (pap_usage s).
Proof.
  intros [P _]. eexists _, _. split; [apply run1; [exact P|vm_compute; reflexivity]|]. 
  split; [apply (one_sensible 0%Z tight); [intros j; reflexivity|vm_compute; reflexivity]|].
  split; [unfold min_watts, described; cbn; unfold R, SF2R; lra|].
  split; [apply okb_ok; vm_compute; reflexivity|].
  apply flt_d; [apply okb_ok|apply okb_ok|]; vm_compute; reflexivity.
Qed.
(** in emergency mode the power reported is over the budget, or negative *)
Definition vital : comp := mk 50 100 1000 2000 90.
Definition narrow : comp := mk 80 90 1000 2000 50.
Theorem over_budget_emergency ord : any_sort ord -> 
  (exists t s, pap_run ord [ORegister vital] (pap_new (dofZ 1) PEAK) = Ret (t, s) /\ all_sensible t /\ pap_usage s = dofZ 10 /\ pap_budget s = dofZ 1) /\
  (exists t s, pap_run ord [ORegister narrow] (pap_new (dofZ 1) PEAK) = Ret (t, s) /\ all_sensible t /\ okd (pap_usage s) /\ R (pap_usage s) < -29).
Proof.
  intros [P _]. split.
  - eexists _, _. split; [apply run1; [exact P|vm_compute; reflexivity]|]. 
    split; [apply (one_sensible 0%Z vital); [intros j; reflexivity|vm_compute; reflexivity]|]. split; vm_compute; reflexivity.
  - eexists _, _. split; [apply run1; [exact P|vm_compute; reflexivity]|]. 
    split; [apply (one_sensible 0%Z narrow); [intros j; reflexivity|vm_compute; reflexivity]|]. split; [apply okb_ok; vm_compute; reflexivity|].
    destruct (ofZ_ex (-29) ltac:(reflexivity)) as [O E]. rewrite <- E. apply flt_d; [apply okb_ok; vm_compute; reflexivity|exact O|vm_compute; reflexivity].
Qed.
(** a component whose levels cannot be varied makes power and effectiveness NaN *)
Definition fixed_level : comp := mk 50 50 1000 1000 50.
Theorem fixed_level_nan ord : any_sort ord -> exists t s, pap_run ord [ORegister fixed_level] (pap_new (dofZ 100) PEAK) = Ret (t, s) /\
  pap_usage s = S754_nan /\ effectiveness s = S754_nan.
Proof. intros [P _]. eexists _, _. split; [apply run1; [exact P|vm_compute; reflexivity]|]. split; vm_compute; reflexivity. Qed.
(** ample power: one component stops short of its maximum by rounding, a second one gets nothing at all *)
Definition quarter : comp := mk 25 100 100 200 100.
Theorem short_of_max ord : any_sort ord -> exists t s x, pap_run ord [ORegister quarter] (pap_new (dofZ 1000) PEAK) = Ret (t, s) /\ all_sensible t /\
  pap_level 0 s = Some x /\ R x < R (cmax quarter).
Proof.
  intros [P _]. eexists _, _, _. split; [apply run1; [exact P|vm_compute; reflexivity]|]. 
  split; [apply (one_sensible 0%Z quarter); [intros j; reflexivity|vm_compute; reflexivity]|].
  split; [vm_compute; reflexivity|]. apply flt_d; [apply okb_ok|apply okb_ok|]; vm_compute; reflexivity.
Qed.
Definition first_comp : comp := mk 50 100 100 200 100.
Definition second_comp : comp := mk 50 100 100 200 90.
Definition afterR (c : comp) (s : pap) : pap := match pap_register ord_ins c s with Ret (_, s') => s' | _ => s end.
Definition state1 : pap := Eval vm_compute in afterR first_comp (pap_new (dofZ 1000) PEAK).
Theorem second_gets_nothing ord : any_sort ord -> exists t s, pap_run ord [ORegister first_comp; ORegister second_comp] (pap_new (dofZ 1000) PEAK) = Ret (t, s) /\ all_sensible t /\
  pap_level 1 s = Some (cmin second_comp) /\ R (pap_usage s) < 4 /\ pap_budget s = dofZ 1000.
Proof.
  intros S. pose proof S as [P _].
  assert (R1 : pap_register ord first_comp (pap_new (dofZ 1000) PEAK) = Ret (0%Z, state1)).
  { rewrite (register_ext ord ord_ins); [vm_compute; reflexivity|]. cbv zeta. cbn [pap_new comps map app]. rewrite (perm_one ord), (perm_one ord_ins); auto. apply ord_ins_perm. }
  assert (R2 : pap_register ord second_comp state1 = Ret (1%Z, afterR second_comp state1)).
  { rewrite (register_ext ord ord_ins); [vm_compute; reflexivity|]. cbv zeta. replace (map (fun x => ccrit (snd x)) (comps state1) ++ [ccrit second_comp]) with [ccrit first_comp; ccrit second_comp] by (vm_compute; reflexivity).
    assert (Oa : okd (ccrit first_comp)) by (apply okb_ok; vm_compute; reflexivity). assert (Ob : okd (ccrit second_comp)) by (apply okb_ok; vm_compute; reflexivity).
    rewrite (sort_two ord _ _ S Oa Ob); [vm_compute; reflexivity|]. apply flt_d; [exact Ob|exact Oa|vm_compute; reflexivity]. }
  eexists _, _. cbn [pap_run pap_do]. rewrite R1, R2. split; [reflexivity|]. split.
  - intros k c E0. cbn [described fold_left desc_step] in E0. destruct (k =? 1)%Z; [injection E0 as <-|destruct (k =? 0)%Z; [injection E0 as <-|discriminate]]; apply sensible_b_ok; vm_compute; reflexivity.
  - split; [vm_compute; reflexivity|]. split; [|vm_compute; reflexivity]. destruct (ofZ_ex 4 ltac:(reflexivity)) as [O E0]. rewrite <- E0.
    apply flt_d; [apply okb_ok; vm_compute; reflexivity|exact O|vm_compute; reflexivity].
Qed.
(** the counter of ids overflows *)
Theorem counter_end ord c s : counter s = (2 ^ 31 - 1)%Z -> pap_register ord c s = UB UB_signed_overflow.
Proof. intros H. unfold pap_register. rewrite H. reflexivity. Qed.
(** a component of criticality 0 is never raised *)
Definition idle : comp := mk 50 100 100 200 0.
Theorem idle_not_raised ord : any_sort ord -> exists t s, pap_run ord [ORegister idle] (pap_new (dofZ 1000) PEAK) = Ret (t, s) /\ all_sensible t /\ pap_level 0 s = Some (cmin idle).
Proof.
  intros [P _]. eexists _, _. split; [apply run1; [exact P|vm_compute; reflexivity]|]. 
  split; [apply (one_sensible 0%Z idle); [intros j; reflexivity|vm_compute; reflexivity]|]. vm_compute; reflexivity.
Qed.
(** *** The calls do not fail, and the budget follows the state *)
Theorem budget_hist ord : any_sort ord -> forall w st0 ops t s, pap_run ord ops (pap_new w st0) = Ret (t, s) -> pap_budget s = pap_budget (pap_new w (mode st0 t)).
Proof. intros [P _] w st0 ops t s H. pose proof (reachable_inv ord P _ _ _ _ _ H) as I. unfold pap_budget. rewrite (i_w _ _ _ _ _ I), (i_m _ _ _ _ _ I). reflexivity. Qed.
Lemma rebalance_total ord s : Forall (fun x : Z * comp => sensible (snd x)) (comps s) -> exists s', rebalance ord s = Ret s'.
Proof.
  intros F. unfold rebalance. assert (existsb (fun x => isnan (ccrit (snd x))) (comps s) = false) as ->; [|eexists; reflexivity].
  induction F as [|x r H F IH]; [reflexivity|]. cbn [existsb]. rewrite IH, orb_false_r. destruct H as (_ & _ & _ & _ & [_ H] & _). destruct (ccrit (snd x)); try discriminate; reflexivity.
Qed.
Theorem total ord w st0 ops t s o : pap_run ord ops (pap_new w st0) = Ret (t, s) -> any_sort ord -> all_sensible t ->
  (forall c, o = ORegister c \/ (exists k, o = OUpdate k c) -> sensible c) -> (Z.of_nat (length (ids_given t)) < 2 ^ 31 - 1)%Z ->
  exists x s', pap_do ord o s = Ret (x, s').
Proof.
  intros H [P _] A So Hc. pose proof (reachable_inv ord P _ _ _ _ _ H) as I. pose proof (inv_sens ord _ _ _ _ I A) as F.
  assert (C : (counter s < 2 ^ 31 - 1)%Z). { rewrite (i_ids _ _ _ _ _ I), map_length, seq_length in Hc. pose proof (i_cnt _ _ _ _ _ I). lia. }
  destruct o as [c|k c|k|st]; cbn [pap_do].
  - unfold pap_register. assert (counter s =? 2 ^ 31 - 1 = false)%Z as -> by (apply Z.eqb_neq; lia).
    match goal with |- context [rebalance ord ?x] => destruct (rebalance_total ord x) as [s' E0] end.
    + cbn [comps]. apply Forall_app. split; [exact F|]. constructor; [|constructor]. cbn [snd]. apply sensible_level. apply So. left. reflexivity.
    + rewrite E0. eauto.
  - unfold pap_update. destruct (has_id k (comps s)); [|eauto].
    match goal with |- context [rebalance ord ?x] => destruct (rebalance_total ord x) as [s' E0] end.
    + cbn [comps]. apply Forall_map. eapply Forall_impl; [|exact F]. intros x Hx. destruct (fst x =? k)%Z; [cbn [snd]; apply So; right; eauto|exact Hx].
    + rewrite E0. eauto.
  - unfold pap_remove. destruct (has_id k (comps s)); [|eauto].
    match goal with |- context [rebalance ord ?x] => destruct (rebalance_total ord x) as [s' E0] end.
    + cbn [comps]. rewrite Forall_forall in *. intros x Hx. apply filter_In in Hx. apply F. tauto.
    + rewrite E0. eauto.
  - unfold pap_set_state. destruct (pstate_eqb _ _); [eauto|].
    match goal with |- context [rebalance ord ?x] => destruct (rebalance_total ord x) as [s' E0] end; [exact F|]. rewrite E0. eauto.
Qed.
