(** Steps of the memory manager: the invariant and the statistics. *)
From Coq Require Import List NArith Bool Lia Permutation.
Import ListNotations.
From Verif Require Import Outcome Umm_Model Umm_Spec Umm_Proofs Umm2_Proofs.
Local Open Scope N_scope.

Lemma UI_ext s s' : allocs s' = allocs s -> blocks s' = blocks s -> UI s -> UI s'.
Proof. intros A B [U1 U2 U3 U4 U5]. constructor; rewrite ?A, ?B; auto. Qed.
Lemma UI_upd s s' p f : (forall i, user (f i) = user i /\ orig (f i) = orig i /\ isize (f i) = isize i) -> allocs s' = upd p f (allocs s) -> blocks s' = blocks s -> UI s -> UI s'.
Proof.
  intros Hf A B [U1 U2 U3 U4 U5]. constructor; rewrite ?A, ?B, ?keys_upd; auto. intros q i H. apply in_upd in H. destruct H as [H|(E & j & H & F)]; [auto|]. subst. destruct (Hf j) as (-> & -> & ->). auto.
Qed.
Lemma UI_add s s' p real i : granted (blocks s) p real -> orig i = p -> isize i < 2 ^ 64 -> (user i = p \/ user i = p + 8) -> allocs s' = allocs s ++ [(p, i)] -> blocks s' = (p, real) :: blocks s -> UI s -> UI s'.
Proof.
  intros G I1 I2 I3 A B U. destruct (granted_fresh s p real U G) as (F & NB & P0). destruct U as [U1 U2 U3 U4 U5]. constructor; rewrite ?A, ?B.
  - rewrite map_app. cbn [map fst]. apply (Permutation_NoDup (Permutation_cons_append _ _)). constructor; [|exact U1]. apply find_none, F.
  - intros q. rewrite map_app, in_app_iff. cbn [map fst In]. rewrite U2. tauto.
  - intros q z [E|E]; [injection E as <- <-; destruct G as (G1 & G2 & _); auto|auto].
  - cbn [spread]. split; [|exact U4]. destruct G as (_ & _ & G). eapply Forall_impl; [|exact G]. intros b. unfold apart. cbn [fst snd]. tauto.
  - intros q j H. apply in_app_or in H. destruct H as [H|[H|[]]]; [auto|]. injection H as <- <-. auto.
Qed.
Lemma UI_del s s' p : allocs s' = del p (allocs s) -> blocks s' = filter (fun b => negb (fst b =? p)) (blocks s) -> UI s -> UI s'.
Proof.
  intros A B [U1 U2 U3 U4 U5]. constructor; rewrite ?A, ?B.
  - apply nodup_del, U1.
  - intros q. assert (K : In q (map fst (del p (allocs s))) <-> find q (del p (allocs s)) <> None) by (rewrite find_none; destruct (in_dec N.eq_dec q (map fst (del p (allocs s)))); tauto).
    rewrite K, find_del by exact U1. rewrite in_map_iff. destruct (N.eqb_spec q p) as [E|E].
    + split; [congruence|]. intros ([a z] & F & G). cbn in F. subst a. apply filter_In in G. destruct G as [_ G]. cbn [fst] in G. subst q. rewrite N.eqb_refl in G. discriminate.
    + assert (K2 : find q (allocs s) <> None <-> In q (map fst (allocs s))) by (rewrite find_none; destruct (in_dec N.eq_dec q (map fst (allocs s))); tauto). rewrite K2, U2, in_map_iff. split.
      * intros (b & F & G). exists b. split; [exact F|]. apply filter_In. split; [exact G|]. destruct (N.eqb_spec (fst b) p); [congruence|reflexivity].
      * intros (b & F & G). exists b. split; [exact F|]. apply filter_In in G. apply G.
  - intros q z H. apply filter_In in H. apply U3, H.
  - apply spread_filter, U4.
  - intros q i H. apply in_del in H. auto.
Qed.
Lemma blocks_has s p i : UI s -> find p (allocs s) = Some i -> existsb (fun b => fst b =? p) (blocks s) = true.
Proof.
  intros U F. apply find_some, (in_map fst) in F. cbn in F. apply (ui_same _ U) in F. apply in_map_iff in F. destruct F as (b & E & F). apply existsb_exists. exists b. split; [exact F|]. apply N.eqb_eq, E.
Qed.
(** the effects of a call on sizes, protection and statistics *)
Definition freed (t : stats) (n : N) : stats :=
  mkStats (w64 (cur_n t + 2 ^ 64 - 1)) (peak_n t) (tot_alloc t) (w64 (tot_dealloc t + 1)) (w64 (cur_b t + 2 ^ 64 - n)) (peak_b t) (prot_n t) (prot_b t) (detected t) (repaired t) (leaked t).
Definition protd (t : stats) (n : N) : stats :=
  mkStats (cur_n t) (peak_n t) (tot_alloc t) (tot_dealloc t) (cur_b t) (peak_b t) (w64 (prot_n t + 1)) (w64 (prot_b t + n)) (detected t) (repaired t) (leaked t).
Definition leakd (t : stats) (n : N) : stats := mkStats (cur_n t) (peak_n t) (tot_alloc t) (tot_dealloc t) (cur_b t) (peak_b t) (prot_n t) (prot_b t) (detected t) (repaired t) n.
Inductive eff (s : umm) (o : uop) (s' : umm) : Prop :=
| e_same : core (allocs s') = core (allocs s) -> st s' = st s -> eff s o s'
| e_add p n : find p (allocs s) = None -> n < 2 ^ 64 -> core (allocs s') = core (allocs s) ++ [(p, (n, false))] -> st s' = counted (st s) n -> eff s o s'
| e_free p i : find p (allocs s) = Some i -> prot i = false -> allocs s' = del p (allocs s) -> st s' = freed (st s) (isize i) -> eff s o s'
| e_prot p i : find p (allocs s) = Some i -> core (allocs s') = core (upd p (set_prot true) (allocs s)) -> st s' = protd (if prot i then unprot (st s) (isize i) else st s) (isize i) -> eff s o s'
| e_unprot p i : o = UUnprotect p -> find p (allocs s) = Some i -> prot i = true -> core (allocs s') = core (upd p (set_prot false) (allocs s)) -> st s' = unprot (unprot (st s) (isize i)) (isize i) -> eff s o s'
| e_reset : o = UReset -> s' = resetStats s -> eff s o s'
| e_leaks n : core (allocs s') = core (allocs s) -> st s' = leakd (st s) n -> eff s o s'.
Lemma obj_eff cv s ty z f l sys junk r s' : UI s -> z < 2 ^ 64 -> answer_ok (blocks s) z f l 64 sys -> allocateObject cv s ty z f l sys junk = Ret (r, s') ->
  exists s1, allocate cv s z f l 64 sys junk = Ret (r, s1) /\ (s' = s1 \/ (r <> 0 /\ s' = set_allocs s1 (upd r (fun i => mkInfo (user i) (orig i) (isize i) (Some ty) (is_array i) (prot i)) (allocs s1)) (st s1))).
Proof.
  intros U Hz HA H. unfold allocateObject in H. apply obind_ret in H. destruct H as ([r1 s1] & H1 & H). cbn [fst snd] in H. exists s1. destruct (N.eqb_spec r1 0) as [E|E].
  - injection H as <- <-. auto.
  - injection H as <- <-. split; [exact H1|]. right. auto.
Qed.
Lemma arr_eff cv s ty z c f l sys junk r s' : UI s -> answer_ok (blocks s) (w64 (z * c)) f l 64 sys -> allocateArray cv s ty z c f l sys junk = Ret (r, s') ->
  exists s1, allocate cv s (w64 (z * c)) f l 64 sys junk = Ret (r, s1) /\ (s' = s1 \/ (r <> 0 /\ s' = set_allocs s1 (upd r (fun i => mkInfo (user i) (orig i) (isize i) (Some ty) true (prot i)) (allocs s1)) (st s1))).
Proof.
  intros U HA H. unfold allocateArray in H. apply obind_ret in H. destruct H as ([r1 s1] & H1 & H). cbn [fst snd] in H. exists s1. destruct (N.eqb_spec r1 0) as [E|E].
  - injection H as <- <-. auto.
  - injection H as <- <-. split; [exact H1|]. right. auto.
Qed.
Lemma alloc_step cv s o n f l al sys junk r s' : UI s -> n < 2 ^ 64 -> answer_ok (blocks s) n f l al sys -> allocate cv s n f l al sys junk = Ret (r, s') -> UI s' /\ eff s o s'.
Proof.
  intros U Hn HA H. destruct (allocate_eff _ _ _ _ _ _ _ _ _ _ U Hn HA H) as [(_ & _ & ->)|(p & real & _ & _ & G & _ & F & E & B & A & T & _)]; [split; [exact U|apply e_same; reflexivity]|].
  split.
  - eapply UI_add; [exact G| | | |exact A|exact B|exact U]; cbn [orig isize user]; auto. subst r. destruct l; cbn [start]; auto.
  - eapply e_add; [exact F|exact Hn| |exact T]. rewrite A, core_app. reflexivity.
Qed.
Lemma eff_core s o s1 s' : core (allocs s') = core (allocs s1) -> st s' = st s1 -> (exists n, s1 = s \/ (n < 2 ^ 64 /\ exists p, find p (allocs s) = None /\ core (allocs s1) = core (allocs s) ++ [(p, (n, false))] /\ st s1 = counted (st s) n)) -> eff s o s'.
Proof.
  intros C T (n & [E|(L & p & F & C1 & T1)]); [subst; apply e_same; assumption|]. eapply e_add; [exact F|exact L|congruence|congruence].
Qed.
Lemma type_step s o r s1 s' g : (forall i, user (g i) = user i /\ orig (g i) = orig i /\ isize (g i) = isize i) -> (forall i, prot (g i) = prot i) ->
  (s' = s1 \/ (r <> 0 /\ s' = set_allocs s1 (upd r g (allocs s1)) (st s1))) -> UI s1 /\ eff s o s1 -> (forall p i, allocs s1 <> del p (allocs s) \/ find p (allocs s) <> Some i) -> o <> UReset -> UI s' /\ eff s o s'.
Proof.
  intros Hg Hp [->|[_ ->]] [U E] ND NR; [auto|]. split; [eapply UI_upd; [exact Hg|reflexivity|reflexivity|exact U]|].
  assert (C : core (allocs (set_allocs s1 (upd r g (allocs s1)) (st s1))) = core (allocs s1)) by (cbn [set_allocs allocs]; apply core_upd_same; intros i; destruct (Hg i) as (_ & _ & ->); auto).
  destruct E.
  - apply e_same; [rewrite C|]; assumption.
  - eapply e_add; eauto. rewrite C. assumption.
  - exfalso. destruct (ND p i); auto.
  - eapply e_prot; eauto. rewrite C. assumption.
  - eapply e_unprot; eauto. rewrite C. assumption.
  - congruence.
  - eapply e_leaks; [rewrite C; eassumption|eassumption].
Qed.
Lemma unprotect_eff s p : forall i, find p (allocs s) = Some i -> prot i = true -> p <> 0 ->
  unprotectMemory s p = (true, set_allocs s (upd p (set_prot false) (upd p (set_prot false) (allocs s))) (unprot (unprot (st s) (isize i)) (isize i))).
Proof.
  intros i F P P0. unfold unprotectMemory, removeMemoryProtection. rewrite F, P. destruct (N.eqb_spec p 0); [congruence|]. reflexivity.
Qed.
Lemma upd_twice p f g l : upd p f (upd p g l) = upd p (fun i => f (g i)) l.
Proof. induction l as [|[k i] l IH]; [reflexivity|]. cbn [upd]. destruct (k =? p) eqn:E; cbn [upd]; rewrite E; [reflexivity|]. rewrite IH. reflexivity. Qed.
Lemma upd_ext p f g l : (forall i, f i = g i) -> upd p f l = upd p g l.
Proof. intros H. induction l as [|[k i] l IH]; [reflexivity|]. cbn [upd]. rewrite H, IH. reflexivity. Qed.
Lemma protect_eff cv s p l i r s' : p <> 0 -> find p (allocs s) = Some i -> protectMemory cv s p l = Ret (r, s') ->
  exists s1, r = true /\ setupMemoryProtection cv (if prot i then snd (removeMemoryProtection s p) else s) p (isize i) l = Ret (true, s1) /\ blocks s' = blocks s /\ mem s' = mem s1 /\
    allocs s' = upd p (set_prot true) (allocs s) /\ st s' = protd (if prot i then unprot (st s) (isize i) else st s) (isize i) /\ deflt s' = deflt s /\ callbacks s' = callbacks s /\ next_id s' = next_id s.
Proof.
  intros P0 F H. unfold protectMemory in H. rewrite F in H. set (s0 := if prot i then _ else _) in *. apply obind_ret in H. destruct H as ([b s1] & H1 & H). cbn [fst snd] in H.
  destruct (setup_eff _ _ _ _ _ _ _ P0 H1) as (Eb & E1 & E2 & E3 & E4 & E5 & E6 & _). subst b. injection H as <- <-. exists s1. split; [reflexivity|]. split; [exact H1|].
  assert (Q : blocks s0 = blocks s /\ allocs s0 = (if prot i then upd p (set_prot false) (allocs s) else allocs s) /\ st s0 = (if prot i then unprot (st s) (isize i) else st s) /\ deflt s0 = deflt s /\ callbacks s0 = callbacks s /\ next_id s0 = next_id s).
  { unfold s0, removeMemoryProtection. destruct (N.eqb_spec p 0); [congruence|]. destruct (prot i) eqn:PI; [|auto 10]. rewrite F, PI. cbn [snd set_allocs blocks allocs st deflt callbacks next_id]. auto 10. }
  destruct Q as (Q1 & Q2 & Q3 & Q4 & Q5 & Q6). cbn [set_allocs blocks mem allocs st deflt callbacks next_id]. rewrite E1, E2, E3, E4, E5, Q1, Q3, Q4, Q5, Q6. repeat (split; [reflexivity|]). split; [|repeat split; reflexivity].
  destruct E6 as [->|[_ ->]]; rewrite Q2; destruct (prot i); rewrite ?upd_twice; try reflexivity; apply upd_ext; reflexivity.
Qed.
Lemma step_ok cv s o s' : UI s -> contract s o -> ustep cv s o = Ret s' -> UI s' /\ eff s o s'.
Proof.
  intros U HC H. destruct o; cbn [ustep contract] in *.
  - destruct HC as [Hn HA]. destruct (allocate cv s n f l alignment sys junk) as [[r s1]| | |] eqn:E; cbn [keep] in H; try discriminate; injection H as <-; [eapply alloc_step; eauto|split; [exact U|apply e_same; reflexivity]].
  - destruct HC as [Hn HA]. destruct (allocateObject cv s ty sizeofT f l sys junk) as [[r s1]| | |] eqn:E; cbn [keep] in H; try discriminate; injection H as <-; [|split; [exact U|apply e_same; reflexivity]].
    destruct (obj_eff _ _ _ _ _ _ _ _ _ _ U Hn HA E) as (s2 & E2 & Q). eapply type_step; [| |exact Q|eapply alloc_step; eauto| |discriminate]; [auto|auto|].
    intros p i. destruct (find p (allocs s)) eqn:F; [left|right; discriminate]. destruct (allocate_eff _ _ _ _ _ _ _ _ _ _ U Hn HA E2) as [(_ & _ & ->)|(p1 & real & _ & _ & _ & _ & _ & _ & _ & A & _)].
    + intros C. assert (X : find p (allocs s) = find p (del p (allocs s))) by congruence. rewrite find_del, N.eqb_refl in X by apply U. congruence.
    + rewrite A. intros C. assert (X : length (allocs s ++ [(p1, mkInfo r p1 sizeofT None false false)]) = length (del p (allocs s))) by congruence. rewrite app_length in X. cbn [length] in X.
      assert (Y : forall l0 : list (N * info), (length (del p l0) <= length l0)%nat) by (induction l0 as [|[k j] l0 IH]; cbn [del length]; [lia|destruct (k =? p); cbn [length]; lia]). specialize (Y (allocs s)). lia.
  - pose proof (w64_lt (sizeofT * count)) as Hn. destruct (allocateArray cv s ty sizeofT count f l sys junk) as [[r s1]| | |] eqn:E; cbn [keep] in H; try discriminate; injection H as <-; [|split; [exact U|apply e_same; reflexivity]].
    destruct (arr_eff _ _ _ _ _ _ _ _ _ _ _ U HC E) as (s2 & E2 & Q). eapply type_step; [| |exact Q|eapply alloc_step; eauto| |discriminate]; [auto|auto|].
    intros p i. destruct (find p (allocs s)) eqn:F; [left|right; discriminate]. destruct (allocate_eff _ _ _ _ _ _ _ _ _ _ U Hn HC E2) as [(_ & _ & ->)|(p1 & real & _ & _ & _ & _ & _ & _ & _ & A & _)].
    + intros C. assert (X : find p (allocs s) = find p (del p (allocs s))) by congruence. rewrite find_del, N.eqb_refl in X by apply U. congruence.
    + rewrite A. intros C. assert (X : length (allocs s ++ [(p1, mkInfo r p1 (w64 (sizeofT * count)) None false false)]) = length (del p (allocs s))) by congruence. rewrite app_length in X. cbn [length] in X.
      assert (Y : forall l0 : list (N * info), (length (del p l0) <= length l0)%nat) by (induction l0 as [|[k j] l0 IH]; cbn [del length]; [lia|destruct (k =? p); cbn [length]; lia]). specialize (Y (allocs s)). lia.
  - apply obind_ret in H. destruct H as ([b s1] & H1 & H). injection H as <-. cbn [snd]. unfold deallocate in H1. destruct (p =? 0); [injection H1 as <- <-; split; [exact U|apply e_same; reflexivity]|].
    destruct (find p (allocs s)) as [i|] eqn:F; [|injection H1 as <- <-; split; [exact U|apply e_same; reflexivity]]. destruct (prot i) eqn:P; [discriminate|]. rewrite (blocks_has _ _ _ U F) in H1. injection H1 as <- <-.
    split; [apply (UI_del s _ p); [reflexivity|reflexivity|exact U]|]. eapply e_free; [exact F|exact P|reflexivity|reflexivity].
  - injection H as <-. split; [apply (UI_ext s); [reflexivity|reflexivity|exact U]|]. apply e_reset; reflexivity.
  - injection H as <-. split; [apply (UI_ext s); [reflexivity|reflexivity|exact U]|]. eapply e_leaks; reflexivity.
  - apply obind_ret in H. destruct H as ([b s1] & H1 & H). injection H as <-. cbn [snd]. destruct (find p (allocs s)) as [i|] eqn:F; [|unfold protectMemory in H1; rewrite F in H1; injection H1 as <- <-; split; [exact U|apply e_same; reflexivity]].
    assert (P0 : p <> 0) by (pose proof (find_some _ _ _ F) as X; apply (in_map fst) in X; apply (ui_same _ U) in X; apply in_map_iff in X; destruct X as ([q z] & E & X); cbn in E; subst q; destruct (ui_room _ U _ _ X); lia).
    destruct (protect_eff _ _ _ _ _ _ _ P0 F H1) as (s2 & _ & _ & B & _ & A & T & _). split; [eapply UI_upd; [|exact A|exact B|exact U]; auto|]. eapply e_prot; [exact F|rewrite A; reflexivity|exact T].
  - injection H as <-. destruct (find p (allocs s)) as [i|] eqn:F; [|unfold unprotectMemory; rewrite F; split; [exact U|apply e_same; reflexivity]].
    destruct (prot i) eqn:P; [|unfold unprotectMemory; rewrite F, P; split; [exact U|apply e_same; reflexivity]].
    assert (P0 : p <> 0) by (pose proof (find_some _ _ _ F) as X; apply (in_map fst) in X; apply (ui_same _ U) in X; apply in_map_iff in X; destruct X as ([q z] & E & X); cbn in E; subst q; destruct (ui_room _ U _ _ X); lia).
    rewrite (unprotect_eff _ _ _ F P P0). cbn [snd]. split; [eapply UI_upd; [|cbn [set_allocs allocs]; apply upd_twice|reflexivity|exact U]; auto|].
    eapply e_unprot; [reflexivity|exact F|exact P|cbn [set_allocs allocs]; rewrite upd_twice; reflexivity|reflexivity].
  - apply obind_ret in H. destruct H as (b & _ & H). injection H as <-. split; [exact U|apply e_same; reflexivity].
  - injection H as <-. split; [apply (UI_ext s); [reflexivity|reflexivity|exact U]|]. apply e_same; reflexivity.
  - injection H as <-. split; [apply (UI_ext s); [reflexivity|reflexivity|exact U]|]. apply e_same; reflexivity.
  - injection H as <-. split; [apply (UI_ext s); [reflexivity|reflexivity|exact U]|]. apply e_same; reflexivity.
  - destruct (inside (blocks s) a n); [|discriminate]. injection H as <-. split; [apply (UI_ext s); [reflexivity|reflexivity|exact U]|]. apply e_same; reflexivity.
Qed.
