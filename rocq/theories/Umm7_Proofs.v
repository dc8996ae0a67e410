(** Wrapped sizes, protection of live blocks, callbacks, pointer objects with canaries. *)
From Coq Require Import List NArith Bool Lia.
Import ListNotations.
From Verif Require Import Outcome Umm_Model Umm_Spec Umm_Proofs Umm2_Proofs Umm3_Proofs Umm4_Proofs Umm5_Proofs Umm6_Proofs.
Local Open Scope N_scope.

Lemma wrap_canary cv s k p junk : reach cv s -> 8 <= k -> k < 16 -> granted (blocks s) p k ->
  exists s', allocate cv s (2 ^ 64 - 16 + k) plain CANARY 64 (Some p) junk = Ret (p + 8, s') /\ reach cv s' /\ inside (blocks s') (p + 8) (2 ^ 64 - 16 + k) = false.
Proof.
  intros R K1 K2 G. pose proof (reach_ui _ _ R) as U. destruct (granted_fresh s p k U G) as (F & NB & P0).
  assert (Ea : w64 (2 ^ 64 - 16 + k + 16) = k). { replace (2 ^ 64 - 16 + k + 16) with (k + 2 ^ 64) by (change (2 ^ 64) with 18446744073709551616; lia). rewrite w64_full. apply w64_small. change (2 ^ 64) with 18446744073709551616. lia. }
  assert (Ee : w64 (k + 2 ^ 64 - 8) = k - 8). { replace (k + 2 ^ 64 - 8) with (k - 8 + 2 ^ 64) by (change (2 ^ 64) with 18446744073709551616; lia). rewrite w64_full. apply w64_small. change (2 ^ 64) with 18446744073709551616. lia. }
  assert (LN : 2 ^ 64 - 16 + k < 2 ^ 64) by (change (2 ^ 64) with 18446744073709551616; lia).
  assert (RQ : request (2 ^ 64 - 16 + k) plain CANARY 64 = Ret k) by (unfold request; cbn [plain aligned calculateProtectedSize]; rewrite Ea; reflexivity).
  assert (HA : answer_ok (blocks s) (2 ^ 64 - 16 + k) plain CANARY 64 (Some p)) by (intros real HR; rewrite RQ in HR; injection HR as <-; split; [exact G|discriminate]).
  assert (X : exists r s', allocate cv s (2 ^ 64 - 16 + k) plain CANARY 64 (Some p) junk = Ret (r, s')).
  { unfold allocate. rewrite RQ. cbn [obind calculateProtectedSize]. rewrite Ea. unfold plain at 1. cbn [zero andb]. unfold setupMemoryProtection. destruct (N.eqb_spec p 0); [congruence|]. cbn [blocks]. rewrite !access_own by exact NB. rewrite Ee.
    replace (0 + 8 <=? k) with true by (symmetry; apply N.leb_le; lia). replace (k - 8 + 8 <=? k) with true by (symmetry; apply N.leb_le; lia). rewrite !orb_true_r. cbn [andb obind]. eauto. }
  destruct X as (r & s' & E). destruct (track_info _ _ _ _ _ _ _ _ _ _ R LN HA E) as (Er & _). cbn [start] in Er. subst r. exists s'. split; [exact E|].
  assert (R' : reach cv s') by (apply (reach_step cv s (UAlloc (2 ^ 64 - 16 + k) plain CANARY 64 (Some p) junk)); [exact R|split; [exact LN|exact HA]|cbn [ustep]; rewrite E; reflexivity]).
  split; [exact R'|]. apply out_of_space; [exact (reach_ui _ _ R')|change (2 ^ 64) with 18446744073709551616; lia|change (2 ^ 64) with 18446744073709551616; lia].
Qed.
Lemma array_info cv s ty z c f l p junk r s' : reach cv s -> answer_ok (blocks s) (w64 (z * c)) f l 64 (Some p) -> l <> CANARY -> allocateArray cv s ty z c f l (Some p) junk = Ret (r, s') ->
  r = p /\ (forall q, getAllocationInfo s' q = if q =? p then Some (mkInfo p p (w64 (z * c)) (Some ty) true false) else getAllocationInfo s q).
Proof.
  intros R HA HL H. pose proof (reach_ui _ _ R) as U. destruct (arr_eff _ _ _ _ _ _ _ _ _ _ _ U HA H) as (s1 & E & X). destruct (track_info _ _ _ _ _ _ _ _ _ _ R (w64_lt _) HA E) as (Er & Fr & Q). assert (Er' : r = p) by (rewrite Er; destruct l; try reflexivity; congruence). clear Er. subst r. split; [reflexivity|].
  assert (P0 : p <> 0). { intros ->. destruct (allocate_eff _ _ _ _ _ _ _ _ _ _ U (w64_lt _) HA E) as [(C & _)|(q & real & Eq & _ & (G & _) & _)]; [discriminate|]. injection Eq as <-. lia. }
  destruct X as [->|[_ ->]].
  - exfalso. unfold allocateArray in H. rewrite E in H. cbn [obind fst snd] in H. destruct (N.eqb_spec p 0); [congruence|]. apply (f_equal (fun o => match o with Ret x => getAllocationInfo (snd x) p | _ => None end)) in H. cbn [snd] in H.
    unfold getAllocationInfo in H, Q. cbn [set_allocs allocs] in H. rewrite find_upd, N.eqb_refl, Q, N.eqb_refl in H. discriminate.
  - intros q. unfold getAllocationInfo. cbn [set_allocs allocs]. rewrite find_upd. unfold getAllocationInfo in Q. rewrite Q. destruct (q =? p); reflexivity.
Qed.
Lemma object_info cv s ty z f l p junk r s' : reach cv s -> z < 2 ^ 64 -> answer_ok (blocks s) z f l 64 (Some p) -> l <> CANARY -> allocateObject cv s ty z f l (Some p) junk = Ret (r, s') ->
  r = p /\ (forall q, getAllocationInfo s' q = if q =? p then Some (mkInfo p p z (Some ty) false false) else getAllocationInfo s q).
Proof.
  intros R Hz HA HL H. pose proof (reach_ui _ _ R) as U. destruct (obj_eff _ _ _ _ _ _ _ _ _ _ U Hz HA H) as (s1 & E & X). destruct (track_info _ _ _ _ _ _ _ _ _ _ R Hz HA E) as (Er & Fr & Q). assert (Er' : r = p) by (rewrite Er; destruct l; try reflexivity; congruence). clear Er. subst r. split; [reflexivity|].
  assert (P0 : p <> 0). { intros ->. destruct (allocate_eff _ _ _ _ _ _ _ _ _ _ U Hz HA E) as [(C & _)|(q & real & Eq & _ & (G & _) & _)]; [discriminate|]. injection Eq as <-. lia. }
  destruct X as [->|[_ ->]].
  - exfalso. unfold allocateObject in H. rewrite E in H. cbn [obind fst snd] in H. destruct (N.eqb_spec p 0); [congruence|]. apply (f_equal (fun o => match o with Ret x => getAllocationInfo (snd x) p | _ => None end)) in H. cbn [snd] in H.
    unfold getAllocationInfo in H, Q. cbn [set_allocs allocs] in H. rewrite find_upd, N.eqb_refl, Q, N.eqb_refl in H. discriminate.
  - intros q. unfold getAllocationInfo. cbn [set_allocs allocs]. rewrite find_upd. unfold getAllocationInfo in Q. rewrite Q. destruct (q =? p); reflexivity.
Qed.
(* an array whose size in bytes wraps *)
Lemma wrap_array cv s ty z c p junk : reach cv s -> 2 ^ 64 <= z * c -> (z * c) mod 2 ^ 64 < 2 ^ 60 -> granted (blocks s) p ((z * c) mod 2 ^ 64) ->
  exists s', allocateArray cv s ty z c plain NONE (Some p) junk = Ret (p, s') /\ reach cv s' /\ inside (blocks s') p (z * c) = false.
Proof.
  intros R H1 H2 G. fold (w64 (z * c)) in *. assert (M : modest (w64 (z * c)) 64) by (split; [exact H2|change (2 ^ 60) with 1152921504606846976; lia]).
  assert (HA : answer_ok (blocks s) (w64 (z * c)) plain NONE 64 (Some p)) by (intros real HR; injection HR as <-; split; [exact G|discriminate]).
  destruct (alloc_completes cv s _ plain NONE 64 p junk (reach_ui _ _ R) M HA ltac:(tauto)) as (r & s1 & E). assert (X : exists s', allocateArray cv s ty z c plain NONE (Some p) junk = Ret (r, s')).
  { unfold allocateArray. rewrite E. cbn [obind fst snd]. destruct (r =? 0); eauto. }
  destruct X as (s' & X). destruct (array_info _ _ _ _ _ _ _ _ _ _ _ R HA ltac:(discriminate) X) as (-> & _). exists s'. split; [exact X|].
  assert (R' : reach cv s') by (apply (reach_step cv s (UArray ty z c plain NONE (Some p) junk)); [exact R|exact HA|cbn [ustep]; rewrite X; reflexivity]).
  split; [exact R'|]. change (2 ^ 64) with 18446744073709551616 in *. apply out_of_space; [exact (reach_ui _ _ R')|change (2 ^ 64) with 18446744073709551616; lia|lia].
Qed.
(** ** protection of live blocks *)
Lemma inside_access s p n i : UI s -> find p (allocs s) = Some i -> inside (blocks s) p n = true -> access (blocks s) p 0 n = true.
Proof.
  intros U F H. apply access_spec. unfold inside in H. destruct (N.eqb_spec n 0) as [->|N0]; [auto|]. right. cbn [orb] in H. apply existsb_exists in H. destruct H as ([k z] & I & H). cbn [fst snd] in H. apply andb_true_iff in H. destruct H as [L1 L2]. apply N.leb_le in L1, L2.
  apply find_some, (in_map fst), (ui_same _ U) in F. cbn [fst] in F. apply in_map_iff in F. destruct F as ([q z2] & E & F). cbn [fst] in E. subst q. destruct (N.eq_dec k p) as [->|D]; [exists z; split; [exact I|lia]|].
  destruct (spread_apart _ (ui_spread _ U) (k, z) (p, z2) I F D) as [A|A]; cbn [fst snd] in A; lia.
Qed.
Lemma protect_quiet cv s p i l : reach cv s -> getAllocationInfo s p = Some i -> inside (blocks s) p (isize i) = true -> l = NONE \/ l = CRC ->
  exists s', protectMemory cv s p l = Ret (true, s') /\ mem s' = mem s /\ blocks s' = blocks s /\ (forall q, getAllocationInfo s' q = if q =? p then Some (set_prot true i) else getAllocationInfo s q).
Proof.
  intros R F IN HL. unfold getAllocationInfo in *. pose proof (reach_ui _ _ R) as U. pose proof (tracked_pos _ _ _ U F) as P0. pose proof (inside_access _ _ _ _ U F IN) as AC.
  assert (RM : exists al t, (if prot i then snd (removeMemoryProtection s p) else s) = set_allocs s al t) by (destruct (prot i) eqn:P; [unfold removeMemoryProtection; destruct (N.eqb_spec p 0); [congruence|]; rewrite F, P; cbn [snd]; eauto|exists (allocs s), (st s); destruct s; reflexivity]). destruct RM as (al & t & RM).
  assert (X : exists s', protectMemory cv s p l = Ret (true, s') /\ mem s' = mem s).
  { unfold protectMemory. rewrite F, RM. unfold setupMemoryProtection. destruct (N.eqb_spec p 0); [congruence|]. destruct HL as [->| ->]; [cbn [obind fst snd]; eexists; split; reflexivity|]. cbn [set_allocs blocks]. rewrite AC. cbn [obind fst snd]. eexists; split; reflexivity. }
  destruct X as (s' & X & EM). exists s'. split; [exact X|]. split; [exact EM|]. destruct (protect_eff _ _ _ _ _ _ _ P0 F X) as (s1 & _ & _ & EB & _ & EA & _). split; [exact EB|]. intros q. rewrite EA, find_upd. destruct (N.eqb_spec q p) as [->|]; [rewrite F; reflexivity|reflexivity].
Qed.
(* protection of an allocation made without one *)
Lemma protect_fresh cv s n p junk s' : reach cv s -> n < 2 ^ 60 -> answer_ok (blocks s) n plain NONE 64 (Some p) -> allocate cv s n plain NONE 64 (Some p) junk = Ret (p, s') -> cv < 2 ^ 64 ->
  (8 <= n -> exists s2, protectMemory cv s' p CANARY = Ret (true, s2) /\ get_u64 (mem s2) (p + n - 8) = cv /\ (16 <= n -> get_u64 (mem s2) p = cv)) /\
  (n < 8 -> protectMemory cv s' p CANARY = UB UB_out_of_bounds) /\
  (0 < n -> protectMemory cv s' p ECC = UB UB_out_of_bounds /\ protectMemory cv s' p TMR = UB UB_out_of_bounds).
Proof.
  intros R Hn HA H CV. pose proof (reach_ui _ _ R) as U. assert (RQ : request n plain NONE 64 = Ret n) by reflexivity. destruct (HA n RQ) as [G _]. destruct (granted_fresh s p n U G) as (F & NB & P0).
  destruct (allocate_eff _ _ _ _ _ _ _ _ _ _ U (lt64 _ Hn) HA H) as [(C & _)|(q & real' & Eq & HR' & _ & _ & _ & Er & EB & EA & _)]; [discriminate|]. injection Eq as <-. rewrite RQ in HR'. injection HR' as <-.
  assert (F' : find p (allocs s') = Some (mkInfo p p n None false false)) by (rewrite EA, find_snoc, N.eqb_refl by exact F; reflexivity).
  unfold protectMemory. rewrite F'. cbn [prot isize]. unfold setupMemoryProtection. destruct (N.eqb_spec p 0); [congruence|]. rewrite EB, !access_own by exact NB. change (2 ^ 60) with 1152921504606846976 in Hn. split; [|split].
  - intros H8. assert (E : w64 (n + 2 ^ 64 - 8) = n - 8) by (replace (n + 2 ^ 64 - 8) with (n - 8 + 2 ^ 64) by (change (2 ^ 64) with 18446744073709551616; lia); rewrite w64_full; apply w64_small; change (2 ^ 64) with 18446744073709551616; lia). rewrite E.
    replace (0 + 8 <=? n) with true by (symmetry; apply N.leb_le; lia). replace (n - 8 + 8 <=? n) with true by (symmetry; apply N.leb_le; lia). rewrite !orb_true_r. cbn [andb obind fst snd set_mem set_allocs mem]. eexists. split; [reflexivity|]. cbn [set_allocs mem]. split.
    + replace (p + n - 8) with (p + (n - 8)) by lia. apply get_put_u64, CV.
    + intros H16. rewrite (get_u64_ext _ (put_u64 (mem s') p cv)) by (intros x X1 X2; apply get_put; lia). apply get_put_u64, CV.
  - intros H8. replace (0 + 8 <=? n) with false by (symmetry; apply N.leb_gt; lia). reflexivity.
  - intros H0. split.
    + assert (W : w64 (n + 7) = n + 7) by (apply w64_small; change (2 ^ 64) with 18446744073709551616; lia). rewrite W. assert (K : 0 < (n + 7) / 8) by (apply N.div_str_pos; lia). set (k := (n + 7) / 8) in *. clearbody k. replace (n + k <=? n) with false by (symmetry; apply N.leb_gt; lia). destruct (N.eqb_spec k 0); [lia|]. cbn [orb]. rewrite andb_false_r. reflexivity.
    + replace (n + n <=? n) with false by (symmetry; apply N.leb_gt; lia). destruct (N.eqb_spec n 0); [lia|]. cbn [orb]. rewrite andb_false_r. reflexivity.
Qed.
(** ** callbacks *)
Definition CI (k : N) (s : umm) : Prop := next_id s = k + 1 /\ NoDup (map fst (callbacks s)) /\ forall id g, In (id, g) (callbacks s) -> 0 < id /\ id < next_id s.
Lemma setup_cbs cv s p n l b s' : setupMemoryProtection cv s p n l = Ret (b, s') -> callbacks s' = callbacks s /\ next_id s' = next_id s.
Proof.
  intros H. destruct (N.eq_dec p 0) as [->|P0]; [injection H as <- <-; auto|]. destruct (setup_eff _ _ _ _ _ _ _ P0 H) as (_ & _ & _ & _ & A & B & _). auto.
Qed.
Lemma allocate_cbs cv s n f l al sys junk r s' : allocate cv s n f l al sys junk = Ret (r, s') -> callbacks s' = callbacks s /\ next_id s' = next_id s.
Proof.
  intros H. unfold allocate in H. apply obind_ret in H. destruct H as (real & _ & H). destruct sys as [p|]; [|destruct (nothrow f); [injection H as <- <-; auto|discriminate]]. destruct (_ && _); [discriminate|]. apply obind_ret in H. destruct H as ([b s1] & H1 & H). apply setup_cbs in H1. cbn [callbacks next_id] in H1. cbn [snd] in H. injection H as <- <-. cbn [trackAllocation set_allocs callbacks next_id]. exact H1.
Qed.
Lemma remove_cbs s p : callbacks (snd (removeMemoryProtection s p)) = callbacks s /\ next_id (snd (removeMemoryProtection s p)) = next_id s.
Proof. unfold removeMemoryProtection. destruct (p =? 0); [auto|]. destruct (find p (allocs s)) as [i|]; [|auto]. destruct (prot i); auto. Qed.
Lemma step_cbs cv s o s' : ustep cv s o = Ret s' -> match o with URegister _ | UUnregister _ => True | _ => callbacks s' = callbacks s /\ next_id s' = next_id s end.
Proof.
  intros H. destruct o; try exact I; cbn [ustep] in H.
  - destruct (allocate cv s n f l alignment sys junk) as [[r s1]| | |] eqn:E; cbn [keep snd] in H; try discriminate; injection H as <-; [eapply allocate_cbs; eauto|auto].
  - destruct (allocateObject cv s ty sizeofT f l sys junk) as [[r s1]| | |] eqn:E; cbn [keep snd] in H; try discriminate; injection H as <-; [|auto]. unfold allocateObject in E. apply obind_ret in E. destruct E as ([r2 s2] & E & X). cbn [fst snd] in X. apply allocate_cbs in E. destruct (r2 =? 0); injection X as _ <-; exact E.
  - destruct (allocateArray cv s ty sizeofT count f l sys junk) as [[r s1]| | |] eqn:E; cbn [keep snd] in H; try discriminate; injection H as <-; [|auto]. unfold allocateArray in E. apply obind_ret in E. destruct E as ([r2 s2] & E & X). cbn [fst snd] in X. apply allocate_cbs in E. destruct (r2 =? 0); injection X as _ <-; exact E.
  - apply obind_ret in H. destruct H as ([b s1] & E & H). injection H as <-. unfold deallocate in E. cbn [snd]. destruct (p =? 0); [injection E as _ <-; auto|]. destruct (find p (allocs s)) as [i|]; [|injection E as _ <-; auto]. destruct (prot i); [discriminate|]. destruct (existsb _ _); [|discriminate]. injection E as _ <-. auto.
  - injection H as <-. split; reflexivity.
  - injection H as <-. split; reflexivity.
  - apply obind_ret in H. destruct H as ([b s1] & E & H). injection H as <-. unfold protectMemory in E. cbn [snd]. destruct (find p (allocs s)) as [i|]; [|injection E as _ <-; auto]. apply obind_ret in E. destruct E as ([b2 s2] & E1 & E). apply setup_cbs in E1. cbn [fst snd] in E.
    assert (Q : callbacks s2 = callbacks s /\ next_id s2 = next_id s) by (destruct (prot i); [destruct (remove_cbs s p) as [A B]; rewrite A, B in E1|]; exact E1). destruct b2; injection E as _ <-; exact Q.
  - injection H as <-. unfold unprotectMemory. destruct (find p (allocs s)) as [i|]; [|auto]. destruct (prot i); [|auto]. pose proof (remove_cbs s p) as Q. destruct (removeMemoryProtection s p) as [ok s1]. cbn [snd] in Q. destruct ok; exact Q.
  - apply obind_ret in H. destruct H as (b & _ & H). injection H as <-. split; reflexivity.
  - injection H as <-. split; reflexivity.
  - destruct (inside _ _ _); [|discriminate]. injection H as <-. split; reflexivity.
Qed.
Lemma CI_register k s cb : CI k s -> k + 2 < 2 ^ 64 -> CI (k + 1) (snd (registerCorruptionCallback s cb)) /\ fst (registerCorruptionCallback s cb) = k + 1 /\ callbacks (snd (registerCorruptionCallback s cb)) = callbacks s ++ [(k + 1, cb)].
Proof.
  intros (E & ND & B) L. unfold registerCorruptionCallback. cbn [fst snd set_cbs callbacks next_id].
  assert (X : filter (fun c => negb (fst c =? next_id s)) (callbacks s) = callbacks s). { clear ND. induction (callbacks s) as [|[id g] l IH]; [reflexivity|]. cbn [filter fst]. destruct (N.eqb_spec id (next_id s)) as [C|C]; [exfalso; destruct (B id g (or_introl eq_refl)); lia|]. cbn [negb]. f_equal. apply IH. intros id' g' H. apply (B id' g'). right. exact H. }
  rewrite X, E. split; [|split; reflexivity]. unfold CI. cbn [set_cbs callbacks next_id]. split; [apply w64_small; lia|]. rewrite w64_small by lia. split.
  - rewrite map_app. cbn [map fst]. assert (NI : ~ In (k + 1) (map fst (callbacks s))) by (intros C; apply in_map_iff in C; destruct C as ([id g] & C1 & C2); cbn [fst] in C1; destruct (B id g C2); lia). clear -ND NI.
    induction (callbacks s) as [|c l IH]; [constructor; [auto|constructor]|]. cbn [map app] in *. inversion ND as [|? ? N1 N2]; subst. constructor; [|apply IH; [exact N2|intros C; apply NI; right; exact C]]. rewrite in_app_iff. intros [C|[C|[]]]; [auto|]. apply NI. left. auto.
  - intros id g H. apply in_app_iff in H. destruct H as [H|[H|[]]]; [destruct (B id g H); lia|]. injection H as <- <-. lia.
Qed.
Lemma CI_unregister k s id : CI k s -> CI k (snd (unregisterCorruptionCallback s id)).
Proof.
  intros (E & ND & B). unfold unregisterCorruptionCallback. cbn [snd]. split; [exact E|]. cbn [set_cbs callbacks next_id]. split.
  - clear -ND. induction (callbacks s) as [|[j g] l IH]; [constructor|]. cbn [filter map fst] in *. inversion ND as [|? ? N1 N2]; subst. destruct (negb (j =? id)); [|apply IH, N2]. cbn [map fst]. constructor; [|apply IH, N2]. intros C. apply N1. apply in_map_iff in C. destruct C as (c & C1 & C2). apply filter_In in C2. rewrite <- C1. apply in_map, C2.
  - intros j g H. apply filter_In in H. apply (B j g), H.
Qed.
Lemma after_cbs cv : forall ops s k s', CI k s -> k + registrations ops + 2 <= 2 ^ 64 -> urun cv s ops = Ret s' -> CI (k + registrations ops) s'.
Proof.
  induction ops as [|o ops IH]; intros s k s' C L H; cbn [urun] in H; [injection H as <-; unfold registrations; cbn [filter length N.of_nat]; rewrite N.add_0_r; exact C|]. apply obind_ret in H. destruct H as (s1 & H1 & H).
  assert (RC : registrations (o :: ops) = registrations ops + match o with URegister _ => 1 | _ => 0 end) by (unfold registrations; destruct o; cbn [filter length]; lia).
  pose proof (step_cbs _ _ _ _ H1) as SC. destruct o; cbn iota in SC, RC; rewrite RC in *; try rewrite N.add_0_r in *; try (destruct SC as [S1 S2]; apply (IH s1); [unfold CI in *; rewrite S1, S2; exact C|exact L|exact H]).
  - cbn [ustep] in H1. injection H1 as <-. destruct (CI_register k s cb C) as (C1 & _); [lia|]. replace (k + (registrations ops + 1)) with (k + 1 + registrations ops) by lia. apply (IH (snd (registerCorruptionCallback s cb))); [exact C1|lia|exact H].
  - cbn [ustep] in H1. injection H1 as <-. apply (IH (snd (unregisterCorruptionCallback s id))); [apply CI_unregister, C|exact L|exact H].
Qed.
Lemma CI0 m : CI 0 (umm0 m). Proof. split; [reflexivity|]. split; [constructor|intros ? ? []]. Qed.
(** ** pointer objects with canaries *)
Lemma canary_object cv w k ty z init p junk : reach cv (mgr w) -> rp w k = 0 -> z < 2 ^ 60 -> answer_ok (blocks (mgr w)) z plain CANARY 64 (Some p) ->
  exists w1 w2, make cv w k ty z CANARY false init (Some p) junk = Ret (None, w1) /\ rp w1 k = p + 8 /\ isProtected w1 k = false /\ reset w1 k 0 = Ret w2 /\ rp w2 k = 0 /\ isAllocated (mgr w) p = false /\ isAllocated (mgr w2) p = true.
Proof.
  intros R K Hz HA. assert (M : modest z 64) by (split; [exact Hz|change (2 ^ 60) with 1152921504606846976; lia]). destruct (alloc_completes cv (mgr w) z plain CANARY 64 p junk (reach_ui _ _ R) M HA ltac:(tauto)) as (r & s1 & E).
  destruct (canary_untracked _ _ _ _ _ _ _ _ _ R M HA E) as (-> & T1 & T2). destruct (track_info _ _ _ _ _ _ _ _ _ _ R (lt64 _ Hz) HA E) as (_ & Fr & Q). destruct (alloc_range _ _ _ _ _ _ _ _ _ _ R M HA E) as (IN & _).
  assert (OB : allocateObject cv (mgr w) ty z plain CANARY (Some p) junk = Ret (p + 8, s1)).
  { unfold allocateObject. rewrite E. cbn [obind fst snd]. destruct (N.eqb_spec (p + 8) 0); [lia|]. rewrite upd_none by (unfold isAllocated in T1; destruct (find (p + 8) (allocs s1)); [discriminate|reflexivity]). destruct s1; reflexivity. }
  assert (DE : forall m, deallocate (set_mem s1 m) (p + 8) = Ret (false, set_mem s1 m)). { intros m. unfold deallocate. destruct (p + 8 =? 0); [reflexivity|]. cbn [set_mem allocs]. unfold isAllocated in T1. destruct (find (p + 8) (allocs s1)); [discriminate|reflexivity]. }
  unfold make. change (mkFlags false false false) with plain. rewrite OB. rewrite IN. unfold reset at 1. cbn [rp mgr]. rewrite K. cbn [N.eqb obind]. eexists _, _. split; [reflexivity|]. cbn [rp mgr].
  assert (SK : set_rp (rp w) k (p + 8) k = p + 8) by (unfold set_rp; rewrite PeanoNat.Nat.eqb_refl; reflexivity). split; [exact SK|]. split.
  { unfold isProtected. cbn [rp mgr]. rewrite SK. destruct (p + 8 =? 0); [reflexivity|]. unfold getAllocationInfo. cbn [set_mem allocs]. unfold isAllocated in T1. destruct (find (p + 8) (allocs s1)); [discriminate|reflexivity]. }
  unfold reset. cbn [rp mgr]. rewrite SK. destruct (N.eqb_spec (p + 8) 0); [lia|]. rewrite DE. cbn [obind snd rp mgr]. split; [reflexivity|]. cbn [rp mgr]. split; [unfold set_rp; rewrite PeanoNat.Nat.eqb_refl; reflexivity|]. split; [rewrite is_info, Fr; reflexivity|exact T2].
Qed.
