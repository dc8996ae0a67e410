(** What a call does, case by case. *)
From Coq Require Import List NArith Bool Lia.
Import ListNotations.
From Verif Require Import Outcome Umm_Model Umm_Spec Umm_Proofs Umm2_Proofs Umm3_Proofs Umm4_Proofs Umm5_Proofs.
Local Open Scope N_scope.

(** ** histories grow *)
Lemma honest_app cv ops1 : forall ops2 s, honest cv s ops1 -> (forall s', urun cv s ops1 = Ret s' -> honest cv s' ops2) -> honest cv s (ops1 ++ ops2).
Proof.
  induction ops1 as [|o ops1 IH]; intros ops2 s H1 H2; cbn [app]; [apply H2; reflexivity|]. destruct H1 as [HC H1]. split; [exact HC|]. intros s' E. apply IH; [apply H1, E|]. intros s2 E2. apply H2. cbn [urun]. rewrite E. exact E2.
Qed.
Lemma urun_app cv ops1 : forall ops2 s, urun cv s (ops1 ++ ops2) = obind (urun cv s ops1) (fun s' => urun cv s' ops2).
Proof. induction ops1 as [|o ops1 IH]; intros ops2 s; [reflexivity|]. cbn [app urun]. destruct (ustep cv s o); cbn [obind]; auto. Qed.
Lemma after_snoc cv ops s o s' : after cv ops s -> contract s o -> ustep cv s o = Ret s' -> after cv (ops ++ [o]) s'.
Proof.
  intros (m & HH & HR) HC E. exists m. split.
  - apply honest_app; [exact HH|]. intros s1 E1. rewrite HR in E1. injection E1 as <-. split; [exact HC|]. intros s2 _. exact I.
  - rewrite urun_app, HR. cbn [obind urun]. rewrite E. reflexivity.
Qed.
Lemma reach_step cv s o s' : reach cv s -> contract s o -> ustep cv s o = Ret s' -> reach cv s'.
Proof. intros (ops & H) HC E. exists (ops ++ [o]). eapply after_snoc; eauto. Qed.
Lemma reach0 cv m : reach cv (umm0 m). Proof. exists [], m. split; [exact I|reflexivity]. Qed.

(** ** tracking *)
Lemma find_snoc l p i q : find p l = None -> find q (l ++ [(p, i)]) = if q =? p then Some i else find q l.
Proof. intros F. rewrite find_app. cbn [find]. destruct (N.eqb_spec q p) as [->|D]; [rewrite F, N.eqb_refl; reflexivity|]. destruct (find q l); [reflexivity|]. destruct (N.eqb_spec p q); [congruence|reflexivity]. Qed.
Lemma is_info s p : isAllocated s p = match getAllocationInfo s p with Some _ => true | None => false end. Proof. reflexivity. Qed.
Lemma lt64 n : n < 2 ^ 60 -> n < 2 ^ 64. Proof. change (2 ^ 60) with 1152921504606846976. change (2 ^ 64) with 18446744073709551616. lia. Qed.
Lemma track_info cv s n f l al p junk r s' : reach cv s -> n < 2 ^ 64 -> answer_ok (blocks s) n f l al (Some p) -> allocate cv s n f l al (Some p) junk = Ret (r, s') ->
  r = start l p /\ getAllocationInfo s p = None /\ (forall q, getAllocationInfo s' q = if q =? p then Some (mkInfo r p n None false false) else getAllocationInfo s q).
Proof.
  intros R Hn HA H. destruct (allocate_eff _ _ _ _ _ _ _ _ _ _ (reach_ui _ _ R) Hn HA H) as [(C & _)|(q & real & Eq & HR & G & _ & F & Er & EB & EA & _)]; [discriminate|]. injection Eq as <-.
  split; [exact Er|]. split; [exact F|]. intros q. unfold getAllocationInfo. rewrite EA. apply find_snoc, F.
Qed.
Lemma free_info cv s p b s' : reach cv s -> deallocate s p = Ret (b, s') -> b = isAllocated s p /\ (forall q, getAllocationInfo s' q = if q =? p then None else getAllocationInfo s q) /\ mem s' = mem s /\ blocks s' = filter (fun c => negb (fst c =? p)) (blocks s).
Proof.
  intros R H. pose proof (reach_ui _ _ R) as U. destruct (find p (allocs s)) as [i|] eqn:F.
  - destruct (prot i) eqn:P; [unfold deallocate in H; destruct (N.eqb_spec p 0) as [C|_]; [exfalso; exact (tracked_pos _ _ _ U F C)|]; rewrite F, P in H; discriminate|]. destruct (dealloc_ok _ _ _ U F P) as (s2 & E & EA & _ & _ & EM & EB). rewrite E in H. injection H as <- <-.
    split; [unfold isAllocated; rewrite F; reflexivity|]. split; [|split; assumption]. intros q. unfold getAllocationInfo. rewrite EA. apply find_del, U.
  - assert (X : b = false /\ s' = s). { unfold deallocate in H. destruct (p =? 0); [injection H as <- <-; auto|]. rewrite F in H. injection H as <- <-. auto. } destruct X as [-> ->].
    split; [unfold isAllocated; rewrite F; reflexivity|]. split; [|split; [reflexivity|]].
    + intros q. destruct (N.eqb_spec q p) as [->|]; [exact F|reflexivity].
    + symmetry. apply find_none in F. rewrite (ui_same _ U) in F. clear -F. induction (blocks s) as [|[k z] l IH]; [reflexivity|]. cbn [map fst In] in F. cbn [filter fst]. destruct (N.eqb_spec k p); [tauto|]. cbn [negb]. f_equal. apply IH. tauto.
Qed.
Lemma filter_same p (l : list (N * N)) : ~ In p (map fst l) -> filter (fun c => negb (fst c =? p)) l = l.
Proof. induction l as [|[k z] l IH]; [reflexivity|]. cbn [map fst In filter]. intros F. destruct (N.eqb_spec k p); [tauto|]. cbn [negb]. f_equal. apply IH. tauto. Qed.
Lemma canary_untracked cv s n f al p junk r s' : reach cv s -> modest n al -> answer_ok (blocks s) n f CANARY al (Some p) -> allocate cv s n f CANARY al (Some p) junk = Ret (r, s') -> r = p + 8 /\ isAllocated s' r = false /\ isAllocated s' p = true.
Proof.
  intros R M HA H. pose proof (reach_ui _ _ R) as U. destruct (track_info _ _ _ _ _ _ _ _ _ _ R (lt64 _ (proj1 M)) HA H) as (Er & _ & Q). cbn [start] in Er. split; [exact Er|]. split.
  - rewrite is_info, Q. destruct (N.eqb_spec r p); [lia|]. destruct (getAllocationInfo s r) as [i|] eqn:F; [|reflexivity]. exfalso.
    destruct (modest_request n f CANARY al M) as (real & HR & LR & _). destruct (HA real HR) as [(_ & _ & G) _]. cbn [need] in LR.
    unfold getAllocationInfo in F. apply find_some, (in_map fst) in F. cbn [fst] in F. apply (ui_same _ U) in F. apply in_map_iff in F. destruct F as ([k z] & E & F). cbn [fst] in E. subst k. rewrite Forall_forall in G. specialize (G _ F). cbn [fst snd] in G. lia.
  - rewrite is_info, Q, N.eqb_refl. reflexivity.
Qed.
(** ** sizes *)
Lemma alloc_iff cv s n f l al p junk : reach cv s -> modest n al -> answer_ok (blocks s) n f l al (Some p) ->
  exists real, request n f l al = Ret real /\ need n l <= real /\ (aligned f = false -> real = need n l) /\
    (if need n l + behind (need n l) l <=? real then exists s', allocate cv s n f l al (Some p) junk = Ret (start l p, s') else allocate cv s n f l al (Some p) junk = UB UB_out_of_bounds).
Proof.
  intros R M HA. pose proof (reach_ui _ _ R) as U. destruct (modest_request n f l al M) as (real & HR & LR & LR2 & LR3). exists real. split; [exact HR|]. split; [exact LR|]. split; [exact LR3|].
  destruct (HA real HR) as [G _]. destruct (granted_fresh s p real U G) as (F & NB & P0). pose proof (proj1 M) as Hn. destruct (calc_need n l Hn) as [EC LC].
  assert (SIMPLE : l = NONE \/ l = CRC \/ l = CANARY -> exists s', allocate cv s n f l al (Some p) junk = Ret (start l p, s')).
  { intros HL. destruct (alloc_completes cv s n f l al p junk U M HA HL) as (r & s' & E). destruct (track_info _ _ _ _ _ _ _ _ _ _ R (lt64 _ Hn) HA E) as (Er & _). subst r. eauto. }
  destruct (N.leb_spec (need n l + behind (need n l) l) real) as [L|L]; destruct l; try (apply SIMPLE; tauto); cbn [behind] in L; try lia; unfold allocate; rewrite HR, EC; cbn [obind]; rewrite access_own by exact NB;
    replace (0 + need n _ <=? real) with true by (symmetry; apply N.leb_le; lia); rewrite orb_true_r; cbn [negb]; rewrite andb_false_r; set (m := if zero f then _ else _); unfold setupMemoryProtection; (destruct (N.eqb_spec p 0); [congruence|]); cbn [blocks allocs st deflt callbacks next_id mem]; rewrite !access_own by exact NB;
    [set (a := need n ECC) in *|set (a := need n TMR) in *|set (a := need n ECC) in *|set (a := need n TMR) in *]; clearbody a; change (2 ^ 62) with 4611686018427387904 in LC.
  - assert (W : w64 (a + 7) = a + 7) by (apply w64_small; change (2 ^ 64) with 18446744073709551616; lia). rewrite W. set (k := (a + 7) / 8) in *. clearbody k.
    replace (0 + a <=? real) with true by (symmetry; apply N.leb_le; lia). replace (a + k <=? real) with true by (symmetry; apply N.leb_le; lia). rewrite !orb_true_r. cbn [andb obind]. eexists. reflexivity.
  - remember (2 * a) as d eqn:D. replace (0 + a <=? real) with true by (symmetry; apply N.leb_le; lia). replace (a + a <=? real) with true by (symmetry; apply N.leb_le; lia). replace (d + a <=? real) with true by (symmetry; apply N.leb_le; lia). rewrite !orb_true_r. cbn [andb obind]. eexists. reflexivity.
  - assert (W : w64 (a + 7) = a + 7) by (apply w64_small; change (2 ^ 64) with 18446744073709551616; lia). rewrite W. set (k := (a + 7) / 8) in *. clearbody k.
    replace (a + k <=? real) with false by (symmetry; apply N.leb_gt; lia). destruct (N.eqb_spec k 0) as [->|]; [lia|]. cbn [orb]. rewrite andb_false_r. reflexivity.
  - remember (2 * a) as d eqn:D. replace (d + a <=? real) with false by (symmetry; apply N.leb_gt; lia). destruct (N.eqb_spec a 0); [lia|]. cbn [orb]. rewrite andb_false_r. reflexivity.
Qed.
Lemma behind_pos a l : 0 < a -> l = ECC \/ l = TMR -> 0 < behind a l.
Proof. intros H [->| ->]; cbn [behind]; [|lia]. apply N.div_str_pos. lia. Qed.
(** ** ranges *)
Lemma alloc_range cv s n f l al p junk r s' : reach cv s -> modest n al -> answer_ok (blocks s) n f l al (Some p) -> allocate cv s n f l al (Some p) junk = Ret (r, s') ->
  inside (blocks s') r n = true /\ exists real, blocks s' = (p, real) :: blocks s /\ p <= r /\ r + n <= p + real /\ Forall (fun b => p + real <= fst b \/ fst b + snd b <= p) (blocks s) /\ (forall x, x < p \/ p + real <= x -> mem s' x = mem s x).
Proof.
  intros R M HA H. pose proof (reach_ui _ _ R) as U. destruct (modest_request n f l al M) as (real & HR & LR & _). destruct (allocate_eff _ _ _ _ _ _ _ _ _ _ U (lt64 _ (proj1 M)) HA H) as [(C & _)|(q & real' & Eq & HR' & G & _ & F & Er & EB & EA & _ & _ & _ & _ & EM)]; [discriminate|]. injection Eq as <-. rewrite HR in HR'. injection HR' as <-.
  assert (RG : p <= r /\ r + n <= p + real) by (pose proof (need_ge n l); subst r; destruct l; cbn [start need] in *; lia). split.
  - unfold inside. rewrite EB. cbn [existsb fst snd]. replace (p <=? r) with true by (symmetry; apply N.leb_le; lia). replace (r + n <=? p + real) with true by (symmetry; apply N.leb_le; lia). apply orb_true_r.
  - exists real. split; [exact EB|]. split; [apply RG|]. split; [apply RG|]. split; [|exact EM]. destruct G as (_ & _ & G). eapply Forall_impl; [|exact G]. intros [k z]. cbn [fst snd]. lia.
Qed.
Lemma out_of_space s a n : UI s -> 2 ^ 64 <= a + n -> 0 < n -> inside (blocks s) a n = false.
Proof.
  intros U H Hn. unfold inside. destruct (N.eqb_spec n 0); [lia|]. cbn [orb]. apply not_true_is_false. intros C. apply existsb_exists in C. destruct C as ([k z] & I & C). cbn [fst snd] in C. apply andb_true_iff in C. destruct C as [_ C]. apply N.leb_le in C. destruct (ui_room _ U _ _ I). lia.
Qed.
