(** The statistics over histories. *)
From Coq Require Import List NArith Bool Lia Permutation.
Import ListNotations.
From Verif Require Import Outcome Umm_Model Umm_Spec Umm_Proofs Umm2_Proofs Umm3_Proofs.
Local Open Scope N_scope.

Lemma nodup_bound B (l : list N) : NoDup l -> Forall (fun x => x < B) l -> N.of_nat (length l) <= B.
Proof.
  intros H F. assert (K : (length (map N.to_nat l) <= length (seq 0 (N.to_nat B)))%nat).
  { apply NoDup_incl_length; [apply FinFun.Injective_map_NoDup; [intros x y; apply N2Nat.inj|exact H]|]. intros x Hx. apply in_map_iff in Hx. destruct Hx as (y & <- & Hy). rewrite Forall_forall in F. specialize (F y Hy). apply in_seq. lia. }
  rewrite map_length, seq_length in K. lia.
Qed.
Lemma count_bound s : UI s -> N.of_nat (length (allocs s)) < 2 ^ 64.
Proof.
  intros U. assert (H : N.of_nat (length (0 :: map fst (allocs s))) <= 2 ^ 64).
  { assert (P : forall x, In x (map fst (allocs s)) -> 0 < x < 2 ^ 64).
    { intros x Hx. apply (ui_same _ U) in Hx. apply in_map_iff in Hx. destruct Hx as ([p z] & E & Hx). cbn in E. subst x. pose proof (ui_room _ U _ _ Hx) as R. remember (2 ^ 64) as W. lia. }
    apply nodup_bound; [constructor; [intros C; apply P in C; lia|apply U]|]. constructor; [reflexivity|]. apply Forall_forall. intros x Hx. apply P in Hx. tauto. }
  cbn [length] in H. rewrite map_length in H. remember (2 ^ 64) as W. lia.
Qed.
(** counts and sums by core *)
Definition nlive (c : list (N * (N * bool))) : N := N.of_nat (length c).
Definition blive (c : list (N * (N * bool))) : N := fold_right N.add 0 (map (fun a => fst (snd a)) c).
Definition nprot (c : list (N * (N * bool))) : N := N.of_nat (length (filter (fun a => snd (snd a)) c)).
Definition bprot (c : list (N * (N * bool))) : N := blive (filter (fun a => snd (snd a)) c).
Lemma live_core s : live_bytes s = blive (core (allocs s)).
Proof. unfold live_bytes, blive, core. rewrite map_map. reflexivity. Qed.
Lemma nlive_core l : nlive (core l) = N.of_nat (length l).
Proof. unfold nlive, core. rewrite map_length. reflexivity. Qed.
Lemma prot_core s : N.of_nat (length (protected_live s)) = nprot (core (allocs s)).
Proof. unfold protected_live, nprot, core. f_equal. induction (allocs s) as [|[k i] l IH]; [reflexivity|]. cbn [map filter fst snd]. destruct (prot i); cbn [length]; lia. Qed.
Lemma pbytes_core s : fold_right N.add 0 (map (fun a => isize (snd a)) (protected_live s)) = bprot (core (allocs s)).
Proof. unfold protected_live, bprot, blive, core. induction (allocs s) as [|[k i] l IH]; [reflexivity|]. cbn [map filter fst snd]. destruct (prot i); cbn [map fold_right fst snd]; rewrite ?IH; reflexivity. Qed.
Lemma blive_app c d : blive (c ++ d) = blive c + blive d.
Proof. unfold blive. induction c as [|a c IH]; [reflexivity|]. cbn [app map fold_right]. lia. Qed.
Lemma nprot_app c d : nprot (c ++ d) = nprot c + nprot d.
Proof. unfold nprot. rewrite filter_app, app_length. lia. Qed.
Lemma bprot_app c d : bprot (c ++ d) = bprot c + bprot d.
Proof. unfold bprot. rewrite filter_app. apply blive_app. Qed.
Definition b2n (b : bool) : N := if b then 1 else 0.
Lemma core_cons k i l : nlive (core ((k, i) :: l)) = 1 + nlive (core l) /\ blive (core ((k, i) :: l)) = isize i + blive (core l) /\
  nprot (core ((k, i) :: l)) = b2n (prot i) + nprot (core l) /\ bprot (core ((k, i) :: l)) = (if prot i then isize i else 0) + bprot (core l).
Proof.
  unfold nlive, blive, nprot, bprot, blive, b2n. cbn [core map length fold_right fst snd filter]. fold (core l). destruct (prot i); cbn [map length fold_right fst snd]; repeat split; lia.
Qed.
Lemma core_del p l i : find p l = Some i -> nlive (core l) = nlive (core (del p l)) + 1 /\ blive (core l) = blive (core (del p l)) + isize i /\
  nprot (core l) = nprot (core (del p l)) + b2n (prot i) /\ bprot (core l) = bprot (core (del p l)) + (if prot i then isize i else 0).
Proof.
  induction l as [|[k j] l IH]; [discriminate|]. cbn [find del]. destruct (k =? p).
  - intros H. injection H as ->. destruct (core_cons k i l) as (-> & -> & -> & ->). repeat split; lia.
  - intros H. destruct (IH H) as (A & B & C & D). destruct (core_cons k j l) as (-> & -> & -> & ->). destruct (core_cons k j (del p l)) as (-> & -> & -> & ->). repeat split; lia.
Qed.
Lemma core_upd p l i b : find p l = Some i -> nlive (core (upd p (set_prot b) l)) = nlive (core l) /\ blive (core (upd p (set_prot b) l)) = blive (core l) /\
  nprot (core (upd p (set_prot b) l)) + b2n (prot i) = nprot (core l) + b2n b /\ bprot (core (upd p (set_prot b) l)) + (if prot i then isize i else 0) = bprot (core l) + (if b then isize i else 0).
Proof.
  induction l as [|[k j] l IH]; [discriminate|]. cbn [find upd]. destruct (k =? p).
  - intros H. injection H as ->. destruct (core_cons k i l) as (-> & -> & -> & ->). destruct (core_cons k (set_prot b i) l) as (-> & -> & -> & ->). cbn [set_prot isize prot]. repeat split; lia.
  - intros H. destruct (IH H) as (A & B & C & D). destruct (core_cons k j l) as (-> & -> & -> & ->). destruct (core_cons k j (upd p (set_prot b) l)) as (-> & -> & -> & ->). repeat split; lia.
Qed.
(** reset *)
Lemma reset_stats s : UI s -> st (resetStats s) = mkStats (N.of_nat (length (allocs s))) 0 0 0 (w64 (blive (core (allocs s)))) 0 (w64 (nprot (core (allocs s)))) (w64 (bprot (core (allocs s)))) 0 0 0.
Proof.
  intros U. unfold resetStats. cbn [set_allocs st].
  assert (G : forall l n b pn pb, fold_left (fun t (a : N * info) => let i := snd a in mkStats (cur_n t) (peak_n t) (tot_alloc t) (tot_dealloc t) (w64 (cur_b t + isize i)) (peak_b t)
      (if prot i then w64 (prot_n t + 1) else prot_n t) (if prot i then w64 (prot_b t + isize i) else prot_b t) (detected t) (repaired t) (leaked t)) l (mkStats n 0 0 0 (w64 b) 0 (w64 pn) (w64 pb) 0 0 0)
      = mkStats n 0 0 0 (w64 (b + blive (core l))) 0 (w64 (pn + nprot (core l))) (w64 (pb + bprot (core l))) 0 0 0).
  { induction l as [|[k i] l IH]; intros n b pn pb; cbn [fold_left].
    - unfold blive, nprot, bprot, blive. cbn. rewrite !N.add_0_r. reflexivity.
    - cbn [snd cur_n peak_n tot_alloc tot_dealloc cur_b peak_b prot_n prot_b detected repaired leaked]. rewrite w64_idem.
      replace (if prot i then w64 (w64 pn + 1) else w64 pn) with (w64 (pn + b2n (prot i))) by (destruct (prot i); cbn [b2n]; [symmetry; apply w64_idem|rewrite N.add_0_r; reflexivity]).
      replace (if prot i then w64 (w64 pb + isize i) else w64 pb) with (w64 (pb + (if prot i then isize i else 0))) by (destruct (prot i); [symmetry; apply w64_idem|rewrite N.add_0_r; reflexivity]).
      rewrite IH. destruct (core_cons k i l) as (_ & -> & -> & ->). f_equal; f_equal; lia. }
  specialize (G (allocs s) (N.of_nat (length (allocs s))) 0 0 0). change (w64 0) with 0 in G. rewrite !N.add_0_l in G. exact G.
Qed.
(** ** invariants *)
Definition SI (s : umm) : Prop := cur_n (st s) = nlive (core (allocs s)) /\ cur_b (st s) = w64 (blive (core (allocs s))).
Definition PI (s : umm) : Prop := prot_n (st s) = nprot (core (allocs s)) /\ prot_b (st s) = w64 (bprot (core (allocs s))).
Lemma nprot_le c : nprot c <= nlive c.
Proof. unfold nprot, nlive. induction c as [|a c IH]; [cbn; lia|]. cbn [filter]. destruct (snd (snd a)); cbn [length]; lia. Qed.
Lemma nlive_lt s : UI s -> nlive (core (allocs s)) < 2 ^ 64.
Proof. intros U. rewrite nlive_core. apply count_bound, U. Qed.
Lemma w64_pred x : 0 < x -> x < 2 ^ 64 -> w64 (x + 2 ^ 64 - 1) = x - 1.
Proof. intros H1 H2. replace (x + 2 ^ 64 - 1) with (x - 1 + 2 ^ 64) by lia. rewrite w64_full. apply w64_small. lia. Qed.
Lemma w64_sub a n : n < 2 ^ 64 -> w64 (w64 (a + n) + 2 ^ 64 - n) = w64 a.
Proof. intros H. replace (w64 (a + n) + 2 ^ 64 - n) with (w64 (a + n) + (2 ^ 64 - n)) by lia. rewrite w64_idem. replace (a + n + (2 ^ 64 - n)) with (a + 2 ^ 64) by lia. apply w64_full. Qed.
Lemma SI_step cv s o s' : UI s -> SI s -> contract s o -> ustep cv s o = Ret s' -> UI s' /\ SI s' /\ eff s o s'.
Proof.
  intros U [S1 S2] HC H. destruct (step_ok _ _ _ _ U HC H) as [U' E]. split; [exact U'|]. split; [|exact E]. unfold SI. pose proof (nlive_lt _ U') as B'. pose proof (nlive_lt _ U) as B. destruct E as [E1 E2|p n F L E1 E2|p i F P E1 E2|p i F E1 E2|p i Q F P E1 E2|Q E|n E1 E2].
  - rewrite E1, E2. auto.
  - rewrite E2, E1 in *. cbn [counted cur_n cur_b]. rewrite S1, S2. rewrite blive_app. unfold nlive in *. rewrite app_length in *. cbn [length] in *. replace (blive [(p, (n, false))]) with n by (unfold blive; cbn; lia). rewrite w64_idem. split; [rewrite w64_small; lia|reflexivity].
  - rewrite E2, E1. cbn [freed cur_n cur_b]. destruct (core_del _ _ _ F) as (A & C & _). rewrite S1, S2, A, C. rewrite w64_sub by (apply (ui_info _ U p), find_some, F). split; [|reflexivity]. rewrite w64_pred; lia.
  - rewrite E2, E1. destruct (core_upd _ _ _ true F) as (A & C & _). rewrite A, C. destruct (prot i); cbn [protd unprot cur_n cur_b]; auto.
  - rewrite E2, E1. destruct (core_upd _ _ _ false F) as (A & C & _). rewrite A, C. cbn [unprot cur_n cur_b]; auto.
  - subst s'. rewrite reset_stats by exact U. cbn [cur_n cur_b resetStats set_allocs allocs]. rewrite nlive_core. auto.
  - rewrite E2, E1. cbn [leakd cur_n cur_b]. auto.
Qed.
Lemma PI_step cv s o s' : UI s -> PI s -> contract s o -> no_unprotect o -> ustep cv s o = Ret s' -> PI s'.
Proof.
  intros U [S1 S2] HC NU H. destruct (step_ok _ _ _ _ U HC H) as [U' E]. unfold PI. pose proof (nlive_lt _ U') as B'. pose proof (nprot_le (core (allocs s'))) as L'. destruct E as [E1 E2|p n F L E1 E2|p i F P E1 E2|p i F E1 E2|p i Q F P E1 E2|Q E|n E1 E2].
  - rewrite E1, E2. auto.
  - rewrite E2, E1 in *. cbn [counted prot_n prot_b]. rewrite nprot_app, bprot_app. change (nprot [(p, (n, false))]) with 0. change (bprot [(p, (n, false))]) with 0. rewrite S1, S2, !N.add_0_r. auto.
  - rewrite E2, E1. cbn [freed prot_n prot_b]. destruct (core_del _ _ _ F) as (_ & _ & A & C). rewrite P in A, C. cbn [b2n] in A. rewrite S1, S2, A, C, !N.add_0_r. auto.
  - rewrite E1 in *. rewrite E2. destruct (core_upd _ _ _ true F) as (N1 & _ & A & C). assert (I : isize i < 2 ^ 64) by (apply (ui_info _ U p), find_some, F). destruct (prot i) eqn:P; cbn [protd unprot prot_n prot_b b2n] in *; rewrite S1, S2.
    + assert (A' : nprot (core (upd p (set_prot true) (allocs s))) = nprot (core (allocs s))) by lia. assert (C' : bprot (core (upd p (set_prot true) (allocs s))) = bprot (core (allocs s))) by lia. rewrite A', C' in *. assert (G : 0 < nprot (core (allocs s))).
      { unfold nprot. apply find_some in F. assert (X : In (p, (isize i, prot i)) (filter (fun a => snd (snd a)) (core (allocs s)))) by (apply filter_In; split; [apply (in_map (fun a => (fst a, (isize (snd a), prot (snd a))))) in F; exact F|exact P]). destruct (filter _ _); [destruct X|cbn [length]; lia]. }
      split; [rewrite w64_pred by lia; rewrite w64_small; lia|].
      rewrite w64_idem. replace (w64 (bprot (core (allocs s))) + 2 ^ 64 - isize i + isize i) with (w64 (bprot (core (allocs s))) + 2 ^ 64) by lia. rewrite w64_full. unfold w64. apply N.mod_mod. discriminate.
    + assert (A' : nprot (core (upd p (set_prot true) (allocs s))) = nprot (core (allocs s)) + 1) by lia. assert (C' : bprot (core (upd p (set_prot true) (allocs s))) = bprot (core (allocs s)) + isize i) by lia. rewrite A', C' in *. rewrite w64_idem. split; [apply w64_small; lia|reflexivity].
  - subst o. destruct NU.
  - subst s'. rewrite reset_stats by exact U. cbn [prot_n prot_b resetStats set_allocs allocs]. split; [apply w64_small; pose proof (nprot_le (core (allocs s))); pose proof (nlive_lt _ U); lia|reflexivity].
  - rewrite E2, E1. cbn [leakd prot_n prot_b]. auto.
Qed.
(** induction over histories *)
Lemma run_ind (P : umm -> Prop) (Q : uop -> Prop) cv : (forall s o s', UI s -> P s -> contract s o -> Q o -> ustep cv s o = Ret s' -> P s') ->
  forall ops s s', UI s -> P s -> honest cv s ops -> Forall Q ops -> urun cv s ops = Ret s' -> UI s' /\ P s'.
Proof.
  intros HP. induction ops as [|o ops IH]; intros s s' U H HH HQ HR; cbn [urun] in HR; [injection HR as <-; auto|]. destruct HH as [HC HH]. inversion HQ as [|? ? Q1 Q2]; subst. apply obind_ret in HR. destruct HR as (s1 & H1 & HR).
  destruct (step_ok _ _ _ _ U HC H1) as [U1 _]. eapply IH; eauto.
Qed.
Lemma after_inv cv ops s : after cv ops s -> UI s /\ SI s.
Proof.
  intros (m & HH & HR). apply (run_ind SI (fun _ => True) cv) with (ops := ops) (s := umm0 m); auto.
  - intros s0 o s' U S HC _ H. eapply SI_step; eauto.
  - apply UI0.
  - split; reflexivity.
  - apply Forall_forall. auto.
Qed.
Lemma after_prot cv ops s : after cv ops s -> Forall no_unprotect ops -> PI s.
Proof.
  intros (m & HH & HR) HN. apply (run_ind PI no_unprotect cv) with (ops := ops) (s := umm0 m); auto.
  - intros s0 o s' U S HC Q H. eapply PI_step; eauto.
  - apply UI0.
  - split; reflexivity.
Qed.
(** balance of the totals *)
Definition TI (s : umm) : Prop := tot_alloc (st s) = w64 (tot_dealloc (st s) + nlive (core (allocs s))).
Lemma TI_step cv s o s' : UI s -> TI s -> contract s o -> no_reset o -> ustep cv s o = Ret s' -> TI s'.
Proof.
  intros U T HC NR H. destruct (step_ok _ _ _ _ U HC H) as [U' E]. unfold TI in *. pose proof (nlive_lt _ U') as B'. destruct E as [E1 E2|p n F L E1 E2|p i F P E1 E2|p i F E1 E2|p i Q F P E1 E2|Q E|n E1 E2].
  - rewrite E1, E2. auto.
  - rewrite E2, E1 in *. cbn [counted tot_alloc tot_dealloc]. rewrite T, w64_idem. f_equal. unfold nlive. rewrite app_length. cbn [length]. lia.
  - rewrite E2, E1. cbn [freed tot_alloc tot_dealloc]. destruct (core_del _ _ _ F) as (A & _). rewrite T, A, w64_idem. f_equal. lia.
  - rewrite E2, E1. destruct (core_upd _ _ _ true F) as (A & _). rewrite A. destruct (prot i); cbn [protd unprot tot_alloc tot_dealloc]; auto.
  - rewrite E2, E1. destruct (core_upd _ _ _ false F) as (A & _). rewrite A. exact T.
  - contradiction.
  - rewrite E2, E1. exact T.
Qed.
Lemma after_balance cv ops s : after cv ops s -> Forall no_reset ops -> TI s.
Proof.
  intros (m & HH & HR) HN. apply (run_ind TI no_reset cv) with (ops := ops) (s := umm0 m); auto.
  - intros s0 o s' U S HC Q H. eapply TI_step; eauto.
  - apply UI0.
  - reflexivity.
Qed.
(** peaks *)
Lemma peak_step cv s o s' : UI s -> SI s -> contract s o -> no_reset o -> ustep cv s o = Ret s' -> cur_n (st s) <= peak_n (st s) -> peak_n (st s') = N.max (peak_n (st s)) (cur_n (st s')).
Proof.
  intros U S HC NR H L. destruct (SI_step _ _ _ _ U S HC H) as (U' & [S1' _] & E). destruct S as [S1 _]. destruct E as [E1 E2|p n F L1 E1 E2|p i F P E1 E2|p i F E1 E2|p i Q F P E1 E2|Q E|n E1 E2].
  - rewrite E2. lia.
  - rewrite E2. reflexivity.
  - rewrite S1', E1, E2. cbn [freed peak_n]. destruct (core_del _ _ _ F) as (A & _). lia.
  - rewrite E2. destruct (prot i); cbn [protd unprot peak_n cur_n]; lia.
  - rewrite E2. cbn [unprot peak_n cur_n]. lia.
  - contradiction.
  - rewrite E2. cbn [leakd peak_n cur_n]. lia.
Qed.
Lemma peakb_step cv s o s' : UI s -> SI s -> contract s o -> no_reset o -> ustep cv s o = Ret s' -> live_bytes s < 2 ^ 64 -> live_bytes s' < 2 ^ 64 -> cur_b (st s) <= peak_b (st s) -> peak_b (st s') = N.max (peak_b (st s)) (cur_b (st s')).
Proof.
  intros U S HC NR H B B' L. rewrite live_core in *. destruct (SI_step _ _ _ _ U S HC H) as (U' & [_ S2'] & E). destruct S as [_ S2]. destruct E as [E1 E2|p n F L1 E1 E2|p i F P E1 E2|p i F E1 E2|p i Q F P E1 E2|Q E|n E1 E2].
  - rewrite E2. lia.
  - rewrite E2. reflexivity.
  - rewrite S2', E1, E2. cbn [freed peak_b]. rewrite w64_small in S2 by exact B. rewrite E1 in B'. rewrite w64_small by exact B'. destruct (core_del _ _ _ F) as (_ & A & _). lia.
  - rewrite E2. destruct (prot i); cbn [protd unprot peak_b cur_b]; lia.
  - rewrite E2. cbn [unprot peak_b cur_b]. lia.
  - contradiction.
  - rewrite E2. cbn [leakd peak_b cur_b]. lia.
Qed.
Lemma run_peak (cur peak : stats -> N) (good : umm -> Prop) cv :
  (forall s o s', UI s -> SI s -> contract s o -> no_reset o -> ustep cv s o = Ret s' -> good s -> good s' -> cur (st s) <= peak (st s) -> peak (st s') = N.max (peak (st s)) (cur (st s'))) ->
  forall ops s s', UI s -> SI s -> honest cv s ops -> Forall no_reset ops -> cur (st s) <= peak (st s) -> urun cv s ops = Ret s' ->
  (forall n s1, urun cv s (firstn n ops) = Ret s1 -> good s1) ->
  peak (st s) <= peak (st s') /\ (forall n s1, urun cv s (firstn n ops) = Ret s1 -> cur (st s1) <= peak (st s')) /\ (peak (st s') = peak (st s) \/ exists n s1, urun cv s (firstn n ops) = Ret s1 /\ peak (st s') = cur (st s1)).
Proof.
  intros HP. induction ops as [|o ops IH]; intros s s' U S HH HN L HR HG.
  - injection HR as <-. split; [lia|]. split; [|left; reflexivity]. intros n s1 H. rewrite firstn_nil in H. injection H as <-. exact L.
  - cbn [urun] in HR. apply obind_ret in HR. destruct HR as (s1 & H1 & HR). destruct HH as [HC HH]. inversion HN as [|? ? Q1 Q2]; subst. destruct (SI_step _ _ _ _ U S HC H1) as (U1 & S1 & _).
    assert (G0 : good s) by (apply (HG O); reflexivity). assert (G1 : good s1) by (apply (HG 1%nat); cbn [firstn urun]; rewrite H1; reflexivity).
    pose proof (HP _ _ _ U S HC Q1 H1 G0 G1 L) as E. destruct (IH s1 s' U1 S1 (HH _ H1) Q2 ltac:(lia) HR) as (A & B & C).
    { intros n s2 H2. apply (HG (Datatypes.S n)). cbn [firstn urun]. rewrite H1. exact H2. }
    split; [lia|]. split.
    + intros [|n] s2 H2; [injection H2 as <-; lia|]. cbn [firstn urun] in H2. rewrite H1 in H2. cbn [obind] in H2. eapply B, H2.
    + destruct C as [C|(n & s2 & C1 & C2)].
      * destruct (N.max_spec (peak (st s)) (cur (st s1))) as [[_ M]|[_ M]]; [|left; lia]. right. exists 1%nat, s1. split; [cbn [firstn urun]; rewrite H1; reflexivity|lia].
      * right. exists (Datatypes.S n), s2. split; [cbn [firstn urun]; rewrite H1; exact C1|exact C2].
Qed.
