(** The unified memory manager: C269-C286.  [reach cv s]: s is the manager after some history of its calls, in which malloc and
    aligned_alloc kept their contract; [cv] is the canary. *)
From Coq Require Import List NArith Bool Lia.
Import ListNotations.
From Verif Require Import Outcome Umm_Model Umm_Spec Umm_Proofs Umm2_Proofs Umm3_Proofs Umm4_Proofs Umm5_Proofs Umm6_Proofs Umm7_Proofs.
Local Open Scope N_scope.

(** ** a manager that has been used: 24 bytes at 4096, then 40 bytes at 8192 *)
Definition h1 : uop := UAlloc 24 plain NONE 64 (Some 4096) (fun x => x mod 256).
Definition h2 : uop := UObject 5 40 (mkFlags true false true) CRC (Some 8192) (fun _ => 9).
Example granted_1 : answer_ok [] 24 plain NONE 64 (Some 4096).
Proof. intros real H. injection H as <-. split; [|discriminate]. split; [reflexivity|]. split; [reflexivity|constructor]. Qed.
Example used_manager cv : exists s, reach cv s /\ blocks s = [(8192, 44); (4096, 24)] /\ cur_n (st s) = 2 /\ isAllocated s 4096 = true /\ isAllocated s 8192 = true /\ getAllocationInfo s 4096 = Some (mkInfo 4096 4096 24 None false false) /\ length (allocs s) = 2%nat.
Proof.
  assert (X : exists s1, reach cv s1 /\ blocks s1 = [(4096, 24)] /\ allocs s1 = [(4096, mkInfo 4096 4096 24 None false false)] /\ cur_n (st s1) = 1).
  { eexists. split; [apply (reach_step cv (umm0 (fun _ => 0)) h1); [apply reach0|split; [reflexivity|exact granted_1]|reflexivity]|]. split; [reflexivity|]. split; reflexivity. }
  destruct X as (s1 & R1 & B1 & A1 & C1).
  assert (G : answer_ok (blocks s1) 40 (mkFlags true false true) CRC 64 (Some 8192)). { intros real H. injection H as <-. split; [|discriminate]. rewrite B1. split; [reflexivity|]. split; [reflexivity|]. constructor; [right; vm_compute; discriminate|constructor]. }
  assert (M : modest 40 64) by (split; [reflexivity|split; [reflexivity|discriminate]]).
  destruct (alloc_completes cv s1 40 (mkFlags true false true) CRC 64 8192 (fun _ => 9) (reach_ui _ _ R1) M G ltac:(tauto)) as (r & s2 & E).
  assert (O : exists s3, allocateObject cv s1 5 40 (mkFlags true false true) CRC (Some 8192) (fun _ => 9) = Ret (r, s3) /\ blocks s3 = blocks s2 /\ st s3 = st s2).
  { unfold allocateObject. rewrite E. cbn [obind fst snd]. destruct (r =? 0); eexists; repeat split; reflexivity. }
  destruct O as (s3 & O & OB & OT). destruct (object_info _ _ _ _ _ _ _ _ _ _ R1 (eq_refl : 40 < 2 ^ 64) G ltac:(discriminate) O) as (-> & Q).
  destruct (allocate_eff _ _ _ _ _ _ _ _ _ _ (reach_ui _ _ R1) (eq_refl : 40 < 2 ^ 64) G E) as [(C & _)|(q & real & Eq & HR & _ & _ & _ & _ & EB & EA & ET & _)]; [discriminate|]. injection Eq as <-. injection HR as <-.
  assert (R3 : reach cv s3) by (apply (reach_step cv s1 h2); [exact R1|split; [reflexivity|exact G]|cbn [ustep h2]; rewrite O; reflexivity]).
  exists s3. split; [exact R3|]. rewrite OB, EB, B1. split; [reflexivity|]. split; [rewrite OT, ET; cbn [counted cur_n]; rewrite C1; reflexivity|].
  rewrite !is_info, !Q. unfold getAllocationInfo. rewrite A1. repeat (split; [reflexivity|]).
  destruct R3 as (ops & A3). destruct (after_inv _ _ _ A3) as (_ & [S1 _]). rewrite nlive_core, OT, ET in S1. cbn [counted cur_n] in S1. rewrite C1 in S1. change (w64 (1 + 1)) with 2 in S1. lia.
Qed.

(** ** C269: isAllocated and getAllocationInfo know exactly the live allocations *)
Theorem C269_allocate_partial : forall cv s n f l al p junk r s', reach cv s -> n < 2 ^ 64 -> l <> CANARY -> answer_ok (blocks s) n f l al (Some p) -> allocate cv s n f l al (Some p) junk = Ret (r, s') ->
  r = p /\ isAllocated s r = false /\ (forall q, getAllocationInfo s' q = if q =? r then Some (mkInfo r r n None false false) else getAllocationInfo s q) /\ (forall q, isAllocated s' q = (q =? r) || isAllocated s q).
Proof.
  intros cv s n f l al p junk r s' R Hn HL HA H. destruct (track_info _ _ _ _ _ _ _ _ _ _ R Hn HA H) as (Er & Fr & Q). assert (E : r = p) by (rewrite Er; destruct l; try reflexivity; congruence). clear Er. subst r. split; [reflexivity|]. split; [rewrite is_info, Fr; reflexivity|]. split; [exact Q|].
  intros q. rewrite !is_info, Q. destruct (q =? p); reflexivity.
Qed.
Theorem C269_object_partial : forall cv s ty z f l p junk r s', reach cv s -> z < 2 ^ 64 -> l <> CANARY -> answer_ok (blocks s) z f l 64 (Some p) -> allocateObject cv s ty z f l (Some p) junk = Ret (r, s') ->
  r = p /\ (forall q, getAllocationInfo s' q = if q =? p then Some (mkInfo p p z (Some ty) false false) else getAllocationInfo s q).
Proof. intros. eapply object_info; eauto. Qed.
Theorem C269_array_partial : forall cv s ty z c f l p junk r s', reach cv s -> l <> CANARY -> answer_ok (blocks s) ((z * c) mod 2 ^ 64) f l 64 (Some p) -> allocateArray cv s ty z c f l (Some p) junk = Ret (r, s') ->
  r = p /\ (forall q, getAllocationInfo s' q = if q =? p then Some (mkInfo p p ((z * c) mod 2 ^ 64) (Some ty) true false) else getAllocationInfo s q).
Proof. intros cv s ty z c f l p junk r s' R HL HA H. exact (array_info _ _ _ _ _ _ _ _ _ _ _ R HA HL H). Qed.
Theorem C269_deallocate : forall cv s p b s', reach cv s -> deallocate s p = Ret (b, s') -> b = isAllocated s p /\ (forall q, getAllocationInfo s' q = if q =? p then None else getAllocationInfo s q).
Proof. intros cv s p b s' R H. destruct (free_info _ _ _ _ _ R H) as (A & B & _). split; assumption. Qed.
Theorem C269_canary_refuted : forall cv s n f al p junk, reach cv s -> modest n al -> answer_ok (blocks s) n f CANARY al (Some p) ->
  exists s', allocate cv s n f CANARY al (Some p) junk = Ret (p + 8, s') /\ isAllocated s' (p + 8) = false /\ getAllocationInfo s' (p + 8) = None.
Proof.
  intros cv s n f al p junk R M HA. destruct (alloc_completes cv s n f CANARY al p junk (reach_ui _ _ R) M HA ltac:(tauto)) as (r & s' & E). destruct (canary_untracked _ _ _ _ _ _ _ _ _ R M HA E) as (-> & T & _). exists s'. split; [exact E|]. split; [exact T|]. rewrite is_info in T. destruct (getAllocationInfo s' (p + 8)); [discriminate|reflexivity].
Qed.
Example C269_nonvacuous cv : reach cv (umm0 (fun _ => 0)) /\ modest 24 64 /\ answer_ok (blocks (umm0 (fun _ => 0))) 24 plain NONE 64 (Some 4096) /\ answer_ok (blocks (umm0 (fun _ => 0))) 24 plain CANARY 64 (Some 4096).
Proof.
  split; [apply reach0|]. split; [split; [reflexivity|split; [reflexivity|discriminate]]|]. split; [exact granted_1|]. intros real H. injection H as <-. split; [|discriminate]. split; [reflexivity|]. split; [reflexivity|constructor].
Qed.

(** ** C270: what allocate returned can be deallocated *)
Theorem C270_roundtrip_partial : forall cv s n f l al p junk r s', reach cv s -> n < 2 ^ 64 -> l <> CANARY -> answer_ok (blocks s) n f l al (Some p) -> allocate cv s n f l al (Some p) junk = Ret (r, s') ->
  exists s'', deallocate s' r = Ret (true, s'') /\ blocks s'' = blocks s /\ (forall q, getAllocationInfo s'' q = getAllocationInfo s q).
Proof.
  intros cv s n f l al p junk r s' R Hn HL HA H. destruct (track_info _ _ _ _ _ _ _ _ _ _ R Hn HA H) as (Er & Fr & Q). assert (r = p) by (rewrite Er; destruct l; try reflexivity; congruence). clear Er. subst r.
  assert (R' : reach cv s') by (apply (reach_step cv s (UAlloc n f l al (Some p) junk)); [exact R|split; [exact Hn|exact HA]|cbn [ustep]; rewrite H; reflexivity]).
  assert (F : find p (allocs s') = Some (mkInfo p p n None false false)) by (unfold getAllocationInfo in Q; rewrite Q, N.eqb_refl; reflexivity). destruct (dealloc_ok _ _ _ (reach_ui _ _ R') F eq_refl) as (s2 & E & EA & _ & _ & _ & EB). exists s2. split; [exact E|].
  destruct (allocate_eff _ _ _ _ _ _ _ _ _ _ (reach_ui _ _ R) Hn HA H) as [(C & _)|(q & real & Eq & _ & G & _ & _ & _ & EB1 & EA1 & _)]; [discriminate|]. injection Eq as <-. destruct (granted_fresh s p real (reach_ui _ _ R) G) as (_ & NB & _). split.
  - rewrite EB, EB1. cbn [filter fst]. rewrite N.eqb_refl. cbn [negb]. apply filter_same, NB.
  - destruct (free_info _ _ _ _ _ R' E) as (_ & B & _). intros q. rewrite B, Q. destruct (N.eqb_spec q p) as [->|]; [symmetry; exact Fr|reflexivity].
Qed.
Theorem C270_canary_refuted : forall cv s n f al p junk, reach cv s -> modest n al -> answer_ok (blocks s) n f CANARY al (Some p) ->
  exists r s', allocate cv s n f CANARY al (Some p) junk = Ret (r, s') /\ deallocate s' r = Ret (false, s') /\ isAllocated s' p = true.
Proof.
  intros cv s n f al p junk R M HA. destruct (alloc_completes cv s n f CANARY al p junk (reach_ui _ _ R) M HA ltac:(tauto)) as (r & s' & E). destruct (canary_untracked _ _ _ _ _ _ _ _ _ R M HA E) as (-> & T & T2). exists (p + 8), s'. split; [exact E|]. split; [|exact T2].
  unfold deallocate. destruct (p + 8 =? 0); [reflexivity|]. unfold isAllocated in T. destruct (find (p + 8) (allocs s')); [discriminate|reflexivity].
Qed.
Example C270_nonvacuous cv : exists s', allocate cv (umm0 (fun _ => 0)) 24 plain NONE 64 (Some 4096) (fun x => x) = Ret (4096, s').
Proof. eexists. reflexivity. Qed.

(** ** C271: the statistics balance *)
Theorem C271_current : forall cv s, reach cv s -> cur_n (st s) = N.of_nat (length (allocs s)) /\ cur_b (st s) = live_bytes s mod 2 ^ 64.
Proof. intros cv s (ops & H). destruct (after_inv _ _ _ H) as (_ & [A B]). rewrite nlive_core in A. rewrite live_core. split; assumption. Qed.
Theorem C271_totals : forall cv ops s, after cv ops s -> Forall no_reset ops -> tot_alloc (st s) = (tot_dealloc (st s) + N.of_nat (length (allocs s))) mod 2 ^ 64.
Proof. intros cv ops s H HN. pose proof (after_balance _ _ _ H HN) as T. unfold TI in T. rewrite nlive_core in T. exact T. Qed.
Theorem C271_deallocations : forall cv s p s', reach cv s -> deallocate s p = Ret (true, s') -> tot_dealloc (st s') = (tot_dealloc (st s) + 1) mod 2 ^ 64 /\ tot_alloc (st s') = tot_alloc (st s) /\ peak_n (st s') = peak_n (st s) /\ peak_b (st s') = peak_b (st s).
Proof.
  intros cv s p s' R H. unfold deallocate in H. destruct (p =? 0); [discriminate|]. destruct (find p (allocs s)) as [i|]; [|discriminate]. destruct (prot i); [discriminate|]. destruct (existsb _ _); [|discriminate]. injection H as <-. repeat split; reflexivity.
Qed.
(* the table has one entry per address, so its length counts the addresses for which isAllocated answers true *)
Theorem C271_count : forall cv s, reach cv s -> exists ps, NoDup ps /\ length ps = length (allocs s) /\ forall p, In p ps <-> isAllocated s p = true.
Proof.
  intros cv s R. exists (map fst (allocs s)). split; [apply (reach_ui _ _ R)|]. split; [apply map_length|]. intros p. unfold isAllocated. pose proof (find_none p (allocs s)) as X. destruct (find p (allocs s)) as [i|] eqn:F; split; try (intros; congruence); try discriminate.
  - intros _. apply find_some, (in_map fst) in F. exact F.
  - intros C. exfalso. apply X; [reflexivity|exact C].
Qed.
Example C271_nonvacuous cv : exists s, reach cv s /\ cur_n (st s) = 2. Proof. destruct (used_manager cv) as (s & R & _ & C & _). eauto. Qed.

(** ** C272: the peaks are the largest values there have been *)
Theorem C272_peak_count_partial : forall cv ops s m, honest cv (umm0 m) ops -> urun cv (umm0 m) ops = Ret s -> Forall no_reset ops ->
  (forall k s1, urun cv (umm0 m) (firstn k ops) = Ret s1 -> cur_n (st s1) <= peak_n (st s)) /\ exists k s1, urun cv (umm0 m) (firstn k ops) = Ret s1 /\ peak_n (st s) = cur_n (st s1).
Proof.
  intros cv ops s m HH HR HN. destruct (run_peak cur_n peak_n (fun _ => True) cv) with (ops := ops) (s := umm0 m) (s' := s) as (_ & A & B); auto.
  - intros. eapply peak_step; eauto.
  - apply UI0.
  - split; reflexivity.
  - cbn. lia.
  - split; [exact A|]. destruct B as [B|B]; [|exact B]. exists 0%nat, (umm0 m). split; [reflexivity|exact B].
Qed.
Theorem C272_peak_bytes_partial : forall cv ops s m, honest cv (umm0 m) ops -> urun cv (umm0 m) ops = Ret s -> Forall no_reset ops -> (forall k s1, urun cv (umm0 m) (firstn k ops) = Ret s1 -> live_bytes s1 < 2 ^ 64) ->
  (forall k s1, urun cv (umm0 m) (firstn k ops) = Ret s1 -> live_bytes s1 <= peak_b (st s)) /\ exists k s1, urun cv (umm0 m) (firstn k ops) = Ret s1 /\ peak_b (st s) = live_bytes s1.
Proof.
  intros cv ops s m HH HR HN HB.
  assert (EQ : forall k s1, urun cv (umm0 m) (firstn k ops) = Ret s1 -> cur_b (st s1) = live_bytes s1).
  { intros k s1 H. assert (A : after cv (firstn k ops) s1). { exists m. split; [|exact H]. clear -HH. revert k HH. generalize (umm0 m). induction ops as [|o ops IH]; intros s0 [|k] HH; try exact I. destruct HH as [HC HH]. split; [exact HC|]. intros s2 E. apply IH, HH, E. }
    destruct (C271_current cv s1) as [_ B]; [eexists; exact A|]. rewrite B. apply N.mod_small. eapply HB, H. }
  destruct (run_peak cur_b peak_b (fun s => live_bytes s < 2 ^ 64) cv) with (ops := ops) (s := umm0 m) (s' := s) as (_ & A & B); auto.
  - intros. eapply peakb_step; eauto.
  - apply UI0.
  - split; reflexivity.
  - cbn. lia.
  - split.
    + intros k s1 H. rewrite <- (EQ _ _ H). eapply A, H.
    + destruct B as [B|(k & s1 & B1 & B2)]; [|exists k, s1; split; [exact B1|rewrite <- (EQ _ _ B1); exact B2]]. exists 0%nat, (umm0 m). split; [reflexivity|exact B].
Qed.
Theorem C272_reset_refuted : forall cv s p, reach cv s -> isAllocated s p = true -> reach cv (resetStats s) /\ peak_n (st (resetStats s)) = 0 /\ peak_b (st (resetStats s)) = 0 /\ 0 < cur_n (st (resetStats s)).
Proof.
  intros cv s p R A. split; [apply (reach_step cv s UReset); [exact R|exact I|reflexivity]|]. rewrite reset_stats by exact (reach_ui _ _ R). cbn [peak_n peak_b cur_n]. split; [reflexivity|]. split; [reflexivity|]. unfold isAllocated in A. destruct (allocs s); [discriminate|]. cbn [length]. lia.
Qed.
Example C272_nonvacuous cv : exists s, reach cv s /\ isAllocated s 4096 = true. Proof. destruct (used_manager cv) as (s & R & _ & _ & A & _). eauto. Qed.

(** ** C273: resetStats recomputes the statistics from the live allocations *)
Theorem C273_reset : forall cv s, reach cv s ->
  st (resetStats s) = mkStats (N.of_nat (length (allocs s))) 0 0 0 (live_bytes s mod 2 ^ 64) 0 (N.of_nat (length (protected_live s))) (fold_right N.add 0 (map (fun a => isize (snd a)) (protected_live s)) mod 2 ^ 64) 0 0 0 /\
  allocs (resetStats s) = allocs s /\ blocks (resetStats s) = blocks s /\ mem (resetStats s) = mem s /\ callbacks (resetStats s) = callbacks s /\ deflt (resetStats s) = deflt s.
Proof.
  intros cv s R. pose proof (reach_ui _ _ R) as U. split; [|repeat split; reflexivity]. rewrite reset_stats by exact U. rewrite live_core, prot_core, pbytes_core. f_equal. apply w64_small. pose proof (nprot_le (core (allocs s))). pose proof (nlive_lt _ U). lia.
Qed.
Example C273_nonvacuous cv : exists s, reach cv s /\ length (allocs s) = 2%nat. Proof. destruct (used_manager cv) as (s & R & H). exists s. split; [exact R|apply H]. Qed.

(** ** C274: freeing what is not allocated changes nothing *)
Theorem C274_unknown : forall s p, isAllocated s p = false -> deallocate s p = Ret (false, s).
Proof. intros s p A. unfold deallocate. destruct (p =? 0); [reflexivity|]. unfold isAllocated in A. destruct (find p (allocs s)); [discriminate|reflexivity]. Qed.
Theorem C274_double : forall cv s p s', reach cv s -> deallocate s p = Ret (true, s') -> deallocate s' p = Ret (false, s').
Proof. intros cv s p s' R H. apply C274_unknown. destruct (C269_deallocate _ _ _ _ _ R H) as (_ & B). rewrite is_info, B, N.eqb_refl. reflexivity. Qed.
Theorem C274_no_bad_free : forall cv s p, reach cv s -> deallocate s p <> UB UB_bad_free.
Proof.
  intros cv s p R H. unfold deallocate in H. destruct (p =? 0); [discriminate|]. destruct (find p (allocs s)) as [i|] eqn:F; [|discriminate]. destruct (prot i); [discriminate|]. rewrite (blocks_has _ _ _ (reach_ui _ _ R) F) in H. discriminate.
Qed.
Example C274_nonvacuous cv : exists s s', reach cv s /\ deallocate s 4096 = Ret (true, s').
Proof. destruct (used_manager cv) as (s & R & _ & _ & _ & _ & A & _). destruct (dealloc_ok _ _ _ (reach_ui _ _ R) A eq_refl) as (s' & E & _). eauto. Qed.

(** ** C275: the bytes an allocation returns are its own *)
Theorem C275_own_partial : forall cv s n f l al p junk r s', reach cv s -> modest n al -> answer_ok (blocks s) n f l al (Some p) -> allocate cv s n f l al (Some p) junk = Ret (r, s') ->
  inside (blocks s') r n = true /\ exists real, blocks s' = (p, real) :: blocks s /\ p <= r /\ r + n <= p + real /\ Forall (fun b => p + real <= fst b \/ fst b + snd b <= p) (blocks s) /\ (forall x, x < p \/ p + real <= x -> mem s' x = mem s x).
Proof. exact alloc_range. Qed.
Theorem C275_canary_refuted : forall cv s k p junk, reach cv s -> 8 <= k -> k < 16 -> granted (blocks s) p k ->
  exists s', allocate cv s (2 ^ 64 - 16 + k) plain CANARY 64 (Some p) junk = Ret (p + 8, s') /\ reach cv s' /\ inside (blocks s') (p + 8) (2 ^ 64 - 16 + k) = false.
Proof. exact wrap_canary. Qed.
Theorem C275_array_refuted : forall cv s ty z c p junk, reach cv s -> 2 ^ 64 <= z * c -> (z * c) mod 2 ^ 64 < 2 ^ 60 -> granted (blocks s) p ((z * c) mod 2 ^ 64) ->
  exists s', allocateArray cv s ty z c plain NONE (Some p) junk = Ret (p, s') /\ reach cv s' /\ inside (blocks s') p (z * c) = false.
Proof. exact wrap_array. Qed.
Example C275_nonvacuous : 2 ^ 64 <= 8 * (2 ^ 61 + 2) /\ (8 * (2 ^ 61 + 2)) mod 2 ^ 64 = 16 /\ granted [] 4096 16 /\ granted [] 4096 8.
Proof. split; [vm_compute; discriminate|]. split; [reflexivity|]. split; (split; [reflexivity|]; split; [reflexivity|constructor]). Qed.

(** ** C276: setting up the protection stays inside the block *)
Theorem C276_iff_partial : forall cv s n f l al p junk, reach cv s -> modest n al -> answer_ok (blocks s) n f l al (Some p) ->
  exists real, request n f l al = Ret real /\ need n l <= real /\
    (if need n l + behind (need n l) l <=? real then exists r s', allocate cv s n f l al (Some p) junk = Ret (r, s') else allocate cv s n f l al (Some p) junk = UB UB_out_of_bounds).
Proof.
  intros cv s n f l al p junk R M HA. destruct (alloc_iff cv s n f l al p junk R M HA) as (real & A & B & _ & D). exists real. split; [exact A|]. split; [exact B|]. destruct (_ <=? real); [destruct D as (s' & D); eauto|exact D].
Qed.
Theorem C276_completes_partial : forall cv s n f l al p junk, reach cv s -> modest n al -> answer_ok (blocks s) n f l al (Some p) -> l = NONE \/ l = CRC \/ l = CANARY -> exists r s', allocate cv s n f l al (Some p) junk = Ret (r, s').
Proof. intros cv s n f l al p junk R M HA HL. exact (alloc_completes cv s n f l al p junk (reach_ui _ _ R) M HA HL). Qed.
Theorem C276_ecc_tmr_refuted : forall cv s n f l al p junk, reach cv s -> modest n al -> 0 < n -> aligned f = false -> l = ECC \/ l = TMR -> answer_ok (blocks s) n f l al (Some p) -> allocate cv s n f l al (Some p) junk = UB UB_out_of_bounds.
Proof.
  intros cv s n f l al p junk R M Hn Hf HL HA. destruct (alloc_iff cv s n f l al p junk R M HA) as (real & _ & _ & E & D). specialize (E Hf). subst real. pose proof (need_ge n l) as G. pose proof (behind_pos (need n l) l ltac:(lia) HL). destruct (N.leb_spec (need n l + behind (need n l) l) (need n l)); [lia|exact D].
Qed.
Example C276_nonvacuous : answer_ok [] 24 plain ECC 64 (Some 4096) /\ answer_ok [] 24 plain TMR 64 (Some 4096) /\ answer_ok [] 8 (mkFlags false true false) ECC 64 (Some 4096) /\ need 8 ECC + behind (need 8 ECC) ECC <= 64.
Proof. repeat split; try discriminate; try (intros _; reflexivity); injection H as <-; try reflexivity; constructor. Qed.

(** ** C277: protectMemory keeps the contents *)
Theorem C277_quiet_partial : forall cv s p i l, reach cv s -> getAllocationInfo s p = Some i -> inside (blocks s) p (isize i) = true -> l = NONE \/ l = CRC ->
  exists s', protectMemory cv s p l = Ret (true, s') /\ mem s' = mem s /\ blocks s' = blocks s /\ (forall q, getAllocationInfo s' q = if q =? p then Some (mkInfo (user i) (orig i) (isize i) (itype i) (is_array i) true) else getAllocationInfo s q).
Proof. exact protect_quiet. Qed.
Theorem C277_overwrites_refuted : forall cv s n p junk s', reach cv s -> n < 2 ^ 60 -> answer_ok (blocks s) n plain NONE 64 (Some p) -> allocate cv s n plain NONE 64 (Some p) junk = Ret (p, s') -> cv < 2 ^ 64 ->
  (8 <= n -> exists s2, protectMemory cv s' p CANARY = Ret (true, s2) /\ get_u64 (mem s2) (p + n - 8) = cv /\ (16 <= n -> get_u64 (mem s2) p = cv)) /\
  (n < 8 -> protectMemory cv s' p CANARY = UB UB_out_of_bounds) /\
  (0 < n -> protectMemory cv s' p ECC = UB UB_out_of_bounds /\ protectMemory cv s' p TMR = UB UB_out_of_bounds).
Proof. exact protect_fresh. Qed.
Theorem C277_unknown : forall cv s p l, isAllocated s p = false -> protectMemory cv s p l = Ret (false, s) /\ unprotectMemory s p = (false, s).
Proof. intros cv s p l A. unfold isAllocated in A. unfold protectMemory, unprotectMemory. destruct (find p (allocs s)); [discriminate|split; reflexivity]. Qed.
Example C277_nonvacuous cv : exists s, reach cv s /\ getAllocationInfo s 4096 = Some (mkInfo 4096 4096 24 None false false) /\ inside (blocks s) 4096 24 = true.
Proof. destruct (used_manager cv) as (s & R & B & _ & _ & _ & A & _). exists s. split; [exact R|]. split; [exact A|]. rewrite B. reflexivity. Qed.

(** ** C278: the protection status and its statistics *)
Theorem C278_counts_partial : forall cv ops s, after cv ops s -> Forall no_unprotect ops -> prot_n (st s) = N.of_nat (length (protected_live s)) /\ prot_b (st s) = fold_right N.add 0 (map (fun a => isize (snd a)) (protected_live s)) mod 2 ^ 64.
Proof. intros cv ops s H HN. rewrite prot_core, pbytes_core. exact (after_prot _ _ _ H HN). Qed.
Theorem C278_allocate_refuted : forall cv s n f l al p junk r s', reach cv s -> n < 2 ^ 64 -> answer_ok (blocks s) n f l al (Some p) -> allocate cv s n f l al (Some p) junk = Ret (r, s') ->
  (exists i, getAllocationInfo s' p = Some i /\ prot i = false) /\ prot_n (st s') = prot_n (st s) /\ protected_live s' = protected_live s.
Proof.
  intros cv s n f l al p junk r s' R Hn HA H. destruct (track_info _ _ _ _ _ _ _ _ _ _ R Hn HA H) as (_ & _ & Q). split; [eexists; split; [rewrite Q, N.eqb_refl; reflexivity|reflexivity]|].
  destruct (allocate_eff _ _ _ _ _ _ _ _ _ _ (reach_ui _ _ R) Hn HA H) as [(C & _)|(q & real & _ & _ & _ & _ & _ & _ & _ & EA & ET & _)]; [discriminate|]. rewrite ET. split; [reflexivity|]. unfold protected_live. rewrite EA, filter_app. cbn [filter snd prot]. apply app_nil_r.
Qed.
Theorem C278_unprotect_refuted : forall cv s p i, reach cv s -> getAllocationInfo s p = Some i -> prot i = true ->
  exists s', unprotectMemory s p = (true, s') /\ prot_n (st s') = (prot_n (st s) + (2 ^ 64 - 2)) mod 2 ^ 64 /\ N.of_nat (length (protected_live s)) = N.of_nat (length (protected_live s')) + 1.
Proof.
  intros cv s p i R F P. pose proof (reach_ui _ _ R) as U. rewrite (unprotect_eff s p i F P (tracked_pos _ _ _ U F)). eexists. split; [reflexivity|]. cbn [set_allocs st unprot prot_n]. split.
  - change (w64 (w64 (prot_n (st s) + 2 ^ 64 - 1) + 2 ^ 64 - 1) = w64 (prot_n (st s) + (2 ^ 64 - 2))). change (2 ^ 64) with 18446744073709551616. replace (prot_n (st s) + 18446744073709551616 - 1) with (prot_n (st s) + 18446744073709551615) by lia. replace (w64 (prot_n (st s) + 18446744073709551615) + 18446744073709551616 - 1) with (w64 (prot_n (st s) + 18446744073709551615) + 18446744073709551615) by lia.
    rewrite w64_idem. replace (prot_n (st s) + 18446744073709551615 + 18446744073709551615) with (prot_n (st s) + 18446744073709551614 + 2 ^ 64) by (change (2 ^ 64) with 18446744073709551616; lia). rewrite w64_full. f_equal.
  - rewrite !prot_core. cbn [set_allocs allocs]. destruct (core_upd p (allocs s) i false F) as (_ & _ & A & _). rewrite upd_twice, (upd_ext p _ (set_prot false)) by reflexivity. rewrite P in A. cbn [b2n] in A. lia.
Qed.
Theorem C278_status : forall cv s p i, reach cv s -> getAllocationInfo s p = Some i ->
  (forall l s' b, protectMemory cv s p l = Ret (b, s') -> b = true /\ forall q, getAllocationInfo s' q = if q =? p then Some (mkInfo (user i) (orig i) (isize i) (itype i) (is_array i) true) else getAllocationInfo s q) /\
  (fst (unprotectMemory s p) = true /\ forall q, getAllocationInfo (snd (unprotectMemory s p)) q = if q =? p then Some (mkInfo (user i) (orig i) (isize i) (itype i) (is_array i) false) else getAllocationInfo s q).
Proof.
  intros cv s p i R F. pose proof (reach_ui _ _ R) as U. pose proof (tracked_pos _ _ _ U F) as P0. split.
  - intros l s' b H. destruct (protect_eff _ _ _ _ _ _ _ P0 F H) as (s1 & Eb & _ & _ & _ & EA & _). split; [exact Eb|]. intros q. unfold getAllocationInfo. rewrite EA, find_upd. destruct (N.eqb_spec q p) as [->|]; [unfold getAllocationInfo in F; rewrite F; reflexivity|reflexivity].
  - destruct (prot i) eqn:P.
    + rewrite (unprotect_eff s p i F P P0). cbn [fst snd]. split; [reflexivity|]. intros q. unfold getAllocationInfo in *. cbn [set_allocs allocs]. rewrite !find_upd. destruct (N.eqb_spec q p) as [->|]; [rewrite F; reflexivity|reflexivity].
    + unfold getAllocationInfo in F. unfold unprotectMemory. rewrite F, P. cbn [fst snd]. split; [reflexivity|]. intros q. unfold getAllocationInfo. destruct (N.eqb_spec q p) as [->|]; [rewrite F; destruct i; cbn in *; subst; reflexivity|reflexivity].
Qed.
Example C278_nonvacuous cv : exists s i, reach cv s /\ getAllocationInfo s 4096 = Some i /\ prot i = true.
Proof.
  destruct (used_manager cv) as (s & R & B & _ & _ & _ & A & _). assert (I : inside (blocks s) 4096 24 = true) by (rewrite B; reflexivity). destruct (protect_quiet cv s 4096 _ CRC R A I ltac:(tauto)) as (s' & E & _ & _ & Q).
  exists s'. eexists. split; [apply (reach_step cv s (UProtect 4096 CRC)); [exact R|exact Logic.I|cbn [ustep]; rewrite E; reflexivity]|]. split; [rewrite Q; reflexivity|reflexivity].
Qed.

(** ** C279: intact memory verifies *)
Theorem C279_never_true_refuted : forall s p, verifyMemoryIntegrity s p <> Ret true.
Proof. intros s p. unfold verifyMemoryIntegrity. destruct (existsb _ _); discriminate. Qed.
Theorem C279_deadlock_refuted : forall cv s p, reach cv s -> (exists q i, getAllocationInfo s q = Some i /\ user i = p) <-> verifyMemoryIntegrity s p = UB UB_relock.
Proof.
  intros cv s p R. unfold verifyMemoryIntegrity. split.
  - intros (q & i & F & E). replace (existsb _ _) with true; [reflexivity|]. symmetry. apply existsb_exists. exists (q, i). split; [apply find_some, F|]. cbn [snd]. apply N.eqb_eq, E.
  - destruct (existsb _ _) eqn:E; [|discriminate]. intros _. apply existsb_exists in E. destruct E as ([q i] & I & E). exists q, i. split; [apply in_find; [apply (reach_ui _ _ R)|exact I]|apply N.eqb_eq, E].
Qed.
Theorem C279_unknown_partial : forall cv s p, reach cv s -> (forall q i, getAllocationInfo s q = Some i -> user i <> p) -> verifyMemoryIntegrity s p = Ret false.
Proof.
  intros cv s p R H. unfold verifyMemoryIntegrity. destruct (existsb _ _) eqn:E; [|reflexivity]. apply existsb_exists in E. destruct E as ([q i] & I & E). exfalso. apply (H q i); [apply in_find; [apply (reach_ui _ _ R)|exact I]|apply N.eqb_eq, E].
Qed.
Example C279_nonvacuous cv : exists s, reach cv s /\ verifyMemoryIntegrity s 4096 = UB UB_relock.
Proof. destruct (used_manager cv) as (s & R & _ & _ & _ & _ & A & _). exists s. split; [exact R|]. apply (C279_deadlock_refuted cv s 4096 R). eexists _, _. split; [exact A|reflexivity]. Qed.

(** ** C280: a protected block can be deallocated *)
Theorem C280_protected_refuted : forall cv s p i, reach cv s -> getAllocationInfo s p = Some i -> prot i = true -> deallocate s p = UB UB_relock.
Proof. intros cv s p i R F P. pose proof (tracked_pos _ _ _ (reach_ui _ _ R) F) as P0. unfold deallocate. destruct (N.eqb_spec p 0); [congruence|]. unfold getAllocationInfo in F. rewrite F, P. reflexivity. Qed.
Theorem C280_unprotect_first_partial : forall cv s p i, reach cv s -> getAllocationInfo s p = Some i -> exists s', deallocate (snd (unprotectMemory s p)) p = Ret (true, s') /\ (forall q, getAllocationInfo s' q = if q =? p then None else getAllocationInfo s q) /\ mem s' = mem s.
Proof.
  intros cv s p i R F. destruct (C278_status cv s p i R F) as (_ & _ & Q). assert (R' : reach cv (snd (unprotectMemory s p))) by (apply (reach_step cv s (UUnprotect p)); [exact R|exact I|reflexivity]).
  assert (F' : find p (allocs (snd (unprotectMemory s p))) = Some (mkInfo (user i) (orig i) (isize i) (itype i) (is_array i) false)) by (unfold getAllocationInfo in Q; rewrite Q, N.eqb_refl; reflexivity).
  destruct (dealloc_ok _ _ _ (reach_ui _ _ R') F' eq_refl) as (s' & E & _ & _ & _ & EM & _). exists s'. split; [exact E|]. destruct (free_info _ _ _ _ _ R' E) as (_ & B & _). split.
  - intros q. rewrite B, Q. destruct (q =? p); reflexivity.
  - rewrite EM. unfold unprotectMemory, removeMemoryProtection. destruct (find p (allocs s)) as [j|]; [|reflexivity]. destruct (prot j); [|reflexivity]. destruct (p =? 0); reflexivity.
Qed.
Example C280_nonvacuous cv : exists s i, reach cv s /\ getAllocationInfo s 4096 = Some i /\ prot i = true. Proof. exact (C278_nonvacuous cv). Qed.

(** ** C281: the canaries stand directly before and behind the bytes the caller got *)
Theorem C281_canaries : forall cv s n f al p junk r s', reach cv s -> cv < 2 ^ 64 -> modest n al -> answer_ok (blocks s) n f CANARY al (Some p) -> allocate cv s n f CANARY al (Some p) junk = Ret (r, s') ->
  get_u64 (mem s') (r - 8) = cv /\ get_u64 (mem s') (r + n) = cv /\ 8 <= r /\ inside (blocks s') (r - 8) (n + 16) = true.
Proof.
  intros cv s n f al p junk r s' R CV M HA H. destruct (new_content _ _ _ _ _ _ _ _ _ _ (reach_ui _ _ R) M HA H) as (_ & C). destruct (C eq_refl CV) as [C1 C2]. split; [exact C1|]. split; [exact C2|].
  destruct (canary_untracked _ _ _ _ _ _ _ _ _ R M HA H) as (-> & _). split; [lia|]. destruct (modest_request n f CANARY al M) as (real & HR & LR & _). cbn [need] in LR.
  destruct (allocate_eff _ _ _ _ _ _ _ _ _ _ (reach_ui _ _ R) (lt64 _ (proj1 M)) HA H) as [(E & _)|(q & real' & Eq & HR' & _ & _ & _ & _ & EB & _)]; [discriminate|]. injection Eq as <-. rewrite HR in HR'. injection HR' as <-.
  unfold inside. rewrite EB. cbn [existsb fst snd]. replace (p <=? p + 8 - 8) with true by (symmetry; apply N.leb_le; lia). replace (p + 8 - 8 + (n + 16) <=? p + real) with true by (symmetry; apply N.leb_le; lia). apply orb_true_r.
Qed.
Example C281_nonvacuous cv : reach cv (umm0 (fun _ => 0)) /\ modest 24 64 /\ answer_ok (blocks (umm0 (fun _ => 0))) 24 plain CANARY 64 (Some 4096). Proof. destruct (C269_nonvacuous cv) as (A & B & _ & C). auto. Qed.

(** ** C282: ZERO_INITIALIZED and ALIGNED *)
Theorem C282_zero : forall cv s n f l al p junk r s', reach cv s -> modest n al -> zero f = true -> answer_ok (blocks s) n f l al (Some p) -> allocate cv s n f l al (Some p) junk = Ret (r, s') -> forall x, r <= x -> x < r + n -> mem s' x = 0.
Proof. intros cv s n f l al p junk r s' R M Z HA H x X1 X2. destruct (new_content _ _ _ _ _ _ _ _ _ _ (reach_ui _ _ R) M HA H) as (C & _). rewrite C, Z by assumption. reflexivity. Qed.
Theorem C282_aligned_partial : forall cv s n f l al p junk r s', reach cv s -> n < 2 ^ 64 -> aligned f = true -> l <> CANARY -> answer_ok (blocks s) n f l al (Some p) -> allocate cv s n f l al (Some p) junk = Ret (r, s') -> r mod al = 0.
Proof.
  intros cv s n f l al p junk r s' R Hn A HL HA H. destruct (allocate_eff _ _ _ _ _ _ _ _ _ _ (reach_ui _ _ R) Hn HA H) as [(E & _)|(q & real & Eq & _ & _ & AL & _ & Er & _)]; [discriminate|]. injection Eq as <-. rewrite Er. destruct l; try congruence; apply AL, A.
Qed.
Theorem C282_aligned_refuted : forall cv s n f al p junk r s', reach cv s -> modest n al -> aligned f = true -> 8 < al -> answer_ok (blocks s) n f CANARY al (Some p) -> allocate cv s n f CANARY al (Some p) junk = Ret (r, s') -> r mod al = 8.
Proof.
  intros cv s n f al p junk r s' R M A L HA H. destruct (allocate_eff _ _ _ _ _ _ _ _ _ _ (reach_ui _ _ R) (lt64 _ (proj1 M)) HA H) as [(E & _)|(q & real & Eq & _ & _ & AL & _ & Er & _)]; [discriminate|]. injection Eq as <-. rewrite Er. cbn [start].
  rewrite N.add_mod by lia. rewrite (AL A). rewrite N.add_0_l, N.mod_mod by lia. apply N.mod_small, L.
Qed.
Example C282_nonvacuous cv : exists s', allocate cv (umm0 (fun _ => 7)) 24 (mkFlags true true false) CANARY 64 (Some 4096) (fun _ => 5) = Ret (4104, s') /\ mem s' 4104 = 0 /\ mem (umm0 (fun _ => 7)) 4104 = 7.
Proof. eexists. split; [reflexivity|]. split; reflexivity. Qed.

(** ** C283: when the system has no memory *)
Theorem C283_out_of_memory : forall cv s n f l al junk, aligned f = false \/ 0 < al -> allocate cv s n f l al None junk = if nothrow f then Ret (0, s) else Throw E_bad_alloc.
Proof. intros cv s n f l al junk H. unfold allocate, request. destruct (aligned f); [|reflexivity]. destruct (N.eqb_spec al 0); [destruct H; [discriminate|lia]|reflexivity]. Qed.
Theorem C283_out_of_memory_typed : forall cv s ty z c f l junk, allocateObject cv s ty z f l None junk = (if nothrow f then Ret (0, s) else Throw E_bad_alloc) /\ allocateArray cv s ty z c f l None junk = (if nothrow f then Ret (0, s) else Throw E_bad_alloc).
Proof. intros cv s ty z c f l junk. unfold allocateObject, allocateArray. rewrite !C283_out_of_memory by (right; reflexivity). destruct (nothrow f); split; reflexivity. Qed.
Example C283_nonvacuous cv s : allocate cv s 10 plain CANARY 64 None (fun _ => 0) = Throw E_bad_alloc /\ allocate cv s 10 (mkFlags false true true) TMR 64 None (fun _ => 0) = Ret (0, s). Proof. split; reflexivity. Qed.

(** ** C284: callbacks *)
Theorem C284_register : forall cv ops s cb, after cv ops s -> registrations ops + 2 < 2 ^ 64 ->
  fst (registerCorruptionCallback s cb) = registrations ops + 1 /\ (forall g, ~ In (registrations ops + 1, g) (callbacks s)) /\
  forall id g, In (id, g) (callbacks (snd (registerCorruptionCallback s cb))) <-> In (id, g) (callbacks s) \/ (id = registrations ops + 1 /\ g = cb).
Proof.
  intros cv ops s cb (m & _ & HR) L. pose proof (after_cbs cv ops (umm0 m) 0 s (CI0 m) ltac:(lia) HR) as C. rewrite N.add_0_l in C. destruct (CI_register _ _ cb C L) as (_ & E & Q). split; [exact E|]. split.
  - intros g H. destruct C as (E1 & _ & B). destruct (B _ _ H). lia.
  - intros id g. rewrite Q, in_app_iff. cbn [In]. split; [intros [H|[H|[]]]; [auto|injection H as <- <-; auto]|intros [H|[-> ->]]; auto].
Qed.
Theorem C284_unregister : forall s id, (fst (unregisterCorruptionCallback s id) = true <-> exists g, In (id, g) (callbacks s)) /\
  forall id' g, In (id', g) (callbacks (snd (unregisterCorruptionCallback s id))) <-> In (id', g) (callbacks s) /\ id' <> id.
Proof.
  intros s id. unfold unregisterCorruptionCallback. cbn [fst snd set_cbs callbacks]. split.
  - rewrite existsb_exists. split; [intros ([j g] & I & E); cbn [fst] in E; apply N.eqb_eq in E; subst j; eauto|intros (g & I); exists (id, g); split; [exact I|apply N.eqb_refl]].
  - intros id' g. rewrite filter_In. cbn [fst]. rewrite negb_true_iff, N.eqb_neq. tauto.
Qed.
Theorem C284_others_keep : forall cv s o s', ustep cv s o = Ret s' -> (forall cb, o <> URegister cb) -> (forall id, o <> UUnregister id) -> callbacks s' = callbacks s.
Proof. intros cv s o s' H N1 N2. pose proof (step_cbs _ _ _ _ H) as X. destruct o; try apply X; exfalso; [eapply N1|eapply N2]; reflexivity. Qed.
Example C284_nonvacuous cv : exists s, after cv [URegister 7; URegister 8; UUnregister 1; URegister 9] s /\ callbacks s = [(2, 8); (3, 9)].
Proof. eexists. split; [exists (fun _ => 0); split; [|reflexivity]|reflexivity]. repeat (split; [exact I|]; intros ? _). exact I. Qed.

(** ** C285: leaks *)
Theorem C285_leaks : forall cv s, reach cv s -> fst (checkForLeaks s) = N.of_nat (length (allocs s)) /\ leaked (st (snd (checkForLeaks s))) = N.of_nat (length (allocs s)) /\ allocs (snd (checkForLeaks s)) = allocs s /\ cur_n (st (snd (checkForLeaks s))) = fst (checkForLeaks s).
Proof. intros cv s R. split; [reflexivity|]. split; [reflexivity|]. split; [reflexivity|]. apply (C271_current cv s R). Qed.
Theorem C285_canary_object_refuted : forall cv w k ty z init p junk, reach cv (mgr w) -> rp w k = 0 -> z < 2 ^ 60 -> answer_ok (blocks (mgr w)) z plain CANARY 64 (Some p) ->
  exists w1 w2, make cv w k ty z CANARY false init (Some p) junk = Ret (None, w1) /\ rp w1 k = p + 8 /\ isProtected w1 k = false /\ reset w1 k 0 = Ret w2 /\ rp w2 k = 0 /\ isAllocated (mgr w) p = false /\ isAllocated (mgr w2) p = true.
Proof. exact canary_object. Qed.
Example C285_nonvacuous cv : exists s, reach cv s /\ length (allocs s) = 2%nat. Proof. exact (C273_nonvacuous cv). Qed.

(** ** C286: pointer objects own what they point to *)
Theorem C286_ownership : forall cv m ops, whonest cv (mkWorld (umm0 m) (fun _ => 0)) ops -> exists w, wrun cv (mkWorld (umm0 m) (fun _ => 0)) ops = Ret w /\ owned w.
Proof. intros cv m ops H. destruct (wrun_ok cv ops _ (WI0 m) H) as (w & E & W). exists w. split; [exact E|apply W]. Qed.
Theorem C286_no_leak : forall w, owned w -> (forall k, rp w k = 0) -> isAllocated (mgr w) 0 = false -> fst (checkForLeaks (mgr w)) = 0.
Proof.
  intros w (_ & _ & O) Z N0. unfold checkForLeaks. cbn [fst]. destruct (allocs (mgr w)) as [|[p i] l] eqn:E; [reflexivity|]. exfalso. assert (A : isAllocated (mgr w) p = true) by (unfold isAllocated; rewrite E; cbn [find]; rewrite N.eqb_refl; reflexivity). destruct (O p A) as (k & K). rewrite Z in K. subst p. congruence.
Qed.
Theorem C286_all_gone : forall cv m ops w, whonest cv (mkWorld (umm0 m) (fun _ => 0)) ops -> wrun cv (mkWorld (umm0 m) (fun _ => 0)) ops = Ret w -> (forall k, rp w k = 0) -> fst (checkForLeaks (mgr w)) = 0 /\ blocks (mgr w) = [].
Proof.
  intros cv m ops w H R Z. destruct (wrun_ok cv ops _ (WI0 m) H) as (w' & E & [U B O]). rewrite R in E. injection E as <-.
  assert (L : fst (checkForLeaks (mgr w)) = 0). { apply C286_no_leak; [exact O|exact Z|]. unfold isAllocated. destruct (find 0 (allocs (mgr w))) as [i|] eqn:F; [exfalso; exact (tracked_pos _ _ _ U F eq_refl)|reflexivity]. }
  split; [exact L|]. unfold checkForLeaks in L. cbn [fst] in L. assert (A : allocs (mgr w) = []) by (destruct (allocs (mgr w)); [reflexivity|discriminate]). destruct (blocks (mgr w)) as [|[p z] l] eqn:BE; [reflexivity|]. exfalso. pose proof (proj2 (ui_same _ U p)) as X. rewrite BE, A in X. apply X. left. reflexivity.
Qed.
Theorem C286_make_step : forall cv m ops w k ty z l t init sys junk, whonest cv (mkWorld (umm0 m) (fun _ => 0)) ops -> wrun cv (mkWorld (umm0 m) (fun _ => 0)) ops = Ret w -> wcontract w (WMake k ty z l t init sys junk) ->
  exists e w', make cv w k ty z l t init sys junk = Ret (e, w') /\ (e = None <-> sys <> None /\ t = false) /\ (e <> None -> rp w' = rp w /\ forall a, isAllocated (mgr w') a = isAllocated (mgr w) a).
Proof.
  intros cv m ops w k ty z l t init sys junk H R HC. destruct (wrun_ok cv ops _ (WI0 m) H) as (w' & E & W). rewrite R in E. injection E as <-. destruct (make_ok cv w k ty z l t init sys junk W HC) as (e & w' & E & _ & A & B). exists e, w'. auto.
Qed.
Example C286_nonvacuous cv : exists w, wrun cv (mkWorld (umm0 (fun _ => 0)) (fun _ => 0)) [WMake 0 1 24 CRC false (fun _ => 3) (Some 4096) (fun _ => 1); WMove 1 0] = Ret w /\ rp w 0%nat = 0 /\ rp w 1%nat = 4096 /\ isAllocated (mgr w) 4096 = true.
Proof. eexists. split; [reflexivity|]. repeat split; reflexivity. Qed.

Print Assumptions C269_allocate_partial.
Print Assumptions C269_object_partial.
Print Assumptions C269_array_partial.
Print Assumptions C269_deallocate.
Print Assumptions C269_canary_refuted.
Print Assumptions C270_roundtrip_partial.
Print Assumptions C270_canary_refuted.
Print Assumptions C271_current.
Print Assumptions C271_totals.
Print Assumptions C271_deallocations.
Print Assumptions C271_count.
Print Assumptions C272_peak_count_partial.
Print Assumptions C272_peak_bytes_partial.
Print Assumptions C272_reset_refuted.
Print Assumptions C273_reset.
Print Assumptions C274_unknown.
Print Assumptions C274_double.
Print Assumptions C274_no_bad_free.
Print Assumptions C275_own_partial.
Print Assumptions C275_canary_refuted.
Print Assumptions C275_array_refuted.
Print Assumptions C276_iff_partial.
Print Assumptions C276_completes_partial.
Print Assumptions C276_ecc_tmr_refuted.
Print Assumptions C277_quiet_partial.
Print Assumptions C277_overwrites_refuted.
Print Assumptions C277_unknown.
Print Assumptions C278_counts_partial.
Print Assumptions C278_allocate_refuted.
Print Assumptions C278_unprotect_refuted.
Print Assumptions C278_status.
Print Assumptions C279_never_true_refuted.
Print Assumptions C279_deadlock_refuted.
Print Assumptions C279_unknown_partial.
Print Assumptions C280_protected_refuted.
Print Assumptions C280_unprotect_first_partial.
Print Assumptions C281_canaries.
Print Assumptions C282_zero.
Print Assumptions C282_aligned_partial.
Print Assumptions C282_aligned_refuted.
Print Assumptions C283_out_of_memory.
Print Assumptions C283_out_of_memory_typed.
Print Assumptions C284_register.
Print Assumptions C284_unregister.
Print Assumptions C284_others_keep.
Print Assumptions C285_leaks.
Print Assumptions C285_canary_object_refuted.
Print Assumptions C286_ownership.
Print Assumptions C286_no_leak.
Print Assumptions C286_all_gone.
Print Assumptions C286_make_step.
