(** Sizes, contents, and pointer objects. *)
From Coq Require Import List NArith Bool Lia Permutation.
Import ListNotations.
From Verif Require Import Outcome Umm_Model Umm_Spec Umm_Proofs Umm2_Proofs Umm3_Proofs Umm4_Proofs.
Local Open Scope N_scope.

Lemma reach_ui cv s : reach cv s -> UI s.
Proof. intros (ops & H). apply (after_inv cv ops s H). Qed.
(** ** sizes *)
Lemma need_ge n l : n <= need n l. Proof. generalize (N.le_0_l (n / 8)). destruct l; cbn [need]; generalize (n / 8); intros; lia. Qed.
Lemma calc_need n l : n < 2 ^ 60 -> calculateProtectedSize n l = need n l /\ need n l < 2 ^ 62.
Proof.
  intros H. assert (D : n / 8 <= n) by (apply N.div_le_upper_bound; lia). assert (L : need n l < 2 ^ 62) by (destruct l; cbn [need]; change (2 ^ 60) with 1152921504606846976 in H; change (2 ^ 62) with 4611686018427387904; lia).
  split; [|exact L]. destruct l; cbn [calculateProtectedSize need] in *; try reflexivity; apply w64_small; change (2 ^ 64) with 18446744073709551616; change (2 ^ 62) with 4611686018427387904 in L; lia.
Qed.
Lemma modest_request n f l al : modest n al -> exists real, request n f l al = Ret real /\ need n l <= real /\ real < 2 ^ 63 /\ (aligned f = false -> real = need n l).
Proof.
  intros [H1 [H2 H3]]. destruct (calc_need n l H1) as [E L]. unfold request. rewrite E. destruct (aligned f).
  - destruct (N.eqb_spec al 0); [lia|]. eexists. split; [reflexivity|]. set (a := need n l) in *. clearbody a.
    change (2 ^ 62) with 4611686018427387904 in L. change (2 ^ 60) with 1152921504606846976 in H3. change (2 ^ 64) with 18446744073709551616. change (2 ^ 63) with 9223372036854775808.
    replace (a + al + 18446744073709551616 - 1) with (a + al - 1 + 2 ^ 64) by (change (2 ^ 64) with 18446744073709551616; lia). rewrite w64_full. rewrite (w64_small (a + al - 1)) by (change (2 ^ 64) with 18446744073709551616; lia).
    pose proof (N.div_mod (a + al - 1) al ltac:(lia)) as D. pose proof (N.mod_lt (a + al - 1) al ltac:(lia)) as M. set (q := (a + al - 1) / al) in *. set (r := (a + al - 1) mod al) in *. clearbody q r.
    rewrite w64_small by (change (2 ^ 64) with 18446744073709551616; lia). split; [lia|]. split; [lia|discriminate].
  - exists (need n l). split; [reflexivity|]. split; [lia|]. split; [|reflexivity]. change (2 ^ 62) with 4611686018427387904 in L. change (2 ^ 63) with 9223372036854775808. lia.
Qed.
(** ** what a new block contains *)
Lemma get_u64_ext m m' a : (forall x, a <= x -> x < a + 8 -> m x = m' x) -> get_u64 m a = get_u64 m' a.
Proof. intros H. unfold get_u64. cbn [fold_right]. rewrite !H by lia. reflexivity. Qed.
Lemma access_own bs p real off n : ~ In p (map fst bs) -> access ((p, real) :: bs) p off n = (n =? 0) || (off + n <=? real).
Proof.
  intros H. unfold access. cbn [existsb fst snd]. rewrite N.eqb_refl. cbn [andb]. replace (existsb _ bs) with false; [rewrite orb_false_r; reflexivity|]. symmetry. apply not_true_is_false. intros C. apply existsb_exists in C. destruct C as ([q z] & C & E).
  cbn [fst] in E. apply andb_true_iff in E. destruct E as [E _]. apply N.eqb_eq in E. subst q. apply H. apply (in_map fst) in C. exact C.
Qed.
Lemma new_content cv s n f l al p junk r s' : UI s -> modest n al -> answer_ok (blocks s) n f l al (Some p) -> allocate cv s n f l al (Some p) junk = Ret (r, s') ->
  (forall x, r <= x -> x < r + n -> mem s' x = if zero f then 0 else junk x) /\ (l = CANARY -> cv < 2 ^ 64 -> get_u64 (mem s') (r - 8) = cv /\ get_u64 (mem s') (r + n) = cv).
Proof.
  intros U M HA H. pose proof (proj1 M) as Hn. destruct (calc_need n l Hn) as [EC LC]. destruct (modest_request n f l al M) as (real & HR & LR & _). destruct (HA real HR) as [G _]. destruct (granted_fresh s p real U G) as (F & NB & P0).
  unfold allocate in H. rewrite HR, EC in H. cbn [obind] in H. rewrite access_own in H by exact NB. destruct (zero f && _) eqn:Z; [discriminate|]. clear Z. set (m := if zero f then _ else _) in H.
  assert (MV : forall x, p <= x -> x < p + need n l -> m x = if zero f then 0 else junk x).
  { intros x H1 H2. unfold m. destruct (zero f); [apply fill_in; lia|]. apply fill_in; lia. }
  apply obind_ret in H. destruct H as ([b s1] & H1 & H). injection H as Hr <-. assert (W8 : w64 (p + 8) = p + 8 \/ l <> CANARY).
  { destruct l; try (right; discriminate). left. apply w64_small. destruct G as (_ & G & _). cbn [need] in LR. lia. }
  unfold setupMemoryProtection in H1. destruct (N.eqb_spec p 0); [congruence|]. cbn [trackAllocation set_allocs mem snd]. destruct l.
  - injection H1 as <- <-. subst r. cbn [need mem] in *. split; [exact MV|discriminate].
  - destruct W8 as [W8|W8]; [|congruence]. remember (w64 (need n CANARY + 2 ^ 64 - 8)) as e eqn:Ee.
    assert (E : e = n + 8) by (rewrite Ee; cbn [need]; replace (n + 16 + 2 ^ 64 - 8) with (n + 8 + 2 ^ 64) by lia; rewrite w64_full; apply w64_small; change (2 ^ 60) with 1152921504606846976 in Hn; change (2 ^ 64) with 18446744073709551616; lia). clear Ee. subst e.
    destruct (_ && _); [|discriminate]. injection H1 as <- <-. cbn [set_mem mem]. rewrite W8 in Hr. subst r. cbn [need] in *. split.
    + intros x X1 X2. rewrite !get_put by lia. apply MV; lia.
    + intros _ CV. split.
      * rewrite (get_u64_ext _ (put_u64 m p cv)) by (intros x X1 X2; apply get_put; lia). replace (p + 8 - 8) with p by lia. apply get_put_u64, CV.
      * replace (p + 8 + n) with (p + (n + 8)) by lia. apply get_put_u64, CV.
  - destruct (access _ p 0 _); [|discriminate]. injection H1 as <- <-. subst r. cbn [need set_allocs mem] in *. split; [|discriminate]. intros x X1 X2. apply MV; lia.
  - pose proof (need_ge n ECC) as GE. set (d := need n ECC) in *. clearbody d. destruct (_ && _); [|discriminate]. injection H1 as <- <-. subst r. cbn [set_mem mem]. split; [|discriminate]. intros x X1 X2. rewrite fill_out by lia. apply MV; lia.
  - pose proof (need_ge n TMR) as GE. set (d := need n TMR) in *. clearbody d. remember (2 * d) as d2 eqn:D2. destruct (_ && _); [|discriminate]. injection H1 as <- <-. subst r. cbn [set_mem mem]. split; [|discriminate]. intros x X1 X2. rewrite fill_out by lia. rewrite fill_out by lia. apply MV; lia.
Qed.
(** ** allocations without a checksum area beyond the block always succeed *)
Lemma alloc_completes cv s n f l al p junk : UI s -> modest n al -> answer_ok (blocks s) n f l al (Some p) -> l = NONE \/ l = CRC \/ l = CANARY -> exists r s', allocate cv s n f l al (Some p) junk = Ret (r, s').
Proof.
  intros U M HA HL. pose proof (proj1 M) as Hn. destruct (calc_need n l Hn) as [EC LC]. destruct (modest_request n f l al M) as (real & HR & LR & _). destruct (HA real HR) as [G _]. destruct (granted_fresh s p real U G) as (F & NB & P0).
  unfold allocate. rewrite HR, EC. cbn [obind]. rewrite access_own by exact NB. replace (0 + need n l <=? real) with true by (symmetry; apply N.leb_le; lia). rewrite orb_true_r. cbn [negb]. rewrite andb_false_r.
  set (m := if zero f then _ else _). unfold setupMemoryProtection. destruct (N.eqb_spec p 0); [congruence|]. cbn [blocks allocs st deflt callbacks next_id mem]. destruct HL as [->|[->| ->]]; cbn [need] in *.
  - cbn [obind]. eauto.
  - rewrite access_own by exact NB. replace (0 + (n + 4) <=? real) with true by (symmetry; apply N.leb_le; lia). rewrite orb_true_r. cbn [obind]. eauto.
  - rewrite !access_own by exact NB.
    assert (E : w64 (n + 16 + 2 ^ 64 - 8) = n + 8) by (replace (n + 16 + 2 ^ 64 - 8) with (n + 8 + 2 ^ 64) by lia; rewrite w64_full; apply w64_small; change (2 ^ 60) with 1152921504606846976 in Hn; change (2 ^ 64) with 18446744073709551616; lia). rewrite E. clear E.
    replace (0 + 8 <=? real) with true by (symmetry; apply N.leb_le; lia). replace (n + 8 + 8 <=? real) with true by (symmetry; apply N.leb_le; lia). rewrite !orb_true_r. cbn [andb obind]. eauto.
Qed.
(** ** calls on live blocks *)
Lemma alloc_find s p : isAllocated s p = true <-> exists i, find p (allocs s) = Some i.
Proof. unfold isAllocated. destruct (find p (allocs s)) as [i|]; split; eauto; try discriminate. intros (i & H). discriminate. Qed.
Lemma tracked_pos s p i : UI s -> find p (allocs s) = Some i -> p <> 0.
Proof. intros U F. pose proof (find_some _ _ _ F) as X. apply (in_map fst) in X. apply (ui_same _ U) in X. apply in_map_iff in X. destruct X as ([q z] & E & X). cbn in E. subst q. destruct (ui_room _ U _ _ X). lia. Qed.
Lemma dealloc_ok s p i : UI s -> find p (allocs s) = Some i -> prot i = false ->
  exists s', deallocate s p = Ret (true, s') /\ allocs s' = del p (allocs s) /\ UI s' /\ (forall q, isAllocated s' q = isAllocated s q && negb (q =? p)) /\ mem s' = mem s /\ blocks s' = filter (fun b => negb (fst b =? p)) (blocks s).
Proof.
  intros U F P. pose proof (tracked_pos _ _ _ U F) as P0. unfold deallocate. destruct (N.eqb_spec p 0); [congruence|]. rewrite F, P, (blocks_has _ _ _ U F). eexists. split; [reflexivity|]. split; [reflexivity|]. split; [apply (UI_del s _ p); [reflexivity|reflexivity|exact U]|]. split; [|split; reflexivity].
  intros q. unfold isAllocated. cbn [allocs]. rewrite find_del by apply U. destruct (q =? p); [rewrite andb_false_r|rewrite andb_true_r]; reflexivity.
Qed.
(** ** pointer objects *)
Definition bare (s : umm) : Prop := forall p i, find p (allocs s) = Some i -> prot i = false.
Lemma object_ok cv s ty z l p junk : UI s -> bare s -> z < 2 ^ 60 -> l = NONE \/ l = CRC -> answer_ok (blocks s) z (mkFlags false false false) l 64 (Some p) ->
  exists s', allocateObject cv s ty z (mkFlags false false false) l (Some p) junk = Ret (p, s') /\ UI s' /\ bare s' /\ find p (allocs s) = None /\ p <> 0 /\ (forall q, isAllocated s' q = isAllocated s q || (q =? p)) /\ (exists i, find p (allocs s') = Some i) /\ inside (blocks s') p z = true /\ length (allocs s') = S (length (allocs s)).
Proof.
  intros U B Hz HL HA. assert (M : modest z 64) by (split; [exact Hz|change (2 ^ 60) with 1152921504606846976; lia]). destruct (alloc_completes cv s z (mkFlags false false false) l 64 p junk U M HA ltac:(tauto)) as (r & s1 & E).
  assert (Hz' : z < 2 ^ 64) by (change (2 ^ 60) with 1152921504606846976 in Hz; change (2 ^ 64) with 18446744073709551616; lia).
  destruct (allocate_eff _ _ _ _ _ _ _ _ _ _ U Hz' HA E) as [(C & _)|(q & real & Eq & HR & G & _ & F & Er & EB & EA & _)]; [discriminate|]. injection Eq as <-. destruct (granted_fresh s p real U G) as (_ & NB & P0).
  assert (Hr : r = p) by (destruct HL; subst; reflexivity). rewrite Hr in *. clear Hr Er r. destruct (modest_request z (mkFlags false false false) l 64 M) as (real' & HR' & LR & _). rewrite HR in HR'. injection HR' as <-.
  set (g := fun i : info => mkInfo (user i) (orig i) (isize i) (Some ty) (is_array i) (prot i)).
  exists (set_allocs s1 (upd p g (allocs s1)) (st s1)). unfold allocateObject. rewrite E. cbn [obind fst snd]. destruct (N.eqb_spec p 0); [congruence|]. fold g. split; [reflexivity|].
  destruct (alloc_step cv s (UAlloc z (mkFlags false false false) l 64 (Some p) junk) _ _ _ _ _ _ _ _ U Hz' HA E) as [U1 _].
  assert (FQ : forall q, find q (upd p g (allocs s1)) = if q =? p then Some (g (mkInfo p p z None false false)) else find q (allocs s)).
  { intros q. rewrite find_upd, EA, find_app. cbn [find]. destruct (N.eqb_spec q p) as [->|D]; [rewrite F, N.eqb_refl; reflexivity|]. destruct (find q (allocs s)); [reflexivity|]. destruct (N.eqb_spec p q); [congruence|reflexivity]. }
  split; [eapply UI_upd; [|reflexivity|reflexivity|exact U1]; auto|]. split; [|split; [exact F|split; [exact P0|split; [|split; [|split]]]]].
  - intros q i. cbn [set_allocs allocs]. rewrite FQ. destruct (q =? p); [intros H; injection H as <-; reflexivity|apply B].
  - intros q. unfold isAllocated. cbn [set_allocs allocs]. rewrite FQ. destruct (q =? p); [rewrite orb_true_r; reflexivity|rewrite orb_false_r; reflexivity].
  - cbn [set_allocs allocs]. rewrite FQ, N.eqb_refl. eauto.
  - cbn [set_allocs blocks]. unfold inside. rewrite EB. cbn [existsb fst snd]. replace (p <=? p) with true by (symmetry; apply N.leb_le; lia). pose proof (need_ge z l). replace (p + z <=? p + real) with true by (symmetry; apply N.leb_le; lia). cbn [andb orb]. apply orb_true_r.
  - cbn [set_allocs allocs]. rewrite <- (map_length fst), keys_upd, map_length, EA, app_length. cbn [length]. lia.
Qed.
Record WI (w : world) : Prop := { wi_ui : UI (mgr w); wi_bare : bare (mgr w); wi_own : owned w }.
Lemma bare_del s s' p : UI s -> bare s -> allocs s' = del p (allocs s) -> bare s'.
Proof. intros U B A q i. rewrite A, find_del by apply U. destruct (q =? p); [discriminate|apply B]. Qed.
(* reset of an object k while its new value v is a live block nobody owns, or null *)
Lemma reset_ok w k v : UI (mgr w) -> bare (mgr w) -> (forall j, rp w j <> 0 -> isAllocated (mgr w) (rp w j) = true) -> (forall i j, rp w i = rp w j -> rp w i <> 0 -> i = j) ->
  (v <> 0 -> isAllocated (mgr w) v = true) -> (forall j, rp w j = v -> v <> 0 -> False) -> (forall a, isAllocated (mgr w) a = true -> a = v \/ exists j, rp w j = a) ->
  exists w', reset w k v = Ret w' /\ WI w' /\ rp w' k = v.
Proof.
  intros U B O1 O2 V1 V2 O3. unfold reset. assert (SR : forall j, set_rp (rp w) k v j = if Nat.eqb j k then v else rp w j) by reflexivity. assert (SK : set_rp (rp w) k v k = v) by (rewrite SR, PeanoNat.Nat.eqb_refl; reflexivity).
  destruct (N.eqb_spec (rp w k) 0) as [Z|Z]; cbn [obind].
  - eexists. split; [reflexivity|]. split; [|exact SK]. constructor; cbn [mgr rp]; [exact U|exact B|]. split; [|split]; cbn [mgr rp].
    + intros j. rewrite SR. destruct (Nat.eqb j k); auto.
    + intros i j. rewrite !SR. destruct (PeanoNat.Nat.eqb_spec i k) as [I|I], (PeanoNat.Nat.eqb_spec j k) as [J|J]; intros H H0; [congruence| | |auto].
      * exfalso. apply (V2 j); auto.
      * exfalso. apply (V2 i); congruence.
    + intros a Ha. destruct (O3 a Ha) as [->|(j & E)]; [exists k; exact SK|]. exists j. rewrite SR. destruct (PeanoNat.Nat.eqb_spec j k) as [J|J]; [|exact E]. subst j. rewrite Z in E. subst a. apply alloc_find in Ha. destruct Ha as (i & Ha). exfalso. exact (tracked_pos _ _ _ U Ha eq_refl).
  - pose proof (O1 k Z) as T. apply alloc_find in T. destruct T as (i0 & T). destruct (dealloc_ok _ _ _ U T (B _ _ T)) as (s' & E & EA & U' & Q & _). rewrite E. cbn [obind snd]. eexists. split; [reflexivity|]. split; [|exact SK]. constructor; cbn [mgr rp]; [exact U'|exact (bare_del _ _ _ U B EA)|]. split; [|split]; cbn [mgr rp].
    + intros j. rewrite SR, Q. destruct (PeanoNat.Nat.eqb_spec j k) as [J|J]; intros H; apply andb_true_iff; (split; [auto|]); apply negb_true_iff, N.eqb_neq; intros C; [apply (V2 k); congruence|apply J; apply O2; [exact C|exact H]].
    + intros i j. rewrite !SR. destruct (PeanoNat.Nat.eqb_spec i k) as [I|I], (PeanoNat.Nat.eqb_spec j k) as [J|J]; intros H H0; [congruence| | |auto].
      * exfalso. apply (V2 j); auto.
      * exfalso. apply (V2 i); congruence.
    + intros a. rewrite Q. intros Ha. apply andb_true_iff in Ha. destruct Ha as [Ha N1]. apply negb_true_iff, N.eqb_neq in N1. destruct (O3 a Ha) as [->|(j & E1)]; [exists k; exact SK|]. exists j. rewrite SR. destruct (PeanoNat.Nat.eqb_spec j k) as [J|J]; [congruence|exact E1].
Qed.
Lemma make_ok cv w k ty z l t init sys junk : WI w -> wcontract w (WMake k ty z l t init sys junk) -> exists e w', make cv w k ty z l t init sys junk = Ret (e, w') /\ WI w' /\
  (e = None <-> sys <> None /\ t = false) /\ (e <> None -> rp w' = rp w /\ forall a, isAllocated (mgr w') a = isAllocated (mgr w) a).
Proof.
  intros [U B (O1 & O2 & O3)] (Hz & HL & HA). unfold make. destruct sys as [p|].
  2:{ assert (E : allocateObject cv (mgr w) ty z (mkFlags false false false) l None junk = Throw E_bad_alloc) by (unfold allocateObject, allocate, request; destruct HL; subst; reflexivity). rewrite E. eexists _, w. split; [reflexivity|]. split; [constructor; [exact U|exact B|split; [|split]]; assumption|]. split; [split; [discriminate|intros [C _]; congruence]|auto]. }
  destruct (object_ok cv (mgr w) ty z l p junk U B Hz HL HA) as (s' & E & U' & B' & F & P0 & Q & (i & FI) & IN & LEN). rewrite E.
  assert (Fr : isAllocated (mgr w) p = false) by (unfold isAllocated; rewrite F; reflexivity).
  destruct t.
  - destruct (dealloc_ok _ _ _ U' FI (B' _ _ FI)) as (s2 & E2 & EA & U2 & Q2 & _). rewrite E2. cbn [obind snd].
    assert (QQ : forall a, isAllocated s2 a = isAllocated (mgr w) a) by (intros a; rewrite Q2, Q; destruct (N.eqb_spec a p) as [->|D]; [rewrite Fr; reflexivity|rewrite orb_false_r, andb_true_r; reflexivity]).
    eexists _, _. split; [reflexivity|]. split; [constructor; cbn [mgr rp]; [exact U2|exact (bare_del _ _ _ U' B' EA)|]|split; [split; [discriminate|intros [_ C]; discriminate]|auto]].
    split; [|split]; cbn [mgr rp]; [intros j; rewrite QQ; apply O1|exact O2|intros a; rewrite QQ; apply O3].
  - rewrite IN. set (s3 := set_mem s' (fill (mem s') p z init)).
    destruct (reset_ok (mkWorld s3 (rp w)) k p) as (w' & E3 & W' & _); cbn [mgr rp].
    + apply (UI_ext s'); [reflexivity|reflexivity|exact U'].
    + exact B'.
    + intros j Hj. change (isAllocated s3 (rp w j)) with (isAllocated s' (rp w j)). rewrite Q, O1 by exact Hj. reflexivity.
    + exact O2.
    + intros _. change (isAllocated s3 p) with (isAllocated s' p). rewrite Q, N.eqb_refl. apply orb_true_r.
    + intros j Hj _. pose proof (O1 j) as C. rewrite Hj, Fr in C. specialize (C P0). discriminate.
    + intros a. change (isAllocated s3 a) with (isAllocated s' a). rewrite Q. intros H. apply orb_true_iff in H. destruct H as [H|H]; [right; auto|left; apply N.eqb_eq, H].
    + rewrite E3. cbn [obind]. eexists _, _. split; [reflexivity|]. split; [exact W'|]. split; [split; [intros _; split; [discriminate|reflexivity]|reflexivity]|intros C; congruence].
Qed.
Lemma wstep_ok cv w o : WI w -> wcontract w o -> exists w', wstep cv w o = Ret w' /\ WI w'.
Proof.
  intros W HC. destruct o; cbn [wstep].
  - destruct (make_ok cv w k ty sizeofT l throws init sys junk W HC) as (e & w' & E & W' & _). rewrite E. cbn [obind snd]. eauto.
  - destruct W as [U B (O1 & O2 & O3)]. destruct (reset_ok w k 0 U B O1 O2) as (w' & E & W' & _); [congruence|congruence|auto|]. eauto.
  - unfold move_assign. destruct (PeanoNat.Nat.eqb_spec k j) as [->|D]; [eauto|]. cbn [release]. destruct W as [U B (O1 & O2 & O3)]. assert (SR : forall i, set_rp (rp w) j 0 i = if Nat.eqb i j then 0 else rp w i) by reflexivity.
    destruct (reset_ok (mkWorld (mgr w) (set_rp (rp w) j 0)) k (rp w j)) as (w' & E & W' & _); cbn [mgr rp]; [exact U|exact B| | |auto| | |eauto].
    + intros i. rewrite SR. destruct (Nat.eqb i j); [congruence|auto].
    + intros i i'. rewrite !SR. destruct (PeanoNat.Nat.eqb_spec i j), (PeanoNat.Nat.eqb_spec i' j); intros H H0; try congruence. auto.
    + intros i. rewrite SR. destruct (PeanoNat.Nat.eqb_spec i j) as [I|I]; intros H H0; [congruence|]. apply I. apply O2; [exact H|congruence].
    + intros a Ha. destruct (O3 a Ha) as (i & E). destruct (PeanoNat.Nat.eq_dec i j) as [I|I]; [left; congruence|right; exists i; rewrite SR; destruct (PeanoNat.Nat.eqb_spec i j); [congruence|exact E]].
Qed.
Lemma wrun_ok cv ops : forall w, WI w -> whonest cv w ops -> exists w', wrun cv w ops = Ret w' /\ WI w'.
Proof.
  induction ops as [|o ops IH]; intros w W HH; [exists w; split; [reflexivity|exact W]|]. destruct HH as [HC HH]. destruct (wstep_ok cv w o W HC) as (w1 & E & W1). cbn [wrun]. rewrite E. cbn [obind]. apply IH; [exact W1|apply HH, E].
Qed.
Lemma WI0 m : WI (mkWorld (umm0 m) (fun _ => 0)).
Proof. constructor; cbn [mgr rp]; [apply UI0|intros p i H; discriminate H|]. split; [|split]; cbn [mgr rp]; [congruence|congruence|]. intros a H. discriminate H. Qed.
