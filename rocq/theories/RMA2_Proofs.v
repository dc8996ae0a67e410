From Coq Require Import List NArith ZArith Bool Lia Permutation.
Import ListNotations.
From Verif Require Import Outcome Words Arith RMA_Model RMA_Spec RMA_Proofs.
Local Open Scope N_scope.

Lemma make_ok zs s0 : rma_make zs = Ret s0 -> s0 = mkRma zs [] [] [] /\ zs <> [] /\ any_clash zs = false.
Proof.
  unfold rma_make. destruct zs as [|z r]; [discriminate|]. destruct (any_clash (z :: r)) eqn:E; [discriminate|].
  intros H. inversion H. repeat split. discriminate.
Qed.
Lemma FOP_nth {A} (R : A -> A -> Prop) l : (forall x y, R x y -> R y x) -> ForallOrdPairs R l ->
  forall i j x y, nth_error l i = Some x -> nth_error l j = Some y -> i <> j -> R x y.
Proof.
  intros S. induction 1 as [|a r F _ IH]; intros i j x y Hi Hj Hn; [destruct i; discriminate|].
  rewrite Forall_forall in F. destruct i as [|i], j as [|j]; simpl in *; [congruence| | |].
  - inversion Hi; subst. apply F. eapply nth_error_In; eassumption.
  - inversion Hj; subst. apply S, F. eapply nth_error_In; eassumption.
  - apply (IH i j); auto.
Qed.
Theorem history zs s0 l t s h : one_per_level zs -> proper zs -> rma_make zs = Ret s0 ->
  rma_run l s0 [] = Ret (t, s, h) -> ok_history zs t ->
  no_overlap (live t) /\
  (forall b, In b (live t) -> bsys b = false -> exists z, In z zs /\ inside b z) /\
  (forall o, ok_op zs t o -> exists x s' h', rma_do o s h = Ret (x, s', h')).
Proof.
  intros Ho Hp Hm Hr Hok. destruct (make_ok _ _ Hm) as (-> & Hne & Hc).
  pose proof (inv_run _ _ Ho Hp Hc Hne _ _ _ Hr Hok) as I. repeat split.
  - unfold no_overlap. apply FOP_nth; [intros x y; apply apart_sym|apply (I_apart _ _ _ _ _ I)].
  - intros b Hb Sb. destruct (inv_zone_blk _ _ _ _ _ _ I Hb Sb) as (r & _ & E1 & E2 & _ & _ & z & Z & _ & Z2 & Z3).
    exists z. unfold inside. rewrite <- E1, <- E2. auto.
  - intros o Ho'. destruct (inv_step _ _ _ _ o Ho Hp Hc I Ho') as (x & s' & h' & E & _). eauto.
Qed.

(** default map *)
Lemma default_ok : one_per_level default_zones /\ proper default_zones /\ rma_make default_zones = Ret rma_default.
Proof.
  split; [|split; [|reflexivity]].
  - unfold one_per_level. simpl. repeat constructor; simpl; intuition discriminate.
  - unfold proper. repeat constructor; vm_compute; congruence.
Qed.

(** preferred zone *)
Lemma zones_home zs l : one_per_level zs -> proper zs -> any_clash zs = false -> zs <> [] -> 
  forall t s h, rma_run l (mkRma zs [] [] []) [] = Ret (t, s, h) -> ok_history zs t -> at_home zs t -> zones s = zs.
Proof.
  intros Ho Hp Hc Hne. induction l as [|o l IH] using rev_ind; intros t s h H Hok Hh.
  - simpl in H. inversion H; subst. reflexivity.
  - apply rma_run_app in H as (t0 & s0 & h0 & x & H1 & H2 & ->). apply ok_history_snoc in Hok as [K1 K2].
    assert (Hh0 : at_home zs t0) by (intros n c m p sy Hi; apply (Hh n c m p sy); apply in_or_app; auto).
    pose proof (IH _ _ _ H1 K1 Hh0) as Z. pose proof (inv_run _ _ Ho Hp Hc Hne _ _ _ H1 K1) as I.
    destruct o as [n c m|p|p]; cbn [rma_do] in H2.
    + unfold rma_allocate in H2.
      destruct (nth_error_some _ _ (select_lt c _ (I_ne _ _ _ _ _ I))) as (z & Ez & Hz). rewrite Ez in H2.
      destruct (find_space z (allocations s0) n =? 0) eqn:E0.
      * (* not at home *)
        exfalso. destruct (nth_error_some _ _ (fallback_lt c _ (I_ne _ _ _ _ _ I))) as (f & Ef & Hf). rewrite Ef in H2.
        apply N.eqb_eq in E0.
        destruct (find_space f (allocations s0) n =? 0) eqn:E1; inversion H2; subst x.
        -- destruct (Hh n c m m true) as [E _]; [apply in_or_app; right; left; reflexivity|discriminate].
        -- apply N.eqb_neq in E1. rewrite Z in *.
           destruct (Hh n c m (find_space f (allocations s0) n) false) as [_ (y & Y1 & Y2 & Y3)]; [apply in_or_app; right; left; reflexivity|].
           cbn [ok_op fst] in K2. destruct K2 as (N1 & _).
           destruct (find_space_ok _ _ _ _ _ _ _ Ho Hp Hc I Hf N1 E1) as (A & B & C).
           unfold inside in Y3; cbn [bptr bsize] in Y3.
           assert (Eyf : y = f).
           { destruct (level_eqb (zlevel y) (zlevel f)) eqn:L.
             - apply level_eqb_eq in L. apply (nodup_level zs); auto.
             - assert (Nyf : y <> f) by (intros ->; rewrite (proj2 (level_eqb_eq _ _) eq_refl) in L; discriminate).
               pose proof (zones_apart _ _ _ Hp Hc Y1 Hf Nyf). lia. }
           subst y.
           (* the selected zone has the preferred level too *)
           change (home_level c) with (crit_level c) in *.
           assert (zlevel z = crit_level c).
           { unfold select_zone in Ez. destruct (find_level (crit_level c) zs 0) eqn:EL.
             - apply find_level_some in EL as (k & w & -> & W1 & W2). simpl in Ez. congruence.
             - exfalso. apply (find_level_none _ _ _ EL _ Y1). assumption. }
           assert (z = f) by (apply (nodup_level zs); congruence). subst. congruence.
      * inversion H2. exact Z.
    + destruct (rma_deallocate p s0 h0) as [[s' h']| | |] eqn:E; inversion H2; subst.
      unfold rma_deallocate, c_free in E.
      repeat match type of E with context [match ?X with _ => _ end] => destruct X; try discriminate end;
      inversion E; reflexivity.
    + inversion H2. congruence.
Qed.
Theorem preferred zs s0 l t s h n c m z : one_per_level zs -> proper zs -> rma_make zs = Ret s0 ->
  rma_run l s0 [] = Ret (t, s, h) -> ok_history zs t -> at_home zs t -> 1 <= n -> n < 2 ^ 64 ->
  In z zs -> zlevel z = home_level c -> zstart z <> 0 -> room z (live t) n ->
  exists p s' h', rma_do (OAlloc n c m) s h = Ret (RPtr p false, s', h') /\ inside (mkB p n c false) z.
Proof.
  intros Ho Hp Hm Hr Hok Hh N1 N2 Hz Hl H0 (a & A & B & C). change (home_level c) with (crit_level c) in Hl. destruct (make_ok _ _ Hm) as (-> & Hne & Hc).
  pose proof (zones_home _ _ Ho Hp Hc Hne _ _ _ Hr Hok Hh) as Z.
  pose proof (inv_run _ _ Ho Hp Hc Hne _ _ _ Hr Hok) as I.
  pose proof Hp as Hp'. unfold proper in Hp'. rewrite Forall_forall in Hp'. destruct (Hp' _ Hz) as [P1 P2].
  assert (F : find_space z (allocations s) n <> 0).
  { destruct (occupied_chain _ _ _ _ _ _ Ho Hp I Hz) as [Ch O].
    apply (scan_complete n _ _ _ a P2 H0 Ch A B). intros b k Hi. apply O in Hi as (r & Hr' & _ & <- & <-).
    destruct (inv_arec_blk _ _ _ _ _ _ I Hr') as (bb & B1 & _ & <- & <-). rewrite Forall_forall in C. auto. }
  cbn [rma_do]. unfold rma_allocate. rewrite Z.
  assert (Ez : nth_error zs (select_zone c zs) = Some z).
  { unfold select_zone. destruct (find_level (crit_level c) zs 0) eqn:EL.
    - apply find_level_some in EL as (k & w & -> & W1 & W2). simpl. rewrite W1. f_equal. apply (nodup_level zs); auto; [eapply nth_error_In; eassumption|congruence].
    - exfalso. apply (find_level_none _ _ _ EL _ Hz). assumption. }
  rewrite Ez. destruct (N.eqb_spec (find_space z (allocations s) n) 0); [contradiction|].
  do 3 eexists. split; [reflexivity|].
  destruct (find_space_ok _ _ _ _ _ _ _ Ho Hp Hc I Hz N1 F) as (Q1 & Q2 & _). split; assumption.
Qed.

(** accounting *)
Definition msum (c : crit) (l : list mrec) : N := sumN (map msize (filter (fun r => crit_eqb (mcrit r) c) l)).
Lemma add64_mod u x : add64 (u mod 2 ^ 64) x = (u + x) mod 2 ^ 64.
Proof. unfold add64. rewrite N.add_mod_idemp_l by (rewrite p64; lia). reflexivity. Qed.
Lemma add_usage_sum c l : forall u, add_usage c (u mod 2 ^ 64) l = (u + msum c l) mod 2 ^ 64.
Proof.
  unfold add_usage, msum. induction l as [|r q IH]; intros u; cbn [fold_left filter map sumN]; [rewrite N.add_0_r; reflexivity|].
  destruct (crit_eqb (mcrit r) c); cbn [map sumN].
  - rewrite add64_mod, IH. f_equal. lia.
  - apply IH.
Qed.
Lemma bytes_split c bs : bytes_of c bs = bytes_of c (filter zonal bs) + bytes_of c (filter bsys bs).
Proof.
  unfold bytes_of. induction bs as [|b r IH]; [reflexivity|]. cbn [filter]. unfold zonal at 1. destruct (bsys b); cbn [negb filter];
  destruct (crit_eqb (bcrit b) c); cbn [map sumN]; lia.
Qed.
Lemma bytes_toB c sy l : bytes_of c (map (toB sy) l) = msum c l.
Proof. unfold bytes_of, msum. induction l as [|r q IH]; [reflexivity|]. cbn [map filter toB bcrit]. destruct (crit_eqb (mcrit r) c); cbn [map sumN]; rewrite IH; reflexivity. Qed.
Lemma alloc_sys n c m s p sy s' : rma_allocate n c m s = Ret (p, sy, s') ->
  if sy then p = m /\ sysmem s' = sysmem s ++ [mkM m n c PSystem] else sysmem s' = sysmem s.
Proof.
  unfold rma_allocate, record_alloc. destruct (nth_error _ _); [|discriminate]. destruct (_ =? 0).
  - destruct (nth_error _ _); [|discriminate]. destruct (_ =? 0); intros H; inversion H; auto.
  - intros H; inversion H; auto.
Qed.
Lemma dealloc_sys p s h s' h' : rma_deallocate p s h = Ret (s', h') ->
  sysmem s' = sysmem s \/ erase_if (fun r => mptr r =? p) (sysmem s) = Some (sysmem s').
Proof.
  unfold rma_deallocate. destruct (erase_if _ (allocations s)); [intros H; inversion H; auto|].
  destruct (erase_if _ (sysmem s)); destruct (c_free p h); try discriminate; intros H; inversion H; auto.
Qed.
Lemma no_null zs l : one_per_level zs -> proper zs -> any_clash zs = false -> zs <> [] -> 
  forall t s h, rma_run l (mkRma zs [] [] []) [] = Ret (t, s, h) -> ~ malloc_failed t -> filter nonnull (sysmem s) = sysmem s.
Proof.
  intros Ho Hp Hc Hne. induction l as [|o l IH] using rev_ind; intros t s h H Hf.
  - simpl in H. inversion H; subst. reflexivity.
  - apply rma_run_app in H as (t0 & s0 & h0 & x & H1 & H2 & ->).
    assert (Hf0 : ~ malloc_failed t0) by (intros (n & c & m & K); apply Hf; exists n, c, m; apply in_or_app; auto).
    pose proof (IH _ _ _ H1 Hf0) as Z.
    destruct o as [n c m|p|p]; cbn [rma_do] in H2.
    + destruct (rma_allocate n c m s0) as [[[p sy] s']| | |] eqn:E; try discriminate. inversion H2; subst.
      pose proof (alloc_sys _ _ _ _ _ _ _ E) as K. destruct sy; [|congruence]. destruct K as [-> K]. rewrite K.
      destruct (N.eqb_spec m 0) as [->|M0].
      * exfalso. apply Hf. exists n, c, 0. apply in_or_app. right. left. reflexivity.
      * rewrite filter_app, Z. cbn [filter]. unfold nonnull at 1. cbn [mptr]. rewrite (proj2 (N.eqb_neq _ _) M0). reflexivity.
    + destruct (rma_deallocate p s0 h0) as [[s' h']| | |] eqn:E; try discriminate. inversion H2; subst.
      destruct (dealloc_sys _ _ _ _ _ E) as [K|K]; [congruence|].
      apply erase_some in K as (y & _ & P).
      assert (G : forall w, In w (sysmem s) -> nonnull w = true).
      { intros w Hw. assert (K : In w (filter nonnull (sysmem s0))) by (rewrite Z; apply (Permutation_in _ (Permutation_sym P)); right; assumption).
        apply filter_In in K. tauto. }
      clear -G. induction (sysmem s) as [|w q IHq]; [reflexivity|]. cbn [filter]. rewrite (G w (or_introl eq_refl)), IHq; [reflexivity|].
      intros. apply G. right. assumption.
    + inversion H2; subst. assumption.
Qed.
Theorem usage zs s0 l t s h c : one_per_level zs -> proper zs -> rma_make zs = Ret s0 ->
  rma_run l s0 [] = Ret (t, s, h) -> ok_history zs t -> ~ malloc_failed t ->
  criticality_usage s c = bytes_of c (live t) mod 2 ^ 64.
Proof.
  intros Ho Hp Hm Hr Hok Hf. destruct (make_ok _ _ Hm) as (-> & Hne & Hc).
  pose proof (inv_run _ _ Ho Hp Hc Hne _ _ _ Hr Hok) as I. pose proof (no_null _ _ Ho Hp Hc Hne _ _ _ Hr Hf) as NN.
  unfold criticality_usage. change 0 with (0 mod 2 ^ 64) at 1. rewrite !add_usage_sum.
  rewrite bytes_split, (I_zone _ _ _ _ _ I), (I_sys _ _ _ _ _ I), !bytes_toB, NN. f_equal. 
Qed.
Lemma diag_sum lv l : forall u v,
  fold_left (fun u r => if level_eqb (alevel r) lv then (add64 (fst u) 1, add64 (snd u) (asize r)) else u) l (u mod 2 ^ 64, v mod 2 ^ 64) =
  ((u + N.of_nat (length (filter (fun r => level_eqb (alevel r) lv) l))) mod 2 ^ 64,
   (v + sumN (map asize (filter (fun r => level_eqb (alevel r) lv) l))) mod 2 ^ 64).
Proof.
  induction l as [|r q IH]; intros u v; cbn [fold_left filter].
  - cbn [length map sumN]. change (N.of_nat 0) with 0. rewrite !N.add_0_r. reflexivity.
  - destruct (level_eqb (alevel r) lv); [|apply IH]. cbn [fst snd]. rewrite !add64_mod, IH. cbn [length map sumN].
    rewrite Nat2N.inj_succ. f_equal; f_equal; lia.
Qed.
Theorem diagnostics zs s0 l t s h z : one_per_level zs -> proper zs -> rma_make zs = Ret s0 ->
  rma_run l s0 [] = Ret (t, s, h) -> ok_history zs t -> In z zs ->
  diag_zone s (zlevel z) = (N.of_nat (length (filter (in_zone z) (live t))) mod 2 ^ 64, sumN (map bsize (filter (in_zone z) (live t))) mod 2 ^ 64).
Proof.
  intros Ho Hp Hm Hr Hok Hz. destruct (make_ok _ _ Hm) as (-> & Hne & Hc).
  pose proof (inv_run _ _ Ho Hp Hc Hne _ _ _ Hr Hok) as I.
  unfold diag_zone. change (0, 0) with (0 mod 2 ^ 64, 0 mod 2 ^ 64). rewrite diag_sum.
  rewrite !N.add_0_l.
  assert (E : map (fun r => (aaddr r, asize r)) (filter (fun r => level_eqb (alevel r) (zlevel z)) (allocations s)) =
              map (fun b => (bptr b, bsize b)) (filter (in_zone z) (live t))).
  { assert (F1 : filter (in_zone z) (live t) = filter (in_zone z) (filter zonal (live t))).
    { clear. induction (live t) as [|b r IH]; [reflexivity|]. cbn [filter]. unfold zonal at 1. destruct (bsys b) eqn:Sb; cbn [negb filter].
      - replace (in_zone z b) with false; [assumption|]. unfold in_zone. rewrite Sb. cbn [negb]. rewrite andb_false_r. reflexivity.
      - rewrite IH. reflexivity. }
    rewrite F1, (I_zone _ _ _ _ _ I). pose proof (I_rel _ _ _ _ _ I) as RR. pose proof (I_in _ _ _ _ _ I) as II.
    revert RR II. generalize (managed s) (allocations s). clear -Ho Hp Hc Hz. 
    intros ml al. revert ml. induction al as [|a al IH]; intros [|mm ml] RR II; simpl in RR; try discriminate; [reflexivity|].
    injection RR as R1 R2 R3. inversion II; subst. cbn [filter map]. 
    replace (in_zone z (toB false mm)) with (level_eqb (alevel a) (zlevel z)).
    - destruct (level_eqb (alevel a) (zlevel z)); cbn [map]; [|apply IH; assumption]. f_equal; [cbn [toB bptr bsize]; congruence|apply IH; assumption].
    - destruct H1 as (A0 & A1 & y & Y & Y1 & Y2 & Y3). unfold in_zone, toB. cbn [bptr bsys negb]. rewrite andb_true_r. rewrite <- R1.
      destruct (level_eqb (alevel a) (zlevel z)) eqn:L; symmetry.
      + apply level_eqb_eq in L. assert (y = z) by (apply (nodup_level zs); congruence). subst.
        rewrite (proj2 (N.leb_le _ _)), (proj2 (N.ltb_lt _ _)) by lia. reflexivity.
      + assert (Nyz : y <> z) by (intros ->; rewrite (proj2 (level_eqb_eq _ _) (eq_sym Y1)) in L; discriminate).
        pose proof (zones_apart _ _ _ Hp Hc Y Hz Nyz).
        destruct (N.leb_spec (zstart z) (aaddr a)); [|reflexivity]. destruct (N.ltb_spec (aaddr a) (zend z)); [lia|reflexivity]. }
  f_equal.
  - rewrite <- (map_length (fun r => (aaddr r, asize r))), E, map_length. reflexivity.
  - f_equal.
    replace (map asize (filter (fun r => level_eqb (alevel r) (zlevel z)) (allocations s))) with
      (map snd (map (fun r => (aaddr r, asize r)) (filter (fun r => level_eqb (alevel r) (zlevel z)) (allocations s)))) by (rewrite map_map; reflexivity).
    rewrite E, map_map. reflexivity.
Qed.
