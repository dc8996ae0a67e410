From Coq Require Import List NArith ZArith Bool Lia Permutation.
Import ListNotations.
From Verif Require Import Outcome Words Arith Floats RMA_Model RMA_Spec RMA_Proofs RMA2_Proofs.
Local Open Scope N_scope.

Lemma zone_of_level zs lv z : one_per_level zs -> In z zs -> zlevel z = lv ->
  exists i, find_level lv zs 0 = Some i /\ nth_error zs i = Some z.
Proof.
  intros Ho Hz Hl. destruct (find_level lv zs 0) eqn:EL.
  - apply find_level_some in EL as (k & w & -> & W1 & W2). exists k. split; [reflexivity|]. rewrite W1. f_equal.
    apply (nodup_level zs); auto; [eapply nth_error_In; eassumption|congruence].
  - exfalso. apply (find_level_none _ _ _ EL _ Hz). assumption.
Qed.
Lemma space_room zs bs ex s h z n : one_per_level zs -> proper zs -> Inv zs bs ex s h -> In z zs -> zstart z <> 0 -> room z bs n ->
  find_space z (allocations s) n <> 0.
Proof.
  intros Ho Hp I Hz H0 (a & A & B & C).
  pose proof Hp as Hp'. unfold proper in Hp'. rewrite Forall_forall in Hp'. destruct (Hp' _ Hz) as [P1 P2].
  destruct (occupied_chain _ _ _ _ _ _ Ho Hp I Hz) as [Ch O].
  apply (scan_complete n _ _ _ a P2 H0 Ch A B). intros b k Hi. apply O in Hi as (r & Hr' & _ & <- & <-).
  destruct (inv_arec_blk _ _ _ _ _ _ I Hr') as (bb & B1 & _ & <- & <-). rewrite Forall_forall in C. auto.
Qed.
Theorem fallback zs s0 l t s h n c m z f lv : one_per_level zs -> proper zs -> rma_make zs = Ret s0 ->
  rma_run l s0 [] = Ret (t, s, h) -> ok_history zs t -> at_home zs t -> 1 <= n -> n < 2 ^ 64 ->
  In z zs -> zlevel z = home_level c -> ~ room z (live t) n ->
  next_level c = Some lv -> In f zs -> zlevel f = lv -> zstart f <> 0 -> room f (live t) n ->
  exists p s' h', rma_do (OAlloc n c m) s h = Ret (RPtr p false, s', h') /\ inside (mkB p n c false) f.
Proof.
  intros Ho Hp Hm Hr Hok Hh N1 N2 Hz Hl Hnr Hnl Hf Hfl H0 Hfr. change (home_level c) with (crit_level c) in Hl. destruct (make_ok _ _ Hm) as (-> & Hne & Hc).
  pose proof (zones_home _ _ Ho Hp Hc Hne _ _ _ Hr Hok Hh) as Z.
  pose proof (inv_run _ _ Ho Hp Hc Hne _ _ _ Hr Hok) as I.
  destruct (zone_of_level _ _ _ Ho Hz Hl) as (i & I1 & I2). destruct (zone_of_level _ _ _ Ho Hf Hfl) as (j & J1 & J2).
  assert (S : select_zone c zs = i) by (unfold select_zone; rewrite I1; reflexivity).
  assert (F : find_fallback c zs = j).
  { destruct c; try discriminate Hnl; injection Hnl as Hnl; rewrite <- Hnl in J1; unfold find_fallback, fb_mission, fb_highly, fb_moderately; rewrite J1; reflexivity. }
  cbn [rma_do]. unfold rma_allocate. rewrite Z, S, F, I2, J2.
  destruct (N.eqb_spec (find_space z (allocations s) n) 0) as [_|E].
  2:{ exfalso. apply Hnr. destruct (find_space_ok _ _ _ _ _ _ _ Ho Hp Hc I Hz N1 E) as (A & B & C). eexists. eauto. }
  pose proof (space_room _ _ _ _ _ _ _ Ho Hp I Hf H0 Hfr) as E.
  destruct (N.eqb_spec (find_space f (allocations s) n) 0) as [?|_]; [contradiction|].
  do 3 eexists. split; [reflexivity|]. destruct (find_space_ok _ _ _ _ _ _ _ Ho Hp Hc I Hf N1 E) as (Q1 & Q2 & _). split; assumption.
Qed.

(* a level that has vanished from zones_ never comes back *)
Lemma gone zs L l1 t1 s1 h1 : one_per_level zs -> proper zs -> any_clash zs = false -> zs <> [] ->
  rma_run l1 (mkRma zs [] [] []) [] = Ret (t1, s1, h1) -> Forall (fun z => zlevel z <> L) (zones s1) ->
  forall l2 t s h, rma_run (l1 ++ l2) (mkRma zs [] [] []) [] = Ret (t, s, h) -> ok_history zs t ->
  Forall (fun z => zlevel z <> L) (zones s) /\
  exists t2, t = t1 ++ t2 /\ forall n c m p, In (OAlloc n c m, RPtr p false) t2 -> exists z, In z zs /\ zlevel z <> L /\ inside (mkB p n c false) z.
Proof.
  intros Ho Hp Hc Hne H1 HL. induction l2 as [|o l IH] using rev_ind; intros t s h H Hok.
  - rewrite app_nil_r in H. rewrite H1 in H. inversion H; subst. split; [assumption|]. exists []. rewrite app_nil_r. split; [reflexivity|]. intros ? ? ? ? [].
  - rewrite app_assoc in H. apply rma_run_app in H as (t0 & s0 & h0 & x & Q1 & Q2 & ->). apply ok_history_snoc in Hok as [K1 K2].
    destruct (IH _ _ _ Q1 K1) as (Z & t2 & -> & T2). pose proof (inv_run _ _ Ho Hp Hc Hne _ _ _ Q1 K1) as I.
    enough (G : Forall (fun z => zlevel z <> L) (zones s) /\ (forall n c m p, o = OAlloc n c m -> x = RPtr p false -> exists z, In z zs /\ zlevel z <> L /\ inside (mkB p n c false) z)).
    { destruct G as [G1 G2]. split; [assumption|]. exists (t2 ++ [(o, x)]). split; [rewrite app_assoc; reflexivity|].
      intros n c m p Hi. apply in_app_iff in Hi as [Hi|[Hi|[]]]; [eauto|]. inversion Hi. subst. eapply G2; reflexivity. }
    destruct o as [n c m|p|p]; cbn [rma_do] in Q2.
    + unfold rma_allocate in Q2. destruct K2 as (N1 & _).
      destruct (nth_error_some _ _ (select_lt c _ (I_ne _ _ _ _ _ I))) as (z & Ez & Hz). rewrite Ez in Q2.
      pose proof (I_zones _ _ _ _ _ I _ Hz) as Hz'.
      rewrite Forall_forall in Z.
      destruct (N.eqb_spec (find_space z (allocations s0) n) 0) as [_|E0].
      * destruct (nth_error_some _ _ (fallback_lt c _ (I_ne _ _ _ _ _ I))) as (f & Ef & Hf). rewrite Ef in Q2.
        pose proof (I_zones _ _ _ _ _ I _ Hf) as Hf'.
        assert (ZZ : Forall (fun z => zlevel z <> L) (set_nth (select_zone c (zones s0)) f (zones s0))).
        { rewrite Forall_forall. intros y Hy. apply set_nth_in in Hy as [->|Hy]; auto. }
        destruct (N.eqb_spec (find_space f (allocations s0) n) 0) as [_|E1]; inversion Q2; subst; (split; [assumption|]).
        -- intros; discriminate.
        -- intros n' c' m' p' EE1 EE2. inversion EE1; inversion EE2; subst. exists f. repeat split; auto;
           destruct (find_space_ok _ _ _ _ _ _ _ Ho Hp Hc I Hf' N1 E1) as (A & B & _); assumption.
      * inversion Q2; subst. split; [cbn [zones]; rewrite Forall_forall; assumption|].
        intros n' c' m' p' EE1 EE2. inversion EE1; inversion EE2; subst. exists z. repeat split; auto;
        destruct (find_space_ok _ _ _ _ _ _ _ Ho Hp Hc I Hz' N1 E0) as (A & B & _); assumption.
    + destruct (rma_deallocate p s0 h0) as [[s' h']| | |] eqn:E; inversion Q2; subst. split; [|intros; discriminate].
      assert (zones s = zones s0) as ->; [|assumption].
      revert E. unfold rma_deallocate. destruct (erase_if _ (allocations s0)); [intros E; inversion E; reflexivity|].
      destruct (erase_if _ (sysmem s0)); destruct (c_free p h0); try discriminate; intros E; inversion E; reflexivity.
    + inversion Q2; subst. split; [assumption|intros; discriminate].
Qed.

Definition overflow_once : list rma_op := [OAlloc MB MISSION 0; OAlloc 1 MISSION 0; OFree 0x10000000].
Definition HSzone : zone := mkZone HS 0x10000000 (0x10000000 + MB).
Theorem highly_shielded_lost : exists t1 s1 h1, rma_run overflow_once rma_default [] = Ret (t1, s1, h1) /\ ok_history default_zones t1 /\
  room HSzone (live t1) MB /\
  forall l t s h, rma_run (overflow_once ++ l) rma_default [] = Ret (t, s, h) -> ok_history default_zones t ->
  exists t2, t = t1 ++ t2 /\ forall n c m p, In (OAlloc n c m, RPtr p false) t2 -> ~ inside (mkB p n c false) HSzone.
Proof.
  destruct default_ok as (Ho & Hp & Hm). destruct (make_ok _ _ Hm) as (_ & Hne & Hc).
  destruct (rma_run overflow_once rma_default []) as [[[t1 s1] h1]| | |] eqn:E; try (vm_compute in E; discriminate).
  exists t1, s1, h1. split; [reflexivity|].
  assert (T1 : t1 = [(OAlloc MB MISSION 0, RPtr 0x10000000 false); (OAlloc 1 MISSION 0, RPtr 0x20000000 false); (OFree 0x10000000, RDone)]).
  { vm_compute in E. inversion E. reflexivity. }
  assert (Z1 : zones s1 = [mkZone MS 0x20000000 (0x20000000 + 4 * MB); mkZone MS 0x20000000 (0x20000000 + 4 * MB); mkZone LS 0x30000000 (0x30000000 + 8 * MB); mkZone US 0x40000000 (0x40000000 + 16 * MB)]).
  { vm_compute in E. inversion E. reflexivity. }
  split; [|split].
  - subst t1. intros pre o x post K. destruct pre as [|? [|? [|? pre]]]; simpl in K; inversion K; subst; cbn [ok_op].
    + repeat split; try (vm_compute; congruence). left. reflexivity.
    + repeat split; try (vm_compute; congruence). left. reflexivity.
    + right. left. vm_compute. left. reflexivity.
    + destruct pre; discriminate.
  - subst t1. exists 0x10000000. split; [vm_compute; congruence|]. split; [vm_compute; congruence|].
    match goal with |- Forall _ ?l => replace l with [mkB 0x20000000 1 MISSION false] by (vm_compute; reflexivity) end.
    constructor; [|constructor]. left. cbn [bptr bsize]. intros K. vm_compute in K. discriminate K.
  - intros l t s h Hr Hok.
    destruct (gone default_zones HS _ _ _ _ Ho Hp Hc Hne E ltac:(rewrite Z1; repeat constructor; discriminate) _ _ _ _ Hr Hok) as (_ & t2 & -> & T2).
    exists t2. split; [reflexivity|]. intros n c m p Hi [A B]. destruct (T2 _ _ _ _ Hi) as (z & Hz & Lz & C & D).
    assert (H1 : In HSzone default_zones) by (left; reflexivity).
    assert (Nz : z <> HSzone) by (intros ->; apply Lz; reflexivity).
    pose proof (zones_apart _ _ _ Hp Hc Hz H1 Nz). cbn [bptr bsize] in *.
    assert (1 <= n) by (apply in_split in Hi as (a & b & ->); destruct (Hok (t1 ++ a) (OAlloc n c m) (RPtr p false) b) as (K & _); [rewrite <- app_assoc; reflexivity|exact K]).
    lia.
Qed.

(* only one fallback zone is tried; low-importance data overflows into the most protected zone *)
Theorem fallback_misses : exists n c m p s' h' z, rma_do (OAlloc n c m) rma_default [] = Ret (RPtr p true, s', h') /\
  In z default_zones /\ room z [] n.
Proof.
  exists (4 * MB + 1), MISSION, 0, 0. do 2 eexists. exists (mkZone LS 0x30000000 (0x30000000 + 8 * MB)).
  split; [vm_compute; reflexivity|]. split; [right; right; left; reflexivity|].
  exists 0x30000000. split; [vm_compute; congruence|]. split; [vm_compute; congruence|constructor].
Qed.
Theorem low_in_highly_shielded : exists t s h p, rma_run [OAlloc (16 * MB) LOW 0; OAlloc 1 LOW 0] rma_default [] = Ret (t, s, h) /\
  In (OAlloc 1 LOW 0, RPtr p false) t /\ inside (mkB p 1 LOW false) HSzone.
Proof. do 4 eexists. split; [vm_compute; reflexivity|]. split; [right; left; reflexivity|]. split; vm_compute; congruence. Qed.

(* two zones of one level; zero-byte requests *)
Definition twins : list zone := [mkZone MS 0x1000 0x1010; mkZone MS 0x2000 0x2010; mkZone LS 0x3000 0x3010].
Theorem twins_overlap : proper twins /\ exists s0 t s h, rma_make twins = Ret s0 /\
  rma_run [OAlloc 16 HIGHLY 0; OAlloc 16 HIGHLY 0; OAlloc 16 HIGHLY 0; OAlloc 16 HIGHLY 0] s0 [] = Ret (t, s, h) /\
  ok_history twins t /\ ~ no_overlap (live t).
Proof.
  split; [repeat constructor; vm_compute; congruence|].
  do 4 eexists. split; [reflexivity|]. split; [vm_compute; reflexivity|]. split.
  - intros pre o x post K. destruct pre as [|? [|? [|? [|? pre]]]]; simpl in K; inversion K; subst; cbn [ok_op];
      try (split; [vm_compute; congruence|split; [vm_compute; reflexivity|left; reflexivity]]); try (destruct pre; discriminate).
  - intros H. specialize (H 2%nat 3%nat (mkB 8192 16 HIGHLY false) (mkB 8192 16 HIGHLY false) eq_refl eq_refl ltac:(discriminate)).
    unfold apart_blk, apart in H. cbn [bptr bsize] in H. lia.
Qed.
Theorem zero_bytes : exists p s h, p <> 0 /\
  rma_run [OAlloc 16 MISSION 0; OAlloc 0 MISSION 0; OFree p; OAlloc 16 MISSION 0] rma_default [] =
  Ret ([(OAlloc 16 MISSION 0, RPtr p false); (OAlloc 0 MISSION 0, RPtr p false); (OFree p, RDone); (OAlloc 16 MISSION 0, RPtr p false)], s, h).
Proof. exists 0x10000000. do 2 eexists. split; [discriminate|]. vm_compute. reflexivity. Qed.

(* the constructor *)
Lemma any_clash_true zs : any_clash zs = true -> exists i j x y, nth_error zs i = Some x /\ nth_error zs j = Some y /\ i <> j /\ zones_clash x y = true.
Proof.
  induction zs as [|z r IH]; simpl; intros H; [discriminate|]. apply orb_true_iff in H as [H|H].
  - apply existsb_exists in H as (y & Hy & E). apply In_nth_error in Hy as [k Hk]. exists 0%nat, (S k), z, y. repeat split; auto.
  - destruct (IH H) as (i & j & x & y & A & B & C & D). exists (S i), (S j), x, y. repeat split; auto.
Qed.
Theorem constructor_check zs : Forall (fun z => zstart z <= zend z) zs ->
  (zs <> [] /\ separate zs -> rma_make zs = Ret (mkRma zs [] [] [])) /\
  (~ (zs <> [] /\ separate zs) -> rma_make zs = Throw E_runtime_error).
Proof.
  intros _. destruct (any_clash zs) eqn:E.
  - assert (NS : ~ separate zs).
    { intros S. apply any_clash_true in E as (i & j & x & y & A & B & C & D). unfold zones_clash in D. apply andb_true_iff in D as [D1 D2].
      apply N.leb_le in D1, D2. destruct (S _ _ _ _ A B C); lia. }
    split; [tauto|]. intros _. unfold rma_make. rewrite E. destruct zs; reflexivity.
  - assert (SS : separate zs).
    { apply any_clash_false in E. intros i j x y A B C.
      assert (K : zones_clash x y = false) by (apply (FOP_nth _ _ (fun a b => eq_trans (clash_sym b a)) E i j); auto).
      unfold zones_clash in K. destruct (N.leb_spec (zstart x) (zend y)); [|auto]. destruct (N.leb_spec (zstart y) (zend x)); [discriminate|auto]. }
    unfold rma_make. rewrite E. destruct zs; [|split; [reflexivity|intros K; exfalso; apply K; split; [discriminate|assumption]]].
    split; [intros [K _]; congruence|reflexivity].
Qed.
Definition inverted : list zone := [mkZone HS 0x2000 0x1000].
Theorem inverted_zone : exists s0 p s h, rma_make inverted = Ret s0 /\ rma_do (OAlloc 100 MISSION 0) s0 [] = Ret (RPtr p false, s, h) /\
  forall z, In z inverted -> ~ inside (mkB p 100 MISSION false) z.
Proof.
  do 4 eexists. split; [reflexivity|]. split; [vm_compute; reflexivity|]. intros z [<-|[]] [A B]. vm_compute in A, B. congruence.
Qed.

(* accounting with failed mallocs; scores out of range *)
Theorem failed_malloc_counted : exists t s h, rma_run [OAlloc (32 * MB) MISSION 0] rma_default [] = Ret (t, s, h) /\ live t = [] /\
  criticality_usage s MISSION = 32 * MB.
Proof. do 3 eexists. split; [vm_compute; reflexivity|]. split; vm_compute; reflexivity. Qed.
Theorem score_out_of_range : exists t s h, rma_run [OAlloc (2 ^ 63) MISSION 0; OAlloc (2 ^ 63 + 1) MISSION 0] rma_default [] = Ret (t, s, h) /\
  live t = [] /\ fgt (vulnerability_score s) (dofZ 1) = true.
Proof. do 3 eexists. split; [vm_compute; reflexivity|]. split; vm_compute; reflexivity. Qed.

(* STL adaptor *)
Theorem stl_small sz n c m s : n * sz < 2 ^ 64 -> stl_allocate sz n c m s = rma_allocate (n * sz) c m s.
Proof. intros H. unfold stl_allocate. rewrite N.mod_small by assumption. reflexivity. Qed.
Theorem stl_wraps : exists n p s, n < 2 ^ 64 /\ stl_allocate 8 n LOW 0 rma_default = Ret (p, false, s) /\ 
  p + n * 8 > 0x40000000 + 16 * MB /\ criticality_usage s LOW = 8.
Proof. exists (2 ^ 61 + 1), 0x40000000. eexists. repeat split; vm_compute; reflexivity. Qed.
Theorem stl_serves zs s0 l t s h sz n c m : one_per_level zs -> proper zs -> rma_make zs = Ret s0 ->
  rma_run l s0 [] = Ret (t, s, h) -> ok_history zs t -> 1 <= n * sz -> n * sz < 2 ^ 64 -> (m = 0 \/ fresh zs t m (n * sz)) ->
  exists p sy s', stl_allocate sz n c m s = Ret (p, sy, s') /\ (p <> 0 -> no_overlap (live t ++ [mkB p (n * sz) c sy])).
Proof.
  intros Ho Hp Hm Hr Hok N1 N2 Hf. rewrite stl_small by assumption. destruct (make_ok _ _ Hm) as (-> & Hne & Hc).
  pose proof (inv_run _ _ Ho Hp Hc Hne _ _ _ Hr Hok) as I.
  destruct (inv_alloc _ _ _ _ (n * sz) c m Ho Hp Hc I) as (x & s' & h' & E & J); [cbn [ok_op]; auto|].
  cbn [rma_do] in E. destruct (rma_allocate (n * sz) c m s) as [[[p sy] s'']| | |]; try discriminate. inversion E; subst.
  exists p, sy, s'. split; [reflexivity|]. intros P0. pose proof (I_apart _ _ _ _ _ J) as F.
  pose proof (live_snoc t (OAlloc (n * sz) c m, RPtr p sy)) as L. cbn [track] in L. rewrite (proj2 (N.eqb_neq _ _) P0) in L.
  injection L as L1 L2. rewrite <- L1 in F. unfold no_overlap. apply FOP_nth; [intros a b; apply apart_sym|exact F].
Qed.
