From Coq Require Import List NArith ZArith Bool Lia Permutation.
Import ListNotations.
From Verif Require Import Outcome Words Arith RMA_Model RMA_Spec.
Local Open Scope N_scope.

Lemma p64 : 2 ^ 64 = 18446744073709551616. Proof. reflexivity. Qed.
Lemma sub64_le a b : b <= a -> a < 2 ^ 64 -> sub64 a b = a - b.
Proof.
  intros H1 H2. unfold sub64. rewrite p64 in *.
  replace (a + 18446744073709551616 - b) with ((a - b) + 1 * 18446744073709551616) by lia.
  rewrite N.mod_add by lia. apply N.mod_small. lia.
Qed.
Lemma add64_small a b : a + b < 2 ^ 64 -> add64 a b = a + b.
Proof. intros. apply N.mod_small. assumption. Qed.
Lemma level_eqb_eq a b : level_eqb a b = true <-> a = b.
Proof. destruct a, b; simpl; split; congruence. Qed.
Lemma crit_eqb_eq a b : crit_eqb a b = true <-> a = b.
Proof. destruct a, b; simpl; split; congruence. Qed.

(** the scan *)
Fixpoint chain (cur en : N) (occ : list (N * N)) : Prop :=
  match occ with [] => cur <= en | (a, n) :: r => cur <= a /\ chain (a + n) en r end.
Lemma chain_le occ : forall cur en, chain cur en occ -> cur <= en.
Proof.
  induction occ as [|[a n] r IH]; intros cur en H; simpl in H; [assumption|].
  destruct H as [H1 H2]. apply IH in H2. lia.
Qed.
Lemma chain_in occ : forall cur en, chain cur en occ -> forall a n, In (a, n) occ -> cur <= a /\ a + n <= en.
Proof.
  induction occ as [|[a n] r IH]; intros cur en H b m Hi; simpl in *; [contradiction|].
  destruct H as [H1 H2]. destruct Hi as [E|Hi].
  - inversion E; subst. apply chain_le in H2. lia.
  - destruct (IH _ _ H2 _ _ Hi). lia.
Qed.
Lemma scan_sound size occ : forall cur en, en < 2 ^ 64 -> chain cur en occ -> scan_gaps cur en size occ <> 0 ->
  cur <= scan_gaps cur en size occ /\ scan_gaps cur en size occ + size <= en /\
  forall a n, In (a, n) occ -> apart (scan_gaps cur en size occ) size a n.
Proof.
  induction occ as [|[a n] r IH]; intros cur en He H Hn; cbn [scan_gaps chain] in *.
  - rewrite sub64_le in * by lia. destruct (N.leb_spec size (en - cur)); [|congruence].
    repeat split; try lia. intros; contradiction.
  - destruct H as [H1 H2]. pose proof (chain_le _ _ _ H2). rewrite (sub64_le a cur) in * by lia.
    destruct (N.leb_spec size (a - cur)).
    + repeat split; try lia. intros b m [E|Hi].
      * inversion E; subst. left. lia.
      * destruct (chain_in _ _ _ H2 _ _ Hi). left. lia.
    + rewrite (add64_small a n) in * by lia.
      destruct (IH _ _ He H2 Hn) as (A & B & C). repeat split; try lia.
      intros b m [E|Hi]; [inversion E; subst; right; lia | auto].
Qed.
Lemma scan_complete size occ : forall cur en g, en < 2 ^ 64 -> cur <> 0 -> chain cur en occ ->
  cur <= g -> g + size <= en -> (forall a n, In (a, n) occ -> apart g size a n) -> scan_gaps cur en size occ <> 0.
Proof.
  induction occ as [|[a n] r IH]; intros cur en g He Hc H H1 H2 H3; cbn [scan_gaps chain] in *.
  - rewrite sub64_le by lia. destruct (N.leb_spec size (en - cur)); lia.
  - destruct H as [H4 H5]. pose proof (chain_le _ _ _ H5). rewrite sub64_le by lia.
    destruct (N.leb_spec size (a - cur)); [assumption|].
    rewrite add64_small by lia.
    destruct (H3 a n (or_introl eq_refl)); [lia|].
    apply (IH _ _ g); auto; try lia. intros; apply H3; right; assumption.
Qed.
Lemma chain_insert x l : forall cur en, chain cur en l -> cur <= fst x -> fst x + snd x <= en -> 1 <= snd x ->
  (forall a n, In (a, n) l -> 1 <= n /\ apart (fst x) (snd x) a n) -> chain cur en (insert_pair x l).
Proof.
  destruct x as [x n]. cbn [fst snd].
  induction l as [|[a m] r IH]; intros cur en H H1 H2 H3 H4; cbn [insert_pair chain] in *; [lia|].
  destruct H as [H5 H6]. destruct (H4 a m (or_introl eq_refl)) as [H7 H8]. unfold apart in H8.
  unfold pair_le. cbn [fst snd].
  destruct ((x <? a) || ((x =? a) && (n <=? m))) eqn:E; cbn [chain].
  - assert (x <= a) by (destruct (N.ltb_spec x a); [lia|]; destruct (N.eqb_spec x a); [lia|discriminate]).
    repeat split; try lia. assumption.
  - assert (a <= x) by (destruct (N.ltb_spec x a); [discriminate|lia]).
    split; [assumption|]. apply IH; auto; try lia. intros; apply H4; right; assumption.
Qed.
Lemma in_insert x y l : In x (insert_pair y l) <-> x = y \/ In x l.
Proof.
  induction l as [|z r IH]; simpl; [intuition congruence|].
  destruct (pair_le y z); simpl; [intuition congruence|]. rewrite IH. intuition congruence.
Qed.
Lemma in_sort x l : In x (sort_pairs l) <-> In x l.
Proof. induction l as [|y r IH]; simpl; [tauto|]. rewrite in_insert, IH. intuition congruence. Qed.
Lemma chain_sort l st en : st <= en ->
  (forall a n, In (a, n) l -> st <= a /\ a + n <= en /\ 1 <= n) ->
  ForallOrdPairs (fun x y => apart (fst x) (snd x) (fst y) (snd y)) l -> chain st en (sort_pairs l).
Proof.
  intros Hs. induction l as [|[a n] r IH]; intros H1 H2; simpl; [assumption|].
  inversion H2; subst. destruct (H1 a n (or_introl eq_refl)) as (A & B & C).
  apply chain_insert; auto.
  - apply IH; [intros; apply H1; right; assumption | assumption].
  - intros b m Hi. apply (proj1 (in_sort _ _)) in Hi. split; [destruct (H1 b m (or_intror Hi)); tauto|].
    match goal with F : Forall _ r |- _ => rewrite Forall_forall in F; apply (F _ Hi) end.
Qed.

(** generic list facts *)
Lemma FOP_filter {A} (R : A -> A -> Prop) p l : ForallOrdPairs R l -> ForallOrdPairs R (filter p l).
Proof.
  induction 1; simpl; [constructor|]. destruct (p a); [|assumption]. constructor; [|assumption].
  rewrite Forall_forall in *. intros x Hx. apply filter_In in Hx. apply H. tauto.
Qed.
Lemma FOP_map {A B} (R : B -> B -> Prop) (f : A -> B) l :
  ForallOrdPairs (fun x y => R (f x) (f y)) l -> ForallOrdPairs R (map f l).
Proof.
  induction 1; simpl; constructor; [|assumption]. rewrite Forall_forall in *. intros x Hx.
  apply in_map_iff in Hx as (y & <- & Hy). auto.
Qed.
Lemma FOP_map_inv {A B} (R : B -> B -> Prop) (f : A -> B) l :
  ForallOrdPairs R (map f l) -> ForallOrdPairs (fun x y => R (f x) (f y)) l.
Proof.
  induction l as [|x r IH]; intros H; [constructor|]. simpl in H. inversion H; subst. constructor; auto.
  rewrite Forall_forall in *. intros y Hy. apply H2. apply in_map. assumption.
Qed.
Lemma FOP_app {A} (R : A -> A -> Prop) l x : ForallOrdPairs R l -> Forall (fun y => R y x) l -> ForallOrdPairs R (l ++ [x]).
Proof.
  induction 1; intros Hx; simpl; [constructor; constructor|]. inversion Hx; subst. constructor; auto.
  apply Forall_app. split; [assumption|constructor; [assumption|constructor]].
Qed.
Lemma drop_ptr_in p l b : In b (drop_ptr p l) -> In b l.
Proof. induction l as [|x r IH]; simpl; [tauto|]. destruct (N.eqb _ _); simpl; intuition. Qed.
Lemma FOP_drop (R : blk -> blk -> Prop) p l : ForallOrdPairs R l -> ForallOrdPairs R (drop_ptr p l).
Proof.
  induction 1; simpl; [constructor|]. destruct (N.eqb _ _); [assumption|]. constructor; [|assumption].
  rewrite Forall_forall in *. intros x Hx. apply H. eapply drop_ptr_in; eassumption.
Qed.
Lemma filter_drop_none f p l : (forall b, In b l -> f b = true -> bptr b <> p) -> filter f (drop_ptr p l) = filter f l.
Proof.
  induction l as [|b r IH]; intros H; simpl; [reflexivity|].
  destruct (N.eqb_spec (bptr b) p) as [E|E].
  - destruct (f b) eqn:F; [|reflexivity]. exfalso. apply (H b); auto. left; reflexivity.
  - simpl. rewrite IH; [reflexivity|]. intros; apply H; auto. right; assumption.
Qed.
Lemma filter_drop_some f p l : (forall b, In b l -> f b = false -> bptr b <> p) -> filter f (drop_ptr p l) = drop_ptr p (filter f l).
Proof.
  induction l as [|b r IH]; intros H; simpl; [reflexivity|].
  assert (IH' : filter f (drop_ptr p r) = drop_ptr p (filter f r)) by (apply IH; intros; apply H; auto; right; assumption).
  destruct (N.eqb_spec (bptr b) p) as [E|E].
  - destruct (f b) eqn:F; [simpl; rewrite (proj2 (N.eqb_eq _ _) E); reflexivity|].
    exfalso. apply (H b); auto. left; reflexivity.
  - simpl. destruct (f b); simpl; rewrite IH'; [|reflexivity]. rewrite (proj2 (N.eqb_neq _ _) E). reflexivity.
Qed.
Lemma find_level_some lv l : forall i j, find_level lv l i = Some j -> exists k z, j = (i + k)%nat /\ nth_error l k = Some z /\ zlevel z = lv.
Proof.
  induction l as [|z r IH]; intros i j H; simpl in H; [discriminate|].
  destruct (level_eqb (zlevel z) lv) eqn:E.
  - inversion H; subst. exists 0%nat, z. apply level_eqb_eq in E. repeat split; auto; lia.
  - destruct (IH _ _ H) as (k & y & A & B & C). exists (S k), y. repeat split; auto. lia.
Qed.
Lemma find_level_none lv l : forall i, find_level lv l i = None -> forall z, In z l -> zlevel z <> lv.
Proof.
  induction l as [|y r IH]; intros i H z Hz; simpl in *; [contradiction|].
  destruct (level_eqb (zlevel y) lv) eqn:E; [discriminate|]. destruct Hz as [->|Hz]; [|eauto].
  intros C. apply level_eqb_eq in C. congruence.
Qed.
Lemma find_level_lt lv l j : find_level lv l 0 = Some j -> (j < length l)%nat.
Proof. intros H. apply find_level_some in H as (k & z & -> & H & _). simpl. apply nth_error_Some. congruence. Qed.
Lemma select_lt c l : l <> [] -> (select_zone c l < length l)%nat.
Proof.
  intros H. unfold select_zone. destruct (find_level _ l 0) eqn:E; [eapply find_level_lt; eassumption|].
  destruct l; [congruence|simpl; lia].
Qed.
Lemma fallback_lt c l : l <> [] -> (find_fallback c l < length l)%nat.
Proof.
  intros H. assert (0 < length l)%nat by (destruct l; [congruence|simpl; lia]).
  destruct c; unfold find_fallback, fb_mission, fb_highly, fb_moderately, fb_low;
    repeat match goal with |- context [find_level ?a l 0] => let E := fresh in destruct (find_level a l 0) eqn:E; [eapply find_level_lt; eassumption|] end; assumption.
Qed.
Lemma set_nth_length {A} (a : A) l : forall i, length (set_nth i a l) = length l.
Proof. induction l; destruct i; simpl; auto. Qed.
Lemma set_nth_in {A} (a x : A) l : forall i, In x (set_nth i a l) -> x = a \/ In x l.
Proof. induction l as [|y r IH]; destruct i; simpl; intuition. apply IH in H0. intuition. Qed.
Lemma erase_map {A B} (f : A -> B) q l : erase_if q (map f l) = option_map (map f) (erase_if (fun r => q (f r)) l).
Proof. induction l as [|x r IH]; simpl; [reflexivity|]. destruct (q (f x)); [reflexivity|]. rewrite IH. destruct (erase_if _ r); reflexivity. Qed.
Lemma erase_some {A} (q : A -> bool) l l' : erase_if q l = Some l' -> exists x, q x = true /\ Permutation l (x :: l').
Proof.
  revert l'. induction l as [|y r IH]; intros l' H; simpl in H; [discriminate|].
  destruct (q y) eqn:E; [inversion H; subst; exists y; auto|].
  destruct (erase_if q r) as [r'|]; [|discriminate]. inversion H; subst. destruct (IH _ eq_refl) as (x & Q & P).
  exists x. split; [assumption|]. rewrite P. apply perm_swap.
Qed.
Lemma erase_none {A} (q : A -> bool) l : erase_if q l = None -> forall x, In x l -> q x = false.
Proof.
  induction l as [|y r IH]; intros H x Hx; simpl in *; [contradiction|].
  destruct (q y) eqn:E; [discriminate|]. destruct (erase_if q r) eqn:F; [discriminate|]. destruct Hx as [->|Hx]; auto.
Qed.
Lemma erase_in {A} (q : A -> bool) l x : In x l -> q x = true -> exists l', erase_if q l = Some l'.
Proof.
  intros H Q. destruct (erase_if q l) eqn:E; [eauto|]. rewrite (erase_none _ _ E _ H) in Q. discriminate.
Qed.
Lemma erase_sub {A} (q : A -> bool) l l' x : erase_if q l = Some l' -> In x l' -> In x l.
Proof. intros H Hx. apply erase_some in H as (y & _ & P). apply (Permutation_in _ (Permutation_sym P)). right. assumption. Qed.
Lemma drop_erase p l : drop_ptr p l = match erase_if (fun b => bptr b =? p) l with Some l' => l' | None => l end.
Proof.
  induction l as [|b r IH]; simpl; [reflexivity|]. destruct (N.eqb (bptr b) p); [reflexivity|].
  rewrite IH. destruct (erase_if _ r); reflexivity.
Qed.
Lemma drop_addr_notin p l : ~ In p l -> drop_addr p l = l.
Proof.
  induction l as [|b r IH]; simpl; intros H; [reflexivity|]. destruct (N.eqb_spec b p); [intuition|].
  rewrite IH by intuition. reflexivity.
Qed.
Lemma drop_addr_perm p l : In p l -> Permutation l (p :: drop_addr p l).
Proof.
  induction l as [|b r IH]; simpl; intros H; [contradiction|]. destruct (N.eqb_spec b p); [subst; reflexivity|].
  destruct H as [H|H]; [congruence|]. rewrite (IH H) at 1. apply perm_swap.
Qed.
Lemma drop_addr_in p l x : In x (drop_addr p l) -> In x l.
Proof. induction l as [|b r IH]; simpl; [tauto|]. destruct (N.eqb _ _); simpl; intuition. Qed.

Definition toB (sy : bool) (r : mrec) : blk := mkB (mptr r) (msize r) (mcrit r) sy.
Definition nonnull (r : mrec) : bool := negb (mptr r =? 0).
Definition zonal (b : blk) : bool := negb (bsys b).
Definition arec_ok (zs : list zone) (r : arec) : Prop :=
  aaddr r <> 0 /\ 1 <= asize r /\ exists z, In z zs /\ zlevel z = alevel r /\ zstart z <= aaddr r /\ aaddr r + asize r <= zend z.
Record Inv (zs : list zone) (bs : list blk) (ex : list N) (s : rma) (h : list N) : Prop := {
  I_zones : forall z, In z (zones s) -> In z zs;
  I_ne : zones s <> [];
  I_rel : map (fun r => (aaddr r, asize r)) (allocations s) = map (fun r => (mptr r, msize r)) (managed s);
  I_zone : filter zonal bs = map (toB false) (managed s);
  I_sys : filter bsys bs = map (toB true) (filter nonnull (sysmem s));
  I_in : Forall (arec_ok zs) (allocations s);
  I_pos : Forall (fun b => 1 <= bsize b /\ bptr b <> 0) bs;
  I_apart : ForallOrdPairs apart_blk bs;
  I_out : Forall (fun b => bsys b = true -> Forall (fun z => apart (bptr b) (bsize b) (zstart z) (zend z - zstart z)) zs) bs;
  I_ext : Forall (fun p => p <> 0 /\ Forall (fun z => apart p 1 (zstart z) (zend z - zstart z)) zs /\ ~ In p (map bptr bs)) ex;
  I_h : Permutation h (map bptr (filter bsys bs) ++ ex)
}.
Lemma apart_sym a n b m : apart a n b m -> apart b m a n.
Proof. unfold apart. tauto. Qed.
Lemma apart_neq a n b m : apart a n b m -> 1 <= n -> 1 <= m -> a <> b.
Proof. unfold apart. lia. Qed.
(* the invariant gives: every zone block lies in a zone *)
Lemma inv_zone_blk zs bs ex s h b : Inv zs bs ex s h -> In b bs -> bsys b = false ->
  exists r, In r (allocations s) /\ aaddr r = bptr b /\ asize r = bsize b /\ arec_ok zs r.
Proof.
  intros I Hb Hs. assert (H : In b (filter zonal bs)) by (apply filter_In; unfold zonal; rewrite Hs; auto).
  rewrite (I_zone _ _ _ _ _ I) in H. apply in_map_iff in H as (m & E & Hm).
  assert (H : In (mptr m, msize m) (map (fun r => (aaddr r, asize r)) (allocations s))).
  { rewrite (I_rel _ _ _ _ _ I). apply (in_map (fun r => (mptr r, msize r))). assumption. }
  apply in_map_iff in H as (r & F & Hr). inversion F. exists r. subst b. simpl.
  pose proof (I_in _ _ _ _ _ I) as Hi. rewrite Forall_forall in Hi. auto.
Qed.
Lemma inv_arec_blk zs bs ex s h r : Inv zs bs ex s h -> In r (allocations s) ->
  exists b, In b bs /\ bsys b = false /\ bptr b = aaddr r /\ bsize b = asize r.
Proof.
  intros I Hr. assert (H : In (aaddr r, asize r) (map (fun r => (mptr r, msize r)) (managed s))).
  { rewrite <- (I_rel _ _ _ _ _ I). apply (in_map (fun r => (aaddr r, asize r))). assumption. }
  apply in_map_iff in H as (m & E & Hm). inversion E.
  assert (H : In (toB false m) (filter zonal bs)) by (rewrite (I_zone _ _ _ _ _ I); apply in_map; assumption).
  apply filter_In in H. exists (toB false m). simpl. tauto.
Qed.
Lemma inv_apart_ne zs bs ex s h x y : Inv zs bs ex s h -> In x bs -> In y bs -> bsys x <> bsys y -> bptr x <> bptr y.
Proof.
  intros I Hx Hy Hn. pose proof (I_apart _ _ _ _ _ I) as F. pose proof (I_pos _ _ _ _ _ I) as P.
  rewrite Forall_forall in P. destruct (P _ Hx), (P _ Hy).
  destruct (ForallOrdPairs_In F _ _ Hx Hy) as [->|[K|K]]; [congruence| |].
  - apply (apart_neq _ _ _ _ K); assumption.
  - apply not_eq_sym. apply (apart_neq _ _ _ _ K); assumption.
Qed.
Lemma nodup_level zs y z : one_per_level zs -> In y zs -> In z zs -> zlevel y = zlevel z -> y = z.
Proof.
  unfold one_per_level. induction zs as [|x r IH]; simpl; intros N Hy Hz E; [contradiction|]. inversion N; subst.
  destruct Hy as [->|Hy], Hz as [->|Hz]; auto; exfalso; apply H1.
  - rewrite E. apply in_map. assumption.
  - rewrite <- E. apply in_map. assumption.
Qed.
Lemma inv_alloc_apart zs bs ex s h : Inv zs bs ex s h ->
  ForallOrdPairs (fun x y => apart (aaddr x) (asize x) (aaddr y) (asize y)) (allocations s).
Proof.
  intros I. apply (FOP_map_inv (fun p q => apart (fst p) (snd p) (fst q) (snd q)) (fun r => (aaddr r, asize r))).
  rewrite (I_rel _ _ _ _ _ I). apply FOP_map. simpl.
  assert (F : ForallOrdPairs apart_blk (map (toB false) (managed s))).
  { rewrite <- (I_zone _ _ _ _ _ I). apply FOP_filter. apply (I_apart _ _ _ _ _ I). }
  apply FOP_map_inv in F. exact F.
Qed.
(* the occupied list of a level is a chain inside its zone *)
Lemma occupied_chain zs bs ex s h z : one_per_level zs -> proper zs -> Inv zs bs ex s h -> In z zs ->
  chain (zstart z) (zend z) (sort_pairs (occupied (zlevel z) (allocations s))) /\
  (forall a n, In (a, n) (sort_pairs (occupied (zlevel z) (allocations s))) <->
     exists r, In r (allocations s) /\ alevel r = zlevel z /\ aaddr r = a /\ asize r = n).
Proof.
  intros Ho Hp I Hz. pose proof (I_in _ _ _ _ _ I) as Hi. rewrite Forall_forall in Hi.
  unfold proper in Hp. rewrite Forall_forall in Hp. destruct (Hp _ Hz) as [Hp1 Hp2].
  assert (Q : forall a n, In (a, n) (occupied (zlevel z) (allocations s)) <->
     exists r, In r (allocations s) /\ alevel r = zlevel z /\ aaddr r = a /\ asize r = n).
  { intros a n. unfold occupied. rewrite in_map_iff. split.
    - intros (r & E & H). apply filter_In in H as [H L]. inversion E; subst. apply level_eqb_eq in L. eauto.
    - intros (r & H & L & <- & <-). exists r. split; [reflexivity|]. apply filter_In. rewrite level_eqb_eq. auto. }
  split; [|intros; rewrite in_sort; apply Q].
  apply chain_sort; [assumption| |].
  - intros a n H. apply Q in H as (r & Hr & L & <- & <-). destruct (Hi _ Hr) as (_ & A & y & Y & Y1 & Y2 & Y3).
    assert (y = z) by (apply (nodup_level zs); congruence). subst. auto.
  - unfold occupied. apply FOP_map. simpl. apply FOP_filter. apply (inv_alloc_apart _ _ _ _ _ I).
Qed.

Lemma clash_sym a b : zones_clash a b = zones_clash b a.
Proof. unfold zones_clash. apply andb_comm. Qed.
Lemma any_clash_false zs : any_clash zs = false -> ForallOrdPairs (fun x y => zones_clash x y = false) zs.
Proof.
  induction zs as [|z r IH]; simpl; intros H; [constructor|]. apply orb_false_iff in H as [H1 H2]. constructor; [|auto].
  rewrite Forall_forall. intros x Hx. destruct (zones_clash z x) eqn:E; [|reflexivity].
  rewrite <- H1. symmetry. apply existsb_exists. eauto.
Qed.
Lemma zones_apart zs y z : proper zs -> any_clash zs = false -> In y zs -> In z zs -> y <> z -> zend y < zstart z \/ zend z < zstart y.
Proof.
  intros Hp Hc Hy Hz Hn. apply any_clash_false in Hc.
  assert (K : zones_clash y z = false).
  { destruct (ForallOrdPairs_In Hc _ _ Hy Hz) as [E|[E|E]]; [congruence|assumption|rewrite clash_sym; assumption]. }
  unfold zones_clash in K. destruct (N.leb_spec (zstart y) (zend z)); [|auto].
  destruct (N.leb_spec (zstart z) (zend y)); [discriminate|auto].
Qed.

(* what find_space hands out *)
Lemma find_space_ok zs bs ex s h z n : one_per_level zs -> proper zs -> any_clash zs = false -> Inv zs bs ex s h -> In z zs -> 1 <= n ->
  find_space z (allocations s) n <> 0 ->
  zstart z <= find_space z (allocations s) n /\ find_space z (allocations s) n + n <= zend z /\
  Forall (fun b => apart (find_space z (allocations s) n) n (bptr b) (bsize b)) bs.
Proof.
  intros Ho Hp Hc I Hz Hn H0. destruct (occupied_chain _ _ _ _ _ _ Ho Hp I Hz) as [C O].
  pose proof Hp as Hp'. unfold proper in Hp'. rewrite Forall_forall in Hp'. destruct (Hp' _ Hz) as [Hz1 Hz2].
  destruct (scan_sound n _ _ _ Hz2 C H0) as (A & B & D). fold (find_space z (allocations s) n) in *.
  set (p := find_space z (allocations s) n) in *. clearbody p.
  repeat split; auto. rewrite Forall_forall. intros b Hb. destruct (bsys b) eqn:Eb.
  - pose proof (I_out _ _ _ _ _ I) as Out. rewrite Forall_forall in Out. specialize (Out _ Hb Eb).
    rewrite Forall_forall in Out. specialize (Out _ Hz). unfold apart in *. lia.
  - destruct (inv_zone_blk _ _ _ _ _ _ I Hb Eb) as (r & Hr & E1 & E2 & _ & _ & y & Y & Y1 & Y2 & Y3).
    destruct (level_eqb (alevel r) (zlevel z)) eqn:L.
    + apply level_eqb_eq in L. rewrite <- E1, <- E2. apply D. apply O. eauto.
    + assert (y <> z) by (intros ->; rewrite (proj2 (level_eqb_eq _ _) (eq_sym Y1)) in L; discriminate).
      pose proof (zones_apart _ _ _ Hp Hc Y Hz H). unfold apart. lia.
Qed.

(* a new zone block *)
Lemma inv_add_zone zs bs ex s h z zs' n c : one_per_level zs -> proper zs -> any_clash zs = false -> Inv zs bs ex s h -> In z zs -> 1 <= n ->
  find_space z (allocations s) n <> 0 -> (forall y, In y zs' -> In y zs) -> zs' <> [] ->
  Inv zs (bs ++ [mkB (find_space z (allocations s) n) n c false]) ex
      (snd (record_alloc zs' s (find_space z (allocations s) n) n c (zlevel z))) h.
Proof.
  intros Ho Hp Hc I Hz Hn H0 Hzs Hne. destruct (find_space_ok _ _ _ _ _ _ _ Ho Hp Hc I Hz Hn H0) as (A & B & D).
  set (p := find_space z (allocations s) n) in *. clearbody p. unfold record_alloc. cbn [snd].
  constructor; cbn [zones allocations managed sysmem]; auto.
  - rewrite !map_app. cbn [map aaddr asize mptr msize]. rewrite (I_rel _ _ _ _ _ I). reflexivity.
  - rewrite filter_app, map_app. rewrite (I_zone _ _ _ _ _ I). reflexivity.
  - rewrite filter_app. cbn [filter bsys]. rewrite app_nil_r. apply (I_sys _ _ _ _ _ I).
  - apply Forall_app. split; [apply (I_in _ _ _ _ _ I)|]. constructor; [|constructor].
    unfold arec_ok; simpl. repeat split; auto. exists z. auto.
  - apply Forall_app. split; [apply (I_pos _ _ _ _ _ I)|]. constructor; [|constructor]. simpl. auto.
  - apply FOP_app; [apply (I_apart _ _ _ _ _ I)|]. revert D. apply Forall_impl. intros b K. apply apart_sym. exact K.
  - apply Forall_app. split; [apply (I_out _ _ _ _ _ I)|]. constructor; [|constructor]. simpl. discriminate.
  - pose proof (I_ext _ _ _ _ _ I) as E. revert E. apply Forall_impl. intros q (E1 & E2 & E3). repeat split; auto.
    rewrite map_app, in_app_iff. intros [K|[K|[]]]; [auto|]. simpl in K. subst q.
    rewrite Forall_forall in E2. specialize (E2 _ Hz). unfold apart in E2. lia.
  - rewrite filter_app. cbn [filter bsys]. rewrite app_nil_r. apply (I_h _ _ _ _ _ I).
Qed.

Lemma live_snoc (t : list (rma_op * rma_res)) e : track (live t, ext t) e = (live (t ++ [e]), ext (t ++ [e])).
Proof.
  unfold live, ext. rewrite fold_left_app. cbn [fold_left].
  destruct (fold_left track t ([], [])) as [a b]. cbn [fst snd]. destruct (track (a, b) e); reflexivity.
Qed.
Lemma nth_error_some {A} (l : list A) i : (i < length l)%nat -> exists x, nth_error l i = Some x /\ In x l.
Proof.
  intros H. destruct (nth_error l i) eqn:E; [|apply nth_error_None in E; lia]. exists a. split; [reflexivity|eapply nth_error_In; eassumption].
Qed.

Lemma inv_alloc zs t s h n c m : one_per_level zs -> proper zs -> any_clash zs = false ->
  Inv zs (live t) (ext t) s h -> ok_op zs t (OAlloc n c m) ->
  exists x s' h', rma_do (OAlloc n c m) s h = Ret (x, s', h') /\
    Inv zs (live (t ++ [(OAlloc n c m, x)])) (ext (t ++ [(OAlloc n c m, x)])) s' h'.
Proof.
  intros Ho Hp Hc I (Hn1 & Hn2 & Hm). cbn [rma_do]. unfold rma_allocate.
  destruct (nth_error_some _ _ (select_lt c _ (I_ne _ _ _ _ _ I))) as (z & Ez & Hz). rewrite Ez.
  apply (I_zones _ _ _ _ _ I) in Hz.
  assert (K : forall z' zs', In z' zs -> (forall y, In y zs' -> In y zs) -> zs' <> [] -> (find_space z' (allocations s) n =? 0) = false ->
    exists x s' h', (let '(p, sysb, s') := record_alloc zs' s (find_space z' (allocations s) n) n c (zlevel z') in
        Ret (RPtr p sysb, s', if sysb : bool then if p =? 0 then h else p :: h else h)) = Ret (x, s', h') /\
    Inv zs (live (t ++ [(OAlloc n c m, x)])) (ext (t ++ [(OAlloc n c m, x)])) s' h').
  { intros z' zs' Hz' H1 H2 H3. apply N.eqb_neq in H3.
    pose proof (inv_add_zone _ _ _ _ _ z' zs' n c Ho Hp Hc I Hz' Hn1 H3 H1 H2) as J.
    unfold record_alloc in *. cbn [snd] in J. do 3 eexists. split; [reflexivity|].
    pose proof (live_snoc t (OAlloc n c m, RPtr (find_space z' (allocations s) n) false)) as L. cbn [track] in L.
    rewrite (proj2 (N.eqb_neq _ _) H3) in L. inversion L as [[L1 L2]]. exact J. }
  destruct (find_space z (allocations s) n =? 0) eqn:E0.
  - destruct (nth_error_some _ _ (fallback_lt c _ (I_ne _ _ _ _ _ I))) as (f & Ef & Hf). rewrite Ef.
    pose proof (I_zones _ _ _ _ _ I _ Hf) as Hfz.
    assert (Z1 : forall y, In y (set_nth (select_zone c (zones s)) f (zones s)) -> In y zs).
    { intros y Hy. apply set_nth_in in Hy as [->|Hy]; [assumption|apply (I_zones _ _ _ _ _ I); assumption]. }
    assert (Z2 : set_nth (select_zone c (zones s)) f (zones s) <> []).
    { intros E. apply (f_equal (@length zone)) in E. rewrite set_nth_length in E. pose proof (I_ne _ _ _ _ _ I).
      destruct (zones s); [congruence|discriminate]. }
    destruct (find_space f (allocations s) n =? 0) eqn:E1.
    + do 3 eexists. split; [reflexivity|].
      pose proof (live_snoc t (OAlloc n c m, RPtr m true)) as L. cbn [track] in L.
      destruct Hm as [->|Hm].
      * cbn [N.eqb] in *. inversion L as [[L1 L2]].
        destruct I. constructor; cbn [zones allocations managed sysmem]; auto.
        rewrite filter_app. cbn [filter]. unfold nonnull at 2. cbn [mptr N.eqb negb]. rewrite app_nil_r. assumption.
      * destruct Hm as (M0 & M1 & M2 & M3). rewrite (proj2 (N.eqb_neq _ _) M0) in L |- *. inversion L as [[L1 L2]].
        destruct I. constructor; cbn [zones allocations managed sysmem]; auto.
        -- rewrite filter_app. cbn [filter zonal bsys negb]. rewrite app_nil_r. assumption.
        -- rewrite !filter_app, map_app. cbn [filter bsys]. unfold nonnull at 2. cbn [mptr].
           rewrite (proj2 (N.eqb_neq _ _) M0). cbn [negb map]. rewrite I_sys0. reflexivity.
        -- apply Forall_app. split; [assumption|]. constructor; [|constructor]. simpl. auto.
        -- apply FOP_app; [assumption|]. rewrite Forall_forall. intros b Hb. unfold apart_blk. cbn [bptr bsize].
           destruct (bsys b) eqn:Eb; [apply apart_sym; rewrite Forall_forall in M2; auto|].
           assert (I' : Inv zs (live t) (ext t) s h) by (constructor; assumption).
           destruct (inv_zone_blk _ _ _ _ _ _ I' Hb Eb) as (r & Hr & R1 & R2 & _ & _ & y & Y & Y1 & Y2 & Y3).
           rewrite Forall_forall in M1. specialize (M1 _ Y). unfold apart in *.
           unfold proper in Hp. rewrite Forall_forall in Hp. specialize (Hp _ Y). lia.
        -- apply Forall_app. split; [assumption|]. constructor; [|constructor]. intros _. exact M1.
        -- rewrite Forall_forall in I_ext0 |- *. intros q Hq. destruct (I_ext0 _ Hq) as (Q1 & Q2 & Q3). repeat split; auto.
           rewrite map_app, in_app_iff. intros [K1|[K1|[]]]; [auto|]. simpl in K1. subst q. auto.
        -- rewrite filter_app, map_app. cbn [filter bsys map bptr]. rewrite <- app_assoc. simpl.
           apply Permutation_cons_app. assumption.
    + exact (K f _ Hfz Z1 Z2 E1).
  - exact (K z _ Hz (I_zones _ _ _ _ _ I) (I_ne _ _ _ _ _ I) E0).
Qed.

Lemma inv_ext zs t s h p : Inv zs (live t) (ext t) s h -> ok_op zs t (OExt p) -> 
  Forall (fun z => zstart z <= zend z) zs ->
  Inv zs (live (t ++ [(OExt p, RDone)])) (ext (t ++ [(OExt p, RDone)])) s (p :: h).
Proof.
  intros I (M0 & M1 & M2 & M3) Hp. pose proof (live_snoc t (OExt p, RDone)) as L. cbn [track] in L. inversion L as [[L1 L2]].
  pose proof I as I'. destruct I. constructor; auto.
  - constructor; [|assumption]. repeat split; auto. intros K. apply in_map_iff in K as (b & <- & Hb).
    destruct (bsys b) eqn:Eb.
    + rewrite Forall_forall in M2, I_pos0. specialize (M2 _ Hb Eb). specialize (I_pos0 _ Hb). unfold apart in M2. lia.
    + destruct (inv_zone_blk _ _ _ _ _ _ I' Hb Eb) as (r & Hr & R1 & R2 & _ & R3 & y & Y & Y1 & Y2 & Y3).
      rewrite Forall_forall in M1, Hp. specialize (M1 _ Y). specialize (Hp _ Y). unfold apart in M1. lia.
  - apply Permutation_cons_app. assumption.
Qed.

Lemma existsb_ptr p bs : existsb (fun b => bptr b =? p) bs = true <-> In p (map bptr bs).
Proof.
  rewrite existsb_exists, in_map_iff. split; intros (b & A & B).
  - apply N.eqb_eq in B. eauto.
  - exists b. rewrite N.eqb_eq. auto.
Qed.
Lemma erase_keys p (l1 : list arec) (l2 : list mrec) :
  map (fun r => (aaddr r, asize r)) l1 = map (fun r => (mptr r, msize r)) l2 ->
  match erase_if (fun r => aaddr r =? p) l1, erase_if (fun r => mptr r =? p) l2 with
  | Some a, Some b => map (fun r => (aaddr r, asize r)) a = map (fun r => (mptr r, msize r)) b
  | None, None => True
  | _, _ => False
  end.
Proof.
  revert l2. induction l1 as [|x r IH]; intros [|y q] H; simpl in *; try discriminate; [trivial|].
  injection H as H1 H2 H3. rewrite <- H1. destruct (aaddr x =? p); [assumption|]. specialize (IH _ H3).
  destruct (erase_if _ r), (erase_if _ q); try contradiction; [|trivial]. simpl. congruence.
Qed.
Lemma Forall_drop (P : blk -> Prop) p bs : Forall P bs -> Forall P (drop_ptr p bs).
Proof. rewrite !Forall_forall. intros H b Hb. apply H. eapply drop_ptr_in; eassumption. Qed.
Lemma erase_filter {A} (q f : A -> bool) l l' : (forall x, q x = true -> f x = true) -> erase_if q l = Some l' ->
  erase_if q (filter f l) = Some (filter f l').
Proof.
  intros Hq. revert l'. induction l as [|x r IH]; intros l' H; simpl in H; [discriminate|]. destruct (q x) eqn:E.
  - inversion H; subst. simpl. rewrite (Hq _ E). simpl. rewrite E. reflexivity.
  - destruct (erase_if q r); [|discriminate]. inversion H; subst. simpl. destruct (f x); simpl; [rewrite E|]; rewrite (IH _ eq_refl); reflexivity.
Qed.
Lemma erase_filter_out {A} (q f : A -> bool) l l' : (forall x, q x = true -> f x = false) -> erase_if q l = Some l' ->
  filter f l' = filter f l.
Proof.
  intros Hq. revert l'. induction l as [|x r IH]; intros l' H; simpl in H; [discriminate|]. destruct (q x) eqn:E.
  - inversion H; subst. simpl. rewrite (Hq _ E). reflexivity.
  - destruct (erase_if q r); [|discriminate]. inversion H; subst. simpl. rewrite (IH _ eq_refl). reflexivity.
Qed.
Lemma erase_perm p h l : Permutation h (p :: l) -> exists h', erase_if (N.eqb p) h = Some h' /\ Permutation h' l.
Proof.
  intros P. destruct (erase_in (N.eqb p) h p) as [h' E].
  - apply (Permutation_in _ (Permutation_sym P)). left. reflexivity.
  - apply N.eqb_refl.
  - exists h'. split; [assumption|]. destruct (erase_some _ _ _ E) as (x & X & Q). apply N.eqb_eq in X. subst x.
    apply (Permutation_cons_inv (a := p)). rewrite <- Q. assumption.
Qed.

Lemma inv_free zs t s h p : Inv zs (live t) (ext t) s h -> ok_op zs t (OFree p) ->
  exists x s' h', rma_do (OFree p) s h = Ret (x, s', h') /\ Inv zs (live (t ++ [(OFree p, x)])) (ext (t ++ [(OFree p, x)])) s' h'.
Proof.
  intros I Hok. cbn [ok_op] in Hok. cbn [rma_do]. unfold rma_deallocate.
  pose proof (live_snoc t (OFree p, RDone)) as L. cbn [track] in L.
  pose proof (erase_keys p _ _ (I_rel _ _ _ _ _ I)) as EK.
  destruct (erase_if (fun r => aaddr r =? p) (allocations s)) as [al|] eqn:E1.
  - (* a zone block *)
    destruct (erase_if (fun r => mptr r =? p) (managed s)) as [ma|] eqn:E2; [|contradiction].
    do 3 eexists. split; [reflexivity|].
    pose proof (erase_some _ _ _ E1) as (r & Q & P). apply N.eqb_eq in Q.
    assert (Hr : In r (allocations s)) by (apply (Permutation_in _ (Permutation_sym P)); left; reflexivity).
    destruct (inv_arec_blk _ _ _ _ _ _ I Hr) as (b & Hb & Sb & Pb & Nb).
    assert (Hin : In p (map bptr (live t))) by (apply in_map_iff; exists b; split; [congruence|assumption]).
    rewrite (proj2 (existsb_ptr _ _) Hin) in L. inversion L as [[L1 L2]].
    assert (NS : forall b', In b' (live t) -> bsys b' = true -> bptr b' <> p).
    { intros b' Hb' Sb'. pose proof (inv_apart_ne _ _ _ _ _ _ _ I Hb' Hb). rewrite <- Q, <- Pb. apply H. congruence. }
    destruct I. constructor; cbn [zones allocations managed sysmem]; auto.
    + rewrite filter_drop_some. 
      * rewrite I_zone0. rewrite drop_erase, erase_map. cbn [toB bptr]. rewrite E2. reflexivity.
      * intros b' Hb' Z. apply NS; [assumption|]. unfold zonal in Z. destruct (bsys b'); [reflexivity|discriminate].
    + rewrite filter_drop_none; assumption.
    + rewrite Forall_forall in *. intros y Hy. apply I_in0. eapply erase_sub; eassumption.
    + apply Forall_drop. assumption.
    + apply FOP_drop. assumption.
    + apply Forall_drop. assumption.
    + revert I_ext0. apply Forall_impl. intros q (Q1 & Q2 & Q3). repeat split; auto. intros K. apply Q3.
      apply in_map_iff in K as (b' & B1 & B2). apply in_map_iff. exists b'. split; [assumption|]. eapply drop_ptr_in; eassumption.
    + rewrite filter_drop_none; assumption.
  - assert (NZ : forall b, In b (live t) -> bptr b = p -> bsys b = true).
    { intros b Hb Pb. destruct (bsys b) eqn:Sb; [reflexivity|]. destruct (inv_zone_blk _ _ _ _ _ _ I Hb Sb) as (r & Hr & R1 & R2 & _).
      pose proof (erase_none _ _ E1 _ Hr) as X. cbv beta in X. apply N.eqb_neq in X. congruence. }
    destruct (erase_if (fun r => mptr r =? p) (sysmem s)) as [sy|] eqn:E2.
    + unfold c_free. destruct (N.eqb_spec p 0) as [->|P0].
      * (* null pointer, failed malloc *)
        do 3 eexists. split; [reflexivity|].
        assert (NI : ~ In 0 (map bptr (live t))).
        { intros K. apply in_map_iff in K as (b & B1 & B2). pose proof (I_pos _ _ _ _ _ I) as F. rewrite Forall_forall in F. destruct (F _ B2). congruence. }
        assert (X : existsb (fun b => bptr b =? 0) (live t) = false).
        { destruct (existsb _ _) eqn:X; [|reflexivity]. apply existsb_ptr in X. contradiction. }
        assert (NE : ~ In 0 (ext t)).
        { intros K. pose proof (I_ext _ _ _ _ _ I) as F. rewrite Forall_forall in F. destruct (F _ K). congruence. }
        rewrite X, (drop_addr_notin _ _ NE) in L. inversion L as [[L1 L2]].
        destruct I. constructor; cbn [zones allocations managed sysmem]; auto.
        rewrite (erase_filter_out _ nonnull _ _) with (2 := E2); [assumption|]. intros x Hx. unfold nonnull. rewrite Hx. reflexivity.
      * (* a malloc block of ours *)
        assert (Efil : erase_if (fun r => mptr r =? p) (filter nonnull (sysmem s)) = Some (filter nonnull sy)).
        { apply erase_filter; [|assumption]. intros x Hx. unfold nonnull. apply N.eqb_eq in Hx. rewrite Hx. apply (proj2 (N.eqb_neq _ _)) in P0. rewrite P0. reflexivity. }
        destruct (erase_some _ _ _ Efil) as (r & Q & P). apply N.eqb_eq in Q.
        assert (PB : Permutation (map bptr (filter bsys (live t))) (p :: map bptr (map (toB true) (filter nonnull sy)))).
        { rewrite (I_sys _ _ _ _ _ I), P. simpl. rewrite Q. reflexivity. }
        assert (PH : Permutation h (p :: (map bptr (map (toB true) (filter nonnull sy)) ++ ext t))).
        { rewrite (I_h _ _ _ _ _ I), PB. reflexivity. }
        destruct (erase_perm _ _ _ PH) as (h' & Eh & PH'). rewrite Eh.
        do 3 eexists. split; [reflexivity|].
        assert (Hin : In p (map bptr (live t))).
        { assert (K : In p (map bptr (filter bsys (live t)))) by (apply (Permutation_in _ (Permutation_sym PB)); left; reflexivity).
          apply in_map_iff in K as (b & B1 & B2). apply filter_In in B2. apply in_map_iff. exists b. tauto. }
        rewrite (proj2 (existsb_ptr _ _) Hin) in L. inversion L as [[L1 L2]].
        assert (FS : filter bsys (drop_ptr p (live t)) = map (toB true) (filter nonnull sy)).
        { rewrite filter_drop_some.
          - rewrite (I_sys _ _ _ _ _ I), drop_erase, erase_map. cbn [toB bptr]. rewrite Efil. reflexivity.
          - intros b Hb Sb Pb. rewrite (NZ _ Hb Pb) in Sb. discriminate. }
        destruct I. constructor; cbn [zones allocations managed sysmem]; auto.
        -- rewrite filter_drop_none; [assumption|]. intros b Hb Sb Pb. unfold zonal in Sb. rewrite (NZ _ Hb Pb) in Sb. discriminate.
        -- apply Forall_drop. assumption.
        -- apply FOP_drop. assumption.
        -- apply Forall_drop. assumption.
        -- revert I_ext0. apply Forall_impl. intros q (Q1 & Q2 & Q3). repeat split; auto. intros K. apply Q3.
           apply in_map_iff in K as (b' & B1 & B2). apply in_map_iff. exists b'. split; [assumption|]. eapply drop_ptr_in; eassumption.
        -- rewrite FS. assumption.
    + (* not in the records: null or somebody else's malloc block *)
      assert (NI : ~ In p (map bptr (live t))).
      { intros K. apply in_map_iff in K as (b & B1 & B2). pose proof (NZ _ B2 B1) as Sb.
        assert (K : In b (filter bsys (live t))) by (apply filter_In; auto). rewrite (I_sys _ _ _ _ _ I) in K.
        apply in_map_iff in K as (r & R1 & R2). apply filter_In in R2 as [R2 _].
        pose proof (erase_none _ _ E2 _ R2) as X. cbv beta in X. apply N.eqb_neq in X. subst b. simpl in B1. congruence. }
      assert (X : existsb (fun b => bptr b =? p) (live t) = false).
      { destruct (existsb _ _) eqn:X; [|reflexivity]. apply existsb_ptr in X. contradiction. }
      rewrite X in L. unfold c_free. destruct (N.eqb_spec p 0) as [->|P0].
      * do 3 eexists. split; [reflexivity|].
        assert (NE : ~ In 0 (ext t)).
        { intros K. pose proof (I_ext _ _ _ _ _ I) as F. rewrite Forall_forall in F. destruct (F _ K). congruence. }
        rewrite (drop_addr_notin _ _ NE) in L. inversion L as [[L1 L2]]. destruct I; constructor; auto.
      * destruct Hok as [Hok|[Hok|Hok]]; [congruence|contradiction|].
        assert (PH : Permutation h (p :: (map bptr (filter bsys (live t)) ++ drop_addr p (ext t)))).
        { rewrite (I_h _ _ _ _ _ I). rewrite (drop_addr_perm _ _ Hok) at 1. symmetry. apply Permutation_middle. }
        destruct (erase_perm _ _ _ PH) as (h' & Eh & PH'). rewrite Eh. do 3 eexists. split; [reflexivity|].
        inversion L as [[L1 L2]]. destruct I. constructor; auto.
        rewrite Forall_forall in I_ext0 |- *. intros q Hq. apply I_ext0. eapply drop_addr_in; eassumption.
Qed.

Lemma inv_step zs t s h o : one_per_level zs -> proper zs -> any_clash zs = false ->
  Inv zs (live t) (ext t) s h -> ok_op zs t o ->
  exists x s' h', rma_do o s h = Ret (x, s', h') /\ Inv zs (live (t ++ [(o, x)])) (ext (t ++ [(o, x)])) s' h'.
Proof.
  intros Ho Hp Hc I Hok. destruct o as [n c m|p|p].
  - apply inv_alloc; assumption.
  - apply inv_free; assumption.
  - do 3 eexists. split; [reflexivity|]. apply inv_ext; try assumption.
    revert Hp. apply Forall_impl. tauto.
Qed.
Lemma rma_run_snoc l : forall o s h t s1 h1, rma_run l s h = Ret (t, s1, h1) ->
  rma_run (l ++ [o]) s h = match rma_do o s1 h1 with Ret (x, s2, h2) => Ret (t ++ [(o, x)], s2, h2) | UB e => UB e | Throw e => Throw e | OutOfFuel => OutOfFuel end.
Proof.
  induction l as [|a r IH]; intros o s h t s1 h1 H.
  - simpl in H. inversion H; subst. simpl. destruct (rma_do o s1 h1) as [[[x s2] h2]| | |]; reflexivity.
  - simpl in H |- *. destruct (rma_do a s h) as [[[x s2] h2]| | |]; try discriminate.
    destruct (rma_run r s2 h2) as [[[t' s3] h3]| | |] eqn:E; try discriminate. inversion H; subst.
    rewrite (IH o _ _ _ _ _ E). destruct (rma_do o s1 h1) as [[[y s4] h4]| | |]; reflexivity.
Qed.
Lemma rma_run_app l : forall o s h t s1 h1, rma_run (l ++ [o]) s h = Ret (t, s1, h1) ->
  exists t0 s0 h0 x, rma_run l s h = Ret (t0, s0, h0) /\ rma_do o s0 h0 = Ret (x, s1, h1) /\ t = t0 ++ [(o, x)].
Proof.
  induction l as [|a q IH]; intros o s h t s1 h1 H; cbn [rma_run app] in *.
  - destruct (rma_do o s h) as [[[x s2] h2]| | |] eqn:F; try discriminate. inversion H; subst. do 4 eexists. eauto.
  - destruct (rma_do a s h) as [[[x s2] h2]| | |]; try discriminate.
    destruct (rma_run (q ++ [o]) s2 h2) as [[[t4 s4] h4]| | |] eqn:G; try discriminate.
    inversion H; subst. destruct (IH _ _ _ _ _ _ G) as (t0 & s0 & h0 & y & A & B & ->). rewrite A.
    do 4 eexists. split; [reflexivity|]. split; [eassumption|reflexivity].
Qed.
Lemma ok_history_snoc zs t e : ok_history zs (t ++ [e]) -> ok_history zs t /\ ok_op zs t (fst e).
Proof.
  intros H. split.
  - intros pre o x post ->. apply (H pre o x (post ++ [e])). rewrite <- app_assoc. reflexivity.
  - destruct e as [o x]. apply (H t o x []). reflexivity.
Qed.
Lemma inv_start zs : zs <> [] -> Inv zs (live []) (ext []) (mkRma zs [] [] []) [].
Proof. intros H. constructor; simpl; auto; constructor. Qed.
Theorem inv_run zs l : one_per_level zs -> proper zs -> any_clash zs = false -> zs <> [] ->
  forall t s h, rma_run l (mkRma zs [] [] []) [] = Ret (t, s, h) -> ok_history zs t -> Inv zs (live t) (ext t) s h.
Proof.
  intros Ho Hp Hc Hne. induction l as [|o l IH] using rev_ind; intros t s h H Hok.
  - simpl in H. inversion H; subst. apply inv_start. assumption.
  - apply rma_run_app in H as (t0 & s0 & h0 & x & H1 & H2 & ->). apply ok_history_snoc in Hok as [K1 K2].
    destruct (inv_step _ _ _ _ o Ho Hp Hc (IH _ _ _ H1 K1) K2) as (x' & s' & h' & E & J). rewrite H2 in E. inversion E; subst. exact J.
Qed.
