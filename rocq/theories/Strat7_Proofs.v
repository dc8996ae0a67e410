(** Fresh health voting, float checksums, struck rows. *)
From Coq Require Import String List NArith ZArith Bool SpecFloat Lia Reals Lra.
Import ListNotations.
From Flocq Require Import Core.
From Flocq.IEEE754 Require Import BinarySingleNaN.
From Verif Require Import Outcome Words Floats FloatsR FloatsS HealthFloat Approx_Model Bits_Model Health_Proofs MBP6_Proofs Strat_Model Strat_Spec Strat_Proofs Strat2_Proofs Strat3_Proofs Strat4_Proofs.
Local Open Scope Z_scope.
Lemma S63 : oks (sofZ (2 ^ 63)) /\ (R (sofZ (2 ^ 63)) = 9223372036854775808)%R. Proof. lit. Qed.
Lemma S00 : oks (sofZ 0) /\ (R (sofZ 0) = 0)%R. Proof. lit. Qed.
Local Opaque dlit dofZ dadd dsub dmul ddiv sofZ.
Lemma float_chk_in x : float_up_to (2 ^ 63) x -> exists k, float_chk x = Ret k.
Proof.
  intros (V & A & B). destruct S63 as [O6 E6], S00 as [O0 E0]. assert (O : oks x).
  { split; [exact V|]. destruct O6 as [_ F6], O0 as [_ F0]. destruct x as [s|[]| |s m e]; try reflexivity; [destruct (sofZ 0) as [[]|[]| |[] m e]|destruct (sofZ (2 ^ 63)) as [[]|[]| |[] m e]|]; try discriminate F6; try discriminate F0; try discriminate A; try discriminate B. }
  apply fle_s in A; auto. apply fle_s in B; auto. rewrite E0 in A. rewrite E6 in B. destruct (trunc_between x 9223372036854775808 (proj2 O)) as (z & T & Hz); [lra|].
  exists z. unfold float_chk, fcast. rewrite T. assert (F : fitsb (mki 64 false) z = true) by (unfold fitsb; apply andb_true_intro; split; apply Z.leb_le; [change (imin (mki 64 false)) with 0|change (imax (mki 64 false)) with 18446744073709551615]; lia). rewrite F. reflexivity.
Qed.
Lemma fresh_masks {V} (K : kind V) h r1 r2 r3 v : h = fresh -> per K -> self_equal K v -> two_of v r1 r2 r3 -> eqv K (value (fst (health_vote K h r1 r2 r3))) v = true.
Proof.
  intros -> P E [[-> ->]|[[-> ->]|[-> ->]]].
  - apply (lone_masks K 2 fresh v v r3 P ltac:(lia) (LF_new K 2)). exact E.
  - apply (lone_masks K 1 fresh v r2 v P ltac:(lia) (LF_new K 1)). exact E.
  - apply (lone_masks K 0 fresh r1 v v P ltac:(lia) (LF_new K 0)). exact E.
Qed.
Lemma reached_ready dexp dpow2 q : never_negative dexp -> reached dexp dpow2 q -> policy_some (pol q) /\ delay_ok (dmul (dofZ 50) (protection_factor (scales q))).
Proof. intros N (m & n & now & l & PC & T & H). exact (run_ready dexp dpow2 N m n now l q PC T H). Qed.
Lemma reached_scales dexp dpow2 q : never_negative dexp -> reached dexp dpow2 q -> scales_in (scales q).
Proof. intros N (m & n & now & l & PC & T & H). exact (run_scales dexp dpow2 N l (pdp_new m n now) q PC T (new_scales_in now) H). Qed.
(** rows *)
Lemma skip_nth {A} (d : A) : forall n (l : list A) k, nth k (skipn n l) d = nth (n + k) l d.
Proof. induction n as [|n IH]; intros l k; [reflexivity|]. destruct l as [|x l]; [cbn [skipn]; destruct k; reflexivity|]. cbn [skipn plus nth]. apply IH. Qed.
Lemma first_nth {A} (d : A) : forall n (l : list A) k, (k < n)%nat -> nth k (firstn n l) d = nth k l d.
Proof. induction n as [|n IH]; intros l k H; [lia|]. destruct l as [|x l]; [reflexivity|]. destruct k as [|k]; [reflexivity|]. cbn [firstn nth]. apply IH. lia. Qed.
Lemma row_indep w w' b x i j : length w = length w' -> (forall k, (k < i * length x \/ (i + 1) * length x <= k)%nat -> nth k w S754_nan = nth k w' S754_nan) -> j <> i -> (j < length b)%nat ->
  nth j (reference w b x) S754_nan = nth j (reference w' b x) S754_nan.
Proof.
  intros L H N J. unfold reference.
  assert (E : forall u, nth j (map (fun q : list sf * sf => row_result (fst q) (snd q) x) (combine (rows (length b) (length x) u) b)) S754_nan = row_result (firstn (length x) (skipn (j * length x) u)) (nth j b S754_nan) x).
  { intros u. rewrite (nth_indep _ S754_nan ((fun q : list sf * sf => row_result (fst q) (snd q) x) ([], S754_nan))) by (rewrite map_length, combine_length, rows_length; lia).
    rewrite map_nth with (f := fun q : list sf * sf => row_result (fst q) (snd q) x). rewrite combine_nth by apply rows_length. cbn [fst snd]. rewrite rows_nth by exact J. reflexivity. }
  rewrite !E. f_equal. apply nth_ext with (d := S754_nan) (d' := S754_nan); [rewrite !firstn_length, !skipn_length, L; reflexivity|].
  intros k Hk. rewrite firstn_length in Hk. rewrite !first_nth by lia. rewrite !skip_nth. apply H. destruct (Nat.lt_ge_cases j i) as [Q|Q]; [left|right]; nia.
Qed.
Lemma forward_shape x l : x <> [] -> exists v, forward_op x l = Ret v.
Proof.
  intros Hx. unfold forward_op. destruct (_ || _); [eauto|]. destruct x as [|y x]; [congruence|]. change (Nat.eqb (length (y :: x)) 0) with false. cbv iota zeta. destruct (_ || _); eauto.
Qed.
(** environment updates reach the layers; scales only move when their interval has elapsed *)
Lemma do_layers dexp dpow2 p o q : pdp_do dexp dpow2 p o = Ret q -> length (plevels (pol q)) = length (plevels (pol p)).
Proof.
  destruct o as [i s|k|now e st]; cbn [pdp_do]; intros H.
  - injection H as <-. unfold pdp_sensitivity. destruct (_ && _); reflexivity.
  - injection H as <-. reflexivity.
  - unfold pdp_update in H. destruct (update_scales _ _ _ _ _ _ _); cbn [obind] in H; try discriminate. injection H as <-. cbn [pol]. unfold optimize_policy. cbn [plevels]. rewrite map_length, seq_length. reflexivity.
Qed.
Lemma run_layers dexp dpow2 : forall l p q, pdp_run dexp dpow2 p l = Ret q -> length (plevels (pol q)) = length (plevels (pol p)).
Proof.
  induction l as [|o l IH]; intros p q H; cbn [pdp_run] in H; [injection H as <-; reflexivity|]. destruct (pdp_do dexp dpow2 p o) as [p'| | |] eqn:E; try discriminate. rewrite (IH _ _ H). exact (do_layers dexp dpow2 _ _ _ E).
Qed.
Lemma update_emergency dexp dpow2 p now e st q i c : pdp_update dexp dpow2 p now e st = Ret q -> saa e = true \/ fgt (solar e) (dlit 7 10) = true -> 0 <= i < Z.of_nat (length (plevels (pol p))) ->
  chosen_strategy q i c = Ret (S_hybrid (dmul (dofZ 50) (protection_factor (scales q)))).
Proof.
  intros H E I. unfold pdp_update in H. destruct (update_scales _ _ _ _ _ _ _) as [sc| | |]; cbn [obind] in H; try discriminate. injection H as <-. unfold chosen_strategy, chosen_level. cbn [pol alloc scales].
  assert (G : get_layer_protection (optimize_policy (pol p) e) i = HYBRID_REDUNDANCY).
  { unfold get_layer_protection, get_nth, optimize_policy. cbn [plevels]. rewrite map_length, seq_length. replace (_ && _) with true by (symmetry; apply andb_true_intro; split; [apply Z.leb_le|apply Z.ltb_lt]; lia).
    set (f := fun i => need_level _ _). rewrite (nth_indep _ BASIC_TMR (f 0%nat)) by (rewrite map_length, seq_length; lia). rewrite map_nth. unfold f, need_level. destruct E as [->| ->]; [reflexivity|]. rewrite orb_true_r. reflexivity. }
  rewrite G. destruct (rank HYBRID_REDUNDANCY <? rank (allocated_level _ i)) eqn:Q; [|reflexivity]. exfalso. apply Z.ltb_lt in Q. destruct (alloc_some (optimize_shares dexp (alloc p) (sens p) e) i) as [A|[A|[A|A]]]; rewrite A in Q; cbn in Q; lia.
Qed.
Lemma scales_still dexp now e m e' m' : forall l iv i i' l', Forall (fun d => 0 < d) iv -> update_scales dexp i l iv now e m = Ret l' -> update_scales dexp i' l' iv now e' m' = Ret l'.
Proof.
  induction l as [|x l IH]; intros iv i i' l' P H; destruct iv as [|d iv]; cbn [update_scales] in H; try (injection H as <-; reflexivity).
  inversion P as [|? ? Pd P']; subst. destruct (d <=? now - last_update x) eqn:Q.
  - destruct (state_at dexp i e m) as [z| | |]; cbn [obind] in H; try discriminate. destruct (update_scales dexp (S i) l iv now e m) as [r| | |] eqn:U; cbn [obind] in H; try discriminate. injection H as <-. cbn [update_scales last_update].
    replace (d <=? now - now) with false by (symmetry; apply Z.leb_gt; lia). cbn [obind]. rewrite (IH iv (S i) (S i') r P' U). reflexivity.
  - cbn [obind] in H. destruct (update_scales dexp (S i) l iv now e m) as [r| | |] eqn:U; cbn [obind] in H; try discriminate. injection H as <-. cbn [update_scales]. rewrite Q. cbn [obind]. rewrite (IH iv (S i) (S i') r P' U). reflexivity.
Qed.
Lemma update_still dexp dpow2 p now e st q e' st' q' : pdp_update dexp dpow2 p now e st = Ret q -> pdp_update dexp dpow2 q now e' st' = Ret q' -> scales q' = scales q.
Proof.
  unfold pdp_update. intros H H'. destruct (update_scales dexp 0 (scales p) intervals now e (mat p)) as [sc| | |] eqn:U; cbn [obind] in H; try discriminate. injection H as <-. cbn [scales mat] in H'.
  rewrite (scales_still dexp now e (mat p) e' (mat p) (scales p) intervals 0%nat 0%nat sc) in H' by (exact U || (unfold intervals; repeat constructor; lia)). cbn [obind] in H'. injection H' as <-. reflexivity.
Qed.
