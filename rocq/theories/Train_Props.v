(** C245-C257: radiation-aware training (src/rad_ml/research/radiation_aware_training.cpp). *)
From Coq Require Import List NArith ZArith Bool Arith Lia Reals Lra SpecFloat.
From Flocq Require Import Core.
From Flocq.IEEE754 Require Import BinarySingleNaN.
Import ListNotations.
From Verif Require Import Outcome Words Arith Floats FloatsR FloatsS Bits_Model MBP_Model MBP_Spec PNN_Model PNN_Spec PNN_Proofs PNN2_Proofs PNN3_Proofs PNN_Props Train_Model Train_Spec Train_Proofs Train2_Proofs Train3_Proofs Train4_Proofs Train5_Proofs Train6_Proofs.
Local Open Scope nat_scope.

(** Concrete trainers, data and answers of the generator. *)
Definition always : idraw := mkID (fun _ _ _ => (S754_zero false, 30%N)) (fun _ _ => (S754_zero false, 1%N)).
Definition never : idraw := mkID (fun _ _ _ => (slit 99 100, 30%N)) (fun _ _ => (slit 99 100, 1%N)).
Definition first_cell : cdraw := fun _ _ => (0, 0, 30%N).
Definition expo : sf -> sf := fun x => match x with S754_nan => S754_nan | _ => sofZ 1 end.
Definition trainer (p : sf) (t : bool) : rat := rat_new p t EARTH.
Definition rview (o : outcome (rat * pnn * answer)) := match o with Ret (r, s, a) => Some (r, params s, mirror s, a) | _ => None end.
Lemma rseen o r p m a : rview o = Some (r, p, m, a) -> exists s, o = Ret (r, s, a) /\ params s = p /\ mirror s = m.
Proof. destruct o as [[[r' s'] a']| | |]; cbn [rview]; try discriminate. intros H; injection H as -> <- <- ->. exists s'; auto. Qed.
Lemma legal_always : legal_idraw always.
Proof. split; intros; repeat split; vm_compute; reflexivity. Qed.
Lemma legal_never : legal_idraw never.
Proof. split; intros; repeat split; vm_compute; reflexivity. Qed.

(** ** C245 *)
Theorem C245_rejected : forall expf r s data labels cfg d cd, 0 < hd O (sizes s) -> 0 < last (sizes s) O ->
  ~ (exists samples, as_samples (hd O (sizes s)) (last (sizes s) O) samples data labels) -> rat_train expf r s data labels cfg d cd = Ret (r, s, Error).
Proof. exact rejects. Qed.
Theorem C245_accepted : forall expf r s data labels samples cfg d cd r' s' a, reachable s -> 0 < hd O (sizes s) -> 0 < last (sizes s) O ->
  as_samples (hd O (sizes s)) (last (sizes s) O) samples data labels -> rat_train expf r s data labels cfg d cd = Ret (r', s', a) ->
  a = getStats r' /\ a <> Error /\ prob r' = prob r /\ target r' = target r /\ env r' = env r.
Proof.
  intros expf r s data labels samples cfg d cd r' s' a HR Hi Ho HS H. destruct (rat_network expf s samples (Inv_reachable _ HR) Hi Ho (proj2 (proj2 HS)) _ _ _ _ _ _ _ _ _ HS H) as (_ & (P & T & E) & ->).
  repeat split; auto; discriminate.
Qed.
Example C245_nonvacuous : let s := built [2; 1] NONE_ one in
  ~ (exists samples, as_samples (hd O (sizes s)) (last (sizes s) O) samples [one; one; two] [one]) /\ as_samples 2 1 [([one; two], [one])] [one; two] [one] /\
  exists r' s', rat_train expo (trainer (slit 1 2) false) s [one; two] [one] (mkConfig 1 1) (fun _ => always) (fun _ => first_cell) = Ret (r', s', getStats r').
Proof.
  cbn zeta. split; [|split].
  - intros (sam & E1 & E2 & F). change (hd O (sizes (built [2; 1] NONE_ one))) with 2 in *.
    assert (L : forall q, Forall (fun p : list N * list N => length (fst p) = 2 /\ length (snd p) = last (sizes (built [2; 1] NONE_ one)) O) q -> length (concat (map fst q)) = 2 * length q).
    { induction q as [|p q IH]; [reflexivity|]. intros Hq; inversion Hq as [|? ? [A _] B]; subst. cbn [map concat length]. rewrite app_length, A, (IH B). lia. }
    apply L in F. rewrite <- E1 in F. cbn in F. lia.
  - split; [reflexivity|]. split; [reflexivity|]. repeat constructor.
  - destruct (rseen (rat_train expo (trainer (slit 1 2) false) (built [2; 1] NONE_ one) [one; two] [one] (mkConfig 1 1) (fun _ => always) (fun _ => first_cell))
      (mkRat (slit 1 2) false EARTH 3 (S754_zero false) (S754_zero false) None) [([[one]; [one]], [0%N])] [([[2139095040%N]; [2139095040%N]], [2%N])] (Stats 3 (S754_zero false) (S754_zero false))) as (s' & E & _); [vm_compute; reflexivity|].
    eexists _, s'. exact E.
Qed.
Print Assumptions C245_rejected.
Print Assumptions C245_accepted.

(** ** C246 *)
Theorem C246_never_refuted : forall expf s data labels samples cfg d cd e p, reachable s -> 0 < hd O (sizes s) -> 0 < last (sizes s) O ->
  as_samples (hd O (sizes s)) (last (sizes s) O) samples data labels -> p = S754_zero false \/ p = slit 1 (10 ^ 10) ->
  rat_train expf (rat_new p false e) s data labels cfg d cd = UB UB_float_to_int.
Proof. intros expf s data labels samples cfg d cd e p HR Hi Ho HS HP. eapply rat_never; eauto. destruct HP as [-> | ->]; vm_compute; reflexivity. Qed.
Theorem C246_defined_partial : forall expf r s data labels samples cfg d cd, reachable s -> 0 < hd O (sizes s) -> 0 < last (sizes s) O ->
  as_samples (hd O (sizes s)) (last (sizes s) O) samples data labels -> samples <> [] -> (Z.of_nat (length samples) < 2 ^ 63)%Z -> (1 <= batch_size cfg < 2 ^ 31)%Z -> (epochs cfg < 2 ^ 31)%Z ->
  oks (prob r) -> (bpow radix2 (-27) <= R (prob r))%R -> crit_fits r (mirror s) -> (forall k, legal_cdraw (mirror s) (cd k)) ->
  (0 <= flips r)%Z -> (flips r + Z.of_nat (parameters (mirror s)) * Z.max 1 (epochs cfg) < 2 ^ 31)%Z ->
  exists r' s', rat_train expf r s data labels cfg d cd = Ret (r', s', getStats r').
Proof. exact train_returns. Qed.
Lemma half_prob : oks (slit 1 2) /\ (bpow radix2 (-27) <= R (slit 1 2))%R.
Proof. destruct half_s as [A B]. split; [exact A|]. rewrite B. change (/ IZR 134217728 <= 1 / 2)%R. lra. Qed.
Lemma legal_first : legal_cdraw (mirror (built [2; 1] NONE_ one)) first_cell.
Proof. intros l k Hl. change (l < 1) in Hl. replace l with 0 by lia. exists one. reflexivity. Qed.
Example C246_nonvacuous : let s := built [2; 1] NONE_ one in let r := trainer (slit 1 2) true in
  reachable s /\ as_samples 2 1 [([one; two], [one])] [one; two] [one] /\ oks (prob r) /\ (bpow radix2 (-27) <= R (prob r))%R /\ crit_fits r (mirror s) /\ legal_cdraw (mirror s) first_cell /\
  (flips r + Z.of_nat (parameters (mirror s)) * Z.max 1 10 < 2 ^ 31)%Z.
Proof.
  cbn zeta. split; [apply built_reachable; reflexivity|]. split; [split; [reflexivity|split; [reflexivity|repeat constructor]]|].
  split; [apply half_prob|]. split; [apply half_prob|]. split; [exact I|]. split; [exact legal_first|]. vm_compute; reflexivity.
Qed.
Print Assumptions C246_never_refuted.
Print Assumptions C246_defined_partial.

(** ** C247 *)
Theorem C247_injection : forall r s d, (hits r d (mirror s) < 2 ^ 31)%Z -> (- 2 ^ 31 <= flips r)%Z -> (flips r + hits r d (mirror s) < 2 ^ 31)%Z ->
  exists m, injectRadiationEffects r s d = Ret (with_flips r (flips r + hits r d (mirror s)), with_mirror s m) /\ shape m = shape (mirror s) /\
    (forall l i j, get3 (map fst m) l i j = option_map (fun v => if flt (fst (wdr d l i j)) (chance r l i j) then one_flip v (snd (wdr d l i j)) else v) (get3 (map fst (mirror s)) l i j)) /\
    (forall l j, get2 (map snd m) l j = option_map (fun v => if flt (fst (bdr d l j)) (bias_chance r) then one_flip v (snd (bdr d l j)) else v) (get2 (map snd (mirror s)) l j)).
Proof.
  intros r s d H1 H2 H3. exists (struck r d (mirror s)). rewrite inject_eq. pose proof (hits_bound r d (mirror s)) as B.
  assert (F1 : fitsb int32 (hits r d (mirror s)) = true) by (apply andb_true_intro; split; apply Z.leb_le; cbn; lia).
  assert (F2 : fitsb int32 (flips r + hits r d (mirror s)) = true) by (apply andb_true_intro; split; apply Z.leb_le; cbn; lia).
  rewrite F1, F2. split; [reflexivity|]. split; [apply shape_struck|]. split; intros; [apply get3_struck|apply get2_struck].
Qed.
(** More flips than an int counts: the behaviour is undefined. *)
Theorem C247_overflow : forall r s d, (2 ^ 31 <= flips r + hits r d (mirror s))%Z -> injectRadiationEffects r s d = UB UB_signed_overflow.
Proof.
  intros r s d H. rewrite inject_eq. replace (fitsb int32 (flips r + hits r d (mirror s))) with false; [rewrite andb_false_r; reflexivity|].
  symmetry. apply andb_false_intro2. apply Z.leb_gt. cbn. lia.
Qed.
Example C247_nonvacuous : let s := built [2; 1] NONE_ one in let r := trainer (slit 1 2) false in
  legal_idraw always /\ legal_idraw never /\ hits r always (mirror s) = 3%Z /\ hits r never (mirror s) = 0%Z /\ chance r 0 0 0 = slit 1 2 /\ bias_chance r = slit 1 4 /\
  exists r' s', injectRadiationEffects r s always = Ret (r', s') /\ mirror s' = [([[2139095040%N]; [2139095040%N]], [2%N])] /\ getStats r' = Stats 3 (S754_zero false) (S754_zero false).
Proof.
  cbn zeta. split; [exact legal_always|]. split; [exact legal_never|]. split; [vm_compute; reflexivity|]. split; [vm_compute; reflexivity|]. split; [vm_compute; reflexivity|]. split; [vm_compute; reflexivity|].
  rewrite inject_eq. replace (fitsb _ _ && fitsb _ _)%bool with true by (vm_compute; reflexivity). eexists _, _. split; [reflexivity|]. split; vm_compute; reflexivity.
Qed.
Print Assumptions C247_injection.
Print Assumptions C247_overflow.

(** ** C248 *)
Theorem C248_no_effect_refuted : forall r s d r' s' x, reachable s -> injectRadiationEffects r s d = Ret (r', s') -> length x = hd O (sizes s) -> 0 < hd O (sizes s) ->
  params s' = params s /\ exists y a b, forward s x (S754_zero false) no_draws = Ret (y, a) /\ forward s' x (S754_zero false) no_draws = Ret (y, b).
Proof.
  intros r s d r' s' x HR H HX HP. rewrite inject_eq in H. destruct (_ && _)%bool; [|discriminate]. injection H as <- <-. split; [reflexivity|].
  pose proof (Inv_reachable _ HR) as HI.
  destruct (fwd s HI (counter s) (mirror s) x HX) as (c1 & E1). destruct (fwd s HI (counter s) (struck r d (mirror s)) x HX) as (c2 & E2).
  rewrite <- at_self in E1. change (at_ s (counter s) (struck r d (mirror s))) with (with_mirror (with_counter s (counter s)) (struck r d (mirror s))) in E2.
  replace (with_counter s (counter s)) with s in E2 by (destruct s; reflexivity). eauto.
Qed.
(** What is true: the flips are visible in what getLayers() gives access to (C247). *)
Theorem C248_visible_partial : forall r s d r' s' l i j v, injectRadiationEffects r s d = Ret (r', s') -> get3 (map fst (mirror s)) l i j = Some v ->
  flt (fst (wdr d l i j)) (chance r l i j) = true -> exists v', get3 (map fst (mirror s')) l i j = Some v' /\ v' <> v.
Proof.
  intros r s d r' s' l i j v H G F. rewrite inject_eq in H. destruct (_ && _)%bool; [|discriminate]. injection H as <- <-.
  cbn [mirror with_mirror]. rewrite get3_struck, G. cbn [option_map]. unfold wval, weight_hit. rewrite F. eexists; split; [reflexivity|].
  unfold one_flip. intros E. assert (Z0 : N.lxor (N.lxor v (2 ^ snd (wdr d l i j))) v = 0%N) by (rewrite E; apply N.lxor_nilpotent).
  rewrite (N.lxor_comm v), N.lxor_assoc, N.lxor_nilpotent, N.lxor_0_r in Z0. apply N.pow_nonzero in Z0; [exact Z0|discriminate].
Qed.
Example C248_nonvacuous : exists r' s', injectRadiationEffects (trainer (slit 1 2) false) (built [2; 1] NONE_ one) always = Ret (r', s') /\ mirror s' <> mirror (built [2; 1] NONE_ one) /\
  network (params s') (acts s') [one; one] = [two].
Proof.
  rewrite inject_eq. replace (fitsb _ _ && fitsb _ _)%bool with true by (vm_compute; reflexivity). eexists _, _. split; [reflexivity|]. split; [vm_compute; discriminate|vm_compute; reflexivity].
Qed.
Print Assumptions C248_no_effect_refuted.
Print Assumptions C248_visible_partial.

(** ** C249 *)
Theorem C249_nothing_learnt_refuted : forall expf r s data labels samples cfg d cd r' s' a, reachable s -> 0 < hd O (sizes s) -> 0 < last (sizes s) O ->
  as_samples (hd O (sizes s)) (last (sizes s) O) samples data labels -> rat_train expf r s data labels cfg d cd = Ret (r', s', a) ->
  params s' = params s /\ acts s' = acts s /\ sizes s' = sizes s /\ lvl s' = lvl s /\ st s' = st s.
Proof.
  intros expf r s data labels samples cfg d cd r' s' a HR Hi Ho HS H. destruct (rat_network expf s samples (Inv_reachable _ HR) Hi Ho (proj2 (proj2 HS)) _ _ _ _ _ _ _ _ _ HS H) as ((c & m & -> & _) & _).
  repeat split.
Qed.
(** What is true: the network stays one that the other properties are about, and what getLayers() gives access to keeps its sizes. *)
Theorem C249_usable_partial : forall expf r s data labels samples cfg d cd r' s' a, reachable s -> 0 < hd O (sizes s) -> 0 < last (sizes s) O ->
  as_samples (hd O (sizes s)) (last (sizes s) O) samples data labels -> rat_train expf r s data labels cfg d cd = Ret (r', s', a) ->
  reachable s' /\ shape (mirror s') = shape (mirror s).
Proof.
  intros expf r s data labels samples cfg d cd r' s' a HR Hi Ho HS H. split; [eapply trained_reachable; eauto|].
  destruct (rat_network expf s samples (Inv_reachable _ HR) Hi Ho (proj2 (proj2 HS)) _ _ _ _ _ _ _ _ _ HS H) as ((c & m & -> & E) & _). exact E.
Qed.
Example C249_nonvacuous : exists s', rat_train expo (trainer (slit 1 2) false) (built [2; 1] NONE_ one) [one; two] [one] (mkConfig 4 1) (fun _ => always) (fun _ => first_cell) =
    Ret (mkRat (slit 1 2) false EARTH 6 (S754_zero false) (S754_zero false) None, s', Stats 6 (S754_zero false) (S754_zero false)) /\
  network (params (built [2; 1] NONE_ one)) (acts (built [2; 1] NONE_ one)) [one; two] = [three] /\ three <> one.
Proof.
  destruct (rseen (rat_train expo (trainer (slit 1 2) false) (built [2; 1] NONE_ one) [one; two] [one] (mkConfig 4 1) (fun _ => always) (fun _ => first_cell))
      (mkRat (slit 1 2) false EARTH 6 (S754_zero false) (S754_zero false) None) [([[one]; [one]], [0%N])] [([[one]; [one]], [0%N])] (Stats 6 (S754_zero false) (S754_zero false))) as (s' & E & _); [vm_compute; reflexivity|].
  exists s'. split; [exact E|]. split; [vm_compute; reflexivity|discriminate].
Qed.
Print Assumptions C249_nothing_learnt_refuted.
Print Assumptions C249_usable_partial.

(** ** C250 *)
Theorem C250_always_zero_refuted : forall expf r, used expf r -> exists n, getStats r = Stats n (S754_zero false) (S754_zero false).
Proof.
  intros expf r H. enough (Q : quiet_stats r) by (exists (flips r); destruct Q as [A B]; unfold getStats; rewrite A, B; reflexivity).
  induction H as [p t e|r p _ IH|r t _ IH|r e _ IH|r s data labels samples cfg d c r' s' a _ IH HR NE HL IC HS HT]; try exact IH; [split; reflexivity|].
  destruct (Nat.eq_dec (hd O (sizes s)) 0) as [Z1|Z1].
  { unfold rat_train in HT. rewrite Z1 in HT. discriminate. }
  destruct (Nat.eq_dec (last (sizes s) O) 0) as [Z2|Z2].
  { unfold rat_train in HT. rewrite Z2 in HT. destruct (Nat.eqb _ 0); [discriminate|]. destruct (negb _); [injection HT as <- _ _; exact IH|discriminate]. }
  eapply (rat_quiet expf s samples (Inv_reachable _ HR)); try eassumption; [lia|lia|exact (proj2 (proj2 HS))].
Qed.
(** What is true: what training answers is what getStats() answers afterwards. *)
Theorem C250_same_partial : forall expf r s data labels samples cfg d cd r' s' a, reachable s -> 0 < hd O (sizes s) -> 0 < last (sizes s) O ->
  as_samples (hd O (sizes s)) (last (sizes s) O) samples data labels -> rat_train expf r s data labels cfg d cd = Ret (r', s', a) -> a = getStats r'.
Proof.
  intros expf r s data labels samples cfg d cd r' s' a HR Hi Ho HS H. destruct (rat_network expf s samples (Inv_reachable _ HR) Hi Ho (proj2 (proj2 HS)) _ _ _ _ _ _ _ _ _ HS H) as (_ & _ & ->). reflexivity.
Qed.
Lemma small_config n b : (0 <= n < 100)%Z -> (0 <= b < 100)%Z -> int_config (mkConfig n b).
Proof. intros A B. unfold int_config, is_int. cbn [epochs batch_size]. lia. Qed.
Lemma as_two : as_samples (hd O (sizes (built [2; 1] NONE_ one))) (last (sizes (built [2; 1] NONE_ one)) O) [([one; two], [one])] [one; two] [one].
Proof. change (as_samples 2 1 [([one; two], [one])] [one; two] [one]). split; [reflexivity|]. split; [reflexivity|]. repeat constructor. Qed.
Lemma used_two t n b d c r s' a : (0 <= n < 100)%Z -> (0 <= b < 100)%Z ->
  rat_train expo (trainer (slit 1 2) t) (built [2; 1] NONE_ one) [one; two] [one] (mkConfig n b) d c = Ret (r, s', a) -> used expo r.
Proof.
  intros A B H. refine (used_train expo (trainer (slit 1 2) t) (built [2; 1] NONE_ one) [one; two] [one] [([one; two], [one])] (mkConfig n b) d c r s' a _ _ _ _ _ as_two H).
  - apply used_new.
  - apply built_reachable; reflexivity.
  - discriminate.
  - cbn [length Z.of_nat]. lia.
  - apply small_config; assumption.
Qed.
Example C250_nonvacuous : used expo (mkRat (slit 1 2) false EARTH 6 (S754_zero false) (S754_zero false) None).
Proof. destruct C249_nonvacuous as (s' & E & _). eapply used_two; [| |exact E]; lia. Qed.
Print Assumptions C250_always_zero_refuted.
Print Assumptions C250_same_partial.

(** ** C251 *)
(** exp as the analysis uses it: e^-0 is 1, and of no number it is no number *)
Definition exp_like (expf : sf -> sf) : Prop := expf (S754_zero true) = sofZ 1 /\ expf S754_nan = S754_nan.
Lemma level_value expf s x y : exp_like expf ->
  level_ s expf x y = if is_finite_SF (sf32 (mean_squared_error (network (params s) (acts s)) [(x, y)])) then slit 1 2 else S754_nan.
Proof.
  intros (H1 & H2). unfold level_. destruct (is_finite_SF _) eqn:F.
  - rewrite ssub_self by exact F. unfold sigmoid, neg. cbn [SFopp negb]. rewrite H1. vm_compute; reflexivity.
  - unfold sigmoid. replace (ssub _ _) with S754_nan by (destruct (sf32 _) as [|[]| |]; try discriminate F; reflexivity).
    unfold neg. cbn [SFopp]. rewrite H2. reflexivity.
Qed.
(** All weights analysed get the same criticality, whatever they contribute: one half, or no number when the loss is not finite. *)
Theorem C251_all_equal_refuted : forall expf r s data labels x y samples cfg d cd r' s' a l i j n, exp_like expf -> reachable s -> 0 < hd O (sizes s) -> 0 < last (sizes s) O ->
  as_samples (hd O (sizes s)) (last (sizes s) O) ((x, y) :: samples) data labels -> target r = true -> crit r = None ->
  (exists v, get3 (map fst (mirror s)) l i j = Some v) -> tests_of (nth l (map fst (mirror s)) []) = Ret n -> analysed (cd O) n l i j ->
  rat_train expf r s data labels cfg d cd = Ret (r', s', a) ->
  exists k, getCriticalityMap r' = Some k /\
    get3 k l i j = Some (if is_finite_SF (sf32 (mean_squared_error (network (params s) (acts s)) [(x, y)])) then slit 1 2 else S754_nan).
Proof.
  intros expf r s data labels x y samples cfg d cd r' s' a l i j n HE HR Hi Ho HS HT HC HG HN HA H.
  destruct (rat_analysed expf s ((x, y) :: samples) (Inv_reachable _ HR) Hi Ho (proj2 (proj2 HS)) _ _ _ _ _ _ _ _ _ _ _ _ _ HS HT HC HG HN HA H) as (k & K1 & K2).
  exists k. split; [exact K1|]. rewrite K2. f_equal. cbn [level1]. apply level_value, HE.
Qed.
(** What is true of a fresh trainer with a finite loss: every entry is 0 or one half. *)
Theorem C251_range_partial : forall expf r s data labels x y samples cfg d cd r' s' a k l i j v, exp_like expf -> reachable s -> 0 < hd O (sizes s) -> 0 < last (sizes s) O ->
  as_samples (hd O (sizes s)) (last (sizes s) O) ((x, y) :: samples) data labels -> crit r = None ->
  is_finite_SF (sf32 (mean_squared_error (network (params s) (acts s)) [(x, y)])) = true ->
  rat_train expf r s data labels cfg d cd = Ret (r', s', a) -> getCriticalityMap r' = Some k -> get3 k l i j = Some v -> v = S754_zero false \/ v = slit 1 2.
Proof.
  intros expf r s data labels x y samples cfg d cd r' s' a k l i j v HE HR Hi Ho HS HC HF H K G.
  refine (rat_entries expf s ((x, y) :: samples) (Inv_reachable _ HR) Hi Ho (proj2 (proj2 HS)) (fun v => v = S754_zero false \/ v = slit 1 2) _ _ _ _ _ _ _ _ _ HS (or_introl eq_refl) _ _ H k l i j v K G).
  - right. cbn [level1]. rewrite level_value by exact HE. rewrite HF. reflexivity.
  - intros k' ? ? ? ? E. rewrite HC in E. discriminate.
Qed.
Example C251_nonvacuous : let s := built [2; 1] NONE_ one in
  exp_like expo /\ tests_of (nth 0 (map fst (mirror s)) []) = Ret 1 /\ analysed first_cell 1 0 0 0 /\ is_finite_SF (sf32 (mean_squared_error (network (params s) (acts s)) [([one; two], [one])])) = true /\
  exists s', rat_train expo (trainer (slit 1 2) true) s [one; two] [one] (mkConfig 1 1) (fun _ => never) (fun _ => first_cell) =
    Ret (mkRat (slit 1 2) true EARTH 1 (S754_zero false) (S754_zero false) (Some [[[slit 1 2]; [S754_zero false]]]), s', Stats 1 (S754_zero false) (S754_zero false)).
Proof.
  cbn zeta. split; [split; vm_compute; reflexivity|]. split; [vm_compute; reflexivity|]. split; [exists 0; split; [lia|reflexivity]|]. split; [vm_compute; reflexivity|].
  destruct (rseen (rat_train expo (trainer (slit 1 2) true) (built [2; 1] NONE_ one) [one; two] [one] (mkConfig 1 1) (fun _ => never) (fun _ => first_cell))
      (mkRat (slit 1 2) true EARTH 1 (S754_zero false) (S754_zero false) (Some [[[slit 1 2]; [S754_zero false]]])) [([[one]; [one]], [0%N])] [([[2139095040%N]; [one]], [0%N])] (Stats 1 (S754_zero false) (S754_zero false))) as (s' & E & _); [vm_compute; reflexivity|].
  exists s'. exact E.
Qed.
Print Assumptions C251_all_equal_refuted.
Print Assumptions C251_range_partial.

(** ** C252 *)
(** Training for no epochs is the analysis alone. *)
Theorem C252_analysis : forall expf r s data labels samples batch d cd r' s' a, reachable s -> 0 < hd O (sizes s) -> 0 < last (sizes s) O ->
  as_samples (hd O (sizes s)) (last (sizes s) O) samples data labels -> rat_train expf r s data labels (mkConfig 0 batch) d cd = Ret (r', s', a) ->
  same_network s s' /\ flips r' = flips r /\ (target r = false \/ crit r <> None -> crit r' = crit r).
Proof.
  intros expf r s data labels samples batch d cd r' s' a HR Hi Ho HS H. pose proof (Inv_reachable _ HR) as HI.
  destruct (rat_ret expf s samples HI Hi Ho (proj2 (proj2 HS)) _ _ _ _ _ _ _ _ _ HS H) as (NE & freq & c1 & r2 & _ & E & -> & _).
  cbn [epochs Z.to_nat epochs_from] in E. injection E as <- <-. split; [repeat split|].
  destruct (first_map_core expf s samples r cd) as (_ & _ & _ & F & _). split; [exact F|].
  intros C. cbn [finish crit with_drop]. unfold first_map. destruct (target r), (crit r) eqn:K; try (symmetry; assumption || reflexivity); try assumption.
  destruct C as [C|C]; [discriminate|congruence].
Qed.
(** The analysis itself, on any network and any first sample. *)
Theorem C252_every_call : forall expf r s samples c r' s', reachable s -> 0 < hd O (sizes s) -> 0 < last (sizes s) O -> samples <> [] ->
  Forall (fun p => length (fst p) = hd O (sizes s) /\ length (snd p) = last (sizes s) O) samples ->
  updateCriticalityMap expf r s (concat (map fst (firstn 10 samples))) (concat (map snd (firstn 10 samples))) c = Ret (r', s') ->
  same_network s s' /\ prob r' = prob r /\ target r' = target r /\ env r' = env r /\ getStats r' = getStats r.
Proof.
  intros expf r s samples c r' s' HR Hi Ho NE HF H. pose proof (Inv_reachable _ HR) as HI. rewrite (at_self s) in H at 1.
  destruct (update_ret expf s samples HI Hi Ho HF r (counter s) (mirror s) c r' s' NE H) as (-> & c' & ->). repeat split.
Qed.
Example C252_nonvacuous : exists s', rat_train expo (trainer (slit 1 2) true) (built [2; 1] NONE_ one) [one; two] [one] (mkConfig 0 1) (fun _ => always) (fun _ => first_cell) =
    Ret (mkRat (slit 1 2) true EARTH 0 (S754_zero false) (S754_zero false) (Some [[[slit 1 2]; [S754_zero false]]]), s', Stats 0 (S754_zero false) (S754_zero false)).
Proof.
  destruct (rseen (rat_train expo (trainer (slit 1 2) true) (built [2; 1] NONE_ one) [one; two] [one] (mkConfig 0 1) (fun _ => always) (fun _ => first_cell))
      (mkRat (slit 1 2) true EARTH 0 (S754_zero false) (S754_zero false) (Some [[[slit 1 2]; [S754_zero false]]])) [([[one]; [one]], [0%N])] [([[one]; [one]], [0%N])] (Stats 0 (S754_zero false) (S754_zero false))) as (s' & E & _); [vm_compute; reflexivity|].
  exists s'. exact E.
Qed.
Print Assumptions C252_analysis.
Print Assumptions C252_every_call.

(** ** C253 *)
(** Trained on a small network and then on a larger one: the criticality map keeps the sizes of the first, and is written outside. *)
Definition corner : cdraw := fun _ _ => (2, 0, 30%N).
Theorem C253_other_network_refuted :
  exists expf r s data labels samples cfg d cd, used expf r /\ reachable s /\ 0 < hd O (sizes s) /\ 0 < last (sizes s) O /\
    as_samples (hd O (sizes s)) (last (sizes s) O) samples data labels /\ samples <> [] /\ (forall k, legal_cdraw (mirror s) (cd k)) /\ legal_idraw d /\
    rat_train expf r s data labels cfg (fun _ => d) cd = UB UB_out_of_bounds.
Proof.
  destruct C252_nonvacuous as (s1 & E).
  exists expo, (mkRat (slit 1 2) true EARTH 0 (S754_zero false) (S754_zero false) (Some [[[slit 1 2]; [S754_zero false]]])), (built [3; 1] NONE_ one), [one; one; one], [one], [([one; one; one], [one])], (mkConfig 1 1), never, (fun _ => corner).
  split.
  { eapply used_two; [| |exact E]; lia. }
  split; [apply built_reachable; reflexivity|]. split; [vm_compute; lia|]. split; [vm_compute; lia|].
  split; [split; [reflexivity|split; [reflexivity|repeat constructor]]|]. split; [discriminate|].
  split; [intros _ l k Hl; change (l < 1) in Hl; replace l with 0 by lia; exists one; reflexivity|]. split; [exact legal_never|]. vm_compute; reflexivity.
Qed.
(** What is true: a trainer without a criticality map, or whose map has the sizes of the network, can be used for it. *)
Theorem C253_same_sizes_partial : forall expf p t e n r s data labels samples cfg d cd, r = mkRat p t e n (S754_zero false) (S754_zero false) (crit r) -> crit_fits r (mirror s) ->
  reachable s -> 0 < hd O (sizes s) -> 0 < last (sizes s) O -> as_samples (hd O (sizes s)) (last (sizes s) O) samples data labels -> samples <> [] ->
  (Z.of_nat (length samples) < 2 ^ 63)%Z -> (1 <= batch_size cfg < 2 ^ 31)%Z -> (epochs cfg < 2 ^ 31)%Z -> oks p -> (bpow radix2 (-27) <= R p)%R -> (forall k, legal_cdraw (mirror s) (cd k)) ->
  (0 <= n)%Z -> (n + Z.of_nat (parameters (mirror s)) * Z.max 1 (epochs cfg) < 2 ^ 31)%Z ->
  exists r' s', rat_train expf r s data labels cfg d cd = Ret (r', s', getStats r').
Proof.
  intros expf p t e n r s data labels samples cfg d cd E HC HR Hi Ho HS NE HL HB HE HP HP2 HD Hn HN.
  assert (P : prob r = p /\ flips r = n) by (rewrite E; split; reflexivity). destruct P as [<- <-]. eapply train_returns; eauto.
Qed.
Example C253_nonvacuous : crit_fits (mkRat (slit 1 2) true EARTH 0 (S754_zero false) (S754_zero false) (Some [[[slit 1 2]; [S754_zero false]]])) (mirror (built [2; 1] NONE_ one)) /\
  ~ crit_fits (mkRat (slit 1 2) true EARTH 0 (S754_zero false) (S754_zero false) (Some [[[slit 1 2]; [S754_zero false]]])) (mirror (built [3; 1] NONE_ one)).
Proof. split; vm_compute; [reflexivity|discriminate]. Qed.
Print Assumptions C253_other_network_refuted.
Print Assumptions C253_same_sizes_partial.

(** ** C254 *)
Theorem C254_empty_refuted : forall expf r s cfg d cd, reachable s -> 0 < hd O (sizes s) -> 0 < last (sizes s) O ->
  (target r = true -> crit r = None -> rat_train expf r s [] [] cfg d cd = UB UB_out_of_bounds) /\
  (forall r' s' a, (1 <= epochs cfg)%Z -> rat_train expf r s [] [] cfg d cd = Ret (r', s', a) -> exists n, getStats r' = Stats n S754_nan S754_nan).
Proof.
  intros expf r s cfg d cd HR Hi Ho. split; [intros; apply rat_empty_target; assumption|].
  intros r' s' a HE H. destruct (rat_empty expf r s cfg d cd r' s' a HR Hi Ho HE H) as [A B]. exists (flips r'). unfold getStats. rewrite A, B. reflexivity.
Qed.
(** What is true: it is not an error, and for no epochs nothing is changed. *)
Theorem C254_no_epochs_partial : forall expf p e s batch d cd r' s' a, reachable s -> 0 < hd O (sizes s) -> 0 < last (sizes s) O ->
  rat_train expf (rat_new p false e) s [] [] (mkConfig 0 batch) d cd = Ret (r', s', a) -> same_network s s' /\ flips r' = 0%Z /\ a = getStats r'.
Proof.
  intros expf p e s batch d cd r' s' a HR Hi Ho H. assert (HS : as_samples (hd O (sizes s)) (last (sizes s) O) [] [] []) by (repeat split; constructor).
  destruct (C252_analysis _ _ _ _ _ _ _ _ _ _ _ _ HR Hi Ho HS H) as (A & B & _). split; [exact A|]. split; [exact B|].
  exact (proj1 (C245_accepted _ _ _ _ _ _ _ _ _ _ _ _ HR Hi Ho HS H)).
Qed.
Example C254_nonvacuous : exists s', rat_train expo (trainer (slit 1 2) false) (built [2; 1] NONE_ one) [] [] (mkConfig 1 1) (fun _ => never) (fun _ => first_cell) =
  Ret (mkRat (slit 1 2) false EARTH 0 S754_nan S754_nan None, s', Stats 0 S754_nan S754_nan).
Proof.
  destruct (rseen (rat_train expo (trainer (slit 1 2) false) (built [2; 1] NONE_ one) [] [] (mkConfig 1 1) (fun _ => never) (fun _ => first_cell))
      (mkRat (slit 1 2) false EARTH 0 S754_nan S754_nan None) [([[one]; [one]], [0%N])] [([[one]; [one]], [0%N])] (Stats 0 S754_nan S754_nan)) as (s' & E & _); [vm_compute; reflexivity|].
  exists s'. exact E.
Qed.
Print Assumptions C254_empty_refuted.
Print Assumptions C254_no_epochs_partial.

(** ** C255 *)
Theorem C255_batches_partial : forall num batch, (0 <= num < 2 ^ 63)%Z -> (1 <= batch < 2 ^ 31)%Z -> epoch_order num batch = Ret (map Z.of_nat (seq 0 (Z.to_nat num))).
Proof. exact order_all. Qed.
(** Batch size 0 divides by zero; with a negative batch size every epoch trains nothing, without an error. *)
Theorem C255_bad_batch_refuted : forall num, epoch_order num 0 = UB UB_div_zero /\ (forall batch, (- 2 ^ 31 <= batch < 0)%Z -> (1 - batch <= num < 2 ^ 63)%Z -> epoch_order num batch = Ret []).
Proof. intros num. split; [apply order_zero|]. intros batch. apply order_negative. Qed.
Example C255_nonvacuous : epoch_order 5 2 = Ret [0; 1; 2; 3; 4]%Z /\ epoch_order 5 (-1) = Ret [] /\
  rat_train expo (trainer (slit 1 2) false) (built [2; 1] NONE_ one) [one; two] [one] (mkConfig 1 0) (fun _ => never) (fun _ => first_cell) = UB UB_div_zero.
Proof. split; [vm_compute; reflexivity|]. split; vm_compute; reflexivity. Qed.
Print Assumptions C255_batches_partial.
Print Assumptions C255_bad_batch_refuted.

(** ** C256 *)
Theorem C256_total : forall expf r s data labels samples cfg d cd r' s' a, reachable s -> 0 < hd O (sizes s) -> 0 < last (sizes s) O ->
  as_samples (hd O (sizes s)) (last (sizes s) O) samples data labels -> target r = false -> rat_train expf r s data labels cfg d cd = Ret (r', s', a) ->
  exists freq, frequency (prob r) = Ret freq /\ flips r' = (flips r + sum (map (fun e => hits r (d e) (mirror s)) (multiples (Z.to_nat (epochs cfg)) freq)))%Z /\
    a = Stats (flips r') (drop r') (recovery r').
Proof.
  intros expf r s data labels samples cfg d cd r' s' a HR Hi Ho HS HT H.
  destruct (rat_flips expf s samples (Inv_reachable _ HR) Hi Ho (proj2 (proj2 HS)) _ _ _ _ _ _ _ _ _ HS HT H) as (freq & F & E). exists freq. split; [exact F|]. split; [exact E|].
  exact (proj1 (C245_accepted _ _ _ _ _ _ _ _ _ _ _ _ HR Hi Ho HS H)).
Qed.
(** How often: every freq-th epoch, starting with the first, where freq is the largest whole number that is not above 1/p (in single precision), at least 1. *)
Theorem C256_frequency : forall p, oks p -> (bpow radix2 (-27) <= R p)%R -> exists freq, frequency p = Ret freq /\ freq = Z.max 1 (Zfloor (rnd32 (1 / R p))).
Proof. exact freq_value. Qed.
Example C256_nonvacuous : frequency (slit 1 2) = Ret 2%Z /\ multiples 4 2 = [0; 2] /\ hits (trainer (slit 1 2) false) always (mirror (built [2; 1] NONE_ one)) = 3%Z.
Proof. repeat split; vm_compute; reflexivity. Qed.
Print Assumptions C256_total.
Print Assumptions C256_frequency.

(** ** C257 *)
(** The environment class ranks SOLAR_FLARE above MARS and EARTH below EARTH_ORBIT; the injected flips go the other way. *)
Definition levels_below (e e' : senv) : Prop := flt (getRadiationLevel e) (getRadiationLevel e') = true /\ flt (getBitErrorRate e) (getBitErrorRate e') = true.
Theorem C257_ranking_refuted : exists d m, legal_idraw d /\
  levels_below MARS SOLAR_FLARE /\ (hits (rat_new (slit 1 2) false SOLAR_FLARE) d m < hits (rat_new (slit 1 2) false MARS) d m)%Z /\
  levels_below EARTH EARTH_ORBIT /\ (hits (rat_new (slit 1 2) false EARTH_ORBIT) d m < hits (rat_new (slit 1 2) false EARTH) d m)%Z.
Proof.
  exists (mkID (fun _ i _ => if Nat.eqb i 0 then (slit 3 8, 0%N) else (slit 7 8, 0%N)) (fun _ _ => (slit 99 100, 0%N))), [([[one]; [one]], [0%N])].
  split; [split; [intros l i j; cbn [wdr]; destruct (Nat.eqb i 0); repeat split; vm_compute; reflexivity|intros l j; repeat split; vm_compute; reflexivity]|].
  split; [split; vm_compute; reflexivity|]. split; [vm_compute; reflexivity|]. split; [split; vm_compute; reflexivity|]. vm_compute; reflexivity.
Qed.
(** What is true: along EARTH_ORBIT and ISS, EARTH, MARS, JUPITER, EXTREME the same answers of the generator hit at least the same values. *)
Definition milder (e e' : senv) : Prop := In (e, e') [(EARTH_ORBIT, ISS); (ISS, EARTH_ORBIT); (ISS, EARTH); (ISS, MARS); (EARTH_ORBIT, MARS); (EARTH, MARS); (MARS, JUPITER); (ISS, JUPITER); (JUPITER, EXTREME); (MARS, EXTREME); (DEEP_SPACE, JUPITER); (MOON, JUPITER); (SOLAR_FLARE, JUPITER)].
Theorem C257_milder_partial : forall p e e' d m, milder e e' -> oks p -> (0 <= R p <= 1)%R -> legal_idraw d ->
  (forall q, weight_hit (rat_new p false e) d q = true -> weight_hit (rat_new p false e') d q = true) /\
  (forall q, bias_hit (rat_new p false e) d q = true -> bias_hit (rat_new p false e') d q = true) /\ (hits (rat_new p false e) d m <= hits (rat_new p false e') d m)%Z.
Proof.
  intros p e e' d m HM HP HR HD. apply harsher; auto.
  cbn [env rat_new]. unfold milder in HM. cbn [In] in HM.
  repeat (destruct HM as [HM|HM]; [injection HM as <- <-; cbn [factorR]; lra|]). destruct HM.
Qed.
(** Setting probability, targeting and environment later is the same as constructing with them. *)
Theorem C257_settings : forall p t e p' t' e' l i j,
  let r := setEnvironment (setTargetCriticalWeights (setBitFlipProbability (rat_new p t e) p') t') e' in
  r = rat_new p' t' e' /\ chance r l i j = smul p' (env_factor e') /\ bias_chance r = smul (smul p' (env_factor e')) (slit 1 2).
Proof. intros. split; [reflexivity|]. split; [|reflexivity]. unfold r, chance. cbn. destruct t'; reflexivity. Qed.
Example C257_nonvacuous : let d := mkID (fun _ _ _ => (slit 7 8, 0%N)) (fun _ _ => (slit 3 8, 0%N)) in let m := [([[one]; [one]], [0%N])] in
  legal_idraw d /\ milder ISS MARS /\ hits (rat_new (slit 1 2) false ISS) d m = 0%Z /\ hits (rat_new (slit 1 2) false MARS) d m = 3%Z.
Proof.
  cbn zeta. split; [split; intros; repeat split; vm_compute; reflexivity|]. split; [unfold milder; cbn [In]; tauto|]. split; vm_compute; reflexivity.
Qed.
Print Assumptions C257_ranking_refuted.
Print Assumptions C257_milder_partial.
Print Assumptions C257_settings.
