(** C156-C170: the protected neural network (neural/protected_neural_network.hpp). *)
From Coq Require Import List NArith ZArith Bool Arith Lia Reals SpecFloat.
From Flocq Require Import Core.
From Flocq.IEEE754 Require Import BinarySingleNaN.
Import ListNotations.
From Verif Require Import Outcome Words Arith Floats Bits_Model MBP_Model MBP_Spec PNN_Model PNN_Spec PNN_Proofs PNN2_Proofs PNN3_Proofs PNN4_Proofs PNN5_Proofs PNN6_Proofs PNN7_Proofs.
Local Open Scope nat_scope.

(** Concrete networks: 1.0f is 3F800000, 2.0f is 40000000, 3.0f is 40400000. *)
Definition one : N := 1065353216.
Definition two : N := 1073741824.
Definition three : N := 1077936128.
Definition built (ls : list nat) (lv : plevel) (w : N) : pnn :=
  match pnn_new ls lv (fun _ _ _ => w) with Ret s => s | _ => mkPNN [] lv 0 [] [] [] [] (mkStats 0 0 0) end.
Definition quiet : nat -> nat -> act_draw := no_draws.
(* both copies of the activation are hit in bit 30 *)
Definition twins : nat -> nat -> act_draw := fun _ _ => mkAD (S754_zero false) 3 6 (S754_zero false) 3 6.
(* the copies are hit in different bits *)
Definition apart : nat -> nat -> act_draw := fun _ _ => mkAD (S754_zero false) 3 6 (S754_zero false) 0 1.
Definition half : sf := dlit 5 10.
(* what a call returned *)
Definition view {A} (o : outcome (A * pnn)) := match o with Ret (y, s) => Some (y, params s, mirror s, st s) | _ => None end.
Lemma seen {A} (o : outcome (A * pnn)) y p m t : view o = Some (y, p, m, t) -> exists s', o = Ret (y, s') /\ params s' = p /\ mirror s' = m /\ st s' = t.
Proof. destruct o as [[y' s']| | |]; cbn [view]; try discriminate. intros H; injection H as -> <- <- <-. exists s'; auto. Qed.
Definition view1 (o : outcome pnn) := match o with Ret s => Some (params s, mirror s, st s) | _ => None end.
Lemma seen1 (o : outcome pnn) p m t : view1 o = Some (p, m, t) -> exists s', o = Ret s' /\ params s' = p /\ mirror s' = m /\ st s' = t.
Proof. destruct o as [s'| | |]; cbn [view1]; try discriminate. intros H; injection H as <- <- <-. exists s'; auto. Qed.

Theorem C156_forward : forall s x rad d, reachable s -> no_vote s rad -> length x = hd O (sizes s) ->
  exists s', forward s x rad d = Ret (network (params s) (acts s) x, s') /\ same_network s s' /\ length (network (params s) (acts s) x) = last (sizes s) O.
Proof. exact forward_formula. Qed.
Theorem C156_wrong_size : forall s x rad d, length x <> hd O (sizes s) -> forward s x rad d = Throw E_invalid_argument.
Proof. exact forward_rejects. Qed.
(** The patterns the formula computes with are those of the IEEE results. *)
Theorem C156_patterns : forall x, valid_binary 24 128 x = true -> (bits32 x < 2 ^ 32)%N /\ sf32 (bits32 x) = x.
Proof. exact bits32_ok. Qed.
Example C156_nonvacuous :
  let s := built [2; 1] FULL_TMR two in
  reachable s /\ no_vote s (dlit 1 10) /\ network (params s) (acts s) [one; one] = [1082130432%N].
Proof.
  split; [exists [2; 1], FULL_TMR, (fun _ _ _ => two), (built [2; 1] FULL_TMR two), []; split; reflexivity|]. split; [right; reflexivity|]. vm_compute; reflexivity.
Qed.
Print Assumptions C156_forward.
Print Assumptions C156_wrong_size.
Print Assumptions C156_patterns.

Theorem C157_statistics : forall s, reachable s ->
  (detected (st s) = corrected (st s) + uncorrectable (st s))%N /\ (snd (getErrorStats s) <= fst (getErrorStats s))%N /\ getErrorStats (resetErrorStats s) = (0%N, 0%N).
Proof. exact stats_balanced. Qed.
Example C157_nonvacuous :
  exists s, run (built [1; 1] FULL_TMR one) [OForward [one] half twins; OForward [one] half apart] = Ret s /\ st s = mkStats 2 1 1.
Proof.
  destruct (seen1 (run (built [1; 1] FULL_TMR one) [OForward [one] half twins; OForward [one] half apart]) [([[one]], [0%N])] [([[one]], [0%N])] (mkStats 2 1 1)) as (s & E & _ & _ & T); [vm_compute; reflexivity|].
  exists s; auto.
Qed.
Print Assumptions C157_statistics.

(** The vote outvotes the right value when both copies are hit in the same bit, and counts that as a correction. *)
Lemma built_reachable ls lv w : pnn_new ls lv (fun _ _ _ => w) = Ret (built ls lv w) -> reachable (built ls lv w).
Proof. intros H. exists ls, lv, (fun _ _ _ => w), (built ls lv w), []. split; [exact H|reflexivity]. Qed.
Lemma relu_float : float_valued [relu].
Proof. intros f x [<-|[]]. unfold relu. destruct (fgt _ _); [apply N.mod_lt; discriminate|reflexivity]. Qed.
Theorem C158_vote_refuted :
  exists s x d s', reachable s /\ length x = hd O (sizes s) /\ float_valued (acts s) /\ (forall l i, legal_act (d l i)) /\ fle half (dofZ 1) = true /\
    network (params s) (acts s) x = [one] /\ forward s x half d = Ret ([2139095040%N], s') /\ getErrorStats s' = (1%N, 1%N).
Proof.
  destruct (seen (forward (built [1; 1] FULL_TMR one) [one] half twins) [2139095040%N] [([[one]], [0%N])] [([[one]], [0%N])] (mkStats 1 1 0)) as (s' & E & _ & _ & T); [vm_compute; reflexivity|].
  exists (built [1; 1] FULL_TMR one), [one], twins, s'. split; [apply built_reachable; reflexivity|].
  split; [reflexivity|]. split; [exact relu_float|]. split; [intros; repeat split|]. split; [reflexivity|]. split; [vm_compute; reflexivity|]. split; [exact E|].
  unfold getErrorStats; rewrite T; reflexivity.
Qed.
Theorem C158_vote_partial : forall s x rad d, reachable s -> (forall l i, legal_act (d l i)) -> no_collision rad d -> float_valued (acts s) -> length x = hd O (sizes s) ->
  exists s', forward s x rad d = Ret (network (params s) (acts s) x, s').
Proof. exact forward_voted. Qed.
Example C158_nonvacuous :
  let s := built [1; 1] FULL_TMR one in
  (forall l i, legal_act (apart l i)) /\ no_collision half apart /\ float_valued (acts s) /\
  exists s', forward s [one] half apart = Ret ([one], s') /\ st s' = mkStats 1 0 1.
Proof.
  split; [intros; repeat split|]. split; [intros l i _ _; discriminate|]. split; [exact relu_float|].
  destruct (seen (forward (built [1; 1] FULL_TMR one) [one] half apart) [one] [([[one]], [0%N])] [([[one]], [0%N])] (mkStats 1 0 1)) as (s' & E & _ & _ & T); [vm_compute; reflexivity|].
  exists s'; auto.
Qed.
Print Assumptions C158_vote_refuted.
Print Assumptions C158_vote_partial.

(** No protection level notices a weight hit in memory: 1.0 becomes 2.0. *)
Theorem C159_struck_weight_refuted : forall lv, exists s s' s'' x,
  reachable s /\ lvl s = lv /\ raw_setWeight s 0 0 0 two = Ret s' /\ network (params s) (acts s) x = [one] /\
  forward s' x (dofZ 0) quiet = Ret ([two], s'') /\ getErrorStats s'' = (0%N, 0%N).
Proof.
  intros lv. set (s := built [1; 1] lv one). set (s' := with_w s [[[mkmb two NONE ecc_new true]]]).
  destruct (seen (forward s' [one] (dofZ 0) quiet) [two] [([[two]], [0%N])] [([[one]], [0%N])] (mkStats 0 0 0)) as (s'' & E & _ & _ & T); [destruct lv; vm_compute; reflexivity|].
  exists s, s', s'', [one]. split; [apply built_reachable; reflexivity|]. split; [reflexivity|]. split; [reflexivity|]. split; [vm_compute; reflexivity|]. split; [exact E|].
  unfold getErrorStats; rewrite T; reflexivity.
Qed.
Theorem C159_struck_weight_partial : forall s l i j v s' x rad d, reachable s -> raw_setWeight s l i j v = Ret s' -> no_vote s rad -> length x = hd O (sizes s) ->
  weight_at s' l i j = Some v /\ (forall l' i' j', (l', i', j') <> (l, i, j) -> weight_at s' l' i' j' = weight_at s l' i' j') /\ bss s' = bss s /\
  exists s'', forward s' x rad d = Ret (network (params s') (acts s) x, s'') /\ getErrorStats s'' = getErrorStats s.
Proof. exact strike_confined. Qed.
Example C159_nonvacuous : let s := built [1; 1] FULL_TMR one in
  reachable s /\ raw_setWeight s 0 0 0 two = Ret (with_w s [[[mkmb two NONE ecc_new true]]]) /\ no_vote s (dofZ 0).
Proof. split; [apply built_reachable; reflexivity|]. split; [reflexivity|]. right; reflexivity. Qed.
Print Assumptions C159_struck_weight_refuted.
Print Assumptions C159_struck_weight_partial.

Theorem C160_radiation_confined : forall s rad ws bs s', reachable s -> applyRadiationEffects s rad ws bs = Ret s' ->
  (sizes s' = sizes s /\ lvl s' = lvl s /\ counter s' = counter s /\ acts s' = acts s /\ mirror s' = mirror s /\ st s' = st s) /\
  (fle rad (dofZ 0) = true -> s' = s) /\
  (fle rad (dofZ 0) = false -> exists n, to_size (dmul rad (dofZ 50)) = Ret n /\
     (forall l i j, ~ drawn_weight (firstn (N.to_nat n) ws) l i j -> weight_at s' l i j = weight_at s l i j) /\
     (forall l j, ~ drawn_bias (firstn (N.to_nat (n / 5)) bs) l j -> bias_at s' l j = bias_at s l j) /\
     (lvl s = NONE_ \/ lvl s = CHECKSUM_ONLY -> bss s' = bss s)).
Proof. intros s rad ws bs s' HR. exact (radiation_confined s rad ws bs s' (Inv_reachable s HR)). Qed.
Theorem C160_radiation_returns : forall s rad ws bs, reachable s -> valid_binary 53 1024 rad = true -> fle rad (dofZ 1) = true -> Forall (legal_wdraw s) ws -> Forall (legal_bdraw s) bs ->
  exists s', applyRadiationEffects s rad ws bs = Ret s'.
Proof. intros s rad ws bs HR. exact (radiation_done s rad ws bs (Inv_reachable s HR)). Qed.
Definition hit00 : wdraw := mkWD 0 0 0 SINGLE_BIT (dofZ 1) (mko (fun _ => S754_zero false) (fun _ => 30%N) (fun _ => 0%N)) 3 6.
Example C160_nonvacuous : let s := built [1; 2] FULL_TMR one in
  legal_wdraw s hit00 /\ to_size (dmul (dlit 2 100) (dofZ 50)) = Ret 1%N /\
  exists s', applyRadiationEffects s (dlit 2 100) [hit00] [] = Ret s' /\ params s' = [([[2139095040%N; one]], [0%N; 0%N])].
Proof.
  split; [repeat split; try (vm_compute; reflexivity); cbn; try lia; discriminate|]. split; [vm_compute; reflexivity|].
  destruct (seen1 (applyRadiationEffects (built [1; 2] FULL_TMR one) (dlit 2 100) [hit00] []) [([[2139095040%N; one]], [0%N; 0%N])] [([[one; one]], [0%N; 0%N])] (mkStats 0 0 0)) as (s' & E & P & _); [vm_compute; reflexivity|].
  exists s'; auto.
Qed.
Print Assumptions C160_radiation_confined.
Print Assumptions C160_radiation_returns.

(** The repair at the end of applyRadiationEffects undoes nothing: 1.0 becomes infinity and stays so. *)
Theorem C161_repair_refuted : forall lv, lv = FULL_TMR \/ lv = ADAPTIVE_TMR -> exists s ws s' s'',
  reachable s /\ lvl s = lv /\ Forall (legal_wdraw s) ws /\ applyRadiationEffects s (dlit 2 100) ws [] = Ret s' /\
  network (params s) (acts s) [one] = [one] /\ forward s' [one] (dofZ 0) quiet = Ret ([2139095040%N], s'') /\ getErrorStats s'' = (0%N, 0%N).
Proof.
  intros lv Hlv. set (s := built [1; 1] lv one).
  destruct (seen1 (applyRadiationEffects s (dlit 2 100) [hit00] []) [([[2139095040%N]], [0%N])] [([[one]], [0%N])] (mkStats 0 0 0)) as (s' & E & P & M & T); [destruct Hlv as [-> | ->]; vm_compute; reflexivity|].
  assert (HR : reachable s') by (exists [1; 1], lv, (fun _ _ _ => one), s, [ORadiation (dlit 2 100) [hit00] []]; split; [reflexivity|]; cbn [run step]; rewrite E; reflexivity).
  destruct (C160_radiation_confined s (dlit 2 100) [hit00] [] s' (built_reachable [1; 1] lv one eq_refl) E) as ((A1 & A2 & A3 & A4 & A5 & A6) & _).
  destruct (C156_forward s' [one] (dofZ 0) quiet HR (or_intror eq_refl)) as (s'' & F & (_ & _ & _ & _ & _ & _ & T2) & _); [rewrite A1; reflexivity|].
  exists s, [hit00], s', s''. split; [apply built_reachable; reflexivity|]. split; [reflexivity|].
  split; [constructor; [|constructor]; repeat split; try (vm_compute; reflexivity); cbn; try lia; discriminate|]. split; [exact E|].
  split; [vm_compute; reflexivity|]. split; [rewrite F, P, A4; f_equal; f_equal; vm_compute; reflexivity|].
  unfold getErrorStats. rewrite T2, T. reflexivity.
Qed.
Theorem C161_repair_partial : forall s, reachable s -> repairAllWeights s = s.
Proof. exact repair_harmless. Qed.
Print Assumptions C161_repair_refuted.
Print Assumptions C161_repair_partial.

Theorem C162_set_weights : forall s l m, tidy s -> l < length (wts s) -> matrix (nth l (sizes s) O) (nth (S l) (sizes s) O) m ->
  exists s', setLayerWeights s l m = Ret (s', None) /\ params s' = upd (params s) l (fun p => (m, snd p)) /\ mirror s' = upd (mirror s) l (fun p => (m, snd p)) /\ same_rest s s'.
Proof. exact weights_set. Qed.
Lemma built_tidy ls lv w : pnn_new ls lv (fun _ _ _ => w) = Ret (built ls lv w) -> tidy (built ls lv w).
Proof. intros H. exists ls, lv, (fun _ _ _ => w), (built ls lv w), []. split; [exact H|]. split; [constructor|reflexivity]. Qed.
Example C162_nonvacuous : let s := built [2; 1; 1] NONE_ one in
  tidy s /\ matrix 2 1 [[two]; [three]] /\ params s = [([[one]; [one]], [0%N]); ([[one]], [0%N])].
Proof. split; [apply built_tidy; reflexivity|]. split; [split; [reflexivity|repeat constructor]|]. vm_compute; reflexivity. Qed.
Print Assumptions C162_set_weights.

(** A matrix whose second row is too long is refused after the first row has been set. *)
Theorem C163_set_weights_atomic_refuted : exists s m s', tidy s /\ setLayerWeights s 0 m = Ret (s', Some E_invalid_argument) /\
  network (params s) (acts s) [one; one] = [two] /\ network (params s') (acts s') [one; one] = [three].
Proof.
  set (s := built [2; 1] NONE_ one). set (s' := with_mirror (with_w s [[[mkmb two NONE ecc_new true]; [mkmb one NONE ecc_new true]]]) [([[two]; [one]], [0%N])]).
  exists s, [[two]; [two; two]], s'.
  split; [apply built_tidy; reflexivity|]. split; [reflexivity|]. split; vm_compute; reflexivity.
Qed.
Theorem C163_set_weights_atomic_partial : forall s l m, tidy s -> ~ (l < length (wts s) /\ matrix (nth l (sizes s) O) (nth (S l) (sizes s) O) m) ->
  exists s' e k, setLayerWeights s l m = Ret (s', Some e) /\ same_rest s s' /\
    params s' = upd (params s) l (fun p => (firstn k m ++ skipn k (fst p), snd p)) /\
    (length (wts s) <= l -> e = E_out_of_range /\ s' = s) /\
    (l < length (wts s) -> e = E_invalid_argument) /\
    (l < length (wts s) -> length m <> nth l (sizes s) O -> s' = s) /\
    (l < length (wts s) -> length m = nth l (sizes s) O -> exists r, nth_error m k = Some r /\ length r <> nth (S l) (sizes s) O /\ Forall (fun r => length r = nth (S l) (sizes s) O) (firstn k m)).
Proof. exact weights_rejected. Qed.
Example C163_nonvacuous : tidy (built [2; 1] NONE_ one) /\ ~ (0 < 1 /\ matrix 2 1 [[two]; [two; two]]).
Proof. split; [apply built_tidy; reflexivity|]. intros (_ & _ & F). inversion F as [|? ? _ F' Q]. inversion F' as [|? ? X Y Z]. discriminate X. Qed.
Print Assumptions C163_set_weights_atomic_refuted.
Print Assumptions C163_set_weights_atomic_partial.

Theorem C164_set_biases : forall s l b, tidy s ->
  exists s' e, setLayerBiases s l b = Ret (s', e) /\ same_rest s s' /\
    (length (bss s) <= l -> e = Some E_out_of_range /\ s' = s) /\
    (l < length (bss s) -> length b <> nth (S l) (sizes s) O -> e = Some E_invalid_argument /\ s' = s) /\
    (l < length (bss s) -> length b = nth (S l) (sizes s) O -> e = None /\ params s' = upd (params s) l (fun p => (fst p, b)) /\ mirror s' = upd (mirror s) l (fun p => (fst p, b))).
Proof. exact biases_set. Qed.
Example C164_nonvacuous : setLayerBiases (built [1; 1] NONE_ one) 0 [two] =
  Ret (with_mirror (with_b (built [1; 1] NONE_ one) [[mkmb two NONE ecc_new true]]) [([[one]], [two])], None).
Proof. reflexivity. Qed.
Print Assumptions C164_set_biases.

Theorem C165_layer_copies : forall s, plainly_used s -> mirror s = params s.
Proof. exact plainly_mirror. Qed.
Example C165_nonvacuous : plainly_used (with_mirror (with_b (built [1; 1] NONE_ one) [[mkmb two NONE ecc_new true]]) [([[one]], [two])]).
Proof.
  exists [1; 1], NONE_, (fun _ _ _ => one), (built [1; 1] NONE_ one), [OBiases 0 [two]].
  split; [reflexivity|]. split; [repeat constructor|]. reflexivity.
Qed.
Print Assumptions C165_layer_copies.

(** What is written through getLayers() never reaches the network, and after radiation the copies show the old weights. *)
Theorem C166_layer_edits_refuted :
  (forall s m s', step s (OLayers m) = Ret s' -> params s' = params s /\ mirror s' = m) /\
  (exists s s', reachable s /\ mirror s = params s /\ applyRadiationEffects s (dlit 2 100) [hit00] [] = Ret s' /\ mirror s' = params s /\ params s' <> params s).
Proof.
  split; [intros s m s' H; injection H as <-; split; reflexivity|].
  destruct (seen1 (applyRadiationEffects (built [1; 1] NONE_ one) (dlit 2 100) [hit00] []) [([[2139095040%N]], [0%N])] [([[one]], [0%N])] (mkStats 0 0 0)) as (s' & E & P & M & T); [vm_compute; reflexivity|].
  exists (built [1; 1] NONE_ one), s'. split; [apply built_reachable; reflexivity|].
  split; [reflexivity|]. split; [exact E|]. split; [exact M|]. rewrite P. discriminate.
Qed.
Print Assumptions C166_layer_edits_refuted.

(** train() never changes a weight, a bias or an activation function. *)
Theorem C167_training_refuted : forall s data labels e r, reachable s -> train s data labels e 0%N = Ret r ->
  params (snd r) = params s /\ acts (snd r) = acts s /\ mirror (snd r) = mirror s.
Proof. exact train_idle. Qed.
Theorem C167_training_partial : forall s data labels samples e, reachable s -> 0 < hd O (sizes s) -> samples_of (hd O (sizes s)) (last (sizes s) O) samples data labels ->
  exists s', train s data labels e 0%N = Ret (match e with O => 0%N | S _ => mean_squared_error (network (params s) (acts s)) samples end, s') /\ same_network s s'.
Proof. exact train_loss. Qed.
Example C167_nonvacuous : let s := built [2; 1] NONE_ one in
  reachable s /\ samples_of 2 1 [([one; one], [one]); ([two; one], [three])] [one; one; two; one] [one; three] /\
  mean_squared_error (network (params s) (acts s)) [([one; one], [one]); ([two; one], [three])] = 1056964608%N.
Proof.
  split; [apply built_reachable; reflexivity|]. split; [|vm_compute; reflexivity]. split; [reflexivity|]. split; [reflexivity|]. split; [discriminate|]. repeat constructor.
Qed.
Print Assumptions C167_training_refuted.
Print Assumptions C167_training_partial.

(** evaluate() is 1 - MSE, here 1 - 4 = -3 (C0400000). *)
Theorem C168_accuracy_refuted : exists s s', reachable s /\ samples_of 1 1 [([two], [0%N])] [two] [0%N] /\ evaluate s [two] [0%N] = Ret (3225419776%N, s') /\
  flt (sf32 3225419776) (S754_zero false) = true.
Proof.
  destruct (seen (evaluate (built [1; 1] NONE_ one) [two] [0%N]) 3225419776%N [([[one]], [0%N])] [([[one]], [0%N])] (mkStats 0 0 0)) as (s' & E & _); [vm_compute; reflexivity|].
  exists (built [1; 1] NONE_ one), s'. split; [apply built_reachable; reflexivity|].
  split; [split; [reflexivity|]; split; [reflexivity|]; split; [discriminate|]; repeat constructor|]. split; [exact E|vm_compute; reflexivity].
Qed.
Theorem C168_accuracy_partial : forall s data labels samples, reachable s -> 0 < hd O (sizes s) -> samples_of (hd O (sizes s)) (last (sizes s) O) samples data labels ->
  exists s', evaluate s data labels = Ret (f32sub (f32ofN 1) (mean_squared_error (network (params s) (acts s)) samples), s') /\ same_network s s'.
Proof. exact evaluate_exact. Qed.
Example C168_nonvacuous : exists s', evaluate (built [1; 1] NONE_ one) [one; two] [one; two] = Ret (one, s').
Proof. destruct (seen (evaluate (built [1; 1] NONE_ one) [one; two] [one; two]) one [([[one]], [0%N])] [([[one]], [0%N])] (mkStats 0 0 0)) as (s' & E & _); [vm_compute; reflexivity|]. exists s'; exact E. Qed.
Print Assumptions C168_accuracy_refuted.
Print Assumptions C168_accuracy_partial.

Theorem C169_construction : forall ls lv init, (forall k, S k < length ls -> 0 < nth k ls O + nth (S k) ls O) -> 2 <= length ls ->
  exists s, pnn_new ls lv init = Ret s /\ sizes s = ls /\ lvl s = lv /\ length (wts s) = length ls - 1 /\
    (forall l i j, S l < length ls -> i < nth l ls O -> j < nth (S l) ls O -> weight_at s l i j = Some (init l i j)) /\
    (forall l j, S l < length ls -> j < nth (S l) ls O -> bias_at s l j = Some 0%N) /\
    acts s = repeat relu (length ls - 1) /\ st s = mkStats 0 0 0 /\ mirror s = params s.
Proof. exact new_exact. Qed.
Theorem C169_too_few_layers : forall ls lv init, length ls < 2 -> pnn_new ls lv init = Throw E_invalid_argument.
Proof. intros ls lv init H. unfold pnn_new. apply Nat.ltb_lt in H; rewrite H; reflexivity. Qed.
Theorem C169_relu : forall x, (x < 2 ^ 32)%N -> is_finite_SF (sf32 x) = true -> SF2R radix2 (sf32 (relu x)) = Rmax 0 (SF2R radix2 (sf32 x)).
Proof. exact relu_max. Qed.
Theorem C169_activation_function : forall s l f, reachable s ->
  (l < length (sizes s) - 1 -> exists s', setActivationFunction s l f = Ret s' /\ acts s' = upd (acts s) l (fun _ => f) /\ nth_error (acts s') l = Some f /\
     params s' = params s /\ mirror s' = mirror s /\ sizes s' = sizes s /\ lvl s' = lvl s /\ st s' = st s /\ counter s' = counter s) /\
  (length (sizes s) - 1 <= l -> setActivationFunction s l f = Throw E_out_of_range).
Proof. exact activation_set. Qed.
Example C169_nonvacuous : (forall k, S k < length [2; 1] -> 0 < nth k [2; 1] O + nth (S k) [2; 1] O) /\ weight_at (built [2; 1] NONE_ three) 0 1 0 = Some three.
Proof. split; [|vm_compute; reflexivity]. intros [|[|k]] H; cbn in *; lia. Qed.
Print Assumptions C169_construction.
Print Assumptions C169_too_few_layers.
Print Assumptions C169_relu.
Print Assumptions C169_activation_function.

Theorem C170_inference_harmless : forall s x rad d, reachable s -> length x = hd O (sizes s) ->
  exists y s', forward s x rad d = Ret (y, s') /\ length y = last (sizes s) O /\ wts s' = wts s /\ bss s' = bss s /\ acts s' = acts s /\ mirror s' = mirror s /\ sizes s' = sizes s /\ lvl s' = lvl s.
Proof. exact forward_harmless. Qed.
Example C170_nonvacuous : let s := built [1; 1] FULL_TMR one in exists s', forward s [one] half twins = Ret ([2139095040%N], s') /\ params s' = params s.
Proof.
  destruct (seen (forward (built [1; 1] FULL_TMR one) [one] half twins) [2139095040%N] [([[one]], [0%N])] [([[one]], [0%N])] (mkStats 1 1 0)) as (s' & E & P & _); [vm_compute; reflexivity|].
  exists s'. split; [exact E|]. rewrite P. reflexivity.
Qed.
Print Assumptions C170_inference_harmless.
