(** Properties C27-C31, C64. *)
From Coq Require Import List NArith ZArith Bool Lia.
Import ListNotations.
From Verif Require Import Outcome Words Arith Floats Health_Model Stuck_Model Stuck_Spec Stuck_Proofs StuckHist_Proofs.
From Verif Require Import Approx_Model Approx_Spec Approx_Proofs.
Local Open Scope N_scope.

(** C27 *)
Theorem C27_integral : forall w s v k u, (k < 3)%nat -> fst (st_get w (st_corrupt k u (st_set v s))) = v.
Proof. exact st_one_corrupt. Qed.
Print Assumptions C27_integral.
Theorem C27_float_double : forall t v k u, (k < 3)%nat -> eqT t v v = true ->
  let r := sf_get t (sf_corrupt k u (sf_set v)) in eqT t r v = true /\ (r = v \/ r = u).
Proof. exact sf_one_corrupt. Qed.
Print Assumptions C27_float_double.
Example C27_nonvacuous : fst (st_get 32 (st_corrupt 1 7 (st_set 5 (st_construct 0)))) = 5 /\
  eqT F32 0x3F800000 0x3F800000 = true.
Proof. split; reflexivity. Qed.

(** C28: what repair() does to the hit copy, exactly; the full claim fails as soon as the upset sets a
    bit, and then a later upset in another copy is returned as the value *)
Theorem C28_repair_result_partial : forall w s v k u, (k < 3)%nat -> v < 2 ^ w -> u < 2 ^ w ->
  let s' := st_repair w (st_corrupt k u (st_set v s)) in
  (forall i, (i < 3)%nat -> sc (ssel s' i) = if (i =? k)%nat then N.lor v u else v) /\ pot s' = 0.
Proof. exact st_repair_one. Qed.
Print Assumptions C28_repair_result_partial.
Theorem C28_restored_iff_no_bit_set_partial : forall w s v k u, (k < 3)%nat -> v < 2 ^ w -> u < 2 ^ w ->
  (sc (ssel (st_repair w (st_corrupt k u (st_set v s))) k) = v <-> N.ldiff u v = 0).
Proof. exact st_repair_iff. Qed.
Print Assumptions C28_restored_iff_no_bit_set_partial.
Theorem C28_second_upset_wins_refuted : forall w s v u, v < 2 ^ w -> u < 2 ^ w -> N.ldiff u v <> 0 ->
  let r := fst (st_get w (st_corrupt 0 (N.lor v u) (st_repair w (st_corrupt 2 u (st_set v s))))) in
  r = N.lor v u /\ r <> v.
Proof. exact st_second_upset. Qed.
Print Assumptions C28_second_upset_wins_refuted.
Theorem C28_float_double_restored : forall t s v, eqT t (sf_get t s) v = true ->
  let s' := sf_repair t s in eqT t (f0 s') v = true /\ eqT t (f1 s') v = true /\ eqT t (f2 s') v = true.
Proof. exact sf_repaired. Qed.
Print Assumptions C28_float_double_restored.
Example C28_nonvacuous : 4 < 2 ^ 8 /\ 5 < 2 ^ 8 /\ N.ldiff 5 4 <> 0.
Proof. repeat split. discriminate. Qed.

(** C29 *)
Theorem C29_stuck_at_1_partial : forall w k v b n s x y z,
  (k < 3)%nat -> v < 2 ^ w -> b < w -> N.testbit v b = false -> (3 <= n)%nat ->
  (x =? y) && (y =? z) = false ->
  let s' := repairs w k b true n (stick k b true (st_set v s)) in
  N.testbit (pot s') b = true /\ N.testbit (smask (ssel s' k)) b = true /\ fst (st_get w s') = v /\
  forall i j, (i < 3)%nat -> (j < 3)%nat -> i <> k -> j <> k -> i <> j ->
  N.testbit (fst (st_get w (contents s' x y z))) b = N.testbit (Stuck_Spec.at_ x y z i) b && N.testbit (Stuck_Spec.at_ x y z j) b.
Proof. exact stuck1_excluded. Qed.
Print Assumptions C29_stuck_at_1_partial.
Theorem C29_stuck_at_0_refuted : forall w k v b n s i,
  (k < 3)%nat -> (i < 3)%nat -> i <> k -> v < 2 ^ w -> b < w -> N.testbit v b = true ->
  let s' := repairs w k b false n (stick k b false (st_set v s)) in
  smask (ssel s' k) = 0 /\ fst (st_get w s') = v /\
  fst (st_get w (st_corrupt i (N.clearbit v b) s')) = N.clearbit v b /\ N.clearbit v b <> v.
Proof. exact stuck0_votes. Qed.
Print Assumptions C29_stuck_at_0_refuted.
(* until set() is called, repair() never turns one deviating copy into a wrong result *)
Theorem C29_vote_stays_correct : forall w k v x s, (k < 3)%nat -> v < 2 ^ w -> one_dev k v x s ->
  fst (st_get w s) = v.
Proof. exact dev_get. Qed.
Print Assumptions C29_vote_stays_correct.
Example C29_nonvacuous : N.testbit 5 1 = false /\ N.testbit 5 2 = true /\
  pot (repairs 8 1 1 true 3 (stick 1 1 true (st_set 5 (st_construct 0)))) = 2.
Proof. vm_compute. repeat split. Qed.

Local Open Scope Z_scope.
(** C30 *)
Theorem C30_integers_exact_partial : forall t v, in_range t v -> read t (stored t v) = v.
Proof. exact approx_exact. Qed.
Print Assumptions C30_integers_exact_partial.
Theorem C30_bool_refuted :
  at_get Bool.eqb default_cfg (at_set breduce blimitRange (fun _ => 0%N) default_cfg true) = false.
Proof. exact bool_wrong. Qed.
Print Assumptions C30_bool_refuted.
Theorem C30_float_refuted :
  at_get (eqT F32) default_cfg (at_set freduce (flimitRange F32) (fcrc F32) default_cfg 0x49742401%N) = 0x49742400%N.
Proof. exact float_wrong. Qed.
Print Assumptions C30_float_refuted.
Theorem C30_float_exact_partial : forall t v, is_int t = false -> eqT t v v = true ->
  eqT t (freduce v) (flimitRange t v) = false \/ eqT t v (flimitRange t v) = true \/ eqT t v (freduce v) = true ->
  at_get (eqT t) default_cfg (at_set freduce (flimitRange t) (fcrc t) default_cfg v) = v.
Proof. exact float_exact. Qed.
Print Assumptions C30_float_exact_partial.
Example C30_nonvacuous : in_range (mki 32 true) (-2147483648) /\ in_range (mki 8 false) 255.
Proof. unfold in_range, int_types. cbn. split; (split; [intuition|lia]). Qed.

(** C31 *)
Theorem C31_exact_copy_refuted : forall t v, in_range t v ->
  ((forall u, read t (at_corrupt 0 u (stored t v)) = u) <-> ireduce t v <> ilimitRange t v).
Proof. exact exact_unmasked_iff. Qed.
Print Assumptions C31_exact_copy_refuted.
Theorem C31_unsigned_never_masked_refuted : forall t v u, in_range t v -> isg t = false ->
  read t (at_corrupt 0 u (stored t v)) = u.
Proof. exact unsigned_unmasked. Qed.
Print Assumptions C31_unsigned_never_masked_refuted.
Theorem C31_other_copies_partial : forall t v u k, k = 1%nat \/ k = 2%nat ->
  let r := read t (at_corrupt k u (stored t v)) in r = v \/ r = ireduce t v \/ r = ilimitRange t v.
Proof. exact corrupt_other. Qed.
Print Assumptions C31_other_copies_partial.
Theorem C31_approximation_error_partial : forall t v, in_range t v -> ireduce t v = v - v mod step t.
Proof. exact ireduce_floor. Qed.
Print Assumptions C31_approximation_error_partial.
Theorem C31_signed_multiples_masked_partial : forall t v u, in_range t v -> isg t = true ->
  v mod step t = 0 -> Z.abs v < 2 ^ (iw t - 2) -> read t (at_corrupt 0 u (stored t v)) = v.
Proof. exact signed_masked. Qed.
Print Assumptions C31_signed_multiples_masked_partial.
Theorem C31_all_exact_config_masks : forall t c v k u, y0 c = EXACT -> y1 c = EXACT -> y2 c = EXACT -> (k < 3)%nat ->
  at_get Z.eqb c (at_corrupt k u (at_set (ireduce t) (ilimitRange t) (icrc t) c v)) = v.
Proof. exact two_exact. Qed.
Print Assumptions C31_all_exact_config_masks.
Example C31_nonvacuous : in_range (mki 32 true) 13 /\ ireduce (mki 32 true) 13 = 8 /\ ilimitRange (mki 32 true) 13 = 13.
Proof. unfold in_range, int_types. cbn. split; [split; [intuition|lia]|split; reflexivity]. Qed.

(** C64 *)
Theorem C64_unsigned_constant_refuted : forall t v, in_range t v -> isg t = false ->
  ilimitRange t v = 2 ^ (iw t - 1) + 1.
Proof. exact ilimit_unsigned_const. Qed.
Print Assumptions C64_unsigned_constant_refuted.
Theorem C64_signed_clamp_partial : forall t v, in_range t v -> isg t = true ->
  ilimitRange t v = Z.max (- (2 ^ (iw t - 2) - 1)) (Z.min v (2 ^ (iw t - 2) - 1)).
Proof. exact ilimit_signed. Qed.
Print Assumptions C64_signed_clamp_partial.
Example C64_nonvacuous : in_range (mki 32 false) 5 /\ ilimitRange (mki 32 false) 5 = 2147483649.
Proof. unfold in_range, int_types. cbn. split; [split; [intuition|lia]|reflexivity]. Qed.
