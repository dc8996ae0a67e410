(** Properties C32-C34, C65, C66. *)
From Coq Require Import List NArith ZArith Bool Lia.
Import ListNotations.
From Verif Require Import Outcome Words Arith Floats Health_Model Health_Spec Stuck_Model Stuck_Spec Temporal_Model Temporal_Spec Temporal_Proofs Hybrid_Proofs.

(** C32: [op] is the (possibly faulty, stateful) operation; [P] the results on which operator< is a strict
    weak order, e.g. everything but NaN *)
Theorem C32_vote : forall V S (lt : V -> V -> bool) P (op : S -> V * S) n s, ordered lt P -> (1 <= n)%nat ->
  let l := fst (run_n op n s) in Forall P l ->
  exists r, execute lt n op s = Ret (r, snd (run_n op n s)) /\ In r l /\
  (forall x, In x l -> (occurrences lt x l <= occurrences lt r l)%nat) /\
  (forall x, In x l -> occurrences lt x l = occurrences lt r l -> lt x r = false) /\
  (forall v, P v -> (n < 2 * occurrences lt v l)%nat -> same lt r v = true).
Proof. exact @execute_spec. Qed.
Print Assumptions C32_vote.
Theorem C32_applies_to_arithmetic_types : forall sg t, ordered (ltK sg t) (fun x => is_nan t x = false).
Proof. exact ltK_ordered. Qed.
Print Assumptions C32_applies_to_arithmetic_types.
Theorem C32_zero_executions_refuted : forall V S (lt : V -> V -> bool) (op : S -> V * S) s,
  execute lt 0 op s = UB UB_deref_end.
Proof. exact @execute_zero. Qed.
Print Assumptions C32_zero_executions_refuted.
Example C32_nonvacuous : exists s, execute Nat.ltb 5 (fun i => (nth i [7;3;3;9;3] 0, S i))%nat 0%nat = Ret (3%nat, s).
Proof. eexists. reflexivity. Qed.

(** C33 *)
Theorem C33_checkpoints : forall T mx iv t0 (l : list (T * N * Z)),
  let c := requests l (cm_new mx iv t0) in
  let kept := lastn mx (accepted iv t0 l) in
  (length (cps c) <= mx)%nat /\
  map (fun x => (data x, version x, stamp x)) (cps c) = kept /\
  getLatestCheckpoint c = option_map (fun '(d, v, now) => d) (newest kept) /\
  (forall ver, rollbackToVersion ver c = option_map (fun '(d, v, now) => d) (find (fun '(d, v, now) => N.eqb v ver) (rev kept))) /\
  (forall ok, rollbackToValid ok c = option_map (fun '(d, v, now) => d) (find (fun '(d, v, now) => ok d) (rev kept))).
Proof. exact @cm_queries. Qed.
Print Assumptions C33_checkpoints.
Example C33_nonvacuous :
  accepted 10 0 [(1, 1%N, 5%Z); (2, 2%N, 10%Z); (3, 3%N, 15%Z); (4, 4%N, 20%Z); (5, 5%N, 31%Z)] =
    [(2, 2%N, 10%Z); (4, 4%N, 20%Z); (5, 5%N, 31%Z)] /\
  getLatestCheckpoint (requests [(1, 1%N, 5%Z); (2, 2%N, 10%Z); (3, 3%N, 15%Z)] (cm_new 2 10 0)) = Some 2.
Proof. split; reflexivity. Qed.

(** C34 *)
Theorem C34_second_set_lost_refuted : forall t v0 v1 v2 t0 t1 t2,
  (30 * second <= t1 - t0)%Z -> (t2 - t1 < 30 * second)%Z ->
  let '(ok, h') := hy_rollback (hy_set t v2 t2 (hy_set t v1 t1 (hy_new v0 t0))) in
  ok = true /\ fst (st_get (width t) (tmr h')) = v1.
Proof. exact rollback_two_sets. Qed.
Print Assumptions C34_second_set_lost_refuted.
Theorem C34_first_set_lost_refuted : forall t v0 v t0 now, (now - t0 < 30 * second)%Z ->
  fst (hy_rollback (hy_set t v now (hy_new v0 t0))) = false.
Proof. exact first_set_lost. Qed.
Print Assumptions C34_first_set_lost_refuted.
Theorem C34_spaced_sets_partial : forall t v0 t0 l v, spaced (30 * second) t0 (set_times l) -> newest (set_values l) = Some v ->
  let '(ok, h') := hy_rollback (fold_left (ystep t) l (hy_new v0 t0)) in
  ok = true /\ fst (st_get (width t) (tmr h')) = v.
Proof. exact rollback_spaced. Qed.
Print Assumptions C34_spaced_sets_partial.
Example C34_nonvacuous : spaced (30 * second) 0 (set_times [YSet 3 (30 * second); YUpset 1 7; YSet 4 (61 * second)]) /\
  newest (set_values [YSet 3 (30 * second); YUpset 1 7; YSet 4 (61 * second)]) = Some 4%N.
Proof. cbn. repeat split; lia. Qed.

(** C65: HybridRedundancy::repair() *)
Theorem C65_repair_always_reports_success_partial : forall sg t h, is_int t = true -> (1 <= nexec h)%nat ->
  exists h', hy_repair sg t (fun _ s => s) h = Ret (true, h') /\
  forall i, sc (ssel (tmr h') i) = sc (ssel (st_repair (width t) (tmr h)) i).
Proof. exact hy_repair_state. Qed.
Print Assumptions C65_repair_always_reports_success_partial.
Theorem C65_copies_still_differ_refuted : forall sg t h v u, is_int t = true -> (1 <= nexec h)%nat ->
  valid t v -> valid t u -> N.ldiff u v <> 0%N ->
  exists h', hy_repair sg t (fun _ s => s) (with_tmr h (st_corrupt 2 u (st_set v (tmr h)))) = Ret (true, h') /\
    sc (ssel (tmr h') 0) = v /\ sc (ssel (tmr h') 2) = N.lor v u /\ N.lor v u <> v.
Proof. exact hy_repair_lies. Qed.
Print Assumptions C65_copies_still_differ_refuted.
Example C65_nonvacuous : (1 <= nexec (hy_new 0 0))%nat /\ valid I32 4 /\ valid I32 5 /\ N.ldiff 5 4 <> 0%N.
Proof. repeat split; try discriminate. cbn. lia. Qed.

(** C66: get() with faults striking between the executions *)
Theorem C66_get_under_faults : forall sg t f h v, is_int t = true -> valid t v -> pot (tmr h) = 0%N ->
  (nexec h < 2 * length (filter (two_hold v) (seen (width t) (strike f) 0 (nexec h) (tmr h))))%nat ->
  Forall (fun s => valid t (fst (st_get (width t) s))) (seen (width t) (strike f) 0 (nexec h) (tmr h)) ->
  exists h', hy_get sg t (strike f) h = Ret (v, h').
Proof. exact hy_get_faults. Qed.
Print Assumptions C66_get_under_faults.
Theorem C66_get_without_faults : forall sg t h, is_int t = true -> (1 <= nexec h)%nat ->
  exists h', hy_get sg t (fun _ s => s) h = Ret (fst (st_get (width t) (tmr h)), h').
Proof. exact hy_get_quiet. Qed.
Print Assumptions C66_get_without_faults.
Example C66_nonvacuous :
  let f i := match i with 1%nat => [(0%nat, 9%N)] | 2%nat => [(1%nat, 9%N)] | _ => [] end in
  let z := seen 32 (strike f) 0 3 (tmr (hy_new 5 0)) in
  length (filter (two_hold 5) z) = 2%nat /\ Forall (fun s => valid I32 (fst (st_get 32 s))) z.
Proof. cbv zeta. split; [vm_compute; reflexivity|]. repeat constructor; vm_compute; reflexivity. Qed.
