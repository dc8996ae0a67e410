(** Properties C42, C43, C69-C72: RadiationErrorTracker. *)
From Coq Require Import String List NArith ZArith Bool SpecFloat.
Import ListNotations.
From Verif Require Import Outcome Floats Tracker_Model Tracker_Spec Tracker_Proofs Tracker2_Proofs Tracker3_Proofs.
Local Open Scope nat_scope.

(** C42 *)
Theorem C42_counters_exact : forall progs sch c ev t,
  never_reset t progs -> run sch (start progs) = Some (c, ev) -> finished c ->
  getTotalErrorCount (trk (wld c) t) = (how_many (errors_on t) progs mod 2 ^ 64)%N /\
  (forall p, p < 6 -> getPatternCount (trk (wld c) t) p = (how_many (errors_with t p) progs mod 2 ^ 64)%N) /\
  hist (trk (wld c) t) = lastn 1000 (logged t ev) /\
  (forall k, map (fun e => (epat e, edata e)) (logged t (by_thread k ev)) = details t (nth k progs [])).
Proof. exact tracker_exact. Qed.
Print Assumptions C42_counters_exact.
Theorem C42_history_bounded_at_every_moment : forall progs sch c ev t,
  never_reset t progs -> run sch (start progs) = Some (c, ev) ->
  length (hist (trk (wld c) t)) <= 1001 /\
  (locked (trk (wld c) t) = false -> hist (trk (wld c) t) = lastn 1000 (logged t ev)).
Proof. exact tracker_history. Qed.
Print Assumptions C42_history_bounded_at_every_moment.
(* two threads, interleaved inside the calls *)
Example C42_nonvacuous : exists c ev,
  run (repeat (0, 5%Z) 5 ++ repeat (1, 6%Z) 4 ++ repeat (0, 7%Z) 3 ++ repeat (1, 8%Z) 11 ++ repeat (0, 19%Z) 7)
      (start [[RecordError 0 2 "a"]; [RecordError 0 3 "b"]]) = Some (c, ev) /\ finished c /\
  never_reset 0 [[RecordError 0 2 "a"]; [RecordError 0 3 "b"]] /\
  map edata (hist (trk (wld c) 0)) = ["a"; "b"]%string.
Proof.
  destruct (run _ _) as [[c e]|] eqn:A; [|vm_compute in A; discriminate]. exists c, e.
  vm_compute in A. injection A as <- <-.
  split; [reflexivity|]. split; [|split].
  - intros th H. simpl in H. intuition.
  - intros pr H K. simpl in H. destruct H as [<-|[<-|[]]]; simpl in K; intuition discriminate.
  - reflexivity.
Qed.

(** C43: refuted.  The same single error on object 0; what happened on object 1 decides whether object 0 reports a
    rate above one million per second. *)
Theorem C43_objects_interfere_refuted :
  let alone := run (whole 0 s3) (start [[E0 0]; [E0 1; E0 1]]) in
  let other := run (whole 1 sec ++ whole 1 s2 ++ whole 0 s3) (start [[E0 0]; [E0 1; E0 1]]) in
  exists c1 e1 c2 e2, alone = Some (c1, e1) /\ other = Some (c2, e2) /\
    getTotalErrorCount (trk (wld c1) 0) = 1%N /\ getTotalErrorCount (trk (wld c2) 0) = 1%N /\
    isErrorRateExceeded (trk (wld c1) 0) million = false /\ isErrorRateExceeded (trk (wld c2) 0) million = true.
Proof. exact shared_statics. Qed.
Print Assumptions C43_objects_interfere_refuted.
(* the counters of an object depend only on the errors recorded on it *)
Theorem C43_counters_independent_partial : forall progs1 sch1 c1 ev1 progs2 sch2 c2 ev2 t,
  never_reset t progs1 -> never_reset t progs2 ->
  run sch1 (start progs1) = Some (c1, ev1) -> finished c1 -> run sch2 (start progs2) = Some (c2, ev2) -> finished c2 ->
  filter (errors_on t) (concat progs1) = filter (errors_on t) (concat progs2) ->
  getTotalErrorCount (trk (wld c1) t) = getTotalErrorCount (trk (wld c2) t) /\
  forall p, p < 6 -> getPatternCount (trk (wld c1) t) p = getPatternCount (trk (wld c2) t) p.
Proof. exact counts_independent. Qed.
Print Assumptions C43_counters_independent_partial.

(** C69: refuted.  Whatever the number of errors and whatever their times (at least 2 ns per step), one thread never
    sees a rate above 0.5 per second; two racing threads can see a rate above a million after three errors. *)
Theorem C69_rate_never_above_half_refuted : forall t pr sch c ev,
  (forall x, In x pr -> errors_on t x = true) -> ticking 0 sch ->
  run sch (start [pr]) = Some (c, ev) -> isErrorRateExceeded (trk (wld c) t) half = false.
Proof. exact rate_never_above_half. Qed.
Print Assumptions C69_rate_never_above_half_refuted.
Theorem C69_racing_rate_refuted : exists c ev, run race (start [[E0 0; E0 0]; [E0 0]]) = Some (c, ev) /\ finished c /\
  getTotalErrorCount (trk (wld c) 0) = 3%N /\ isErrorRateExceeded (trk (wld c) 0) million = true.
Proof. exact racing_rate. Qed.
Print Assumptions C69_racing_rate_refuted.
(* 20 errors within a microsecond *)
Example C69_nonvacuous : exists sch c ev, ticking 0 sch /\ run sch (start [repeat (E0 0) 20]) = Some (c, ev) /\
  getTotalErrorCount (trk (wld c) 0) = 20%N /\ finished c.
Proof.
  exists (map (fun i => (0, (2 * Z.of_nat i + 2)%Z)) (seq 0 220)).
  destruct (run _ _) as [[c e]|] eqn:A; [|vm_compute in A; discriminate]. exists c, e. vm_compute in A. injection A as <- <-.
  split; [|split; [reflexivity|split; [reflexivity|intros th H; simpl in H; intuition]]].
  vm_compute. repeat split; discriminate.
Qed.

(** C70: refuted (the rate after a reset; a reset running during a recordError); alone, reset gives a fresh tracker *)
Theorem C70_rate_after_reset_refuted : exists c ev,
  run (whole 0 sec ++ whole 0 s2 ++ repeat (0, s3) 13 ++ whole 0 s4) (start [[E0 0; E0 0; Reset 0; E0 0]]) = Some (c, ev) /\
  finished c /\ getTotalErrorCount (trk (wld c) 0) = 1%N /\ isErrorRateExceeded (trk (wld c) 0) million = true.
Proof. exact reset_rate. Qed.
Print Assumptions C70_rate_after_reset_refuted.
Theorem C70_torn_reset_refuted : exists c ev,
  run (repeat (0, sec) 1 ++ repeat (1, sec) 13 ++ repeat (0, sec) 10) (start [[E0 0]; [Reset 0]]) = Some (c, ev) /\
  finished c /\ getTotalErrorCount (trk (wld c) 0) = 0%N /\ getPatternCount (trk (wld c) 0) 0 = 1%N.
Proof. exact reset_torn. Qed.
Print Assumptions C70_torn_reset_refuted.
Theorem C70_reset_alone_partial : forall w t, length (pats (trk w t)) = 6 -> locked (trk w t) = false ->
  exists c, run (repeat (0, 0%Z) 13) (only w (Reset t)) = Some (c, []) /\ finished c /\ trk (wld c) t = new_tracker.
Proof. exact reset_alone. Qed.
Print Assumptions C70_reset_alone_partial.

(** C71: refuted during concurrent errors; true when nothing else runs *)
Theorem C71_distribution_200_percent_refuted : exists c ev,
  run (whole 1 sec ++ repeat (0, sec) 1 ++ whole 1 s2 ++ repeat (0, s2) 7) (start [[PatternDistribution 0]; [E0 0; E0 0]]) = Some (c, ev) /\
  In (0, EvRet (PatternDistribution 0) (RDist (sofZ 2 :: repeat zero_s 5))) ev.
Proof. exact dist_200. Qed.
Print Assumptions C71_distribution_200_percent_refuted.
Theorem C71_distribution_quiescent_partial : forall progs sch c ev t,
  never_reset t progs -> run sch (start progs) = Some (c, ev) -> finished c ->
  (how_many (errors_on t) progs < 2 ^ 64)%N ->
  exists n c' l, run (repeat (0, 0%Z) n) (only (wld c) (PatternDistribution t)) = Some (c', [(0, EvRet (PatternDistribution t) (RDist l))]) /\
    finished c' /\ wld c' = wld c /\ length l = 6 /\ Forall in_unit l.
Proof. exact distribution_quiescent. Qed.
Print Assumptions C71_distribution_quiescent_partial.

(** C72 *)
Theorem C72_recent_errors : forall progs sch c ev i now c' t k l,
  never_reset t progs -> run sch (start progs) = Some (c, ev) ->
  step i now c = Some (c', [(i, EvRet (RecentErrors t k) (RRecent l))]) ->
  l = lastn k (lastn 1000 (logged t ev)).
Proof. exact recent_result. Qed.
Print Assumptions C72_recent_errors.
Theorem C72_no_deadlock : forall progs sch c ev, run sch (start progs) = Some (c, ev) -> ~ finished c ->
  exists i now r, step i now c = Some r.
Proof. exact tracker_progress. Qed.
Print Assumptions C72_no_deadlock.
Example C72_nonvacuous : exists c ev c', run (repeat (0, 5%Z) 13 ++ repeat (1, 6%Z) 2) (start [[RecordError 0 2 "a"]; [RecentErrors 0 3]]) = Some (c, ev) /\
  step 1 6 c = Some (c', [(1, EvRet (RecentErrors 0 3) (RRecent [mkE 5 2 "a"]))]).
Proof.
  destruct (run _ _) as [[c e]|] eqn:A; [|vm_compute in A; discriminate]. vm_compute in A. injection A as <- <-.
  eexists _, _, _. split; [reflexivity|]. vm_compute. reflexivity.
Qed.
