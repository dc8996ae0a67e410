(** Properties C44, C73-C79: the memory scrubbers. *)
From Coq Require Import List NArith ZArith Bool.
Import ListNotations.
From Verif Require Import Outcome Words Arith Crc_Spec Crc_Model Scrub_Model Scrub_Spec Scrub_Proofs.
Local Open Scope N_scope.

(** C44 core::memory::MemoryScrubber *)
Theorem C44_registry_history : forall (W : Type) (l : list (cs_op W)) w, N.of_nat (regcount l) < 2 ^ 64 ->
  exists t s' w', cs_run l cs_new w = Ret (t, s', w') /\ map fst t = l /\
  forall pre o x post, t = pre ++ (o, x) :: post -> cs_good pre o x.
Proof. exact @cs_history. Qed.
Print Assumptions C44_registry_history.
(* scrubOnce works on the memory as the writes and earlier cycles left it *)
Theorem C44_scrub_sees_memory : forall (W : Type) (l : list (cs_op W)) s w t s' w', cs_run l s w = Ret (t, s', w') ->
  w' = mem_after t w /\ forall pre o a b post, t = pre ++ (o, RScrub a b) :: post -> a = mem_after pre w.
Proof. exact @cs_memory. Qed.
Print Assumptions C44_scrub_sees_memory.
Example C44_nonvacuous : exists s',
  cs_run [ORegister (fun l => 1 :: l); ORegister (fun l => 2 :: l); OUnregister 0; OUnregister 0; ORegister (fun l => 3 :: l); OScrub] cs_new []
  = Ret ([(ORegister (fun l => 1 :: l), RHandle 0); (ORegister (fun l => 2 :: l), RHandle 1); (OUnregister 0, RBool true);
          (OUnregister 0, RBool false); (ORegister (fun l => 3 :: l), RHandle 2); (OScrub, RScrub [] [3; 2])], s', [3; 2]).
Proof. eexists. vm_compute. reflexivity. Qed.

(** C73: refuted: a callback that calls back into the scrubber locks its non-recursive mutex twice *)
Theorem C73_reentrant_callback_refuted : forall (W : Type) (s : registry W) w,
  (exists x, In x (entries s) /\ reentrant x) -> cs_scrubOnce s w = UB UB_relock.
Proof. exact @cs_reentrant_ub. Qed.
Print Assumptions C73_reentrant_callback_refuted.
Theorem C73_plain_callbacks_partial : forall (W : Type) (s : registry W) w, Forall (fun x => ~ reentrant x) (entries s) ->
  exists fs, map snd (entries s) = map Plain fs /\ cs_scrubOnce s w = Ret (in_turn fs w).
Proof. exact @cs_scrub_state. Qed.
Print Assumptions C73_plain_callbacks_partial.
Example C73_nonvacuous : exists x, In x (entries (snd (cs_register (Reentrant (fun w : N => w)) cs_new))) /\ reentrant x.
Proof. eexists. split; [left; reflexivity|]. eexists. reflexivity. Qed.

(** C74: with one controlling thread no callback runs after stop() has returned, the process is not terminated, and
    stop() always completes; with two threads calling start() the process can be terminated *)
Theorem C74_no_scrub_after_stop_partial : forall pr sch c ev, life_run sch (life0 [pr]) = Some (c, ev) ->
  terminated c = false /\
  forall e1 e2, ev = e1 ++ LStopped :: e2 -> ~ In LSpawn e2 -> ~ In LScrub e2.
Proof. exact no_scrub_after_stop. Qed.
Print Assumptions C74_no_scrub_after_stop_partial.
Theorem C74_stop_completes_partial : forall pr sch c ev rest, life_run sch (life0 [pr]) = Some (c, ev) ->
  clients c = [(CStop, C2) :: rest] ->
  exists n c1 e1 c2 e2, (n <= 3)%nat /\ life_run (repeat Worker n) c = Some (c1, e1) /\ life_step (Client 0) c1 = Some (c2, e2) /\
    worker c2 = None.
Proof. exact stop_completes. Qed.
Print Assumptions C74_stop_completes_partial.
Theorem C74_concurrent_start_terminates_refuted :
  exists sch c ev, life_run sch (life0 [[CStart]; [CStart]]) = Some (c, ev) /\ terminated c = true.
Proof. exact double_start. Qed.
Print Assumptions C74_concurrent_start_terminates_refuted.
(* stop() called while a cycle is running: the cycle finishes before stop() returns *)
Example C74_nonvacuous : exists c, life_run [Client 0; Client 0; Client 0; Worker; Client 0; Client 0; Worker; Worker; Worker; Client 0]
  (life0 [[CStart; CStop]]) = Some (c, [LSpawn; LScrub; LStopped]) /\ worker c = None.
Proof. eexists. split; reflexivity. Qed.

(** C75 rad_ml::memory::MemoryScrubber handles: distinct and nonzero sequentially; refuted for two threads, and after a move *)
Theorem C75_handles_sequential_partial : forall l m hs m' s', N.of_nat (registrations l) < 2 ^ 64 - 1 -> lrun l m ls_new = (hs, m', s') ->
  NoDup hs /\ ~ In 0 hs.
Proof. exact ls_handles_sequential. Qed.
Print Assumptions C75_handles_sequential_partial.
Theorem C75_concurrent_registration_refuted :
  exists sch s, reg_run sch (regs0 2) = Some s /\ thr s = [RDone 1; RDone 1] /\ ids s = [1; 1].
Proof. exact ls_handles_race. Qed.
Print Assumptions C75_concurrent_registration_refuted.
Theorem C75_after_move_refuted : forall m a1 n1 a2 n2,
  let '(h1, s1) := ls_register m a1 n1 ls_new in
  let '(h2, s2) := ls_register m a2 n2 (ls_moved s1) in
  h1 = h2 /\ map raddr (lregions s2) = [a1; a2] /\ map raddr (lregions (snd (ls_unregister h2 s2))) = [a2].
Proof. exact ls_handles_move. Qed.
Print Assumptions C75_after_move_refuted.
Example C75_nonvacuous : fst (fst (lrun [LReg 0 4; LReg 8 100; LScrubAll; LUnreg 1; LReg 0 2] (fun _ => 7) ls_new)) = [1; 2; 3].
Proof. vm_compute. reflexivity. Qed.

(** C76: true for regions of at most 64 bytes; refuted for 65 zero bytes: every cycle reports an error, for ever *)
Theorem C76_untouched_small_regions_partial : forall l m n hs m' s', Forall quiet l -> lrun l m ls_new = (hs, m', s') ->
  fst (scrubs n m' s') = repeat 0 n.
Proof. exact untouched_clean. Qed.
Print Assumptions C76_untouched_small_regions_partial.
Theorem C76_untouched_65_bytes_refuted : forall n,
  fst (scrubs n (fun _ => 0) (snd (ls_register (fun _ => 0) 0 65 ls_new))) = repeat 1 n.
Proof. exact big_region_every_cycle. Qed.
Print Assumptions C76_untouched_65_bytes_refuted.
(* in general: a settled region reports each cycle the blocks whose checksum is not that of its last block *)
Theorem C76_blocks_unlike_the_last_refuted : forall m r st, recc r = false ->
  let bs := blocks (bytes_at m (raddr r) (rsize r)) in
  snd (fst (scrubRegion m (calculateChecksums m r) st)) =
  N.of_nat (length (filter (fun b => negb (N.eqb (Scrubber_calculateCRC32 b) (last (map Scrubber_calculateCRC32 bs) 0))) bs)).
Proof. exact every_cycle_reports. Qed.
Print Assumptions C76_blocks_unlike_the_last_refuted.
Example C76_nonvacuous : Forall quiet [LReg 0 64; LScrubAll; LReg 64 10; LUnreg 1] /\
  length (lregions (snd (lrun [LReg 0 64; LScrubAll; LReg 64 10; LUnreg 1] (fun _ => 9) ls_new))) = 1%nat.
Proof. split; [repeat constructor|vm_compute; reflexivity]. Qed.

(** C77: refuted: a cycle never writes the memory, yet counts every detected error as corrected, and afterwards takes
    the corrupted bytes for correct; a changed byte can also go undetected *)
Theorem C77_corruption_accepted_refuted : forall n m s e m' s', small s -> scrubMemory m s = (e, m', s') ->
  m' = m /\ fst (scrubs n m' s') = repeat 0 n.
Proof. exact corruption_accepted. Qed.
Print Assumptions C77_corruption_accepted_refuted.
Theorem C77_all_counted_corrected_refuted : forall n m s l s', scrubs n m s = (l, s') -> detected (lst s) = corrected (lst s) ->
  detected (lst s') = corrected (lst s') /\ detected (lst s') = detected (lst s) + fold_right N.add 0 l /\ length l = n.
Proof. exact corrected_is_detected. Qed.
Print Assumptions C77_all_counted_corrected_refuted.
Theorem C77_blind_refuted : forall n k m, (k < n <= 64)%nat -> exists b, b < 256 /\
  let '(h, s) := ls_register (poke m k b) 0 n ls_new in
  fst (fst (scrubMemory (poke m k (N.lxor b 1)) s)) = 0.
Proof. exact blind_region. Qed.
Print Assumptions C77_blind_refuted.
(* what is true: a small region is reported exactly when its checksum differs from the stored one *)
Theorem C77_small_region_report_partial : forall m r st, (0 < rsize r <= 64)%nat ->
  snd (fst (scrubRegion m r st)) = if N.eqb (Scrubber_calculateCRC32 (bytes_at m (raddr r) (rsize r))) (rcrc r) then 0 else 1.
Proof. exact small_region_report. Qed.
Print Assumptions C77_small_region_report_partial.
(* a detected corruption of a 4-byte region *)
Example C77_nonvacuous : let s := snd (ls_register (fun _ => 7) 0 4 ls_new) in small s /\
  let '(e, m', s') := scrubMemory (poke (fun _ => 7) 2 6) s in e = 1 /\ m' 2%nat = 6 /\ corrected (lst s') = 1.
Proof. split; [repeat constructor|vm_compute; repeat split]. Qed.

(** C78: refuted: moving from a running scrubber can deadlock; and whenever it completes, the new object says it is
    running but has no thread *)
Theorem C78_move_deadlock_refuted : exists sch s, mv_run sch mv0 = Some s /\ mpc_ s <> MEnd /\ forall k, mv_step k s = None.
Proof. exact move_deadlock. Qed.
Print Assumptions C78_move_deadlock_refuted.
Theorem C78_move_loses_thread_refuted : forall sch s, mv_run sch mv0 = Some s -> mpc_ s = MEnd -> nrun s = true /\ nthr s = false.
Proof. exact move_no_thread. Qed.
Print Assumptions C78_move_loses_thread_refuted.
Example C78_nonvacuous : exists sch s, mv_run sch mv0 = Some s /\ mpc_ s = MEnd.
Proof. exact move_can_complete. Qed.

(** C79 backup/restore/compare: correct with an element count; undefined with the documented byte count *)
Theorem C79_backup_restore_partial : forall sizeofT n x corrupted buf, length x = (n * sizeofT)%nat -> length buf = (n * sizeofT)%nat ->
  length corrupted = (n * sizeofT)%nat ->
  exists bk, backup_memory sizeofT buf x n = Ret bk /\ restore_memory sizeofT corrupted bk n = Ret x.
Proof. exact backup_restore. Qed.
Print Assumptions C79_backup_restore_partial.
Theorem C79_compare_counts_partial : forall t a b, length a = length b ->
  compare_memory t (length a) a b = Ret (N.of_nat (length (filter (fun p => negb (eqT t (fst p) (snd p))) (combine a b)))).
Proof. exact compare_counts. Qed.
Print Assumptions C79_compare_counts_partial.
Theorem C79_byte_count_backup_refuted : forall sizeofT n x buf, (1 < sizeofT)%nat -> (0 < n)%nat ->
  length x = (n * sizeofT)%nat -> length buf = (n * sizeofT)%nat ->
  backup_memory sizeofT buf x (n * sizeofT) = UB UB_array_index.
Proof. exact backup_byte_size. Qed.
Print Assumptions C79_byte_count_backup_refuted.
Theorem C79_byte_count_compare_refuted : forall t a b n, (length a < n)%nat -> compare_memory t n a b = UB UB_array_index.
Proof. exact compare_out_of_bounds. Qed.
Print Assumptions C79_byte_count_compare_refuted.
Example C79_nonvacuous : exists bk, backup_memory 2 [0; 0; 0; 0] [1; 2; 3; 4] 2 = Ret bk /\ restore_memory 2 [9; 2; 9; 4] bk 2 = Ret [1; 2; 3; 4] /\
  compare_memory I16 3 [1; 2; 3] [1; 5; 4] = Ret 2.
Proof. eexists. repeat split; reflexivity. Qed.
