(** Models of the three MemoryScrubber classes:
    core/memory/memory_scrubber.hpp (CS), memory/memory_scrubber.hpp (LS, rad_ml::memory),
    core/memory/memory_scrubbing.hpp (SU, static utilities).
    CS and SU define the same class name in the same namespace: they cannot be included together. *)
From Coq Require Import List NArith ZArith Bool.
Import ListNotations.
From Verif Require Import Outcome Words Arith Crc_Model.
Local Open Scope N_scope.

(** *** CS: the registry.  Every method body runs under mutex_, so operations are atomic; [W] is whatever
    memory the callbacks work on. *)
(* CS:47-67 the stored closure (:60-62).  Reentrant: after [f] the callback calls a method of the same scrubber that
   locks mutex_ (register, unregister, scrubOnce) *)
Inductive callback (W : Type) := Plain (f : W -> W) | Reentrant (f : W -> W).
Arguments Plain {W}. Arguments Reentrant {W}.
Record registry (W : Type) := mkR { entries : list (N * callback W); next_handle : N }.
Arguments mkR {W}. Arguments entries {W}. Arguments next_handle {W}.
(* CS:137 size_t next_handle_ = 0 *)
Definition cs_new {W} : registry W := mkR [] 0.
(* CS:47-67 *)
Definition cs_register {W} (f : callback W) (s : registry W) : N * registry W :=
  (next_handle s, mkR (entries s ++ [(next_handle s, f)]) ((next_handle s + 1) mod 2 ^ 64)).
(* CS:74-85: erase the first match *)
Fixpoint erase_first {A} (h : N) (l : list (N * A)) : bool * list (N * A) :=
  match l with
  | [] => (false, [])
  | (h', a) :: r => if N.eqb h' h then (true, r) else let '(b, r') := erase_first h r in (b, (h', a) :: r')
  end.
Definition cs_unregister {W} (h : N) (s : registry W) : bool * registry W :=
  let '(b, l) := erase_first h (entries s) in (b, mkR l (next_handle s)).
(* CS:116-122: mutex_ (a std::mutex, not recursive) is held while the callbacks run *)
Fixpoint run_callbacks {W} (l : list (N * callback W)) (w : W) : outcome W :=
  match l with
  | [] => Ret w
  | (_, Plain f) :: r => run_callbacks r (f w)
  | (_, Reentrant f) :: r => UB UB_relock
  end.
Definition cs_scrubOnce {W} (s : registry W) (w : W) : outcome W := run_callbacks (entries s) w.

(* a client's history: operations, and writes to the memory in between *)
Inductive cs_op (W : Type) := ORegister (f : W -> W) | OUnregister (h : N) | OScrub | OWrite (g : W -> W).
Arguments ORegister {W}. Arguments OUnregister {W}. Arguments OScrub {W}. Arguments OWrite {W}.
Inductive cs_res (W : Type) := RHandle (h : N) | RBool (b : bool) | RScrub (before after : W) | RWrite.
Arguments RHandle {W}. Arguments RBool {W}. Arguments RScrub {W}. Arguments RWrite {W}.
Definition cs_do {W} (o : cs_op W) (s : registry W) (w : W) : outcome (cs_res W * registry W * W) :=
  match o with
  | ORegister f => let '(h, s') := cs_register (Plain f) s in Ret (RHandle h, s', w)
  | OUnregister h => let '(b, s') := cs_unregister h s in Ret (RBool b, s', w)
  | OScrub => match cs_scrubOnce s w with Ret w' => Ret (RScrub w w', s, w') | UB r => UB r | Throw e => Throw e | OutOfFuel => OutOfFuel end
  | OWrite g => Ret (RWrite, s, g w)
  end.
Fixpoint cs_run {W} (l : list (cs_op W)) (s : registry W) (w : W) : outcome (list (cs_op W * cs_res W) * registry W * W) :=
  match l with
  | [] => Ret ([], s, w)
  | o :: r =>
    match cs_do o s w with
    | Ret (x, s1, w1) =>
      match cs_run r s1 w1 with Ret (t, s2, w2) => Ret ((o, x) :: t, s2, w2) | UB e => UB e | Throw e => Throw e | OutOfFuel => OutOfFuel end
    | UB e => UB e | Throw e => Throw e | OutOfFuel => OutOfFuel
    end
  end.

(** *** CS: start/stop and the worker thread, interleaved.
    Simplifications: joinable() and join() are one (blocking) step; one scrubOnce cycle is one step. *)
Inductive wpc := WCheck | WScrub | WSleep | WExit.       (* CS:139-144 *)
Inductive ctl := CStart | CStop.
Inductive cpc := C0 | C1 | C2.
Record life := mkL { running : bool; worker : option wpc; terminated : bool; clients : list (list (ctl * cpc)) }.
Inductive lev := LSpawn | LScrub | LStopped.
Definition life0 (progs : list (list ctl)) : life := mkL false None false (map (map (fun c => (c, C0))) progs).
Definition set_nth {A} (l : list A) (i : nat) (v : A) : list A := firstn i l ++ v :: skipn (S i) l.
(* who acts: the worker, or a client thread *)
Inductive who := Worker | Client (i : nat).
Definition worker_step (s : life) : option (life * list lev) :=
  match worker s with
  | Some WCheck => (* :140 while (running_) *)
      Some (mkL (running s) (Some (if running s then WScrub else WExit)) (terminated s) (clients s), [])
  | Some WScrub => (* :141 *) Some (mkL (running s) (Some WSleep) (terminated s) (clients s), [LScrub])
  | Some WSleep => (* :142 *) Some (mkL (running s) (Some WCheck) (terminated s) (clients s), [])
  | _ => None
  end.
Definition client_step (i : nat) (s : life) : option (life * list lev) :=
  match nth_error (clients s) i with
  | Some ((CStart, p) :: rest) =>
    match p with
    | C0 => (* CS:91-93 *)
        if running s then Some (mkL (running s) (worker s) (terminated s) (set_nth (clients s) i rest), [])
        else Some (mkL (running s) (worker s) (terminated s) (set_nth (clients s) i ((CStart, C1) :: rest)), [])
    | C1 => (* :95 *) Some (mkL true (worker s) (terminated s) (set_nth (clients s) i ((CStart, C2) :: rest)), [])
    | C2 => (* :96: assigning to a joinable std::thread calls std::terminate *)
        match worker s with
        | Some _ => Some (mkL (running s) (worker s) true (clients s), [])
        | None => Some (mkL (running s) (Some WCheck) (terminated s) (set_nth (clients s) i rest), [LSpawn])
        end
    end
  | Some ((CStop, p) :: rest) =>
    match p with
    | C0 => (* CS:103-105 *)
        if running s then Some (mkL (running s) (worker s) (terminated s) (set_nth (clients s) i ((CStop, C1) :: rest)), [])
        else Some (mkL (running s) (worker s) (terminated s) (set_nth (clients s) i rest), [LStopped])
    | C1 => (* CS:107 *) Some (mkL false (worker s) (terminated s) (set_nth (clients s) i ((CStop, C2) :: rest)), [])
    | C2 => (* CS:108-110 *)
        match worker s with
        | Some WExit | None => Some (mkL (running s) None (terminated s) (set_nth (clients s) i rest), [LStopped])
        | _ => None
        end
    end
  | _ => None
  end.
Definition life_step (k : who) (s : life) : option (life * list lev) :=
  if terminated s then None else match k with Worker => worker_step s | Client i => client_step i s end.
Fixpoint life_run (sch : list who) (s : life) : option (life * list lev) :=
  match sch with
  | [] => Some (s, [])
  | k :: r => match life_step k s with
              | Some (s1, e1) => match life_run r s1 with Some (s2, e2) => Some (s2, e1 ++ e2) | None => None end
              | None => None end
  end%list.

(** *** LS: regions, checksums, scrubbing.  Memory is byte-addressed. *)
Definition memory := nat -> N.
Definition bytes_at (m : memory) (addr size : nat) : list N := map m (seq addr size).
(* LS:343-351 *)
Record lregion := mkLR { rid : N; raddr : nat; rsize : nat; recc : bool; rcrc : N }.
(* LS:263-268 without the derived rate *)
Record lstats := mkS { cycles : N; detected : N; corrected : N }.
(* LS:354-362 *)
Record lscrub := mkLS { lregions : list lregion; next_id : N; lst : lstats }.
Definition ls_new : lscrub := mkLS [] 1 (mkS 0 0 0).
(* the block loop :374 / :393: for (i = 0; i < size; i += 64) over min(64, size - i) bytes *)
Fixpoint blocks_from (fuel : nat) (bs : list N) : list (list N) :=
  match fuel with
  | O => []
  | S k => match bs with [] => [] | _ => firstn 64 bs :: blocks_from k (skipn 64 bs) end
  end.
Definition blocks (bs : list N) : list (list N) := blocks_from (length bs) bs.
(* LS:101-116, executed without interference *)
Definition ls_register (m : memory) (addr size : nat) (s : lscrub) : N * lscrub :=
  (next_id s, mkLS (lregions s ++ [mkLR (next_id s) addr size false (Scrubber_calculateCRC32 (bytes_at m addr size))])
                   ((next_id s + 1) mod 2 ^ 64) (lst s)).
(* LS:124-142 *)
Fixpoint ls_erase (h : N) (l : list lregion) : bool * list lregion :=
  match l with
  | [] => (false, [])
  | r :: t => if N.eqb (rid r) h then (true, t) else let '(b, t') := ls_erase h t in (b, r :: t')
  end.
Definition ls_unregister (h : N) (s : lscrub) : bool * lscrub :=
  if N.eqb h 0 then (false, s)
  else let '(b, l) := ls_erase h (lregions s) in (b, mkLS l (next_id s) (lst s)).
(* LS:369-379 *)
Definition calculateChecksums (m : memory) (r : lregion) : lregion :=
  mkLR (rid r) (raddr r) (rsize r) (recc r)
    (fold_left (fun _ b => Scrubber_calculateCRC32 b) (blocks (bytes_at m (raddr r) (rsize r))) 0).
(* LS:387-422, one block *)
Definition scrub_block (x : lregion * N * lstats) (b : list N) : lregion * N * lstats :=
  let '(r, errs, st) := x in
  if negb (N.eqb (Scrubber_calculateCRC32 b) (rcrc r))
  then (mkLR (rid r) (raddr r) (rsize r) (recc r) (if recc r then 0 else rcrc r), errs + 1,
        mkS (cycles st) (detected st + 1) (corrected st + 1))
  else x.
Definition scrubRegion (m : memory) (r : lregion) (st : lstats) : lregion * N * lstats :=
  fold_left scrub_block (blocks (bytes_at m (raddr r) (rsize r))) (r, 0, st).
(* LS:149-166 (counters as unbounded naturals; the memory is only read) *)
Fixpoint scrub_regions (m : memory) (l : list lregion) (st : lstats) : list lregion * N * lstats :=
  match l with
  | [] => ([], 0, st)
  | r :: t => let '(r', e, st1) := scrubRegion m r st in
              let '(t', e2, st2) := scrub_regions m t st1 in (r' :: t', e + e2, st2)
  end.
Definition scrubMemory (m : memory) (s : lscrub) : N * memory * lscrub :=
  let '(l, e, st) := scrub_regions m (lregions s) (lst s) in
  (e, m, mkLS (map (calculateChecksums m) l) (next_id s) (mkS (cycles st + 1) (detected st) (corrected st))).
(* LS:329-340 *)
Definition setECC (h : N) (b : bool) (s : lscrub) : lscrub :=
  mkLS (map (fun r => if N.eqb (rid r) h then mkLR (rid r) (raddr r) (rsize r) b (rcrc r) else r) (lregions s)) (next_id s) (lst s).
(* LS:55-69 the move constructor, what the new object's registry is: regions and statistics are taken over,
   next_region_id_ keeps its default member initialiser 1 (:362) *)
Definition ls_moved (other : lscrub) : lscrub := mkLS (lregions other) 1 (lst other).

(** *** LS: concurrent registerMemoryRegion (LS:101-116): next_region_id_++ is outside the lock *)
Inductive rpc := RLoad | RSave (v : N) | RPush (v : N) | RDone (v : N).
Record regs := mkRG { nid : N; ids : list N; thr : list rpc }.
Definition regs0 (n : nat) : regs := mkRG 1 [] (repeat RLoad n).
Definition reg_step (i : nat) (s : regs) : option regs :=
  match nth_error (thr s) i with
  | Some RLoad => Some (mkRG (nid s) (ids s) (set_nth (thr s) i (RSave (nid s))))
  | Some (RSave v) => Some (mkRG ((v + 1) mod 2 ^ 64) (ids s) (set_nth (thr s) i (RPush v)))
  | Some (RPush v) => Some (mkRG (nid s) (ids s ++ [v]) (set_nth (thr s) i (RDone v)))
  | _ => None
  end.
Fixpoint reg_run (sch : list nat) (s : regs) : option regs :=
  match sch with [] => Some s | i :: r => match reg_step i s with Some s1 => reg_run r s1 | None => None end end.

(** *** LS: moving from a running scrubber (LS:55-69, :208-224, :445-459), interleaved with its worker *)
Inductive mpc := M0 | MStop | MJoin | MStart | MUnlock | MEnd.
Inductive vpc := VCheck | VLock | VBody | VExit.      (* the old object's worker *)
Record mv := mkM { olock : option bool;               (* other.mutex_: who holds it (true: mover, false: worker) *)
                   orun : bool; oterm : bool;          (* other.running_, other.terminate_requested_ *)
                   nrun : bool; nthr : bool;           (* new object's running_, whether it has a thread *)
                   mpc_ : mpc; vpc_ : vpc }.
Definition mv0 : mv := mkM None true false false false M0 VCheck.
Definition mover_step (s : mv) : option mv :=
  match mpc_ s with
  | M0 => (* :56-60 lock, take the members, running_ := other.running_ *)
      match olock s with
      | None => Some (mkM (Some true) (orun s) (oterm s) (orun s) (nthr s) MStop (vpc_ s))
      | Some _ => None end
  | MStop => (* :63 -> :209-216 *)
      if orun s then Some (mkM (olock s) (orun s) true (nrun s) (nthr s) MJoin (vpc_ s))
      else Some (mkM (olock s) (orun s) (oterm s) (nrun s) (nthr s) MStart (vpc_ s))
  | MJoin => (* :218-223 *)
      match vpc_ s with VExit => Some (mkM (olock s) false (oterm s) (nrun s) (nthr s) MStart (vpc_ s)) | _ => None end
  | MStart => (* :66-68 -> :173-179: if (running_) startBackgroundThread(), which returns at once when running_ *)
      Some (mkM (olock s) (orun s) (oterm s) (nrun s) (if nrun s then (if nrun s then nthr s else true) else nthr s) MUnlock (vpc_ s))
  | MUnlock => Some (mkM None (orun s) (oterm s) (nrun s) (nthr s) MEnd (vpc_ s))
  | MEnd => None
  end.
Definition old_worker_step (s : mv) : option mv :=
  match vpc_ s with
  | VCheck => (* :446-453 *)
      Some (mkM (olock s) (orun s) (oterm s) (nrun s) (nthr s) (mpc_ s) (if oterm s then VExit else VLock))
  | VLock => (* :457 -> :152 *)
      match olock s with
      | None => Some (mkM (Some false) (orun s) (oterm s) (nrun s) (nthr s) (mpc_ s) VBody)
      | Some _ => None end
  | VBody => Some (mkM None (orun s) (oterm s) (nrun s) (nthr s) (mpc_ s) VCheck)
  | VExit => None
  end.
Definition mv_step (mover : bool) (s : mv) : option mv := if mover then mover_step s else old_worker_step s.
Fixpoint mv_run (sch : list bool) (s : mv) : option mv :=
  match sch with [] => Some s | k :: r => match mv_step k s with Some s1 => mv_run r s1 | None => None end end.

(** *** SU: raw buffers of bytes *)
(* SU:95-98, :108-111 memcpy(dest, src, size * sizeof(T)) *)
Definition memcpy (dest src : list N) (n : nat) : outcome (list N) :=
  if (n <=? length dest)%nat && (n <=? length src)%nat then Ret (firstn n src ++ skipn n dest) else UB UB_array_index.
Definition backup_memory (sizeofT : nat) (dest src : list N) (size : nat) : outcome (list N) := memcpy dest src (size * sizeofT).
Definition restore_memory (sizeofT : nat) (dest src : list N) (size : nat) : outcome (list N) := memcpy dest src (size * sizeofT).
(* SU:122-134: elements compared with T's operator!= *)
Fixpoint compare_memory (t : aty) (size : nat) (a b : list N) : outcome N :=
  match size with
  | O => Ret 0
  | S k => match a, b with
           | x :: a', y :: b' => obind (compare_memory t k a' b') (fun n => Ret (if eqT t x y then n else n + 1))
           | _, _ => UB UB_array_index
           end
  end.
(* SU:30-33; the bytes beyond [size] are not read (size <= sizeof the object) *)
Definition verify_crc (bs : list N) (size : nat) (stored : N) : bool := N.eqb (compute_crc32 (firstn size bs)) stored.
