(** Model of core/runtime/error_tracker.hpp (RadiationErrorTracker): every atomic access, clock read
    and critical-section action is one step; threads interleave arbitrarily.
    Simplification: interleaving (sequentially consistent) semantics of the std::atomic accesses.  The
    counters are only modified by read-modify-writes, for which relaxed ordering gives the same totals;
    the refutations need only one allowed execution. *)
From Coq Require Import String List NArith ZArith Bool SpecFloat.
Import ListNotations.
From Verif Require Import Outcome Words Floats.
Local Open Scope N_scope.

(* :183-187 ErrorRecord {timestamp, pattern, data}.  A pattern is its enumerator's ordinal. *)
Record erec := mkE { etime : Z; epat : nat; edata : string }.
(* :206-219 the members; [locked]: is history_mutex held *)
Record tracker := mkT { cnt : N; pats : list N; ltime : Z; rate : sf; locked : bool; hist : list erec }.
(* :36-39, :212-213 *)
Definition new_tracker : tracker := mkT 0 (repeat 0 6) 0 (S754_zero false) false [].
(* :219 *)
Definition max_history_size : nat := 1000.
(* :223-224 the function-local statics of updateErrorRate: one copy in the process, whatever the object;
   [clk]: a lower bound for what steady_clock::now() returns next (steady_clock is monotone) *)
Record world := mkW { trk : nat -> tracker; lct : Z; lcc : N; clk : Z }.
Definition world0 : world := mkW (fun _ => new_tracker) 0 0 0.

Definition upd {A} (f : nat -> A) (i : nat) (v : A) : nat -> A := fun j => if Nat.eqb j i then v else f j.
Definition set_trk (w : world) (t : nat) (x : tracker) : world := mkW (upd (trk w) t x) (lct w) (lcc w) (clk w).
Definition on_trk (w : world) (t : nat) (f : tracker -> tracker) : world := set_trk w t (f (trk w t)).
Definition tick (w : world) (now : Z) : world := mkW (trk w) (lct w) (lcc w) now.

(* the public operations; [t] names the object *)
Inductive call :=
| RecordError (t : nat) (p : nat) (d : string)
| Reset (t : nat)
| PatternDistribution (t : nat)
| RecentErrors (t : nat) (k : nat).

Inductive result := RDist (l : list sf) | RRecent (l : list erec).
Inductive event := EvPush (t : nat) (e : erec) | EvRet (c : call) (r : result).

(* program counter: where the next atomic action of the call is *)
Inductive pc :=
| PStart                                      (* nothing done yet *)
| PPat | PTime | PStore (now : Z)             (* :54 / :59 / :60 *)
| PLock | PPush | PPop | PUnlock              (* :64 / :65-69 / :72-74 / :75 *)
| PNow | PLast (now : Z) | PCas (now last : Z) | PCount (now last : Z)
| PXchg (now last : Z) (cur : N) | PRead (now last : Z) (cur old : N) | PWrite (now last : Z) (cur old : N) (r : sf)
| QRate | QTime | QPat (i : nat) | QLock | QClear | QUnlock     (* reset *)
| DPat (total : N) (i : nat) (acc : list sf)                     (* getPatternDistribution *)
| RCopy | RUnlock (l : list erec)                                (* getRecentErrors *)
| PDone.

(* :249; 0.7f, 0.3f *)
Definition f07 : sf := slit 7 10.
Definition f03 : sf := slit 3 10.
(* std::chrono::seconds(1).count(): the number of SECONDS in one second *)
Definition one_second_count : Z := 1.
(* :243-244 static_cast<float>(count_diff) * seconds(1).count() / time_diff *)
Definition new_rate (count_diff : N) (time_diff : Z) : sf :=
  sdiv (smul (sofZ (Z.of_N count_diff)) (sofZ one_second_count)) (sofZ time_diff).
(* :249 0.7f * new_rate + 0.3f * old_rate *)
Definition smooth (n o : sf) : sf := sadd (smul f07 n) (smul f03 o).

Definition nth_add (l : list N) (i : nat) : list N :=
  map (fun '(j, x) => if Nat.eqb j i then (x + 1) mod 2 ^ 64 else x) (combine (seq 0 (length l)) l).
(* std::array::operator[] := 0 *)
Definition nth_zero (l : list N) (i : nat) : list N :=
  map (fun '(j, x) => if Nat.eqb j i then 0 else x) (combine (seq 0 (length l)) l).
Definition after_history (d : string) : pc := match d with EmptyString => PNow | _ => PLock end.

(* One atomic action of call [c] at [p]; [now] is the value a clock read would return.
   None: the action cannot be taken now (mutex held by another thread, or clock going backwards). *)
Definition act (c : call) (p : pc) (now : Z) (w : world) : option (world * pc * list event) :=
  match c with
  | RecordError t pat d =>
    let T := trk w t in
    match p with
    | PStart => (* :50 error_count.fetch_add(1) *)
        Some (set_trk w t (mkT ((cnt T + 1) mod 2 ^ 64) (pats T) (ltime T) (rate T) (locked T) (hist T)), PPat, [])
    | PPat => (* :53-56 *)
        Some (if Nat.ltb pat (length (pats T))
              then set_trk w t (mkT (cnt T) (nth_add (pats T) pat) (ltime T) (rate T) (locked T) (hist T)) else w, PTime, [])
    | PTime => (* :59 *) if Z.ltb now (clk w) then None else Some (tick w now, PStore now, [])
    | PStore n => (* :60, :63 *)
        Some (set_trk w t (mkT (cnt T) (pats T) n (rate T) (locked T) (hist T)), after_history d, [])
    | PLock => (* :64 *)
        if locked T then None
        else Some (set_trk w t (mkT (cnt T) (pats T) (ltime T) (rate T) true (hist T)), PPush, [])
    | PPush => (* :65-69 *)
        if Z.ltb now (clk w) then None
        else let e := mkE now pat d in
             Some (tick (set_trk w t (mkT (cnt T) (pats T) (ltime T) (rate T) (locked T) (hist T ++ [e]))) now, PPop, [EvPush t e])
    | PPop => (* :72-74 *)
        Some (if Nat.ltb max_history_size (length (hist T))
              then set_trk w t (mkT (cnt T) (pats T) (ltime T) (rate T) (locked T) (tl (hist T))) else w, PUnlock, [])
    | PUnlock => (* :75 *)
        Some (set_trk w t (mkT (cnt T) (pats T) (ltime T) (rate T) false (hist T)), PNow, [])
    | PNow => (* :226 *) if Z.ltb now (clk w) then None else Some (tick w now, PLast now, [])
    | PLast n => (* :227, :230 *)
        Some (w, if Z.ltb one_second_count (n - lct w) then PCas n (lct w) else PDone, [])
    | PCas n last => (* :232-233 compare_exchange_strong *)
        if Z.eqb (lct w) last then Some (mkW (trk w) n (lcc w) (clk w), PCount n last, []) else Some (w, PDone, [])
    | PCount n last => (* :235 *) Some (w, PXchg n last (cnt T), [])
    | PXchg n last cur => (* :236-237 *) Some (mkW (trk w) (lct w) cur (clk w), PRead n last cur (lcc w), [])
    | PRead n last cur old => (* :247 *) Some (w, PWrite n last cur old (rate T), [])
    | PWrite n last cur old r => (* :239-244, :248-250 *)
        Some (set_trk w t (mkT (cnt T) (pats T) (ltime T)
                (smooth (new_rate ((cur + 2 ^ 64 - old) mod 2 ^ 64) (n - last)) r) (locked T) (hist T)), PDone, [])
    | _ => None
    end
  | Reset t =>
    let T := trk w t in
    match p with
    | PStart => (* :165 *) Some (set_trk w t (mkT 0 (pats T) (ltime T) (rate T) (locked T) (hist T)), QRate, [])
    | QRate => (* :166 *) Some (set_trk w t (mkT (cnt T) (pats T) (ltime T) (S754_zero false) (locked T) (hist T)), QTime, [])
    | QTime => (* :167 *) Some (set_trk w t (mkT (cnt T) (pats T) 0 (rate T) (locked T) (hist T)), QPat 0, [])
    | QPat i => (* :169-171 *)
        if Nat.ltb i (length (pats T))
        then Some (set_trk w t (mkT (cnt T) (nth_zero (pats T) i) (ltime T) (rate T) (locked T) (hist T)), QPat (S i), [])
        else Some (w, QLock, [])
    | QLock => (* :173 *)
        if locked T then None
        else Some (set_trk w t (mkT (cnt T) (pats T) (ltime T) (rate T) true (hist T)), QClear, [])
    | QClear => (* :174 *) Some (set_trk w t (mkT (cnt T) (pats T) (ltime T) (rate T) (locked T) []), QUnlock, [])
    | QUnlock => Some (set_trk w t (mkT (cnt T) (pats T) (ltime T) (rate T) false (hist T)), PDone, [])
    | _ => None
    end
  | PatternDistribution t =>
    let T := trk w t in
    match p with
    | PStart => (* :108-109 *)
        if N.eqb (cnt T) 0 then Some (w, PDone, [EvRet c (RDist (repeat (S754_zero false) 6))])
        else Some (w, DPat (cnt T) 0 [], [])
    | DPat total i acc => (* :112-117 *)
        if Nat.ltb i (length (pats T))
        then Some (w, DPat total (S i) (acc ++ [sdiv (sofZ (Z.of_N (nth i (pats T) 0))) (sofZ (Z.of_N total))]), [])
        else Some (w, PDone, [EvRet c (RDist acc)])
    | _ => None
    end
  | RecentErrors t k =>
    let T := trk w t in
    match p with
    | PStart => (* :190 *)
        if locked T then None
        else Some (set_trk w t (mkT (cnt T) (pats T) (ltime T) (rate T) true (hist T)), RCopy, [])
    | RCopy => (* :192-200 *)
        let n := Nat.min k (length (hist T)) in
        Some (w, RUnlock (skipn (length (hist T) - n) (hist T)), [])
    | RUnlock l => Some (set_trk w t (mkT (cnt T) (pats T) (ltime T) (rate T) false (hist T)), PDone, [EvRet c (RRecent l)])
    | _ => None
    end
  end.

(* getErrorRate :86-88, isErrorRateExceeded :140-142, getTotalErrorCount :95-97, getPatternCount :126-132 *)
Definition getErrorRate (T : tracker) : sf := rate T.
Definition isErrorRateExceeded (T : tracker) (threshold : sf) : bool := fgt (getErrorRate T) threshold.
Definition getTotalErrorCount (T : tracker) : N := cnt T.
Definition getPatternCount (T : tracker) (p : nat) : N := if Nat.ltb p (length (pats T)) then nth p (pats T) 0 else 0.
(* :149-159 ticks per millisecond; None: milliseconds::max(), "no errors yet" *)
Definition getTimeSinceLastError (den : Z) (now : Z) (T : tracker) : option Z :=
  if Z.eqb (ltime T) 0 then None else Some (Z.quot (now - ltime T) (Z.quot den 1000)).

(** *** Threads.  A thread is the list of calls it has still to finish; only the head has started. *)
Definition thread := list (call * pc).
Record config := mkC { wld : world; ths : list thread }.
Definition start (progs : list (list call)) : config := mkC world0 (map (map (fun c => (c, PStart))) progs).
Definition set_nth {A} (l : list A) (i : nat) (v : A) : list A := firstn i l ++ v :: skipn (S i) l.

(* thread [i] takes one action *)
Definition step (i : nat) (now : Z) (c : config) : option (config * list (nat * event)) :=
  match nth_error (ths c) i with
  | Some ((cl, p) :: rest) =>
    match act cl p now (wld c) with
    | Some (w', p', ev) =>
        Some (mkC w' (set_nth (ths c) i (match p' with PDone => rest | _ => (cl, p') :: rest end)), map (pair i) ev)
    | None => None
    end
  | _ => None
  end.
(* a schedule: which thread acts, and what the clock says *)
Fixpoint run (sch : list (nat * Z)) (c : config) : option (config * list (nat * event)) :=
  match sch with
  | [] => Some (c, [])
  | (i, now) :: r =>
    match step i now c with
    | Some (c1, e1) => match run r c1 with Some (c2, e2) => Some (c2, e1 ++ e2) | None => None end
    | None => None
    end
  end%list.
