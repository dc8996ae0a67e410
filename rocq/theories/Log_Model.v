(** Model of LG = include/rad_ml/core/logger.hpp.  A path is any type with decidable equality; [opens p] says whether the file can be opened.
    Simplifications: the time stamp is left out and a line is its level and message; writes to an open file succeed. *)
From Coq Require Import List Bool Arith.
Import ListNotations.

(* LG:25-31 *)
Inductive LogLevel := LDEBUG | LINFO | LWARNING | LERROR | LCRITICAL.
Definition rank (l : LogLevel) : nat := match l with LDEBUG => 0 | LINFO => 1 | LWARNING => 2 | LERROR => 3 | LCRITICAL => 4 end.
Section Logger.
Context {path msg : Type}.
Variable opens : path -> bool.
(* LG:156-160; file_path_ is only read by the call of init that has just set it *)
Record logger := mkLg { lg_level : LogLevel; lg_to_file : bool; lg_stream : option path }.
Definition logger0 : logger := mkLg LINFO false None.
(** the calls, and where lines go *)
Inductive lcall := LInit (level : LogLevel) (to_file : bool) (file : path) | LLog (level : LogLevel) (m : msg) | LClose.
Inductive line := Console (l : LogLevel) (m : msg) | InFile (p : path) (l : LogLevel) (m : msg).
(* LG:45-54 *)
Definition log_init (s : logger) (level : LogLevel) (to_file : bool) (file : path) : logger :=
  mkLg level to_file (match lg_stream s with Some p => Some p | None => if to_file && opens file then Some file else None end).
(* LG:118-136 *)
Definition log_log (s : logger) (level : LogLevel) (m : msg) : list line :=
  if rank level <? rank (lg_level s) then []
  else Console level m :: (if lg_to_file s then match lg_stream s with Some p => [InFile p level m] | None => [] end else []).
(* LG:104-109 *)
Definition log_close (s : logger) : logger := mkLg (lg_level s) (lg_to_file s) None.
Definition lcall_do (s : logger) (c : lcall) : logger * list line :=
  match c with LInit l f p => (log_init s l f p, []) | LLog l m => (s, log_log s l m) | LClose => (log_close s, []) end.
Fixpoint log_run (s : logger) (h : list lcall) : logger * list line :=
  match h with [] => (s, []) | c :: r => let '(s1, o1) := lcall_do s c in let '(s2, o2) := log_run s1 r in (s2, o1 ++ o2) end.
End Logger.
Arguments lcall : clear implicits.
Arguments line : clear implicits.
Arguments logger : clear implicits.

(** Several threads (LG:118-136): a call first compares its level with level_, without the mutex; a line is then written to the console and to the file with the
    mutex held.  init holds the mutex while it sets level_ (LG:46-47; what follows it is left out here).  The file is open. *)
Inductive tcall (msg : Type) := TLog (l : LogLevel) (m : msg) | TInit (l : LogLevel).
Arguments TLog {msg}. Arguments TInit {msg}.
(** where a thread is in its call: at its start, waiting for the mutex, holding it, about to write to the file *)
Inductive tpc := T0 | TWait | THeld | TFile.
Record tstate (msg : Type) := mkT { t_level : LogLevel; t_lock : option nat; t_console : list (nat * msg); t_file : list (nat * msg); t_threads : list (list (tcall msg) * tpc) }.
Arguments mkT {msg}. Arguments t_level {msg}. Arguments t_lock {msg}. Arguments t_console {msg}. Arguments t_file {msg}. Arguments t_threads {msg}.
Definition threads_new {msg} (level : LogLevel) (progs : list (list (tcall msg))) : tstate msg := mkT level None [] [] (map (fun p => (p, T0)) progs).
Definition put {A} (l : list A) (i : nat) (v : A) : list A := firstn i l ++ v :: skipn (S i) l.
Definition tstep {msg} (i : nat) (s : tstate msg) : option (tstate msg) :=
  let at_ p pc lock := mkT (t_level s) lock (t_console s) (t_file s) (put (t_threads s) i (p, pc)) in
  match nth_error (t_threads s) i with
  | Some (TLog l m :: r, T0) => (* LG:119-121 *) Some (if rank l <? rank (t_level s) then at_ r T0 (t_lock s) else at_ (TLog l m :: r) TWait (t_lock s))
  | Some (TLog l m :: r, TWait) => (* LG:123 *) match t_lock s with None => Some (at_ (TLog l m :: r) THeld (Some i)) | Some _ => None end
  | Some (TLog l m :: r, THeld) => (* LG:125-131 *) Some (mkT (t_level s) (t_lock s) (t_console s ++ [(i, m)]) (t_file s) (put (t_threads s) i (TLog l m :: r, TFile)))
  | Some (TLog l m :: r, TFile) => (* LG:133-135 *) Some (mkT (t_level s) None (t_console s) (t_file s ++ [(i, m)]) (put (t_threads s) i (r, T0)))
  | Some (TInit l :: r, T0) => (* LG:46 *) match t_lock s with None => Some (at_ (TInit l :: r) THeld (Some i)) | Some _ => None end
  | Some (TInit l :: r, _) => (* LG:47-54 *) Some (mkT l None (t_console s) (t_file s) (put (t_threads s) i (r, T0)))
  | _ => None
  end.
Fixpoint trun {msg} (sch : list nat) (s : tstate msg) : option (tstate msg) :=
  match sch with [] => Some s | i :: r => match tstep i s with Some s' => trun r s' | None => None end end.
