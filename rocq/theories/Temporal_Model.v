(** TR = include/rad_ml/tmr/temporal_redundancy.hpp        (tmr::TemporalRedundancy<T, ResultType>)
    CM = include/rad_ml/core/recovery/checkpoint_manager.hpp (core::recovery::CheckpointManager<T>)
    HR = include/rad_ml/tmr/hybrid_redundancy.hpp          (tmr::HybridRedundancy<T>, integral T)

    The operation passed to execute() is a function of the execution number and of a state it may
    change (faults between executions included).  Sleeping is not modelled.  Time points and durations are nanoseconds in Z. *)
From Coq Require Import List NArith ZArith Bool SpecFloat.
Import ListNotations.
From Verif Require Import Outcome Words Arith Floats Health_Model Stuck_Model.

(** *** TemporalRedundancy; [ltV] is std::less<ResultType> *)
Section TR.
Context {V S : Type}.
Variable ltV : V -> V -> bool.
(* TR:84-87: result_counts[result]++ on a key-ordered map *)
Fixpoint count_in (m : list (V * nat)) (k : V) : list (V * nat) :=
  match m with
  | [] => [(k, 1%nat)]
  | (k', n) :: r =>
      if ltV k' k then (k', n) :: count_in r k
      else if ltV k k' then (k, 1%nat) :: m
      else (k', (n + 1)%nat) :: r
  end.
(* std::max_element: first of the largest *)
Definition max_element (m : list (V * nat)) : option (V * nat) :=
  match m with
  | [] => None
  | x :: r => Some (fold_left (fun best y => if (snd best <? snd y)%nat then y else best) r x)
  end.
(* TR:82-97 findMostCommonResult *)
Definition findMostCommonResult (l : list V) : outcome V :=
  match max_element (fold_left count_in l []) with
  | None => UB UB_deref_end                         (* max_element->first with max_element == end() *)
  | Some (k, _) => Ret k
  end.
(* TR:43-60 execute *)
Fixpoint run_n (op : S -> V * S) (n : nat) (s : S) : list V * S :=
  match n with
  | O => ([], s)
  | Datatypes.S n => let '(r, s1) := op s in let '(l, s2) := run_n op n s1 in (r :: l, s2)
  end.
Definition execute (n : nat) (op : S -> V * S) (s : S) : outcome (V * S) :=
  let '(l, s') := run_n op n s in obind (findMostCommonResult l) (fun r => Ret (r, s')).
End TR.

(** *** CheckpointManager *)
Section CM.
Context {T : Type}.
Record cp := mkcp { version : N; data : T; stamp : Z }.
Record cm := mkcm { cps : list cp; max_cp : nat; interval : Z; last : Z }.
(* CM:28-33 *)
Definition cm_new (mx : nat) (iv now : Z) : cm := mkcm [] mx iv now.
(* CM:41-57 *)
Definition createCheckpoint (d : T) (ver : N) (now : Z) (c : cm) : cm :=
  if (now - last c <? interval c)%Z then c
  else
    let l := cps c ++ [mkcp ver d now] in
    mkcm (if (max_cp c <? length l)%nat then tl l else l) (max_cp c) (interval c) now.
(* CM:65-72 *)
Definition getLatestCheckpoint (c : cm) : option T :=
  match rev (cps c) with [] => None | x :: _ => Some (data x) end.
(* CM:81-89 *)
Definition rollbackToVersion (ver : N) (c : cm) : option T :=
  match find (fun x => N.eqb (version x) ver) (rev (cps c)) with Some x => Some (data x) | None => None end.
(* CM:98-106 *)
Definition rollbackToValid (ok : T -> bool) (c : cm) : option T :=
  match find (fun x => ok (data x)) (rev (cps c)) with Some x => Some (data x) | None => None end.
End CM.
Arguments cm : clear implicits.
Arguments cp : clear implicits.

(** *** HybridRedundancy<T> for an integral T of [w] bits (std::map keys ordered by [sg]) *)
Record hy := mkhy { tmr : st; nexec : nat; delay : Z; mgr : option (cm N); level : sf; cpver : N; conf : sf }.
Section HY.
Variable sg : bool.
Variable t : aty.
Definition second : Z := 1000000000.
Definition d2 : sf := dofZ 2.
Definition d5 : sf := dofZ 5.
Definition hyw : N := width t.
(* HR:24-30 constructor *)
Definition hy_new (v : N) (now : Z) : hy :=
  mkhy (st_construct v) 3 10 (Some (cm_new 5 (30 * second) now)) d1 0 d06.
Definition with_tmr (h : hy) (s : st) : hy := mkhy s (nexec h) (delay h) (mgr h) (level h) (cpver h) (conf h).
(* HR:40-47 get: [upset i] are the faults striking the copies between executions *)
Definition hy_op (p : nat * (nat -> st -> st) * st) : N * (nat * (nat -> st -> st) * st) :=
  let '(i, up, s) := p in
  let '(r, s') := st_get hyw (up i s) in (r, (Datatypes.S i, up, s')).
Definition hy_get (up : nat -> st -> st) (h : hy) : outcome (N * hy) :=
  obind (execute (ltK sg t) (nexec h) hy_op (0%nat, up, tmr h))
    (fun '(r, (_, _, s')) => Ret (r, with_tmr h s')).
(* HR:114-118 checkpoint *)
Definition hy_checkpoint (now : Z) (h : hy) : hy :=
  match mgr h with
  | None => h
  | Some c =>
      let '(v, s') := st_get hyw (tmr h) in
      mkhy s' (nexec h) (delay h) (Some (createCheckpoint v (N.modulo (cpver h + 1) (2 ^ 64)) now c)) (level h)
           (N.modulo (cpver h + 1) (2 ^ 64)) (conf h)
  end.
(* HR:54-59 set *)
Definition hy_set (v : N) (now : Z) (h : hy) : hy :=
  hy_checkpoint now (with_tmr h (st_set v (tmr h))).
(* HR:125-137 rollback *)
Definition hy_rollback (h : hy) : bool * hy :=
  match mgr h with
  | None => (false, h)
  | Some c => match getLatestCheckpoint c with
              | Some v => (true, with_tmr h (st_set v (tmr h)))
              | None => (false, h)
              end
  end.
(* HR:66-87 repair *)
Definition hy_repair (up : nat -> st -> st) (h : hy) : outcome (bool * hy) :=
  let s := st_repair hyw (tmr h) in
  let '(before, s1) := st_get hyw s in
  obind (hy_get up (with_tmr h s1)) (fun '(after, h') =>
    if (before =? after)%N then Ret (true, h') else Ret (hy_rollback h')).
(* HR:94-111, 183-196 updateRadiationEnvironment, adjustVotingThresholds *)
Definition hy_environment (lv : sf) (h : hy) : hy :=
  let '(n, d) := if fgt lv d5 then (5%nat, 20%Z) else if fgt lv d2 then (4%nat, 15%Z) else (3%nat, 10%Z) in
  mkhy (tmr h) n d (mgr h) lv (cpver h)
    (if fgt lv d5 then d09 else if fgt lv d2 then dlit 8 10 else d06).
(* HR:147-151 enableCheckpointing *)
Definition hy_enable (mx : nat) (secs now : Z) (h : hy) : hy :=
  mkhy (tmr h) (nexec h) (delay h) (Some (cm_new mx (secs * second) now)) (level h) (cpver h) (conf h).
End HY.
