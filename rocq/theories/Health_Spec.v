(** What the health-tracking properties talk about. *)
From Coq Require Import List NArith ZArith Bool.
Import ListNotations.
From Verif Require Import Outcome Words Arith Floats Crc_Model CrcTMR_Model Health_Model.
Local Open Scope N_scope.

(** a double comparing inside [lo, hi]; excludes NaN *)
Definition between (lo hi h : sf) : Prop := fle lo h = true /\ fle h hi = true.
(** the last [n] elements *)
Definition lastn {A} (n : nat) (l : list A) : list A := skipn (length l - n) l.

(** histories of a HealthWeightedTMR: user calls and upsets; a history in which some call has undefined
    behaviour has no resulting state *)
Inductive hop := HSet (v : N) | HGet | HRepair | HRegenerate | HCorrupt (i : nat) (v k : N).
Definition hstep (sg : bool) (t : aty) (s : hw) (o : hop) : outcome hw :=
  match o with
  | HSet v => Ret (hw_set t s v)
  | HGet => obind (hw_get sg t s) (fun p => Ret (snd p))
  | HRepair => hw_repair sg t s
  | HRegenerate => Ret (hw_regenerate t s)
  | HCorrupt i v k => Ret (hw_corrupt s i v k)
  end.
Fixpoint hrun (sg : bool) (t : aty) (s : hw) (l : list hop) : outcome hw :=
  match l with [] => Ret s | o :: r => obind (hstep sg t s o) (fun s' => hrun sg t s' r) end.

(** histories of a tmr::EnhancedTMR; [now] and [draw] are chosen by the environment *)
Inductive eop := TSet (v : N) | TGet (now : Z) (draw : sf) | TVerify | TRegenerate | TReset
  | TConfig (iv : Z) (hwv : bool) | TCorrupt (i : nat) (v k : N) | TSetRaw (i : nat) (v : N).
Definition estep (t : aty) (s : te) (o : eop) : outcome te :=
  let st {A} (r : outcome (A * te)) := obind r (fun p => Ret (snd p)) in
  match o with
  | TSet v => st (te_set t v s)
  | TGet now draw => st (te_get t now draw s)
  | TVerify => st (te_verify t s)
  | TRegenerate => st (te_regenerate t s)
  | TReset => st (te_reset s)
  | TConfig iv hwv => st (te_config iv hwv s)
  | TCorrupt i v k => Ret (te_corrupt i v k s)
  | TSetRaw i v => st (te_setRaw t i v s)
  end.
Fixpoint erun (t : aty) (s : te) (l : list eop) : outcome te :=
  match l with [] => Ret s | o :: r => obind (estep t s o) (fun s' => erun t s' r) end.
Definition is_raw (o : eop) : bool := match o with TSetRaw _ _ => true | _ => false end.

Definition te_healths (s : te) : list sf := [eh (e0 s); eh (e1 s); eh (e2 s)].
Definition hw_healths (s : hw) : list sf := [hh (h0 s); hh (h1 s); hh (h2 s)].
Definition hw_hists (s : hw) : list (list bool) := [hist (h0 s); hist (h1 s); hist (h2 s)].
(** the smallest positive double *)
Definition tiny : sf := sf64 1.
