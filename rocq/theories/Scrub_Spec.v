(** What the scrubber properties talk about. *)
From Coq Require Import List NArith ZArith Bool.
Import ListNotations.
From Verif Require Import Outcome Arith Crc_Spec Crc_Model Scrub_Model.
Local Open Scope N_scope.

(** from a recorded history of (operation, result): the registrations not yet unregistered, in order *)
Definition removes {W} (h : N) (x : cs_op W * cs_res W) : bool :=
  match fst x with OUnregister h' => N.eqb h' h | _ => false end.
Fixpoint live {W} (past : list (cs_op W * cs_res W)) : list (N * (W -> W)) :=
  match past with
  | [] => []
  | (ORegister f, RHandle h) :: r => if existsb (removes h) r then live r else (h, f) :: live r
  | _ :: r => live r
  end.
(** handles returned so far *)
Fixpoint issued {W} (past : list (cs_op W * cs_res W)) : list N :=
  match past with
  | [] => []
  | (ORegister _, RHandle h) :: r => h :: issued r
  | _ :: r => issued r
  end.
Definition reentrant {W} (x : N * callback W) : Prop := exists f, snd x = Reentrant f.
(** apply functions one after the other *)
Definition in_turn {W} (fs : list (W -> W)) (w : W) : W := fold_left (fun w f => f w) fs w.

(** every region of a legacy scrubber is small; all memory bytes are bytes *)
Definition small (s : lscrub) : Prop := Forall (fun r => (rsize r <= 64)%nat) (lregions s).
(** n scrub cycles: the numbers they return *)
Fixpoint scrubs (n : nat) (m : memory) (s : lscrub) : list N * lscrub :=
  match n with
  | O => ([], s)
  | S k => let '(e, m', s') := scrubMemory m s in let '(l, s2) := scrubs k m' s' in (e :: l, s2)
  end.
(** memory after a change *)
Definition poke (m : memory) (a : nat) (v : N) : memory := fun i => if Nat.eqb i a then v else m i.
(** the sequential histories of a legacy scrubber: registrations and removals *)
Inductive lop := LReg (addr size : nat) | LUnreg (h : N) | LScrubAll | LPoke (a : nat) (v : N).
Fixpoint lrun (l : list lop) (m : memory) (s : lscrub) : list N * memory * lscrub :=   (* handles issued *)
  match l with
  | [] => ([], m, s)
  | LReg a n :: r => let '(h, s1) := ls_register m a n s in let '(hs, m', s') := lrun r m s1 in (h :: hs, m', s')
  | LUnreg h :: r => lrun r m (snd (ls_unregister h s))
  | LScrubAll :: r => lrun r m (snd (scrubMemory m s))
  | LPoke a v :: r => lrun r (poke m a v) s
  end.
Definition registrations (l : list lop) : nat := length (filter (fun o => match o with LReg _ _ => true | _ => false end) l).

(** the memory after a recorded history *)
Definition mem_after {W} (past : list (cs_op W * cs_res W)) (w0 : W) : W :=
  fold_left (fun w x => match fst x with OWrite g => g w | OScrub => match snd x with RScrub _ b => b | _ => w end | _ => w end) past w0.
(** what one (operation, result) must look like after [past] *)
Definition cs_good {W} (past : list (cs_op W * cs_res W)) (o : cs_op W) (x : cs_res W) : Prop :=
  match o with
  | ORegister f => exists h, x = RHandle h /\ ~ In h (issued past)
  | OUnregister h => x = RBool (existsb (fun y => N.eqb (fst y) h) (live past))
  | OScrub => exists w, x = RScrub w (in_turn (map snd (live past)) w)
  | OWrite _ => x = RWrite
  end.
Fixpoint regcount {W} (l : list (cs_op W)) : nat :=
  match l with [] => 0%nat | ORegister _ :: r => S (regcount r) | _ :: r => regcount r end.
Definition fresh (m : memory) (r : lregion) : Prop := rsize r = 0%nat \/ rcrc r = Scrubber_calculateCRC32 (bytes_at m (raddr r) (rsize r)).
(** an operation that does not change memory and registers only regions of at most 64 bytes *)
Definition quiet (o : lop) : Prop := match o with LReg _ n => (n <= 64)%nat | LPoke _ _ => False | _ => True end.
