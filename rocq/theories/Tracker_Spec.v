(** What the error-tracker properties talk about. *)
From Coq Require Import String List NArith ZArith Bool SpecFloat.
Import ListNotations.
From Verif Require Import Outcome Floats Tracker_Model.

(** every call of every thread has returned *)
Definition finished (c : config) : Prop := forall th, In th (ths c) -> th = [].
(** recordError calls on object t; of them, those with pattern p *)
Definition errors_on (t : nat) (c : call) : bool :=
  match c with RecordError t' _ _ => Nat.eqb t' t | _ => false end.
Definition errors_with (t p : nat) (c : call) : bool :=
  match c with RecordError t' p' _ => Nat.eqb t' t && Nat.eqb p' p | _ => false end.
Definition how_many (f : call -> bool) (progs : list (list call)) : N := N.of_nat (List.length (filter f (concat progs))).
Definition never_reset (t : nat) (progs : list (list call)) : Prop := forall pr, In pr progs -> ~ In (Reset t) pr.
(** the (pattern, data) of the calls of one thread that carry data *)
Fixpoint details (t : nat) (pr : list call) : list (nat * string) :=
  match pr with
  | [] => []
  | RecordError t' p d :: r => if Nat.eqb t' t && negb (String.eqb d EmptyString) then (p, d) :: details t r else details t r
  | _ :: r => details t r
  end.
(** records logged for object t, in the order the history mutex was taken; by thread k only *)
Fixpoint logged (t : nat) (ev : list (nat * event)) : list erec :=
  match ev with
  | [] => []
  | (_, EvPush t' e) :: r => if Nat.eqb t' t then e :: logged t r else logged t r
  | _ :: r => logged t r
  end.
Definition by_thread (k : nat) (ev : list (nat * event)) : list (nat * event) := filter (fun '(i, _) => Nat.eqb i k) ev.
Definition lastn {A} (n : nat) (l : list A) : list A := skipn (List.length l - n) l.

(** a schedule in which every action takes at least two clock ticks (2 ns) *)
Fixpoint ticking (from : Z) (sch : list (nat * Z)) : Prop :=
  match sch with [] => True | (_, now) :: r => (from + 2 <= now < 2 ^ 63)%Z /\ ticking now r end.

(** concrete schedules and numbers.  [whole i now]: thread i makes one recordError call without data, all clock reads giving [now] *)
Definition half : sf := slit 1 2.
Definition zero_s : sf := S754_zero false.
Definition whole (i : nat) (now : Z) : list (nat * Z) := repeat (i, now) 11.
Definition E0 (t : nat) : call := RecordError t 0 EmptyString.
Definition rate_after (progs : list (list call)) (sch : list (nat * Z)) (t : nat) : option sf :=
  option_map (fun '(c, _) => getErrorRate (trk (wld c) t)) (run sch (start progs)).
Definition sec : Z := 1000000000.
Definition s2 : Z := (2 * 1000000000)%Z.
Definition s3 : Z := (3 * 1000000000)%Z.
Definition s4 : Z := (4 * 1000000000)%Z.
Definition million : sf := sofZ 1000000.
Definition race : list (nat * Z) :=
  (whole 0 sec ++                        (* one error: lct = 1 s, last count = 1 *)
   repeat (0, s2) 7 ++              (* thread 0 wins the CAS at 2 s ... *)
   repeat (0, s2) 1 ++              (* ... and loads error_count = 2 *)
   whole 1 s3 ++                  (* thread 1 does a whole call: last count = 3 *)
   repeat (0, s3) 3).           (* thread 0 exchanges: 2 - 3 wraps *)
Definition only (w : world) (cl : call) : config := mkC w [[(cl, PStart)]].
Definition in_unit (x : sf) : Prop := fle zero_s x = true /\ fle x (sofZ 1) = true.
Definition recent_schedule : list (nat * Z) := repeat (0, 5%Z) 15 ++ repeat (1, 6%Z) 3.
