(** What the temporal-redundancy, checkpoint and hybrid properties talk about. *)
From Coq Require Import List NArith ZArith Bool.
Import ListNotations.
From Verif Require Import Outcome Health_Spec Stuck_Model Temporal_Model.

(** two results the map cannot tell apart; how often a result occurs *)
Definition same {V} (lt : V -> V -> bool) (a b : V) : bool := negb (lt a b) && negb (lt b a).
Definition occurrences {V} (lt : V -> V -> bool) (x : V) (l : list V) : nat := length (filter (same lt x) l).
(** std::less is a strict weak order on the values satisfying P *)
Record ordered {V} (lt : V -> V -> bool) (P : V -> Prop) : Prop := {
  ord_irr : forall a, P a -> lt a a = false;
  ord_trans : forall a b c, P a -> P b -> P c -> lt a b = true -> lt b c = true -> lt a c = true;
  ord_cmp : forall a b c, P a -> P b -> P c -> lt a b = true -> lt a c = true \/ lt c b = true }.

(** the checkpoint requests that are accepted: those at least [iv] after the previously accepted one *)
Fixpoint accepted {T} (iv last : Z) (l : list (T * N * Z)) : list (T * N * Z) :=
  match l with
  | [] => []
  | (d, v, now) :: r => if (now - last <? iv)%Z then accepted iv last r else (d, v, now) :: accepted iv now r
  end.
Definition requests {T} (l : list (T * N * Z)) (c : cm T) : cm T :=
  fold_left (fun c '(d, v, now) => createCheckpoint d v now c) l c.
Definition newest {A} (l : list A) : option A := hd_error (rev l).

(** histories of a HybridRedundancy: set at a time, upset of a copy *)
Inductive yop := YSet (v : N) (now : Z) | YUpset (k : nat) (u : N).
Definition ystep t (h : hy) (o : yop) : hy :=
  match o with YSet v now => hy_set t v now h | YUpset k u => with_tmr h (st_corrupt k u (tmr h)) end.
Fixpoint set_times (l : list yop) : list Z :=
  match l with [] => [] | YSet _ now :: r => now :: set_times r | _ :: r => set_times r end.
Fixpoint set_values (l : list yop) : list N :=
  match l with [] => [] | YSet v _ :: r => v :: set_values r | _ :: r => set_values r end.
(** consecutive times (and the start) at least d apart *)
Fixpoint spaced (d start : Z) (l : list Z) : Prop :=
  match l with [] => True | x :: r => (d <= x - start)%Z /\ spaced d x r end.

(** faults striking before each execution: lists of (copy, new contents) *)
Definition strike (f : nat -> list (nat * N)) (i : nat) (s : st) : st :=
  fold_left (fun s '(k, u) => st_corrupt k u s) (f i) s.
(** the states that the successive executions read *)
Fixpoint seen (w : N) (up : nat -> st -> st) (i n : nat) (s : st) : list st :=
  match n with O => [] | S n => let s1 := up i s in s1 :: seen w up (S i) n (snd (st_get w s1)) end.
(** at least two copies hold v *)
Definition two_hold (v : N) (s : st) : bool :=
  let a := N.eqb (sc (s0 s)) v in let b := N.eqb (sc (s1 s)) v in let c := N.eqb (sc (s2 s)) v in
  (a && b) || (a && c) || (b && c).
