(** What the stuck-bit properties talk about. *)
From Coq Require Import List NArith ZArith Bool.
From Verif Require Import Outcome Words Arith Floats Stuck_Model.
Local Open Scope N_scope.

(** the physical defect: bit [b] of copy [k] always reads [p] *)
Definition stick (k : nat) (b : N) (p : bool) (s : st) : st :=
  st_corrupt k (if p then N.setbit (sc (ssel s k)) b else N.clearbit (sc (ssel s k)) b) s.
(** [n] repair() calls with the defect present before and after each *)
Fixpoint repairs (w : N) (k : nat) (b : N) (p : bool) (n : nat) (s : st) : st :=
  match n with O => s | S n => stick k b p (st_repair w (repairs w k b p n s)) end.
(** the three copies replaced by arbitrary contents *)
Definition contents (s : st) (x y z : N) : st :=
  st_corrupt 2 z (st_corrupt 1 y (st_corrupt 0 x s)).
(** the element of a triple that copy [i] holds *)
Definition at_ (x y z : N) (i : nat) : N := match i with 0%nat => x | 1%nat => y | _ => z end.
