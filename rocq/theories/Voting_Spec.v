(** What a vote should return, and what fault masks are: bit by bit, no code. *)
From Coq Require Import NArith Bool.
Local Open Scope N_scope.

Definition maj3 (x y z : bool) : bool := (x && y) || (x && z) || (y && z).

(** [r] is the bitwise majority of [a], [b], [c]. *)
Definition bitwise_majority (a b c r : N) : Prop :=
  forall i, N.testbit r i = maj3 (N.testbit a i) (N.testbit b i) (N.testbit c i).

(** No bit position is set in two of the three masks. *)
Definition no_shared_bit (m1 m2 m3 : N) : Prop :=
  forall i, (N.testbit m1 i && N.testbit m2 i = false) /\
            (N.testbit m1 i && N.testbit m3 i = false) /\
            (N.testbit m2 i && N.testbit m3 i = false).

(** [m] is a run of [len] adjacent bits starting at bit [lo]. *)
Definition adjacent_run (m lo len : N) : Prop :=
  forall i, N.testbit m i = (lo <=? i) && (i <? lo + len).
