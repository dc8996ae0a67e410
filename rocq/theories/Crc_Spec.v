(** Byte strings as bit strings, and error patterns.  No reference to any CRC code. *)
From Coq Require Import List NArith.
Import ListNotations.
Local Open Scope N_scope.

Definition is_bytes (bs : list N) : Prop := Forall (fun b => b < 256) bs.

(** bit [i] of a byte string: bit (i mod 8) of byte (i / 8) *)
Definition msg_bit (bs : list N) (i : N) : bool :=
  N.testbit (nth (N.to_nat (i / 8)) bs 0) (i mod 8).

(** all differing bits lie in a window of [w] consecutive bits *)
Definition differ_within (w : N) (bs bs' : list N) : Prop :=
  exists lo, forall i, msg_bit bs i <> msg_bit bs' i -> lo <= i < lo + w.

(** the set of differing bit positions is exactly [ps] *)
Definition differ_exactly (ps : list N) (bs bs' : list N) : Prop :=
  forall i, msg_bit bs i <> msg_bit bs' i <-> In i ps.
