(** Vocabulary for the triplicated value wrappers. *)
From Coq Require Import List NArith Bool.
Import ListNotations.
From Verif Require Import Words Arith.
Local Open Scope N_scope.

(** copies (a, b, c) of the value [v] of which at most one was overwritten, by [x] *)
Definition one_copy_hit (v x a b c : N) : Prop :=
  (a, b, c) = (x, v, v) \/ (a, b, c) = (v, x, v) \/ (a, b, c) = (v, v, x).

(** bits lo .. lo+len-1 of [m] are all set; [L] is the length of the longest such run *)
Definition ones_run (m lo len : N) : Prop := forall i, lo <= i < lo + len -> N.testbit m i = true.
Definition longest_ones (m L : N) : Prop :=
  (exists lo, ones_run m lo L) /\ forall lo len, ones_run m lo len -> len <= L.

(** all set bits of [m] lie in byte number [j] *)
Definition in_byte (m j : N) : Prop := forall i, N.testbit m i = true -> 8 * j <= i < 8 * j + 8.

(** a spread-out burst: 2..16 flipped bits, not all in one byte, whose longest run has at least 3
    bits and 3/5 of the flips but less than 7/9 of them *)
Definition loose_burst (m : N) : Prop :=
  2 <= popcount m <= 16 /\ (forall j, ~ in_byte m j) /\
  exists L, longest_ones m L /\ 3 <= L /\ 3 * popcount m <= 5 * L /\ 9 * L < 7 * popcount m.

(** stored bit number of bit [i] of copy [c] in the interleaved layout *)
Definition stored_at (i c : N) : N := 3 * i + c.

(** no logical bit below [w] is flipped in two of its three stored bits *)
Definition spread_flips (w m : N) : Prop := forall i c c', i < w -> c < 3 -> c' < 3 -> c <> c' ->
  N.testbit m (stored_at i c) = true -> N.testbit m (stored_at i c') = true -> False.
