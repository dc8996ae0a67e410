(** What the radiation-protection simulations should do, in terms of single bit strikes.  Nothing here depends on how the
    simulations compute; from the model only the input types are used. *)
From Coq Require Import List NArith ZArith Bool Arith.
Import ListNotations.
From Verif Require Import Outcome Words Floats FloatsR Edac_Model.

(** A cell is one bit of memory: (byte index, bit index).  A strike inverts a cell. *)
Definition cell := (nat * nat)%type.
Definition cell_eqb (p q : cell) : bool := (fst p =? fst q)%nat && (snd p =? snd q)%nat.
Definition times (p : cell) (l : list cell) : nat := length (filter (cell_eqb p) l).
(** after all strikes the cell holds the opposite of what it held *)
Definition inverted (l : list cell) (p : cell) : bool := Nat.odd (times p l).
Definition bytes (m : list N) : Prop := Forall (fun x => (x < 256)%N) m.
Definition bit_at (m : list N) (p : cell) : bool := N.testbit (nth (fst p) m 0%N) (N.of_nat (snd p)).
(** the first [w] bits of [n] bytes *)
Definition cells (w n : nat) : list cell := flat_map (fun i => map (pair i) (seq 0 w)) (seq 0 n).
Definition count {A} (P : A -> bool) (l : list A) : N := N.of_nat (length (filter P l)).

(** The events that upset memory, and where they strike. *)
Definition upsets {D} (es : list (event * D)) : list (event * D) := filter (fun ed => hits (fst ed)) es.
Definition own_cell (n : nat) (e : event) : cell := (N.to_nat (eoffset e mod N.of_nat n), N.to_nat (ebits e mod 8)).
Definition drawn (o : option N) (own : nat) : nat := match o with None => own | Some x => N.to_nat x end.
(** strikes on the memory itself and on its two copies *)
Definition strike1 (n : nat) (ed : event * tmr_draw) : list cell :=
  let '(e, d) := ed in if hit1 d then [(drawn (loc1 d) (fst (own_cell n e)), drawn (bit1 d) (snd (own_cell n e)))] else [].
Definition strike2 (n : nat) (ed : event * tmr_draw) : list cell :=
  let '(e, d) := ed in if hit2 d then [(drawn (loc2 d) (fst (own_cell n e)), drawn (bit2 d) (snd (own_cell n e)))] else [].
Definition strike3 (n : nat) (ed : event * tmr_draw) : list cell :=
  let '(e, d) := ed in if hit3 d then [(drawn (loc3 d) (fst (own_cell n e)), drawn (bit3 d) (snd (own_cell n e)))] else [].
Definition on_memory n es := flat_map (strike1 n) (upsets es).
Definition on_copy1 n es := flat_map (strike2 n) (upsets es).
Definition on_copy2 n es := flat_map (strike3 n) (upsets es).
Definition below (b : N) (o : option N) : Prop := match o with None => True | Some x => (x < b)%N end.
Definition legal_tmr (n : nat) (es : list (event * tmr_draw)) : Prop :=
  Forall (fun ed => let d := snd ed in below (N.of_nat n) (loc1 d) /\ below (N.of_nat n) (loc2 d) /\ below (N.of_nat n) (loc3 d) /\
                    below 8 (bit1 d) /\ below 8 (bit2 d) /\ below 8 (bit3 d)) es.
(** at least two of three *)
Definition two_of (a b c : bool) : bool := (a && b) || (a && c) || (b && c).
Definition lost n es (p : cell) : bool := two_of (inverted (on_memory n es) p) (inverted (on_copy1 n es) p) (inverted (on_copy2 n es) p).
Definition upset n es (p : cell) : bool := inverted (on_memory n es) p || inverted (on_copy1 n es) p || inverted (on_copy2 n es) p.

(** EDAC: byte k of the memory is stored as two 7-bit codewords, number 2k and 2k+1.  A multi-bit upset strikes 2 bits, a
    latchup 3, each in either codeword. *)
Definition how_many_bits (e : event) : nat := match etype e with BIT_FLIP => 1 | MULTI_BIT_UPSET => 2 | LATCHUP => 3 | TRANSIENT => 0 end.
Definition edac_strikes1 (n : nat) (ed : event * list (bool * N)) : list cell :=
  map (fun d : bool * N => (2 * fst (own_cell n (fst ed)) + (if fst d then 0 else 1), N.to_nat (snd d))%nat) (firstn (how_many_bits (fst ed)) (snd ed)).
Definition edac_strikes (n : nat) (es : list (event * list (bool * N))) : list cell := flat_map (edac_strikes1 n) es.
Definition legal_edac (es : list (event * list (bool * N))) : Prop :=
  Forall (fun ed => (how_many_bits (fst ed) <= length (snd ed))%nat /\ Forall (fun d => (snd d < 7)%N) (snd ed)) es.
(** number of inverted bits of a codeword *)
Definition weight (l : list cell) (cw : nat) : nat := length (filter (fun b => inverted l (cw, b)) (seq 0 7)).
Definition recoverable (l : list cell) (k : nat) : bool := (weight l (2 * k) <=? 1)%nat && (weight l (2 * k + 1) <=? 1)%nat.
Definition damaged (l : list cell) (k : nat) : bool := (1 <=? weight l (2 * k))%nat || (1 <=? weight l (2 * k + 1))%nat.

(** Scrubbing: the event strikes its own cell. *)
Definition scrub_strikes (n : nat) (es : list event) : list cell := map (own_cell n) (filter hits es).

(** The answers a conforming generator gives, for every technique. *)
Definition legal_run (n : nat) (r : run) : Prop :=
  match r with RTMR es => legal_tmr n es | REDAC es => legal_edac es | RNone _ | RScrub _ => True end.
(** At most this many events: no `int` counter can overflow. *)
Definition MAX_EVENTS : nat := N.to_nat 715827882.
