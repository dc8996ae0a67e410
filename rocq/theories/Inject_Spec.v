(** What the fault injectors should do.  From the model only input types are used. *)
From Coq Require Import List NArith ZArith Bool Arith Reals.
Import ListNotations.
From Verif Require Import Outcome Floats FloatsR HealthFloat Edac_Model Edac_Spec Inject_Model.

(** ** SystematicFaultInjector *)
Local Open Scope Z_scope.
(** The bit aimed at: the given one (the last one if it lies beyond), or a random one. *)
Definition target (w pos drawn : Z) : Z := if pos <? 0 then drawn else Z.min pos (w - 1).
(** The bits each pattern affects in a value of [w] bits, aimed at [s]; [n] adjacent bits. *)
Definition affected (p : pattern) (w s n j : Z) : bool :=
  match p with
  | SINGLE_BIT | STUCK_AT_ZERO | STUCK_AT_ONE => j =? s
  | ADJACENT_BITS => (j - s) mod w <? n
  | BYTE_ERROR => j / 8 =? s / 8
  | WORD_ERROR => j / 32 =? s / 32
  | ROW_COLUMN => (j / 8 =? s / 8) || (j mod 8 =? s mod 8)
  | BURST_ERROR => false
  end.
Definition flips (p : pattern) : bool := match p with STUCK_AT_ZERO | STUCK_AT_ONE | BURST_ERROR => false | _ => true end.
Definition legal_fi (w : Z) (d : fi_draw) : Prop :=
  0 <= fstart d < w /\ (fadj d = 2 \/ fadj d = 3) /\ 0 <= fburst d < w /\ (14 <= length (fnormal d))%nat.
Definition bit (v : N) (j : Z) : bool := N.testbit v (Z.to_N j).

(** ** memory *)
(** number of bits in which two memories of the same size differ *)
Definition distance (a b : list N) : N := count (fun p => xorb (bit_at a p) (bit_at b p)) (cells 8 (length a)).
(** they agree everywhere but in byte [i] *)
Definition only_byte (i : nat) (a b : list N) : Prop := length b = length a /\ forall k, k <> i -> nth k b 0%N = nth k a 0%N.
(** the flips a list of (byte, bit) answers stands for *)
Definition as_cells (ds : list (N * N)) : list cell := map (fun d => (N.to_nat (fst d), N.to_nat (snd d))) ds.
Definition legal_flips (size : nat) (ds : list (N * N)) : Prop := Forall (fun d => (fst d < N.of_nat size)%N /\ (snd d < 8)%N) ds.

(** ** testResilience: what happens in a series of trials *)
(** [None]: the fault was not detected; [Some r]: detected, and [r] says if the component works after repair. *)
Inductive trials {S} (inject : S -> S) (verify : S -> S * bool) (repair : S -> S) : S -> list (option bool) -> S -> Prop :=
| no_trial s : trials inject verify repair s [] s
| undetected s s1 l s2 : verify (inject s) = (s1, true) -> trials inject verify repair s1 l s2 -> trials inject verify repair s (None :: l) s2
| detected_ s s1 s2 r l s3 : verify (inject s) = (s1, false) -> verify (repair s1) = (s2, r) -> trials inject verify repair s2 l s3 ->
    trials inject verify repair s (Some r :: l) s3.
Definition was_detected (o : option bool) : bool := match o with Some _ => true | None => false end.
Definition was_corrected (o : option bool) : bool := match o with Some true => true | _ => false end.

(** ** RadiationSimulator *)
Definition legal_rs (size : nat) (d : rs_draw) : Prop :=
  (dloc d < N.of_nat size)%N /\ (dbit d < 8)%N /\ (2 <= dnum d <= 3)%N /\ (dstart d <= 8 - dnum d)%N /\ (dbyte d < 256)%N.
Fixpoint sumN (l : list N) : N := match l with [] => 0 | x :: r => x + sumN r end%N.

(** What one event does to the memory: a flip inverts its bit; an upset inverts [dnum] adjacent bits; a latchup leaves its bit at
    the stuck value; a transient overwrites the byte. *)
Definition effect_ok (k : effect) (d : rs_draw) (m m' : list N) : Prop :=
  let at_bit b x := bit_at x (N.to_nat (dloc d), b) in
  match k with
  | BIT_FLIP => distance m m' = 1%N /\ at_bit (N.to_nat (dbit d)) m' = negb (at_bit (N.to_nat (dbit d)) m)
  | MULTI_BIT_UPSET => distance m m' = dnum d /\
      forall b, (N.to_nat (dstart d) <= b < N.to_nat (dstart d + dnum d))%nat -> at_bit b m' = negb (at_bit b m)
  | LATCHUP => (distance m m' <= 1)%N /\ at_bit (N.to_nat (dbit d)) m' = dstuck d
  | TRANSIENT => nth (N.to_nat (dloc d)) m' 0%N = dbyte d
  end.

(** An environment with sensible numbers: altitude not negative, inclination 0..180 degrees, solar activity 0..10; [ex], the
    answer of std::exp for the shielding, lies in 0..1. *)
Local Open Scope R_scope.
Definition within (lo hi : Rdefinitions.R) (x : sf) : Prop := okd x /\ lo <= R x <= hi.
Definition sensible_env (p : env_params) (ex : sf) : Prop :=
  okd (altitude_km p) /\ 0 <= R (altitude_km p) /\ within 0 180 (inclination_deg p) /\ within 0 10 (solar_activity p) /\ within 0 1 ex.
(** a harsher environment: higher, more inclined, more active, in the anomaly, less shielded (exp is larger), for the same mission *)
Definition harsher (p : env_params) (e : sf) (q : env_params) (f : sf) : Prop :=
  mission_name p = mission_name q /\ R (altitude_km p) <= R (altitude_km q) /\ R (inclination_deg p) <= R (inclination_deg q) /\
  R (solar_activity p) <= R (solar_activity q) /\ (inside_saa p = true -> inside_saa q = true) /\ R e <= R f.
(** the four rates in order, none above the total *)
Definition ordered_rates (r : rates) : Prop :=
  okd (r_total r) /\ 0 <= R (r_trans r) <= R (r_latch r) /\ R (r_latch r) <= R (r_multi r) <= R (r_bit r) /\ R (r_bit r) <= R (r_total r).
