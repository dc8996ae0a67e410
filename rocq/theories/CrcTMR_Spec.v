(** Corruption patterns and histories for checksummed TMR. *)
From Coq Require Import List NArith.
Import ListNotations.
From Verif Require Import Outcome Words Arith Floats Crc_Model CrcTMR_Model.
Local Open Scope N_scope.

(** [w] differs from [v], and only inside one window of 32 consecutive bits *)
Definition burst32 (v w : N) : Prop :=
  w <> v /\ exists lo, forall i, N.testbit v i <> N.testbit w i -> lo <= i < lo + 32.

(** equal copies and checksums, statistics ignored *)
Definition same_data (s s' : tmr3) : Prop := c0 s = c0 s' /\ c1 s = c1 s' /\ c2 s = c2 s'.

(** each copy holds [v] or a burst of it; checksums are those of [v] *)
Definition hit_values (crc : N -> N) (s : tmr3) (v x y z : N) : tmr3 :=
  mk3 (mkcell x (crc v)) (mkcell y (crc v)) (mkcell z (crc v)) (detected s) (corrected s) (uncorrectable s).

(** histories of user calls and upsets (arbitrary copy and checksum at any time) *)
Inductive et_op := ESet (v : N) | EGet | ERepair | EReset | ECopy (o : tmr3) | ECorrupt (k : nat) (c : cell).
Definition et_step (t : aty) (s : tmr3) (o : et_op) : tmr3 :=
  match o with
  | ESet v => set (et_crc t) s v
  | EGet => snd (et_get t s)
  | ERepair => snd (et_repair t s)
  | EReset => resetErrorStats s
  | ECopy o => copy_of o
  | ECorrupt k c => corrupt s k c
  end.
Definition balanced (s : tmr3) : Prop := detected s = corrected s + uncorrectable s.

Definition fin3 t a b c := is_finite t a = true /\ is_finite t b = true /\ is_finite t c = true.

(** no two copies compare equal *)
Definition no_pair (t : aty) (a b c : N) : Prop := eqT t a b = false /\ eqT t a c = false /\ eqT t b c = false.

(** exactly two copies are finite, one of them is a zero and they are not within 1000 epsilon *)
Definition stuck_pair (t : aty) (a b c : N) : Prop :=
  exists f0 f1, filter (is_finite t) [a; b; c] = [f0; f1] /\
    (is_zero t f0 = true \/ is_zero t f1 = true) /\ close t f0 f1 = false.

(** get() takes a vote over the three values: all checksums valid, or none *)
Definition votes (crc : N -> N) (s : tmr3) : Prop := valid_count crc s = 3 \/ valid_count crc s = 0.
