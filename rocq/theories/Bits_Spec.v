(** What the fixed-point, branchless, bit and result properties talk about. *)
From Coq Require Import List NArith ZArith Bool Reals.
Import ListNotations.
From Verif Require Import Outcome Approx_Model Approx_Spec Bits_Model.
Local Open Scope Z_scope.

(** x is a value of T (bool or integral) *)
Definition value_of (t : bty) (x : Z) : Prop := match t with Bool => x = 0 \/ x = 1 | Int t => in_range t x end.
(** the number a raw fixed-point value stands for *)
Definition real_of (F : Z) (v : Z) : R := (IZR v / powerRZ 2 F)%R.
(** the number of bit positions below w at which a and b differ *)
Definition hamming (w : nat) (a b : N) : N :=
  N.of_nat (length (filter (fun i => xorb (N.testbit a (N.of_nat i)) (N.testbit b (N.of_nat i))) (seq 0 w))).
(** bits below w of a value *)
Definition bits_of (w : Z) (v : Z) : N := Z.to_N (v mod 2 ^ w).
(** an integer type of at most 32 bits *)
Definition small_type (t : ity) : Prop := In t int_types /\ (iw t <= 32)%Z.
