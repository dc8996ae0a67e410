(** What the multi-bit protection properties talk about. *)
From Coq Require Import List NArith ZArith Bool SpecFloat.
Import ListNotations.
From Verif Require Import Words Floats MBP_Model.
Local Open Scope N_scope.

Definition word (v : N) : Prop := v < 2 ^ 32.
(** an object that has just been constructed with, or assigned, the value v (whatever it held before) *)
Definition holding (s : mbp) (c : scheme) (v : N) : Prop :=
  s = mb_new v c \/ exists s0, length (ecc_data_ s0) = 32%nat /\ coding_scheme_ s0 = c /\ s = setValue s0 v.
(** radiation changes the stored value to w *)
Definition hit_value (s : mbp) (w : N) : mbp := mkmb w (coding_scheme_ s) (ecc_data_ s) (valid_ s).
(** radiation changes check byte k to x *)
Definition hit_check (s : mbp) (k : N) (x : N) : mbp := mkmb (value_ s) (coding_scheme_ s) (lset (ecc_data_ s) (N.to_nat k) x) (valid_ s).
(** bit i flipped *)
Definition flipped (v i : N) : N := N.lxor v (2 ^ i).
Definition even_bits (x : N) : Prop := N.odd (popcount x) = false.
(** v and w differ exactly in byte k *)
Definition differ_in_byte (k v w : N) : Prop := word v /\ word w /\ k < 4 /\ v <> w /\ forall i, i / 8 <> k -> N.testbit v i = N.testbit w i.
(** the draws lie in the ranges of the distributions *)
Definition below_one (x : sf) : Prop := fle (dofZ 0) x = true /\ flt x (dofZ 1) = true.
Definition draws (t : upset) (o : oracle) : Prop :=
  match t with
  | SINGLE_BIT => int1 o 0 <= 31
  | ADJACENT_BITS => int1 o 0 <= 29 /\ 2 <= int2 o 0 <= 3
  | ROW_UPSET => int1 o 0 <= 3 /\ forall i, int2 o i <= 7
  | COLUMN_UPSET => int1 o 0 <= 7 /\ forall i, int2 o i <= 3
  | RANDOM_MULTI => forall i, int1 o i <= 31
  end.
(** which damage each kind of upset may do *)
Definition damage (t : upset) (e : N) : Prop :=
  match t with
  | SINGLE_BIT => e = 0 \/ exists i, i < 32 /\ e = 2 ^ i
  | ADJACENT_BITS => e = 0 \/ (exists i, i + 1 < 32 /\ e = 2 ^ i + 2 ^ (i + 1)) \/ (exists i, i + 2 < 32 /\ e = 2 ^ i + 2 ^ (i + 1) + 2 ^ (i + 2))
  | ROW_UPSET => exists k, k < 4 /\ forall i, N.testbit e i = true -> i / 8 = k
  | COLUMN_UPSET => exists b, b < 8 /\ forall i, N.testbit e i = true -> i < 32 /\ i mod 8 = b
  | RANDOM_MULTI => word e /\ popcount e <= 8
  end.
