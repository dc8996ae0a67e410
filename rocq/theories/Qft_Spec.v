(** Vocabulary of the properties of the quantum field library, independent of how the model computes. *)
From Coq Require Import List NArith ZArith Bool Reals SpecFloat.
Import ListNotations.
From Flocq.IEEE754 Require Import BinarySingleNaN.
From Verif Require Import Outcome Words Floats FloatsR HealthFloat Qft_Model.

Definition is_double (x : sf) : Prop := valid_binary 53 1024 x = true.
Definition finite_double (x : sf) : Prop := is_double x /\ is_finite_SF x = true.
(** x is a finite double with lo <= x <= hi *)
Definition between (lo hi : Rdefinitions.R) (x : sf) : Prop := finite_double x /\ (lo <= R x <= hi)%R.

(** what is promised about std::exp(double): NaN for NaN, otherwise a double that is not negative; at most 1 below zero, and there
    at least 1 + x up to a rounding slack *)
Record exp_lib (f : sf -> sf) : Prop := {
  exp_nan : f S754_nan = S754_nan;
  exp_dbl : forall x, is_double x -> is_double (f x);
  exp_pos : forall x, is_double x -> x <> S754_nan -> fle d0 (f x) = true;
  exp_le1 : forall x, is_double x -> fle x d0 = true -> fle (f x) d1 = true;
  exp_lin : forall x, finite_double x -> (-1 <= R x <= 0)%R -> (1 + R x - / 1000000 <= R (f x))%R
}.
Definition lib_mono (f : sf -> sf) : Prop := forall x y, is_double x -> is_double y -> fle x y = true -> fle (f x) (f y) = true.
(** what is promised about std::pow(x, 2): a double that is not negative, and for ratios of at most one accurate to six digits *)
Record pow2_lib (f : sf -> sf) : Prop := {
  pow2_dbl : forall x, is_double x -> is_double (f x);
  pow2_pos : forall x, is_double x -> x <> S754_nan -> fle d0 (f x) = true;
  pow2_acc : forall x, finite_double x -> (0 <= R x <= 1)%R -> finite_double (f x) /\ (Rabs (R (f x) - R x * R x) <= / 1000000)%R
}.
(** std::abs of a complex number is not negative (or NaN), and zero at zero *)
Record abs_lib (f : cplx -> sf) : Prop := {
  abs_sign : forall v, match f v with S754_nan => True | S754_zero s | S754_infinity s | S754_finite s _ _ => s = false end;
  abs_zero : f czero = d0
}.

Local Open Scope Z_scope.
(** ** grids *)
Definition int32 (z : Z) : Prop := - 2 ^ 31 <= z < 2 ^ 31.
Fixpoint points (dims : list Z) : Z := match dims with [] => 1 | d :: r => d * points r end.
(** a position inside the grid *)
Definition inside (dims pos : list Z) : Prop := Forall2 (fun p d => 0 <= p < d) pos dims.
(** a field as a user gets one: built by the constructor, then written to any number of times *)
Inductive call := CSet (pos : list Z) (v : cplx) | CType (t : ptype).
Definition call_step (f : field) (c : call) : field :=
  match c with
  | CSet pos v => match setFieldAt f pos v with Ret g => g | _ => f end
  | CType t => setParticleType f t
  end.
Definition call_run (f : field) (h : list call) : field := fold_left call_step h f.
(** the value a user expects at pos after the calls *)
Fixpoint pos_eqb (p q : list Z) : bool :=
  match p, q with [], [] => true | x :: a, y :: b => (x =? y) && pos_eqb a b | _, _ => false end.
Definition last_value (h : list call) (pos : list Z) : cplx :=
  fold_left (fun v c => match c with CSet p w => if pos_eqb p pos then w else v | CType _ => v end) h czero.
(** a field of [points dims] points of the given grid, small enough for its indices to fit in an int *)
Definition built (f : field) : Prop :=
  Forall (fun d => 0 < d <= int_max) (f_dims f) /\ Z.of_nat (length (f_data f)) = points (f_dims f) /\ points (f_dims f) <= 2 ^ 31.
Definition same_shape (f g : field) : Prop := f_type g = f_type f /\ f_spacing g = f_spacing f /\ f_dims g = f_dims f /\ length (f_data g) = length (f_data f).
Fixpoint iter {A} (n : nat) (g : A -> A) (x : A) : A := match n with O => x | S k => iter k g (g x) end.

(** ** bit flips *)
(** how many bits of two byte buffers differ *)
Definition byte_diff (a b : N) : nat := length (filter (fun i => negb (Bool.eqb (N.testbit a i) (N.testbit b i))) [0; 1; 2; 3; 4; 5; 6; 7]%N).
Fixpoint diff_bits (a b : list N) : nat := match a, b with x :: r, y :: s => (byte_diff x y + diff_bits r s)%nat | _, _ => O end.
Definition draw_ok (size : nat) (d : draw) : Prop :=
  finite_double (d_prob d) /\ (0 <= R (d_prob d) < 1)%R /\ (N.to_nat (d_byte d) < size)%nat /\ (d_bit d < 8)%N.
Definition is_byte (b : N) : Prop := (b < 256)%N.
(** squared distance of a position from the centre of the grid, each axis in units of half its length *)
Definition centre_distance2 (dims pos : list Z) : sf :=
  fold_left dadd (map (fun dp => let c := ddiv (dofZ (fst dp)) (dofZ 2) in let r := ddiv (dsub (dofZ (snd dp)) c) c in dmul r r) (combine dims pos)) d0.
(** a small field holding one value everywhere *)
Definition uniform (t : ptype) (dims : list Z) (v : cplx) : field := mkF t d1 dims (repeat v (Z.to_nat (points dims))).
Definition unit_damping : qparams := mkQ hbar_ev default_masses default_couplings d1 d1 (dofZ (10 ^ 15)) (dofZ (10 ^ 15)) d1 (dofZ 150) (dofZ 100) (dq 1 100).
