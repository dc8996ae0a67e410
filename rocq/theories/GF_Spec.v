(** What the Galois-field and Reed-Solomon properties talk about. *)
From Coq Require Import List NArith ZArith Bool.
Import ListNotations.
From Verif Require Import Outcome GF_Model.
Local Open Scope N_scope.

(** Polynomials over GF(2) are numbers: bit i is the coefficient of x^i.  Their product without carries: *)
Fixpoint pmul_pos (a : N) (b : positive) : N :=
  match b with
  | xH => a
  | xO b => 2 * pmul_pos a b
  | xI b => N.lxor a (2 * pmul_pos a b)
  end.
Definition pmul (a b : N) : N := match b with 0 => 0 | Npos p => pmul_pos a p end.
(** r is the remainder of x modulo the polynomial P of degree m *)
Definition remainder_of (m P x r : N) : Prop := r < 2 ^ m /\ exists q, x = N.lxor (pmul q P) r.

(** the laws of a field on the carrier {x | el x} with addition xor, 0 and 1 *)
Record field_laws (el : N -> Prop) (mul : N -> N -> N) (inv : N -> N) : Prop := {
  fl_zero : el 0; fl_one : el 1;
  fl_add : forall a b, el a -> el b -> el (N.lxor a b);
  fl_mul : forall a b, el a -> el b -> el (mul a b);
  fl_inv : forall a, el a -> a <> 0 -> el (inv a);
  fl_comm : forall a b, el a -> el b -> mul a b = mul b a;
  fl_assoc : forall a b c, el a -> el b -> el c -> mul a (mul b c) = mul (mul a b) c;
  fl_distr : forall a b c, el a -> el b -> el c -> mul a (N.lxor b c) = N.lxor (mul a b) (mul a c);
  fl_unit : forall a, el a -> mul 1 a = a;
  fl_inverse : forall a, el a -> a <> 0 -> mul a (inv a) = 1
}.
(** a * a * ... * a, n factors *)
Definition power (mul : N -> N -> N) (a n : N) : N := N.iter n (mul a) 1.

(** the two field instances whose constructor is well defined *)
Definition good_field (p : N * N) : Prop := p = GF16 \/ p = GF1024.
(** the field elements *)
Definition elem (p : N * N) (x : N) : Prop := x < 2 ^ fst p.
Definition elems (p : N * N) (l : list N) : Prop := Forall (elem p) l.
(** the value of a polynomial (highest degree first) for a given multiplication *)
Definition value (mul : N -> N -> N) (poly : list N) (x : N) : N :=
  fold_left (fun r c => N.lxor (mul r x) c) poly 0.
(** Reed-Solomon configurations whose field is constructed without undefined behaviour and whose symbols
    hold a field element: 4-bit symbols, or more than 8 bits *)
Definition good_config (SymbolSize ECCSymbols data_size : N) : Prop :=
  (SymbolSize = 4 \/ 8 < SymbolSize <= 16) /\ 1 <= data_size /\
  1 <= ECCSymbols < 255 /\ ECCSymbols < 2 ^ fst (field_of SymbolSize).
(** the object's symbols *)
Definition symbols (SymbolSize data_size : N) (data : list N) : list N :=
  elements SymbolSize (N.to_nat (data_symbols SymbolSize data_size)) data.
(** an object of type T *)
Definition object (data_size : N) (data : list N) : Prop :=
  N.of_nat (length data) = data_size /\ Forall (fun b => b < 256) data.
Definition all_zero (data : list N) : Prop := Forall (eq 0) data.
