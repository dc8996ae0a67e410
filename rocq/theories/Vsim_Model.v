(** Model of the free function calculateSimilarity of EP = include/rad_ml/advanced/error_prediction.hpp for T = float. *)
From Coq Require Import List NArith ZArith Bool Arith SpecFloat.
Import ListNotations.
From Verif Require Import Words Floats.

(* EP:210-213: one element *)
Definition add_sq (acc : sf) (p : sf * sf) : sf := let diff := ssub (fst p) (snd p) in sadd acc (smul diff diff).
(* EP:204-218; the sizes are equal where the elements are paired *)
Definition vsimilarity (a b : list sf) : sf :=
  if negb (length a =? length b) || (length a =? 0) then S754_zero false
  else sdiv (sofZ 1) (sadd (sofZ 1) (SFsqrt 24 128 (fold_left add_sq (combine a b) (S754_zero false)))).
