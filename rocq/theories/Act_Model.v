(** Model of AC = include/rad_ml/neural/activation.hpp for T = double; std::exp and std::tanh are parameters. *)
From Coq Require Import List NArith ZArith Bool Arith SpecFloat.
Import ListNotations.
From Verif Require Import Words Floats Bits_Model Qft_Model.
Local Open Scope Z_scope.

(* AC:17-24 *)
Inductive Activation := LINEAR | RELU | SIGMOID | TANH | SOFTMAX | LEAKY_RELU.
(* AC:41: the float 0.01f, converted to double *)
Definition leak : sf := dq 10737418 (2 ^ 30)%positive.
(* AC:33-48: SOFTMAX falls under default *)
Definition getActivationFunction (fexp ftanh : sf -> sf) (type : Activation) : sf -> sf :=
  match type with
  | RELU => fun x => if flt d0 x then x else d0
  | SIGMOID => fun x => ddiv d1 (dadd d1 (fexp (SFopp x)))
  | TANH => fun x => ftanh x
  | LEAKY_RELU => fun x => if flt d0 x then x else dmul leak x
  | _ => fun x => x
  end.
