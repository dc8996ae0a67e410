(** Model of EP = include/rad_ml/neural/error_predictor.hpp for T = double.  std::log10 and std::exp are parameters, and so are the
    numbers the constructor draws: draw k is the k-th one.  The 3x5 and 5x1 weight matrices are kept by hidden unit: a unit has its
    three input weights, its bias and its output weight. *)
From Coq Require Import List NArith ZArith Bool Arith SpecFloat.
Import ListNotations.
From Verif Require Import Words Floats Bits_Model Qft_Model.
Local Open Scope Z_scope.

(* EP:178-191 *)
Record hunit := mkU { u_log : sf; u_lin : sf; u_one : sf; u_bias : sf; u_out : sf }.
Record epred := mkE { e_units : list hunit; e_bias : sf }.
(* EP:118-155; the draws come row by row *)
Definition epred_new (draw : nat -> sf) : epred :=
  let u j := mkU (draw j) (draw (5 + j)%nat) (draw (10 + j)%nat) d0 (draw (15 + j)%nat) in
  mkE [mkU (dq 15 100) (dq 25 100) (u_one (u 0%nat)) d0 (dq 20 100);
       mkU (dq 30 100) (u_lin (u 1%nat)) (u_one (u 1%nat)) d0 (dq 35 100);
       u 2%nat; u 3%nat; u 4%nat] (dq 5 100).

Section Lib.
Variables fexp flog10 : sf -> sf.
(* EP:39-43, 63-67 *)
Definition features (level : sf) : sf * sf * sf := (flog10 (dadd level (dq 1 (10 ^ 10)%positive)), dmul level (dofZ 10000000), d1).
(* EP:157-168: one unit *)
Definition hidden (f : sf * sf * sf) (u : hunit) : sf :=
  let '(x, y, z) := f in
  fmax d0 (dadd (dadd (dadd (dadd d0 (dmul x (u_log u))) (dmul y (u_lin u))) (dmul z (u_one u))) (u_bias u)).
(* EP:170-181 *)
Definition output (p : epred) (f : sf * sf * sf) : sf :=
  let raw := dadd (fold_left (fun acc u => dadd acc (dmul (hidden f u) (u_out u))) (e_units p) d0) (e_bias p) in
  ddiv d1 (dadd d1 (fexp (SFopp raw))).
(* EP:37-51 *)
Definition predictErrorRate (p : epred) (level : sf) : sf := fmax d0 (fmin d1 (output p (features level))).
(* EP:84-115: one unit; the hidden error is taken before the output weight changes *)
Definition train_unit (f : sf * sf * sf) (err : sf) (u : hunit) : hunit :=
  let lr := dq 1 100 in
  let h := hidden f u in
  let he := dmul (dadd d0 (dmul err (u_out u))) (if flt d0 h then d1 else d0) in
  let '(x, y, z) := f in
  mkU (dadd (u_log u) (dmul (dmul lr he) x)) (dadd (u_lin u) (dmul (dmul lr he) y)) (dadd (u_one u) (dmul (dmul lr he) z))
      (dadd (u_bias u) (dmul lr he)) (dadd (u_out u) (dmul (dmul lr err) h)).
(* EP:59-116 *)
Definition updateModel (p : epred) (level rate : sf) : epred :=
  let f := features level in
  let err := dsub rate (output p f) in
  mkE (map (train_unit f err) (e_units p)) (dadd (e_bias p) (dmul (dq 1 100) err)).
End Lib.

(* EP:200-222: the class of the same name in the global namespace *)
Definition plain_predict (s : sf) : sf :=
  if flt s (dq 1 (10 ^ 8)%positive) then dadd (dq 1 100) (ddiv (dmul (dsub s (dq 1 (10 ^ 9)%positive)) (dofZ 4)) (dq 9 (10 ^ 9)%positive))
  else if flt s (dq 1 (10 ^ 7)%positive) then dadd (dq 5 100) (ddiv (dmul (dsub s (dq 1 (10 ^ 8)%positive)) (dq 10 100)) (dq 9 (10 ^ 8)%positive))
  else if flt s (dq 1 (10 ^ 6)%positive) then dadd (dq 15 100) (ddiv (dmul (dsub s (dq 1 (10 ^ 7)%positive)) (dq 15 100)) (dq 9 (10 ^ 7)%positive))
  else dadd (dq 30 100) (fmin (dq 60 100) (ddiv (dmul (dsub s (dq 1 (10 ^ 6)%positive)) (dq 60 100)) (dq 9 (10 ^ 6)%positive))).
