(** What a residual network should do.  From the model: types, fields, float arithmetic on patterns. *)
From Coq Require Import List NArith ZArith Bool Arith Permutation SpecFloat.
Import ListNotations.
From Verif Require Import Outcome Floats PNN_Model PNN_Spec Residual_Model.
Local Open Scope N_scope.

(** A network built by a constructor and used in any way. *)
Definition rreachable (s : rnn) : Prop := exists layer_sizes level init s0 ops, rnn_new layer_sizes level init = Ret s0 /\ rrun s0 ops = Ret s.
(** After these calls on a network of n layers, is there a connection from f to t?  The last call that added or removed it decides;
    only connections from a layer to a later one of the network can be added. *)
Definition connected (n : N) (ops : list rop) (f t : N) : bool :=
  fold_left (fun b o => match o with
    | RAdd f' t' => if (f' =? f) && (t' =? t) && (f <? t) && (t <? n) then true else b
    | RRemove f' t' => if (f' =? f) && (t' =? t) then false else b
    | _ => b end) ops false.
(** size_t arguments *)
Definition size_t (n : N) : Prop := n < 2 ^ 64.
Definition size_args (o : rop) : Prop := match o with RAdd f t | RRemove f t | RProject f t _ => size_t f /\ size_t t | _ => True end.
(** what can be in the map of a network: keys of chars, patterns of floats, sizes that are size_t *)
Definition storable (it : list (str * conn)) : Prop :=
  NoDup (map fst it) /\ size_t (N.of_nat (length it)) /\
  Forall (fun p => Forall (fun c => c < 256) (fst p) /\ size_t (N.of_nat (length (fst p))) /\ Forall (fun w => w < 2 ^ 32) (cweights (snd p)) /\ 4 * N.of_nat (length (cweights (snd p))) < 2 ^ 64) it.
(** the same connection with the identity as projection *)
Definition plain_conn (p : str * conn) : str * conn := (fst p, mkConn (fun v => v) (cweights (snd p)) (protected (snd p))).
(** The mean over the outputs of the squared differences to the labels, as far as there are labels, in single precision and in order. *)
Definition label_error (out labels : list N) : N :=
  let total := fold_left (fun acc p => f32add acc (f32mul (f32sub (fst p) (snd p)) (f32sub (fst p) (snd p)))) (combine out labels) 0 in
  match out with [] => total | _ => f32div total (f32ofN (N.of_nat (length out))) end.
