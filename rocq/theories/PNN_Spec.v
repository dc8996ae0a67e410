(** What a protected network should do.  From the model: types, fields, float arithmetic on patterns and [value_]. *)
From Coq Require Import List NArith ZArith Bool Arith SpecFloat.
Import ListNotations.
From Verif Require Import Outcome Floats MBP_Model MBP_Spec PNN_Model.
Local Open Scope N_scope.

(** The parameters a network computes with: for every layer the matrix (rows: inputs) and the biases. *)
Definition params (s : pnn) : list (list (list N) * list N) := combine (map (map (map value_)) (wts s)) (map (map value_) (bss s)).
(** One dense layer: for each neuron j, the activation of bias j plus the sum over i of weight (i, j) times input i, in this order. *)
Definition dense (f : N -> N) (w : list (list N)) (b : list N) (x : list N) : list N :=
  map (fun j => f (fold_left (fun acc i => f32add acc (f32mul (nth j (nth i w []) 0) (nth i x 0))) (seq 0 (length x)) (nth j b 0))) (seq 0 (length b)).
Fixpoint network (ps : list (list (list N) * list N)) (fs : list (N -> N)) (x : list N) : list N :=
  match ps, fs with
  | (w, b) :: ps, f :: fs => network ps fs (dense f w b x)
  | _, _ => x
  end.
(** A network built by the constructor and then used in any way. *)
Definition reachable (s : pnn) : Prop := exists layer_sizes level init s0 ops, pnn_new layer_sizes level init = Ret s0 /\ run s0 ops = Ret s.
(** Everything but the counter of checks. *)
Definition same_network (s s' : pnn) : Prop :=
  sizes s' = sizes s /\ lvl s' = lvl s /\ wts s' = wts s /\ bss s' = bss s /\ acts s' = acts s /\ mirror s' = mirror s /\ st s' = st s.
(** Levels and radiation at which activations are not voted on. *)
Definition no_vote (s : pnn) (rad : sf) : Prop := (lvl s <> FULL_TMR /\ lvl s <> ADAPTIVE_TMR) \/ fgt rad (dlit 2 10) = false.
(** The simulated upsets never hit the same bit of both copies. *)
Definition flips1 (rad : sf) (d : act_draw) : bool := flt (u1 d) (dmul rad (dlit 1 10)).
Definition flips2 (rad : sf) (d : act_draw) : bool := flt (u2 d) (dmul rad (dlit 1 10)).
Definition legal_act (d : act_draw) : Prop := byte1 d < 4 /\ bit1 d < 8 /\ byte2 d < 4 /\ bit2 d < 8.
Definition no_collision (rad : sf) (d : nat -> nat -> act_draw) : Prop :=
  forall l i, flips1 rad (d l i) = true -> flips2 rad (d l i) = true -> (byte1 (d l i), bit1 (d l i)) <> (byte2 (d l i), bit2 (d l i)).
(** activation functions that return floats *)
Definition float_valued (fs : list (N -> N)) : Prop := forall f x, In f fs -> f x < 2 ^ 32.
(** matrices *)
Definition matrix (rows cols : nat) (m : list (list N)) : Prop := length m = rows /\ Forall (fun r => length r = cols) m.
Definition drawn_weight (ws : list wdraw) (l i j : nat) : Prop := exists d, In d ws /\ wl d = l /\ wi d = i /\ wj d = j.
Definition drawn_bias (bs : list bdraw) (l j : nat) : Prop := exists d, In d bs /\ bl d = l /\ bj d = j.
Definition weight_at (s : pnn) (l i j : nat) : option N := option_map value_ (get3 (wts s) l i j).
Definition bias_at (s : pnn) (l j : nat) : option N := option_map value_ (get2 (bss s) l j).
(** calls that neither simulate radiation nor touch getLayers() *)
Definition plain (o : op) : Prop := match o with ORadiation _ _ _ | OLayers _ => False | _ => True end.
(** everything but the parameters and the layer copies *)
Definition same_rest (s s' : pnn) : Prop := sizes s' = sizes s /\ lvl s' = lvl s /\ counter s' = counter s /\ acts s' = acts s /\ st s' = st s.
(** the layer copies have the sizes of the layers *)
Definition shape (ps : list (list (list N) * list N)) : list (list nat * nat) := map (fun p => (map (@length N) (fst p), length (snd p))) ps.
Definition mirror_fits (s : pnn) : Prop := shape (mirror s) = shape (params s).
(** calls that do not resize what getLayers() gives access to *)
Definition keeps_shape (s : pnn) (o : op) : Prop := match o with OLayers m => shape m = shape (params s) | _ => True end.
(** what the distributions of a simulated event can answer *)
Definition legal_wdraw (s : pnn) (d : wdraw) : Prop :=
  (wl d < length (wts s))%nat /\ (wi d < nth (wl d) (sizes s) O)%nat /\ (wj d < nth (S (wl d)) (sizes s) O)%nat /\
  valid_binary 53 1024 (wu d) = true /\ fle (dofZ 0) (wu d) = true /\ fle (wu d) (dofZ 1) = true /\ draws (wtype d) (worc d) /\ wbyte d < 4 /\ wbit d < 8.
Definition legal_bdraw (s : pnn) (d : bdraw) : Prop := (bl d < length (wts s))%nat /\ (bj d < nth (S (bl d)) (sizes s) O)%nat /\ bbyte d < 4 /\ bbit d < 8.
(** A network built by the constructor and used in any way that does not resize what getLayers() gives access to. *)
Definition tidy (s : pnn) : Prop :=
  exists layer_sizes level init s0 ops, pnn_new layer_sizes level init = Ret s0 /\ Forall (keeps_shape s0) ops /\ run s0 ops = Ret s.
(** ... without simulated radiation and without edits through getLayers() *)
Definition plainly_used (s : pnn) : Prop :=
  exists layer_sizes level init s0 ops, pnn_new layer_sizes level init = Ret s0 /\ Forall plain ops /\ run s0 ops = Ret s.
(** The mean squared error over samples (input, expected output), in single precision, summed in order. *)
Definition squared_error (out expected : list N) : N :=
  f32div (fold_left (fun acc i => f32add acc (f32mul (f32sub (nth i out 0) (nth i expected 0)) (f32sub (nth i out 0) (nth i expected 0)))) (seq 0 (length out)) 0)
         (f32ofN (N.of_nat (length out))).
Definition mean_squared_error (f : list N -> list N) (samples : list (list N * list N)) : N :=
  f32div (fold_left (fun acc p => f32add acc (squared_error (f (fst p)) (snd p))) samples 0) (f32ofN (N.of_nat (length samples))).
(** [data] is the concatenation of the samples' inputs, [labels] of their expected outputs. *)
Definition samples_of (nin nout : nat) (samples : list (list N * list N)) (data labels : list N) : Prop :=
  data = concat (map fst samples) /\ labels = concat (map snd samples) /\ samples <> [] /\
  Forall (fun p => length (fst p) = nin /\ length (snd p) = nout) samples.
