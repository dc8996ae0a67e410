(** What radiation-aware training should do.  From the model: types, fields and the float operations. *)
From Coq Require Import List NArith ZArith Bool Arith SpecFloat.
Import ListNotations.
From Verif Require Import Outcome Floats PNN_Model PNN_Spec Train_Model.
Local Open Scope nat_scope.

(** [data] and [labels] are the inputs and the expected outputs of [samples], one after the other. *)
Definition as_samples (nin nout : nat) (samples : list (list N * list N)) (data labels : list N) : Prop :=
  data = concat (map fst samples) /\ labels = concat (map snd samples) /\ Forall (fun p => length (fst p) = nin /\ length (snd p) = nout) samples.
(** All weights (layer, row, column) and biases (layer, index) of the layers. *)
Definition weight_cells (m : list (list (list N) * list N)) : list (nat * nat * nat) :=
  flat_map (fun l => flat_map (fun i => map (fun j => (l, i, j)) (seq 0 (length (nth i (fst (nth l m ([], []))) [])))) (seq 0 (length (fst (nth l m ([], [])))))) (seq 0 (length m)).
Definition bias_cells (m : list (list (list N) * list N)) : list (nat * nat) :=
  flat_map (fun l => map (fun j => (l, j)) (seq 0 (length (snd (nth l m ([], []))))) ) (seq 0 (length m)).
Definition parameters (m : list (list (list N) * list N)) : nat := length (weight_cells m) + length (bias_cells m).
(** The probability of a flip: the base probability times the factor of the environment; times 1 + 5 c for a weight of criticality c;
    half for a bias. *)
Definition chance (r : rat) (l i j : nat) : sf :=
  let p := smul (prob r) (env_factor (env r)) in
  match (if target r then match crit r with Some m => get3 m l i j | None => None end else None) with
  | Some c => smul p (sadd (sofZ 1) (smul (sofZ 5) c))
  | None => p
  end.
Definition bias_chance (r : rat) : sf := smul (smul (prob r) (env_factor (env r))) (slit 1 2).
(** The answers of the generator under which the weight (l, i, j), the bias (l, j) is hit. *)
Definition weight_hit (r : rat) (d : idraw) (p : nat * nat * nat) : bool := let '(l, i, j) := p in flt (fst (wdr d l i j)) (chance r l i j).
Definition bias_hit (r : rat) (d : idraw) (p : nat * nat) : bool := let '(l, j) := p in flt (fst (bdr d l j)) (bias_chance r).
Definition hits (r : rat) (d : idraw) (m : list (list (list N) * list N)) : Z :=
  Z.of_nat (length (filter (weight_hit r d) (weight_cells m)) + length (filter (bias_hit r d) (bias_cells m))).
(** the pattern with one bit changed *)
Definition one_flip (v bit : N) : N := N.lxor v (2 ^ bit).
(** uniform numbers in [0, 1) and bits 0..31 *)
Definition legal_u (u : sf * N) : Prop := valid_binary 24 128 (fst u) = true /\ fle (S754_zero false) (fst u) = true /\ flt (fst u) (sofZ 1) = true /\ (snd u < 32)%N.
Definition legal_idraw (d : idraw) : Prop := (forall l i j, legal_u (wdr d l i j)) /\ (forall l j, legal_u (bdr d l j)).
(** answers for the analysis of a network with these layers *)
Definition legal_cdraw (m : list (list (list N) * list N)) (c : cdraw) : Prop :=
  forall l k, l < length m -> exists v, get3 (map fst m) l (fst (fst (c l k))) (snd (fst (c l k))) = Some v.
(** the criticality map has an entry for every weight *)
Definition crit_fits (r : rat) (m : list (list (list N) * list N)) : Prop :=
  match crit r with Some c => map (map (@length sf)) c = map (fun p => map (@length N) (fst p)) m | None => True end.
(** the fields of a configuration are ints *)
Definition is_int (z : Z) : Prop := (- 2 ^ 31 <= z < 2 ^ 31)%Z.
Definition int_config (cfg : config) : Prop := is_int (epochs cfg) /\ is_int (batch_size cfg).
(** A trainer and how it was used: any settings, and training calls that returned on any networks with any well-formed non-empty data. *)
Inductive used (expf : sf -> sf) : rat -> Prop :=
| used_new p t e : used expf (rat_new p t e)
| used_prob r p : used expf r -> used expf (setBitFlipProbability r p)
| used_target r t : used expf r -> used expf (setTargetCriticalWeights r t)
| used_env r e : used expf r -> used expf (setEnvironment r e)
| used_train r s data labels samples cfg d c r' s' a : used expf r -> reachable s -> samples <> [] -> (Z.of_nat (length samples) < 2 ^ 64)%Z -> int_config cfg -> as_samples (hd O (sizes s)) (last (sizes s) O) samples data labels ->
    rat_train expf r s data labels cfg d c = Ret (r', s', a) -> used expf r'.
(** how often a number below [n] is divisible by [k] *)
Definition multiples (n : nat) (k : Z) : list nat := filter (fun e => (Z.of_nat e mod k =? 0)%Z) (seq 0 n).
Definition sum (l : list Z) : Z := fold_right Z.add 0%Z l.
(** the weight (l, i, j) is one of the first n answers for layer l *)
Definition analysed (c : cdraw) (n l i j : nat) : Prop := exists k, k < n /\ fst (c l k) = (i, j).
