(** What the properties of AlgorithmicDiversity speak about. *)
From Coq Require Import String List NArith ZArith Bool SpecFloat Reals.
Import ListNotations.
From Verif Require Import Outcome Words Floats FloatsR HealthFloat Div_Model.

(** A reliability a caller may give: a number from 0 to 1. *)
Definition unit_score (x : sf) : Prop := okd x /\ (0 <= R x <= 1)%R.

(** Everything a caller can do to the object. *)
Inductive op :=
| Add (n : string) (f : nat) (initial : sf)
| Update (n : string) (ok : bool)
| Execute (ans again : string -> nat -> answer)
| SetSize (k : nat).
(* initial reliabilities as documented (AD:32); histories shorter than 2^53 entries (a std::vector<bool> of that size takes a petabyte) *)
Definition sensible (o : op) : Prop := match o with Add _ _ i => unit_score i | SetSize k => (Z.of_nat k < 2 ^ 53)%Z | _ => True end.
Definition apply (s : div) (o : op) : outcome div :=
  match o with
  | Add n f i => Ret (add_impl s n f i)
  | Update n ok => update s n ok
  | Execute ans again => match execute s ans again with Ret (s', _) => Ret s' | UB u => UB u | Throw e => Throw e | OutOfFuel => OutOfFuel end
  | SetSize k => Ret (set_history_size s k)
  end.
Inductive reachable : div -> Prop :=
| R_new : reachable div_new
| R_step s o s' : reachable s -> sensible o -> apply s o = Ret s' -> reachable s'.

(** The registered implementations in the order of their names, and the ones an execution consults. *)
Definition names (s : div) : list string := map nm (impls s).
Definition live (s : div) : list impl := filter (fun x => negb (flt (score x) (dlit 2 10))) (impls s).
(** The reliabilities behind the answer [r], in the order of the names, and their sum in double. *)
Definition answers (ans : string -> nat -> answer) (r : Z) (x : impl) : bool :=
  match ans (nm x) (fn x) with Gives k => (k =? r)%Z | Fails _ => false end.
Definition backing (s : div) (ans : string -> nat -> answer) (r : Z) : sf :=
  fold_left dadd (map score (filter (answers ans r) (live s))) (S754_zero false).
Definition voters (s : div) (ans : string -> nat -> answer) (r : Z) : list impl := filter (answers ans r) (live s).
(** [r] has the largest backing, and is the smallest result with that backing. *)
Definition winner (s : div) (ans : string -> nat -> answer) (r : Z) : Prop :=
  voters s ans r <> [] /\
  forall r', voters s ans r' <> [] -> (R (backing s ans r') <= R (backing s ans r))%R /\ ((R (backing s ans r') = R (backing s ans r))%R -> (r <= r')%Z).

(** The last [n] outcomes; before there are [n], the missing ones count as successes. *)
Definition window (n : nat) (outs : list bool) : list bool := skipn (length outs) (repeat true n ++ outs).
Definition successes (h : list bool) : nat := length (filter (fun b => b) h).
(** What the score should be: each outcome moves it a tenth of the way to the success rate of the last [n] outcomes. *)
Fixpoint score_after (n : nat) (s0 : sf) (outs_rev : list bool) : sf :=
  match outs_rev with
  | [] => s0
  | o :: before =>
      dadd (dmul (score_after n s0 before) (dlit 9 10))
           (dmul (ddiv (dofZ (Z.of_nat (successes (window n (rev (o :: before)))))) (dofZ (Z.of_nat n))) (dsub (dofZ 1) (dlit 9 10)))
  end.
(** Reporting outcomes one after the other. *)
Fixpoint updates (s : div) (n : string) (outs : list bool) : outcome div :=
  match outs with [] => Ret s | o :: r => match update s n o with Ret s' => updates s' n r | UB u => UB u | Throw e => Throw e | OutOfFuel => OutOfFuel end end.
(** Running executions one after the other (exceptions reach the caller, who goes on). *)
Fixpoint runs (s : div) (xs : list ((string -> nat -> answer) * (string -> nat -> answer))) : outcome div :=
  match xs with [] => Ret s | (a, b) :: r => match execute s a b with Ret (s', _) => runs s' r | UB u => UB u | Throw e => Throw e | OutOfFuel => OutOfFuel end end.
Definition throws (a : answer) : Prop := exists e, a = Fails e.
