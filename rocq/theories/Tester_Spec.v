(** Vocabulary of the properties of ArchitectureTester, independent of how the model computes. *)
From Coq Require Import List NArith ZArith Bool Reals SpecFloat.
Import ListNotations.
From Flocq.IEEE754 Require Import BinarySingleNaN.
From Verif Require Import Outcome Words Floats FloatsR HealthFloat Bits_Model PNN_Model Train_Model Tester_Model.
Local Open Scope N_scope.

(** x is a number, an infinity or a NaN of type double *)
Definition is_double (x : sf) : Prop := V64 x = true.
(** what the standard promises about uniform_real_distribution<float>(0, 2) (2 itself can come out by rounding) *)
Definition noise_ok (noise : N -> sf * sf) : Prop := forall s, inr 0 2 (fst (noise s)) /\ inr 0 2 (snd (noise s)).
(** std::log answers a double; ln x lies between 0 and 40 for 1 <= x <= 2^53; the logarithm of zero is minus infinity *)
Definition log_ok (flog : sf -> sf) : Prop :=
  (forall x, is_double x -> is_double (flog x)) /\ (forall x, inr 1 9007199254740992 x -> inr 0 40 (flog x)).
Definition log_zero (flog : sf -> sf) : Prop := flog (S754_zero false) = S754_infinity true.
Definition exp_ok (fexp : sf -> sf) : Prop := forall x, is_double x -> is_double (fexp x).
(** squaring answers a non-negative finite number for a finite number of moderate size *)
Definition pow2_ok (fpow2 : sf -> sf) : Prop := forall x, inr (-200) 200 x -> inr 0 65536 (fpow2 x).

(** the number of weights of a fully connected network with these layer sizes *)
Fixpoint weights (arch : list N) : N :=
  match arch with a :: r => (match r with b :: _ => a * b | [] => 0 end) + weights r | [] => 0 end.

(** ... as long as no product of two neighbouring sizes, nor their sum, reaches 2^53 *)
Definition moderate (arch : list N) : Prop := weights arch < 2 ^ 53.

(** the percentages of a result are sane *)
Definition sane (r : res) : Prop :=
  inr 50 99 (r_base r) /\ inr 10 (R (r_base r)) (r_rad r) /\ inr 10 100 (r_pres r).
(** r is about exactly this configuration *)
Definition about (r : res) (arch : list N) (drop : sf) (residual : bool) (p : plevel) (e : senv) : Prop :=
  r_sizes r = arch /\ r_drop r = drop /\ r_resid r = residual /\ r_prot r = p /\ r_env r = e.
(** p is at least as strong as q: NONE, CHECKSUM_ONLY, SELECTIVE_TMR, FULL_TMR, ADAPTIVE_TMR, SPACE_OPTIMIZED *)
Definition at_least_as_strong (p q : plevel) : Prop := level_index q <= level_index p.

(** how hard the tester takes an environment to be, mildest first *)
Definition hardness (e : senv) : N :=
  match e with EARTH => 0 | EARTH_ORBIT => 1 | MOON => 2 | MARS => 3 | ISS | SOLAR_FLARE | SAA | CUSTOM => 4 | JUPITER => 5 | DEEP_SPACE => 6 | EXTREME => 7 end.

(** the error counts of r1 are at most those of r2 *)
Definition fewer_errors (r1 r2 : res) : Prop := r_det r1 <= r_det r2 /\ r_corr r1 <= r_corr r2.

(** l = before ++ b :: after, b belongs to e, strictly beats every result of e before it and is not beaten by any after it *)
Definition first_best (e : senv) (l : list res) (b : res) : Prop :=
  exists before after, l = before ++ b :: after /\ r_env b = e /\
    (forall x, In x before -> r_env x = e -> (R (r_pres x) < R (r_pres b))%R) /\
    (forall x, In x after -> r_env x = e -> (R (r_pres x) <= R (r_pres b))%R).

(** ** histories of calls *)
Inductive tcall :=
| CTest (arch : list N) (drop : sf) (residual : bool) (p : plevel) (epochs : Z) (e : senv) (trial : N)
| CMonte (arch : list N) (drop : sf) (residual : bool) (p : plevel) (epochs : Z) (e : senv) (trials : nat) (seed : N)
| CWidth (lo hi step : Z) (drop : sf) (epochs : Z) (e : senv)
| CDropout (arch : list Z) (lo hi step : sf) (epochs : Z) (e : senv).
Definition recording (c : tcall) : bool := match c with CTest _ _ _ _ _ _ _ => false | _ => true end.
Section Lib.
Variables (flog fexp fpow2 : sf -> sf) (noise : N -> sf * sf).
Definition call (t : tester) (c : tcall) : outcome tester :=
  match c with
  | CTest a d r p n e i => obind (testArchitecture flog fexp noise t a d r p n e i) (fun _ => Ret t)
  | CMonte a d r p n e k s => obind (testArchitectureMonteCarlo flog fexp fpow2 noise t a d r p n e k s) (fun x => Ret (snd x))
  | CWidth lo hi st d n e => testWidthRange flog fexp noise t lo hi st d n e
  | CDropout a lo hi st n e => testDropoutRange flog fexp noise t a lo hi st n e
  end.
Fixpoint calls (t : tester) (cs : list tcall) : outcome tester :=
  match cs with [] => Ret t | c :: cs => obind (call t c) (fun t => calls t cs) end.
End Lib.
(** the file after n results have been recorded one after the other: each save appends all the results so far *)
Fixpoint saves (sofar rest : list res) : list line :=
  match rest with [] => [] | r :: rest => map Row (sofar ++ [r]) ++ saves (sofar ++ [r]) rest end.
