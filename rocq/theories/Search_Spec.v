(** Vocabulary of the properties of AutoArchSearch, independent of how the model computes. *)
From Coq Require Import List NArith ZArith Bool Reals SpecFloat Sorting.Sorted.
Import ListNotations.
From Verif Require Import Outcome Words Floats FloatsR HealthFloat Bits_Model PNN_Model Train_Model Tester_Model Tester_Spec Search_Model.
Local Open Scope N_scope.

(** dropout rates in [0,1], any two of which are the same or at least 10^-6 apart *)
Definition separated (ds : list sf) : Prop :=
  Forall (inr 0 1) ds /\ forall a b, In a ds -> In b ds -> a = b \/ fge (distance a b) tolerance = true.

(** ** the configurations a search may look at *)
(** input layer, hidden layers with widths among the options, output layer; dropout and level among the options *)
Definition built_from (s : srch) (c : ncfg) (hidden : list N) : Prop :=
  n_sizes c = [s_in s] ++ hidden ++ [s_out s] /\ Forall (fun w => In w (s_widths s)) hidden /\ In (n_drop c) (s_drops s) /\ In (n_prot c) (s_levels s).
(** one hidden layer, or two of different widths; or the fixed number; residual connections only when asked for and with four layers *)
Definition grid_member (s : srch) (c : ncfg) : Prop := exists hidden, built_from s c hidden /\
  (s_fixed s = O -> (exists w, hidden = [w]) \/ (exists w1 w2, hidden = [w1; w2] /\ w1 <> w2)) /\
  (s_fixed s <> O -> length hidden = s_fixed s) /\
  (n_resid c = true -> s_resid s = true /\ (2 <= length hidden)%nat).
(** one to three hidden layers or the fixed number; residual connections only when asked for *)
Definition random_member (s : srch) (c : ncfg) : Prop := exists hidden, built_from s c hidden /\
  (s_fixed s = O -> (1 <= length hidden <= 3)%nat) /\ (s_fixed s <> O -> length hidden = s_fixed s) /\
  (n_resid c = true -> s_resid s = true).

(** nothing but the tester, the tested configurations and the file differs *)
Definition same_setup (s s' : srch) : Prop :=
  s_env s' = s_env s /\ s_widths s' = s_widths s /\ s_drops s' = s_drops s /\ s_levels s' = s_levels s /\
  s_in s' = s_in s /\ s_out s' = s_out s /\ s_fixed s' = s_fixed s /\ s_resid s' = s_resid s.

(** the numbers of a search result are those of the test result r *)
Definition reports (a : sresult) (r : res) : Prop :=
  sr_base a = r_base r /\ sr_rad a = r_rad r /\ sr_pres a = r_pres r /\ sr_base_sd a = r_base_sd r /\ sr_rad_sd a = r_rad_sd r /\ sr_pres_sd a = r_pres_sd r /\ sr_trials a = r_trials r.
(** every Monte Carlo run has a trial (and not absurdly many) *)
Definition trials_ok (mc : option nat) : Prop := match mc with None => True | Some n => (1 <= n)%nat /\ (Z.of_nat n < 2 ^ 37)%Z end.
Section Lib.
Variables (flog fexp fpow2 : sf -> sf) (noise : N -> sf * sf).
Definition lib_ok : Prop := log_ok flog /\ exp_ok fexp /\ noise_ok noise /\ pow2_ok fpow2.
(** testing configuration c in environment e with a fresh tester answers r *)
Definition tests_to (e : senv) (mc : option nat) (c : ncfg) (r : res) : Prop :=
  match mc with
  | None => testArchitecture flog fexp noise (tester_new (mkDS [] [] [] []) 0 0 None) (n_sizes c) (n_drop c) (n_resid c) (n_prot c) 0 e 0 = Ret r
  | Some n => exists t, testArchitectureMonteCarlo flog fexp fpow2 noise (tester_new (mkDS [] [] [] []) 0 0 None) (n_sizes c) (n_drop c) (n_resid c) (n_prot c) 0 e n 0 = Ret (r, t)
  end.
(** ** the tested configurations *)
Definition keys (s : srch) : list ncfg := map fst (s_tested s).
(** in order without duplicates; every result is about its configuration, with sane percentages *)
Definition tested_ok (s : srch) : Prop :=
  StronglySorted (fun x y => cfg_lt (fst x) (fst y) = true) (s_tested s) /\
  forall c r, In (c, r) (s_tested s) -> In (n_drop c) (s_drops s) /\ inr 10 100 (r_pres r) /\ about r (n_sizes c) (n_drop c) (n_resid c) (n_prot c) (s_env s).
(** what is known about configuration c when a search with Monte Carlo setting mc starts in s: what was found before, or else a test *)
Definition known (s : srch) (mc : option nat) (c : ncfg) (r : res) : Prop :=
  In (c, r) (s_tested s) \/ (~ In c (keys s) /\ tests_to (s_env s) mc c r).
End Lib.
(** [ans c r]: the answer for configuration c is r.  c is the first of the list cs with the greatest preservation, and r its result *)
Definition first_winner (ans : ncfg -> res -> Prop) (cs : list ncfg) (c : ncfg) (r : res) : Prop :=
  ans c r /\ exists before after, cs = before ++ c :: after /\
    (forall d, In d before -> exists r', ans d r' /\ (R (r_pres r') < R (r_pres r))%R) /\
    (forall d, In d after -> exists r', ans d r' /\ (R (r_pres r') <= R (r_pres r))%R).
(** one of the best of cs *)
Definition is_winner (ans : ncfg -> res -> Prop) (cs : list ncfg) (c : ncfg) : Prop :=
  In c cs /\ exists r, ans c r /\ forall d, In d cs -> exists r', ans d r' /\ (R (r_pres r') <= R (r_pres r))%R.
(** one population after the other, the first of each a best one of the one before *)
Fixpoint elitist (ans : ncfg -> res -> Prop) (pops : list (list ncfg)) : Prop :=
  match pops with
  | p :: ((q :: _) as rest) => (exists c, hd_error q = Some c /\ is_winner ans p c) /\ elitist ans rest
  | _ => True
  end.
(** the configuration can be tested at all (C288) *)
Definition testable (c : ncfg) : Prop := moderate (n_sizes c) /\ 1 <= weights (n_sizes c).

(** ** labels *)
(** one label of each value, no two of them equal as floats *)
Definition representatives (reps labels : list N) : Prop :=
  incl reps labels /\ (forall x, In x labels -> exists y, In y reps /\ feqb (sf32 x) (sf32 y) = true) /\
  ForallOrdPairs (fun x y => feqb (sf32 x) (sf32 y) = false) reps.
(** ** histories of calls *)
Inductive scall :=
| SGrid (mc : option nat)
| SRandom (ints : nat -> N) (fuel : nat) (max : N) (mc : option nat) (pos : nat)
| SEvolve (ints : nat -> N) (reals : nat -> sf) (size gens : nat) (rate : sf) (mc : option nat) (pos : nat)
| SLevels (l : list plevel) | SResid (b : bool) | SFixed (i o : N) (k : nat) | SSave.
Definition sensible (c : scall) : Prop :=
  match c with SGrid mc | SRandom _ _ _ mc _ => trials_ok mc | SEvolve _ _ size gens _ mc _ => trials_ok mc /\ (1 <= size)%nat /\ (1 <= gens)%nat | _ => True end.
Section Calls.
Variables (flog fexp fpow2 : sf -> sf) (noise : N -> sf * sf).
Definition scall_run (s : srch) (c : scall) : outcome srch :=
  match c with
  | SGrid mc => obind (findOptimalArchitecture flog fexp fpow2 noise s mc) (fun x => Ret (snd x))
  | SRandom ints fuel max mc pos => obind (randomSearch flog fexp fpow2 noise ints fuel s max mc pos) (fun x => Ret (snd x))
  | SEvolve ints reals size gens rate mc pos => obind (evolutionarySearch flog fexp fpow2 noise ints reals s size gens rate mc pos) (fun x => Ret (snd x))
  | SLevels l => Ret (setProtectionLevels s l) | SResid b => Ret (setTestResidualConnections s b) | SFixed i o k => Ret (setFixedParameters s i o k) | SSave => Ret (saveResults s)
  end.
Fixpoint scalls_run (s : srch) (cs : list scall) : outcome srch :=
  match cs with [] => Ret s | c :: cs => obind (scall_run s c) (fun s => scalls_run s cs) end.
End Calls.
