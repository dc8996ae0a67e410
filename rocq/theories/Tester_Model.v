(** Model of ATC = src/rad_ml/research/architecture_tester.cpp, class ArchitectureTester
    (ATH = include/rad_ml/research/architecture_tester.hpp).  std::log, std::exp and std::pow(x, 2) are parameters; std::sqrt is IEEE's.
    The two numbers uniform_real_distribution<float>(0, 2) draws from a fresh std::mt19937 are a function [noise] of the 32 bits the
    engine takes from its seed, given as doubles.  The results file is its list of lines; a row stands for the text of its result.
    Left out: console output, std::srand (nothing calls std::rand), visualizeResults and the private place-holders, which do nothing. *)
From Coq Require Import List NArith ZArith Bool SpecFloat.
Import ListNotations.
From Verif Require Import Outcome Words Floats Bits_Model PNN_Model Train_Model.
Local Open Scope N_scope.
Local Open Scope outcome_scope.

Definition two64 : N := 2 ^ 64.
(* the value of static_cast<size_t>(env), sim/environment.hpp:20-32 *)
Definition env_index (e : senv) : N :=
  match e with EARTH => 0 | EARTH_ORBIT => 1 | ISS => 2 | MOON => 3 | MARS => 4 | SOLAR_FLARE => 5 | DEEP_SPACE => 6 | JUPITER => 7 | SAA => 8 | EXTREME => 9 | CUSTOM => 10 end.
(* the value of static_cast<size_t>(protection_level), neural/protected_neural_network.hpp:77-84 *)
Definition level_index (p : plevel) : N :=
  match p with NONE_ => 0 | CHECKSUM_ONLY => 1 | SELECTIVE_TMR => 2 | FULL_TMR => 3 | ADAPTIVE_TMR => 4 | SPACE_OPTIMIZED => 5 end.
(* ATC:174-199 *)
Definition impact (e : senv) : sf :=
  match e with
  | EARTH => dlit 5 100 | EARTH_ORBIT => dlit 10 100 | MOON => dlit 15 100 | MARS => dlit 20 100 | JUPITER => dlit 35 100
  | DEEP_SPACE => dlit 40 100 | EXTREME => dlit 60 100 | _ => dlit 25 100
  end.
(* ATC:202-222 *)
Definition protection_factor (p : plevel) : sf :=
  match p with NONE_ => dofZ 0 | CHECKSUM_ONLY => dlit 2 10 | SELECTIVE_TMR => dlit 6 10 | FULL_TMR => dlit 8 10 | ADAPTIVE_TMR => dlit 85 100 | SPACE_OPTIMIZED => dlit 9 10 end.
(* ATC:247-266 *)
Definition time_factor (p : plevel) : sf :=
  match p with NONE_ => dofZ 1 | CHECKSUM_ONLY => dlit 11 10 | SELECTIVE_TMR => dlit 15 10 | FULL_TMR => dofZ 3 | ADAPTIVE_TMR => dlit 22 10 | SPACE_OPTIMIZED => dlit 18 10 end.

(* ATH:19-47 *)
Record res := mkRes { r_sizes : list N; r_drop : sf; r_resid : bool; r_prot : plevel; r_env : senv;
  r_base : sf; r_rad : sf; r_pres : sf; r_time : sf; r_det : N; r_corr : N; r_unc : N;
  r_base_sd : sf; r_rad_sd : sf; r_pres_sd : sf; r_trials : N }.
(* ATH:50 in ArchitectureTestResult(): the members without an initialiser are zero *)
Definition zero_res : res :=
  let z := S754_zero false in mkRes [] z false NONE_ EARTH z z z z 0 0 0 z z z 1.

(* ATC:129-137, size_t arithmetic; 0x9e3779b9 *)
Definition mix (seed x : N) : N := N.lxor seed ((x + 2654435769 + N.shiftl seed 6 + N.shiftr seed 2) mod two64) mod two64.
(* ATC:127-137 *)
Definition seed_of (arch : list N) (drop1000 : N) (residual : bool) (p : plevel) (e : senv) (trial : N) : N :=
  let s := fold_left mix arch 0 in
  let s := mix s drop1000 in
  let s := mix s (if residual then 1 else 0) in
  let s := mix s (level_index p) in
  let s := mix s (env_index e) in
  mix s trial.
(* ATC:146-149: the products are size_t *)
Fixpoint connections_from (acc : sf) (a : N) (arch : list N) : sf :=
  match arch with [] => acc | b :: r => connections_from (dadd acc (dofZ (Z.of_N ((a * b) mod two64)))) b r end.
Definition connections (arch : list N) : sf :=
  match arch with [] => dofZ 0 | a :: r => connections_from (dofZ 0) a r end.

Section Lib.
Variables (flog fexp fpow2 : sf -> sf) (noise : N -> sf * sf).

(* ATC:157-167 *)
Definition baseline (complexity drop : sf) (deep : bool) (n : sf) : sf :=
  let b := dsub (dadd (dofZ 85) (dmul (dofZ 5) (dsub (dofZ 1) (fexp (SFopp complexity))))) (dmul (dofZ 10) drop) in
  let b := if deep then dadd b (dofZ 2) else b in
  let b := dadd b (dsub n (dofZ 1)) in
  fmin (dofZ 99) (fmax (dofZ 50) b).
(* ATC:225-227 *)
Definition radiated (base imp prot n : sf) : sf :=
  let r := dmul base (dsub (dofZ 1) (dmul imp (dsub (dofZ 1) prot))) in
  let r := dadd r (dsub n (dofZ 1)) in
  fmin base (fmax (dofZ 10) r).
(* ATC:97-278 without the epochs, which nothing reads *)
Definition test_with (arch : list N) (drop : sf) (residual : bool) (p : plevel) (e : senv) (trial : N) : outcome res :=
  d1000 <- to_size (dmul drop (dofZ 1000)) ;;
  let seed := seed_of arch d1000 residual p e trial in
  let n := noise (seed mod 2 ^ 32) in
  let complexity := ddiv (flog (connections arch)) (dofZ 10) in
  let base := baseline complexity drop (residual && Nat.ltb 3 (length arch)) (fst n) in
  let pf := protection_factor p in
  let rad := radiated base (impact e) pf (snd n) in
  let pres := dmul (ddiv rad base) (dofZ 100) in
  total <- to_size (dmul (dmul complexity (dofZ 100)) (impact e)) ;;
  det <- to_size (dmul (dofZ (Z.of_N total)) (dadd (dlit 2 10) (dmul (dlit 8 10) pf))) ;;
  corr <- to_size (dmul (dofZ (Z.of_N det)) pf) ;;
  let unc := (det + two64 - corr) mod two64 in
  let time := dmul (dadd (dofZ 50) (dmul complexity (dofZ 100))) (time_factor p) in
  let z := S754_zero false in
  Ret (mkRes arch drop residual p e base rad pres time det corr unc z z z 1).

(** ** the tester *)
Inductive line := Header | Row (r : res).
Record dataset := mkDS { train_data : list N; train_labels : list N; test_data : list N; test_labels : list N }.
(* ATH:151-164 *)
Record tester := mkT { t_data : dataset; t_in : N; t_out : N; t_results : list res; t_file : list line }.
(* ATC:17-41; [None]: there is no such file *)
Definition tester_new (d : dataset) (i o : N) (file : option (list line)) : tester :=
  mkT d i o [] match file with None | Some [] => [Header] | Some f => f end.
(* ATC:97-278: const but for the console *)
Definition testArchitecture (t : tester) (arch : list N) (drop : sf) (residual : bool) (p : plevel) (epochs : Z) (e : senv) (trial : N) : outcome res :=
  test_with arch drop residual p e trial.
(* ATC:280-332: the file is opened for appending *)
Definition saveResultsToFile (t : tester) : tester := mkT (t_data t) (t_in t) (t_out t) (t_results t) (t_file t ++ map Row (t_results t)).
(* results_.push_back followed by saveResultsToFile: ATC:60-63, 91-94, 558-569 *)
Definition record_result (t : tester) (r : res) : tester :=
  saveResultsToFile (mkT (t_data t) (t_in t) (t_out t) (t_results t ++ [r]) (t_file t)).
(* conversion of int to size_t *)
Definition size_of_int (z : Z) : N := Z.to_N (z mod Z.of_N two64).
(* ATC:44-64 *)
Definition testWidthRange (t : tester) (min_width max_width step : Z) (drop : sf) (epochs : Z) (e : senv) : outcome tester :=
  r <- testArchitecture t [t_in t; size_of_int min_width; t_out t] drop false NONE_ epochs e 0 ;;
  Ret (record_result t r).
(* ATC:66-95 *)
Definition testDropoutRange (t : tester) (arch : list Z) (min_drop max_drop step : sf) (epochs : Z) (e : senv) : outcome tester :=
  r <- testArchitecture t ([t_in t] ++ map size_of_int arch ++ [t_out t]) min_drop false NONE_ epochs e 0 ;;
  Ret (record_result t r).
(* ATC:538-552: trial_num is an unsigned int; [i] counts up for [n] rounds *)
Fixpoint trials (t : tester) (arch : list N) (drop : sf) (residual : bool) (p : plevel) (epochs : Z) (e : senv) (i : N) (n : nat) : outcome (list res) :=
  match n with
  | O => Ret []
  | S n =>
    r <- testArchitecture t arch drop residual p epochs e (i mod 2 ^ 32) ;;
    rs <- trials t arch drop residual p epochs e (i + 1) n ;;
    Ret (r :: rs)
  end.
Definition dsum (f : res -> sf) (rs : list res) : sf := fold_left (fun a r => dadd a (f r)) rs (dofZ 0).
Definition nsum (f : res -> N) (rs : list res) : N := fold_left (fun a r => (a + f r) mod two64) rs 0.
(* ATC:449-476 *)
Definition mean_of (f : res -> sf) (rs : list res) : sf := ddiv (dsum f rs) (dofZ (Z.of_nat (length rs))).
(* ATC:479-491 *)
Definition stddev_of (f : res -> sf) (rs : list res) : sf :=
  let m := mean_of f rs in
  SFsqrt 53 1024 (ddiv (fold_left (fun a r => dadd a (fpow2 (dsub (f r) m))) rs (dofZ 0)) (dofZ (Z.of_nat (length rs)))).
(* ATC:437-512 *)
Definition calculateMonteCarloStatistics (rs : list res) : res :=
  match rs with
  | [] => zero_res
  | first :: _ =>
    let n := N.of_nat (length rs) in
    mkRes (r_sizes first) (r_drop first) (r_resid first) (r_prot first) (r_env first)
      (mean_of r_base rs) (mean_of r_rad rs) (mean_of r_pres rs) (mean_of r_time rs)
      (nsum r_det rs / n) (nsum r_corr rs / n) (nsum r_unc rs / n)
      (stddev_of r_base rs) (stddev_of r_rad rs) (stddev_of r_pres rs) n
  end.
(* ATC:514-572 *)
Definition testArchitectureMonteCarlo (t : tester) (arch : list N) (drop : sf) (residual : bool) (p : plevel) (epochs : Z) (e : senv) (num_trials : nat) (seed_offset : N) : outcome (res * tester) :=
  rs <- trials t arch drop residual p epochs e 0 num_trials ;;
  let a := calculateMonteCarloStatistics rs in
  Ret (a, record_result t a).
End Lib.

(* ATC:343-347, 367-371 *)
Definition same_env (a b : senv) : bool := N.eqb (env_index a) (env_index b).
Definition worse (e : senv) (a b : res) : bool :=
  if same_env (r_env a) e && same_env (r_env b) e then flt (r_pres a) (r_pres b) else negb (same_env (r_env a) e).
(* std::max_element as libstdc++ writes it: the scan keeps the first of equals *)
Fixpoint max_scan (less : res -> res -> bool) (best : res) (l : list res) : res :=
  match l with [] => best | x :: l => max_scan less (if less best x then x else best) l end.
(* ATC:334-356 *)
Definition getBestArchitecture (t : tester) (e : senv) : list N :=
  let dflt := [t_in t; 128; 64; t_out t] in
  match t_results t with
  | [] => dflt
  | r :: l => let b := max_scan (worse e) r l in if same_env (r_env b) e then r_sizes b else dflt
  end.
(* ATC:358-380 *)
Definition getOptimalDropout (t : tester) (e : senv) : sf :=
  let dflt := dlit 5 10 in
  match t_results t with
  | [] => dflt
  | r :: l => let b := max_scan (worse e) r l in if same_env (r_env b) e then r_drop b else dflt
  end.
