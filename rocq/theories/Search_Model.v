(** Model of AAC = src/rad_ml/research/auto_arch_search.cpp, class AutoArchSearch, and AAH = include/rad_ml/research/auto_arch_search.hpp.
    std::mt19937 is two streams given with each call: at position i a uniform_int_distribution over n values answers [ints i] modulo n
    and uniform_real_distribution(0, 1) answers [reals i]; every sequence of answers in range is such a stream.  std::map is its list of
    entries in order, searched from the front; for an ordering that is not a strict weak order the library promises nothing (C301).
    The results file, which the tester shares, is its list of lines.  Left out: console output, files that cannot be opened, the
    epochs (nothing reads them, C292). *)
From Coq Require Import List NArith ZArith Bool SpecFloat.
Import ListNotations.
From Verif Require Import Outcome Words Floats Bits_Model PNN_Model Train_Model Tester_Model.
Local Open Scope N_scope.
Local Open Scope outcome_scope.

(* AAH:29-43 *)
Record ncfg := mkNC { n_sizes : list N; n_drop : sf; n_resid : bool; n_prot : plevel }.
Definition default_cfg : ncfg := mkNC [] (dlit 5 10) false NONE_.
(* std::vector<size_t>: == and < *)
Fixpoint list_eqb (a b : list N) : bool :=
  match a, b with [], [] => true | x :: a, y :: b => (x =? y) && list_eqb a b | _, _ => false end.
Fixpoint list_ltb (a b : list N) : bool :=
  match a, b with
  | _, [] => false
  | [], _ :: _ => true
  | x :: a, y :: b => if x <? y then true else if y <? x then false else list_ltb a b
  end.
Definition tolerance : sf := dlit 1 1000000.
Definition distance (a b : sf) : sf := SFabs (dsub a b).
(* AAH:46-52 *)
Definition cfg_eq (a b : ncfg) : bool :=
  list_eqb (n_sizes a) (n_sizes b) && flt (distance (n_drop a) (n_drop b)) tolerance && Bool.eqb (n_resid a) (n_resid b) && (level_index (n_prot a) =? level_index (n_prot b)).
(* AAH:55-67 *)
Definition cfg_lt (a b : ncfg) : bool :=
  if negb (list_eqb (n_sizes a) (n_sizes b)) then list_ltb (n_sizes a) (n_sizes b)
  else if fge (distance (n_drop a) (n_drop b)) tolerance then flt (n_drop a) (n_drop b)
  else if negb (Bool.eqb (n_resid a) (n_resid b)) then negb (n_resid a) && n_resid b
  else level_index (n_prot a) <? level_index (n_prot b).
(** ** std::map<NetworkConfig, ArchitectureTestResult> *)
Definition cmap := list (ncfg * res).
Fixpoint map_find (c : ncfg) (m : cmap) : option res :=
  match m with
  | [] => None
  | (k, v) :: m => if cfg_lt k c then map_find c m else if cfg_lt c k then None else Some v
  end.
Fixpoint map_set (c : ncfg) (r : res) (m : cmap) : cmap :=
  match m with
  | [] => [(c, r)]
  | (k, v) :: m => if cfg_lt k c then (k, v) :: map_set c r m else if cfg_lt c k then (c, r) :: (k, v) :: m else (k, r) :: m
  end.

(** ** the object *)
Inductive sline := SHeader | SRow (c : ncfg) (r : res) | TLine (l : line).
(* AAH:218-246 *)
Record srch := mkS { s_data : dataset; s_env : senv; s_widths : list N; s_drops : list sf; s_levels : list plevel;
  s_in : N; s_out : N; s_fixed : nat; s_resid : bool; s_tester : tester; s_tested : cmap; s_file : list sline }.
Definition with_tester (s : srch) (t : tester) (f : list sline) : srch :=
  mkS (s_data s) (s_env s) (s_widths s) (s_drops s) (s_levels s) (s_in s) (s_out s) (s_fixed s) (s_resid s) t (s_tested s) f.
Definition with_tested (s : srch) (m : cmap) : srch :=
  mkS (s_data s) (s_env s) (s_widths s) (s_drops s) (s_levels s) (s_in s) (s_out s) (s_fixed s) (s_resid s) (s_tester s) m (s_file s).
Definition with_file (s : srch) (f : list sline) : srch :=
  mkS (s_data s) (s_env s) (s_widths s) (s_drops s) (s_levels s) (s_in s) (s_out s) (s_fixed s) (s_resid s) (s_tester s) (s_tested s) f.
(* the header line the tester's constructor writes to a new or empty file, architecture_tester.cpp:34-40 *)
Definition touched (f : list sline) : list sline := match f with [] => [TLine Header] | _ => f end.
(* std::set<float>: how many different labels; the labels are 32-bit patterns, none a NaN *)
Fixpoint distinct (seen : list N) (l : list N) : N :=
  match l with
  | [] => N.of_nat (length seen)
  | x :: l => if existsb (fun y => feqb (sf32 x) (sf32 y)) seen then distinct seen l else distinct (x :: seen) l
  end.
(* AAC:20-70 *)
Definition search_new (d : dataset) (e : senv) (ws : list N) (ds : list sf) (file : list sline) : outcome srch :=
  if N.of_nat (length (train_labels d)) =? 0 then UB UB_div_zero
  else
    let i := N.of_nat (length (train_data d)) / N.of_nat (length (train_labels d)) in
    let u := distinct [] (train_labels d) in
    let o := if (1 <? u) && (u <? 100) then u else 1 in
    Ret (mkS d e ws ds [NONE_; CHECKSUM_ONLY; SELECTIVE_TMR; FULL_TMR] i o 0 true (tester_new d i o None) [] (touched file)).
(* AAC:337-347 *)
Definition setProtectionLevels (s : srch) (l : list plevel) : srch :=
  mkS (s_data s) (s_env s) (s_widths s) (s_drops s) l (s_in s) (s_out s) (s_fixed s) (s_resid s) (s_tester s) (s_tested s) (s_file s).
Definition setTestResidualConnections (s : srch) (b : bool) : srch :=
  mkS (s_data s) (s_env s) (s_widths s) (s_drops s) (s_levels s) (s_in s) (s_out s) (s_fixed s) b (s_tester s) (s_tested s) (s_file s).
(* AAC:357-368 *)
Definition setFixedParameters (s : srch) (i o : N) (k : nat) : srch :=
  mkS (s_data s) (s_env s) (s_widths s) (s_drops s) (s_levels s) i o k (s_resid s) (tester_new (s_data s) i o None) (s_tested s) (touched (s_file s)).
(* AAC:371-439, 700: the file is opened for writing and so emptied *)
Definition exported (s : srch) : list sline := SHeader :: map (fun x => SRow (fst x) (snd x)) (s_tested s).
Definition saveResults (s : srch) : srch := with_file s (exported s).

(** ** the grid *)
(* AAC:683-697 *)
Fixpoint combinations (ws : list N) (current : list N) (k : nat) : list (list N) :=
  match k with O => [current] | S k => flat_map (fun w => combinations ws (current ++ [w]) k) ws end.
(* AAC:625-662 *)
Definition patterns (s : srch) : list (list N) :=
  match s_fixed s with
  | O => map (fun w => [s_in s; w; s_out s]) (s_widths s) ++
         flat_map (fun w1 => flat_map (fun w2 => if w1 =? w2 then [] else [[s_in s; w1; w2; s_out s]]) (s_widths s)) (s_widths s)
  | S _ => map (fun h => [s_in s] ++ h ++ [s_out s]) (combinations (s_widths s) [] (s_fixed s))
  end.
(* AAC:621-680 *)
Definition generateAllConfigs (s : srch) : list ncfg :=
  flat_map (fun p => flat_map (fun d => flat_map (fun l =>
    mkNC p d false l :: (if s_resid s && Nat.leb 4 (length p) then [mkNC p d true l] else [])) (s_levels s)) (s_drops s)) (patterns s).

(** ** drawing configurations *)
Section Draws.
Variables (ints : nat -> N) (reals : nat -> sf).
(* a choice among the elements of a vector: uniform_int_distribution(0, size - 1) and a subscript *)
Definition choose {A} (l : list A) (pos : nat) : outcome (A * nat) :=
  match nth_error l (N.to_nat (ints pos mod N.of_nat (length l))) with Some x => Ret (x, S pos) | None => UB UB_array_index end.
Definition coin (pos : nat) : bool := ints pos mod 2 =? 1.
Fixpoint choose_many (l : list N) (k pos : nat) : outcome (list N * nat) :=
  match k with
  | O => Ret ([], pos)
  | S k => x <- choose l pos ;; y <- choose_many l k (snd x) ;; Ret (fst x :: fst y, snd y)
  end.
(* AAC:490-530 *)
Definition random_config (s : srch) (pos : nat) : outcome (ncfg * nat) :=
  let '(k, pos) := match s_fixed s with O => (S (N.to_nat (ints pos mod 3)), S pos) | S _ => (s_fixed s, pos) end in
  h <- choose_many (s_widths s) k pos ;;
  d <- choose (s_drops s) (snd h) ;;
  let '(b, pos) := if s_resid s then (coin (snd d), S (snd d)) else (false, snd d) in
  l <- choose (s_levels s) pos ;;
  Ret (mkNC ([s_in s] ++ fst h ++ [s_out s]) (fst d) b (fst l), snd l).
Fixpoint set_nth (l : list N) (i : nat) (x : N) : list N :=
  match l, i with [], _ => [] | _ :: l, O => x :: l | y :: l, S i => y :: set_nth l i x end.
(* AAC:533-572 *)
Definition mutate_config (s : srch) (c : ncfg) (rate : sf) (pos : nat) : outcome (ncfg * nat) :=
  a <- (if flt (reals pos) rate then
          if Nat.ltb 2 (length (n_sizes c)) then
            let i := S (N.to_nat (ints (S pos) mod N.of_nat (length (n_sizes c) - 2))) in
            w <- choose (s_widths s) (S (S pos)) ;;
            Ret (set_nth (n_sizes c) i (fst w), snd w)
          else Ret (n_sizes c, S pos)
        else Ret (n_sizes c, S pos)) ;;
  d <- (if flt (reals (snd a)) rate then choose (s_drops s) (S (snd a)) else Ret (n_drop c, S (snd a))) ;;
  let '(b, pos) := if s_resid s then ((if flt (reals (snd d)) rate then negb (n_resid c) else n_resid c), S (snd d)) else (n_resid c, snd d) in
  l <- (if flt (reals pos) rate then choose (s_levels s) (S pos) else Ret (n_prot c, S pos)) ;;
  Ret (mkNC (fst a) (fst d) b (fst l), snd l).
(* AAC:593-598 *)
Fixpoint mix_layers (a b : list N) (pos : nat) : list N * nat :=
  match a, b with
  | x :: a, y :: b => let r := mix_layers a b (S pos) in ((if coin pos then y else x) :: fst r, snd r)
  | _, _ => ([], pos)
  end.
(* the elements 1 .. size-2 *)
Definition inner (l : list N) : list N := firstn (length l - 2) (tl l).
(* AAC:575-618 *)
Definition crossover (s : srch) (a b : ncfg) (pos : nat) : ncfg * nat :=
  let '(sz, pos) :=
    if Nat.eqb (length (n_sizes a)) (length (n_sizes b))
    then let m := mix_layers (inner (n_sizes a)) (inner (n_sizes b)) pos in ([s_in s] ++ fst m ++ [s_out s], snd m)
    else ((if coin pos then n_sizes b else n_sizes a), S pos) in
  (mkNC sz (if coin pos then n_drop b else n_drop a) (if coin (S pos) then n_resid b else n_resid a) (if coin (S (S pos)) then n_prot b else n_prot a), S (S (S pos))).
End Draws.

(** ** searching *)
(* AAH:73-99 *)
Record sresult := mkSR { sr_cfg : ncfg; sr_base : sf; sr_rad : sf; sr_pres : sf; sr_iter : N; sr_base_sd : sf; sr_rad_sd : sf; sr_pres_sd : sf; sr_trials : N }.
(* best_preservation, best_config, best_result: the numbers of best_result are not initialised (AAC:89-91) *)
Record best := mkB { b_pres : sf; b_cfg : ncfg; b_res : option res }.
Definition best0 : best := mkB (dofZ 0) default_cfg None.
(* AAC:101-104, 177-180, 262-265 *)
Definition better (b : best) (c : ncfg) (r : res) : best := if fgt (r_pres r) (b_pres b) then mkB (r_pres r) c (Some r) else b.
(* AAC:140-143, 213-216, 330-333 *)
Definition finish (b : best) (iter : N) : outcome sresult :=
  match b_res b with
  | None => UB UB_uninit
  | Some r => Ret (mkSR (b_cfg b) (r_base r) (r_rad r) (r_pres r) iter (r_base_sd r) (r_rad_sd r) (r_pres_sd r) (r_trials r))
  end.
Section Lib.
Variables (flog fexp fpow2 : sf -> sf) (noise : N -> sf * sf).
(* AAC:442-487; [mc]: the number of Monte Carlo trials, if they are used *)
Definition test_config (s : srch) (c : ncfg) (mc : option nat) : outcome (res * srch) :=
  match mc with
  | Some n =>
    x <- testArchitectureMonteCarlo flog fexp fpow2 noise (s_tester s) (n_sizes c) (n_drop c) (n_resid c) (n_prot c) 0 (s_env s) n 0 ;;
    Ret (fst x, with_tester s (snd x) (s_file s ++ map (fun r => TLine (Row r)) (t_results (snd x))))
  | None =>
    r <- testArchitecture flog fexp noise (s_tester s) (n_sizes c) (n_drop c) (n_resid c) (n_prot c) 0 (s_env s) 0 ;; Ret (r, s)
  end.
Definition store (s : srch) (c : ncfg) (r : res) : srch := with_tested s (map_set c r (s_tested s)).
(* AAC:93-134 *)
Fixpoint grid_loop (s : srch) (b : best) (iter : N) (mc : option nat) (cs : list ncfg) : outcome (srch * best * N) :=
  match cs with
  | [] => Ret (s, b, iter)
  | c :: cs =>
    x <- test_config s c mc ;;
    let s := store (snd x) c (fst x) in
    let s := if (iter + 1) mod 10 =? 0 then saveResults s else s in
    grid_loop s (better b c (fst x)) (iter + 1) mc cs
  end.
(* AAC:73-144 *)
Definition findOptimalArchitecture (s : srch) (mc : option nat) : outcome (sresult * srch) :=
  x <- grid_loop s best0 0 mc (generateAllConfigs s) ;;
  let '(s, b, iter) := x in
  r <- finish b iter ;; Ret (r, saveResults s).

Section Draws.
Variables (ints : nat -> N) (reals : nat -> sf).
(* AAC:160-207; [fuel] bounds the rounds, counted or not *)
Fixpoint random_loop (fuel : nat) (s : srch) (b : best) (i max : N) (mc : option nat) (pos : nat) : outcome (srch * best * nat) :=
  match fuel with
  | O => OutOfFuel
  | S fuel =>
    if i <? max then
      g <- random_config ints s pos ;;
      match map_find (fst g) (s_tested s) with
      | Some _ => random_loop fuel s b i max mc (snd g)
      | None =>
        x <- test_config s (fst g) mc ;;
        let s := store (snd x) (fst g) (fst x) in
        let s := if i mod 10 =? 0 then saveResults s else s in
        random_loop fuel s (better b (fst g) (fst x)) (i + 1) max mc (snd g)
      end
    else Ret (s, b, pos)
  end.
(* AAC:147-217 *)
Definition randomSearch (fuel : nat) (s : srch) (max : N) (mc : option nat) (pos : nat) : outcome (sresult * srch) :=
  x <- random_loop fuel s best0 0 max mc pos ;;
  let '(s, b, _) := x in
  r <- finish b max ;; Ret (r, saveResults s).

(* AAC:235-237 *)
Fixpoint initial (s : srch) (n pos : nat) : outcome (list ncfg * nat) :=
  match n with O => Ret ([], pos) | S n => g <- random_config ints s pos ;; y <- initial s n (snd g) ;; Ret (fst g :: fst y, snd y) end.
(* AAC:249-289 *)
Fixpoint evaluate (s : srch) (b : best) (mc : option nat) (pop : list ncfg) : outcome (srch * best * list sf) :=
  match pop with
  | [] => Ret (s, b, [])
  | c :: pop =>
    s <- match map_find c (s_tested s) with Some _ => Ret s | None => x <- test_config s c mc ;; Ret (store (snd x) c (fst x)) end ;;
    let '(r, s) := match map_find c (s_tested s) with Some r => (r, s) | None => (zero_res, store s c zero_res) end in
    y <- evaluate s (better b c r) mc pop ;;
    let '(s, b, fit) := y in Ret (s, b, r_pres r :: fit)
  end.
(* std::max_element: index of the first greatest, AAC:295-296 *)
Fixpoint argmax (i bi : nat) (bv : sf) (l : list sf) : nat :=
  match l with [] => bi | x :: l => if flt bv x then argmax (S i) i x l else argmax (S i) bi bv l end.
Definition best_index (fit : list sf) : nat := match fit with [] => O | x :: l => argmax 1 0 x l end.
(* AAC:302-306, 308-311: dist(0, size - 1) twice *)
Definition tournament (fit : list sf) (pos : nat) : nat :=
  let n := N.of_nat (length fit) in
  let i := N.to_nat (ints pos mod n) in let j := N.to_nat (ints (S pos) mod n) in
  if fgt (nth i fit S754_nan) (nth j fit S754_nan) then i else j.
(* AAC:300-321 *)
Fixpoint breed (s : srch) (pop : list ncfg) (fit : list sf) (rate : sf) (k pos : nat) : outcome (list ncfg * nat) :=
  match k with
  | O => Ret ([], pos)
  | S k =>
    let a := nth (tournament fit pos) pop default_cfg in
    let b := nth (tournament fit (S (S pos))) pop default_cfg in
    let x := crossover ints s a b (S (S (S (S pos)))) in
    m <- mutate_config ints reals s (fst x) rate (snd x) ;;
    y <- breed s pop fit rate k (snd m) ;;
    Ret (fst m :: fst y, snd y)
  end.
(* AAC:244-328 *)
Fixpoint evolve (gens : nat) (s : srch) (b : best) (mc : option nat) (rate : sf) (pop : list ncfg) (pos : nat) : outcome (srch * best * list ncfg) :=
  match gens with
  | O => Ret (s, b, pop)
  | S gens =>
    y <- evaluate s b mc pop ;;
    let '(s, b, fit) := y in
    match nth_error pop (best_index fit) with
    | None => UB UB_array_index
    | Some elite =>
      z <- breed s pop fit rate (length pop - 1) pos ;;
      evolve gens (saveResults s) b mc rate (elite :: fst z) (snd z)
    end
  end.
(* AAC:220-334 *)
Definition evolutionarySearch (s : srch) (size gens : nat) (rate : sf) (mc : option nat) (pos : nat) : outcome (sresult * srch) :=
  p <- initial s size pos ;;
  x <- evolve gens s best0 mc rate (fst p) (snd p) ;;
  let '(s, b, _) := x in
  r <- finish b ((N.of_nat gens * N.of_nat size) mod two64) ;; Ret (r, s).
End Draws.
End Lib.
