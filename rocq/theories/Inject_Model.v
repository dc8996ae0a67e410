(** Model of the fault injectors:
    FI  = testing/fault_injection.hpp and src/testing/fault_injection.cpp (SystematicFaultInjector),
    FJ  = testing/fault_injector.hpp (FaultInjector),
    SEU = radiation/seu_simulator.hpp (SEUSimulator) with radiation/environment.hpp,
    RS  = testing/radiation_simulator.hpp (RadiationSimulator: rates and events).
    What the random generators answer is an input.  A value of a w-bit arithmetic type is the number below 2^w its bytes spell
    (little endian), memory a list of bytes.  Reading an object through another pointer type is reading its bytes.
    Descriptions, strings and the random engines themselves are left out. *)
From Coq Require Import String List NArith ZArith Bool SpecFloat.
Import ListNotations.
From Verif Require Import Outcome Words Floats Edac_Model.
Local Open Scope Z_scope.

(** * SystematicFaultInjector *)
(* FI.hpp:87-96 *)
Inductive pattern := SINGLE_BIT | ADJACENT_BITS | BYTE_ERROR | WORD_ERROR | STUCK_AT_ZERO | STUCK_AT_ONE | ROW_COLUMN | BURST_ERROR.
(* the answers: a start bit, num_bits_dis (2 or 3), bit_dis, and the values of burst_dis after static_cast<int> (their fit in an
   int is assumed: a normal distribution may in principle exceed it) *)
Record fi_draw := mkFD { fstart : Z; fadj : Z; fburst : Z; fnormal : list Z }.
Definition upto (n : Z) : list Z := map Z.of_nat (seq 0 (Z.to_nat n)).
(* FI.cpp:75-80, 87-92, 107-112: the n bits from the multiple of n below s *)
Definition row (s n total_bits : Z) : list Z := filter (fun b => b <? total_bits) (map (fun i => Z.quot s n * n + i) (upto n)).
(* FI.cpp:115-119: for (i = 0; i < total_bits; i += 8) *)
Definition column (s total_bits : Z) : list Z :=
  map (fun i => i + Z.rem s 8) (filter (fun i => negb (i =? (Z.quot s 8) * 8) && (i + Z.rem s 8 <? total_bits))
                                       (map (fun k => 8 * k) (upto (Z.quot (total_bits + 7) 8)))).
(* FI.cpp:36-144.  FI.cpp:53 constructs uniform_int_distribution<>(0, total_bits - 1) whatever the pattern *)
Definition get_bits_to_flip (p : pattern) (total_bits starting_bit : Z) (d : fi_draw) : outcome (list Z) :=
  if total_bits <=? 0 then UB UB_bad_iterator
  else
    let s := if starting_bit <? 0 then fstart d else starting_bit in
    let s := Z.max (Z.min s (total_bits - 1)) 0 in
    Ret match p with
        | SINGLE_BIT | STUCK_AT_ZERO | STUCK_AT_ONE => [s]
        | ADJACENT_BITS => map (fun i => Z.rem (s + i) total_bits) (upto (fadj d))
        | BYTE_ERROR => row s 8 total_bits
        | WORD_ERROR => row s 32 total_bits
        | ROW_COLUMN => row s 8 total_bits ++ column s total_bits
        | BURST_ERROR =>
          map (fun x => let b := Z.rem x total_bits in if b <? 0 then b + total_bits else b)
              (firstn (Z.to_nat (5 + Z.rem (fburst d) 10)) (fnormal d))
        end.
(* FI.hpp:167-177 *)
Definition apply_bit (p : pattern) (w : Z) (v : N) (bit : Z) : N :=
  if (0 <=? bit) && (bit <? w) then
    match p with
    | STUCK_AT_ZERO => N.clearbit v (Z.to_N bit)
    | STUCK_AT_ONE => N.setbit v (Z.to_N bit)
    | _ => N.lxor v (N.shiftl 1 (Z.to_N bit))
    end
  else v.
(* FI.hpp:147-182 for a type of w bits.  A std::bitset is stored in 64-bit words (libstdc++ and libc++ on 64-bit targets), so the
   bitset read at FI.hpp:163-164 reaches past a value that does not fill them *)
Definition inject_fault (p : pattern) (w : Z) (v : N) (bit_position : Z) (dpos : Z) (d : fi_draw) : outcome N :=
  let pos := if bit_position <? 0 then dpos else bit_position in
  if negb (w mod 64 =? 0) then UB UB_out_of_bounds
  else match get_bits_to_flip p w pos d with
       | Ret bits => Ret (fold_left (apply_bit p w) bits v)
       | UB r => UB r | Throw e => Throw e | OutOfFuel => OutOfFuel
       end.

(** * FaultInjector *)
Local Open Scope N_scope.
(* FJ:18-24 *)
Inductive fault_type := SingleBitFlip | MultiBitFlip | StuckAtZero | StuckAtOne | RandomValue.
(* FJ:167-169: uniform_int_distribution<size_t>(0, max_value - 1); for max_value = 0 any size_t may be answered *)
Definition getRandomIndex (max_value draw : N) : N := draw.
(* bytes[i] of a region of the given bytes *)
Definition update (m : list N) (i : N) (f : N -> N) : outcome (list N) :=
  if i <? N.of_nat (length m) then Ret (set_at m (N.to_nat i) (wrap 8 (f (nth (N.to_nat i) m 0)))) else UB UB_out_of_bounds.
(* FJ:55-64 *)
Definition inject_random_bit_flip (m : list N) (dbyte dbit : N) : outcome (list N) :=
  update m (getRandomIndex (N.of_nat (length m)) dbyte) (fun x => N.lxor x (N.shiftl 1 (getRandomIndex 8 dbit))).
(* FJ:73-104; [dbits] are the answers of getRandomIndex(8) in order, [dnum] that of getRandomIndex(3), [dval] of getRandomByte *)
Definition fj_inject (t : fault_type) (m : list N) (dbyte : N) (dbits : list N) (dnum dval : N) : outcome (list N) :=
  update m (getRandomIndex (N.of_nat (length m)) dbyte)
    (fun x => match t with
              | SingleBitFlip => fold_left (fun x b => N.lxor x (N.shiftl 1 b)) (firstn 1 dbits) x
              | MultiBitFlip => fold_left (fun x b => wrap 8 (N.lxor x (N.shiftl 1 b))) (firstn (N.to_nat (dnum + 2)) dbits) x
              | StuckAtZero => 0
              | StuckAtOne => 255
              | RandomValue => dval
              end).
(* FJ:116-156; the callbacks may change the component, verify answers true when it works.  [rdet] and [rcor] are the counts the
   description prints; rdetected and rcorrected the two flags of the result *)
Record trial_result := mkTR { rdetected : bool; rcorrected : bool; rdet : Z; rcor : Z }.
Definition trial {S} (inject : S -> S) (verify : S -> S * bool) (repair : S -> S) (st : S * (Z * Z)) : S * (Z * Z) :=
  let '(s, (det, cor)) := st in
  let '(s, ok) := verify (inject s) in
  if ok then (s, (det, cor))
  else let '(s, repaired) := verify (repair s) in (s, (det + 1, if repaired then cor + 1 else cor))%Z.
Definition test_resilience {S} (inject : S -> S) (verify : S -> S * bool) (repair : S -> S) (num_trials : Z) (s : S) : S * trial_result :=
  let '(s, (det, cor)) := Nat.iter (Z.to_nat num_trials) (trial inject verify repair) (s, (0, 0)%Z) in
  (s, mkTR (0 <? det)%Z (0 <? cor)%Z det cor).

(** * SEUSimulator *)
(* SEU:70-74: float arithmetic; size_bytes * 8 is a size_t.  radiation/environment.hpp: flux and cross-section are plain fields *)
Definition expected_seus (flux cross : sf) (size duration : N) : sf :=
  smul (smul (smul flux cross) (sofZ (Z.of_N ((size * 8) mod 2 ^ 64)))) (sdiv (sofZ (Z.of_N duration)) (sofZ 1000)).
(* SEU:64-96; [env] the flux and cross-section, None if there is no environment; [mem] None for a null pointer; the answers are
   the number of upsets and, for each, a byte and a bit.  std::poisson_distribution needs a positive mean *)
Definition inject_bit_flips (env : option (sf * sf)) (mem : option (list N)) (duration : N) (num : N) (ds : list (N * N)) : outcome (option (list N) * N) :=
  match env, mem with
  | Some (flux, cross), Some m =>
    let size := N.of_nat (length m) in
    if size =? 0 then Ret (mem, 0)
    else if flt (S754_zero false) (expected_seus flux cross size duration)
    then Ret (Some (fold_left (fun m d => flip_at m (fst d) (snd d)) (firstn (N.to_nat num) ds) m), num)
    else UB UB_bad_iterator
  | _, _ => Ret (mem, 0)
  end.
(* SEU:106-123; the regions do not overlap; the log lists the callback's calls: region index and number of flips *)
Fixpoint simulate_seus (env : option (sf * sf)) (regions : list (option (list N))) (duration : N) (draws : list (N * list (N * N))) (i : nat) (total : N)
  : outcome (list (option (list N)) * N * list (nat * N)) :=
  match regions, draws with
  | m :: ms, (num, ds) :: draws =>
    match inject_bit_flips env m duration num ds with
    | Ret (m', seus) =>
      match simulate_seus env ms duration draws (S i) (wrap 32 (total + seus)) with
      | Ret (ms', tot, log) => Ret (m' :: ms', tot, if 0 <? seus then (i, seus) :: log else log)
      | UB r => UB r | Throw e => Throw e | OutOfFuel => OutOfFuel
      end
    | UB r => UB r | Throw e => Throw e | OutOfFuel => OutOfFuel
    end
  | _, _ => Ret ([], total, [])
  end.

(** * RadiationSimulator *)
(* RS:28-35 *)
Record env_params := mkEnv { altitude_km : sf; inclination_deg : sf; solar_activity : sf; inside_saa : bool; shielding_mm : sf; mission_name : string }.
(* RS:81-150 (getMissionEnvironment) *)
Definition mission_environment (name : string) : env_params :=
  let leo n := mkEnv (dofZ 500) (dofZ 45) (dofZ 3) false (dofZ 5) n in
  if (String.eqb name "LEO" || String.eqb name "LEO_EARTH_OBSERVATION")%bool then leo "Low Earth Orbit"%string
  else if String.eqb name "ISS" then mkEnv (dofZ 420) (dlit 516 10) (dofZ 3) false (dofZ 10) "International Space Station"
  else if (String.eqb name "GEO" || String.eqb name "GEOSTATIONARY")%bool then mkEnv (dofZ 35786) (dofZ 0) (dofZ 3) false (dofZ 5) "Geostationary Orbit"
  else if (String.eqb name "LUNAR" || String.eqb name "MOON")%bool then mkEnv (dofZ 384400) (dofZ 0) (dofZ 3) false (dofZ 3) "Lunar Mission"
  else if String.eqb name "MARS" then mkEnv (dofZ 0) (dofZ 0) (dofZ 3) false (dofZ 3) "Mars Mission"
  else if String.eqb name "JUPITER" then mkEnv (dofZ 0) (dofZ 0) (dofZ 3) false (dofZ 20) "Jupiter Mission"
  else leo "Generic Space Mission"%string.
(* std::string::find(sub) != npos *)
Fixpoint contains (sub s : string) : bool :=
  (String.prefix sub s || match s with EmptyString => false | String _ r => contains sub r end)%bool.
(* RS:269-318; [ex] is the answer of std::exp(-shielding / 10) *)
Definition base_rate (p : env_params) (ex : sf) : sf :=
  let one := dofZ 1 in
  let rate :=
    if contains "Mars" (mission_name p) then dlit 2 1000
    else if (contains "Lunar" (mission_name p) || contains "Moon" (mission_name p))%bool then dlit 3 1000
    else if contains "Jupiter" (mission_name p) then dlit 1 100
    else
      let alt := altitude_km p in
      let rate := if fle alt (dofZ 1000) then dmul (dlit 1 1000) (dadd one (ddiv alt (dofZ 1000)))
                  else if fle alt (dofZ 36000) then dmul (dlit 1 1000) (dadd (dofZ 2) (ddiv alt (dofZ 10000)))
                  else dmul (dlit 1 1000) (dofZ 5) in
      dmul rate (dadd one (ddiv (inclination_deg p) (dofZ 90))) in
  let rate := dmul rate (dadd one (ddiv (solar_activity p) (dofZ 5))) in
  let rate := if inside_saa p then dmul rate (dofZ 10) else rate in
  dmul rate ex.
(* RS:53-59 *)
Record rates := mkRates { r_bit : sf; r_multi : sf; r_latch : sf; r_trans : sf; r_total : sf }.
(* RS:248-262, from the base rate *)
Definition update_rates (base : sf) : rates :=
  let a := dmul base (dlit 8 10) in let b := dmul base (dlit 15 100) in
  let c := dmul base (dlit 3 100) in let d := dmul base (dlit 2 100) in
  mkRates a b c d (dadd (dadd (dadd a b) c) d).
(* RS:347-361 *)
Definition event_kind (r : rates) (value : sf) : effect :=
  if flt value (r_bit r) then BIT_FLIP
  else if flt value (dadd (r_bit r) (r_multi r)) then MULTI_BIT_UPSET
  else if flt value (dadd (dadd (r_bit r) (r_multi r)) (r_latch r)) then LATCHUP
  else TRANSIENT.
(* the answers for one event: type value, location, bit, number of bits, start bit, stuck value, byte *)
Record rs_draw := mkRD { dvalue : sf; dloc : N; dbit : N; dnum : N; dstart : N; dstuck : bool; dbyte : N }.
(* RS:341-456 *)
Definition generate_event (r : rates) (m : list N) (d : rs_draw) : outcome (list N * event) :=
  let k := event_kind r (dvalue d) in
  let ev := match k with
            | BIT_FLIP => mkEv k (dloc d) 1
            | MULTI_BIT_UPSET => mkEv k (dloc d) (dnum d)
            | LATCHUP => mkEv k (dloc d) 1
            | TRANSIENT => mkEv k (dloc d) 8
            end in
  match update m (dloc d)
    (fun x => match k with
              | BIT_FLIP => N.lxor x (N.shiftl 1 (dbit d))
              | MULTI_BIT_UPSET => N.lxor x (for_up (N.to_nat (dnum d)) 0 (fun i mask => N.lor mask (N.shiftl 1 (dstart d + i))) 0)
              | LATCHUP => if dstuck d then N.lor x (N.shiftl 1 (dbit d)) else N.ldiff x (N.shiftl 1 (dbit d))
              | TRANSIENT => dbyte d
              end) with
  | Ret m' => Ret (m', ev)
  | UB r => UB r | Throw e => Throw e | OutOfFuel => OutOfFuel
  end.
(* RS:178-181: one event after the other *)
Fixpoint simulate_effects (r : rates) (m : list N) (ds : list rs_draw) : outcome (list N * list event) :=
  match ds with
  | [] => Ret (m, [])
  | d :: ds =>
    match generate_event r m d with
    | Ret (m, e) =>
      match simulate_effects r m ds with
      | Ret (m, es) => Ret (m, e :: es)
      | UB r => UB r | Throw e => Throw e | OutOfFuel => OutOfFuel
      end
    | UB r => UB r | Throw e => Throw e | OutOfFuel => OutOfFuel
    end
  end.
(* RS:161-182, RS:328-331: as many events as std::poisson_distribution answers, here the length of [ds]; its mean must be positive *)
Definition simulate (r : rates) (m : list N) (ms : Z) (ds : list rs_draw) : outcome (list N * list event) :=
  if flt (S754_zero false) (dmul (r_total r) (ddiv (dofZ ms) (dofZ 1000))) then simulate_effects r m ds else UB UB_bad_iterator.
