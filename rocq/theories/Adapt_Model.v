(** Model of the adaptive protection controllers:
    AP = core/radiation/adaptive_protection.hpp (AdaptiveProtection),
    AF = core/adaptive/adaptive_framework.hpp (AdaptiveFramework),
    MP = mission/mission_profile.hpp (MissionProfile: names, simulation environments, initial levels).
    Clock readings are inputs, in nanoseconds.  Calls are sequential (AP takes its mutex; the unlocked getters are read after the
    call).  Printed texts are left out. *)
From Coq Require Import String List NArith ZArith Bool SpecFloat.
Import ListNotations.
From Verif Require Import Outcome Words Floats Inject_Model.
Local Open Scope Z_scope.

(** * AdaptiveProtection *)
(* AP:27-32 *)
Inductive level := MINIMAL | STANDARD | ENHANCED | MAXIMUM.
Definition level_eqb (a b : level) : bool :=
  match a, b with MINIMAL, MINIMAL | STANDARD, STANDARD | ENHANCED, ENHANCED | MAXIMUM, MAXIMUM => true | _, _ => false end.
(* A registered callback either only looks at its argument or calls back into a locking method of the same object. *)
Inductive callback := Observes | CallsBack.
(* [notes]: the calls of callbacks so far, latest first (handle and level); the order of one round over the unordered_map is left
   open: a round is recorded as the list of handles *)
Record ap := mkAP { cur : level; flux : sf; flips_ : N; errs_ : N; last : Z; cbs : list (Z * callback); next_handle : Z; notes : list (list Z * level) }.
(* AP:58-65, 214-216 *)
Definition ap_new (initial : level) (now : Z) : ap := mkAP initial (S754_zero false) 0 0 now [] 0 [].
(* AP:258-265.  The mutex is held: a callback that locks it again is undefined behaviour *)
Definition notify (s : ap) : outcome ap :=
  if existsb (fun c => match snd c with CallsBack => true | Observes => false end) (cbs s) then UB UB_relock
  else Ret (mkAP (cur s) (flux s) (flips_ s) (errs_ s) (last s) (cbs s) (next_handle s) ((map fst (cbs s), cur s) :: notes s)).
Definition with_level (s : ap) (l : level) : ap := mkAP l (flux s) (flips_ s) (errs_ s) (last s) (cbs s) (next_handle s) (notes s).
(* AP:230-254 *)
Definition recommended (f : sf) : level :=
  if fge f (dofZ 1) then MAXIMUM else if fge f (dlit 1 10) then ENHANCED else if fge f (dlit 1 100) then STANDARD else MINIMAL.
Definition adjust (s : ap) : outcome ap :=
  let r := recommended (flux s) in if level_eqb r (cur s) then Ret s else notify (with_level s r).
(* AP:73-98; the sum of two uint32_t wraps; duration_cast truncates *)
Definition ap_update (s : ap) (bit_flips errors : N) (now : Z) : outcome ap :=
  let elapsed := Z.quot (now - last s) 1000000000 in
  if 0 <? elapsed then
    let error_rate := ddiv (dofZ (Z.of_N (wrap 32 (bit_flips + errors)))) (dofZ elapsed) in
    let alpha := dlit 3 10 in
    adjust (mkAP (cur s) (dadd (dmul alpha error_rate) (dmul (dsub (dofZ 1) alpha) (flux s))) bit_flips errors now (cbs s) (next_handle s) (notes s))
  else Ret s.
(* AP:132-154: nothing is scheduled *)
Definition raise_level (l : level) : level := match l with MINIMAL => STANDARD | STANDARD => ENHANCED | _ => MAXIMUM end.
Definition ap_temporarily_increase (s : ap) (duration_ms : N) : outcome ap :=
  if level_eqb (cur s) MAXIMUM then Ret s else notify (with_level s (raise_level (cur s))).
(* AP:161-168 *)
Definition ap_set_initial (s : ap) (l : level) : outcome ap := if level_eqb (cur s) l then Ret s else notify (with_level s l).
(* AP:176-182; next_callback_handle_ is an int *)
Definition ap_register (s : ap) (c : callback) : outcome (ap * Z) :=
  if 2147483647 <=? next_handle s then UB UB_signed_overflow
  else Ret (mkAP (cur s) (flux s) (flips_ s) (errs_ s) (last s) ((next_handle s, c) :: cbs s) (next_handle s + 1) (notes s), next_handle s).
(* AP:190-199 *)
Definition ap_unregister (s : ap) (h : Z) : ap * bool :=
  (mkAP (cur s) (flux s) (flips_ s) (errs_ s) (last s) (filter (fun c => negb (fst c =? h)) (cbs s)) (next_handle s) (notes s),
   existsb (fun c => fst c =? h) (cbs s)).
(* AP:203-216, 119-121 *)
Record config := mkCfg { redundancy : N; scrub_ms : N; temporal : bool; checkpoints : bool }.
Definition ap_configuration (s : ap) : config :=
  match cur s with
  | MINIMAL => mkCfg 1 5000 false false | STANDARD => mkCfg 2 1000 false true
  | ENHANCED => mkCfg 3 500 true true | MAXIMUM => mkCfg 3 100 true true
  end.
(** a history of calls *)
Inductive ap_op := AUpdate (bit_flips errors : N) (now : Z) | ATemp (duration_ms : N) | ASet (l : level) | ARegister (c : callback) | AUnregister (h : Z).
Definition ap_step (s : ap) (o : ap_op) : outcome ap :=
  match o with
  | AUpdate a b now => ap_update s a b now
  | ATemp d => ap_temporarily_increase s d
  | ASet l => ap_set_initial s l
  | ARegister c => match ap_register s c with Ret (s, _) => Ret s | UB r => UB r | Throw e => Throw e | OutOfFuel => OutOfFuel end
  | AUnregister h => Ret (fst (ap_unregister s h))
  end.
Fixpoint ap_run (s : ap) (ops : list ap_op) : outcome ap :=
  match ops with
  | [] => Ret s
  | o :: ops => match ap_step s o with Ret s => ap_run s ops | UB r => UB r | Throw e => Throw e | OutOfFuel => OutOfFuel end
  end.

(** * AdaptiveFramework *)
(* AF:36-44 *)
Inductive env_type := BENIGN | LEO | MEO | GEO | SOLAR_FLARE | JUPITER | EXTREME.
Definition env_num (e : env_type) : Z := match e with BENIGN => 0 | LEO => 1 | MEO => 2 | GEO => 3 | SOLAR_FLARE => 4 | JUPITER => 5 | EXTREME => 6 end.
Definition env_eqb (a b : env_type) : bool := env_num a =? env_num b.
(* AF:49-56 *)
Record settings := mkSet { s_scrub : Z; s_threshold : sf; s_weighted : bool; s_ecc : bool; s_redundancy : Z; s_checkpoint : sf }.
(* AF:304-375 *)
Definition default_settings (e : env_type) : settings :=
  match e with
  | BENIGN => mkSet 5000 (slit 1 10) false false 3 (slit 1 100)
  | LEO => mkSet 1000 (slit 5 100) true true 3 (slit 5 100)
  | MEO => mkSet 500 (slit 2 100) true true 3 (slit 1 10)
  | GEO => mkSet 250 (slit 1 100) true true 3 (slit 2 10)
  | SOLAR_FLARE => mkSet 100 (slit 5 1000) true true 5 (slit 5 10)
  | JUPITER => mkSet 50 (slit 1 1000) true true 5 (slit 8 10)
  | EXTREME => mkSet 10 (slit 5 10000) true true 7 (sofZ 1)
  end.
(* the table always has all seven keys, so the fallback at AF:385-388 is not taken; callbacks are recorded as in AP *)
Record af := mkAF { env : env_type; adaptive : bool; current : settings; table : env_type -> settings; fcbs : list Z;
                    last_check : Z; last_change : Z; since_check : Z; fnotes : list (list Z * env_type) }.
(* AF:61-72; last_environment_change is default-constructed, the clock's epoch *)
Definition af_new (now : Z) : af := mkAF BENIGN true (default_settings BENIGN) default_settings [] now 0 0 [].
(* AF:380-389 *)
Definition update_strategy (s : af) : af :=
  mkAF (env s) (adaptive s) (table s (env s)) (table s) (fcbs s) (last_check s) (last_change s) (since_check s) (fnotes s).
(* AF:79-89 *)
Definition set_environment (s : af) (e : env_type) : af :=
  if env_eqb (env s) e then s
  else let s := update_strategy (mkAF e (adaptive s) (current s) (table s) (fcbs s) (last_check s) (last_change s) (since_check s) (fnotes s)) in
       mkAF (env s) (adaptive s) (current s) (table s) (fcbs s) (last_check s) (last_change s) (since_check s) ((fcbs s, e) :: fnotes s).
(* AF:192-206 *)
Definition severity (rate : sf) (dist : list sf) : sf :=
  smul (fold_left (fun acc p => sadd acc (smul (fst p) (snd p))) (combine dist [sofZ 1; sofZ 2; sofZ 3; sofZ 4; sofZ 5; slit 5 2]) (S754_zero false)) rate.
(* AF:209-225 *)
Definition detect (score : sf) : env_type :=
  if flt score (slit 1 100) then BENIGN else if flt score (slit 1 10) then LEO else if flt score (slit 5 10) then MEO
  else if flt score (sofZ 1) then GEO else if flt score (sofZ 5) then SOLAR_FLARE else if flt score (sofZ 20) then JUPITER else EXTREME.
(* AF:163-242; [rate] and [dist] (six entries) are the global tracker's getErrorRate and getPatternDistribution *)
Definition auto_detect (s : af) (now : Z) (rate : sf) (dist : list sf) : af :=
  if negb (adaptive s) then s
  else if now - last_check s <? 10000000000 then s
  else
    let s := mkAF (env s) (adaptive s) (current s) (table s) (fcbs s) now (last_change s) (since_check s) (fnotes s) in
    if fgt rate (sofZ 10) then set_environment s EXTREME
    else
      let detected := detect (severity rate dist) in
      if env_eqb detected (env s) then s
      else if (2 <=? Z.abs (env_num detected - env_num (env s))) || (300000000000 <? now - last_change s)
      then let s := set_environment s detected in
           mkAF (env s) (adaptive s) (current s) (table s) (fcbs s) (last_check s) now (since_check s) (fnotes s)
      else s.
(* AF:105-111 *)
Definition set_adaptive (s : af) (enable : bool) (now : Z) (rate : sf) (dist : list sf) : af :=
  let s := mkAF (env s) enable (current s) (table s) (fcbs s) (last_check s) (last_change s) (since_check s) (fnotes s) in
  if enable then auto_detect s now rate dist else s.
(* AF:250-262 *)
Definition log_error (s : af) (now : Z) (rate : sf) (dist : list sf) : af :=
  let s := mkAF (env s) (adaptive s) (current s) (table s) (fcbs s) (last_check s) (last_change s) (since_check s + 1) (fnotes s) in
  if 10 <=? since_check s
  then let s := auto_detect s now rate dist in mkAF (env s) (adaptive s) (current s) (table s) (fcbs s) (last_check s) (last_change s) 0 (fnotes s)
  else s.
(* AF:270-277 *)
Definition customize (s : af) (e : env_type) (x : settings) : af :=
  let s := mkAF (env s) (adaptive s) (current s) (fun k => if env_eqb k e then x else table s k) (fcbs s) (last_check s) (last_change s) (since_check s) (fnotes s) in
  if env_eqb e (env s) then update_strategy s else s.
(* AF:137-155, 285-288; ids come from one counter shared by all frameworks *)
Inductive af_op := FSet (e : env_type) | FMode (b : bool) (now : Z) (rate : sf) (dist : list sf) | FLog (now : Z) (rate : sf) (dist : list sf)
                 | FMaintain (now : Z) (rate : sf) (dist : list sf) | FCustomize (e : env_type) (x : settings) | FRegister (id : Z) | FUnregister (id : Z).
Definition with_fcbs (s : af) (l : list Z) : af := mkAF (env s) (adaptive s) (current s) (table s) l (last_check s) (last_change s) (since_check s) (fnotes s).
Definition af_step (s : af) (o : af_op) : af :=
  match o with
  | FSet e => set_environment s e
  | FMode b now r d => set_adaptive s b now r d
  | FLog now r d => log_error s now r d
  | FMaintain now r d => auto_detect s now r d
  | FCustomize e x => customize s e x
  | FRegister id => with_fcbs s (id :: fcbs s)
  | FUnregister id => with_fcbs s (filter (fun k => negb (k =? id)) (fcbs s))
  end.
Definition af_run (s : af) (ops : list af_op) : af := fold_left af_step ops s.

(** * MissionProfile *)
(* MP:22-32 *)
Inductive mission := LEO_EARTH_OBSERVATION | MEDIUM_EARTH_ORBIT | GEOSTATIONARY | LUNAR_ORBIT | LUNAR_SURFACE | MARS_TRANSIT | MARS_ORBIT | MARS_SURFACE | DEEP_SPACE.
(* MP:90-114 *)
Definition mission_of (name : string) : mission :=
  let is s := String.eqb name s in
  if (is "LEO" || is "LEO_EARTH_OBSERVATION")%string then LEO_EARTH_OBSERVATION
  else if (is "MEO" || is "MEDIUM_EARTH_ORBIT")%string then MEDIUM_EARTH_ORBIT
  else if (is "GEO" || is "GEOSTATIONARY")%string then GEOSTATIONARY
  else if is "LUNAR_ORBIT"%string then LUNAR_ORBIT
  else if (is "LUNAR_SURFACE" || is "MOON")%string then LUNAR_SURFACE
  else if is "MARS_TRANSIT"%string then MARS_TRANSIT
  else if is "MARS_ORBIT"%string then MARS_ORBIT
  else if (is "MARS_SURFACE" || is "MARS")%string then MARS_SURFACE
  else if (is "DEEP_SPACE" || is "JUPITER")%string then DEEP_SPACE
  else LEO_EARTH_OBSERVATION.
(* MP:156-187 *)
Definition simulation_environment (m : mission) : env_params :=
  match m with
  | LEO_EARTH_OBSERVATION => mission_environment "LEO"
  | MEDIUM_EARTH_ORBIT => let p := mission_environment "MEO" in mkEnv (dofZ 20000) (inclination_deg p) (solar_activity p) (inside_saa p) (shielding_mm p) (mission_name p)
  | GEOSTATIONARY => mission_environment "GEO"
  | LUNAR_ORBIT | LUNAR_SURFACE => mission_environment "LUNAR"
  | MARS_TRANSIT | MARS_ORBIT | MARS_SURFACE => mission_environment "MARS"
  | DEEP_SPACE => mission_environment "JUPITER"
  end.
(* MP:194-229 *)
Definition initial_level (m : mission) : level :=
  match m with LEO_EARTH_OBSERVATION | MEDIUM_EARTH_ORBIT => STANDARD | DEEP_SPACE => MAXIMUM | _ => ENHANCED end.
