(** Model of EV = include/rad_ml/radiation/environment.hpp, SM = include/rad_ml/radiation/space_mission.hpp and
    NE = include/rad_ml/neural/radiation_environment.hpp.
    std::exp, sin, cos, atan2 and pow(x, 3) are parameters; std::sqrt is IEEE's and fmod is exact.  An unordered_map is a function to option.
    Objects made by make_shared live in a heap, a list that only grows: a shared_ptr keeps its object alive, so an address never dangles. *)
From Coq Require Import List NArith ZArith Bool Arith String SpecFloat.
Import ListNotations.
From Verif Require Import Outcome Words Floats Qft_Model.
Local Open Scope outcome_scope.
Local Open Scope string_scope.
Local Open Scope Z_scope.

(** a float literal num/den, correctly rounded whatever the sizes of num and den *)
Definition sq (num den : positive) : sf := SFdiv 24 128 (S754_finite false num 0) (S754_finite false den 0).
Definition s0 : sf := S754_zero false.
(* float -> double, exact *)
Definition d_of_s (x : sf) : sf := match x with S754_finite s m e => SpecFloat.binary_normalize 53 1024 (cond_Zopp s (Z.pos m)) e s | _ => x end.

(** ** radiation::Environment *)
(* EV:15-26 *)
Inductive etype := GROUND_LEVEL | AVIONIC | LOW_EARTH_ORBIT | MEDIUM_EARTH_ORBIT | GEOSTATIONARY_ORBIT | E_LUNAR | E_MARS | E_JUPITER | SOLAR_FLARE | CUSTOM.
(* EV:204-209 *)
Record env := mkEnv { e_type : etype; e_name : string; e_flux : sf; e_cross : sf; e_props : string -> option sf }.
Definition cross_section : sf := sq 1 (10 ^ 14)%positive.
(* EV:39-42, with the member initialisers of 207-208 *)
Definition env_new (t : etype) (name : string) : env := mkEnv t name s0 cross_section (fun _ => None).
(* EV:72-74 *)
Definition setSEUFlux (e : env) (x : sf) : env := mkEnv (e_type e) (e_name e) x (e_cross e) (e_props e).
(* EV:90-92 *)
Definition setSEUCrossSection (e : env) (x : sf) : env := mkEnv (e_type e) (e_name e) (e_flux e) x (e_props e).
(* EV:109-111 *)
Definition setProperty (e : env) (k : string) (x : sf) : env :=
  mkEnv (e_type e) (e_name e) (e_flux e) (e_cross e) (fun j => if String.eqb j k then Some x else e_props e j).
(* EV:120-126 *)
Definition getProperty (e : env) (k : string) (default : sf) : sf := match e_props e k with Some x => x | None => default end.
(* EV:138-199 *)
Definition preset (t : etype) : string * sf :=
  match t with
  | GROUND_LEVEL => ("Ground Level", sq 1 (10 ^ 14)%positive)
  | AVIONIC => ("Avionic (35,000 ft)", sq 1 (10 ^ 10)%positive)
  | LOW_EARTH_ORBIT => ("Low Earth Orbit", sq 1 (10 ^ 7)%positive)
  | MEDIUM_EARTH_ORBIT => ("Medium Earth Orbit", sq 5 (10 ^ 7)%positive)
  | GEOSTATIONARY_ORBIT => ("Geostationary Orbit", sq 1 (10 ^ 6)%positive)
  | E_LUNAR => ("Lunar Surface", sq 2 (10 ^ 7)%positive)
  | E_MARS => ("Mars Surface", sq 1 (10 ^ 7)%positive)
  | E_JUPITER => ("Jupiter Orbit", sq 5 (10 ^ 6)%positive)
  | SOLAR_FLARE => ("Solar Flare", sq 1 (10 ^ 5)%positive)
  | CUSTOM => ("Custom Environment", s0)
  end.
Definition preset_env (t : etype) : env := let (n, f) := preset t in mkEnv t n f cross_section (fun _ => None).

Definition heap : Type := list env.
Definition ptr : Type := option nat.
Definition alloc (h : heap) (e : env) : heap * ptr := ((h ++ [e])%list, Some (List.length h)).
(* EV:134-202 *)
Definition createEnvironment (h : heap) (t : etype) : heap * ptr := alloc h (preset_env t).
Definition blank : env := env_new GROUND_LEVEL "Ground Level".
Definition deref (h : heap) (a : nat) : env := nth a h blank.
(* a write through a shared_ptr *)
Definition store (h : heap) (a : nat) (e : env) : heap := set_nth h a e.

(** ** radiation::SpaceMission *)
(* SM:19-29 *)
Inductive phase_type := LAUNCH | EARTH_ORBIT | TRANSFER_TRAJECTORY | PLANETARY_ORBIT | PLANETARY_SURFACE | SOLAR_ENCOUNTER | ASTEROID_ENCOUNTER | RETURN_TRAJECTORY | REENTRY.
(* SM:34-48 *)
Inductive target := EARTH_LEO | EARTH_MEO | EARTH_GEO | MOON | MARS | VENUS | MERCURY | JUPITER | SATURN | ASTEROID_BELT | KUIPER_BELT | SOLAR_POLAR | SOLAR_PROBE.
(* SM:53-78; the duration is a count of seconds in 64 bits *)
Record phase := mkPhase { p_name : string; p_type : phase_type; p_env : ptr; p_dur : Z; p_dist : sf; p_shield : sf }.
(* SM:83-96, 249-252 *)
Record mission := mkMission { m_name : string; m_target : target; m_phases : list phase }.
Definition mission_new (name : string) (t : target) : mission := mkMission name t [].
(* SM:122-125 *)
Definition addPhase (m : mission) (p : phase) : mission := mkMission (m_name m) (m_target m) (m_phases m ++ [p])%list.
Definition int64_max : Z := 2 ^ 63 - 1.
Definition int64_min : Z := - 2 ^ 63.
(* SM:143-150; [last] is phases_.back().environment *)
Fixpoint time_loop (t elapsed : Z) (last : ptr) (ps : list phase) : outcome ptr :=
  match ps with
  | [] => Ret last
  | p :: r => let e := elapsed + p_dur p in
              if (e <? int64_min) || (int64_max <? e) then UB UB_signed_overflow
              else if t <? e then Ret (p_env p) else time_loop t e (p_env p) r
  end.
(* SM:142-154 *)
Definition getEnvironmentAtTime (m : mission) (t : Z) : outcome ptr := time_loop t 0 None (m_phases m).
(* SM:168-173 *)
Definition phase_less (h : heap) (a b : ptr) : bool :=
  match a, b with
  | Some x, Some y => flt (e_flux (deref h x)) (e_flux (deref h y))
  | _, _ => match a with None => true | Some _ => false end
  end.
(* std::max_element *)
Definition max_loop (h : heap) (best : ptr) (ps : list phase) : ptr := fold_left (fun b p => if phase_less h b (p_env p) then p_env p else b) ps best.
(* SM:161-176 *)
Definition getWorstCaseEnvironment (h : heap) (m : mission) : ptr := match m_phases m with [] => None | p :: r => max_loop h (p_env p) r end.
(* SM:186-192: float * int64 is a float product, the sum is a double *)
Definition add_exposure (h : heap) (acc : sf) (p : phase) : sf :=
  match p_env p with Some a => dadd acc (d_of_s (smul (e_flux (deref h a)) (sofZ (p_dur p)))) | None => acc end.
(* SM:183-195 *)
Definition calculateTotalRadiationExposure (h : heap) (m : mission) : sf := fold_left (add_exposure h) (m_phases m) d0.

(* SM:262-279 *)
Definition getDefaultMissionName (t : target) : string :=
  match t with
  | EARTH_LEO => "Low Earth Orbit Mission" | EARTH_MEO => "Medium Earth Orbit Mission" | EARTH_GEO => "Geostationary Orbit Mission" | MOON => "Lunar Mission"
  | MARS => "Mars Mission" | VENUS => "Venus Mission" | MERCURY => "Mercury Mission" | JUPITER => "Jupiter Mission" | SATURN => "Saturn Mission"
  | ASTEROID_BELT => "Asteroid Belt Mission" | KUIPER_BELT => "Kuiper Belt Mission" | SOLAR_POLAR => "Solar Polar Mission" | SOLAR_PROBE => "Solar Probe Mission"
  end.
Definition hours (n : Z) : Z := 3600 * n.
Definition minutes (n : Z) : Z := 60 * n.
(* createEnvironment followed by setSEUFlux *)
Definition preset_with (t : etype) (x : sf) : env := setSEUFlux (preset_env t) x.
(* make_shared<Environment>(CUSTOM, name) followed by setSEUFlux *)
Definition custom_env (name : string) (x : sf) : env := setSEUFlux (env_new CUSTOM name) x.
Definition launch (a : ptr) : phase := mkPhase "Launch" LAUNCH a (hours 1) d1 (dofZ 10).
Definition reentry (a : ptr) : phase := mkPhase "Reentry" REENTRY a (minutes 30) d1 (dofZ 15).
(** The environments a configuration makes, in the order they are made, and its phases as a function of their addresses. *)
(* SM:286-306 *)
Definition leo_envs : list env := [preset_env AVIONIC; preset_env LOW_EARTH_ORBIT].
Definition leo_phases (a : nat -> ptr) : list phase :=
  [launch (a 0%nat); mkPhase "LEO Operations" EARTH_ORBIT (a 1%nat) (hours 8760) d1 (dofZ 5)].
(* SM:313-355 *)
Definition geo_envs : list env := [preset_env AVIONIC; preset_env LOW_EARTH_ORBIT; preset_with MEDIUM_EARTH_ORBIT (sq 3 (10 ^ 7)%positive); preset_env GEOSTATIONARY_ORBIT].
Definition geo_phases (a : nat -> ptr) : list phase :=
  [launch (a 0%nat); mkPhase "LEO Parking Orbit" EARTH_ORBIT (a 1%nat) (hours 5) d1 (dofZ 5);
   mkPhase "GTO Transfer" TRANSFER_TRAJECTORY (a 2%nat) (hours 5) d1 (dofZ 5);
   mkPhase "GEO Operations" EARTH_ORBIT (a 3%nat) (hours (8760 * 15)) d1 (dofZ 5)].
(* SM:362-428 *)
Definition lunar_envs : list env :=
  [preset_env AVIONIC; preset_with MEDIUM_EARTH_ORBIT (sq 2 (10 ^ 7)%positive); preset_with E_LUNAR (sq 25 (10 ^ 8)%positive); preset_env E_LUNAR;
   preset_with AVIONIC (sq 1 (10 ^ 9)%positive)].
Definition lunar_phases (a : nat -> ptr) : list phase :=
  [launch (a 0%nat); mkPhase "Earth-Moon Transfer" TRANSFER_TRAJECTORY (a 1%nat) (hours 72) d1 (dofZ 5);
   mkPhase "Lunar Orbit" PLANETARY_ORBIT (a 2%nat) (hours 120) d1 (dofZ 5);
   mkPhase "Lunar Surface Operations" PLANETARY_SURFACE (a 3%nat) (hours 48) d1 (dofZ 2);
   mkPhase "Moon-Earth Transfer" RETURN_TRAJECTORY (a 1%nat) (hours 72) d1 (dofZ 5); reentry (a 4%nat)].
(* SM:435-501 *)
Definition mars_envs : list env :=
  [preset_env AVIONIC; custom_env "Interplanetary Transfer" (sq 5 (10 ^ 7)%positive); custom_env "Mars Orbit" (sq 2 (10 ^ 7)%positive); preset_env E_MARS;
   preset_with AVIONIC (sq 1 (10 ^ 9)%positive)].
Definition mars_phases (a : nat -> ptr) : list phase :=
  [launch (a 0%nat); mkPhase "Earth-Mars Transfer" TRANSFER_TRAJECTORY (a 1%nat) (hours (24 * 180)) (dq 15 10) (dofZ 10);
   mkPhase "Mars Orbit" PLANETARY_ORBIT (a 2%nat) (hours (24 * 60)) (dq 15 10) (dofZ 5);
   mkPhase "Mars Surface Operations" PLANETARY_SURFACE (a 3%nat) (hours (24 * 500)) (dq 15 10) (dofZ 2);
   mkPhase "Mars-Earth Transfer" RETURN_TRAJECTORY (a 1%nat) (hours (24 * 180)) (dq 15 10) (dofZ 10); reentry (a 4%nat)].
(* SM:508-564; line 553's copy of a fresh Jupiter environment *)
Definition jupiter_envs : list env :=
  [preset_env AVIONIC; custom_env "Deep Space Transfer" (sq 3 (10 ^ 7)%positive); custom_env "Jupiter Approach" (sq 2 (10 ^ 6)%positive); preset_env E_JUPITER;
   preset_env E_JUPITER; setSEUFlux (preset_env E_JUPITER) (smul (e_flux (preset_env E_JUPITER)) (sq 7 10))].
Definition jupiter_phases (a : nat -> ptr) : list phase :=
  [launch (a 0%nat); mkPhase "Earth-Jupiter Transfer" TRANSFER_TRAJECTORY (a 1%nat) (hours (24 * 365 * 2)) (dofZ 3) (dofZ 15);
   mkPhase "Jupiter Approach" TRANSFER_TRAJECTORY (a 2%nat) (hours (24 * 30)) (dq 52 10) (dofZ 15);
   mkPhase "Jupiter Orbit" PLANETARY_ORBIT (a 3%nat) (hours (24 * 60)) (dq 52 10) (dofZ 20);
   mkPhase "Extended Mission" PLANETARY_ORBIT (a 5%nat) (hours (24 * 365)) (dq 52 10) (dofZ 20)].
(* SM:571-641 *)
Definition solar_approach_env : env := setSEUFlux (preset_env SOLAR_FLARE) (smul (e_flux (preset_env SOLAR_FLARE)) (sq 5 10)).
Definition probe_envs : list env :=
  [preset_env AVIONIC; preset_env MEDIUM_EARTH_ORBIT; custom_env "Venus Flyby" (sq 8 (10 ^ 7)%positive); preset_env SOLAR_FLARE; solar_approach_env;
   preset_env SOLAR_FLARE; solar_approach_env].
Definition probe_phases (a : nat -> ptr) : list phase :=
  [launch (a 0%nat); mkPhase "Initial Orbit" EARTH_ORBIT (a 1%nat) (hours 48) d1 (dofZ 10);
   mkPhase "Venus Gravity Assist" PLANETARY_ORBIT (a 2%nat) (hours 24) (dq 7 10) (dofZ 15);
   mkPhase "Solar Approach" SOLAR_ENCOUNTER (a 4%nat) (hours (24 * 7)) (dq 3 10) (dofZ 30);
   mkPhase "Perihelion" SOLAR_ENCOUNTER (a 5%nat) (hours 24) (dq 1 10) (dofZ 35);
   mkPhase "Return to Higher Orbit" TRANSFER_TRAJECTORY (a 6%nat) (hours (24 * 7)) (dq 3 10) (dofZ 30)].
(* SM:217-244 *)
Definition configuration (t : target) : list env * ((nat -> ptr) -> list phase) :=
  match t with
  | EARTH_GEO => (geo_envs, geo_phases)
  | MOON => (lunar_envs, lunar_phases)
  | MARS => (mars_envs, mars_phases)
  | JUPITER => (jupiter_envs, jupiter_phases)
  | SOLAR_PROBE => (probe_envs, probe_phases)
  | _ => (leo_envs, leo_phases)
  end.
(* SM:204-247 *)
Definition createStandardMission (h : heap) (t : target) (name : string) : heap * mission :=
  let n := if String.eqb name "" then getDefaultMissionName t else name in
  let (es, ps) := configuration t in
  ((h ++ es)%list, fold_left addPhase (ps (fun k => Some (List.length h + k)%nat)) (mission_new n t)).

(** ** neural::RadiationEnvironment *)
(* NE:30-50 *)
Record flux := mkFlux { electron : sf; proton : sf; ion : sf; dose : sf }.
Definition flux0 : flux := mkFlux d0 d0 d0 d0.
(* NE:55-57 *)
Definition getTotalFlux (f : flux) : sf := dadd (dadd (electron f) (proton f)) (ion f).
(* NE:64-69 *)
Definition fscale (f : flux) (k : sf) : flux := mkFlux (dmul (electron f) k) (dmul (proton f) k) (dmul (ion f) k) (dmul (dose f) k).
(* NE:77-84 *)
Definition fplus (a b : flux) : flux := mkFlux (dadd (electron a) (electron b)) (dadd (proton a) (proton b)) (dadd (ion a) (ion b)) (dadd (dose a) (dose b)).
(* NE:90-93 *)
Record position := mkPos { lat : sf; lon : sf; alt : sf }.
(* NE:137-146 *)
Inductive space_mission := LEO_EQUATORIAL | LEO_POLAR | MEO | GEO | N_LUNAR | N_MARS | N_JUPITER | N_SOLAR_PROBE.
(* NE:380-402; the four model functions are fixed at construction, the device sensitivity is 1.0 for good; [r_decay] is the value
   solar_flare_decay_ has captured, and nothing calls it *)
Record renv := mkR { r_mission : space_mission; r_solar : sf; r_thick : sf; r_mat : Z; r_e : sf; r_p : sf; r_h : sf; r_decay : option sf }.

(* std::abs(double) *)
Definition dabs (x : sf) : sf := SFabs x.
Definition earth_radius : sf := dofZ 6371.
(* fmod, exact *)
Definition dfmod (x y : sf) : sf :=
  match x, y with
  | S754_nan, _ | _, S754_nan | S754_infinity _, _ | _, S754_zero _ => S754_nan
  | _, S754_infinity _ | S754_zero _, _ => x
  | S754_finite s m e, S754_finite _ n k =>
      let b := Z.min e k in
      let r := (Z.pos m * 2 ^ (e - b)) mod (Z.pos n * 2 ^ (k - b)) in
      if r =? 0 then S754_zero s else SpecFloat.binary_normalize 53 1024 (cond_Zopp s r) b s
  end.

Section Lib.
Variables (fexp fsin fcos : sf -> sf) (fatan2 : sf -> sf -> sf) (fpow3 : sf -> sf).

(* NE:100-103 *)
Definition getRadius (p : position) : sf := dadd earth_radius (alt p).
Definition radians (x : sf) : sf := ddiv (dmul x M_PI) (dofZ 180).
(* NE:111-131 *)
Definition distanceTo (p q : position) : sf :=
  let lat1 := radians (lat p) in
  let lat2 := radians (lat q) in
  let dlat := radians (dsub (lat q) (lat p)) in
  let dlon := radians (dsub (lon q) (lon p)) in
  let s1 := fsin (ddiv dlat (dofZ 2)) in
  let s2 := fsin (ddiv dlon (dofZ 2)) in
  let a := dadd (dmul s1 s1) (dmul (dmul (dmul (fcos lat1) (fcos lat2)) s2) s2) in
  let c := dmul (dofZ 2) (fatan2 (sqrt_d a) (sqrt_d (dsub d1 a))) in
  let surface := dmul earth_radius c in
  let diff := dabs (dsub (alt p) (alt q)) in
  sqrt_d (dadd (dmul surface surface) (dmul diff diff)).

(* NE:404-418: the attenuation per mm of electrons, protons and ions *)
Definition attenuation (material : Z) : sf * sf * sf :=
  if material =? 1 then (dq 1 10, dmul (dq 5 100) (dq 15 10), dq 1 100)
  else if material =? 2 then (dmul (dq 1 10) (dofZ 2), dq 5 100, dmul (dq 1 100) (dq 15 10))
  else (dq 1 10, dq 5 100, dq 1 100).
(* NE:402-424 *)
Definition updateShielding (r : renv) : renv :=
  let '(e, p, h) := attenuation (r_mat r) in
  let through k := fexp (dmul (SFopp k) (r_thick r)) in
  mkR (r_mission r) (r_solar r) (r_thick r) (r_mat r) (through e) (through p) (through h) (r_decay r).
(* NE:158-169: [garbage] is what the uninitialised shielding_material_ holds; reading it is undefined behaviour, here it may be any int *)
Definition renv_new (garbage : Z) (m : space_mission) : renv := updateShielding (mkR m (dq 5 10) (dofZ 5) garbage d0 d0 d0 None).
(* NE:195-197 *)
Definition setSolarActivity (r : renv) (a : sf) : renv := mkR (r_mission r) (dclamp a d0 d1) (r_thick r) (r_mat r) (r_e r) (r_p r) (r_h r) (r_decay r).
(* NE:205-209 *)
Definition setShielding (r : renv) (thickness : sf) (material : Z) : renv :=
  updateShielding (mkR (r_mission r) (r_solar r) thickness material (r_e r) (r_p r) (r_h r) (r_decay r)).
(* NE:312-332 *)
Definition simulateSolarFlare (r : renv) (intensity : sf) : renv * sf :=
  (mkR (r_mission r) (fmin d1 (dadd (r_solar r) (dmul intensity (dq 5 10)))) (r_thick r) (r_mat r) (r_e r) (r_p r) (r_h r) (Some (r_solar r)),
   dadd d1 (dmul intensity (dofZ 100))).

(* NE:489-517 *)
Definition saa_model (p : position) : flux :=
  let dl := dsub (lat p) (dofZ (-30)) in
  let dn := dsub (lon p) (dofZ (-40)) in
  let dist := sqrt_d (dadd (dmul dl dl) (dmul dn dn)) in
  if flt (dofZ 20) dist then flux0
  else
    let i := fexp (ddiv (dmul (SFopp dist) dist) (dmul (dmul (dofZ 2) (dofZ 10)) (dofZ 10))) in
    mkFlux (dmul (dofZ 10000) i) (dmul (dofZ 1000000) i) (dmul (dofZ 100) i) (dmul (dq 1 10) i).
(* NE:524-556 *)
Definition van_allen_model (p : position) : flux :=
  let l := ddiv (ddiv (getRadius p) earth_radius) (fcos (radians (lat p))) in
  let bell c w := fexp (ddiv (dmul (SFopp (dsub l c)) (dsub l c)) w) in
  let inner := bell (dq 15 10) (dq 5 10) in
  let outer := bell (dq 45 10) (dofZ 2) in
  let af := if flt (alt p) (dofZ 1000) then ddiv (alt p) (dofZ 1000) else d1 in
  mkFlux (dmul (dmul (dofZ 100000) outer) af) (dmul (dmul (dofZ 100000) inner) af) (dmul (dmul (dofZ 100) (dadd inner outer)) af)
         (dmul (dmul (dq 5 100) (dadd inner outer)) af).
(* NE:570-581 *)
Definition gcr_factor (p : position) : sf :=
  let mag := dadd d1 (ddiv (dmul (dq 5 10) (dabs (lat p))) (dofZ 90)) in
  let af := if flt (alt p) (dofZ 1000) then dadd (dq 7 10) (ddiv (dmul (dq 3 10) (alt p)) (dofZ 1000))
            else if flt (alt p) (dofZ 20000) then dadd d1 (ddiv (dmul (dq 5 10) (dsub (alt p) (dofZ 1000))) (dofZ 19000))
            else dq 15 10 in
  dmul mag af.
(* NE:563-598 *)
Definition gcr_model (p : position) : flux :=
  let k := gcr_factor p in mkFlux (dmul (dofZ 1000) k) (dmul (dofZ 100) k) (dmul (dofZ 10) k) (dmul (dq 1 1000) k).

(* NE:436-439 and 457-460 *)
Definition dose_of (e p h : sf) : sf := dadd (dadd (dmul e (dq 1 1000)) (dmul p (dq 1 100))) (dmul h (dq 1 10)).
(* NE:446-461 *)
Definition applySolar (solar : sf) (f : flux) : flux :=
  let g := dsub d1 (dmul (dq 3 10) solar) in
  let s := dadd d1 (dmul (dofZ 10) solar) in
  let e := dadd (dmul (electron f) g) (dmul (dmul (electron f) s) (dq 5 10)) in
  let p := dadd (dmul (proton f) g) (dmul (proton f) s) in
  let h := dmul (ion f) g in
  mkFlux e p h (dose_of e p h).
(* NE:429-440 *)
Definition applyShielding (r : renv) (f : flux) : flux :=
  let e := dmul (electron f) (r_e r) in
  let p := dmul (proton f) (r_p r) in
  let h := dmul (ion f) (r_h r) in
  mkFlux e p h (dose_of e p h).
(* NE:219-266: line 258's branch is never taken, since solar_distance is 1.0 *)
Definition mission_flux (m : space_mission) (p : position) : flux :=
  match m with
  | LEO_EQUATORIAL | LEO_POLAR => fplus (fplus (gcr_model p) (van_allen_model p)) (saa_model p)
  | MEO => fplus (gcr_model p) (fscale (van_allen_model p) (dofZ 3))
  | N_LUNAR => fscale (gcr_model p) (dq 15 10)
  | N_MARS => fscale (gcr_model p) (dofZ 2)
  | N_JUPITER => fscale (gcr_model p) (dofZ 1000)
  | N_SOLAR_PROBE => if flt d1 (dq 3 10) then fscale (gcr_model p) (ddiv (dofZ 10) (dmul d1 d1)) else gcr_model p
  | GEO => gcr_model p
  end.
(* NE:217-275 *)
Definition calculateRadiationFlux (r : renv) (p : position) : flux := applyShielding r (applySolar (r_solar r) (mission_flux (r_mission r) p)).
(* NE:287-304 *)
Definition calculateSEUProbability (r : renv) (p : position) : sf :=
  let f := calculateRadiationFlux r p in
  dmul (dadd (dadd (dmul (electron f) (dq 1 (10 ^ 12)%positive)) (dmul (proton f) (dq 1 (10 ^ 9)%positive))) (dmul (ion f) (dq 1 (10 ^ 6)%positive))) d1.
(* NE:340-349 *)
Definition generateHeatmap (r : renv) (trajectory : list position) : list sf :=
  fold_left (fun acc p => (acc ++ [calculateSEUProbability r p])%list) trajectory [].
(* NE:470-482 *)
Definition orbitPeriod (altitude : sf) : sf :=
  let a := dmul (dadd earth_radius altitude) (dofZ 1000) in
  ddiv (dmul (dmul (dofZ 2) M_PI) (sqrt_d (ddiv (fpow3 a) (dofZ (3986 * 10 ^ 11))))) (dofZ 3600).
(* NE:359-375 *)
Definition generateOrbitPosition (inclination altitude time : sf) : position :=
  let phase := dfmod (dmul (dmul (ddiv time (orbitPeriod altitude)) (dofZ 2)) M_PI) (dmul (dofZ 2) M_PI) in
  mkPos (dmul inclination (fsin phase)) (dsub (dfmod (dmul time (dofZ 15)) (dofZ 360)) (dofZ 180)) altitude.
End Lib.
