(** Model of testing/mission_simulator.hpp (MS): MissionProfile, MissionStatistics, AdaptiveProtectionConfig, MissionSimulator, on
    top of the models of RadiationSimulator (Inject_Model.v) and memory::MemoryScrubber (Scrub_Model.v).
    Inputs: what the random generators answer, and [libm_exp], the answers of std::exp (a function of its argument).  The counters
    (size_t) are unbounded naturals.  Memory is one list of bytes, a registered region a range of it, so regions may overlap.
    Left out: getReport (text), the energy settings' use (there is none: they are never read). *)
From Coq Require Import String List NArith ZArith Bool SpecFloat.
Import ListNotations.
From Verif Require Import Outcome Words Floats Bits_Model Edac_Model Inject_Model Scrub_Model.
Local Open Scope Z_scope.
Local Open Scope outcome_scope.

(* MS:26-30 without the name, which only createStandard writes *)
Record mprofile := mkProfile { p_envs : list env_params; p_durations : list sf; p_probs : list sf }.
(* auto x = env; x.mission_name = n *)
Definition renamed (e : env_params) (n : string) : env_params :=
  mkEnv (altitude_km e) (inclination_deg e) (solar_activity e) (inside_saa e) (shielding_mm e) n.
Definition in_saa (e : env_params) : env_params :=
  mkEnv (altitude_km e) (inclination_deg e) (solar_activity e) true (shielding_mm e) (mission_name e).
Definition in_flare (e : env_params) : env_params :=
  mkEnv (altitude_km e) (inclination_deg e) (dofZ 9) (inside_saa e) (shielding_mm e) (mission_name e).
Definition shielded (e : env_params) (f : sf) : env_params :=
  mkEnv (altitude_km e) (inclination_deg e) (solar_activity e) (inside_saa e) (dmul (shielding_mm e) f) (mission_name e).
(* MS:38-144 (MissionProfile::createStandard) *)
Definition standard_profile (t : string) : mprofile :=
  let orbit n := let e := mission_environment n in
    mkProfile [e; renamed (in_saa e) (String.append n " (SAA)"); renamed (in_flare e) (String.append n " (Solar Flare)")]
              [dofZ 5400; dofZ 600; dofZ 300] [dlit 8 10; dlit 15 100; dlit 5 100] in
  if (String.eqb t "LEO" || String.eqb t "LEO_EARTH_OBSERVATION")%bool then orbit "LEO"%string
  else if String.eqb t "ISS" then orbit "ISS"%string
  else if (String.eqb t "GEO" || String.eqb t "GEOSTATIONARY")%bool then
    let e := mission_environment "GEO" in
    mkProfile [e; renamed (in_flare e) "GEO (Solar Flare)"] [dofZ 86400; dofZ 3600] [dlit 95 100; dlit 5 100]
  else if (String.eqb t "LUNAR" || String.eqb t "MOON")%bool then
    let e := mission_environment "LUNAR" in
    mkProfile [e; renamed (in_flare e) "Lunar (Solar Flare)"] [dofZ 86400; dofZ 3600] [dlit 95 100; dlit 5 100]
  else if String.eqb t "MARS" then
    let e := mission_environment "MARS" in
    mkProfile [e; renamed (in_flare e) "Mars (Solar Flare)"; renamed (shielded e (dlit 8 10)) "Mars (Dust Storm)"]
              [dofZ 86400; dofZ 3600; dofZ 43200] [dlit 9 10; dlit 5 100; dlit 5 100]
  else if String.eqb t "JUPITER" then
    let e := mission_environment "JUPITER" in
    mkProfile [e; renamed (shielded e (dlit 7 10)) "Jupiter (Intense Radiation)"] [dofZ 43200; dofZ 3600] [dlit 9 10; dlit 1 10]
  else mkProfile [renamed (mission_environment "LEO") "Generic Mission (Normal)"] [dofZ 3600] [dofZ 1].

(* MS:253-275: the settings of one level *)
Record settings := mkSet { s_tmr : bool; s_ecc : bool; s_scrub : bool; s_interval : Z }.
(* MS:247-281 *)
Record mconfig := mkCfg { c_adaptive : bool; c_thr_low : sf; c_thr_medium : sf; c_thr_high : sf;
                          c_low : settings; c_medium : settings; c_high : settings;
                          c_budget : sf; c_tmr_cost : sf; c_ecc_cost : sf; c_scrub_cost : sf }.
Definition default_config : mconfig :=
  mkCfg true (dlit 1 1000) (dlit 1 100) (dlit 1 10) (mkSet false true false 60000) (mkSet true true true 10000) (mkSet true true true 1000)
        (dofZ 100) (dofZ 10) (dofZ 5) (dlit 1 2).
(* MS:289-345 (AdaptiveProtectionConfig::createStandard) *)
Definition standard_config (t : string) : mconfig :=
  let d := default_config in
  let with_ low medium budget := mkCfg (c_adaptive d) (c_thr_low d) (c_thr_medium d) (c_thr_high d) low medium (c_high d)
                                       (dofZ budget) (c_tmr_cost d) (c_ecc_cost d) (c_scrub_cost d) in
  if (String.eqb t "LEO" || String.eqb t "LEO_EARTH_OBSERVATION" || String.eqb t "ISS")%bool then
    with_ (mkSet false true false (s_interval (c_low d))) (mkSet true true true 15000) 120
  else if (String.eqb t "GEO" || String.eqb t "GEOSTATIONARY")%bool then with_ (mkSet true true true 30000) (c_medium d) 150
  else if (String.eqb t "LUNAR" || String.eqb t "MOON")%bool then
    with_ (mkSet false (s_ecc (c_low d)) (s_scrub (c_low d)) (s_interval (c_low d)))
          (mkSet true (s_ecc (c_medium d)) (s_scrub (c_medium d)) (s_interval (c_medium d))) 100
  else if String.eqb t "MARS" then with_ (mkSet false (s_ecc (c_low d)) false (s_interval (c_low d))) (c_medium d) 80
  else if String.eqb t "JUPITER" then
    mkCfg (c_adaptive d) (dlit 1 100) (dlit 1 10) (dofZ 1) (mkSet true true true 10000) (c_medium d) (c_high d)
          (dofZ 200) (c_tmr_cost d) (c_ecc_cost d) (c_scrub_cost d)
  else d.

(* MS:152-178 *)
Record mstats := mkMS { m_events : N; m_flips : N; m_upsets : N; m_latchups : N; m_transients : N;
                        m_detected : N; m_corrected : N; m_undetected : N;
                        m_time : list (string * sf); m_by_env : list (string * N);
                        m_tmr : N; m_scrubs : N; m_uptime : sf;
                        m_total_bytes : N; m_protected_bytes : N; m_unprotected_bytes : N }.
Definition no_stats : mstats := mkMS 0 0 0 0 0 0 0 0 [] [] 0 0 (dofZ 1) 0 0 0.
(* std::map: the value of a key, and map[k] = f(map[k]), a new key starting from [d] *)
Fixpoint lookup {A} (k : string) (m : list (string * A)) : option A :=
  match m with [] => None | (x, v) :: r => if String.eqb x k then Some v else lookup k r end.
Fixpoint update_map {A} (d : A) (k : string) (f : A -> A) (m : list (string * A)) : list (string * A) :=
  match m with
  | [] => [(k, f d)]
  | (x, v) :: r => if String.eqb x k then (x, f v) :: r else (x, v) :: update_map d k f r
  end.

(* MS:602-606 *)
Record mregion := mkMR { g_addr : nat; g_size : nat; g_prot : bool }.
(* MS:608-614.  The simulator is its environment: the rates are recomputed at every change of it (Inject_Model.update_rates) *)
Record msim := mkSim { k_profile : mprofile; k_config : mconfig; k_env : env_params; k_index : nat; k_stats : mstats; k_regions : list mregion }.
(* MS:360-384 *)
Definition new_sim (p : mprofile) (c : mconfig) : msim :=
  mkSim p c (hd (mission_environment "LEO") (p_envs p)) 0
    (fold_left (fun s e => mkMS (m_events s) (m_flips s) (m_upsets s) (m_latchups s) (m_transients s) (m_detected s) (m_corrected s) (m_undetected s)
                  (update_map (dofZ 0) (mission_name e) (fun _ => dofZ 0) (m_time s)) (update_map 0%N (mission_name e) (fun _ => 0%N) (m_by_env s))
                  (m_tmr s) (m_scrubs s) (m_uptime s) (m_total_bytes s) (m_protected_bytes s) (m_unprotected_bytes s)) (p_envs p) no_stats) [].
(* MS:393-409 *)
Definition register_region (addr size : nat) (prot : bool) (k : msim) : msim :=
  let s := k_stats k in let n := N.of_nat size in
  mkSim (k_profile k) (k_config k) (k_env k) (k_index k)
    (mkMS (m_events s) (m_flips s) (m_upsets s) (m_latchups s) (m_transients s) (m_detected s) (m_corrected s) (m_undetected s)
          (m_time s) (m_by_env s) (m_tmr s) (m_scrubs s) (m_uptime s)
          (m_total_bytes s + n) (if prot then m_protected_bytes s + n else m_protected_bytes s)
          (if prot then m_unprotected_bytes s else m_unprotected_bytes s + n))%N
    (k_regions k ++ [mkMR addr size prot]).
(* MS:579-581 and RadiationSimulator::updateEnvironment *)
Definition set_environment (e : env_params) (k : msim) : msim :=
  mkSim (k_profile k) (k_config k) e (k_index k) (k_stats k) (k_regions k).

Section run.
Variable libm_exp : sf -> sf.
(* RS:248-262 and RS:314-315 for an environment *)
Definition env_rates (e : env_params) : rates :=
  update_rates (base_rate e (libm_exp (ddiv (SFopp (shielding_mm e)) (dofZ 10)))).

Inductive mlevel := LOW | MEDIUM | HIGH.
(* MS:681-695 *)
Definition protection_level (c : mconfig) (rate : sf) : mlevel :=
  if negb (c_adaptive c) then MEDIUM
  else if fge rate (c_thr_high c) then HIGH
  else if fge rate (c_thr_medium c) then MEDIUM
  else LOW.
(* MS:456-475 *)
Definition settings_of (c : mconfig) (l : mlevel) : settings :=
  match l with LOW => c_low c | MEDIUM => c_medium c | HIGH => c_high c end.

(* MS:636-643: the first environment whose cumulated probability exceeds the draw *)
Fixpoint choose (val cumulative : sf) (i : nat) (probs : list sf) : option nat :=
  match probs with
  | [] => None
  | p :: r => let c := dadd cumulative p in if flt val c then Some i else choose val c (S i) r
  end.
(* MS:622-649 *)
Definition select_next (val : sf) (k : msim) : outcome (bool * msim) :=
  if (length (p_envs (k_profile k)) <=? 1)%nat then Ret (false, k)
  else
    let i := match choose val (dofZ 0) 0 (p_probs (k_profile k)) with Some i => i | None => k_index k end in
    match nth_error (p_envs (k_profile k)) i with
    | Some e => Ret (negb (k_index k =? i)%nat, mkSim (k_profile k) (k_config k) e i (k_stats k) (k_regions k))
    | None => UB UB_array_index
    end.

(* the answers of detect_dist for one event *)
Record det_draw := mkDD { t_detect : sf; t_correct : sf; e_detect : sf; e_correct : sf }.
(* MS:506-548 *)
Definition verdict (s : settings) (prot : bool) (t : effect) (d : det_draw) : bool * bool * bool :=
  if prot then
    if (s_tmr s && flt (t_detect d) (dlit 99 100))%bool then (true, true, flt (t_correct d) (dlit 95 100))
    else if s_ecc s then
      let p := match t with BIT_FLIP => dlit 98 100 | MULTI_BIT_UPSET => dlit 75 100 | _ => dlit 5 10 end in
      if flt (e_detect d) p
      then (false, true, match t with BIT_FLIP => flt (e_correct d) (dlit 95 100) | _ => false end)
      else (false, false, false)
    else (false, false, false)
  else (false, false, false).
(* MS:483-559: one event; verdict = (TMR activated, detected, corrected) *)
Definition record_event (name : string) (s : settings) (prot : bool) (st : mstats) (x : event * det_draw) : mstats :=
  let '(e, d) := x in
  let '(tmr, det, cor) := verdict s prot (etype e) d in
  let inc (b : bool) (n : N) := (if b then n + 1 else n)%N in
  mkMS (m_events st + 1)
       (inc (match etype e with BIT_FLIP => true | _ => false end) (m_flips st))
       (inc (match etype e with MULTI_BIT_UPSET => true | _ => false end) (m_upsets st))
       (inc (match etype e with LATCHUP => true | _ => false end) (m_latchups st))
       (inc (match etype e with TRANSIENT => true | _ => false end) (m_transients st))
       (inc det (m_detected st)) (inc (det && cor)%bool (m_corrected st)) (inc (negb det) (m_undetected st))
       (m_time st) (update_map 0%N name (fun n => n + 1)%N (m_by_env st))
       (inc tmr (m_tmr st)) (m_scrubs st) (m_uptime st) (m_total_bytes st) (m_protected_bytes st) (m_unprotected_bytes st).
(* MS:478-480: simulateEffects(region.ptr, region.size, time_step) *)
Definition strike (e : env_params) (ts : Z) (g : mregion) (m : list N) (ds : list rs_draw) : outcome (list N * list event) :=
  if (g_addr g + g_size g <=? length m)%nat then
    x <- simulate (env_rates e) (firstn (g_size g) (skipn (g_addr g) m)) ts ds ;;
    Ret (firstn (g_addr g) m ++ fst x ++ skipn (g_addr g + g_size g) m, snd x)%list
  else UB UB_out_of_bounds.
(* MS:478-560: all regions; the draws of a region are one list of events *)
Fixpoint strike_regions (e : env_params) (s : settings) (ts : Z) (gs : list mregion) (dss : list (list (rs_draw * det_draw))) (m : list N) (st : mstats)
  : outcome (list N * mstats) :=
  match gs with
  | [] => Ret (m, st)
  | g :: gs =>
    let ds := hd [] dss in
    x <- strike e ts g m (map fst ds) ;;
    strike_regions e s ts gs (tl dss) (fst x) (fold_left (record_event (mission_name e) s (g_prot g)) (combine (snd x) (map snd ds)) st)
  end.

(* the answers of one pass of the loop: change_dist, dist, and the regions' events *)
Record step_draw := mkSD { d_change : sf; d_select : sf; d_events : list (list (rs_draw * det_draw)) }.
(* what a user sees while it runs: calls of on_environment_change; the scrubs, at this elapsed time *)
Inductive seen := Changed (e : env_params) | Scrubbed (at_ : Z).
(* MS:424-435 and the locals of the loop *)
Record loop := mkLoop { l_elapsed : Z; l_last : Z; l_env_time : Z; l_sim : msim; l_mem : list N; l_scrubber : lscrub; l_seen : list seen }.
(* std::chrono::milliseconds counts in int64_t *)
Definition millis (z : Z) : outcome Z := arith int64 z.
Definition as_memory (m : list N) : memory := fun a => nth a m 0%N.
(* MS:427-435 *)
Definition start_scrubber (m : list N) (gs : list mregion) : lscrub :=
  fold_left (fun s g => if g_prot g then snd (ls_register (as_memory m) (g_addr g) (g_size g) s) else s) gs ls_new.
(* MS:441-452: a new environment when the time in this one is over, or by chance *)
Definition change_environment (d : step_draw) (l : loop) : outcome (bool * msim * Z) :=
  match nth_error (p_durations (k_profile (l_sim l))) (k_index (l_sim l)) with
  | None => UB UB_array_index
  | Some dur =>
    limit <- fcast int64 (dmul dur (dofZ 1000)) ;;
    if (limit <=? l_env_time l) || flt (d_change d) (dlit 1 100)
    then x <- select_next (d_select d) (l_sim l) ;; Ret (fst x, snd x, 0)
    else Ret (false, l_sim l, l_env_time l)
  end.
Definition add_time (name : string) (ts : Z) (s : mstats) : mstats :=
  mkMS (m_events s) (m_flips s) (m_upsets s) (m_latchups s) (m_transients s) (m_detected s) (m_corrected s) (m_undetected s)
       (update_map (dofZ 0) name (fun t => dadd t (ddiv (dofZ ts) (dofZ 1000))) (m_time s)) (m_by_env s) (m_tmr s) (m_scrubs s) (m_uptime s)
       (m_total_bytes s) (m_protected_bytes s) (m_unprotected_bytes s).
Definition add_scrub (s : mstats) : mstats :=
  mkMS (m_events s) (m_flips s) (m_upsets s) (m_latchups s) (m_transients s) (m_detected s) (m_corrected s) (m_undetected s)
       (m_time s) (m_by_env s) (m_tmr s) (m_scrubs s + 1) (m_uptime s) (m_total_bytes s) (m_protected_bytes s) (m_unprotected_bytes s).
Definition set_stats (s : mstats) (k : msim) : msim := mkSim (k_profile k) (k_config k) (k_env k) (k_index k) s (k_regions k).
(* MS:439-571: one pass *)
Definition pass (has_callback : bool) (ts : Z) (d : step_draw) (l : loop) : outcome loop :=
  x <- change_environment d l ;;
  let '(changed, k, envtime) := x in
  let seen1 := if (changed && has_callback)%bool then (l_seen l ++ [Changed (k_env k)])%list else l_seen l in
  let env := k_env k in
  let st := add_time (mission_name env) ts (k_stats k) in
  let s := settings_of (k_config k) (protection_level (k_config k) (r_total (env_rates env))) in
  y <- strike_regions env s ts (k_regions k) (d_events d) (l_mem l) st ;;
  let '(m, st) := y in
  since <- millis (l_elapsed l - l_last l) ;;
  let scrub := (s_scrub s && (s_interval s <=? since))%bool in
  let '(m, sc) := if scrub then let '(_, m', sc) := scrubMemory (as_memory m) (l_scrubber l) in (map m' (seq 0 (length m)), sc) else (m, l_scrubber l) in
  let st := if scrub then add_scrub st else st in
  elapsed <- millis (l_elapsed l + ts) ;;
  envtime <- millis (envtime + ts) ;;
  Ret (mkLoop elapsed (if scrub then l_elapsed l else l_last l) envtime (set_stats st k) m sc
              (if scrub then (seen1 ++ [Scrubbed (l_elapsed l)])%list else seen1)).
(* MS:438: while (elapsed_time < total_duration); [ds] are the passes' answers, if they run out the run is not over *)
Fixpoint passes (has_callback : bool) (total ts : Z) (ds : list step_draw) (l : loop) : outcome loop :=
  if l_elapsed l <? total * 1000 then
    match ds with [] => OutOfFuel | d :: ds => l <- pass has_callback ts d l ;; passes has_callback total ts ds l end
  else Ret l.
(* MS:419-581; total in seconds (compared as milliseconds), ts in milliseconds *)
Definition run_simulation (has_callback : bool) (total ts : Z) (ds : list step_draw) (k : msim) (m : list N) : outcome (msim * list N * list seen) :=
  _ <- millis (total * 1000) ;;
  l <- passes has_callback total ts ds (mkLoop 0 0 0 k m (start_scrubber m (k_regions k)) []) ;;
  let s := k_stats (l_sim l) in
  let uptime := ddiv (dofZ (Z.of_N (m_corrected s))) (dofZ (if (0 <? m_detected s)%N then Z.of_N (m_detected s) else 1)) in
  Ret (set_stats (mkMS (m_events s) (m_flips s) (m_upsets s) (m_latchups s) (m_transients s) (m_detected s) (m_corrected s) (m_undetected s)
                       (m_time s) (m_by_env s) (m_tmr s) (m_scrubs s) uptime (m_total_bytes s) (m_protected_bytes s) (m_unprotected_bytes s)) (l_sim l),
       l_mem l, l_seen l).
(* what a user does with a simulator, on one memory *)
Inductive mop := Register (addr size : nat) (prot : bool) | SetEnv (e : env_params) | Run (has_callback : bool) (total ts : Z) (ds : list step_draw)
               | Write (f : list N -> list N).
Definition do_op (o : mop) (x : msim * list N) : outcome (msim * list N) :=
  match o with
  | Register a s p => Ret (register_region a s p (fst x), snd x)
  | SetEnv e => Ret (set_environment e (fst x), snd x)
  | Run cb total ts ds => y <- run_simulation cb total ts ds (fst x) (snd x) ;; Ret (fst y)
  | Write f => Ret (fst x, f (snd x))
  end.
Fixpoint history (os : list mop) (x : msim * list N) : outcome (msim * list N) :=
  match os with [] => Ret x | o :: os => x <- do_op o x ;; history os x end.
End run.
