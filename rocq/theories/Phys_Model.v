(** Model of PS = include/rad_ml/sim/physics_radiation_simulator.hpp.
    std::exp and std::pow are parameters.  The random engine is a value of any type [G]; [poisson] and [uniform] are any functions of the
    distribution's parameters and the engine.  A std::poisson_distribution whose mean is not a positive finite number has no defined
    behaviour ([rand.dist.pois.poisson] requires 0 < mean).  Reports (PS:419-448, 574-612) are text and not modelled. *)
From Coq Require Import List NArith ZArith Bool Arith SpecFloat.
Import ListNotations.
From Verif Require Import Outcome Words Floats Qft_Model.
Local Open Scope outcome_scope.
Local Open Scope Z_scope.

(* PS:20-33 *)
Inductive place := LEO | MEO | GEO | LUNAR | MARS_ORBIT | MARS_SURFACE | JUPITER | EUROPA | INTERPLANETARY | SOLAR_MINIMUM | SOLAR_MAXIMUM | SOLAR_STORM.
(* PS:38-46 *)
Inductive effect := SEU | MBU | SEL | SET | SEFI | TID_STUCK_BIT | TID_THRESHOLD_SHIFT.
Definition effect_eqb (a b : effect) : bool :=
  match a, b with
  | SEU, SEU | MBU, MBU | SEL, SEL | SET, SET | SEFI, SEFI | TID_STUCK_BIT, TID_STUCK_BIT | TID_THRESHOLD_SHIFT, TID_THRESHOLD_SHIFT => true
  | _, _ => false
  end.
(* the keys of radiation_effects_ in the order std::map visits them (PS:467-488) *)
Definition effects : list effect := [SEU; MBU; SEL; SET; SEFI; TID_STUCK_BIT; TID_THRESHOLD_SHIFT].
(* PS:51-128; is_persistent and recovery_prob are never read *)
Definition probability (t : effect) : sf :=
  match t with
  | SEU => dq 1 (10 ^ 7)%positive | MBU => dq 2 (10 ^ 8)%positive | SEL => dq 5 (10 ^ 9)%positive | SET => dq 2 (10 ^ 7)%positive
  | SEFI => dq 1 (10 ^ 9)%positive | TID_STUCK_BIT => dq 5 (10 ^ 10)%positive | TID_THRESHOLD_SHIFT => dq 1 (10 ^ 9)%positive
  end.
Definition min_bits (t : effect) : Z := match t with MBU => 2 | _ => 1 end.
Definition max_bits (t : effect) : Z :=
  match t with SEU | SET | TID_STUCK_BIT => 1 | MBU => 8 | SEL | TID_THRESHOLD_SHIFT => 1024 | SEFI => 1024 * 1024 end.
(* PS:496-510; every enumerator has an entry, so .at() does not throw *)
Definition modifier (e : place) : sf :=
  match e with
  | LEO => d1 | MEO => dofZ 10 | GEO => dofZ 5 | LUNAR => dofZ 4 | MARS_ORBIT => dofZ 3 | MARS_SURFACE => dq 5 10 | JUPITER => dofZ 1000
  | EUROPA => dofZ 2000 | INTERPLANETARY => dofZ 3 | SOLAR_MINIMUM => dofZ 2 | SOLAR_MAXIMUM => dq 8 10 | SOLAR_STORM => dofZ 100
  end.

(* PS:133-135 *)
Record trajectory := mkT { environments : list place; durations_days : list sf }.
(* PS:138-140 *)
Definition Earth_LEO : trajectory := mkT [LEO] [dofZ 365].
(* PS:142-152 *)
Definition Mars_Mission : trajectory :=
  mkT [LEO; INTERPLANETARY; MARS_ORBIT; MARS_SURFACE; INTERPLANETARY; LEO] [dofZ 10; dofZ 180; dofZ 30; dofZ 365; dofZ 180; dofZ 10].
(* PS:154-165 *)
Definition Europa_Mission : trajectory :=
  mkT [LEO; INTERPLANETARY; JUPITER; EUROPA; JUPITER; INTERPLANETARY; LEO] [dofZ 10; dofZ 730; dofZ 60; dofZ 30; dofZ 60; dofZ 730; dofZ 10].

(* PS:450-462; the engine apart *)
Record psim := mkP { p_bits : Z; p_word : Z; p_shield : sf; p_traj : trajectory; p_place : place; p_solar : sf }.
(* PS:185-203 *)
Definition psim_new (bits word : Z) (shield : sf) (t : trajectory) : outcome psim :=
  match environments t with [] => UB UB_out_of_bounds | e :: _ => Ret (mkP bits word shield t e (dq 5 10)) end.
(* PS:210-212 *)
Definition set_environment (s : psim) (e : place) : psim := mkP (p_bits s) (p_word s) (p_shield s) (p_traj s) e (p_solar s).
(* PS:219-221 *)
Definition set_solar_activity (s : psim) (a : sf) : psim := mkP (p_bits s) (p_word s) (p_shield s) (p_traj s) (p_place s) (fmax d0 (fmin d1 a)).
(* PS:228-232; the modifiers do not depend on the shielding *)
Definition set_shielding (s : psim) (t : sf) : psim := mkP (p_bits s) (p_word s) t (p_traj s) (p_place s) (p_solar s).
(* PS:239-242 *)
Definition set_trajectory (s : psim) (t : trajectory) : outcome psim :=
  match environments t with [] => UB UB_out_of_bounds | e :: _ => Ret (mkP (p_bits s) (p_word s) (p_shield s) t e (p_solar s)) end.

(* PS:517-538 *)
Definition calculate_solar_modifier (s : psim) : sf :=
  let a := p_solar s in
  let gcr := dsub d1 (dmul (dq 5 10) a) in
  let spe := dmul (dmul a a) (dofZ 5) in
  match p_place s with
  | SOLAR_STORM => d1
  | LEO | MEO | GEO => dadd (dmul (dq 7 10) gcr) (dmul (dq 3 10) spe)
  | _ => dadd (dmul (dq 5 10) gcr) (dmul (dq 5 10) spe)
  end.

Section Lib.
Variables (fexp : sf -> sf) (fpow : sf -> sf -> sf).
(* PS:547-566 *)
Definition calculate_shielding_factor (s : psim) : sf :=
  if fle (p_shield s) d0 then d1
  else
    let base := fexp (ddiv (SFopp (p_shield s)) (dofZ 2)) in
    let tid := fpow base (dq 12 10) in
    let see := fpow base (dq 7 10) in
    fmax (dq 1 100) (fmin d1 (dadd (dmul (dq 3 10) tid) (dmul (dq 7 10) see))).
(* PS:390-412 *)
Definition error_rate (s : psim) (t : effect) : sf :=
  dmul (dmul (dmul (dmul (probability t) (modifier (p_place s))) (calculate_solar_modifier s)) (calculate_shielding_factor s)) (dofZ 1000000).
Definition get_error_rates (s : psim) : list (effect * sf) := map (fun t => (t, error_rate s t)) effects.

Section Engine.
Variables (G : Type) (poisson : sf -> G -> Z * G) (uniform : Z -> Z -> G -> Z * G).
(* poisson_distribution<size_t>(mean)(engine) *)
Definition draw_poisson (mean : sf) (g : G) : outcome (Z * G) := match mean with S754_finite false _ _ => Ret (poisson mean g) | _ => UB UB_bad_iterator end.
(* PS:278-283 *)
Fixpoint draw_bits (t : effect) (n : nat) (g : G) : list (effect * Z) * G :=
  match n with
  | O => ([], g)
  | S k => let (b, g1) := uniform (min_bits t) (max_bits t) g in let (r, g2) := draw_bits t k g1 in ((t, b) :: r, g2)
  end.
(* PS:267-271; size_t to double rounds *)
Definition expected (s : psim) (rate days : sf) (t : effect) : sf := dmul (dmul (dmul (probability t) rate) days) (dofZ (p_bits s)).
(* PS:266-284 *)
Fixpoint period_loop (s : psim) (rate days : sf) (ts : list effect) (g : G) : outcome (list (effect * Z) * G) :=
  match ts with
  | [] => Ret ([], g)
  | t :: r =>
      x <- draw_poisson (expected s rate days t) g ;;
      let (here, g1) := draw_bits t (Z.to_nat (fst x)) (snd x) in
      y <- period_loop s rate days r g1 ;;
      Ret ((here ++ fst y)%list, snd y)
  end.
(* PS:250-287 *)
Definition simulate_period (s : psim) (days : sf) (g : G) : outcome (list (effect * Z) * G) :=
  period_loop s (dmul (dmul (modifier (p_place s)) (calculate_solar_modifier s)) (calculate_shielding_factor s)) days effects g.

(* PS:317-341; a size_t sum *)
Definition is_tid (t : effect) : bool := match t with TID_STUCK_BIT | TID_THRESHOLD_SHIFT => true | _ => false end.
Definition bump (c : effect -> Z) (t : effect) (n : Z) : effect -> Z := fun u => if effect_eqb u t then (c u + n) mod 2 ^ 64 else c u.
Fixpoint tid_effects_loop (s : psim) (days : sf) (ts : list effect) (c : effect -> Z) (g : G) : outcome ((effect -> Z) * G) :=
  match ts with
  | [] => Ret (c, g)
  | t :: r =>
      if is_tid t then
        x <- draw_poisson (dmul (dmul (dmul (dmul (probability t) (modifier (p_place s))) (calculate_shielding_factor s)) days) (dofZ (p_bits s))) g ;;
        tid_effects_loop s days r (bump c t (fst x)) (snd x)
      else tid_effects_loop s days r c g
  end.
(* PS:303-345: [es] and [ds] are what is left of environments and durations_days; reading past the durations is undefined *)
Fixpoint tid_loop (s : psim) (days done : sf) (es : list place) (ds : list sf) (c : effect -> Z) (g : G) : outcome ((effect -> Z) * psim * G) :=
  match es with
  | [] => Ret (c, s, g)
  | e :: er =>
      if flt done days then
        match ds with
        | [] => UB UB_out_of_bounds
        | d :: dr =>
            let seg := fmin d (dsub days done) in
            let s1 := set_environment s e in
            x <- tid_effects_loop s1 seg effects c g ;;
            tid_loop s1 days (dadd done seg) er dr (fst x) (snd x)
        end
      else Ret (c, s, g)
  end.
(* PS:295-348; the result's keys are the two TID effects *)
Definition simulate_mission_tid (s : psim) (days : sf) (g : G) : outcome ((effect -> Z) * psim * G) :=
  tid_loop s days d0 (environments (p_traj s)) (durations_days (p_traj s)) (fun _ => 0) g.

(* PS:375-377 *)
Definition count (t : effect) (evs : list (effect * Z)) : Z := fold_left (fun n ev => if effect_eqb (fst ev) t then n + 1 else n) evs 0.
(* PS:359-380 *)
Fixpoint mission_loop (s : psim) (es : list place) (ds : list sf) (g : G) : outcome (list (effect -> Z) * psim * G) :=
  match es with
  | [] => Ret ([], s, g)
  | e :: er =>
      let s1 := set_environment s e in
      match ds with
      | [] => UB UB_out_of_bounds
      | d :: dr =>
          x <- simulate_period s1 d g ;;
          y <- mission_loop s1 er dr (snd x) ;;
          Ret ((fun t => count t (fst x)) :: fst (fst y), snd (fst y), snd y)
      end
  end.
(* PS:355-383 *)
Definition simulate_mission (s : psim) (g : G) : outcome (list (effect -> Z) * psim * G) := mission_loop s (environments (p_traj s)) (durations_days (p_traj s)) g.
End Engine.
End Lib.
