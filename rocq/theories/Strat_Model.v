(** Model of the execution strategies and of the physics-driven controller:
    AP = include/rad_ml/tmr/adaptive_protection.hpp, AI = include/rad_ml/tmr/adaptive_protection_impl.hpp,
    AC = src/tmr/adaptive_protection.cpp, PD = include/rad_ml/tmr/physics_driven_protection.hpp.

    A strategy executes an operation three times.  The operation is a function of a state it may change (radiation included), and may
    itself misbehave.  The types T of the explicit instantiations (AC:174-207: int, float, bool, vector<float>) are instances of
    [kind].  exp() and pow(x,2) of the C library are parameters [dexp] and [dpow2] of everything that uses them.  steady_clock::now() is an argument, in
    milliseconds.  Sleeping itself is not modelled, the conversion of its argument is.  num_layers is not negative. *)
From Coq Require Import String List NArith ZArith Bool SpecFloat.
Import ListNotations.
From Verif Require Import Outcome Words Floats Approx_Model Bits_Model.
Local Open Scope Z_scope.
Local Open Scope outcome_scope.

(* AP:24-31 *)
Inductive level := NONE | BASIC_TMR | ENHANCED_TMR | STUCK_BIT_TMR | HEALTH_WEIGHTED_TMR | HYBRID_REDUNDANCY.
Definition rank (l : level) : Z := match l with NONE => 0 | BASIC_TMR => 1 | ENHANCED_TMR => 2 | STUCK_BIT_TMR => 3 | HEALTH_WEIGHTED_TMR => 4 | HYBRID_REDUNDANCY => 5 end.
(* AP:36-42; a bool that was never written is None *)
Record result (V : Type) := mkR { value : V; confidence : sf; detected : option bool; corrected : option bool }.
Arguments mkR {V}. Arguments value {V}. Arguments confidence {V}. Arguments detected {V}. Arguments corrected {V}.
(* What the strategies use of T: ==, the conversion to size_t (AI:79-90), checkForStuckBits and attemptBitCorrection *)
Record kind (V : Type) := mkKind { eqv : V -> V -> bool; chk : V -> outcome Z; stuck : V -> bool; fix3 : V -> V -> V -> V }.
Arguments mkKind {V}. Arguments eqv {V}. Arguments chk {V}. Arguments stuck {V}. Arguments fix3 {V}.

(* AI:83-86: static_cast<size_t> of an integer *)
Definition int_chk (v : Z) : outcome Z := Ret (v mod 2 ^ 64).
(* static_cast<size_t> of a float *)
Definition float_chk (x : sf) : outcome Z := fcast (mki 64 false) x.
Definition imax32 : Z := 2 ^ 31 - 1.
(* AI:256-270, 272-286 for int *)
Definition kint : kind Z :=
  mkKind Z.eqb int_chk (fun v => (v =? 0) || (v =? imax32)) (fun a b c => Z.lor (Z.lor (Z.land a b) (Z.land a c)) (Z.land b c)).
(* for bool (numeric_limits<bool>::max() is true) *)
Definition kbool : kind bool :=
  mkKind Bool.eqb (fun b => Ret (if b then 1 else 0)) (fun v => Bool.eqb v false || Bool.eqb v true) (fun a b c => (a && b) || (a && c) || (b && c)).
Definition flt_max : sf := S754_finite false 16777215 104.
(* for float *)
Definition kfloat : kind sf :=
  mkKind feqb float_chk (fun v => feqb v (S754_zero false) || feqb v flt_max)
         (fun a b c => if feqb a b then a else if feqb a c then a else if feqb b c then b else a).
(* vector<float>: == compares sizes and elements *)
Fixpoint veq (a b : list sf) : bool :=
  match a, b with [], [] => true | x :: a', y :: b' => feqb x y && veq a' b' | _, _ => false end.
(* AI:288-312 *)
Definition vstuck (v : list sf) : bool :=
  match v with
  | [] => true
  | x :: r => if forallb (fun y => feqb y x) r then feqb x (S754_zero false) || feqb x flt_max else false
  end.
(* AI:314-332 *)
Definition vfix (a b c : list sf) : list sf :=
  let le x y := Nat.leb (length x) (length y) in
  let some x := negb (Nat.eqb (length x) 0) in
  if some a && le a b && le a c then a else if some b && le b a && le b c then b else c.
(* AI:87-90: checksums of a vector are 0 *)
Definition kvec : kind (list sf) := mkKind veq (fun _ => Ret 0) vstuck vfix.

Section Vote.
Context {V : Type}.
Variable K : kind V.
Definition agreeing (v : V) (c : sf) : result V := mkR v c (Some true) (Some true).
Definition undecided (v : V) (c : sf) : result V := mkR v c (Some true) (Some false).
(* AP:72-80 *)
Definition none_vote (r : V) : result V := mkR r (dofZ 1) (Some false) (Some false).
(* AI:30-61; AI:592-624 is the same with 0.8 *)
Definition plain_vote (two : sf) (r1 r2 r3 : V) : result V :=
  if eqv K r1 r2 && eqv K r1 r3 then mkR r1 (dofZ 1) (Some false) (Some false)
  else if eqv K r1 r2 then agreeing r1 two
  else if eqv K r1 r3 then agreeing r1 two
  else if eqv K r2 r3 then agreeing r2 two
  else undecided r1 (dlit 33 100).
Definition basic_vote := plain_vote (dlit 67 100).
Definition hybrid_vote := plain_vote (dlit 8 10).
(* AI:77-156; when all agree and the checksums match, neither flag is written (AI:96-101) *)
Definition enhanced_vote (r1 r2 r3 : V) : outcome (result V) :=
  k1 <- chk K r1 ;; k2 <- chk K r2 ;; k3 <- chk K r3 ;;
  Ret (let two a b := if a =? b then dlit 8 10 else dlit 7 10 in
       if eqv K r1 r2 && eqv K r1 r3 then
         (if (k1 =? k2) && (k1 =? k3) then mkR r1 (dofZ 1) None None else agreeing r1 (dlit 9 10))
       else if eqv K r1 r2 then agreeing r1 (two k1 k2)
       else if eqv K r1 r3 then agreeing r1 (two k1 k3)
       else if eqv K r2 r3 then agreeing r2 (two k2 k3)
       else if k1 =? k2 then undecided r1 (dlit 5 10)
       else if k1 =? k3 then undecided r1 (dlit 5 10)
       else if k2 =? k3 then undecided r2 (dlit 5 10)
       else undecided r1 (dlit 3 10)).
(* AI:174-253, 344-432 *)
Definition stuck_vote (r1 r2 r3 : V) : result V :=
  let b1 := stuck K r1 in let b2 := stuck K r2 in let b3 := stuck K r3 in
  let one b := if negb b then 1 else 0 in
  let first_valid := if negb b1 then r1 else if negb b2 then r2 else r3 in
  let n := one b1 + one b2 + one b3 in
  if n =? 3 then
    if eqv K r1 r2 && eqv K r1 r3 then mkR r1 (dofZ 1) (Some false) (Some false)
    else if eqv K r1 r2 then agreeing r1 (dlit 7 10)
    else if eqv K r1 r3 then agreeing r1 (dlit 7 10)
    else if eqv K r2 r3 then agreeing r2 (dlit 7 10)
    else undecided r1 (dlit 3 10)
  else if n =? 2 then
    if negb b1 && negb b2 && eqv K r1 r2 then agreeing r1 (dlit 8 10)
    else if negb b1 && negb b3 && eqv K r1 r3 then agreeing r1 (dlit 8 10)
    else if negb b2 && negb b3 && eqv K r2 r3 then agreeing r2 (dlit 8 10)
    else undecided first_valid (dlit 5 10)
  else if n =? 1 then agreeing first_valid (dlit 6 10)
  else undecided (fix3 K r1 r2 r3) (dlit 2 10).

(* AP:145: health_scores *)
Record scores := mkS { s1 : sf; s2 : sf; s3 : sf }.
Definition fresh : scores := mkS (dofZ 1) (dofZ 1) (dofZ 1).
(* AI:559-569 *)
Definition worse (h : sf) : sf := fmax (dlit 1 10) (dmul h (dlit 8 10)).
Definition better (h : sf) : sf := fmin (dofZ 1) (dmul h (dlit 11 10)).
(* AI:446-450 *)
Definition weight (h : scores) (x : sf) : sf := ddiv x (dadd (dadd (s1 h) (s2 h)) (s3 h)).
(* AI:473-484 and its copies *)
Definition healthiest (w1 w2 w3 : sf) (r1 r2 r3 : V) : result V :=
  if fge w1 w2 && fge w1 w3 then undecided r1 w1 else if fge w2 w1 && fge w2 w3 then undecided r2 w2 else undecided r3 w3.
(* AI:452-556 *)
Definition health_vote (h : scores) (r1 r2 r3 : V) : result V * scores :=
  let w1 := weight h (s1 h) in let w2 := weight h (s2 h) in let w3 := weight h (s3 h) in
  let best := healthiest w1 w2 w3 r1 r2 r3 in
  if eqv K r1 r2 && eqv K r1 r3 then (mkR r1 (dofZ 1) (Some false) (Some false), h)
  else if eqv K r1 r2 then
    (if fgt (dadd w1 w2) (dlit 6 10) then (agreeing r1 (dadd w1 w2), mkS (s1 h) (s2 h) (worse (s3 h))) else (best, h))
  else if eqv K r1 r3 then
    (if fgt (dadd w1 w3) (dlit 6 10) then (agreeing r1 (dadd w1 w3), mkS (s1 h) (worse (s2 h)) (s3 h)) else (best, h))
  else if eqv K r2 r3 then
    (if fgt (dadd w2 w3) (dlit 6 10) then (agreeing r2 (dadd w2 w3), mkS (worse (s1 h)) (s2 h) (s3 h)) else (best, h))
  else (best, mkS (better (s1 h)) (better (s2 h)) (better (s3 h))).

(** Executing: three calls of the operation *)
Context {S : Type}.
Definition op := S -> outcome (V * S).
Definition run3 (f : op) (s : S) : outcome (V * V * V * S) :=
  x1 <- f s ;; x2 <- f (snd x1) ;; x3 <- f (snd x2) ;; Ret (fst x1, fst x2, fst x3, snd x3).
(* The strategy objects; HybridRedundancy holds its delay (AP:166), HealthWeightedTMR its scores *)
Inductive strategy := S_none | S_basic | S_enhanced | S_stuck | S_health (h : scores) | S_hybrid (delay : sf).
(* AP:82, 91, 103, 127, 155, 175: getProtectionLevel *)
Definition level_of (x : strategy) : level :=
  match x with S_none => NONE | S_basic => BASIC_TMR | S_enhanced => ENHANCED_TMR | S_stuck => STUCK_BIT_TMR | S_health _ => HEALTH_WEIGHTED_TMR | S_hybrid _ => HYBRID_REDUNDANCY end.
(* AP:72-80, AI:22-65, 70-157, 164-253, 439-557, 575-626; the result, the new state of the operation, the new strategy object *)
Definition execute (x : strategy) (f : op) (s : S) : outcome (result V * S * strategy) :=
  match x with
  | S_none => y <- f s ;; Ret (none_vote (fst y), snd y, x)
  | S_hybrid delay =>
      (* AI:581: before the second call *)
      x1 <- f s ;; _ <- fcast int32 delay ;; x2 <- f (snd x1) ;; _ <- fcast int32 delay ;; x3 <- f (snd x2) ;;
      Ret (hybrid_vote (fst x1) (fst x2) (fst x3), snd x3, x)
  | _ =>
      y <- run3 f s ;;
      let '(r1, r2, r3, s') := y in
      match x with
      | S_enhanced => r <- enhanced_vote r1 r2 r3 ;; Ret (r, s', x)
      | S_stuck => Ret (stuck_vote r1 r2 r3, s', x)
      | S_health h => let '(r, h') := health_vote h r1 r2 r3 in Ret (r, s', S_health h')
      | _ => Ret (basic_vote r1 r2 r3, s', x)
      end
  end.
End Vote.

(* sim/mission_environment.hpp:30-50: the fields that are read *)
Record env := mkEnv { saa : bool; solar : sf; proton : sf; electron : sf; tmin : sf; tmax : sf }.
(* core/material_database.hpp:19-55: the fields that are read *)
Record material := mkMat { yield : sf; tolerance : sf }.
Definition lit1em5 : sf := dlit 1 100000.
Definition dose (e : env) : sf := dmul (dadd (proton e) (electron e)) lit1em5.
Definition temperature (e : env) : sf := ddiv (dadd (tmin e) (tmax e)) (dofZ 2).

(* AI:665-701 (temperature and stress are not used) *)
Definition optimal_level (e : env) (m : material) (criticality : sf) : level :=
  let need := dmul (ddiv (dose e) (tolerance m)) criticality in
  let need := if saa e then dmul need (dofZ 2) else need in
  let need := if fgt (solar e) (dlit 7 10) then dmul need (dlit 15 10) else need in
  if fgt need (dofZ 5) || fgt criticality (dlit 9 10) then HYBRID_REDUNDANCY
  else if fgt need (dofZ 2) || fgt criticality (dlit 7 10) then HEALTH_WEIGHTED_TMR
  else if fgt need (dofZ 1) || fgt criticality (dlit 5 10) then ENHANCED_TMR
  else BASIC_TMR.
(* AI:647-662 *)
Definition create_strategy (e : env) (m : material) (criticality : sf) : strategy :=
  match optimal_level e m criticality with
  | NONE => S_none | BASIC_TMR => S_basic | ENHANCED_TMR => S_enhanced | STUCK_BIT_TMR => S_stuck
  | HEALTH_WEIGHTED_TMR => S_health fresh | HYBRID_REDUNDANCY => S_hybrid (dofZ 50)
  end.

(** CheckpointManager *)
(* AC:19-23 *)
Record ckpt := mkCk { base : sf; current : sf }.
Definition ckpt_new (b : sf) : ckpt := mkCk b b.
(* AC:25-56 *)
Definition adjust (c : ckpt) (e : env) (tf stf syf : sf) : ckpt :=
  let a := ddiv (ddiv (ddiv (base c) tf) stf) syf in
  let a := if saa e then ddiv a (dofZ 2) else a in
  let a := ddiv a (dadd (dofZ 1) (solar e)) in
  mkCk (base c) (fmax (dofZ 10) (fmin (dofZ 3600) a)).

(** LayerProtectionPolicy *)
Record policy := mkPol { plevels : list level; psens : list sf }.
Definition set_nth {A} (l : list A) (i : Z) (v : A) : list A :=
  if (0 <=? i) && (i <? Z.of_nat (length l)) then firstn (Z.to_nat i) l ++ v :: skipn (Datatypes.S (Z.to_nat i)) l else l.
Definition get_nth {A} (l : list A) (i : Z) (d : A) : A := if (0 <=? i) && (i <? Z.of_nat (length l)) then nth (Z.to_nat i) l d else d.
(* AC:62-66 *)
Definition policy_new (n : nat) : policy := mkPol (repeat BASIC_TMR n) (repeat (dlit 5 10) n).
(* AC:68-72, 74-79, 81-85 *)
Definition set_layer_protection (p : policy) (i : Z) (l : level) : policy := mkPol (set_nth (plevels p) i l) (psens p).
Definition get_layer_protection (p : policy) (i : Z) : level := get_nth (plevels p) i BASIC_TMR.
Definition set_layer_sensitivity (p : policy) (i : Z) (s : sf) : policy := mkPol (plevels p) (set_nth (psens p) i s).
(* AC:99-103 *)
Definition position_need (n i : nat) (sens : sf) : sf :=
  dmul sens (dsub (dofZ 1) (dmul (ddiv (dofZ (Z.of_nat i)) (dofZ (Z.of_nat n))) (dlit 5 10))).
(* AC:108-117 *)
Definition need_level (e : env) (need : sf) : level :=
  if saa e || fgt (solar e) (dlit 7 10) || fgt need (dlit 8 10) then HYBRID_REDUNDANCY
  else if fgt (solar e) (dlit 5 10) || fgt need (dlit 6 10) then HEALTH_WEIGHTED_TMR
  else if fgt (solar e) (dlit 3 10) || fgt need (dlit 4 10) then ENHANCED_TMR
  else BASIC_TMR.
(* AC:87-123; both vectors have num_layers elements *)
Definition optimize_policy (p : policy) (e : env) : policy :=
  let n := length (plevels p) in
  mkPol (map (fun i => need_level e (position_need n i (nth i (psens p) S754_nan))) (seq 0 n)) (psens p).

(** MissionAwareProtectionController *)
Local Open Scope string_scope.
Record controller := mkCtl { glevel : level; cenv : option env; phases : list (string * level) }.
Fixpoint phase_find (k : string) (m : list (string * level)) : option level :=
  match m with [] => None | (k', l) :: r => if String.eqb k k' then Some l else phase_find k r end.
(* mission_phase_levels[name] = level; the order of the entries does not matter to find() *)
Definition phase_put (k : string) (l : level) (m : list (string * level)) : list (string * level) := (k, l) :: m.
(* AC:129-141, AP:303: current_env is not initialised *)
Definition controller_new : controller := mkCtl BASIC_TMR None
  [("LAUNCH", HYBRID_REDUNDANCY); ("ORBIT_INSERTION", HYBRID_REDUNDANCY); ("NORMAL_OPERATION", BASIC_TMR); ("SAA_CROSSING", HYBRID_REDUNDANCY);
   ("SOLAR_STORM", HYBRID_REDUNDANCY); ("CRITICAL_OPERATION", HYBRID_REDUNDANCY); ("LOW_POWER", ENHANCED_TMR); ("SAFE_MODE", HYBRID_REDUNDANCY)].
(* AC:146-157 *)
Definition env_level (e : env) : level :=
  if saa e then HYBRID_REDUNDANCY
  else if fgt (solar e) (dlit 7 10) then HYBRID_REDUNDANCY
  else if fgt (solar e) (dlit 5 10) then HEALTH_WEIGHTED_TMR
  else if fgt (solar e) (dlit 3 10) then ENHANCED_TMR
  else BASIC_TMR.
(* AC:143-158, 160-162, 164-169 *)
Definition ctl_update (c : controller) (e : env) : controller := mkCtl (env_level e) (Some e) (phases c).
Definition set_phase (c : controller) (k : string) (l : level) : controller := mkCtl (glevel c) (cenv c) (phase_put k l (phases c)).
Definition enter_phase (c : controller) (k : string) : controller :=
  match phase_find k (phases c) with Some l => mkCtl l (cenv c) (phases c) | None => c end.
(* AI:706-727 *)
Definition current_strategy (c : controller) : outcome strategy :=
  match glevel c with
  | BASIC_TMR => Ret S_basic | ENHANCED_TMR => Ret S_enhanced | STUCK_BIT_TMR => Ret S_stuck | HEALTH_WEIGHTED_TMR => Ret (S_health fresh)
  | HYBRID_REDUNDANCY => match cenv c with None => UB UB_uninit | Some e => Ret (S_hybrid (if saa e then dofZ 100 else dofZ 50)) end
  | NONE => Ret S_basic
  end.

Local Close Scope string_scope.

Section Physics.
Variables (dexp dpow2 : sf -> sf).
(** PhysicsModels *)
(* PD:33-49 *)
Definition temperature_factor (t : sf) : sf :=
  dmul (dofZ 1) (dexp (dmul (ddiv (dlit (-4) 100) (dlit 8617 100000000)) (dsub (ddiv (dofZ 1) t) (ddiv (dofZ 1) (dofZ 295))))).
Definition normalized (stress ys : sf) : sf := fmin (dofZ 1) (ddiv stress ys).
(* PD:58-77 *)
Definition load_factor (stress ys d : sf) : sf :=
  dmul (dadd (dofZ 1) (dmul (dofZ 2) (dpow2 (normalized stress ys)))) (dadd (dofZ 1) (dmul (dlit 1 100) d)).
(* PD:88-114 *)
Definition synergy_factor (t stress ys : sf) : sf :=
  let ns := normalized stress ys in
  let syn := if fgt t (dofZ 350) && fgt ns (dlit 3 10) then dlit 15 10 else dofZ 1 in
  let ts := fmax (dofZ 0) (ddiv (dsub t (dofZ 300)) (dofZ 50)) in
  let ss := fmax (dofZ 0) (ddiv (dsub ns (dlit 1 10)) (dlit 2 10)) in
  fmax syn (dadd (dofZ 1) (dmul (dlit 5 10) (fmin (dofZ 1) (dmul ts ss)))).

(** SensitivityBasedResourceAllocator *)
Record allocator := mkAl { total_res : sf; shares : list sf }.
(* PD:126-129 *)
Definition allocator_new (n : nat) (res : sf) : allocator := mkAl res (repeat (ddiv res (dofZ (Z.of_nat n))) n).
(* PD:207-230 *)
Definition severity (e : env) : sf :=
  let s := dmul (dmul (dose e) (dlit 1 1000)) (temperature_factor (temperature e)) in
  let s := dmul s (dadd (dofZ 1) (solar e)) in
  if saa e then dmul s (dofZ 2) else s.
(* PD:159-161 *)
Definition importance (sev : sf) (n i : nat) (sens : sf) : sf :=
  dmul (dmul sens sev) (dsub (dofZ 1) (ddiv (dmul (dlit 5 10) (dofZ (Z.of_nat i))) (dofZ (Z.of_nat n)))).
Definition importances (sev : sf) (sens : list sf) : list sf :=
  map (fun i => importance sev (length sens) i (nth i sens S754_nan)) (seq 0 (length sens)).
(* PD:141-178 *)
Definition optimize_shares (a : allocator) (sens : list sf) (e : env) : allocator :=
  let imp := importances (severity e) sens in
  let sum := fold_left dadd imp (dofZ 0) in
  mkAl (total_res a) (map (fun x => if fgt sum (dofZ 0) then dmul (ddiv x sum) (total_res a) else ddiv (total_res a) (dofZ (Z.of_nat (length sens)))) imp).
(* PD:191-200 *)
Definition share_level (x : sf) : level :=
  if flt x (dlit 3 10) then BASIC_TMR else if flt x (dlit 6 10) then ENHANCED_TMR else if flt x (dlit 8 10) then HEALTH_WEIGHTED_TMR else HYBRID_REDUNDANCY.
(* PD:184-201 *)
Definition allocated_level (a : allocator) (i : Z) : level :=
  if (i <? 0) || (Z.of_nat (length (shares a)) <=? i) then BASIC_TMR else share_level (nth (Z.to_nat i) (shares a) S754_nan).

(** MultiScaleProtectionManager: five scales, in order *)
Record scale := mkSc { last_update : Z; state : Z }.
Definition intervals : list Z := [1; 1000; 60000; 3600000; 86400000].
(* PD:255-274 *)
Definition scales_new (now : Z) : list scale := repeat (mkSc now 0) 5.
(* PD:384-391 *)
Definition phase_state (e : env) : outcome Z :=
  if saa e then Ret 10 else if fgt (solar e) (dlit 8 10) then Ret 9 else if fgt (solar e) (dlit 5 10) then Ret 7
  else z <- fcast int32 (dmul (ddiv (dadd (proton e) (electron e)) (dofZ 100000000)) (dofZ 10)) ;; Ret (Z.min 10 z).
(* PD:396-411 *)
Definition health_state (e : env) (m : material) : outcome Z :=
  z <- fcast int32 (ddiv (dmul (dofZ 5) (temperature_factor (temperature e))) (ddiv (tolerance m) (dofZ 100))) ;; Ret (Z.min 10 z).
(* PD:416-420 *)
Definition long_state (e : env) : outcome Z := z <- fcast int32 (dmul (solar e) (dofZ 10)) ;; Ret (Z.min 10 z).
(* PD:345-379 *)
Definition state_at (i : nat) (e : env) (m : material) : outcome Z :=
  match i with
  | 0%nat => fcast int32 (ddiv (proton e) (dofZ 10000000))
  | 1%nat => Ret (if saa e then 10 else if fgt (solar e) (dlit 7 10) then 8 else 5)
  | 2%nat => phase_state e
  | 3%nat => health_state e m
  | _ => long_state e
  end.
(* PD:282-307 *)
Fixpoint update_scales (i : nat) (l : list scale) (iv : list Z) (now : Z) (e : env) (m : material) : outcome (list scale) :=
  match l, iv with
  | x :: r, d :: iv' =>
      x' <- (if d <=? now - last_update x then z <- state_at i e m ;; Ret (mkSc now z) else Ret x) ;;
      r' <- update_scales (S i) r iv' now e m ;; Ret (x' :: r')
  | _, _ => Ret l
  end.
Definition weights5 : list sf := [dlit 2 10; dlit 3 10; dlit 2 10; dlit 2 10; dlit 1 10].
(* PD:313-339 *)
Definition protection_factor (l : list scale) : sf :=
  fold_left (fun f x => dmul f (dadd (dofZ 1) (ddiv (dmul (fst x) (dofZ (state (snd x)))) (dofZ 10)))) (combine weights5 l) (dofZ 1).

(** PhysicsDrivenProtection *)
(* PD:426-442 *)
Record pdp := mkPdp { mat : material; ctl : controller; pol : policy; ck : ckpt; alloc : allocator; scales : list scale; sens : list sf; f_temp : sf; f_stress : sf; f_syn : sf }.
(* PD:450-460 *)
Definition pdp_new (m : material) (n : nat) (now : Z) : pdp :=
  mkPdp m controller_new (policy_new n) (ckpt_new (dofZ 300)) (allocator_new n (dofZ 1)) (scales_new now) (repeat (dlit 5 10) n) (dofZ 1) (dofZ 1) (dofZ 1).
(* PD:467-472 *)
Definition pdp_sensitivity (p : pdp) (i : Z) (s : sf) : pdp :=
  if (0 <=? i) && (i <? Z.of_nat (length (sens p))) then
    mkPdp (mat p) (ctl p) (set_layer_sensitivity (pol p) i s) (ck p) (alloc p) (scales p) (set_nth (sens p) i s) (f_temp p) (f_stress p) (f_syn p)
  else p.
(* PD:479-518 *)
Definition pdp_update (p : pdp) (now : Z) (e : env) (stress : sf) : outcome pdp :=
  let t := temperature e in
  let ft := temperature_factor t in
  let fs := load_factor stress (yield (mat p)) (dose e) in
  let fy := synergy_factor t stress (yield (mat p)) in
  sc <- update_scales 0 (scales p) intervals now e (mat p) ;;
  Ret (mkPdp (mat p) (ctl_update (ctl p) e) (optimize_policy (pol p) e) (adjust (ck p) e ft fs fy)
             (optimize_shares (alloc p) (sens p) e) sc (sens p) ft fs fy).
(* PD:584-586 *)
Definition pdp_phase (p : pdp) (k : string) : pdp :=
  mkPdp (mat p) (enter_phase (ctl p) k) (pol p) (ck p) (alloc p) (scales p) (sens p) (f_temp p) (f_stress p) (f_syn p).
(* PD:533-572; [criticality] reaches createCurrentStrategy, which ignores it *)
Definition chosen_level (p : pdp) (i : Z) : level :=
  let a := allocated_level (alloc p) i in let l := get_layer_protection (pol p) i in if rank l <? rank a then a else l.
Definition chosen_strategy (p : pdp) (i : Z) (criticality : sf) : outcome strategy :=
  match chosen_level p i with
  | NONE => current_strategy (ctl p)
  | BASIC_TMR => Ret S_basic | ENHANCED_TMR => Ret S_enhanced | STUCK_BIT_TMR => Ret S_stuck | HEALTH_WEIGHTED_TMR => Ret (S_health fresh)
  | HYBRID_REDUNDANCY => Ret (S_hybrid (dmul (dofZ 50) (protection_factor (scales p))))
  end.
(* PD:528-577 *)
Definition execute_protected {V S} (K : kind V) (p : pdp) (f : @op V S) (i : Z) (criticality : sf) (s : S) : outcome (result V * S) :=
  x <- chosen_strategy p i criticality ;; y <- execute K x f s ;; Ret (fst y).

(** ProtectedNeuralLayer<float> (PD:623-706): the weights and biases are the state the operations act on *)
Record nlayer := mkNl { nweights : list sf; nbiases : list sf }.
(* PD:642-650, 655-663 *)
Definition set_weights (p : pdp) (i : Z) (c : sf) (l : nlayer) (w : list sf) : outcome nlayer :=
  y <- execute_protected kbool p (fun l => Ret (true, mkNl w (nbiases l))) i c l ;; Ret (snd y).
Definition set_biases (p : pdp) (i : Z) (c : sf) (l : nlayer) (b : list sf) : outcome nlayer :=
  y <- execute_protected kbool p (fun l => Ret (true, mkNl (nweights l) b)) i c l ;; Ret (snd y).
(* PD:684-694 for one output: bias, then the products in order, then ReLU *)
Definition neuron (w : list sf) (b : sf) (x : list sf) : sf :=
  let v := fold_left (fun acc q => sadd acc (smul (fst q) (snd q))) (combine w x) b in
  if fgt v (sofZ 0) then v else sofZ 0.
(* PD:670-697 *)
Definition forward_op (x : list sf) (l : nlayer) : outcome (list sf) :=
  if Nat.eqb (length (nweights l)) 0 || Nat.eqb (length (nbiases l)) 0 then Ret []
  else if Nat.eqb (length x) 0 then UB UB_div_zero
  else
    let n := (length (nweights l) / length x)%nat in
    if Nat.eqb n 0 || negb (Nat.eqb n (length (nbiases l))) then Ret []
    else Ret (map (fun i => neuron (firstn (length x) (skipn (i * length x) (nweights l))) (nth i (nbiases l) S754_nan) x) (seq 0 n)).
(* PD:668-705 *)
Definition forward (p : pdp) (i : Z) (c : sf) (x : list sf) (l : nlayer) : outcome (list sf) :=
  y <- execute_protected kvec p (fun l => v <- forward_op x l ;; Ret (v, l)) i c l ;; Ret (value (fst y)).
End Physics.
