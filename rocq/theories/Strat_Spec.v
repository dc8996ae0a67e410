(** What the properties of the execution strategies and of PhysicsDrivenProtection speak about. *)
From Coq Require Import String List NArith ZArith Bool SpecFloat.
Import ListNotations.
From Flocq Require Import Core IEEE754.BinarySingleNaN.
From Verif Require Import Outcome Words Floats Approx_Model Bits_Model Strat_Model.
Local Open Scope Z_scope.

(** A value of type double; a double between two others (never NaN). *)
Definition a_double (x : sf) : Prop := valid_binary 53 1024 x = true.
Definition within (lo hi x : sf) : Prop := a_double x /\ fle lo x = true /\ fle x hi = true.
Definition a_float (x : sf) : Prop := valid_binary 24 128 x = true.

(** Three consecutive calls of the operation return r1, r2, r3 and leave the state s'. *)
Definition three_calls {V S} (f : @op V S) (s : S) (r1 r2 r3 : V) (s' : S) : Prop :=
  exists a b, f s = Ret (r1, a) /\ f a = Ret (r2, b) /\ f b = Ret (r3, s').
(** At least two of three are v. *)
Definition two_of {V} (v r1 r2 r3 : V) : Prop := (r1 = v /\ r2 = v) \/ (r1 = v /\ r3 = v) \/ (r2 = v /\ r3 = v).
Definition all_three {V} (v r1 r2 r3 : V) : Prop := r1 = v /\ r2 = v /\ r3 = v.
(** == of the type: v == v (fails for NaN); symmetric and transitive; exact. *)
Definition self_equal {V} (K : kind V) (v : V) : Prop := eqv K v v = true.
Definition per {V} (K : kind V) : Prop :=
  (forall a b, eqv K a b = true -> eqv K b a = true) /\ (forall a b c, eqv K a b = true -> eqv K b c = true -> eqv K a c = true).
(** A delay whose conversion to int is defined. *)
Definition delay_ok (d : sf) : Prop := exists z, fcast int32 d = Ret z.

(** A HealthWeightedTMR object over its life. *)
Inductive health_life {V} (K : kind V) : scores -> Prop :=
| HL_new : health_life K fresh
| HL_exec S (f : @op V S) s h r s' h' : health_life K h -> execute K (S_health h) f s = Ret (r, s', S_health h') -> health_life K h'.
Definition score (h : scores) (k : nat) : sf := match k with 0%nat => s1 h | 1%nat => s2 h | _ => s3 h end.
(** The two results other than the k-th agree. *)
Definition others_agree {V} (K : kind V) (k : nat) (r1 r2 r3 : V) : Prop :=
  match k with 0%nat => eqv K r2 r3 = true | 1%nat => eqv K r1 r3 = true | _ => eqv K r1 r2 = true end.
Definition other {V} (k : nat) (r1 r2 r3 : V) : V := match k with 0%nat => r2 | 1%nat => r3 | _ => r1 end.
(** A life in which at most the k-th execution ever disagrees. *)
Inductive lone_fault {V} (K : kind V) (k : nat) : scores -> Prop :=
| LF_new : lone_fault K k fresh
| LF_exec S (f : @op V S) s h r1 r2 r3 r s' h' : lone_fault K k h -> three_calls f s r1 r2 r3 s' -> others_agree K k r1 r2 r3 ->
    execute K (S_health h) f s = Ret (r, s', S_health h') -> lone_fault K k h'.

(** Environments: the order "at least as severe", and plausible values. *)
Definition env_le (e e' : env) : Prop :=
  (saa e = true -> saa e' = true) /\ fle (solar e) (solar e') = true /\ fle (proton e) (proton e') = true /\ fle (electron e) (electron e') = true.
Definition up_to (b x : sf) : Prop := within (dofZ 0) b x.
Definition plausible (e : env) : Prop := up_to (dofZ 1) (solar e) /\ up_to (dofZ (10 ^ 12)) (proton e) /\ up_to (dofZ (10 ^ 12)) (electron e).
Definition level_le (a b : level) : Prop := rank a <= rank b.

(** Calls on a mission controller, and what they add up to. *)
Inductive ctl_call := C_update (e : env) | C_set (k : string) (l : level) | C_enter (k : string).
Definition ctl_do (c : controller) (o : ctl_call) : controller :=
  match o with C_update e => ctl_update c e | C_set k l => set_phase c k l | C_enter k => enter_phase c k end.
Definition ctl_run (l : list ctl_call) : controller := fold_left ctl_do l controller_new.
(** The level configured for a phase: the last setting, or the built-in one. *)
Local Open Scope string_scope.
Definition built_in (k : string) : option level :=
  if existsb (String.eqb k) ["LAUNCH"; "ORBIT_INSERTION"; "SAA_CROSSING"; "SOLAR_STORM"; "CRITICAL_OPERATION"; "SAFE_MODE"] then Some HYBRID_REDUNDANCY
  else if String.eqb k "NORMAL_OPERATION" then Some BASIC_TMR
  else if String.eqb k "LOW_POWER" then Some ENHANCED_TMR else None.
Fixpoint configured (k : string) (newest_first : list ctl_call) : option level :=
  match newest_first with
  | [] => built_in k
  | C_set k' l :: r => if String.eqb k k' then Some l else configured k r
  | _ :: r => configured k r
  end.
(** The level in force: decided by the most recent environment update or known phase. *)
Fixpoint in_force (newest_first : list ctl_call) : level :=
  match newest_first with
  | [] => BASIC_TMR
  | C_update e :: _ => env_level e
  | C_set _ _ :: r => in_force r
  | C_enter k :: r => match configured k r with Some l => l | None => in_force r end
  end.
Local Close Scope string_scope.

(** Calls on a PhysicsDrivenProtection; histories of calls that all return. *)
Inductive pdp_call := P_sens (i : Z) (s : sf) | P_phase (k : string) | P_update (now : Z) (e : env) (stress : sf).
Section History.
Variables (dexp dpow2 : sf -> sf).
Definition pdp_do (p : pdp) (o : pdp_call) : outcome pdp :=
  match o with P_sens i s => Ret (pdp_sensitivity p i s) | P_phase k => Ret (pdp_phase p k) | P_update now e st => pdp_update dexp dpow2 p now e st end.
Fixpoint pdp_run (p : pdp) (l : list pdp_call) : outcome pdp :=
  match l with [] => Ret p | o :: r => match pdp_do p o with Ret q => pdp_run q r | x => x end end.
End History.
Definition is_phase (o : pdp_call) : bool := match o with P_phase _ => true | _ => false end.
Definition without_phases (l : list pdp_call) : list pdp_call := filter (fun o => negb (is_phase o)) l.
(** Every environment ever reported is plausible. *)
Definition plausible_calls (l : list pdp_call) : Prop := Forall (fun o => match o with P_update _ e _ => plausible e | _ => True end) l.

(** The reference result of a ProtectedNeuralLayer: ReLU(W x + b) row by row, products added in order. *)
Definition row_result (row : list sf) (b : sf) (x : list sf) : sf :=
  let v := fold_left (fun acc q => sadd acc (smul (fst q) (snd q))) (combine row x) b in if flt (sofZ 0) v then v else sofZ 0.
Fixpoint rows (n : nat) (m : nat) (w : list sf) : list (list sf) := match n with O => [] | S n => firstn m w :: rows n m (skipn m w) end.
Definition reference (w b x : list sf) : list sf := map (fun q => row_result (fst q) (snd q) x) (combine (rows (length b) (length x) w) b).

(** An operation whose results are scripted in advance. *)
Definition script {V} : @op V (list V) := fun l => match l with x :: r => Ret (x, r) | [] => Throw E_runtime_error end.
(** A HealthWeightedTMR life in which every execution had at least two right results. *)
Inductive one_wrong_life {V} (K : kind V) : scores -> Prop :=
| OW_new : one_wrong_life K fresh
| OW_exec S (f : @op V S) s h v r1 r2 r3 r s' h' : one_wrong_life K h -> three_calls f s r1 r2 r3 s' -> two_of v r1 r2 r3 ->
    execute K (S_health h) f s = Ret (r, s', S_health h') -> one_wrong_life K h'.
(** Floats whose conversion to an unsigned 64-bit integer is meaningful. *)
Definition float_up_to (b : Z) (x : sf) : Prop := a_float x /\ fle (sofZ 0) x = true /\ fle x (sofZ b) = true.
(** exp never returns a negative number. *)
Definition never_negative (f : sf -> sf) : Prop := forall x, flt (f x) (dofZ 0) = false.
(** A PhysicsDrivenProtection reached from a new one by calls that all returned, in plausible environments; positive radiation tolerance. *)
Definition reached (dexp dpow2 : sf -> sf) (q : pdp) : Prop :=
  exists m n now l, plausible_calls l /\ flt (dofZ 0) (tolerance m) = true /\ pdp_run dexp dpow2 (pdp_new m n now) l = Ret q.
(** Checkpoint factors and tolerances of a sane size. *)
Definition sane_factor (x : sf) : Prop := within (dlit 1 1000) (dofZ 1000000) x.
