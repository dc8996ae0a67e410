(** What the adaptive controllers should do.  From the model only types and state fields are used. *)
From Coq Require Import List NArith ZArith Bool Reals.
Import ListNotations.
From Flocq Require Import Core.
From Verif Require Import Outcome Floats FloatsR HealthFloat FloatsS Inject_Model Adapt_Model.

(** ** AdaptiveProtection *)
(** Clock readings are 64-bit nanosecond counts, error counts uint32_t. *)
Definition clock (t : Z) : Prop := (0 <= t < 2 ^ 63)%Z.
Definition legal_ap (o : ap_op) : Prop :=
  match o with AUpdate a b now => (a < 2 ^ 32)%N /\ (b < 2 ^ 32)%N /\ clock now | _ => True end.
(** whole seconds between two readings *)
Definition seconds (from to : Z) : Z := ((to - from) / 1000000000)%Z.
(** The level a flux calls for: at least 1 error per second, at least 0.1, at least 0.01 (as doubles). *)
Local Open Scope R_scope.
Definition in_band (l : level) (f : sf) : Prop :=
  match l with
  | MAXIMUM => 1 <= R f
  | ENHANCED => R (dlit 1 10) <= R f < 1
  | STANDARD => R (dlit 1 100) <= R f < R (dlit 1 10)
  | MINIMAL => R f < R (dlit 1 100)
  end.
(** [x] is [y] up to rounding: one part in 2^50 of [scale] *)
Definition nearly (x y scale : Rdefinitions.R) : Prop := Rabs (x - y) <= scale / 1125899906842624 + bpow radix2 (-1000).
Definition level_num (l : level) : nat := match l with MINIMAL => 0 | STANDARD => 1 | ENHANCED => 2 | MAXIMUM => 3 end.
Definition registrations (ops : list ap_op) : nat := length (filter (fun o => match o with ARegister _ => true | _ => false end) ops).
(** no callback calls back *)
Definition observing (o : ap_op) : Prop := match o with ARegister CallsBack => False | _ => True end.
(** [n] updates without errors, a second or more apart, starting from a state whose last assessment was at [t] *)
Fixpoint quiet (t : Z) (ops : list ap_op) : Prop :=
  match ops with
  | [] => True
  | AUpdate a b now :: r => a = 0%N /\ b = 0%N /\ clock now /\ (1 <= seconds t now)%Z /\ quiet now r
  | _ :: _ => False
  end.

(** ** AdaptiveFramework *)
Local Open Scope Z_scope.
(** environments from mild to harsh *)
Definition rank (e : env_type) : Z := match e with BENIGN => 0 | LEO => 1 | MEO => 2 | GEO => 3 | SOLAR_FLARE => 4 | JUPITER => 5 | EXTREME => 6 end.
Definition sets_env (o : af_op) : bool := match o with FSet _ => true | _ => false end.
Definition enables (o : af_op) : bool := match o with FMode true _ _ _ => true | _ => false end.
(** time at which a call looks at the clock *)
Definition at_time (o : af_op) : option Z := match o with FMode _ t _ _ | FLog t _ _ | FMaintain t _ _ => Some t | _ => None end.
Definition ten_seconds := 10000000000.
Definition five_minutes := 300000000000.
(** a distribution over the six patterns: six shares between 0 and 1 *)
Definition shares (dist : list sf) : Prop := length dist = 6%nat /\ Forall (fun x => oks x /\ (0 <= R x <= 1)%R) dist.
(** the settings a history leaves for an environment: the last customization, or the default *)
Fixpoint customized (e : env_type) (ops : list af_op) (start : settings) : settings :=
  match ops with
  | [] => start
  | FCustomize e' x :: r => customized e r (if rank e' =? rank e then x else start)
  | _ :: r => customized e r start
  end.
Definition changed (s s' : af) : bool := negb (rank (env s) =? rank (env s')).
(** the times at which the framework itself, not setEnvironment, changed the environment *)
Fixpoint detections (s : af) (ops : list af_op) : list Z :=
  match ops with
  | [] => []
  | o :: r => match at_time o with
              | Some t => if changed s (af_step s o) then [t] else []
              | None => []
              end ++ detections (af_step s o) r
  end.
(** the same physical parameters *)
Definition same_physics (p q : Inject_Model.env_params) : Prop :=
  Inject_Model.altitude_km p = Inject_Model.altitude_km q /\ Inject_Model.inclination_deg p = Inject_Model.inclination_deg q /\
  Inject_Model.solar_activity p = Inject_Model.solar_activity q /\ Inject_Model.inside_saa p = Inject_Model.inside_saa q /\ Inject_Model.shielding_mm p = Inject_Model.shielding_mm q.
(** The observers hear of a level exactly when it changes, all those registered at that moment, once, with the new level. *)
Definition noted (s s' : ap) : Prop := (cur s' = cur s -> notes s' = notes s) /\ (cur s' <> cur s -> notes s' = (map fst (cbs s), cur s') :: notes s).
Definition fnoted (s s' : af) : Prop := (env s' = env s -> fnotes s' = fnotes s) /\ (env s' <> env s -> fnotes s' = (fcbs s, env s') :: fnotes s).
(** neither an update nor a level set by the user *)
Definition bookkeeping (o : ap_op) : Prop := match o with ARegister _ | AUnregister _ => True | _ => False end.
