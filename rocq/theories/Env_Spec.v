(** Vocabulary of the properties of radiation environments and space missions. *)
From Coq Require Import List NArith ZArith Bool String Reals SpecFloat.
Import ListNotations.
From Flocq Require Import Core BinarySingleNaN.
From Verif Require Import Outcome Words Floats FloatsR HealthFloat Qft_Model Env_Model.
Local Open Scope Z_scope.

(** ** missions *)
(** the length of a sequence of phases in seconds *)
Fixpoint duration (ps : list phase) : Z := match ps with [] => 0 | p :: r => p_dur p + duration r end.
(** every environment the phases point to exists *)
Definition live (h : heap) (ps : list phase) : Prop := forall p a, In p ps -> p_env p = Some a -> (a < List.length h)%nat.
(** the flux of a phase, if it has an environment *)
Definition phase_flux (h : heap) (p : phase) : option sf := match p_env p with Some a => Some (e_flux (deref h a)) | None => None end.
(** the mission's exposure in exact arithmetic: flux times seconds, phases without environment not counted *)
Definition exact_exposure (h : heap) (ps : list phase) : Rdefinitions.R :=
  fold_right (fun p s => match phase_flux h p with Some x => (R x * IZR (p_dur p) + s)%R | None => s end) 0%R ps.
Definition is_float (x : sf) : Prop := valid_binary 24 128 x = true.
(** a flux: zero, or a float between 2^-60 and 2^30 *)
Definition flux_ok (x : sf) : Prop := is_float x /\ is_finite_SF x = true /\ (R x = 0 \/ bpow radix2 (-60) <= R x <= bpow radix2 30)%R.
Definition phase_ok (h : heap) (p : phase) : Prop := 0 <= p_dur p <= int64_max /\ forall x, phase_flux h p = Some x -> flux_ok x.
(** the targets that have a configuration of their own *)
Definition configured (t : target) : Prop := In t [EARTH_LEO; EARTH_GEO; MOON; MARS; JUPITER; SOLAR_PROBE].
(** the phase with the highest flux of a standard mission *)
Definition worst_phase (t : target) : string :=
  match t with
  | EARTH_GEO => "GEO Operations" | MOON => "Lunar Orbit" | MARS => "Earth-Mars Transfer" | JUPITER => "Jupiter Orbit" | SOLAR_PROBE => "Perihelion"
  | _ => "LEO Operations"
  end%string.
(** outbound and return legs share one environment *)
Definition round_trip (t : target) : bool := match t with MOON | MARS => true | _ => false end.
(** a change made through a pointer *)
Inductive change := ChFlux (x : sf) | ChCross (x : sf) | ChProp (k : string) (x : sf).
Definition changed (e : env) (c : change) : env :=
  match c with ChFlux x => setSEUFlux e x | ChCross x => setSEUCrossSection e x | ChProp k x => setProperty e k x end.
Definition change_at (h : heap) (a : nat) (c : change) : heap := store h a (changed (deref h a) c).
(** the last value set for a key *)
Fixpoint last_set (k : string) (cs : list change) (d : option sf) : option sf :=
  match cs with [] => d | ChProp j x :: r => last_set k r (if String.eqb j k then Some x else d) | _ :: r => last_set k r d end.
Fixpoint last_flux (cs : list change) (d : sf) : sf := match cs with [] => d | ChFlux x :: r => last_flux r x | _ :: r => last_flux r d end.
Fixpoint last_cross (cs : list change) (d : sf) : sf := match cs with [] => d | ChCross x :: r => last_cross r x | _ :: r => last_cross r d end.
(** documented order of the predefined environments, from calm to extreme *)
Definition severity (t : etype) : nat :=
  match t with CUSTOM => 0 | GROUND_LEVEL => 1 | AVIONIC => 2 | LOW_EARTH_ORBIT | E_MARS => 3 | E_LUNAR => 4 | MEDIUM_EARTH_ORBIT => 5 | GEOSTATIONARY_ORBIT => 6
            | E_JUPITER => 7 | SOLAR_FLARE => 8 end.
