(** Vocabulary of the properties of neural::RadiationEnvironment. *)
From Coq Require Import List NArith ZArith Bool String Reals SpecFloat.
Import ListNotations.
From Flocq Require Import Core BinarySingleNaN.
From Verif Require Import Outcome Words Floats FloatsR HealthFloat Qft_Model Qft_Spec Env_Model.
Local Open Scope Z_scope.

(** ** what is promised about libm *)
Definition unit_lib (f : sf -> sf) : Prop := forall x, finite_double x -> between (-1) 1 (f x).
(** an odd function, bounded by one, zero at zero *)
Record sin_lib (f : sf -> sf) : Prop := { sin_unit : unit_lib f; sin_odd : forall x, f (SFopp x) = SFopp (f x); sin_zero : f d0 = d0 }.
(** the cube of a number between 1 and 2^40 lies between the cubes of the bounds *)
Definition cube_lib (f : sf -> sf) : Prop := forall x, between 1 (bpow radix2 40) x -> between 1 (bpow radix2 120) (f x).

(** ** a position on or above the Earth *)
Definition not_negative (x : sf) : Prop := is_double x /\ fle d0 x = true.
Record on_earth (p : position) : Prop := { oe_lat : between (-90) 90 (lat p); oe_lon : between (-360) 360 (lon p); oe_alt : not_negative (alt p) }.

(** ** histories of a RadiationEnvironment *)
Inductive rcall := RSolar (a : sf) | RShield (t : sf) (material : Z) | RFlare (i : sf).
Definition rstep (fexp : sf -> sf) (r : renv) (c : rcall) : renv :=
  match c with RSolar a => setSolarActivity r a | RShield t m => setShielding fexp r t m | RFlare i => fst (simulateSolarFlare r i) end.
Definition rrun (fexp : sf -> sf) (r : renv) (cs : list rcall) : renv := fold_left (rstep fexp) cs r.
(** an activity is a number, a thickness or an intensity is not negative *)
Definition legal (c : rcall) : Prop :=
  match c with RSolar a => is_double a /\ a <> S754_nan | RShield t _ => not_negative t | RFlare i => not_negative i end.
Definition is_solar (c : rcall) : bool := match c with RSolar _ => true | _ => false end.
Definition is_shield (c : rcall) : bool := match c with RShield _ _ => true | _ => false end.
(** the shielding last set *)
Fixpoint last_shield (cs : list rcall) (d : option (sf * Z)) : option (sf * Z) :=
  match cs with [] => d | RShield t m :: r => last_shield r (Some (t, m)) | _ :: r => last_shield r d end.
(** the environment made for mission [m] by a history [cs], [g] being the indeterminate initial material *)
Definition made (fexp : sf -> sf) (g : Z) (m : space_mission) (cs : list rcall) : renv := rrun fexp (renv_new fexp g m) cs.

(** ** comparing fluxes *)
Definition flux_all (P : sf -> Prop) (f : flux) : Prop := P (electron f) /\ P (proton f) /\ P (ion f) /\ P (dose f).
Definition flux_le (f g : flux) : Prop :=
  fle (electron f) (electron g) = true /\ fle (proton f) (proton g) = true /\ fle (ion f) (ion g) = true /\ fle (dose f) (dose g) = true.
(** relative accuracy *)
Definition close_rel (x v : Rdefinitions.R) : Prop := (Rabs (x - v) <= v / 1000000000)%R.
(** the plane distance of a position to the centre of the South Atlantic Anomaly, squared *)
Definition saa_distance2 (p : position) : Rdefinitions.R := ((R (lat p) + 30) * (R (lat p) + 30) + (R (lon p) + 40) * (R (lon p) + 40))%R.
(** a mission away from the Earth's belts *)
Definition beltless (m : space_mission) : bool := match m with LEO_EQUATORIAL | LEO_POLAR | MEO => false | _ => true end.
