(** Vocabulary of the properties of sim::PhysicsRadiationSimulator. *)
From Coq Require Import List NArith ZArith Bool Reals SpecFloat.
Import ListNotations.
From Flocq Require Import Core BinarySingleNaN.
From Verif Require Import Outcome Words Floats FloatsR HealthFloat Qft_Model Qft_Spec Phys_Model.
Local Open Scope outcome_scope.
Local Open Scope R_scope.

(** ** the published numbers *)
Definition base_probability (t : effect) : Rdefinitions.R :=
  match t with
  | SEU => 1 / 10000000 | MBU => 2 / 100000000 | SEL => 5 / 1000000000 | SET => 2 / 10000000 | SEFI => 1 / 1000000000 | TID_STUCK_BIT => 5 / 10000000000
  | TID_THRESHOLD_SHIFT => 1 / 1000000000
  end.
Definition level (e : place) : Rdefinitions.R :=
  match e with
  | LEO => 1 | MEO => 10 | GEO => 5 | LUNAR => 4 | MARS_ORBIT => 3 | MARS_SURFACE => 5 / 10 | JUPITER => 1000 | EUROPA => 2000 | INTERPLANETARY => 3
  | SOLAR_MINIMUM => 2 | SOLAR_MAXIMUM => 8 / 10 | SOLAR_STORM => 100
  end.
Inductive region := Earth | Deep | Storm.
Definition region_of (e : place) : region := match e with LEO | MEO | GEO => Earth | SOLAR_STORM => Storm | _ => Deep end.
(** galactic rays fall with activity, solar particles grow with its square *)
Definition activity_effect (r : region) (a : Rdefinitions.R) : Rdefinitions.R :=
  match r with
  | Earth => 7 / 10 * (1 - a / 2) + 3 / 10 * (5 * (a * a))
  | Deep => 5 / 10 * (1 - a / 2) + 5 / 10 * (5 * (a * a))
  | Storm => 1
  end.
Definition bits_range (t : effect) : Z * Z :=
  (match t with
   | SEU | SET | TID_STUCK_BIT => (1, 1) | MBU => (2, 8) | SEL | TID_THRESHOLD_SHIFT => (1, 1024) | SEFI => (1, 1048576)
   end)%Z.

(** ** what is promised about libm and the random engine *)
(** x -> pow(x, 1.2) and x -> pow(x, 0.7) on [0, 1] *)
Record pow_lib (f : sf -> sf -> sf) : Prop := {
  pow_unit : forall x y, between 0 1 x -> between 0 2 y -> between 0 1 (f x y);
  pow_grows : forall x x' y, between 0 1 x -> between 0 1 x' -> between 0 2 y -> fle x x' = true -> fle (f x y) (f x' y) = true
}.
Definition uniform_lib {G} (uniform : Z -> Z -> G -> Z * G) : Prop := forall lo hi g, (lo <= hi)%Z -> (lo <= fst (uniform lo hi g) <= hi)%Z.
Definition poisson_lib {G} (poisson : sf -> G -> Z * G) : Prop := forall mean g, (0 <= fst (poisson mean g) < 2 ^ 64)%Z.

(** ** histories *)
Inductive pcall := PEnv (e : place) | PSolar (a : sf) | PShield (t : sf) | PTraj (t : trajectory) | PPeriod (days : sf) | PMission | PTid (days : sf).
Section H.
Variables (fexp : sf -> sf) (fpow : sf -> sf -> sf) (G : Type) (poisson : sf -> G -> Z * G) (uniform : Z -> Z -> G -> Z * G).
Definition pstep (sg : psim * G) (c : pcall) : outcome (psim * G) :=
  let (s, g) := sg in
  match c with
  | PEnv e => Ret (set_environment s e, g)
  | PSolar a => Ret (set_solar_activity s a, g)
  | PShield t => Ret (set_shielding s t, g)
  | PTraj t => s' <- set_trajectory s t ;; Ret (s', g)
  | PPeriod days => x <- simulate_period fexp fpow G poisson uniform s days g ;; Ret (s, snd x)
  | PMission => x <- simulate_mission fexp fpow G poisson uniform s g ;; Ret (snd (fst x), snd x)
  | PTid days => x <- simulate_mission_tid fexp fpow G poisson s days g ;; Ret (snd (fst x), snd x)
  end.
Fixpoint prun (sg : psim * G) (cs : list pcall) : outcome (psim * G) := match cs with [] => Ret sg | c :: r => sg1 <- pstep sg c ;; prun sg1 r end.
(** every argument is a double, NaN and infinities included *)
Definition real_call (c : pcall) : Prop := match c with PSolar a => is_double a | _ => True end.
(** an object with that many bits, made and used without undefined behaviour *)
Definition preachable (bits : Z) (s : psim) (g : G) : Prop :=
  exists word shield t g0 cs s0, (0 <= bits < 2 ^ 64)%Z /\ psim_new bits word shield t = Ret s0 /\ Forall real_call cs /\ prun (s0, g0) cs = Ret (s, g).
(** one report per segment, in order, each from a run of that length in that environment *)
Definition tally (evs : list (effect * Z)) (m : effect -> Z) : Prop := forall t, m t = Z.of_nat (length (filter (fun ev => effect_eqb (fst ev) t) evs)).
Inductive flown (s : psim) : list (place * sf) -> G -> list (effect -> Z) -> G -> Prop :=
| flown_end g : flown s [] g [] g
| flown_leg e d rest g evs g1 m ms g2 : simulate_period fexp fpow G poisson uniform (set_environment s e) d g = Ret (evs, g1) -> tally evs m -> flown s rest g1 ms g2 -> flown s ((e, d) :: rest) g (m :: ms) g2.
End H.

(** ** trajectories *)
Definition well_formed (t : trajectory) : Prop :=
  environments t <> [] /\ length (environments t) = length (durations_days t) /\ Forall (between (/ 1000000) 1000000000) (durations_days t).
(** the first [n] days of a mission planned in whole days *)
Fixpoint first_days (n : Z) (legs : list (place * Z)) : list (place * Z) :=
  match legs with [] => [] | (e, d) :: r => if (n <=? 0)%Z then [] else (e, Z.min d n) :: first_days (n - d) r end.
Definition planned (legs : list (place * Z)) : trajectory := mkT (map fst legs) (map (fun l => dofZ (snd l)) legs).
Definition total_days (legs : list (place * Z)) : Z := fold_right (fun l n => snd l + n)%Z 0%Z legs.
