(** Vocabulary of the properties of the free functions of the quantum field library and of QuantumEnhancedRadiation. *)
From Coq Require Import List NArith ZArith Bool Reals SpecFloat.
Import ListNotations.
From Flocq Require Import Core.
From Verif Require Import Outcome Words Floats FloatsR HealthFloat Qft_Model Qft_Spec.

(** a positive double of the sizes these quantities have in their units: 2^-20 to 2^20 *)
Definition moderate (x : sf) : Prop := between (/ 1048576) 1048576 x.
(** a positive double between 2^-300 and 2^300 *)
Definition positive_double (x : sf) : Prop := between (bpow radix2 (-300)) (bpow radix2 300) x.
(** an absolute temperature: zero, or moderate *)
Definition kelvin (t : sf) : Prop := t = d0 \/ moderate t.
Record physical (m : material) : Prop :=
  { phys_gap : moderate (bandgap m); phys_mass : moderate (mass_ratio m); phys_lattice : moderate (lattice_nm m); phys_crit : moderate (crit_fc m); phys_temp : kelvin (temp_k m) }.
(** std::exp overflows on arguments of a thousand and more *)
Definition exp_overflow (f : sf -> sf) : Prop := forall x, is_double x -> fle (dofZ 1000) x = true -> f x = S754_infinity false.
(** std::pow(x, 2) grows on arguments that are not negative *)
Definition pow2_grows (f : sf -> sf) : Prop := forall x y, is_double x -> is_double y -> fle d0 x = true -> fle x y = true -> fle (f x) (f y) = true.
(** Boltzmann's constant in eV/K *)
Definition boltzmann : Rdefinitions.R := 8617333262 / 100000000000000.

(** ** the functions the library promises hold for *)
Definition one_exp (x : sf) : sf := match x with S754_nan => S754_nan | _ => if fle (dofZ 1000) x then S754_infinity false else d1 end.
Definition square (x : sf) : sf := dmul x x.
(** std::exp has fallen to five eighths at -1/2 *)
Definition exp_decay (f : sf -> sf) : Prop := forall x, is_double x -> fle x (SFopp (dq 1 2)) = true -> fle (f x) (dq 5 8) = true.
Definition step_exp (x : sf) : sf :=
  match x with S754_nan => S754_nan | _ => if fle (dofZ 1000) x then S754_infinity false else if fle x (SFopp (dq 1 2)) then dq 5 8 else d1 end.
(** a double that is not negative and not NaN; it may be infinite *)
Definition nonneg_double (x : sf) : Prop := is_double x /\ fle d0 x = true.
(** what it is that a correction may change, and a table of correction factors *)
Definition entries (d : defects) (t : ptype) : option (list sf) * option (list sf) * option (list sf) := (interst d t, vacs d t, clus d t).
Definition all_times (x : sf) (o : option (list sf)) : option (list sf) := option_map (map (fun v => dmul v x)) o.
(** the types a call with the given list works on: those listed, or all that occur if none is listed *)
Definition asked (d : defects) (ts : list ptype) (t : ptype) : Prop :=
  match ts with [] => entries d t <> (None, None, None) | _ => In t ts end.
(** a double between one and 1 + kT/B, up to rounding *)
Definition capped (barrier temperature f : sf) : Prop :=
  finite_double f /\ (1 <= R f <= (1 + boltzmann * R temperature / R barrier) * (1 + / 1000000000))%R.
(** documented clustering per particle, in units of charge over twice the critical charge *)
Definition cluster_rate (t : ptype) : Rdefinitions.R := match t with Proton => 1 | Neutron => 12 / 10 | HeavyIon => 3 | _ => 15 / 10 end%R.
(** documented displacement energies in eV *)
Definition lattice_ev (c : crystal) : Rdefinitions.R :=
  match c_type c with FCC => 15 + 5 / 2 * R (c_const c) | BCC => 10 + 3 * R (c_const c) | DIAMOND => 20 + 4 * R (c_const c) end%R.
Definition particle_share (t : ptype) : Rdefinitions.R := match t with Electron => 1 / 2 | Proton | HeavyIon => 3 / 2 | _ => 1 end%R.
(** documented shares of vacancies, interstitials and clusters *)
Definition cascade_share (t : ptype) : Rdefinitions.R * Rdefinitions.R * Rdefinitions.R :=
  match t with Electron => (7 / 10, 1 / 4, 5 / 100) | HeavyIon => (1 / 2, 2 / 10, 3 / 10) | _ => (6 / 10, 3 / 10, 1 / 10) end%R.
Definition real_sum (l : list sf) : Rdefinitions.R := fold_right (fun x s => R x + s)%R 0%R l.
(** every count of every type is a nonnegative double *)
Definition counts_ok (d : defects) : Prop :=
  forall t l, interst d t = Some l \/ vacs d t = Some l \/ clus d t = Some l -> Forall nonneg_double l.
(** no fewer defects of any kind: each list grows entry by entry, or appears *)
Definition list_grows (o o' : option (list sf)) : Prop :=
  match o, o' with Some l, Some l' => Forall2 (fun x y => fle x y = true) l l' | None, _ => True | _, _ => False end.
Definition defects_grow (d d' : defects) (t : ptype) : Prop :=
  list_grows (interst d t) (interst d' t) /\ list_grows (vacs d t) (vacs d' t) /\ list_grows (clus d t) (clus d' t).
(** the documented order of the devices' sensitivity *)
Definition device_rank (t : dtype) : nat := match t with MRAM => 0 | FRAM => 1 | FLASH_SLC => 2 | SRAM_8T => 3 | FLASH_MLC => 4 | SRAM_6T => 5 | DRAM => 6 end.
Definition documented_sensitivity (t : dtype) : Rdefinitions.R :=
  match t with SRAM_6T => 1 | SRAM_8T => 7 / 10 | DRAM => 15 / 10 | FLASH_SLC => 3 / 10 | FLASH_MLC => 8 / 10 | MRAM => 1 / 10 | FRAM => 2 / 10 end%R.
(** photons react most readily, then electrons, then the rest *)
Definition transition_rank (t : ptype) : nat := match t with Photon => 2 | Electron => 1 | _ => 0 end.
(** an upper bound on the charge a particle of the given LET leaves, in fC *)
Definition most_charge (m : material) (letv : sf) : Rdefinitions.R := (279 / 1000 * R letv * (1 + boltzmann * R (temp_k m) / R (bandgap m)))%R.
