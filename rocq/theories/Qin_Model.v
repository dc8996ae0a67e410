(** Model of QI = src/physics/quantum_integration.cpp (with QIH = include/rad_ml/physics/quantum_integration.hpp for the configuration).
    The file defines its own versions of functions that src/rad_ml/physics/quantum_field_theory.cpp also defines; they are modelled here
    under other names.  std::exp is a parameter, console output is left out.  The header defines functions of the same signatures inline;
    where they differ (a single mass per crystal) the source file is what is modelled. *)
From Coq Require Import List NArith ZArith Bool Arith SpecFloat.
Import ListNotations.
From Verif Require Import Outcome Words Floats Bits_Model Qft_Model.
Local Open Scope outcome_scope.
Local Open Scope Z_scope.

(* QIH:23-29 *)
Record qconfig := mkQC { q_enable : bool; q_temp : sf; q_feature : sf; q_intensity : sf; q_force : bool }.
(* QIH:34-42 *)
Definition default_qconfig : qconfig := mkQC true (dofZ 150) (dofZ 20) (dofZ 100000) false.
(* QFTParameters and the potential coefficient, which only this file reads *)
Record iparams := mkI { i_q : qparams; i_pot : sf }.
(* QI:18-31 *)
Definition proton_m (c : crystal) : sf :=
  match c_type c with FCC => dq 1 (10 ^ 30)%positive | BCC => dq 11 (10 ^ 31)%positive | DIAMOND => dq 9 (10 ^ 31)%positive end.
(* QI:9-63 *)
Definition createQFTParameters (c : crystal) (feature : sf) : iparams :=
  let m := proton_m c in
  let g := dmul (dq 1 10) (ddiv (c_const c) (dofZ 5)) in
  mkI (mkQ hbar_ev
        (pset (pset (pset (pset default_masses Proton m) Electron (dmul m (dq 5 10000))) Neutron (dmul m (dq 1001 1000))) Photon (dq 1 (10 ^ 32)%positive))
        (pset (pset (pset (pset default_couplings Proton g) Electron (dmul g (dq 12 10))) Neutron (dmul g (dq 8 10))) Photon (dmul g (dq 15 10)))
        (ddiv feature (dofZ 100)) (dq 1 (10 ^ 18)%positive) (dofZ (10 ^ 15)) (dofZ (10 ^ 15)) (dq 1 1000) (dofZ 150) (dofZ 100) (dq 1 100))
      (dq 5 10).
(* QI:65-84 *)
Definition shouldApply (temperature feature intensity : sf) (c : qconfig) : bool :=
  if negb (q_enable c) then false
  else if q_force c then true
  else flt temperature (q_temp c) || flt feature (q_feature c) || flt (q_intensity c) intensity.
(* QI:107-134 *)
Definition enhancement (temperature feature : sf) : sf :=
  let e := d1 in
  let e := if flt temperature (dofZ 150)
           then dmul e (dadd d1 (dmul (fmin (dofZ 5) (ddiv (dofZ 150) (fmax temperature (dofZ 10)))) (dq 4 100))) else e in
  if flt feature (dofZ 20)
  then dmul e (dadd d1 (dmul (fmin (dofZ 4) (ddiv (dofZ 20) (fmax feature (dofZ 2)))) (dq 8 100))) else e.
(* QI:260-289 *)
Definition kg_correction (hb mass pot coupling spacing ts : sf) : sf :=
  let s := fmax spacing (dq 1 1000) in
  let m := fmax mass (dq 1 (10 ^ 32)%positive) in
  let disp := fmin (dq 1 10) (ddiv (dmul hb hb) (dmul (dmul (dmul (dofZ 2) m) s) s)) in
  let inter := fmin (dq 1 10) (dmul coupling pot) in
  let stability := ddiv (dmul disp ts) (dmul s s) in
  fmin (dq 5 100) (fmax (dq 1 1000) (dmul stability (dadd d1 inter))).
(* QI:291-323 *)
Definition zpe (hb mass lattice temperature : sf) : sf :=
  let t := fmax temperature d1 in
  let m := fmax mass (dq 1 (10 ^ 32)%positive) in
  let l := fmax lattice (dq 1 10) in
  let om := sqrt_d (ddiv (ddiv (dofZ 5) (dmul l l)) m) in
  let om := fmin (dofZ (10 ^ 15)) (fmax (dofZ (10 ^ 12)) om) in
  let z := dmul (dmul (dq 5 10) hb) om in
  let supp := ddiv d1 (dadd d1 (ddiv (dmul kB t) (dmul hb om))) in
  fmin (dq 5 100) (dmul z supp).

Section Lib.
Variable fexp : sf -> sf.
(* QI:219-258 *)
Definition qtunnel (barrier mass hb temperature : sf) : sf :=
  let t := fmax temperature d1 in
  let b := fmax barrier (dq 1 100) in
  let x := ddiv (dmul (dmul (dofZ (-2)) d1) (sqrt_d (dmul (dmul (dofZ 2) mass) b))) hb in
  let base := fmin (dq 1 10) (fexp (fmax (dofZ (-30)) x)) in
  let ratio := fmin (dofZ 10) (ddiv (dmul kB t) (dmul (dofZ 2) b)) in
  fmin (dq 5 100) (fmax d0 (dmul base (fexp (SFopp ratio)))).
(* QI:179-184, 190-195, 201-206: the two updates of one value *)
Definition correct_value (a b p k z v : sf) : sf :=
  let w := dmul v (dadd (dadd d1 (dmul a p)) (dmul b k)) in
  dadd w (dmul (dmul z w) (dq 8 1000)).
Definition correct_entry (f : sf -> sf) (m : pmap (list sf)) (t : ptype) : pmap (list sf) :=
  match m t with Some l => pset m t (map f l) | None => m end.
(* QI:167-208; skipping a type none of the maps has changes nothing *)
Definition correct_particle (p k z : sf) (t : ptype) (d : defects) : defects :=
  mkD (correct_entry (correct_value (dq 12 10) (dq 8 10) p k z) (interst d) t)
      (correct_entry (correct_value (dq 4 10) (dq 6 10) p k z) (vacs d) t)
      (correct_entry (correct_value (dq 8 10) (dq 8 10) p k z) (clus d) t).
(* QI:139-217 *)
Definition fieldCorrections (d : defects) (c : crystal) (i : iparams) (temperature : sf) : outcome defects :=
  let q := i_q i in
  mass <- getMass q Proton ;;
  let p := qtunnel (c_barrier c) mass (hbar q) temperature in
  g <- getCoupling q Proton ;;
  let k := kg_correction (hbar q) mass (i_pot i) g (q_spacing q) (time_step q) in
  let z := zpe (hbar q) mass (c_const c) temperature in
  Ret (fold_left (fun x t => correct_particle p k z t x) [Proton; Electron; Neutron; Photon] d).
(* QI:86-105 *)
Definition correctSimulation (d : defects) (c : crystal) (temperature feature intensity : sf) (cfg : qconfig) : outcome defects :=
  if negb (shouldApply temperature feature intensity cfg) then Ret d
  else fieldCorrections d c (createQFTParameters c feature) temperature.
End Lib.
