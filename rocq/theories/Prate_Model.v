(** Model of calculate_expected_error_rate of PAP = include/rad_ml/power/power_aware_protection.hpp; std::exp is a parameter. *)
From Coq Require Import List NArith ZArith Bool Arith SpecFloat.
Import ListNotations.
From Verif Require Import Words Floats Power_Model.
Local Open Scope Z_scope.

Section Lib.
Variable fexp : sf -> sf.
(* PAP:307-313 *)
Definition protection_effectiveness (level : sf) : sf := dmul (dlit 9 10) (fexp (dmul (SFopp (dofZ 5)) level)).
(* PAP:301-303, 323-325: the sum of the three rates *)
Definition base_rate : sf := dadd (dadd (dlit 1 1000000) (dlit 1 10000000)) (dlit 5 100000000).
(* PAP:319 *)
Definition bits_per_component : sf := dofZ (8 * 1024 * 1024).
(* PAP:321-326 *)
Definition component_error_rate (c : comp) : sf := dmul (dmul base_rate (protection_effectiveness (ccur c))) bits_per_component.
(* PAP:294-334; total_memory_bits is not used *)
Definition expected_error_rate (p : pap) : sf :=
  match comps p with
  | [] => dofZ 0
  | l => fold_left (fun total x => dadd total (component_error_rate (snd x))) l (dofZ 0)
  end.
End Lib.
