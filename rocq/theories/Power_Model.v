(** Model of power/power_aware_protection.hpp (PAP).  double is binary64 (Floats.v).  Names and types of components are
    strings and tags no computation reads; they are left out.  calculate_expected_error_rate is in Prate_Model;
    the text reports are not modelled. *)
From Coq Require Import List NArith ZArith Bool SpecFloat.
Import ListNotations.
From Verif Require Import Outcome Words Arith Floats.
Local Open Scope N_scope.

(* PAP:33-50 *)
Record comp := mkC { cmin : sf; cmax : sf; ccur : sf; cpmin : sf; cpmax : sf; ccrit : sf }.
Definition with_level (c : comp) (x : sf) : comp := mkC (cmin c) (cmax c) x (cpmin c) (cpmax c) (ccrit c).
(* PAP:53-60 *)
Definition power (c : comp) : sf :=
  let ratio := ddiv (dsub (ccur c) (cmin c)) (dsub (cmax c) (cmin c)) in
  dadd (cpmin c) (dmul ratio (dsub (cpmax c) (cpmin c))).
(* PAP:22-28 *)
Inductive pstate := EMERGENCY | LOW_POWER | NOMINAL | SCIENCE | PEAK.
Definition pstate_eqb (a b : pstate) : bool :=
  match a, b with EMERGENCY, EMERGENCY | LOW_POWER, LOW_POWER | NOMINAL, NOMINAL | SCIENCE, SCIENCE | PEAK, PEAK => true | _, _ => false end.
(* PAP:97-101 *)
Definition state_budget (watts : sf) (s : pstate) : sf :=
  match s with
  | EMERGENCY => dmul watts (dlit 2 10)
  | LOW_POWER => dmul watts (dlit 4 10)
  | NOMINAL => dmul watts (dlit 7 10)
  | SCIENCE => dmul watts (dlit 9 10)
  | PEAK => watts
  end.
(* PAP:336-350.  components_ is a std::map<int, ...>: listed by increasing id *)
Record pap := mkP { watts : sf; pst : pstate; comps : list (Z * comp); counter : Z }.
(* PAP:91-102 *)
Definition pap_new (w : sf) (s : pstate) : pap := mkP w s [] 0%Z.

(** rebalance_protection_levels.  [ord cs]: the order into which std::sort puts elements with the criticalities [cs], as the
    list of their old positions.  The comparator reads nothing else; which order elements of equal criticality get is left
    open by the standard, so every theorem is for every [ord] (Power_Spec.v: any_sort). *)
Section Rebalance.
Variable ord : list sf -> list nat.
(* PAP:363-372 *)
Definition no_comp : Z * comp := let z := S754_zero false in ((-1)%Z, mkC z z z z z z).
Definition sorted_comps (l : list (Z * comp)) : list (Z * comp) := map (fun i => nth i l no_comp) (ord (map (fun x => ccrit (snd x)) l)).
(* PAP:375-379 *)
Definition at_min (l : list (Z * comp)) : list (Z * comp) := map (fun x => (fst x, with_level (snd x) (cmin (snd x)))) l.
Definition sum_power (l : list (Z * comp)) : sf := fold_left (fun u x => dadd u (power (snd x))) l (dofZ 0).
(* PAP:384-392 *)
Definition emergency_level (c : comp) : sf := if fgt (ccrit c) (dlit 7 10) then cmin c else dmul (cmin c) (dlit 5 10).
(* PAP:417-419 and :452-454 *)
Definition step_size (c : comp) : sf := ddiv (dsub (cmax c) (cmin c)) (dofZ 100).
Definition next_level_of (c : comp) : sf := fmin (dadd (ccur c) (step_size c)) (cmax c).
(* PAP:421-428 and :459-465 *)
Definition additional (c : comp) : sf := dsub (power (with_level c (next_level_of c))) (power c).
(* PAP:409-442: one candidate; [best] = (best_ratio, best index) *)
Definition consider (remaining : sf) (i : nat) (c : comp) (best : sf * option nat) : sf * option nat :=
  if fge (ccur c) (cmax c) then best
  else if fgt (additional c) remaining then best
  else let ratio := ddiv (dmul (step_size c) (ccrit c)) (additional c) in
       if fgt ratio (fst best) then (ratio, Some i) else best.
Fixpoint scan_best (remaining : sf) (i : nat) (l : list (Z * comp)) (best : sf * option nat) : sf * option nat :=
  match l with [] => best | (_, c) :: r => scan_best remaining (S i) r (consider remaining i c best) end.
Fixpoint upd (i : nat) (l : list (Z * comp)) : list (Z * comp) :=
  match l, i with
  | [], _ => []
  | (id, c) :: r, O => (id, with_level c (next_level_of c)) :: r
  | x :: r, S j => x :: upd j r
  end.
(* PAP:403-466 *)
Fixpoint upgrade_loop (steps : nat) (remaining : sf) (l : list (Z * comp)) : sf * list (Z * comp) :=
  match steps with
  | O => (remaining, l)
  | S k =>
    if fgt remaining (dofZ 0) then
      match snd (scan_best remaining 0 l (dofZ 0, None)) with
      | None => (remaining, l)
      | Some i =>
        match nth_error l i with
        | None => (remaining, l)
        | Some (_, c) => upgrade_loop k (dsub remaining (additional c)) (upd i l)
        end
      end
    else (remaining, l)
  end.
(* the vector holds pointers into components_ (PAP:364-367): writing a level through it writes the map's element *)
Fixpoint level_in (id : Z) (l : list (Z * comp)) (dflt : sf) : sf :=
  match l with [] => dflt | (i, c) :: r => if Z.eqb i id then ccur c else level_in id r dflt end.
Definition write_back (from : list (Z * comp)) (l : list (Z * comp)) : list (Z * comp) :=
  map (fun x => (fst x, with_level (snd x) (level_in (fst x) from (ccur (snd x))))) l.
(* PAP:359-394 *)
Definition rebalanced (budget : sf) (l : list (Z * comp)) : list (Z * comp) :=
  let sorted := at_min (sorted_comps l) in
  let m := sum_power sorted in
  if fgt m budget then map (fun x => (fst x, with_level (snd x) (emergency_level (snd x)))) sorted
  else snd (upgrade_loop 100 (dsub budget m) sorted).
(* PAP:359-467; the comparator of PAP:369-372 is no strict weak order when a criticality is NaN *)
Definition isnan (x : sf) : bool := match x with S754_nan => true | _ => false end.
Definition rebalance (s : pap) : outcome pap :=
  if existsb (fun x => isnan (ccrit (snd x))) (comps s) && (2 <=? length (comps s))%nat then UB UB_comparator
  else Ret (mkP (watts s) (pst s) (write_back (rebalanced (state_budget (watts s) (pst s)) (comps s)) (comps s)) (counter s)).

(* PAP:110-121 *)
Definition pap_register (c : comp) (s : pap) : outcome (Z * pap) :=
  if (counter s =? 2 ^ 31 - 1)%Z then UB UB_signed_overflow
  else match rebalance (mkP (watts s) (pst s) (comps s ++ [(counter s, with_level c (cmin c))]) (counter s + 1)%Z) with
       | Ret s' => Ret (counter s, s') | UB r => UB r | Throw e => Throw e | OutOfFuel => OutOfFuel end.
Definition has_id (id : Z) (l : list (Z * comp)) : bool := existsb (fun x => Z.eqb (fst x) id) l.
(* PAP:130-142 *)
Definition pap_update (id : Z) (c : comp) (s : pap) : outcome (bool * pap) :=
  if has_id id (comps s) then
    match rebalance (mkP (watts s) (pst s) (map (fun x => if Z.eqb (fst x) id then (fst x, c) else x) (comps s)) (counter s)) with
    | Ret s' => Ret (true, s') | UB r => UB r | Throw e => Throw e | OutOfFuel => OutOfFuel end
  else Ret (false, s).
(* PAP:150-162 *)
Definition pap_remove (id : Z) (s : pap) : outcome (bool * pap) :=
  if has_id id (comps s) then
    match rebalance (mkP (watts s) (pst s) (filter (fun x => negb (Z.eqb (fst x) id)) (comps s)) (counter s)) with
    | Ret s' => Ret (true, s') | UB r => UB r | Throw e => Throw e | OutOfFuel => OutOfFuel end
  else Ret (false, s).
(* PAP:169-176 *)
Definition pap_set_state (st : pstate) (s : pap) : outcome pap :=
  if pstate_eqb (pst s) st then Ret s else rebalance (mkP (watts s) st (comps s) (counter s)).
(* PAP:193-200 *)
Fixpoint get_level (id : Z) (l : list (Z * comp)) : option sf :=
  match l with [] => None | (i, c) :: r => if Z.eqb i id then Some (ccur c) else get_level id r end.
Definition pap_level (id : Z) (s : pap) : option sf := get_level id (comps s).
(* PAP:207-215 *)
Definition pap_usage (s : pap) : sf := sum_power (comps s).
(* PAP:222-224 *)
Definition pap_budget (s : pap) : sf := state_budget (watts s) (pst s).
(* PAP:263-285 *)
Definition normalized (c : comp) : sf := ddiv (dsub (ccur c) (cmin c)) (dsub (cmax c) (cmin c)).
Definition effectiveness (s : pap) : sf :=
  match comps s with
  | [] => dofZ 0
  | l => let u := fold_left (fun u x => (dadd (fst u) (dmul (normalized (snd x)) (ccrit (snd x))), dadd (snd u) (ccrit (snd x)))) l (dofZ 0, dofZ 0) in
         if fgt (snd u) (dofZ 0) then ddiv (fst u) (snd u) else dofZ 0
  end.

(** A client's history. *)
Inductive pop := ORegister (c : comp) | OUpdate (id : Z) (c : comp) | ORemove (id : Z) | OState (st : pstate).
Inductive pres := RId (id : Z) | RBool (b : bool) | RUnit.
Definition pap_do (o : pop) (s : pap) : outcome (pres * pap) :=
  match o with
  | ORegister c => match pap_register c s with Ret (i, s') => Ret (RId i, s') | UB r => UB r | Throw e => Throw e | OutOfFuel => OutOfFuel end
  | OUpdate id c => match pap_update id c s with Ret (b, s') => Ret (RBool b, s') | UB r => UB r | Throw e => Throw e | OutOfFuel => OutOfFuel end
  | ORemove id => match pap_remove id s with Ret (b, s') => Ret (RBool b, s') | UB r => UB r | Throw e => Throw e | OutOfFuel => OutOfFuel end
  | OState st => match pap_set_state st s with Ret s' => Ret (RUnit, s') | UB r => UB r | Throw e => Throw e | OutOfFuel => OutOfFuel end
  end.
Fixpoint pap_run (l : list pop) (s : pap) : outcome (list (pop * pres) * pap) :=
  match l with
  | [] => Ret ([], s)
  | o :: r =>
    match pap_do o s with
    | Ret (x, s1) => match pap_run r s1 with Ret (t, s2) => Ret ((o, x) :: t, s2) | UB e => UB e | Throw e => Throw e | OutOfFuel => OutOfFuel end
    | UB e => UB e | Throw e => Throw e | OutOfFuel => OutOfFuel
    end
  end.
End Rebalance.
