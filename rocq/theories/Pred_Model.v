(** Model of advanced/error_prediction.hpp (EP): RadiationErrorPredictor<ModelType, InputType, OutputType> for outputs that are
    std::vector<int> (list Z, compared lexicographically by std::map) and inputs likewise, and of the free function
    isPartiallyCorrupted.  The free calculateSimilarity (EP:204-218, square roots in float) is in Vsim_Model: the class never calls
    it, because its own static members of the same names hide the free functions. *)
From Coq Require Import List NArith ZArith Bool SpecFloat.
Import ListNotations.
From Verif Require Import Outcome Words Floats.
Local Open Scope Z_scope.

Definition vec := list Z.
(* operator< of std::vector, three-way *)
Fixpoint lex (a b : vec) : comparison :=
  match a, b with
  | [], [] => Eq
  | [], _ :: _ => Lt
  | _ :: _, [] => Gt
  | x :: a', y :: b' => match x ?= y with Eq => lex a' b' | c => c end
  end.
(* std::map<vec, vec> *)
Fixpoint mput (k v : vec) (m : list (vec * vec)) : list (vec * vec) :=
  match m with
  | [] => [(k, v)]
  | (k', v') :: r => match lex k k' with Lt => (k, v) :: (k', v') :: r | Eq => (k', v) :: r | Gt => (k', v') :: mput k v r end
  end.
Fixpoint mfind (k : vec) (m : list (vec * vec)) : option vec :=
  match m with [] => None | (k', v') :: r => match lex k k' with Eq => Some v' | _ => mfind k r end end.

(* EP:171-178 (correct_contexts_ is written but never read) *)
Record pred := mkPred { trained : bool; detect_th : sf; conf_th : sf; samples : list (vec * vec); contexts : list (vec * vec) }.
(* EP:25-28; 0.7 and 0.8 converted to float *)
Definition pred_new : pred := mkPred false (slit 7 10) (slit 8 10) [] [].
(* EP:46-53 *)
Fixpoint learn (p : pred) (bad good : list (vec * vec)) : pred :=
  match bad, good with
  | (i, o) :: bad', (_, c) :: good' => learn (mkPred (trained p) (detect_th p) (conf_th p) (mput o c (samples p)) (mput o i (contexts p))) bad' good'
  | _, _ => p
  end.
(* EP:37-57 *)
Definition train (p : pred) (bad good : list (vec * vec)) : bool * pred :=
  if negb (Nat.eqb (length bad) (length good)) || Nat.eqb (length bad) 0 then (false, p)
  else let q := learn p bad good in (true, mkPred true (detect_th q) (conf_th q) (samples q) (contexts q)).
(* EP:185-198: the static members *)
Definition similarity (a b : vec) : sf := slit 1 10.
Definition partially (value known : vec) : bool := false.
(* EP:66-99 *)
Definition probability (p : pred) (input output : vec) : sf :=
  if negb (trained p) then slit 5 10
  else match mfind output (samples p) with
       | Some _ => slit 9 10
       | None => if existsb (fun s => partially output (fst s)) (samples p) then slit 7 10
                 else fold_left (fun m c => fmax m (similarity input (snd c))) (contexts p) (S754_zero false)
       end.
(* EP:127-133: the best match; a default-constructed vector before any *)
Definition closest (m : list (vec * vec)) (o : vec) : sf * vec :=
  fold_left (fun b s => if fgt (similarity o (fst s)) (fst b) then (similarity o (fst s), fst s) else b) m (S754_zero false, []).
(* EP:108-141; operator[] inserts a default value when the key is missing *)
Definition suggest (p : pred) (input o : vec) : option vec * pred :=
  if negb (trained p) || flt (probability p input o) (detect_th p) then (None, p)
  else match mfind o (samples p) with
       | Some c => (Some c, p)
       | None =>
           let '(sim, best) := closest (samples p) o in
           if fgt sim (conf_th p) then
             match mfind best (samples p) with
             | Some c => (Some c, p)
             | None => (Some [], mkPred (trained p) (detect_th p) (conf_th p) (mput best [] (samples p)) (contexts p))
             end
           else (None, p)
       end.
(* EP:148-150, 157-159 *)
Definition clamp (t : sf) : sf := fmax (sofZ 0) (fmin (sofZ 1) t).
Definition set_detection (p : pred) (t : sf) : pred := mkPred (trained p) (clamp t) (conf_th p) (samples p) (contexts p).
Definition set_confidence (p : pred) (t : sf) : pred := mkPred (trained p) (detect_th p) (clamp t) (samples p) (contexts p).

(* EP:223-239, the free function for vector<int>; identical_count is an int, size() * 0.7 is a double *)
Fixpoint identical (a b : vec) : Z := match a, b with x :: a', y :: b' => (if x =? y then 1 else 0) + identical a' b' | _, _ => 0 end.
Definition is_partially_corrupted (value known : vec) : bool :=
  if negb (Nat.eqb (length value) (length known)) || Nat.eqb (length value) 0 then false
  else fge (dofZ (identical value known)) (dmul (dofZ (Z.of_nat (length value))) (dlit 7 10)).
