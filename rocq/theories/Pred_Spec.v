(** What the properties of RadiationErrorPredictor speak about. *)
From Coq Require Import List NArith ZArith Bool SpecFloat.
Import ListNotations.
From Verif Require Import Outcome Words Floats Pred_Model.

(** Everything a caller can do. *)
Inductive pop := Train (bad good : list (vec * vec)) | SetDetection (t : sf) | SetConfidence (t : sf) | Suggest (input o : vec) | Detect (input o : vec).
Definition papply (p : pred) (o : pop) : pred :=
  match o with
  | Train b g => snd (train p b g)
  | SetDetection t => set_detection p t
  | SetConfidence t => set_confidence p t
  | Suggest i x => snd (suggest p i x)
  | Detect _ _ => p
  end.
Definition prun (ops : list pop) : pred := fold_left papply ops pred_new.

(** The (corrupted output, correct output) pairs taught so far, the latest first. *)
Definition accepted (b g : list (vec * vec)) : Prop := length b = length g /\ b <> [].
Definition accepted_b (b g : list (vec * vec)) : bool := Nat.eqb (length b) (length g) && negb (Nat.eqb (length b) 0).
Definition pairs_of (b g : list (vec * vec)) : list (vec * vec) := combine (map snd b) (map snd g).
Definition taught (ops : list pop) : list (vec * vec) :=
  fold_left (fun acc o => match o with Train b g => if accepted_b b g then rev (pairs_of b g) ++ acc else acc | _ => acc end) ops [].
(** What was taught last about an output. *)
Fixpoint latest (k : vec) (l : list (vec * vec)) : option vec :=
  match l with [] => None | (k', v) :: r => if list_eq_dec Z.eq_dec k k' then Some v else latest k r end.
Definition known (ops : list pop) (o : vec) : option vec := latest o (taught ops).
(** The last value given to a threshold. *)
Definition last_detection (ops : list pop) : sf := fold_left (fun t o => match o with SetDetection x => clamp x | _ => t end) ops (slit 7 10).
Definition last_confidence (ops : list pop) : sf := fold_left (fun t o => match o with SetConfidence x => clamp x | _ => t end) ops (slit 8 10).
