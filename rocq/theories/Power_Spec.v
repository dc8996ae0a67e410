(** What a user of PowerAwareProtection relies on, in terms of calls and their results. *)
From Coq Require Import List NArith ZArith Bool SpecFloat Reals Permutation.
Import ListNotations.
From Verif Require Import Outcome Words Arith Floats FloatsR HealthFloat Power_Model.
Local Open Scope Z_scope.

(** std::sort with the comparator "criticality a > criticality b", whatever it does with ties. *)
Definition any_sort (ord : list sf -> list nat) : Prop :=
  (forall cs, Permutation (ord cs) (seq 0 (length cs))) /\
  (forall cs i j, Forall okd cs -> (i < j < length cs)%nat ->
     (R (nth (nth i (ord cs) O) cs (dofZ 0)) >= R (nth (nth j (ord cs) O) cs (dofZ 0)))%R).

(** The components a client has described to the manager and not removed, and the state it has asked for, read off the
    history of calls and results. *)
Definition history := list (pop * pres).
Definition desc_step (d : Z -> option comp) (e : pop * pres) : Z -> option comp :=
  match e with
  | (ORegister c, RId i) => fun k => if k =? i then Some c else d k
  | (OUpdate i c, RBool true) => fun k => if k =? i then Some c else d k
  | (ORemove i, RBool true) => fun k => if k =? i then None else d k
  | _ => d
  end.
Definition described (t : history) : Z -> option comp := fold_left desc_step t (fun _ => None).
Definition mode_step (m : pstate) (e : pop * pres) : pstate := match fst e with OState st => st | _ => m end.
Definition mode (st0 : pstate) (t : history) : pstate := fold_left mode_step t st0.
Definition ids_given (t : history) : list Z := flat_map (fun e => match snd e with RId i => [i] | _ => [] end) t.
(* the same description; the level the client writes into the structure is not part of it *)
Definition same_desc (a b : option comp) : Prop :=
  match a, b with
  | None, None => True
  | Some x, Some y => cmin x = cmin y /\ cmax x = cmax y /\ cpmin x = cpmin y /\ cpmax x = cpmax y /\ ccrit x = ccrit y
  | _, _ => False
  end.

(** Sensible descriptions: finite values, levels and criticality in [0,1], min < max, powers non-negative, not falling with
    the level, and at most 2^20 W. *)
Definition sensible (c : comp) : Prop :=
  okd (cmin c) /\ okd (cmax c) /\ okd (cpmin c) /\ okd (cpmax c) /\ okd (ccrit c) /\
  (0 <= R (cmin c) /\ R (cmin c) < R (cmax c) /\ R (cmax c) <= 1)%R /\
  (0 <= R (cpmin c) /\ R (cpmin c) <= R (cpmax c) /\ R (cpmax c) <= 1048576)%R /\
  (0 <= R (ccrit c) <= 1)%R.
Definition all_sensible (t : history) : Prop := forall k c, described t k = Some c -> sensible c.
(* [ks] lists the ids of the components there are *)
Definition present (t : history) (ks : list Z) : Prop := NoDup ks /\ forall k, In k ks <-> described t k <> None.
(* the power the components draw at minimum protection, exactly *)
Definition min_watts (t : history) (ks : list Z) : Rdefinitions.R :=
  fold_right (fun k u => (match described t k with Some c => R (cpmin c) | None => 0%R end + u)%R) 0%R ks.
Definition sensible_watts (w : sf) : Prop := okd w /\ (0 <= R w <= 4503599627370496)%R.
Definition count (ks : list Z) : Rdefinitions.R := IZR (Z.of_nat (length ks)).
Definition ulp52 : Rdefinitions.R := (1 / 4503599627370496)%R.
