(** Specifications of the containers: a bounded list, a bounded finite map, and the memory-safety
    conditions of an allocator, in terms of histories of API calls and their results. *)
From Coq Require Import List NArith Arith Bool.
Import ListNotations.
From Verif Require Import Outcome Containers_Model.

(** *** FixedVector *)
Inductive vop (T : Type) := VPush (x : T) | VAt (i : nat) | VClear | VSize | VEmpty | VIndex (i : nat) | VAssign (i : nat) (x : T).
Arguments VPush {T}. Arguments VAt {T}. Arguments VClear {T}. Arguments VSize {T}. Arguments VEmpty {T}.
Arguments VIndex {T}. Arguments VAssign {T}.
Inductive vres (T : Type) := RErr (e : ContainerError) | RVal (x : T) | RNat (n : nat) | RBool (b : bool) | RUnit.
Arguments RErr {T}. Arguments RVal {T}. Arguments RNat {T}. Arguments RBool {T}. Arguments RUnit {T}.

(* what a list that accepts at most [cap] elements answers; [None]: v[i] with i >= size (the
   caller broke operator[]'s "must be valid" precondition) *)
Definition list_step {T} (cap : nat) (l : list T) (o : vop T) : option (list T * vres T) :=
  match o with
  | VPush x => if Nat.ltb (length l) cap then Some (l ++ [x], RErr SUCCESS) else Some (l, RErr FULL)
  | VAt i => match nth_error l i with Some x => Some (l, RVal x) | None => Some (l, RErr OUT_OF_BOUNDS) end
  | VClear => Some ([], RUnit)
  | VSize => Some (l, RNat (length l))
  | VEmpty => Some (l, RBool (match l with [] => true | _ => false end))
  | VIndex i => match nth_error l i with Some x => Some (l, RVal x) | None => None end
  | VAssign i x => if Nat.ltb i (length l) then Some (firstn i l ++ x :: skipn (S i) l, RUnit) else None
  end.
Fixpoint list_run {T} (cap : nat) (l : list T) (os : list (vop T)) : option (list (vres T)) :=
  match os with
  | [] => Some []
  | o :: r => match list_step cap l o with
              | Some (l', x) => option_map (cons x) (list_run cap l' r)
              | None => None
              end
  end.

(* the same calls on the model; a value written to the out parameter of at() is its result *)
Definition vec_step {T} (cap : nat) (s : fvec T) (o : vop T) : outcome (fvec T * vres T) :=
  match o with
  | VPush x => obind (fv_push cap s x) (fun '(s', e) => Ret (s', RErr e))
  | VAt i => obind (fv_at s i) (fun '(e, x) => match x with
                                               | Some v => Ret (s, match e with SUCCESS => RVal v | _ => RErr e end)
                                               | None => Ret (s, RErr e) end)
  | VClear => Ret (fv_clear s, RUnit)
  | VSize => Ret (s, RNat (fv_size s))
  | VEmpty => Ret (s, RBool (fv_empty s))
  | VIndex i => obind (fv_get s i) (fun x => Ret (s, RVal x))
  | VAssign i x => obind (fv_put s i x) (fun s' => Ret (s', RUnit))
  end.
Fixpoint vec_run {T} (cap : nat) (s : fvec T) (os : list (vop T)) : outcome (list (vres T)) :=
  match os with
  | [] => Ret []
  | o :: r => obind (vec_step cap s o) (fun '(s', x) => obind (vec_run cap s' r) (fun xs => Ret (x :: xs)))
  end.

(** *** FixedMap *)
Inductive mop (K V : Type) := MInsert (k : K) (v : V) | MFind (k : K) | MErase (k : K) | MClear | MSize.
Arguments MInsert {K V}. Arguments MFind {K V}. Arguments MErase {K V}. Arguments MClear {K V}. Arguments MSize {K V}.

(* a finite map: a partial function and the number of keys it is defined on *)
Record pmap (K V : Type) := mkp { p_get : K -> option V; p_card : nat }.
Arguments mkp {K V}. Arguments p_get {K V}. Arguments p_card {K V}.
Definition pempty {K V} : pmap K V := mkp (fun _ => None) 0.
Definition pmap_step {K V} (keq : K -> K -> bool) (cap : nat) (m : pmap K V) (o : mop K V) : pmap K V * vres V :=
  match o with
  | MInsert k v =>
      let upd n := mkp (fun k' => if keq k' k then Some v else p_get m k') n in
      match p_get m k with
      | Some _ => (upd (p_card m), RErr SUCCESS)
      | None => if Nat.ltb (p_card m) cap then (upd (S (p_card m)), RErr SUCCESS) else (m, RErr FULL)
      end
  | MFind k => (m, match p_get m k with Some v => RVal v | None => RErr NOT_FOUND end)
  | MErase k =>
      match p_get m k with
      | Some _ => (mkp (fun k' => if keq k' k then None else p_get m k') (p_card m - 1), RErr SUCCESS)
      | None => (m, RErr NOT_FOUND)
      end
  | MClear => (pempty, RUnit)
  | MSize => (m, RNat (p_card m))
  end.
Fixpoint pmap_run {K V} keq cap (m : pmap K V) (os : list (mop K V)) : pmap K V * list (vres V) :=
  match os with
  | [] => (m, [])
  | o :: r => let '(m', x) := pmap_step keq cap m o in
              let '(m'', xs) := pmap_run keq cap m' r in (m'', x :: xs)
  end.
(* p_card is the number of keys *)
Definition card_ok {K V} (m : pmap K V) : Prop :=
  exists ks, NoDup ks /\ length ks = p_card m /\ forall k, In k ks <-> p_get m k <> None.

Definition map_step {K V} (keq : K -> K -> bool) (cap : nat) (s : fmap K V) (o : mop K V) : outcome (fmap K V * vres V) :=
  match o with
  | MInsert k v => obind (fm_insert keq cap s k v) (fun '(s', e) => Ret (s', RErr e))
  | MFind k => obind (fm_find keq s k) (fun '(e, x) => match x with
                                                       | Some v => Ret (s, match e with SUCCESS => RVal v | _ => RErr e end)
                                                       | None => Ret (s, RErr e) end)
  | MErase k => obind (fm_erase keq s k) (fun '(s', e) => Ret (s', RErr e))
  | MClear => Ret (fm_clear s, RUnit)
  | MSize => Ret (s, RNat (fm_size s))
  end.
Fixpoint map_run {K V} keq cap (s : fmap K V) (os : list (mop K V)) : outcome (list (vres V)) :=
  match os with
  | [] => Ret []
  | o :: r => obind (map_step keq cap s o) (fun '(s', x) => obind (map_run keq cap s' r) (fun xs => Ret (x :: xs)))
  end.

(** *** StaticAllocator *)
Local Open Scope N_scope.
Inductive aop := AAlloc (n : N) | ADealloc (p n : N) | AReset.
(* a live block: address and number of bytes requested *)
Definition block := (N * N)%type.
Definition disjoint (x y : block) : Prop := fst x + snd x <= fst y \/ fst y + snd y <= fst x.
Definition inside (base cap : N) (b : block) : Prop := base <= fst b /\ fst b + snd b <= base + cap.

(* run a history; collect the blocks handed out since the last reset (latest first); a
   bad_alloc is caught and leaves the state as the code left it *)
Fixpoint alloc_run (cap sz al base : N) (s : alloc_state) (bs : list block) (os : list aop) :
  outcome (alloc_state * list block) :=
  match os with
  | [] => Ret (s, bs)
  | AAlloc n :: r =>
      match sa_allocate cap sz al base s n with
      | Ret (s', p) => alloc_run cap sz al base s' ((p, n * sz) :: bs) r
      | Throw E_bad_alloc => alloc_run cap sz al base s bs r
      | UB u => UB u
      | Throw e => Throw e
      | OutOfFuel => OutOfFuel
      end
  | ADealloc p n :: r => alloc_run cap sz al base (sa_deallocate s p n) bs r
  | AReset :: r => alloc_run cap sz al base (sa_reset s) [] r
  end.
Inductive pairwise {A} (R : A -> A -> Prop) : list A -> Prop :=
| pw_nil : pairwise R []
| pw_cons x l : Forall (R x) l -> pairwise R l -> pairwise R (x :: l).
