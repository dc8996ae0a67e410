(** Model of memory/radiation_mapped_allocator.hpp (RMA).  size_t is 64 bits; an address is a number below 2^64 and
    reinterpret_cast between size_t and void* is the identity.  The per-zone probabilities (RMA:33-35, 41-62) are never
    read by the class and are left out. *)
From Coq Require Import List NArith ZArith Bool SpecFloat.
Import ListNotations.
From Verif Require Import Outcome Words Arith Floats.
Local Open Scope N_scope.

(* RMA:23-28 *)
Inductive level := HS | MS | LS | US.
Definition level_eqb (a b : level) : bool :=
  match a, b with HS, HS | MS, MS | LS, LS | US, US => true | _, _ => false end.
(* RMA:85-90 *)
Inductive crit := MISSION | HIGHLY | MODERATELY | LOW.
Definition crit_eqb (a b : crit) : bool :=
  match a, b with MISSION, MISSION | HIGHLY, HIGHLY | MODERATELY, MODERATELY | LOW, LOW => true | _, _ => false end.
(* RMA:388-394 *)
Inductive placement := PHigh | PModerate | PMinimal | PUnprot | PSystem.

(* RMA:22-39 *)
Record zone := mkZone { zlevel : level; zstart : N; zend : N }.
(* RMA:397-401 *)
Record arec := mkA { aaddr : N; asize : N; alevel : level }.
(* RMA:404-409 *)
Record mrec := mkM { mptr : N; msize : N; mcrit : crit; mplace : placement }.
(* RMA:412-419 *)
Record rma := mkRma { zones : list zone; allocations : list arec; managed : list mrec; sysmem : list mrec }.

(* RMA:422-432 *)
Definition MB : N := 1024 * 1024.
Definition default_zones : list zone :=
  [ mkZone HS 0x10000000 (0x10000000 + 1 * MB); mkZone MS 0x20000000 (0x20000000 + 4 * MB);
    mkZone LS 0x30000000 (0x30000000 + 8 * MB); mkZone US 0x40000000 (0x40000000 + 16 * MB) ].
(* RMA:106-110 *)
Definition rma_default : rma := mkRma default_zones [] [] [].
(* RMA:441-448 the double loop *)
Definition zones_clash (a b : zone) : bool := (zstart a <=? zend b) && (zstart b <=? zend a).
Fixpoint any_clash (l : list zone) : bool :=
  match l with [] => false | z :: r => existsb (zones_clash z) r || any_clash r end.
(* RMA:117-120, 435-449 *)
Definition rma_make (zs : list zone) : outcome rma :=
  match zs with
  | [] => Throw E_runtime_error
  | _ => if any_clash zs then Throw E_runtime_error else Ret (mkRma zs [] [] [])
  end.

(* RMA:456-469 *)
Definition crit_level (c : crit) : level :=
  match c with MISSION => HS | HIGHLY => MS | MODERATELY => LS | LOW => US end.
(* the first zone of a level (RMA:472-476, 520-524, 528-532, 536-540), as an index into zones_ *)
Fixpoint find_level (lv : level) (l : list zone) (i : nat) : option nat :=
  match l with
  | [] => None
  | z :: r => if level_eqb (zlevel z) lv then Some i else find_level lv r (S i)
  end.
(* RMA:452-480: returns a reference to zones_[i] *)
Definition select_zone (c : crit) (zs : list zone) : nat :=
  match find_level (crit_level c) zs 0 with Some i => i | None => 0%nat end.
(* RMA:515-551; the cases fall through; "use any zone" returns the first (RMA:544-546) *)
Definition fb_low (zs : list zone) : nat := 0%nat.
Definition fb_moderately (zs : list zone) : nat :=
  match find_level US zs 0 with Some i => i | None => fb_low zs end.
Definition fb_highly (zs : list zone) : nat :=
  match find_level LS zs 0 with Some i => i | None => fb_moderately zs end.
Definition fb_mission (zs : list zone) : nat :=
  match find_level MS zs 0 with Some i => i | None => fb_highly zs end.
Definition find_fallback (c : crit) (zs : list zone) : nat :=
  match c with MISSION => fb_mission zs | HIGHLY => fb_highly zs | MODERATELY => fb_moderately zs | LOW => fb_low zs end.

(* size_t subtraction and addition *)
Definition sub64 (a b : N) : N := (a + 2 ^ 64 - b) mod 2 ^ 64.
Definition add64 (a b : N) : N := (a + b) mod 2 ^ 64.
(* RMA:493 std::sort of pair<size_t,size_t> (lexicographic, a total order: the result does not depend on the algorithm) *)
Definition pair_le (a b : N * N) : bool := (fst a <? fst b) || ((fst a =? fst b) && (snd a <=? snd b)).
Fixpoint insert_pair (x : N * N) (l : list (N * N)) : list (N * N) :=
  match l with [] => [x] | y :: r => if pair_le x y then x :: l else y :: insert_pair x r end.
Fixpoint sort_pairs (l : list (N * N)) : list (N * N) :=
  match l with [] => [] | x :: r => insert_pair x (sort_pairs r) end.
(* RMA:496-511 *)
Fixpoint scan_gaps (cur en size : N) (occ : list (N * N)) : N :=
  match occ with
  | [] => if size <=? sub64 en cur then cur else 0
  | (a, n) :: r => if size <=? sub64 a cur then cur else scan_gaps (add64 a n) en size r
  end.
(* RMA:483-512 *)
Definition occupied (lv : level) (l : list arec) : list (N * N) :=
  map (fun r => (aaddr r, asize r)) (filter (fun r => level_eqb (alevel r) lv) l).
Definition find_space (z : zone) (allocs : list arec) (size : N) : N :=
  scan_gaps (zstart z) (zend z) size (sort_pairs (occupied (zlevel z) allocs)).

(* RMA:155-169 *)
Definition place_of (lv : level) : placement :=
  match lv with HS => PHigh | MS => PModerate | LS => PMinimal | US => PUnprot end.
Fixpoint set_nth {A} (i : nat) (a : A) (l : list A) : list A :=
  match l, i with [] , _ => [] | _ :: r, O => a :: r | x :: r, S j => x :: set_nth j a r end.
(* RMA:150-173 *)
Definition record_alloc (zs : list zone) (s : rma) (addr size : N) (c : crit) (lv : level) : N * bool * rma :=
  (addr, false, mkRma zs (allocations s ++ [mkA addr size lv]) (managed s ++ [mkM addr size c (place_of lv)]) (sysmem s)).
(* RMA:129-174.  [m] is what std::malloc answers if it is called; the flag in the result says whether it was.
   RMA:138 assigns THROUGH the reference target_zone: the selected element of zones_ is overwritten. *)
Definition rma_allocate (size : N) (c : crit) (m : N) (s : rma) : outcome (N * bool * rma) :=
  let i := select_zone c (zones s) in
  match nth_error (zones s) i with
  | None => UB UB_array_index
  | Some z =>
    let a := find_space z (allocations s) size in
    if a =? 0 then
      match nth_error (zones s) (find_fallback c (zones s)) with
      | None => UB UB_array_index
      | Some f =>
        let zs' := set_nth i f (zones s) in
        let a' := find_space f (allocations s) size in
        if a' =? 0 then Ret (m, true, mkRma zs' (allocations s) (managed s) (sysmem s ++ [mkM m size c PSystem]))
        else Ret (record_alloc zs' s a' size c (zlevel f))
      end
    else Ret (record_alloc (zones s) s a size c (zlevel z))
  end.

(* std::find_if followed by erase *)
Fixpoint erase_if {A} (p : A -> bool) (l : list A) : option (list A) :=
  match l with
  | [] => None
  | x :: r => if p x then Some r else match erase_if p r with Some r' => Some (x :: r') | None => None end
  end.
(* RMA:181-220.  [h]: addresses of blocks malloc has handed out (to anybody) and that are not freed yet.
   std::free of a null pointer does nothing; of any other address not in [h] it is undefined. *)
Definition c_free (p : N) (h : list N) : outcome (list N) :=
  if p =? 0 then Ret h
  else match erase_if (N.eqb p) h with Some h' => Ret h' | None => UB UB_bad_free end.
Definition rma_deallocate (p : N) (s : rma) (h : list N) : outcome (rma * list N) :=
  match erase_if (fun r => aaddr r =? p) (allocations s) with
  | Some al => 
    let ma := match erase_if (fun r => mptr r =? p) (managed s) with Some ma => ma | None => managed s end in
    Ret (mkRma (zones s) al ma (sysmem s), h)
  | None =>
    match erase_if (fun r => mptr r =? p) (sysmem s) with
    | Some sy => match c_free p h with Ret h' => Ret (mkRma (zones s) (allocations s) (managed s) sy, h') | UB r => UB r | Throw e => Throw e | OutOfFuel => OutOfFuel end
    | None => match c_free p h with Ret h' => Ret (s, h') | UB r => UB r | Throw e => Throw e | OutOfFuel => OutOfFuel end
    end
  end.

(* RMA:282-302: result[c] *)
Definition add_usage (c : crit) (u : N) (l : list mrec) : N :=
  fold_left (fun u r => if crit_eqb (mcrit r) c then add64 u (msize r) else u) l u.
Definition criticality_usage (s : rma) (c : crit) : N := add_usage c (add_usage c 0 (managed s)) (sysmem s).
(* RMA:227-275: the numbers printed: per zone level (count, bytes), then system (count, bytes) *)
Definition diag_zone (s : rma) (lv : level) : N * N :=
  fold_left (fun u r => if level_eqb (alevel r) lv then (add64 (fst u) 1, add64 (snd u) (asize r)) else u) (allocations s) (0, 0).
Definition diag_system (s : rma) : N * N :=
  (N.of_nat (length (sysmem s)), fold_left (fun u r => add64 u (msize r)) (sysmem s) 0).

(* RMA:554-567 *)
Definition crit_weight (c : crit) : sf := match c with MISSION => dofZ 10 | HIGHLY => dofZ 5 | MODERATELY => dofZ 2 | LOW => dofZ 1 end.
(* RMA:570-585 *)
Definition place_factor (p : placement) : sf :=
  match p with PHigh => dlit 1 10 | PModerate => dlit 3 10 | PMinimal => dlit 6 10 | PUnprot => dlit 8 10 | PSystem => dofZ 1 end.
(* RMA:311-339 *)
Definition risk (size : N) (c : crit) (p : placement) : sf :=
  dmul (dmul (dofZ (Z.of_N size)) (crit_weight c)) (place_factor p).
Definition add_risk (sys : bool) (u : sf * N) (l : list mrec) : sf * N :=
  fold_left (fun u r => (dadd (fst u) (risk (msize r) (mcrit r) (if sys then PSystem else mplace r)), add64 (snd u) (msize r))) l u.
Definition vulnerability_score (s : rma) : sf :=
  match managed s, sysmem s with
  | [], [] => dofZ 0
  | _, _ =>
    let u := add_risk true (add_risk false (dofZ 0, 0) (managed s)) (sysmem s) in
    if 0 <? snd u then ddiv (fst u) (dmul (dofZ (Z.of_N (snd u))) (dofZ 10)) else dofZ 0
  end.

(* RMA:355-361 STLAllocator<T>: [sz] = sizeof(T) *)
Definition stl_allocate (sz n : N) (c : crit) (m : N) (s : rma) : outcome (N * bool * rma) :=
  rma_allocate ((n * sz) mod 2 ^ 64) c m s.

(** Histories.  The world besides the allocator: the live blocks of malloc.  [OExt p]: another part of the program
    obtained [p] from malloc. *)
Inductive rma_op := OAlloc (size : N) (c : crit) (m : N) | OFree (p : N) | OExt (p : N).
Inductive rma_res := RPtr (p : N) (malloced : bool) | RDone.
Definition rma_do (o : rma_op) (s : rma) (h : list N) : outcome (rma_res * rma * list N) :=
  match o with
  | OAlloc n c m =>
    match rma_allocate n c m s with
    | Ret (p, sysb, s') => Ret (RPtr p sysb, s', if sysb then (if p =? 0 then h else p :: h) else h)
    | UB r => UB r | Throw e => Throw e | OutOfFuel => OutOfFuel
    end
  | OFree p => match rma_deallocate p s h with Ret (s', h') => Ret (RDone, s', h') | UB r => UB r | Throw e => Throw e | OutOfFuel => OutOfFuel end
  | OExt p => Ret (RDone, s, p :: h)
  end.
Fixpoint rma_run (l : list rma_op) (s : rma) (h : list N) : outcome (list (rma_op * rma_res) * rma * list N) :=
  match l with
  | [] => Ret ([], s, h)
  | o :: r =>
    match rma_do o s h with
    | Ret (x, s1, h1) =>
      match rma_run r s1 h1 with Ret (t, s2, h2) => Ret ((o, x) :: t, s2, h2) | UB e => UB e | Throw e => Throw e | OutOfFuel => OutOfFuel end
    | UB e => UB e | Throw e => Throw e | OutOfFuel => OutOfFuel
    end
  end.
