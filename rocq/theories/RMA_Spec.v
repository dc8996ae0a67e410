(** What users of RadiationMappedAllocator rely on, in terms of requests, returned pointers and the zone map. *)
From Coq Require Import List NArith ZArith Bool.
Import ListNotations.
From Verif Require Import Outcome RMA_Model.
Local Open Scope N_scope.

(** A block the client holds: address, requested size, criticality, and whether it came from malloc. *)
Record blk := mkB { bptr : N; bsize : N; bcrit : crit; bsys : bool }.
Notation event := (rma_op * rma_res)%type.
Fixpoint drop_ptr (p : N) (l : list blk) : list blk :=
  match l with [] => [] | b :: r => if bptr b =? p then r else b :: drop_ptr p r end.
Fixpoint drop_addr (p : N) (l : list N) : list N :=
  match l with [] => [] | b :: r => if b =? p then r else b :: drop_addr p r end.
(** (blocks the client got from the allocator and has not given back, blocks got directly from malloc); a null pointer
    is no block *)
Definition track (st : list blk * list N) (e : event) : list blk * list N :=
  let '(bs, ext) := st in
  match e with
  | (OAlloc n c _, RPtr p sysb) => if p =? 0 then st else (bs ++ [mkB p n c sysb], ext)
  | (OFree p, _) => if existsb (fun b => bptr b =? p) bs then (drop_ptr p bs, ext) else (bs, drop_addr p ext)
  | (OExt p, _) => (bs, p :: ext)
  | _ => st
  end.
Definition live (t : list event) : list blk := fst (fold_left track t ([], [])).
Definition ext (t : list event) : list N := snd (fold_left track t ([], [])).

Definition apart (a n b m : N) : Prop := a + n <= b \/ b + m <= a.
Definition apart_blk (x y : blk) : Prop := apart (bptr x) (bsize x) (bptr y) (bsize y).
Definition no_overlap (l : list blk) : Prop :=
  forall i j x y, nth_error l i = Some x -> nth_error l j = Some y -> i <> j -> apart_blk x y.
Definition inside (b : blk) (z : zone) : Prop := zstart z <= bptr b /\ bptr b + bsize b <= zend z.

(** A zone map: proper intervals of the address space, one per level. *)
Definition proper (zs : list zone) : Prop := Forall (fun z => zstart z <= zend z /\ zend z < 2 ^ 64) zs.
Definition one_per_level (zs : list zone) : Prop := NoDup (map zlevel zs).

(** What the environment must respect: requests of at least one byte; malloc answers null or a fresh block outside the
    zones; only held pointers (or null) are given back. *)
Definition fresh (zs : list zone) (t : list event) (p n : N) : Prop :=
  p <> 0 /\ Forall (fun z => apart p n (zstart z) (zend z - zstart z)) zs /\
  Forall (fun b => bsys b = true -> apart p n (bptr b) (bsize b)) (live t) /\ ~ In p (ext t).
Definition ok_op (zs : list zone) (t : list event) (o : rma_op) : Prop :=
  match o with
  | OAlloc n c m => 1 <= n /\ n < 2 ^ 64 /\ (m = 0 \/ fresh zs t m n)
  | OFree p => p = 0 \/ In p (map bptr (live t)) \/ In p (ext t)
  | OExt p => fresh zs t p 1
  end.
Definition ok_history (zs : list zone) (t : list event) : Prop :=
  forall pre o x post, t = pre ++ (o, x) :: post -> ok_op zs pre o.

(** The requested bytes fit somewhere in the zone without touching a live block. *)
Definition room (z : zone) (bs : list blk) (n : N) : Prop :=
  exists a, zstart z <= a /\ a + n <= zend z /\ Forall (fun b => apart a n (bptr b) (bsize b)) bs.
(** The level of protection each criticality asks for. *)
Definition home_level (c : crit) : level := match c with MISSION => HS | HIGHLY => MS | MODERATELY => LS | LOW => US end.
(** Every request so far was served from the zone of its criticality. *)
Definition at_home (zs : list zone) (t : list event) : Prop :=
  forall n c m p s, In (OAlloc n c m, RPtr p s) t ->
    s = false /\ exists z, In z zs /\ zlevel z = home_level c /\ inside (mkB p n c s) z.

Fixpoint sumN (l : list N) : N := match l with [] => 0 | x :: r => x + sumN r end.
Definition bytes_of (c : crit) (bs : list blk) : N := sumN (map bsize (filter (fun b => crit_eqb (bcrit b) c) bs)).
Definition malloc_failed (t : list event) : Prop := exists n c m, In (OAlloc n c m, RPtr 0 true) t.
Definition in_zone (z : zone) (b : blk) : bool := (zstart z <=? bptr b) && (bptr b <? zend z) && negb (bsys b).

(** The vulnerability score the documentation describes: the byte-weighted mean of (importance / 10) * exposure. *)
From Coq Require Import Reals.
Definition importance (c : crit) : R := match c with MISSION => 10 | HIGHLY => 5 | MODERATELY => 2 | LOW => 1 end%R.
Definition level_exposure (l : level) : R := match l with HS => 1 / 10 | MS => 3 / 10 | LS => 6 / 10 | US => 8 / 10 end%R.
Definition exposure (zs : list zone) (b : blk) : R :=
  if bsys b then 1%R else match find (fun z => in_zone z b) zs with Some z => level_exposure (zlevel z) | None => 1%R end.
Definition weighted (zs : list zone) (bs : list blk) : R :=
  fold_right (fun b r => (IZR (Z.of_N (bsize b)) * importance (bcrit b) * exposure zs b + r)%R) 0%R bs.
Definition total (bs : list blk) : N := sumN (map bsize bs).
Definition mean_exposure (zs : list zone) (bs : list blk) : R := (weighted zs bs / (10 * IZR (Z.of_N (total bs))))%R.
(** The next less protected level. *)
Definition next_level (c : crit) : option level :=
  match c with MISSION => Some MS | HIGHLY => Some LS | MODERATELY => Some US | LOW => None end.
(** Zones as closed intervals do not meet. *)
Definition separate (zs : list zone) : Prop :=
  forall i j x y, nth_error zs i = Some x -> nth_error zs j = Some y -> i <> j -> zend x < zstart y \/ zend y < zstart x.
