(** What is assumed of malloc / aligned_alloc, and vocabulary for the statements about the memory manager. *)
From Coq Require Import List NArith Bool.
Import ListNotations.
From Verif Require Import Outcome Umm_Model.
Local Open Scope N_scope.

(** The system's contract: a block it hands out is not null, lies in the address space and does not overlap a live block (a block of no
    bytes still has an address of its own); aligned_alloc's answer is aligned. *)
Definition granted (live : list (N * N)) (p n : N) : Prop :=
  0 < p /\ p + N.max 1 n < 2 ^ 64 /\ Forall (fun b => p + N.max 1 n <= fst b \/ fst b + N.max 1 (snd b) <= p) live.
Definition answer_ok (live : list (N * N)) (n : N) (f : flags) (l : plevel) (alignment : N) (sys : option N) : Prop :=
  match sys with None => True | Some p => forall real, request n f l alignment = Ret real -> granted live p real /\ (aligned f = true -> p mod alignment = 0) end.
Definition contract (s : umm) (o : uop) : Prop :=
  match o with
  | UAlloc n f l al sys _ => n < 2 ^ 64 /\ answer_ok (blocks s) n f l al sys
  | UObject _ z f l sys _ => z < 2 ^ 64 /\ answer_ok (blocks s) z f l 64 sys
  | UArray _ z c f l sys _ => answer_ok (blocks s) ((z * c) mod 2 ^ 64) f l 64 sys
  | _ => True
  end.
Fixpoint honest (cv : N) (s : umm) (ops : list uop) : Prop := match ops with [] => True | o :: ops => contract s o /\ forall s', ustep cv s o = Ret s' -> honest cv s' ops end.
(** the manager after some history of calls *)
Definition after (cv : N) (ops : list uop) (s : umm) : Prop := exists m, honest cv (umm0 m) ops /\ urun cv (umm0 m) ops = Ret s.
Definition reach (cv : N) (s : umm) : Prop := exists ops, after cv ops s.

(** sums over the live allocations *)
Definition live_bytes (s : umm) : N := fold_right N.add 0 (map (fun a => isize (snd a)) (allocs s)).
Definition protected_live (s : umm) : list (N * info) := filter (fun a => prot (snd a)) (allocs s).
Definition no_reset (o : uop) : Prop := o <> UReset.
Definition no_unprotect (o : uop) : Prop := match o with UUnprotect _ => False | _ => True end.
(** sizes that are far from the end of the address space *)
Definition modest (n alignment : N) : Prop := n < 2 ^ 60 /\ 0 < alignment <= 2 ^ 60.

(** the bytes an allocation needs with its protection data, and how many the protection of a block of [a] bytes writes behind it *)
Definition need (n : N) (l : plevel) : N := match l with NONE => n | CANARY => n + 16 | CRC => n + 4 | ECC => n + n / 8 | TMR => n * 3 end.
Definition behind (a : N) (l : plevel) : N := match l with ECC => (a + 7) / 8 | TMR => 2 * a | _ => 0 end.
Definition plain : flags := mkFlags false false false.
Definition registrations (ops : list uop) : N := N.of_nat (length (filter (fun o => match o with URegister _ => true | _ => false end) ops)).

(** Pointer objects: a history of makes (with level NONE or CRC), resets, moves. *)
Inductive wop := WMake (k : nat) (ty sizeofT : N) (l : plevel) (throws : bool) (init : N -> N) (sys : option N) (junk : N -> N) | WReset (k : nat) | WMove (k j : nat).
Definition wstep (cv : N) (w : world) (o : wop) : outcome world :=
  match o with
  | WMake k ty z l t init sys junk => obind (make cv w k ty z l t init sys junk) (fun r => Ret (snd r))
  | WReset k => reset w k 0
  | WMove k j => move_assign w k j
  end.
Definition wcontract (w : world) (o : wop) : Prop :=
  match o with WMake _ _ z l _ _ sys _ => z < 2 ^ 60 /\ (l = NONE \/ l = CRC) /\ answer_ok (blocks (mgr w)) z (mkFlags false false false) l 64 sys | _ => True end.
Fixpoint whonest (cv : N) (w : world) (ops : list wop) : Prop := match ops with [] => True | o :: ops => wcontract w o /\ forall w', wstep cv w o = Ret w' -> whonest cv w' ops end.
Fixpoint wrun (cv : N) (w : world) (ops : list wop) : outcome world := match ops with [] => Ret w | o :: ops => obind (wstep cv w o) (fun w => wrun cv w ops) end.
(** every pointer object that is not null owns a live allocation, no two own the same one, and there are no others *)
Definition owned (w : world) : Prop :=
  (forall k, rp w k <> 0 -> isAllocated (mgr w) (rp w k) = true) /\
  (forall j k, rp w j = rp w k -> rp w j <> 0 -> j = k) /\
  (forall a, isAllocated (mgr w) a = true -> exists k, rp w k = a).
