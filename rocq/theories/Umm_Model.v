(** Model of UM = core/memory/unified_memory.hpp (UnifiedMemoryManager, RadiationTolerantPtr).
    The header does not compile as it stands: MemoryProtectionLevel is used before its definition (UM:33), CANARY_VALUE is not declared
    anywhere, MemoryAllocationInfo holds a std::atomic and so cannot be copied (UM:347), std::source_location needs C++20.  Modelled as
    if these were repaired without changing any statement; the canary is an arbitrary 64-bit number [cv].
    Addresses and sizes are numbers below 2^64; memory is a function from addresses to bytes; a block that malloc handed out is its
    address and its size, and every access is checked to lie inside one live block.  What malloc and aligned_alloc answer (an address or
    null) and what a new block contains are inputs.  The mutex: the calls are sequential, so only locking it again while it is held
    matters (undefined behaviour, in practice a deadlock).  The log, source locations and times are left out; so is the failure of the
    bookkeeping's own allocations. *)
From Coq Require Import List NArith Bool.
Import ListNotations.
From Verif Require Import Outcome Words.
Local Open Scope N_scope.
Local Open Scope outcome_scope.

(* UM:72-78 *)
Inductive plevel := NONE | CANARY | CRC | ECC | TMR.
(* UM:83-99 *)
Record flags := mkFlags { zero : bool; aligned : bool; nothrow : bool }.
(* UM:24-48: the fields that anything reads *)
Record info := mkInfo { user : N; orig : N; isize : N; itype : option N; is_array : bool; prot : bool }.
(* UM:53-67 *)
Record stats := mkStats { cur_n : N; peak_n : N; tot_alloc : N; tot_dealloc : N; cur_b : N; peak_b : N; prot_n : N; prot_b : N; detected : N; repaired : N; leaked : N }.
Definition stats0 : stats := mkStats 0 0 0 0 0 0 0 0 0 0 0.
Record umm := mkUmm {
  mem : N -> N; blocks : list (N * N);        (* the heap *)
  allocs : list (N * info);                   (* UM:1058 *)
  st : stats;                                 (* UM:1059 *)
  deflt : plevel;                             (* UM:1060 *)
  callbacks : list (N * N); next_id : N       (* UM:1061-1062, 640: id -> the registered function's name *)
}.
Definition set_mem (s : umm) (m : N -> N) : umm := mkUmm m (blocks s) (allocs s) (st s) (deflt s) (callbacks s) (next_id s).
Definition set_allocs (s : umm) (al : list (N * info)) (t : stats) : umm := mkUmm (mem s) (blocks s) al t (deflt s) (callbacks s) (next_id s).
Definition set_cbs (s : umm) (c : list (N * N)) (n : N) : umm := mkUmm (mem s) (blocks s) (allocs s) (st s) (deflt s) c n.
Definition umm0 (m : N -> N) : umm := mkUmm m [] [] stats0 NONE [] 1.
Definition w64 (n : N) : N := n mod 2 ^ 64.

(** ** the heap *)
(* may n bytes at a be accessed? *)
Definition inside (bs : list (N * N)) (a n : N) : bool := (n =? 0) || existsb (fun b => (fst b <=? a) && (a + n <=? fst b + snd b)) bs.
(* n bytes at an offset into the block at p *)
Definition access (bs : list (N * N)) (p off n : N) : bool := (n =? 0) || existsb (fun b => (fst b =? p) && (off + n <=? snd b)) bs.
(* bytes at a become [f] *)
Definition fill (m : N -> N) (a n : N) (f : N -> N) : N -> N := fun x => if (a <=? x) && (x <? a + n) then f x else m x.
Definition put_u64 (m : N -> N) (a v : N) : N -> N := fill m a 8 (fun x => (v / 2 ^ (8 * (x - a))) mod 256).
Definition get_u64 (m : N -> N) (a : N) : N := fold_right (fun i acc => m (a + i) + 256 * acc) 0 [0; 1; 2; 3; 4; 5; 6; 7].
Definition parity8 (b : N) : bool := fold_right (fun i acc => xorb (N.testbit b i) acc) false [0; 1; 2; 3; 4; 5; 6; 7].

Fixpoint find (p : N) (l : list (N * info)) : option info := match l with [] => None | (k, i) :: l => if k =? p then Some i else find p l end.
Fixpoint upd (p : N) (f : info -> info) (l : list (N * info)) : list (N * info) := match l with [] => [] | (k, i) :: l => if k =? p then (k, f i) :: l else (k, i) :: upd p f l end.
Fixpoint del (p : N) (l : list (N * info)) : list (N * info) := match l with [] => [] | (k, i) :: l => if k =? p then l else (k, i) :: del p l end.

(** ** helpers of the class *)
(* UM:701-726 *)
Definition calculateProtectedSize (n : N) (l : plevel) : N :=
  match l with NONE => n | CANARY => w64 (n + 16) | CRC => w64 (n + 4) | ECC => w64 (n + n / 8) | TMR => w64 (n * 3) end.
(* UM:736-811; the checksum of case CRC is computed and dropped *)
Definition setupMemoryProtection (cv : N) (s : umm) (p n : N) (l : plevel) : outcome (bool * umm) :=
  if p =? 0 then Ret (false, s) else
  match l with
  | CANARY =>
    let e := w64 (n + 2 ^ 64 - 8) in
    if access (blocks s) p 0 8 && access (blocks s) p e 8 then Ret (true, set_mem s (put_u64 (put_u64 (mem s) p cv) (p + e) cv)) else UB UB_out_of_bounds
  | CRC => if access (blocks s) p 0 n then Ret (true, set_allocs s (upd p (fun i => mkInfo (user i) (orig i) (isize i) (itype i) (is_array i) true) (allocs s)) (st s)) else UB UB_out_of_bounds
  | ECC =>
    let k := w64 (n + 7) / 8 in
    if access (blocks s) p 0 n && access (blocks s) p n k then
      let m := mem s in
      (* bit i mod 8 of byte i / 8 is the parity of byte i *)
      let eccbyte j := fold_right (fun r acc => (if (8 * j + r <? n) && parity8 (m (p + (8 * j + r))) then 2 ^ r else 0) + acc) 0 [0; 1; 2; 3; 4; 5; 6; 7] in
      Ret (true, set_mem s (fill m (p + n) k (fun x => eccbyte (x - (p + n)))))
    else UB UB_out_of_bounds
  | TMR =>
    if access (blocks s) p 0 n && access (blocks s) p n n && access (blocks s) p (2 * n) n then
      let m := mem s in
      let m1 := fill m (p + n) n (fun x => m (x - n)) in
      Ret (true, set_mem s (fill m1 (p + 2 * n) n (fun x => m1 (x - 2 * n))))
    else UB UB_out_of_bounds
  | NONE => Ret (true, s)
  end.
(* UM:676-692 *)
Definition trackAllocation (s : umm) (p n : N) : umm :=
  let al := match find p (allocs s) with Some _ => allocs s | None => allocs s ++ [(p, mkInfo p p n None false false)] end in
  let t := st s in
  let c := w64 (cur_n t + 1) in
  let b := w64 (cur_b t + n) in
  set_allocs s al
    (mkStats c (if peak_n t <? c then c else peak_n t) (w64 (tot_alloc t + 1)) (tot_dealloc t) b (if peak_b t <? b then b else peak_b t)
             (prot_n t) (prot_b t) (detected t) (repaired t) (leaked t)).
(* UM:819-845 *)
Definition unprot (t : stats) (n : N) : stats :=
  mkStats (cur_n t) (peak_n t) (tot_alloc t) (tot_dealloc t) (cur_b t) (peak_b t) (w64 (prot_n t + 2 ^ 64 - 1)) (w64 (prot_b t + 2 ^ 64 - n)) (detected t) (repaired t) (leaked t).
Definition set_prot (b : bool) (i : info) : info := mkInfo (user i) (orig i) (isize i) (itype i) (is_array i) b.
Definition removeMemoryProtection (s : umm) (p : N) : bool * umm :=
  if p =? 0 then (false, s) else
  match find p (allocs s) with
  | None => (false, s)
  | Some i => if prot i then (true, set_allocs s (upd p (set_prot false) (allocs s)) (unprot (st s) (isize i))) else (true, s)
  end.

(** ** the interface *)
(* how many bytes are asked of the system: UM:137-156; alignment 0 divides by zero *)
Definition request (n : N) (f : flags) (l : plevel) (alignment : N) : outcome N :=
  let a := calculateProtectedSize n l in
  if aligned f then if alignment =? 0 then UB UB_div_zero else Ret (w64 (w64 (a + alignment + 2 ^ 64 - 1) / alignment * alignment)) else Ret a.
(* UM:133-210; [sys]: the system's answer, [junk]: what the block contains *)
Definition allocate (cv : N) (s : umm) (n : N) (f : flags) (l : plevel) (alignment : N) (sys : option N) (junk : N -> N) : outcome (N * umm) :=
  let a := calculateProtectedSize n l in
  real <- request n f l alignment ;;
  match sys with
  | None => if nothrow f then Ret (0, s) else Throw E_bad_alloc
  | Some p =>
    let m := fill (mem s) p real junk in
    let bs := (p, real) :: blocks s in
    if zero f && negb (access bs p 0 a) then UB UB_out_of_bounds else
    let m := if zero f then fill m p a (fun _ => 0) else m in
    let ret := match l with CANARY => w64 (p + 8) | _ => p end in
    r <- setupMemoryProtection cv (mkUmm m bs (allocs s) (st s) (deflt s) (callbacks s) (next_id s)) p a l ;;
    let s := trackAllocation (snd r) p n in
    Ret (ret, set_allocs s (upd p (fun i => mkInfo ret p (isize i) (itype i) (is_array i) (prot i)) (allocs s)) (st s))
  end.
(* UM:218-241, 251-275: [ty]: the type's name; the size of the array is computed modulo 2^64 *)
Definition allocateObject (cv : N) (s : umm) (ty sizeofT : N) (f : flags) (l : plevel) (sys : option N) (junk : N -> N) : outcome (N * umm) :=
  r <- allocate cv s sizeofT f l 64 sys junk ;;
  if fst r =? 0 then Ret r else
  let s := snd r in
  Ret (fst r, set_allocs s (upd (fst r) (fun i => mkInfo (user i) (orig i) (isize i) (Some ty) (is_array i) (prot i)) (allocs s)) (st s)).
Definition allocateArray (cv : N) (s : umm) (ty sizeofT count : N) (f : flags) (l : plevel) (sys : option N) (junk : N -> N) : outcome (N * umm) :=
  r <- allocate cv s (w64 (sizeofT * count)) f l 64 sys junk ;;
  if fst r =? 0 then Ret r else
  let s := snd r in
  Ret (fst r, set_allocs s (upd (fst r) (fun i => mkInfo (user i) (orig i) (isize i) (Some ty) true (prot i)) (allocs s)) (st s)).
(* UM:343-365 *)
Definition getAllocationInfo (s : umm) (p : N) : option info := find p (allocs s).
Definition isAllocated (s : umm) (p : N) : bool := match find p (allocs s) with Some _ => true | None => false end.
(* UM:512-605: the default level is asked for (UM:530, 623-627) while the mutex is held *)
Definition verifyMemoryIntegrity (s : umm) (p : N) : outcome bool :=
  if existsb (fun a => user (snd a) =? p) (allocs s) then UB UB_relock else Ret false.
(* UM:281-335: the integrity check (UM:302) locks the mutex again; what follows it is never reached *)
Definition deallocate (s : umm) (p : N) : outcome (bool * umm) :=
  if p =? 0 then Ret (false, s) else
  match find p (allocs s) with
  | None => Ret (false, s)
  | Some i =>
    if prot i then UB UB_relock else
    let t := st s in
    let t := mkStats (w64 (cur_n t + 2 ^ 64 - 1)) (peak_n t) (tot_alloc t) (w64 (tot_dealloc t + 1)) (w64 (cur_b t + 2 ^ 64 - isize i)) (peak_b t) (prot_n t) (prot_b t) (detected t) (repaired t) (leaked t) in
    if existsb (fun b => fst b =? p) (blocks s) then
      Ret (true, mkUmm (mem s) (filter (fun b => negb (fst b =? p)) (blocks s)) (del p (allocs s)) t (deflt s) (callbacks s) (next_id s))
    else UB UB_bad_free
  end.
(* UM:381-400 *)
Definition resetStats (s : umm) : umm :=
  let add t (a : N * info) :=
    let i := snd a in
    mkStats (cur_n t) (peak_n t) (tot_alloc t) (tot_dealloc t) (w64 (cur_b t + isize i)) (peak_b t)
      (if prot i then w64 (prot_n t + 1) else prot_n t) (if prot i then w64 (prot_b t + isize i) else prot_b t) (detected t) (repaired t) (leaked t) in
  let t0 := mkStats (N.of_nat (length (allocs s))) 0 0 0 0 0 0 0 0 0 0 in
  set_allocs s (allocs s) (fold_left add (allocs s) t0).
(* UM:408-443 *)
Definition checkForLeaks (s : umm) : N * umm :=
  let n := N.of_nat (length (allocs s)) in
  let t := st s in
  (n, set_allocs s (allocs s) (mkStats (cur_n t) (peak_n t) (tot_alloc t) (tot_dealloc t) (cur_b t) (peak_b t) (prot_n t) (prot_b t) (detected t) (repaired t) n)).
(* UM:452-475; setup never fails for a tracked pointer (UM:738 asks for null) *)
Definition protectMemory (cv : N) (s : umm) (p : N) (l : plevel) : outcome (bool * umm) :=
  match find p (allocs s) with
  | None => Ret (false, s)
  | Some i =>
    let s := if prot i then snd (removeMemoryProtection s p) else s in
    r <- setupMemoryProtection cv s p (isize i) l ;;
    let s := snd r in
    if fst r then
      let t := st s in
      Ret (true, set_allocs s (upd p (set_prot true) (allocs s))
             (mkStats (cur_n t) (peak_n t) (tot_alloc t) (tot_dealloc t) (cur_b t) (peak_b t) (w64 (prot_n t + 1)) (w64 (prot_b t + isize i)) (detected t) (repaired t) (leaked t)))
    else Ret (false, s)
  end.
(* UM:483-504: the statistics are lowered by removeMemoryProtection and again here *)
Definition unprotectMemory (s : umm) (p : N) : bool * umm :=
  match find p (allocs s) with
  | None => (false, s)
  | Some i =>
    if prot i then
      let '(ok, s1) := removeMemoryProtection s p in
      if ok then (true, set_allocs s1 (upd p (set_prot false) (allocs s1)) (unprot (st s1) (isize i))) else (false, s1)
    else (true, s)
  end.
(* UM:612-627 *)
Definition setDefaultProtectionLevel (s : umm) (l : plevel) : umm := mkUmm (mem s) (blocks s) (allocs s) (st s) l (callbacks s) (next_id s).
Definition getDefaultProtectionLevel (s : umm) : plevel := deflt s.
(* UM:635-657: ids are counted by a function-local static *)
Definition registerCorruptionCallback (s : umm) (cb : N) : N * umm :=
  (next_id s, set_cbs s (filter (fun c => negb (fst c =? next_id s)) (callbacks s) ++ [(next_id s, cb)]) (w64 (next_id s + 1))).
Definition unregisterCorruptionCallback (s : umm) (id : N) : bool * umm :=
  (existsb (fun c => fst c =? id) (callbacks s), set_cbs s (filter (fun c => negb (fst c =? id)) (callbacks s)) (next_id s)).

(** ** RadiationTolerantPtr: [rp k] is the k-th pointer object's address, 0 for null *)
Record world := mkWorld { mgr : umm; rp : nat -> N }.
Definition set_rp (r : nat -> N) (k : nat) (v : N) : nat -> N := fun j => if Nat.eqb j k then v else r j.
(* UM:1161-1167: the object's destructor is not run *)
Definition reset (w : world) (k : nat) (v : N) : outcome world :=
  s <- (if rp w k =? 0 then Ret (mgr w) else r <- deallocate (mgr w) (rp w k) ;; Ret (snd r)) ;;
  Ret (mkWorld s (set_rp (rp w) k v)).
(* UM:1149-1154 *)
Definition release (w : world) (k : nat) : N * world := (rp w k, mkWorld (mgr w) (set_rp (rp w) k 0)).
(* UM:1103-1109 *)
Definition move_assign (w : world) (k j : nat) : outcome world :=
  if Nat.eqb k j then Ret w else let '(v, w) := release w j in reset w k v.
(* UM:1235-1256, 1266-1288: the new object replaces pointer object k's (move assignment of the result); an exception of the object's
   constructor frees the memory and is passed on (the first component); without NO_THROW allocateObject never answers null *)
Definition make (cv : N) (w : world) (k : nat) (ty sizeofT : N) (l : plevel) (ctor_throws : bool) (init : N -> N) (sys : option N) (junk : N -> N) : outcome (option exn * world) :=
  match allocateObject cv (mgr w) ty sizeofT (mkFlags false false false) l sys junk with
  | Throw e => Ret (Some e, w)
  | UB u => UB u
  | OutOfFuel => OutOfFuel
  | Ret (p, s) =>
    if ctor_throws then q <- deallocate s p ;; Ret (Some E_runtime_error, mkWorld (snd q) (rp w))
    else if inside (blocks s) p sizeofT then
      w' <- reset (mkWorld (set_mem s (fill (mem s) p sizeofT init)) (rp w)) k p ;; Ret (None, w')
    else UB UB_out_of_bounds
  end.
(* UM:1174-1182 *)
Definition isProtected (w : world) (k : nat) : bool := if rp w k =? 0 then false else match getAllocationInfo (mgr w) (rp w k) with Some i => prot i | None => false end.

(** a history of calls of the manager; an exception leaves it as it was *)
Inductive uop :=
| UAlloc (n : N) (f : flags) (l : plevel) (alignment : N) (sys : option N) (junk : N -> N)
| UObject (ty sizeofT : N) (f : flags) (l : plevel) (sys : option N) (junk : N -> N)
| UArray (ty sizeofT count : N) (f : flags) (l : plevel) (sys : option N) (junk : N -> N)
| UFree (p : N) | UReset | ULeaks | UProtect (p : N) (l : plevel) | UUnprotect (p : N) | UVerify (p : N) | UDefault (l : plevel) | URegister (cb : N) | UUnregister (id : N)
| UWrite (a n : N) (f : N -> N).   (* the program (or radiation) changes bytes of a live block *)
Definition keep (o : outcome (N * umm)) (s : umm) : outcome umm := match o with Ret r => Ret (snd r) | UB u => UB u | Throw _ => Ret s | OutOfFuel => OutOfFuel end.
Definition ustep (cv : N) (s : umm) (o : uop) : outcome umm :=
  match o with
  | UAlloc n f l al sys junk => keep (allocate cv s n f l al sys junk) s
  | UObject ty z f l sys junk => keep (allocateObject cv s ty z f l sys junk) s
  | UArray ty z c f l sys junk => keep (allocateArray cv s ty z c f l sys junk) s
  | UFree p => r <- deallocate s p ;; Ret (snd r)
  | UReset => Ret (resetStats s)
  | ULeaks => Ret (snd (checkForLeaks s))
  | UProtect p l => r <- protectMemory cv s p l ;; Ret (snd r)
  | UUnprotect p => Ret (snd (unprotectMemory s p))
  | UVerify p => _ <- verifyMemoryIntegrity s p ;; Ret s
  | UDefault l => Ret (setDefaultProtectionLevel s l)
  | URegister cb => Ret (snd (registerCorruptionCallback s cb))
  | UUnregister id => Ret (snd (unregisterCorruptionCallback s id))
  | UWrite a n f => if inside (blocks s) a n then Ret (set_mem s (fill (mem s) a n f)) else UB UB_out_of_bounds
  end.
Fixpoint urun (cv : N) (s : umm) (ops : list uop) : outcome umm := match ops with [] => Ret s | o :: ops => s <- ustep cv s o ;; urun cv s ops end.
