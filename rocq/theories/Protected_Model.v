(** Triplicated value wrappers of core/memory.

    - core::memory::ProtectedValue            include/rad_ml/core/memory/protected_value.hpp (PV)
    - core::memory::AlignedProtectedMemory    include/rad_ml/core/memory/aligned_memory.hpp  (AM)
    - core::memory::InterleavedBitMemory      include/rad_ml/core/memory/aligned_memory.hpp  (AM)

    Values are bit patterns ([Arith]).  Voting and detection are [Voting_Model]'s EnhancedVoting;
    [junk] supplies the indeterminate upper bytes of its temporaries for 1- and 2-byte types. *)
From Coq Require Import List NArith ZArith Bool SpecFloat.
Import ListNotations.
From Verif Require Import Outcome Words Arith Floats Voting_Model.
Local Open Scope N_scope.

Record junk := mkj { j1 : N; j2 : N; j3 : N; jv : garbage; jw : garbage }.

(** *** ProtectedValue *)

(* PV:183-185.  [copies] is [None] when the array was never initialised; [err] is error_state
   when has_error (the state built by the private constructor PV:180-181). *)
Record pv := mkpv { pcopies : option (N * N * N); perr : option (FaultPattern * sf) }.

(* PV:25-29, 57: std::variant<ValueCorruptionError, T> *)
Inductive pres := PError (p : FaultPattern) (conf : sf) | PValue (v : N).

(* PV:49-50, 152-154 *)
Definition pv_new (v : N) : pv := mkpv (Some (v, v, v)) None.
Definition pv_set (s : pv) (v : N) : pv := mkpv (Some (v, v, v)) (perr s).
(* PV:180-181 *)
Definition pv_error (p : FaultPattern) (conf : sf) : pv := mkpv None (Some (p, conf)).

(* PV:188 *)
Definition confidence_threshold : sf := slit 7 10.

(* PV:57-80 *)
Definition pv_get (t : aty) (j : junk) (s : pv) : outcome pres :=
  match pcopies s with
  | None => UB UB_uninit
  | Some (a, b, c) =>
      if eqT t a b && eqT t b c then Ret (PValue a)
      else obind (EV_detectWithConfidence t (j1 j) (j2 j) (j3 j) a b c) (fun '(pattern, conf) =>
        if flt conf confidence_threshold then Ret (PError pattern conf)
        else Ret (PValue (EV_adaptiveVote t (jv j) (jw j) a b c pattern)))
  end.

(* PV:88-94 *)
Definition pv_getOrFallback (t : aty) (j : junk) (s : pv) (fallback : N) : outcome N :=
  obind (pv_get t j s) (fun r => Ret (match r with PError _ _ => fallback | PValue v => v end)).

(* PV:106-118 transform, for a function T -> T (for another result type the error branch names a
   private constructor of another class and does not compile) *)
Definition pv_transform (t : aty) (j : junk) (f : N -> N) (s : pv) : outcome pv :=
  obind (pv_get t j s) (fun r => Ret (match r with PError p c => pv_error p c | PValue v => pv_new (f v) end)).

(* PV:161-176 *)
Definition pv_scrub (t : aty) (j : junk) (s : pv) : outcome (pv * bool) :=
  match pcopies s with
  | None => UB UB_uninit
  | Some (a, b, c) =>
      if eqT t a b && eqT t b c then Ret (s, false)
      else obind (EV_detectFaultPattern t (j1 j) (j2 j) (j3 j) a b c) (fun pattern =>
        let corrected := EV_adaptiveVote t (jv j) (jw j) a b c pattern in
        Ret (mkpv (Some (corrected, corrected, corrected)) (perr s), true))
  end.

(** *** AlignedProtectedMemory *)

(* AM:193-194 *)
Record am := mkam { am_copies : N * N * N; am_scrubbing : bool }.
(* AM:49-55, 94-98, 105-107 *)
Definition am_new (v : N) : am := mkam (v, v, v) true.
Definition am_set (s : am) (v : N) : am := mkam (v, v, v) (am_scrubbing s).
Definition am_enable (s : am) (b : bool) : am := mkam (am_copies s) b.

(* AM:115-126 scrub(correct_value).  (The overload scrub() without argument, AM:133-148, deduces
   EnhancedVoting's T as the private struct AlignedValue and fails its static_assert: it cannot be
   instantiated.) *)
Definition am_scrub (t : aty) (s : am) (v : N) : am * bool :=
  let '(a, b, c) := am_copies s in
  let fix1 x := if negb (eqT t x v) then (v, true) else (x, false) in
  let '(a', ea) := fix1 a in let '(b', eb) := fix1 b in let '(c', ec) := fix1 c in
  (mkam (a', b', c') (am_scrubbing s), ea || eb || ec).

(* AM:62-87; get() is const but scrubs through const_cast: the new state is returned *)
Definition am_get (t : aty) (j : junk) (s : am) : outcome (am * N) :=
  let '(a, b, c) := am_copies s in
  if eqT t a b && eqT t b c then Ret (s, a)
  else obind (EV_detectWithConfidence t (j1 j) (j2 j) (j3 j) a b c) (fun '(pattern, conf) =>
    let result := EV_adaptiveVote t (jv j) (jw j) a b c pattern in
    if am_scrubbing s && flt conf (sofZ 1) then Ret (fst (am_scrub t s result), result)
    else Ret (s, result)).

(* AM:156-158 getRawCopy(index) assigned through, 166-168 corruptCopy *)
Definition am_corrupt (s : am) (index v : N) : am :=
  let '(a, b, c) := am_copies s in
  mkam (match index mod 3 with 0 => (v, b, c) | 1 => (a, v, c) | _ => (a, b, v) end) (am_scrubbing s).

(** *** InterleavedBitMemory (1-, 2- and 4-byte integral T; for 8 bytes StorageType is an array and
    the class does not compile) *)

(* AM:270-278: width of StorageType *)
Definition storage_width (t : aty) : N := if sizeof t <=? 2 then 64 else 128.

(* AM:288-299 *)
Definition ib_interleave (t : aty) (data v copy : N) : N :=
  for_up (N.to_nat (width t)) 0
    (fun i d => let bit := N.land (N.shiftr v i) 1 in
                let pos := i * 3 + copy in
                N.lor d (wrap (storage_width t) (N.shiftl bit pos))) data.

(* AM:308-323 *)
Definition ib_deinterleave (t : aty) (data copy : N) : N :=
  for_up (N.to_nat (width t)) 0
    (fun i r => let pos := i * 3 + copy in
                let bit := N.land (N.shiftr data pos) 1 in
                N.lor r (wrap (width t) (N.shiftl bit i))) 0.

(* AM:249-255 set / AM:222-224 constructor *)
Definition ib_set (t : aty) (v : N) : N :=
  ib_interleave t (ib_interleave t (ib_interleave t 0 v 0) v 1) v 2.

(* AM:231-242 *)
Definition ib_get (t : aty) (j : junk) (data : N) : outcome N :=
  let a := ib_deinterleave t data 0 in
  let b := ib_deinterleave t data 1 in
  let c := ib_deinterleave t data 2 in
  obind (EV_detectFaultPattern t (j1 j) (j2 j) (j3 j) a b c) (fun pattern =>
    Ret (EV_adaptiveVote t (jv j) (jw j) a b c pattern)).

(* AM:262-266 *)
Definition ib_scrub (t : aty) (j : junk) (data : N) : outcome (N * bool) :=
  obind (ib_get t j data) (fun v => Ret (ib_set t v, true)).
