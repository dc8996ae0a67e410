(** Plain triple-redundancy containers.

    - core::redundancy::TripleModularRedundancy  include/rad_ml/core/redundancy/tmr.hpp:22-83
    - tmr::TMR                                   include/rad_ml/tmr/tmr.hpp:18-171
    - tmr::BasicTMR                              rad_ml/tmr/basic_tmr.hpp:17-83
    - tmr::EnhancedTMR (four copies)             rad_ml/tmr/basic_tmr.hpp:90-185

    [T] is the protected type, [eqb] its operator==.  Radiation upsets are writes
    of an arbitrary value into one copy.  Reference parameters are passed by value
    (no aliasing between the argument and the stored copies). *)
From Coq Require Import List Bool Arith.
Import ListNotations.

Record copies3 (T : Type) := mk3 { c0 : T; c1 : T; c2 : T }.
Arguments mk3 {T}. Arguments c0 {T}. Arguments c1 {T}. Arguments c2 {T}.

(** Overwriting copy [i]; indices outside 0..2 write nothing. *)
Definition write3 {T} (s : copies3 T) (i : nat) (w : T) : copies3 T :=
  match i with
  | 0 => mk3 w (c1 s) (c2 s)
  | 1 => mk3 (c0 s) w (c2 s)
  | 2 => mk3 (c0 s) (c1 s) w
  | _ => s
  end.

Section Containers.
Context {T : Type} (eqb : T -> T -> bool).

(** *** core/redundancy/tmr.hpp *)

(* core/redundancy/tmr.hpp:32-36 constructor; 55-59 set; 75-78 operator= *)
Definition core_new (v : T) : copies3 T := mk3 v v v.
Definition core_set (s : copies3 T) (v : T) : copies3 T := mk3 v v v.

(* core/redundancy/tmr.hpp:39-52 get (and 70-72 operator T) *)
Definition core_get (s : copies3 T) : T :=
  if eqb (c0 s) (c1 s) then c0 s
  else if eqb (c0 s) (c2 s) then c0 s
  else if eqb (c1 s) (c2 s) then c1 s
  else c0 s.

(* core/redundancy/tmr.hpp:62-67 repair *)
Definition core_repair (s : copies3 T) : copies3 T :=
  let v := core_get s in mk3 v v v.

(** *** rad_ml/tmr/basic_tmr.hpp BasicTMR *)

(* basic_tmr.hpp:24-29 constructor; 51-55 set *)
Definition basic_new (v : T) : copies3 T := mk3 v v v.
Definition basic_set (s : copies3 T) (v : T) : copies3 T := mk3 v v v.

(* basic_tmr.hpp:35-46 get *)
Definition basic_get (s : copies3 T) : T :=
  if eqb (c0 s) (c1 s) || eqb (c0 s) (c2 s) then c0 s
  else if eqb (c1 s) (c2 s) then c1 s
  else c0 s.

(* basic_tmr.hpp:61-63 hasErrors *)
Definition basic_hasErrors (s : copies3 T) : bool :=
  negb (eqb (c0 s) (c1 s) && eqb (c1 s) (c2 s)).

(* basic_tmr.hpp:68-71 repair *)
Definition basic_repair (s : copies3 T) : copies3 T :=
  basic_set s (basic_get s).

(** *** tmr/tmr.hpp TMR, with statistics and callback *)

(* tmr/tmr.hpp:86-90 ErrorStats (size_t counters, modelled as unbounded nat) *)
Record stats := mkst { detected : nat; corrected : nat; uncorrectable : nat }.
Definition stats0 := mkst 0 0 0.

(* tmr/tmr.hpp:110-117: copies_, stats_, on_error_callback_; the callback is modelled by
   the log of its invocations (voted value, outlier); [has_cb]: a callback is set *)
Record tmr := mktmr { tcopies : copies3 T; tstats : stats; has_cb : bool; cblog : list (T * T) }.

(* tmr/tmr.hpp:27-34 constructor *)
Definition tmr_new (v : T) (cb : bool) : tmr := mktmr (mk3 v v v) stats0 cb [].

Definition tmr_note (m : tmr) (good bad : T) : tmr :=
  mktmr (tcopies m)
        (mkst (S (detected (tstats m))) (S (corrected (tstats m))) (uncorrectable (tstats m)))
        (has_cb m)
        (if has_cb m then cblog m ++ [(good, bad)] else cblog m).

(* tmr/tmr.hpp:124-170 performMajorityVote (via get, 41-44); stats_ is mutable *)
Definition tmr_get (m : tmr) : tmr * T :=
  let s := tcopies m in
  if eqb (c0 s) (c1 s) && eqb (c1 s) (c2 s) then (m, c0 s)
  else if eqb (c0 s) (c1 s) then (tmr_note m (c0 s) (c2 s), c0 s)
  else if eqb (c0 s) (c2 s) then (tmr_note m (c0 s) (c1 s), c0 s)
  else if eqb (c1 s) (c2 s) then (tmr_note m (c1 s) (c0 s), c1 s)
  else (mktmr s (mkst (S (detected (tstats m))) (corrected (tstats m))
                      (S (uncorrectable (tstats m)))) (has_cb m) (cblog m), c0 s).

(* tmr/tmr.hpp:51-55 set *)
Definition tmr_set (m : tmr) (v : T) : tmr := mktmr (mk3 v v v) (tstats m) (has_cb m) (cblog m).

(* tmr/tmr.hpp:63-68 getRawCopy; out of range falls back to copy 0 *)
Definition tmr_getRawCopy (m : tmr) (i : nat) : T :=
  match i with 0 => c0 (tcopies m) | 1 => c1 (tcopies m) | 2 => c2 (tcopies m)
             | _ => c0 (tcopies m) end.

(* tmr/tmr.hpp:76-80 setRawCopy; out of range is ignored *)
Definition tmr_setRawCopy (m : tmr) (i : nat) (w : T) : tmr :=
  mktmr (write3 (tcopies m) i w) (tstats m) (has_cb m) (cblog m).

(* tmr/tmr.hpp:104-106 resetErrorStats *)
Definition tmr_reset (m : tmr) : tmr := mktmr (tcopies m) stats0 (has_cb m) (cblog m).

(** *** four-copy EnhancedTMR, rad_ml/tmr/basic_tmr.hpp *)

Record copies4 := mk4 { d0 : T; d1 : T; d2 : T; d3 : T; err_count : nat }.

(* basic_tmr.hpp:97-103 constructor *)
Definition e4_new (v : T) : copies4 := mk4 v v v v 0.

(* basic_tmr.hpp:116-119: value_counts[copies_[i]]++ for the four copies.  The map is a
   list of (key,count) entries in first-insertion order; the iteration order of
   std::unordered_map is unspecified, see [e4_scan]. *)
Fixpoint bump (m : list (T * nat)) (k : T) : list (T * nat) :=
  match m with
  | [] => [(k, 1)]
  | (k', n) :: r => if eqb k' k then (k', S n) :: r else (k', n) :: bump r k
  end.
Definition e4_counts (s : copies4) : list (T * nat) :=
  bump (bump (bump (bump [] (d0 s)) (d1 s)) (d2 s)) (d3 s).

(* basic_tmr.hpp:122-130: scan of the entries in iteration order *)
Fixpoint e4_scan (entries : list (T * nat)) (best : T) (max_count : nat) : T :=
  match entries with
  | [] => best
  | (k, n) :: r => if max_count <? n then e4_scan r k n else e4_scan r best max_count
  end.

(* basic_tmr.hpp:109-133 get.  [entries] is the iteration order of the map: any
   permutation of [e4_counts s]. *)
Definition e4_get_in_order (s : copies4) (entries : list (T * nat)) : T :=
  if eqb (d0 s) (d1 s) && eqb (d1 s) (d2 s) && eqb (d2 s) (d3 s) then d0 s
  else e4_scan entries (d0 s) 0.

(* basic_tmr.hpp:139-144 set *)
Definition e4_set (s : copies4) (v : T) : copies4 := mk4 v v v v 0.

(* basic_tmr.hpp:150-157 hasErrors (operator!= is the negation of ==) *)
Definition e4_hasErrors (s : copies4) : bool :=
  negb (eqb (d0 s) (d1 s)) || negb (eqb (d0 s) (d2 s)) || negb (eqb (d0 s) (d3 s)).

(* basic_tmr.hpp:163-172 repair: set() zeroes error_count_, then error_count_++ *)
Definition e4_repair (s : copies4) (entries : list (T * nat)) : copies4 * bool :=
  if negb (e4_hasErrors s) then (s, false)
  else
    let s' := e4_set s (e4_get_in_order s entries) in
    (mk4 (d0 s') (d1 s') (d2 s') (d3 s') (S (err_count s')), true).

(* an upset of one of the four copies *)
Definition write4 (s : copies4) (i : nat) (w : T) : copies4 :=
  match i with
  | 0 => mk4 w (d1 s) (d2 s) (d3 s) (err_count s)
  | 1 => mk4 (d0 s) w (d2 s) (d3 s) (err_count s)
  | 2 => mk4 (d0 s) (d1 s) w (d3 s) (err_count s)
  | 3 => mk4 (d0 s) (d1 s) (d2 s) w (err_count s)
  | _ => s
  end.

End Containers.
