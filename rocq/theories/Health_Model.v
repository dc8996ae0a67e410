(** Health-tracking TMR containers.

    HW = include/rad_ml/tmr/health_weighted_tmr.hpp   (tmr::HealthWeightedTMR<T>)
    TE = include/rad_ml/tmr/enhanced_tmr.hpp          (tmr::EnhancedTMR<T>)

    T ranges over the arithmetic types of [Arith]; [sg] tells whether an integer T is signed, which
    matters only for the key order of std::map<T,double>.  Health scores are binary64. size_t
    counters are unbounded naturals. *)
From Coq Require Import List NArith ZArith Bool SpecFloat.
Import ListNotations.
From Verif Require Import Outcome Words Arith Floats Crc_Model CrcTMR_Model.
Local Open Scope N_scope.

(* the double literals of the two files *)
Definition d0 : sf := S754_zero false.                 (* 0.0 *)
Definition d1 : sf := dofZ 1.                          (* 1.0 *)
Definition d005 : sf := dlit 5 100.                    (* 0.05 *)
Definition d002 : sf := dlit 2 100.                    (* 0.02 *)
Definition d01 : sf := dlit 1 10.                      (* 0.1 *)
Definition d02 : sf := dlit 2 10.                      (* 0.2 *)
Definition d03 : sf := dlit 3 10.                      (* 0.3 *)
Definition d06 : sf := dlit 6 10.                      (* 0.6 *)
Definition d09 : sf := dlit 9 10.                      (* 0.9 *)

(** std::less<T> *)
Definition to_signed (w x : N) : Z :=
  if x <? 2 ^ (w - 1) then Z.of_N x else (Z.of_N x - 2 ^ Z.of_N w)%Z.
Definition ltK (sg : bool) (t : aty) (x y : N) : bool :=
  if is_int t then (if sg then (to_signed (width t) x <? to_signed (width t) y)%Z else x <? y)
  else ltT t x y.

(** *** HealthWeightedTMR *)
(* HW:158-171: copy, checksum, health score, error counter, vote history (oldest first) *)
Record hcell := mkh { hv : N; hk : N; hh : sf; herr : N; hist : list bool }.
Record hw := mkhw { h0 : hcell; h1 : hcell; h2 : hcell }.
Definition hsel (s : hw) (i : nat) : hcell := match i with 0%nat => h0 s | 1%nat => h1 s | _ => h2 s end.
Definition hupd (s : hw) (i : nat) (f : hcell -> hcell) : hw :=
  match i with
  | 0%nat => mkhw (f (h0 s)) (h1 s) (h2 s)
  | 1%nat => mkhw (h0 s) (f (h1 s)) (h2 s)
  | _ => mkhw (h0 s) (h1 s) (f (h2 s))
  end.

Section HW.
Variable sg : bool.
Variable t : aty.
(* HW:200-215 calculateChecksum (same text as CRC::calculate) *)
Definition hw_crc (v : N) : N := CRC_calculate (bytes_of (N.to_nat (sizeof t)) v).
(* HW:188-191 *)
Definition hw_ok (c : hcell) : bool := hk c =? hw_crc (hv c).
(* write the value and its checksum, HW:130-134, 150-155, 177-181 *)
Definition hput (v : N) (c : hcell) : hcell := mkh v (hw_crc v) (hh c) (herr c) (hist c).
(* HW:32-38 constructor *)
Definition hw_construct (v : N) : hw :=
  let c := mkh v (hw_crc v) d1 0 [] in mkhw c c c.
(* HW:95-103 set: health back to 1.0, history and counters kept *)
Definition hw_set (s : hw) (v : N) : hw :=
  let f c := mkh v (hw_crc v) d1 (herr c) (hist c) in mkhw (f (h0 s)) (f (h1 s)) (f (h2 s)).

(* HW:227-230: bounded history *)
Definition push_hist (l : list bool) (b : bool) : list bool :=
  (if (10 <=? length l)%nat then tl l else l) ++ [b].
(* HW:243-249: number of false among the last three *)
Definition recent_errors (l : list bool) : nat :=
  length (filter negb (skipn (length l - 3) l)).
(* HW:222-256 updateHealthScore *)
Definition updateHealthScore (correct : bool) (c : hcell) : hcell :=
  let l := push_hist (hist c) correct in
  let h := if correct then fmin d1 (dadd (hh c) d005) else fmax d01 (dsub (hh c) d02) in
  let e := if correct then herr c else herr c + 1 in
  let h := if (3 <=? length l)%nat
           then (if (2 <=? recent_errors l)%nat then fmax d005 (dsub h d01) else h)
           else h in
  mkh (hv c) (hk c) h e l.

(* std::map<T,double>: key-ordered association list; m[k] += d *)
Fixpoint map_add (m : list (N * sf)) (k : N) (d : sf) : list (N * sf) :=
  match m with
  | [] => [(k, dadd d0 d)]
  | (k', x) :: r =>
      if ltK sg t k' k then (k', x) :: map_add r k d
      else if ltK sg t k k' then (k, dadd d0 d) :: m
      else (k', dadd x d) :: r
  end.
(* HW:293-302 *)
Definition best_entry (m : list (N * sf)) (v0 : N) : N :=
  fst (fold_left (fun '(bv, bs) '(k, x) => if fgt x bs then (k, x) else (bv, bs)) m (v0, d0)).

(* HW:264-312 performWeightedVoting; a NaN key breaks std::map's ordering requirement *)
Definition hw_vote (s : hw) (ok0 ok1 ok2 : bool) : outcome (N * hw) :=
  let v0 := hv (h0 s) in let v1 := hv (h1 s) in let v2 := hv (h2 s) in
  if eqT t v0 v1 && eqT t v1 v2 then
    Ret (v0, mkhw (updateHealthScore true (h0 s)) (updateHealthScore true (h1 s)) (updateHealthScore true (h2 s)))
  else if (ok0 && is_nan t v0) || (ok1 && is_nan t v1) || (ok2 && is_nan t v2) then UB UB_comparator
  else
    let total := d0 in
    let total := if ok0 then dadd total (hh (h0 s)) else total in
    let total := if ok1 then dadd total (hh (h1 s)) else total in
    let total := if ok2 then dadd total (hh (h2 s)) else total in
    let m : list (N * sf) := [] in
    let m := if ok0 then map_add m v0 (ddiv (hh (h0 s)) total) else m in
    let m := if ok1 then map_add m v1 (ddiv (hh (h1 s)) total) else m in
    let m := if ok2 then map_add m v2 (ddiv (hh (h2 s)) total) else m in
    let best := best_entry m v0 in
    let upd (ok : bool) c := if ok then updateHealthScore (eqT t (hv c) best) c else c in
    Ret (best, mkhw (upd ok0 (h0 s)) (upd ok1 (h1 s)) (upd ok2 (h2 s))).

(* HW:77-82 *)
Definition best_index (a b c : sf) : nat :=
  let best := 0%nat in let bh := a in
  let '(best, bh) := if fgt b bh then (1%nat, b) else (best, bh) in
  if fgt c bh then 2%nat else best.

(* HW:45-88 get *)
Definition hw_get (s : hw) : outcome (N * hw) :=
  let ok0 := hw_ok (h0 s) in let ok1 := hw_ok (h1 s) in let ok2 := hw_ok (h2 s) in
  let pen (ok : bool) c := if ok then c else updateHealthScore false c in
  let s1 := mkhw (pen ok0 (h0 s)) (pen ok1 (h1 s)) (pen ok2 (h2 s)) in
  if 2 <=? b2n ok0 + b2n ok1 + b2n ok2 then hw_vote s1 ok0 ok1 ok2
  else if ok0 then Ret (hv (h0 s1), s1)
  else if ok1 then Ret (hv (h1 s1), s1)
  else if ok2 then Ret (hv (h2 s1), s1)
  else
    let i := best_index (hh (h0 s1)) (hh (h1 s1)) (hh (h2 s1)) in
    Ret (hv (hsel s1 i), hupd s1 i (fun c => mkh (hv c) (hk c) (hh c) (herr c + 1) (hist c))).

(* HW:126-135 repair *)
Definition hw_repair (s : hw) : outcome hw :=
  obind (hw_get s) (fun '(v, s') => Ret (mkhw (hput v (h0 s')) (hput v (h1 s')) (hput v (h2 s')))).
(* HW:140-156 regenerateCopies *)
Definition hw_regenerate (s : hw) : hw :=
  let v := hv (hsel s (best_index (hh (h0 s)) (hh (h1 s)) (hh (h2 s)))) in
  mkhw (hput v (h0 s)) (hput v (h1 s)) (hput v (h2 s)).
(** upset: value and checksum of one copy *)
Definition hw_corrupt (s : hw) (i : nat) (v k : N) : hw :=
  hupd s i (fun c => mkh v k (hh c) (herr c) (hist c)).
End HW.

(** *** tmr::EnhancedTMR *)
(* TE:397-423 copies_, crcs_, health_scores_ *)
Record ecell := mke { ev : N; ek : N; eh : sf }.
(* the other members; [cb] = None: no callback; Some r: a callback that calls back into the object
   iff [r]; [cblog] records its arguments (likely_correct, faulty), newest first *)
Record te := mkte {
  e0 : ecell; e1 : ecell; e2 : ecell;
  use_hw : bool; cb : option bool; cblog : list (N * N);
  sets : N; gets : N; crcfails : N; disagreements : N;
  last_time : Z; interval : Z; locked : bool }.
Definition with_cells (s : te) (a b c : ecell) : te :=
  mkte a b c (use_hw s) (cb s) (cblog s) (sets s) (gets s) (crcfails s) (disagreements s) (last_time s) (interval s) (locked s).
Definition with_lock (s : te) (l : bool) : te :=
  mkte (e0 s) (e1 s) (e2 s) (use_hw s) (cb s) (cblog s) (sets s) (gets s) (crcfails s) (disagreements s) (last_time s) (interval s) l.
(* std::lock_guard<std::mutex> lock(mutex_): locking a mutex this thread owns is undefined *)
Definition guarded {A} (s : te) (body : te -> outcome (A * te)) : outcome (A * te) :=
  if locked s then UB UB_relock
  else obind (body (with_lock s true)) (fun '(a, s') => Ret (a, with_lock s' false)).

Section TE.
Variable t : aty.
Definition te_crc (v : N) : N := CRC32_calculate (bytes_of (N.to_nat (sizeof t)) v).
Definition esel (s : te) (i : nat) : ecell := match i with 0%nat => e0 s | 1%nat => e1 s | _ => e2 s end.
Definition health (c : ecell) (h : sf) : ecell := mke (ev c) (ek c) h.

(* TE:131-152 constructor *)
Definition te_construct (v : N) (callback : option bool) (now : Z) : te :=
  let c := mke v (te_crc v) d1 in
  mkte c c c true callback [] 0 0 0 0 now 5000 false.

(* TE:442-466 verifyCRCs: one copy; the callback runs with the mutex held *)
Definition verify_copy (i : nat) (p : bool * te) : outcome (bool * te) :=
  let '(valid, s) := p in
  let c := esel s i in
  if te_crc (ev c) =? ek c then Ret (valid, s)
  else
    let c' := health c (fmax d01 (dsub (eh c) d03)) in
    let s1 := match i with
              | 0%nat => with_cells s c' (e1 s) (e2 s)
              | 1%nat => with_cells s (e0 s) c' (e2 s)
              | _ => with_cells s (e0 s) (e1 s) c' end in
    let likely := if (i =? 0)%nat then ev (e1 s) else ev (e0 s) in
    let log := match cb s with None => cblog s | Some _ => (likely, ev c) :: cblog s end in
    let s2 := mkte (e0 s1) (e1 s1) (e2 s1) (use_hw s) (cb s) log (sets s) (gets s)
                   (crcfails s + 1) (disagreements s) (last_time s) (interval s) (locked s) in
    match cb s with
    | Some true => UB UB_relock                      (* the callback calls get(): mutex_ is held *)
    | _ => Ret (false, s2)
    end.
Definition verifyCRCs (s : te) : outcome (bool * te) :=
  obind (verify_copy 0 (true, s)) (fun p => obind (verify_copy 1 p) (verify_copy 2)).

Definition up (r : sf) (c : ecell) : ecell := health c (fmin d1 (dadd (eh c) r)).
Definition down (c : ecell) : ecell := health c (fmax d01 (dsub (eh c) d02)).
(* TE:474-560 performWeightedVoting; [draw] is the value of the uniform_real_distribution *)
Definition te_vote (s : te) (draw : sf) : N * te :=
  let a := e0 s in let b := e1 s in let c := e2 s in
  let v0 := ev a in let v1 := ev b in let v2 := ev c in
  if eqT t v0 v1 && eqT t v1 v2 then (v0, with_cells s (up d005 a) (up d005 b) (up d005 c))
  else
    let s := mkte a b c (use_hw s) (cb s) (cblog s) (sets s) (gets s) (crcfails s) (disagreements s + 1)
                  (last_time s) (interval s) (locked s) in
    if use_hw s then
      if eqT t v0 v1 then (v0, with_cells s (up d005 a) (up d005 b) (down c))
      else if eqT t v0 v2 then (v0, with_cells s (up d005 a) (down b) (up d005 c))
      else if eqT t v1 v2 then (v1, with_cells s (down a) (up d005 b) (up d005 c))
      else
        let total := dadd (dadd (dadd d0 (eh a)) (eh b)) (eh c) in
        if fle total d0 then (v0, s)
        else
          let cum := dadd d0 (eh a) in
          if fle draw cum then (v0, with_cells s (up d002 a) b c)
          else let cum := dadd cum (eh b) in
          if fle draw cum then (v1, with_cells s a (up d002 b) c)
          else let cum := dadd cum (eh c) in
          if fle draw cum then (v2, with_cells s a b (up d002 c))
          else (v0, s)
    else if eqT t v0 v1 then (v0, s) else if eqT t v0 v2 then (v0, s)
    else if eqT t v1 v2 then (v1, s) else (v0, s).

(* TE:159-175 get *)
Definition te_get (now : Z) (draw : sf) (s : te) : outcome (N * te) :=
  guarded s (fun s =>
    obind (if (interval s <=? now - last_time s)%Z
           then obind (verifyCRCs s) (fun '(_, s1) => Ret (mkte (e0 s1) (e1 s1) (e2 s1) (use_hw s1) (cb s1) (cblog s1)
                   (sets s1) (gets s1) (crcfails s1) (disagreements s1) now (interval s1) (locked s1)))
           else Ret s)
      (fun s1 => let '(v, s2) := te_vote s1 draw in
        Ret (v, mkte (e0 s2) (e1 s2) (e2 s2) (use_hw s2) (cb s2) (cblog s2)
                   (sets s2) (gets s2 + 1) (crcfails s2) (disagreements s2) (last_time s2) (interval s2) (locked s2)))).
(* TE:195-205 set *)
Definition te_set (v : N) (s : te) : outcome (unit * te) :=
  guarded s (fun s => let c := mke v (te_crc v) d1 in
    Ret (tt, mkte c c c (use_hw s) (cb s) (cblog s) (sets s + 1) (gets s) (crcfails s) (disagreements s)
                  (last_time s) (interval s) (locked s))).
(* TE:237-247 setRawCopy *)
Definition te_setRaw (i : nat) (v : N) (s : te) : outcome (unit * te) :=
  guarded s (fun s =>
    let f c := mke v (te_crc v) (dmul (eh c) d09) in
    Ret (tt, match i with
             | 0%nat => with_cells s (f (e0 s)) (e1 s) (e2 s)
             | 1%nat => with_cells s (e0 s) (f (e1 s)) (e2 s)
             | 2%nat => with_cells s (e0 s) (e1 s) (f (e2 s))
             | _ => s end)).
(* TE:254-257 verify *)
Definition te_verify (s : te) : outcome (bool * te) := guarded s verifyCRCs.
(* TE:308-319 resetErrorStats *)
Definition te_reset (s : te) : outcome (unit * te) :=
  guarded s (fun s => Ret (tt, mkte (health (e0 s) d1) (health (e1 s) d1) (health (e2 s) d1)
     (use_hw s) (cb s) (cblog s) 0 0 0 0 (last_time s) (interval s) (locked s))).
(* TE:290-293, 326-329 setVerificationInterval, enableHealthWeightedVoting *)
Definition te_config (iv : Z) (hwv : bool) (s : te) : outcome (unit * te) :=
  guarded s (fun s => Ret (tt, mkte (e0 s) (e1 s) (e2 s) hwv (cb s) (cblog s) (sets s) (gets s)
     (crcfails s) (disagreements s) (last_time s) iv (locked s))).
(* TE:338-370 regenerateCopies *)
Definition te_regenerate (s : te) : outcome (bool * te) :=
  guarded s (fun s =>
    let i := best_index (eh (e0 s)) (eh (e1 s)) (eh (e2 s)) in
    let best := esel s i in
    if flt (eh best) d06 then Ret (false, s)
    else
      let v := ev best in
      let f (j : nat) c := mke v (te_crc v) (if (j =? i)%nat then eh c else d09) in
      Ret (true, with_cells s (f 0%nat (e0 s)) (f 1%nat (e1 s)) (f 2%nat (e2 s)))).
(* TE:378-394 clone: calls get() while holding the mutex *)
Definition te_clone (now : Z) (draw : sf) (s : te) : outcome (te * te) :=
  guarded s (fun s =>
    obind (te_get now draw s) (fun '(v, s1) =>
      let r := te_construct v (cb s1) now in
      Ret (mkte (health (e0 r) (eh (e0 s1))) (health (e1 r) (eh (e1 s1))) (health (e2 r) (eh (e2 s1)))
                (use_hw s1) (cb r) (cblog r) 0 0 0 0 (last_time r) (interval s1) false, s1))).
(** upset: value and stored CRC of one copy *)
Definition te_corrupt (i : nat) (v k : N) (s : te) : te :=
  let f c := mke v k (eh c) in
  match i with
  | 0%nat => with_cells s (f (e0 s)) (e1 s) (e2 s)
  | 1%nat => with_cells s (e0 s) (f (e1 s)) (e2 s)
  | _ => with_cells s (e0 s) (e1 s) (f (e2 s)) end.
End TE.
