(** C35-C37, C67: fixed containers and the static allocator. *)
From Coq Require Import List NArith Arith Bool.
Import ListNotations.
From Verif Require Import Outcome Words Containers_Model Containers_Spec Containers_Proofs.

(** C35: every history whose v[i] accesses respect i < size gets the list's answers, without
    undefined behaviour *)
Theorem C35_fixed_vector_is_bounded_list : forall (T : Type) (cap : nat) (os : list (vop T)) (xs : list (vres T)),
  list_run cap [] os = Some xs -> vec_run cap (fv_new cap) os = Ret xs.
Proof. exact (@fixed_vector_refines). Qed.
Print Assumptions C35_fixed_vector_is_bounded_list.
Example C35_nonvacuous :
  list_run 2 [] [VPush 7; VPush 8; VPush 9; VAssign 0 5; VAt 0; VAt 2; VClear; VEmpty; VPush 3; VAt 0] =
  Some [RErr SUCCESS; RErr SUCCESS; RErr FULL; RUnit; RVal 5; RErr OUT_OF_BOUNDS; RUnit; RBool true; RErr SUCCESS; RVal 3].
Proof. reflexivity. Qed.

(** C36: every history gets the finite map's answers; the map's cardinality is the number of its
    keys and never exceeds the capacity *)
Theorem C36_fixed_map_is_bounded_map : forall (K V : Type) (keq : K -> K -> bool) (cap : nat),
  (forall x y, keq x y = true <-> x = y) -> forall (os : list (mop K V)),
  map_run keq cap (fm_new cap) os = Ret (snd (pmap_run keq cap pempty os)) /\
  card_ok (fst (pmap_run keq cap pempty os)) /\ (p_card (fst (pmap_run keq cap pempty os)) <= cap)%nat.
Proof. exact (fun K V keq cap H => @fixed_map_refines K V keq cap H). Qed.
Print Assumptions C36_fixed_map_is_bounded_map.
Example C36_nonvacuous :
  snd (pmap_run Nat.eqb 2 pempty [MInsert 1 10; MInsert 2 20; MInsert 3 30; MInsert 1 11; MErase 1; MFind 1; MFind 2; MErase 9; MInsert 3 33; MFind 3; MSize]) =
  [RErr SUCCESS; RErr SUCCESS; RErr FULL; RErr SUCCESS; RErr SUCCESS; RErr NOT_FOUND; RVal 20; RErr NOT_FOUND; RErr SUCCESS; RVal 33; RNat 2] /\
  (forall x y, Nat.eqb x y = true <-> x = y).
Proof. split; [reflexivity|exact Nat.eqb_eq]. Qed.

Local Open Scope N_scope.

(** C37: requests of n >= 1 objects with Capacity + alignof + n*sizeof < 2^64, storage aligned for T *)
Theorem C37_blocks_safe_partial : forall cap sz al base k, al = 2 ^ k -> k < 64 -> 0 < sz -> base mod al = 0 ->
  forall os, Forall (fun o => match o with AAlloc n => 1 <= n /\ cap + al + n * sz < 2 ^ 64 | _ => True end) os ->
  exists s bs, alloc_run cap sz al base sa_new [] os = Ret (s, bs) /\
    Forall (fun b => inside base cap b /\ fst b mod al = 0) bs /\ pairwise disjoint bs.
Proof. exact (fun cap sz al base k Ha Hk => allocator_safe cap sz al base k Ha Hk). Qed.
Print Assumptions C37_blocks_safe_partial.

(** with next_free = [next], the block starts at the next multiple of alignof; bad_alloc iff it does not fit *)
Theorem C37_throws_iff_full_partial : forall cap sz al base k, al = 2 ^ k -> k < 64 -> forall next n, 0 < sz -> next <= cap ->
  1 <= n /\ cap + al + n * sz < 2 ^ 64 ->
  let a := al * ((next + al - 1) / al) in
  (a + n * sz <= cap /\ sa_allocate cap sz al base (Some next) n = Ret (Some (a + n * sz), base + a)) \/
  (cap < a + n * sz /\ sa_allocate cap sz al base (Some next) n = Throw E_bad_alloc).
Proof. exact allocate_cases. Qed.
Print Assumptions C37_throws_iff_full_partial.
Example C37_nonvacuous : exists s,
  alloc_run 64 4 4 1024 sa_new [] [AAlloc 3; ADealloc 1024 3; AAlloc 20; AAlloc 5] = Ret (s, [(1036, 20); (1024, 12)]).
Proof. eexists. reflexivity. Qed.

(** a request whose byte size wraps is granted although it exceeds the pool *)
Theorem C37_size_overflow_refuted : forall cap sz al base k, al = 2 ^ k -> k < 64 -> 2 <= sz -> sz <= cap -> cap < 2 ^ 64 ->
  exists n next p, n < 2 ^ 64 /\ sa_allocate cap sz al base sa_new n = Ret (Some next, p) /\
    p = base /\ next < sz /\ 2 ^ 64 <= n * sz.
Proof. exact allocate_wraps. Qed.
Print Assumptions C37_size_overflow_refuted.

(** over-aligned T: storage_ is only aligned to max_align_t, so the first block can be misaligned *)
Theorem C37_overaligned_refuted : forall cap sz al base k, al = 2 ^ k -> k < 64 -> 0 < sz -> cap + al + sz < 2 ^ 64 -> sz <= cap ->
  exists s, sa_allocate cap sz al base sa_new 1 = Ret (s, base).
Proof. exact allocate_misaligned. Qed.
Print Assumptions C37_overaligned_refuted.
Example C37_overaligned_witness : 48 mod 16 = 0 /\ 48 mod 32 <> 0 /\ exists s, sa_allocate 64 32 32 48 sa_new 1 = Ret (s, 48).
Proof. split; [reflexivity|]. split; [discriminate|]. eexists. reflexivity. Qed.

(** allocate(0) on a full pool subscripts storage_ out of range *)
Theorem C37_zero_at_capacity_refuted : forall cap sz al base k, al = 2 ^ k -> k < 64 -> cap mod al = 0 -> cap + al < 2 ^ 64 ->
  sa_allocate cap sz al base (Some cap) 0 = UB UB_array_index.
Proof. exact allocate_zero_full. Qed.
Print Assumptions C37_zero_at_capacity_refuted.

(** C67: a converted allocator cannot be used before reset(); equal allocators do not share memory *)
Theorem C67_converted_allocator_refuted : forall cap sz al base (other : alloc_state) n,
  sa_allocate cap sz al base (sa_converted other) n = UB UB_uninit.
Proof. exact (fun _ _ _ _ _ _ => eq_refl). Qed.
Print Assumptions C67_converted_allocator_refuted.

Theorem C67_equal_but_not_interchangeable_refuted : forall cap sz al base1 base2 k n s1 p,
  al = 2 ^ k -> k < 64 -> 0 < sz -> 1 <= n -> cap + al + n * sz < 2 ^ 64 -> base1 + cap <= base2 ->
  sa_allocate cap sz al base1 sa_new n = Ret (s1, p) ->
  sa_equal cap s1 base1 cap sa_new base2 = true /\ ~ inside base2 cap (p, n * sz).
Proof.
  intros cap sz al base1 base2 k n s1 p Ha Hk Hs Hn Hc Hb E.
  exact (conj (N.eqb_refl cap) (fun I => equal_not_shared cap sz al base1 base2 k n s1 p Ha Hk Hs Hn Hc Hb E I)).
Qed.
Print Assumptions C67_equal_but_not_interchangeable_refuted.

(** reset() makes any allocator, also a converted one, usable again as if new *)
Theorem C67_reset_usable_partial : forall cap sz al base (s : alloc_state) n,
  sa_allocate cap sz al base (sa_reset s) n = sa_allocate cap sz al base sa_new n.
Proof. exact (fun _ _ _ _ _ _ => eq_refl). Qed.
Print Assumptions C67_reset_usable_partial.
Example C67_nonvacuous : exists s1, sa_allocate 64 4 4 1024 sa_new 3 = Ret (s1, 1024) /\ sa_equal 64 s1 1024 64 sa_new 2048 = true.
Proof. eexists. split; reflexivity. Qed.
