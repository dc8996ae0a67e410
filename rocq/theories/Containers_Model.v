(** Fixed containers and the static pool allocator.

    - core::memory::FixedVector, FixedMap   include/rad_ml/core/memory/fixed_containers.hpp (FC)
    - core::memory::StaticAllocator         include/rad_ml/core/memory/static_allocator.hpp (SA)

    std::array storage is a list of [option]s: [None] is an element that was never written
    (the containers leave data_ default-initialised).  Subscripts outside the array and reads of
    unwritten elements are undefined behaviour.  Array indices and size_ are [nat] (they never
    exceed Capacity, a size_t); the allocator's arithmetic is on 64-bit words ([N] mod 2^64). *)
From Coq Require Import List NArith Arith Bool.
Import ListNotations.
From Verif Require Import Outcome Words.

(* FC:24-30 *)
Inductive ContainerError := SUCCESS | FULL | OUT_OF_BOUNDS | NOT_FOUND.

(* std::array<T, Cap>::operator[] on the right- and left-hand side *)
Definition aread {A} (d : list (option A)) (i : nat) : outcome A :=
  match nth_error d i with
  | None => UB UB_array_index
  | Some None => UB UB_uninit
  | Some (Some x) => Ret x
  end.
Fixpoint aset {A} (d : list (option A)) (i : nat) (x : A) : list (option A) :=
  match d, i with
  | [], _ => []
  | _ :: r, O => Some x :: r
  | y :: r, S j => y :: aset r j x
  end.
Definition awrite {A} (d : list (option A)) (i : nat) (x : A) : outcome (list (option A)) :=
  if (i <? length d)%nat then Ret (aset d i x) else UB UB_array_index.

Section Vec.
  Context {T : Type} (cap : nat).

  (* FC:134-136 *)
  Record fvec := mkv { v_data : list (option T); v_size : nat }.

  (* FC:47 *)
  Definition fv_new : fvec := mkv (repeat None cap) 0.

  (* FC:55-62 *)
  Definition fv_push (s : fvec) (x : T) : outcome (fvec * ContainerError) :=
    if (cap <=? v_size s)%nat then Ret (s, FULL)
    else obind (awrite (v_data s) (v_size s) x) (fun d => Ret (mkv d (S (v_size s)), SUCCESS)).

  (* FC:71-78; the out parameter is [Some] when it is written *)
  Definition fv_at (s : fvec) (i : nat) : outcome (ContainerError * option T) :=
    if (v_size s <=? i)%nat then Ret (OUT_OF_BOUNDS, None)
    else obind (aread (v_data s) i) (fun x => Ret (SUCCESS, Some x)).

  (* FC:86-98 operator[], read and assigned through *)
  Definition fv_get (s : fvec) (i : nat) : outcome T := aread (v_data s) i.
  Definition fv_put (s : fvec) (i : nat) (x : T) : outcome fvec :=
    obind (awrite (v_data s) i x) (fun d => Ret (mkv d (v_size s))).

  (* FC:105-107, 121-123, 130-132 *)
  Definition fv_size (s : fvec) : nat := v_size s.
  Definition fv_clear (s : fvec) : fvec := mkv (v_data s) 0.
  Definition fv_empty (s : fvec) : bool := (v_size s =? 0)%nat.
End Vec.
Arguments fvec T : clear implicits.

Section Map.
  Context {K V : Type} (keq : K -> K -> bool) (cap : nat).

  (* FC:251-254 *)
  Record fmap := mkm { m_keys : list (option K); m_vals : list (option V); m_size : nat }.

  (* FC:155 *)
  Definition fm_new : fmap := mkm (repeat None cap) (repeat None cap) 0.

  (* FC:166-167, 193-194, 210-211: the first index i < size_ with keys_[i] == key *)
  Fixpoint fm_search (n i : nat) (s : fmap) (k : K) : outcome (option nat) :=
    match n with
    | O => Ret None
    | S n' => obind (aread (m_keys s) i) (fun k' =>
                if keq k' k then Ret (Some i) else fm_search n' (S i) s k)
    end.

  (* FC:164-183 *)
  Definition fm_insert (s : fmap) (k : K) (v : V) : outcome (fmap * ContainerError) :=
    obind (fm_search (m_size s) 0 s k) (fun r =>
      match r with
      | Some i => obind (awrite (m_vals s) i v) (fun vs => Ret (mkm (m_keys s) vs (m_size s), SUCCESS))
      | None =>
          if (cap <=? m_size s)%nat then Ret (s, FULL)
          else obind (awrite (m_keys s) (m_size s) k) (fun ks =>
               obind (awrite (m_vals s) (m_size s) v) (fun vs =>
                 Ret (mkm ks vs (S (m_size s)), SUCCESS)))
      end).

  (* FC:192-201 *)
  Definition fm_find (s : fmap) (k : K) : outcome (ContainerError * option V) :=
    obind (fm_search (m_size s) 0 s k) (fun r =>
      match r with
      | Some i => obind (aread (m_vals s) i) (fun v => Ret (SUCCESS, Some v))
      | None => Ret (NOT_FOUND, None)
      end).

  (* FC:209-224 *)
  Definition fm_erase (s : fmap) (k : K) : outcome (fmap * ContainerError) :=
    obind (fm_search (m_size s) 0 s k) (fun r =>
      match r with
      | Some i =>
          let last := (m_size s - 1)%nat in
          if (i <? last)%nat then
            obind (aread (m_keys s) last) (fun lk =>
            obind (awrite (m_keys s) i lk) (fun ks =>
            obind (aread (m_vals s) last) (fun lv =>
            obind (awrite (m_vals s) i lv) (fun vs => Ret (mkm ks vs last, SUCCESS)))))
          else Ret (mkm (m_keys s) (m_vals s) last, SUCCESS)
      | None => Ret (s, NOT_FOUND)
      end).

  (* FC:231-233, 247-249 *)
  Definition fm_size (s : fmap) : nat := m_size s.
  Definition fm_clear (s : fmap) : fmap := mkm (m_keys s) (m_vals s) 0.
End Map.
Arguments fmap K V : clear implicits.

Local Open Scope N_scope.

Section Alloc.
  (* SA:20-21: Capacity, sizeof(T), alignof(T); SA:87: address of storage_ *)
  Context (cap sz al base : N).

  (* SA:88 next_free_; [None] = indeterminate (SA:40-41, the converting constructor leaves it so) *)
  Definition alloc_state := option N.
  (* SA:37, 40-41, 64-66 *)
  Definition sa_new : alloc_state := Some 0.
  Definition sa_converted (other : alloc_state) : alloc_state := None.
  Definition sa_reset (s : alloc_state) : alloc_state := Some 0.

  (* 64-bit size_t operators *)
  Definition addw (x y : N) : N := wrap 64 (x + y).
  Definition mulw (x y : N) : N := wrap 64 (x * y).
  Definition notw (x : N) : N := N.lxor (wrap 64 x) (N.ones 64).
  Definition subw (x y : N) : N := wrap 64 (wrap 64 x + 2 ^ 64 - wrap 64 y).

  (* SA:45-46 *)
  Definition sa_aligned (next : N) : N := N.land (subw (addw next al) 1) (notw (subw al 1)).

  (* SA:44-55 allocate; result is the address of the block.  &storage_[i] is the subscript of a
     std::array, undefined for i >= Capacity. *)
  Definition sa_allocate (s : alloc_state) (n : N) : outcome (alloc_state * N) :=
    match s with
    | None => UB UB_uninit
    | Some next =>
        let a := sa_aligned next in
        if cap <? addw a (mulw n sz) then Throw E_bad_alloc
        else if cap <=? a then UB UB_array_index
        else Ret (Some (addw a (mulw n sz)), base + a)
    end.

  (* SA:58-61: no-op *)
  Definition sa_deallocate (s : alloc_state) (p n : N) : alloc_state := s.

  (* SA:69-71 *)
  Definition sa_max_size : N := cap / sz.
End Alloc.

(* SA:93-95 operator==: compares the capacities only *)
Definition sa_equal (cap1 : N) (s1 : alloc_state) (base1 : N) (cap2 : N) (s2 : alloc_state) (base2 : N) : bool :=
  cap1 =? cap2.
