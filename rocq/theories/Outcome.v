(** Outcomes of running a modelled C++ function.  Undefined behaviour, thrown
    exceptions and non-termination are separate from every normal result. *)
From Coq Require Import List ZArith NArith Lia Bool.
Import ListNotations.

Inductive ub_reason :=
| UB_shift_amount        (* shift by >= width of the promoted left operand *)
| UB_array_index         (* subscript outside a std::array / C array / std::vector *)
| UB_signed_overflow     (* signed integer overflow *)
| UB_div_zero            (* integer division (or %) by zero *)
| UB_deref_end           (* dereferencing a past-the-end iterator *)
| UB_relock              (* locking a std::mutex already owned by this thread *)
| UB_float_to_int        (* float -> integer conversion out of range *)
| UB_comparator          (* ordering of an associative container is not a strict weak order *)
| UB_uninit              (* reading an indeterminate value *)
| UB_shift_negative      (* left shift of a negative value (until C++20) *)
| UB_bad_free            (* std::free of a pointer malloc did not return, or twice *)
| UB_bad_iterator        (* using an invalidated or foreign iterator / precondition of a std algorithm violated *)
| UB_no_return           (* flowing off the end of a value-returning function *)
| UB_out_of_bounds.      (* reading or writing outside an object *)

Inductive exn := E_domain_error | E_bad_alloc | E_out_of_range | E_runtime_error | E_invalid_argument | E_overflow_error | E_length_error.

Inductive outcome (A : Type) :=
| Ret (a : A)
| UB (r : ub_reason)
| Throw (e : exn)
| OutOfFuel.
Arguments Ret {A} a.
Arguments UB {A} r.
Arguments Throw {A} e.
Arguments OutOfFuel {A}.

Definition obind {A B} (o : outcome A) (f : A -> outcome B) : outcome B :=
  match o with
  | Ret a => f a
  | UB r => UB r
  | Throw e => Throw e
  | OutOfFuel => OutOfFuel
  end.

Declare Scope outcome_scope.
Notation "x <- e ;; k" := (obind e (fun x => k))
  (at level 61, e at next level, right associativity) : outcome_scope.

Definition is_UB {A} (o : outcome A) : Prop := exists r, o = UB r.
Definition completes {A} (o : outcome A) : Prop := exists a, o = Ret a.

Lemma obind_ret {A B} (o : outcome A) (f : A -> outcome B) b :
  obind o f = Ret b -> exists a, o = Ret a /\ f a = Ret b.
Proof. destruct o; simpl; intros H; try discriminate. eauto. Qed.
