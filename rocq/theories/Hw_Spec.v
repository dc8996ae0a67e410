(** Vocabulary of the properties of the hardware acceleration classes, independent of how the model computes. *)
From Coq Require Import String List NArith ZArith Bool Reals SpecFloat.
Import ListNotations.
From Flocq.IEEE754 Require Import BinarySingleNaN.
From Verif Require Import Outcome Words Floats FloatsR FloatsS HealthFloat Bits_Model PNN_Model Hw_Model.
Local Open Scope R_scope.

(** what the standard promises about std::exp(double): a double that is not negative; NaN for NaN; it never decreases; exp(0) = 1 *)
Definition is_double (x : sf) : Prop := valid_binary 53 1024 x = true.
Definition is_nan (x : sf) : Prop := x = S754_nan.
Definition exp_ok (f : sf -> sf) : Prop :=
  (forall x, is_double x -> ~ is_nan x -> is_double (f x) /\ fle (S754_zero false) (f x) = true) /\ f S754_nan = S754_nan.
Definition exp_mono (f : sf -> sf) : Prop := forall x y, is_double x -> is_double y -> fle x y = true -> fle (f x) (f y) = true.
Definition exp_one (f : sf -> sf) : Prop := forall s, f (S754_zero s) = dofZ 1.

(** how strong a hardware TMR approach and a scrubbing strategy are meant to be *)
Definition tmr_rank (t : htmr) : nat := match t with NO_TMR => 0 | BLOCK_LEVEL => 1 | REGISTER_LEVEL => 2 | COMPLETE => 3 end.
Definition scrub_rank (s : scrub) : nat := match s with NO_SCRUB => 0 | TRIGGERED => 1 | PERIODIC => 2 | CONTINUOUS => 3 | ADAPTIVE => 4 end.
(** d has the same type as c and at least its protection *)
Definition at_least (d c : acfg) : Prop :=
  a_type d = a_type c /\ (a_ecc c = true -> a_ecc d = true) /\ (tmr_rank (a_tmr c) <= tmr_rank (a_tmr d))%nat /\ (scrub_rank (a_scrub c) <= scrub_rank (a_scrub d))%nat.

(** ** histories of calls *)
Inductive acall := AInit | AExec (input buffer : list N) | AScrub | AUpdate (c : acfg).
Definition acall_step (a : accel) (k : acall) : accel :=
  match k with
  | AInit | AScrub => a
  | AExec i b => fst (fst (base_run a i b))
  | AUpdate c => fst (update_config a c)
  end.
Definition acall_run (a : accel) (h : list acall) : accel := fold_left acall_step h a.
(** the configuration a user expects to be in force *)
Definition last_config (c0 : acfg) (h : list acall) : acfg :=
  fold_left (fun c k => match k with AUpdate c' => c' | _ => c end) h c0.

Inductive icall := IInit | IExec (input buffer : list N) | ISoft (b : bool) | IUpdate (c : acfg).
Definition icall_step (o : outcome integ) (k : icall) : outcome integ :=
  obind o (fun i =>
  match k with
  | IInit => Ret (fst (integ_initialize i))
  | IExec x b => obind (integ_execute i x b) (fun r => Ret (fst (fst r)))
  | ISoft b => Ret (set_software_tmr i b)
  | IUpdate c => Ret (integ_update_config i c)
  end).
Definition icall_run (i : integ) (h : list icall) : outcome integ := fold_left icall_step h (Ret i).
(** what decides whether software TMR is on: the last set_software_tmr or the last initialize under a COMPLETE configuration *)
Definition soft_step (p : acfg * bool) (k : icall) : acfg * bool :=
  match k with
  | ISoft b => (fst p, b)
  | IInit => (fst p, match a_tmr (fst p) with COMPLETE => false | _ => snd p end)
  | IUpdate c => (c, snd p)
  | IExec _ _ => p
  end.
Definition soft_after (c : acfg) (h : list icall) : acfg * bool := fold_left soft_step h (with_type NO_ACCEL c, true).

(** ** voting *)
(** x and y are equal as C++ compares floats (so NaN is equal to nothing and the zeros are equal) *)
Definition same_float (x y : N) : Prop := feqb (sf32 x) (sf32 y) = true.
Definition same_floats (l m : list N) : Prop := Forall2 same_float l m.
Definition not_nan (x : N) : Prop := sf32 x <> S754_nan.
(** the number a pattern stands for *)
Definition num (x : N) : Rdefinitions.R := R (sf32 x).
Definition finite32 (x : N) : Prop := fin (sf32 x) = true.
