(** C01-C06: property theorems for the plain redundancy containers. *)
From Coq Require Import List Bool Arith NArith Permutation.
Import ListNotations.
From Verif Require Import Words Arith SimpleTMR_Model SimpleTMR_Spec SimpleTMR_Proofs FloatTMR_Proofs.

(** C01. Any single copy [i] overwritten by any [w] is masked. *)
Theorem C01_core_masks_one_copy : forall (T : Type) (eqb : T -> T -> bool), lawful eqb ->
  forall (s : copies3 T) (v : T) (i : nat) (w : T),
  core_get eqb (write3 (core_set s v) i w) = v.
Proof. intros T eqb Hl s v i w. exact (core_masks eqb Hl v i w). Qed.
Print Assumptions C01_core_masks_one_copy.

Theorem C01_basic_masks_one_copy : forall (T : Type) (eqb : T -> T -> bool), lawful eqb ->
  forall (s : copies3 T) (v : T) (i : nat) (w : T),
  basic_get eqb (write3 (basic_set s v) i w) = v.
Proof. intros T eqb Hl s v i w. exact (basic_masks eqb Hl v i w). Qed.
Print Assumptions C01_basic_masks_one_copy.

Theorem C01_tmr_masks_one_copy : forall (T : Type) (eqb : T -> T -> bool), lawful eqb ->
  forall (m : tmr) (v : T) (i : nat) (w : T),
  snd (tmr_get eqb (tmr_setRawCopy (tmr_set m v) i w)) = v.
Proof. exact @tmr_masks. Qed.
Print Assumptions C01_tmr_masks_one_copy.

Example C01_nonvacuous : lawful N.eqb /\
  core_get N.eqb (write3 (core_set (mk3 7 8 9) 5) 0 200)%N = 5%N /\
  basic_get N.eqb (write3 (basic_set (mk3 7 8 9) 5) 2 200)%N = 5%N.
Proof. split; [exact N.eqb_eq|split; reflexivity]. Qed.

(** C02. Histories of set / upset / repair with at most one copy hit between
    consecutive set/repair calls. *)
Theorem C02_core_history : forall (T : Type) (eqb : T -> T -> bool), lawful eqb ->
  forall (v : T) (h : list (op T)), spaced None h = true ->
  core_get eqb (fold_left (core_hstep eqb) h (core_new v)) = last_set v h /\
  core_repair eqb (fold_left (core_hstep eqb) h (core_new v)) =
    mk3 (last_set v h) (last_set v h) (last_set v h).
Proof. exact @core_hist. Qed.
Print Assumptions C02_core_history.

Theorem C02_basic_history : forall (T : Type) (eqb : T -> T -> bool), lawful eqb ->
  forall (v : T) (h : list (op T)), spaced None h = true ->
  basic_get eqb (fold_left (basic_hstep eqb) h (basic_new v)) = last_set v h /\
  basic_repair eqb (fold_left (basic_hstep eqb) h (basic_new v)) =
    mk3 (last_set v h) (last_set v h) (last_set v h).
Proof. exact @basic_hist. Qed.
Print Assumptions C02_basic_history.

Theorem C02_basic_hasErrors : forall (T : Type) (eqb : T -> T -> bool), lawful eqb ->
  forall s : copies3 T,
  basic_hasErrors eqb s = true <-> ~ (c0 s = c1 s /\ c1 s = c2 s).
Proof. exact @basic_hasErrors_iff. Qed.
Print Assumptions C02_basic_hasErrors.

Example C02_nonvacuous :
  spaced None [Upset 1 9; Upset 1 8; Repair; Upset 0 3; Repair; Set_ 6; Upset 2 1] = true /\
  core_get Nat.eqb (fold_left (core_hstep Nat.eqb)
    [Upset 1 9; Upset 1 8; Repair; Upset 0 3; Repair; Set_ 6; Upset 2 1] (core_new 4)) = 6.
Proof. split; reflexivity. Qed.

(** C03. Statistics and callbacks of tmr::TMR are exactly the reference bookkeeping, which
    is a function of the history. *)
Theorem C03_stats_exact : forall (T : Type) (eqb : T -> T -> bool), lawful eqb ->
  forall (v : T) (h : list (call T)) (b : books T),
  booked (v, v, v) h (mkbooks 0 0 0 []) b <->
  b = books_of (fold_left (tcall eqb) h (tmr_new v true)).
Proof.
  intros T eqb Hl v h b. split.
  - intros H. exact (booked_det eqb Hl h _ _ _ _ H (stats_exact eqb Hl h (tmr_new v true) eq_refl)).
  - intros ->. exact (stats_exact eqb Hl h (tmr_new v true) eq_refl).
Qed.
Print Assumptions C03_stats_exact.

Theorem C03_detected_is_sum : forall (T : Type) (eqb : T -> T -> bool) (v : T) (cb : bool) (h : list (call T)),
  let m := fold_left (tcall eqb) h (tmr_new v cb) in
  detected (tstats m) = corrected (tstats m) + uncorrectable (tstats m).
Proof. intros T eqb v cb h. exact (stats_sum eqb h (tmr_new v cb) eq_refl). Qed.
Print Assumptions C03_detected_is_sum.

Example C03_nonvacuous :
  let m := fold_left (tcall Nat.eqb) [CSetRaw 1 9; CGet; CSetRaw 2 7; CGet; CSet 3; CGet] (tmr_new 4 true) in
  books_of m = mkbooks 2 1 1 [(4, 9)].
Proof. reflexivity. Qed.

(** C04. Four copies: any iteration order of the unordered_map. *)
Theorem C04_masks_one_copy : forall (T : Type) (eqb : T -> T -> bool), lawful eqb ->
  forall (v : T) (h : list (op T)) (pick : nat -> list (T * nat) -> list (T * nat)),
  (forall n l, Permutation (pick n l) l) -> spaced None h = true ->
  forall entries n, let s := fst (fold_left (e4_step eqb pick) h (e4_new v, n)) in
  Permutation entries (e4_counts eqb s) ->
  e4_get_in_order eqb s entries = last_set v h.
Proof. intros T eqb Hl v h pick Hp Hs entries n. exact (e4_hist_get eqb Hl pick Hp v h n entries Hs). Qed.
Print Assumptions C04_masks_one_copy.

Theorem C04_hasErrors : forall (T : Type) (eqb : T -> T -> bool), lawful eqb ->
  forall s : copies4,
  e4_hasErrors eqb s = true <-> ~ (d0 s = d1 s /\ d0 s = d2 s /\ d0 s = d3 s).
Proof. exact @e4_hasErrors_iff. Qed.
Print Assumptions C04_hasErrors.

(** repair() makes all copies equal to one of the stored copies, and reports whether it
    found errors. *)
Theorem C04_repair : forall (T : Type) (eqb : T -> T -> bool), lawful eqb ->
  forall (s : copies4) entries, Permutation entries (e4_counts eqb s) ->
  let s' := fst (e4_repair eqb s entries) in
  d0 s' = d1 s' /\ d0 s' = d2 s' /\ d0 s' = d3 s' /\ In (d0 s') [d0 s; d1 s; d2 s; d3 s] /\
  snd (e4_repair eqb s entries) = e4_hasErrors eqb s.
Proof. exact @e4_repair_equal. Qed.
Print Assumptions C04_repair.

Example C04_nonvacuous :
  let s := write4 (e4_new 4) 1 9 in
  let es := rev (e4_counts Nat.eqb s) in
  Permutation es (e4_counts Nat.eqb s) /\ es = [(9, 1); (4, 3)] /\ e4_get_in_order Nat.eqb s es = 4.
Proof. split; [apply Permutation_sym, Permutation_rev|split; reflexivity]. Qed.

(** C05 (refuted). getErrorCount() never exceeds 1, whatever the history. *)
Theorem C05_error_count_refuted : forall (T : Type) (eqb : T -> T -> bool)
  (pick : nat -> list (T * nat) -> list (T * nat)) (v : T) (h : list (op T)) n,
  err_count (fst (fold_left (e4_step eqb pick) h (e4_new v, n))) <= 1.
Proof. intros T eqb pick v h n. exact (e4_count_le1 eqb pick h (e4_new v) n (Nat.le_0_l 1)). Qed.
Print Assumptions C05_error_count_refuted.

(** two upsets, two successful repairs, yet the counter reads 1 *)
Theorem C05_two_repairs_counted_once_refuted :
  let id := fun (_ : nat) (l : list (nat * nat)) => l in
  let run h := fst (fold_left (e4_step Nat.eqb id) h (e4_new 4, 0)) in
  snd (e4_repair Nat.eqb (run [Upset 0 9]) (e4_counts Nat.eqb (run [Upset 0 9]))) = true /\
  snd (e4_repair Nat.eqb (run [Upset 0 9; Repair; Upset 1 9])
        (e4_counts Nat.eqb (run [Upset 0 9; Repair; Upset 1 9]))) = true /\
  err_count (run [Upset 0 9; Repair; Upset 1 9; Repair]) = 1.
Proof. exact (conj eq_refl (conj eq_refl eq_refl)). Qed.
Print Assumptions C05_two_repairs_counted_once_refuted.

(** C06. IEEE comparison: a single bit flip of copy [k] is masked exactly when the copy is
    not copy 0, or the stored value is not a NaN and the flip is not the sign of a zero. *)
Theorem C06_float_single_flip_partial : forall (t : aty) (v : N) (k : nat) (i : N),
  is_int t = false -> valid t v -> (i < width t)%N -> k < 3 ->
  core_get (eqT t) (write3 (core_new v) k (N.lxor v (2 ^ i))) = v <->
  ~ (k = 0 /\ (is_nan t v = true \/ (is_zero t v = true /\ i = sign_bit t))).
Proof. exact float_tmr_flip. Qed.
Print Assumptions C06_float_single_flip_partial.

(** the unconditional claim fails, for a stored zero and for every stored NaN *)
Theorem C06_float_single_flip_refuted :
  exists t v k i, is_int t = false /\ valid t v /\ (i < width t)%N /\ k < 3 /\
  core_get (eqT t) (write3 (core_new v) k (N.lxor v (2 ^ i))) <> v.
Proof.
  exists F32, 0%N, 0, 31%N. repeat split; [unfold lt; repeat constructor|vm_compute; discriminate].
Qed.
Print Assumptions C06_float_single_flip_refuted.

Example C06_nonvacuous : valid F32 0x3f800000%N /\ is_nan F32 0x3f800000 = false /\
  core_get (eqT F32) (write3 (core_new 0x3f800000) 0 (N.lxor 0x3f800000 (2 ^ 30)))%N = 0x3f800000%N /\
  is_nan F64 0x7ff8000000000000 = true.
Proof. repeat split. Qed.
