(** Arithmetic C++ types as bit patterns.  A value of an arithmetic type of [sizeof]
    1, 2, 4 or 8 bytes is the unsigned number with the same object representation;
    operator== is pattern equality for integers (signed, unsigned, bool, char) and
    IEEE-754 equality for float and double.  [long double] is not modelled. *)
From Coq Require Import NArith Bool Lia.
From Verif Require Import Words.
Local Open Scope N_scope.

Inductive aty := I8 | I16 | I32 | I64 | F32 | F64.

Definition sizeof (t : aty) : N :=
  match t with I8 => 1 | I16 => 2 | I32 => 4 | I64 => 8 | F32 => 4 | F64 => 8 end.
Definition width (t : aty) : N := 8 * sizeof t.
Definition valid (t : aty) (x : N) : Prop := x < 2 ^ width t.
Definition is_int (t : aty) : bool := match t with F32 | F64 => false | _ => true end.

(** IEEE-754 classes of a pattern with [m] mantissa bits and [e] exponent bits. *)
Definition f_mant (m x : N) : N := x mod 2 ^ m.
Definition f_exp (m e x : N) : N := (x / 2 ^ m) mod 2 ^ e.
Definition f_nan (m e x : N) : bool := (f_exp m e x =? 2 ^ e - 1) && negb (f_mant m x =? 0).
Definition f_zero (m e x : N) : bool := (f_exp m e x =? 0) && (f_mant m x =? 0).
Definition f_eq (m e x y : N) : bool :=
  negb (f_nan m e x) && negb (f_nan m e y) && ((x =? y) || (f_zero m e x && f_zero m e y)).

Definition is_nan (t : aty) (x : N) : bool :=
  match t with F32 => f_nan 23 8 x | F64 => f_nan 52 11 x | _ => false end.
Definition is_zero (t : aty) (x : N) : bool :=
  match t with F32 => f_zero 23 8 x | F64 => f_zero 52 11 x | _ => x =? 0 end.

(** operator== *)
Definition eqT (t : aty) (x y : N) : bool :=
  match t with
  | F32 => f_eq 23 8 x y
  | F64 => f_eq 52 11 x y
  | _ => x =? y
  end.

Lemma eqT_int t x y : is_int t = true -> eqT t x y = (x =? y).
Proof. destruct t; simpl; intros; try discriminate; reflexivity. Qed.

Lemma eqT_spec t x y :
  eqT t x y = negb (is_nan t x) && negb (is_nan t y) &&
              ((x =? y) || (negb (is_int t) && (is_zero t x && is_zero t y))).
Proof. destruct t; simpl; rewrite ?orb_false_r; reflexivity. Qed.

Lemma eqT_refl t x : eqT t x x = negb (is_nan t x).
Proof. rewrite eqT_spec, N.eqb_refl. simpl. destruct (is_nan t x); reflexivity. Qed.

Lemma eqT_sym t x y : eqT t x y = eqT t y x.
Proof.
  rewrite !eqT_spec, (N.eqb_sym x y).
  destruct (is_nan t x), (is_nan t y), (y =? x), (is_int t), (is_zero t x), (is_zero t y); reflexivity.
Qed.

Lemma f_zero_iff m e x : x < 2 ^ (m + e + 1) -> f_zero m e x = true <-> x = 0 \/ x = 2 ^ (m + e).
Proof.
  intros Hx. unfold f_zero, f_exp, f_mant.
  assert (Hm : 2 ^ m <> 0) by (apply N.pow_nonzero; lia).
  assert (He : 2 ^ e <> 0) by (apply N.pow_nonzero; lia).
  rewrite andb_true_iff, !N.eqb_eq.
  assert (Hd : forall y, (y / 2 ^ m) mod 2 ^ e = 0 /\ y mod 2 ^ m = 0 <-> y mod (2 ^ (m + e)) = 0).
  { intros y. rewrite N.pow_add_r. rewrite N.mod_mul_r by assumption.
    split; [intros [-> ->]; lia|]. intros H.
    apply N.eq_add_0 in H. destruct H as [H1 H2]. apply N.eq_mul_0 in H2.
    split; [destruct H2; [contradiction|assumption]|assumption]. }
  rewrite Hd. rewrite <- N.div_exact by (apply N.pow_nonzero; lia).
  replace (2 ^ (m + e + 1)) with (2 ^ (m + e) * 2) in Hx by (rewrite (N.pow_add_r 2 (m+e) 1); reflexivity).
  assert (x / 2 ^ (m + e) < 2) by (apply N.div_lt_upper_bound; [apply N.pow_nonzero; lia|exact Hx]).
  split.
  - intros E. assert (x / 2 ^ (m + e) = 0 \/ x / 2 ^ (m + e) = 1) as [K|K] by lia; rewrite K in E; lia.
  - intros [->| ->].
    + rewrite N.div_0_l by (apply N.pow_nonzero; lia). lia.
    + rewrite N.div_same by (apply N.pow_nonzero; lia). lia.
Qed.

(** the two zeros of a floating type differ exactly in the sign bit *)
Definition sign_bit (t : aty) : N := width t - 1.
Lemma is_zero_iff t x : valid t x -> is_zero t x = true <-> x = 0 \/ (is_int t = false /\ x = 2 ^ sign_bit t).
Proof.
  unfold valid. destruct t; simpl is_zero; simpl is_int; intros Hx.
  1-4: rewrite N.eqb_eq; intuition discriminate.
  - rewrite (f_zero_iff 23 8 x Hx). change (sign_bit F32) with 31. intuition.
  - rewrite (f_zero_iff 52 11 x Hx). change (sign_bit F64) with 63. intuition.
Qed.
