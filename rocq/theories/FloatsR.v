(** Real-number meaning of the SpecFloat operations, through Flocq's proofs.  Only the
    standard library's real-number axioms are used. *)
From Coq Require Import ZArith Reals Lra Lia Bool SpecFloat.
From Flocq Require Import Core.
From Flocq.IEEE754 Require Import BinarySingleNaN.
From Verif Require Import Floats.
Local Open Scope Z_scope.

Section Bridge.
Variables prec emax : Z.
Context {Hp : Prec_gt_0 prec} {Hm : Prec_lt_emax prec emax}.

Notation V := (valid_binary prec emax).
Definition R (x : sf) : R := SF2R radix2 x.
Definition rnd (x : Rdefinitions.R) : Rdefinitions.R :=
  round radix2 (SpecFloat.fexp prec emax) ZnearestE x.
Definition fin (x : sf) : bool := is_finite_SF x.

Lemma rne_equiv s m l : round_nearest_even m l = choice_mode mode_NE s m l.
Proof.
  case l; [reflexivity|intro c]. case c; [|reflexivity..].
  now simpl; unfold Round.cond_incr; case Z.even.
Qed.
Lemma bra_equiv sx mx ex lx :
  SpecFloat.binary_round_aux prec emax sx mx ex lx = binary_round_aux prec emax mode_NE sx mx ex lx.
Proof.
  unfold SpecFloat.binary_round_aux, binary_round_aux.
  set (mrse' := shr_fexp _ _ _ _ _). case mrse'; intros mrs' e'; simpl.
  now rewrite (rne_equiv sx).
Qed.
Lemma br_equiv s m e :
  SpecFloat.binary_round prec emax s m e = binary_round prec emax mode_NE s m e.
Proof.
  unfold SpecFloat.binary_round, binary_round, shl_align_fexp.
  set (mez := shl_align _ _ _); case mez as [mz ez]. apply bra_equiv.
Qed.
Lemma bn_equiv m e szero :
  SpecFloat.binary_normalize prec emax m e szero
  = B2SF (binary_normalize prec emax Hp Hm mode_NE m e szero).
Proof.
  case m as [|p|p]; simpl; [reflexivity|rewrite B2SF_SF2B; apply br_equiv..].
Qed.

Lemma add_equiv (x y : binary_float prec emax) :
  SFadd prec emax (B2SF x) (B2SF y) = B2SF (Bplus mode_NE x y).
Proof.
  case x as [sx|sx| |sx mx ex Bx]; case y as [sy|sy| |sy my ey By];
    [now (trivial || simpl; case Bool.eqb)..|]. apply bn_equiv.
Qed.
Lemma sub_equiv (x y : binary_float prec emax) :
  SFsub prec emax (B2SF x) (B2SF y) = B2SF (Bminus mode_NE x y).
Proof.
  case x as [sx|sx| |sx mx ex Bx]; case y as [sy|sy| |sy my ey By];
    [now (trivial || simpl; case Bool.eqb)..|].
  simpl. unfold Zminus. rewrite <- cond_Zopp_negb. apply bn_equiv.
Qed.
Lemma mul_equiv (x y : binary_float prec emax) :
  SFmul prec emax (B2SF x) (B2SF y) = B2SF (Bmult mode_NE x y).
Proof.
  case x as [sx|sx| |sx mx ex Bx]; case y as [sy|sy| |sy my ey By]; [now trivial..|].
  simpl. rewrite B2SF_SF2B. apply bra_equiv.
Qed.
Lemma div_equiv (x y : binary_float prec emax) :
  SFdiv prec emax (B2SF x) (B2SF y) = B2SF (Bdiv mode_NE x y).
Proof.
  case x as [sx|sx| |sx mx ex Bx]; case y as [sy|sy| |sy my ey By];
    [now (trivial || simpl; case Bool.eqb)..|].
  simpl. rewrite B2SF_SF2B.
  set (melz := SFdiv_core_binary _ _ _ _ _ _). case melz as [[mz ez] lz]. apply bra_equiv.
Qed.

Definition lift (x : sf) (H : V x = true) : binary_float prec emax := SF2B x H.
Lemma lift_sf x H : B2SF (lift x H) = x.
Proof. apply B2SF_SF2B. Qed.
Lemma lift_R x H : B2R (lift x H) = R x.
Proof. unfold lift. rewrite B2R_SF2B. reflexivity. Qed.
Lemma lift_fin x H : is_finite (lift x H) = fin x.
Proof. unfold lift. apply is_finite_SF2B. Qed.

Local Open Scope R_scope.
Lemma add_R x y : V x = true -> V y = true -> fin x = true -> fin y = true ->
  Rabs (rnd (R x + R y)) < bpow radix2 emax ->
  R (SFadd prec emax x y) = rnd (R x + R y) /\ fin (SFadd prec emax x y) = true /\
  V (SFadd prec emax x y) = true.
Proof.
  intros Vx Vy Fx Fy Hb.
  pose proof (Bplus_correct prec emax Hp Hm mode_NE (lift x Vx) (lift y Vy)) as H.
  rewrite !lift_fin, !lift_R in H. specialize (H Fx Fy).
  rewrite Rlt_bool_true in H by exact Hb. destruct H as (H1 & H2 & _).
  pose proof (add_equiv (lift x Vx) (lift y Vy)) as E. rewrite !lift_sf in E. rewrite E.
  unfold R, fin. rewrite SF2R_B2SF, is_finite_SF_B2SF. split; [exact H1|split; [exact H2|]].
  apply valid_binary_B2SF.
Qed.
Lemma sub_R x y : V x = true -> V y = true -> fin x = true -> fin y = true ->
  Rabs (rnd (R x - R y)) < bpow radix2 emax ->
  R (SFsub prec emax x y) = rnd (R x - R y) /\ fin (SFsub prec emax x y) = true /\
  V (SFsub prec emax x y) = true.
Proof.
  intros Vx Vy Fx Fy Hb.
  pose proof (Bminus_correct prec emax Hp Hm mode_NE (lift x Vx) (lift y Vy)) as H.
  rewrite !lift_fin, !lift_R in H. specialize (H Fx Fy).
  rewrite Rlt_bool_true in H by exact Hb. destruct H as (H1 & H2 & _).
  pose proof (sub_equiv (lift x Vx) (lift y Vy)) as E. rewrite !lift_sf in E. rewrite E.
  unfold R, fin. rewrite SF2R_B2SF, is_finite_SF_B2SF. split; [exact H1|split; [exact H2|]].
  apply valid_binary_B2SF.
Qed.
Lemma mul_R x y : V x = true -> V y = true -> fin x = true -> fin y = true ->
  Rabs (rnd (R x * R y)) < bpow radix2 emax ->
  R (SFmul prec emax x y) = rnd (R x * R y) /\ fin (SFmul prec emax x y) = true /\
  V (SFmul prec emax x y) = true.
Proof.
  intros Vx Vy Fx Fy Hb.
  pose proof (Bmult_correct prec emax Hp Hm mode_NE (lift x Vx) (lift y Vy)) as H.
  rewrite !lift_fin, !lift_R in H.
  rewrite Rlt_bool_true in H by exact Hb. destruct H as (H1 & H2 & _).
  pose proof (mul_equiv (lift x Vx) (lift y Vy)) as E. rewrite !lift_sf in E. rewrite E.
  unfold R, fin. rewrite SF2R_B2SF, is_finite_SF_B2SF.
  split; [exact H1|split; [rewrite H2, Fx, Fy; reflexivity|]]. apply valid_binary_B2SF.
Qed.
Lemma div_R x y : V x = true -> V y = true -> fin x = true -> R y <> 0 ->
  Rabs (rnd (R x / R y)) < bpow radix2 emax ->
  R (SFdiv prec emax x y) = rnd (R x / R y) /\ fin (SFdiv prec emax x y) = true /\
  V (SFdiv prec emax x y) = true.
Proof.
  intros Vx Vy Fx Ny Hb.
  pose proof (Bdiv_correct prec emax Hp Hm mode_NE (lift x Vx) (lift y Vy)) as H.
  rewrite !lift_fin, !lift_R in H. specialize (H Ny).
  rewrite Rlt_bool_true in H by exact Hb. destruct H as (H1 & H2 & _).
  pose proof (div_equiv (lift x Vx) (lift y Vy)) as E. rewrite !lift_sf in E. rewrite E.
  unfold R, fin. rewrite SF2R_B2SF, is_finite_SF_B2SF.
  split; [exact H1|split; [rewrite H2; exact Fx|]]. apply valid_binary_B2SF.
Qed.

Lemma ltb_R x y : V x = true -> V y = true -> fin x = true -> fin y = true ->
  SFltb x y = true <-> R x < R y.
Proof.
  intros Vx Vy Fx Fy.
  pose proof (Bltb_correct prec emax (lift x Vx) (lift y Vy)) as H.
  rewrite !lift_fin, !lift_R in H. specialize (H Fx Fy).
  unfold Bltb in H. rewrite !lift_sf in H. rewrite H.
  destruct (Rlt_bool_spec (R x) (R y)); split; intros; auto; try discriminate; lra.
Qed.
Lemma leb_R x y : V x = true -> V y = true -> fin x = true -> fin y = true ->
  SFleb x y = true <-> R x <= R y.
Proof.
  intros Vx Vy Fx Fy.
  pose proof (Bleb_correct prec emax (lift x Vx) (lift y Vy)) as H.
  rewrite !lift_fin, !lift_R in H. specialize (H Fx Fy).
  unfold Bleb in H. rewrite !lift_sf in H. rewrite H.
  destruct (Rle_bool_spec (R x) (R y)); split; intros; auto; try discriminate; lra.
Qed.

(** rounding facts *)
Instance vexp : Valid_exp (SpecFloat.fexp prec emax).
Proof. apply fexp_correct; exact Hp. Qed.
Lemma rnd_le x y : x <= y -> rnd x <= rnd y.
Proof. apply round_le; [exact vexp|apply valid_rnd_N]. Qed.
Lemma rnd_R x : V x = true -> rnd (R x) = R x.
Proof.
  intros Vx. apply round_generic; [apply valid_rnd_N|].
  rewrite <- (lift_R x Vx). apply generic_format_B2R.
Qed.
(** between two representable bounds rounding stays between them *)
Lemma rnd_between lo hi x : V lo = true -> V hi = true -> R lo <= x <= R hi ->
  R lo <= rnd x <= R hi.
Proof.
  intros Vl Vh [H1 H2]. rewrite <- (rnd_R lo Vl), <- (rnd_R hi Vh).
  split; apply rnd_le; assumption.
Qed.
Lemma fin_bound x : V x = true -> Rabs (R x) < bpow radix2 emax.
Proof. intros Vx. rewrite <- (lift_R x Vx). apply abs_B2R_lt_emax. Qed.
Lemma rnd_ovf lo hi x : V lo = true -> V hi = true -> R lo <= x <= R hi ->
  Rabs (rnd x) < bpow radix2 emax.
Proof.
  intros Vl Vh H. destruct (rnd_between lo hi x Vl Vh H) as [H1 H2].
  pose proof (fin_bound lo Vl) as A. pose proof (fin_bound hi Vh) as B.
  apply Rabs_lt. apply Rabs_lt_inv in A. apply Rabs_lt_inv in B. lra.
Qed.
End Bridge.

#[export] Instance Hp53 : Prec_gt_0 53. Proof. reflexivity. Qed.
#[export] Instance Hm53 : Prec_lt_emax 53 1024. Proof. reflexivity. Qed.
#[export] Instance Hp24 : Prec_gt_0 24. Proof. reflexivity. Qed.
#[export] Instance Hm24 : Prec_lt_emax 24 128. Proof. reflexivity. Qed.
