(** Powers of two around positive doubles, and the tunnelling probability. *)
From Coq Require Import List NArith ZArith Bool Arith Lia Reals Lra SpecFloat.
Import ListNotations.
From Flocq Require Import Core BinarySingleNaN.
From Verif Require Import Outcome Words Floats FloatsR HealthFloat Bits_Model RMA3_Proofs Tester3_Proofs Hw_Proofs Hw2_Proofs Qft_Model Qft_Spec Qft2_Proofs.
Local Open Scope R_scope.

Notation b2 := (bpow radix2).
(** a positive double between two powers of two *)
Definition bnd (a b : Z) (x : sf) : Prop := okd x /\ b2 a <= R x <= b2 b.
Lemma rnd_bpow k : (-1074 <= k <= 1023)%Z -> rnd64 (b2 k) = b2 k.
Proof. intros H. apply round_generic; [apply valid_rnd_N|]. apply generic_format_bpow. unfold SpecFloat.fexp, emin. lia. Qed.
Lemma rnd_bnd a b x : (-1074 <= a)%Z -> (b <= 1000)%Z -> b2 a <= x <= b2 b -> b2 a <= rnd64 x <= b2 b /\ Rabs (rnd64 x) < b2 1024.
Proof.
  intros A B [L U]. assert (AB : (a <= b)%Z). { apply (le_bpow radix2). lra. }
  pose proof (rnd_le 53 1024 _ _ L) as L'. pose proof (rnd_le 53 1024 _ _ U) as U'. rewrite rnd_bpow in L' by lia. rewrite rnd_bpow in U' by lia.
  split; [lra|]. pose proof (bpow_gt_0 radix2 a). assert (b2 b < b2 1024) by (apply bpow_lt; lia). rewrite Rabs_pos_eq; lra.
Qed.
Lemma bnd_pos a b x : bnd a b x -> 0 < R x.
Proof. intros [_ H]. pose proof (bpow_gt_0 radix2 a). lra. Qed.
Lemma bnd_mul a b c d x y : bnd a b x -> bnd c d y -> (-1074 <= a + c)%Z -> (b + d <= 1000)%Z -> bnd (a + c) (b + d) (dmul x y) /\ R (dmul x y) = rnd64 (R x * R y).
Proof.
  intros [[Vx Fx] X] [[Vy Fy] Y] L U. pose proof (bpow_gt_0 radix2 a). pose proof (bpow_gt_0 radix2 c).
  assert (B : b2 (a + c) <= R x * R y <= b2 (b + d)). { rewrite !bpow_plus. split; apply Rmult_le_compat; lra. }
  destruct (rnd_bnd _ _ _ L U B) as [RB O]. destruct (mul_R 53 1024 x y Vx Vy Fx Fy O) as (E & F & V). fold (dmul x y) in *. split; [|exact E]. split; [split; assumption|rewrite E; exact RB].
Qed.
Lemma bnd_div a b c d x y : bnd a b x -> bnd c d y -> (-1074 <= a - d)%Z -> (b - c <= 1000)%Z -> bnd (a - d) (b - c) (ddiv x y) /\ R (ddiv x y) = rnd64 (R x / R y).
Proof.
  intros [[Vx Fx] X] [[Vy Fy] Y] L U. pose proof (bpow_gt_0 radix2 a). pose proof (bpow_gt_0 radix2 c). pose proof (bpow_gt_0 radix2 d).
  assert (B : b2 (a - d) <= R x / R y <= b2 (b - c)).
  { unfold Zminus, Rdiv. rewrite !bpow_plus, !bpow_opp. split; apply Rmult_le_compat; try lra; try (apply Rlt_le, Rinv_0_lt_compat; lra); apply Rinv_le; lra. }
  destruct (rnd_bnd _ _ _ L U B) as [RB O]. destruct (div_R 53 1024 x y Vx Vy Fx ltac:(lra) O) as (E & F & V). fold (ddiv x y) in *. split; [|exact E]. split; [split; assumption|rewrite E; exact RB].
Qed.
Lemma bnd_add a b x y : bnd a b x -> okd y -> 0 <= R y <= b2 b -> (-1074 <= a)%Z -> (b < 1000)%Z -> bnd a (b + 1) (dadd x y) /\ R (dadd x y) = rnd64 (R x + R y).
Proof.
  intros [[Vx Fx] X] [Vy Fy] Y L U. assert (B : b2 a <= R x + R y <= b2 (b + 1)). { rewrite bpow_plus. change (b2 1) with 2. lra. }
  destruct (rnd_bnd a (b + 1) _ L ltac:(lia) B) as [RB O]. destruct (add_R 53 1024 x y Vx Vy Fx Fy O) as (E & F & V). fold (dadd x y) in *. split; [|exact E]. split; [split; assumption|rewrite E; exact RB].
Qed.
Lemma bnd_sqrt a b x : bnd (2 * a) (2 * b) x -> (-500 <= a)%Z -> (b <= 500)%Z -> bnd a b (SFsqrt 53 1024 x).
Proof.
  intros [O X] A B. pose proof (bpow_gt_0 radix2 (2 * a)) as P. destruct (Tester3_Proofs.sqrt_d x O ltac:(lra)) as [O' E]. split; [exact O'|]. rewrite E.
  assert (SQ : forall k, sqrt (b2 (2 * k)) = b2 k).
  { intros k. replace (2 * k)%Z with (k + k)%Z by lia. rewrite bpow_plus. apply sqrt_square. apply bpow_ge_0. }
  apply rnd_bnd; [lia|lia|]. rewrite <- (SQ a), <- (SQ b). split; apply sqrt_le_1_alt; lra.
Qed.
Lemma bnd_weak a b c d x : bnd a b x -> (c <= a)%Z -> (b <= d)%Z -> bnd c d x.
Proof. intros [O H] A B. split; [exact O|]. pose proof (bpow_le radix2 _ _ A). pose proof (bpow_le radix2 _ _ B). lra. Qed.
(** the same for negative doubles *)
Definition nbnd (a b : Z) (x : sf) : Prop := okd x /\ b2 a <= - R x <= b2 b.
Lemma rnd_opp x : rnd64 (- x) = - rnd64 x. Proof. apply round_NE_opp. Qed.
Lemma nbnd_mul a b c d x y : nbnd a b x -> bnd c d y -> (-1074 <= a + c)%Z -> (b + d <= 1000)%Z -> nbnd (a + c) (b + d) (dmul x y).
Proof.
  intros [[Vx Fx] X] [[Vy Fy] Y] L U. pose proof (bpow_gt_0 radix2 a). pose proof (bpow_gt_0 radix2 c).
  assert (B : b2 (a + c) <= - (R x * R y) <= b2 (b + d)). { replace (- (R x * R y)) with ((- R x) * R y) by ring. rewrite !bpow_plus. split; apply Rmult_le_compat; lra. }
  destruct (rnd_bnd _ _ _ L U B) as [RB O]. rewrite rnd_opp in RB, O. rewrite Rabs_Ropp in O. destruct (mul_R 53 1024 x y Vx Vy Fx Fy O) as (E & F & V). fold (dmul x y) in *. split; [split; assumption|rewrite E; exact RB].
Qed.
Lemma nbnd_div a b c d x y : nbnd a b x -> bnd c d y -> (-1074 <= a - d)%Z -> (b - c <= 1000)%Z -> nbnd (a - d) (b - c) (ddiv x y).
Proof.
  intros [[Vx Fx] X] [[Vy Fy] Y] L U. pose proof (bpow_gt_0 radix2 a). pose proof (bpow_gt_0 radix2 c). pose proof (bpow_gt_0 radix2 d).
  assert (B : b2 (a - d) <= - (R x / R y) <= b2 (b - c)).
  { replace (- (R x / R y)) with ((- R x) * / R y) by (unfold Rdiv; ring). unfold Zminus. rewrite !bpow_plus, !bpow_opp. split; apply Rmult_le_compat; try lra; try (apply Rlt_le, Rinv_0_lt_compat; lra); apply Rinv_le; lra. }
  destruct (rnd_bnd _ _ _ L U B) as [RB O]. rewrite rnd_opp in RB, O. rewrite Rabs_Ropp in O. destruct (div_R 53 1024 x y Vx Vy Fx ltac:(lra) O) as (E & F & V). fold (ddiv x y) in *. split; [split; assumption|rewrite E; exact RB].
Qed.
Lemma opp_R x : R (SFopp x) = - R x.
Proof. destruct x as [s|s| |s m e]; unfold R; cbn [SFopp SF2R]; try lra. unfold F2R. destruct s; cbn [negb cond_Zopp Fnum Fexp]; rewrite ?opp_IZR; change (- Z.pos m)%Z with (Z.neg m); rewrite <- ?Pos2Z.opp_pos, ?opp_IZR; ring. Qed.
Lemma opp_okd x : okd x -> okd (SFopp x).
Proof. intros [V F]. split; destruct x; try discriminate; try reflexivity; exact V. Qed.
Lemma bnd_opp a b x : bnd a b x -> nbnd a b (SFopp x).
Proof. intros [O B]. split; [exact (opp_okd x O)|]. rewrite opp_R. lra. Qed.
(** literals, by computation *)
Definition litb (a b : Z) (x : sf) : bool :=
  valid_binary 53 1024 x && match x with S754_finite false m e => (a <=? Zdigits radix2 (Z.pos m) - 1 + e)%Z && (Zdigits radix2 (Z.pos m) + e <=? b)%Z | _ => false end.
Lemma lit_bnd a b x : litb a b x = true -> bnd a b x.
Proof.
  unfold litb. destruct x as [| | |[] m e]; try (rewrite andb_false_r; discriminate). intros H. apply andb_prop in H. destruct H as [V H]. apply andb_prop in H. destruct H as [A B].
  apply Z.leb_le in A, B. split; [split; [exact V|reflexivity]|]. unfold R, SF2R, F2R. cbn [cond_Zopp Fnum Fexp].
  pose proof (Zdigits_correct radix2 (Z.pos m)) as D. cbv zeta in D. set (k := Zdigits radix2 (Z.pos m)) in *. assert (KP : (0 < k)%Z) by (apply Zdigits_gt_0; discriminate).
  rewrite Z.abs_eq in D by lia. destruct D as [D1 D2]. apply IZR_le in D1. apply IZR_lt in D2.
  rewrite IZR_Zpower in D1 by lia. rewrite IZR_Zpower in D2 by lia.
  pose proof (bpow_ge_0 radix2 e) as E0. split.
  - apply Rle_trans with (b2 (k - 1 + e)); [apply bpow_le; lia|]. rewrite bpow_plus. apply Rmult_le_compat_r; lra.
  - apply Rle_trans with (b2 (k + e)); [|apply bpow_le; lia]. rewrite bpow_plus. apply Rmult_le_compat_r; lra.
Qed.

(** ** clamping *)
Lemma z_ok : okd d0 /\ R d0 = 0. Proof. split; [split; reflexivity|reflexivity]. Qed.
Lemma o_ok : okd d1 /\ R d1 = 1. Proof. exact d1_ok. Qed.
Lemma E0 : E d0 = 0. Proof. rewrite E_fin by reflexivity. apply z_ok. Qed.
Lemma E1 : E d1 = 1. Proof. rewrite E_fin by apply o_ok. apply o_ok. Qed.
Lemma clamp_gen x lo hi : dbl x -> okd lo -> okd hi -> R lo <= R hi -> okd (dclamp x lo hi) /\ R lo <= R (dclamp x lo hi) <= R hi /\ (okd x -> R lo <= R x <= R hi -> dclamp x lo hi = x).
Proof.
  intros D L H LH. pose proof (okd_dbl _ L) as DL. pose proof (okd_dbl _ H) as DH. pose proof (E_fin lo (proj2 L)) as EL. pose proof (E_fin hi (proj2 H)) as EH.
  unfold dclamp. destruct (flt x lo) eqn:A.
  - split; [exact L|]. split; [lra|]. intros O B. apply (flt_d x lo O L) in A. lra.
  - destruct (flt hi x) eqn:B.
    + split; [exact H|]. split; [lra|]. intros O C. apply (flt_d hi x H O) in B. lra.
    + assert (G : E lo <= E x <= E hi).
      { split; apply Rnot_lt_le; intros C; [apply (proj2 (ltE x lo D DL)) in C|apply (proj2 (ltE hi x DH D)) in C]; congruence. }
      assert (F : fin x = true).
      { destruct x as [|[]| |]; try reflexivity; [| |destruct D; congruence]; cbn [E] in G; pose proof (E_bound lo L); pose proof (E_bound hi H); lra. }
      split; [split; [apply D|exact F]|]. rewrite (E_fin x F), EL, EH in G. split; [exact G|reflexivity].
Qed.
Lemma clamp01 x : dbl x -> inr 0 1 (dclamp x d0 d1).
Proof. intros D. destruct (clamp_gen x d0 d1 D (proj1 z_ok) (proj1 o_ok)) as (O & B & _); [rewrite (proj2 z_ok), (proj2 o_ok); lra|]. rewrite (proj2 z_ok), (proj2 o_ok) in B. split; assumption. Qed.
Lemma clamp_nan lo hi : dclamp S754_nan lo hi = S754_nan.
Proof. destruct lo, hi; reflexivity. Qed.

(** ** the two exponentials *)
Section X.
Variable fexp : sf -> sf.
Hypothesis X : exp_lib fexp.
(** a negative number, possibly infinite *)
Definition neg (x : sf) : Prop := dbl x /\ E x <= 0.
Lemma neg_exp x : neg x -> inr 0 1 (fexp x).
Proof.
  intros [[V N] H]. destruct X as [_ XD XP XL _]. assert (D0 : dbl d0) by (apply okd_dbl, z_ok). assert (D1 : dbl d1) by (apply okd_dbl, o_ok).
  assert (P := XP x V N). assert (L : fle (fexp x) d1 = true). { apply XL; [exact V|]. apply (leE x d0); [split; assumption|exact D0|]. rewrite E0. exact H. }
  assert (DF : dbl (fexp x)). { split; [apply XD; exact V|]. intros C. rewrite C in P. discriminate. }
  apply (leE _ _ D0 DF) in P. apply (leE _ _ DF D1) in L. rewrite E0 in P. rewrite E1 in L.
  assert (F : fin (fexp x) = true). { pose proof BB_pos. revert P L DF. generalize (fexp x). intros y P L DF. destruct y as [|[]| |]; try reflexivity; cbn [E] in P, L; try lra. destruct DF; congruence. }
  split; [split; [apply DF|exact F]|]. rewrite <- (E_fin _ F). lra.
Qed.
Lemma neg_signed x : dbl x -> signed true x -> neg x.
Proof.
  intros D H. split; [exact D|]. destruct x as [s|s| |s m e]; cbn in H; subst; cbn [E]; try (pose proof BB_pos; lra); [unfold R; cbn; lra|unfold R; cbn; lra|].
  unfold R, SF2R, F2R. cbn [cond_Zopp Fnum Fexp]. pose proof (bpow_ge_0 radix2 e). assert (IZR (Z.neg m) <= 0) by (apply IZR_le; lia). change (- Z.pos m)%Z with (Z.neg m) in *. nra.
Qed.
Lemma bnd_signed a b x : bnd a b x -> signed false x.
Proof.
  intros B. pose proof (bnd_pos _ _ _ B) as P. destruct B as [[_ F] _]. destruct x as [s|s| |[] m e]; try discriminate F; try reflexivity.
  - unfold R in P. cbn in P. lra.
  - exfalso. unfold R, SF2R, F2R in P. cbn [cond_Zopp Fnum Fexp] in P. pose proof (bpow_ge_0 radix2 e). assert (IZR (Z.neg m) <= 0) by (apply IZR_le; lia). change (- Z.pos m)%Z with (Z.neg m) in P. nra.
Qed.
Lemma bnd_shape a b x : bnd a b x -> exists m e, x = S754_finite false m e.
Proof.
  intros B. pose proof (bnd_signed _ _ _ B) as S1. pose proof (bnd_pos _ _ _ B) as P. destruct B as [[_ F] _].
  destruct x as [s|s| |[] m e]; try discriminate F; try discriminate S1; [unfold R in P; cbn in P; lra|eauto].
Qed.
Lemma nbnd_neg a b x : nbnd a b x -> neg x.
Proof. intros [O B]. pose proof (bpow_gt_0 radix2 a). split; [apply okd_dbl; exact O|]. rewrite (E_fin x (proj2 O)). lra. Qed.

(** ** tunnelling *)
Definition cold_or (lo hi : Z) (t : sf) : Prop := t = d0 \/ bnd lo hi t.
Lemma thermal_neg b t : bnd (-300) 300 b -> cold_or (-300) 300 t -> neg (ddiv (SFopp b) (dmul kB t)).
Proof.
  intros B [->|T].
  - assert (K : dmul kB d0 = d0) by (vm_compute; reflexivity). rewrite K. pose proof (bnd_signed _ _ _ B) as SB. pose proof (bnd_pos _ _ _ B) as P.
    destruct (bnd_shape _ _ _ B) as (m & e & ->). change (neg (S754_infinity true)). split; [split; [reflexivity|discriminate]|]. cbn [E]. pose proof BB_pos. lra.
  - assert (K : bnd (-14) (-13) kB) by (apply lit_bnd; vm_compute; reflexivity). destruct (bnd_mul _ _ _ _ _ _ K T) as [KT _]; try lia.
    eapply nbnd_neg, nbnd_div; [apply bnd_opp; exact B|exact KT|lia|lia].
Qed.
Lemma wkb_neg b mass hb : bnd (-300) 300 b -> bnd (-300) 300 mass -> bnd (-300) 300 hb ->
  neg (ddiv (dmul (dmul (dofZ (-2)) (dq 2 (10 ^ 10)%positive)) (sqrt_d (dmul (dmul (dofZ 2) mass) (dmul b eV_J)))) (dmul hb eV_J)).
Proof.
  intros B M H. assert (EV : bnd (-63) (-62) eV_J) by (apply lit_bnd; vm_compute; reflexivity). assert (T2 : bnd 1 2 (dofZ 2)) by (apply lit_bnd; vm_compute; reflexivity).
  destruct (bnd_mul _ _ _ _ _ _ B EV) as [BJ _]; try lia. destruct (bnd_mul _ _ _ _ _ _ H EV) as [HJ _]; try lia. destruct (bnd_mul _ _ _ _ _ _ T2 M) as [M2 _]; try lia. destruct (bnd_mul _ _ _ _ _ _ M2 BJ) as [A _]; try lia.
  assert (Q : bnd (-331) 270 (sqrt_d (dmul (dmul (dofZ 2) mass) (dmul b eV_J)))) by (apply bnd_sqrt; [eapply bnd_weak; [exact A|lia|lia]|lia|lia]).
  assert (W : nbnd (-32) (-31) (dmul (dofZ (-2)) (dq 2 (10 ^ 10)%positive))).
  { assert (W1 : dmul (dofZ (-2)) (dq 2 (10 ^ 10)%positive) = SFopp (dmul (dofZ 2) (dq 2 (10 ^ 10)%positive))) by (vm_compute; reflexivity). rewrite W1. apply bnd_opp, lit_bnd. vm_compute. reflexivity. }
  eapply nbnd_neg, nbnd_div; [eapply nbnd_mul; [exact W|exact Q|lia|lia]|exact HJ|lia|lia].
Qed.
Lemma combine01 p q : inr 0 1 p -> inr 0 1 q -> inr 0 1 (dclamp (dsub (dadd p q) (dmul p q)) d0 d1).
Proof.
  intros [Op Bp] [Oq Bq]. apply clamp01, okd_dbl.
  assert (ML : forall lo hi t, (-4 <= lo)%Z -> (hi <= 4)%Z -> IZR lo <= t <= IZR hi -> mid t). { intros lo hi t A B C. apply IZR_le in A, B. unfold mid. lra. }
  destruct (add_d p q Op Oq) as [Os Es]; [apply (ML 0%Z 2%Z); lia || lra|]. destruct (mul_d p q Op Oq) as [Om Em]; [apply (ML 0%Z 1%Z); [lia|lia|nra]|].
  assert (S2 : 0 <= rnd64 (R p + R q) <= 2). { destruct (ofZ_ex 2 ltac:(lia)) as [O2 E2]. split; [rewrite <- (proj2 z_ok); apply rnd64_ge; [apply z_ok|rewrite (proj2 z_ok); lra]|change 2 with (IZR 2); rewrite <- E2; apply rnd64_le; [exact O2|rewrite E2; lra]]. }
  assert (S1 : 0 <= rnd64 (R p * R q) <= 1). { split; [rewrite <- (proj2 z_ok); apply rnd64_ge; [apply z_ok|rewrite (proj2 z_ok); nra]|rewrite <- (proj2 o_ok); apply rnd64_le; [apply o_ok|rewrite (proj2 o_ok); nra]]. }
  apply (sub_d (dadd p q) (dmul p q) Os Om). rewrite Es, Em. apply (ML (-1)%Z 2%Z); lia || lra.
Qed.
Lemma tunnel_range b mass hb t : bnd (-300) 300 b -> bnd (-300) 300 mass -> bnd (-300) 300 hb -> cold_or (-300) 300 t -> inr 0 1 (tunneling fexp b mass hb t).
Proof.
  intros B M H T. unfold tunneling. cbv zeta. destruct (_ || _); [split; [apply z_ok|rewrite (proj2 z_ok); lra]|].
  apply combine01; apply neg_exp; [apply wkb_neg; assumption|apply thermal_neg; assumption].
Qed.
Lemma tunnel_pos_guard b mass hb : bnd (-300) 300 b -> bnd (-300) 300 mass -> bnd (-300) 300 hb -> fle b d0 || fle mass d0 || fle hb d0 = false.
Proof.
  intros B M H. assert (G : forall x, bnd (-300) 300 x -> fle x d0 = false).
  { intros x Bx. destruct (fle x d0) eqn:C; [|reflexivity]. apply (fle_d x d0 (proj1 Bx) (proj1 z_ok)) in C. pose proof (bnd_pos _ _ _ Bx). rewrite (proj2 z_ok) in C. lra. }
  rewrite !G; auto.
Qed.
End X.
