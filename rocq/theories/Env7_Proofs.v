(** Solar activity, shielding, upset probability. *)
From Coq Require Import List NArith ZArith Bool Arith Lia Reals Lra SpecFloat.
Import ListNotations.
From Flocq Require Import Core BinarySingleNaN.
From Verif Require Import Outcome Words Floats FloatsR HealthFloat RMA3_Proofs Tester3_Proofs Hw_Proofs Hw2_Proofs Qft_Model Qft_Spec Qft2_Proofs Qft4_Proofs Qft5_Proofs Qft6_Proofs Qer3_Proofs Env_Model EnvB_Spec Env3_Proofs Env4_Proofs Env5_Proofs Env6_Proofs.
Local Open Scope R_scope.

Definition gfac (a : sf) : sf := dsub d1 (dmul (dq 3 10) a).
Definition sfac (a : sf) : sf := dadd d1 (dmul (dofZ 10) a).
Lemma gfac_nb a : inr 0 1 a -> nb 0 (gfac a). Proof. intros A. exact (bnd_nb _ _ _ (proj1 (tf_range a A))). Qed.
Lemma d10 : okd (dofZ 10) /\ R (dofZ 10) = 10. Proof. apply (ofZ_ex 10). lia. Qed.
Lemma sfac_ok a : inr 0 1 a -> nb 4 (sfac a) /\ 1 <= R (sfac a) /\ 1 + 10 * R a - / 10000000 <= R (sfac a) <= 1 + 10 * R a + / 10000000.
Proof.
  intros (O & B). destruct d10 as (Ot & Rt). destruct (mul_d (dofZ 10) a Ot O) as (Om & Rm); [rewrite Rt; unfold mid; lra|]. rewrite Rt in Rm. pose proof (rnd_abs_s (10 * R a) ltac:(lra)) as Em. pose proof (Qft6_Proofs.rnd_int 0 10 (10 * R a) ltac:(lia) ltac:(lia) ltac:(lra)) as Bm. rewrite <- Rm in *.
  destruct (add_d d1 (dmul (dofZ 10) a) (proj1 o_ok) Om) as (Oa & Ra); [rewrite (proj2 o_ok); unfold mid; lra|]. rewrite (proj2 o_ok) in Ra. pose proof (rnd_abs_s (1 + R (dmul (dofZ 10) a)) ltac:(lra)) as Ea. pose proof (Qft6_Proofs.rnd_int 1 11 (1 + R (dmul (dofZ 10) a)) ltac:(lia) ltac:(lia) ltac:(lra)) as Ba. rewrite <- Ra in *.
  unfold sfac. split; [split; [exact Oa|change (b2 4) with 16; lra]|]. split; lra.
Qed.
Lemma m1 : nb (-9) (dq 1 1000). Proof. lnb (-9)%Z. Qed.
Lemma m2 : nb (-6) (dq 1 100). Proof. lnb (-6)%Z. Qed.
Lemma m3 : nb (-3) (dq 1 10). Proof. lnb (-3)%Z. Qed.
Lemma dose_ok e p h : nb 27 e -> nb 27 p -> nb 16 h -> nb 23 (dose_of e p h).
Proof.
  intros A B C. pose proof (proj1 (nb_mul _ _ _ _ A m1 ltac:(lia))) as A1. pose proof (proj1 (nb_mul _ _ _ _ B m2 ltac:(lia))) as B1. pose proof (proj1 (nb_mul _ _ _ _ C m3 ltac:(lia))) as C1.
  assert (S : nb 22 (dadd (dmul e (dq 1 1000)) (dmul p (dq 1 100)))) by (apply (nb_add 21); [apply (nb_weak 18); [exact A1|lia]|exact B1|lia]). unfold dose_of. apply (nb_add 22); [exact S|apply (nb_weak 13); [exact C1|lia]|lia].
Qed.
Lemma dose_mono e p h e' p' h' : nb 27 e -> nb 27 p -> nb 16 h -> nb 27 e' -> nb 27 p' -> nb 16 h' -> R e <= R e' -> R p <= R p' -> R h <= R h' -> R (dose_of e p h) <= R (dose_of e' p' h').
Proof.
  intros A B C A' B' C' LE LP LH. pose proof (proj1 (nb_mul _ _ _ _ A m1 ltac:(lia))) as A1. pose proof (proj1 (nb_mul _ _ _ _ B m2 ltac:(lia))) as B1. pose proof (proj1 (nb_mul _ _ _ _ C m3 ltac:(lia))) as C1.
  pose proof (proj1 (nb_mul _ _ _ _ A' m1 ltac:(lia))) as A2. pose proof (proj1 (nb_mul _ _ _ _ B' m2 ltac:(lia))) as B2. pose proof (proj1 (nb_mul _ _ _ _ C' m3 ltac:(lia))) as C2.
  assert (W : forall x, nb (27 + -9) x -> nb 21 x) by (intros x N; apply (nb_weak 18); [exact N|lia]). assert (W' : forall x, nb (16 + -3) x -> nb 22 x) by (intros x N; apply (nb_weak 13); [exact N|lia]).
  unfold dose_of. apply (add_mono_nb 22); try (apply W'; assumption); try lia.
  - apply (nb_add 21); [apply W; exact A1|exact B1|lia].
  - apply (nb_add 21); [apply W; exact A2|exact B2|lia].
  - apply (add_mono_nb 21); try (apply W; assumption); try assumption; try lia.
    + apply (mul_mono 27 (-9)); try assumption; try exact m1; try lia. lra.
    + apply (mul_mono 27 (-6)); try assumption; try exact m2; try lia. lra.
  - apply (mul_mono 16 (-3)); try assumption; try exact m3; try lia. lra.
Qed.
Definition solar_e (a e : sf) : sf := dadd (dmul e (gfac a)) (dmul (dmul e (sfac a)) (dq 5 10)).
Definition solar_p (a p : sf) : sf := dadd (dmul p (gfac a)) (dmul p (sfac a)).
Lemma solar_eq a f : applySolar a f = mkFlux (solar_e a (electron f)) (solar_p a (proton f)) (dmul (ion f) (gfac a)) (dose_of (solar_e a (electron f)) (solar_p a (proton f)) (dmul (ion f) (gfac a))).
Proof. reflexivity. Qed.
Lemma solar_e_ok a e : inr 0 1 a -> nb 22 e -> nb 27 (solar_e a e).
Proof.
  intros A E. pose proof (proj1 (nb_mul _ _ _ _ E (gfac_nb a A) ltac:(lia))) as X1. pose proof (proj1 (nb_mul _ _ _ _ E (proj1 (sfac_ok a A)) ltac:(lia))) as X2. pose proof (proj1 (nb_mul _ _ _ _ X2 d5 ltac:(lia))) as X3.
  unfold solar_e. apply (nb_add 26); [apply (nb_weak 22); [exact X1|lia]|exact X3|lia].
Qed.
Lemma solar_p_ok a e : inr 0 1 a -> nb 22 e -> nb 27 (solar_p a e).
Proof.
  intros A E. pose proof (proj1 (nb_mul _ _ _ _ E (gfac_nb a A) ltac:(lia))) as X1. pose proof (proj1 (nb_mul _ _ _ _ E (proj1 (sfac_ok a A)) ltac:(lia))) as X2.
  unfold solar_p. apply (nb_add 26); [apply (nb_weak 22); [exact X1|lia]|exact X2|lia].
Qed.
Lemma solar_e_mono a e e' : inr 0 1 a -> nb 22 e -> nb 22 e' -> R e <= R e' -> R (solar_e a e) <= R (solar_e a e').
Proof.
  intros A E E' L. pose proof (gfac_nb a A) as G. pose proof (proj1 (sfac_ok a A)) as S. unfold solar_e. apply (add_mono_nb 26); try lia.
  1, 2: (apply (nb_weak 22); [apply (nb_mul 22 0); [assumption|exact G|lia]|lia]).
  1, 2: (apply (nb_mul 26 0); [apply (nb_mul 22 4); [assumption|exact S|lia]|exact d5|lia]).
  - apply (mul_mono 22 0); try assumption; try lia; lra.
  - apply (mul_mono 26 0); try exact d5; try lia; try lra; [apply (nb_mul 22 4); [assumption|exact S|lia]|apply (nb_mul 22 4); [assumption|exact S|lia]|]. apply (mul_mono 22 4); try assumption; try lia; lra.
Qed.
Lemma solar_p_mono a e e' : inr 0 1 a -> nb 22 e -> nb 22 e' -> R e <= R e' -> R (solar_p a e) <= R (solar_p a e').
Proof.
  intros A E E' L. pose proof (gfac_nb a A) as G. pose proof (proj1 (sfac_ok a A)) as S. unfold solar_p. apply (add_mono_nb 26); try lia.
  1, 2: (apply (nb_weak 22); [apply (nb_mul 22 0); [assumption|exact G|lia]|lia]).
  1, 2: (apply (nb_mul 22 4); [assumption|exact S|lia]).
  - apply (mul_mono 22 0); try assumption; try lia; lra.
  - apply (mul_mono 22 4); try assumption; try lia; lra.
Qed.
Definition M27 (f : flux) : Prop := fnb 27 27 16 23 f.
Lemma solar_ok a f : inr 0 1 a -> M22 f -> M27 (applySolar a f).
Proof.
  intros A (E & P & H & _). rewrite solar_eq. pose proof (solar_e_ok a _ A E) as E1. pose proof (solar_p_ok a _ A P) as P1. pose proof (proj1 (nb_mul _ _ _ _ H (gfac_nb a A) ltac:(lia))) as H1.
  split; [exact E1|split; [exact P1|split; [exact H1|]]]. cbn [dose]. apply dose_ok; assumption.
Qed.
Lemma solar_mono a f g : inr 0 1 a -> M22 f -> M22 g -> fR f g -> fR (applySolar a f) (applySolar a g).
Proof.
  intros A F G (LE & LP & LH & _). pose proof (solar_ok a f A F) as (E1 & P1 & H1 & _). pose proof (solar_ok a g A G) as (E2 & P2 & H2 & _). destruct F as (E & P & H & _). destruct G as (E' & P' & H' & _). rewrite solar_eq in *. rewrite (solar_eq a g) in *. cbn [electron proton ion dose] in *.
  pose proof (solar_e_mono a _ _ A E E' LE) as QE. pose proof (solar_p_mono a _ _ A P P' LP) as QP.
  assert (QH : R (dmul (ion f) (gfac a)) <= R (dmul (ion g) (gfac a))) by (apply (mul_mono 16 0); try assumption; try (apply gfac_nb; exact A); try lia; lra).
  split; [exact QE|split; [exact QP|split; [exact QH|]]]. cbn [dose]. apply dose_mono; assumption.
Qed.
Lemma inr1_nb x : inr 0 1 x -> nb 0 x. Proof. intros A. apply (inr_nb 0 1 0 x A); [lra|change (b2 0) with 1; lra]. Qed.
Lemma shield_ok r f : env_ok r -> M27 f -> M27 (applyShielding r f).
Proof.
  intros (_ & A & B & D) (E & P & H & _). apply inr1_nb in A. apply inr1_nb in B. apply inr1_nb in D. pose proof (proj1 (nb_mul _ _ _ _ E A ltac:(lia))) as E1. pose proof (proj1 (nb_mul _ _ _ _ P B ltac:(lia))) as P1. pose proof (proj1 (nb_mul _ _ _ _ H D ltac:(lia))) as H1.
  split; [exact E1|split; [exact P1|split; [exact H1|]]]. cbn [applyShielding dose]. apply dose_ok; assumption.
Qed.
Definition parts_le (r r' : renv) : Prop := R (r_e r) <= R (r_e r') /\ R (r_p r) <= R (r_p r') /\ R (r_h r) <= R (r_h r').
Lemma shield_mono r r' f g : env_ok r -> env_ok r' -> M27 f -> M27 g -> fR f g -> parts_le r r' -> fR (applyShielding r f) (applyShielding r' g).
Proof.
  intros V V' F G (LE & LP & LH & _) (Q1 & Q2 & Q3). pose proof (shield_ok r f V F) as (E1 & P1 & H1 & _). pose proof (shield_ok r' g V' G) as (E2 & P2 & H2 & _). destruct F as (E & P & H & _). destruct G as (E' & P' & H' & _).
  destruct V as (_ & A & B & D). destruct V' as (_ & A' & B' & D'). apply inr1_nb in A. apply inr1_nb in B. apply inr1_nb in D. apply inr1_nb in A'. apply inr1_nb in B'. apply inr1_nb in D'.
  unfold applyShielding in *. cbn [electron proton ion] in *.
  assert (QE : R (dmul (electron f) (r_e r)) <= R (dmul (electron g) (r_e r'))) by (apply (mul_mono 27 0); try assumption; lia).
  assert (QP : R (dmul (proton f) (r_p r)) <= R (dmul (proton g) (r_p r'))) by (apply (mul_mono 27 0); try assumption; lia).
  assert (QH : R (dmul (ion f) (r_h r)) <= R (dmul (ion g) (r_h r'))) by (apply (mul_mono 16 0); try assumption; lia).
  split; [exact QE|split; [exact QP|split; [exact QH|]]]. cbn [dose]. apply dose_mono; assumption.
Qed.

(** ** upsets *)
Definition seu (f : flux) : sf := dmul (dadd (dadd (dmul (electron f) (dq 1 (10 ^ 12)%positive)) (dmul (proton f) (dq 1 (10 ^ 9)%positive))) (dmul (ion f) (dq 1 (10 ^ 6)%positive))) d1.
Lemma c12 : nb (-39) (dq 1 (10 ^ 12)%positive). Proof. lnb (-39)%Z. Qed.
Lemma c9 : nb (-29) (dq 1 (10 ^ 9)%positive). Proof. lnb (-29)%Z. Qed.
Lemma c6 : nb (-19) (dq 1 (10 ^ 6)%positive). Proof. lnb (-19)%Z. Qed.
Lemma seu_steps f : M27 f -> nb (-2) (dmul (electron f) (dq 1 (10 ^ 12)%positive)) /\ nb (-2) (dmul (proton f) (dq 1 (10 ^ 9)%positive)) /\ nb (-1) (dmul (ion f) (dq 1 (10 ^ 6)%positive)) /\
  nb (-1) (dadd (dmul (electron f) (dq 1 (10 ^ 12)%positive)) (dmul (proton f) (dq 1 (10 ^ 9)%positive))).
Proof.
  intros (E & P & H & _). pose proof (proj1 (nb_mul _ _ _ _ E c12 ltac:(lia))) as E1. pose proof (proj1 (nb_mul _ _ _ _ P c9 ltac:(lia))) as P1. pose proof (proj1 (nb_mul _ _ _ _ H c6 ltac:(lia))) as H1.
  assert (E2 : nb (-2) (dmul (electron f) (dq 1 (10 ^ 12)%positive))) by (apply (nb_weak (27 + -39)); [exact E1|lia]). split; [exact E2|]. split; [exact P1|]. split; [apply (nb_weak (16 + -19)); [exact H1|lia]|]. apply (nb_add (-2)); [exact E2|exact P1|lia].
Qed.
Lemma seu_ok f : M27 f -> nb 0 (seu f).
Proof. intros F. destruct (seu_steps f F) as (_ & _ & H & S). unfold seu. apply (nb_mul 0 0); [apply (nb_add (-1)); [exact S|exact H|lia]|exact one_nb|lia]. Qed.
Lemma seu_mono f g : M27 f -> M27 g -> fR f g -> R (seu f) <= R (seu g).
Proof.
  intros F G (LE & LP & LH & _). destruct (seu_steps f F) as (A & B & D & S). destruct (seu_steps g G) as (A' & B' & D' & S'). destruct F as (E & P & H & _). destruct G as (E' & P' & H' & _). unfold seu. apply (mul_mono 0 0); try exact one_nb; try lia; try lra.
  1, 2: (apply (nb_add (-1)); [assumption|assumption|lia]).
  apply (add_mono_nb (-1)); try assumption; try lia.
  - apply (add_mono_nb (-2)); try assumption; try lia; [apply (mul_mono 27 (-39))|apply (mul_mono 27 (-29))]; try assumption; try exact c12; try exact c9; try lia; lra.
  - apply (mul_mono 16 (-19)); try assumption; try exact c6; try lia; lra.
Qed.
Section X.
Variables fexp fcos : sf -> sf.
Hypothesis X : exp_lib fexp.
Hypothesis C : unit_lib fcos.
Lemma flux_ok27 r p : env_ok r -> on_earth p -> M27 (calculateRadiationFlux fexp fcos r p).
Proof. intros V H. unfold calculateRadiationFlux. apply shield_ok; [exact V|]. apply solar_ok; [apply V|]. apply mission_ok; assumption. Qed.
Lemma flux_mono r r' p q : env_ok r -> env_ok r' -> on_earth p -> on_earth q -> r_solar r = r_solar r' -> parts_le r r' -> fR (mission_flux fexp fcos (r_mission r) p) (mission_flux fexp fcos (r_mission r') q) ->
  fR (calculateRadiationFlux fexp fcos r p) (calculateRadiationFlux fexp fcos r' q) /\ R (calculateSEUProbability fexp fcos r p) <= R (calculateSEUProbability fexp fcos r' q).
Proof.
  intros V V' H H' S L F. pose proof (mission_ok fexp X fcos C (r_mission r) p H) as M1. pose proof (mission_ok fexp X fcos C (r_mission r') q H') as M2.
  assert (Q : fR (calculateRadiationFlux fexp fcos r p) (calculateRadiationFlux fexp fcos r' q)).
  { unfold calculateRadiationFlux. apply shield_mono; try assumption; [apply solar_ok; [apply V|assumption]|apply solar_ok; [apply V'|assumption]|]. rewrite <- S. apply solar_mono; try assumption. apply V. }
  split; [exact Q|]. apply seu_mono; [apply flux_ok27; assumption|apply flux_ok27; assumption|exact Q].
Qed.
Lemma fle_R x y a b : nb a x -> nb b y -> R x <= R y -> fle x y = true. Proof. intros (O & _) (O' & _) L. apply (fle_d x y O O'). exact L. Qed.
Lemma fR_le f g : M27 f -> M27 g -> fR f g -> flux_le f g.
Proof. intros (A & B & D & E) (A' & B' & D' & E') (L1 & L2 & L3 & L4). repeat split; eapply fle_R; eassumption. Qed.
End X.
