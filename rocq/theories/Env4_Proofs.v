(** The radiation models give finite fluxes that are not negative. *)
From Coq Require Import List NArith ZArith Bool Arith Lia Reals Lra SpecFloat.
Import ListNotations.
From Flocq Require Import Core BinarySingleNaN.
From Verif Require Import Outcome Words Floats FloatsR HealthFloat RMA3_Proofs Hw_Proofs Qft_Model Qft_Spec Qft2_Proofs Qft4_Proofs Qft5_Proofs Qft6_Proofs Qer3_Proofs Env_Model EnvB_Spec Env3_Proofs.
Local Open Scope R_scope.

(** ** numbers that are not NaN *)
Lemma zR s : R (S754_zero s) = 0. Proof. reflexivity. Qed.
Lemma fin_nz s m e : R (S754_finite s m e) <> 0.
Proof. rewrite fin_R. pose proof (bpow_gt_0 radix2 e) as P. intros H. apply Rmult_integral in H. destruct H as [H|H]; [|lra]. apply eq_IZR in H. destruct s; discriminate. Qed.
Lemma div_dbl x y : okd x -> okd y -> R y <> 0 -> dbl (ddiv x y).
Proof.
  intros [Vx Fx] [Vy Fy] N. destruct (Rlt_or_le (Rabs (rnd64 (R x / R y))) BB) as [L|G].
  - destruct (div_R 53 1024 x y Vx Vy Fx N ltac:(rewrite <- BB_eq; exact L)) as (A & B & C). apply okd_dbl. split; assumption.
  - pose proof (Bdiv_correct 53 1024 _ _ mode_NE (lift 53 1024 x Vx) (lift 53 1024 y Vy)) as H. rewrite !lift_R in H. specialize (H N). rewrite <- BB_eq in H.
    rewrite Rlt_bool_false in H by exact G. pose proof (div_equiv 53 1024 (lift 53 1024 x Vx) (lift 53 1024 y Vy)) as Q. rewrite !lift_sf in Q. unfold ddiv. rewrite Q, H. unfold binary_overflow. cbn [overflow_to_inf].
    split; [reflexivity|discriminate].
Qed.
Lemma sub_dbl x y : dbl x -> okd y -> dbl (dsub x y).
Proof.
  intros [Vx Nx] [Vy Fy]. destruct (fin x) eqn:Fx.
  - destruct (Rlt_or_le (Rabs (rnd64 (R x - R y))) BB) as [L|G].
    + destruct (sub_R 53 1024 x y Vx Vy Fx Fy ltac:(rewrite <- BB_eq; exact L)) as (A & B & C). apply okd_dbl. split; assumption.
    + pose proof (Bminus_correct 53 1024 _ _ mode_NE (lift 53 1024 x Vx) (lift 53 1024 y Vy)) as H. rewrite !lift_R, !lift_fin in H. specialize (H Fx Fy). rewrite <- BB_eq in H.
      rewrite Rlt_bool_false in H by exact G. destruct H as (H & _). pose proof (sub_equiv 53 1024 (lift 53 1024 x Vx) (lift 53 1024 y Vy)) as Q. rewrite !lift_sf in Q. unfold dsub. rewrite Q, H. unfold binary_overflow. cbn [overflow_to_inf].
      split; [reflexivity|discriminate].
  - destruct x as [s|s| |s m e]; try discriminate Fx; [|congruence]. destruct y as [t|t| |t n f]; try discriminate Fy; (split; [reflexivity|discriminate]).
Qed.
Lemma opp_sign s x : signed s x -> signed (negb s) (SFopp x).
Proof. destruct x; cbn; try (intros ->; reflexivity). trivial. Qed.
Lemma square_neg d : dbl d -> neg (dmul (SFopp d) d).
Proof.
  intros D. apply neg_signed.
  - destruct D as [V N]. destruct (fin d) eqn:F.
    + destruct (mulE (SFopp d) d (opp_okd d (conj V F)) (conj V F)) as (A & _). exact A.
    + destruct d as [s|s| |s m e]; try discriminate F; [|congruence]. split; [reflexivity|discriminate].
  - destruct (any_sign d) as (s & H). pose proof (mul_sign (negb s) s (SFopp d) d (opp_sign _ _ H) H) as K. destruct s; exact K.
Qed.
Lemma inf_div2 s m e : ddiv (S754_infinity true) (S754_finite s m e) = S754_infinity (negb s). Proof. destruct s; reflexivity. Qed.
Lemma neg_div x w a b : neg x -> bnd a b w -> neg (ddiv x w).
Proof.
  intros (D & L) B. pose proof (bnd_pos _ _ _ B) as P. pose proof BB_pos. destruct (bnd_shape _ _ _ B) as (n & f & Q). destruct (fin x) eqn:F.
  - assert (O : okd x) by (split; [apply D|exact F]). assert (DD : dbl (ddiv x w)) by (apply div_dbl; [exact O|apply B|lra]). split; [exact DD|]. rewrite (E_fin x F) in L.
    destruct x as [s|s| |s m e]; try discriminate F.
    + rewrite Q. destruct s; cbn; unfold R; cbn; lra.
    + destruct s; [|exfalso; rewrite fin_R in L; cbn [cond_Zopp] in L; pose proof (bpow_gt_0 radix2 e); assert (0 < IZR (Z.pos m)) by (apply IZR_lt; lia); nra].
      apply neg_signed; [exact DD|]. pose proof (div_sign true false (S754_finite true m e) w eq_refl (bnd_signed _ _ _ B)) as K. exact K.
  - destruct D as [V N]. destruct x as [s|s| |s m e]; try discriminate F; [|congruence]. destruct s; [|cbn [E] in L; lra]. rewrite Q. split; [split; [reflexivity|discriminate]|]. cbn [E ddiv SFdiv xorb]. cbn. lra.
Qed.

(** ** Van Allen belts *)
Section X.
Variables fexp fcos : sf -> sf.
Hypothesis X : exp_lib fexp.
Hypothesis C : unit_lib fcos.
Lemma earth_bnd : bnd 12 13 earth_radius. Proof. apply lit_bnd. vm_compute. reflexivity. Qed.
Lemma pi_bnd : bnd 1 2 M_PI. Proof. apply lit_bnd. vm_compute. reflexivity. Qed.
Lemma d180 : okd (dofZ 180) /\ R (dofZ 180) = 180. Proof. apply (ofZ_ex 180). lia. Qed.
Lemma radians_ok x : between (-1000) 1000 x -> okd (radians x) /\ R (radians x) = rnd64 (rnd64 (R x * R M_PI) / 180) /\ Rabs (rnd64 (R x * R M_PI)) <= 4000.
Proof.
  intros (O & B). destruct pi_bnd as (Op & Bp). change (b2 1) with 2 in Bp. change (b2 2) with 4 in Bp.
  assert (Bm : -4000 <= R x * R M_PI <= 4000) by nra. destruct (mul_d x M_PI O Op) as (Om & Rm); [unfold mid; lra|].
  pose proof (rnd_int (-4000) 4000 (R x * R M_PI) ltac:(lia) ltac:(lia) Bm) as Br. destruct d180 as (O1 & R1).
  destruct (div_d (dmul x M_PI) (dofZ 180) Om O1) as (Od & Rd); [lra|rewrite Rm, R1; unfold mid; lra|]. unfold radians. rewrite Rd, Rm, R1. split; [exact Od|]. split; [reflexivity|]. apply Rabs_le. exact Br.
Qed.
Lemma lshell_dbl p : on_earth p -> dbl (ddiv (ddiv (getRadius p) earth_radius) (fcos (radians (lat p)))).
Proof.
  intros [La _ Al]. apply nneg_not in Al. assert (K : okd (fcos (radians (lat p)))). { apply C. apply radians_ok. destruct La as (O & B). split; [exact O|lra]. }
  destruct (nneg_add earth_radius (alt p) (nb_nneg _ _ (bnd_nb _ _ _ earth_bnd)) Al) as (NR & _). pose proof (add_ge earth_radius (alt p) (nb_nneg _ _ (bnd_nb _ _ _ earth_bnd)) Al) as GE.
  rewrite (E_fin earth_radius) in GE by apply earth_bnd. fold (getRadius p) in *. pose proof (nneg_div (getRadius p) earth_radius _ _ NR earth_bnd) as NQ.
  assert (G1 : 1 <= E (ddiv (getRadius p) earth_radius)).
  { pose proof (bnd_pos _ _ _ earth_bnd) as PE. destruct (nneg_cases _ NR) as [QI|(O & P)].
    - rewrite QI. rewrite (inf_div earth_radius _ _ earth_bnd). cbn [E]. pose proof BB_pos. lra.
    - destruct (divE (getRadius p) earth_radius O (proj1 earth_bnd) P PE) as (_ & Q & _). rewrite Q. rewrite (E_fin (getRadius p)) in GE by apply O. apply Rmin_glb; [pose proof BB_pos; lra|].
      rewrite <- (rnd_id d1 (proj1 o_ok)) at 1 || idtac. pose proof (rnd_id d1 (proj1 o_ok)) as R1. rewrite (proj2 o_ok) in R1. rewrite <- R1. apply (rnd_le 53 1024). unfold Rdiv.
      apply Rmult_le_reg_r with (r := R earth_radius); [exact PE|]. rewrite Rmult_assoc, Rinv_l by lra. lra. }
  generalize dependent (fcos (radians (lat p))). intros c K. generalize dependent (ddiv (getRadius p) earth_radius). intros q NQ G1. destruct (nneg_cases _ NQ) as [->|(O & P)].
  - destruct c as [s|s| |s m e]; try (destruct K; discriminate); destruct s; (split; [reflexivity|discriminate]).
  - destruct (Req_dec (R c) 0) as [Z|NZ]; [|apply div_dbl; assumption]. destruct c as [s|s| |s m e]; try (destruct K; discriminate); [|exfalso; exact (fin_nz _ _ _ Z)].
    rewrite E_fin in G1 by apply O. destruct q as [t|t| |t n f]; try (destruct O; discriminate); [unfold R in G1; cbn in G1; lra|]. destruct s, t; (split; [reflexivity|discriminate]).
Qed.
Lemma bell_ok l c w a b e f : dbl l -> bnd a b c -> bnd e f w -> nb 0 (fexp (ddiv (dmul (SFopp (dsub l c)) (dsub l c)) w)).
Proof.
  intros D B W. assert (I : inr 0 1 (fexp (ddiv (dmul (SFopp (dsub l c)) (dsub l c)) w))). { apply (neg_exp fexp X). eapply neg_div; [|exact W]. apply square_neg. apply sub_dbl; [exact D|apply B]. }
  eapply inr_nb; [exact I|lra|change (b2 0) with 1; lra].
Qed.
Lemma flt_inf z : okd z -> flt (S754_infinity false) z = false.
Proof. intros (V & F). destruct z as [s|s| |s m e]; try discriminate F; try reflexivity; destruct s; reflexivity. Qed.
Lemma alt_small x n : nneg x -> (0 < n < 1000000)%Z -> flt x (dofZ n) = true -> okd x /\ 0 <= R x < IZR n.
Proof.
  intros N Hn L. destruct (ofZ_ex n ltac:(lia)) as (On & Rn). destruct (nneg_cases x N) as [->|(O & P)]; [rewrite (flt_inf _ On) in L; discriminate|]. apply (flt_d x (dofZ n) O On) in L. rewrite Rn in L. split; [exact O|lra].
Qed.
Lemma af_ok x : nneg x -> nb 0 (if flt x (dofZ 1000) then ddiv x (dofZ 1000) else d1).
Proof.
  intros N. destruct (flt x (dofZ 1000)) eqn:L.
  - destruct (alt_small x 1000 N ltac:(lia) L) as (O & B). destruct z1000 as (Oz & Rz). destruct (div_d x (dofZ 1000) O Oz) as (Od & Rd); [lra|rewrite Rz; unfold mid; lra|].
    split; [exact Od|]. rewrite Rd, Rz. change (b2 0) with 1. apply (rnd_int 0 1); [lia|lia|lra].
  - split; [apply o_ok|]. rewrite (proj2 o_ok). change (b2 0) with 1. lra.
Qed.
Definition fnb (a b c d : Z) (f : flux) : Prop := nb a (electron f) /\ nb b (proton f) /\ nb c (ion f) /\ nb d (dose f).
Ltac lnb k := (apply (lit_nb k); vm_compute; reflexivity).
Lemma va_ok p : on_earth p -> fnb 17 17 8 (-3) (van_allen_model fexp fcos p).
Proof.
  intros H. pose proof (lshell_dbl p H) as L. unfold van_allen_model. set (l := ddiv (ddiv (getRadius p) earth_radius) (fcos (radians (lat p)))) in *. clearbody l.
  assert (I : nb 0 (fexp (ddiv (dmul (SFopp (dsub l (dq 15 10))) (dsub l (dq 15 10))) (dq 5 10)))) by (eapply (bell_ok _ _ _ (-10) 10 (-10) 10); [exact L|apply lit_bnd; vm_compute; reflexivity|apply lit_bnd; vm_compute; reflexivity]).
  assert (U : nb 0 (fexp (ddiv (dmul (SFopp (dsub l (dq 45 10))) (dsub l (dq 45 10))) (dofZ 2)))) by (eapply (bell_ok _ _ _ (-10) 10 (-10) 10); [exact L|apply lit_bnd; vm_compute; reflexivity|apply lit_bnd; vm_compute; reflexivity]).
  pose proof (af_ok (alt p) (proj1 (nneg_not _) (oe_alt p H))) as A. cbv zeta. set (i := fexp (ddiv (dmul (SFopp (dsub l (dq 15 10))) _) _)) in *. set (o := fexp (ddiv (dmul (SFopp (dsub l (dq 45 10))) _) _)) in *.
  set (af := if flt _ _ then _ else d1) in *. clearbody i o af. assert (S : nb 1 (dadd i o)) by (apply (nb_add 0); [exact I|exact U|lia]).
  assert (k5 : nb 17 (dofZ 100000)) by lnb 17%Z. assert (k2 : nb 7 (dofZ 100)) by lnb 7%Z. assert (k05 : nb (-4) (dq 5 100)) by lnb (-4)%Z.
  unfold fnb. cbn [electron proton ion dose]. repeat split; try apply (nb_mul 17 0 _ _ (proj1 (nb_mul 17 0 _ _ k5 U ltac:(lia))) A ltac:(lia)).
  all: try apply (nb_mul 17 0 _ _ (proj1 (nb_mul 17 0 _ _ k5 I ltac:(lia))) A ltac:(lia)); try apply (nb_mul 8 0 _ _ (proj1 (nb_mul 7 1 _ _ k2 S ltac:(lia))) A ltac:(lia)); apply (nb_mul (-3) 0 _ _ (proj1 (nb_mul (-4) 1 _ _ k05 S ltac:(lia))) A ltac:(lia)).
Qed.
End X.
