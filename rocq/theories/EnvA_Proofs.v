(** The laws of the whole environment: activity, dose, anomaly. *)
From Coq Require Import List NArith ZArith Bool Arith Lia Reals Lra SpecFloat.
Import ListNotations.
From Flocq Require Import Core BinarySingleNaN.
From Verif Require Import Outcome Words Floats FloatsR HealthFloat RMA3_Proofs Tester3_Proofs Hw_Proofs Hw2_Proofs Qft_Model Qft_Spec Qft2_Proofs Qft4_Proofs Qft5_Proofs Qft6_Proofs Qer3_Proofs Env_Model EnvB_Spec Env3_Proofs Env4_Proofs Env5_Proofs Env6_Proofs Env7_Proofs Env8_Proofs.
Local Open Scope R_scope.

Section X.
Variables fexp fcos : sf -> sf.
Hypothesis X : exp_lib fexp.
Hypothesis C : unit_lib fcos.
Notation flux_of := (calculateRadiationFlux fexp fcos).
Definition same_but_activity (r r' : renv) : Prop := r_mission r = r_mission r' /\ r_e r = r_e r' /\ r_p r = r_p r' /\ r_h r = r_h r'.
Lemma flux_law r p : env_ok r -> on_earth p -> let f := mission_flux fexp fcos (r_mission r) p in let a := R (r_solar r) in
  Rabs (R (electron (flux_of r p)) - R (r_e r) * R (electron f) * (15 / 10 + 47 / 10 * a)) <= 2 / 100000 /\
  Rabs (R (proton (flux_of r p)) - R (r_p r) * R (proton f) * (2 + 97 / 10 * a)) <= 2 / 100000 /\
  Rabs (R (ion (flux_of r p)) - R (r_h r) * R (ion f) * (1 - 3 / 10 * a)) <= 2 / 100000.
Proof.
  intros V H f a. pose proof (mission_ok fexp X fcos C (r_mission r) p H) as (E1 & P1 & H1 & _). fold f in E1, P1, H1. destruct V as (A & KE & KP & KH). unfold calculateRadiationFlux, applyShielding. cbn [electron proton ion]. fold f. rewrite solar_eq. cbn [electron proton ion].
  split; [|split]; apply shield_law; try assumption.
  - apply solar_e_ok; assumption.
  - apply solar_e_law; assumption.
  - apply solar_p_ok; assumption.
  - apply solar_p_law; assumption.
  - apply (nb_weak 16); [apply (nb_mul 16 0); [exact H1|apply gfac_nb; exact A|lia]|lia].
  - apply ion_law; assumption.
Qed.
Lemma activity_law r r' p : env_ok r -> env_ok r' -> same_but_activity r r' -> on_earth p -> let a := R (r_solar r) in let a' := R (r_solar r') in
  Rabs (R (electron (flux_of r' p)) * (15 / 10 + 47 / 10 * a) - R (electron (flux_of r p)) * (15 / 10 + 47 / 10 * a')) <= / 1000 /\
  Rabs (R (proton (flux_of r' p)) * (2 + 97 / 10 * a) - R (proton (flux_of r p)) * (2 + 97 / 10 * a')) <= / 1000 /\
  Rabs (R (ion (flux_of r' p)) * (1 - 3 / 10 * a) - R (ion (flux_of r p)) * (1 - 3 / 10 * a')) <= / 1000.
Proof.
  intros V V' (M & Q1 & Q2 & Q3) H a a'. destruct (flux_law r p V H) as (A & B & D). destruct (flux_law r' p V' H) as (A' & B' & D'). cbv zeta in *. rewrite <- M, <- Q1 in A'. rewrite <- M, <- Q2 in B'. rewrite <- M, <- Q3 in D'. fold a in A, B, D. fold a' in A', B', D'.
  assert (Ba : 0 <= a <= 1) by apply V. assert (Ba' : 0 <= a' <= 1) by apply V'. split; [|split]; eapply two_laws; try eassumption; lra.
Qed.
Lemma rnd_abs24 t : 0 <= t <= 268435456 -> t - / 1000000 <= rnd64 t <= t + / 1000000. Proof. intros B. apply rnd_abs28. lra. Qed.
Lemma tenths : Rabs (R (dq 1 1000) - / 1000) <= / 1000000000000000 /\ Rabs (R (dq 1 100) - / 100) <= / 1000000000000000 /\ Rabs (R (dq 1 10) - / 10) <= / 1000000000000000.
Proof.
  assert (A : dq 1 1000 = S754_finite false 4611686018427388 (-62)) by (vm_compute; reflexivity). assert (B : dq 1 100 = S754_finite false 5764607523034235 (-59)) by (vm_compute; reflexivity).
  rewrite A, B. destruct tenth_dec as (_ & T). rewrite !fin_R. cbn [cond_Zopp]. split; [|split].
  - change (b2 (-62)) with (/ 4611686018427387904). apply Rabs_le. lra.
  - change (b2 (-59)) with (/ 576460752303423488). apply Rabs_le. lra.
  - replace (/ 10) with (IZR 1 / IZR 10) by lra. exact T.
Qed.
Lemma prod24 x c v k : nb k x -> b2 k <= 134217728 -> nb 0 c -> Rabs (R c - v) <= / 1000000000000000 -> R x * v - 2 / 1000000 <= R (dmul x c) <= R x * v + 2 / 1000000 /\ (-500 <= k <= 500 -> True)%Z.
Proof.
  intros (O & B) K (Oc & Bc) L. split; [|trivial]. change (b2 0) with 1 in Bc. assert (M : 0 <= R x * R c <= 134217728) by nra. destruct (mul_d x c O Oc) as (Om & Rm); [unfold mid; lra|]. pose proof (rnd_abs24 _ (ltac:(lra) : 0 <= R x * R c <= 268435456)) as E1. rewrite <- Rm in E1.
  assert (D : Rabs (R x * (R c - v)) <= / 1000000). { rewrite Rabs_mult, (Rabs_pos_eq (R x)) by lra. pose proof (Rabs_pos (R c - v)). apply Rle_trans with (134217728 * / 1000000000000000); [apply Rmult_le_compat; lra|lra]. } apply Rabs_le_inv in D. lra.
Qed.
Lemma dose_law r p : env_ok r -> on_earth p -> let f := flux_of r p in Rabs (R (dose f) - (R (electron f) / 1000 + R (proton f) / 100 + R (ion f) / 10)) <= / 10000 /\ Rabs (R (getTotalFlux f) - (R (electron f) + R (proton f) + R (ion f))) <= / 10000.
Proof.
  intros V H f. pose proof (flux_ok27 fexp fcos X C r p V H) as (E1 & P1 & H1 & _). fold f in E1, P1, H1. assert (Q : dose f = dose_of (electron f) (proton f) (ion f)) by reflexivity. rewrite Q. clear Q. destruct tenths as (T1 & T2 & T3).
  assert (n1 : nb 0 (dq 1 1000)) by lnb 0%Z. assert (n2 : nb 0 (dq 1 100)) by lnb 0%Z. assert (n3 : nb 0 (dq 1 10)) by lnb 0%Z. assert (K27 : b2 27 <= 134217728) by (change (b2 27) with 134217728; lra). assert (K16 : b2 16 <= 134217728) by (change (b2 16) with 65536; lra).
  destruct (prod24 _ _ _ _ E1 K27 n1 T1) as (A & _). destruct (prod24 _ _ _ _ P1 K27 n2 T2) as (B & _). destruct (prod24 _ _ _ _ H1 K16 n3 T3) as (D & _).
  pose proof (proj1 (nb_mul _ _ _ _ E1 m1 ltac:(lia))) as A1. pose proof (proj1 (nb_mul _ _ _ _ P1 m2 ltac:(lia))) as B1. pose proof (proj1 (nb_mul _ _ _ _ H1 m3 ltac:(lia))) as C1.
  assert (A2 : nb 21 (dmul (electron f) (dq 1 1000))) by (apply (nb_weak 18); [exact A1|lia]). destruct (nb_add 21 _ _ A2 B1 ltac:(lia)) as (S1 & QS). assert (C2 : nb 22 (dmul (ion f) (dq 1 10))) by (apply (nb_weak 13); [exact C1|lia]).
  destruct (nb_add 22 _ _ S1 C2 ltac:(lia)) as (S2 & QS2). fold (dose_of (electron f) (proton f) (ion f)) in QS2. assert (Z1 : 0 <= R (dmul (electron f) (dq 1 1000)) <= b2 21) by apply A2. assert (Z2 : 0 <= R (dmul (proton f) (dq 1 100)) <= b2 21) by apply B1. assert (Z3 : 0 <= R (dmul (ion f) (dq 1 10)) <= b2 22) by apply C2.
  change (b2 21) with 2097152 in *. change (b2 22) with 4194304 in *. pose proof (rnd_abs24 _ (ltac:(split; lra) : 0 <= R (dmul (electron f) (dq 1 1000)) + R (dmul (proton f) (dq 1 100)) <= 268435456)) as F1. rewrite <- QS in F1.
  assert (Z4 : 0 <= R (dadd (dmul (electron f) (dq 1 1000)) (dmul (proton f) (dq 1 100)))) by apply S1.
  pose proof (rnd_abs24 _ (ltac:(split; lra) : 0 <= R (dadd (dmul (electron f) (dq 1 1000)) (dmul (proton f) (dq 1 100))) + R (dmul (ion f) (dq 1 10)) <= 268435456)) as F2. rewrite <- QS2 in F2. split; [apply Rabs_le; lra|].
  destruct (nb_add 27 _ _ E1 P1 ltac:(lia)) as (S3 & QS3). assert (H2 : nb 28 (ion f)) by (apply (nb_weak 16); [exact H1|lia]). destruct (nb_add 28 _ _ S3 H2 ltac:(lia)) as (S4 & QS4). fold (getTotalFlux f) in QS4.
  assert (Y1 : 0 <= R (electron f) <= b2 27) by apply E1. assert (Y2 : 0 <= R (proton f) <= b2 27) by apply P1. assert (Y3 : 0 <= R (ion f) <= b2 16) by apply H1. change (b2 27) with 134217728 in *. change (b2 16) with 65536 in *.
  pose proof (rnd_abs24 _ (ltac:(split; lra) : 0 <= R (electron f) + R (proton f) <= 268435456)) as F3. rewrite <- QS3 in F3. assert (Y4 : 0 <= R (dadd (electron f) (proton f))) by apply S3.
  assert (F4 : Rabs (rnd64 (R (dadd (electron f) (proton f)) + R (ion f)) - (R (dadd (electron f) (proton f)) + R (ion f))) <= / 1000000).
  { set (t := R (dadd (electron f) (proton f)) + R (ion f)). assert (BT : 0 <= t <= 400000000) by (unfold t; lra). destruct (Rle_or_lt (/ 1048576) t) as [L|G].
    - pose proof (rnd_near t (small_normal t L)) as HN. unfold u12 in HN. apply Rabs_le. lra.
    - pose proof (rnd64_abs t ltac:(lra)). apply Rabs_le. lra. }
  rewrite <- QS4 in F4. apply Rabs_le_inv in F4. apply Rabs_le. lra.
Qed.
(** the anomaly shows in the proton flux behind no shield *)
Lemma bare_parts r m : 1 - / 100000 <= R (r_p (setShielding fexp r d0 m)) <= 1.
Proof.
  unfold setShielding, updateShielding. cbn [r_mat r_thick]. destruct (att_bnd m) as (_ & B & _). destruct (attenuation m) as ((x & y) & z). cbn [fst snd] in *. cbn [r_p].
  destruct (att_neg _ _ y d0 B N0) as (D & L). assert (Q : dmul (SFopp y) d0 = S754_zero true). { destruct (bnd_shape _ _ _ B) as (k & e & ->). reflexivity. } rewrite Q in *.
  destruct (neg_exp fexp X _ (conj D L)) as (_ & U). split; [|apply U]. pose proof (exp_lin _ X (S754_zero true) (conj eq_refl eq_refl)) as G. rewrite zR in G. specialize (G ltac:(lra)). lra.
Qed.
Lemma leo_protons m p q : m = LEO_EQUATORIAL \/ m = LEO_POLAR -> on_earth p -> on_earth q -> lat p = lat q -> alt p = alt q -> 20 + / 100 < sqrt (saa_distance2 p) -> sqrt (saa_distance2 q) <= 10 ->
  R (proton (mission_flux fexp fcos m p)) + 489999 <= R (proton (mission_flux fexp fcos m q)).
Proof.
  intros M H H' La Al L L'. destruct (gcr_lon fexp fcos p q La Al) as (G & V). pose proof (saa_outside fexp p (oe_lat _ H) (oe_lon _ H) L) as S.
  assert (Q : mission_flux fexp fcos m p = fplus (fplus (gcr_model q) (van_allen_model fexp fcos q)) flux0 /\ mission_flux fexp fcos m q = fplus (fplus (gcr_model q) (van_allen_model fexp fcos q)) (saa_model fexp q)).
  { destruct M; subst; cbn [mission_flux]; rewrite G, V, S; split; reflexivity. }
  destruct Q as (Q1 & Q2). rewrite Q1, Q2. pose proof (saa_inside fexp X q H' L') as SI. pose proof (saa_ok fexp X q H') as (_ & SP & _).
  assert (F : fnb 20 20 20 20 (fplus (gcr_model q) (van_allen_model fexp fcos q))).
  { eapply fnb_weak; [apply (fnb_plus 17 17 8 (-3)); [eapply fnb_weak; [apply gcr_ok; exact H'|lia..]|apply va_ok; assumption|lia..]|lia..]. }
  destruct F as (_ & FP & _). unfold fplus at 1 3. cbn [proton flux0]. set (b := proton (fplus (gcr_model q) (van_allen_model fexp fcos q))) in *. destruct (nb_add 20 _ _ FP (nb0 20) ltac:(lia)) as (_ & R1). destruct (nb_add 20 _ _ FP SP ltac:(lia)) as (_ & R2).
  assert (B1 : 0 <= R b <= b2 20) by apply FP. assert (B2 : 0 <= R (proton (saa_model fexp q)) <= b2 20) by apply SP. change (b2 20) with 1048576 in *. rewrite R1, R2. rewrite (proj2 z_ok). pose proof (rnd_abs24 (R b + 0) ltac:(lra)). pose proof (rnd_abs24 (R b + R (proton (saa_model fexp q))) ltac:(lra)). lra.
Qed.
Lemma anomaly_protons r m p q : env_ok r -> r_mission r = LEO_EQUATORIAL \/ r_mission r = LEO_POLAR -> on_earth p -> on_earth q -> lat p = lat q -> alt p = alt q -> 20 + / 100 < sqrt (saa_distance2 p) -> sqrt (saa_distance2 q) <= 10 ->
  let u := setShielding fexp r d0 m in R (proton (flux_of u p)) + 900000 <= R (proton (flux_of u q)).
Proof.
  intros V MM H H' La Al L L' u. assert (VU : env_ok u) by (apply (step_ok fexp X r (RShield d0 m) V); apply nneg_not; exact N0). assert (MU : r_mission u = r_mission r) by (unfold u; exact (run_mission fexp [RShield d0 m] r)).
  pose proof (leo_protons (r_mission r) p q MM H H' La Al L L') as D. rewrite <- MU in D. destruct (flux_law u p VU H) as (_ & A & _). destruct (flux_law u q VU H') as (_ & B & _). cbv zeta in A, B. apply Rabs_le_inv in A. apply Rabs_le_inv in B. pose proof (bare_parts r m) as K. fold u in K.
  assert (BA : 0 <= R (r_solar u) <= 1) by apply VU. set (x := R (proton (mission_flux fexp fcos (r_mission u) p))) in *. set (y := R (proton (mission_flux fexp fcos (r_mission u) q))) in *. set (k := R (r_p u)) in *. set (c := 2 + 97 / 10 * R (r_solar u)) in *. assert (Bc : 2 <= c) by (unfold c; lra). clearbody x y k c.
  assert (G : 489999 * (1 - / 100000) * 2 <= (y - x) * k * c). { apply Rmult_le_compat; try lra. apply Rmult_le_compat; lra. }
  lra.
Qed.
End X.
