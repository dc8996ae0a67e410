(** Rates of the physics simulator. *)
From Coq Require Import List NArith ZArith Bool Arith Lia Reals Lra SpecFloat.
Import ListNotations.
From Flocq Require Import Core BinarySingleNaN.
From Verif Require Import Outcome Words Floats FloatsR HealthFloat RMA3_Proofs Tester3_Proofs Strat6_Proofs Hw_Proofs Qft_Model Qft_Spec Qft2_Proofs Qft4_Proofs Qft5_Proofs Qft6_Proofs Qer3_Proofs EnvB_Spec Env3_Proofs Env8_Proofs Phys_Model Phys_Spec.
Local Open Scope R_scope.

(** ** relative accuracy *)
Definition ap (a v : Rdefinitions.R) (x : sf) : Prop := v * (1 - a) <= R x <= v * (1 + a).
Definition ee : Rdefinitions.R := / 1000000000000000.
Lemma ap_mul a b v w x y c d c' d' : 0 <= a <= / 1000 -> 0 <= b <= / 1000 -> 0 < v -> 0 < w -> bnd c d x -> bnd c' d' y -> (-1000 <= c + c')%Z -> (d + d' <= 1000)%Z -> ap a v x -> ap b w y ->
  ap (11 / 10 * (a + b + ee)) (v * w) (dmul x y) /\ bnd (c + c') (d + d') (dmul x y).
Proof.
  intros A B V W X Y L U P Q. destruct (bnd_mul _ _ _ _ _ _ X Y ltac:(lia) U) as (N & E1). split; [|exact N].
  pose proof (bnd_pos _ _ _ X) as PX. pose proof (bnd_pos _ _ _ Y) as PY. unfold ap in *. assert (NT : b2 (-1022) <= R x * R y).
  { destruct X as (_ & X & _), Y as (_ & Y & _). apply Rle_trans with (b2 (c + c')); [apply bpow_le; lia|]. rewrite bpow_plus. apply Rmult_le_compat; try assumption; apply bpow_ge_0. }
  pose proof (rnd_near _ NT) as HN. rewrite <- E1 in HN. unfold u12 in HN. set (t := R x * R y) in *. set (z := R (dmul x y)) in *. clearbody z.
  assert (T1 : v * (1 - a) * (w * (1 - b)) <= t) by (apply Rmult_le_compat; try lra; apply Rmult_le_pos; lra). assert (T2 : t <= v * (1 + a) * (w * (1 + b))) by (apply Rmult_le_compat; lra).
  assert (VW : 0 < v * w) by (apply Rmult_lt_0_compat; assumption). replace (v * (1 - a) * (w * (1 - b))) with (v * w * ((1 - a) * (1 - b))) in T1 by ring. replace (v * (1 + a) * (w * (1 + b))) with (v * w * ((1 + a) * (1 + b))) in T2 by ring.
  set (p := v * w) in *. clearbody p t. unfold ee. assert (AB : 0 <= a * b <= / 1000 * a) by nra. split.
  - apply Rle_trans with (p * ((1 - a) * (1 - b)) * (1 - / 1000 * / 1000000000000)); [|apply Rle_trans with (t * (1 - / 1000 * / 1000000000000)); [apply Rmult_le_compat_r; lra|lra]].
    rewrite Rmult_assoc. apply Rmult_le_compat_l; [lra|]. assert (K : 1 - (a + b) <= (1 - a) * (1 - b) <= 1) by nra. set (q := (1 - a) * (1 - b)) in *. clearbody q. lra.
  - apply Rle_trans with (p * ((1 + a) * (1 + b)) * (1 + / 1000 * / 1000000000000)); [apply Rle_trans with (t * (1 + / 1000 * / 1000000000000)); [lra|apply Rmult_le_compat_r; lra]|].
    rewrite Rmult_assoc. apply Rmult_le_compat_l; [lra|]. assert (K : 1 <= (1 + a) * (1 + b) <= 1 + (a + b) + / 1000 * a) by nra. set (q := (1 + a) * (1 + b)) in *. clearbody q. lra.
Qed.
Lemma ap_lit x m e v : x = S754_finite false m e -> 0 < v -> v * (1 - / 1000000000000000) <= IZR (Z.pos m) * b2 e <= v * (1 + / 1000000000000000) -> ap ee v x.
Proof. intros -> V B. unfold ap, ee. rewrite fin_R. cbn [cond_Zopp]. exact B. Qed.
Ltac lit_ap := match goal with |- ap ee ?v ?x => let y := eval vm_compute in x in match y with S754_finite false ?m ?e =>
    apply (ap_lit x m e v); [vm_compute; reflexivity|lra|let p := eval vm_compute in (2 ^ (Z.abs e))%Z in match p with Z.pos ?q =>
       first [change (b2 e) with (/ IZR (Z.pos q))|change (b2 e) with (IZR (Z.pos q))]; lra end] end end.
Lemma prob_ap t : ap ee (base_probability t) (probability t) /\ bnd (-31) (-22) (probability t).
Proof. destruct t; cbn [base_probability probability]; (split; [lit_ap|apply lit_bnd; vm_compute; reflexivity]). Qed.
Lemma mod_ap e : ap ee (level e) (modifier e) /\ bnd (-1) 11 (modifier e).
Proof. destruct e; cbn [level modifier]; (split; [lit_ap|apply lit_bnd; vm_compute; reflexivity]). Qed.
Lemma mega_ap : ap ee 1000000 (dofZ 1000000) /\ bnd 19 20 (dofZ 1000000).
Proof. split; [lit_ap|apply lit_bnd; vm_compute; reflexivity]. Qed.
Lemma lits : R (dq 5 10) = / 2 /\ 7 / 10 - / 1000000000000000 <= R (dq 7 10) <= 7 / 10 + / 1000000000000000 /\ 3 / 10 - / 1000000000000000 <= R (dq 3 10) <= 3 / 10 + / 1000000000000000.
Proof.
  assert (A : dq 5 10 = S754_finite false 4503599627370496 (-53)) by (vm_compute; reflexivity). assert (P7 : ap ee (7 / 10) (dq 7 10)) by lit_ap. assert (P3 : ap ee (3 / 10) (dq 3 10)) by lit_ap. unfold ap, ee in P7, P3. split; [|lra].
  rewrite A, fin_R. cbn [cond_Zopp]. change (b2 (-53)) with (/ 9007199254740992). lra.
Qed.

(** ** activity *)
Lemma solar_any a : inr 0 1 (fmax d0 (fmin d1 a)) \/ ~ is_double a.
Proof.
  destruct (valid_binary 53 1024 a) eqn:V; [left|right; unfold is_double; congruence]. unfold fmin. destruct (flt a d1) eqn:L.
  - unfold fmax. destruct (flt d0 a) eqn:K; [|split; [exact (proj1 z_ok)|rewrite (proj2 z_ok); lra]]. assert (N : a <> S754_nan) by (intros ->; discriminate L). assert (D : dbl a) by (split; assumption).
    apply (ltE a d1 D (okd_dbl _ (proj1 o_ok))) in L. apply (ltE d0 a (okd_dbl _ (proj1 z_ok)) D) in K. rewrite (E_fin d1 eq_refl), (proj2 o_ok) in L. rewrite (E_fin d0 eq_refl), (proj2 z_ok) in K. pose proof BB_pos.
    assert (F : fin a = true). { destruct a as [|[]| |]; try reflexivity; cbn [E] in *; try lra; try congruence. }
    rewrite (E_fin a F) in L, K. split; [split; assumption|lra].
  - unfold fmax. assert (Q : flt d0 d1 = true) by (vm_compute; reflexivity). rewrite Q. split; [exact (proj1 o_ok)|rewrite (proj2 o_ok); lra].
Qed.
Lemma abs16 t : 0 <= t <= 16 -> t - / 50000000000000 <= rnd64 t <= t + / 50000000000000. Proof. apply rnd_abs16. Qed.
Definition gcr_of (a : sf) : sf := dsub d1 (dmul (dq 5 10) a).
Definition spe_of (a : sf) : sf := dmul (dmul a a) (dofZ 5).
Lemma gcr_law a : inr 0 1 a -> nb 0 (gcr_of a) /\ Rabs (R (gcr_of a) - (1 - R a / 2)) <= / 10000000000000.
Proof.
  intros (O & B). destruct lits as (H & _). assert (N5 : nb 0 (dq 5 10)) by (apply lit_nb; vm_compute; reflexivity). assert (Na : nb 0 a) by (split; [exact O|change (b2 0) with 1; exact B]).
  destruct (nb_mul 0 0 _ _ N5 Na ltac:(lia)) as ((O1 & B1) & E1). change (b2 (0 + 0)) with 1 in B1. rewrite H in E1. pose proof (abs16 (/ 2 * R a) ltac:(lra)) as A1. rewrite <- E1 in A1.
  destruct (sub_d d1 _ (proj1 o_ok) O1) as (O2 & E2); [unfold mid; rewrite (proj2 o_ok); lra|]. rewrite (proj2 o_ok) in E2. pose proof (abs16 (1 - R (dmul (dq 5 10) a)) ltac:(lra)) as A2. fold (gcr_of a) in O2, E2. rewrite <- E2 in A2.
  split; [|apply Rabs_le; lra]. split; [exact O2|]. change (b2 0) with 1. rewrite E2. apply (rnd_int 0 1); [lia|lia|lra].
Qed.
Lemma spe_law a : inr 0 1 a -> nb 3 (spe_of a) /\ Rabs (R (spe_of a) - 5 * (R a * R a)) <= / 5000000000000.
Proof.
  intros (O & B). assert (Na : nb 0 a) by (split; [exact O|change (b2 0) with 1; exact B]). assert (N5 : nb 3 (dofZ 5)) by (apply lit_nb; vm_compute; reflexivity). destruct (ofZ_ex 5 ltac:(lia)) as (_ & Q5).
  destruct (nb_mul 0 0 a a Na Na ltac:(lia)) as (N1 & E1). pose proof (abs16 (R a * R a) ltac:(nra)) as A1. rewrite <- E1 in A1. assert (B1 : 0 <= R (dmul a a) <= b2 0) by apply N1. change (b2 0) with 1 in B1.
  destruct (nb_mul (0 + 0) 3 _ _ N1 N5 ltac:(lia)) as (N2 & E2). rewrite Q5 in E2. pose proof (abs16 (R (dmul a a) * 5) ltac:(lra)) as A2. fold (spe_of a) in N2, E2. rewrite <- E2 in A2. split; [exact N2|]. apply Rabs_le. lra.
Qed.
Definition half_d : sf := dq 5 10.
Lemma mix_law p q g s v w P Q : nb 0 p -> nb 0 q -> nb 0 g -> nb 3 s -> P - / 1000000000000000 <= R p <= P + / 1000000000000000 -> Q - / 1000000000000000 <= R q <= Q + / 1000000000000000 -> 0 <= P <= 1 -> 0 <= Q <= 1 ->
  Rabs (R g - v) <= / 10000000000000 -> Rabs (R s - w) <= / 5000000000000 -> 0 <= v <= 1 -> 0 <= w <= 5 ->
  okd (dadd (dmul p g) (dmul q s)) /\ Rabs (R (dadd (dmul p g) (dmul q s)) - (P * v + Q * w)) <= / 1000000000000.
Proof.
  intros Np Nq Ng Ns HP HQ BP BQ HV HW BV BW. apply Rabs_le_inv in HV. apply Rabs_le_inv in HW. assert (b1 : 0 <= R p <= 1) by apply Np. assert (b2' : 0 <= R q <= 1) by apply Nq. assert (b3 : 0 <= R g <= 1) by apply Ng. assert (b4 : 0 <= R s <= b2 3) by apply Ns. change (b2 3) with 8 in b4.
  destruct (nb_mul 0 0 p g Np Ng ltac:(lia)) as (N1 & E1). destruct (nb_mul 0 3 q s Nq Ns ltac:(lia)) as (N2 & E2). assert (N1' : nb 3 (dmul p g)) by (apply (nb_weak (0 + 0)); [exact N1|lia]). destruct (nb_add 3 _ _ N1' N2 ltac:(lia)) as (N3 & E3).
  split; [apply N3|]. pose proof (abs16 (R p * R g) ltac:(nra)) as A1. rewrite <- E1 in A1. pose proof (abs16 (R q * R s) ltac:(nra)) as A2. rewrite <- E2 in A2. assert (c1 : 0 <= R (dmul p g)) by apply N1'. assert (c2 : 0 <= R (dmul q s)) by apply N2.
  assert (d1' : -/ 5000000000000 <= R p * R g - P * v <= / 5000000000000). { replace (R p * R g - P * v) with ((R p - P) * R g + P * (R g - v)) by ring. nra. }
  assert (d2' : -/ 4000000000000 <= R q * R s - Q * w <= / 4000000000000). { replace (R q * R s - Q * w) with ((R q - Q) * R s + Q * (R s - w)) by ring. assert (X1 : -/ 100000000000000 <= (R q - Q) * R s <= / 100000000000000) by nra. assert (X2 : -/ 5000000000000 <= Q * (R s - w) <= / 5000000000000) by nra. lra. }
  assert (S16 : R (dmul p g) + R (dmul q s) <= 16). { assert (R p * R g <= 1) by nra. assert (R q * R s <= 8) by nra. lra. }
  pose proof (abs16 (R (dmul p g) + R (dmul q s)) ltac:(lra)) as A3. rewrite <- E3 in A3. apply Rabs_le. lra.
Qed.
Lemma solar_mod s : inr 0 1 (p_solar s) -> okd (calculate_solar_modifier s) /\ Rabs (R (calculate_solar_modifier s) - activity_effect (region_of (p_place s)) (R (p_solar s))) <= / 1000000000000.
Proof.
  intros A. destruct lits as (H5 & H7 & H3). destruct (gcr_law _ A) as (G & LG). destruct (spe_law _ A) as (S & LS). assert (B : 0 <= R (p_solar s) <= 1) by apply A.
  assert (N5 : nb 0 (dq 5 10)) by (apply lit_nb; vm_compute; reflexivity). assert (N7 : nb 0 (dq 7 10)) by (apply lit_nb; vm_compute; reflexivity). assert (N3 : nb 0 (dq 3 10)) by (apply lit_nb; vm_compute; reflexivity).
  unfold calculate_solar_modifier. cbv zeta. fold (gcr_of (p_solar s)). fold (spe_of (p_solar s)). assert (BW : 0 <= 5 * (R (p_solar s) * R (p_solar s)) <= 5) by nra.
  destruct (p_place s); cbn [region_of activity_effect]; try (apply mix_law; try assumption; try (rewrite H5); lra).
  split; [exact (proj1 o_ok)|]. rewrite (proj2 o_ok). apply Rabs_le. lra.
Qed.
Lemma effect_pos r a : 0 <= a <= 1 -> 49 / 100 <= activity_effect r a <= 275 / 100.
Proof. intros B. assert (K : a * a <= a) by nra. pose proof (Rle_0_sqr (a - 7 / 60)) as K1. pose proof (Rle_0_sqr (a - / 20)) as K2. unfold Rsqr in K1, K2. destruct r; cbn [activity_effect]; lra. Qed.
Lemma solar_ap s : inr 0 1 (p_solar s) -> ap (/ 100000000000) (activity_effect (region_of (p_place s)) (R (p_solar s))) (calculate_solar_modifier s) /\ bnd (-2) 2 (calculate_solar_modifier s).
Proof.
  intros A. destruct (solar_mod s A) as (O & L). apply Rabs_le_inv in L. pose proof (effect_pos (region_of (p_place s)) (R (p_solar s)) (proj2 A)) as P. unfold ap, bnd. change (b2 (-2)) with (/ 4). change (b2 2) with 4. split; [lra|]. split; [exact O|lra].
Qed.

(** ** shielding *)
Section X.
Variables (fexp : sf -> sf) (fpow : sf -> sf -> sf).
Lemma hundredth : okd (dq 1 100) /\ / 100 <= R (dq 1 100) <= / 99.
Proof. assert (Q : dq 1 100 = S754_finite false 5764607523034235 (-59)) by (vm_compute; reflexivity). rewrite Q. split; [split; vm_compute; reflexivity|]. rewrite fin_R. cbn [cond_Zopp]. change (b2 (-59)) with (/ 576460752303423488). lra. Qed.
Lemma cap_ok x : is_double x -> let y := fmax (dq 1 100) (fmin d1 x) in okd y /\ / 100 <= R y <= 1.
Proof.
  intros V y. unfold y. clear y. destruct hundredth as (OH & BH). unfold fmin. destruct (flt x d1) eqn:L.
  - unfold fmax. destruct (flt (dq 1 100) x) eqn:K; [|split; [exact OH|lra]]. assert (N : x <> S754_nan) by (intros ->; discriminate L). assert (D : dbl x) by (split; assumption).
    apply (ltE x d1 D (okd_dbl _ (proj1 o_ok))) in L. apply (ltE _ x (okd_dbl _ OH) D) in K. rewrite (E_fin d1 eq_refl), (proj2 o_ok) in L. rewrite (E_fin _ (proj2 OH)) in K. pose proof BB_pos.
    assert (F : fin x = true). { destruct x as [|[]| |]; try reflexivity; cbn [E] in *; try lra; try congruence. }
    rewrite (E_fin x F) in L, K. split; [split; assumption|lra].
  - unfold fmax. assert (Q : flt (dq 1 100) d1 = true) by (vm_compute; reflexivity). rewrite Q. split; [exact (proj1 o_ok)|rewrite (proj2 o_ok); lra].
Qed.
Hypothesis PD : forall x y, is_double (fpow x y).
Lemma shield_any s : okd (calculate_shielding_factor fexp fpow s) /\ / 100 <= R (calculate_shielding_factor fexp fpow s) <= 1.
Proof.
  unfold calculate_shielding_factor. destruct (fle (p_shield s) d0); [split; [exact (proj1 o_ok)|rewrite (proj2 o_ok); lra]|]. apply cap_ok. apply add_valid; apply mul_valid; try apply PD; vm_compute; reflexivity.
Qed.
Lemma shield_bnd s : bnd (-7) 0 (calculate_shielding_factor fexp fpow s).
Proof. destruct (shield_any s) as (O & B). split; [exact O|]. change (b2 (-7)) with (/ 128). change (b2 0) with 1. lra. Qed.
Lemma self_ap x a b : bnd a b x -> ap 0 (R x) x. Proof. intros _. unfold ap. lra. Qed.

(** ** rates *)
Lemma rate_ok s t : inr 0 1 (p_solar s) -> bnd (-22) 11 (error_rate fexp fpow s t) /\
  ap (/ 10000000000) (base_probability t * level (p_place s) * activity_effect (region_of (p_place s)) (R (p_solar s)) * R (calculate_shielding_factor fexp fpow s) * 1000000) (error_rate fexp fpow s t).
Proof.
  intros A. destruct (prob_ap t) as (P1 & B1). destruct (mod_ap (p_place s)) as (P2 & B2). destruct (solar_ap s A) as (P3 & B3). pose proof (shield_bnd s) as B4. pose proof (self_ap _ _ _ B4) as P4. destruct mega_ap as (P5 & B5).
  assert (V1 : 0 < base_probability t) by (destruct t; cbn [base_probability]; lra). assert (V2 : 0 < level (p_place s)) by (destruct (p_place s); cbn [level]; lra). pose proof (effect_pos (region_of (p_place s)) (R (p_solar s)) (proj2 A)) as V3. destruct (shield_any s) as (_ & V4).
  unfold error_rate, ee in *. assert (G0 : 0 <= / 1000000000000000 <= / 1000) by lra. destruct (ap_mul _ _ _ _ _ _ _ _ _ _ G0 G0 V1 V2 B1 B2 ltac:(lia) ltac:(lia) P1 P2) as (Q1 & C1). assert (W1 : 0 < base_probability t * level (p_place s)) by (apply Rmult_lt_0_compat; assumption). unfold ee in Q1.
  match type of Q1 with ap ?a _ _ => assert (G1 : 0 <= a <= / 1000) by lra end.
  destruct (ap_mul _ _ _ _ _ _ _ _ _ _ G1 (ltac:(lra) : 0 <= / 100000000000 <= / 1000) W1 (Rlt_le_trans _ _ _ (ltac:(lra) : 0 < 49 / 100) (proj1 V3)) C1 B3 ltac:(lia) ltac:(lia) Q1 P3) as (Q2 & C2). assert (W2 : 0 < base_probability t * level (p_place s) * activity_effect (region_of (p_place s)) (R (p_solar s))) by (apply Rmult_lt_0_compat; lra). unfold ee in Q2.
  match type of Q2 with ap ?a _ _ => assert (G2 : 0 <= a <= / 1000) by lra end.
  destruct (ap_mul _ _ _ _ _ _ _ _ _ _ G2 (ltac:(lra) : 0 <= 0 <= / 1000) W2 (Rlt_le_trans _ _ _ (ltac:(lra) : 0 < / 100) (proj1 V4)) C2 B4 ltac:(lia) ltac:(lia) Q2 P4) as (Q3 & C3). assert (W3 : 0 < base_probability t * level (p_place s) * activity_effect (region_of (p_place s)) (R (p_solar s)) * R (calculate_shielding_factor fexp fpow s)) by (apply Rmult_lt_0_compat; lra). unfold ee in Q3.
  match type of Q3 with ap ?a _ _ => assert (G3 : 0 <= a <= / 1000) by lra end.
  destruct (ap_mul _ _ _ _ _ _ _ _ _ _ G3 (ltac:(lra) : 0 <= / 1000000000000000 <= / 1000) W3 (ltac:(lra) : 0 < 1000000) C3 B5 ltac:(lia) ltac:(lia) Q3 P5) as (Q4 & C4). unfold ee in Q4.
  split; [apply (bnd_weak _ _ (-22) 11) in C4; [exact C4|lia|lia]|]. match type of Q4 with ap ?a ?v _ => assert (G4 : 0 <= a <= / 10000000000) by lra; assert (W4 : 0 < v) by (apply Rmult_lt_0_compat; lra) end.
  unfold ap in *. destruct Q4 as (Q4 & Q4'). split; [eapply Rle_trans; [|exact Q4]; apply Rmult_le_compat_l; lra|eapply Rle_trans; [exact Q4'|]; apply Rmult_le_compat_l; lra].
Qed.
End X.
