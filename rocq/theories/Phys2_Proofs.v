(** Shields, runs and missions of the physics simulator. *)
From Coq Require Import List NArith ZArith Bool Arith Lia Reals Lra SpecFloat.
Import ListNotations.
From Flocq Require Import Core BinarySingleNaN.
From Verif Require Import Outcome Words Floats FloatsR FloatsS HealthFloat RMA3_Proofs Tester3_Proofs Mission4_Proofs Strat6_Proofs Hw_Proofs Qft_Model Qft_Spec Qft2_Proofs Qft4_Proofs Qft5_Proofs Qft6_Proofs Qer3_Proofs EnvB_Spec Env3_Proofs Env8_Proofs Env9_Proofs Phys_Model Phys_Spec Phys_Proofs.
Local Open Scope outcome_scope.
Local Open Scope R_scope.

(** ** thicker shields *)
Definition mix (fpow : sf -> sf -> sf) (b : sf) : sf := dadd (dmul (dq 3 10) (fpow b (dq 12 10))) (dmul (dq 7 10) (fpow b (dq 7 10))).
Section Sh.
Variables (fexp : sf -> sf) (fpow : sf -> sf -> sf).
Hypothesis (X : exp_lib fexp) (LM : lib_mono fexp) (PW : pow_lib fpow).
Lemma b12 : between 0 2 (dq 12 10) /\ between 0 2 (dq 7 10).
Proof. assert (A : nb 1 (dq 12 10)) by (apply lit_nb; vm_compute; reflexivity). assert (B : nb 1 (dq 7 10)) by (apply lit_nb; vm_compute; reflexivity). split; [exact A|exact B]. Qed.
Lemma mix_ok b : inr 0 1 b -> nb 1 (mix fpow b).
Proof.
  intros B. assert (N3 : nb 0 (dq 3 10)) by (apply lit_nb; vm_compute; reflexivity). assert (N7 : nb 0 (dq 7 10)) by (apply lit_nb; vm_compute; reflexivity). destruct b12 as (C1 & C2).
  assert (P1 : nb 0 (fpow b (dq 12 10))) by exact (pow_unit _ PW b _ B C1). assert (P2 : nb 0 (fpow b (dq 7 10))) by exact (pow_unit _ PW b _ B C2).
  exact (proj1 (nb_add 0 _ _ (proj1 (nb_mul 0 0 _ _ N3 P1 ltac:(lia))) (proj1 (nb_mul 0 0 _ _ N7 P2 ltac:(lia))) ltac:(lia))).
Qed.
Lemma mix_mono b b' : inr 0 1 b -> inr 0 1 b' -> R b <= R b' -> R (mix fpow b) <= R (mix fpow b').
Proof.
  intros B B' L. assert (N3 : nb 0 (dq 3 10)) by (apply lit_nb; vm_compute; reflexivity). assert (N7 : nb 0 (dq 7 10)) by (apply lit_nb; vm_compute; reflexivity). destruct b12 as (C1 & C2).
  assert (P1 : nb 0 (fpow b (dq 12 10))) by exact (pow_unit _ PW b _ B C1). assert (P2 : nb 0 (fpow b (dq 7 10))) by exact (pow_unit _ PW b _ B C2).
  assert (P1' : nb 0 (fpow b' (dq 12 10))) by exact (pow_unit _ PW b' _ B' C1). assert (P2' : nb 0 (fpow b' (dq 7 10))) by exact (pow_unit _ PW b' _ B' C2).
  assert (F : fle b b' = true) by (apply (fle_d _ _ (proj1 B) (proj1 B')); exact L). pose proof (pow_grows _ PW _ _ _ B B' C1 F) as G1. pose proof (pow_grows _ PW _ _ _ B B' C2 F) as G2.
  apply (fle_d _ _ (proj1 P1) (proj1 P1')) in G1. apply (fle_d _ _ (proj1 P2) (proj1 P2')) in G2. unfold mix.
  apply (add_mono_nb 0); [exact (proj1 (nb_mul 0 0 _ _ N3 P1 ltac:(lia)))|exact (proj1 (nb_mul 0 0 _ _ N3 P1' ltac:(lia)))|exact (proj1 (nb_mul 0 0 _ _ N7 P2 ltac:(lia)))|exact (proj1 (nb_mul 0 0 _ _ N7 P2' ltac:(lia)))|lia| |]; (apply (mul_mono 0 0); [assumption..|lia|lra|assumption]).
Qed.
Lemma two_bnd : bnd 1 2 (dofZ 2). Proof. apply lit_bnd. vm_compute. reflexivity. Qed.
Lemma thin_nneg t : dbl t -> fle t d0 = false -> nneg t.
Proof. intros D F. split; [exact D|]. apply Rnot_lt_le. intros N. assert (fle t d0 = true); [|congruence]. apply (leE t d0 D (okd_dbl _ (proj1 z_ok))). rewrite E0. lra. Qed.
Lemma base_in t : nneg t -> inr 0 1 (fexp (ddiv (SFopp t) (dofZ 2))).
Proof. intros N. apply (neg_exp fexp X). rewrite div_opp_l. apply nneg_opp. exact (nneg_div t (dofZ 2) 1 2 N two_bnd). Qed.
Lemma base_mono t t' : nneg t -> nneg t' -> E t <= E t' -> R (fexp (ddiv (SFopp t') (dofZ 2))) <= R (fexp (ddiv (SFopp t) (dofZ 2))).
Proof.
  intros N N' L. pose proof (base_in t N) as B. pose proof (base_in t' N') as B'. apply (fle_d _ _ (proj1 B') (proj1 B)). rewrite !div_opp_l.
  pose proof (nneg_opp _ (nneg_div t (dofZ 2) 1 2 N two_bnd)) as (D & _). pose proof (nneg_opp _ (nneg_div t' (dofZ 2) 1 2 N' two_bnd)) as (D' & _).
  apply LM; [exact (proj1 D')|exact (proj1 D)|]. apply (leE _ _ D' D). rewrite !opp_E. pose proof (nneg_div_mono t t' (dofZ 2) 1 2 N N' two_bnd L). lra.
Qed.
Lemma cap_mono x y : nb 1 x -> nb 1 y -> R x <= R y -> R (fmax (dq 1 100) (fmin d1 x)) <= R (fmax (dq 1 100) (fmin d1 y)).
Proof.
  intros (OX & _) (OY & _) L. destruct (fmin_d d1 x (proj1 o_ok) OX) as (M1 & Q1). destruct (fmin_d d1 y (proj1 o_ok) OY) as (M2 & Q2).
  rewrite (proj2 (fmax_d _ _ (proj1 hundredth) M1)), (proj2 (fmax_d _ _ (proj1 hundredth) M2)), Q1, Q2. apply Rle_max_compat_l, Rle_min_compat_l, L.
Qed.
Lemma factor_ok s : p_shield s <> S754_nan -> is_double (p_shield s) -> nb 0 (calculate_shielding_factor fexp fpow s).
Proof.
  intros N D. unfold calculate_shielding_factor. destruct (fle (p_shield s) d0) eqn:F; [split; [exact (proj1 o_ok)|change (b2 0) with 1; rewrite (proj2 o_ok); lra]|]. cbv zeta. pose proof (base_in _ (thin_nneg _ (conj D N) F)) as B. fold (mix fpow (fexp (ddiv (SFopp (p_shield s)) (dofZ 2)))).
  destruct (cap_ok _ (proj1 (proj1 (mix_ok _ B)))) as (O & C). split; [exact O|change (b2 0) with 1; lra].
Qed.
Lemma factor_mono s t t' : is_double t -> is_double t' -> fle t t' = true -> R (calculate_shielding_factor fexp fpow (set_shielding s t')) <= R (calculate_shielding_factor fexp fpow (set_shielding s t)).
Proof.
  intros D D' L. assert (N : t <> S754_nan) by (intros C; rewrite C in L; discriminate L). assert (N' : t' <> S754_nan) by (intros C; rewrite C in L; destruct t; discriminate L).
  pose proof (factor_ok (set_shielding s t) N D) as K. pose proof (factor_ok (set_shielding s t') N' D') as K'. unfold nb in K, K'. change (b2 0) with 1 in K, K'.
  unfold calculate_shielding_factor in *. cbn [p_shield set_shielding] in *. destruct (fle t d0) eqn:F; [rewrite (proj2 o_ok); lra|]. apply (leE t t' (conj D N) (conj D' N')) in L.
  assert (F' : fle t' d0 = false). { destruct (fle t' d0) eqn:F'; [|reflexivity]. assert (fle t d0 = true); [|congruence]. apply (leE t d0 (conj D N) (okd_dbl _ (proj1 z_ok))). apply (leE t' d0 (conj D' N') (okd_dbl _ (proj1 z_ok))) in F'. lra. }
  rewrite F' in *. cbv zeta in *. pose proof (thin_nneg _ (conj D N) F) as P. pose proof (thin_nneg _ (conj D' N') F') as P'.
  apply cap_mono; [exact (mix_ok _ (base_in t' P'))|exact (mix_ok _ (base_in t P))|]. apply mix_mono; [exact (base_in t' P')|exact (base_in t P)|]. apply base_mono; assumption.
Qed.
End Sh.

(** ** rates as products *)
Section Rt.
Variables (fexp : sf -> sf) (fpow : sf -> sf -> sf).
Hypothesis PD : forall x y, is_double (fpow x y).
Lemma front_nb s t : inr 0 1 (p_solar s) -> bnd (-34) (-9) (dmul (dmul (probability t) (modifier (p_place s))) (calculate_solar_modifier s)).
Proof.
  intros A. destruct (prob_ap t) as (_ & B1). destruct (mod_ap (p_place s)) as (_ & B2). destruct (solar_ap s A) as (_ & B3). destruct (bnd_mul _ _ _ _ _ _ B1 B2 ltac:(lia) ltac:(lia)) as (C1 & _). destruct (bnd_mul _ _ _ _ _ _ C1 B3 ltac:(lia) ltac:(lia)) as (C2 & _).
  exact C2.
Qed.
Lemma rate_mono s t t' k : inr 0 1 (p_solar s) -> R (calculate_shielding_factor fexp fpow (set_shielding s t')) <= R (calculate_shielding_factor fexp fpow (set_shielding s t)) ->
  R (error_rate fexp fpow (set_shielding s t') k) <= R (error_rate fexp fpow (set_shielding s t) k).
Proof.
  intros A L. assert (A1 : inr 0 1 (p_solar (set_shielding s t))) by exact A. unfold error_rate. assert (Q : forall u, calculate_solar_modifier (set_shielding s u) = calculate_solar_modifier s) by reflexivity. rewrite !Q. cbn [p_place set_shielding].
  pose proof (front_nb s k A) as F. apply bnd_nb in F. pose proof (bnd_nb _ _ _ (shield_bnd fexp fpow PD (set_shielding s t))) as S1. pose proof (bnd_nb _ _ _ (shield_bnd fexp fpow PD (set_shielding s t'))) as S2. pose proof (bnd_nb _ _ _ (proj2 mega_ap)) as M.
  apply (mul_mono (-9 + 0) 20); [apply (nb_mul (-9) 0); [exact F|exact S2|lia]|apply (nb_mul (-9) 0); [exact F|exact S1|lia]|exact M|exact M|lia| |lra]. apply (mul_mono (-9) 0); [exact F|exact F|exact S2|exact S1|lia|lra|exact L].
Qed.
End Rt.

(** ** the number of bits as a double *)
Lemma bits_bnd n : (1 <= n < 2 ^ 64)%Z -> bnd 0 64 (dofZ n) /\ ap ee (IZR n) (dofZ n).
Proof.
  intros N. assert (B : b2 0 <= IZR n <= b2 64). { split; [change (b2 0) with 1; apply IZR_le; lia|]. change (b2 64) with (IZR (2 ^ 64)). apply IZR_le. lia. }
  destruct (rnd_bnd 0 64 (IZR n) ltac:(lia) ltac:(lia) B) as (RB & O). destruct (ofZ_R 53 1024 n O) as (A & F & V). fold (dofZ n) in *.
  split; [split; [split; assumption|rewrite A; exact RB]|]. unfold ap, ee. rewrite A. assert (K : b2 (-1022) <= IZR n) by (apply Rle_trans with (b2 0); [apply bpow_le; lia|apply B]). pose proof (rnd_near _ K) as H. unfold u12 in H. lra.
Qed.

(** ** runs *)
Definition npos (x : sf) : Prop := match x with S754_finite false _ _ | S754_infinity false => False | _ => True end.
Definition pos_or_zero (x : sf) : Prop := match x with S754_finite false _ _ | S754_zero false => True | _ => False end.
Lemma npos_mul x y : npos x -> pos_or_zero y -> npos (dmul x y).
Proof.
  unfold dmul, SFmul. destruct x as [a|a| |a m e], y as [b|b| |b n f]; cbn [npos pos_or_zero]; intros A B; try exact I; try contradiction; try (destruct a, b; contradiction || exact I).
  destruct a, b; try contradiction. pose proof (bra_sign true (Z.pos (m * n)) (e + f) loc_Exact) as S1. cbn [xorb]. destruct (SpecFloat.binary_round_aux 53 1024 true (Z.pos (m * n)) (e + f) loc_Exact) as [?|[]| |[]]; try exact I; discriminate S1.
Qed.
Lemma zero_mul x s : npos (dmul x (S754_zero s)).
Proof. destruct x as [a|a| |a m e]; destruct s; exact I. Qed.
Lemma pos_mul_npos x y : pos_or_zero x -> npos y -> npos (dmul x y).
Proof. intros A B. rewrite mul_comm. apply npos_mul; assumption. Qed.
Lemma bnd_poz a b x : bnd a b x -> pos_or_zero x.
Proof. intros B. destruct (bnd_shape _ _ _ B) as (m & e & Q). rewrite Q. exact I. Qed.
Lemma bits_poz n : (0 <= n < 2 ^ 64)%Z -> pos_or_zero (dofZ n).
Proof. intros N. destruct (Z.eq_dec n 0) as [Q|Q]; [rewrite Q; exact I|]. apply (bnd_poz 0 64). apply bits_bnd. lia. Qed.
Lemma notpos_npos d : flt d0 d = false -> npos d.
Proof. destruct d as [s|[]| |[] m e]; try (intros; exact I); intros H; discriminate H. Qed.
Lemma draw_ub G poisson mean (g : G) : npos mean -> draw_poisson G poisson mean g = UB UB_bad_iterator.
Proof. destruct mean as [s|[]| |[] m e]; cbn [npos]; try contradiction; reflexivity. Qed.
Lemma draw_ok G poisson mean (g : G) a b : bnd a b mean -> draw_poisson G poisson mean g = Ret (poisson mean g).
Proof. intros B. destruct (bnd_shape _ _ _ B) as (m & e & Q). rewrite Q. reflexivity. Qed.

Section Run.
Variables (fexp : sf -> sf) (fpow : sf -> sf -> sf) (G : Type) (poisson : sf -> G -> Z * G) (uniform : Z -> Z -> G -> Z * G).
Hypothesis PD : forall x y, is_double (fpow x y).
Definition rate_of (s : psim) : sf := dmul (dmul (modifier (p_place s)) (calculate_solar_modifier s)) (calculate_shielding_factor fexp fpow s).
Lemma rate_bnd s : inr 0 1 (p_solar s) -> bnd (-10) 13 (rate_of s) /\ ap (/ 50000000000) (level (p_place s) * activity_effect (region_of (p_place s)) (R (p_solar s)) * R (calculate_shielding_factor fexp fpow s)) (rate_of s).
Proof.
  intros A. destruct (mod_ap (p_place s)) as (P2 & B2). destruct (solar_ap s A) as (P3 & B3). pose proof (shield_bnd fexp fpow PD s) as B4. pose proof (self_ap _ _ _ B4) as P4.
  assert (V2 : 0 < level (p_place s)) by (destruct (p_place s); cbn [level]; lra). pose proof (effect_pos (region_of (p_place s)) (R (p_solar s)) (proj2 A)) as V3. destruct (shield_any fexp fpow PD s) as (_ & V4). unfold ee in *.
  destruct (ap_mul _ _ _ _ _ _ _ _ _ _ (ltac:(lra) : 0 <= / 1000000000000000 <= / 1000) (ltac:(lra) : 0 <= / 100000000000 <= / 1000) V2 (Rlt_le_trans _ _ _ (ltac:(lra) : 0 < 49 / 100) (proj1 V3)) B2 B3 ltac:(lia) ltac:(lia) P2 P3) as (Q1 & C1).
  unfold ee in Q1. assert (W1 : 0 < level (p_place s) * activity_effect (region_of (p_place s)) (R (p_solar s))) by (apply Rmult_lt_0_compat; lra). match type of Q1 with ap ?a _ _ => assert (G1 : 0 <= a <= / 1000) by lra end.
  destruct (ap_mul _ _ _ _ _ _ _ _ _ _ G1 (ltac:(lra) : 0 <= 0 <= / 1000) W1 (Rlt_le_trans _ _ _ (ltac:(lra) : 0 < / 100) (proj1 V4)) C1 B4 ltac:(lia) ltac:(lia) Q1 P4) as (Q2 & C2). unfold ee in Q2.
  split; [exact (bnd_weak _ _ (-10) 13 _ C2 ltac:(lia) ltac:(lia))|]. match type of Q2 with ap ?a ?v _ => assert (G4 : 0 <= a <= / 50000000000) by lra; assert (W4 : 0 < v) by (apply Rmult_lt_0_compat; lra) end.
  unfold ap in *. fold (rate_of s) in Q2. destruct Q2 as (Q4 & Q4'). split; [eapply Rle_trans; [|exact Q4]; apply Rmult_le_compat_l; lra|eapply Rle_trans; [exact Q4'|]; apply Rmult_le_compat_l; lra].
Qed.
Definition good_days (d : sf) : Prop := between (/ 1000000) 1000000000 d.
Lemma days_bnd d : good_days d -> bnd (-20) 30 d.
Proof. intros (O & B). split; [exact O|]. change (b2 (-20)) with (/ 1048576). change (b2 30) with 1073741824. lra. Qed.
Lemma expected_ok s d t : inr 0 1 (p_solar s) -> (1 <= p_bits s < 2 ^ 64)%Z -> good_days d -> bnd (-61) 85 (expected s (rate_of s) d t) /\
  ap (/ 10000000000) (base_probability t * (level (p_place s) * activity_effect (region_of (p_place s)) (R (p_solar s)) * R (calculate_shielding_factor fexp fpow s)) * R d * IZR (p_bits s)) (expected s (rate_of s) d t).
Proof.
  intros A N D. destruct (prob_ap t) as (P1 & B1). destruct (rate_bnd s A) as (B2 & P2). pose proof (days_bnd d D) as B3. pose proof (self_ap _ _ _ B3) as P3. destruct (bits_bnd _ N) as (B4 & P4).
  assert (V1 : 0 < base_probability t) by (destruct t; cbn [base_probability]; lra). assert (VL : 0 < level (p_place s)) by (destruct (p_place s); cbn [level]; lra). pose proof (effect_pos (region_of (p_place s)) (R (p_solar s)) (proj2 A)) as VA. destruct (shield_any fexp fpow PD s) as (_ & VS).
  assert (V2 : 0 < level (p_place s) * activity_effect (region_of (p_place s)) (R (p_solar s)) * R (calculate_shielding_factor fexp fpow s)) by (apply Rmult_lt_0_compat; [apply Rmult_lt_0_compat; lra|lra]).
  pose proof (bnd_pos _ _ _ B3) as V3. assert (V4 : 0 < IZR (p_bits s)) by (apply IZR_lt; lia). unfold ee in *.
  destruct (ap_mul _ _ _ _ _ _ _ _ _ _ (ltac:(lra) : 0 <= / 1000000000000000 <= / 1000) (ltac:(lra) : 0 <= / 50000000000 <= / 1000) V1 V2 B1 B2 ltac:(lia) ltac:(lia) P1 P2) as (Q1 & C1). unfold ee in Q1. match type of Q1 with ap ?a ?v _ => assert (G1 : 0 <= a <= / 1000) by lra; assert (W1 : 0 < v) by (apply Rmult_lt_0_compat; lra) end.
  destruct (ap_mul _ _ _ _ _ _ _ _ _ _ G1 (ltac:(lra) : 0 <= 0 <= / 1000) W1 V3 C1 B3 ltac:(lia) ltac:(lia) Q1 P3) as (Q2 & C2). unfold ee in Q2. match type of Q2 with ap ?a ?v _ => assert (G2 : 0 <= a <= / 1000) by lra; assert (W2 : 0 < v) by (apply Rmult_lt_0_compat; lra) end.
  destruct (ap_mul _ _ _ _ _ _ _ _ _ _ G2 (ltac:(lra) : 0 <= / 1000000000000000 <= / 1000) W2 V4 C2 B4 ltac:(lia) ltac:(lia) Q2 P4) as (Q3 & C3). unfold ee in Q3. match type of Q3 with ap ?a ?v _ => assert (G3 : 0 <= a <= / 10000000000) by lra; assert (W3 : 0 < v) by (apply Rmult_lt_0_compat; lra) end.
  unfold expected. split; [exact (bnd_weak _ _ (-61) 85 _ C3 ltac:(lia) ltac:(lia))|]. unfold ap in *. destruct Q3 as (Q4 & Q4'). split; [eapply Rle_trans; [|exact Q4]; apply Rmult_le_compat_l; lra|eapply Rle_trans; [exact Q4'|]; apply Rmult_le_compat_l; lra].
Qed.
Lemma period_completes s d ts g : inr 0 1 (p_solar s) -> (1 <= p_bits s < 2 ^ 64)%Z -> good_days d -> completes (period_loop G poisson uniform s (rate_of s) d ts g).
Proof.
  intros A N D. revert g. induction ts as [|t r IH]; intros g; cbn [period_loop]; [eexists; reflexivity|]. rewrite (draw_ok G poisson _ g (-61) 85 (proj1 (expected_ok s d t A N D))). cbn [obind].
  destruct (draw_bits G uniform t _ _) as (here & g1). destruct (IH g1) as (y & Q). rewrite Q. cbn [obind]. eexists; reflexivity.
Qed.
Lemma period_ub s d g : inr 0 1 (p_solar s) -> (0 <= p_bits s < 2 ^ 64)%Z -> flt d0 d = false \/ p_bits s = 0%Z -> simulate_period fexp fpow G poisson uniform s d g = UB UB_bad_iterator.
Proof.
  intros A N H. unfold simulate_period, effects. cbn [period_loop]. fold (rate_of s). rewrite draw_ub; [reflexivity|]. unfold expected. destruct H as [H|H].
  - apply npos_mul; [|apply bits_poz; exact N]. apply pos_mul_npos; [|apply notpos_npos; exact H]. destruct (prob_ap SEU) as (_ & B1). destruct (rate_bnd s A) as (B2 & _). destruct (bnd_mul _ _ _ _ _ _ B1 B2 ltac:(lia) ltac:(lia)) as (C & _). exact (bnd_poz _ _ _ C).
  - rewrite H. apply zero_mul.
Qed.
(** events *)
Lemma bits_fst t n g : map fst (fst (draw_bits G uniform t n g)) = repeat t n.
Proof. revert g. induction n as [|n IH]; intros g; [reflexivity|]. cbn [draw_bits repeat]. destruct (uniform _ _ g) as (b & g1). specialize (IH g1). destruct (draw_bits G uniform t n g1) as (r & g2). cbn [fst map] in *. rewrite IH. reflexivity. Qed.
Definition in_range (ev : effect * Z) : Prop := (fst (bits_range (fst ev)) <= snd ev <= snd (bits_range (fst ev)))%Z.
Lemma bits_snd t n g : uniform_lib uniform -> Forall in_range (fst (draw_bits G uniform t n g)).
Proof.
  intros U. revert g. induction n as [|n IH]; intros g; [constructor|]. cbn [draw_bits]. pose proof (U (min_bits t) (max_bits t) g) as H. destruct (uniform (min_bits t) (max_bits t) g) as (b & g1). specialize (IH g1). destruct (draw_bits G uniform t n g1) as (r & g2). cbn [fst] in *. constructor; [|exact IH].
  unfold in_range. cbn [fst snd]. destruct t; cbn [bits_range min_bits max_bits fst snd] in *; apply H; lia.
Qed.
Lemma period_shape s rate d ts : forall g evs g', period_loop G poisson uniform s rate d ts g = Ret (evs, g') -> exists ns, length ns = length ts /\ map fst evs = concat (map (fun p => repeat (fst p) (snd p)) (combine ts ns)) /\
  Forall (fun p => exists g0, snd p = Z.to_nat (fst (poisson (expected s rate d (fst p)) g0))) (combine ts ns) /\ (uniform_lib uniform -> Forall in_range evs).
Proof.
  induction ts as [|t r IH]; intros g evs g' Q; cbn [period_loop] in Q.
  - injection Q as Q1 Q2. subst. exists []. split; [reflexivity|]. split; [reflexivity|]. split; [constructor|intros _; constructor].
  - apply obind_ret in Q. destruct Q as (x & Qx & Q). assert (Px : x = poisson (expected s rate d t) g). { unfold draw_poisson in Qx. destruct (expected s rate d t) as [?|?| |[]]; try discriminate Qx. injection Qx as Qx. congruence. }
    pose proof (bits_fst t (Z.to_nat (fst x)) (snd x)) as F. pose proof (bits_snd t (Z.to_nat (fst x)) (snd x)) as U. destruct (draw_bits G uniform t (Z.to_nat (fst x)) (snd x)) as (here & g1). apply obind_ret in Q. destruct Q as ((ev2 & g2) & Qy & Q). cbn [fst snd] in *. injection Q as Q1 Q2. subst evs g'.
    destruct (IH _ _ _ Qy) as (ns & L & M & C & I). exists (Z.to_nat (fst x) :: ns). cbn [length combine map concat fst snd]. split; [lia|]. split; [rewrite map_app, F, M; reflexivity|]. split; [constructor; [exists g; cbn [fst snd]; rewrite Px; reflexivity|exact C]|].
    intros UL. apply Forall_app. split; [exact (U UL)|exact (I UL)].
Qed.

(** ** missions *)
Lemma count_gen t (evs : list (effect * Z)) : forall n, fold_left (fun (n : Z) (ev : effect * Z) => if effect_eqb (fst ev) t then (n + 1)%Z else n) evs n = (n + Z.of_nat (length (filter (fun ev => effect_eqb (fst ev) t) evs)))%Z.
Proof. induction evs as [|ev r IH]; intros n; cbn [fold_left filter length]; [lia|]. rewrite IH. destruct (effect_eqb (fst ev) t); cbn [length]; lia. Qed.
Lemma mission_shape : forall es ds s g ms s' g', mission_loop fexp fpow G poisson uniform s es ds g = Ret (ms, s', g') -> (length es <= length ds)%nat /\ flown fexp fpow G poisson uniform s (combine es ds) g ms g' /\ length ms = length es /\ s' = set_environment s (last es (p_place s)).
Proof.
  induction es as [|e er IH]; intros ds s g ms s' g' Q; cbn [mission_loop] in Q.
  - injection Q as Q1 Q2 Q3. subst. cbn. split; [lia|]. split; [constructor|]. split; [reflexivity|]. destruct s'; reflexivity.
  - destruct ds as [|d dr]; [discriminate Q|]. apply obind_ret in Q. destruct Q as ((evs & g1) & Q1 & Q). apply obind_ret in Q. destruct Q as (((ms2 & s2) & g2) & Q2 & Q). cbn [fst snd] in *. injection Q as Qa Qb Qc. subst ms s' g'. destruct (IH _ _ _ _ _ _ Q2) as (L & F & LE & S2).
    cbn [length combine]. split; [lia|]. split; [|split; [lia|]].
    + eapply flown_leg; [exact Q1| |]. { intros t. unfold count. rewrite count_gen. lia. } revert F. generalize (combine er dr) as cs. clear. intros cs F. induction F; [constructor|]. econstructor; [|eassumption|exact IHF]. exact H.
    + rewrite S2. cbn [p_place set_environment]. destruct er as [|e2 er]; [reflexivity|]. cbn [last]. destruct s. unfold set_environment. cbn. f_equal. clear. revert e2. induction er as [|e3 er IH]; intros e2; [reflexivity|]. cbn [last] in *. apply IH.
Qed.
Lemma mission_completes : forall es ds s g, inr 0 1 (p_solar s) -> (1 <= p_bits s < 2 ^ 64)%Z -> length es = length ds -> Forall good_days ds -> completes (mission_loop fexp fpow G poisson uniform s es ds g).
Proof.
  induction es as [|e er IH]; intros ds s g A N L F; cbn [mission_loop]; [eexists; reflexivity|]. destruct ds as [|d dr]; [discriminate L|]. inversion F as [|? ? F1 F2]; subst. cbn [length] in L.
  destruct (period_completes (set_environment s e) d effects g A N F1) as (x & Q). unfold simulate_period. fold (rate_of (set_environment s e)). rewrite Q. cbn [obind]. destruct (IH dr (set_environment s e) (snd x) A N ltac:(lia) F2) as (y & Q2). rewrite Q2. cbn [obind]. eexists; reflexivity.
Qed.
Lemma mission_short : forall es ds s g, (length ds < length es)%nat -> ~ completes (mission_loop fexp fpow G poisson uniform s es ds g).
Proof. intros es ds s g L (((ms & s') & g') & Q). apply mission_shape in Q. lia. Qed.

(** ** dose *)
Lemma tid_frame s s1 d ts : p_place s = p_place s1 -> p_bits s = p_bits s1 -> p_shield s = p_shield s1 -> forall c g, tid_effects_loop fexp fpow G poisson s d ts c g = tid_effects_loop fexp fpow G poisson s1 d ts c g.
Proof.
  intros P B H. assert (K : calculate_shielding_factor fexp fpow s = calculate_shielding_factor fexp fpow s1) by (unfold calculate_shielding_factor; rewrite H; reflexivity).
  induction ts as [|t r IH]; intros c g; cbn [tid_effects_loop]; [reflexivity|]. destruct (is_tid t); [|apply IH]. rewrite P, B, K. destruct (draw_poisson _ _ _ _); cbn [obind]; try reflexivity. apply IH.
Qed.
Definition res3 (o : outcome ((effect -> Z) * psim * G)) : outcome ((effect -> Z) * G) := x <- o ;; Ret (fst (fst x), snd x).
Lemma tid_solar : forall es ds s a days done c g, res3 (tid_loop fexp fpow G poisson (set_solar_activity s a) days done es ds c g) = res3 (tid_loop fexp fpow G poisson s days done es ds c g).
Proof.
  induction es as [|e er IH]; intros ds s a days done c g; cbn [tid_loop]; [reflexivity|]. destruct (flt done days); [|reflexivity]. destruct ds as [|d dr]; [reflexivity|]. cbv zeta.
  rewrite (tid_frame (set_environment (set_solar_activity s a) e) (set_environment s e) (fmin d (dsub days done)) effects eq_refl eq_refl eq_refl). destruct (tid_effects_loop _ _ _ _ _ _ _ _ _) as [x| | |]; cbn [obind]; try reflexivity.
  change (set_environment (set_solar_activity s a) e) with (set_solar_activity (set_environment s e) a). apply IH.
Qed.
Lemma tid_state : forall es ds s days done c g c' s' g', tid_loop fexp fpow G poisson s days done es ds c g = Ret (c', s', g') -> exists e, (e = p_place s \/ In e es) /\ s' = set_environment s e.
Proof.
  induction es as [|e er IH]; intros ds s days done c g c' s' g' Q; cbn [tid_loop] in Q.
  - injection Q as Q1 Q2 Q3. subst. exists (p_place s'). split; [left; reflexivity|destruct s'; reflexivity].
  - destruct (flt done days); [|injection Q as Q1 Q2 Q3; subst; exists (p_place s'); split; [left; reflexivity|destruct s'; reflexivity]]. destruct ds as [|d dr]; [discriminate Q|]. cbv zeta in Q. apply obind_ret in Q. destruct Q as (x & _ & Q). destruct (IH _ _ _ _ _ _ _ _ _ Q) as (e' & [P|P] & S'); (exists e'; split; [|exact S']).
    + right. left. symmetry. exact P.
    + right. right. exact P.
Qed.
Lemma tid_eff_keys s d ts : forall c g c' g', (forall t, (0 <= c t < 2 ^ 64)%Z) -> tid_effects_loop fexp fpow G poisson s d ts c g = Ret (c', g') -> (forall t, is_tid t = false -> c' t = c t) /\ (forall t, (0 <= c' t < 2 ^ 64)%Z).
Proof.
  induction ts as [|t r IH]; intros c g c' g' B Q; cbn [tid_effects_loop] in Q; [injection Q as Q1 Q2; subst; auto|]. destruct (is_tid t) eqn:T; [|exact (IH _ _ _ _ B Q)]. apply obind_ret in Q. destruct Q as (x & _ & Q).
  assert (B' : forall u, (0 <= bump c t (fst x) u < 2 ^ 64)%Z). { intros u. unfold bump. destruct (effect_eqb u t); [apply Z.mod_pos_bound; lia|apply B]. }
  destruct (IH _ _ _ _ B' Q) as (K & K2). split; [|exact K2]. intros u U. rewrite (K u U). unfold bump. destruct (effect_eqb u t) eqn:E1; [|reflexivity]. destruct u, t; try discriminate.
Qed.
Lemma tid_keys : forall es ds s days done c g c' s' g', (forall t, (0 <= c t < 2 ^ 64)%Z) -> tid_loop fexp fpow G poisson s days done es ds c g = Ret (c', s', g') -> (forall t, is_tid t = false -> c' t = c t) /\ (forall t, (0 <= c' t < 2 ^ 64)%Z).
Proof.
  induction es as [|e er IH]; intros ds s days done c g c' s' g' B Q; cbn [tid_loop] in Q; [injection Q as Q1 Q2 Q3; subst; auto|].
  destruct (flt done days); [|injection Q as Q1 Q2 Q3; subst; auto]. destruct ds as [|d dr]; [discriminate Q|]. cbv zeta in Q. apply obind_ret in Q. destruct Q as ((c1 & g1) & Q1 & Q). cbn [fst snd] in Q. destruct (tid_eff_keys _ _ _ _ _ _ _ B Q1) as (K1 & B1). destruct (IH _ _ _ _ _ _ _ _ _ B1 Q) as (K2 & B2).
  split; [|exact B2]. intros t T. rewrite (K2 t T). exact (K1 t T).
Qed.
Lemma tid_none es ds s days c g : flt d0 days = false -> tid_loop fexp fpow G poisson s days d0 es ds c g = Ret (c, s, g).
Proof. intros F. destruct es as [|e er]; cbn [tid_loop]; [reflexivity|]. rewrite F. reflexivity. Qed.
(** cutting a plan of whole days *)
Lemma Zmin_IZR_local a b : Rmin (IZR a) (IZR b) = IZR (Z.min a b).
Proof. destruct (Z_le_gt_dec a b) as [L|L]; [rewrite Z.min_l by lia; apply Rmin_left, IZR_le; lia|rewrite Z.min_r by lia; apply Rmin_right, IZR_le; lia]. Qed.
Lemma leg_seg z n k done : (0 < z < 2 ^ 40)%Z -> (0 <= k < n)%Z -> (n < 2 ^ 50)%Z -> okd done -> R done = IZR k -> fmin (dofZ z) (dsub (dofZ n) done) = dofZ (Z.min z (n - k)).
Proof.
  intros Z1 K N O Q. destruct (ofZ_ex z ltac:(lia)) as (O1 & Q1). destruct (ofZ_ex n ltac:(lia)) as (O2 & Q2). destruct (ofZ_ex (n - k) ltac:(lia)) as (O3 & Q3). destruct (ofZ_ex (Z.min z (n - k)) ltac:(lia)) as (O4 & Q4).
  assert (M : mid (R (dofZ n) - R done)). { rewrite Q2, Q, <- minus_IZR. unfold mid. split; apply IZR_le; lia. }
  destruct (sub_d _ _ O2 O M) as (O5 & Q5). rewrite Q2, Q, <- minus_IZR, <- Q3, (rnd_id _ O3), Q3 in Q5. destruct (fmin_d _ _ O1 O5) as (O6 & Q6). rewrite Q1, Q5, Zmin_IZR_local in Q6.
  apply okd_inj; [exact O6|exact O4|rewrite Q6, Q4; reflexivity|]. rewrite Q6. apply Rgt_not_eq. apply IZR_lt. lia.
Qed.
Lemma done_add z k done : (0 <= z < 2 ^ 50)%Z -> (0 <= k < 2 ^ 50)%Z -> okd done -> R done = IZR k -> okd (dadd done (dofZ z)) /\ R (dadd done (dofZ z)) = IZR (k + z).
Proof.
  intros Z1 K O Q. destruct (ofZ_ex z ltac:(lia)) as (O1 & Q1). destruct (ofZ_ex (k + z) ltac:(lia)) as (O2 & Q2). assert (M : mid (R done + R (dofZ z))). { rewrite Q1, Q, <- plus_IZR. unfold mid. split; apply IZR_le; lia. }
  destruct (add_d _ _ O O1 M) as (O3 & Q3). split; [exact O3|]. rewrite Q3, Q, Q1, <- plus_IZR, <- Q2. apply (rnd_id _ O2).
Qed.
Definition small_legs (legs : list (place * Z)) : Prop := Forall (fun l => (0 < snd l < 2 ^ 40)%Z) legs.
(** only [n - k] days are left, and only the first [n - k] days of the plan matter *)
Lemma tid_cut : forall legs s s2 n m k done c g, small_legs legs -> (0 <= k)%Z -> (0 <= n < 2 ^ 50)%Z -> (n <= m < 2 ^ 50)%Z -> okd done -> R done = IZR k -> p_bits s = p_bits s2 -> p_shield s = p_shield s2 ->
  res3 (tid_loop fexp fpow G poisson s (dofZ n) done (map fst legs) (map (fun l => dofZ (snd l)) legs) c g) =
  res3 (tid_loop fexp fpow G poisson s2 (dofZ m) done (map fst (first_days (n - k) legs)) (map (fun l => dofZ (snd l)) (first_days (n - k) legs)) c g).
Proof.
  induction legs as [|(e & z) r IH]; intros s s2 n m k done c g S K N M O Q PB PS; [reflexivity|]. inversion S as [|? ? S1 S2]; subst. cbn [snd] in S1. cbn [map fst snd first_days].
  destruct (ofZ_ex n ltac:(lia)) as (ON & QN). destruct (ofZ_ex m ltac:(lia)) as (OM & QM). destruct (n - k <=? 0)%Z eqn:L; [apply Z.leb_le in L|apply Z.leb_gt in L].
  - cbn [map tid_loop]. assert (F : flt done (dofZ n) = false). { apply (flt_dF _ _ O ON). rewrite Q, QN. apply IZR_le. lia. } rewrite F. reflexivity.
  - cbn [map fst snd tid_loop]. assert (F : flt done (dofZ n) = true). { apply (flt_d _ _ O ON). rewrite Q, QN. apply IZR_lt. lia. } assert (F2 : flt done (dofZ m) = true). { apply (flt_d _ _ O OM). rewrite Q, QM. apply IZR_lt. lia. } rewrite F, F2. cbv zeta.
    rewrite (leg_seg z n k done ltac:(lia) ltac:(lia) ltac:(lia) O Q). assert (A2 : fmin (dofZ (Z.min z (n - k))) (dsub (dofZ m) done) = dofZ (Z.min z (n - k))). { rewrite (leg_seg (Z.min z (n - k)) m k done ltac:(lia) ltac:(lia) ltac:(lia) O Q). f_equal. lia. } rewrite A2.
    rewrite (tid_frame (set_environment s e) (set_environment s2 e) (dofZ (Z.min z (n - k))) effects eq_refl PB PS). destruct (tid_effects_loop _ _ _ _ _ _ _ _ _) as [x| | |]; cbn [obind res3]; try reflexivity.
    destruct (done_add (Z.min z (n - k)) k done ltac:(lia) ltac:(lia) O Q) as (O' & Q'). rewrite (IH (set_environment s e) (set_environment s2 e) n m (k + Z.min z (n - k))%Z _ _ _ S2 ltac:(lia) N M O' Q' PB PS).
    destruct (Z_le_gt_dec z (n - k)) as [C|C].
    + rewrite Z.min_l by lia. replace (n - (k + z))%Z with (n - k - z)%Z by lia. reflexivity.
    + rewrite Z.min_r by lia. replace (n - (k + (n - k)))%Z with 0%Z by lia. assert (E1 : first_days 0 r = []) by (destruct r as [|(? & ?) ?]; reflexivity). assert (E2 : first_days (n - k - z) r = []). { destruct r as [|(? & ?) ?]; [reflexivity|]. cbn [first_days]. assert (B : (n - k - z <=? 0)%Z = true) by (apply Z.leb_le; lia). rewrite B. reflexivity. } rewrite E1, E2. reflexivity.
Qed.
Lemma all_days : forall legs n, small_legs legs -> (total_days legs <= n)%Z -> first_days n legs = legs.
Proof.
  induction legs as [|(e & z) r IH]; intros n S L; [reflexivity|]. inversion S as [|? ? S1 S2]; subst. cbn [snd total_days fold_right first_days] in *. fold (total_days r) in L. assert (T : (0 <= total_days r)%Z). { clear - S2. induction S2 as [|l ls H _ IH]; cbn; [lia|]. fold (total_days ls). lia. }
  assert (B : (n <=? 0)%Z = false) by (apply Z.leb_gt; lia). rewrite B, Z.min_l by lia. rewrite (IH (n - z)%Z S2 ltac:(lia)). reflexivity.
Qed.
Lemma first_small legs : forall n, small_legs legs -> small_legs (first_days n legs).
Proof. induction legs as [|(e & z) r IH]; intros n S; [constructor|]. inversion S as [|? ? S1 S2]; subst. cbn [first_days snd] in *. destruct (n <=? 0)%Z eqn:L; [constructor|]. apply Z.leb_gt in L. constructor; [cbn [snd]; lia|apply IH; exact S2]. Qed.
Lemma first_total legs : forall n, small_legs legs -> (total_days (first_days n legs) <= Z.max 0 n)%Z.
Proof. induction legs as [|(e & z) r IH]; intros n S; [cbn; lia|]. inversion S as [|? ? S1 S2]; subst. cbn [first_days snd] in *. destruct (n <=? 0)%Z eqn:L; [cbn; lia|]. apply Z.leb_gt in L. cbn [total_days fold_right snd]. fold (total_days (first_days (n - z) r)). pose proof (IH (n - z)%Z S2). lia. Qed.
(** completing *)
Lemma tid_eff_completes s d ts : (1 <= p_bits s < 2 ^ 64)%Z -> good_days d -> forall c g, completes (tid_effects_loop fexp fpow G poisson s d ts c g).
Proof.
  intros N D. induction ts as [|t r IH]; intros c g; cbn [tid_effects_loop]; [eexists; reflexivity|]. destruct (is_tid t); [|apply IH].
  destruct (prob_ap t) as (_ & B1). destruct (mod_ap (p_place s)) as (_ & B2). pose proof (shield_bnd fexp fpow PD s) as B3. pose proof (days_bnd d D) as B4. destruct (bits_bnd _ N) as (B5 & _).
  destruct (bnd_mul _ _ _ _ _ _ B1 B2 ltac:(lia) ltac:(lia)) as (C1 & _). destruct (bnd_mul _ _ _ _ _ _ C1 B3 ltac:(lia) ltac:(lia)) as (C2 & _). destruct (bnd_mul _ _ _ _ _ _ C2 B4 ltac:(lia) ltac:(lia)) as (C3 & _). destruct (bnd_mul _ _ _ _ _ _ C3 B5 ltac:(lia) ltac:(lia)) as (C4 & _).
  rewrite (draw_ok G poisson _ g _ _ C4). cbn [obind]. apply IH.
Qed.
Lemma tid_whole_completes : forall legs s n k done c g, small_legs legs -> (total_days legs < 1000000000)%Z -> (0 <= k)%Z -> (0 <= n < 2 ^ 50)%Z -> okd done -> R done = IZR k -> (1 <= p_bits s < 2 ^ 64)%Z -> completes (tid_loop fexp fpow G poisson s (dofZ n) done (map fst legs) (map (fun l => dofZ (snd l)) legs) c g).
Proof.
  induction legs as [|(e & z) r IH]; intros s n k done c g S T K N O Q P; [eexists; reflexivity|]. inversion S as [|? ? S1 S2]; subst. cbn [snd] in S1. cbn [total_days fold_right snd] in T. fold (total_days r) in T. assert (T0 : (0 <= total_days r)%Z). { clear - S2. induction S2 as [|l ls H _ IH]; cbn; [lia|]. fold (total_days ls). lia. }
  cbn [map fst snd tid_loop]. destruct (flt done (dofZ n)) eqn:F; [|eexists; reflexivity]. destruct (ofZ_ex n ltac:(lia)) as (ON & QN). apply (flt_d _ _ O ON) in F. rewrite Q, QN in F. apply lt_IZR in F. cbv zeta. rewrite (leg_seg z n k done ltac:(lia) ltac:(lia) ltac:(lia) O Q).
  destruct (ofZ_ex (Z.min z (n - k)) ltac:(lia)) as (O1 & Q1). assert (D : good_days (dofZ (Z.min z (n - k)))). { split; [exact O1|]. rewrite Q1. split; [apply Rle_trans with 1; [lra|apply IZR_le; lia]|apply IZR_le; lia]. }
  destruct (tid_eff_completes (set_environment s e) _ effects P D c g) as (x & Qx). rewrite Qx. cbn [obind]. destruct (done_add (Z.min z (n - k)) k done ltac:(lia) ltac:(lia) O Q) as (O' & Q'). apply (IH _ n (k + Z.min z (n - k))%Z); try assumption; lia.
Qed.
End Run.
