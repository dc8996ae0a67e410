(** Properties of sim::PhysicsRadiationSimulator (C430-C446). *)
From Coq Require Import List NArith ZArith Bool Arith Lia Reals Lra SpecFloat.
Import ListNotations.
From Flocq Require Import Core BinarySingleNaN.
From Verif Require Import Outcome Words Floats FloatsR FloatsS HealthFloat RMA3_Proofs Tester3_Proofs Mission4_Proofs Strat6_Proofs Hw_Proofs Qft_Model Qft_Spec Qft2_Proofs Qft4_Proofs Qft5_Proofs Qft6_Proofs Qer3_Proofs EnvB_Spec Env3_Proofs Env8_Proofs Env9_Proofs EnvB_Props Phys_Model Phys_Spec Phys_Proofs Phys2_Proofs.
Local Open Scope outcome_scope.
Local Open Scope R_scope.

(** ** witnesses: pow keeps its base; every draw is one event; every event touches the most bits, or the fewest *)
Definition keep_pow (x y : sf) : sf := match x with S754_finite _ _ _ | S754_zero _ => if fle d0 x then (if fle x d1 then (if valid_binary 53 1024 x then x else d1) else d1) else d1 | _ => d1 end.
Definition one_draw (mean : sf) (g : nat) : Z * nat := (1%Z, S g).
Definition most (lo hi : Z) (g : nat) : Z * nat := (hi, S g).
Definition least (lo hi : Z) (g : nat) : Z * nat := (lo, S g).
Lemma keep_double x y : is_double (keep_pow x y).
Proof. unfold keep_pow, is_double. destruct x as [s|s| |s m e]; try reflexivity; destruct (fle d0 _); try reflexivity; destruct (fle _ d1); try reflexivity. destruct (valid_binary 53 1024 (S754_finite s m e)) eqn:V; [exact V|reflexivity]. Qed.
Lemma keep_id x y : between 0 1 x -> keep_pow x y = x.
Proof.
  intros ((V & F) & B). assert (O : okd x) by (split; assumption). assert (L0 : fle d0 x = true) by (apply (fle_d _ _ (proj1 z_ok) O); rewrite (proj2 z_ok); lra). assert (L1 : fle x d1 = true) by (apply (fle_d _ _ O (proj1 o_ok)); rewrite (proj2 o_ok); lra).
  unfold keep_pow. destruct x as [s|s| |s m e]; try discriminate F; rewrite L0, L1; [reflexivity|]. unfold is_double in V. rewrite V. reflexivity.
Qed.
Lemma keep_ok : pow_lib keep_pow.
Proof. constructor; [intros x y B _; rewrite (keep_id x y B); exact B|]. intros x x' y B B' _ L. rewrite (keep_id x y B), (keep_id x' y B'). exact L. Qed.
Lemma most_ok : uniform_lib most. Proof. intros lo hi g L. cbn. lia. Qed.
Lemma stair_mono : lib_mono stair_exp.
Proof.
  intros x y Dx Dy L. assert (Nx : x <> S754_nan) by (intros C; rewrite C in L; discriminate L). assert (Ny : y <> S754_nan) by (intros C; rewrite C in L; destruct x; discriminate L).
  assert (Q : forall z, z <> S754_nan -> stair_exp z = if fle z (dofZ (-1)) then dq 36 100 else if fle z (SFopp (dq 5 10)) then dq 6 10 else d1) by (intros z N; destruct z; congruence || reflexivity). rewrite (Q x Nx), (Q y Ny). clear Q.
  apply (leE x y (conj Dx Nx) (conj Dy Ny)) in L. assert (T : forall z, dbl z -> fle y z = true -> fle x z = true). { intros z Dz F. apply (leE y z (conj Dy Ny) Dz) in F. apply (leE x z (conj Dx Nx) Dz). lra. }
  assert (D1 : dbl (dofZ (-1))) by (split; [vm_compute; reflexivity|vm_compute; discriminate]). assert (D2 : dbl (SFopp (dq 5 10))) by (split; [vm_compute; reflexivity|vm_compute; discriminate]).
  specialize (T (dofZ (-1)) D1) as T1. specialize (T (SFopp (dq 5 10)) D2) as T2. clear T L. revert T1 T2. generalize (fle x (dofZ (-1))) (fle y (dofZ (-1))) (fle x (SFopp (dq 5 10))) (fle y (SFopp (dq 5 10))). intros [] [] [] [] T1 T2; try discriminate (T1 eq_refl); try discriminate (T2 eq_refl); vm_compute; reflexivity.
Qed.

(** ** what every history keeps *)
Section Hist.
Variables (fexp : sf -> sf) (fpow : sf -> sf -> sf) (G : Type) (poisson : sf -> G -> Z * G) (uniform : Z -> Z -> G -> Z * G).
Lemma step_keeps sg c sg' : real_call c -> pstep fexp fpow G poisson uniform sg c = Ret sg' -> inr 0 1 (p_solar (fst sg)) -> inr 0 1 (p_solar (fst sg')) /\ p_bits (fst sg') = p_bits (fst sg).
Proof.
  destruct sg as (s & g). intros RC Q A. cbn [fst] in *. destruct c; cbn [pstep] in Q.
  - injection Q as Q. subst. split; [exact A|reflexivity].
  - injection Q as Q. subst. cbn [fst]. split; [|reflexivity]. cbn [p_solar set_solar_activity]. destruct (solar_any a) as [K|K]; [exact K|contradiction].
  - injection Q as Q. subst. split; [exact A|reflexivity].
  - apply obind_ret in Q. destruct Q as (s' & Q1 & Q). injection Q as Q. subst. unfold set_trajectory in Q1. destruct (environments t); [discriminate Q1|]. injection Q1 as Q1. subst. split; [exact A|reflexivity].
  - apply obind_ret in Q. destruct Q as (x & _ & Q). injection Q as Q. subst. split; [exact A|reflexivity].
  - apply obind_ret in Q. destruct Q as (((ms & s') & g') & Q1 & Q). injection Q as Q. subst. cbn [fst snd]. unfold simulate_mission in Q1. apply mission_shape in Q1. destruct Q1 as (_ & _ & _ & Q1). rewrite Q1. split; [exact A|reflexivity].
  - apply obind_ret in Q. destruct Q as (((c' & s') & g') & Q1 & Q). injection Q as Q. subst. cbn [fst snd]. unfold simulate_mission_tid in Q1. destruct (tid_state _ _ _ _ _ _ _ _ _ _ _ _ _ _ Q1) as (e & _ & S1). rewrite S1. split; [exact A|reflexivity].
Qed.
Lemma run_keeps cs : forall sg sg', Forall real_call cs -> prun fexp fpow G poisson uniform sg cs = Ret sg' -> inr 0 1 (p_solar (fst sg)) -> inr 0 1 (p_solar (fst sg')) /\ p_bits (fst sg') = p_bits (fst sg).
Proof.
  induction cs as [|c r IH]; intros sg sg' F Q A; cbn [prun] in Q; [injection Q as Q; subst; auto|]. inversion F as [|? ? F1 F2]; subst. apply obind_ret in Q. destruct Q as (sg1 & Q1 & Q). destruct (step_keeps _ _ _ F1 Q1 A) as (A1 & B1). destruct (IH _ _ F2 Q A1) as (A2 & B2). split; [exact A2|congruence].
Qed.
Lemma reach_inv bits s g : preachable fexp fpow G poisson uniform bits s g -> inr 0 1 (p_solar s) /\ p_bits s = bits /\ (0 <= bits < 2 ^ 64)%Z.
Proof.
  intros (word & shield & t & g0 & cs & s0 & B & N & F & Q). unfold psim_new in N. destruct (environments t); [discriminate N|]. injection N as N. destruct (run_keeps cs (s0, g0) (s, g) F Q) as (A & P).
  - cbn [fst]. rewrite <- N. cbn [p_solar]. destruct lits as (H & _). split; [split; vm_compute; reflexivity|rewrite H; lra].
  - cbn [fst] in *. rewrite <- N in P. cbn [p_bits] in P. auto.
Qed.
End Hist.
Definition leo_sim : psim := mkP 8192 32 (dofZ 3) Mars_Mission LEO (dq 5 10).
Lemma leo_reached : preachable stair_exp keep_pow nat one_draw most 8192 leo_sim 0%nat.
Proof. exists 32%Z, (dofZ 3), Mars_Mission, 0%nat, [], leo_sim. split; [lia|]. split; [reflexivity|]. split; [constructor|reflexivity]. Qed.

(** ** rates *)
Theorem C430_rates_finite : forall fexp fpow G poisson uniform bits s g, (forall x y, is_double (fpow x y)) -> preachable fexp fpow G poisson uniform bits s g ->
  map fst (get_error_rates fexp fpow s) = [SEU; MBU; SEL; SET; SEFI; TID_STUCK_BIT; TID_THRESHOLD_SHIFT] /\ Forall (fun r => between (/ 4194304) 2048 (snd r)) (get_error_rates fexp fpow s).
Proof.
  intros fexp fpow G poisson uniform bits s g PD H. destruct (reach_inv _ _ _ _ _ _ _ _ H) as (A & _). split; [reflexivity|]. unfold get_error_rates. apply Forall_map. apply Forall_forall. intros t _. cbn [snd]. destruct (rate_ok fexp fpow PD s t A) as (B & _). exact B.
Qed.
Example C430_nonvacuous : (forall x y, is_double (keep_pow x y)) /\ preachable stair_exp keep_pow nat one_draw most 8192 (set_solar_activity (set_shielding leo_sim S754_nan) S754_nan) 2%nat.
Proof.
  split; [exact keep_double|]. exists 32%Z, (dofZ 3), Earth_LEO, 0%nat, [PTid d1; PTraj Mars_Mission; PShield S754_nan; PSolar S754_nan], (mkP 8192 32 (dofZ 3) Earth_LEO LEO (dq 5 10)). split; [lia|]. split; [reflexivity|].
  split; [repeat constructor|]. vm_compute. reflexivity.
Qed.

Definition unshielded (s : psim) : psim := set_shielding s d0.
Theorem C431_shield_bounds : forall fexp fpow G poisson uniform bits s g thickness t, (forall x y, is_double (fpow x y)) -> preachable fexp fpow G poisson uniform bits s g ->
  let bare := R (error_rate fexp fpow (unshielded s) t) in bare / 100 * (1 - / 1000000000) <= R (error_rate fexp fpow (set_shielding s thickness) t) <= bare /\
  (fle thickness d0 = true -> error_rate fexp fpow (set_shielding s thickness) t = error_rate fexp fpow (unshielded s) t) /\
  (thickness = S754_nan -> fexp S754_nan = S754_nan -> (forall y, fpow S754_nan y = S754_nan) -> error_rate fexp fpow (set_shielding s thickness) t = error_rate fexp fpow (unshielded s) t).
Proof.
  intros fexp fpow G poisson uniform bits s g thickness t PD H bare. destruct (reach_inv _ _ _ _ _ _ _ _ H) as (A & _). assert (ONE : calculate_shielding_factor fexp fpow (unshielded s) = d1) by reflexivity. split; [|split].
  - destruct (shield_any fexp fpow PD (set_shielding s thickness)) as (_ & B). split.
    + destruct (rate_ok fexp fpow PD (unshielded s) t A) as (_ & P1). destruct (rate_ok fexp fpow PD (set_shielding s thickness) t A) as (_ & P2). rewrite ONE, (proj2 o_ok) in P1. unfold ap in P1, P2. cbn [p_place p_solar set_shielding unshielded] in P1, P2. fold bare in P1.
      set (v := base_probability t * level (p_place s) * activity_effect (region_of (p_place s)) (R (p_solar s))) in *. assert (V : 0 < v). { unfold v. pose proof (effect_pos (region_of (p_place s)) (R (p_solar s)) (proj2 A)). apply Rmult_lt_0_compat; [|lra]. apply Rmult_lt_0_compat; [destruct t; cbn [base_probability]; lra|destruct (p_place s); cbn [level]; lra]. }
      set (k := R (calculate_shielding_factor fexp fpow (set_shielding s thickness))) in *. set (r := R (error_rate fexp fpow (set_shielding s thickness) t)) in *. clearbody v k r bare. assert (VK : v * (/ 100) <= v * k) by (apply Rmult_le_compat_l; lra). lra.
    + unfold bare, unshielded. apply (rate_mono fexp fpow PD); [exact A|]. change (set_shielding s d0) with (unshielded s). rewrite ONE, (proj2 o_ok). apply B.
  - intros F. unfold error_rate. assert (Q : calculate_shielding_factor fexp fpow (set_shielding s thickness) = d1). { unfold calculate_shielding_factor. cbn [p_shield set_shielding]. rewrite F. reflexivity. } rewrite Q. reflexivity.
  - intros N XN PN. unfold error_rate. assert (Q : calculate_shielding_factor fexp fpow (set_shielding s thickness) = d1). { rewrite N. unfold calculate_shielding_factor. cbn [p_shield set_shielding]. change (ddiv (SFopp S754_nan) (dofZ 2)) with S754_nan. rewrite XN, !PN. vm_compute. reflexivity. } rewrite Q. reflexivity.
Qed.
Example C431_nonvacuous : preachable stair_exp keep_pow nat one_draw most 8192 leo_sim 0%nat /\ flt (error_rate stair_exp keep_pow (set_shielding leo_sim (dofZ 3)) SEU) (error_rate stair_exp keep_pow (unshielded leo_sim) SEU) = true.
Proof. split; [exact leo_reached|vm_compute; reflexivity]. Qed.

Theorem C432_thicker_shield : forall fexp fpow G poisson uniform bits s g thin thick t, exp_lib fexp -> lib_mono fexp -> pow_lib fpow -> (forall x y, is_double (fpow x y)) -> preachable fexp fpow G poisson uniform bits s g ->
  is_double thin -> is_double thick -> fle thin thick = true -> R (error_rate fexp fpow (set_shielding s thick) t) <= R (error_rate fexp fpow (set_shielding s thin) t).
Proof.
  intros fexp fpow G poisson uniform bits s g thin thick t X LM PW PD H D D' L. destruct (reach_inv _ _ _ _ _ _ _ _ H) as (A & _). apply (rate_mono fexp fpow PD); [exact A|]. apply factor_mono; assumption.
Qed.
Example C432_nonvacuous : exp_lib stair_exp /\ lib_mono stair_exp /\ pow_lib keep_pow /\ flt (error_rate stair_exp keep_pow (set_shielding leo_sim (dofZ 2)) SEU) (error_rate stair_exp keep_pow (set_shielding leo_sim d1) SEU) = true.
Proof. split; [exact stair_ok|]. split; [exact stair_mono|]. split; [exact keep_ok|vm_compute; reflexivity]. Qed.

Theorem C433_rate_law : forall fexp fpow G poisson uniform bits s g t, (forall x y, is_double (fpow x y)) -> preachable fexp fpow G poisson uniform bits s g ->
  let s0 := unshielded s in let law := base_probability t * level (p_place s) * activity_effect (region_of (p_place s)) (R (p_solar s)) * 1000000 in
  Rabs (R (error_rate fexp fpow s0 t) - law) <= law / 10000000000.
Proof.
  intros fexp fpow G poisson uniform bits s g t PD H s0 law. destruct (reach_inv _ _ _ _ _ _ _ _ H) as (A & _). destruct (rate_ok fexp fpow PD s0 t A) as (_ & P). assert (ONE : calculate_shielding_factor fexp fpow s0 = d1) by reflexivity. rewrite ONE, (proj2 o_ok), Rmult_1_r in P. fold law in P. unfold ap in P.
  change (p_place s0) with (p_place s) in P. change (p_solar s0) with (p_solar s) in P. fold law in P. apply Rabs_le. lra.
Qed.
Example C433_nonvacuous : preachable stair_exp keep_pow nat one_draw most 8192 leo_sim 0%nat /\ flt (error_rate stair_exp keep_pow (unshielded leo_sim) SEU) (dq 10 100) = true /\ flt (dq 8 100) (error_rate stair_exp keep_pow (unshielded leo_sim) SEU) = true.
Proof. split; [exact leo_reached|]. split; vm_compute; reflexivity. Qed.

Theorem C434_environments : forall fexp fpow G poisson uniform bits s g t, (forall x y, is_double (fpow x y)) -> preachable fexp fpow G poisson uniform bits s g ->
  (forall e e', region_of e = region_of e' -> level e < level e' -> flt (error_rate fexp fpow (set_environment s e) t) (error_rate fexp fpow (set_environment s e') t) = true) /\
  error_rate fexp fpow (set_environment s INTERPLANETARY) t = error_rate fexp fpow (set_environment s MARS_ORBIT) t.
Proof.
  intros fexp fpow G poisson uniform bits s g t PD H. destruct (reach_inv _ _ _ _ _ _ _ _ H) as (A & _). split; [|reflexivity]. intros e e' RE L.
  destruct (rate_ok fexp fpow PD (set_environment s e) t A) as ((O1 & _) & P1). destruct (rate_ok fexp fpow PD (set_environment s e') t A) as ((O2 & _) & P2). apply (flt_d _ _ O1 O2). cbn [p_place p_solar set_environment] in *.
  assert (K : calculate_shielding_factor fexp fpow (set_environment s e) = calculate_shielding_factor fexp fpow s /\ calculate_shielding_factor fexp fpow (set_environment s e') = calculate_shielding_factor fexp fpow s) by (split; reflexivity). rewrite (proj1 K) in P1. rewrite (proj2 K) in P2. rewrite <- RE in P2.
  destruct (shield_any fexp fpow PD s) as (_ & B). pose proof (effect_pos (region_of e) (R (p_solar s)) (proj2 A)) as V. assert (V1 : 0 < base_probability t) by (destruct t; cbn [base_probability]; lra). assert (LL : level e * (124 / 100) <= level e') by (destruct e, e'; try discriminate RE; cbn [level] in *; lra). assert (LP : 0 < level e) by (destruct e; cbn [level]; lra).
  set (w := base_probability t * (activity_effect (region_of e) (R (p_solar s)) * R (calculate_shielding_factor fexp fpow s) * 1000000)). assert (W : 0 < w) by (unfold w; repeat apply Rmult_lt_0_compat; lra).
  unfold ap in *. assert (Q : forall l, base_probability t * l * activity_effect (region_of e) (R (p_solar s)) * R (calculate_shielding_factor fexp fpow s) * 1000000 = l * w) by (intros l; unfold w; ring). rewrite Q in P1, P2. assert (M : level e * (124 / 100) * w <= level e' * w) by (apply Rmult_le_compat_r; lra). assert (0 < level e * w) by (apply Rmult_lt_0_compat; lra). lra.
Qed.
Example C434_nonvacuous : region_of LEO = region_of MEO /\ level LEO < level MEO /\ region_of MARS_SURFACE = region_of EUROPA /\ level MARS_SURFACE < level EUROPA.
Proof. cbn. repeat split; lra. Qed.

Theorem C435_activity : forall fexp fpow G poisson uniform bits s g t, (forall x y, is_double (fpow x y)) -> preachable fexp fpow G poisson uniform bits s g ->
  (forall a, is_double a -> (a = S754_nan \/ fle d1 a = true) -> set_solar_activity s a = set_solar_activity s d1) /\
  (forall a, is_double a -> fle a d0 = true -> set_solar_activity s a = set_solar_activity s d0) /\
  (region_of (p_place s) = Storm -> forall a, error_rate fexp fpow (set_solar_activity s a) t = error_rate fexp fpow s t) /\
  (region_of (p_place s) <> Storm -> 2 * R (error_rate fexp fpow (set_solar_activity s d0) t) <= R (error_rate fexp fpow (set_solar_activity s d1) t)).
Proof.
  intros fexp fpow G poisson uniform bits s g t PD H. destruct (reach_inv _ _ _ _ _ _ _ _ H) as (A & _). assert (C1 : fmax d0 (fmin d1 d1) = d1) by (vm_compute; reflexivity). assert (C0 : fmax d0 (fmin d1 d0) = d0) by (vm_compute; reflexivity). split; [|split; [|split]].
  - intros a D [N|L]; unfold set_solar_activity; rewrite C1; [rewrite N; reflexivity|]. assert (F : flt a d1 = false). { assert (NN : a <> S754_nan) by (intros C; rewrite C in L; discriminate L). destruct (flt a d1) eqn:F; [|reflexivity]. apply (ltE a d1 (conj D NN) (okd_dbl _ (proj1 o_ok))) in F. apply (leE d1 a (okd_dbl _ (proj1 o_ok)) (conj D NN)) in L. lra. } unfold fmin. rewrite F. reflexivity.
  - intros a D L. unfold set_solar_activity. rewrite C0. assert (NN : a <> S754_nan) by (intros C; rewrite C in L; discriminate L). f_equal. apply (leE a d0 (conj D NN) (okd_dbl _ (proj1 z_ok))) in L. rewrite E0 in L. unfold fmin. assert (F : flt a d1 = true). { apply (ltE a d1 (conj D NN) (okd_dbl _ (proj1 o_ok))). rewrite E1. lra. } rewrite F. unfold fmax. assert (F2 : flt d0 a = false). { destruct (flt d0 a) eqn:F2; [|reflexivity]. apply (ltE d0 a (okd_dbl _ (proj1 z_ok)) (conj D NN)) in F2. rewrite E0 in F2. lra. } rewrite F2. reflexivity.
  - intros S1 a. unfold error_rate. assert (Q : calculate_solar_modifier (set_solar_activity s a) = calculate_solar_modifier s). { unfold calculate_solar_modifier. cbn [p_place set_solar_activity]. destruct (p_place s); try discriminate S1. reflexivity. } rewrite Q. reflexivity.
  - intros S1. assert (A0 : inr 0 1 (p_solar (set_solar_activity s d0))) by (cbn [p_solar set_solar_activity]; rewrite C0; split; [exact (proj1 z_ok)|rewrite (proj2 z_ok); lra]). assert (A1 : inr 0 1 (p_solar (set_solar_activity s d1))) by (cbn [p_solar set_solar_activity]; rewrite C1; split; [exact (proj1 o_ok)|rewrite (proj2 o_ok); lra]).
    destruct (rate_ok fexp fpow PD _ t A0) as (_ & P0). destruct (rate_ok fexp fpow PD _ t A1) as (_ & P1). cbn [p_solar set_solar_activity p_place] in P0, P1. rewrite C0, (proj2 z_ok) in P0. rewrite C1, (proj2 o_ok) in P1.
    assert (K : calculate_shielding_factor fexp fpow (set_solar_activity s d0) = calculate_shielding_factor fexp fpow s /\ calculate_shielding_factor fexp fpow (set_solar_activity s d1) = calculate_shielding_factor fexp fpow s) by (split; reflexivity). rewrite (proj1 K) in P0. rewrite (proj2 K) in P1.
    destruct (shield_any fexp fpow PD s) as (_ & B). assert (V1 : 0 < base_probability t) by (destruct t; cbn [base_probability]; lra). assert (LP : 0 < level (p_place s)) by (destruct (p_place s); cbn [level]; lra).
    assert (AA : 0 < activity_effect (region_of (p_place s)) 0 /\ 26 / 10 * activity_effect (region_of (p_place s)) 0 <= activity_effect (region_of (p_place s)) 1) by (destruct (region_of (p_place s)); [cbn [activity_effect]; lra|cbn [activity_effect]; lra|congruence]).
    set (w := base_probability t * level (p_place s) * R (calculate_shielding_factor fexp fpow s) * 1000000). assert (W : 0 < w) by (unfold w; repeat apply Rmult_lt_0_compat; lra). unfold ap in *.
    assert (Q : forall l, base_probability t * level (p_place s) * l * R (calculate_shielding_factor fexp fpow s) * 1000000 = l * w) by (intros l; unfold w; ring). rewrite Q in P0, P1. destruct AA as (AA & AB). assert (M : 26 / 10 * activity_effect (region_of (p_place s)) 0 * w <= activity_effect (region_of (p_place s)) 1 * w) by (apply Rmult_le_compat_r; lra). assert (0 < activity_effect (region_of (p_place s)) 0 * w) by (apply Rmult_lt_0_compat; lra). lra.
Qed.
Example C435_nonvacuous : preachable stair_exp keep_pow nat one_draw most 8192 leo_sim 0%nat /\ region_of (p_place leo_sim) <> Storm /\ fle d1 (S754_infinity false) = true.
Proof. split; [exact leo_reached|]. split; [discriminate|reflexivity]. Qed.
(** a little activity can lower the rate: rates do not simply grow with activity *)
Example C435_dip : flt (error_rate stair_exp keep_pow (set_solar_activity leo_sim (dq 1 10)) SEU) (error_rate stair_exp keep_pow (set_solar_activity leo_sim d0) SEU) = true.
Proof. vm_compute. reflexivity. Qed.

(** ** events *)
Theorem C436_events : forall fexp fpow G poisson uniform bits s g days g0 evs g1, uniform_lib uniform -> preachable fexp fpow G poisson uniform bits s g -> simulate_period fexp fpow G poisson uniform s days g0 = Ret (evs, g1) ->
  Forall (fun ev => (fst (bits_range (fst ev)) <= snd ev <= snd (bits_range (fst ev)))%Z) evs /\
  exists a b c d e f h, map fst evs = repeat SEU a ++ repeat MBU b ++ repeat SEL c ++ repeat SET d ++ repeat SEFI e ++ repeat TID_STUCK_BIT f ++ repeat TID_THRESHOLD_SHIFT h.
Proof.
  intros fexp fpow G poisson uniform bits s g days g0 evs g1 U H Q. unfold simulate_period in Q. apply period_shape in Q. destruct Q as (ns & L & M & _ & I). split; [exact (I U)|].
  destruct ns as [|a [|b [|c [|d [|e [|f [|h [|? ?]]]]]]]]; try discriminate L. exists a, b, c, d, e, f, h. rewrite M. cbn [effects combine map concat fst snd]. rewrite app_nil_r. reflexivity.
Qed.
Example C436_nonvacuous : uniform_lib most /\ simulate_period stair_exp keep_pow nat one_draw most leo_sim d1 0%nat = Ret ([(SEU, 1); (MBU, 8); (SEL, 1024); (SET, 1); (SEFI, 1048576); (TID_STUCK_BIT, 1); (TID_THRESHOLD_SHIFT, 1024)]%Z, 14%nat).
Proof. split; [exact most_ok|vm_compute; reflexivity]. Qed.

Lemma to_nat_max z : Z.of_nat (Z.to_nat z) = Z.max 0 z. Proof. lia. Qed.
Definition usual_days (d : sf) : Prop := between (/ 1000000) 1000000000 d.
Theorem C437_expected_events : forall fexp fpow G poisson uniform bits s g days g0 evs g1, (forall x y, is_double (fpow x y)) -> preachable fexp fpow G poisson uniform bits s g -> (1 <= bits)%Z -> usual_days days ->
  simulate_period fexp fpow G poisson uniform s days g0 = Ret (evs, g1) -> forall t, exists mean gt,
  Z.of_nat (length (filter (fun ev => effect_eqb (fst ev) t) evs)) = Z.max 0 (fst (poisson mean gt)) /\
  (let law := R (error_rate fexp fpow s t) / 1000000 * R days * IZR bits in Rabs (R mean - law) <= law / 1000000000).
Proof.
  intros fexp fpow G poisson uniform bits s g days g0 evs g1 PD H B D Q t. destruct (reach_inv _ _ _ _ _ _ _ _ H) as (A & PB & BB). unfold simulate_period in Q. fold (rate_of fexp fpow s) in Q. apply period_shape in Q. destruct Q as (ns & L & M & C & _).
  assert (N : (1 <= p_bits s < 2 ^ 64)%Z) by lia. destruct (expected_ok fexp fpow PD s days t A N D) as (_ & P). destruct (rate_ok fexp fpow PD s t A) as (_ & P2).
  assert (CNT : exists gt, Z.of_nat (length (filter (fun ev => effect_eqb (fst ev) t) evs)) = Z.max 0 (fst (poisson (expected s (rate_of fexp fpow s) days t) gt))).
  { assert (F : forall l, length (filter (fun ev : effect * Z => effect_eqb (fst ev) t) l) = length (filter (fun u => effect_eqb u t) (map fst l))). { induction l as [|x l IH]; [reflexivity|]. cbn [filter map]. destruct (effect_eqb (fst x) t); cbn [length]; rewrite IH; reflexivity. }
    rewrite F, M. clear F M. assert (FR : forall u n, length (filter (fun u => effect_eqb u t) (repeat u n)) = if effect_eqb u t then n else 0%nat). { intros u n. induction n as [|n IH]; [destruct (effect_eqb u t); reflexivity|]. cbn [repeat filter]. destruct (effect_eqb u t); cbn [length]; rewrite IH; reflexivity. }
    destruct ns as [|a [|b [|c [|d [|e [|f [|h [|? ?]]]]]]]]; try discriminate L. cbn [effects combine map concat fst snd] in *. rewrite !filter_app, !app_length, !FR. repeat match goal with C : Forall _ (_ :: _) |- _ => inversion C; clear C; subst end. cbn [fst snd] in *.
    repeat match goal with K : exists _, _ |- _ => destruct K end. subst. destruct t; cbn [effect_eqb filter length]; (eexists; cbn [plus]; rewrite ?Nat.add_0_r, ?Nat.add_0_l, to_nat_max; reflexivity). }
  destruct CNT as (gt & CNT). exists (expected s (rate_of fexp fpow s) days t), gt. split; [exact CNT|]. cbv zeta. unfold ap in *. rewrite PB in P.
  assert (DP : 0 < R days) by (destruct D as (_ & D); lra). assert (BP : 0 < IZR bits) by (apply IZR_lt; lia). assert (K : 0 < R days * IZR bits) by (apply Rmult_lt_0_compat; assumption). set (v := base_probability t * level (p_place s) * activity_effect (region_of (p_place s)) (R (p_solar s)) * R (calculate_shielding_factor fexp fpow s)) in *.
  replace (base_probability t * (level (p_place s) * activity_effect (region_of (p_place s)) (R (p_solar s)) * R (calculate_shielding_factor fexp fpow s)) * R days * IZR bits) with (v * (R days * IZR bits)) in P by (unfold v; ring). set (w := R days * IZR bits) in *. set (r := R (error_rate fexp fpow s t)) in *.
  replace (r / 1000000 * R days * IZR bits) with (r * w / 1000000) by (unfold w; field). assert (V : 0 < v). { unfold v. pose proof (effect_pos (region_of (p_place s)) (R (p_solar s)) (proj2 A)). destruct (shield_any fexp fpow PD s) as (_ & ?). repeat apply Rmult_lt_0_compat; try lra; [destruct t; cbn [base_probability]; lra|destruct (p_place s); cbn [level]; lra]. }
  assert (R1 : v * 1000000 * (1 - / 10000000000) * w <= r * w) by (apply Rmult_le_compat_r; lra). assert (R2 : r * w <= v * 1000000 * (1 + / 10000000000) * w) by (apply Rmult_le_compat_r; lra). assert (VW : 0 < v * w) by (apply Rmult_lt_0_compat; lra).
  replace (v * 1000000 * (1 - / 10000000000) * w) with (v * w * (1000000 * (1 - / 10000000000))) in R1 by ring. replace (v * 1000000 * (1 + / 10000000000) * w) with (v * w * (1000000 * (1 + / 10000000000))) in R2 by ring. set (vw := v * w) in *. set (rw := r * w) in *. clearbody vw rw. apply Rabs_le. lra.
Qed.
Example C437_nonvacuous : preachable stair_exp keep_pow nat one_draw most 8192 leo_sim 0%nat /\ usual_days d1 /\ completes (simulate_period stair_exp keep_pow nat one_draw most leo_sim d1 0%nat).
Proof. split; [exact leo_reached|]. split; [split; [exact (proj1 o_ok)|rewrite (proj2 o_ok); lra]|]. eexists. vm_compute. reflexivity. Qed.

Theorem C438_empty_runs_refuted : forall fexp fpow G poisson uniform bits s g days g0, (forall x y, is_double (fpow x y)) -> preachable fexp fpow G poisson uniform bits s g -> flt d0 days = false \/ bits = 0%Z -> is_UB (simulate_period fexp fpow G poisson uniform s days g0).
Proof. intros fexp fpow G poisson uniform bits s g days g0 PD H K. destruct (reach_inv _ _ _ _ _ _ _ _ H) as (A & PB & BB). exists UB_bad_iterator. apply period_ub; try assumption; [lia|]. destruct K as [K|K]; [left; exact K|right; lia]. Qed.
Theorem C438_runs_complete_partial : forall fexp fpow G poisson uniform bits s g days g0, (forall x y, is_double (fpow x y)) -> preachable fexp fpow G poisson uniform bits s g -> usual_days days -> (1 <= bits)%Z -> completes (simulate_period fexp fpow G poisson uniform s days g0).
Proof. intros fexp fpow G poisson uniform bits s g days g0 PD H D B. destruct (reach_inv _ _ _ _ _ _ _ _ H) as (A & PB & BB). apply (period_completes fexp fpow G poisson uniform PD); [exact A|lia|exact D]. Qed.
Example C438_nonvacuous : preachable stair_exp keep_pow nat one_draw most 8192 leo_sim 0%nat /\ flt d0 d0 = false /\ flt d0 S754_nan = false /\ usual_days d1.
Proof. split; [exact leo_reached|]. split; [reflexivity|]. split; [reflexivity|]. split; [exact (proj1 o_ok)|rewrite (proj2 o_ok); lra]. Qed.

(** ** missions *)
Theorem C439_mission_segments : forall fexp fpow G poisson uniform s g reports s' g', simulate_mission fexp fpow G poisson uniform s g = Ret (reports, s', g') ->
  length reports = length (environments (p_traj s)) /\ flown fexp fpow G poisson uniform s (combine (environments (p_traj s)) (durations_days (p_traj s))) g reports g' /\ (length (environments (p_traj s)) <= length (durations_days (p_traj s)))%nat.
Proof. intros fexp fpow G poisson uniform s g reports s' g' Q. destruct (mission_shape _ _ _ _ _ _ _ _ _ _ _ _ Q) as (L & F & LE & _). auto. Qed.
Example C439_nonvacuous : exists reports s' g', simulate_mission stair_exp keep_pow nat one_draw most leo_sim 0%nat = Ret (reports, s', g') /\ length reports = 6%nat.
Proof.
  destruct (mission_completes stair_exp keep_pow nat one_draw most keep_double (environments Mars_Mission) (durations_days Mars_Mission) leo_sim 0%nat) as (((r & s') & g') & Q).
  - apply (reach_inv _ _ _ _ _ _ _ _ leo_reached).
  - cbn [p_bits leo_sim]. lia.
  - reflexivity.
  - cbn [durations_days Mars_Mission]. repeat (apply Forall_cons; [apply int_between; [lia|lra]|]); apply Forall_nil.
  - exists r, s', g'. split; [exact Q|]. exact (proj1 (proj2 (proj2 (mission_shape _ _ _ _ _ _ _ _ _ _ _ _ Q)))).
Qed.

(** a simulated mission leaves the simulator at its last stop, whatever environment had been chosen *)
Theorem C440_environment_lost_refuted : forall fexp fpow G poisson uniform s g reports s' g', simulate_mission fexp fpow G poisson uniform s g = Ret (reports, s', g') -> environments (p_traj s) <> [] ->
  p_place s' = last (environments (p_traj s)) LEO.
Proof.
  intros fexp fpow G poisson uniform s g reports s' g' Q N. destruct (mission_shape _ _ _ _ _ _ _ _ _ _ _ _ Q) as (_ & _ & _ & S1). rewrite S1. cbn [p_place set_environment]. destruct (environments (p_traj s)) as [|e r]; [congruence|]. clear. revert e. induction r as [|e2 r IH]; intros e; [reflexivity|]. cbn [last] in *. apply IH.
Qed.
Theorem C440_rest_kept_partial : forall fexp fpow G poisson uniform s g, (forall reports s' g', simulate_mission fexp fpow G poisson uniform s g = Ret (reports, s', g') -> exists e, s' = set_environment s e) /\
  (forall days counts s' g', simulate_mission_tid fexp fpow G poisson s days g = Ret (counts, s', g') -> exists e, (e = p_place s \/ In e (environments (p_traj s))) /\ s' = set_environment s e).
Proof. intros fexp fpow G poisson uniform s g. split; [intros reports s' g' Q; destruct (mission_shape _ _ _ _ _ _ _ _ _ _ _ _ Q) as (_ & _ & _ & S1); eexists; exact S1|]. intros days counts s' g' Q. exact (tid_state _ _ _ _ _ _ _ _ _ _ _ _ _ _ Q). Qed.
Example C440_nonvacuous : let s := set_environment (mkP 8192 32 (dofZ 3) Earth_LEO LEO (dq 5 10)) EUROPA in exists r s' g', simulate_mission stair_exp keep_pow nat one_draw most s 0%nat = Ret (r, s', g') /\ p_place s = EUROPA /\ p_place s' = LEO.
Proof.
  intros s. destruct (mission_completes stair_exp keep_pow nat one_draw most keep_double (environments Earth_LEO) (durations_days Earth_LEO) s 0%nat) as (((r & s') & g') & Q).
  - apply (reach_inv _ _ _ _ _ _ _ _ leo_reached).
  - cbn. lia.
  - reflexivity.
  - cbn [durations_days Earth_LEO]. repeat (apply Forall_cons; [apply int_between; [lia|lra]|]); apply Forall_nil.
  - exists r, s', g'. split; [exact Q|]. split; [reflexivity|]. rewrite (C440_environment_lost_refuted _ _ _ _ _ _ _ _ _ _ Q); [reflexivity|discriminate].
Qed.

Theorem C441_bad_trajectory_refuted : (forall bits word shield t, environments t = [] -> is_UB (psim_new bits word shield t)) /\ (forall s t, environments t = [] -> is_UB (set_trajectory s t)) /\
  (forall fexp fpow G poisson uniform s g, (length (durations_days (p_traj s)) < length (environments (p_traj s)))%nat -> ~ completes (simulate_mission fexp fpow G poisson uniform s g)).
Proof.
  split; [intros bits word shield t Q; unfold psim_new; rewrite Q; eexists; reflexivity|]. split; [intros s t Q; unfold set_trajectory; rewrite Q; eexists; reflexivity|]. intros fexp fpow G poisson uniform s g L. apply mission_short. exact L.
Qed.
Theorem C441_mission_completes_partial : forall fexp fpow G poisson uniform bits s g t g0, (forall x y, is_double (fpow x y)) -> preachable fexp fpow G poisson uniform bits s g -> (1 <= bits)%Z -> well_formed t ->
  exists s1, set_trajectory s t = Ret s1 /\ completes (simulate_mission fexp fpow G poisson uniform s1 g0).
Proof.
  intros fexp fpow G poisson uniform bits s g t g0 PD H B (N & L & F). destruct (reach_inv _ _ _ _ _ _ _ _ H) as (A & PB & BB). unfold set_trajectory. destruct (environments t) as [|e r] eqn:Q; [congruence|]. eexists. split; [reflexivity|]. unfold simulate_mission. cbn [p_traj]. rewrite Q. apply mission_completes; try assumption. cbn [p_bits]. lia.
Qed.
Theorem C442_presets : Forall well_formed [Earth_LEO; Mars_Mission; Europa_Mission] /\
  map (fun t => fold_left dadd (durations_days t) d0) [Earth_LEO; Mars_Mission; Europa_Mission] = [dofZ 365; dofZ 775; dofZ 1630] /\ Forall (fun t => hd_error (environments t) = Some LEO /\ last (environments t) EUROPA = LEO) [Earth_LEO; Mars_Mission; Europa_Mission].
Proof.
  split; [|split; [vm_compute; reflexivity|repeat (apply Forall_cons; [split; reflexivity|]); apply Forall_nil]]. assert (W : forall t, environments t <> [] -> length (environments t) = length (durations_days t) -> Forall (between (/ 1000000) 1000000000) (durations_days t) -> well_formed t) by (intros; repeat split; assumption). repeat (apply Forall_cons; [apply W; [discriminate|reflexivity|cbn [durations_days Earth_LEO Mars_Mission Europa_Mission]; repeat (apply Forall_cons; [apply int_between; [lia|lra]|]); apply Forall_nil]|]); apply Forall_nil.
Qed.
Example C441_nonvacuous : preachable stair_exp keep_pow nat one_draw most 8192 leo_sim 0%nat /\ well_formed Europa_Mission /\ (length (durations_days (mkT [LEO; GEO] [d1])) < length (environments (mkT [LEO; GEO] [d1])))%nat.
Proof. split; [exact leo_reached|]. split; [|cbn; lia]. pose proof (proj1 C442_presets) as W. inversion W as [|? ? _ W1]; subst. inversion W1 as [|? ? _ W2]; subst. inversion W2; assumption. Qed.

(** ** total dose *)
Theorem C443_dose_keys : forall fexp fpow G poisson s days g counts s' g', simulate_mission_tid fexp fpow G poisson s days g = Ret (counts, s', g') ->
  (forall t, t <> TID_STUCK_BIT -> t <> TID_THRESHOLD_SHIFT -> counts t = 0%Z) /\ (forall t, (0 <= counts t < 2 ^ 64)%Z) /\ (flt d0 days = false -> (forall t, counts t = 0%Z) /\ s' = s /\ g' = g).
Proof.
  intros fexp fpow G poisson s days g counts s' g' Q. unfold simulate_mission_tid in Q. destruct (tid_keys fexp fpow G poisson _ _ _ _ _ (fun _ => 0%Z) _ _ _ _ ltac:(intros; lia) Q) as (K & B). split; [|split; [exact B|]].
  - intros t N1 N2. apply (K t). destruct t; try reflexivity; congruence.
  - intros F. rewrite tid_none in Q by exact F. injection Q as Q1 Q2 Q3. subst. auto.
Qed.
Example C443_nonvacuous : match simulate_mission_tid stair_exp keep_pow nat one_draw leo_sim (dofZ 20) 0%nat with Ret (c, s', g') => c TID_STUCK_BIT = 2%Z /\ c SEU = 0%Z /\ p_place s' = INTERPLANETARY | _ => False end /\ flt d0 S754_nan = false.
Proof. split; [vm_compute; auto|reflexivity]. Qed.

Definition dose_of {G} (o : outcome ((effect -> Z) * psim * G)) : outcome ((effect -> Z) * G) := x <- o ;; Ret (fst (fst x), snd x).
Theorem C444_dose_ignores_activity : forall fexp fpow G poisson s days g a, dose_of (simulate_mission_tid fexp fpow G poisson (set_solar_activity s a) days g) = dose_of (simulate_mission_tid fexp fpow G poisson s days g).
Proof. intros fexp fpow G poisson s days g a. exact (tid_solar fexp fpow G poisson _ _ s a days d0 _ g). Qed.
Example C444_nonvacuous : match dose_of (simulate_mission_tid stair_exp keep_pow nat one_draw leo_sim (dofZ 20) 0%nat) with Ret (c, _) => c TID_THRESHOLD_SHIFT = 2%Z | _ => False end.
Proof. vm_compute. reflexivity. Qed.

Definition on_plan (s : psim) (legs : list (place * Z)) : psim := mkP (p_bits s) (p_word s) (p_shield s) (planned legs) (p_place s) (p_solar s).
Definition whole_plan (legs : list (place * Z)) : Prop := Forall (fun l => (0 < snd l < 2 ^ 40)%Z) legs.
Theorem C445_dose_days : forall fexp fpow G poisson s legs n g, whole_plan legs -> (0 <= n < 2 ^ 50)%Z ->
  (forall m, (n <= m < 2 ^ 50)%Z -> dose_of (simulate_mission_tid fexp fpow G poisson (on_plan s legs) (dofZ n) g) = dose_of (simulate_mission_tid fexp fpow G poisson (on_plan s (first_days n legs)) (dofZ m) g)) /\
  ((total_days legs <= n)%Z -> dose_of (simulate_mission_tid fexp fpow G poisson (on_plan s legs) (dofZ n) g) = dose_of (simulate_mission_tid fexp fpow G poisson (on_plan s legs) (dofZ (total_days legs)) g)) /\
  ((forall x y, is_double (fpow x y)) -> (1 <= p_bits s < 2 ^ 64)%Z -> (total_days legs < 1000000000)%Z -> completes (simulate_mission_tid fexp fpow G poisson (on_plan s legs) (dofZ n) g)).
Proof.
  intros fexp fpow G poisson s legs n g W N. assert (T0 : (0 <= total_days legs)%Z). { clear - W. induction W as [|l ls H _ IH]; cbn; [lia|]. fold (total_days ls). lia. } assert (CUT : forall a m, (0 <= a < 2 ^ 50)%Z -> (a <= m < 2 ^ 50)%Z -> dose_of (simulate_mission_tid fexp fpow G poisson (on_plan s legs) (dofZ a) g) = dose_of (simulate_mission_tid fexp fpow G poisson (on_plan s (first_days a legs)) (dofZ m) g)).
  { intros a m A M. pose proof (tid_cut fexp fpow G poisson legs (on_plan s legs) (on_plan s (first_days a legs)) a m 0 d0 (fun _ => 0%Z) g W ltac:(lia) A M (proj1 z_ok) (proj2 z_ok) eq_refl eq_refl) as C. rewrite Z.sub_0_r in C. exact C. }
  split; [intros m M; exact (CUT n m N M)|]. split.
  - intros L. rewrite (CUT (total_days legs) n ltac:(lia) ltac:(lia)). rewrite (all_days legs (total_days legs) W ltac:(lia)). reflexivity.
  - intros PD P T. unfold simulate_mission_tid. cbn [p_traj on_plan planned environments durations_days]. apply (tid_whole_completes fexp fpow G poisson PD legs _ n 0%Z); try assumption; try lia; [exact (proj1 z_ok)|exact (proj2 z_ok)].
Qed.
Example C445_nonvacuous : let legs := [(LEO, 10); (INTERPLANETARY, 180); (MARS_ORBIT, 30)]%Z in whole_plan legs /\ first_days 50 legs = [(LEO, 10); (INTERPLANETARY, 40)]%Z /\ total_days legs = 220%Z.
Proof. cbv zeta. split; [repeat constructor; cbn; lia|]. split; reflexivity. Qed.

(** an event may claim more bits than the memory has *)
Theorem C446_bits_beyond_memory_refuted : exists s evs g', preachable stair_exp keep_pow nat one_draw most 8 s 0%nat /\ uniform_lib most /\ poisson_lib one_draw /\ simulate_period stair_exp keep_pow nat one_draw most s d1 0%nat = Ret (evs, g') /\ Exists (fun ev => (8 < snd ev)%Z) evs.
Proof.
  exists (mkP 8 8 d0 Earth_LEO LEO (dq 5 10)). eexists. eexists. split; [|split; [exact most_ok|split; [intros m g; cbn; lia|split; [vm_compute; reflexivity|right; right; left; cbn; lia]]]].
  exists 8%Z, d0, Earth_LEO, 0%nat, [], (mkP 8 8 d0 Earth_LEO LEO (dq 5 10)). split; [lia|]. split; [reflexivity|]. split; [constructor|reflexivity].
Qed.
Theorem C446_bits_bound_partial : forall fexp fpow G poisson uniform s days g0 evs g1, uniform_lib uniform -> simulate_period fexp fpow G poisson uniform s days g0 = Ret (evs, g1) -> Forall (fun ev => (1 <= snd ev <= 1048576)%Z) evs.
Proof.
  intros fexp fpow G poisson uniform s days g0 evs g1 U Q. unfold simulate_period in Q. apply period_shape in Q. destruct Q as (_ & _ & _ & _ & I). eapply Forall_impl; [|exact (I U)]. intros (t & b) K. unfold in_range in K. cbn [fst snd] in *. destruct t; cbn [bits_range fst snd] in K; lia.
Qed.
Example C446_nonvacuous : uniform_lib most /\ completes (simulate_period stair_exp keep_pow nat one_draw most leo_sim d1 0%nat).
Proof. split; [exact most_ok|]. eexists. vm_compute. reflexivity. Qed.

Print Assumptions C430_rates_finite.
Print Assumptions C431_shield_bounds.
Print Assumptions C432_thicker_shield.
Print Assumptions C433_rate_law.
Print Assumptions C434_environments.
Print Assumptions C435_activity.
Print Assumptions C436_events.
Print Assumptions C437_expected_events.
Print Assumptions C438_empty_runs_refuted.
Print Assumptions C438_runs_complete_partial.
Print Assumptions C439_mission_segments.
Print Assumptions C440_environment_lost_refuted.
Print Assumptions C440_rest_kept_partial.
Print Assumptions C441_bad_trajectory_refuted.
Print Assumptions C441_mission_completes_partial.
Print Assumptions C442_presets.
Print Assumptions C443_dose_keys.
Print Assumptions C444_dose_ignores_activity.
Print Assumptions C445_dose_days.
Print Assumptions C446_bits_beyond_memory_refuted.
Print Assumptions C446_bits_bound_partial.
