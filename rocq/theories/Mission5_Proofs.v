From Coq Require Import String List NArith ZArith Bool Lia Reals Lra SpecFloat.
From Flocq Require Import Core.
Import ListNotations.
From Verif Require Import Outcome Words Floats FloatsR HealthFloat Approx_Model Bits_Model Health_Proofs RMA3_Proofs Power2_Proofs Strat4_Proofs MBP6_Proofs.
From Verif Require Import Edac_Model Edac_Spec Inject_Model Inject_Spec Inject3_Proofs Inject4_Proofs Scrub_Model Mission_Model Mission_Spec Mission_Proofs Mission2_Proofs Mission3_Proofs Mission4_Proofs.
Local Open Scope Z_scope.
Local Open Scope outcome_scope.

(** * what the configuration does not decide *)
Lemma asked_same a b r : same_rules a b -> asked a r = asked b r.
Proof. intros (A & B & C & D & F & G). unfold asked. rewrite A, B, C, D, F, G. reflexivity. Qed.
Definition twins (a b : loop) : Prop := same_course a b /\ same_rules (k_config (l_sim a)) (k_config (l_sim b)) /\ k_stats (l_sim a) = k_stats (l_sim b) /\ l_last a = l_last b /\ l_seen a = l_seen b.
Lemma pass_twins E cb ts d a b a' b' : twins a b -> pass E cb ts d a = Ret a' -> pass E cb ts d b = Ret b' -> twins a' b'.
Proof.
  intros (S & Ru & St & La & Se) HA HB. split; [eapply pass_same; eassumption|]. pose proof S as (P & V & I & G & El & Et & M & Ch). apply pass_inv in HA, HB.
  destruct HA as (ch1 & k1 & et1 & st1 & m1 & sc1 & C1 & S1 & X1 & E1 & L1 & T1 & K1 & M1 & N1). destruct HB as (ch2 & k2 & et2 & st2 & m2 & sc2 & C2 & S2 & X2 & E2 & L2 & T2 & K2 & M2 & N2).
  assert (Q : ch1 = ch2 /\ et1 = et2 /\ k_profile k1 = k_profile k2 /\ k_env k1 = k_env k2 /\ k_index k1 = k_index k2 /\ k_regions k1 = k_regions k2).
  { apply change_spec in C1, C2. destruct C1 as (d1 & D1 & C1), C2 as (d2 & D2 & C2). rewrite P, I, D2 in D1. injection D1 as <-. rewrite Et in C1. destruct (due _ _ _).
    - destruct C1 as [C1 ->], C2 as [C2 ->]. destruct (select_same _ _ _ _ _ _ _ P V I G C1 C2) as (-> & R). tauto.
    - destruct C1 as (-> & -> & ->), C2 as (-> & -> & ->). tauto. }
  destruct (change_keeps _ _ _ _ _ C1) as (_ & F1 & Y1 & _), (change_keeps _ _ _ _ _ C2) as (_ & F2 & Y2 & _).
  destruct Q as (-> & -> & P' & V' & I' & G'). rewrite F1, V', (asked_same _ _ _ Ru) in X1. rewrite F2, <- El, <- La, <- X1 in X2. subst sc2.
  rewrite F1, V', (asked_same _ _ _ Ru), Y1, St, G', M in S1. rewrite F2, Y2 in S2. rewrite S1 in S2. injection S2 as <- <-.
  rewrite K1, K2, L1, L2, N1, N2. cbn [set_stats k_config k_stats]. rewrite F1, F2, El, La, Se, V'. auto.
Qed.
Theorem run_twins E cb total ts ds k1 k2 m x y : k_profile k1 = k_profile k2 -> k_env k1 = k_env k2 -> k_index k1 = k_index k2 -> k_regions k1 = k_regions k2 -> k_stats k1 = k_stats k2 ->
  same_rules (k_config k1) (k_config k2) -> run_simulation E cb total ts ds k1 m = Ret x -> run_simulation E cb total ts ds k2 m = Ret y ->
  k_stats (fst (fst x)) = k_stats (fst (fst y)) /\ snd (fst x) = snd (fst y) /\ snd x = snd y.
Proof.
  intros P V I G St Ru HA HB. apply run_inv in HA, HB. destruct HA as (a & A & ->), HB as (b & B & ->).
  assert (S : twins (run_start k1 m) (run_start k2 m)) by (unfold twins, same_course; cbn; auto 15).
  assert (T : twins a b).
  { revert A B S. generalize (run_start k1 m) (run_start k2 m). induction ds as [|d ds IH]; intros l1 l2 A B S; cbn [passes] in A, B;
    (assert (Q : l_elapsed l1 = l_elapsed l2) by apply S); rewrite <- Q in B; destruct (_ <? _).
    - discriminate A. - injection A as <-. injection B as <-. exact S.
    - bind A l1' A1. bind B l2' B1. eapply IH; [exact A|exact B|]. eapply pass_twins; eassumption.
    - injection A as <-. injection B as <-. exact S. }
  destruct T as (C & _ & St' & _ & Se). cbn [run_end fst snd set_stats k_stats]. rewrite St', Se. split; [reflexivity|]. split; [apply C|reflexivity].
Qed.

(** * the standard tables *)
Lemma config_cases (P : mconfig -> Prop) : (forall n, In n ["LEO"; "GEO"; "MOON"; "MARS"; "JUPITER"; ""]%string -> P (standard_config n)) -> forall t, P (standard_config t).
Proof.
  intros H t. unfold standard_config.
  destruct (String.eqb t "LEO" || String.eqb t "LEO_EARTH_OBSERVATION" || String.eqb t "ISS")%bool; [exact (H "LEO"%string ltac:(cbn; tauto))|].
  destruct (String.eqb t "GEO" || String.eqb t "GEOSTATIONARY")%bool; [exact (H "GEO"%string ltac:(cbn; tauto))|].
  destruct (String.eqb t "LUNAR" || String.eqb t "MOON")%bool; [exact (H "MOON"%string ltac:(cbn; tauto))|].
  destruct (String.eqb t "MARS"); [exact (H "MARS"%string ltac:(cbn; tauto))|]. destruct (String.eqb t "JUPITER"); [exact (H "JUPITER"%string ltac:(cbn; tauto))|]. exact (H ""%string ltac:(cbn; tauto)).
Qed.
Lemma profile_cases (P : mprofile -> Prop) : (forall n, In n ["LEO"; "ISS"; "GEO"; "MOON"; "MARS"; "JUPITER"; ""]%string -> P (standard_profile n)) -> forall t, P (standard_profile t).
Proof.
  intros H t. unfold standard_profile.
  destruct (String.eqb t "LEO" || String.eqb t "LEO_EARTH_OBSERVATION")%bool; [exact (H "LEO"%string ltac:(cbn; tauto))|].
  destruct (String.eqb t "ISS"); [exact (H "ISS"%string ltac:(cbn; tauto))|].
  destruct (String.eqb t "GEO" || String.eqb t "GEOSTATIONARY")%bool; [exact (H "GEO"%string ltac:(cbn; tauto))|].
  destruct (String.eqb t "LUNAR" || String.eqb t "MOON")%bool; [exact (H "MOON"%string ltac:(cbn; tauto))|].
  destruct (String.eqb t "MARS"); [exact (H "MARS"%string ltac:(cbn; tauto))|]. destruct (String.eqb t "JUPITER"); [exact (H "JUPITER"%string ltac:(cbn; tauto))|]. exact (H ""%string ltac:(cbn; tauto)).
Qed.
Lemma no_weaker_refl s : no_weaker s s. Proof. unfold no_weaker. auto with zarith. Qed.
Lemma no_weaker_trans a b c : no_weaker a b -> no_weaker b c -> no_weaker a c. Proof. unfold no_weaker. intuition lia. Qed.
Theorem config_ordered t : no_weaker (c_low (standard_config t)) (c_medium (standard_config t)) /\ no_weaker (c_medium (standard_config t)) (c_high (standard_config t)) /\
  flt (c_thr_medium (standard_config t)) (c_thr_high (standard_config t)) = true /\ okd (c_thr_medium (standard_config t)) /\ okd (c_thr_high (standard_config t)).
Proof.
  apply (config_cases (fun c => no_weaker (c_low c) (c_medium c) /\ no_weaker (c_medium c) (c_high c) /\ flt (c_thr_medium c) (c_thr_high c) = true /\ okd (c_thr_medium c) /\ okd (c_thr_high c))).
  intros n Hn. cbn [In] in Hn. repeat (destruct Hn as [<-|Hn]); [..|destruct Hn];
    (split; [unfold no_weaker; vm_compute; repeat split; intros; congruence|split; [unfold no_weaker; vm_compute; repeat split; intros; congruence|split; [vm_compute; reflexivity|split; split; vm_compute; reflexivity]]]).
Qed.
Theorem config_monotone t r r' : okd r -> okd r' -> (R r <= R r')%R -> no_weaker (asked (standard_config t) r) (asked (standard_config t) r').
Proof.
  intros O O' L. destruct (config_ordered t) as (A & B & C & D & F). unfold asked. destruct (c_adaptive _); [|apply no_weaker_refl].
  apply (flt_d _ _ D F) in C.
  assert (X : forall t, okd t -> fle t r = true -> fle t r' = true) by (intros u Hu H; apply (fle_d _ _ Hu O) in H; apply (fle_d _ _ Hu O'); lra).
  destruct (fle (c_thr_high _) r) eqn:H1; [rewrite (X _ F H1); apply no_weaker_refl|].
  destruct (fle (c_thr_medium _) r) eqn:H2; [rewrite (X _ D H2); destruct (fle (c_thr_high _) r'); [exact B|apply no_weaker_refl]|].
  destruct (fle (c_thr_high _) r'); [eapply no_weaker_trans; eassumption|]. destruct (fle (c_thr_medium _) r'); [exact A|apply no_weaker_refl].
Qed.
Ltac hlit := split; [split; vm_compute; reflexivity|]; match goal with |- context [R ?d] => let v := eval vm_compute in d in change d with v end; lit_R.
(** closed comparisons *)
Lemma okd_b x : (V64 x && fin x)%bool = true -> okd x. Proof. intros H. apply andb_true_iff in H. exact H. Qed.
Definition in_b (lo hi x : sf) : bool := (V64 x && fin x && fle lo x && fle x hi)%bool.
Lemma in_b_ok lo hi x : okd lo -> okd hi -> in_b lo hi x = true -> okd x /\ (R lo <= R x <= R hi)%R.
Proof.
  unfold in_b. rewrite !andb_true_iff. intros L H (((A & B) & C) & D). assert (O : okd x) by (split; assumption). split; [exact O|]. split; [apply (fle_d _ _ L O), C|apply (fle_d _ _ O H), D].
Qed.
Lemma in_z a b x : (Z.abs a < 2 ^ 53) -> (Z.abs b < 2 ^ 53) -> in_b (dofZ a) (dofZ b) x = true -> okd x /\ (IZR a <= R x <= IZR b)%R.
Proof. intros A B H. destruct (ofZ_ex a A) as [O1 R1], (ofZ_ex b B) as [O2 R2]. rewrite <- R1, <- R2. apply in_b_ok; assumption. Qed.
Definition env_b (e : env_params) : bool :=
  (in_b (dofZ 0) (dofZ 1000000) (altitude_km e) && in_b (dofZ 0) (dofZ 180) (inclination_deg e) && in_b (dofZ 0) (dofZ 10) (solar_activity e))%bool.
Lemma env_b_ok e ex : env_b e = true -> within 0 1 ex -> sensible_env e ex.
Proof.
  unfold env_b. rewrite !andb_true_iff. intros ((A & B) & C) H. apply in_z in A, B, C; try lia. unfold sensible_env, within. repeat split; try apply A; try apply B; try apply C; apply H.
Qed.
Definition profile_b (p : mprofile) : bool :=
  ((1 <=? length (p_envs p))%nat && (length (p_envs p) =? length (p_durations p))%nat && (length (p_probs p) =? length (p_envs p))%nat &&
   forallb (in_b (dofZ 0) (dofZ 100000)) (p_durations p) && forallb (in_b (dofZ 0) (dofZ 1)) (p_probs p) && forallb env_b (p_envs p) &&
   in_b (dlit 999999999999999 1000000000000000) (dlit 1000000000000001 1000000000000000) (cumulated (p_probs p) (length (p_probs p))))%bool.
Lemma profiles_b t : profile_b (standard_profile t) = true.
Proof. apply (profile_cases (fun p => profile_b p = true)). intros n Hn. cbn [In] in Hn. repeat (destruct Hn as [<-|Hn]); [..|destruct Hn]; vm_compute; reflexivity. Qed.
Theorem profile_ok t : let p := standard_profile t in proper_profile p /\ length (p_durations p) = length (p_envs p) /\ length (p_probs p) = length (p_envs p) /\
  Forall probability (p_probs p) /\ (forall e, In e (p_envs p) -> forall ex, within 0 1 ex -> sensible_env e ex) /\
  (Rabs (R (cumulated (p_probs p) (length (p_probs p))) - 1) <= 1 / 100000000000000)%R.
Proof.
  cbn zeta. pose proof (profiles_b t) as H. unfold profile_b in H. rewrite !andb_true_iff in H. destruct H as ((((((A & B) & C) & D) & F) & G) & H).
  apply Nat.leb_le in A. apply Nat.eqb_eq in B, C. rewrite !forallb_forall in *.
  split; [|split; [lia|split; [lia|split; [|split]]]].
  - split; [intros Q; rewrite Q in A; cbn in A; lia|]. split; [lia|]. split; [lia|]. apply Forall_forall. intros x Hx. apply D, in_z in Hx; try lia. destruct Hx. split; [assumption|lra].
  - apply Forall_forall. intros x Hx. apply F, in_z in Hx; try lia. exact Hx.
  - intros e He ex Hex. apply env_b_ok; [apply G, He|exact Hex].
  - assert (L1 : okd (dlit 999999999999999 1000000000000000) /\ (1 - 1/100000000000000 < R (dlit 999999999999999 1000000000000000) < 1)%R) by hlit.
    assert (L2 : okd (dlit 1000000000000001 1000000000000000) /\ (1 < R (dlit 1000000000000001 1000000000000000) < 1 + 1/100000000000000)%R) by hlit.
    apply in_b_ok in H; [|apply L1|apply L2]. apply Rabs_le. lra.
Qed.

(** * standard missions can be run *)
Definition prefactor (p : env_params) : sf := 
  let one := dofZ 1 in
  let rate :=
    if contains "Mars" (mission_name p) then dlit 2 1000
    else if (contains "Lunar" (mission_name p) || contains "Moon" (mission_name p))%bool then dlit 3 1000
    else if contains "Jupiter" (mission_name p) then dlit 1 100
    else
      let alt := altitude_km p in
      let rate := if fle alt (dofZ 1000) then dmul (dlit 1 1000) (dadd one (ddiv alt (dofZ 1000)))
                  else if fle alt (dofZ 36000) then dmul (dlit 1 1000) (dadd (dofZ 2) (ddiv alt (dofZ 10000)))
                  else dmul (dlit 1 1000) (dofZ 5) in
      dmul rate (dadd one (ddiv (inclination_deg p) (dofZ 90))) in
  let rate := dmul rate (dadd one (ddiv (solar_activity p) (dofZ 5))) in
  if inside_saa p then dmul rate (dofZ 10) else rate.
Lemma prefactor_b t e : In e (p_envs (standard_profile t)) -> in_b (dlit 1 1000) (dofZ 10) (prefactor e) = true.
Proof.
  revert e. apply (profile_cases (fun p => forall e, In e (p_envs p) -> in_b (dlit 1 1000) (dofZ 10) (prefactor e) = true)). intros n Hn e He.
  assert (F : forallb (fun e => in_b (dlit 1 1000) (dofZ 10) (prefactor e)) (p_envs (standard_profile n)) = true); [|rewrite forallb_forall in F; apply F, He].
  clear e He. cbn [In] in Hn. repeat (destruct Hn as [<-|Hn]); [..|destruct Hn]; vm_compute; reflexivity.
Qed.
Local Opaque dlit dofZ dadd dsub dmul ddiv.
Definition shield_arg (e : env_params) : sf := ddiv (SFopp (shielding_mm e)) (dofZ 10).
Lemma lower x lo : (Z.abs lo < 2 ^ 53) -> (0 < IZR lo)%R -> (/ IZR lo <= x)%R -> (/ IZR (2 * lo) <= rnd64 x)%R.
Proof.
  intros Hl P H. assert (N : (/ 1152921504606846976 <= x)%R).
  { apply Rle_trans with (/ IZR lo)%R; [|exact H]. apply Rinv_le_contravar; [exact P|]. apply IZR_le. lia. }
  assert (Q : (bpow radix2 (-1022) <= x)%R). { apply Rle_trans with (/ 1152921504606846976)%R; [|exact N]. change (/ 1152921504606846976)%R with (bpow radix2 (-60)). apply bpow_le. lia. }
  apply rnd64_rel in Q. assert (W : (/ IZR (2 * lo) = / IZR lo / 2)%R) by (rewrite mult_IZR; field; lra). rewrite W.
  assert (0 < / IZR lo)%R by (apply Rinv_0_lt_compat; exact P). lra.
Qed.
Theorem standard_active E t e ts : In e (p_envs (standard_profile t)) -> within (1/10) 1 (E (shield_arg e)) -> 1 <= ts <= 10 ^ 12 -> active E ts e.
Proof.
  intros He [Oe Be] Ht. destruct (profile_ok t) as (_ & _ & _ & _ & S & _). specialize (S e He (E (shield_arg e)) ltac:(split; [exact Oe|lra])).
  pose proof (rates_ok _ _ S) as ((Ot & O1 & O2 & O3) & Up). unfold active, env_rates. fold (shield_arg e). set (r := update_rates (base_rate e (E (shield_arg e)))) in *.
  assert (P := prefactor_b t e He). assert (L1 : okd (dlit 1 1000) /\ (9/10000 < R (dlit 1 1000) < 11/10000)%R) by hlit. destruct (ofZ_ex 10) as [O10 R10]; [lia|].
  apply in_b_ok in P; [|apply L1|exact O10]. rewrite R10 in P. destruct P as [Op Bp].
  assert (Bb : base_rate e (E (shield_arg e)) = dmul (prefactor e) (E (shield_arg e))) by reflexivity.
  destruct (mul_d _ _ Op Oe) as [Ob Rb]; [unfold mid; split; nra|].
  assert (Lb : (/ IZR (2 * 12000) <= R (base_rate e (E (shield_arg e))))%R). { rewrite Bb, Rb. apply lower; [lia|lra|]. nra. }
  assert (L8 : okd (dlit 8 10) /\ (79/100 < R (dlit 8 10) < 81/100)%R) by hlit. rewrite <- Bb in Ob.
  destruct (mul_d (base_rate e (E (shield_arg e))) _ Ob (proj1 L8)) as [Or Rr].
  { assert (U : (R (base_rate e (E (shield_arg e))) <= 10)%R). { rewrite Bb, Rb. apply (rnd_up 10); [lia|]. nra. }
    assert (Z0 : (0 <= R (base_rate e (E (shield_arg e))))%R). { apply Rle_trans with (/ IZR (2 * 12000))%R; [|exact Lb]. left. apply Rinv_0_lt_compat. apply IZR_lt. lia. }
    assert (M0 : (0 <= R (base_rate e (E (shield_arg e))) * R (dlit 8 10))%R) by (apply Rmult_le_pos; lra).
    assert (M1 : (R (base_rate e (E (shield_arg e))) * R (dlit 8 10) <= 10 * 1)%R) by (apply Rmult_le_compat; lra). unfold mid. lra. }
  assert (Lr : (/ IZR (2 * 36000) <= R (r_bit r))%R). { change (r_bit r) with (dmul (base_rate e (E (shield_arg e))) (dlit 8 10)). rewrite Rr. apply lower; [lia|lra|]. change (2 * 12000) with 24000 in Lb. apply Rle_trans with (/ 24000 * (79/100))%R; [lra|]. apply Rmult_le_compat; lra. }
  destruct (ofZ_ex ts) as [Os Rs]; [lia|]. destruct (ofZ_ex 1000) as [Ok Rk]; [lia|].
  assert (Ts : (1 <= IZR ts <= 1000000000000)%R) by (split; apply IZR_le; lia).
  destruct (div_d _ _ Os Ok) as [Od Rd]; [rewrite Rk; lra|rewrite Rk, Rs; unfold mid; lra|]. rewrite Rk, Rs in Rd.
  assert (Ld : (/ IZR (2 * 1000) <= R (ddiv (dofZ ts) (dofZ 1000)))%R). { rewrite Rd. apply lower; [lia|lra|lra]. }
  assert (Ud : (R (ddiv (dofZ ts) (dofZ 1000)) <= IZR 1000000000)%R). { rewrite Rd. apply rnd_up; [lia|lra]. }
  assert (Lt : (/ IZR (2 * 36000) <= R (r_total r))%R) by lra. clear - Ot Od Lt Up Ld Ud. revert Lt Up Ld Ud. generalize dependent (ddiv (dofZ ts) (dofZ 1000)). intros y Od.
  generalize dependent (r_total r). intros x Ot Lx Ux Ly Uy. change (2 * 36000) with 72000 in Lx. change (2 * 1000) with 2000 in Ly.
  assert (Lo : (/ 72000 * / 2000 <= R x * R y)%R) by (apply Rmult_le_compat; lra). assert (Hi : (R x * R y <= 2160 * 1000000000)%R) by (apply Rmult_le_compat; lra).
  destruct (mul_d x y Ot Od) as [Of Rf]; [unfold mid; lra|].
  apply flt_d; [split; reflexivity|exact Of|]. rewrite Rf. apply Rlt_le_trans with (/ IZR (2 * 200000000))%R; [change (R (S754_zero false)) with 0%R; apply Rinv_0_lt_compat; apply IZR_lt; lia|]. apply lower; [lia|lra|]. lra.
Qed.
