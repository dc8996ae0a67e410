(** C230-C244: MissionSimulator (testing/mission_simulator.hpp). *)
From Coq Require Import String List NArith ZArith Bool Reals SpecFloat Lia Lra.
Import ListNotations.
From Verif Require Import Outcome Words Floats FloatsR HealthFloat Bits_Model Edac_Model Edac_Spec Inject_Model Inject_Spec Scrub_Model Power2_Proofs RMA3_Proofs Mission_Model Mission_Spec.
From Verif Require Import Mission_Proofs Mission2_Proofs Mission3_Proofs Mission4_Proofs Mission5_Proofs.
Local Open Scope Z_scope.

(** ** concrete runs: a processor whose exp answers 0.6, eight bytes of memory of which four are protected *)
Definition exp0 : sf -> sf := fun _ => dlit 6 10.
Definition fixed_config : mconfig :=
  let d := default_config in mkCfg false (c_thr_low d) (c_thr_medium d) (c_thr_high d) (c_low d) (c_medium d) (c_high d) (c_budget d) (c_tmr_cost d) (c_ecc_cost d) (c_scrub_cost d).
Definition mem0 : list N := [1; 2; 3; 4; 5; 6; 7; 8]%N.
Definition calm (sel : sf) : step_draw := mkSD (dlit 5 10) sel [].
Definition flip0 : rs_draw := mkRD (dofZ 0) 0 0 2 0 false 0.
Definition lucky : det_draw := mkDD (dofZ 0) (dofZ 0) (dofZ 0) (dofZ 0).
Definition unlucky : det_draw := mkDD (dofZ 1) (dofZ 1) (dofZ 1) (dofZ 1).
Definition hit (d : det_draw) : step_draw := mkSD (dlit 5 10) (dofZ 0) [[(flip0, d)]].
Definition sim0 (c : mconfig) : msim := register_region 0 4 true (register_region 4 4 false (new_sim (standard_profile "LEO") c)).
Definition sim1 (c : mconfig) : msim := register_region 0 4 true (new_sim (standard_profile "LEO") c).
Definition totals (s : mstats) : list N := [m_events s; m_flips s; m_detected s; m_corrected s; m_undetected s; m_tmr s; m_scrubs s].

(** ** C230: the event counters *)
Theorem C230_step : forall E cb ts d l l', pass E cb ts d l = Ret l' ->
  let e := k_env (l_sim l') in let c := k_config (l_sim l) in
  counted (mission_name e) (happenings (env_rates E e) (asked c (r_total (env_rates E e))) (k_regions (l_sim l)) (d_events d)) (k_stats (l_sim l)) (k_stats (l_sim l')).
Proof. exact pass_counted. Qed.
Theorem C230_history : forall E p c os m k m', history E os (new_sim p c, m) = Ret (k, m') -> balanced (k_stats k).
Proof. exact history_balanced. Qed.
Example C230_nonvacuous : exists x, run_simulation exp0 false 2 1000 [hit lucky; hit unlucky] (sim1 fixed_config) mem0 = Ret x /\ totals (k_stats (fst (fst x))) = [2; 2; 1; 1; 1; 1; 0]%N.
Proof. eexists. split; vm_compute; reflexivity. Qed.

(** ** C231: the byte totals *)
Theorem C231_bytes : forall E p c os m k m', history E os (new_sim p c, m) = Ret (k, m') ->
  m_protected_bytes (k_stats k) = bytes_of true os /\ m_unprotected_bytes (k_stats k) = bytes_of false os /\
  m_total_bytes (k_stats k) = (m_protected_bytes (k_stats k) + m_unprotected_bytes (k_stats k))%N.
Proof. exact history_bytes. Qed.
Example C231_nonvacuous : exists k m, history exp0 [Register 0 4 true; Register 4 3 false; Run false 1 1000 [calm (dofZ 0)]; Register 2 1 true] (new_sim (standard_profile "LEO") default_config, mem0) = Ret (k, m)
  /\ m_total_bytes (k_stats k) = 8%N /\ m_protected_bytes (k_stats k) = 5%N.
Proof. eexists _, _. split; [vm_compute; reflexivity|]. vm_compute. auto. Qed.

(** ** C232: only protection notices an event, and only events that were noticed are repaired *)
Theorem C232_fate : forall E cb ts d l l' , pass E cb ts d l = Ret l' ->
  let e := k_env (l_sim l') in let s := asked (k_config (l_sim l)) (r_total (env_rates E e)) in
  ((forall g, In g (k_regions (l_sim l)) -> g_prot g = false) \/ (s_tmr s = false /\ s_ecc s = false) ->
   m_detected (k_stats (l_sim l')) = m_detected (k_stats (l_sim l)) /\ m_corrected (k_stats (l_sim l')) = m_corrected (k_stats (l_sim l)) /\ m_tmr (k_stats (l_sim l')) = m_tmr (k_stats (l_sim l))) /\
  (s_tmr s = false -> m_tmr (k_stats (l_sim l')) = m_tmr (k_stats (l_sim l))).
Proof.
  intros E cb ts d l l' P e s. pose proof (pass_counted E cb ts d l l' P) as (_ & _ & _ & _ & _ & D & _ & C & T & _). fold e in D, C, T. fold s in D, C, T.
  assert (none : forall f hs, (forall h, In h hs -> f h = false) -> many f hs = 0%N).
  { intros f hs. unfold many. induction hs as [|h hs IH]; intros H; cbn; [reflexivity|]. rewrite (H h (or_introl eq_refl)). apply IH. intros x Hx. apply H. right. exact Hx. }
  assert (shape : forall h, In h (happenings (env_rates E e) s (k_regions (l_sim l)) (d_events d)) -> exists g x, In g (k_regions (l_sim l)) /\ h = happens (env_rates E e) s (g_prot g) x).
  { intros h H. unfold happenings in H. apply in_flat_map in H. destruct H as ((g & ds) & Hg & Hh). apply in_combine_l in Hg. apply in_map_iff in Hh. destruct Hh as (x & <- & _). exists g, x. auto. }
  split.
  - intros H. rewrite D, C, T. rewrite !none; [rewrite !N.add_0_r; auto| | |]; intros h Hh; destruct (shape h Hh) as (g & x & Hg & ->);
      unfold happens, repaired, by_ecc, by_tmr; cbn [h_noticed h_repaired h_tmr]; destruct H as [H|[H1 H2]]; rewrite ?(H g Hg), ?H1, ?H2, ?andb_false_r; reflexivity.
  - intros H1. rewrite T, none; [apply N.add_0_r|]. intros h Hh. destruct (shape h Hh) as (g & x & Hg & ->). unfold happens, by_tmr; cbn [h_tmr]. rewrite H1, andb_false_r. reflexivity.
Qed.
Example C232_nonvacuous : (forall g, In g (k_regions (register_region 4 4 false (new_sim (standard_profile "LEO") fixed_config))) -> g_prot g = false) /\
  exists x, run_simulation exp0 false 1 1000 [hit lucky] (register_region 4 4 false (new_sim (standard_profile "LEO") fixed_config)) mem0 = Ret x /\ totals (k_stats (fst (fst x))) = [1; 1; 0; 0; 1; 0; 0]%N.
Proof. split; [intros g [<-|[]]; reflexivity|]. eexists. split; vm_compute; reflexivity. Qed.

(** ** C233: which environment, and the callback *)
Theorem C233_choice : forall val k changed k', okd val -> (0 <= R val)%R -> Forall probability (p_probs (k_profile k)) -> Z.of_nat (length (p_probs (k_profile k))) < 2 ^ 20 ->
  (1 < length (p_envs (k_profile k)))%nat -> select_next val k = Ret (changed, k') ->
  in_profile k' /\ (changed = true <-> k_index k' <> k_index k) /\
  (forall i, (i < length (p_probs (k_profile k)))%nat -> (R (cumulated (p_probs (k_profile k)) i) <= R val < R (cumulated (p_probs (k_profile k)) (S i)))%R -> k_index k' = i) /\
  ((R (cumulated (p_probs (k_profile k)) (length (p_probs (k_profile k)))) <= R val)%R -> k_index k' = k_index k).
Proof. exact select_spec. Qed.
Theorem C233_step : forall E cb ts d l l', pass E cb ts d l = Ret l' -> in_profile (l_sim l) ->
  exists dur, nth_error (p_durations (k_profile (l_sim l))) (k_index (l_sim l)) = Some dur /\ in_profile (l_sim l') /\
    (due dur (l_env_time l) (d_change d) = false -> k_index (l_sim l') = k_index (l_sim l) /\ l_env_time l' = l_env_time l + ts) /\
    (due dur (l_env_time l) (d_change d) = true -> l_env_time l' = ts /\ exists b, select_next (d_select d) (l_sim l) = Ret (b, set_stats (k_stats (l_sim l)) (l_sim l'))) /\
    changes (l_seen l') = (changes (l_seen l) ++ (if cb && negb (k_index (l_sim l') =? k_index (l_sim l))%nat then [k_env (l_sim l')] else []))%list.
Proof. exact pass_environment. Qed.
Definition quick : mprofile := mkProfile [mission_environment "LEO"; mission_environment "GEO"] [dofZ 1; dofZ 2] [dlit 1 2; dlit 1 2].
Example C233_nonvacuous : exists x, run_simulation exp0 true 3 1000 [calm (dofZ 0); calm (dlit 7 10); calm (dofZ 0)] (new_sim quick default_config) [] = Ret x /\
  changes (snd x) = [mission_environment "GEO"] /\ in_profile (new_sim quick default_config) /\
  time_in "Low Earth Orbit" (k_stats (fst (fst x))) = Some (dofZ 1) /\ time_in "Geostationary Orbit" (k_stats (fst (fst x))) = Some (dofZ 2).
Proof. eexists. split; [vm_compute; reflexivity|]. repeat split; vm_compute; reflexivity. Qed.

(** ** C234: a run ends, after the number of steps its duration needs *)
Theorem C234_run_ends_partial : forall E cb total ts ds k m, ready E ts k m -> 0 < ts -> 0 <= total -> total * 1000 + ts < 2 ^ 63 -> Forall (legal_step (k_regions k)) ds -> steps total ts <= Z.of_nat (length ds) ->
  exists x, run_simulation E cb total ts ds k m = Ret x /\ ready E ts (fst (fst x)) (snd (fst x)).
Proof. exact run_completes. Qed.
Theorem C234_run_ends_refuted : forall E cb total ts ds k m x, ts <= 0 -> 0 < total -> run_simulation E cb total ts ds k m <> Ret x.
Proof. exact run_endless. Qed.
Lemma exp0_active ts e : 1 <= ts <= 10 ^ 12 -> (exists t, In e (p_envs (standard_profile t))) -> active exp0 ts e.
Proof.
  intros H [t He]. apply (standard_active exp0 t); [exact He| |exact H]. change (exp0 (shield_arg e)) with (dlit 6 10).
  assert (L : okd (dlit 6 10) /\ (59/100 < R (dlit 6 10) < 61/100)%R) by hlit. split; [apply L|lra].
Qed.
Lemma sim0_ready c ts : 1 <= ts <= 10 ^ 12 -> ready exp0 ts (sim0 c) mem0.
Proof.
  intros H. split; [apply (profile_ok "LEO")|]. split; [cbn; lia|]. split; [apply Forall_forall; intros e He; apply exp0_active; [exact H|exists "LEO"%string; exact He]|].
  split; [apply exp0_active; [exact H|exists "LEO"%string; left; reflexivity]|]. split; [repeat constructor|]. repeat constructor; cbn; lia.
Qed.
Example C234_nonvacuous : ready exp0 1000 (sim0 default_config) mem0 /\ legal_step (k_regions (sim1 default_config)) (hit lucky) /\ steps 2 1000 = 2 /\ steps 2 300 = 7.
Proof. split; [apply sim0_ready; lia|]. split; [|vm_compute; auto]. repeat constructor; cbn; lia. Qed.

(** ** C235: the time spent in environments *)
Theorem C235_step : forall E cb ts d l l', pass E cb ts d l = Ret l' -> let name := mission_name (k_env (l_sim l')) in
  time_in name (k_stats (l_sim l')) = Some (dadd (match time_in name (k_stats (l_sim l)) with Some t => t | None => dofZ 0 end) (ddiv (dofZ ts) (dofZ 1000))) /\
  forall other, other <> name -> time_in other (k_stats (l_sim l')) = time_in other (k_stats (l_sim l)).
Proof. exact pass_time_in. Qed.
Theorem C235_run : forall E cb total s ds k m x z, 0 < s -> 0 <= total -> run_simulation E cb total (1000 * s) ds k m = Ret x -> whole_times (k_stats k) z -> z + total + s < 2 ^ 43 ->
  whole_times (k_stats (fst (fst x))) (z + steps total (1000 * s) * s).
Proof. exact run_times. Qed.
Theorem C235_new : forall p c, whole_times (k_stats (new_sim p c)) 0.
Proof. exact new_times. Qed.
Example C235_nonvacuous : exists x, run_simulation exp0 false 5 2000 [calm (dofZ 0); calm (dofZ 0); calm (dofZ 0)] (new_sim quick default_config) [] = Ret x /\ whole_times (k_stats (new_sim quick default_config)) 0 /\ steps 5 (1000 * 2) * 2 = 6.
Proof. eexists. split; [vm_compute; reflexivity|]. split; [apply new_times|reflexivity]. Qed.

(** ** C236: any profile can be flown *)
Definition no_environments : mprofile := mkProfile [] [] [].
Definition short_durations : mprofile := mkProfile [mission_environment "LEO"; mission_environment "GEO"] [dofZ 1] [dlit 1 2; dlit 1 2].
Definition many_probabilities : mprofile := mkProfile [mission_environment "LEO"; mission_environment "GEO"] [dofZ 1; dofZ 1] [dlit 1 4; dlit 1 4; dlit 1 2].
Definition endless_stay : mprofile := mkProfile [mission_environment "LEO"] [S754_infinity false] [dofZ 1].
Theorem C236_any_profile_refuted : (forall E cb total ts ds c m, 0 < total -> total * 1000 < 2 ^ 63 -> ds <> [] -> run_simulation E cb total ts ds (new_sim no_environments c) m = UB UB_array_index) /\
  run_simulation exp0 false 3 1000 [calm (dofZ 0); calm (dlit 9 10); calm (dofZ 0)] (new_sim short_durations default_config) [] = UB UB_array_index /\
  run_simulation exp0 false 3 1000 [calm (dofZ 0); calm (dlit 9 10); calm (dofZ 0)] (new_sim many_probabilities default_config) [] = UB UB_array_index /\
  run_simulation exp0 false 1 1000 [calm (dofZ 0)] (new_sim endless_stay default_config) [] = UB UB_float_to_int.
Proof.
  split; [|vm_compute; auto]. intros E cb total ts [|d ds] c m H1 H2 H3; [contradiction|]. unfold run_simulation. rewrite fits by lia. cbn [obind passes l_elapsed].
  replace (0 <? total * 1000) with true by (symmetry; apply Z.ltb_lt; lia). reflexivity.
Qed.
Theorem C236_any_profile_partial : forall E cb total ts ds k m, ready E ts k m -> 0 < ts -> 0 <= total -> total * 1000 + ts < 2 ^ 63 -> Forall (legal_step (k_regions k)) ds ->
  forall u, run_simulation E cb total ts ds k m <> UB u.
Proof.
  intros E cb total ts ds k m H1 H2 H3 H4 H5 u. unfold run_simulation. rewrite fits by lia. cbn [obind].
  assert (G : forall ds l, Forall (legal_step (k_regions (l_sim l))) ds -> ready E ts (l_sim l) (l_mem l) -> 0 <= l_last l <= l_elapsed l -> l_elapsed l < total * 1000 + ts -> 0 <= l_env_time l <= l_elapsed l -> passes E cb total ts ds l <> UB u).
  { clear ds H5. intros ds. induction ds as [|d ds IH]; intros l L Rd A B C; cbn [passes]; destruct (l_elapsed l <? total * 1000) eqn:Q; try discriminate. apply Z.ltb_lt in Q.
    inversion L; subst. destruct (pass_ok E cb ts d l) as (l' & P & Rd' & G & X); try assumption; [lia|]. rewrite P. cbn [obind]. apply IH; [rewrite G; assumption|exact Rd'|lia..]. }
  specialize (G ds (run_start k m) H5). cbn in G. unfold run_start in G. intros X. destruct (passes E cb total ts ds _) eqn:Q in X; cbn [obind] in X; try discriminate X. injection X as ->. revert Q. apply G; auto; lia.
Qed.

(** ** C237: the energy budget limits the protection *)
Theorem C237_energy_budget_refuted : forall E cb total ts ds k1 k2 m x y, k_profile k1 = k_profile k2 -> k_env k1 = k_env k2 -> k_index k1 = k_index k2 -> k_regions k1 = k_regions k2 -> k_stats k1 = k_stats k2 ->
  same_rules (k_config k1) (k_config k2) -> run_simulation E cb total ts ds k1 m = Ret x -> run_simulation E cb total ts ds k2 m = Ret y ->
  k_stats (fst (fst x)) = k_stats (fst (fst y)) /\ snd (fst x) = snd (fst y) /\ snd x = snd y.
Proof. exact run_twins. Qed.
Theorem C237_energy_budget_partial : forall c rate, let s := asked c rate in s = c_low c \/ s = c_medium c \/ s = c_high c.
Proof. intros c rate. unfold asked. destruct (c_adaptive c), (fle (c_thr_high c) rate), (fle (c_thr_medium c) rate); auto. Qed.
Definition no_energy : mconfig :=
  let d := fixed_config in mkCfg false (dofZ 1000) (c_thr_medium d) (c_thr_high d) (c_low d) (c_medium d) (c_high d) (dofZ 0) (dofZ 1000) (dofZ 1000) (dofZ 1000).
Example C237_nonvacuous : same_rules fixed_config no_energy /\ exists x, run_simulation exp0 false 1 1000 [hit lucky] (sim1 no_energy) mem0 = Ret x /\ m_tmr (k_stats (fst (fst x))) = 1%N.
Proof. split; [repeat split|]. eexists. split; vm_compute; reflexivity. Qed.

(** ** C238: the standard configurations *)
Theorem C238_monotone : forall t r r', okd r -> okd r' -> (R r <= R r')%R -> no_weaker (asked (standard_config t) r) (asked (standard_config t) r').
Proof. exact config_monotone. Qed.
Example C238_nonvacuous : asked (standard_config "LEO") (dlit 1 1000) <> asked (standard_config "LEO") (dlit 1 10) /\ okd (dlit 1 1000) /\ okd (dlit 1 10).
Proof. split; [vm_compute; discriminate|]. split; split; reflexivity. Qed.

(** ** C239: the standard missions can be flown *)
Theorem C239_profiles : forall t, let p := standard_profile t in proper_profile p /\ length (p_durations p) = length (p_envs p) /\ length (p_probs p) = length (p_envs p) /\
  Forall probability (p_probs p) /\ (forall e, In e (p_envs p) -> forall ex, within 0 1 ex -> sensible_env e ex) /\
  (Rabs (R (cumulated (p_probs p) (length (p_probs p))) - 1) <= 1 / 100000000000000)%R.
Proof. exact profile_ok. Qed.
Theorem C239_flown : forall E cb total ts ds t c m gs, (forall e, In e (p_envs (standard_profile t)) -> within (1/10) 1 (E (ddiv (SFopp (shielding_mm e)) (dofZ 10)))) -> 1 <= ts <= 10 ^ 12 -> 0 <= total < 2 ^ 52 ->
  bytes_in m -> regions_in gs (length m) -> Forall (legal_step gs) ds -> steps total ts <= Z.of_nat (length ds) ->
  let k := fold_left (fun k g => register_region (g_addr g) (g_size g) (g_prot g) k) gs (new_sim (standard_profile t) c) in
  exists x, run_simulation E cb total ts ds k m = Ret x.
Proof.
  intros E cb total ts ds t c m gs HE Ht Hn Hm Hg Hd Hs k.
  assert (K : k_profile k = standard_profile t /\ k_index k = 0%nat /\ k_env k = hd (mission_environment "LEO") (p_envs (standard_profile t)) /\ k_regions k = gs).
  { assert (G : forall gs k0, let k := fold_left (fun k g => register_region (g_addr g) (g_size g) (g_prot g) k) gs k0 in
      k_profile k = k_profile k0 /\ k_index k = k_index k0 /\ k_env k = k_env k0 /\ k_regions k = k_regions k0 ++ gs).
    { clear. intros gs. induction gs as [|g gs IH]; intros k0; cbn [fold_left]; [rewrite app_nil_r; auto|].
      destruct (IH (register_region (g_addr g) (g_size g) (g_prot g) k0)) as (A & B & C & D). cbn zeta. rewrite A, B, C, D. cbn. rewrite <- app_assoc. destruct g; auto. }
    exact (G gs (new_sim (standard_profile t) c)). }
  destruct K as (K1 & K2 & K3 & K4). destruct (profile_ok t) as (P & _).
  assert (A : forall e, In e (p_envs (standard_profile t)) -> active E ts e) by (intros e He; apply (standard_active E t); [exact He|apply HE; exact He|exact Ht]).
  destruct (run_completes E cb total ts ds k m) as (x & X & _); [|lia|lia|lia|rewrite K4; exact Hd|exact Hs|exists x; exact X].
  unfold ready. rewrite K1, K2, K3, K4. destruct P as (P1 & P2). split; [split; assumption|]. destruct (p_envs (standard_profile t)) as [|e es] eqn:Q; [contradiction|].
  split; [cbn; lia|]. split; [apply Forall_forall; exact A|]. split; [apply A; left; reflexivity|]. split; assumption.
Qed.
Example C239_nonvacuous : forall e, In e (p_envs (standard_profile "LEO")) -> within (1/10) 1 (exp0 (ddiv (SFopp (shielding_mm e)) (dofZ 10))).
Proof.
  intros e _. change (exp0 _) with (dlit 6 10). assert (L : okd (dlit 6 10) /\ (59/100 < R (dlit 6 10) < 61/100)%R) by hlit. split; [apply L|lra].
Qed.

(** ** C240: scrubbing *)
Theorem C240_spaced : forall E cb total ts ds k m x gap, 0 < ts -> all_settings (fun s => gap <= s_interval s) (k_config k) -> 0 <= gap -> run_simulation E cb total ts ds k m = Ret x ->
  let times := scrub_times (snd x) in
  spaced gap 0 times /\ Forall (fun t => 0 <= t < Z.max 1 (total * 1000)) times /\ m_scrubs (k_stats (fst (fst x))) = (m_scrubs (k_stats k) + N.of_nat (length times))%N.
Proof. exact run_scrubs. Qed.
Theorem C240_often : forall E cb total ts ds k m x gap, 0 < ts -> 0 <= total -> all_settings (fun s => s_scrub s = true /\ s_interval s <= gap) (k_config k) -> 0 <= gap ->
  run_simulation E cb total ts ds k m = Ret x -> dense (gap + ts) 0 (scrub_times (snd x)) (total * 1000).
Proof. exact run_scrubs_often. Qed.
Theorem C240_only_if_enabled : forall E cb total ts ds k m x, all_settings (fun s => s_scrub s = false) (k_config k) -> run_simulation E cb total ts ds k m = Ret x -> scrub_times (snd x) = [].
Proof. exact run_no_scrubs. Qed.
Definition scrub_config : mconfig :=
  let d := fixed_config in let s := mkSet true true true 2000 in mkCfg false (c_thr_low d) (c_thr_medium d) (c_thr_high d) s s s (c_budget d) (c_tmr_cost d) (c_ecc_cost d) (c_scrub_cost d).
Example C240_nonvacuous : all_settings (fun s => s_scrub s = true /\ s_interval s <= 2000) scrub_config /\ all_settings (fun s => 2000 <= s_interval s) scrub_config /\
  exists x, run_simulation exp0 false 5 1000 (repeat (calm (dofZ 0)) 5) (sim1 scrub_config) mem0 = Ret x /\ scrub_times (snd x) = [2000; 4000].
Proof. split; [repeat split; cbn; lia|]. split; [repeat split; cbn; lia|]. eexists. split; vm_compute; reflexivity. Qed.

(** ** C241: an event that is counted as corrected leaves no damage *)
Theorem C241_corrected_is_repaired_refuted : exists x, run_simulation exp0 false 1 1000 [hit lucky] (sim1 fixed_config) mem0 = Ret x /\
  totals (k_stats (fst (fst x))) = [1; 1; 1; 1; 0; 1; 0]%N /\ snd (fst x) = [0; 2; 3; 4; 5; 6; 7; 8]%N.
Proof. eexists. split; [vm_compute; reflexivity|]. vm_compute. auto. Qed.
Theorem C241_corrected_is_repaired_partial : forall E cb total ts ds k1 k2 m x y, k_profile k1 = k_profile k2 -> k_env k1 = k_env k2 -> k_index k1 = k_index k2 -> k_regions k1 = k_regions k2 ->
  run_simulation E cb total ts ds k1 m = Ret x -> run_simulation E cb total ts ds k2 m = Ret y -> snd (fst x) = snd (fst y) /\ changes (snd x) = changes (snd y).
Proof. exact run_same. Qed.

(** ** C242: only registered memory is touched *)
Theorem C242_memory : forall E cb total ts ds k m x, run_simulation E cb total ts ds k m = Ret x -> length (snd (fst x)) = length m /\
  forall i, ~ covered (k_regions k) i -> nth i (snd (fst x)) 0%N = nth i m 0%N.
Proof. exact run_memory. Qed.
Example C242_nonvacuous : ~ covered (k_regions (sim1 fixed_config)) 5 /\ covered (k_regions (sim1 fixed_config)) 0 /\
  exists x, run_simulation exp0 false 1 1000 [hit lucky] (sim1 fixed_config) mem0 = Ret x.
Proof. split; [intros (g & [<-|[]] & H); cbn in H; lia|]. split; [eexists; split; [left; reflexivity|cbn; lia]|]. eexists. vm_compute. reflexivity. Qed.

(** ** C243: the uptime *)
Theorem C243_uptime_refuted : exists x, run_simulation exp0 false 3 1000 (repeat (calm (dofZ 0)) 3) (sim1 fixed_config) mem0 = Ret x /\
  m_events (k_stats (fst (fst x))) = 0%N /\ m_uptime (k_stats (fst (fst x))) = dofZ 0.
Proof. eexists. split; [vm_compute; reflexivity|]. vm_compute. auto. Qed.
Theorem C243_uptime_partial : forall E cb total ts ds k m x, run_simulation E cb total ts ds k m = Ret x -> let s := k_stats (fst (fst x)) in balanced (k_stats k) -> (m_events s < 2 ^ 53)%N ->
  okd (m_uptime s) /\ (0 <= R (m_uptime s) <= 1)%R /\ ((0 < m_detected s)%N -> m_corrected s = m_detected s -> R (m_uptime s) = 1%R) /\ (m_detected s = 0%N -> R (m_uptime s) = 0%R).
Proof. exact run_uptime. Qed.
Example C243_nonvacuous : exists x, run_simulation exp0 false 2 1000 [hit lucky; hit lucky] (sim1 fixed_config) mem0 = Ret x /\ m_detected (k_stats (fst (fst x))) = 2%N /\ balanced (k_stats (sim1 fixed_config)).
Proof.
  eexists. split; [vm_compute; reflexivity|]. split; [reflexivity|].
  apply (C230_history exp0 (standard_profile "LEO") fixed_config [Register 0 4 true] mem0 _ mem0). reflexivity.
Qed.

(** ** C244: the stay in an environment *)
Theorem C244_stay_refuted : exists x, run_simulation exp0 true 5 1000 (repeat (calm (dofZ 0)) 5) (new_sim quick default_config) [] = Ret x /\
  p_durations quick = [dofZ 1; dofZ 2] /\ changes (snd x) = [] /\ time_in "Low Earth Orbit" (k_stats (fst (fst x))) = Some (dofZ 5).
Proof. eexists. split; [vm_compute; reflexivity|]. vm_compute. auto. Qed.
(** a single environment is never left; nor is any without a new choice *)
Theorem C244_stay_partial : forall E cb total ts ds p c gs m x, length (p_envs p) = 1%nat ->
  let k := fold_left (fun k g => register_region (g_addr g) (g_size g) (g_prot g) k) gs (new_sim p c) in
  run_simulation E cb total ts ds k m = Ret x -> changes (snd x) = [] /\ k_env (fst (fst x)) = k_env k.
Proof.
  intros E cb total ts ds p c gs m x L k H.
  assert (K : k_profile k = p). { subst k. clear H. generalize (new_sim p c), (eq_refl : k_profile (new_sim p c) = p). induction gs as [|g gs IH]; intros k0 Q; cbn [fold_left]; [exact Q|]. apply IH. exact Q. }
  apply run_inv in H. destruct H as (l & P & ->). cbn [run_end fst snd set_stats k_env].
  assert (G : k_profile (l_sim l) = p /\ k_env (l_sim l) = k_env k /\ changes (l_seen l) = []); [|destruct G as (_ & G1 & G2); split; assumption].
  apply (passes_ind E (fun l => k_profile (l_sim l) = p /\ k_env (l_sim l) = k_env k /\ changes (l_seen l) = [])) in P; [exact (proj1 P)| |cbn; auto].
  intros d a b _ Q (A & B & C). apply pass_inv in Q. destruct Q as (ch & k' & z & st & m' & scrub & Q & _ & _ & _ & _ & _ & S & _ & V).
  assert (W : ch = false /\ k' = l_sim a).
  { apply change_spec in Q. destruct Q as (dur & _ & Q). destruct (due _ _ _); [|destruct Q as (Q1 & Q2 & _); auto].
    destruct Q as (Q & _). unfold select_next in Q. rewrite A, L in Q. cbn in Q. injection Q as <- <-. auto. }
  destruct W as (-> & ->). rewrite S, V. cbn [set_stats k_profile k_env]. split; [exact A|]. split; [exact B|]. cbn [andb app]. unfold changes in *. rewrite flat_map_app, C. destruct scrub; reflexivity.
Qed.

Print Assumptions C230_step. Print Assumptions C230_history. Print Assumptions C231_bytes. Print Assumptions C232_fate. Print Assumptions C233_choice. Print Assumptions C233_step.
Print Assumptions C234_run_ends_partial. Print Assumptions C234_run_ends_refuted. Print Assumptions C235_step. Print Assumptions C235_run. Print Assumptions C236_any_profile_refuted.
Print Assumptions C236_any_profile_partial. Print Assumptions C237_energy_budget_refuted. Print Assumptions C238_monotone. Print Assumptions C239_profiles. Print Assumptions C239_flown.
Print Assumptions C240_spaced. Print Assumptions C240_often. Print Assumptions C240_only_if_enabled. Print Assumptions C241_corrected_is_repaired_refuted. Print Assumptions C241_corrected_is_repaired_partial. Print Assumptions C242_memory.
Print Assumptions C243_uptime_refuted. Print Assumptions C243_uptime_partial. Print Assumptions C244_stay_refuted. Print Assumptions C244_stay_partial.
