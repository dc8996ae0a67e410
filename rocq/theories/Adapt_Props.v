(** C139-C155: the adaptive controllers.  Sources in Adapt_Model.v, vocabulary in Adapt_Spec.v. *)
From Coq Require Import String List NArith ZArith Bool Arith Lia SpecFloat Reals Sorted.
Import ListNotations.
From Verif Require Import Outcome Words Floats FloatsR HealthFloat FloatsS Inject_Model Adapt_Model Adapt_Spec Adapt_Proofs Adapt2_Proofs.
Local Open Scope Z_scope.

Definition sec := 1000000000.
Definition noisy : list ap_op := [ARegister Observes; AUpdate 3 1 (2 * sec); ATemp 5000; AUpdate 0 1 (5 * sec)].

(** C139: the level follows the smoothed error rate *)
Theorem C139_level : forall l t ops s a b now s', clock t -> Forall legal_ap ops -> ap_run (ap_new l t) ops = Ret s -> legal_ap (AUpdate a b now) -> 1 <= seconds (last s) now ->
  (a + b < 2 ^ 32)%N -> ap_update s a b now = Ret s' ->
  okd (flux s') /\ (0 <= R (flux s') <= 8589934592)%R /\ in_band (cur s') (flux s') /\ flips_ s' = a /\ errs_ s' = b /\ last s' = now /\
  let rate := (IZR (Z.of_N (a + b)) / IZR (seconds (last s) now))%R in nearly (R (flux s')) (3 / 10 * rate + 7 / 10 * R (flux s)) (rate + R (flux s)).
Proof. exact level_follows. Qed.
Print Assumptions C139_level.
Example C139_nonvacuous : clock 0 /\ Forall legal_ap noisy /\ exists s s', ap_run (ap_new STANDARD 0) noisy = Ret s /\ last s = 5 * sec /\ ap_update s 1 0 (9 * sec) = Ret s' /\
  cur s = ENHANCED /\ notes s = [([0], ENHANCED); ([0], MAXIMUM); ([0], ENHANCED)].
Proof.
  split; [unfold clock; lia|]. split; [repeat constructor; unfold clock, sec; lia|].
  destruct (ap_run (ap_new STANDARD 0) noisy) as [s|r|e|] eqn:E; vm_compute in E; try discriminate E. injection E as <-.
  eexists. eexists. split; [reflexivity|]. split; [vm_compute; reflexivity|]. split; [vm_compute; reflexivity|]. split; reflexivity.
Qed.

(** C140: every reported error counts *)
Theorem C140_more_errors_partial : forall l t ops s a b a' b' now s1 s2, clock t -> Forall legal_ap ops -> ap_run (ap_new l t) ops = Ret s -> clock now ->
  (a + b <= a' + b')%N -> (a' + b' < 2 ^ 32)%N -> ap_update s a b now = Ret s1 -> ap_update s a' b' now = Ret s2 ->
  (R (flux s1) <= R (flux s2))%R /\ (1 <= seconds (last s) now -> (level_num (cur s1) <= level_num (cur s2))%nat).
Proof. exact update_mono. Qed.
Print Assumptions C140_more_errors_partial.
Theorem C140_wraps_refuted : (forall s a b now s1, ap_update s a b now = Ret s1 -> exists s2, ap_update s ((a + b) mod 2 ^ 32) 0 now = Ret s2 /\ cur s2 = cur s1 /\ flux s2 = flux s1) /\
  exists s s1 s2, ap_run (ap_new STANDARD 0) [] = Ret s /\ ap_update s 2147483648 2147483648 sec = Ret s1 /\ cur s1 = MINIMAL /\ ap_update s 0 4 sec = Ret s2 /\ cur s2 = MAXIMUM.
Proof.
  split; [exact update_wraps|]. exists (ap_new STANDARD 0). eexists. eexists. split; [reflexivity|]. split; [vm_compute; reflexivity|]. split; [reflexivity|]. split; [vm_compute; reflexivity|]. reflexivity.
Qed.
Print Assumptions C140_wraps_refuted.
Example C140_nonvacuous : exists s1 s2, ap_update (ap_new STANDARD 0) 1 0 sec = Ret s1 /\ cur s1 = ENHANCED /\ ap_update (ap_new STANDARD 0) 2 3 sec = Ret s2 /\ cur s2 = MAXIMUM.
Proof. eexists. eexists. split; [vm_compute; reflexivity|]. split; [reflexivity|]. split; [vm_compute; reflexivity|]. reflexivity. Qed.

(** C141: reports that come less than a second apart *)
Theorem C141_counted_partial : forall l t ops s a b now s', clock t -> Forall legal_ap ops -> ap_run (ap_new l t) ops = Ret s -> legal_ap (AUpdate a b now) -> 1 <= seconds (last s) now ->
  (a + b < 2 ^ 32)%N -> ap_update s a b now = Ret s' ->
  let rate := (IZR (Z.of_N (a + b)) / IZR (seconds (last s) now))%R in nearly (R (flux s')) (3 / 10 * rate + 7 / 10 * R (flux s)) (rate + R (flux s)).
Proof. intros l t ops s a b now s' H1 H2 H3 H4 H5 H6 H7. exact (proj2 (proj2 (proj2 (proj2 (proj2 (proj2 (level_follows l t ops s a b now s' H1 H2 H3 H4 H5 H6 H7))))))). Qed.
Print Assumptions C141_counted_partial.
Theorem C141_dropped_refuted : forall s a b now, now < last s + sec -> ap_update s a b now = Ret s.
Proof. intros s a b now H. apply update_drop. unfold seconds, sec in *. apply Z.div_lt_upper_bound; lia. Qed.
Print Assumptions C141_dropped_refuted.
Example C141_nonvacuous : ap_run (ap_new STANDARD 0) (repeat (AUpdate 1000 1000 (sec - 1)) 50) = Ret (ap_new STANDARD 0).
Proof. vm_compute. reflexivity. Qed.

(** C142: level notifications *)
Theorem C142_notifications : forall s o s', ap_step s o = Ret s' -> noted s s'.
Proof. intros s o s' H. apply noted_b_noted. exact (step_notes s o s' H). Qed.
Print Assumptions C142_notifications.
Example C142_nonvacuous : exists s', ap_step (mkAP STANDARD (S754_zero false) 0 0 0 [(4, Observes); (2, Observes)] 5 []) (ASet MAXIMUM) = Ret s' /\ notes s' = [([4; 2], MAXIMUM)].
Proof. eexists. split; reflexivity. Qed.

(** C143: what a callback may do *)
Theorem C143_observing_partial : forall l t ops, Forall observing ops -> Z.of_nat (registrations ops) <= 2147483647 -> exists s, ap_run (ap_new l t) ops = Ret s.
Proof.
  intros l t ops H B. apply (run_ok ops (ap_new l t) 0); [constructor|split; [reflexivity|split; [constructor|intros h []]]|exact H|exact B].
Qed.
Print Assumptions C143_observing_partial.
Theorem C143_calls_back_refuted : forall s l, In CallsBack (map snd (cbs s)) -> l <> cur s -> ap_set_initial s l = UB UB_relock.
Proof.
  intros s l H N. unfold ap_set_initial. destruct (level_eqb (cur s) l) eqn:E; [apply level_eqb_eq in E; congruence|]. unfold notify. cbn [with_level cbs].
  replace (existsb _ (cbs s)) with true; [reflexivity|]. symmetry. apply existsb_exists. apply in_map_iff in H as (x & Hx & I). exists x. split; [exact I|]. rewrite Hx. reflexivity.
Qed.
Print Assumptions C143_calls_back_refuted.
Example C143_nonvacuous : Forall observing noisy /\ ap_run (ap_new STANDARD 0) [ARegister CallsBack; AUpdate 9 9 sec] = UB UB_relock.
Proof. split; [repeat constructor|vm_compute; reflexivity]. Qed.

(** C144: handles *)
Theorem C144_handles : forall l t ops s, ap_run (ap_new l t) ops = Ret s -> NoDup (map fst (cbs s)) /\
  (forall c s' h, ap_register s c = Ret (s', h) -> h = Z.of_nat (registrations ops) /\ ~ In h (map fst (cbs s)) /\ cbs s' = (h, c) :: cbs s) /\
  (forall h s' r, ap_unregister s h = (s', r) -> (r = true <-> In h (map fst (cbs s))) /\ forall k, In k (map fst (cbs s')) <-> In k (map fst (cbs s)) /\ k <> h).
Proof. exact handles. Qed.
Print Assumptions C144_handles.
Example C144_nonvacuous : exists s s', ap_run (ap_new STANDARD 0) [ARegister Observes; ARegister Observes; AUnregister 0] = Ret s /\ map fst (cbs s) = [1] /\ ap_register s Observes = Ret (s', 2).
Proof. eexists. eexists. split; [reflexivity|]. split; [reflexivity|]. vm_compute. reflexivity. Qed.

(** C145: a temporary increase *)
Theorem C145_raised_partial : forall s d s', ap_temporarily_increase s d = Ret s' -> level_num (cur s') = Nat.min 3 (S (level_num (cur s))) /\ flux s' = flux s /\ last s' = last s /\ cbs s' = cbs s.
Proof. exact temp_spec. Qed.
Print Assumptions C145_raised_partial.
Theorem C145_never_reverts_refuted : forall s d s' ops s'', ap_temporarily_increase s d = Ret s' -> Forall bookkeeping ops -> ap_run s' ops = Ret s'' -> cur s'' = cur s'.
Proof. intros s d s' ops s'' _ H H2. exact (idle_level ops s' s'' H H2). Qed.
Print Assumptions C145_never_reverts_refuted.
Theorem C145_lost_early_refuted : exists s s', ap_run (ap_new STANDARD 0) [ATemp 60000] = Ret s /\ cur s = ENHANCED /\ ap_update s 0 0 sec = Ret s' /\ cur s' = MINIMAL.
Proof. eexists. eexists. split; [vm_compute; reflexivity|]. split; [reflexivity|]. split; [vm_compute; reflexivity|]. reflexivity. Qed.
Print Assumptions C145_lost_early_refuted.
Example C145_nonvacuous : exists s', ap_temporarily_increase (ap_new ENHANCED 0) 10 = Ret s' /\ cur s' = MAXIMUM.
Proof. eexists. split; reflexivity. Qed.

(** C146: a quiet environment *)
Theorem C146_quiet : forall l t ops s calm s', clock t -> Forall legal_ap ops -> ap_run (ap_new l t) ops = Ret s -> quiet (last s) calm -> (82 <= length calm)%nat ->
  ap_run s calm = Ret s' -> cur s' = MINIMAL.
Proof. exact quiet_minimal. Qed.
Print Assumptions C146_quiet.
Example C146_nonvacuous : quiet 0 (map (fun k => AUpdate 0 0 (Z.of_nat k * sec)) (seq 1 82)) /\
  exists s', ap_run (ap_new MAXIMUM 0) (map (fun k => AUpdate 0 0 (Z.of_nat k * sec)) (seq 1 82)) = Ret s' /\ cur s' = MINIMAL.
Proof.
  split.
  - assert (G : forall n k, (0 <= Z.of_nat k)%Z -> Z.of_nat (k + n) <= 1000 -> quiet (Z.of_nat k * sec) (map (fun k => AUpdate 0 0 (Z.of_nat k * sec)) (seq (S k) n))).
    { induction n as [|n IH]; intros k H B; [exact I|]. cbn [seq map quiet]. split; [reflexivity|]. split; [reflexivity|]. split; [unfold clock, sec; lia|].
      split; [unfold seconds, sec; rewrite Nat2Z.inj_succ; replace ((Z.succ (Z.of_nat k) * 1000000000 - Z.of_nat k * 1000000000)) with 1000000000 by lia; vm_compute; discriminate|].
      apply IH; lia. }
    exact (G 82%nat 0%nat ltac:(lia) ltac:(cbn; lia)).
  - eexists. split; [vm_compute; reflexivity|]. reflexivity.
Qed.

(** C147: a burst of errors *)
Theorem C147_burst : forall l t ops s a b now s', clock t -> Forall legal_ap ops -> ap_run (ap_new l t) ops = Ret s -> legal_ap (AUpdate a b now) -> 1 <= seconds (last s) now ->
  (a + b < 2 ^ 32)%N -> 4 * seconds (last s) now <= Z.of_N (a + b) -> ap_update s a b now = Ret s' -> cur s' = MAXIMUM.
Proof. exact burst. Qed.
Print Assumptions C147_burst.
Example C147_nonvacuous : exists s', ap_update (ap_new MINIMAL 0) 3 5 (2 * sec + 7) = Ret s' /\ cur s' = MAXIMUM.
Proof. eexists. split; [vm_compute; reflexivity|]. reflexivity. Qed.

(** C148: the settings in force *)
Theorem C148_settings : forall t ops, let s := af_run (af_new t) ops in current s = customized (env s) ops (default_settings (env s)).
Proof. exact settings_follow. Qed.
Print Assumptions C148_settings.
Example C148_nonvacuous : let x := default_settings JUPITER in let s := af_run (af_new 0) [FCustomize GEO x; FSet LEO; FMaintain (20 * sec) (sofZ 11) []; FSet GEO] in env s = GEO /\ current s = x.
Proof. vm_compute. split; reflexivity. Qed.

(** C149: adaptive mode switched off *)
Theorem C149_manual : forall s ops, adaptive s = false -> forallb (fun o => negb (sets_env o || enables o)) ops = true -> env (af_run s ops) = env s.
Proof. intros s ops. exact (run_off ops s). Qed.
Print Assumptions C149_manual.
Example C149_nonvacuous : let s := af_run (af_new 0) [FSet MEO; FMode false 0 (sofZ 0) []] in adaptive s = false /\ env (af_run s (repeat (FLog (100 * sec) (sofZ 50) []) 30)) = MEO.
Proof. vm_compute. split; reflexivity. Qed.

(** C150: detected changes are ten seconds apart *)
Theorem C150_spaced : forall t ops, Sorted (fun a b => a + ten_seconds <= b) (detections (af_new t) ops) /\ Forall (fun a => t + ten_seconds <= a) (detections (af_new t) ops).
Proof. intros t ops. exact (spaced ops (af_new t)). Qed.
Print Assumptions C150_spaced.
Example C150_nonvacuous : detections (af_new 0) [FMaintain (9 * sec) (sofZ 11) []; FMaintain (10 * sec) (sofZ 11) []; FMaintain (19 * sec) (sofZ 0) (repeat (sofZ 0) 6); FMaintain (20 * sec) (sofZ 0) (repeat (sofZ 0) 6)] = [10 * sec; 20 * sec].
Proof. vm_compute. reflexivity. Qed.

(** C151: hysteresis *)
Theorem C151_hysteresis_partial : forall s o, sets_env o = false -> changed s (af_step s o) = true -> exists t, at_time o = Some t /\ ten_seconds <= t - last_check s /\ last_check (af_step s o) = t /\
  exists r d, (o = FMaintain t r d \/ o = FLog t r d \/ exists b, o = FMode b t r d) /\
  (fgt r (sofZ 10) = true \/ 2 <= Z.abs (rank (env (af_step s o)) - rank (env s)) \/ five_minutes < t - last_change s).
Proof. exact step_change. Qed.
Print Assumptions C151_hysteresis_partial.
(** the framework starts (or is set by hand) at 1000 s; ten seconds later detection moves it by a single level *)
Theorem C151_single_level_refuted : let d := [sofZ 1; sofZ 0; sofZ 0; sofZ 0; sofZ 0; sofZ 0] in
  env (af_run (af_new (1000 * sec)) [FMaintain (1010 * sec) (slit 5 100) d]) = LEO /\
  env (af_run (af_new (1000 * sec)) [FMaintain (1010 * sec) (sofZ 2) d; FMaintain (1315 * sec) (sofZ 2) d; FSet GEO; FMaintain (1325 * sec) (sofZ 2) d]) = SOLAR_FLARE /\
  env (af_run (af_new (1000 * sec)) [FMaintain (1010 * sec) (sofZ 11) d; FMaintain (1020 * sec) (sofZ 6) d]) = JUPITER.
Proof. vm_compute. repeat split. Qed.
Print Assumptions C151_single_level_refuted.
Example C151_nonvacuous : let d := [sofZ 1; sofZ 0; sofZ 0; sofZ 0; sofZ 0; sofZ 0] in let s := af_run (af_new 0) [FMaintain (10 * sec) (sofZ 2) d] in
  env s = SOLAR_FLARE /\ env (af_step s (FMaintain (300 * sec) (slit 7 10) d)) = SOLAR_FLARE /\ env (af_step s (FMaintain (311 * sec) (slit 7 10) d)) = GEO.
Proof. vm_compute. repeat split. Qed.

(** C152: immediate reaction to a spike, or to enabling adaptive mode *)
Theorem C152_extreme_partial : forall s now r d, adaptive s = true -> ten_seconds <= now - last_check s -> fgt r (sofZ 10) = true -> env (auto_detect s now r d) = EXTREME.
Proof. exact extreme. Qed.
Print Assumptions C152_extreme_partial.
Theorem C152_suppressed_refuted : forall s ops, Forall (fun o => sets_env o = false /\ forall t, at_time o = Some t -> t < last_check s + ten_seconds) ops -> env (af_run s ops) = env s.
Proof. intros s ops. exact (suppressed ops s). Qed.
Print Assumptions C152_suppressed_refuted.
Example C152_nonvacuous : env (af_run (af_new 0) (FMode true sec (sofZ 100) [] :: repeat (FLog (9 * sec) (sofZ 100) []) 1000)) = BENIGN /\ env (auto_detect (af_new 0) (10 * sec) (sofZ 100) []) = EXTREME.
Proof. split; vm_compute; reflexivity. Qed.

(** C153: environment notifications *)
Theorem C153_notifications : forall s o, fnoted s (af_step s o).
Proof. exact step_fnoted. Qed.
Print Assumptions C153_notifications.
Example C153_nonvacuous : fnotes (af_run (af_new 0) [FRegister 4; FSet LEO; FSet LEO; FRegister 7; FMaintain (11 * sec) (sofZ 11) []; FUnregister 4; FSet MEO]) = [([7], MEO); ([7; 4], EXTREME); ([4], LEO)].
Proof. vm_compute. reflexivity. Qed.

(** C154: detection is monotone in the error rate *)
Theorem C154_monotone : forall s now r1 r2 d, shares d -> oks r1 -> oks r2 -> (0 <= R r1 <= R r2)%R -> rank (env (auto_detect s now r1 d)) <= rank (env (auto_detect s now r2 d)).
Proof. exact auto_mono. Qed.
Print Assumptions C154_monotone.
Example C154_nonvacuous : let d := [slit 1 2; slit 1 4; slit 1 4; sofZ 0; sofZ 0; sofZ 0] in
  map (fun r => env (auto_detect (af_new (400 * sec)) (410 * sec) r d)) [sofZ 0; slit 1 100; slit 1 10; slit 4 10; sofZ 1; sofZ 9; sofZ 11] = [BENIGN; LEO; MEO; GEO; SOLAR_FLARE; JUPITER; EXTREME].
Proof. vm_compute. reflexivity. Qed.

(** C155: mission names *)
Definition agreeing : list string := ["LEO"; "LEO_EARTH_OBSERVATION"; "GEO"; "GEOSTATIONARY"; "MOON"; "MARS"; "JUPITER"]%string.
Theorem C155_agreeing_partial : forall name, In name agreeing -> same_physics (simulation_environment (mission_of name)) (mission_environment name).
Proof. intros name H. unfold agreeing in H. simpl in H. repeat destruct H as [<-|H]; try contradiction; repeat split; reflexivity. Qed.
Print Assumptions C155_agreeing_partial.
Theorem C155_unknown_partial : forall name, mission_of name = LEO_EARTH_OBSERVATION -> name <> "ISS"%string -> name <> "LUNAR"%string -> same_physics (simulation_environment (mission_of name)) (mission_environment name).
Proof.
  intros name H N1 N2. rewrite H. apply String.eqb_neq in N1, N2. unfold mission_of in H. unfold mission_environment.
  destruct (String.eqb name "LEO"); [repeat split; reflexivity|]. destruct (String.eqb name "LEO_EARTH_OBSERVATION"); [repeat split; reflexivity|]. cbn [orb] in *.
  destruct (String.eqb name "MEO" || String.eqb name "MEDIUM_EARTH_ORBIT")%bool; [discriminate H|].
  destruct (String.eqb name "GEO" || String.eqb name "GEOSTATIONARY")%bool; [discriminate H|]. destruct (String.eqb name "LUNAR_ORBIT"); [discriminate H|].
  destruct (String.eqb name "LUNAR_SURFACE"); [discriminate H|]. destruct (String.eqb name "MOON"); [discriminate H|]. cbn [orb] in *. destruct (String.eqb name "MARS_TRANSIT"); [discriminate H|].
  destruct (String.eqb name "MARS_ORBIT"); [discriminate H|]. destruct (String.eqb name "MARS_SURFACE"); [discriminate H|]. destruct (String.eqb name "MARS"); [discriminate H|]. cbn [orb] in *.
  destruct (String.eqb name "DEEP_SPACE"); [discriminate H|]. destruct (String.eqb name "JUPITER"); [discriminate H|].
  rewrite N1, N2. repeat split; reflexivity.
Qed.
Print Assumptions C155_unknown_partial.
Theorem C155_differ_refuted : ~ same_physics (simulation_environment (mission_of "LUNAR")) (mission_environment "LUNAR") /\ ~ same_physics (simulation_environment (mission_of "ISS")) (mission_environment "ISS") /\
  mission_of "LUNAR" = LEO_EARTH_OBSERVATION.
Proof.
  split; [|split; [|reflexivity]]; intros (H & _); vm_compute in H; discriminate H.
Qed.
Print Assumptions C155_differ_refuted.
Example C155_nonvacuous : In "MOON"%string agreeing /\ mission_of "MOON" = LUNAR_SURFACE /\ mission_of "VENUS" = LEO_EARTH_OBSERVATION.
Proof. split; [unfold agreeing; simpl; tauto|]. split; reflexivity. Qed.
