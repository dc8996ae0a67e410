(** Properties C398-C409: radiation environments and space missions. *)
From Coq Require Import List NArith ZArith Bool Arith Lia String Reals Lra SpecFloat.
Import ListNotations.
From Flocq Require Import Core BinarySingleNaN.
From Verif Require Import Outcome Words Floats FloatsR HealthFloat Qft_Model Env_Model Env_Spec Env_Proofs Env2_Proofs.
Local Open Scope Z_scope.

Theorem C398_phase_at_time : forall m t, Forall (fun p => 0 <= p_dur p) (m_phases m) -> duration (m_phases m) <= int64_max ->
  (m_phases m = [] -> getEnvironmentAtTime m t = Ret None) /\
  (forall pre p post, m_phases m = pre ++ p :: post -> (pre = [] \/ duration pre <= t) -> t < duration pre + p_dur p -> getEnvironmentAtTime m t = Ret (p_env p)) /\
  (forall pre p, m_phases m = pre ++ [p] -> duration (m_phases m) <= t -> getEnvironmentAtTime m t = Ret (p_env p)) /\
  (m_phases m <> [] -> duration (m_phases m) <= t \/ exists pre p post, m_phases m = pre ++ p :: post /\ (pre = [] \/ duration pre <= t) /\ t < duration pre + p_dur p).
Proof.
  intros m t N B. unfold getEnvironmentAtTime. split; [intros ->; reflexivity|]. split; [|split].
  - intros pre p post Q L U. rewrite Q in *. rewrite dur_app in B. cbn [duration] in B.
    assert (0 <= duration post) by (apply dur_pos; apply Forall_app in N; destruct N as (_ & N2); inversion N2; assumption).
    apply loop_in; [exact N|lia|lia|destruct L; [left; assumption|right; lia]|lia].
  - intros pre p Q L. rewrite Q in *. apply loop_end; [exact N|lia|lia|lia].
  - intros NE. destruct (split_at t (m_phases m) 0 N NE) as [L|(pre & p & post & A & C & D)]; [left; lia|]. right. exists pre, p, post. split; [exact A|]. split; [destruct C; [left; assumption|right; lia]|lia].
Qed.
Example C398_nonvacuous : let m := snd (createStandardMission [] MARS "") in getEnvironmentAtTime m 3599 = Ret (Some 0%nat) /\ getEnvironmentAtTime m 3600 = Ret (Some 1%nat) /\
  getEnvironmentAtTime m (duration (m_phases m)) = Ret (Some 4%nat) /\ duration (m_phases m) <= int64_max.
Proof. vm_compute. repeat split; discriminate. Qed.

(** "Every time has an environment": no, once the durations add up beyond 64 bits every late query overflows; queries before that are answered. *)
Theorem C399_long_mission_refuted : forall m t, Forall (fun p => 0 <= p_dur p <= int64_max) (m_phases m) -> int64_max < duration (m_phases m) -> t = int64_max ->
  getEnvironmentAtTime m t = UB UB_signed_overflow.
Proof.
  intros m t F O ->. assert (N : nonneg_dur (m_phases m)) by (eapply Forall_impl; [|exact F]; cbn; intros; lia).
  destruct (ovf_split (m_phases m) 0 N ltac:(unfold int64_max; lia) ltac:(lia)) as (pre & p & post & A & B & C). unfold getEnvironmentAtTime. rewrite A in *. apply loop_ovf; [exact N|lia|lia|lia|lia].
Qed.
Theorem C399_long_mission_partial : forall m t pre p post, Forall (fun p => 0 <= p_dur p <= int64_max) (m_phases m) -> m_phases m = pre ++ p :: post ->
  duration pre + p_dur p <= int64_max -> (pre = [] \/ duration pre <= t) -> t < duration pre + p_dur p -> getEnvironmentAtTime m t = Ret (p_env p).
Proof.
  intros m t pre p post F Q B L U. assert (N : nonneg_dur (m_phases m)) by (eapply Forall_impl; [|exact F]; cbn; intros; lia). unfold getEnvironmentAtTime. rewrite Q in *.
  apply loop_in; [exact N|lia|lia|destruct L; [left; assumption|right; lia]|lia].
Qed.
Example C399_nonvacuous : let p := mkPhase "x" LAUNCH None (2 ^ 62) d1 d1 in let m := mkMission "m" MOON [p; p] in
  Forall (fun p => 0 <= p_dur p <= int64_max) (m_phases m) /\ int64_max < duration (m_phases m) /\ getEnvironmentAtTime m (2 ^ 62 - 1) = Ret None /\ getEnvironmentAtTime m int64_max = UB UB_signed_overflow.
Proof. cbv zeta. split; [repeat constructor; vm_compute; discriminate|]. vm_compute. repeat split; reflexivity. Qed.

Theorem C400_worst_case : forall h m, (forall p x, In p (m_phases m) -> phase_flux h p = Some x -> x <> S754_nan) ->
  match getWorstCaseEnvironment h m with
  | None => forall p, In p (m_phases m) -> p_env p = None
  | Some a => exists pre p post, m_phases m = pre ++ p :: post /\ p_env p = Some a /\
      (forall q x, In q (m_phases m) -> phase_flux h q = Some x -> fle x (e_flux (deref h a)) = true) /\
      (forall q x, In q pre -> phase_flux h q = Some x -> flt x (e_flux (deref h a)) = true)
  end.
Proof.
  intros h m N. change (getWorstCaseEnvironment h m) with (worst h (m_phases m)). unfold phase_flux in *. destruct (nulls_split (m_phases m)) as [H|(nulls & p & r & a & A & B & C)].
  - rewrite (worst_nulls h _ H). exact H.
  - assert (Na : fl h a <> S754_nan). { apply (N p); [rewrite A; apply in_or_app; right; left; reflexivity|]. rewrite C. reflexivity. }
    destruct (worst_num h nulls p r a B C Na) as (b & W & (pre & q & post & Q1 & Q2 & Q3 & Q4 & Q5)). rewrite A in *. rewrite W. exists pre, q, post. split; [exact Q1|]. split; [exact Q2|]. split.
    + intros z x Hin E. pose proof (N z x Hin E) as NX. destruct (p_env z) as [y|] eqn:Ez; [|discriminate]. injection E as <-. exact (Q4 z y Hin Ez NX).
    + intros z x Hin E. assert (Hin2 : In z (nulls ++ p :: r)) by (rewrite Q1; apply in_or_app; left; exact Hin). pose proof (N z x Hin2 E) as NX. destruct (p_env z) as [y|] eqn:Ez; [|discriminate]. injection E as <-. exact (Q5 z y Hin Ez NX).
Qed.
Example C400_nonvacuous : let (h, m) := createStandardMission [] SOLAR_PROBE "" in getWorstCaseEnvironment h m = Some 5%nat /\ forallb (fun p => match phase_flux h p with Some S754_nan | None => false | _ => true end) (m_phases m) = true.
Proof. vm_compute. repeat split. Qed.

(** "The worst case is the highest flux of the mission": a NaN in the first environment hides all the others. *)
Theorem C401_worst_case_nan_refuted : forall h m nulls p r a, m_phases m = nulls ++ p :: r -> (forall q, In q nulls -> p_env q = None) -> p_env p = Some a -> e_flux (deref h a) = S754_nan ->
  getWorstCaseEnvironment h m = Some a.
Proof. intros h m nulls p r a Q H E N. change (getWorstCaseEnvironment h m) with (worst h (m_phases m)). rewrite Q. exact (worst_nan h nulls p r a H E N). Qed.
Theorem C401_worst_case_nan_partial : forall h m nulls p r a, m_phases m = nulls ++ p :: r -> (forall q, In q nulls -> p_env q = None) -> p_env p = Some a -> e_flux (deref h a) <> S754_nan ->
  exists b, getWorstCaseEnvironment h m = Some b /\ e_flux (deref h b) <> S754_nan /\ (exists q, In q (m_phases m) /\ p_env q = Some b) /\
  forall q x, In q (m_phases m) -> phase_flux h q = Some x -> x <> S754_nan -> fle x (e_flux (deref h b)) = true.
Proof.
  intros h m nulls p r a Q H E N. change (getWorstCaseEnvironment h m) with (worst h (m_phases m)). rewrite Q. destruct (worst_num h nulls p r a H E N) as (b & W & (pre & q & post & Q1 & Q2 & Q3 & Q4 & Q5)).
  exists b. split; [exact W|]. split; [exact Q3|]. split; [exists q; split; [rewrite Q1; apply in_or_app; right; left; reflexivity|exact Q2]|].
  intros z x Hin Ez NX. unfold phase_flux in Ez. destruct (p_env z) as [y|] eqn:Ey; [|discriminate]. injection Ez as <-. exact (Q4 z y Hin Ey NX).
Qed.
Example C401_nonvacuous : let h := [setSEUFlux blank S754_nan; preset_env SOLAR_FLARE] in let p a := mkPhase "x" LAUNCH (Some a) 1 d1 d1 in
  getWorstCaseEnvironment h (mkMission "m" MOON [p 0%nat; p 1%nat]) = Some 0%nat /\ getWorstCaseEnvironment h (mkMission "m" MOON [p 1%nat; p 0%nat]) = Some 1%nat.
Proof. vm_compute. split; reflexivity. Qed.

Theorem C402_exposure_accuracy : forall h m, (List.length (m_phases m) <= 1000)%nat -> Forall (phase_ok h) (m_phases m) ->
  is_finite_SF (calculateTotalRadiationExposure h m) = true /\
  (Rabs (R (calculateTotalRadiationExposure h m) - exact_exposure h (m_phases m)) <= exact_exposure h (m_phases m) / 4000000)%R.
Proof. intros h m L F. destruct (exposure_ok h m L F) as ((_ & A) & _ & B). split; assumption. Qed.
Theorem C403_exposure_grows : forall h m p, (List.length (m_phases m) < 1000)%nat -> Forall (phase_ok h) (m_phases m) -> phase_ok h p ->
  (R (calculateTotalRadiationExposure h m) <= R (calculateTotalRadiationExposure h (addPhase m p)))%R /\
  calculateTotalRadiationExposure h (mission_new (m_name m) (m_target m)) = d0 /\
  (p_env p = None -> calculateTotalRadiationExposure h (addPhase m p) = calculateTotalRadiationExposure h m).
Proof.
  intros h m p L F P. split; [exact (exposure_grows h m p L F P)|]. split; [reflexivity|]. intros N. unfold calculateTotalRadiationExposure, addPhase. cbn [m_phases]. rewrite fold_left_app. cbn [fold_left]. unfold add_exposure at 1. rewrite N. reflexivity.
Qed.
Example C402_nonvacuous : let (h, m) := createStandardMission [] JUPITER "" in (List.length (m_phases m) < 1000)%nat /\ Forall (phase_ok h) (m_phases m) /\ m_phases m <> [] /\
  (forall x, flux_ok x -> phase_ok h (mkPhase "extra" LAUNCH None 1 d1 d1)).
Proof.
  rewrite std_eq. cbn [m_phases]. destruct (conf_all [] JUPITER) as (A & L). split; [lia|]. split; [|split; [discriminate|intros x H; split; [vm_compute; split; discriminate|discriminate]]].
  exact (std_phase_ok [] JUPITER).
Qed.
Example C403_nonvacuous : let (h, m) := createStandardMission [] MOON "" in
  flt (calculateTotalRadiationExposure h m) (calculateTotalRadiationExposure h (addPhase m (mkPhase "extra" LAUNCH (Some 0%nat) 1000000 d1 d1))) = true.
Proof. vm_compute. reflexivity. Qed.

Theorem C404_standard_missions : forall h t name, let (h', m) := createStandardMission h t name in
  (name <> ""%string -> m_name m = name) /\ (name = ""%string -> m_name m = getDefaultMissionName t) /\ m_target m = t /\ m_phases m <> [] /\ duration (m_phases m) <= int64_max /\
  (forall p, In p (m_phases m) -> 0 < p_dur p /\ exists a, p_env p = Some a /\ (List.length h <= a < List.length h')%nat /\ is_finite_SF (e_flux (deref h' a)) = true /\ (0 < R (e_flux (deref h' a)))%R) /\
  (forall a, (a < List.length h)%nat -> deref h' a = deref h a).
Proof.
  intros h t name. rewrite std_eq. cbn [m_name m_target m_phases]. destruct (conf_all h t) as (A & L).
  split; [intros N; destruct (String.eqb_spec name ""); [contradiction|reflexivity]|]. split; [intros ->; reflexivity|]. split; [reflexivity|].
  split; [destruct (snd (configuration t) (addr h)); [cbn in L; lia|discriminate]|]. split; [apply conf_dur|]. split; [|intros a Ha; apply deref_old; exact Ha].
  rewrite Forall_forall in A. intros p Hp. destruct (A p Hp) as (k & E & K & D & F). split; [lia|]. exists (List.length h + k)%nat. split; [exact E|]. split; [rewrite app_length; lia|]. rewrite deref_new.
  destruct (lit_flux _ F) as ((_ & FF & _) & P). split; assumption.
Qed.
Example C404_nonvacuous : (let m := snd (createStandardMission [blank] SATURN "") in m_name m = "Saturn Mission" /\ List.length (m_phases m) = 2%nat)%string.
Proof. split; reflexivity. Qed.

Theorem C405_fallback_and_worst : forall h t name,
  (~ configured t -> m_phases (snd (createStandardMission h t name)) = m_phases (snd (createStandardMission h EARTH_LEO name))) /\
  exists p, In p (m_phases (snd (createStandardMission h t name))) /\ p_name p = worst_phase t /\
    getWorstCaseEnvironment (fst (createStandardMission h t name)) (snd (createStandardMission h t name)) = p_env p.
Proof.
  intros h t name. split.
  - intros N. rewrite !std_eq. cbn [snd m_phases]. destruct t; try reflexivity; exfalso; apply N; unfold configured; cbn [In]; tauto.
  - rewrite std_eq. cbn [fst snd]. destruct (worst_name h t) as (A & B). exists (nth (worst_index t) (snd (configuration t) (addr h)) (launch None)). split; [exact B|]. split; [exact A|]. exact (worst_std h t).
Qed.
Example C405_nonvacuous : ~ configured VENUS /\ configured MOON.
Proof. unfold configured. cbn [In]. split; [intros H; repeat (destruct H as [H|H]; [discriminate|]); exact H|tauto]. Qed.

(** "Tuning the environment of one phase leaves the other phases alone": on round trips the outbound and the return leg are one object. *)
Theorem C406_phase_independence_refuted : forall h t name x, round_trip t = true ->
  let (h', m) := createStandardMission h t name in exists out back a, nth_error (m_phases m) 1 = Some out /\ nth_error (m_phases m) 4 = Some back /\ p_name out <> p_name back /\
  p_env out = Some a /\ phase_flux (change_at h' a (ChFlux x)) back = Some x.
Proof.
  intros h t name x RT. rewrite std_eq. cbn [m_phases]. destruct t; try discriminate; cbn [configuration snd fst lunar_phases mars_phases nth_error];
    (eexists; eexists; exists (List.length h + 1)%nat; split; [reflexivity|]; split; [reflexivity|]; split; [discriminate|]; split; [reflexivity|]);
    unfold phase_flux, addr, change_at; cbn [p_env]; (rewrite deref_store by (rewrite app_length; cbn [List.length lunar_envs mars_envs]; lia)); rewrite Nat.eqb_refl; reflexivity.
Qed.
Theorem C406_phase_independence_partial : forall h t name c i j p q a b, let (h', m) := createStandardMission h t name in
  nth_error (m_phases m) i = Some p -> nth_error (m_phases m) j = Some q -> i <> j -> ~ (round_trip t = true /\ (i = 1 /\ j = 4 \/ i = 4 /\ j = 1)%nat) ->
  p_env p = Some a -> p_env q = Some b -> deref (change_at h' a c) b = deref h' b.
Proof.
  intros h t name c i j p q a b. rewrite std_eq. cbn [m_phases]. intros Hi Hj NE NR Ea Eb.
  assert (LA : (a < List.length (h ++ fst (configuration t)))%nat).
  { destruct (conf_all h t) as (A & _). rewrite Forall_forall in A. destruct (A p (nth_error_In _ _ Hi)) as (k & E & K & _). rewrite E in Ea. injection Ea as <-. rewrite app_length. lia. }
  unfold change_at. rewrite deref_store by exact LA. destruct (Nat.eqb_spec b a) as [->|]; [exfalso|reflexivity]. clear LA.
  assert (X : forall x y : nat, Some x = Some a -> Some y = Some a -> x = y) by (intros x y; congruence).
  destruct t; cbn [configuration snd fst] in *; unfold leo_phases, geo_phases, lunar_phases, mars_phases, jupiter_phases, probe_phases, launch, reentry, addr in *;
  do 7 (try destruct i as [|i]); do 7 (try destruct j as [|j]); cbn [nth_error] in Hi, Hj; try (destruct i; discriminate Hi); try (destruct j; discriminate Hj); try discriminate; try (exfalso; apply NE; reflexivity);
  injection Hi as <-; injection Hj as <-; cbn [p_env] in Ea, Eb; pose proof (X _ _ Ea Eb) as EE; first [exfalso; lia | apply NR; (split; [reflexivity|lia])].
Qed.
Example C406_nonvacuous : round_trip MARS = true /\ round_trip JUPITER = false.
Proof. split; reflexivity. Qed.

Theorem C407_missions_independent : forall h t1 n1 t2 n2 c, let (h1, m1) := createStandardMission h t1 n1 in let (h2, m2) := createStandardMission h1 t2 n2 in
  forall p q a b, In p (m_phases m1) -> In q (m_phases m2) -> p_env p = Some a -> p_env q = Some b ->
  deref (change_at h2 a c) b = deref h2 b /\ deref (change_at h2 b c) a = deref h1 a.
Proof.
  intros h t1 n1 t2 n2 c. rewrite !std_eq. cbn [m_phases]. intros p q a b Hp Hq Ea Eb. destruct (conf_all h t1) as (A1 & _). set (h1 := h ++ fst (configuration t1)) in *. destruct (conf_all h1 t2) as (A2 & _). rewrite Forall_forall in A1, A2.
  destruct (A1 p Hp) as (k & E & K & _). destruct (A2 q Hq) as (j & E' & J & _). rewrite E in Ea. rewrite E' in Eb. injection Ea as <-. injection Eb as <-.
  assert (L : (List.length h + k < List.length h1)%nat) by (unfold h1; rewrite app_length; lia). unfold change_at. rewrite !deref_store by (rewrite app_length; lia). split.
  - destruct (Nat.eqb_spec (List.length h1 + j) (List.length h + k)); [lia|reflexivity].
  - destruct (Nat.eqb_spec (List.length h + k) (List.length h1 + j)); [lia|apply deref_old; exact L].
Qed.
Example C407_nonvacuous : let (h1, m1) := createStandardMission [] MARS "" in let (h2, m2) := createStandardMission h1 MARS "" in
  map p_env (m_phases m1) = map Some [0; 1; 2; 3; 1; 4]%nat /\ map p_env (m_phases m2) = map Some [5; 6; 7; 8; 6; 9]%nat.
Proof. split; reflexivity. Qed.

Theorem C408_settings : forall h a cs, (a < List.length h)%nat -> let h' := fold_left (fun g c => change_at g a c) cs h in let e := deref h a in let e' := deref h' a in
  (forall k d, getProperty e' k d = match last_set k cs (e_props e k) with Some x => x | None => d end) /\ e_flux e' = last_flux cs (e_flux e) /\ e_cross e' = last_cross cs (e_cross e) /\
  e_type e' = e_type e /\ e_name e' = e_name e /\ forall b, b <> a -> deref h' b = deref h b.
Proof.
  intros h a cs L h' e e'. assert (Q : e' = fold_left changed cs e /\ forall b, b <> a -> deref h' b = deref h b).
  { unfold e', h', e. clear h' e e'. revert h L. induction cs as [|c r IH]; intros h L; cbn [fold_left]; [split; [reflexivity|intros; reflexivity]|].
    destruct (IH (change_at h a c)) as (A & B); [unfold change_at; rewrite store_len; exact L|]. rewrite A. unfold change_at at 1. rewrite deref_store by exact L. rewrite Nat.eqb_refl. split; [reflexivity|].
    intros b N. rewrite (B b N). unfold change_at. rewrite deref_store by exact L. destruct (Nat.eqb_spec b a); [contradiction|reflexivity]. }
  destruct Q as (Q & O). destruct (changes_ok cs e) as (A & B & C & D & F). rewrite <- Q in *. split; [intros k d; unfold getProperty; rewrite A; reflexivity|]. repeat split; assumption.
Qed.
Example C408_nonvacuous : let h := fst (createEnvironment [] E_MARS) in let cs := [ChProp "dust" d1; ChFlux d0; ChProp "dust" (dofZ 2); ChProp "ice" d1] in
  getProperty (deref (fold_left (fun g c => change_at g 0 c) cs h) 0) "dust" d0 = dofZ 2 /\ getProperty (deref (fold_left (fun g c => change_at g 0 c) cs h) 0) "wind" (dofZ 7) = dofZ 7.
Proof. vm_compute. split; reflexivity. Qed.

Theorem C409_presets : forall h t1 t2, let (h1, a1) := createEnvironment h t1 in let (h2, a2) := createEnvironment h1 t2 in
  exists x y, a1 = Some x /\ a2 = Some y /\ x <> y /\ (List.length h <= x)%nat /\ (forall a, (a < List.length h)%nat -> deref h2 a = deref h a) /\
  e_type (deref h2 x) = t1 /\ e_type (deref h2 y) = t2 /\ e_cross (deref h2 x) = e_cross (deref h2 y) /\ (forall k d, getProperty (deref h2 x) k d = d) /\
  (flt (e_flux (deref h2 x)) (e_flux (deref h2 y)) = true <-> (severity t1 < severity t2)%nat).
Proof.
  intros h t1 t2. unfold createEnvironment, alloc. exists (List.length h), (List.length (h ++ [preset_env t1])). split; [reflexivity|]. split; [reflexivity|]. split; [rewrite app_length; cbn [List.length]; lia|]. split; [lia|].
  assert (D1 : deref ((h ++ [preset_env t1]) ++ [preset_env t2]) (List.length h) = preset_env t1) by (rewrite <- app_assoc; cbn [app]; rewrite <- (Nat.add_0_r (List.length h)) at 1; rewrite deref_new; reflexivity).
  assert (D2 : deref ((h ++ [preset_env t1]) ++ [preset_env t2]) (List.length (h ++ [preset_env t1])) = preset_env t2) by (rewrite <- (Nat.add_0_r (List.length (h ++ [preset_env t1]))); rewrite deref_new; reflexivity).
  split; [intros a Ha; rewrite <- app_assoc; apply deref_old; exact Ha|]. rewrite D1, D2. split; [destruct t1; reflexivity|]. split; [destruct t2; reflexivity|]. split; [destruct t1, t2; reflexivity|]. split; [intros k d; destruct t1; reflexivity|].
  assert (Q : flt (e_flux (preset_env t1)) (e_flux (preset_env t2)) = Nat.ltb (severity t1) (severity t2)) by (destruct t1, t2; vm_compute; reflexivity). rewrite Q. apply Nat.ltb_lt.
Qed.
Example C409_nonvacuous : (severity AVIONIC < severity E_JUPITER)%nat /\ flt (e_flux (preset_env AVIONIC)) (e_flux (preset_env E_JUPITER)) = true.
Proof. split; [cbn; lia|vm_compute; reflexivity]. Qed.
Print Assumptions C398_phase_at_time.
Print Assumptions C399_long_mission_refuted.
Print Assumptions C399_long_mission_partial.
Print Assumptions C400_worst_case.
Print Assumptions C401_worst_case_nan_refuted.
Print Assumptions C401_worst_case_nan_partial.
Print Assumptions C402_exposure_accuracy.
Print Assumptions C403_exposure_grows.
Print Assumptions C404_standard_missions.
Print Assumptions C405_fallback_and_worst.
Print Assumptions C406_phase_independence_refuted.
Print Assumptions C406_phase_independence_partial.
Print Assumptions C407_missions_independent.
Print Assumptions C408_settings.
Print Assumptions C409_presets.
