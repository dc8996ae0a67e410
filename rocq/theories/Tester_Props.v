(** C287-C300: ArchitectureTester (research/architecture_tester). *)
From Coq Require Import List NArith ZArith Bool Reals SpecFloat Lia Lra.
Import ListNotations.
From Verif Require Import Outcome Words Floats FloatsR HealthFloat Bits_Model PNN_Model Train_Model RMA3_Proofs Tester_Model Tester_Spec.
From Verif Require Import Tester_Proofs Tester2_Proofs Tester3_Proofs Tester4_Proofs Tester5_Proofs.
Local Open Scope N_scope.

(** ** a processor for the examples: log answers 4, exp answers 0.6, the square is IEEE's, the noise is 1 *)
Definition log4 : sf -> sf := fun x => match x with S754_zero _ => S754_infinity true | _ => dofZ 4 end.
Definition exp6 : sf -> sf := fun _ => dlit 6 10.
Definition sq (x : sf) : sf := dmul x x.
Definition calm_noise : N -> sf * sf := fun _ => (dofZ 1, dofZ 1).
Lemma log4_ok : log_ok log4.
Proof.
  split.
  - intros x _. unfold log4. destruct x; try reflexivity; vm_compute; reflexivity.
  - intros x [O B]. unfold log4. destruct x as [s|s| |s m e]; try (destruct (ofZ_ex 4 ltac:(lia)) as [O4 E4]; split; [exact O4|rewrite E4; lra]). exfalso. change (R (S754_zero s)) with 0%R in B. lra.
Qed.
Lemma exp6_ok : exp_ok exp6. Proof. intros x _. vm_compute. reflexivity. Qed.
Lemma calm_ok : noise_ok calm_noise.
Proof. intros s. destruct d1 as [O1 E1]. unfold calm_noise. cbn [fst snd]. split; (split; [exact O1|rewrite E1; lra]). Qed.
Lemma sq_ok : pow2_ok sq.
Proof.
  intros x [O B]. unfold sq. destruct (mul_d x x O O) as [Om Em]; [unfold mid; nra|]. split; [exact Om|]. rewrite Em. split; [apply (rnd64_geZ 0)|apply (rnd64_leZ 65536)]; try lia; nra.
Qed.
Definition ds0 : dataset := mkDS [1; 2] [1] [3; 4] [1].
Definition tester0 : tester := tester_new ds0 4 2 None.
Definition arch0 : list N := [4; 8; 2].
Lemma half_ok : inr 0 1 (dlit 5 10).
Proof. apply lit_inr; [vm_compute; reflexivity|vm_compute; reflexivity|lia|lia]. Qed.

(** ** C287: the percentages *)
Theorem C287_percentages : forall flog fexp noise t arch drop residual p epochs e trial r,
  log_ok flog -> exp_ok fexp -> noise_ok noise -> is_double drop ->
  testArchitecture flog fexp noise t arch drop residual p epochs e trial = Ret r -> sane r /\ about r arch drop residual p e.
Proof. intros. split; [eapply test_sane; eassumption|eapply test_about; eassumption]. Qed.
Example C287_nonvacuous : exists r, testArchitecture log4 exp6 calm_noise tester0 arch0 (dlit 5 10) true FULL_TMR 10 MARS 3 = Ret r /\ (r_det r, r_corr r, r_unc r) = (6, 4, 2).
Proof. eexists. split; vm_compute; reflexivity. Qed.

(** ** C288: every architecture can be tested *)
Theorem C288_no_connection_refuted : forall flog fexp noise t arch drop residual p epochs e trial,
  log_zero flog -> weights arch = 0 -> inr 0 1 drop -> testArchitecture flog fexp noise t arch drop residual p epochs e trial = UB UB_float_to_int.
Proof. intros. apply test_no_connection; assumption. Qed.
Theorem C288_negative_dropout_refuted : exists drop, is_double drop /\ fin drop = true /\ forall flog fexp noise t arch residual p epochs e trial,
  testArchitecture flog fexp noise t arch drop residual p epochs e trial = UB UB_float_to_int.
Proof. exists (dlit (-5) 10). split; [vm_compute; reflexivity|]. split; [vm_compute; reflexivity|]. intros. reflexivity. Qed.
Theorem C288_partial : forall flog fexp noise t arch drop residual p epochs e trial,
  log_ok flog -> moderate arch -> 1 <= weights arch -> inr 0 1 drop -> completes (testArchitecture flog fexp noise t arch drop residual p epochs e trial).
Proof. intros. apply test_defined; assumption. Qed.
Example C288_nonvacuous : moderate arch0 /\ 1 <= weights arch0 /\ weights [7] = 0 /\ weights [4; 0; 2] = 0 /\ log_zero log4.
Proof. split; [reflexivity|]. split; [discriminate|]. repeat split. Qed.

(** ** C289: the error counts *)
Theorem C289_accounting : forall flog fexp noise t arch drop residual p epochs e trial r,
  log_ok flog -> moderate arch -> 1 <= weights arch -> testArchitecture flog fexp noise t arch drop residual p epochs e trial = Ret r ->
  r_det r = r_corr r + r_unc r /\ (p = NONE_ -> r_corr r = 0).
Proof.
  intros. split.
  - destruct (test_counts flog fexp noise H _ _ _ _ _ _ _ H0 H1 H2) as (? & _ & _ & _ & _ & _ & _ & E). exact E.
  - intros ->. eapply none_corrects_nothing; eassumption.
Qed.
Theorem C289_stronger : forall flog fexp noise t1 t2 arch d1 d2 s1 s2 p q n1 n2 e i1 i2 r1 r2,
  log_ok flog -> moderate arch -> 1 <= weights arch -> at_least_as_strong p q ->
  testArchitecture flog fexp noise t1 arch d1 s1 q n1 e i1 = Ret r1 -> testArchitecture flog fexp noise t2 arch d2 s2 p n2 e i2 = Ret r2 -> fewer_errors r1 r2.
Proof. intros. unfold testArchitecture in *. eapply stronger_counts with (arch := arch) (p := p) (q := q); eassumption. Qed.
Example C289_nonvacuous : exists a b, testArchitecture log4 exp6 calm_noise tester0 arch0 (dlit 5 10) true CHECKSUM_ONLY 10 MARS 3 = Ret a /\
  testArchitecture log4 exp6 calm_noise tester0 arch0 (dlit 2 10) false SPACE_OPTIMIZED 10 MARS 0 = Ret b /\ (r_det a, r_corr a, r_det b, r_corr b) = (2, 0, 7, 6).
Proof. eexists. eexists. split; [|split]; vm_compute; reflexivity. Qed.

(** ** C290: more protection does not lower the accuracy *)
Definition two_noise (s : N) : sf * sf := if s =? seed_of arch0 500 false NONE_ EARTH 0 mod 2 ^ 32 then (dofZ 1, dofZ 2) else (dofZ 1, dofZ 0).
Lemma two_ok : noise_ok two_noise.
Proof. intros s. destruct (ofZ_ex 0 ltac:(lia)) as [O0 E0], d1 as [O1 E1], (ofZ_ex 2 ltac:(lia)) as [O2 E2]. unfold two_noise. destruct (_ =? _); (split; (split; [assumption|cbn [fst snd]; rewrite ?E0, ?E1, ?E2; lra])). Qed.
Theorem C290_refuted : exists flog fexp noise, log_ok flog /\ exp_ok fexp /\ noise_ok noise /\ exists r1 r2,
  testArchitecture flog fexp noise tester0 arch0 (dlit 5 10) false NONE_ 10 EARTH 0 = Ret r1 /\
  testArchitecture flog fexp noise tester0 arch0 (dlit 5 10) false CHECKSUM_ONLY 10 EARTH 0 = Ret r2 /\ flt (r_pres r2) (r_pres r1) = true /\ flt (r_rad r2) (r_rad r1) = true.
Proof.
  exists log4, exp6, two_noise. split; [exact log4_ok|]. split; [exact exp6_ok|]. split; [exact two_ok|].
  eexists. eexists. split; [vm_compute; reflexivity|]. split; [vm_compute; reflexivity|]. split; vm_compute; reflexivity.
Qed.
Theorem C290_partial : forall flog fexp noise nn t1 t2 arch drop residual p q n1 n2 e i1 i2 r1 r2,
  log_ok flog -> exp_ok fexp -> noise_ok noise -> (forall s, noise s = nn) -> is_double drop -> at_least_as_strong p q ->
  testArchitecture flog fexp noise t1 arch drop residual q n1 e i1 = Ret r1 -> testArchitecture flog fexp noise t2 arch drop residual p n2 e i2 = Ret r2 ->
  r_base r1 = r_base r2 /\ (R (r_rad r1) <= R (r_rad r2))%R /\ (R (r_pres r1) <= R (r_pres r2))%R.
Proof. intros. unfold testArchitecture in *. eapply test_order with (p := p) (q := q) (e := e) (f := e); try eassumption. lia. Qed.
Example C290_nonvacuous : exists a b, testArchitecture log4 exp6 calm_noise tester0 arch0 (dlit 5 10) true CHECKSUM_ONLY 10 MARS 3 = Ret a /\
  testArchitecture log4 exp6 calm_noise tester0 arch0 (dlit 5 10) true FULL_TMR 10 MARS 3 = Ret b /\ flt (r_rad a) (r_rad b) = true.
Proof. eexists. eexists. split; [|split]; vm_compute; reflexivity. Qed.

(** ** C291: environments *)
Theorem C291_refuted : exists e f, flt (getRadiationLevel e) (getRadiationLevel f) = true /\ exists r1 r2,
  testArchitecture log4 exp6 calm_noise tester0 arch0 (dlit 5 10) false NONE_ 10 e 0 = Ret r1 /\
  testArchitecture log4 exp6 calm_noise tester0 arch0 (dlit 5 10) false NONE_ 10 f 0 = Ret r2 /\ flt (r_pres r1) (r_pres r2) = true.
Proof. exists DEEP_SPACE, SOLAR_FLARE. split; [vm_compute; reflexivity|]. eexists. eexists. split; [|split]; vm_compute; reflexivity. Qed.
Theorem C291_partial : forall flog fexp noise nn t1 t2 arch drop residual p n1 n2 e f i1 i2 r1 r2,
  log_ok flog -> exp_ok fexp -> noise_ok noise -> (forall s, noise s = nn) -> is_double drop -> hardness e <= hardness f ->
  testArchitecture flog fexp noise t1 arch drop residual p n1 f i1 = Ret r1 -> testArchitecture flog fexp noise t2 arch drop residual p n2 e i2 = Ret r2 ->
  r_base r1 = r_base r2 /\ (R (r_rad r1) <= R (r_rad r2))%R /\ (R (r_pres r1) <= R (r_pres r2))%R.
Proof. intros. unfold testArchitecture in *. eapply test_order with (p := p) (q := p) (e := e) (f := f); try eassumption. unfold at_least_as_strong. lia. Qed.
Example C291_nonvacuous : exists a b, testArchitecture log4 exp6 calm_noise tester0 arch0 (dlit 5 10) true NONE_ 10 EXTREME 3 = Ret a /\
  testArchitecture log4 exp6 calm_noise tester0 arch0 (dlit 5 10) true NONE_ 10 JUPITER 3 = Ret b /\ flt (r_rad a) (r_rad b) = true /\ hardness JUPITER <= hardness EXTREME.
Proof. eexists. eexists. split; [|split; [|split]]; try (vm_compute; reflexivity). discriminate. Qed.

(** ** C292: the result reflects training and testing on the data *)
Theorem C292_refuted : forall flog fexp noise t1 t2 arch drop residual p n1 n2 e trial,
  testArchitecture flog fexp noise t1 arch drop residual p n1 e trial = testArchitecture flog fexp noise t2 arch drop residual p n2 e trial.
Proof. reflexivity. Qed.
Theorem C292_monte_refuted : forall flog fexp fpow2 noise d1 d2 i o rs f arch drop residual p n1 n2 e n off1 off2,
  let answer x := match x with Ret y => Ret (fst y) | UB r => UB r | Throw x => Throw x | OutOfFuel => OutOfFuel end in
  answer (testArchitectureMonteCarlo flog fexp fpow2 noise (mkT d1 i o rs f) arch drop residual p n1 e n off1) =
  answer (testArchitectureMonteCarlo flog fexp fpow2 noise (mkT d2 i o rs f) arch drop residual p n2 e n off2).
Proof.
  intros. unfold testArchitectureMonteCarlo.
  assert (T : forall k i0, trials flog fexp noise (mkT d1 i o rs f) arch drop residual p n1 e i0 k = trials flog fexp noise (mkT d2 i o rs f) arch drop residual p n2 e i0 k).
  { induction k as [|k IH]; intros i0; cbn [trials]; [reflexivity|]. unfold testArchitecture. destruct (test_with _ _ _ _ _ _ _ _ _); cbn [obind]; [rewrite IH; reflexivity|reflexivity..]. }
  rewrite (T n 0). destruct (trials _ _ _ _ _ _ _ _ _ _ _ n); reflexivity.
Qed.

(** ** C293: Monte Carlo summaries *)
Theorem C293_monte_carlo : forall flog fexp fpow2 noise t arch drop residual p epochs e n off a t',
  log_ok flog -> exp_ok fexp -> noise_ok noise -> pow2_ok fpow2 -> is_double drop -> (1 <= n)%nat -> (Z.of_nat n < 2 ^ 37)%Z ->
  testArchitectureMonteCarlo flog fexp fpow2 noise t arch drop residual p epochs e n off = Ret (a, t') ->
  sane a /\ about a arch drop residual p e /\ r_trials a = N.of_nat n /\ inr 0 256 (r_base_sd a) /\ inr 0 256 (r_rad_sd a) /\ inr 0 256 (r_pres_sd a).
Proof.
  intros flog fexp fpow2 noise t arch drop residual p epochs e n off a t' L E NO P D N1 NB H.
  destruct (monte_sane flog fexp fpow2 noise L E NO P _ _ _ _ _ _ _ _ _ _ _ D N1 NB H) as [(S & T & A & B & C) AB]. auto 10.
Qed.
Example C293_nonvacuous : exists x, testArchitectureMonteCarlo log4 exp6 sq two_noise tester0 arch0 (dlit 5 10) false NONE_ 10 EARTH 2 7 = Ret x /\ flt (dofZ 0) (r_pres_sd (fst x)) = true /\ r_trials (fst x) = 2.
Proof. eexists. split; [|split]; vm_compute; reflexivity. Qed.

(** ** C294: Monte Carlo error counts *)
Theorem C294_monte_errors : forall flog fexp fpow2 noise t arch drop residual p epochs e n off a t' trial r,
  log_ok flog -> moderate arch -> 1 <= weights arch -> (1 <= n)%nat -> (Z.of_nat n < 2 ^ 37)%Z ->
  testArchitectureMonteCarlo flog fexp fpow2 noise t arch drop residual p epochs e n off = Ret (a, t') ->
  testArchitecture flog fexp noise t arch drop residual p epochs e trial = Ret r ->
  r_det a = r_det r /\ r_corr a = r_corr r /\ r_unc a = r_unc r.
Proof. intros. eapply monte_errors; eassumption. Qed.
Example C294_nonvacuous : exists x r, testArchitectureMonteCarlo log4 exp6 sq two_noise tester0 arch0 (dlit 5 10) false FULL_TMR 10 MARS 2 7 = Ret x /\
  testArchitecture log4 exp6 two_noise tester0 arch0 (dlit 5 10) false FULL_TMR 10 MARS 9 = Ret r /\ (r_det (fst x), r_corr r) = (6, 4).
Proof. eexists. eexists. split; [|split]; vm_compute; reflexivity. Qed.

(** ** C295: the trials are different experiments *)
Theorem C295_seeds : forall flog fexp noise t arch drop residual p epochs e n rs,
  n <= 2 ^ 32 -> trials flog fexp noise t arch drop residual p epochs e 0 (N.to_nat n) = Ret rs -> exists d1000,
  (forall i, i < n -> exists r, nth_error rs (N.to_nat i) = Some r /\ r_base r = baseline fexp (ddiv (flog (connections arch)) (dofZ 10)) drop (residual && Nat.ltb 3 (length arch)) (fst (noise (seed_of arch d1000 residual p e i mod 2 ^ 32)))) /\
  forall i j, i < n -> j < n -> i <> j -> seed_of arch d1000 residual p e i mod 2 ^ 32 <> seed_of arch d1000 residual p e j mod 2 ^ 32.
Proof.
  intros flog fexp noise t arch drop residual p epochs e n rs B H. destruct (trials_spec _ _ _ _ _ _ _ _ _ _ _ _ _ H) as [L K].
  assert (ALL : forall i r, nth_error rs (N.to_nat i) = Some r -> i < n -> exists d, to_size (dmul drop (dofZ 1000)) = Ret d /\ r_base r = baseline fexp (ddiv (flog (connections arch)) (dofZ 10)) drop (residual && Nat.ltb 3 (length arch)) (fst (noise (seed_of arch d residual p e i mod 2 ^ 32)))).
  { intros i r E Hi. specialize (K _ _ E). unfold testArchitecture in K. rewrite N2Nat.id, N.add_0_l, N.mod_small in K by lia. destruct (test_inv _ _ _ _ _ _ _ _ _ _ K) as (d & w1 & w2 & w3 & D & _ & _ & _ & ->). exists d. split; [exact D|reflexivity]. }
  destruct (to_size (dmul drop (dofZ 1000))) as [d| | |] eqn:D.
  - exists d. split; [|intros; apply seeds_differ; lia]. intros i Hi. destruct (nth_error rs (N.to_nat i)) as [r|] eqn:E; [|apply nth_error_None in E; lia]. exists r. split; [reflexivity|]. destruct (ALL i r E Hi) as (d' & Q & W). injection Q as <-. exact W.
  - exists 0. split; [|intros; apply seeds_differ; lia]. intros i Hi. destruct (nth_error rs (N.to_nat i)) as [x|] eqn:E; [|apply nth_error_None in E; lia]. destruct (ALL i x E Hi) as (d' & Q & _). discriminate Q.
  - exists 0. split; [|intros; apply seeds_differ; lia]. intros i Hi. destruct (nth_error rs (N.to_nat i)) as [x|] eqn:E; [|apply nth_error_None in E; lia]. destruct (ALL i x E Hi) as (d' & Q & _). discriminate Q.
  - exists 0. split; [|intros; apply seeds_differ; lia]. intros i Hi. destruct (nth_error rs (N.to_nat i)) as [x|] eqn:E; [|apply nth_error_None in E; lia]. destruct (ALL i x E Hi) as (d' & Q & _). discriminate Q.
Qed.
Example C295_nonvacuous : exists rs, trials log4 exp6 two_noise tester0 arch0 (dlit 5 10) false NONE_ 10 EARTH 0 (N.to_nat 2) = Ret rs /\ length rs = 2%nat.
Proof. eexists. split; vm_compute; reflexivity. Qed.
(** ... but the seed offset selects nothing *)
Theorem C295_offset_refuted : forall flog fexp fpow2 noise t arch drop residual p epochs e n off1 off2,
  testArchitectureMonteCarlo flog fexp fpow2 noise t arch drop residual p epochs e n off1 = testArchitectureMonteCarlo flog fexp fpow2 noise t arch drop residual p epochs e n off2.
Proof. reflexivity. Qed.

(** ** C296: the best result *)
Theorem C296_best : forall t e, (forall x, In x (t_results t) -> okd (r_pres x)) ->
  (exists b, first_best e (t_results t) b /\ getBestArchitecture t e = r_sizes b /\ getOptimalDropout t e = r_drop b) \/
  ((forall x, In x (t_results t) -> r_env x <> e) /\ getBestArchitecture t e = [t_in t; 128; 64; t_out t] /\ getOptimalDropout t e = dlit 5 10).
Proof. exact best_spec. Qed.
(** the order handed to std::max_element is not irreflexive *)
Theorem C296_order_refuted : exists e r, worse e r r = true.
Proof. exists MARS, zero_res. reflexivity. Qed.
Definition runC (cs : list tcall) : outcome tester := calls log4 exp6 sq calm_noise tester0 cs.
Example C296_nonvacuous : exists t, runC [CMonte [4; 8; 2] (dlit 5 10) false NONE_ 1 MARS 1 0; CMonte [4; 9; 2] (dlit 3 10) false FULL_TMR 1 MARS 1 0; CMonte [4; 7; 2] (dlit 2 10) false NONE_ 1 EARTH 1 0] = Ret t /\
  getBestArchitecture t MARS = [4; 9; 2] /\ getBestArchitecture t EARTH = [4; 7; 2] /\ getBestArchitecture t ISS = [4; 128; 64; 2].
Proof. eexists. split; [|split; [|split]]; vm_compute; reflexivity. Qed.

(** ** C297: every tested architecture is considered *)
Theorem C297_refuted : forall flog fexp fpow2 noise t a d r p n e i t', call flog fexp fpow2 noise t (CTest a d r p n e i) = Ret t' -> t' = t.
Proof. intros flog fexp fpow2 noise t a d r p n e i t' H. destruct (call_inv _ _ _ _ _ _ _ H) as [[_ E]|[K _]]; [exact E|discriminate K]. Qed.
Theorem C297_partial : forall flog fexp fpow2 noise t cs t', calls flog fexp fpow2 noise t cs = Ret t' -> exists new, t_results t' = t_results t ++ new /\ length new = length (filter recording cs).
Proof. intros flog fexp fpow2 noise t cs t' H. destruct (calls_shape _ _ _ _ _ _ _ H) as (new & A & B & _). exists new. split; assumption. Qed.
Example C297_nonvacuous : exists t, runC [CTest [4; 8; 2] (dlit 5 10) false NONE_ 1 MARS 1] = Ret t /\ t_results t = [] /\ getBestArchitecture t MARS = [4; 128; 64; 2].
Proof. eexists. split; [|split]; vm_compute; reflexivity. Qed.
(** what Monte Carlo testing recorded is its summary *)
Theorem C297_monte_recorded : forall flog fexp fpow2 noise t arch drop residual p epochs e n off a t',
  testArchitectureMonteCarlo flog fexp fpow2 noise t arch drop residual p epochs e n off = Ret (a, t') -> t_results t' = t_results t ++ [a].
Proof. intros flog fexp fpow2 noise t arch drop residual p epochs e n off a t' H. destruct (monte_inv _ _ _ _ _ _ _ _ _ _ _ _ _ _ _ H) as (rs & _ & _ & ->). reflexivity. Qed.

(** ** C298: the results file *)
Theorem C298_partial : forall flog fexp fpow2 noise d i o file cs t', calls flog fexp fpow2 noise (tester_new d i o file) cs = Ret t' ->
  t_file t' = (match file with None | Some [] => [Header] | Some f => f end) ++ saves [] (t_results t') /\
  (let k := length (filter recording cs) in 2 * length (saves [] (t_results t')) = k * (k + 1))%nat.
Proof.
  intros flog fexp fpow2 noise d i o file cs t' H. destruct (calls_shape _ _ _ _ _ _ _ H) as (new & A & B & C & _). cbn [tester_new t_results t_file] in *. rewrite app_nil_l in A. rewrite A.
  split; [exact C|]. cbv zeta. rewrite saves_length, B. cbn [length]. nia.
Qed.
Theorem C298_refuted : exists t, runC [CWidth 8 16 4 (dlit 5 10) 1 MARS; CWidth 9 16 4 (dlit 5 10) 1 MARS] = Ret t /\ length (t_results t) = 2%nat /\ exists a b, t_file t = [Header; Row a; Row a; Row b] /\ r_sizes a = [4; 8; 2] /\ r_sizes b = [4; 9; 2].
Proof. eexists. split; [vm_compute; reflexivity|]. split; [reflexivity|]. eexists. eexists. repeat split. Qed.

(** ** C299: a range is tested *)
Theorem C299_width_refuted : forall flog fexp noise t lo hi step hi' step' drop n e, testWidthRange flog fexp noise t lo hi step drop n e = testWidthRange flog fexp noise t lo hi' step' drop n e.
Proof. reflexivity. Qed.
Theorem C299_dropout_refuted : forall flog fexp noise t arch lo hi step hi' step' n e, testDropoutRange flog fexp noise t arch lo hi step n e = testDropoutRange flog fexp noise t arch lo hi' step' n e.
Proof. reflexivity. Qed.
Theorem C299_partial : forall flog fexp noise t lo hi step drop n e t', (0 <= lo)%Z -> (lo < 2 ^ 31)%Z -> testWidthRange flog fexp noise t lo hi step drop n e = Ret t' ->
  exists r, t_results t' = t_results t ++ [r] /\ testArchitecture flog fexp noise t [t_in t; Z.to_N lo; t_out t] drop false NONE_ n e 0 = Ret r.
Proof.
  intros flog fexp noise t lo hi step drop n e t' L U H. unfold testWidthRange in H. apply obind_ret in H. destruct H as (r & T & H). injection H as <-. exists r. split; [reflexivity|].
  replace (Z.to_N lo) with (size_of_int lo); [exact T|]. unfold size_of_int. f_equal. apply Z.mod_small. change (Z.of_N two64) with 18446744073709551616%Z. lia.
Qed.
Theorem C299_dropout_partial : forall flog fexp noise t arch lo hi step n e t', Forall (fun w => 0 <= w < 2 ^ 31)%Z arch -> testDropoutRange flog fexp noise t arch lo hi step n e = Ret t' ->
  exists r, t_results t' = t_results t ++ [r] /\ testArchitecture flog fexp noise t ([t_in t] ++ map Z.to_N arch ++ [t_out t]) lo false NONE_ n e 0 = Ret r.
Proof.
  intros flog fexp noise t arch lo hi step n e t' F H. unfold testDropoutRange in H. apply obind_ret in H. destruct H as (r & T & H). injection H as <-. exists r. split; [reflexivity|].
  replace (map Z.to_N arch) with (map size_of_int arch); [exact T|]. apply map_ext_in. intros w Hw. rewrite Forall_forall in F. specialize (F w Hw). unfold size_of_int. f_equal. apply Z.mod_small. change (Z.of_N two64) with 18446744073709551616%Z. lia.
Qed.
Example C299_nonvacuous : exists t, testWidthRange log4 exp6 calm_noise tester0 8 64 8 (dlit 5 10) 1 MARS = Ret t /\ map r_sizes (t_results t) = [[4; 8; 2]].
Proof. eexists. split; vm_compute; reflexivity. Qed.

(** ** C300: the best architecture is one of the network's shape *)
Theorem C300_refuted : exists t, runC [CMonte [4; 8; 2] (dlit 5 10) false NONE_ 1 MARS 0 0] = Ret t /\ getBestArchitecture t EARTH = [] /\ getBestArchitecture t MARS = [4; 128; 64; 2].
Proof. eexists. split; [|split]; vm_compute; reflexivity. Qed.
(** a call that keeps to the tester's input and output size and asks for at least one trial *)
Definition shaped (i o : N) (arch : list N) : Prop := exists hidden, arch = [i] ++ hidden ++ [o].
Definition proper (i o : N) (c : tcall) : Prop := match c with CMonte a _ _ _ _ _ k _ => shaped i o a /\ (1 <= k)%nat | _ => True end.
Theorem C300_partial : forall flog fexp fpow2 noise d i o file cs t' e, Forall (proper i o) cs -> calls flog fexp fpow2 noise (tester_new d i o file) cs = Ret t' -> shaped i o (getBestArchitecture t' e).
Proof.
  intros flog fexp fpow2 noise d i o file cs t' e P H.
  assert (G : forall cs t t', Forall (proper i o) cs -> t_in t = i -> t_out t = o -> (forall r, In r (t_results t) -> shaped i o (r_sizes r)) -> calls flog fexp fpow2 noise t cs = Ret t' ->
    t_in t' = i /\ t_out t' = o /\ forall r, In r (t_results t') -> shaped i o (r_sizes r)).
  { clear. induction cs as [|c cs IH]; intros t t' P I O F H; cbn [calls] in H; [injection H as <-; auto|].
    apply obind_ret in H. destruct H as (t1 & C & H). inversion P as [|c' cs' Pc Ps]; subst c' cs'.
    assert (R : exists r, shaped i o (r_sizes r) /\ t1 = record_result t r \/ t1 = t).
    { destruct c as [a dr rs p n e tr|a dr rs p n e k s|lo hi st dr n e|a lo hi st n e]; cbn [call] in C.
      - apply obind_ret in C. destruct C as (r & _ & C). injection C as <-. exists zero_res. right. reflexivity.
      - apply obind_ret in C. destruct C as ([x t2] & M & C). injection C as <-. destruct Pc as [S K]. destruct (monte_inv _ _ _ _ _ _ _ _ _ _ _ _ _ _ _ M) as (l & T & E & E'). exists x. left. split; [|exact E'].
        destruct (trials_spec _ _ _ _ _ _ _ _ _ _ _ _ _ T) as [L _]. destruct l as [|r0 l]; [cbn in L; lia|]. destruct (trials_in _ _ _ _ _ _ _ _ _ _ _ _ _ _ T (or_introl eq_refl)) as (j & J). destruct (test_about _ _ _ _ _ _ _ _ _ _ J) as (A & _). rewrite E. cbn [calculateMonteCarloStatistics r_sizes]. rewrite A. exact S.
      - unfold testWidthRange in C. apply obind_ret in C. destruct C as (r & T & C). injection C as <-. exists r. left. split; [|reflexivity]. destruct (test_about _ _ _ _ _ _ _ _ _ _ T) as (A & _). rewrite A, I, O. exists [size_of_int lo]. reflexivity.
      - unfold testDropoutRange in C. apply obind_ret in C. destruct C as (r & T & C). injection C as <-. exists r. left. split; [|reflexivity]. destruct (test_about _ _ _ _ _ _ _ _ _ _ T) as (A & _). rewrite A, I, O. exists (map size_of_int a). reflexivity. }
    destruct R as (r & [[S ->]| ->]); [|exact (IH t t' Ps I O F H)]. apply (IH _ _ Ps) in H; try assumption. intros y Hy. cbn [record_result saveResultsToFile t_results] in Hy. apply in_app_or in Hy. destruct Hy as [Hy|[<-|[]]]; [apply F; exact Hy|exact S]. }
  destruct (G cs (tester_new d i o file) t' P eq_refl eq_refl (fun r (F : In r []) => match F with end) H) as (I & O & F).
  unfold getBestArchitecture. rewrite I, O. assert (D : shaped i o [i; 128; 64; o]) by (exists [128; 64]; reflexivity).
  destruct (t_results t') as [|r l]; [exact D|]. cbv zeta. destruct (same_env _ e); [|exact D]. apply F.
  assert (IN : forall l b, In (max_scan (worse e) b l) (b :: l)).
  { clear. induction l as [|x l IH]; intros b; cbn [max_scan]; [left; reflexivity|]. destruct (worse e b x); [right; apply IH|]. destruct (IH b) as [E|E]; [left; exact E|right; right; exact E]. }
  apply IN.
Qed.
Example C300_nonvacuous : exists t, runC [CMonte [4; 8; 2] (dlit 5 10) false NONE_ 1 EARTH 2 0] = Ret t /\ getBestArchitecture t EARTH = [4; 8; 2].
Proof. eexists. split; vm_compute; reflexivity. Qed.

Print Assumptions C287_percentages.
Print Assumptions C288_no_connection_refuted.
Print Assumptions C288_negative_dropout_refuted.
Print Assumptions C288_partial.
Print Assumptions C289_accounting.
Print Assumptions C289_stronger.
Print Assumptions C290_refuted.
Print Assumptions C290_partial.
Print Assumptions C291_refuted.
Print Assumptions C291_partial.
Print Assumptions C292_refuted.
Print Assumptions C292_monte_refuted.
Print Assumptions C293_monte_carlo.
Print Assumptions C294_monte_errors.
Print Assumptions C295_seeds.
Print Assumptions C295_offset_refuted.
Print Assumptions C296_best.
Print Assumptions C296_order_refuted.
Print Assumptions C297_refuted.
Print Assumptions C297_partial.
Print Assumptions C297_monte_recorded.
Print Assumptions C298_partial.
Print Assumptions C298_refuted.
Print Assumptions C299_width_refuted.
Print Assumptions C299_dropout_refuted.
Print Assumptions C299_partial.
Print Assumptions C299_dropout_partial.
Print Assumptions C300_refuted.
Print Assumptions C300_partial.
