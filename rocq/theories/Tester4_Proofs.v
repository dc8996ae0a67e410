From Coq Require Import List NArith ZArith Bool Lia Reals Lra Psatz SpecFloat.
Import ListNotations.
From Verif Require Import Outcome Words Arith Floats FloatsR HealthFloat FloatsS Bits_Model PNN_Model Train_Model RMA3_Proofs Tester_Model Tester_Spec Tester_Proofs Tester2_Proofs Tester3_Proofs.
Local Open Scope R_scope.

Lemma same_env_iff a b : same_env a b = true <-> a = b.
Proof. unfold same_env. split; [destruct a, b; (reflexivity || discriminate)|intros ->; apply N.eqb_refl]. Qed.
Lemma same_env_iffF a b : same_env a b = false <-> a <> b.
Proof. rewrite <- not_true_iff_false, same_env_iff. reflexivity. Qed.

Section Lib.
Variables (flog fexp fpow2 : sf -> sf) (noise : N -> sf * sf).
Hypothesis LOG : log_ok flog.
Hypothesis EXP : exp_ok fexp.
Hypothesis NOISE : noise_ok noise.
Hypothesis POW : pow2_ok fpow2.

Lemma trials_spec t arch drop residual p epochs e n : forall i rs, trials flog fexp noise t arch drop residual p epochs e i n = Ret rs ->
  length rs = n /\ forall k r, nth_error rs k = Some r -> testArchitecture flog fexp noise t arch drop residual p epochs e ((i + N.of_nat k) mod 2 ^ 32) = Ret r.
Proof.
  induction n as [|n IH]; intros i rs H; cbn [trials] in H.
  - injection H as <-. split; [reflexivity|]. intros [|k] r K; discriminate K.
  - apply obind_ret in H. destruct H as (r0 & H0 & H). apply obind_ret in H. destruct H as (rs' & H1 & H). injection H as <-.
    destruct (IH _ _ H1) as [L K]. split; [cbn [length]; lia|]. intros [|k] r E; cbn [nth_error] in E.
    + injection E as <-. rewrite N.add_0_r. exact H0.
    + rewrite <- (K k r E). f_equal. f_equal. lia.
Qed.
Lemma trials_in t arch drop residual p epochs e n i rs r : trials flog fexp noise t arch drop residual p epochs e i n = Ret rs -> In r rs ->
  exists trial, test_with flog fexp noise arch drop residual p e trial = Ret r.
Proof. intros H I. destruct (In_nth_error _ _ I) as [k K]. eexists. exact (proj2 (trials_spec _ _ _ _ _ _ _ _ _ _ H) k r K). Qed.

Lemma in0 lo hi x : inr lo hi x -> 0 <= lo -> inr 0 hi x.
Proof. intros [O B] L. split; [exact O|lra]. Qed.
Lemma in_up lo hi hi' x : inr lo hi x -> hi <= hi' -> inr lo hi' x.
Proof. intros [O B] L. split; [exact O|lra]. Qed.
Lemma sd_range (f : res -> sf) rs : rs <> [] -> (Z.of_nat (length rs) < 2 ^ 37)%Z -> (forall r, In r rs -> inr 0 100 (f r)) -> inr 0 256 (stddev_of fpow2 f rs).
Proof.
  intros NE BN F. destruct (mean_range f 0 100 ltac:(lia) rs NE ltac:(lia) ltac:(lia) ltac:(lia) F) as (_ & [Om Bm] & _). unfold stddev_of. cbv zeta. set (m := mean_of f rs) in *.
  set (g := fun r => fpow2 (dsub (f r) m)).
  assert (G : forall r, In r rs -> inr (IZR 0) (IZR 65536) (g r)).
  { intros r Hr. unfold g. apply POW. destruct (F r Hr) as [Of Bf]. destruct (sub_d (f r) m Of Om) as [Os Es]; [unfold mid; lra|]. split; [exact Os|]. rewrite Es.
    split; [apply (rnd64_geZ (-200))|apply (rnd64_leZ 200)]; lia || lra. }
  destruct (mean_range g 0 65536 ltac:(lia) rs NE ltac:(lia) ltac:(lia) ltac:(lia) G) as (_ & [Og Bg] & _). unfold mean_of, dsum in Og, Bg.
  destruct (sqrt_d _ Og (proj1 Bg)) as [Or Er]. split; [exact Or|]. change (fun a r => dadd a (fpow2 (dsub (f r) m))) with (fun a r => dadd a (g r)). rewrite Er. split.
  - apply (rnd64_geZ 0); [lia|]. apply sqrt_pos.
  - apply (rnd64_leZ 256); [lia|]. rewrite <- (sqrt_square 256) by lra. apply sqrt_le_1_alt. lra.
Qed.

Definition monte_ok (r : res) (n : nat) : Prop :=
  sane r /\ r_trials r = N.of_nat n /\ inr 0 256 (r_base_sd r) /\ inr 0 256 (r_rad_sd r) /\ inr 0 256 (r_pres_sd r).
Lemma stats_ok rs : rs <> [] -> (Z.of_nat (length rs) < 2 ^ 37)%Z -> (forall r, In r rs -> sane r) -> monte_ok (calculateMonteCarloStatistics fpow2 rs) (length rs).
Proof.
  intros NE BN F. destruct rs as [|r0 rs0] eqn:Q; [contradiction|]. rewrite <- Q in *. clear NE.
  assert (NE : rs <> []) by (rewrite Q; discriminate).
  assert (E : calculateMonteCarloStatistics fpow2 rs = mkRes (r_sizes r0) (r_drop r0) (r_resid r0) (r_prot r0) (r_env r0)
      (mean_of r_base rs) (mean_of r_rad rs) (mean_of r_pres rs) (mean_of r_time rs)
      (nsum r_det rs / N.of_nat (length rs)) (nsum r_corr rs / N.of_nat (length rs)) (nsum r_unc rs / N.of_nat (length rs))
      (stddev_of fpow2 r_base rs) (stddev_of fpow2 r_rad rs) (stddev_of fpow2 r_pres rs) (N.of_nat (length rs))) by (rewrite Q; reflexivity).
  rewrite E. clear E Q rs0. unfold monte_ok, sane. cbn [r_base r_rad r_pres r_trials r_base_sd r_rad_sd r_pres_sd].
  assert (FB : forall r, In r rs -> inr 50 99 (r_base r)) by (intros r Hr; apply (F r Hr)).
  assert (FR : forall r, In r rs -> inr 10 99 (r_rad r)). { intros r Hr. destruct (F r Hr) as ([_ B] & R' & _). apply (in_up _ _ _ _ R'). lra. }
  assert (FP : forall r, In r rs -> inr 10 100 (r_pres r)) by (intros r Hr; apply (F r Hr)).
  split; [split; [|split]|split; [reflexivity|split; [|split]]].
  - apply (mean_range r_base 50 99); try lia; assumption.
  - destruct (mean_range r_rad 10 99 ltac:(lia) rs NE ltac:(lia) ltac:(lia) ltac:(lia) FR) as (_ & [O [L _]] & _). split; [exact O|]. split; [exact L|].
    apply (mean_mono r_rad r_base 99); try lia; [exact NE|]. intros r Hr. destruct (F r Hr) as (B & [OR BR] & _). split; [|split].
    + apply (in0 10); [exact (FR r Hr)|lra].
    + apply (in0 50); [exact B|lra].
    + apply BR.
  - apply (mean_range r_pres 10 100); try lia; assumption.
  - apply sd_range; [exact NE|exact BN|]. intros r Hr. apply (in0 50); [|lra]. apply (in_up _ 99); [apply FB; exact Hr|lra].
  - apply sd_range; [exact NE|exact BN|]. intros r Hr. apply (in0 10); [|lra]. apply (in_up _ 99); [apply FR; exact Hr|lra].
  - apply sd_range; [exact NE|exact BN|]. intros r Hr. apply (in0 10); [|lra]. apply FP; exact Hr.
Qed.

(** ** Monte Carlo *)
Lemma monte_inv t arch drop residual p epochs e n off a t' : testArchitectureMonteCarlo flog fexp fpow2 noise t arch drop residual p epochs e n off = Ret (a, t') ->
  exists rs, trials flog fexp noise t arch drop residual p epochs e 0 n = Ret rs /\ a = calculateMonteCarloStatistics fpow2 rs /\ t' = record_result t a.
Proof. unfold testArchitectureMonteCarlo. intros H. apply obind_ret in H. destruct H as (rs & T & H). injection H as <- <-. exists rs. repeat split. exact T. Qed.
Lemma monte_sane t arch drop residual p epochs e n off a t' : is_double drop -> (1 <= n)%nat -> (Z.of_nat n < 2 ^ 37)%Z ->
  testArchitectureMonteCarlo flog fexp fpow2 noise t arch drop residual p epochs e n off = Ret (a, t') -> monte_ok a n /\ about a arch drop residual p e.
Proof.
  intros VD N1 NB H. destruct (monte_inv _ _ _ _ _ _ _ _ _ _ _ H) as (rs & T & -> & _). destruct (trials_spec _ _ _ _ _ _ _ _ _ _ T) as [L K].
  assert (NE : rs <> []) by (intros ->; cbn in L; lia). split.
  - rewrite <- L. apply stats_ok; [exact NE|lia|]. intros r Hr. destruct (trials_in _ _ _ _ _ _ _ _ _ _ _ T Hr) as (i & E). exact (test_sane _ _ _ _ _ _ _ _ _ _ LOG EXP NOISE VD E).
  - destruct rs as [|r0 rs]; [contradiction|]. destruct (trials_in _ _ _ _ _ _ _ _ _ _ _ T (or_introl eq_refl)) as (i & E). destruct (test_about _ _ _ _ _ _ _ _ _ _ E) as (A1 & A2 & A3 & A4 & A5).
    unfold about. cbn [calculateMonteCarloStatistics r_sizes r_drop r_resid r_prot r_env]. repeat split; assumption.
Qed.
Lemma nsum_const (f : res -> N) d rs : forall acc, (forall r, In r rs -> f r = d) -> (acc + d * N.of_nat (length rs) < 2 ^ 64)%N ->
  fold_left (fun a r => (a + f r) mod two64)%N rs acc = (acc + d * N.of_nat (length rs))%N.
Proof.
  induction rs as [|x rs IH]; intros acc F B; cbn [fold_left length].
  - lia.
  - cbn [length] in B. rewrite (F x (or_introl eq_refl)). rewrite N.mod_small by (unfold two64; nia). rewrite IH; [lia|intros r Hr; apply F; right; exact Hr|nia].
Qed.
Lemma mean_const (f : res -> N) d rs : rs <> [] -> (forall r, In r rs -> f r = d) -> (d * N.of_nat (length rs) < 2 ^ 64)%N -> (nsum f rs / N.of_nat (length rs))%N = d.
Proof.
  intros NE F B. unfold nsum. rewrite (nsum_const f d rs 0%N F) by lia. rewrite N.add_0_l. apply N.div_mul. destruct rs; [contradiction|cbn [length]; lia].
Qed.
Lemma monte_errors t arch drop residual p epochs e n off a t' trial r : moderate arch -> (1 <= weights arch)%N -> (1 <= n)%nat -> (Z.of_nat n < 2 ^ 37)%Z ->
  testArchitectureMonteCarlo flog fexp fpow2 noise t arch drop residual p epochs e n off = Ret (a, t') ->
  testArchitecture flog fexp noise t arch drop residual p epochs e trial = Ret r ->
  r_det a = r_det r /\ r_corr a = r_corr r /\ r_unc a = r_unc r.
Proof.
  intros M W N1 NB H HR. destruct (monte_inv _ _ _ _ _ _ _ _ _ _ _ H) as (rs & T & -> & _). destruct (trials_spec _ _ _ _ _ _ _ _ _ _ T) as [L K].
  assert (NE : rs <> []) by (intros ->; cbn in L; lia). unfold testArchitecture in HR.
  destruct (test_counts _ _ _ LOG _ _ _ _ _ _ _ M W HR) as (tot & T0 & L0 & A0 & B0 & LD & LC & S0).
  assert (EQ : forall x, In x rs -> r_det x = r_det r /\ r_corr x = r_corr r /\ r_unc x = r_unc r).
  { intros x Hx. destruct (trials_in _ _ _ _ _ _ _ _ _ _ _ T Hx) as (i & E). destruct (test_counts _ _ _ LOG _ _ _ _ _ _ _ M W E) as (tot' & T1 & _ & A1 & B1 & _ & _ & S1).
    rewrite T0 in T1. injection T1 as <-. rewrite A0 in A1. injection A1 as A1. rewrite <- A1 in *. rewrite B0 in B1. injection B1 as B1. rewrite <- B1 in *. repeat split; lia. }
  destruct rs as [|r0 rs0] eqn:Q; [contradiction|]. rewrite <- Q in *. clear NE. assert (NE : rs <> []) by (rewrite Q; discriminate).
  replace (calculateMonteCarloStatistics fpow2 rs) with (mkRes (r_sizes r0) (r_drop r0) (r_resid r0) (r_prot r0) (r_env r0)
      (mean_of r_base rs) (mean_of r_rad rs) (mean_of r_pres rs) (mean_of r_time rs)
      (nsum r_det rs / N.of_nat (length rs)) (nsum r_corr rs / N.of_nat (length rs)) (nsum r_unc rs / N.of_nat (length rs))
      (stddev_of fpow2 r_base rs) (stddev_of fpow2 r_rad rs) (stddev_of fpow2 r_pres rs) (N.of_nat (length rs))) by (rewrite Q; reflexivity).
  cbn [r_det r_corr r_unc]. repeat split; (apply mean_const; [exact NE|intros x Hx; apply (EQ x Hx)|nia]).
Qed.
(** the generator of each trial is seeded differently *)
Lemma monte_seeds arch d residual p e n : (n <= 2 ^ 32)%N -> forall i j, (i < n)%N -> (j < n)%N -> i <> j ->
  (seed_of arch d residual p e (i mod 2 ^ 32) mod 2 ^ 32 <> seed_of arch d residual p e (j mod 2 ^ 32) mod 2 ^ 32)%N.
Proof. intros B i j Hi Hj NE. rewrite (N.mod_small i), (N.mod_small j) by lia. apply seeds_differ; lia || assumption. Qed.
End Lib.

(** ** the best result *)
Definition scanned (e : senv) (pre : list res) (b : res) : Prop :=
  (r_env b = e -> first_best e pre b) /\ (r_env b <> e -> forall x, In x pre -> r_env x <> e).
Lemma scan_spec e l : forall b pre, (forall x, In x (pre ++ l) -> okd (r_pres x)) -> In b pre -> scanned e pre b -> scanned e (pre ++ l) (max_scan (worse e) b l).
Proof.
  induction l as [|x l IH]; intros b pre O I [SB SN]; cbn [max_scan].
  - rewrite app_nil_r. split; assumption.
  - replace (pre ++ x :: l) with ((pre ++ [x]) ++ l) in * by (rewrite <- app_assoc; reflexivity).
    assert (Ob : okd (r_pres b)) by (apply O; apply in_or_app; left; apply in_or_app; left; exact I).
    assert (Ox : okd (r_pres x)) by (apply O; apply in_or_app; left; apply in_or_app; right; left; reflexivity).
    unfold worse at 2. destruct (same_env (r_env b) e) eqn:Eb; [apply same_env_iff in Eb|apply same_env_iffF in Eb]; destruct (same_env (r_env x) e) eqn:Ex; [apply same_env_iff in Ex|apply same_env_iffF in Ex|apply same_env_iff in Ex|apply same_env_iffF in Ex]; cbn [andb negb].
    + specialize (SB Eb). destruct (flt (r_pres b) (r_pres x)) eqn:C.
      * apply flt_d in C; [|assumption|assumption]. apply IH; [exact O|apply in_or_app; right; left; reflexivity|]. split; [|congruence]. intros _.
        destruct SB as (u & v & -> & _ & U & V). exists (u ++ b :: v), []. split; [reflexivity|]. split; [exact Ex|]. split; [|intros y []].
        intros y Hy Ey. apply in_app_or in Hy. destruct Hy as [Hy|[<-|Hy]]; [specialize (U y Hy Ey); lra|exact C|specialize (V y Hy Ey); lra].
      * apply flt_dF in C; [|assumption|assumption]. apply IH; [exact O|apply in_or_app; left; exact I|]. split; [|congruence]. intros _.
        destruct SB as (u & v & -> & _ & U & V). exists u, (v ++ [x]). split; [rewrite <- app_assoc; reflexivity|]. split; [exact Eb|]. split; [exact U|].
        intros y Hy Ey. apply in_app_or in Hy. destruct Hy as [Hy|[<-|[]]]; [apply V; assumption|exact C].
    + specialize (SB Eb). apply IH; [exact O|apply in_or_app; left; exact I|]. split; [|congruence]. intros _.
      destruct SB as (u & v & -> & _ & U & V). exists u, (v ++ [x]). split; [rewrite <- app_assoc; reflexivity|]. split; [exact Eb|]. split; [exact U|].
      intros y Hy Ey. apply in_app_or in Hy. destruct Hy as [Hy|[<-|[]]]; [apply V; assumption|congruence].
    + specialize (SN Eb). apply IH; [exact O|apply in_or_app; right; left; reflexivity|]. split; [|congruence]. intros _. exists pre, []. split; [reflexivity|]. split; [exact Ex|]. split; [|intros y []].
      intros y Hy Ey. destruct (SN y Hy Ey).
    + specialize (SN Eb). apply IH; [exact O|apply in_or_app; right; left; reflexivity|]. split; [congruence|]. intros _ y Hy. apply in_app_or in Hy. destruct Hy as [Hy|[<-|[]]]; [apply SN; exact Hy|exact Ex].
Qed.
Lemma best_spec t e : (forall x, In x (t_results t) -> okd (r_pres x)) ->
  (exists b, first_best e (t_results t) b /\ getBestArchitecture t e = r_sizes b /\ getOptimalDropout t e = r_drop b) \/
  ((forall x, In x (t_results t) -> r_env x <> e) /\ getBestArchitecture t e = [t_in t; 128; 64; t_out t]%N /\ getOptimalDropout t e = dlit 5 10).
Proof.
  intros O. unfold getBestArchitecture, getOptimalDropout. destruct (t_results t) as [|r l]; [right; split; [intros x []|split; reflexivity]|].
  assert (S : scanned e ([r] ++ l) (max_scan (worse e) r l)).
  { apply scan_spec; [exact O|left; reflexivity|]. split; [|intros E x [<-|[]]; exact E]. intros E. exists [], []. split; [reflexivity|]. split; [exact E|]. split; intros y []. }
  cbv zeta. destruct S as [S1 S2]. change ([r] ++ l) with (r :: l) in *. destruct (same_env (r_env (max_scan (worse e) r l)) e) eqn:E.
  - left. apply same_env_iff in E. eexists. split; [exact (S1 E)|]. split; reflexivity.
  - right. apply same_env_iffF in E. split; [exact (S2 E)|]. split; reflexivity.
Qed.

(** ** histories *)
Section Hist.
Variables (flog fexp fpow2 : sf -> sf) (noise : N -> sf * sf).
Notation CALL := (call flog fexp fpow2 noise).
Notation CALLS := (calls flog fexp fpow2 noise).
Lemma call_inv t c t' : CALL t c = Ret t' -> (recording c = false /\ t' = t) \/ (recording c = true /\ exists r, t' = record_result t r).
Proof.
  destruct c; cbn [call recording]; intros H.
  - apply obind_ret in H. destruct H as (r & _ & H). injection H as <-. left. split; reflexivity.
  - apply obind_ret in H. destruct H as ([a t1] & M & H). injection H as <-. right. split; [reflexivity|]. destruct (monte_inv _ _ _ _ _ _ _ _ _ _ _ _ _ _ _ M) as (rs & _ & _ & ->). eexists. reflexivity.
  - unfold testWidthRange in H. apply obind_ret in H. destruct H as (r & _ & H). injection H as <-. right. split; [reflexivity|]. exists r. reflexivity.
  - unfold testDropoutRange in H. apply obind_ret in H. destruct H as (r & _ & H). injection H as <-. right. split; [reflexivity|]. exists r. reflexivity.
Qed.
Lemma calls_shape cs : forall t t', CALLS t cs = Ret t' -> exists new, t_results t' = t_results t ++ new /\ length new = length (filter recording cs) /\ t_file t' = t_file t ++ saves (t_results t) new /\
  t_in t' = t_in t /\ t_out t' = t_out t /\ t_data t' = t_data t.
Proof.
  induction cs as [|c cs IH]; intros t t' H; cbn [calls] in H.
  - injection H as <-. exists []. cbn [saves filter length]. rewrite !app_nil_r. repeat split.
  - apply obind_ret in H. destruct H as (t1 & C & H). destruct (IH _ _ H) as (new & R1 & L & F & I1 & I2 & I3). destruct (call_inv _ _ _ C) as [[K ->]|[K [r ->]]]; cbn [filter]; rewrite K.
    + exists new. repeat split; assumption.
    + exists (r :: new). cbn [record_result saveResultsToFile t_results t_file t_in t_out t_data] in *. repeat split; try assumption.
      * rewrite R1, <- app_assoc. reflexivity.
      * cbn [length]. lia.
      * rewrite F. cbn [saves]. rewrite <- app_assoc. reflexivity.
Qed.
Lemma saves_length rest : forall sofar, (2 * length (saves sofar rest) = length rest * (2 * length sofar + length rest + 1))%nat.
Proof.
  induction rest as [|r rest IH]; intros sofar; cbn [saves]; [reflexivity|]. rewrite app_length, map_length, Nat.mul_add_distr_l, IH, !app_length. cbn [length]. nia.
Qed.
End Hist.
