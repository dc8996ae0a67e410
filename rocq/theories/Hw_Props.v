(** C343-C366: hardware accelerators and their integration with software TMR (hw/hardware_acceleration.hpp). *)
From Coq Require Import String List NArith ZArith Bool Reals SpecFloat Lia Lra.
Import ListNotations.
From Flocq Require Import Core.
From Verif Require Import Outcome Words Floats FloatsR FloatsS HealthFloat Bits_Model PNN_Model RMA3_Proofs Hw_Model Hw_Spec Hw_Proofs Hw2_Proofs Hw3_Proofs.
Local Open Scope R_scope.

(** ** a processor for the examples: exp is 1 at 0 and above, 1/10 below 0, 0 at minus infinity *)
Definition step_exp (x : sf) : sf :=
  match x with
  | S754_nan => S754_nan | S754_infinity true => S754_zero false | S754_zero _ | S754_infinity false => dofZ 1
  | S754_finite s _ _ => if s then dlit 1 10 else dofZ 1
  end.
Lemma step_ok : exp_ok step_exp.
Proof.
  split; [|reflexivity]. intros x _ N. unfold is_nan in N. unfold is_double. destruct x as [[]|[]| |[] m e]; try congruence; cbn [step_exp]; split; vm_compute; reflexivity.
Qed.
Lemma step_mono : exp_mono step_exp.
Proof.
  intros x y _ _ H. destruct x as [[]|[]| |[] m e]; destruct y as [[]|[]| |[] m' e']; cbn [step_exp]; try (vm_compute; reflexivity); try discriminate H.
Qed.
Lemma step_one : exp_one step_exp. Proof. intros s. reflexivity. Qed.
Definition fpga0 : acfg := mkA RAD_TOL_FPGA false BLOCK_LEVEL PERIODIC (dofZ 10) (dofZ 5) (dofZ 1) (S754_zero false) (S754_zero false).
Definition full (t : atype) : acfg := mkA t true COMPLETE ADAPTIVE (dofZ 10) (dofZ 5) (dofZ 1) (S754_zero false) (S754_zero false).
Definition bare (t : atype) : acfg := mkA t false NO_TMR NO_SCRUB (dofZ 10) (dofZ 5) (dofZ 1) (S754_zero false) (S754_zero false).

(** ** C343: the score is between 0 and 0.999 *)
Theorem C343_range : forall f a seu, exp_ok f -> is_double seu -> inr 0 (R (dlit 999 1000)) (calculate_reliability f a seu).
Proof. intros f a seu X V. exact (rel_range f X a seu V). Qed.
Example C343_nonvacuous : exp_ok step_exp /\ is_double (dofZ 3) /\ calculate_reliability step_exp (accel_new fpga0) (dofZ 3) <> calculate_reliability step_exp (accel_new fpga0) (dofZ 0).
Proof. split; [exact step_ok|]. split; [vm_compute; reflexivity|]. vm_compute. discriminate. Qed.

(** ** C344: an unknown rate is not scored as the best one *)
Theorem C344_refuted : forall f a b seu, exp_ok f -> is_double seu ->
  calculate_reliability f a S754_nan = dlit 999 1000 /\ R (calculate_reliability f b seu) <= R (calculate_reliability f a S754_nan).
Proof. intros f a b seu X V. assert (K : calculate_reliability f a S754_nan = dlit 999 1000) by exact (rel_nan f X a). split; [exact K|]. rewrite K. exact (proj2 (proj2 (rel_range f X b seu V))). Qed.
Theorem C344_partial : forall f a, f (S754_infinity true) = S754_zero false -> R (calculate_reliability f a (S754_infinity false)) = 0.
Proof.
  intros f a H. rewrite rel_score. unfold env_factor. replace (dmul (dofZ (-10)) (S754_infinity false)) with (S754_infinity true) by (vm_compute; reflexivity). rewrite H.
  destruct (base_ok2 (cfg a)) as [Ob Bb]. destruct (score_val _ (S754_zero false) Ob Bb) as (_ & K & P). { split; [split; [reflexivity|discriminate]|]. cbn. lra. }
  rewrite K in *. cbn [E] in *. change (R (S754_zero false)) with 0 in *. rewrite Rmult_0_r in *. assert (Z0 : rnd64 0 = 0) by (unfold rnd; apply round_0; apply valid_rnd_N). rewrite Z0 in *.
  pose proof BB_pos. destruct cap_ok as [_ C]. unfold clampB. rewrite (Rmin_right BB 0), Rmax_right, Rmin_right by lra. reflexivity.
Qed.
Example C344_nonvacuous : exp_ok step_exp /\ step_exp (S754_infinity true) = S754_zero false /\ calculate_reliability step_exp (accel_new (bare NO_ACCEL)) S754_nan = dlit 999 1000.
Proof. split; [exact step_ok|]. split; [reflexivity|]. vm_compute. reflexivity. Qed.

(** ** C345: a harder environment never scores better *)
Theorem C345_rate : forall f a s t, exp_ok f -> exp_mono f -> is_double s -> is_double t -> fle s t = true ->
  R (calculate_reliability f a t) <= R (calculate_reliability f a s).
Proof. intros f a s t X M Vs Vt L. exact (rel_mono f X a s t M Vs Vt L). Qed.
Example C345_nonvacuous : exp_ok step_exp /\ exp_mono step_exp /\ fle (dofZ 0) (dofZ 3) = true /\
  flt (calculate_reliability step_exp (accel_new fpga0) (dofZ 3)) (calculate_reliability step_exp (accel_new fpga0) (dofZ 0)) = true.
Proof. split; [exact step_ok|]. split; [exact step_mono|]. split; vm_compute; reflexivity. Qed.

(** ** C346: more protection never scores worse *)
Theorem C346_protection : forall f a b seu, exp_ok f -> is_double seu -> at_least (cfg b) (cfg a) ->
  R (calculate_reliability f a seu) <= R (calculate_reliability f b seu).
Proof. intros f a b seu X V L. exact (rel_protection f X a b seu V L). Qed.
Example C346_nonvacuous : at_least (full RAD_TOL_FPGA) fpga0 /\
  flt (calculate_reliability step_exp (accel_new fpga0) (dofZ 3)) (calculate_reliability step_exp (accel_new (full RAD_TOL_FPGA)) (dofZ 3)) = true.
Proof. split; [|vm_compute; reflexivity]. split; [reflexivity|]. split; [reflexivity|]. cbn. lia. Qed.

(** ** C347: what the score depends on *)
Theorem C347_depends : forall f a b seu,
  a_type (cfg a) = a_type (cfg b) -> a_ecc (cfg a) = a_ecc (cfg b) -> a_tmr (cfg a) = a_tmr (cfg b) ->
  (a_type (cfg a) = RAD_TOL_FPGA -> a_scrub (cfg a) = a_scrub (cfg b)) ->
  calculate_reliability f a seu = calculate_reliability f b seu.
Proof.
  intros f a b seu T C M K. unfold calculate_reliability, base_reliability. rewrite <- T, <- C, <- M. destruct (a_type (cfg a)) eqn:Q; try reflexivity. rewrite <- (K eq_refl). reflexivity.
Qed.
Example C347_nonvacuous : exists f a b seu, a_scrub (cfg a) <> a_scrub (cfg b) /\ calculate_reliability f a seu = calculate_reliability f b seu /\ exists a' b', a_type (cfg a') = RAD_TOL_FPGA /\ a_type (cfg b') = RAD_TOL_FPGA /\ a_ecc (cfg a') = a_ecc (cfg b') /\ a_tmr (cfg a') = a_tmr (cfg b') /\ calculate_reliability f a' seu <> calculate_reliability f b' seu.
Proof.
  exists step_exp, (accel_new (with_type RAD_HARD_CPU (full RAD_HARD_CPU))), (accel_new (mkA RAD_HARD_CPU true COMPLETE NO_SCRUB (dofZ 1) (dofZ 5) (dofZ 1) (S754_zero false) (S754_zero false))), (dofZ 3). split; [discriminate|]. split; [reflexivity|].
  exists (accel_new (full RAD_TOL_FPGA)), (accel_new (mkA RAD_TOL_FPGA true COMPLETE NO_SCRUB (dofZ 1) (dofZ 5) (dofZ 1) (S754_zero false) (S754_zero false))). do 4 (split; [reflexivity|]). vm_compute. discriminate.
Qed.

(** ** C348: more protection scores strictly better *)
Theorem C348_refuted : forall f m m', exp_one f ->
  calculate_reliability f (accel_new (mkA RAD_TOL_ASIC true m NO_SCRUB (dofZ 10) (dofZ 5) (dofZ 1) (S754_zero false) (S754_zero false))) (S754_zero false) =
  calculate_reliability f (accel_new (mkA RAD_TOL_ASIC true m' NO_SCRUB (dofZ 10) (dofZ 5) (dofZ 1) (S754_zero false) (S754_zero false))) (S754_zero false).
Proof.
  intros f m m' X. unfold calculate_reliability, env_factor. replace (dmul (dofZ (-10)) (S754_zero false)) with (S754_zero true) by (vm_compute; reflexivity). rewrite X. destruct m, m'; vm_compute; reflexivity.
Qed.
Theorem C348_partial : forall f c d, exp_one f -> a_type c = a_type d -> a_scrub c = a_scrub d -> a_ecc c = false -> a_ecc d = false -> a_tmr c = NO_TMR -> a_tmr d <> NO_TMR ->
  R (calculate_reliability f (accel_new c) (S754_zero false)) < R (calculate_reliability f (accel_new d) (S754_zero false)).
Proof.
  intros f c d X T S1 Ec Ed Tc Td. unfold calculate_reliability, env_factor. replace (dmul (dofZ (-10)) (S754_zero false)) with (S754_zero true) by (vm_compute; reflexivity). rewrite X. cbn [cfg accel_new].
  assert (N1 : nonneg (dofZ 1)). { destruct d1_ok as [O1 E1]. split; [apply okd_dbl, O1|]. rewrite (E_fin _ (proj2 O1)), E1. lra. }
  destruct (base_ok2 c) as [Oc Bc], (base_ok2 d) as [Od Bd]. destruct (score_val _ _ Oc Bc N1) as (Sc & _), (score_val _ _ Od Bd N1) as (Sd & _).
  change (R (score (base_reliability c) (dofZ 1)) < R (score (base_reliability d) (dofZ 1))). apply (flt_d _ _ Sc Sd). clear - T S1 Ec Ed Tc Td. unfold base_reliability. rewrite <- T, <- S1, Ec, Ed, Tc.
  destruct (a_tmr d); try congruence; destruct (a_type c), (a_scrub c); vm_compute; reflexivity.
Qed.
Example C348_nonvacuous : exp_one step_exp /\ COMPLETE <> NO_TMR /\ a_ecc (bare RAD_TOL_ASIC) = false /\ a_tmr (bare RAD_TOL_ASIC) = NO_TMR.
Proof. split; [exact step_one|]. repeat split; discriminate. Qed.

(** ** C349: an accelerator that is not there has no reliability *)
Theorem C349_refuted : forall f c, exp_ok f -> exp_one f -> a_type c = NO_ACCEL ->
  is_available (accel_new c) = false /\ 84 / 100 <= R (calculate_reliability f (accel_new c) (S754_zero false)).
Proof.
  intros f c X X1 T. split; [unfold is_available; cbn; rewrite T; reflexivity|]. unfold calculate_reliability, env_factor. replace (dmul (dofZ (-10)) (S754_zero false)) with (S754_zero true) by (vm_compute; reflexivity). rewrite X1. cbn [cfg accel_new].
  destruct (base_ok c) as [Oc [L _]]. destruct (base_ok2 c) as [_ B2]. destruct d1_ok as [O1 E1]. assert (N1 : nonneg (dofZ 1)) by (split; [apply okd_dbl, O1|rewrite (E_fin _ (proj2 O1)), E1; lra]).
  destruct (score_val _ _ Oc B2 N1) as (_ & K & _). change (84 / 100 <= R (score (base_reliability c) (dofZ 1))). rewrite K. destruct cap_ok as [_ C]. destruct l85 as (_ & _ & L85). apply Rmin_glb; [lra|].
  assert (F1 : fin (dofZ 1) = true) by apply O1. assert (Q : clampB (rnd64 (R (base_reliability c) * E (dofZ 1))) = R (base_reliability c)).
  { rewrite (E_fin _ F1), E1, Rmult_1_r, (rnd_R 53 1024 _ (proj1 Oc)). pose proof BB_pos. unfold clampB. rewrite Rmin_right, Rmax_right by lra. reflexivity. }
  destruct (dofZ 1) eqn:D; try discriminate F1; rewrite Q; lra.
Qed.
Theorem C349_partial : forall f c t seu, exp_ok f -> is_double seu -> a_type c = NO_ACCEL ->
  R (calculate_reliability f (accel_new c) seu) <= R (calculate_reliability f (accel_new (with_type t c)) seu).
Proof.
  intros f c t seu X V T. assert (M : R (base_reliability c) <= R (base_reliability (with_type t c))).
  { apply fle_d; [apply base_ok|apply base_ok|]. unfold base_reliability. cbn [with_type a_type a_ecc a_tmr a_scrub]. rewrite T. destruct t, (a_ecc c), (a_tmr c), (a_scrub c); vm_compute; reflexivity. }
  destruct (base_ok2 c) as [Oa Ba]. destruct (base_ok2 (with_type t c)) as [Ob Bb].
  assert (D : seu = S754_nan \/ dbl seu). { destruct seu as [s|s| |s m e]; [right|right|left; reflexivity|right]; (split; [exact V|discriminate]). }
  destruct D as [->|D]; [rewrite !(rel_nan f X); lra|]. rewrite !rel_score. cbn [cfg accel_new]. apply score_base; try assumption; try lra. apply env_nonneg; assumption.
Qed.
Example C349_nonvacuous : exp_ok step_exp /\ exp_one step_exp /\ a_type default_acfg = NO_ACCEL /\ a_type (with_type RAD_HARD_GPU default_acfg) = RAD_HARD_GPU.
Proof. split; [exact step_ok|]. split; [exact step_one|]. split; reflexivity. Qed.

(** ** C350: an accelerator after any history of calls *)
Theorem C350_history : forall c h input buffer, let a := acall_run (accel_new c) h in
  cfg a = last_config c h /\
  (is_available a = true <-> a_type (last_config c h) <> NO_ACCEL) /\ accel_initialize a = is_available a /\
  base_run a input buffer = (a, buffer, false) /\ trigger_scrubbing a = false.
Proof.
  intros c h input buffer a. destruct (acall_inv h (accel_new c)) as [A _]. fold a in A. cbn [cfg accel_new] in A. split; [exact A|]. split; [rewrite <- A; apply available_spec|]. split; [reflexivity|]. split; reflexivity.
Qed.
Example C350_nonvacuous : last_config default_acfg [AUpdate fpga0; AExec [1%N] [2%N]; AInit; AScrub] = fpga0 /\ is_available (acall_run (accel_new default_acfg) [AUpdate fpga0; AInit]) = true.
Proof. split; reflexivity. Qed.

(** ** C351: errors are counted *)
Theorem C351_refuted : forall c h input buffer, snd (base_run (acall_run (accel_new c) h) input buffer) = false /\
  error_stats (acall_step (acall_run (accel_new c) h) (AExec input buffer)) = (0%N, 0%N, 0%N).
Proof. intros c h input buffer. split; [reflexivity|]. destruct (acall_inv h (accel_new c)) as [_ B]. unfold error_stats, acall_step, base_run. cbn [fst]. rewrite B. reflexivity. Qed.
Theorem C351_partial : forall c h, error_stats (accel_new c) = (0%N, 0%N, 0%N) /\ error_stats (acall_run (accel_new c) h) = error_stats (accel_new c).
Proof. intros c h. split; [reflexivity|]. destruct (acall_inv h (accel_new c)) as [_ B]. unfold error_stats. rewrite B. reflexivity. Qed.
Example C351_nonvacuous : acall_run (accel_new fpga0) [AExec [1%N] [2%N]; AExec [1%N] [2%N]] = accel_new fpga0.
Proof. reflexivity. Qed.

(** ** C352: the factory makes what it is asked for *)
Theorem C352_created : forall t c, let d := cfg (create_accelerator t c) in
  a_type d = t /\ a_ecc d = a_ecc c /\ a_tmr d = a_tmr c /\ a_scrub d = a_scrub c /\ a_interval d = a_interval c /\ a_power d = a_power c /\
  a_perf d = a_perf c /\ a_tol d = a_tol c /\ a_seu d = a_seu c /\ error_stats (create_accelerator t c) = (0%N, 0%N, 0%N).
Proof. intros t c d. repeat split. Qed.
Example C352_nonvacuous : create_accelerator RAD_TOL_ASIC fpga0 <> create_accelerator RAD_HARD_CPU fpga0.
Proof. discriminate. Qed.

(** ** C353: only hardware that was detected can be initialised *)
Theorem C353_refuted : forall t c, t <> NO_ACCEL -> detect_available t = false /\ is_available (create_accelerator t c) = true /\ accel_initialize (create_accelerator t c) = true.
Proof. intros t c N. destruct t; try congruence; repeat split. Qed.
Theorem C353_partial : forall c, detect_available (a_type (cfg (create_best_available c))) = true.
Proof. intros c. reflexivity. Qed.
Example C353_nonvacuous : RAD_HARD_GPU <> NO_ACCEL. Proof. discriminate. Qed.

(** ** C354: the best available accelerator *)
(** the order of preference; NO_ACCEL comes last *)
Definition preference (t : atype) : nat := match t with RAD_TOL_ASIC => 0 | RAD_HARD_GPU => 1 | RAD_TOL_FPGA => 2 | RAD_HARD_CPU => 3 | HYBRID_SYSTEM => 4 | NO_ACCEL => 5 end.
Theorem C354_best : forall c, let a := create_best_available c in
  a = create_accelerator (a_type (cfg a)) c /\
  detect_available (a_type (cfg a)) = true /\ (forall t, detect_available t = true -> (preference (a_type (cfg a)) <= preference t)%nat) /\
  a_type (cfg a) = NO_ACCEL /\ is_available a = false.
Proof. intros c a. split; [reflexivity|]. split; [reflexivity|]. split; [|split; reflexivity]. intros t H. destruct t; try discriminate H. cbn. lia. Qed.
Example C354_nonvacuous : a_type (full RAD_TOL_ASIC) = RAD_TOL_ASIC /\ a_tmr (cfg (create_best_available (full RAD_TOL_ASIC))) = COMPLETE.
Proof. split; reflexivity. Qed.

(** ** C355: an initialised integration can execute *)
Theorem C355_refuted : forall c h, exists i, icall_run (integ_new c) h = Ret i /\ forall input buffer, integ_execute i input buffer = Ret (i, buffer, false).
Proof. intros c h. destruct (new_inv c h) as (i & A & _). exists i. split; [exact A|]. intros. apply integ_exec. Qed.
Theorem C355_partial : forall c h input buffer, exists i r, icall_run (integ_new c) h = Ret i /\ integ_execute i input buffer = Ret r /\ fst (fst r) = i /\ snd (fst r) = buffer.
Proof. intros c h input buffer. destruct (new_inv c h) as (i & A & _). exists i, (i, buffer, false). split; [exact A|]. split; [apply integ_exec|]. split; reflexivity. Qed.
Example C355_nonvacuous : exists i, icall_run (integ_new default_acfg) [IUpdate (full RAD_TOL_ASIC)] = Ret i /\ snd (integ_initialize i) = true.
Proof. eexists. split; reflexivity. Qed.

(** ** C356: when initialize succeeds *)
Theorem C356_initialize : forall c h i, icall_run (integ_new c) h = Ret i ->
  (snd (integ_initialize i) = true <-> a_type (fst (soft_after c h)) <> NO_ACCEL) /\
  ((forall d, ~ In (IUpdate d) h) -> snd (integ_initialize i) = false).
Proof.
  intros c h i H. destruct (new_inv c h) as (j & A & B & _). rewrite H in A. injection A as <-. assert (Bc : cfg (acc i) = fst (soft_after c h)) by (rewrite <- B; reflexivity).
  assert (K : snd (integ_initialize i) = true <-> a_type (fst (soft_after c h)) <> NO_ACCEL) by (rewrite <- Bc; apply available_spec). split; [exact K|]. intros N.
  destruct (snd (integ_initialize i)); [|reflexivity]. exfalso. apply (proj1 K eq_refl). clear - N. unfold soft_after. generalize true. revert N. induction h as [|k h IH]; intros N b; [reflexivity|]. cbn [fold_left].
  assert (N' : forall d, ~ In (IUpdate d) h) by (intros d D; apply (N d); right; exact D). destruct k as [|x u|u|d]; cbn [soft_step fst snd]; try (apply IH; exact N'). exfalso. apply (N d). left. reflexivity.
Qed.
Example C356_nonvacuous : exists i, icall_run (integ_new (full RAD_TOL_ASIC)) [IInit; ISoft true] = Ret i /\ snd (integ_initialize i) = false.
Proof. eexists. split; reflexivity. Qed.

(** ** C357: what decides whether software TMR is used *)
Theorem C357_software : forall c h i, icall_run (integ_new c) h = Ret i -> use_sw i = snd (soft_after c h) /\ cfg (acc i) = fst (soft_after c h).
Proof. intros c h i H. destruct (new_inv c h) as (j & A & B & _). rewrite H in A. injection A as <-. rewrite <- B. split; reflexivity. Qed.
Example C357_nonvacuous : snd (soft_after (full RAD_TOL_ASIC) [IInit]) = false /\ snd (soft_after (full RAD_TOL_ASIC) [IInit; ISoft true]) = true /\ snd (soft_after fpga0 [IInit]) = true.
Proof. repeat split. Qed.

(** ** C358: results are always protected by hardware or by software TMR *)
Theorem C358_refuted : forall c t, a_tmr c = COMPLETE -> t <> NO_ACCEL -> exists i, icall_run (integ_new c) [IInit; IUpdate (bare t); IInit] = Ret i /\
  snd (integ_initialize (integ_new c)) = false /\ snd (integ_initialize i) = true /\ use_sw i = false /\ a_tmr (cfg (acc i)) = NO_TMR.
Proof.
  intros c t C N. destruct (new_inv c [IInit; IUpdate (bare t); IInit]) as (i & A & B & _). exists i. split; [exact A|]. split; [reflexivity|].
  unfold soft_after in B. cbn [fold_left soft_step fst snd] in B. change (a_tmr (with_type NO_ACCEL c)) with (a_tmr c) in B. rewrite C in B. cbn [bare a_tmr] in B.
  assert (Bc : cfg (acc i) = bare t) by congruence. assert (Bs : use_sw i = false) by congruence. split; [apply available_spec; rewrite Bc; exact N|]. split; [exact Bs|]. rewrite Bc. reflexivity.
Qed.
Theorem C358_partial : forall c h i, (forall d, ~ In (IUpdate d) h) -> ~ In (ISoft false) h -> icall_run (integ_new c) h = Ret i ->
  use_sw i = true \/ a_tmr (cfg (acc i)) = COMPLETE.
Proof.
  intros c h i NU NS H. destruct (C357_software c h i H) as [U C]. assert (F : Forall calm h). { apply Forall_forall. intros k K. destruct k as [|x b|[]|d]; try exact I; [exact (NS K)|exact (NU d K)]. }
  destruct (calm_soft c h F) as [A B]. rewrite U, C, A. exact B.
Qed.
Example C358_nonvacuous : exists i, icall_run (integ_new (full RAD_TOL_ASIC)) [IInit; IExec [1%N] [2%N]] = Ret i /\ use_sw i = false /\ a_tmr (cfg (acc i)) = COMPLETE.
Proof. eexists. split; [reflexivity|]. split; reflexivity. Qed.

(** ** C359: software TMR runs any accelerator three times *)
Theorem C359_three : forall (St : Type) (run : St -> list N -> list N -> St * list N * bool) s input buffer o0 k0 o1 k1 o2 k2 s3,
  three_runs run s input buffer = ((o0, k0), (o1, k1), (o2, k2), s3) ->
  (k0 = false \/ k1 = false \/ k2 = false -> tmr_execute run true s input buffer = Ret (s3, buffer, false)) /\
  (k0 = true -> k1 = true -> k2 = true -> (length buffer <= length o0)%nat -> (length buffer <= length o1)%nat -> (length buffer <= length o2)%nat ->
   exists out, tmr_execute run true s input buffer = Ret (s3, out, true) /\ length out = length buffer) /\
  tmr_execute run false s input buffer = Ret (run s input buffer).
Proof.
  intros St run s input buffer o0 k0 o1 k1 o2 k2 s3 H. pose proof (exec_three run s input buffer _ _ _ _ _ _ _ H) as X. split; [|split; [|reflexivity]].
  - intros K. rewrite X. replace (k0 && k1 && k2)%bool with false; [reflexivity|]. destruct k0, k1, k2; try reflexivity. destruct K as [K|[K|K]]; discriminate K.
  - intros -> -> -> L0 L1 L2. cbn [andb] in X. destruct (vote_from_ok o0 o1 o2 buffer 0 L0 L1 L2) as (out & Ho & Lo & _). rewrite X, Ho. cbn [obind]. eauto.
Qed.
(** an accelerator with a counter that fails on its second run, and one that flips its second answer *)
Definition flaky (s : nat) (input buffer : list N) : nat * list N * bool := (S s, input, negb (Nat.eqb s 1)).
Definition upset (s : nat) (input buffer : list N) : nat * list N * bool := (S s, if Nat.eqb s 1 then [7%N; 8%N] else input, true).
Example C359_nonvacuous : tmr_execute flaky true 0%nat [5%N; 6%N] [1%N; 2%N] = Ret (3%nat, [1%N; 2%N], false) /\ tmr_execute flaky true 2%nat [5%N; 6%N] [1%N; 2%N] = Ret (5%nat, [5%N; 6%N], true).
Proof. split; vm_compute; reflexivity. Qed.

(** ** C360: one faulty run is outvoted *)
Theorem C360_majority : forall (St : Type) (run : St -> list N -> list N -> St * list N * bool) s input buffer o0 o1 o2 s3 x y z good,
  three_runs run s input buffer = ((o0, true), (o1, true), (o2, true), s3) ->
  (o0, o1, o2) = (x, y, z) \/ (o0, o1, o2) = (x, z, y) \/ (o0, o1, o2) = (z, x, y) ->
  length good = length buffer -> length z = length buffer -> same_floats x good -> same_floats y good ->
  exists out, tmr_execute run true s input buffer = Ret (s3, out, true) /\ same_floats out good.
Proof.
  intros St run s input buffer o0 o1 o2 s3 x y z good H P Lg Lz Sx Sy. pose proof (exec_three run s input buffer _ _ _ _ _ _ _ H) as X. cbn [andb] in X.
  assert (Lx : length x = length buffer) by (rewrite <- Lg; exact (forall2_len _ _ _ Sx)). assert (Ly : length y = length buffer) by (rewrite <- Lg; exact (forall2_len _ _ _ Sy)).
  destruct (vote_from_ok o0 o1 o2 buffer 0) as (out & Ho & Lo & No); [destruct P as [P|[P|P]]; injection P as -> -> ->; cbn; lia..|].
  exists out. rewrite X, Ho. split; [reflexivity|]. apply forall2_nth; [lia|]. intros k K. rewrite No by lia. cbn [Nat.add].
  pose proof (forall2_get _ _ _ Sx k ltac:(lia)) as Gx. pose proof (forall2_get _ _ _ Sy k ltac:(lia)) as Gy. pose proof (same_trans _ _ _ Gx (same_sym _ _ Gy)) as Gxy.
  eapply same_trans; [|exact Gx]. apply (vote_pair _ _ _ (nth k x 0%N) (nth k y 0%N) (nth k z 0%N)); [|exact Gxy]. destruct P as [P|[P|P]]; injection P as -> -> ->; auto.
Qed.
Example C360_nonvacuous : tmr_execute upset true 0%nat [5%N; 6%N] [1%N; 2%N] = Ret (3%nat, [5%N; 6%N], true) /\ same_floats [5%N; 6%N] [5%N; 6%N].
Proof. split; [vm_compute; reflexivity|]. repeat constructor. Qed.

(** ** C361: without a majority the answer is the mean *)
Theorem C361_refuted : exists a b c, finite32 a /\ finite32 b /\ finite32 c /\ no_pair a b c /\ sf32 (vote3 a b c) = S754_infinity false.
Proof.
  exists 2139095039%N, 2139095038%N, 2139095037%N. do 3 (split; [vm_compute; reflexivity|]). split; [|vm_compute; reflexivity]. unfold no_pair, same_float. split; [|split]; vm_compute; discriminate.
Qed.
Theorem C361_partial : forall a b c M, no_pair a b c -> finite32 a -> finite32 b -> finite32 c ->
  Rabs (num a) <= M -> Rabs (num b) <= M -> Rabs (num c) <= M -> M <= bpow radix2 98 ->
  finite32 (vote3 a b c) /\ Rabs (num (vote3 a b c) - (num a + num b + num c) / 3) <= 3 * M * / 16777216 + bpow radix2 (-148).
Proof. exact vote_mean. Qed.
Example C361_nonvacuous : no_pair 1065353216 1073741824 1077936128 /\ finite32 1065353216 /\ vote3 1065353216 1073741824 1077936128 = 1073741824%N.
Proof. split; [unfold no_pair, same_float; split; [|split]; vm_compute; discriminate|]. split; vm_compute; reflexivity. Qed.

(** ** C362: NaN in the answers *)
Theorem C362_nan : forall a b c,
  (no_pair a b c -> (~ not_nan a \/ ~ not_nan b \/ ~ not_nan c) -> ~ not_nan (vote3 a b c)) /\
  ((~ not_nan a /\ ~ not_nan b) \/ (~ not_nan a /\ ~ not_nan c) \/ (~ not_nan b /\ ~ not_nan c) -> ~ not_nan (vote3 a b c)) /\
  (same_float a b \/ same_float a c \/ same_float b c -> not_nan (vote3 a b c)).
Proof.
  intros a b c. assert (D : forall x, ~ not_nan x -> sf32 x = S754_nan). { intros x H. unfold not_nan in H. destruct (sf32 x); try reflexivity; exfalso; apply H; discriminate. }
  assert (P1 : no_pair a b c -> (~ not_nan a \/ ~ not_nan b \/ ~ not_nan c) -> ~ not_nan (vote3 a b c)).
  { intros N H Q. apply Q. apply vote_nan; [exact N|]. destruct H as [H|[H|H]]; apply D in H; auto. }
  split; [exact P1|]. split.
  - intros H. apply P1; [|tauto]. destruct H as [[H1 H2]|[[H1 H2]|[H1 H2]]]; apply D in H1; apply D in H2; split; [|split| |split| |split]; apply nan_not_same; auto.
  - intros H. assert (G : forall x y z, (a, b, c) = (x, y, z) \/ (a, b, c) = (x, z, y) \/ (a, b, c) = (z, x, y) -> same_float x y -> not_nan (vote3 a b c)).
    { intros x y z P S1. destruct (vote_pair a b c x y z P S1) as [_ Q]. apply same_num in Q. apply Q. }
    destruct H as [H|[H|H]]; [apply (G a b c)|apply (G a c b)|apply (G b c a)]; auto.
Qed.
Example C362_nonvacuous : ~ not_nan 2143289344 /\ vote3 2143289344 1065353216 1065353216 = 1065353216%N /\ ~ not_nan (vote3 2143289344 2143289344 1065353216).
Proof. split; [|split]; [intros H; apply H; vm_compute; reflexivity|vm_compute; reflexivity|intros H; apply H; vm_compute; reflexivity]. Qed.

(** ** C363: execute stays within its buffers whatever the accelerator answers *)
Theorem C363_refuted : forall (St : Type) (run : St -> list N -> list N -> St * list N * bool) s input buffer o0 o1 o2 s3,
  three_runs run s input buffer = ((o0, true), (o1, true), (o2, true), s3) ->
  (length o0 < length buffer \/ length o1 < length buffer \/ length o2 < length buffer)%nat ->
  tmr_execute run true s input buffer = UB UB_array_index.
Proof.
  intros St run s input buffer o0 o1 o2 s3 H L. rewrite (exec_three run s input buffer _ _ _ _ _ _ _ H). cbn [andb]. rewrite vote_from_short by lia. reflexivity.
Qed.
Theorem C363_partial : forall (St : Type) (run : St -> list N -> list N -> St * list N * bool) s input buffer,
  (forall t i b, length b <= length (snd (fst (run t i b))))%nat -> exists r, tmr_execute run true s input buffer = Ret r /\ length (snd (fst r)) = length buffer.
Proof.
  intros St run s input buffer K. destruct (three_runs run s input buffer) as [[[[o0 k0] [o1 k1]] [o2 k2]] s3] eqn:H.
  assert (L : (length buffer <= length o0 /\ length buffer <= length o1 /\ length buffer <= length o2)%nat).
  { unfold three_runs in H. destruct (run s input (repeat 0%N (length buffer))) as [[s1 p0] q0] eqn:R0. destruct (run s1 input (repeat 0%N (length buffer))) as [[s2 p1] q1] eqn:R1. destruct (run s2 input (repeat 0%N (length buffer))) as [[s4 p2] q2] eqn:R2.
    pose proof (K s input (repeat 0%N (length buffer))) as K0. pose proof (K s1 input (repeat 0%N (length buffer))) as K1. pose proof (K s2 input (repeat 0%N (length buffer))) as K2. rewrite R0 in K0. rewrite R1 in K1. rewrite R2 in K2. cbn [fst snd] in K0, K1, K2. rewrite repeat_length in K0, K1, K2.
    injection H as <- <- <- <- <- <- <-. auto. }
  rewrite (exec_three run s input buffer _ _ _ _ _ _ _ H). destruct (k0 && k1 && k2)%bool; [|eexists; split; [reflexivity|reflexivity]].
  destruct (vote_from_ok o0 o1 o2 buffer 0) as (out & Ho & Lo & _); try (cbn; lia). rewrite Ho. cbn [obind]. eexists. split; [reflexivity|]. exact Lo.
Qed.
Definition shrink (s : unit) (input buffer : list N) : unit * list N * bool := (s, input, true).
Example C363_nonvacuous : three_runs shrink tt [5%N] [1%N; 2%N] = (([5%N], true), ([5%N], true), ([5%N], true), tt) /\ tmr_execute shrink true tt [5%N] [1%N; 2%N] = UB UB_array_index.
Proof. split; vm_compute; reflexivity. Qed.

(** ** C364: the combined score *)
Theorem C364_system : forall f i seu, exp_ok f -> is_double seu -> let p := calculate_reliability f (acc i) seu in
  inr 0 1 (system_reliability f i seu) /\
  (use_sw i = false -> system_reliability f i seu = p) /\
  (use_sw i = true -> Rabs (R (system_reliability f i seu) - (3 * R p * R p - 2 * R p * R p * R p)) <= / 1000000000000).
Proof.
  intros f i seu X V p. pose proof (rel_range f X (acc i) seu V) as B. fold p in B. destruct cap_ok as [_ C]. unfold system_reliability. fold p. split; [|split].
  - destruct (use_sw i); [apply two_three_range; exact B|]. destruct B as [O B]. split; [exact O|lra].
  - intros ->. reflexivity.
  - intros ->. destruct (two_three p) as (_ & _ & Q); [destruct B as [O B]; split; [exact O|lra]|]. exact Q.
Qed.
Example C364_nonvacuous : exp_ok step_exp /\ use_sw (integ_new fpga0) = true /\ flt (system_reliability step_exp (integ_new fpga0) (dofZ 3)) (dlit 3 100) = true.
Proof. split; [exact step_ok|]. split; [reflexivity|]. vm_compute. reflexivity. Qed.

(** ** C365: software TMR never lowers the score *)
Theorem C365_refuted : forall f i seu, exp_ok f -> is_double seu -> / 1000000 <= R (calculate_reliability f (acc i) seu) <= 499 / 1000 ->
  R (system_reliability f (set_software_tmr i true) seu) < R (system_reliability f (set_software_tmr i false) seu).
Proof. intros f i seu X V B. apply (two_three_worse _ (rel_range f X (acc i) seu V) B). Qed.
Theorem C365_partial : forall f i seu, exp_ok f -> is_double seu -> 501 / 1000 <= R (calculate_reliability f (acc i) seu) ->
  R (system_reliability f (set_software_tmr i false) seu) < R (system_reliability f (set_software_tmr i true) seu).
Proof. intros f i seu X V B. apply (two_three_better _ (rel_range f X (acc i) seu V) B). Qed.
Example C365_nonvacuous : flt (system_reliability step_exp (set_software_tmr (integ_new fpga0) true) (dofZ 3)) (system_reliability step_exp (set_software_tmr (integ_new fpga0) false) (dofZ 3)) = true /\
  flt (dlit 1 1000000) (calculate_reliability step_exp (acc (integ_new fpga0)) (dofZ 3)) = true /\ flt (calculate_reliability step_exp (acc (integ_new fpga0)) (dofZ 3)) (dlit 499 1000) = true /\
  flt (dlit 501 1000) (calculate_reliability step_exp (acc (integ_new fpga0)) (dofZ 0)) = true.
Proof. split; [|split; [|split]]; vm_compute; reflexivity. Qed.

(** ** C366: the diagnostics tell the protection *)
Theorem C366_diagnostics : forall show show_n i j, integ_diagnostics show show_n i = integ_diagnostics show show_n j ->
  use_sw i = use_sw j /\ a_type (cfg (acc i)) = a_type (cfg (acc j)) /\ a_ecc (cfg (acc i)) = a_ecc (cfg (acc j)) /\
  a_tmr (cfg (acc i)) = a_tmr (cfg (acc j)) /\ a_scrub (cfg (acc i)) = a_scrub (cfg (acc j)).
Proof. intros show show_n i j H. apply integ_diag_identifies in H as [A B]. split; [exact A|]. exact (diag_identifies show show_n _ _ B). Qed.
Example C366_nonvacuous : integ_diagnostics (fun _ => "1"%string) (fun _ => "0"%string) (integ_new fpga0) = integ_diagnostics (fun _ => "1"%string) (fun _ => "0"%string) (integ_new (with_type RAD_TOL_ASIC fpga0)).
Proof. reflexivity. Qed.
Print Assumptions C343_range.
Print Assumptions C344_refuted.
Print Assumptions C344_partial.
Print Assumptions C345_rate.
Print Assumptions C346_protection.
Print Assumptions C347_depends.
Print Assumptions C348_refuted.
Print Assumptions C348_partial.
Print Assumptions C349_refuted.
Print Assumptions C349_partial.
Print Assumptions C350_history.
Print Assumptions C351_refuted.
Print Assumptions C351_partial.
Print Assumptions C352_created.
Print Assumptions C353_refuted.
Print Assumptions C353_partial.
Print Assumptions C354_best.
Print Assumptions C355_refuted.
Print Assumptions C355_partial.
Print Assumptions C356_initialize.
Print Assumptions C357_software.
Print Assumptions C358_refuted.
Print Assumptions C358_partial.
Print Assumptions C359_three.
Print Assumptions C360_majority.
Print Assumptions C361_refuted.
Print Assumptions C361_partial.
Print Assumptions C362_nan.
Print Assumptions C363_refuted.
Print Assumptions C363_partial.
Print Assumptions C364_system.
Print Assumptions C365_refuted.
Print Assumptions C365_partial.
Print Assumptions C366_diagnostics.
