(** C301-C316: AutoArchSearch (research/auto_arch_search). *)
From Coq Require Import List NArith ZArith Bool Reals SpecFloat Lia Lra Sorting.Sorted.
Import ListNotations.
From Verif Require Import Outcome Words Floats FloatsR HealthFloat Bits_Model PNN_Model Train_Model RMA3_Proofs Tester_Model Tester_Spec Tester_Proofs Search_Model Search_Spec.
From Verif Require Import Search_Proofs Search2_Proofs Search3_Proofs Search4_Proofs Search5_Proofs Tester_Props.
Local Open Scope N_scope.

(** ** a search for the examples *)
Definition half : sf := dlit 5 10.
Definition third : sf := dlit 3 10.
Lemma sep2 : separated [half; third].
Proof.
  split.
  - constructor; [exact half_ok|]. constructor; [apply lit_inr; [vm_compute; reflexivity|vm_compute; reflexivity|lia|lia]|constructor].
  - intros a b [<-|[<-|[]]] [<-|[<-|[]]]; try (left; reflexivity); right; vm_compute; reflexivity.
Qed.
Lemma sep1 : separated [half].
Proof. split; [constructor; [exact half_ok|constructor]|]. intros a b [<-|[]] [<-|[]]. left. reflexivity. Qed.
Definition srch0 : srch := mkS ds0 MARS [8; 16] [half; third] [NONE_; FULL_TMR] 4 2 0 true (tester_new ds0 4 2 None) [] [TLine Header].
Lemma srch0_ok : tested_ok srch0. Proof. split; [constructor|intros c r []]. Qed.
Lemma lib0 : lib_ok log4 exp6 sq calm_noise. Proof. exact (conj log4_ok (conj exp6_ok (conj calm_ok sq_ok))). Qed.
Lemma srch0_small c : random_member srch0 c -> testable c.
Proof.
  intros (h & (E & F & _) & H & _). specialize (H eq_refl). unfold testable, moderate. rewrite E.
  destruct h as [|a [|b [|d [|e h]]]]; cbn [length] in H; try lia; repeat match goal with H : Forall _ (_ :: _) |- _ => inversion H; clear H; subst end;
    repeat match goal with H : In _ (s_widths srch0) |- _ => cbn in H; destruct H as [<-|[<-|[]]] end; split; vm_compute; (reflexivity || discriminate).
Qed.
Lemma srch0_grid c : grid_member srch0 c -> testable c.
Proof.
  intros (h & B & H & _ & R). apply srch0_small. exists h. split; [exact B|]. destruct (H eq_refl) as [(w & ->)|(w1 & w2 & -> & _)]; cbn; (split; [lia|split; [congruence|intros E; apply R; exact E]]).
Qed.
Definition s_one : srch := mkS ds0 MARS [8] [half] [NONE_; FULL_TMR] 4 2 1 false (tester_new ds0 4 2 None) [] [TLine Header].
Definition zeros : nat -> N := fun _ => 0.
Definition count_up : nat -> N := fun i => N.of_nat i * 7 + N.of_nat i / 3.

(** ** C301: configurations are ordered *)
Definition cyc_a := mkNC [4; 8; 2] (dofZ 0) true CHECKSUM_ONLY.
Definition cyc_b := mkNC [4; 8; 2] (dlit 1 1000000) false NONE_.
Definition cyc_c := mkNC [4; 8; 2] (dlit 5 10000000) true NONE_.
Theorem C301_refuted : exists a b c, inr 0 1 (n_drop a) /\ inr 0 1 (n_drop b) /\ inr 0 1 (n_drop c) /\ cfg_lt a b = true /\ cfg_lt b c = true /\ cfg_lt c a = true.
Proof.
  exists cyc_a, cyc_b, cyc_c. split; [destruct d0 as [O E]; split; [exact O|change (n_drop cyc_a) with (dofZ 0); rewrite E; lra]|].
  split; [apply lit_inr; [vm_compute; reflexivity|vm_compute; reflexivity|lia|lia]|]. split; [apply lit_inr; [vm_compute; reflexivity|vm_compute; reflexivity|lia|lia]|]. split; [|split]; vm_compute; reflexivity.
Qed.
Theorem C301_partial : forall ds, separated ds ->
  (forall a, In (n_drop a) ds -> cfg_lt a a = false) /\
  (forall a b c, In (n_drop a) ds -> In (n_drop b) ds -> In (n_drop c) ds -> cfg_lt a b = true -> cfg_lt b c = true -> cfg_lt a c = true) /\
  (forall a b, In (n_drop a) ds -> In (n_drop b) ds -> a <> b -> cfg_lt a b = true \/ cfg_lt b a = true).
Proof.
  intros ds S. split; [intros; apply (cfg_lt_irrefl ds S); assumption|]. split; [intros a b c; apply (cfg_lt_trans ds S)|].
  intros a b A B NE. destruct (cfg_lt a b) eqn:E; [left; reflexivity|]. destruct (cfg_lt b a) eqn:F; [right; reflexivity|]. exfalso. exact (NE (cfg_lt_total ds S a b A B E F)).
Qed.
Example C301_nonvacuous : separated [half; third] /\ cfg_lt (mkNC [4; 8; 2] third true FULL_TMR) (mkNC [4; 8; 2] half false NONE_) = true.
Proof. split; [exact sep2|vm_compute; reflexivity]. Qed.

(** ** C302: == agrees with < *)
Theorem C302_refuted : exists a, cfg_eq a a = false /\ cfg_lt a a = false.
Proof. exists (mkNC [4; 8; 2] S754_nan false NONE_). split; vm_compute; reflexivity. Qed.
Theorem C302_partial : forall a b, inr 0 1 (n_drop a) -> inr 0 1 (n_drop b) -> (cfg_eq a b = true <-> cfg_lt a b = false /\ cfg_lt b a = false).
Proof. exact cfg_eq_lt. Qed.
Theorem C302_separated : forall ds a b, separated ds -> In (n_drop a) ds -> In (n_drop b) ds -> (cfg_eq a b = true <-> a = b).
Proof.
  intros ds a b S A B. rewrite (cfg_eq_lt a b (drop_ok ds S _ A) (drop_ok ds S _ B)). split; [intros [E F]; exact (cfg_lt_total ds S a b A B E F)|intros <-; split; apply (cfg_lt_irrefl ds S); exact A].
Qed.
Example C302_nonvacuous : cfg_eq cyc_b cyc_c = false /\ cfg_eq cyc_b (mkNC [4; 8; 2] (dlit 5 10000000) false NONE_) = true /\ cfg_eq (mkNC [4; 8; 2] half true FULL_TMR) (mkNC [4; 8; 2] half true FULL_TMR) = true.
Proof. vm_compute. auto. Qed.

(** ** C303: the grid *)
Theorem C303_grid : forall s c, In c (generateAllConfigs s) <-> grid_member s c.
Proof. exact grid_in. Qed.
Theorem C303_once : forall s, NoDup (s_widths s) -> NoDup (s_drops s) -> NoDup (s_levels s) -> NoDup (generateAllConfigs s).
Proof. exact grid_nodup. Qed.
Theorem C303_count_free : forall s, s_fixed s = O -> NoDup (s_widths s) -> let n := length (s_widths s) in
  length (generateAllConfigs s) = (length (s_drops s) * length (s_levels s) * (n + n * (n - 1) * (if s_resid s then 2 else 1)))%nat.
Proof. exact grid_count_free. Qed.
Theorem C303_count_fixed : forall s, s_fixed s <> O ->
  length (generateAllConfigs s) = (length (s_drops s) * length (s_levels s) * length (s_widths s) ^ s_fixed s * (if s_resid s && Nat.leb 2 (s_fixed s) then 2 else 1))%nat.
Proof. exact grid_count_fixed. Qed.
Example C303_nonvacuous : length (generateAllConfigs srch0) = 24%nat /\ NoDup (s_widths srch0) /\ length (generateAllConfigs (setFixedParameters srch0 3 1 3)) = 64%nat.
Proof. split; [vm_compute; reflexivity|]. split; [|vm_compute; reflexivity]. constructor; [intros [E|[]]; discriminate E|]. constructor; [intros []|constructor]. Qed.

(** ** C304: random configurations, and whether the grid has them *)
Theorem C304_valid : forall ints s pos g, random_config ints s pos = Ret g -> random_member s (fst g).
Proof. exact random_valid. Qed.
Theorem C304_all : forall s c pos, random_member s c -> exists ints g, random_config ints s pos = Ret g /\ fst g = c.
Proof. exact random_complete. Qed.
Theorem C304_grid_refuted : forall s w d l, s_fixed s = O -> In w (s_widths s) -> In d (s_drops s) -> In l (s_levels s) -> exists c, random_member s c /\ ~ In c (generateAllConfigs s).
Proof.
  intros s w d l F W D L. exists (mkNC ([s_in s] ++ [w; w; w] ++ [s_out s]) d false l). split.
  - exists [w; w; w]. split; [split; [reflexivity|]; split; [repeat constructor; exact W|]; split; assumption|]. cbn [length n_resid]. split; [intros _; lia|]. split; [congruence|discriminate].
  - intros H. apply grid_in in H. destruct H as (h & (E & _) & H & _). cbn [n_sizes] in E. apply wrap_inj in E. subst h. destruct (H F) as [(v & E)|(v1 & v2 & E & _)]; discriminate E.
Qed.
Theorem C304_partial : forall s c, (2 <= s_fixed s)%nat -> (In c (generateAllConfigs s) <-> random_member s c).
Proof.
  intros s c F. rewrite grid_in. split; intros (h & B & H0 & H1 & H2); exists h; (split; [exact B|]).
  - split; [intros E; lia|]. split; [exact H1|]. intros R. apply H2, R.
  - split; [intros E; lia|]. split; [exact H1|]. intros R. split; [exact (H2 R)|]. rewrite H1 by lia. exact F.
Qed.
Example C304_nonvacuous : exists g, random_config count_up srch0 1 = Ret g /\ fst g = mkNC [4; 8; 8; 2] third false NONE_.
Proof. eexists. split; vm_compute; reflexivity. Qed.

(** ** C305: grid search *)
Theorem C305_best : forall flog fexp fpow2 noise s mc a s', lib_ok flog fexp fpow2 noise -> separated (s_drops s) -> trials_ok mc -> tested_ok s ->
  findOptimalArchitecture flog fexp fpow2 noise s mc = Ret (a, s') ->
  (exists r, first_winner (tests_to flog fexp fpow2 noise (s_env s) mc) (generateAllConfigs s) (sr_cfg a) r /\ reports a r) /\
  sr_iter a = N.of_nat (length (generateAllConfigs s)) /\ same_setup s s'.
Proof. intros flog fexp fpow2 noise s mc a s' LB SEP T K H. destruct (find_inv _ _ _ _ LB _ _ _ _ SEP T K H) as (SS & _ & W & I & _). auto. Qed.
Theorem C305_completes : forall flog fexp fpow2 noise s mc, lib_ok flog fexp fpow2 noise -> separated (s_drops s) -> trials_ok mc -> tested_ok s ->
  (forall c, grid_member s c -> testable c) -> (exists c, grid_member s c) -> completes (findOptimalArchitecture flog fexp fpow2 noise s mc).
Proof.
  intros flog fexp fpow2 noise s mc LB SEP T K A [c C]. apply find_defined; try assumption. intros E. apply grid_in in C. rewrite E in C. destruct C.
Qed.
Example C305_nonvacuous : exists x, findOptimalArchitecture log4 exp6 sq calm_noise srch0 (Some 2%nat) = Ret x /\ sr_cfg (fst x) = mkNC [4; 8; 16; 2] third true FULL_TMR /\ sr_iter (fst x) = 24 /\ (forall c, grid_member srch0 c -> testable c).
Proof. eexists. split; [vm_compute; reflexivity|]. split; [vm_compute; reflexivity|]. split; [vm_compute; reflexivity|exact srch0_grid]. Qed.

(** ** C306: a search always answers *)
Theorem C306_empty_refuted : forall flog fexp fpow2 noise s mc, (forall c, ~ grid_member s c) -> findOptimalArchitecture flog fexp fpow2 noise s mc = UB UB_uninit.
Proof. intros flog fexp fpow2 noise s mc H. apply find_no_configs. destruct (generateAllConfigs s) as [|c l] eqn:E; [reflexivity|]. exfalso. apply (H c). apply grid_in. rewrite E. left. reflexivity. Qed.
Theorem C306_no_trials_refuted : forall flog fexp fpow2 noise s, findOptimalArchitecture flog fexp fpow2 noise s (Some O) = UB UB_uninit.
Proof. exact find_no_trials. Qed.
Theorem C306_no_iterations_refuted : forall flog fexp fpow2 noise ints fuel s mc pos, randomSearch flog fexp fpow2 noise ints (S fuel) s 0 mc pos = UB UB_uninit.
Proof. exact random_zero. Qed.
Theorem C306_no_options_refuted : forall flog fexp fpow2 noise ints fuel s max mc pos, s_widths s = [] -> 0 < max -> randomSearch flog fexp fpow2 noise ints (S fuel) s max mc pos = UB UB_array_index.
Proof.
  intros flog fexp fpow2 noise ints fuel s max mc pos W M. unfold randomSearch. cbn [random_loop]. replace (0 <? max) with true by (symmetry; apply N.ltb_lt; exact M). unfold random_config. rewrite W.
  destruct (s_fixed s) as [|k]; cbn [choose_many]; rewrite choose_empty; reflexivity.
Qed.
Example C306_nonvacuous : forall c, ~ grid_member (setProtectionLevels srch0 []) c.
Proof. intros c (h & (_ & _ & _ & L) & _). exact L. Qed.

(** ** C307: what is known after a grid search *)
Theorem C307_tested : forall flog fexp fpow2 noise s mc a s', lib_ok flog fexp fpow2 noise -> separated (s_drops s) -> trials_ok mc -> tested_ok s ->
  findOptimalArchitecture flog fexp fpow2 noise s mc = Ret (a, s') ->
  forall c r, In (c, r) (s_tested s') <-> (grid_member s c /\ tests_to flog fexp fpow2 noise (s_env s) mc c r) \/ (~ grid_member s c /\ In (c, r) (s_tested s)).
Proof. intros flog fexp fpow2 noise s mc a s' LB SEP T K H c r. destruct (find_inv _ _ _ _ LB _ _ _ _ SEP T K H) as (_ & _ & _ & _ & M & _). rewrite M, grid_in. reflexivity. Qed.
Example C307_nonvacuous : exists x, findOptimalArchitecture log4 exp6 sq calm_noise srch0 None = Ret x /\ length (s_tested (snd x)) = 24%nat.
Proof. eexists. split; vm_compute; reflexivity. Qed.

(** ** C308: random search *)
Theorem C308_random : forall flog fexp fpow2 noise ints fuel s max mc pos a s', lib_ok flog fexp fpow2 noise -> separated (s_drops s) -> trials_ok mc -> tested_ok s ->
  randomSearch flog fexp fpow2 noise ints fuel s max mc pos = Ret (a, s') ->
  exists new, NoDup new /\ N.of_nat (length new) = max /\ (forall c, In c new -> random_member s c /\ ~ In c (keys s)) /\
  (exists r, first_winner (tests_to flog fexp fpow2 noise (s_env s) mc) new (sr_cfg a) r /\ reports a r) /\ sr_iter a = max /\ same_setup s s' /\
  (forall c r, In (c, r) (s_tested s') <-> In (c, r) (s_tested s) \/ (In c new /\ tests_to flog fexp fpow2 noise (s_env s) mc c r)).
Proof.
  intros flog fexp fpow2 noise ints fuel s max mc pos a s' LB SEP T K H. destruct (random_inv _ _ _ _ LB _ _ _ _ _ _ _ _ SEP T K H) as (new & (SS & _ & M & ND & NW & _) & RM & L & W & I & _).
  exists new. split; [exact ND|]. split; [exact L|]. split; [intros c C; split; [exact (RM c C)|apply (NW c C)]|]. auto.
Qed.
Example C308_nonvacuous : exists x, randomSearch log4 exp6 sq calm_noise count_up 30 srch0 5 None 0 = Ret x /\ sr_iter (fst x) = 5 /\ length (s_tested (snd x)) = 5%nat /\ n_prot (sr_cfg (fst x)) = FULL_TMR.
Proof. eexists. split; [|split; [|split]]; vm_compute; reflexivity. Qed.

(** ** C309: random search ends *)
Theorem C309_hangs_refuted : forall flog fexp fpow2 noise ints s max mc pos untested, lib_ok flog fexp fpow2 noise -> separated (s_drops s) -> trials_ok mc -> tested_ok s ->
  s_widths s <> [] -> s_drops s <> [] -> s_levels s <> [] -> (forall c, random_member s c -> testable c) ->
  (forall c, random_member s c -> ~ In c (keys s) -> In c untested) -> N.of_nat (length untested) < max -> forall fuel, randomSearch flog fexp fpow2 noise ints fuel s max mc pos = OutOfFuel.
Proof. intros. eapply random_hangs; eassumption. Qed.
Lemma s_one_configs c : random_member s_one c -> In c [mkNC [4; 8; 2] half false NONE_; mkNC [4; 8; 2] half false FULL_TMR].
Proof.
  intros (h & (E & F & D & L) & _ & H & R). specialize (H ltac:(discriminate)). destruct h as [|w [|v h]]; try discriminate H. inversion F as [|? ? W _]; subst. cbn in W, D, L. destruct W as [<-|[]], D as [D|[]]. destruct c as [a1 a2 a3 a4]. cbn [n_sizes n_drop n_resid n_prot] in *. subst a1 a2. destruct a3; [discriminate (R eq_refl)|]. destruct L as [<-|[<-|[]]]; [left; reflexivity|right; left; reflexivity].
Qed.
Example C309_nonvacuous : forall ints fuel, randomSearch log4 exp6 sq calm_noise ints fuel s_one 3 None 0 = OutOfFuel.
Proof.
  intros ints fuel. apply (C309_hangs_refuted _ _ _ _ _ _ _ _ _ [mkNC [4; 8; 2] half false NONE_; mkNC [4; 8; 2] half false FULL_TMR] lib0); try discriminate; try exact I; try reflexivity.
  - exact sep1.
  - split; [constructor|intros c r []].
  - intros c C. apply s_one_configs in C. destruct C as [<-|[<-|[]]]; split; vm_compute; (reflexivity || discriminate).
  - intros c C _. apply s_one_configs. exact C.
Qed.

(** ** C310: the answer is the best of all that has been tested *)
Definition s_two : srch := match randomSearch log4 exp6 sq calm_noise (fun _ => 1) 5 s_one 1 None 0 with Ret y => snd y | _ => s_one end.
Definition good : ncfg := mkNC [4; 8; 2] half false FULL_TMR.
Theorem C310_refuted : exists s, lib_ok log4 exp6 sq calm_noise /\ separated (s_drops s) /\ tested_ok s /\ exists x c r, randomSearch log4 exp6 sq calm_noise zeros 5 s 1 None 0 = Ret x /\ In (c, r) (s_tested s) /\ random_member s c /\ flt (sr_pres (fst x)) (r_pres r) = true.
Proof.
  assert (Y : exists a, randomSearch log4 exp6 sq calm_noise (fun _ => 1) 5 s_one 1 None 0 = Ret (a, s_two)) by (eexists; vm_compute; reflexivity). destruct Y as [a Y]. exists s_two.
  assert (K1 : tested_ok s_one) by (split; [constructor|intros c r []]).
  destruct (random_inv log4 exp6 sq calm_noise lib0 (fun _ => 1) 5 s_one 1 None 0 a s_two sep1 I K1 Y) as (new & (SS & K2 & _) & _). split; [exact lib0|]. split; [rewrite (proj1 (proj2 (proj2 SS))); exact sep1|]. split; [exact K2|].
  assert (X : exists x, randomSearch log4 exp6 sq calm_noise zeros 5 s_two 1 None 0 = Ret x /\ exists r, map_find good (s_tested s_two) = Some r /\ flt (sr_pres (fst x)) (r_pres r) = true).
  { eexists. split; [vm_compute; reflexivity|]. eexists. split; vm_compute; reflexivity. }
  destruct X as (x & X & r & MF & LT). exists x, good, r. split; [exact X|]. split.
  - pose proof (ok_sound _ K2) as SO. rewrite (proj1 (proj2 (proj2 SS))) in SO. exact (proj1 (map_find_iff [half] sep1 (s_tested s_two) good r SO (or_introl eq_refl)) MF).
  - split; [|exact LT]. apply (setup_random s_one s_two _ SS). exists [8]. split; [split; [reflexivity|]; split; [repeat constructor|]; split; [left; reflexivity|right; left; reflexivity]|]. split; [discriminate|]. split; [reflexivity|discriminate].
Qed.
Theorem C310_grid_partial : forall flog fexp fpow2 noise s mc a s', lib_ok flog fexp fpow2 noise -> separated (s_drops s) -> trials_ok mc -> tested_ok s ->
  findOptimalArchitecture flog fexp fpow2 noise s mc = Ret (a, s') -> forall c r, In (c, r) (s_tested s') -> grid_member s c -> (R (r_pres r) <= R (sr_pres a))%R.
Proof.
  intros flog fexp fpow2 noise s mc a s' LB SEP T K H c r I G. destruct (find_inv _ _ _ _ LB _ _ _ _ SEP T K H) as (_ & _ & (r0 & (A0 & before & after & E & HB & HA) & RP) & _ & M & _).
  apply M in I. destruct I as [[I TR]|[NI _]]; [|exfalso; apply NI, grid_in, G]. destruct RP as (_ & _ & -> & _). rewrite E in I. apply in_app_iff in I. destruct I as [I|[<-|I]].
  - destruct (HB c I) as (r' & T' & LT). rewrite (tests_fun _ _ _ _ _ _ _ _ _ TR T'). lra.
  - rewrite (tests_fun _ _ _ _ _ _ _ _ _ TR A0). lra.
  - destruct (HA c I) as (r' & T' & LE). rewrite (tests_fun _ _ _ _ _ _ _ _ _ TR T'). lra.
Qed.

(** ** C311: evolutionary search *)
Theorem C311_evolution : forall flog fexp fpow2 noise ints reals s size gens rate mc pos a s', lib_ok flog fexp fpow2 noise -> separated (s_drops s) -> trials_ok mc -> tested_ok s -> (1 <= size)%nat -> (1 <= gens)%nat ->
  evolutionarySearch flog fexp fpow2 noise ints reals s size gens rate mc pos = Ret (a, s') ->
  exists pops, length pops = gens /\ (forall p, In p pops -> length p = size /\ forall c, In c p -> random_member s c) /\ elitist (known flog fexp fpow2 noise s mc) pops /\
  (exists r, first_winner (known flog fexp fpow2 noise s mc) (concat pops) (sr_cfg a) r /\ reports a r) /\ sr_iter a = (N.of_nat gens * N.of_nat size) mod 2 ^ 64 /\ same_setup s s' /\
  (forall c r, In (c, r) (s_tested s') <-> In (c, r) (s_tested s) \/ (In c (concat pops) /\ known flog fexp fpow2 noise s mc c r)).
Proof.
  intros flog fexp fpow2 noise ints reals s size gens rate mc pos a s' LB SEP T K S1 G1 H. destruct (evo_inv _ _ _ _ LB _ _ _ _ SEP T K _ _ _ _ _ _ S1 G1 H) as (new & pops & (SS & _ & M & _ & NW & _) & [C1 C2] & L & A & E & W & I & _).
  exists pops. split; [exact L|]. split; [exact A|]. split; [exact E|]. split; [exact W|]. split; [exact I|]. split; [exact SS|]. intros c r. rewrite M. split.
  - intros [H1|[H1 H2]]; [left; exact H1|]. right. split; [exact (C1 c H1)|]. right. split; [apply (NW c H1)|exact H2].
  - intros [H1|[H1 [H2|[H2 H3]]]]; [left; exact H1|left; exact H2|]. right. split; [exact (C2 c H1 H2)|exact H3].
Qed.
Theorem C311_completes : forall flog fexp fpow2 noise ints reals s size gens rate mc pos, lib_ok flog fexp fpow2 noise -> separated (s_drops s) -> trials_ok mc -> tested_ok s -> (1 <= size)%nat -> (1 <= gens)%nat ->
  s_widths s <> [] -> s_drops s <> [] -> s_levels s <> [] -> (forall c, random_member s c -> testable c) -> completes (evolutionarySearch flog fexp fpow2 noise ints reals s size gens rate mc pos).
Proof. intros. apply evo_defined; assumption. Qed.
Example C311_nonvacuous : exists x, evolutionarySearch log4 exp6 sq calm_noise count_up (fun i => if Nat.even i then dlit 5 100 else half) srch0 4 3 (dlit 1 10) (Some 2%nat) 0 = Ret x /\ sr_iter (fst x) = 12 /\ length (s_tested (snd x)) = 9%nat /\ (forall c, random_member srch0 c -> testable c).
Proof. eexists. split; [vm_compute; reflexivity|]. split; [vm_compute; reflexivity|]. split; [vm_compute; reflexivity|exact srch0_small]. Qed.

(** ** C312: no population or no generation *)
Theorem C312_no_population_refuted : forall flog fexp fpow2 noise ints reals s gens rate mc pos, evolutionarySearch flog fexp fpow2 noise ints reals s 0 (S gens) rate mc pos = UB UB_array_index.
Proof. intros. apply evo_no_population. Qed.
Theorem C312_no_generations_refuted : forall flog fexp fpow2 noise ints reals s size rate mc pos, s_widths s <> [] -> s_drops s <> [] -> s_levels s <> [] ->
  evolutionarySearch flog fexp fpow2 noise ints reals s size 0 rate mc pos = UB UB_uninit.
Proof. intros. apply evo_no_generations; assumption. Qed.

(** ** C313: a configuration is tested once *)
Theorem C313_grid_refuted : forall flog fexp fpow2 noise s n a s', findOptimalArchitecture flog fexp fpow2 noise s (Some n) = Ret (a, s') ->
  length (t_results (s_tester s')) = (length (t_results (s_tester s)) + length (generateAllConfigs s))%nat.
Proof.
  intros flog fexp fpow2 noise s n a s' H. unfold findOptimalArchitecture in H. destruct (grid_loop _ _ _ _ s best0 0 (Some n) (generateAllConfigs s)) as [[[s1 b1] i1]| | |] eqn:G; cbn [obind] in H; try discriminate H.
  destruct (finish b1 i1) as [a'| | |]; cbn [obind] in H; try discriminate H. injection H as <- <-. exact (grid_records _ _ _ _ (Some n) n eq_refl _ _ _ _ _ G).
Qed.
Theorem C313_random_partial : forall flog fexp fpow2 noise ints fuel s max n pos a s', lib_ok flog fexp fpow2 noise -> separated (s_drops s) -> trials_ok (Some n) -> tested_ok s ->
  randomSearch flog fexp fpow2 noise ints fuel s max (Some n) pos = Ret (a, s') ->
  exists rs, t_results (s_tester s') = t_results (s_tester s) ++ rs /\ (length (s_tested s') = length (s_tested s) + length rs)%nat.
Proof.
  intros flog fexp fpow2 noise ints fuel s max n pos a s' LB SEP T K H. destruct (random_inv _ _ _ _ LB _ _ _ _ _ _ _ _ SEP T K H) as (new & (_ & _ & _ & _ & _ & L & rs & R1 & R2) & _). exists rs. split; [exact R1|]. rewrite R2. exact L.
Qed.
Theorem C313_evolution_partial : forall flog fexp fpow2 noise ints reals s size gens rate n pos a s', lib_ok flog fexp fpow2 noise -> separated (s_drops s) -> trials_ok (Some n) -> tested_ok s -> (1 <= size)%nat -> (1 <= gens)%nat ->
  evolutionarySearch flog fexp fpow2 noise ints reals s size gens rate (Some n) pos = Ret (a, s') ->
  exists rs, t_results (s_tester s') = t_results (s_tester s) ++ rs /\ (length (s_tested s') = length (s_tested s) + length rs)%nat.
Proof.
  intros flog fexp fpow2 noise ints reals s size gens rate n pos a s' LB SEP T K S1 G1 H. destruct (evo_inv _ _ _ _ LB _ _ _ _ SEP T K _ _ _ _ _ _ S1 G1 H) as (new & pops & (_ & _ & _ & _ & _ & L & rs & R1 & R2) & _). exists rs. split; [exact R1|]. rewrite R2. exact L.
Qed.
Example C313_nonvacuous : exists x y, findOptimalArchitecture log4 exp6 sq calm_noise s_one (Some 1%nat) = Ret x /\ findOptimalArchitecture log4 exp6 sq calm_noise (snd x) (Some 1%nat) = Ret y /\
  length (t_results (s_tester (snd y))) = 4%nat /\ length (s_tested (snd y)) = 2%nat.
Proof. eexists. eexists. split; [vm_compute; reflexivity|]. split; [vm_compute; reflexivity|]. split; vm_compute; reflexivity. Qed.

(** ** C314: what the constructor reads off the data *)
Theorem C314_no_labels_refuted : forall d e ws ds f, train_labels d = [] -> search_new d e ws ds f = UB UB_div_zero.
Proof. intros d e ws ds f E. unfold search_new. rewrite E. reflexivity. Qed.
Theorem C314_partial : forall d e ws ds f, train_labels d <> [] -> (forall x, In x (train_labels d) -> sf32 x <> S754_nan) -> exists s reps,
  search_new d e ws ds f = Ret s /\ s_in s = N.of_nat (length (train_data d)) / N.of_nat (length (train_labels d)) /\ representatives reps (train_labels d) /\
  (s_out s = if (Nat.ltb 1 (length reps)) && (Nat.ltb (length reps) 100) then N.of_nat (length reps) else 1) /\
  s_env s = e /\ s_widths s = ws /\ s_drops s = ds /\ s_fixed s = O /\ s_resid s = true /\ s_levels s = [NONE_; CHECKSUM_ONLY; SELECTIVE_TMR; FULL_TMR] /\ s_tested s = [] /\ t_in (s_tester s) = s_in s /\ t_out (s_tester s) = s_out s.
Proof.
  intros d e ws ds f NE NN. destruct (distinct_spec (train_labels d) NN [] ltac:(constructor)) as (reps & E & A & B & C & D). unfold search_new.
  destruct (N.eqb_spec (N.of_nat (length (train_labels d))) 0) as [Z|_]; [destruct (train_labels d); [contradiction|discriminate Z]|]. eexists. exists reps. split; [reflexivity|]. cbn [s_in s_out s_env s_widths s_drops s_fixed s_resid s_levels s_tested s_tester tester_new t_in t_out].
  split; [reflexivity|]. split; [split; [intros x X; destruct (A x X) as [[]|H]; exact H|split; assumption]|]. split; [|repeat split].
  rewrite E. replace (1 <? N.of_nat (length reps)) with (Nat.ltb 1 (length reps)); [replace (N.of_nat (length reps) <? 100) with (Nat.ltb (length reps) 100); [reflexivity|]|]; apply eq_true_iff_eq; rewrite Nat.ltb_lt, N.ltb_lt; lia.
Qed.
Example C314_nonvacuous : exists s, search_new (mkDS [1; 2; 3; 4; 5; 6] [0; 1065353216; 2147483648] [] []) MARS [8] [half] [] = Ret s /\ (s_in s, s_out s) = (2, 2).
Proof. eexists. split; vm_compute; reflexivity. Qed.

(** ** C315: the results file *)
Definition rows (s : srch) : list sline := SHeader :: map (fun x => SRow (fst x) (snd x)) (s_tested s).
Theorem C315_grid : forall flog fexp fpow2 noise s mc a s', lib_ok flog fexp fpow2 noise -> separated (s_drops s) -> trials_ok mc -> tested_ok s -> findOptimalArchitecture flog fexp fpow2 noise s mc = Ret (a, s') -> s_file s' = rows s'.
Proof. intros flog fexp fpow2 noise s mc a s' LB SEP T K H. apply (find_inv _ _ _ _ LB _ _ _ _ SEP T K H). Qed.
Theorem C315_random : forall flog fexp fpow2 noise ints fuel s max mc pos a s', lib_ok flog fexp fpow2 noise -> separated (s_drops s) -> trials_ok mc -> tested_ok s -> randomSearch flog fexp fpow2 noise ints fuel s max mc pos = Ret (a, s') -> s_file s' = rows s'.
Proof. intros flog fexp fpow2 noise ints fuel s max mc pos a s' LB SEP T K H. destruct (random_inv _ _ _ _ LB _ _ _ _ _ _ _ _ SEP T K H) as (new & _ & _ & _ & _ & _ & F). exact F. Qed.
Theorem C315_evolution : forall flog fexp fpow2 noise ints reals s size gens rate mc pos a s', lib_ok flog fexp fpow2 noise -> separated (s_drops s) -> trials_ok mc -> tested_ok s -> (1 <= size)%nat -> (1 <= gens)%nat ->
  evolutionarySearch flog fexp fpow2 noise ints reals s size gens rate mc pos = Ret (a, s') -> s_file s' = rows s'.
Proof. intros flog fexp fpow2 noise ints reals s size gens rate mc pos a s' LB SEP T K S1 G1 H. destruct (evo_inv _ _ _ _ LB _ _ _ _ SEP T K _ _ _ _ _ _ S1 G1 H) as (new & pops & _ & _ & _ & _ & _ & _ & _ & F). exact F. Qed.

(** ** C316: every history keeps the table of results sound *)
Theorem C316_histories : forall flog fexp fpow2 noise d e ws ds f cs s s', lib_ok flog fexp fpow2 noise -> separated ds -> Forall sensible cs ->
  search_new d e ws ds f = Ret s -> scalls_run flog fexp fpow2 noise s cs = Ret s' ->
  NoDup (keys s') /\ (forall c r, In (c, r) (s_tested s') -> In (n_drop c) ds /\ inr 10 100 (r_pres r) /\ about r (n_sizes c) (n_drop c) (n_resid c) (n_prot c) e) /\
  StronglySorted (fun x y => cfg_lt (fst x) (fst y) = true) (s_tested s').
Proof.
  intros flog fexp fpow2 noise d e ws ds f cs s s' LB SEP F N H. unfold search_new in N. destruct (_ =? 0); [discriminate N|]. injection N as <-.
  refine (match runs_ok _ _ _ _ LB cs _ _ _ _ F H with conj K (conj D (conj E _)) => _ end); [exact SEP|split; [constructor|intros c r []]|]. cbn [s_drops s_env] in D, E.
  split; [apply (sound_nodup ds SEP); rewrite <- D; apply ok_sound; exact K|]. split; [|exact (proj1 K)]. intros c r I. destruct (proj2 K c r I) as (A & B & C). rewrite D in A. rewrite E in C. auto.
Qed.
Theorem C316_keeps : forall flog fexp fpow2 noise s cs s', lib_ok flog fexp fpow2 noise -> separated (s_drops s) -> tested_ok s -> Forall sensible cs -> scalls_run flog fexp fpow2 noise s cs = Ret s' -> incl (keys s) (keys s').
Proof. intros flog fexp fpow2 noise s cs s' LB SEP K F H. apply (runs_ok _ _ _ _ LB cs _ _ SEP K F H). Qed.
Example C316_nonvacuous : exists s', scalls_run log4 exp6 sq calm_noise srch0 [SGrid None; SFixed 4 2 1; SEvolve count_up (fun _ => half) 3 2 (dlit 1 10) None 5; SRandom (fun i => N.of_nat i * N.of_nat i / 3) 40 1 (Some 2%nat) 1; SSave] = Ret s' /\ length (s_tested s') = 26%nat.
Proof. eexists. split; vm_compute; reflexivity. Qed.

Print Assumptions C301_refuted.
Print Assumptions C301_partial.
Print Assumptions C302_refuted.
Print Assumptions C302_partial.
Print Assumptions C302_separated.
Print Assumptions C303_grid.
Print Assumptions C303_once.
Print Assumptions C303_count_free.
Print Assumptions C303_count_fixed.
Print Assumptions C304_valid.
Print Assumptions C304_all.
Print Assumptions C304_grid_refuted.
Print Assumptions C304_partial.
Print Assumptions C305_best.
Print Assumptions C305_completes.
Print Assumptions C306_empty_refuted.
Print Assumptions C306_no_trials_refuted.
Print Assumptions C306_no_iterations_refuted.
Print Assumptions C306_no_options_refuted.
Print Assumptions C307_tested.
Print Assumptions C308_random.
Print Assumptions C309_hangs_refuted.
Print Assumptions C310_refuted.
Print Assumptions C310_grid_partial.
Print Assumptions C311_evolution.
Print Assumptions C311_completes.
Print Assumptions C312_no_population_refuted.
Print Assumptions C312_no_generations_refuted.
Print Assumptions C313_grid_refuted.
Print Assumptions C313_random_partial.
Print Assumptions C313_evolution_partial.
Print Assumptions C314_no_labels_refuted.
Print Assumptions C314_partial.
Print Assumptions C315_grid.
Print Assumptions C315_random.
Print Assumptions C315_evolution.
Print Assumptions C316_histories.
Print Assumptions C316_keeps.
