From Coq Require Import List NArith ZArith Bool Lia Reals Lra SpecFloat Sorting.Sorted.
Import ListNotations.
From Verif Require Import Outcome Words Floats FloatsR HealthFloat Bits_Model PNN_Model Train_Model RMA3_Proofs Tester_Model Tester_Spec Tester_Proofs Tester2_Proofs Tester4_Proofs Search_Model Search_Spec Search_Proofs Search2_Proofs Search3_Proofs Search4_Proofs.
Local Open Scope N_scope.
Local Open Scope outcome_scope.

(** ** labels *)
Lemma feqb_refl x : x <> S754_nan -> feqb x x = true.
Proof.
  intros N. unfold feqb, SFeqb, SFcompare. destruct x as [s|s| |s m e]; try reflexivity; [destruct s; reflexivity|contradiction|]. destruct s; rewrite Z.compare_refl; cbn; rewrite Pos.compare_cont_refl; reflexivity.
Qed.
Lemma distinct_spec labels : (forall x, In x labels -> sf32 x <> S754_nan) -> forall seen, ForallOrdPairs (fun x y => feqb (sf32 x) (sf32 y) = false) seen -> exists reps, distinct seen labels = N.of_nat (length reps) /\
  (forall x, In x reps -> In x seen \/ In x labels) /\ (forall x, In x seen -> In x reps) /\ (forall x, In x labels -> exists y, In y reps /\ feqb (sf32 x) (sf32 y) = true) /\ ForallOrdPairs (fun x y => feqb (sf32 x) (sf32 y) = false) reps.
Proof.
  induction labels as [|x l IH]; intros NN seen F; cbn [distinct]; [exists seen; split; [reflexivity|]; split; [auto|]; split; [auto|]; split; [intros x []|exact F]|].
  assert (NL : forall y, In y l -> sf32 y <> S754_nan) by (intros y Y; apply NN; right; exact Y).
  destruct (existsb _ seen) eqn:E.
  - destruct (IH NL seen F) as (reps & A & B & C & D & G). exists reps. split; [exact A|]. split; [intros y Y; destruct (B y Y); [left|right; right]; assumption|]. split; [exact C|]. split; [|exact G].
    intros y [<-|Y]; [|exact (D y Y)]. apply existsb_exists in E. destruct E as (z & Z & EZ). exists z. split; [exact (C z Z)|exact EZ].
  - destruct (IH NL (x :: seen)) as (reps & A & B & C & D & G).
    { constructor; [|exact F]. apply Forall_forall. intros y Y. destruct (feqb (sf32 x) (sf32 y)) eqn:EQ; [|reflexivity]. assert (existsb (fun y => feqb (sf32 x) (sf32 y)) seen = true) by (apply existsb_exists; exists y; auto). congruence. }
    exists reps. split; [exact A|]. split; [intros y Y; destruct (B y Y) as [[<-|H]|H]; [right; left; reflexivity|left; exact H|right; right; exact H]|]. split; [intros y Y; apply C; right; exact Y|]. split; [|exact G].
    intros y [<-|Y]; [|exact (D y Y)]. exists x. split; [apply C; left; reflexivity|apply feqb_refl; apply NN; left; reflexivity].
Qed.

(** ** histories *)
Section Lib.
Variables (flog fexp fpow2 : sf -> sf) (noise : N -> sf * sf).
Hypothesis LIB : lib_ok flog fexp fpow2 noise.
Notation RUN := (scall_run flog fexp fpow2 noise).
Lemma run_ok s c s' : separated (s_drops s) -> tested_ok s -> sensible c -> RUN s c = Ret s' -> tested_ok s' /\ s_drops s' = s_drops s /\ s_env s' = s_env s /\ s_widths s' = s_widths s /\ incl (keys s) (keys s').
Proof.
  intros SEP K SE H. destruct c as [mc|ints fuel max mc pos|ints reals size gens rate mc pos|l|b|i o k|]; cbn [scall_run] in H; try (injection H as <-; split; [exact K|]; repeat split; intros x X; exact X).
  - destruct (findOptimalArchitecture _ _ _ _ s mc) as [[a s1]| | |] eqn:E; cbn [obind] in H; try discriminate H. injection H as <-. destruct (find_inv _ _ _ _ LIB _ _ _ _ SEP SE K E) as (SS & K' & _ & _ & M & _). split; [exact K'|]. split; [apply SS|]. split; [apply SS|]. split; [apply SS|].
    cbn [snd] in *. intros x X. unfold keys in *. apply in_map_iff in X. destruct X as ([y r] & E1 & X). cbn [fst] in E1. subst y. destruct (in_dec ncfg_dec x (generateAllConfigs s)) as [I|NI].
    + apply in_map_iff.
      unfold findOptimalArchitecture in E. destruct (grid_loop _ _ _ _ s best0 0 mc (generateAllConfigs s)) as [[[s2 b2] i2]| | |] eqn:G; cbn [obind] in E; try discriminate E.
      assert (TR : exists r', tests_to flog fexp fpow2 noise (s_env s) mc x r').
      { clear -G I. revert G I. generalize best0 0. remember (s_env s) as e eqn:EE. symmetry in EE. generalize (generateAllConfigs s). intros cs. revert s EE. induction cs as [|c cs IH]; intros s EE b i G I; [destruct I|]. cbn [grid_loop] in G.
        destruct (test_config _ _ _ _ s c mc) as [y| | |] eqn:TC; cbn [obind] in G; try discriminate G. destruct (test_config_inv _ _ _ _ _ _ _ _ TC) as (TY & SY & _). rewrite EE in TY. destruct I as [<-|I]; [eauto|].
        refine (IH _ _ _ _ G I). rewrite <- EE, <- (proj1 SY). destruct (_ =? _); reflexivity. }
      destruct TR as [r' TR]. exists (x, r'). split; [reflexivity|]. apply M. left. auto.
    + apply in_map_iff. exists (x, r). split; [reflexivity|]. apply M. right. auto.
  - destruct (randomSearch _ _ _ _ _ _ s max mc pos) as [[a s1]| | |] eqn:E; cbn [obind] in H; try discriminate H. injection H as <-. destruct (random_inv _ _ _ _ LIB _ _ _ _ _ _ _ _ SEP SE K E) as (new & (SS & K' & M & _) & _). split; [exact K'|]. split; [apply SS|]. split; [apply SS|]. split; [apply SS|].
    intros x X. unfold keys in *. apply in_map_iff in X. destruct X as ([y r] & E1 & X). cbn [fst] in E1. subst y. apply in_map_iff. exists (x, r). split; [reflexivity|]. apply M. left. exact X.
  - destruct (evolutionarySearch _ _ _ _ _ _ s size gens rate mc pos) as [[a s1]| | |] eqn:E; cbn [obind] in H; try discriminate H. injection H as <-. destruct SE as (T & S1 & G1). destruct (evo_inv _ _ _ _ LIB _ _ _ _ SEP T K _ _ _ _ _ _ S1 G1 E) as (new & pops & (SS & K' & M & _) & _). split; [exact K'|]. split; [apply SS|]. split; [apply SS|]. split; [apply SS|].
    intros x X. unfold keys in *. apply in_map_iff in X. destruct X as ([y r] & E1 & X). cbn [fst] in E1. subst y. apply in_map_iff. exists (x, r). split; [reflexivity|]. apply M. left. exact X.
Qed.
Lemma runs_ok cs : forall s s', separated (s_drops s) -> tested_ok s -> Forall sensible cs -> scalls_run flog fexp fpow2 noise s cs = Ret s' -> tested_ok s' /\ s_drops s' = s_drops s /\ s_env s' = s_env s /\ s_widths s' = s_widths s /\ incl (keys s) (keys s').
Proof.
  induction cs as [|c cs IH]; intros s s' SEP K F H; cbn [scalls_run] in H; [injection H as <-; split; [exact K|]; repeat split; intros x X; exact X|].
  destruct (RUN s c) as [s1| | |] eqn:R1; cbn [obind] in H; try discriminate H. inversion F as [|? ? SE F']; subst. destruct (run_ok _ _ _ SEP K SE R1) as (K1 & D1 & E1 & W1 & I1).
  destruct (IH s1 s' ltac:(rewrite D1; exact SEP) K1 F' H) as (K2 & D2 & E2 & W2 & I2). split; [exact K2|]. split; [congruence|]. split; [congruence|]. split; [congruence|]. intros x X. apply I2, I1, X.
Qed.
(** ** grid search records one Monte Carlo result for every configuration, tested before or not *)
Lemma grid_records mc n : mc = Some n -> forall cs s b iter x, grid_loop flog fexp fpow2 noise s b iter mc cs = Ret x -> let '(s', _, _) := x in length (t_results (s_tester s')) = (length (t_results (s_tester s)) + length cs)%nat.
Proof.
  intros ->. induction cs as [|c cs IH]; intros s b iter x H; cbn [grid_loop] in H; [injection H as <-; cbn; lia|].
  destruct (test_config _ _ _ _ s c (Some n)) as [y| | |] eqn:E; cbn [obind] in H; try discriminate H. destruct (test_config_inv _ _ _ _ _ _ _ _ E) as (_ & _ & _ & RY).
  specialize (IH _ _ _ _ H). destruct x as [[s' b'] i']. rewrite IH. cbn [length]. replace (t_results _) with (t_results (s_tester (snd y))); [rewrite RY, app_length; cbn; lia|]. destruct (_ =? _); reflexivity.
Qed.
End Lib.
(** ** searches without anything to return *)
Section Nothing.
Variables (flog fexp fpow2 : sf -> sf) (noise : N -> sf * sf) (ints : nat -> N) (reals : nat -> sf).
Lemma random_zero fuel s mc pos : randomSearch flog fexp fpow2 noise ints (S fuel) s 0 mc pos = UB UB_uninit.
Proof. reflexivity. Qed.
Lemma evo_no_population s gens rate mc pos : evolutionarySearch flog fexp fpow2 noise ints reals s 0 (S gens) rate mc pos = UB UB_array_index.
Proof. reflexivity. Qed.
Lemma evo_no_generations s size rate mc pos : s_widths s <> [] -> s_drops s <> [] -> s_levels s <> [] -> evolutionarySearch flog fexp fpow2 noise ints reals s size 0 rate mc pos = UB UB_uninit.
Proof. intros W D L. unfold evolutionarySearch. destruct (initial_defined ints s W D L size pos) as [p ->]. reflexivity. Qed.
End Nothing.
