From Coq Require Import List NArith ZArith Bool Lia Reals Lra SpecFloat Sorting.Sorted.
Import ListNotations.
From Verif Require Import Outcome Words Floats FloatsR HealthFloat Bits_Model PNN_Model Train_Model RMA3_Proofs Tester_Model Tester_Spec Tester_Proofs Tester2_Proofs Tester4_Proofs Search_Model Search_Spec Search_Proofs Search2_Proofs.
Local Open Scope N_scope.
Local Open Scope outcome_scope.

Lemma setup_refl s : same_setup s s. Proof. repeat split. Qed.
Lemma setup_trans a b c : same_setup a b -> same_setup b c -> same_setup a c.
Proof. unfold same_setup. intros (?&?&?&?&?&?&?&?) (?&?&?&?&?&?&?&?). repeat split; congruence. Qed.
Lemma setup_grid a b : same_setup a b -> generateAllConfigs b = generateAllConfigs a.
Proof. intros (?&W&D&L&I&O&F&R). unfold generateAllConfigs, patterns. rewrite W, D, L, I, O, F, R. reflexivity. Qed.
Lemma setup_random a b c : same_setup a b -> random_member b c <-> random_member a c.
Proof. intros (?&W&D&L&I&O&F&R). unfold random_member, built_from. rewrite W, D, L, I, O, F, R. reflexivity. Qed.

Lemma ncfg_dec (a b : ncfg) : {a = b} + {a <> b}.
Proof.
  assert (SF : forall x y : sf, {x = y} + {x <> y}) by (decide equality; (apply Bool.bool_dec || apply Pos.eq_dec || apply Z.eq_dec)).
  assert (PL : forall x y : plevel, {x = y} + {x <> y}) by decide equality.
  decide equality; [apply Bool.bool_dec|apply list_eq_dec; apply N.eq_dec].
Qed.

Section Lib.
Variables (flog fexp fpow2 : sf -> sf) (noise : N -> sf * sf).
Notation TC := (test_config flog fexp fpow2 noise).
Notation TT := (tests_to flog fexp fpow2 noise).

(** ** a test depends on nothing but the configuration and the environment *)
Lemma trials_any t t' arch drop residual p epochs e n : forall i, trials flog fexp noise t arch drop residual p epochs e i n = trials flog fexp noise t' arch drop residual p epochs e i n.
Proof. induction n as [|n IH]; intros i; cbn [trials]; [reflexivity|]. unfold testArchitecture. destruct (test_with _ _ _ _ _ _ _ _ _); cbn [obind]; [rewrite IH|..]; reflexivity. Qed.
Lemma tests_fun e mc c r r' : TT e mc c r -> TT e mc c r' -> r = r'.
Proof. unfold tests_to. destruct mc; [intros [t A] [t' B]; congruence|congruence]. Qed.
Lemma test_config_inv s c mc x : TC s c mc = Ret x -> TT (s_env s) mc c (fst x) /\ same_setup s (snd x) /\ s_tested (snd x) = s_tested s /\
  t_results (s_tester (snd x)) = t_results (s_tester s) ++ match mc with None => [] | Some _ => [fst x] end.
Proof.
  unfold test_config, tests_to. destruct mc as [n|].
  - unfold testArchitectureMonteCarlo. rewrite (trials_any (s_tester s) (tester_new (mkDS [] [] [] []) 0 0 None)). destruct (trials _ _ _ _ _ _ _ _ _ _ _ n) as [rs| | |]; cbn [obind]; try discriminate. intros E. injection E as <-. cbn [fst snd].
    split; [eexists; reflexivity|]. split; [repeat split|]. split; reflexivity.
  - unfold testArchitecture. destruct (test_with _ _ _ _ _ _ _ _ _) as [r| | |]; cbn [obind]; try discriminate. intros E. injection E as <-. cbn [fst snd]. split; [reflexivity|]. split; [repeat split|]. split; [reflexivity|symmetry; apply app_nil_r].
Qed.
Lemma test_config_ex s c mc r : TT (s_env s) mc c r -> exists s', TC s c mc = Ret (r, s').
Proof.
  unfold test_config, tests_to. destruct mc as [n|].
  - unfold testArchitectureMonteCarlo. rewrite (trials_any (s_tester s) (tester_new (mkDS [] [] [] []) 0 0 None)). intros [t H]. destruct (trials _ _ _ _ _ _ _ _ _ _ _ n) as [rs| | |]; cbn [obind] in *; try discriminate H. injection H as <- _. cbn [fst snd]. eauto.
  - unfold testArchitecture. intros ->. cbn [obind]. eauto.
Qed.
Lemma tests_defined e mc c : log_ok flog -> testable c -> inr 0 1 (n_drop c) -> exists r, TT e mc c r.
Proof.
  intros L [M W] D. unfold tests_to. destruct mc as [n|].
  - unfold testArchitectureMonteCarlo.
    assert (T : forall t k i, exists rs, trials flog fexp noise t (n_sizes c) (n_drop c) (n_resid c) (n_prot c) 0 e i k = Ret rs).
    { intros t. induction k as [|k IH]; intros i; cbn [trials]; [eauto|]. unfold testArchitecture at 1. destruct (test_defined flog fexp noise L (n_sizes c) (n_drop c) (n_resid c) (n_prot c) e (i mod 2 ^ 32) M W D) as [r ->]. cbn [obind]. destruct (IH (i + 1)) as [rs ->]. cbn [obind]. eauto. }
    destruct (T (tester_new (mkDS [] [] [] []) 0 0 None) n 0) as [rs ->]. cbn [obind]. eauto.
  - unfold testArchitecture. destruct (test_defined flog fexp noise L (n_sizes c) (n_drop c) (n_resid c) (n_prot c) e 0 M W D) as [r ->]. eauto.
Qed.
Hypothesis LIB : lib_ok flog fexp fpow2 noise.
Lemma tests_sane e mc c r : trials_ok mc -> inr 0 1 (n_drop c) -> TT e mc c r -> inr 10 100 (r_pres r) /\ about r (n_sizes c) (n_drop c) (n_resid c) (n_prot c) e.
Proof.
  destruct LIB as (L & X & NO & P). intros T D. assert (DD : is_double (n_drop c)) by (destruct D as [[D _] _]; exact D).
  unfold tests_to. destruct mc as [n|].
  - intros [t H]. destruct T as [T1 T2]. destruct (monte_sane flog fexp fpow2 noise L X NO P _ _ _ _ _ _ _ _ _ _ _ DD T1 T2 H) as [((_ & _ & S) & _) A]. split; assumption.
  - intros H. split; [|eapply test_about; exact H]. destruct (test_sane flog fexp noise _ _ _ _ _ _ _ L X NO DD H) as (_ & _ & S). exact S.
Qed.

(** ** keeping the best *)
Section Best.
Variable ans : ncfg -> res -> Prop.
Definition best_inv (b : best) (seen : list ncfg) : Prop :=
  (seen = [] /\ b = best0) \/ (exists c r, b = mkB (r_pres r) c (Some r) /\ first_winner ans seen c r /\ inr 10 100 (r_pres r)).
Lemma best_none b seen : best_inv b seen -> b_res b = None -> seen = [].
Proof. intros [[E _]|(c & r & -> & _)] N; [exact E|discriminate N]. Qed.
Lemma better_step b seen c r : best_inv b seen -> ans c r -> inr 10 100 (r_pres r) -> best_inv (better b c r) (seen ++ [c]).
Proof.
  intros I A S. right. destruct I as [[-> ->]|(c0 & r0 & -> & (A0 & before & after & -> & HB & HA) & S0)]; unfold better; cbn [b_pres best0].
  - assert (G : fgt (r_pres r) (dofZ 0) = true). { destruct S as [O B], d0 as [O0 E0]. unfold fgt. apply (flt_d _ _ O0 O). rewrite E0. lra. } rewrite G.
    exists c, r. split; [reflexivity|]. split; [|exact S]. split; [exact A|]. exists [], []. split; [reflexivity|]. split; intros d [].
  - destruct S as [O B], S0 as [O0 B0]. destruct (fgt (r_pres r) (r_pres r0)) eqn:G.
    + unfold fgt in G. apply (flt_d _ _ O0 O) in G. exists c, r. split; [reflexivity|]. split; [|split; assumption]. split; [exact A|]. exists (before ++ c0 :: after), []. split; [reflexivity|]. split; [|intros d []].
      intros d D. apply in_app_iff in D. destruct D as [D|[<-|D]].
      * destruct (HB d D) as (r' & A' & LT). exists r'. split; [exact A'|lra].
      * exists r0. split; assumption.
      * destruct (HA d D) as (r' & A' & LE). exists r'. split; [exact A'|lra].
    + unfold fgt in G. apply (flt_dF _ _ O0 O) in G. exists c0, r0. split; [reflexivity|]. split; [|split; assumption]. split; [exact A0|]. exists before, (after ++ [c]). split; [rewrite <- app_assoc; reflexivity|]. split; [exact HB|].
      intros d D. apply in_app_iff in D. destruct D as [D|[<-|[]]]; [exact (HA d D)|]. exists r. split; assumption.
Qed.
Lemma finish_inv b seen iter a : best_inv b seen -> finish b iter = Ret a -> exists r, first_winner ans seen (sr_cfg a) r /\ reports a r /\ sr_iter a = iter.
Proof.
  intros [[-> ->]|(c & r & -> & W & _)]; unfold finish; cbn [b_res best0]; [discriminate|]. intros E. injection E as <-. exists r. split; [exact W|]. repeat split.
Qed.
Lemma finish_defined b seen iter : best_inv b seen -> seen <> [] -> exists a, finish b iter = Ret a.
Proof. intros [[-> ->]|(c & r & -> & _)] NE; [contradiction|]. unfold finish. cbn [b_res]. eauto. Qed.
End Best.

(** ** the map *)
Lemma ok_sound s : tested_ok s -> sound (s_drops s) (s_tested s).
Proof. intros [S H]. split; [exact S|]. intros c r I. apply (H c r I). Qed.
Lemma store_ok s c r : separated (s_drops s) -> tested_ok s -> In (n_drop c) (s_drops s) -> inr 10 100 (r_pres r) -> about r (n_sizes c) (n_drop c) (n_resid c) (n_prot c) (s_env s) -> tested_ok (store s c r).
Proof.
  intros SEP K D S A. pose proof (ok_sound _ K) as SO. split; [apply (map_set_sound _ SEP _ _ _ SO D)|]. intros k v H. apply (map_set_in _ SEP _ _ _ SO D) in H. destruct H as [[-> ->]|[_ H]]; [repeat split; assumption || apply A || apply S|apply K; exact H].
Qed.

(** ** grid search *)
Lemma grid_loop_inv mc s0 : separated (s_drops s0) -> trials_ok mc -> forall cs s b iter seen x,
  (forall c, In c cs -> In (n_drop c) (s_drops s0)) -> same_setup s0 s -> tested_ok s -> best_inv (TT (s_env s0) mc) b seen -> iter = N.of_nat (length seen) ->
  (forall k r, In (k, r) (s_tested s) <-> (In k seen /\ TT (s_env s0) mc k r) \/ (~ In k seen /\ In (k, r) (s_tested s0))) ->
  grid_loop flog fexp fpow2 noise s b iter mc cs = Ret x ->
  let '(s', b', iter') := x in same_setup s0 s' /\ tested_ok s' /\ best_inv (TT (s_env s0) mc) b' (seen ++ cs) /\ iter' = N.of_nat (length (seen ++ cs)) /\
  (forall k r, In (k, r) (s_tested s') <-> (In k (seen ++ cs) /\ TT (s_env s0) mc k r) \/ (~ In k (seen ++ cs) /\ In (k, r) (s_tested s0))).
Proof.
  intros SEP T. induction cs as [|c cs IH]; intros s b iter seen x DC SS K B I M H; cbn [grid_loop] in H.
  - injection H as <-. rewrite app_nil_r. auto.
  - destruct (TC s c mc) as [y| | |] eqn:E; cbn [obind] in H; try discriminate H. destruct (test_config_inv _ _ _ _ E) as (TY & SY & KY & _). assert (EE : s_env s = s_env s0) by apply SS. assert (ED : s_drops s = s_drops s0) by apply SS. rewrite EE in TY.
    assert (Dc : In (n_drop c) (s_drops s0)) by (apply DC; left; reflexivity).
    assert (D01 : inr 0 1 (n_drop c)) by (apply (drop_ok _ SEP); exact Dc). destruct (tests_sane _ _ _ _ T D01 TY) as [SA AB].
    set (s1 := store (snd y) c (fst y)) in H. set (s2 := if (iter + 1) mod 10 =? 0 then saveResults s1 else s1) in H.
    assert (E1 : same_setup s0 s1) by (eapply setup_trans; [exact SS|]; eapply setup_trans; [exact SY|]; repeat split).
    assert (K1 : tested_ok s1). { apply store_ok; try assumption; [rewrite (proj1 (proj2 (proj2 SY))), ED; exact SEP| |rewrite (proj1 (proj2 (proj2 SY))), ED; exact Dc|rewrite (proj1 SY), EE; exact AB]. destruct K as [K1 K2]. split; rewrite KY; [exact K1|]. rewrite (proj1 (proj2 (proj2 SY))), (proj1 SY). exact K2. }
    assert (E2 : s_tested s2 = s_tested s1) by (unfold s2; destruct (_ =? _); reflexivity).
    assert (S2 : same_setup s1 s2) by (unfold s2; destruct (_ =? _); repeat split).
    assert (K2 : tested_ok s2). { destruct K1 as [K1 K2]. split; rewrite E2; [exact K1|]. rewrite (proj1 (proj2 (proj2 S2))), (proj1 S2). exact K2. }
    replace (seen ++ c :: cs) with ((seen ++ [c]) ++ cs) by (rewrite <- app_assoc; reflexivity).
    refine (IH s2 _ _ (seen ++ [c]) x _ _ K2 _ _ _ H).
    + intros d HD. apply DC. right. exact HD.
    + eapply setup_trans; [exact E1|exact S2].
    + apply better_step; assumption.
    + rewrite app_length. cbn [length]. lia.
    + intros k r. rewrite E2. unfold s1, store. cbn [s_tested with_tested]. rewrite KY.
      assert (SO : sound (s_drops s0) (s_tested s)) by (rewrite <- ED; apply ok_sound; exact K).
      rewrite (map_set_in _ SEP _ _ _ SO Dc). rewrite M, !in_app_iff. cbn [In]. split.
      * intros [[-> ->]|[NE [[A Bq]|[A Bq]]]]; [left; auto|left; auto|]. right. split; [|exact Bq]. intros [A'|[A'|[]]]; [exact (A A')|congruence].
      * intros [[[A|[A|[]]] Bq]|[A Bq]].
        -- destruct (ncfg_dec k c) as [->|NE]; [left; split; [reflexivity|exact (tests_fun _ _ _ _ _ Bq TY)]|right; auto].
        -- subst k. left. split; [reflexivity|exact (tests_fun _ _ _ _ _ Bq TY)].
        -- right. split; [intros ->; apply A; right; left; reflexivity|right; auto].
Qed.
Lemma grid_drop s c : In c (generateAllConfigs s) -> In (n_drop c) (s_drops s).
Proof. intros H. apply grid_in in H. destruct H as (h & (_ & _ & D & _) & _). exact D. Qed.
Lemma find_inv s mc a s' : separated (s_drops s) -> trials_ok mc -> tested_ok s -> findOptimalArchitecture flog fexp fpow2 noise s mc = Ret (a, s') ->
  same_setup s s' /\ tested_ok s' /\ (exists r, first_winner (TT (s_env s) mc) (generateAllConfigs s) (sr_cfg a) r /\ reports a r) /\ sr_iter a = N.of_nat (length (generateAllConfigs s)) /\
  (forall k r, In (k, r) (s_tested s') <-> (In k (generateAllConfigs s) /\ TT (s_env s) mc k r) \/ (~ In k (generateAllConfigs s) /\ In (k, r) (s_tested s))) /\ s_file s' = exported s'.
Proof.
  intros SEP T K H. unfold findOptimalArchitecture in H. destruct (grid_loop _ _ _ _ s best0 0 mc (generateAllConfigs s)) as [[[s1 b1] i1]| | |] eqn:G; cbn [obind] in H; try discriminate H.
  destruct (grid_loop_inv mc s SEP T _ s best0 0 [] _ (grid_drop s) (setup_refl s) K (or_introl (conj eq_refl eq_refl)) eq_refl ltac:(cbn [In]; tauto) G) as (S1 & K1 & B1 & I1 & M1). cbn [app] in *.
  destruct (finish b1 i1) as [a'| | |] eqn:F; cbn [obind] in H; try discriminate H. injection H as <- <-. destruct (finish_inv _ _ _ _ _ B1 F) as (r & W & RP & IT).
  split; [exact S1|]. split; [exact K1|]. split; [exists r; auto|]. split; [congruence|]. split; [exact M1|reflexivity].
Qed.
Lemma grid_loop_defined mc : forall cs s b iter, (forall c, In c cs -> exists r, TT (s_env s) mc c r) -> exists x, grid_loop flog fexp fpow2 noise s b iter mc cs = Ret x.
Proof.
  induction cs as [|c cs IH]; intros s b iter A; cbn [grid_loop]; [eauto|]. destruct (A c (or_introl eq_refl)) as [r TR]. destruct (test_config_ex _ _ _ _ TR) as [s1 E]. rewrite E. cbn [obind fst snd].
  apply IH. intros d D. destruct (test_config_inv _ _ _ _ E) as (_ & SY & _). cbn [snd] in SY. replace (s_env (if _ =? 0 then _ else _)) with (s_env s); [apply A; right; exact D|]. rewrite <- (proj1 SY). destruct (_ =? _); reflexivity.
Qed.
Lemma find_defined s mc : separated (s_drops s) -> trials_ok mc -> tested_ok s -> (forall c, grid_member s c -> testable c) -> generateAllConfigs s <> [] -> completes (findOptimalArchitecture flog fexp fpow2 noise s mc).
Proof.
  intros SEP T K A NE. unfold findOptimalArchitecture. destruct (grid_loop_defined mc (generateAllConfigs s) s best0 0) as [[[s1 b1] i1] G].
  { intros c C. apply tests_defined; [apply LIB|apply A; apply grid_in; exact C|]. apply (drop_ok _ SEP). apply grid_drop. exact C. }
  rewrite G. cbn [obind]. destruct (grid_loop_inv mc s SEP T _ s best0 0 [] _ (grid_drop s) (setup_refl s) K (or_introl (conj eq_refl eq_refl)) eq_refl ltac:(cbn [In]; tauto) G) as (S1 & K1 & B1 & I1 & M1). cbn [app] in *.
  destruct (finish_defined _ _ _ i1 B1 NE) as [a ->]. cbn [obind]. eexists. reflexivity.
Qed.
End Lib.
(** ** nothing to return *)
Section Nothing.
Variables (flog fexp fpow2 : sf -> sf) (noise : N -> sf * sf).
Lemma no_trials s c : exists s', test_config flog fexp fpow2 noise s c (Some O) = Ret (zero_res, s') /\ same_setup s s'.
Proof. eexists. split; [reflexivity|]. repeat split. Qed.
Lemma grid_no_trials : forall cs s iter, exists s' iter', grid_loop flog fexp fpow2 noise s best0 iter (Some O) cs = Ret (s', best0, iter').
Proof.
  induction cs as [|c cs IH]; intros s iter; cbn [grid_loop]; [eauto|]. destruct (no_trials s c) as (s1 & -> & _). cbn [obind fst snd]. change (better best0 c zero_res) with best0. apply IH.
Qed.
Lemma find_no_trials s : findOptimalArchitecture flog fexp fpow2 noise s (Some O) = UB UB_uninit.
Proof. unfold findOptimalArchitecture. destruct (grid_no_trials (generateAllConfigs s) s 0) as (s' & i & ->). reflexivity. Qed.
Lemma find_no_configs s mc : generateAllConfigs s = [] -> findOptimalArchitecture flog fexp fpow2 noise s mc = UB UB_uninit.
Proof. intros E. unfold findOptimalArchitecture. rewrite E. reflexivity. Qed.
End Nothing.
