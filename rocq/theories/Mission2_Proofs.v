From Coq Require Import String List NArith ZArith Bool Lia Reals Lra SpecFloat.
Import ListNotations.
From Verif Require Import Outcome Words Floats FloatsR HealthFloat Bits_Model RMA3_Proofs Power2_Proofs Strat4_Proofs MBP6_Proofs.
From Verif Require Import Edac_Model Edac_Spec Inject_Model Inject_Spec Inject3_Proofs Scrub_Model Mission_Model Mission_Spec Mission_Proofs.
Local Open Scope Z_scope.
Local Open Scope outcome_scope.
Local Opaque dlit dofZ dadd dsub dmul ddiv.

Lemma firstn_In2 {A} n (l : list A) x : In x (firstn n l) -> In x l.
Proof. intros H. rewrite <- (firstn_skipn n l). apply in_or_app. left. exact H. Qed.
(** * choosing an environment *)
Lemma cum_grows : forall l c b, nz b c -> Forall (nz 1) l -> (b + Z.of_nat (length l) < 2 ^ 53) -> (R c <= R (fold_left dadd l c))%R.
Proof.
  induction l as [|p l IH]; intros c b Hc Hl Hb; cbn [fold_left length] in *; [lra|]. inversion Hl as [|? ? H1 H2]; subst.
  destruct (nz_add b 1 c p Hc H1) as [A B]; [lia|]. apply Rle_trans with (R (dadd c p)).
  - rewrite B. apply rnd64_ge; [apply Hc|]. destruct H1 as (_ & H1). lra.
  - apply (IH (dadd c p) (b + 1)); [exact A|exact H2|lia].
Qed.
Lemma choose_spec val : okd val -> forall probs c k b, nz b c -> Forall (nz 1) probs -> (b + Z.of_nat (length probs) < 2 ^ 53) -> (R c <= R val)%R ->
  forall i, choose val c k probs = Some i <-> exists j, (i = k + j)%nat /\ (j < length probs)%nat /\
    (R (fold_left dadd (firstn j probs) c) <= R val < R (fold_left dadd (firstn (S j) probs) c))%R.
Proof.
  intros Hv. induction probs as [|p probs IH]; intros c k b Hc Hl Hb Hle i; cbn [choose length] in *.
  { split; [discriminate|]. intros (j & _ & H & _). lia. }
  inversion Hl as [|? ? H1 H2]; subst. destruct (nz_add b 1 c p Hc H1) as [A B]; [lia|].
  destruct (flt val (dadd c p)) eqn:F.
  - apply (flt_d _ _ Hv (proj1 A)) in F. split.
    + intros H. injection H as <-. exists 0%nat. cbn [firstn fold_left]. repeat split; try lia; lra.
    + intros (j & -> & Hj & L & U). destruct j as [|j]; [f_equal; lia|]. exfalso. cbn [firstn fold_left] in L.
      assert (Q := cum_grows (firstn j probs) (dadd c p) (b + 1) A). rewrite firstn_length in Q.
      specialize (Q ltac:(apply Forall_forall; intros x Hx; eapply Forall_forall; [exact H2|eapply firstn_In2; exact Hx]) ltac:(lia)). lra.
  - apply (flt_dF _ _ Hv (proj1 A)) in F. rewrite (IH _ (S k) _ A H2 ltac:(lia) F i). split.
    + intros (j & -> & Hj & L & U). exists (S j). cbn [firstn fold_left]. repeat split; try lia; assumption.
    + intros (j & -> & Hj & L & U). destruct j as [|j]; [cbn [firstn fold_left] in U; lra|]. exists j. cbn [firstn fold_left] in L, U. repeat split; try lia; assumption.
Qed.
Lemma zero_nz : nz 0 (dofZ 0).
Proof. destruct (ofZ_ex 0) as [A B]; [lia|]. split; [exact A|]. rewrite B. lra. Qed.
Lemma prob_nz x : probability x -> nz 1 x.
Proof. intros [A B]. split; [exact A|exact B]. Qed.
Theorem select_spec val k changed k' : okd val -> (0 <= R val)%R -> Forall probability (p_probs (k_profile k)) -> Z.of_nat (length (p_probs (k_profile k))) < 2 ^ 20 ->
  (1 < length (p_envs (k_profile k)))%nat -> select_next val k = Ret (changed, k') ->
  in_profile k' /\ (changed = true <-> k_index k' <> k_index k) /\
  (forall i, (i < length (p_probs (k_profile k)))%nat -> (R (cumulated (p_probs (k_profile k)) i) <= R val < R (cumulated (p_probs (k_profile k)) (S i)))%R -> k_index k' = i) /\
  ((R (cumulated (p_probs (k_profile k)) (length (p_probs (k_profile k)))) <= R val)%R -> k_index k' = k_index k).
Proof.
  intros Hv H0 Hp Hn H1 H. unfold select_next in H. destruct (Nat.leb_spec (length (p_envs (k_profile k))) 1) as [|_]; [lia|].
  set (probs := p_probs (k_profile k)) in *.
  assert (C := choose_spec val Hv probs (dofZ 0) 0%nat 0 zero_nz). assert (Hp' : Forall (nz 1) probs) by (eapply Forall_impl; [|exact Hp]; apply prob_nz).
  assert (Z0 : (R (dofZ 0) <= R val)%R) by (destruct (ofZ_ex 0) as [_ ->]; [lia|exact H0]).
  assert (Z20 : 0 + Z.of_nat (length probs) < 2 ^ 53) by lia.
  specialize (C Hp' Z20 Z0).
  destruct (nth_error (p_envs (k_profile k)) (match choose val (dofZ 0) 0 probs with Some i => i | None => k_index k end)) as [e|] eqn:E; [|discriminate H].
  injection H as <- <-. cbn [k_index]. split; [exact E|]. split.
  { rewrite negb_true_iff, Nat.eqb_neq. split; congruence. }
  split.
  - intros i Hi Hb. rewrite (proj2 (C i)); [reflexivity|]. exists i. auto.
  - intros Hb. destruct (choose val (dofZ 0) 0 probs) as [i|] eqn:Q; [|reflexivity]. destruct (proj1 (C i) eq_refl) as (j & -> & Hj & L & U). exfalso.
    rewrite Nat.add_0_l in *. unfold cumulated in Hb. rewrite firstn_all in Hb.
    assert (G := cum_grows (skipn (S j) probs) (fold_left dadd (firstn (S j) probs) (dofZ 0))).
    rewrite <- fold_left_app, firstn_skipn in G.
    assert (N : nz (Z.of_nat (S j)) (fold_left dadd (firstn (S j) probs) (dofZ 0))).
    { clear -Hp' Hj Z20. assert (W : forall l c b, nz b c -> Forall (nz 1) l -> b + Z.of_nat (length l) < 2 ^ 53 -> nz (b + Z.of_nat (length l)) (fold_left dadd l c)).
      { induction l as [|p l IH]; intros c b Hc Hl Hb; cbn [fold_left length] in *; [rewrite Z.add_0_r; exact Hc|]. inversion Hl; subst.
        replace (b + Z.of_nat (S (length l))) with (b + 1 + Z.of_nat (length l)) by lia. apply IH; [apply nz_add; auto; lia|assumption|lia]. }
      specialize (W (firstn (S j) probs) (dofZ 0) 0 zero_nz). rewrite firstn_length_le in W by lia. apply W; [|lia].
      apply Forall_forall; intros x Hx; eapply Forall_forall; [exact Hp'|eapply firstn_In2; exact Hx]. }
    specialize (G _ N). rewrite skipn_length in G.
    assert (F : Forall (nz 1) (skipn (S j) probs)). { rewrite <- (firstn_skipn (S j) probs) in Hp'. apply Forall_app in Hp'. apply Hp'. }
    specialize (G F ltac:(lia)). lra.
Qed.
Theorem change_spec d l changed k z : change_environment d l = Ret (changed, k, z) -> exists dur,
  nth_error (p_durations (k_profile (l_sim l))) (k_index (l_sim l)) = Some dur /\
  if due dur (l_env_time l) (d_change d) then select_next (d_select d) (l_sim l) = Ret (changed, k) /\ z = 0 else changed = false /\ k = l_sim l /\ z = l_env_time l.
Proof.
  unfold change_environment, due. destruct (nth_error _ _) as [dur|]; [|discriminate]. intros H. exists dur. split; [reflexivity|]. bind H lim L.
  unfold fcast in L. destruct (trunc_sf _) as [t|]; [|discriminate L]. destruct (fitsb _ _); [|discriminate L]. injection L as <-.
  destruct (_ || _)%bool; [|injection H as <- <- <-; auto]. bind H y S. injection H as <- <- <-. destruct y; auto.
Qed.
Lemma select_in_profile val k b k' : in_profile k -> select_next val k = Ret (b, k') -> in_profile k' /\ (b = true <-> k_index k' <> k_index k).
Proof.
  unfold select_next. intros I. destruct (_ <=? _)%nat. { intros H. injection H as <- <-. split; [exact I|]. split; [discriminate|congruence]. }
  destruct (nth_error _ _) as [e|] eqn:E; [|discriminate]. intros H. injection H as <- <-. split; [exact E|]. cbn. rewrite negb_true_iff, Nat.eqb_neq. split; congruence.
Qed.

Section ex.
Variable E : sf -> sf.
Lemma pass_in_profile cb ts d l l' : pass E cb ts d l = Ret l' -> in_profile (l_sim l) -> in_profile (l_sim l').
Proof.
  intros H I. apply pass_inv in H. destruct H as (ch & k & et & st & m & scrub & Hc & _ & _ & _ & _ & _ & Hk & _ & _). rewrite Hk.
  change (in_profile k). apply change_spec in Hc. destruct Hc as (dur & _ & Hc). destruct (due _ _ _); [|destruct Hc as (_ & -> & _); exact I].
  destruct Hc as [Hc _]. eapply select_in_profile; [exact I|exact Hc].
Qed.
(** one pass: the environment in force and the callback *)
Theorem pass_environment cb ts d l l' : pass E cb ts d l = Ret l' -> in_profile (l_sim l) ->
  exists dur, nth_error (p_durations (k_profile (l_sim l))) (k_index (l_sim l)) = Some dur /\ in_profile (l_sim l') /\
    (due dur (l_env_time l) (d_change d) = false -> k_index (l_sim l') = k_index (l_sim l) /\ l_env_time l' = l_env_time l + ts) /\
    (due dur (l_env_time l) (d_change d) = true -> l_env_time l' = ts /\ exists b, select_next (d_select d) (l_sim l) = Ret (b, set_stats (k_stats (l_sim l)) (l_sim l'))) /\
    changes (l_seen l') = (changes (l_seen l) ++ (if cb && negb (k_index (l_sim l') =? k_index (l_sim l))%nat then [k_env (l_sim l')] else []))%list.
Proof.
  intros H I. pose proof (pass_in_profile _ _ _ _ _ H I) as I'. apply pass_inv in H. destruct H as (ch & k & et & st & m & scrub & Hc & _ & _ & _ & _ & Et & Hk & _ & Hs).
  pose proof (change_keeps _ _ _ _ _ Hc) as (P & Q & S & G). apply change_spec in Hc. destruct Hc as (dur & Hd & Hc). exists dur. split; [exact Hd|]. split; [exact I'|].
  rewrite Hk in *. cbn [set_stats k_index k_env k_stats].
  assert (B : ch = negb (k_index k =? k_index (l_sim l))%nat).
  { destruct (due _ _ _). - destruct Hc as [Hc _]. destruct (select_in_profile _ _ _ _ I Hc) as [_ W]. destruct (Nat.eqb_spec (k_index k) (k_index (l_sim l))) as [e|e]; cbn; [|apply W; exact e].
      destruct ch; [|reflexivity]. exfalso. apply (proj1 W eq_refl). exact e.
    - destruct Hc as (-> & -> & _). rewrite Nat.eqb_refl. reflexivity. }
  split; [|split].
  - intros D. rewrite D in Hc. destruct Hc as (_ & -> & ->). auto.
  - intros D. rewrite D in Hc. destruct Hc as (Hc & ->). split; [lia|]. exists ch. rewrite Hc. destruct k; cbn in *. subst. reflexivity.
  - rewrite Hs. unfold changes. rewrite !flat_map_app. f_equal. rewrite <- B. destruct ch, cb, scrub; reflexivity.
Qed.

(** * memory *)
Lemma update_len m i f m' : update m i f = Ret m' -> length m' = length m.
Proof.
  unfold update. destruct (_ <? _)%N; [|discriminate]. intros H. injection H as <-. generalize (wrap 8 (f (nth (N.to_nat i) m 0%N))) (N.to_nat i). clear. intros v j. revert j.
  induction m as [|a m IH]; intros [|j]; cbn; auto.
Qed.
Lemma effects_len r : forall ds m m' es, simulate_effects r m ds = Ret (m', es) -> length m' = length m.
Proof.
  induction ds as [|d ds IH]; cbn [simulate_effects]; intros m m' es H; [injection H as <- _; reflexivity|].
  destruct (generate_event r m d) as [[m1 e]| | |] eqn:G; try discriminate H.
  destruct (simulate_effects r m1 ds) as [[m2 es2]| | |] eqn:S; try discriminate H. injection H as <- _. rewrite (IH _ _ _ S).
  unfold generate_event in G. destruct (update _ _ _) eqn:U in G; try discriminate G. injection G as <- _. eapply update_len. exact U.
Qed.
Lemma strike_inv e ts g m ds x : strike E e ts g m ds = Ret x -> (g_addr g + g_size g <= length m)%nat /\ exists sl,
  simulate (env_rates E e) (firstn (g_size g) (skipn (g_addr g) m)) ts ds = Ret (sl, snd x) /\ length sl = g_size g /\
  fst x = (firstn (g_addr g) m ++ sl ++ skipn (g_addr g + g_size g) m)%list.
Proof.
  unfold strike. destruct (Nat.leb_spec (g_addr g + g_size g) (length m)) as [L|]; [|discriminate]. intros H. bind H y S. injection H as <-. split; [exact L|].
  destruct y as [sl es]. exists sl. cbn [fst snd]. split; [exact S|]. split; [|reflexivity]. unfold simulate in S. destruct (flt _ _); [|discriminate S].
  apply effects_len in S. rewrite S, firstn_length, skipn_length. lia.
Qed.
Lemma strike_mem e ts g m ds x : strike E e ts g m ds = Ret x -> length (fst x) = length m /\
  forall i, (i < g_addr g \/ g_addr g + g_size g <= i)%nat -> nth i (fst x) 0%N = nth i m 0%N.
Proof.
  intros H. apply strike_inv in H. destruct H as (L & sl & _ & Ls & ->). split.
  - rewrite !app_length, firstn_length, skipn_length, Ls. lia.
  - intros i [H|H].
    + rewrite app_nth1 by (rewrite firstn_length; lia). rewrite <- (firstn_skipn (g_addr g) m) at 2. rewrite app_nth1 by (rewrite firstn_length; lia). reflexivity.
    + rewrite app_assoc, app_nth2 by (rewrite app_length, firstn_length; lia). rewrite app_length, firstn_length, Ls, Nat.min_l by lia.
      rewrite <- (firstn_skipn (g_addr g + g_size g) m) at 2. rewrite app_nth2 by (rewrite firstn_length; lia). rewrite firstn_length, Nat.min_l by lia. reflexivity.
Qed.
Lemma strikes_mem e s ts : forall gs dss m st x, strike_regions E e s ts gs dss m st = Ret x -> length (fst x) = length m /\ forall i, ~ covered gs i -> nth i (fst x) 0%N = nth i m 0%N.
Proof.
  induction gs as [|g gs IH]; intros dss m st x H; cbn [strike_regions] in H; [injection H as <-; auto|].
  bind H y S. apply strike_mem in S. destruct S as [L1 U1]. apply IH in H. destruct H as [L2 U2]. split; [congruence|].
  intros i Hi. rewrite U2, U1; [reflexivity| |].
  - destruct (Nat.lt_ge_cases i (g_addr g)); [auto|]. destruct (Nat.lt_ge_cases i (g_addr g + g_size g)); [|auto]. exfalso. apply Hi. exists g. split; [left; reflexivity|lia].
  - intros (g' & Hg & B). apply Hi. exists g'. split; [right; exact Hg|exact B].
Qed.
Theorem run_memory cb total ts ds k m x : run_simulation E cb total ts ds k m = Ret x -> length (snd (fst x)) = length m /\
  forall i, ~ covered (k_regions k) i -> nth i (snd (fst x)) 0%N = nth i m 0%N.
Proof.
  intros H. apply run_inv in H. destruct H as (l & L & ->).
  apply (passes_ind E (fun l => k_regions (l_sim l) = k_regions k /\ length (l_mem l) = length m /\ forall i, ~ covered (k_regions k) i -> nth i (l_mem l) 0%N = nth i m 0%N)) in L;
    [exact (proj2 (proj1 L))| |cbn; auto].
  intros d l1 l2 _ H (A & B & C). apply pass_inv in H. destruct H as (ch & k1 & et & st & m1 & scrub & Hc & Hs & _ & _ & _ & _ & Hk & Hm & _).
  destruct (change_keeps _ _ _ _ _ Hc) as (_ & _ & _ & G). apply strikes_mem in Hs. cbn [fst] in Hs. rewrite Hk, Hm. cbn [set_stats k_regions]. rewrite G, A in *.
  destruct Hs as [S1 S2]. split; [reflexivity|]. split; [congruence|]. intros i Hi. rewrite S2, C by assumption. reflexivity.
Qed.
(** the memory does not depend on the configuration *)
Definition same_course (a b : loop) : Prop :=
  k_profile (l_sim a) = k_profile (l_sim b) /\ k_env (l_sim a) = k_env (l_sim b) /\ k_index (l_sim a) = k_index (l_sim b) /\ k_regions (l_sim a) = k_regions (l_sim b) /\
  l_elapsed a = l_elapsed b /\ l_env_time a = l_env_time b /\ l_mem a = l_mem b /\ changes (l_seen a) = changes (l_seen b).
Lemma strikes_same e s1 s2 ts : forall gs dss m st1 st2 x y, strike_regions E e s1 ts gs dss m st1 = Ret x -> strike_regions E e s2 ts gs dss m st2 = Ret y -> fst x = fst y.
Proof.
  induction gs as [|g gs IH]; intros dss m st1 st2 x y H1 H2; cbn [strike_regions] in *; [injection H1 as <-; injection H2 as <-; reflexivity|].
  bind H1 u U. bind H2 v W. rewrite U in W. injection W as <-. eapply IH; [exact H1|exact H2].
Qed.
Lemma select_same val k1 k2 b1 b2 k1' k2' : k_profile k1 = k_profile k2 -> k_env k1 = k_env k2 -> k_index k1 = k_index k2 -> k_regions k1 = k_regions k2 ->
  select_next val k1 = Ret (b1, k1') -> select_next val k2 = Ret (b2, k2') ->
  b1 = b2 /\ k_profile k1' = k_profile k2' /\ k_env k1' = k_env k2' /\ k_index k1' = k_index k2' /\ k_regions k1' = k_regions k2'.
Proof.
  intros P V I G. unfold select_next. rewrite P, I. destruct (_ <=? _)%nat. { intros H1 H2. injection H1 as <- <-. injection H2 as <- <-. auto. }
  destruct (nth_error _ _); [|discriminate]. intros H1 H2. injection H1 as <- <-. injection H2 as <- <-. cbn. auto.
Qed.
Lemma pass_same cb ts d a b a' b' : same_course a b -> pass E cb ts d a = Ret a' -> pass E cb ts d b = Ret b' -> same_course a' b'.
Proof.
  intros (P & V & I & G & El & Et & M & Ch) HA HB. apply pass_inv in HA, HB.
  destruct HA as (ch1 & k1 & et1 & st1 & m1 & sc1 & C1 & S1 & _ & E1 & _ & T1 & K1 & M1 & L1). destruct HB as (ch2 & k2 & et2 & st2 & m2 & sc2 & C2 & S2 & _ & E2 & _ & T2 & K2 & M2 & L2).
  assert (Q : ch1 = ch2 /\ et1 = et2 /\ k_profile k1 = k_profile k2 /\ k_env k1 = k_env k2 /\ k_index k1 = k_index k2 /\ k_regions k1 = k_regions k2).
  { apply change_spec in C1, C2. destruct C1 as (d1 & D1 & C1), C2 as (d2 & D2 & C2). rewrite P, I, D2 in D1. injection D1 as <-. rewrite Et in C1. destruct (due _ _ _).
    - destruct C1 as [C1 ->], C2 as [C2 ->]. destruct (select_same _ _ _ _ _ _ _ P V I G C1 C2) as (-> & R). tauto.
    - destruct C1 as (-> & -> & ->), C2 as (-> & -> & ->). tauto. }
  destruct Q as (-> & -> & P' & V' & I' & G'). unfold same_course. rewrite K1, K2, E1, E2, T1, T2, M1, M2, L1, L2. cbn [set_stats k_profile k_env k_index k_regions].
  rewrite V', G', M in S1. pose proof (strikes_same _ _ _ _ _ _ _ _ _ _ _ S1 S2) as Q. cbn [fst] in Q. repeat (split; [first [assumption|congruence]|]).
  unfold changes in *. rewrite !flat_map_app, Ch, V'. f_equal. destruct (ch2 && cb)%bool, sc1, sc2; reflexivity.
Qed.
Theorem run_same cb total ts ds k1 k2 m x y : k_profile k1 = k_profile k2 -> k_env k1 = k_env k2 -> k_index k1 = k_index k2 -> k_regions k1 = k_regions k2 ->
  run_simulation E cb total ts ds k1 m = Ret x -> run_simulation E cb total ts ds k2 m = Ret y -> snd (fst x) = snd (fst y) /\ changes (snd x) = changes (snd y).
Proof.
  intros P V I G HA HB. apply run_inv in HA, HB. destruct HA as (a & A & ->), HB as (b & B & ->). cbn [fst snd run_end].
  assert (S : same_course (run_start k1 m) (run_start k2 m)) by (unfold same_course; cbn; auto 10).
  revert A B S. generalize (run_start k1 m) (run_start k2 m). induction ds as [|d ds IH]; intros l1 l2 A B S; cbn [passes] in A, B;
    (assert (Q : l_elapsed l1 = l_elapsed l2) by apply S); rewrite <- Q in B; destruct (_ <? _).
  - discriminate A. - injection A as <-. injection B as <-. split; apply S.
  - bind A l1' A1. bind B l2' B1. eapply IH; [exact A|exact B|]. eapply pass_same; eassumption.
  - injection A as <-. injection B as <-. split; apply S.
Qed.
End ex.
