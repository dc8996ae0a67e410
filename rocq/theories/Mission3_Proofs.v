From Coq Require Import String List NArith ZArith Bool Lia Reals Lra SpecFloat.
Import ListNotations.
From Verif Require Import Outcome Words Floats FloatsR HealthFloat Approx_Model Bits_Model RMA3_Proofs Power2_Proofs Strat4_Proofs MBP6_Proofs.
From Verif Require Import Edac_Model Edac_Spec Inject_Model Inject_Spec Inject3_Proofs Inject4_Proofs Scrub_Model Mission_Model Mission_Spec Mission_Proofs Mission2_Proofs.
Local Open Scope Z_scope.
Local Open Scope outcome_scope.
Local Opaque dlit dofZ dadd dsub dmul ddiv.

Section ex.
Variable E : sf -> sf.
(** * completion *)
Lemma fits z : - 2 ^ 63 <= z < 2 ^ 63 -> millis z = Ret z.
Proof. intros H. unfold millis, arith. cbn [isg int64]. unfold fitsb. replace (imin int64) with (- 2 ^ 63) by reflexivity. replace (imax int64) with (2 ^ 63 - 1) by reflexivity.
  destruct (Z.leb_spec (- 2 ^ 63) z), (Z.leb_spec z (2 ^ 63 - 1)); try lia. reflexivity. Qed.
Lemma bytes_slice a n m : bytes m -> bytes (firstn n (skipn a m)).
Proof. unfold bytes. intros H. apply Forall_forall. intros x Hx. apply firstn_In2 in Hx. rewrite Forall_forall in H. apply H. rewrite <- (firstn_skipn a m). apply in_or_app. right. exact Hx. Qed.
Lemma strike_ok e ts g m ds : active E ts e -> bytes m -> (0 < g_size g)%nat -> (g_addr g + g_size g <= length m)%nat -> Forall (legal_rs (g_size g)) ds ->
  exists x, strike E e ts g m ds = Ret x /\ bytes (fst x) /\ length (fst x) = length m.
Proof.
  intros A B Hs Hl Hd. assert (L : length (firstn (g_size g) (skipn (g_addr g) m)) = g_size g) by (rewrite firstn_length, skipn_length; lia).
  destruct (effects (env_rates E e) ds _ (bytes_slice (g_addr g) (g_size g) m B)) as (m' & es & S & B' & L' & _); [rewrite L; exact Hd|].
  assert (S' : simulate (env_rates E e) (firstn (g_size g) (skipn (g_addr g) m)) ts ds = Ret (m', es)) by (unfold simulate; unfold active in A; rewrite A; exact S).
  unfold strike. destruct (Nat.leb_spec (g_addr g + g_size g) (length m)); [|lia]. rewrite S'. cbn [obind fst snd]. eexists. split; [reflexivity|]. cbn [fst]. split.
  - unfold bytes in *. apply Forall_app. split; [apply Forall_forall; intros x Hx; rewrite Forall_forall in B; apply B; eapply firstn_In2; exact Hx|]. apply Forall_app. split; [exact B'|].
    rewrite <- (firstn_skipn (g_addr g + g_size g) m) in B. apply Forall_app in B. apply B.
  - rewrite !app_length, firstn_length, skipn_length, L', L. lia.
Qed.
Lemma strikes_ok e s ts : active E ts e -> forall gs dss m st, bytes m -> regions_in gs (length m) ->
  Forall (fun x => Forall (fun y => legal_rs (g_size (fst x)) (fst y)) (snd x)) (combine gs dss) ->
  exists x, strike_regions E e s ts gs dss m st = Ret x /\ bytes (fst x) /\ length (fst x) = length m.
Proof.
  intros A. induction gs as [|g gs IH]; intros dss m st B Hr Hd; cbn [strike_regions]; [eexists; split; [reflexivity|auto]|].
  inversion Hr as [|? ? [H1 H2] H3]; subst.
  assert (HD : Forall (legal_rs (g_size g)) (map fst (hd [] dss)) /\ Forall (fun x => Forall (fun y => legal_rs (g_size (fst x)) (fst y)) (snd x)) (combine gs (tl dss))).
  { destruct dss as [|ds dss]; cbn [hd tl map combine] in *; [split; [constructor|destruct gs; constructor]|]. inversion Hd as [|? ? D1 D2]; subst. split; [|exact D2]. apply Forall_map. exact D1. }
  destruct (strike_ok e ts g m (map fst (hd [] dss)) A B H1 H2 (proj1 HD)) as (x & X & Bx & Lx). rewrite X. cbn [obind].
  destruct (IH (tl dss) (fst x) (fold_left (record_event (mission_name e) s (g_prot g)) (combine (snd x) (map snd (hd [] dss))) st) Bx) as (y & Y & By & Ly);
    [rewrite Lx; exact H3|exact (proj2 HD)|]. exists y. split; [exact Y|]. split; [exact By|congruence].
Qed.
Lemma duration_ok x : proper_duration x -> exists z, fcast int64 (dmul x (dofZ 1000)) = Ret z.
Proof.
  intros [O B]. destruct (ofZ_ex 1000) as [O1 R1]; [lia|]. destruct (mul_d x (dofZ 1000) O O1) as [O2 R2]; [rewrite R1; unfold mid; lra|].
  assert (U : (0 <= R (dmul x (dofZ 1000)) <= IZR 9000000000000000)%R).
  { rewrite R2, R1. split; [apply rnd_pos; lra|]. apply rnd_up; [lia|]. apply Rle_trans with (9000000000000 * 1000)%R; [lra|]. rewrite <- mult_IZR. apply IZR_le. lia. }
  destruct (trunc_between _ _ (proj2 O2) U) as (z & T & Hz). exists z. unfold fcast. rewrite T. unfold fitsb.
  replace (imin int64) with (- 2 ^ 63) by reflexivity. replace (imax int64) with (2 ^ 63 - 1) by reflexivity. destruct (Z.leb_spec (- 2 ^ 63) z), (Z.leb_spec z (2 ^ 63 - 1)); try lia. reflexivity.
Qed.
Local Notation ready := (Mission_Spec.ready E).
Lemma choose_bound val : forall probs c k i, choose val c k probs = Some i -> (k <= i < k + length probs)%nat.
Proof.
  induction probs as [|p probs IH]; intros c k i; cbn [choose]; [discriminate|]. destruct (flt _ _); [intros H; injection H as <-; cbn; lia|]. intros H. apply IH in H. cbn. lia.
Qed.
Lemma change_ok ts d l m : ready ts (l_sim l) m -> exists b k z, change_environment d l = Ret (b, k, z) /\ ready ts k m /\ (z = 0 \/ z = l_env_time l).
Proof.
  intros R. pose proof R as ((Pn & Pd & Pp & Pf) & I & A & Ae & B & G). unfold change_environment.
  destruct (nth_error (p_durations (k_profile (l_sim l))) (k_index (l_sim l))) as [dur|] eqn:D; [|apply nth_error_None in D; lia].
  assert (Hd : proper_duration dur) by (eapply Forall_forall; [exact Pf|eapply nth_error_In; exact D]). destruct (duration_ok dur Hd) as (z & ->). cbn [obind].
  destruct (_ || _)%bool; [|exists false, (l_sim l), (l_env_time l); auto].
  unfold select_next. destruct (_ <=? _)%nat; [cbn [obind fst snd]; exists false, (l_sim l), 0; auto|].
  set (i := match choose _ _ _ _ with Some i => i | None => _ end).
  assert (Hi : (i < length (p_envs (k_profile (l_sim l))))%nat). { unfold i. destruct (choose _ _ _ _) eqn:C; [apply choose_bound in C; lia|exact I]. }
  destruct (nth_error (p_envs (k_profile (l_sim l))) i) as [e|] eqn:N; [|apply nth_error_None in N; lia]. cbn [obind fst snd].
  eexists _, _, 0. split; [reflexivity|]. split; [|auto]. unfold Mission_Spec.ready, bytes_in. cbn. split; [unfold proper_profile; auto|]. split; [exact Hi|]. split; [exact A|].
  split; [|auto]. eapply Forall_forall; [exact A|eapply nth_error_In; exact N].
Qed.
Lemma pass_ok cb ts d l : ready ts (l_sim l) (l_mem l) -> legal_step (k_regions (l_sim l)) d -> 0 < ts -> 0 <= l_last l <= l_elapsed l -> l_elapsed l + ts < 2 ^ 63 -> 0 <= l_env_time l <= l_elapsed l ->
  exists l', pass E cb ts d l = Ret l' /\ ready ts (l_sim l') (l_mem l') /\ k_regions (l_sim l') = k_regions (l_sim l) /\ l_elapsed l' = l_elapsed l + ts /\
    0 <= l_last l' <= l_elapsed l' /\ 0 <= l_env_time l' <= l_elapsed l'.
Proof.
  intros R Hd Ht Hl Ho He. destruct (change_ok ts d l _ R) as (b & k & z & C & R' & Hz).
  assert (P : exists l', pass E cb ts d l = Ret l' /\ bytes (l_mem l') /\ length (l_mem l') = length (l_mem l)).
  { unfold pass. rewrite C. cbn [obind]. destruct (change_keeps _ _ _ _ _ C) as (_ & _ & _ & G). set (s := settings_of _ _).
    destruct R' as (Q1 & Q2 & Q3 & Q4 & Q5 & Q6). unfold legal_step in Hd. rewrite <- G in Hd.
    destruct (strikes_ok (k_env k) s ts Q4 (k_regions k) (d_events d) (l_mem l) (add_time (mission_name (k_env k)) ts (k_stats k)) Q5 Q6 Hd) as ([m st] & S & Bm & Lm). cbn [fst] in *.
    rewrite S. cbn [obind]. rewrite (fits (l_elapsed l - l_last l)) by lia. cbn [obind].
    assert (W : forall (f : bool) sc, exists m2 sc2, (if f then let '(_, m', sc) := scrubMemory (as_memory m) (l_scrubber l) in (map m' (seq 0 (length m)), sc) else (m, sc)) = (m2, sc2) /\ m2 = m).
    { intros f sc. destruct f; [|eauto]. unfold scrubMemory. destruct (scrub_regions _ _ _) as [[lr e] st']. eexists _, _. split; [reflexivity|].
      unfold as_memory. clear. induction m as [|a m IH]; [reflexivity|]. cbn [length seq map nth]. f_equal. rewrite <- seq_shift, map_map. cbn [nth]. exact IH. }
    destruct (W (s_scrub s && (s_interval s <=? l_elapsed l - l_last l))%bool (l_scrubber l)) as (m2 & sc2 & -> & ->).
    rewrite (fits (l_elapsed l + ts)) by lia. cbn [obind]. rewrite (fits (z + ts)) by lia. cbn [obind]. eexists. split; [reflexivity|]. cbn [l_mem]. auto. }
  destruct P as (l' & P & Bm & Lm). exists l'. split; [exact P|]. apply pass_inv in P. destruct P as (ch & k1 & et & st & m & scrub & Hc & _ & _ & H4 & H5 & H6 & H7 & H8 & _).
  rewrite C in Hc. injection Hc as <- <- <-. destruct (change_keeps _ _ _ _ _ C) as (_ & _ & _ & G).
  rewrite H7. cbn [set_stats k_regions]. split; [|split; [exact G|split; [exact H4|split]]].
  - destruct R' as (Q1 & Q2 & Q3 & Q4 & Q5 & Q6). unfold Mission_Spec.ready, bytes_in. cbn [set_stats k_profile k_index k_env k_regions]. rewrite Lm. auto 10.
  - rewrite H5, H4. destruct scrub; lia.
  - rewrite H6, H4. lia.
Qed.
Theorem run_completes cb total ts ds k m : ready ts k m -> 0 < ts -> 0 <= total -> total * 1000 + ts < 2 ^ 63 -> Forall (legal_step (k_regions k)) ds -> steps total ts <= Z.of_nat (length ds) ->
  exists x, run_simulation E cb total ts ds k m = Ret x /\ ready ts (fst (fst x)) (snd (fst x)).
Proof.
  intros R Ht Hn Ho Hd Hs. unfold run_simulation. rewrite fits by lia. cbn [obind].
  assert (G : forall ds l, ready ts (l_sim l) (l_mem l) -> Forall (legal_step (k_regions (l_sim l))) ds -> 0 <= l_last l <= l_elapsed l -> 0 <= l_env_time l <= l_elapsed l ->
    total * 1000 <= l_elapsed l + ts * Z.of_nat (length ds) -> exists l', passes E cb total ts ds l = Ret l' /\ ready ts (l_sim l') (l_mem l')).
  { clear Hs Hd ds R. induction ds as [|d ds IH]; intros l R Hd Hl He Hs; cbn [passes length] in *; destruct (Z.ltb_spec (l_elapsed l) (total * 1000)) as [L|L]; try lia;
      try (exists l; split; [reflexivity|exact R]). inversion Hd as [|? ? D1 D2]; subst.
    destruct (pass_ok cb ts d l R D1 Ht Hl ltac:(lia) He) as (l1 & P & R1 & G1 & E1 & L1 & T1). rewrite P. cbn [obind]. apply IH; auto; [rewrite G1; exact D2|lia]. }
  destruct (G ds (run_start k m)) as (l' & P & R'); [exact R|exact Hd|cbn; lia|cbn; lia| |].
  { cbn [run_start l_elapsed]. unfold steps in Hs. pose proof (Z.div_mod (total * 1000 + ts - 1) ts ltac:(lia)). pose proof (Z.mod_pos_bound (total * 1000 + ts - 1) ts Ht). nia. }
  unfold run_start in P. rewrite P. cbn [obind]. eexists. split; [reflexivity|]. cbn [fst snd]. destruct R' as (Q1 & Q2 & Q3 & Q4 & Q5 & Q6). unfold Mission_Spec.ready, bytes_in. cbn [set_stats k_profile k_index k_env k_regions]. auto 10.
Qed.
Theorem run_endless cb total ts ds k m x : ts <= 0 -> 0 < total -> run_simulation E cb total ts ds k m <> Ret x.
Proof.
  intros Ht Hn H. apply run_inv in H. destruct H as (l & L & _).
  apply (passes_ind E (fun l => l_elapsed l <= 0)) in L; [lia| |cbn; lia].
  intros d l1 l2 _ P A. apply pass_inv in P. destruct P as (ch & k1 & et & st & m1 & scrub & _ & _ & _ & H4 & _). lia.
Qed.
(** the passes a finished run took *)
Lemma passes_elapsed cb total ts : 0 < ts -> forall ds l l', passes E cb total ts ds l = Ret l' -> exists n, 0 <= n /\ l_elapsed l' = l_elapsed l + n * ts /\ total * 1000 <= l_elapsed l' /\
  (l_elapsed l < total * 1000 -> l_elapsed l' < total * 1000 + ts) /\ (total * 1000 <= l_elapsed l -> n = 0).
Proof.
  intros Ht. induction ds as [|d ds IH]; intros l l' H; cbn [passes] in H; destruct (Z.ltb_spec (l_elapsed l) (total * 1000)) as [L|L].
  - discriminate H. - injection H as <-. exists 0. repeat split; lia.
  - bind H l1 P. apply IH in H. destruct H as (n & Hn & H1 & H2 & H3 & H4). apply pass_inv in P. destruct P as (ch & k1 & et & st & m1 & scrub & _ & _ & _ & H5 & _).
    exists (n + 1). repeat split; try lia.
  - injection H as <-. exists 0. repeat split; lia.
Qed.
Lemma steps_unique total ts n : 0 < ts -> 0 <= total -> total * 1000 <= n * ts -> (0 < total -> n * ts < total * 1000 + ts) -> (total = 0 -> n = 0) -> n = steps total ts.
Proof.
  intros Ht Hn A B C. unfold steps. destruct (Z.eq_dec total 0) as [->|N].
  - rewrite (C eq_refl). symmetry. apply Z.div_small. lia.
  - specialize (B ltac:(lia)). apply (Z.div_unique _ _ _ (total * 1000 + ts - 1 - n * ts)); lia.
Qed.
End ex.
