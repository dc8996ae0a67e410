From Coq Require Import String List NArith ZArith Bool Lia Reals Lra SpecFloat.
From Flocq Require Import Core.
From Flocq.IEEE754 Require Import BinarySingleNaN.
Import ListNotations.
From Verif Require Import Outcome Words Floats FloatsR HealthFloat Approx_Model Bits_Model Health_Proofs RMA3_Proofs Power2_Proofs Strat4_Proofs MBP6_Proofs.
From Verif Require Import Edac_Model Edac_Spec Inject_Model Inject_Spec Inject3_Proofs Inject4_Proofs Scrub_Model Mission_Model Mission_Spec Mission_Proofs Mission2_Proofs Mission3_Proofs.
Local Open Scope Z_scope.
Local Open Scope outcome_scope.
Local Opaque dlit dofZ dadd dsub dmul ddiv.

Lemma okd_inj a b : okd a -> okd b -> R a = R b -> R a <> 0%R -> a = b.
Proof.
  intros [Va Fa] [Vb Fb] E N. rewrite <- (lift_sf 53 1024 _ Va), <- (lift_sf 53 1024 _ Vb). f_equal.
  apply B2R_inj; [| |rewrite !lift_R; exact E]; [rewrite <- (lift_R 53 1024 _ Va) in N|rewrite E, <- (lift_R 53 1024 _ Vb) in N].
  - destruct (lift 53 1024 a Va) eqn:L; try reflexivity; cbn in N; try congruence.
  - destruct (lift 53 1024 b Vb) eqn:L; try reflexivity; cbn in N; try congruence.
Qed.
Lemma add_seconds x s : 0 <= x -> 0 < s -> x + s < 2 ^ 43 -> dadd (dofZ x) (ddiv (dofZ (1000 * s)) (dofZ 1000)) = dofZ (x + s).
Proof.
  intros Hx Hs Hb. destruct (ofZ_ex x) as [O1 R1]; [lia|]. destruct (ofZ_ex (1000 * s)) as [O2 R2]; [lia|]. destruct (ofZ_ex 1000) as [O3 R3]; [lia|]. destruct (ofZ_ex (x + s)) as [O4 R4]; [lia|].
  assert (Q : (R (dofZ (1000 * s)) / R (dofZ 1000) = IZR s)%R) by (rewrite R2, R3, mult_IZR; field).
  assert (M : forall z, 0 <= z < 2 ^ 43 -> mid (IZR z)). { intros z Hz. apply midz. split; [apply Rle_trans with 0%R; [lra|apply IZR_le; lia]|apply IZR_le; lia]. }
  destruct (div_d _ _ O2 O3) as [O5 R5]; [rewrite R3; lra|rewrite Q; apply M; lia|]. rewrite Q, rnd_z in R5 by lia.
  destruct (add_d _ _ O1 O5) as [O6 R6]; [rewrite R1, R5, <- plus_IZR; apply M; lia|]. rewrite R1, R5, <- plus_IZR, rnd_z in R6 by lia.
  apply okd_inj; [exact O6|exact O4|congruence|]. rewrite R6. apply not_0_IZR. lia.
Qed.
Lemma update_times name f s : 0 < s -> forall m zs, map snd m = map dofZ zs -> Forall (fun x => 0 <= x) zs -> (forall x, 0 <= x <= fold_right Z.add 0 zs -> f (dofZ x) = dofZ (x + s)) ->
  exists zs', map snd (update_map (dofZ 0) name f m) = map dofZ zs' /\ Forall (fun x => 0 <= x) zs' /\ fold_right Z.add 0 zs' = fold_right Z.add 0 zs + s.
Proof.
  intros Hs. induction m as [|[n v] m IH]; intros [|z zs] H Hz Hf; try discriminate H; cbn [update_map map fold_right] in *.
  - exists [s]. cbn. rewrite (Hf 0) by lia. cbn. split; [reflexivity|]. split; [constructor; [lia|constructor]|lia].
  - cbn [snd] in H. injection H as Hv Hm. inversion Hz as [|? ? Z1 Z2]; subst. assert (P : 0 <= fold_right Z.add 0 zs) by (clear -Z2; induction Z2; cbn; lia).
    destruct (String.eqb n name); cbn [map snd].
    + exists (z + s :: zs). cbn [map fold_right]. rewrite Hf by lia. rewrite Hm. split; [reflexivity|]. split; [constructor; [lia|exact Z2]|lia].
    + destruct (IH zs Hm Z2) as (zs' & A & B & C); [intros x Hx; apply Hf; lia|]. exists (z :: zs'). cbn [map fold_right]. rewrite A. split; [reflexivity|]. split; [constructor; [lia|exact B]|lia].
Qed.
Lemma add_time_whole name s st z : 0 < s -> z + s < 2 ^ 43 -> whole_times st z -> whole_times (add_time name (1000 * s) st) (z + s).
Proof.
  intros Hs Hb (zs & A & B & C). unfold whole_times, add_time. cbn [m_time].
  destruct (update_times name (fun t => dadd t (ddiv (dofZ (1000 * s)) (dofZ 1000))) s Hs (m_time st) zs A B) as (zs' & A' & B' & C').
  - intros x Hx. apply add_seconds; lia.
  - exists zs'. repeat split; [exact A'|exact B'|lia].
Qed.
Section ex.
Variable E : sf -> sf.
Lemma strike_time e s ts : forall gs dss m st x, strike_regions E e s ts gs dss m st = Ret x -> m_time (snd x) = m_time st /\ m_scrubs (snd x) = m_scrubs st.
Proof.
  induction gs as [|g gs IH]; intros dss m st x H; cbn [strike_regions] in H; [injection H as <-; auto|].
  bind H y S. destruct (IH _ _ _ _ H) as [-> ->]. generalize (combine (snd y) (map snd (hd [] dss))). clear. intros l. revert st. induction l as [|[e1 d] l IH]; intros st; cbn [fold_left]; [auto|].
  destruct (IH (record_event (mission_name e) s (g_prot g) st (e1, d))) as [-> ->]. unfold record_event. destruct (verdict _ _ _ _) as [[a b] c]. auto.
Qed.
Theorem pass_time cb ts d l l' : pass E cb ts d l = Ret l' ->
  m_time (k_stats (l_sim l')) = m_time (add_time (mission_name (k_env (l_sim l'))) ts (k_stats (l_sim l))).
Proof.
  intros P. apply pass_inv in P. destruct P as (ch & k1 & et & st & m1 & scrub & Hc & Hs & _ & _ & _ & _ & Hk & _). destruct (change_keeps _ _ _ _ _ Hc) as (_ & _ & S & _).
  apply strike_time in Hs. cbn [snd] in Hs. rewrite Hk. cbn [set_stats k_stats k_env]. destruct scrub; cbn [add_scrub m_time]; rewrite (proj1 Hs), S; reflexivity.
Qed.
Theorem pass_time_in cb ts d l l' : pass E cb ts d l = Ret l' -> let name := mission_name (k_env (l_sim l')) in
  time_in name (k_stats (l_sim l')) = Some (dadd (match time_in name (k_stats (l_sim l)) with Some t => t | None => dofZ 0 end) (ddiv (dofZ ts) (dofZ 1000))) /\
  forall other, other <> name -> time_in other (k_stats (l_sim l')) = time_in other (k_stats (l_sim l)).
Proof.
  intros P. apply pass_time in P. cbn zeta. unfold time_in. rewrite P. unfold add_time. cbn [m_time]. split; [rewrite lookup_update; reflexivity|]. intros o Ho. apply lookup_other. exact Ho.
Qed.
Theorem run_times cb total s ds k m x z : 0 < s -> 0 <= total -> run_simulation E cb total (1000 * s) ds k m = Ret x -> whole_times (k_stats k) z -> z + total + s < 2 ^ 43 ->
  whole_times (k_stats (fst (fst x))) (z + steps total (1000 * s) * s).
Proof.
  intros Hs Hn H W Hb. apply run_inv in H. destruct H as (l & L & ->). cbn [fst run_end set_stats k_stats]. unfold whole_times. cbn [m_time]. fold (whole_times (k_stats (l_sim l)) (z + steps total (1000 * s) * s)).
  destruct (passes_elapsed E cb total (1000 * s) ltac:(lia) _ _ _ L) as (n & Hn0 & H1 & H2 & H3 & H4). cbn [run_start l_elapsed] in *.
  assert (Sn : n = steps total (1000 * s)) by (apply steps_unique; lia).
  apply (passes_ind E (fun l => exists j, 0 <= j /\ l_elapsed l = j * (1000 * s) /\ whole_times (k_stats (l_sim l)) (z + j * s))) in L.
  - destruct L as ((j & Hj & Ej & Wj) & _). assert (j = n) by nia. subst j. rewrite <- Sn. exact Wj.
  - intros d l1 l2 Hlt P (j & Hj & Ej & Wj). exists (j + 1). pose proof (pass_time _ _ _ _ _ P) as T. apply pass_inv in P. destruct P as (ch & k1 & et & st & m1 & scrub & _ & _ & _ & H5 & _).
    split; [lia|]. split; [lia|]. unfold whole_times. rewrite T. replace (z + (j + 1) * s) with (z + j * s + s) by lia. apply add_time_whole; [lia|nia|exact Wj].
  - exists 0. cbn. rewrite Z.add_0_r. repeat split; try lia. exact W.
Qed.
Lemma new_times p c : whole_times (k_stats (new_sim p c)) 0.
Proof.
  unfold new_sim. cbn [k_stats]. assert (W : Forall (fun x => snd x = dofZ 0) (m_time no_stats)) by constructor. revert W. generalize no_stats.
  assert (F : forall s, Forall (fun x : string * sf => snd x = dofZ 0) (m_time s) -> whole_times s 0).
  { intros s H. exists (map (fun _ => 0) (m_time s)). induction H as [|x l Hx Hl IH]; cbn; [repeat split; constructor|]. destruct IH as (A & B & C). rewrite A, Hx. repeat split; [constructor; [lia|exact B]|exact C]. }
  induction (p_envs p) as [|e es IH]; intros s W; cbn [fold_left]; [apply F, W|]. apply IH. cbn [m_time]. clear -W. induction W as [|[n v] l Hx Hl IHl]; cbn [update_map].
  - repeat constructor. - destruct (String.eqb n _); constructor; auto.
Qed.

(** * scrubbing *)
Lemma asked_all P c r : all_settings P c -> P (asked c r).
Proof. intros (A & B & C). unfold asked. destruct (c_adaptive c); [|exact B]. destruct (fle _ _); [exact C|]. destruct (fle _ _); assumption. Qed.
Lemma last_cons (a : Z) : forall l t, last (a :: l) t = last l a.
Proof. intros l. revert a. induction l as [|b l IH]; intros a t; [reflexivity|]. change (last (b :: l) t = last (b :: l) a). rewrite !IH. reflexivity. Qed.
Lemma spaced_app gap : forall l t x, spaced gap t (l ++ [x]) <-> spaced gap t l /\ last l t + gap <= x.
Proof.
  induction l as [|a l IH]; intros t x; cbn [app spaced]; [cbn; tauto|]. rewrite IH, last_cons. tauto.
Qed.
Lemma dense_app gap : forall l t x stop, dense gap t l x -> stop - x <= gap -> dense gap t (l ++ [x]) stop.
Proof. induction l as [|a l IH]; intros t x stop H Hs; cbn in *; [auto|]. destruct H. split; [assumption|]. apply IH; assumption. Qed.
Lemma dense_last gap : forall l t stop stop', dense gap t l stop -> stop' - last l t <= gap -> dense gap t l stop'.
Proof.
  induction l as [|a l IH]; intros t stop stop' H Hs; cbn [dense] in *; [exact Hs|]. destruct H as [H1 H2]. split; [exact H1|]. apply (IH _ stop); [exact H2|].
  rewrite last_cons in Hs. exact Hs.
Qed.
Theorem run_scrubs cb total ts ds k m x gap : 0 < ts -> all_settings (fun s => gap <= s_interval s) (k_config k) -> 0 <= gap -> run_simulation E cb total ts ds k m = Ret x ->
  let times := scrub_times (snd x) in
  spaced gap 0 times /\ Forall (fun t => 0 <= t < Z.max 1 (total * 1000)) times /\ m_scrubs (k_stats (fst (fst x))) = (m_scrubs (k_stats k) + N.of_nat (length times))%N.
Proof.
  intros Ht Hg Hp H. apply run_inv in H. destruct H as (l & L & ->). cbn [fst snd run_end set_stats k_stats m_scrubs].
  apply (passes_ind E (fun l => k_config (l_sim l) = k_config k /\ 0 <= l_elapsed l /\ l_last l = last (scrub_times (l_seen l)) 0 /\ spaced gap 0 (scrub_times (l_seen l)) /\
    Forall (fun t => 0 <= t < Z.max 1 (total * 1000)) (scrub_times (l_seen l)) /\ m_scrubs (k_stats (l_sim l)) = (m_scrubs (k_stats k) + N.of_nat (length (scrub_times (l_seen l))))%N)) in L.
  - destruct L as ((_ & _ & _ & A & B & C) & _). auto.
  - intros d l1 l2 Hlt P (A & B & C & D & F & G). apply pass_inv in P. destruct P as (ch & k1 & et & st & m1 & scrub & Hc & Hs & Sc & H4 & H5 & _ & Hk & _ & Hl).
    destruct (change_keeps _ _ _ _ _ Hc) as (_ & Cf & S & _). apply strike_time in Hs. cbn [snd add_time m_scrubs m_time] in Hs. destruct Hs as [_ Hs]. rewrite Hk. cbn [set_stats k_config k_stats].
    rewrite Cf in *. split; [exact A|]. split; [lia|].
    assert (T : scrub_times (l_seen l2) = (scrub_times (l_seen l1) ++ (if scrub then [l_elapsed l1] else []))%list).
    { rewrite Hl. unfold scrub_times. rewrite !flat_map_app. f_equal. destruct (ch && cb)%bool, scrub; reflexivity. }
    rewrite T, H5. destruct scrub.
    + symmetry in Sc. apply andb_true_iff in Sc. destruct Sc as [_ Sc]. apply Z.leb_le in Sc. pose proof (asked_all _ _ (r_total (env_rates E (k_env k1))) Hg) as I. cbn beta in I. rewrite A in Sc.
      rewrite last_last, spaced_app, Forall_app, app_length. cbn [length add_scrub m_scrubs]. rewrite Hs, S, G. repeat split; try lia; try assumption; try (constructor; [lia|constructor]).
    + rewrite app_nil_r. rewrite Hs, S. auto.
  - cbn. repeat split; try lia. constructor.
Qed.
Theorem run_scrubs_often cb total ts ds k m x gap : 0 < ts -> 0 <= total -> all_settings (fun s => s_scrub s = true /\ s_interval s <= gap) (k_config k) -> 0 <= gap ->
  run_simulation E cb total ts ds k m = Ret x -> dense (gap + ts) 0 (scrub_times (snd x)) (total * 1000).
Proof.
  intros Ht Hn Hg Hp H. apply run_inv in H. destruct H as (l & L & ->). cbn [fst snd run_end].
  apply (passes_ind E (fun l => k_config (l_sim l) = k_config k /\ l_last l = last (scrub_times (l_seen l)) 0 /\ dense (gap + ts) 0 (scrub_times (l_seen l)) (l_elapsed l))) in L.
  - destruct L as ((_ & A & B) & C). eapply dense_last; [exact B|]. rewrite <- A. assert (l_elapsed l - l_last l <= gap + ts); [|lia].
    rewrite A. clear -B. revert B. generalize 0. induction (scrub_times (l_seen l)) as [|a r IH]; intros t B; cbn [dense] in *; [exact B|]. destruct B as [_ B]. apply IH in B. rewrite last_cons. exact B.
  - intros d l1 l2 Hlt P (A & B & D). apply pass_inv in P. destruct P as (ch & k1 & et & st & m1 & scrub & Hc & _ & Sc & H4 & H5 & _ & Hk & _ & Hl).
    destruct (change_keeps _ _ _ _ _ Hc) as (_ & Cf & S & _). rewrite Hk. cbn [set_stats k_config]. rewrite Cf in *. split; [exact A|].
    assert (T : scrub_times (l_seen l2) = (scrub_times (l_seen l1) ++ (if scrub then [l_elapsed l1] else []))%list).
    { rewrite Hl. unfold scrub_times. rewrite !flat_map_app. f_equal. destruct (ch && cb)%bool, scrub; reflexivity. }
    rewrite T, H5. pose proof (asked_all _ _ (r_total (env_rates E (k_env k1))) Hg) as I. cbn beta in I. rewrite A in Sc. destruct scrub.
    + rewrite last_last. split; [reflexivity|]. apply dense_app; [exact D|lia].
    + rewrite app_nil_r. split; [exact B|]. eapply dense_last; [exact D|]. destruct I as [I1 I2]. rewrite I1 in Sc. cbn [andb] in Sc. symmetry in Sc. apply Z.leb_gt in Sc. lia.
  - cbn. repeat split; lia.
Qed.
Theorem run_no_scrubs cb total ts ds k m x : all_settings (fun s => s_scrub s = false) (k_config k) -> run_simulation E cb total ts ds k m = Ret x -> scrub_times (snd x) = [].
Proof.
  intros Hg H. apply run_inv in H. destruct H as (l & L & ->). cbn [fst snd run_end].
  apply (passes_ind E (fun l => k_config (l_sim l) = k_config k /\ scrub_times (l_seen l) = [])) in L; [apply L| |split; reflexivity].
  intros d l1 l2 Hlt P (A & B). apply pass_inv in P. destruct P as (ch & k1 & et & st & m1 & scrub & Hc & _ & Sc & H4 & H5 & _ & Hk & _ & Hl).
  destruct (change_keeps _ _ _ _ _ Hc) as (_ & Cf & S & _). rewrite Hk. cbn [set_stats k_config]. rewrite Cf in *. split; [exact A|].
  pose proof (asked_all _ _ (r_total (env_rates E (k_env k1))) Hg) as I. cbn beta in I. rewrite A, I in Sc. cbn [andb] in Sc. subst scrub. rewrite Hl. unfold scrub_times in *. rewrite !flat_map_app, B. destruct (ch && cb)%bool; reflexivity.
Qed.

(** * uptime *)
Theorem run_uptime cb total ts ds k m x : run_simulation E cb total ts ds k m = Ret x -> let s := k_stats (fst (fst x)) in balanced (k_stats k) -> (m_events s < 2 ^ 53)%N ->
  okd (m_uptime s) /\ (0 <= R (m_uptime s) <= 1)%R /\ ((0 < m_detected s)%N -> m_corrected s = m_detected s -> R (m_uptime s) = 1%R) /\ (m_detected s = 0%N -> R (m_uptime s) = 0%R).
Proof.
  intros H s B Hb. subst s. pose proof (run_balanced E _ _ _ _ _ _ _ H B) as B'. apply run_inv in H. destruct H as (l & L & ->). cbn [fst run_end set_stats k_stats] in *.
  destruct B' as (_ & B2 & B3 & _). cbn [m_uptime m_detected m_corrected m_events m_undetected] in *. set (c := m_corrected (k_stats (l_sim l))) in *. set (d := m_detected (k_stats (l_sim l))) in *.
  set (dd := if (0 <? d)%N then Z.of_N d else 1). assert (D : 0 < dd < 2 ^ 53) by (unfold dd; destruct (N.ltb_spec 0 d); lia). assert (C : 0 <= Z.of_N c <= dd) by (unfold dd; destruct (N.ltb_spec 0 d); lia).
  destruct (ofZ_ex (Z.of_N c)) as [O1 R1]; [lia|]. destruct (ofZ_ex dd) as [O2 R2]; [lia|].
  assert (P : (0 < IZR dd)%R) by (apply IZR_lt; lia). assert (Q : (0 <= IZR (Z.of_N c) / IZR dd <= 1)%R).
  { split; [apply Rmult_le_pos; [apply IZR_le; lia|left; apply Rinv_0_lt_compat; exact P]|]. apply Rmult_le_reg_r with (IZR dd); [exact P|]. unfold Rdiv. rewrite Rmult_assoc, Rinv_l by lra. rewrite Rmult_1_r, Rmult_1_l. apply IZR_le. lia. }
  destruct (div_d _ _ O1 O2) as [O R3]; [rewrite R2; lra|rewrite R1, R2; apply midz; lra|]. rewrite R1, R2 in R3. split; [exact O|]. split; [rewrite R3; split; [apply rnd_pos; lra|apply rnd_le1; lra]|]. split.
  - intros Hd Hc. rewrite R3. replace (IZR (Z.of_N c) / IZR dd)%R with 1%R; [apply (rnd_z 1); lia|]. unfold dd. destruct (N.ltb_spec 0 d); [|lia]. rewrite Hc. field. apply not_0_IZR. lia.
  - intros Hd. assert (c = 0%N) by lia. rewrite R3. rewrite H. unfold Rdiv. rewrite Rmult_0_l. apply (rnd_z 0). lia.
Qed.
End ex.
