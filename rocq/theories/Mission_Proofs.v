From Coq Require Import String List NArith ZArith Bool Lia SpecFloat.
Import ListNotations.
From Verif Require Import Outcome Words Floats Bits_Model Edac_Model Inject_Model Inject_Spec Scrub_Model Mission_Model Mission_Spec.
Local Open Scope Z_scope.
Local Open Scope outcome_scope.
Local Opaque dlit dofZ dadd dsub dmul ddiv.

Tactic Notation "bind" hyp(H) ident(x) ident(Q) := apply obind_ret in H; destruct H as (x & Q & H).

(** * counting *)
Lemma verdict_spec s prot k d : verdict s prot k d = (by_tmr s prot d, (by_tmr s prot d || by_ecc s prot k d)%bool, repaired s prot k d).
Proof.
  unfold verdict, by_ecc, repaired, by_ecc, by_tmr. destruct prot, (s_tmr s), (s_ecc s), (flt (t_detect d) _); cbn [andb orb negb];
    try reflexivity; destruct k; cbn [ecc_notices]; try destruct (flt (e_detect d) _); cbn [andb orb negb]; rewrite ?orb_false_r, ?andb_false_r; reflexivity.
Qed.
Lemma lookup_update {A} (d : A) k f m : lookup k (update_map d k f m) = Some (f (match lookup k m with Some v => v | None => d end)).
Proof.
  induction m as [|[x v] m IH]; cbn; [rewrite String.eqb_refl; reflexivity|].
  destruct (String.eqb x k) eqn:E; cbn; rewrite E; [reflexivity|exact IH].
Qed.
Lemma lookup_other {A} (d : A) k f m j : j <> k -> lookup j (update_map d k f m) = lookup j m.
Proof.
  intros H. induction m as [|[x v] m IH]; cbn.
  - destruct (String.eqb_spec k j) as [->|]; [congruence|reflexivity].
  - destruct (String.eqb_spec x k) as [->|E]; cbn; [|rewrite IH; reflexivity].
    destruct (String.eqb_spec k j) as [->|]; [congruence|reflexivity].
Qed.
Lemma update_keys {A} (d : A) k f m : NoDup (map fst m) -> NoDup (map fst (update_map d k f m)) /\ (forall x, In x (map fst (update_map d k f m)) <-> x = k \/ In x (map fst m)).
Proof.
  induction m as [|[x v] m IH]; cbn; intros H.
  - split; [constructor; [intros []|constructor]|]. intros y. intuition.
  - inversion H as [|? ? NA NB]; subst. destruct (String.eqb_spec x k) as [->|E]; cbn.
    + split; [exact H|]. intros y. intuition.
    + destruct (IH NB) as [U W]. split; [|intros y; rewrite W; intuition]. constructor; [|exact U]. rewrite W. intuition.
Qed.
Lemma update_sum k m : sumN (map snd (update_map 0%N k (fun n => n + 1)%N m)) = (sumN (map snd m) + 1)%N.
Proof. induction m as [|[x v] m IH]; cbn; [reflexivity|]. destruct (String.eqb x k); cbn; lia. Qed.

Lemma many_cons f h hs : many f (h :: hs) = ((if f h then 1 else 0) + many f hs)%N.
Proof. unfold many. cbn. destruct (f h); cbn [length]; lia. Qed.
Lemma many_app f a b : many f (a ++ b) = (many f a + many f b)%N.
Proof. unfold many. rewrite filter_app, app_length. lia. Qed.
Lemma counted_nil n s : counted n [] s s.
Proof. unfold counted, many; cbn. repeat split; try lia; auto. Qed.
Lemma counted_app n a b s t u : counted n a s t -> counted n b t u -> counted n (a ++ b) s u.
Proof.
  unfold counted. rewrite !many_app, app_length. intros (A1&A2&A3&A4&A5&A6&A7&A8&A9&A10&A11) (B1&B2&B3&B4&B5&B6&B7&B8&B9&B10&B11).
  repeat split; try lia. intros j Hj. rewrite (B11 j Hj). apply A11, Hj.
Qed.
Lemma record_counted name r s prot st x k o b : etype (mkEv k o b) = event_kind r (dvalue (fst x)) ->
  counted name [happens r s prot x] st (record_event name s prot st (mkEv k o b, snd x)).
Proof.
  intros E. cbn [etype] in E. subst k. unfold record_event, happens. cbn [etype]. rewrite verdict_spec. set (k := event_kind r (dvalue (fst x))).
  unfold counted, events_in. rewrite !many_cons. unfold many, is_kind. cbn [filter length h_kind h_tmr h_noticed h_repaired m_events m_flips m_upsets m_latchups m_transients m_detected m_corrected m_undetected m_by_env m_tmr].
  rewrite lookup_update.
  assert (C : ((by_tmr s prot (snd x) || by_ecc s prot k (snd x)) && repaired s prot k (snd x) = repaired s prot k (snd x))%bool).
  { unfold repaired. destruct (by_tmr _ _ _), (by_ecc _ _ _ _); cbn; reflexivity. }
  rewrite C. repeat split; try (intros j Hj; rewrite (lookup_other 0%N) by exact Hj; reflexivity); cbn [N.of_nat];
    try (destruct k; lia); try (destruct (_ || _)%bool; cbn [negb]; lia); try (destruct (repaired _ _ _ _); lia); try (destruct (by_tmr _ _ _); lia);
    destruct (lookup name (m_by_env st)); lia.
Qed.
Lemma effects_kinds r : forall ds m m' es, simulate_effects r m ds = Ret (m', es) -> map etype es = map (fun d => event_kind r (dvalue d)) ds.
Proof.
  induction ds as [|d ds IH]; cbn [simulate_effects]; intros m m' es H; [injection H as _ <-; reflexivity|].
  destruct (generate_event r m d) as [[m1 e]| | |] eqn:G; try discriminate H.
  destruct (simulate_effects r m1 ds) as [[m2 es2]| | |] eqn:S; try discriminate H. injection H as _ <-. cbn. rewrite (IH _ _ _ S). f_equal.
  unfold generate_event in G. destruct (update _ _ _) in G; try discriminate G. injection G as _ <-. destruct (event_kind r (dvalue d)); reflexivity.
Qed.
Lemma fold_counted name r s prot : forall ds es st, map etype es = map (fun d => event_kind r (dvalue (fst d))) ds ->
  counted name (map (happens r s prot) ds) st (fold_left (record_event name s prot) (combine es (map snd ds)) st).
Proof.
  induction ds as [|d ds IH]; intros [|[k o b] es] st H; try discriminate H; cbn [map combine fold_left]; [apply counted_nil|].
  cbn [map] in H. injection H as H1 H2. change (happens r s prot d :: map (happens r s prot) ds) with ([happens r s prot d] ++ map (happens r s prot) ds).
  eapply counted_app; [apply record_counted; exact H1|apply IH; exact H2].
Qed.
Section ex.
Variable E : sf -> sf.
Lemma strike_kinds e ts g m ds x : strike E e ts g m ds = Ret x -> map etype (snd x) = map (fun d => event_kind (env_rates E e) (dvalue d)) ds.
Proof.
  unfold strike. destruct (_ <=? _)%nat; [|discriminate]. intros H. bind H y S. injection H as <-. cbn [snd]. unfold simulate in S.
  destruct (flt _ _); [|discriminate S]. destruct y as [m1 es]. eapply effects_kinds. exact S.
Qed.
Lemma strike_counted e s ts : forall gs dss m st x, strike_regions E e s ts gs dss m st = Ret x ->
  counted (mission_name e) (happenings (env_rates E e) s gs dss) st (snd x).
Proof.
  induction gs as [|g gs IH]; intros dss m st x H; cbn [strike_regions] in H.
  - injection H as <-. apply counted_nil.
  - bind H y S. apply strike_kinds in S. unfold happenings. destruct dss as [|ds dss]; cbn [combine hd tl flat_map fst snd] in *.
    + cbn [map] in S. destruct (snd y) as [|ev es] eqn:Ey; [|discriminate S]. cbn [combine fold_left map] in H.
      apply IH in H. unfold happenings in H. replace (combine gs (@nil (list (rs_draw * det_draw)))) with (@nil (mregion * list (rs_draw * det_draw))) in H by (destruct gs; reflexivity).
      exact H.
    + eapply counted_app; [|apply IH with (1 := H)]. apply fold_counted. rewrite S, map_map. reflexivity.
Qed.
Definition kept (s t : mstats) : Prop := m_events t = m_events s /\ m_flips t = m_flips s /\ m_upsets t = m_upsets s /\ m_latchups t = m_latchups s /\
  m_transients t = m_transients s /\ m_detected t = m_detected s /\ m_corrected t = m_corrected s /\ m_undetected t = m_undetected s /\ m_by_env t = m_by_env s /\ m_tmr t = m_tmr s.
Lemma counted_kept n hs s s' t t' : kept s s' -> kept t t' -> counted n hs s' t -> counted n hs s t'.
Proof. unfold kept, counted, events_in. intros A B C. destruct A as (->&->&->&->&->&->&->&->&<-&->) in C. destruct B as (->&->&->&->&->&->&->&->&->&->). exact C. Qed.
Lemma asked_spec c r : settings_of c (protection_level c r) = asked c r.
Proof. unfold settings_of, protection_level, asked, fge, fle. destruct (c_adaptive c); cbn [negb]; [|reflexivity]. destruct (SFleb (c_thr_high c) r); [reflexivity|]. destruct (SFleb _ _); reflexivity. Qed.
Lemma select_keeps v k b k' : select_next v k = Ret (b, k') -> k_profile k' = k_profile k /\ k_config k' = k_config k /\ k_stats k' = k_stats k /\ k_regions k' = k_regions k.
Proof. unfold select_next. destruct (_ <=? _)%nat; [intros H; injection H as _ <-; auto|]. destruct (nth_error _ _); [|discriminate]. intros H; injection H as _ <-; auto. Qed.
Lemma change_keeps d l b k z : change_environment d l = Ret (b, k, z) ->
  k_profile k = k_profile (l_sim l) /\ k_config k = k_config (l_sim l) /\ k_stats k = k_stats (l_sim l) /\ k_regions k = k_regions (l_sim l).
Proof.
  unfold change_environment. destruct (nth_error _ _); [|discriminate]. intros H. bind H lim L. destruct (_ || _)%bool; [|injection H as _ <- _; auto].
  bind H y S. injection H as _ <- _. destruct y as [b' k']. cbn [snd]. eapply select_keeps; exact S.
Qed.
(** the parts of one pass *)
Lemma pass_inv cb ts d l l' : pass E cb ts d l = Ret l' -> exists changed k envtime st m scrub,
  let s := asked (k_config k) (r_total (env_rates E (k_env k))) in
  change_environment d l = Ret (changed, k, envtime) /\
  strike_regions E (k_env k) s ts (k_regions k) (d_events d) (l_mem l) (add_time (mission_name (k_env k)) ts (k_stats k)) = Ret (m, st) /\
  scrub = (s_scrub s && (s_interval s <=? l_elapsed l - l_last l))%bool /\
  l_elapsed l' = l_elapsed l + ts /\ l_last l' = (if scrub then l_elapsed l else l_last l) /\ l_env_time l' = envtime + ts /\
  l_sim l' = set_stats (if scrub then add_scrub st else st) k /\ l_mem l' = m /\
  l_seen l' = (l_seen l ++ (if (changed && cb)%bool then [Changed (k_env k)] else []) ++ (if scrub then [Scrubbed (l_elapsed l)] else []))%list.
Proof.
  unfold pass. intros H. bind H x X. destruct x as [[changed k] envtime]. rewrite asked_spec in H. set (s := asked _ _) in *.
  bind H y Y. destruct y as [m st]. bind H since Z1. unfold millis, arith in Z1. destruct (fitsb _ _) in Z1; [|discriminate Z1]. injection Z1 as <-.
  set (scrub := (s_scrub s && _)%bool) in *.
  assert (Hm : exists sc, (if scrub then let '(_, m', sc) := scrubMemory (as_memory m) (l_scrubber l) in (map m' (seq 0 (length m)), sc) else (m, l_scrubber l)) = (m, sc)).
  { destruct scrub; [|eauto]. unfold scrubMemory. destruct (scrub_regions _ _ _) as [[lr e] st'].
    exists (mkLS (map (calculateChecksums (as_memory m)) lr) (next_id (l_scrubber l)) (mkS (cycles st' + 1) (detected st') (corrected st'))). f_equal.
    unfold as_memory. clear. induction m as [|a m IH]; [reflexivity|]. cbn [length seq map nth]. f_equal. rewrite <- seq_shift, map_map. cbn [nth]. exact IH. }
  destruct Hm as [sc Hm]. rewrite Hm in H.
  bind H el Z2. unfold millis, arith in Z2. destruct (fitsb _ _) in Z2; [|discriminate Z2]. injection Z2 as <-.
  bind H et Z3. unfold millis, arith in Z3. destruct (fitsb _ _) in Z3; [|discriminate Z3]. injection Z3 as <-. injection H as <-.
  exists changed, k, envtime, st, m, scrub. cbn. repeat (split; [first [assumption|reflexivity]|]).
  destruct (changed && cb)%bool, scrub; rewrite ?app_nil_r, <- ?app_assoc; reflexivity.
Qed.
Theorem pass_counted cb ts d l l' : pass E cb ts d l = Ret l' ->
  let e := k_env (l_sim l') in let c := k_config (l_sim l) in
  counted (mission_name e) (happenings (env_rates E e) (asked c (r_total (env_rates E e))) (k_regions (l_sim l)) (d_events d)) (k_stats (l_sim l)) (k_stats (l_sim l')).
Proof.
  intros H. apply pass_inv in H. destruct H as (ch & k & et & st & m & scrub & Hc & Hs & _ & _ & _ & _ & Hk & _ & _).
  destruct (change_keeps _ _ _ _ _ Hc) as (_ & C & S & G). rewrite Hk. cbn [set_stats k_env k_stats]. rewrite <- C, <- G, <- S.
  apply strike_counted in Hs. cbn [snd] in Hs. eapply counted_kept; [| |exact Hs]; unfold kept; [|destruct scrub]; cbn; repeat split; reflexivity.
Qed.

(** * invariants over all histories *)
Lemma record_balanced name s prot st x : balanced st -> balanced (record_event name s prot st x).
Proof.
  destruct x as [e d]. unfold record_event. rewrite verdict_spec. intros (A & B & C & D & F & G). unfold balanced.
  cbn [m_events m_flips m_upsets m_latchups m_transients m_detected m_corrected m_undetected m_by_env m_tmr]. rewrite update_sum.
  destruct (update_keys 0%N name (fun n => n + 1)%N _ F) as [F' _].
  assert (T : by_tmr s prot d = true -> (by_tmr s prot d || by_ecc s prot (etype e) d)%bool = true) by (intros ->; reflexivity).
  destruct (by_tmr s prot d) eqn:Q; [|clear T]; cbn [orb andb] in *; destruct (etype e); cbn [negb];
    (destruct (by_ecc _ _ _ _) || idtac); destruct (repaired _ _ _ _); cbn [negb andb orb]; repeat split; try assumption; lia.
Qed.
Lemma fold_balanced name s prot : forall l st, balanced st -> balanced (fold_left (record_event name s prot) l st).
Proof. induction l as [|x l IH]; intros st H; cbn; [exact H|]. apply IH, record_balanced, H. Qed.
Lemma strike_balanced e s ts : forall gs dss m st x, strike_regions E e s ts gs dss m st = Ret x -> balanced st -> balanced (snd x).
Proof.
  induction gs as [|g gs IH]; intros dss m st x H B; cbn [strike_regions] in H; [injection H as <-; exact B|].
  bind H y S. eapply IH; [exact H|]. apply fold_balanced, B.
Qed.
Lemma balanced_kept s t : kept s t -> balanced s -> balanced t.
Proof. unfold kept, balanced. intros (->&->&->&->&->&->&->&->&->&->). auto. Qed.
Lemma pass_balanced cb ts d l l' : pass E cb ts d l = Ret l' -> balanced (k_stats (l_sim l)) -> balanced (k_stats (l_sim l')).
Proof.
  intros H B. apply pass_inv in H. destruct H as (ch & k & et & st & m & scrub & Hc & Hs & _ & _ & _ & _ & Hk & _ & _).
  destruct (change_keeps _ _ _ _ _ Hc) as (_ & C & S & G). rewrite Hk. cbn [set_stats k_stats].
  rewrite S in Hs. apply strike_balanced in Hs; [|eapply balanced_kept; [|exact B]; unfold kept; cbn; repeat split; reflexivity].
  cbn [snd] in Hs. destruct scrub; [|exact Hs]. eapply balanced_kept; [|exact Hs]. unfold kept; cbn; repeat split; reflexivity.
Qed.
Lemma passes_ind (P : loop -> Prop) cb total ts : (forall d l l', l_elapsed l < total * 1000 -> pass E cb ts d l = Ret l' -> P l -> P l') ->
  forall ds l l', passes E cb total ts ds l = Ret l' -> P l -> P l' /\ total * 1000 <= l_elapsed l'.
Proof.
  intros HP. induction ds as [|d ds IH]; intros l l' H; cbn [passes] in H; destruct (l_elapsed l <? total * 1000) eqn:Q.
  - discriminate H. - injection H as <-. split; [assumption|lia].
  - bind H l1 S. intros A. eapply IH; [exact H|]. eapply HP; [|exact S|exact A]. lia.
  - injection H as <-. split; [assumption|lia].
Qed.
Definition run_end (l : loop) : msim * list N * list seen :=
  let s := k_stats (l_sim l) in
  let uptime := ddiv (dofZ (Z.of_N (m_corrected s))) (dofZ (if (0 <? m_detected s)%N then Z.of_N (m_detected s) else 1)) in
  (set_stats (mkMS (m_events s) (m_flips s) (m_upsets s) (m_latchups s) (m_transients s) (m_detected s) (m_corrected s) (m_undetected s)
                       (m_time s) (m_by_env s) (m_tmr s) (m_scrubs s) uptime (m_total_bytes s) (m_protected_bytes s) (m_unprotected_bytes s)) (l_sim l),
       l_mem l, l_seen l).
Definition run_start (k : msim) (m : list N) : loop := mkLoop 0 0 0 k m (start_scrubber m (k_regions k)) [].
Lemma run_inv cb total ts ds k m x : run_simulation E cb total ts ds k m = Ret x -> exists l, passes E cb total ts ds (run_start k m) = Ret l /\ x = run_end l.
Proof.
  unfold run_simulation. intros H. bind H z Z1. bind H l L. exists l. split; [exact L|]. injection H as <-. reflexivity.
Qed.
Lemma run_balanced cb total ts ds k m x : run_simulation E cb total ts ds k m = Ret x -> balanced (k_stats k) -> balanced (k_stats (fst (fst x))).
Proof.
  intros H B. apply run_inv in H. destruct H as (l & L & ->). apply (passes_ind (fun l => balanced (k_stats (l_sim l)))) in L; [|intros ? ? ? _; apply pass_balanced|exact B].
  eapply balanced_kept; [|exact (proj1 L)]. unfold kept; cbn; repeat split; reflexivity.
Qed.
Lemma new_balanced p c : balanced (k_stats (new_sim p c)).
Proof.
  unfold new_sim. cbn [k_stats]. assert (B : balanced no_stats) by (unfold balanced; cbn; repeat split; try lia; constructor). revert B.
  assert (Z0 : m_events no_stats = 0%N) by reflexivity. revert Z0. generalize no_stats. induction (p_envs p) as [|e es IH]; intros s Z0 B; cbn [fold_left]; [exact B|].
  apply IH; [exact Z0|]. destruct B as (A1 & A2 & A3 & A4 & A5 & A6). unfold balanced. cbn. repeat split; try assumption.
  - apply update_keys, A5.
  - rewrite Z0 in A6 |- *. clear -A6. induction (m_by_env s) as [|[x v] l IH]; cbn in *; [reflexivity|]. destruct (String.eqb x _); cbn; lia.
Qed.
Theorem history_balanced p c os m k m' : history E os (new_sim p c, m) = Ret (k, m') -> balanced (k_stats k).
Proof.
  intros H. assert (G : forall os x y, history E os x = Ret y -> balanced (k_stats (fst x)) -> balanced (k_stats (fst y))); [|apply G in H; [exact H|apply new_balanced]].
  clear. induction os as [|o os IH]; intros x y H B; cbn [history] in H; [injection H as <-; exact B|]. bind H z S. apply IH in H; [exact H|].
  destruct o; cbn [do_op] in S; try (injection S as <-; cbn; try exact B).
  bind S w W. injection S as <-. apply run_balanced in W; assumption.
Qed.
Definition bytes3 (s : mstats) := (m_total_bytes s, m_protected_bytes s, m_unprotected_bytes s).
Lemma strike_bytes e s ts : forall gs dss m st x, strike_regions E e s ts gs dss m st = Ret x -> bytes3 (snd x) = bytes3 st.
Proof.
  induction gs as [|g gs IH]; intros dss m st x H; cbn [strike_regions] in H; [injection H as <-; reflexivity|].
  bind H y S. rewrite (IH _ _ _ _ H). generalize (combine (snd y) (map snd (hd [] dss))). clear. intros l. revert st. induction l as [|[e1 d] l IH]; intros st; cbn [fold_left]; [reflexivity|].
  rewrite IH. unfold record_event. destruct (verdict _ _ _ _) as [[a b] c]. reflexivity.
Qed.
Lemma run_bytes cb total ts ds k m x : run_simulation E cb total ts ds k m = Ret x -> bytes3 (k_stats (fst (fst x))) = bytes3 (k_stats k) /\ k_regions (fst (fst x)) = k_regions k /\
  k_profile (fst (fst x)) = k_profile k /\ k_config (fst (fst x)) = k_config k.
Proof.
  intros H. apply run_inv in H. destruct H as (l & L & ->).
  apply (passes_ind (fun l => bytes3 (k_stats (l_sim l)) = bytes3 (k_stats k) /\ k_regions (l_sim l) = k_regions k /\ k_profile (l_sim l) = k_profile k /\ k_config (l_sim l) = k_config k)) in L;
    [exact (proj1 L)| |auto].
  intros d l1 l2 _ H (A & B & C & D). apply pass_inv in H. destruct H as (ch & k1 & et & st & m1 & scrub & Hc & Hs & _ & _ & _ & _ & Hk & _ & _).
  destruct (change_keeps _ _ _ _ _ Hc) as (P & Q & S & G). rewrite Hk. cbn [set_stats k_stats k_regions k_profile k_config].
  apply strike_bytes in Hs. cbn [snd] in Hs. rewrite <- A, <- B, <- C, <- D, <- S, <- G, <- P, <- Q. repeat split. destruct scrub; exact Hs.
Qed.
Theorem history_bytes p c os m k m' : history E os (new_sim p c, m) = Ret (k, m') ->
  m_protected_bytes (k_stats k) = bytes_of true os /\ m_unprotected_bytes (k_stats k) = bytes_of false os /\
  m_total_bytes (k_stats k) = (m_protected_bytes (k_stats k) + m_unprotected_bytes (k_stats k))%N.
Proof.
  intros H. assert (G : forall os x y, history E os x = Ret y -> let a := k_stats (fst x) in let b := k_stats (fst y) in
    (m_protected_bytes b = m_protected_bytes a + bytes_of true os /\ m_unprotected_bytes b = m_unprotected_bytes a + bytes_of false os /\
    m_total_bytes b + m_protected_bytes a + m_unprotected_bytes a = m_total_bytes a + m_protected_bytes b + m_unprotected_bytes b)%N).
  { clear. induction os as [|o os IH]; intros x y H; cbn [history] in H; [injection H as <-; unfold bytes_of; cbn; lia|]. bind H z S. apply IH in H. cbn zeta in *.
    unfold bytes_of in *. cbn [map sumN]. destruct o; cbn [do_op] in S.
    - injection S as <-. cbn in *. destruct prot; cbn in *; lia.
    - injection S as <-. cbn in *. lia.
    - bind S w W. injection S as <-. apply run_bytes in W. destruct W as [W _]. unfold bytes3 in W. injection W as W1 W2 W3. cbn in *. lia.
    - injection S as <-. cbn in *. lia. }
  apply G in H. cbn zeta in H. cbn [fst] in H.
  assert (Z0 : bytes3 (k_stats (new_sim p c)) = (0, 0, 0)%N).
  { unfold new_sim. cbn [k_stats]. assert (Q : bytes3 no_stats = (0, 0, 0)%N) by reflexivity. revert Q. generalize no_stats.
    induction (p_envs p) as [|e es IH]; intros s Hs; cbn [fold_left]; [exact Hs|]. apply IH. exact Hs. }
  unfold bytes3 in Z0. revert Z0 H. generalize (k_stats (new_sim p c)). intros s Z0 H. injection Z0 as W1 W2 W3. lia.
Qed.
End ex.
