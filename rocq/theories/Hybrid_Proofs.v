From Coq Require Import List NArith ZArith Bool Lia SpecFloat.
Import ListNotations.
From Verif Require Import Outcome Words Arith Floats CrcTMR_Model CrcTMR_Proofs Health_Model Health_Spec HealthW_Proofs Stuck_Model Stuck_Spec Stuck_Proofs StuckHist_Proofs Temporal_Model Temporal_Spec Temporal_Proofs.
Local Opaque d1 d005 d01 d015 d02 d09 dadd dsub dmul ddiv fmin fmax.

Lemma sf_not_nan t x : is_int t = false -> is_nan t x = false -> sf_of t x <> S754_nan.
Proof.
  intros Hi Nx E. unfold sf_of, sf_of_bits in E.
  destruct t; try discriminate; cbn [mbits ebits is_nan] in *; unfold f_nan in Nx;
    destruct (f_exp _ _ x =? _)%N; destruct (f_mant _ x =? 0)%N; cbn in Nx; try discriminate;
    destruct (f_exp _ _ x =? 0)%N; try (destruct (f_mant _ x); discriminate); destruct (2 ^ _ + f_mant _ x)%N; discriminate.
Qed.
Lemma ltK_ordered sg t : ordered (ltK sg t) (fun x => is_nan t x = false).
Proof.
  unfold ltK. destruct (is_int t) eqn:Hi.
  - destruct sg; constructor.
    + intros. apply Z.ltb_irrefl.
    + intros a b c _ _ _. rewrite !Z.ltb_lt. lia.
    + intros a b c _ _ _. rewrite !Z.ltb_lt. lia.
    + intros. apply N.ltb_irrefl.
    + intros a b c _ _ _. rewrite !N.ltb_lt. lia.
    + intros a b c _ _ _. rewrite !N.ltb_lt. lia.
  - assert (K : forall x y, is_nan t x = false -> is_nan t y = false -> (ltT t x y = true <-> klt (skey (sf_of t x)) (skey (sf_of t y)))).
    { intros x y Nx Ny. apply flt_key; apply sf_not_nan; assumption. }
    constructor.
    + intros a Na. destruct (ltT t a a) eqn:E; [|reflexivity]. apply K in E; auto.
      unfold klt in E. destruct (skey (sf_of t a)) as [[u v] z]. lia.
    + intros a b c Na Nb Nc H1 H2. apply K in H1; auto. apply K in H2; auto. apply K; auto.
      unfold klt in *. destruct (skey (sf_of t a)) as [[a1 a2] a3], (skey (sf_of t b)) as [[b1 b2] b3], (skey (sf_of t c)) as [[c1 c2] c3]. lia.
    + intros a b c Na Nb Nc H1. apply K in H1; auto. rewrite !K by auto.
      unfold klt in *. destruct (skey (sf_of t a)) as [[a1 a2] a3], (skey (sf_of t b)) as [[b1 b2] b3], (skey (sf_of t c)) as [[c1 c2] c3]. lia.
Qed.
Lemma to_signed_inj' w x y : to_signed w x = to_signed w y -> (x < 2 ^ w)%N -> (y < 2 ^ w)%N -> (0 < w)%N -> x = y.
Proof. intros. apply (to_signed_inj w); assumption. Qed.
Lemma same_int sg t x y : is_int t = true -> valid t x -> valid t y -> same (ltK sg t) x y = true -> x = y.
Proof.
  intros Hi Vx Vy H. unfold same, ltK in H. rewrite Hi in H. apply andb_prop in H. destruct H as [H1 H2].
  apply negb_true_iff in H1, H2. destruct sg.
  - apply Z.ltb_ge in H1, H2. apply (to_signed_inj (width t)); auto; [destruct t; reflexivity|lia].
  - apply N.ltb_ge in H1, H2. lia.
Qed.

(** *** CheckpointManager *)
Definition to_cp {T} (x : T * N * Z) : cp T := let '(d, v, now) := x in mkcp v d now.
Lemma skipn_tl {A} m : forall l : list A, skipn (S m) l = tl (skipn m l).
Proof. induction m as [|m IH]; intros [|y l]; try reflexivity. cbn [skipn]. rewrite <- IH. reflexivity. Qed.
Lemma lastn_snoc {A} n (l : list A) x : (1 <= n)%nat -> lastn n (l ++ [x]) = (if (n <? S (length (lastn n l)))%nat then tl (lastn n l) else lastn n l) ++ [x].
Proof.
  intros Hn. unfold lastn. rewrite app_length, skipn_length. cbn [length].
  destruct (Nat.ltb_spec n (S (length l - (length l - n)))).
  - replace (length l + 1 - n)%nat with (S (length l - n)) by lia. rewrite skipn_app.
    replace (S (length l - n) - length l)%nat with 0%nat by lia. cbn [skipn]. f_equal.
    apply skipn_tl.
  - replace (length l + 1 - n)%nat with 0%nat by lia. replace (length l - n)%nat with 0%nat by lia. reflexivity.
Qed.
Lemma lastn_all {A} n (l : list A) : (length (lastn n l) <= n)%nat.
Proof. unfold lastn. rewrite skipn_length. lia. Qed.

Lemma requests_cps_gen {T} mx iv : forall (l : list (T * N * Z)) last0 acc,
  let c := requests l (mkcm (map to_cp (lastn mx acc)) mx iv last0) in
  cps c = map to_cp (lastn mx (acc ++ accepted iv last0 l)) /\ max_cp c = mx /\ interval c = iv.
Proof.
  induction l as [|[[d v] now] l IH]; intros last0 acc; cbv zeta.
  - cbn. rewrite app_nil_r. auto.
  - change (requests ((d, v, now) :: l) ?c) with (requests l (createCheckpoint d v now c)).
    unfold createCheckpoint at 1 2 3. cbn [Temporal_Model.last interval cps max_cp accepted].
    destruct (now - last0 <? iv)%Z; [apply IH|].
    assert (E : (if (mx <? length (map to_cp (lastn mx acc) ++ [mkcp v d now]))%nat
                 then tl (map to_cp (lastn mx acc) ++ [mkcp v d now]) else map to_cp (lastn mx acc) ++ [mkcp v d now])
                = map to_cp (lastn mx (acc ++ [(d, v, now)]))).
    { rewrite app_length, map_length. cbn [length].
      destruct (Nat.eq_dec mx 0) as [->|Hmx].
      - unfold lastn. rewrite Nat.sub_0_r, skipn_all, Nat.sub_0_r, skipn_all. reflexivity.
      - rewrite lastn_snoc by lia. rewrite map_app. cbn [map to_cp].
        replace (length (lastn mx acc) + 1)%nat with (S (length (lastn mx acc))) by lia.
        destruct (Nat.ltb_spec mx (S (length (lastn mx acc)))); [|reflexivity].
        destruct (lastn mx acc) as [|y r]; [cbn in *; lia|reflexivity]. }
    rewrite E. specialize (IH now (acc ++ [(d, v, now)])). cbv zeta in IH. rewrite <- app_assoc in IH. exact IH.
Qed.
Lemma requests_cps {T} mx iv t0 (l : list (T * N * Z)) :
  let c := requests l (cm_new mx iv t0) in
  cps c = map to_cp (lastn mx (accepted iv t0 l)).
Proof.
  cbv zeta. pose proof (requests_cps_gen mx iv l t0 []) as H. cbv zeta in H.
  change (map to_cp (lastn mx [])) with (@nil (cp T)) in H. cbn [app] in H. apply H.
Qed.
Lemma find_map {A B} (f : B -> bool) (g : A -> B) l : find f (map g l) = option_map g (find (fun x => f (g x)) l).
Proof. induction l as [|x l IH]; [reflexivity|]. cbn. destruct (f (g x)); [reflexivity|exact IH]. Qed.
Lemma cm_queries {T} mx iv t0 (l : list (T * N * Z)) :
  let c := requests l (cm_new mx iv t0) in
  let kept := lastn mx (accepted iv t0 l) in
  (length (cps c) <= mx)%nat /\
  map (fun x => (data x, version x, stamp x)) (cps c) = kept /\
  getLatestCheckpoint c = option_map (fun '(d, v, now) => d) (newest kept) /\
  (forall ver, rollbackToVersion ver c = option_map (fun '(d, v, now) => d) (find (fun '(d, v, now) => N.eqb v ver) (rev kept))) /\
  (forall ok, rollbackToValid ok c = option_map (fun '(d, v, now) => d) (find (fun '(d, v, now) => ok d) (rev kept))).
Proof.
  cbv zeta. pose proof (requests_cps mx iv t0 l) as H. cbv zeta in H.
  assert (HD : forall x : T * N * Z, data (to_cp x) = (let '(d, v, now) := x in d)) by (intros [[d v] now]; reflexivity).
  assert (HV : forall x : T * N * Z, version (to_cp x) = (let '(d, v, now) := x in v)) by (intros [[d v] now]; reflexivity).
  unfold getLatestCheckpoint, rollbackToVersion, rollbackToValid, newest. rewrite H, map_length, map_map.
  split; [apply lastn_all|]. split.
  { rewrite <- (map_id (lastn mx (accepted iv t0 l))) at 2. apply map_ext. intros [[d v] now]. reflexivity. }
  rewrite <- map_rev. set (k := rev (lastn mx (accepted iv t0 l))). clearbody k.
  split; [destruct k as [|[[d v] now] k]; reflexivity|].
  split.
  - intros ver. rewrite find_map. induction k as [|[[d v] now] k IH]; [reflexivity|]. cbn [find option_map to_cp version].
    destruct (v =? ver)%N; [reflexivity|exact IH].
  - intros ok. rewrite find_map. induction k as [|[[d v] now] k IH]; [reflexivity|]. cbn [find option_map to_cp data].
    destruct (ok d); [reflexivity|exact IH].
Qed.

(** *** HybridRedundancy *)
Lemma st_get_again w s : fst (st_get w (snd (st_get w s))) = fst (st_get w s).
Proof.
  unfold st_get at 2 3. destruct (negb (pot s =? 0)%N) eqn:E; [cbn [fst snd]; unfold st_get; rewrite E; reflexivity|].
  unfold st_get. destruct (get_standard_data s) as (-> & _ & D). rewrite E.
  pose proof (D 0%nat) as [D0 _]. pose proof (D 1%nat) as [D1 _]. pose proof (D 2%nat) as [D2 _]. cbn [ssel] in D0, D1, D2.
  unfold get_standard at 1. rewrite D0, D1, D2. unfold get_standard. 
  destruct ((sc (s0 s) =? sc (s1 s))%N || (sc (s0 s) =? sc (s2 s))%N) eqn:A; [reflexivity|].
  destruct (sc (s1 s) =? sc (s2 s))%N eqn:B; reflexivity.
Qed.
Lemma run_same w n : forall i s, (forall r, In r (fst (run_n (hy_op w) n (i, fun _ s => s, s))) -> r = fst (st_get (hyw w) s)).
Proof.
  induction n as [|n IH]; intros i s r H; [destruct H|].
  cbn [run_n hy_op] in H. destruct (st_get (hyw w) s) as [r0 s1] eqn:E. cbn [fst].
  specialize (IH (S i) s1). destruct (run_n (hy_op w) n (S i, fun _ s => s, s1)) as [l s2]. cbn [fst] in *.
  destruct H as [<-|H]; [reflexivity|]. rewrite (IH r H). pose proof (st_get_again (hyw w) s) as A. rewrite E in A. exact A.
Qed.
Lemma execute_in {V S} (lt : V -> V -> bool) P (op : S -> V * S) n s : ordered lt P -> (1 <= n)%nat ->
  Forall P (fst (run_n op n s)) -> exists r, execute lt n op s = Ret (r, snd (run_n op n s)) /\ In r (fst (run_n op n s)).
Proof. intros O Hn Pl. destruct (execute_spec lt P op n s O Hn Pl) as (r & E & A & _). exists r. auto. Qed.
Lemma int_not_nan t x : is_int t = true -> is_nan t x = false. Proof. destruct t; reflexivity || discriminate. Qed.

Lemma hy_get_quiet sg t h : is_int t = true -> (1 <= nexec h)%nat ->
  exists h', hy_get sg t (fun _ s => s) h = Ret (fst (st_get (width t) (tmr h)), h').
Proof.
  intros Hi Hn. unfold hy_get.
  destruct (execute_in (ltK sg t) _ (hy_op t) (nexec h) (0%nat, fun _ s => s, tmr h) (ltK_ordered sg t) Hn) as (r & E & Hr).
  { apply Forall_forall. intros x _. apply int_not_nan. exact Hi. }
  rewrite E. cbn [obind]. destruct (snd _) as [[i up] s']. rewrite (run_same t _ _ _ _ Hr). eexists. reflexivity.
Qed.
Lemma hy_repair_always_true sg t h : is_int t = true -> (1 <= nexec h)%nat ->
  exists h', hy_repair sg t (fun _ s => s) h = Ret (true, h').
Proof.
  intros Hi Hn. unfold hy_repair. destruct (st_get (hyw t) (st_repair (hyw t) (tmr h))) as [b s1] eqn:E.
  destruct (hy_get_quiet sg t (with_tmr h s1) Hi Hn) as (h' & G). rewrite G. cbn [obind with_tmr tmr].
  pose proof (st_get_again (hyw t) (st_repair (hyw t) (tmr h))) as A. rewrite E in A. cbn [fst snd] in A.
  unfold hyw in A. rewrite A, N.eqb_refl. eexists. reflexivity.
Qed.
(* ... although the copies still disagree *)
Lemma hy_repair_state sg t h : is_int t = true -> (1 <= nexec h)%nat ->
  exists h', hy_repair sg t (fun _ s => s) h = Ret (true, h') /\
  forall i, sc (ssel (tmr h') i) = sc (ssel (st_repair (width t) (tmr h)) i).
Proof.
  intros Hi Hn. unfold hy_repair. destruct (st_get (hyw t) (st_repair (hyw t) (tmr h))) as [b s1] eqn:E.
  unfold hy_get. cbn [with_tmr nexec tmr].
  destruct (execute_in (ltK sg t) _ (hy_op t) (nexec h) (0%nat, fun _ s => s, s1) (ltK_ordered sg t) Hn) as (r & G & Hr).
  { apply Forall_forall. intros x _. apply int_not_nan. exact Hi. }
  rewrite G. pose proof (run_same t _ _ _ _ Hr) as R.
  assert (D : forall n i s, let q := snd (run_n (hy_op t) n (i, fun _ s => s, s)) in
     forall k, sc (ssel (snd q) k) = sc (ssel s k)).
  { clear. induction n as [|n IH]; intros i s; cbv zeta; [reflexivity|]. cbn [run_n hy_op].
    destruct (st_get (hyw t) s) as [r0 z1] eqn:E. specialize (IH (S i) z1).
    destruct (run_n (hy_op t) n (S i, fun _ s => s, z1)) as [l z2]. cbn [snd] in *. intros k. rewrite IH.
    pose proof (get_data (hyw t) s) as (_ & _ & X). rewrite E in X. apply X. }
  specialize (D (nexec h) 0%nat s1). cbv zeta in D.
  destruct (snd (run_n _ _ _)) as [[i up] s']. cbn [obind snd] in *.
  pose proof (st_get_again (hyw t) (st_repair (hyw t) (tmr h))) as A. rewrite E in A. cbn [fst snd] in A.
  rewrite R. unfold hyw in *. rewrite A, N.eqb_refl. eexists. split; [reflexivity|].
  intros k. cbn [with_tmr tmr]. rewrite D. pose proof (get_data (width t) (st_repair (width t) (tmr h))) as (_ & _ & X). rewrite E in X. apply X.
Qed.
Lemma hy_repair_lies sg t h v u : is_int t = true -> (1 <= nexec h)%nat -> valid t v -> valid t u -> N.ldiff u v <> 0%N ->
  exists h', hy_repair sg t (fun _ s => s) (with_tmr h (st_corrupt 2 u (st_set v (tmr h)))) = Ret (true, h') /\
    sc (ssel (tmr h') 0) = v /\ sc (ssel (tmr h') 2) = N.lor v u /\ N.lor v u <> v.
Proof.
  intros Hi Hn Vv Vu Hd.
  destruct (hy_repair_state sg t (with_tmr h (st_corrupt 2 u (st_set v (tmr h)))) Hi Hn) as (h' & E & D).
  exists h'. split; [exact E|]. cbn [with_tmr tmr] in D.
  destruct (st_repair_one (width t) (tmr h) v 2 u) as [R _]; auto.
  rewrite !D, !R by lia. cbn [Nat.eqb]. split; [reflexivity|]. split; [reflexivity|].
  intros Q. apply Hd. apply (st_repair_iff (width t) (tmr h) v 2 u); auto. rewrite R by lia. exact Q.
Qed.

(* faults during get() *)
Lemma corrupt_pot k u s : pot (st_corrupt k u s) = pot s.
Proof. destruct k as [|[|[|k]]]; reflexivity. Qed.
Lemma strike_pot f i s : pot (strike f i s) = pot s.
Proof.
  unfold strike. generalize (f i). intros l. revert s. induction l as [|[k u] l IH]; intros s; [reflexivity|].
  cbn [fold_left]. rewrite IH. apply corrupt_pot.
Qed.
Lemma two_hold_get w v s : pot s = 0%N -> two_hold v s = true -> fst (st_get w s) = v.
Proof.
  intros Hp H. unfold st_get. rewrite Hp. cbn [N.eqb negb]. unfold two_hold in H.
  destruct (N.eqb_spec (sc (s0 s)) v), (N.eqb_spec (sc (s1 s)) v), (N.eqb_spec (sc (s2 s)) v); try discriminate;
    [apply (get_standard_pair s v 0)|apply (get_standard_pair s v 2)|apply (get_standard_pair s v 1)|apply (get_standard_pair s v 0)];
    try lia; intros [|[|[|i]]] Hi Hik; cbn [ssel]; lia || assumption.
Qed.
Lemma run_seen t f n : forall i s, pot s = 0%N ->
  let l := fst (run_n (hy_op t) n (i, strike f, s)) in
  l = map (fun s => fst (st_get (width t) s)) (seen (width t) (strike f) i n s) /\
  Forall (fun s => pot s = 0%N) (seen (width t) (strike f) i n s).
Proof.
  induction n as [|n IH]; intros i s Hp; cbv zeta; [split; [reflexivity|constructor]|].
  cbn [run_n hy_op seen]. unfold hyw. pose proof (get_data (width t) (strike f i s)) as (P & _).
  rewrite strike_pot in P. cbv zeta. destruct (st_get (width t) (strike f i s)) as [r s1] eqn:E. cbn [snd] in *.
  specialize (IH (S i) s1 ltac:(congruence)). cbv zeta in IH. destruct (run_n (hy_op t) n (S i, strike f, s1)) as [l q]. cbn [fst] in *.
  destruct IH as [IH1 IH2]. split; [cbn [map]; rewrite E, IH1; reflexivity|]. constructor; [rewrite strike_pot; exact Hp|exact IH2].
Qed.
Lemma hy_get_faults sg t f h v : is_int t = true -> valid t v -> pot (tmr h) = 0%N ->
  (nexec h < 2 * length (filter (two_hold v) (seen (width t) (strike f) 0 (nexec h) (tmr h))))%nat ->
  Forall (fun s => valid t (fst (st_get (width t) s))) (seen (width t) (strike f) 0 (nexec h) (tmr h)) ->
  exists h', hy_get sg t (strike f) h = Ret (v, h').
Proof.
  intros Hi Vv Hp Hm Hval. unfold hy_get.
  destruct (run_seen t f (nexec h) 0 (tmr h) Hp) as [E F].
  set (z := seen (width t) (strike f) 0 (nexec h) (tmr h)) in *.
  assert (Hn : (1 <= nexec h)%nat).
  { destruct (nexec h); [|lia]. cbn in z. subst z. cbn in Hm. lia. }
  destruct (execute_spec (ltK sg t) _ (hy_op t) (nexec h) (0%nat, strike f, tmr h) (ltK_ordered sg t) Hn) as (r & G & Hr & _ & _ & M).
  { apply Forall_forall. intros x _. apply int_not_nan. exact Hi. }
  rewrite E in *. rewrite G. cbn [obind]. destruct (snd _) as [[i up] s'].
  assert (same (ltK sg t) r v = true) as Q.
  { apply M; [apply int_not_nan; exact Hi|]. eapply Nat.lt_le_trans; [exact Hm|].
    apply Nat.mul_le_mono_l. unfold occurrences. clear - F Hi. induction F as [|s z Ps F IH]; [cbn; lia|].
    cbn [map filter]. destruct (two_hold v s) eqn:T.
    - rewrite (two_hold_get (width t) v s Ps T).
      assert (same (ltK sg t) v v = true) as ->.
      { unfold same. rewrite (ord_irr _ _ (ltK_ordered sg t) v); [reflexivity|apply int_not_nan; exact Hi]. }
      cbn [length]. lia.
    - destruct (same (ltK sg t) v _); cbn [length]; lia. }
  assert (Vr : valid t r).
  { apply in_map_iff in Hr. destruct Hr as (s1 & <- & Hs1). rewrite Forall_forall in Hval. apply Hval. exact Hs1. }
  rewrite (same_int sg t r v Hi Vr Vv Q). eexists. reflexivity.
Qed.

(* rollback *)
Lemma hy_set_mgr t v now h c : mgr h = Some c ->
  exists ver, mgr (hy_set t v now h) = Some (createCheckpoint v ver now c) /\ nexec (hy_set t v now h) = nexec h.
Proof.
  intros H. unfold hy_set, hy_checkpoint. replace (mgr (with_tmr h (st_set v (tmr h)))) with (Some c) by (symmetry; exact H).
  change (tmr (with_tmr h (st_set v (tmr h)))) with (st_set v (tmr h)).
  assert (fst (st_get (hyw t) (st_set v (tmr h))) = v) as E.
  { unfold st_get, st_set. cbn [st_construct pot N.eqb negb]. unfold get_standard. cbn. rewrite N.eqb_refl. reflexivity. }
  destruct (st_get (hyw t) (st_set v (tmr h))) as [r s']. cbn [fst] in E. subst r. eexists. split; reflexivity.
Qed.
Lemma set_dropped t v now h c : mgr h = Some c -> (now - Temporal_Model.last c < interval c)%Z ->
  mgr (hy_set t v now h) = Some c.
Proof.
  intros H L. destruct (hy_set_mgr t v now h c H) as (ver & E & _). rewrite E. unfold createCheckpoint.
  destruct (Z.ltb_spec (now - Temporal_Model.last c) (interval c)); [reflexivity|lia].
Qed.
Lemma rollback_stale t v now h c old : mgr h = Some c -> (now - Temporal_Model.last c < interval c)%Z ->
  getLatestCheckpoint c = Some old ->
  let '(ok, h') := hy_rollback (hy_set t v now h) in ok = true /\ fst (st_get (width t) (tmr h')) = old.
Proof.
  intros H L G. unfold hy_rollback. rewrite (set_dropped t v now h c H L), G. split; [reflexivity|].
  cbn [with_tmr tmr]. unfold st_get, st_set. cbn [st_construct pot N.eqb negb]. unfold get_standard. cbn. rewrite N.eqb_refl. reflexivity.
Qed.
Lemma first_set_lost t v0 v t0 now : (now - t0 < 30 * second)%Z ->
  fst (hy_rollback (hy_set t v now (hy_new v0 t0))) = false.
Proof.
  intros L. unfold hy_rollback. rewrite (set_dropped t v now (hy_new v0 t0) _ eq_refl L). reflexivity.
Qed.
Lemma rollback_two_sets t v0 v1 v2 t0 t1 t2 : (30 * second <= t1 - t0)%Z -> (t2 - t1 < 30 * second)%Z ->
  let '(ok, h') := hy_rollback (hy_set t v2 t2 (hy_set t v1 t1 (hy_new v0 t0))) in
  ok = true /\ fst (st_get (width t) (tmr h')) = v1.
Proof.
  intros L1 L2. destruct (hy_set_mgr t v1 t1 (hy_new v0 t0) _ eq_refl) as (ver & E & _).
  unfold createCheckpoint in E. cbn [cm_new Temporal_Model.last interval cps max_cp] in E.
  destruct (Z.ltb_spec (t1 - t0) (30 * second)); [lia|]. cbn in E.
  apply (rollback_stale t v2 t2 _ _ v1 E); [exact L2|reflexivity].
Qed.

Lemma latest_after {T} (d : T) ver now c : (interval c <= now - Temporal_Model.last c)%Z -> (1 <= max_cp c)%nat ->
  getLatestCheckpoint (createCheckpoint d ver now c) = Some d.
Proof.
  intros L M. unfold createCheckpoint. destruct (Z.ltb_spec (now - Temporal_Model.last c) (interval c)); [lia|].
  unfold getLatestCheckpoint. cbn [cps].
  destruct (Nat.ltb_spec (max_cp c) (length (cps c ++ [mkcp ver d now]))) as [G|G]; [|rewrite rev_app_distr; reflexivity].
  destruct (cps c) as [|x l]; [cbn in G; lia|]. cbn [app tl]. rewrite rev_app_distr. reflexivity.
Qed.
Lemma spaced_run t : forall l h c iv, mgr h = Some c -> interval c = iv -> (1 <= max_cp c)%nat ->
  spaced iv (Temporal_Model.last c) (set_times l) ->
  exists c', mgr (fold_left (ystep t) l h) = Some c' /\
  (newest (set_values l) = None -> c' = c) /\ (forall v, newest (set_values l) = Some v -> getLatestCheckpoint c' = Some v).
Proof.
  induction l as [|o l IH]; intros h c iv H I M Sp.
  - exists c. cbn. split; [exact H|]. split; [auto|discriminate].
  - destruct o as [v now|k u]; cbn [fold_left ystep set_times set_values] in *.
    + destruct Sp as [S1 S2]. destruct (hy_set_mgr t v now h c H) as (ver & E & _).
      destruct (IH (hy_set t v now h) (createCheckpoint v ver now c) iv E) as (c' & E' & A & B).
      * unfold createCheckpoint. destruct (_ <? _)%Z; assumption.
      * unfold createCheckpoint. destruct (_ <? _)%Z; assumption.
      * unfold createCheckpoint. destruct (Z.ltb_spec (now - Temporal_Model.last c) (interval c)); [lia|]. exact S2.
      * exists c'. split; [exact E'|]. unfold newest in *. cbn [rev].
        destruct (rev (set_values l)) as [|x r] eqn:R; cbn [hd_error app] in *.
        { split; [discriminate|]. intros w Hw. injection Hw as <-. rewrite (A eq_refl). apply latest_after; [lia|exact M]. }
        { split; [discriminate|]. intros w Hw. apply B. exact Hw. }
    + destruct (IH (with_tmr h (st_corrupt k u (tmr h))) c iv) as (c' & E' & A & B); auto. exists c'. auto.
Qed.
Lemma rollback_spaced t v0 t0 l v : spaced (30 * second) t0 (set_times l) -> newest (set_values l) = Some v ->
  let '(ok, h') := hy_rollback (fold_left (ystep t) l (hy_new v0 t0)) in
  ok = true /\ fst (st_get (width t) (tmr h')) = v.
Proof.
  intros Sp N. destruct (spaced_run t l (hy_new v0 t0) _ (30 * second) eq_refl eq_refl) as (c' & E & _ & B).
  - cbn. lia.
  - exact Sp.
  - unfold hy_rollback. rewrite E, (B v N). split; [reflexivity|].
    cbn [with_tmr tmr]. unfold st_get, st_set. cbn [st_construct pot N.eqb negb]. unfold get_standard. cbn. rewrite N.eqb_refl. reflexivity.
Qed.
