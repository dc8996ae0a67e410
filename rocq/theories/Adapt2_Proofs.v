(** Proofs about AdaptiveFramework and MissionProfile. *)
From Coq Require Import String List NArith ZArith Bool Arith Lia SpecFloat Reals Lra Sorted.
Import ListNotations.
From Flocq Require Import Core.
From Verif Require Import Outcome Words Floats FloatsR HealthFloat FloatsS Inject_Model Adapt_Model Adapt_Spec.
Local Open Scope Z_scope.

Lemma env_eqb_eq a b : env_eqb a b = true <-> a = b.
Proof. destruct a, b; cbn; split; congruence. Qed.
Lemma env_eqb_refl a : env_eqb a a = true.
Proof. apply env_eqb_eq. reflexivity. Qed.
Lemma changed_eqb s s' : changed s s' = negb (env_eqb (env s) (env s')).
Proof. reflexivity. Qed.

(** setEnvironment *)
Lemma set_env_spec s e : let s' := set_environment s e in env s' = e /\ adaptive s' = adaptive s /\ table s' = table s /\ fcbs s' = fcbs s /\ last_check s' = last_check s /\
  last_change s' = last_change s /\ since_check s' = since_check s /\ (current s = table s (env s) -> current s' = table s' (env s')) /\
  fnotes s' = if env_eqb (env s) e then fnotes s else (fcbs s, e) :: fnotes s.
Proof.
  unfold set_environment. destruct (env_eqb (env s) e) eqn:E.
  - apply env_eqb_eq in E. cbv zeta. auto 10.
  - cbn. auto 10.
Qed.
(** one look at the tracker *)
Lemma auto_spec s now r d : let s' := auto_detect s now r d in adaptive s' = adaptive s /\ table s' = table s /\ fcbs s' = fcbs s /\ since_check s' = since_check s /\
  (current s = table s (env s) -> current s' = table s' (env s')) /\
  (fnotes s' = if env_eqb (env s) (env s') then fnotes s else (fcbs s, env s') :: fnotes s) /\
  (env s' <> env s -> adaptive s = true /\ ten_seconds <= now - last_check s /\ last_check s' = now /\
     (fgt r (sofZ 10) = true \/ 2 <= Z.abs (rank (env s') - rank (env s)) \/ five_minutes < now - last_change s)) /\
  (last_check s' = last_check s \/ (last_check s' = now /\ ten_seconds <= now - last_check s)).
Proof.
  unfold auto_detect. destruct (adaptive s) eqn:Ad; cbn [negb]; [|cbv zeta; rewrite env_eqb_refl; repeat split; try tauto; auto; intros X; contradiction].
  destruct (Z.ltb_spec (now - last_check s) 10000000000) as [L|L]; [cbv zeta; rewrite env_eqb_refl; repeat split; try tauto; auto; intros X; contradiction|].
  cbv zeta. set (s1 := mkAF (env s) true (current s) (table s) (fcbs s) now (last_change s) (since_check s) (fnotes s)).
  fold (ten_seconds) in L.
  destruct (fgt r (sofZ 10)) eqn:G.
  - destruct (set_env_spec s1 EXTREME) as (A & B & C & D & E & F & H & I & J). set (S1 := set_environment s1 EXTREME) in *. clearbody S1.
    unfold s1 in B, C, D, E, F, H, I, J. cbn [adaptive table fcbs since_check env fnotes last_check current last_change] in B, C, D, E, F, H, I, J.
    rewrite J, A, B, C, D, E, H. rewrite C, A in I. repeat split; auto.
  - destruct (env_eqb (detect (severity r d)) (env s1)) eqn:Ee; [unfold s1; cbn [adaptive table fcbs since_check env fnotes last_check current]; rewrite env_eqb_refl; repeat split; try tauto; auto; intros X; contradiction|].
    destruct ((2 <=? _) || _)%bool eqn:Hy.
    + destruct (set_env_spec s1 (detect (severity r d))) as (A & B & C & D & E & F & H & I & J). set (S1 := set_environment s1 (detect (severity r d))) in *. clearbody S1.
      unfold s1 in B, C, D, E, F, H, I, J, Hy. cbn [adaptive table fcbs since_check env fnotes last_check current last_change] in *.
      rewrite J, A, B, C, D, E, H. rewrite C, A in I. repeat split; auto. right. apply orb_true_iff in Hy as [Hy|Hy].
      * left. apply Z.leb_le in Hy. exact Hy.
      * right. apply Z.ltb_lt in Hy. exact Hy.
    + unfold s1. cbn [adaptive table fcbs since_check env fnotes last_check current]. rewrite env_eqb_refl. repeat split; try tauto; auto; intros X; contradiction.
Qed.
(** every call *)
Definition finv (s : af) : Prop := current s = table s (env s).
Lemma step_finv s o : finv s -> finv (af_step s o).
Proof.
  unfold finv. intros H. destruct o as [e|b now r d|now r d|now r d|e x|id|id]; cbn [af_step].
  - apply set_env_spec. exact H.
  - unfold set_adaptive. destruct b; [apply auto_spec; exact H|exact H].
  - unfold log_error. destruct (10 <=? _); [|exact H].
    match goal with |- context [auto_detect ?s0 now r d] => destruct (auto_spec s0 now r d) as (_ & _ & _ & _ & A & _) end. cbn. apply A. exact H.
  - apply auto_spec. exact H.
  - unfold customize. cbn [env]. destruct (env_eqb e (env s)) eqn:E; [reflexivity|]. cbn. rewrite H. 
    replace (env_eqb (env s) e) with false; [reflexivity|]. symmetry. apply not_true_iff_false. intros X. apply env_eqb_eq in X. rewrite <- X, env_eqb_refl in E. discriminate.
  - exact H.
  - exact H.
Qed.
Lemma step_table s o : table (af_step s o) = match o with FCustomize e x => fun k => if env_eqb k e then x else table s k | _ => table s end.
Proof.
  destruct o as [e|b now r d|now r d|now r d|e x|id|id]; cbn [af_step].
  - apply set_env_spec.
  - unfold set_adaptive. destruct b; [|reflexivity]. match goal with |- context [auto_detect ?s0 now r d] => destruct (auto_spec s0 now r d) as (_ & A & _) end. exact A.
  - unfold log_error. destruct (10 <=? _); [|reflexivity]. match goal with |- context [auto_detect ?s0 now r d] => destruct (auto_spec s0 now r d) as (_ & A & _) end. exact A.
  - apply auto_spec.
  - unfold customize. cbn [env]. destruct (env_eqb e (env s)); reflexivity.
  - reflexivity.
  - reflexivity.
Qed.
Lemma run_table e : forall ops s, table (af_run s ops) e = customized e ops (table s e).
Proof.
  induction ops as [|o ops IH]; intros s; [reflexivity|]. cbn [af_run fold_left]. change (fold_left af_step ops (af_step s o)) with (af_run (af_step s o) ops). rewrite IH, step_table.
  destruct o as [e'|b now r d|now r d|now r d|e' x|id|id]; try reflexivity. cbn [customized]. f_equal. unfold env_eqb. rewrite Z.eqb_sym. reflexivity.
Qed.
Lemma run_finv ops : forall s, finv s -> finv (af_run s ops).
Proof. induction ops as [|o ops IH]; intros s H; [exact H|]. apply IH. apply step_finv. exact H. Qed.
Theorem settings_follow t ops : let s := af_run (af_new t) ops in current s = customized (env s) ops (default_settings (env s)).
Proof. cbv zeta. rewrite (run_finv ops (af_new t) eq_refl). apply (run_table _ ops (af_new t)). Qed.

(** adaptive mode off *)
Lemma step_off s o : adaptive s = false -> sets_env o = false -> enables o = false -> env (af_step s o) = env s /\ adaptive (af_step s o) = false.
Proof.
  assert (A : forall s' now r d, adaptive s' = false -> auto_detect s' now r d = s') by (intros s' now r d H; unfold auto_detect; rewrite H; reflexivity).
  intros H S E. destruct o as [e|b now r d|now r d|now r d|e x|id|id]; cbn [af_step]; try discriminate.
  - destruct b; [discriminate|]. auto.
  - unfold log_error. destruct (10 <=? _); rewrite ?A by exact H; auto.
  - rewrite A by exact H. auto.
  - unfold customize. cbn [env]. destruct (env_eqb e (env s)); auto.
  - auto.
  - auto.
Qed.
Theorem run_off : forall ops s, adaptive s = false -> forallb (fun o => negb (sets_env o || enables o)) ops = true -> env (af_run s ops) = env s.
Proof.
  induction ops as [|o ops IH]; intros s H L; [reflexivity|]. cbn [forallb] in L. apply andb_true_iff in L as [L1 L2]. apply negb_true_iff, orb_false_iff in L1 as [L1 L3].
  destruct (step_off s o H L1 L3) as [A B]. cbn [af_run fold_left]. change (fold_left af_step ops (af_step s o)) with (af_run (af_step s o) ops). rewrite IH by assumption. exact A.
Qed.

(** changes by detection *)
Lemma step_change s o : sets_env o = false -> changed s (af_step s o) = true -> exists t, at_time o = Some t /\ ten_seconds <= t - last_check s /\ last_check (af_step s o) = t /\
  exists r d, (o = FMaintain t r d \/ o = FLog t r d \/ exists b, o = FMode b t r d) /\
  (fgt r (sofZ 10) = true \/ 2 <= Z.abs (rank (env (af_step s o)) - rank (env s)) \/ five_minutes < t - last_change s).
Proof.
  intros S H. rewrite changed_eqb in H. apply negb_true_iff in H.
  assert (N : env (af_step s o) <> env s) by (intros X; rewrite X, env_eqb_refl in H; discriminate). clear H.
  destruct o as [e|b now r d|now r d|now r d|e x|id|id]; cbn [af_step] in *; try discriminate S; try (exfalso; apply N; reflexivity).
  - unfold set_adaptive in *. destruct b; [|exfalso; apply N; reflexivity].
    match goal with |- context [auto_detect ?s0 now r d] => destruct (auto_spec s0 now r d) as (_ & _ & _ & _ & _ & _ & A & _) end.
    destruct (A N) as (_ & B & C & D). exists now. split; [reflexivity|]. split; [exact B|]. split; [exact C|]. exists r, d. split; [eauto|exact D].
  - unfold log_error in *. destruct (10 <=? _); [|exfalso; apply N; reflexivity].
    match goal with |- context [auto_detect ?s0 now r d] => destruct (auto_spec s0 now r d) as (_ & _ & _ & _ & _ & _ & A & _) end.
    destruct (A N) as (_ & B & C & D). exists now. split; [reflexivity|]. split; [exact B|]. split; [exact C|]. exists r, d. split; [auto|exact D].
  - destruct (auto_spec s now r d) as (_ & _ & _ & _ & _ & _ & A & _).
    destruct (A N) as (_ & B & C & D). exists now. split; [reflexivity|]. split; [exact B|]. split; [exact C|]. exists r, d. split; [auto|exact D].
  - exfalso. apply N. unfold customize. cbn [env]. destruct (env_eqb e (env s)); reflexivity.
Qed.
Lemma step_check s o : last_check s <= last_check (af_step s o).
Proof.
  assert (A : forall s' now r d, last_check s' <= last_check (auto_detect s' now r d)).
  { intros s' now r d. destruct (auto_spec s' now r d) as (_ & _ & _ & _ & _ & _ & _ & [E|[E F]]); rewrite E; [lia|unfold ten_seconds in F; lia]. }
  destruct o as [e|b now r d|now r d|now r d|e x|id|id]; cbn [af_step]; try (cbn; lia).
  - destruct (set_env_spec s e) as (_ & _ & _ & _ & E & _). rewrite E. lia.
  - unfold set_adaptive. destruct b; [|cbn; lia]. match goal with |- context [auto_detect ?s0 now r d] => exact (A s0 now r d) end.
  - unfold log_error. destruct (10 <=? _); [|cbn; lia]. match goal with |- context [auto_detect ?s0 now r d] => exact (A s0 now r d) end.
  - apply A.
  - unfold customize. cbn [env]. destruct (env_eqb e (env s)); cbn; lia.
Qed.
Theorem spaced : forall ops s, Sorted (fun a b => a + ten_seconds <= b) (detections s ops) /\ Forall (fun a => last_check s + ten_seconds <= a) (detections s ops).
Proof.
  induction ops as [|o ops IH]; intros s; [split; constructor|]. cbn [detections].
  destruct (IH (af_step s o)) as [S F]. pose proof (step_check s o) as M.
  assert (F' : Forall (fun a => last_check s + ten_seconds <= a) (detections (af_step s o) ops)) by (eapply Forall_impl; [|exact F]; cbn; intros; lia).
  destruct (at_time o) as [t|] eqn:T; [|exact (conj S F')]. destruct (changed s (af_step s o)) eqn:C; [|exact (conj S F')].
  assert (So : sets_env o = false) by (destruct o; try reflexivity; discriminate T).
  destruct (step_change s o So C) as (t' & T' & A & B & _). rewrite T in T'. injection T' as <-.
  cbn [app]. split.
  - constructor; [exact S|]. rewrite B in F. destruct (detections (af_step s o) ops) as [|x l]; constructor. inversion F; assumption.
  - constructor; [lia|exact F'].
Qed.
(** nothing happens within ten seconds of a check *)
Theorem suppressed : forall ops s, Forall (fun o => sets_env o = false /\ forall t, at_time o = Some t -> t < last_check s + ten_seconds) ops -> env (af_run s ops) = env s.
Proof.
  induction ops as [|o ops IH]; intros s H; [reflexivity|]. inversion H as [|? ? [H1 H2] H3]; subst.
  assert (E : env (af_step s o) = env s /\ last_check (af_step s o) = last_check s).
  { assert (A : forall s' t r d, last_check s' = last_check s -> t < last_check s + ten_seconds -> auto_detect s' t r d = s').
    { intros s' t r d L K. unfold auto_detect. destruct (adaptive s'); [|reflexivity]. cbn [negb]. rewrite L. replace (t - last_check s <? 10000000000) with true; [reflexivity|].
      symmetry. apply Z.ltb_lt. unfold ten_seconds in K. lia. }
    destruct o as [e|b now r d|now r d|now r d|e x|id|id]; cbn [af_step]; try discriminate H1; try (split; reflexivity).
    - unfold set_adaptive. destruct b; [rewrite A; [auto|reflexivity|apply H2; reflexivity]|auto].
    - unfold log_error. destruct (10 <=? _); [rewrite A; [auto|reflexivity|apply H2; reflexivity]|auto].
    - rewrite A; [auto|reflexivity|apply H2; reflexivity].
    - unfold customize. cbn [env]. destruct (env_eqb e (env s)); auto. }
  destruct E as [E1 E2]. cbn [af_run fold_left]. change (fold_left af_step ops (af_step s o)) with (af_run (af_step s o) ops). rewrite IH; [exact E1|]. rewrite E2. exact H3.
Qed.
Theorem extreme s now r d : adaptive s = true -> ten_seconds <= now - last_check s -> fgt r (sofZ 10) = true -> env (auto_detect s now r d) = EXTREME.
Proof.
  intros A L G. unfold auto_detect. rewrite A. cbn [negb]. replace (now - last_check s <? 10000000000) with false by (symmetry; apply Z.ltb_ge; exact L). cbv zeta. rewrite G.
  apply set_env_spec.
Qed.
Theorem step_fnotes s o : fnotes (af_step s o) = if changed s (af_step s o) then (fcbs s, env (af_step s o)) :: fnotes s else fnotes s.
Proof.
  rewrite changed_eqb. assert (Fl : forall (b : bool) (x y : list (list Z * env_type)), (if negb b then x else y) = if b then y else x) by (intros []; reflexivity). rewrite Fl.
  destruct o as [e|b now r d|now r d|now r d|e x|id|id]; cbn [af_step].
  - destruct (set_env_spec s e) as (A & _ & _ & _ & _ & _ & _ & _ & B). rewrite A, B. reflexivity.
  - unfold set_adaptive. destruct b; [|cbn; rewrite env_eqb_refl; reflexivity].
    match goal with |- context [auto_detect ?s0 now r d] => destruct (auto_spec s0 now r d) as (_ & _ & _ & _ & _ & A & _) end. exact A.
  - unfold log_error. destruct (10 <=? _); [|cbn; rewrite env_eqb_refl; reflexivity].
    match goal with |- context [auto_detect ?s0 now r d] => destruct (auto_spec s0 now r d) as (_ & _ & _ & _ & _ & A & _) end. exact A.
  - destruct (auto_spec s now r d) as (_ & _ & _ & _ & _ & A & _). exact A.
  - unfold customize. cbn [env]. destruct (env_eqb e (env s)); cbn; rewrite env_eqb_refl; reflexivity.
  - cbn. rewrite env_eqb_refl. reflexivity.
  - cbn. rewrite env_eqb_refl. reflexivity.
Qed.

(** ** monotone detection *)
Local Open Scope R_scope.
Definition sbound (b : Z) (x : sf) : Prop := oks x /\ 0 <= R x <= IZR b.
Definition ssmall (b : Z) : Prop := (0 <= b <= 1000)%Z.
Lemma rnd32_mono x y : x <= y -> rnd32 x <= rnd32 y.
Proof. apply (rnd_le 24 128). Qed.
Lemma sint b : ssmall b -> oks (sofZ b) /\ R (sofZ b) = IZR b.
Proof.
  intros H. destruct (ofZ_s b) as [A B]; [unfold ssmall in H; lia|]. split; [exact A|]. rewrite B.
  assert (Q : forall n, (n <= 1000)%nat -> rnd32 (IZR (Z.of_nat n)) = IZR (Z.of_nat n)).
  { intros n Hn. replace (IZR (Z.of_nat n)) with (IZR (Z.of_nat n) * bpow radix2 0) by (simpl; lra). unfold rnd32, rnd. apply round_generic; [apply valid_rnd_N|].
    apply generic_format_FLT. exists (Float radix2 (Z.of_nat n) 0); [reflexivity|change (Z.abs (Z.of_nat n) < 16777216)%Z; lia|vm_compute; discriminate]. }
  specialize (Q (Z.to_nat b)). unfold ssmall in H. rewrite Z2Nat.id in Q by lia. apply Q. lia.
Qed.
Lemma rnd32_in b x : ssmall b -> 0 <= x <= IZR b -> 0 <= rnd32 x <= IZR b.
Proof.
  intros S H. destruct (sint b S) as [A B]. destruct (sint 0 ltac:(unfold ssmall; lia)) as [C D]. split.
  - rewrite <- D. apply rnd32_ge; [exact C|]. rewrite D. apply H.
  - rewrite <- B. apply rnd32_le; [exact A|]. rewrite B. apply H.
Qed.
Lemma smids b x : ssmall b -> 0 <= x <= IZR b -> mids x.
Proof. intros [S1 S2] H. apply mids_small. apply IZR_le in S2. lra. Qed.
Lemma sb_mul a b x y : sbound a x -> sbound b y -> ssmall (a * b) -> sbound (a * b) (smul x y) /\ R (smul x y) = rnd32 (R x * R y).
Proof.
  intros [O1 H1] [O2 H2] S. assert (P : 0 <= R x * R y <= IZR (a * b)) by (rewrite mult_IZR; split; [apply Rmult_le_pos; lra|apply Rmult_le_compat; lra]).
  destruct (mul_s x y O1 O2 (smids _ _ S P)) as [A B]. split; [|exact B]. split; [exact A|]. rewrite B. apply rnd32_in; assumption.
Qed.
Lemma sb_add a b x y : sbound a x -> sbound b y -> ssmall (a + b) -> sbound (a + b) (sadd x y).
Proof.
  intros [O1 H1] [O2 H2] S. assert (P : 0 <= R x + R y <= IZR (a + b)) by (rewrite plus_IZR; lra).
  destruct (add_s x y O1 O2 (smids _ _ S P)) as [A B]. split; [exact A|]. rewrite B. apply rnd32_in; assumption.
Qed.
Definition weight_of (dist : list sf) : sf :=
  fold_left (fun acc p => sadd acc (smul (fst p) (snd p))) (combine dist [sofZ 1; sofZ 2; sofZ 3; sofZ 4; sofZ 5; slit 5 2]) (S754_zero false).
Lemma weight_bound dist : shares dist -> sbound 18 (weight_of dist).
Proof.
  intros [L F]. do 7 (destruct dist as [|?x dist]; [try discriminate L|]); [|discriminate L].
  repeat match goal with H : Forall _ (_ :: _) |- _ => inversion H; clear H; subst end.
  assert (W : forall n x, ssmall n -> oks x /\ 0 <= R x <= 1 -> sbound n (smul x (sofZ n))).
  { intros n y Hn [Oy Hy]. replace n with (1 * n)%Z at 1 by lia. apply sb_mul; [split; [exact Oy|exact Hy]| |unfold ssmall in *; lia].
    destruct (sint n Hn) as [A B]. split; [exact A|]. rewrite B. split; [apply IZR_le; unfold ssmall in Hn; lia|lra]. }
  assert (Hc : sbound 3 (smul x4 (slit 5 2))).
  { change 3%Z with (1 * 3)%Z. apply sb_mul; [assumption| |unfold ssmall; lia].
    replace (slit 5 2) with (S754_finite false 10485760 (-22)) by (vm_compute; reflexivity). split; [split; reflexivity|]. unfold R, BinarySingleNaN.SF2R, cond_Zopp, F2R. cbn [Fnum Fexp].
    change (bpow radix2 (-22)) with (/ IZR 4194304). lra. }
  unfold weight_of. cbn [combine fold_left fst snd].
  assert (Z0 : sbound 0 (S754_zero false)) by (split; [split; reflexivity|]; change (R (S754_zero false)) with 0; lra).
  change 18%Z with (0 + 1 + 2 + 3 + 4 + 5 + 3)%Z.
  repeat (apply sb_add; [|first [exact Hc|apply W; [unfold ssmall; lia|assumption]]|unfold ssmall; lia]). exact Z0.
Qed.
Lemma detect_mono x y : oks x -> oks y -> R x <= R y -> (rank (detect x) <= rank (detect y))%Z.
Proof.
  intros Ox Oy H. unfold detect.
  assert (T : forall t, oks t -> flt y t = true -> flt x t = true) by (intros t Ot Q; apply (flt_s y t Oy Ot) in Q; apply (flt_s x t Ox Ot); lra).
  assert (O1 : oks (slit 1 100)) by (split; vm_compute; reflexivity). assert (O2 : oks (slit 1 10)) by (split; vm_compute; reflexivity). assert (O3 : oks (slit 5 10)) by (split; vm_compute; reflexivity).
  assert (O4 : oks (sofZ 1)) by (split; vm_compute; reflexivity). assert (O5 : oks (sofZ 5)) by (split; vm_compute; reflexivity). assert (O6 : oks (sofZ 20)) by (split; vm_compute; reflexivity).
  pose proof (T _ O1) as T1. pose proof (T _ O2) as T2. pose proof (T _ O3) as T3. pose proof (T _ O4) as T4. pose proof (T _ O5) as T5. pose proof (T _ O6) as T6.
  destruct (flt y (slit 1 100)); [rewrite T1 by reflexivity; cbn; lia|]. destruct (flt x (slit 1 100)); [repeat destruct (flt y _); cbn; lia|].
  destruct (flt y (slit 1 10)); [rewrite T2 by reflexivity; cbn; lia|]. destruct (flt x (slit 1 10)); [repeat destruct (flt y _); cbn; lia|].
  destruct (flt y (slit 5 10)); [rewrite T3 by reflexivity; cbn; lia|]. destruct (flt x (slit 5 10)); [repeat destruct (flt y _); cbn; lia|].
  destruct (flt y (sofZ 1)); [rewrite T4 by reflexivity; cbn; lia|]. destruct (flt x (sofZ 1)); [repeat destruct (flt y _); cbn; lia|].
  destruct (flt y (sofZ 5)); [rewrite T5 by reflexivity; cbn; lia|]. destruct (flt x (sofZ 5)); [repeat destruct (flt y _); cbn; lia|].
  destruct (flt y (sofZ 20)); [rewrite T6 by reflexivity; cbn; lia|]. destruct (flt x (sofZ 20)); cbn; lia.
Qed.
Lemma severity_mono r1 r2 d : shares d -> oks r1 -> oks r2 -> 0 <= R r1 <= R r2 -> R r2 <= 10 -> (rank (detect (severity r1 d)) <= rank (detect (severity r2 d)))%Z.
Proof.
  intros S O1 O2 H H2. pose proof (weight_bound d S) as W. unfold severity. fold (weight_of d).
  destruct (sb_mul 18 10 (weight_of d) r1 W) as [[A1 _] A2]; [split; [exact O1|lra]|unfold ssmall; lia|].
  destruct (sb_mul 18 10 (weight_of d) r2 W) as [[B1 _] B2]; [split; [exact O2|lra]|unfold ssmall; lia|].
  apply detect_mono; try assumption. rewrite A2, B2. apply rnd32_mono. apply Rmult_le_compat_l; [apply W|apply H].
Qed.
Lemma rank_range e : (0 <= rank e <= 6)%Z.
Proof. destruct e; cbn; lia. Qed.
Theorem auto_mono s now r1 r2 d : shares d -> oks r1 -> oks r2 -> 0 <= R r1 <= R r2 -> (rank (env (auto_detect s now r1 d)) <= rank (env (auto_detect s now r2 d)))%Z.
Proof.
  intros S O1 O2 H. unfold auto_detect. destruct (adaptive s); cbn [negb]; [|lia]. destruct (now - last_check s <? 10000000000)%Z; [lia|]. cbv zeta.
  set (s1 := mkAF (env s) true (current s) (table s) (fcbs s) now (last_change s) (since_check s) (fnotes s)).
  destruct (sint 10 ltac:(unfold ssmall; lia)) as [T1 T2].
  destruct (fgt r2 (sofZ 10)) eqn:G2.
  { replace (env (set_environment s1 EXTREME)) with EXTREME by (symmetry; apply set_env_spec). change (rank EXTREME) with 6%Z. apply rank_range. }
  assert (L2 : R r2 <= 10). { apply Rnot_lt_le. intros X. rewrite <- T2 in X. apply (flt_s _ _ T1 O2) in X. unfold fgt in G2. unfold flt in X. congruence. }
  replace (fgt r1 (sofZ 10)) with false. 2:{ symmetry. apply not_true_iff_false. intros X. apply (flt_s (sofZ 10) r1 T1 O1) in X. lra. }
  pose proof (severity_mono r1 r2 d S O1 O2 H L2) as M. set (d1 := detect (severity r1 d)) in *. set (d2 := detect (severity r2 d)) in *.
  assert (E : forall x, env (if env_eqb x (env s1) then s1 else if ((2 <=? Z.abs (env_num x - env_num (env s1))) || (300000000000 <? now - last_change s1))%Z
     then let s := set_environment s1 x in mkAF (env s) (adaptive s) (current s) (table s) (fcbs s) (last_check s) now (since_check s) (fnotes s) else s1) =
     if ((2 <=? Z.abs (rank x - rank (env s))) || (300000000000 <? now - last_change s))%Z then x else env s).
  { intros x. change (env s1) with (env s). change (last_change s1) with (last_change s). change (env_num x) with (rank x). change (env_num (env s)) with (rank (env s)).
    destruct (env_eqb x (env s)) eqn:Q; [apply env_eqb_eq in Q; subst x; change (env s1) with (env s); destruct (_ || _)%bool; reflexivity|].
    destruct ((2 <=? _) || _)%Z%bool; [cbv zeta; cbn [env]; apply set_env_spec|reflexivity]. }
  cbv zeta in E. rewrite !E. destruct (300000000000 <? now - last_change s)%Z; [rewrite !orb_true_r; exact M|]. rewrite !orb_false_r.
  destruct (Z.leb_spec 2 (Z.abs (rank d1 - rank (env s)))), (Z.leb_spec 2 (Z.abs (rank d2 - rank (env s)))); lia.
Qed.

Theorem step_fnoted s o : fnoted s (af_step s o).
Proof.
  pose proof (step_fnotes s o) as H. rewrite changed_eqb in H. unfold fnoted. split; intros X.
  - rewrite X, env_eqb_refl in H. exact H.
  - destruct (env_eqb (env s) (env (af_step s o))) eqn:E; [apply env_eqb_eq in E; exfalso; apply X; symmetry; exact E|exact H].
Qed.
