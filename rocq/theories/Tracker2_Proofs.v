(** RadiationErrorTracker: progress, getRecentErrors, error rate, reset, distribution. *)
From Coq Require Import String List NArith ZArith Bool Lia SpecFloat Reals Lra.
Import ListNotations.
From Flocq Require Import Core.
From Flocq.IEEE754 Require Import BinarySingleNaN.
From Verif Require Import Outcome Words Floats FloatsR FloatsS Tracker_Model Tracker_Spec Tracker_Proofs.
Local Arguments N.add : simpl never.
Local Arguments N.mul : simpl never.
Local Arguments N.pow : simpl never.
Local Arguments N.modulo : simpl never.
Local Arguments lastn : simpl never.
Local Opaque max_history_size.

(** *** The mutex, for arbitrary programs *)
Lemma act_cs t cl p now w w' p' e : act cl p now w = Some (w', p', e) ->
  (in_cs t (cl, p) <= b2n (locked (trk w t)))%N ->
  (b2n (locked (trk w' t)) + in_cs t (cl, p) = b2n (locked (trk w t)) + in_cs t (cl, p'))%N.
Proof.
  intros A H.
  destruct cl as [t' q d|t'|t'|t' k]; destruct p; simpl in A; try discriminate;
    repeat match type of A with context [if ?b then _ else _] => let E := fresh "E" in destruct b eqn:E end; try discriminate;
    injection A as <- <- <-; simpl trk in *; cbn [in_cs b2n] in *; try lia;
    unfold upd; (destruct (Nat.eqb_spec t t') as [->|Ht];
      [rewrite ?Nat.eqb_refl in *; cbn [locked b2n] in *
      |try rewrite (proj2 (Nat.eqb_neq t' t)) in * by auto; cbn [b2n] in *]);
    try (destruct d; cbn [after_history]);
    try (destruct (locked (trk w t')); cbn [b2n] in *);
    try lia; try discriminate.
Qed.
Lemma cs_inv_step c c' t i now e : (forall t, total (in_cs t) (ths c) = b2n (locked (trk (wld c) t))) ->
  step i now c = Some (c', e) -> total (in_cs t) (ths c') = b2n (locked (trk (wld c') t)).
Proof.
  intros H S. destruct (step_total _ _ _ _ _ S) as (cl & p & rst & w' & p' & e0 & Hn & A & -> & Hw & Hths & Tle & T).
  specialize (T (in_cs t) ltac:(dz)). specialize (Tle (in_cs t)). rewrite H in *. rewrite Hw.
  pose proof (act_cs t _ _ _ _ _ _ _ A Tle). lia.
Qed.
Lemma cs_inv progs sch c ev : run sch (start progs) = Some (c, ev) ->
  forall t, total (in_cs t) (ths c) = b2n (locked (trk (wld c) t)).
Proof.
  revert sch c ev. apply (run_inv (fun c _ => forall t, total (in_cs t) (ths c) = b2n (locked (trk (wld c) t)))).
  - intros t. rewrite total_start. apply sumf_zero. intros x _. destruct x; reflexivity.
  - intros. eapply cs_inv_step; eauto.
Qed.

(** *** Well-formed program counters *)
Definition wfpc (x : call * pc) : bool :=
  match x with
  | (RecordError _ _ _, (PStart|PPat|PTime|PStore _|PLock|PPush|PPop|PUnlock|PNow|PLast _|PCas _ _|PCount _ _|PXchg _ _ _|PRead _ _ _ _|PWrite _ _ _ _ _)) => true
  | (Reset _, (PStart|QRate|QTime|QPat _|QLock|QClear|QUnlock)) => true
  | (PatternDistribution _, (PStart|DPat _ _ _)) => true
  | (RecentErrors _ _, (PStart|RCopy|RUnlock _)) => true
  | _ => false end.
Definition wfth (th : thread) : Prop :=
  match th with [] => True | x :: r => wfpc x = true /\ Forall (fun y => snd y = PStart) r end.
Lemma act_wf cl p now w w' p' e : act cl p now w = Some (w', p', e) -> p' = PDone \/ wfpc (cl, p') = true.
Proof.
  intros A. destruct cl as [t' q d|t'|t'|t' k]; destruct p; simpl in A; try discriminate;
    repeat match type of A with context [if ?b then _ else _] => destruct b end; try discriminate;
    injection A as <- <- <-; auto. destruct d; auto.
Qed.
Lemma wf_started r : Forall (fun y : call * pc => snd y = PStart) r -> wfth r.
Proof. intros H. destruct H as [|[cl p] r E H]; simpl; [exact I|]. simpl in E. subst. split; [destruct cl; reflexivity|exact H]. Qed.
Lemma in_set_nth {A} (l : list A) i v x : In x (set_nth l i v) -> x = v \/ In x l.
Proof.
  unfold set_nth. rewrite in_app_iff. simpl. intros [H|[H|H]]; auto.
  - right. rewrite <- (firstn_skipn i l). apply in_or_app. auto.
  - right. rewrite <- (firstn_skipn (S i) l). apply in_or_app. auto.
Qed.
Lemma wf_run progs sch c ev : run sch (start progs) = Some (c, ev) -> forall th, In th (ths c) -> wfth th.
Proof.
  revert sch c ev. apply (run_inv (fun c _ => forall th, In th (ths c) -> wfth th)).
  - intros th Hin. unfold start in Hin. simpl in Hin. apply in_map_iff in Hin. destruct Hin as (pr & <- & _).
    apply wf_started. apply Forall_forall. intros y Hy. apply in_map_iff in Hy. destruct Hy as (cl & <- & _). reflexivity.
  - intros c ev i now c' e IH S th Hin.
    destruct (step_total _ _ _ _ _ S) as (cl & p & rst & w' & p' & e0 & Hn & A & -> & Hw & Hths & Tle & T).
    rewrite Hths in Hin. apply in_set_nth in Hin. destruct Hin as [->|Hin]; [|auto].
    destruct (IH _ (nth_error_In _ _ Hn)) as [_ Hr].
    destruct (act_wf _ _ _ _ _ _ _ A) as [->|W]; [apply wf_started; exact Hr|].
    destruct p'; try (split; [exact W|exact Hr]). apply wf_started. exact Hr.
Qed.

(* an action that waits for nothing but the clock *)
Lemma act_enabled cl p w : wfpc (cl, p) = true ->
  (exists r, act cl p (clk w) w = Some r) \/
  (exists t, (p = PLock \/ p = QLock \/ p = PStart) /\ in_cs t (cl, p) = 0%N /\ locked (trk w t) = true).
Proof.
  intros W. destruct cl as [t' q d|t'|t'|t' k]; destruct p; simpl in W; try discriminate; simpl;
    rewrite ?Z.ltb_irrefl;
    repeat match goal with |- context [if ?b then _ else _] => let E := fresh "E" in destruct b eqn:E end;
    try (left; eexists; reflexivity); right; exists t'; auto.
Qed.
Lemma cs_enabled t cl p w : in_cs t (cl, p) <> 0%N -> exists r, act cl p (clk w) w = Some r.
Proof.
  intros H. destruct cl as [t' q d|t'|t'|t' k]; destruct p; simpl in H; try (exfalso; apply H; reflexivity); simpl;
    rewrite ?Z.ltb_irrefl; eexists; reflexivity.
Qed.
Lemma sumf_pos {A} (f : A -> N) l : sumf f l <> 0%N -> exists x, In x l /\ f x <> 0%N.
Proof.
  induction l as [|a l IH]; simpl; intros H; [contradiction|].
  destruct (N.eq_dec (f a) 0) as [E|E]; [|exists a; auto].
  destruct IH as (x & Hin & Hx); [lia|]. exists x. auto.
Qed.
Theorem tracker_progress progs sch c ev : run sch (start progs) = Some (c, ev) -> ~ finished c ->
  exists i now r, step i now c = Some r.
Proof.
  intros R NF. pose proof (cs_inv _ _ _ _ R) as CS. pose proof (wf_run _ _ _ _ R) as WF.
  assert (Hex : exists i cl p rst, nth_error (ths c) i = Some ((cl, p) :: rst)).
  { assert (existsb (fun th : thread => match th with [] => false | _ => true end) (ths c) = true) as E.
    { destruct (existsb _ (ths c)) eqn:E; [reflexivity|]. exfalso. apply NF. intros th Hin.
      rewrite <- not_true_iff_false in E. destruct th; [reflexivity|]. exfalso. apply E. apply existsb_exists. eexists. split; [exact Hin|reflexivity]. }
    apply existsb_exists in E. destruct E as (th & Hin & Hth). destruct th as [|[cl p] rst]; [discriminate|].
    apply In_nth_error in Hin. destruct Hin as (i & Hi). eauto. }
  assert (Go : forall i cl p rst r, nth_error (ths c) i = Some ((cl, p) :: rst) -> act cl p (clk (wld c)) (wld c) = Some r ->
    exists i now r, step i now c = Some r).
  { intros i cl p rst [[w' p'] e] Hi Ha. exists i, (clk (wld c)). unfold step. rewrite Hi, Ha. eexists. reflexivity. }
  destruct Hex as (i & cl & p & rst & Hi).
  destruct (WF _ (nth_error_In _ _ Hi)) as [W _].
  destruct (act_enabled cl p (wld c) W) as [[r Ha]|(t & _ & _ & L)]; [eapply Go; eauto|].
  specialize (CS t). rewrite L in CS. cbn [b2n] in CS.
  destruct (sumf_pos (sumf (in_cs t)) (ths c)) as (th & Hin & Hs). { unfold total in CS. lia. }
  destruct (sumf_pos _ _ Hs) as ([cl' p'] & Hin' & Hp).
  destruct th as [|x th]; [destruct Hin'|]. destruct (WF _ Hin) as [_ Hr]. destruct Hin' as [->|Hin'].
  - apply In_nth_error in Hin. destruct Hin as (j & Hj). destruct (cs_enabled t cl' p' (wld c) Hp) as (r & Ha). eapply Go; eauto.
  - exfalso. rewrite Forall_forall in Hr. specialize (Hr _ Hin'). simpl in Hr. subst p'. destruct cl'; apply Hp; reflexivity.
Qed.

(** *** getRecentErrors *)
Definition at_recent t (x : call * pc) : N :=
  match x with (RecentErrors t' _, (RCopy | RUnlock _)) => b2n (Nat.eqb t' t) | _ => 0%N end.
Lemma act_hist t cl p now w w' p' e : act cl p now w = Some (w', p', e) -> in_cs t (cl, p) = 0%N ->
  hist (trk w' t) = hist (trk w t).
Proof.
  intros A H. destruct cl as [t' q d|t'|t'|t' k]; destruct p; simpl in A; try discriminate;
    repeat match type of A with context [if ?b then _ else _] => destruct b end; try discriminate;
    injection A as <- <- <-; simpl; try reflexivity; unfold upd;
    (destruct (Nat.eqb_spec t t') as [->|Ht]; [|reflexivity]); try reflexivity;
    simpl in H; rewrite Nat.eqb_refl in H; discriminate.
Qed.
Lemma two_heads (f : call * pc -> N) ts i j x y r s : i <> j ->
  nth_error ts i = Some (x :: r) -> nth_error ts j = Some (y :: s) -> (f x + f y <= total f ts)%N.
Proof.
  unfold total. revert i j. induction ts as [|th ts IH]; intros [|i] [|j] Hij Hi Hj; simpl in *; try discriminate; try congruence.
  - injection Hi as ->. simpl. assert (f y <= sumf (sumf f) ts)%N; [|lia].
    clear - Hj. revert j Hj. induction ts as [|th ts IH]; intros [|j] H; simpl in *; try discriminate.
    + injection H as ->. simpl. lia. + specialize (IH j H). lia.
  - injection Hj as ->. simpl. assert (f x <= sumf (sumf f) ts)%N; [|lia].
    clear - Hi. revert i Hi. induction ts as [|th ts IH]; intros [|i] H; simpl in *; try discriminate.
    + injection H as ->. simpl. lia. + specialize (IH i H). lia.
  - assert (i <> j) by congruence. specialize (IH i j H Hi Hj). lia.
Qed.
Lemma nth_error_set_nth {A} (l : list A) i k v : i < length l -> nth_error (set_nth l i v) k = if Nat.eqb k i then Some v else nth_error l k.
Proof.
  revert i k. induction l as [|a l IH]; intros [|i] [|k] H; simpl in *; try lia; try reflexivity.
  unfold set_nth in *. simpl. apply IH. lia.
Qed.
Definition recent_ok (c : config) : Prop := forall i t k l rst,
  nth_error (ths c) i = Some ((RecentErrors t k, RUnlock l) :: rst) -> l = lastn k (hist (trk (wld c) t)).
Lemma run_inv2 (P : config -> list (nat * event) -> Prop) c0 :
  P c0 [] ->
  (forall sch c ev i now c' e, run sch c0 = Some (c, ev) -> P c ev -> step i now c = Some (c', e) -> P c' (ev ++ e)) ->
  forall sch c ev, run sch c0 = Some (c, ev) -> P c ev.
Proof.
  intros H0 HS sch. induction sch as [|[i now] sch IH] using rev_ind; intros c ev R.
  - simpl in R. injection R as <- <-. exact H0.
  - destruct (run_app _ _ _ _ _ R) as (c1 & e1 & e2 & R1 & R2 & ->).
    simpl in R2. destruct (step i now c1) as [[c2 e3]|] eqn:S; [|discriminate]. injection R2 as <- <-.
    rewrite app_nil_r. eapply HS; [exact R1|apply (IH _ _ R1)|exact S].
Qed.
Lemma recent_run progs sch c ev : run sch (start progs) = Some (c, ev) -> recent_ok c.
Proof.
  revert sch c ev. apply (run_inv2 (fun c _ => recent_ok c)).
  - intros i t k l rst H. exfalso. apply nth_error_In in H. unfold start in H. simpl in H. apply in_map_iff in H.
    destruct H as (pr & E & _). destruct pr; simpl in E; discriminate.
  - intros sch c ev j now c' e R IH S. pose proof (cs_inv _ _ _ _ R) as CS. pose proof (wf_run _ _ _ _ R) as WF.
    destruct (step_total _ _ _ _ _ S) as (cl & p & rst0 & w' & p' & e0 & Hn & A & -> & Hw & Hths & Tle & T).
    intros i t k l rst H. rewrite Hths in H. rewrite nth_error_set_nth in H by (apply nth_error_Some; congruence).
    rewrite Hw. destruct (Nat.eqb_spec i j) as [->|Hij].
    + assert (Hp : p' = PDone \/ (cl = RecentErrors t k /\ p' = RUnlock l)) by (destruct p'; auto; injection H; intros; subst; auto).
      destruct Hp as [->|[-> ->]].
      * exfalso. injection H as E. destruct (WF _ (nth_error_In _ _ Hn)) as [_ Hr]. rewrite E in Hr.
        inversion Hr; subst. simpl in *. discriminate.
      * simpl in A. destruct p; try discriminate.
        -- destruct (locked (trk (wld c) t)); discriminate.
        -- injection A as <- <- <-. apply skipn_min.
    + rewrite (act_hist t _ _ _ _ _ _ _ A); [eapply IH; exact H|].
      pose proof (two_heads (in_cs t) _ _ _ _ _ _ _ Hij H Hn) as K. rewrite CS in K.
      change (in_cs t (RecentErrors t k, RUnlock l)) with (b2n (Nat.eqb t t)) in K.
      rewrite Nat.eqb_refl in K. destruct (locked _); cbn [b2n] in K; lia.
Qed.
Lemma at_sum t ts : (total (fun x => at_pop t x + at_recent t x)%N ts <= total (in_cs t) ts)%N.
Proof.
  unfold total. induction ts as [|th ts IH]; simpl; [lia|].
  assert (sumf (fun x => at_pop t x + at_recent t x)%N th <= sumf (in_cs t) th)%N; [|lia].
  clear. induction th as [|[cl p] th IH]; cbn [sumf]; [lia|].
  assert (at_pop t (cl, p) + at_recent t (cl, p) <= in_cs t (cl, p))%N; [|lia].
  destruct cl, p; cbn [at_pop at_recent in_cs]; lia.
Qed.
Lemma total_add f g ts : total (fun x => f x + g x)%N ts = (total f ts + total g ts)%N.
Proof.
  unfold total. induction ts as [|th ts IH]; simpl; [reflexivity|]. rewrite IH.
  assert (sumf (fun x => f x + g x)%N th = sumf f th + sumf g th)%N; [|lia].
  clear. induction th; simpl; lia.
Qed.
(* what a getRecentErrors call returns *)
Theorem recent_result progs sch c ev i now c' t k l : never_reset t progs -> run sch (start progs) = Some (c, ev) ->
  step i now c = Some (c', [(i, EvRet (RecentErrors t k) (RRecent l))]) ->
  l = lastn k (lastn max_history_size (logged t ev)).
Proof.
  intros Hr R S. pose proof (recent_run _ _ _ _ R) as RO. pose proof (inv_run _ _ _ _ _ Hr R) as I.
  destruct (step_total _ _ _ _ _ S) as (cl & p & rst0 & w' & p' & e0 & Hn & A & E & Hw & Hths & Tle & T).
  destruct e0 as [|e0 [|? ?]]; simpl in E; try discriminate. injection E as <-.
  assert (cl = RecentErrors t k /\ p = RUnlock l) as [-> ->].
  { destruct cl; destruct p; simpl in A; try discriminate;
    repeat match type of A with context [if ?b then _ else _] => destruct b end; try discriminate.
    injection A; intros; subst. auto. }
  rewrite (RO _ _ _ _ _ Hn). f_equal. rewrite (i_hist _ _ _ _ I). f_equal.
  pose proof (at_sum t (ths c)) as K. rewrite total_add, (i_cs _ _ _ _ I) in K.
  pose proof (Tle (at_recent t)) as K2. cbn [at_recent] in K2. rewrite Nat.eqb_refl in K2. cbn [b2n] in K2.
  destruct (locked _); cbn [b2n] in K; lia.
Qed.

(** *** Sequential use: the error rate *)
Definition ok_rate (r : sf) : Prop := oks r /\ (0 <= R r <= 1 / 2)%R.
Lemma ok_zero : ok_rate (S754_zero false).
Proof. split; [split; reflexivity|]. unfold R, SF2R. lra. Qed.
Lemma R_half : oks half /\ R half = (1 / 2)%R.
Proof. split; [split; reflexivity|]. unfold half. vm_compute slit. unfold R, SF2R, F2R. simpl. lra. Qed.
Lemma R_07 : oks f07 /\ R f07 = (11744051 / 16777216)%R.
Proof. split; [split; reflexivity|]. vm_compute f07. unfold R, SF2R, F2R. simpl. lra. Qed.
Lemma R_03 : oks f03 /\ R f03 = (10066330 / 33554432)%R.
Proof. split; [split; reflexivity|]. vm_compute f03. unfold R, SF2R, F2R. simpl. lra. Qed.
Lemma R_zero : oks zero_s /\ R zero_s = 0%R. Proof. split; [split; reflexivity|reflexivity]. Qed.
Lemma rnd_pos x : (0 <= x)%R -> (0 <= rnd 24 128 x)%R.
Proof. intros H. rewrite <- (proj2 R_zero). apply rnd32_ge; [apply R_zero|]. rewrite (proj2 R_zero). exact H. Qed.

Lemma new_rate_ok d : (2 <= d < 2 ^ 63)%Z -> ok_rate (new_rate 1 d).
Proof.
  intros Hd. unfold new_rate. change (smul (sofZ (Z.of_N 1)) (sofZ one_second_count)) with (sofZ 1).
  destruct (ofZ_s d ltac:(lia)) as [Ok E]. destruct (ofZ_s 1 ltac:(lia)) as [Ok1 _].
  assert (R (sofZ 1) = 1%R) as E1 by (vm_compute sofZ; unfold R, SF2R, F2R; simpl; lra).
  assert (R (sofZ 2) = 2%R) as E2 by (vm_compute sofZ; unfold R, SF2R, F2R; simpl; lra).
  assert (2 <= R (sofZ d))%R as G by (rewrite <- E2; apply ofZ_s_mono; lia).
  assert (0 <= R (sofZ 1) / R (sofZ d) <= 1 / 2)%R as B.
  { rewrite E1. split; [apply Rmult_le_pos; [lra|left; apply Rinv_0_lt_compat; lra]|].
    unfold Rdiv. apply Rmult_le_compat_l; [lra|]. apply Rinv_le; lra. }
  destruct (div_s (sofZ 1) (sofZ d) Ok1 Ok) as [Od Ed]; [lra|apply mids_small; lra|].
  split; [exact Od|]. rewrite Ed. split; [apply rnd_pos; lra|].
  rewrite <- (proj2 R_half). apply rnd32_le; [apply R_half|]. rewrite (proj2 R_half). lra.
Qed.
Lemma mul_le c x b : oks c -> ok_rate x -> (0 <= R c <= 1)%R -> oks b -> R b = (R c * (1 / 2))%R ->
  oks (smul c x) /\ (0 <= R (smul c x) <= R b)%R.
Proof.
  intros Oc [Ox Bx] Bc Ob Eb. assert (0 <= R c * R x <= R c * (1 / 2))%R as B.
  { split; [apply Rmult_le_pos; lra|apply Rmult_le_compat_l; lra]. }
  destruct (mul_s c x Oc Ox) as [Om Em]; [apply mids_small; lra|].
  split; [exact Om|]. rewrite Em. split; [apply rnd_pos; lra|].
  apply rnd32_le; [exact Ob|]. lra.
Qed.
Definition b035 : sf := smul f07 half.
Definition b015 : sf := smul f03 half.
Lemma R_035 : oks b035 /\ R b035 = (11744051 / 16777216 * (1 / 2))%R.
Proof. split; [split; reflexivity|]. vm_compute b035. unfold R, SF2R, F2R. simpl. lra. Qed.
Lemma R_015 : oks b015 /\ R b015 = (10066330 / 33554432 * (1 / 2))%R.
Proof. split; [split; reflexivity|]. vm_compute b015. unfold R, SF2R, F2R. simpl. lra. Qed.
Lemma smooth_ok x y : ok_rate x -> ok_rate y -> ok_rate (smooth x y).
Proof.
  intros Hx Hy. unfold smooth.
  destruct R_07 as [O7 E7]. destruct R_03 as [O3 E3]. destruct R_035 as [O35 E35]. destruct R_015 as [O15 E15].
  destruct (mul_le f07 x b035 O7 Hx) as [Oa Ba]; [rewrite E7; lra|exact O35|rewrite E35, E7; reflexivity|].
  destruct (mul_le f03 y b015 O3 Hy) as [Ob Bb]; [rewrite E3; lra|exact O15|rewrite E15, E3; reflexivity|].
  rewrite E35 in Ba. rewrite E15 in Bb.
  destruct (add_s _ _ Oa Ob) as [Os Es]; [apply mids_small; lra|].
  split; [exact Os|]. rewrite Es. split; [apply rnd_pos; lra|].
  rewrite <- (proj2 R_half). apply rnd32_le; [apply R_half|]. rewrite (proj2 R_half). lra.
Qed.

(* one thread, one object: the state between the actions; [lo] = time of the last action *)
Definition diff1 (a b : N) : Prop := ((a + 2 ^ 64 - b) mod 2 ^ 64 = 1)%N.
Definition rate_inv (t : nat) (lo : Z) (c : config) : Prop :=
  let w := wld c in let T := trk w t in
  ok_rate (rate T) /\ (0 <= lct w <= lo)%Z /\ (cnt T < 2 ^ 64)%N /\ (lcc w < 2 ^ 64)%N /\
  exists th, ths c = [th] /\ Forall (fun x => errors_on t (fst x) = true) th /\
  match th with
  | [] => lcc w = cnt T
  | (_, p) :: r => Forall (fun y => snd y = PStart) r /\
    match p with
    | PStart => lcc w = cnt T
    | PPat | PTime | PStore _ | PLock | PPush | PPop | PUnlock | PNow => diff1 (cnt T) (lcc w)
    | PLast n => diff1 (cnt T) (lcc w) /\ (lct w + 2 <= n <= lo)%Z
    | PCas n last => diff1 (cnt T) (lcc w) /\ last = lct w /\ (last + 2 <= n <= lo)%Z
    | PCount n last => diff1 (cnt T) (lcc w) /\ (0 <= last)%Z /\ (last + 2 <= n <= lo)%Z
    | PXchg n last cur => diff1 (cnt T) (lcc w) /\ cur = cnt T /\ (0 <= last)%Z /\ (last + 2 <= n <= lo)%Z
    | PRead n last cur old => lcc w = cnt T /\ diff1 cur old /\ (0 <= last)%Z /\ (last + 2 <= n <= lo)%Z
    | PWrite n last cur old r => lcc w = cnt T /\ diff1 cur old /\ (0 <= last)%Z /\ (last + 2 <= n <= lo)%Z /\ ok_rate r
    | _ => False
    end
  end.
Lemma diff1_self a : (a < 2 ^ 64)%N -> diff1 ((a + 1) mod 2 ^ 64) a.
Proof.
  intros H. unfold diff1. change (2 ^ 64)%N with 18446744073709551616%N in *.
  destruct (N.eq_dec a 18446744073709551615) as [->|Ha]; [reflexivity|].
  rewrite (N.mod_small (a + 1)) by lia. replace (a + 1 + 18446744073709551616 - a)%N with (1 + 1 * 18446744073709551616)%N by lia.
  rewrite N.mod_add by lia. reflexivity.
Qed.
Lemma rate_step t lo c i now c' e : rate_inv t lo c -> (lo + 2 <= now < 2 ^ 63)%Z -> step i now c = Some (c', e) -> rate_inv t now c'.
Proof.
  intros (Hr & Hl & Hc & Hcc & th & Eth & Hall & Hp) Hnow S.
  unfold step in S. rewrite Eth in S. destruct i as [|i]; [|destruct i; discriminate]. simpl in S.
  destruct th as [|[cl p] r]; [discriminate|]. destruct Hp as [Hst Hp].
  inversion Hall as [|x l Hcl Hall' E0]; subst. simpl in Hcl. destruct cl as [t' q d| | |]; try discriminate.
  simpl in Hcl. apply Nat.eqb_eq in Hcl. subst t'.
  destruct (act (RecordError t q d) p now (wld c)) as [[[w' p'] e0]|] eqn:A; [|discriminate]. injection S as <- <-.
  assert (Fin : forall w1, ok_rate (rate (trk w1 t)) -> (0 <= lct w1 <= now)%Z -> (cnt (trk w1 t) < 2 ^ 64)%N -> lcc w1 = cnt (trk w1 t) ->
     rate_inv t now (mkC w1 (set_nth [(RecordError t q d, p) :: r] 0 r))).
  { intros w1 F1 F2 F3 F4. unfold rate_inv. cbv zeta. cbn [wld ths].
    split; [exact F1|]. split; [exact F2|]. split; [exact F3|]. split; [rewrite F4; exact F3|]. exists r. split; [reflexivity|]. split; [exact Hall'|].
    destruct r as [|[cl' q'] r']; [exact F4|]. inversion Hst; subst. simpl in *. subst q'. split; [assumption|exact F4]. }
  assert (Fin2 : forall w1 p1, p1 <> PDone -> ok_rate (rate (trk w1 t)) -> (0 <= lct w1 <= now)%Z -> (cnt (trk w1 t) < 2 ^ 64)%N -> (lcc w1 < 2 ^ 64)%N ->
     match p1 with
    | PStart => lcc w1 = cnt (trk w1 t)
    | PPat | PTime | PStore _ | PLock | PPush | PPop | PUnlock | PNow => diff1 (cnt (trk w1 t)) (lcc w1)
    | PLast n => diff1 (cnt (trk w1 t)) (lcc w1) /\ (lct w1 + 2 <= n <= now)%Z
    | PCas n last => diff1 (cnt (trk w1 t)) (lcc w1) /\ last = lct w1 /\ (last + 2 <= n <= now)%Z
    | PCount n last => diff1 (cnt (trk w1 t)) (lcc w1) /\ (0 <= last)%Z /\ (last + 2 <= n <= now)%Z
    | PXchg n last cur => diff1 (cnt (trk w1 t)) (lcc w1) /\ cur = cnt (trk w1 t) /\ (0 <= last)%Z /\ (last + 2 <= n <= now)%Z
    | PRead n last cur old => lcc w1 = cnt (trk w1 t) /\ diff1 cur old /\ (0 <= last)%Z /\ (last + 2 <= n <= now)%Z
    | PWrite n last cur old r => lcc w1 = cnt (trk w1 t) /\ diff1 cur old /\ (0 <= last)%Z /\ (last + 2 <= n <= now)%Z /\ ok_rate r
    | _ => False
    end ->
     rate_inv t now (mkC w1 (set_nth [(RecordError t q d, p) :: r] 0 ((RecordError t q d, p1) :: r)))).
  { intros w1 p1 F0 F1 F2 F3 F4 F5. unfold rate_inv. cbv zeta. cbn [wld ths].
    split; [exact F1|]. split; [exact F2|]. split; [exact F3|]. split; [exact F4|]. exists ((RecordError t q d, p1) :: r).
    split; [reflexivity|]. split; [constructor; [simpl; apply Nat.eqb_refl|exact Hall']|]. split; [exact Hst|exact F5]. }
  destruct p; simpl in A; try contradiction;
    repeat match type of A with context [if ?b then _ else _] => let E := fresh "E" in destruct b eqn:E end; try discriminate;
    injection A as <- <- <-;
    try (apply Fin2; [discriminate|cbn; rewrite ?upd_same; cbn [rate cnt lcc lct]; auto; try lia..]; fail).
  - apply Fin2; [discriminate|cbn; rewrite ?upd_same; cbn [rate cnt lcc lct]; auto; try lia..].
    + apply N.mod_lt. discriminate.
    + rewrite Hp. apply diff1_self. exact Hc.
  - destruct d; cbn [after_history];
      (apply Fin2; [discriminate|cbn; rewrite ?upd_same; cbn [rate cnt lcc lct]; auto; try lia..]).
  - apply Fin2; [discriminate|cbn; auto; try lia..]. split; [exact Hp|lia].
  - destruct Hp as [Hp Hn]. apply Fin2; [discriminate|cbn; auto; try lia..]. split; [exact Hp|]. split; [reflexivity|lia].
  - exfalso. destruct Hp as [_ Hn]. apply Z.ltb_ge in E. unfold one_second_count in E. lia.
  - destruct Hp as (Hp & -> & Hn). apply Fin2; [discriminate|cbn; auto; try lia..]. split; [exact Hp|lia].
  - exfalso. destruct Hp as (_ & -> & _). rewrite Z.eqb_refl in E. discriminate.
  - destruct Hp as (Hp & Hn & Hn2). apply Fin2; [discriminate|cbn; auto; try lia..]. split; [exact Hp|]. split; [reflexivity|lia].
  - destruct Hp as (Hp & -> & Hn). apply Fin2; [discriminate|cbn; auto; try lia..]. split; [reflexivity|]. split; [exact Hp|lia].
  - destruct Hp as (Hp & Hd & Hn & Hn2). apply Fin2; [discriminate|cbn; auto; try lia..].
    split; [exact Hp|]. split; [exact Hd|]. split; [exact Hn|]. split; [lia|exact Hr].
  - destruct Hp as (Hp & Hd & Hn & Hn2 & Hr0). apply Fin; cbn; rewrite ?upd_same; cbn [rate cnt]; auto; try lia.
    unfold diff1 in Hd. rewrite Hd. apply smooth_ok; [apply new_rate_ok; lia|exact Hr0].
Qed.
Lemma ticking_le sch lo : ticking lo sch -> forall c0 c ev t, rate_inv t lo c0 -> run sch c0 = Some (c, ev) ->
  exists hi, rate_inv t hi c.
Proof.
  revert lo. induction sch as [|[i now] sch IH]; simpl; intros lo Ht c0 c ev t I R.
  - injection R as <- <-. eauto.
  - destruct Ht as [Hn Ht]. destruct (step i now c0) as [[c1 e1]|] eqn:S; [|discriminate].
    destruct (run sch c1) as [[c2 e2]|] eqn:R2; [|discriminate]. injection R as <- <-.
    eapply IH; [exact Ht|eapply rate_step; eauto|exact R2].
Qed.
Theorem rate_never_above_half t pr sch c ev : (forall x, In x pr -> errors_on t x = true) -> ticking 0 sch ->
  run sch (start [pr]) = Some (c, ev) -> isErrorRateExceeded (trk (wld c) t) half = false.
Proof.
  intros Hall Ht R. destruct (ticking_le sch 0 Ht (start [pr]) c ev t) as (hi & I & _); [|exact R|].
  - unfold rate_inv. cbn. split; [apply ok_zero|]. repeat (split; [lia|]).
    eexists. split; [reflexivity|]. split.
    + apply Forall_forall. intros x Hx. apply in_map_iff in Hx. destruct Hx as (y & <- & Hy). simpl. auto.
    + destruct pr as [|x pr]; [reflexivity|]. simpl. split; [|reflexivity].
      apply Forall_forall. intros y Hy. apply in_map_iff in Hy. destruct Hy as (z & <- & _). reflexivity.
  - unfold isErrorRateExceeded, fgt, getErrorRate. destruct I as [O B]. apply (flt_sF half _ (proj1 R_half) O).
    rewrite (proj2 R_half). lra.
Qed.

(** *** Concrete schedules *)

(* the same single error on object 0 at the same time; only object 1's history differs *)
Lemma shared_statics :
  let alone := run (whole 0 s3) (start [[E0 0]; [E0 1; E0 1]]) in
  let other := run (whole 1 sec ++ whole 1 s2 ++ whole 0 s3) (start [[E0 0]; [E0 1; E0 1]]) in
  exists c1 e1 c2 e2, alone = Some (c1, e1) /\ other = Some (c2, e2) /\
    getTotalErrorCount (trk (wld c1) 0) = 1%N /\ getTotalErrorCount (trk (wld c2) 0) = 1%N /\
    isErrorRateExceeded (trk (wld c1) 0) million = false /\ isErrorRateExceeded (trk (wld c2) 0) million = true.
Proof.
  cbv zeta.
  destruct (run (whole 0 s3) _) as [[c1 e1]|] eqn:A; [|vm_compute in A; discriminate].
  destruct (run (whole 1 sec ++ _) _) as [[c2 e2]|] eqn:B; [|vm_compute in B; discriminate].
  exists c1, e1, c2, e2. split; [reflexivity|]. split; [reflexivity|].
  assert (c1 = match run (whole 0 s3) (start [[E0 0]; [E0 1; E0 1]]) with Some (c, _) => c | None => start [] end) as -> by (rewrite A; reflexivity).
  assert (c2 = match run (whole 1 sec ++ whole 1 s2 ++ whole 0 s3) (start [[E0 0]; [E0 1; E0 1]]) with Some (c, _) => c | None => start [] end) as -> by (rewrite B; reflexivity).
  clear. repeat split; vm_compute; reflexivity.
Qed.
(* two threads on one object: a thread that loaded the counter before the other's exchange *)
Lemma racing_rate : exists c ev, run race (start [[E0 0; E0 0]; [E0 0]]) = Some (c, ev) /\ finished c /\
  getTotalErrorCount (trk (wld c) 0) = 3%N /\ isErrorRateExceeded (trk (wld c) 0) million = true.
Proof.
  destruct (run race _) as [[c e]|] eqn:A; [|vm_compute in A; discriminate]. exists c, e. split; [reflexivity|].
  assert (c = match run race (start [[E0 0; E0 0]; [E0 0]]) with Some (c, _) => c | None => start [] end) as -> by (rewrite A; reflexivity).
  clear. split; [|split; vm_compute; reflexivity].
  unfold finished. intros th H. vm_compute in H. intuition.
Qed.
Lemma reset_rate : exists c ev,
  run (whole 0 sec ++ whole 0 s2 ++ repeat (0, s3) 13 ++ whole 0 s4) (start [[E0 0; E0 0; Reset 0; E0 0]]) = Some (c, ev) /\
  finished c /\ getTotalErrorCount (trk (wld c) 0) = 1%N /\ isErrorRateExceeded (trk (wld c) 0) million = true.
Proof.
  destruct (run _ _) as [[c e]|] eqn:A; [|vm_compute in A; discriminate]. exists c, e. split; [reflexivity|].
  assert (c = match run (whole 0 sec ++ whole 0 s2 ++ repeat (0, s3) 13 ++ whole 0 s4) (start [[E0 0; E0 0; Reset 0; E0 0]]) with Some (c, _) => c | None => start [] end) as -> by (rewrite A; reflexivity).
  clear. split; [|split; vm_compute; reflexivity].
  unfold finished. intros th H. vm_compute in H. intuition.
Qed.
Lemma reset_torn : exists c ev,
  run (repeat (0, sec) 1 ++ repeat (1, sec) 13 ++ repeat (0, sec) 10) (start [[E0 0]; [Reset 0]]) = Some (c, ev) /\
  finished c /\ getTotalErrorCount (trk (wld c) 0) = 0%N /\ getPatternCount (trk (wld c) 0) 0 = 1%N.
Proof.
  destruct (run _ _) as [[c e]|] eqn:A; [|vm_compute in A; discriminate]. exists c, e. split; [reflexivity|].
  assert (c = match run (repeat (0, sec) 1 ++ repeat (1, sec) 13 ++ repeat (0, sec) 10) (start [[E0 0]; [Reset 0]]) with Some (c, _) => c | None => start [] end) as -> by (rewrite A; reflexivity).
  clear. split; [|split; vm_compute; reflexivity].
  unfold finished. intros th H. vm_compute in H. intuition.
Qed.
Lemma dist_200 : exists c ev,
  run (whole 1 sec ++ repeat (0, sec) 1 ++ whole 1 s2 ++ repeat (0, s2) 7) (start [[PatternDistribution 0]; [E0 0; E0 0]]) = Some (c, ev) /\
  In (0, EvRet (PatternDistribution 0) (RDist (sofZ 2 :: repeat zero_s 5))) ev.
Proof.
  destruct (run _ _) as [[c e]|] eqn:A; [|vm_compute in A; discriminate]. exists c, e. split; [reflexivity|].
  assert (e = match run (whole 1 sec ++ repeat (0, sec) 1 ++ whole 1 s2 ++ repeat (0, s2) 7) (start [[PatternDistribution 0]; [E0 0; E0 0]]) with Some (_, e) => e | None => [] end) as -> by (rewrite A; reflexivity).
  clear. vm_compute. auto.
Qed.

(** *** Reset and getPatternDistribution with no other thread running *)
Lemma nth_zero_all l : length l = 6 ->
  nth_zero (nth_zero (nth_zero (nth_zero (nth_zero (nth_zero l 0) 1) 2) 3) 4) 5 = repeat 0%N 6.
Proof.
  intros H. do 6 (destruct l as [|? l]; [discriminate|]). destruct l; [|discriminate]. reflexivity.
Qed.
Lemma reset_alone w t : length (pats (trk w t)) = 6 -> locked (trk w t) = false ->
  exists c, run (repeat (0, 0%Z) 13) (only w (Reset t)) = Some (c, []) /\ finished c /\ trk (wld c) t = new_tracker.
Proof.
  intros Hl Hk. unfold only. cbn -[nth_zero upd length Nat.ltb].
  repeat (rewrite ?upd_same, ?nth_zero_len, ?Hl; cbn -[nth_zero upd length]).
  rewrite Hk. cbn -[nth_zero upd length]. rewrite ?upd_same. cbn -[nth_zero upd length]. rewrite ?upd_same. cbn -[nth_zero upd length].
  eexists. split; [reflexivity|]. split.
  - intros th H. simpl in H. intuition.
  - cbn -[nth_zero upd]. rewrite !upd_same. rewrite nth_zero_all by exact Hl. reflexivity.
Qed.
