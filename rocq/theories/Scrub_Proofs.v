(** Proofs about the memory scrubbers. *)
From Coq Require Import List NArith ZArith Bool Lia.
Import ListNotations.
From Verif Require Import Outcome Words Arith Crc_Spec Crc_Model Crc_Proofs CrcOrder_Proofs Scrub_Model Scrub_Spec.
Local Open Scope N_scope.
Local Arguments N.add : simpl never.
Local Arguments N.pow : simpl never.
Local Arguments N.modulo : simpl never.
Local Opaque Scrubber_calculateCRC32.

(** *** CS registry *)
Lemma live_app_reg {W} (p : list (cs_op W * cs_res W)) f h : live (p ++ [(ORegister f, RHandle h)]) = live p ++ [(h, f)].
Proof.
  induction p as [|[o x] p IH]; simpl; [reflexivity|].
  destruct o; try exact IH. destruct x; try exact IH.
  rewrite existsb_app. simpl. rewrite orb_false_r. destruct (existsb (removes h0) p); rewrite IH; reflexivity.
Qed.
Lemma live_app_unreg {W} (p : list (cs_op W * cs_res W)) h x :
  live (p ++ [(OUnregister h, x)]) = filter (fun y => negb (N.eqb (fst y) h)) (live p).
Proof.
  induction p as [|[o y] p IH]; simpl; [reflexivity|].
  destruct o; try exact IH. destruct y; try exact IH.
  rewrite existsb_app. cbn [existsb]. unfold removes at 2. cbn [fst].
  rewrite orb_false_r, (N.eqb_sym h h0). destruct (existsb (removes h0) p); simpl; [exact IH|].
  destruct (N.eqb h0 h); simpl; rewrite IH; reflexivity.
Qed.
Lemma live_app_other {W} (p : list (cs_op W * cs_res W)) o x :
  match o with OScrub | OWrite _ => True | _ => False end -> live (p ++ [(o, x)]) = live p.
Proof.
  intros H. induction p as [|[o' y] p IH]; simpl.
  - destruct o; try contradiction; reflexivity.
  - destruct o'; try exact IH. destruct y; try exact IH.
    rewrite existsb_app. simpl. replace (removes h (o, x)) with false by (destruct o; try contradiction; reflexivity).
    rewrite !orb_false_r, IH. reflexivity.
Qed.
Lemma issued_app {W} (p q : list (cs_op W * cs_res W)) : issued (p ++ q) = issued p ++ issued q.
Proof. induction p as [|[o x] p IH]; simpl; [reflexivity|]. destruct o; try exact IH. destruct x; try exact IH. simpl. congruence. Qed.
Lemma live_issued {W} (p : list (cs_op W * cs_res W)) h f : In (h, f) (live p) -> In h (issued p).
Proof.
  induction p as [|[o x] p IH]; simpl; [tauto|]. destruct o; try exact IH. destruct x; try exact IH.
  destruct (existsb _ p); simpl; [auto|]. intros [E|H]; [left; congruence|auto].
Qed.
Lemma live_nodup {W} (p : list (cs_op W * cs_res W)) : NoDup (issued p) -> NoDup (map fst (live p)).
Proof.
  induction p as [|[o x] p IH]; simpl; [constructor|]. destruct o; try exact IH. destruct x; try exact IH.
  intros H. inversion H; subst. destruct (existsb _ p); simpl; [auto|]. constructor; [|auto].
  intros K. apply in_map_iff in K. destruct K as ([h' f'] & E & K). simpl in E. subst. apply H2. eapply live_issued; eauto.
Qed.
Lemma NoDup_snoc {A} (l : list A) x : NoDup l -> ~ In x l -> NoDup (l ++ [x]).
Proof.
  induction l as [|a l IH]; simpl; intros H K; [constructor; [tauto|constructor]|]. inversion H; subst.
  constructor; [|apply IH; tauto]. rewrite in_app_iff. simpl. intros [J|[J|[]]]; [tauto|]. subst. tauto.
Qed.
Definition plain {W} (x : N * (W -> W)) : N * callback W := (fst x, Plain (snd x)).
Lemma erase_spec {W} h (l : list (N * (W -> W))) : NoDup (map fst l) ->
  erase_first h (map plain l) = (existsb (fun y => N.eqb (fst y) h) l, map plain (filter (fun y => negb (N.eqb (fst y) h)) l)).
Proof.
  induction l as [|[h' f] l IH]; simpl; intros N; [reflexivity|]. inversion N; subst.
  destruct (N.eqb_spec h' h) as [->|E]; simpl.
  - f_equal. f_equal. clear IH N H2. induction l as [|[a g] l IH]; simpl; [reflexivity|].
    destruct (N.eqb_spec a h) as [->|E]; simpl; [exfalso; apply H1; simpl; auto|].
    f_equal. apply IH. intros K. apply H1. simpl. auto.
  - rewrite IH by assumption. reflexivity.
Qed.
Lemma run_plain {W} (l : list (N * (W -> W))) w : run_callbacks (map plain l) w = Ret (in_turn (map snd l) w).
Proof. revert w. induction l as [|[h f] l IH]; intros w; simpl; [reflexivity|]. apply IH. Qed.

Record cs_inv {W} (past : list (cs_op W * cs_res W)) (s : registry W) : Prop := {
  ci_e : entries s = map plain (live past);
  ci_n : next_handle s = N.of_nat (length (issued past));
  ci_d : NoDup (issued past);
  ci_b : forall h, In h (issued past) -> h < next_handle s }.


Lemma cs_step {W} past (s : registry W) w o x s' w' : cs_inv past s ->
  next_handle s < 2 ^ 64 - (match o with ORegister _ => 1 | _ => 0 end) ->
  cs_do o s w = Ret (x, s', w') -> cs_good past o x /\ cs_inv (past ++ [(o, x)]) s' /\
  (forall a b, x = RScrub a b -> a = w /\ b = w').
Proof.
  intros [E N D B] Hlt H. destruct o; simpl in H.
  - injection H as <- <- <-. split; [|split; [|discriminate]].
    + exists (next_handle s). split; [reflexivity|]. intros K. specialize (B _ K). lia.
    + split; simpl.
      * rewrite live_app_reg, map_app, E. reflexivity.
      * rewrite issued_app, app_length. simpl. rewrite N.mod_small by lia. lia.
      * rewrite issued_app. simpl. apply NoDup_snoc; [exact D|]. intros K. specialize (B _ K). lia.
      * intros h. rewrite issued_app, in_app_iff. simpl. rewrite N.mod_small by lia. intros [K|[<-|[]]]; [specialize (B _ K)|]; lia.
  - unfold cs_unregister in H. rewrite E, erase_spec in H by (apply live_nodup; exact D).
    injection H as <- <- <-. split; [reflexivity|split; [|discriminate]]. split; simpl.
    + rewrite live_app_unreg. reflexivity.
    + rewrite issued_app. simpl. rewrite app_nil_r. exact N.
    + rewrite issued_app. simpl. rewrite app_nil_r. exact D.
    + rewrite issued_app. simpl. rewrite app_nil_r. exact B.
  - unfold cs_scrubOnce in H. rewrite E, run_plain in H. injection H as <- <- <-.
    split; [eexists; reflexivity|split].
    + split; simpl; rewrite ?issued_app, ?live_app_other by exact I; simpl; rewrite ?app_nil_r; assumption.
    + intros a b K. injection K as <- <-. auto.
  - injection H as <- <- <-. split; [reflexivity|split; [|discriminate]].
    split; simpl; rewrite ?issued_app, ?live_app_other by exact I; simpl; rewrite ?app_nil_r; assumption.
Qed.

Lemma cs_run_good {W} (l : list (cs_op W)) : forall past (s : registry W) w t s' w', cs_inv past s ->
  N.of_nat (length (issued past)) + N.of_nat (regcount l) < 2 ^ 64 ->
  cs_run l s w = Ret (t, s', w') ->
  forall pre o x post, t = pre ++ (o, x) :: post -> cs_good (past ++ pre) o x.
Proof.
  induction l as [|o l IH]; simpl; intros past s w t s' w' I Hlt R pre o' x' post E.
  - injection R as <- <- <-. destruct pre; discriminate.
  - destruct (cs_do o s w) as [[[x s1] w1]|r|e|] eqn:Do; try discriminate.
    destruct (cs_run l s1 w1) as [[[t1 s2] w2]|r|e|] eqn:Rn; try discriminate. injection R as <- <- <-.
    pose proof (ci_n _ _ I) as Hn.
    destruct (cs_step past s w o x s1 w1 I) as (G & I1 & _); [rewrite Hn; destruct o; simpl in Hlt; lia|exact Do|].
    destruct pre as [|y pre]; simpl in E.
    + injection E as <- <- <-. rewrite app_nil_r. exact G.
    + injection E as <- E. replace (past ++ (o, x) :: pre) with ((past ++ [(o, x)]) ++ pre) by (rewrite <- app_assoc; reflexivity).
      eapply IH; [exact I1| |exact Rn|exact E].
      rewrite issued_app, app_length.
      destruct o; simpl in Do; simpl in Hlt |- *; try lia.
      injection Do as <- _ _. simpl. lia.
Qed.
Lemma cs_inv0 {W} : @cs_inv W [] cs_new.
Proof. split; simpl; auto; try constructor. contradiction. Qed.
(* every operation of every history succeeds and does what it says *)
Theorem cs_history {W} (l : list (cs_op W)) w : N.of_nat (regcount l) < 2 ^ 64 ->
  exists t s' w', cs_run l cs_new w = Ret (t, s', w') /\ map fst t = l /\
  forall pre o x post, t = pre ++ (o, x) :: post -> cs_good pre o x.
Proof.
  intros H. assert (exists t s' w', cs_run l cs_new w = Ret (t, s', w') /\ map fst t = l) as (t & s' & w' & R & M).
  { assert (G : forall past (s : registry W) w, cs_inv past s -> N.of_nat (length (issued past)) + N.of_nat (regcount l) < 2 ^ 64 ->
      exists t s' w', cs_run l s w = Ret (t, s', w') /\ map fst t = l).
    2:{ apply (G [] cs_new w cs_inv0). simpl. lia. }
    clear w H. induction l as [|o l IH]; simpl; intros past s w I Hlt; [eauto|].
    assert (exists x s1 w1, cs_do o s w = Ret (x, s1, w1)) as (x & s1 & w1 & Do).
    { destruct o; simpl; eauto.
      - destruct (cs_unregister h s). eauto.
      - unfold cs_scrubOnce. rewrite (ci_e _ _ I), run_plain. eauto. }
    rewrite Do. destruct (cs_step past s w o x s1 w1 I) as (G & I1 & _); [rewrite (ci_n _ _ I); destruct o; simpl in Hlt; lia|exact Do|].
    destruct (IH (past ++ [(o, x)]) s1 w1 I1) as (t & s2 & w2 & -> & M).
    { rewrite issued_app, app_length. destruct o; simpl in Do; simpl in Hlt |- *; try lia. injection Do as <- _ _. simpl. lia. }
    exists ((o, x) :: t), s2, w2. split; [reflexivity|]. simpl. congruence. }
  exists t, s', w'. split; [exact R|]. split; [exact M|].
  intros pre o x post E. eapply (cs_run_good l [] cs_new w t s' w' cs_inv0); [simpl; lia|exact R|exact E].
Qed.
(* a scrub cycle works on the memory as it is, and the history's worlds chain up *)
Lemma cs_do_mem {W} (o : cs_op W) s w x s' w' : cs_do o s w = Ret (x, s', w') ->
  mem_after [(o, x)] w = w' /\ (forall a b, x = RScrub a b -> a = w).
Proof.
  destruct o; simpl.
  - intros H. injection H as <- <- <-. split; [reflexivity|discriminate].
  - destruct (cs_unregister h s) as [b s1]. intros H. injection H as <- <- <-. split; [reflexivity|discriminate].
  - destruct (cs_scrubOnce s w); try discriminate. intros H. injection H as <- <- <-. split; [reflexivity|]. intros a0 b H. injection H as <- <-. reflexivity.
  - intros H. injection H as <- <- <-. split; [reflexivity|discriminate].
Qed.
Theorem cs_memory {W} (l : list (cs_op W)) : forall s w t s' w', cs_run l s w = Ret (t, s', w') ->
  w' = mem_after t w /\ forall pre o a b post, t = pre ++ (o, RScrub a b) :: post -> a = mem_after pre w.
Proof.
  induction l as [|o l IH]; cbn [cs_run]; intros s w t s' w' R.
  - injection R as <- <- <-. split; [reflexivity|]. intros pre o a b post E. destruct pre; discriminate.
  - destruct (cs_do o s w) as [[[x s1] w1]|r|e|] eqn:Do; try discriminate.
    destruct (cs_run l s1 w1) as [[[t1 s2] w2]|r|e|] eqn:Rn; try discriminate. injection R as <- <- <-.
    destruct (cs_do_mem _ _ _ _ _ _ Do) as [M A]. destruct (IH _ _ _ _ _ Rn) as [B C]. split.
    + rewrite B, <- M. reflexivity.
    + intros pre o' a b post E. destruct pre as [|y pre]; simpl in E.
      * injection E as _ -> _. simpl. eauto.
      * injection E as <- E. rewrite (C _ _ _ _ _ E), <- M. reflexivity.
Qed.
Theorem cs_scrub_state {W} (s : registry W) w : Forall (fun x => ~ reentrant x) (entries s) ->
  exists fs, map snd (entries s) = map Plain fs /\ cs_scrubOnce s w = Ret (in_turn fs w).
Proof.
  unfold cs_scrubOnce. revert w. induction (entries s) as [|[h [f|f]] l IH]; intros w H; simpl.
  - exists []. auto.
  - inversion H; subst. destruct (IH (f w) H3) as (fs & E & R). exists (f :: fs). simpl. rewrite E. auto.
  - inversion H; subst. exfalso. apply H2. exists f. reflexivity.
Qed.
Theorem cs_reentrant_ub {W} (s : registry W) w : (exists x, In x (entries s) /\ reentrant x) -> cs_scrubOnce s w = UB UB_relock.
Proof.
  unfold cs_scrubOnce. intros (x & Hin & f & Hf). revert w. induction (entries s) as [|[h [g|g]] l IH]; intros w; simpl.
  - destruct Hin.
  - apply IH. destruct Hin as [<-|Hin]; [discriminate|exact Hin].
  - reflexivity.
Qed.

(** *** CS life cycle, one controlling thread *)
Definition live_ev (ev : list lev) : bool := (* is the last of LSpawn / LStopped a spawn *)
  fold_left (fun b e => match e with LSpawn => true | LStopped => false | LScrub => b end) ev false.
Record linv (s : life) (ev : list lev) : Prop := {
  li_t : terminated s = false;
  li_e : live_ev ev = match worker s with Some _ => true | None => false end;
  li_c : exists th, clients s = [th] /\
    match th with
    | [] => running s = match worker s with Some _ => true | None => false end /\ worker s <> Some WExit
    | (o, p) :: r => Forall (fun y => snd y = C0) r /\
      match o, p with
      | _, C0 => running s = match worker s with Some _ => true | None => false end /\ worker s <> Some WExit
      | CStart, C1 => running s = false /\ worker s = None
      | CStart, C2 => running s = true /\ worker s = None
      | CStop, C1 => running s = true /\ worker s <> None /\ worker s <> Some WExit
      | CStop, C2 => running s = false /\ worker s <> None
      end
    end }.
Lemma live_ev_app a b : live_ev (a ++ b) = fold_left (fun b e => match e with LSpawn => true | LStopped => false | LScrub => b end) b (live_ev a).
Proof. unfold live_ev. apply fold_left_app. Qed.
Lemma linv_step s ev k s' e : linv s ev -> life_step k s = Some (s', e) ->
  linv s' (ev ++ e) /\ (In LScrub e -> live_ev ev = true) /\ (e = [] \/ e = [LSpawn] \/ e = [LScrub] \/ e = [LStopped]).
Proof.
  intros [T E (th & Hc & Hp)] S. unfold life_step in S. rewrite T in S. destruct k as [|i].
  - unfold worker_step in S. destruct (worker s) as [[| | |]|] eqn:W; try discriminate; injection S as <- <-;
      (split; [|split; [simpl; intuition discriminate|auto]]);
      (split; simpl; [reflexivity||exact T|rewrite live_ev_app; simpl; exact E|exists th; split; [exact Hc|]]);
      destruct th as [|[[|] [| |]] r]; try (destruct Hp as [Hr Hp]; split; [exact Hr|]); simpl in *; intuition; try discriminate; try congruence.
    all: destruct (running s); congruence.
  - unfold client_step in S. rewrite Hc in S. destruct i as [|i]; [|destruct i; discriminate]. simpl in S.
    destruct th as [|[o p] r]; [discriminate|]. destruct Hp as [Hr Hp].
    assert (Next : forall run wk, run = match wk with Some _ => true | None => false end -> wk <> Some WExit ->
       exists th0, set_nth [(o, p) :: r] 0 r = [th0] /\
        match th0 with
        | [] => run = match wk with Some _ => true | None => false end /\ wk <> Some WExit
        | (o, p) :: r => Forall (fun y => snd y = C0) r /\
          match o, p with
          | _, C0 => run = match wk with Some _ => true | None => false end /\ wk <> Some WExit
          | CStart, C1 => run = false /\ wk = None
          | CStart, C2 => run = true /\ wk = None
          | CStop, C1 => run = true /\ wk <> None /\ wk <> Some WExit
          | CStop, C2 => run = false /\ wk <> None
          end
        end).
    { intros run wk H1 H2. exists r. split; [reflexivity|]. destruct r as [|[o' p'] r']; [auto|].
      inversion Hr; subst. simpl in *. subst p'. split; [assumption|]. destruct o'; auto. }
    destruct o, p; simpl in S, Hp.
    + destruct (running s) eqn:Rn; injection S as <- <-; (split; [|split; [simpl; tauto|auto]]).
      * split; cbn [terminated worker clients running]; [exact T|rewrite live_ev_app; exact E|]. apply (Next _ (worker s)); try congruence; tauto.
      * split; cbn [terminated worker clients running]; [exact T|rewrite live_ev_app; exact E|].
        eexists; split; [reflexivity|]. split; [exact Hr|]. destruct (worker s); intuition congruence.
    + injection S as <- <-. split; [|split; [simpl; tauto|auto]].
      split; cbn [terminated worker clients running]; [exact T|rewrite live_ev_app; exact E|].
      eexists; split; [reflexivity|]. split; [exact Hr|]. tauto.
    + destruct Hp as [Hp1 Hp2]. rewrite Hp2 in S. injection S as <- <-. split; [|split; [simpl; intuition discriminate|auto]].
      split; cbn [terminated worker clients running]; [exact T|rewrite live_ev_app; reflexivity|]. apply (Next (running s) (Some WCheck)); congruence.
    + destruct (running s) eqn:Rn; injection S as <- <-; (split; [|split; [simpl; intuition discriminate|auto]]).
      * split; cbn [terminated worker clients running]; [exact T|rewrite live_ev_app; exact E|].
        eexists; split; [reflexivity|]. split; [exact Hr|]. destruct (worker s); intuition congruence.
      * split; cbn [terminated worker clients running]; [exact T|rewrite live_ev_app; simpl; destruct (worker s); intuition congruence|]. apply (Next _ (worker s)); try congruence; tauto.
    + injection S as <- <-. split; [|split; [simpl; tauto|auto]].
      split; cbn [terminated worker clients running]; [exact T|rewrite live_ev_app; exact E|].
      eexists; split; [reflexivity|]. split; [exact Hr|]. tauto.
    + destruct Hp as [Hp1 Hp2]. destruct (worker s) as [[| | |]|] eqn:W; try discriminate; injection S as <- <-.
      * split; [|split; [simpl; intuition discriminate|auto]].
        split; cbn [terminated worker clients running]; [exact T|rewrite live_ev_app; reflexivity|]. apply (Next (running s) None); congruence.
      * congruence.
Qed.
Lemma linv0 pr : linv (life0 [pr]) [].
Proof.
  split; [reflexivity|reflexivity|]. eexists. split; [reflexivity|].
  destruct pr as [|o pr]; simpl; [split; [reflexivity|discriminate]|]. split.
  - apply Forall_forall. intros y Hy. apply in_map_iff in Hy. destruct Hy as (c & <- & _). reflexivity.
  - destruct o; split; auto; discriminate.
Qed.
Lemma life_run_app s1 s2 c c2 ev : life_run (s1 ++ s2) c = Some (c2, ev) ->
  exists c1 e1 e2, life_run s1 c = Some (c1, e1) /\ life_run s2 c1 = Some (c2, e2) /\ ev = (e1 ++ e2)%list.
Proof.
  revert c ev. induction s1 as [|k s1 IH]; simpl; intros c ev H.
  - exists c, [], ev. auto.
  - destruct (life_step k c) as [[c1 e1]|] eqn:S; [|discriminate].
    destruct (life_run (s1 ++ s2) c1) as [[c3 e3]|] eqn:R; [|discriminate]. injection H as <- <-.
    destruct (IH _ _ R) as (d & f1 & f2 & H1 & H2 & ->). exists d, (e1 ++ f1)%list, f2. rewrite H1.
    split; [reflexivity|split; [exact H2|]]. rewrite app_assoc. reflexivity.
Qed.
(* scrubs only between a spawn and the next stop *)
Lemma linv_run pr sch : forall c ev, life_run sch (life0 [pr]) = Some (c, ev) ->
  linv c ev /\ forall e1 e2, ev = e1 ++ LScrub :: e2 -> live_ev e1 = true.
Proof.
  induction sch as [|k sch IH] using rev_ind; intros c ev R.
  - simpl in R. injection R as <- <-. split; [apply linv0|]. intros e1 e2 H. destruct e1; discriminate.
  - destruct (life_run_app _ _ _ _ _ R) as (c1 & f1 & f2 & R1 & R2 & ->).
    simpl in R2. destruct (life_step k c1) as [[c2 f3]|] eqn:S; [|discriminate]. injection R2 as <- <-. rewrite app_nil_r.
    destruct (IH _ _ R1) as [I Hs]. destruct (linv_step _ _ _ _ _ I S) as (I2 & Hl & He). split; [exact I2|].
    intros e1 e2 E. destruct He as [->|[->|[->| ->]]].
    + rewrite app_nil_r in E. eauto.
    + apply (app_inj_tail_iff) in E || idtac.
      destruct e2 as [|x e2] using rev_ind; [apply app_inj_tail in E; destruct E; discriminate|].
      rewrite app_comm_cons, app_assoc in E. apply app_inj_tail in E. destruct E as [E _]. eapply Hs. exact E.
    + destruct e2 as [|x e2] using rev_ind.
      * apply app_inj_tail in E. destruct E as [<- _]. apply Hl. simpl. auto.
      * rewrite app_comm_cons, app_assoc in E. apply app_inj_tail in E. destruct E as [E _]. eapply Hs. exact E.
    + destruct e2 as [|x e2] using rev_ind; [apply app_inj_tail in E; destruct E; discriminate|].
      rewrite app_comm_cons, app_assoc in E. apply app_inj_tail in E. destruct E as [E _]. eapply Hs. exact E.
Qed.
Lemma live_ev_stopped e1 e2 : ~ In LSpawn e2 -> live_ev (e1 ++ LStopped :: e2) = false.
Proof.
  intros H. rewrite live_ev_app. simpl. clear e1. induction e2 as [|x e2 IH]; simpl; [reflexivity|].
  simpl in H. destruct x; [tauto| |]; apply IH; tauto.
Qed.
Theorem no_scrub_after_stop pr sch c ev : life_run sch (life0 [pr]) = Some (c, ev) ->
  terminated c = false /\
  forall e1 e2, ev = e1 ++ LStopped :: e2 -> ~ In LSpawn e2 -> ~ In LScrub e2.
Proof.
  intros R. destruct (linv_run _ _ _ _ R) as [I Hs]. split; [apply I|].
  intros e1 e2 E HN HI. apply in_split in HI. destruct HI as (a & b & ->).
  assert (live_ev (e1 ++ LStopped :: a) = true).
  { apply (Hs _ b). rewrite E, <- app_assoc. reflexivity. }
  rewrite live_ev_stopped in H; [discriminate|]. intros K. apply HN. apply in_or_app. auto.
Qed.
(* stop() never waits forever: whatever the worker is doing, it exits after at most three more of its steps *)
Theorem stop_completes pr sch c ev rest : life_run sch (life0 [pr]) = Some (c, ev) ->
  clients c = [(CStop, C2) :: rest] ->
  exists n c1 e1 c2 e2, (n <= 3)%nat /\ life_run (repeat Worker n) c = Some (c1, e1) /\ life_step (Client 0) c1 = Some (c2, e2) /\
    worker c2 = None.
Proof.
  intros R Hc. destruct (linv_run _ _ _ _ R) as [[T _ (th & Hth & Hp)] _]. rewrite Hc in Hth. injection Hth as <-.
  destruct Hp as [_ [Hrun Hw]].
  assert (Fin : forall c1, terminated c1 = false -> clients c1 = [(CStop, C2) :: rest] -> worker c1 = Some WExit ->
    exists c2 e2, life_step (Client 0) c1 = Some (c2, e2) /\ worker c2 = None).
  { intros c1 H1 H2 H3. unfold life_step, client_step. rewrite H1, H2, H3. simpl. eexists _, _. split; reflexivity. }
  set (cx := mkL (running c) (Some WExit) (terminated c) (clients c)).
  assert (Fx : exists c2 e2, life_step (Client 0) cx = Some (c2, e2) /\ worker c2 = None) by (apply Fin; [exact T|exact Hc|reflexivity]).
  destruct Fx as (c2 & e2 & F & G).
  destruct (worker c) as [[| | |]|] eqn:W.
  - exists 1%nat, cx, [], c2, e2. split; [lia|]. split; [|split; [exact F|exact G]].
    unfold cx. simpl. unfold life_step, worker_step. rewrite T, W, Hrun. reflexivity.
  - exists 3%nat, cx, [LScrub], c2, e2. split; [lia|]. split; [|split; [exact F|exact G]].
    unfold cx. simpl. unfold life_step, worker_step. rewrite T, W. simpl. rewrite ?T, Hrun. simpl. reflexivity.
  - exists 2%nat, cx, [], c2, e2. split; [lia|]. split; [|split; [exact F|exact G]].
    unfold cx. simpl. unfold life_step, worker_step. rewrite T, W. simpl. rewrite ?T, Hrun. simpl. reflexivity.
  - destruct (Fin c T Hc W) as (c3 & e3 & F3 & G3). exists 0%nat, c, [], c3, e3. split; [lia|]. split; [reflexivity|split; [exact F3|exact G3]].
  - congruence.
Qed.
Theorem double_start : exists sch c ev, life_run sch (life0 [[CStart]; [CStart]]) = Some (c, ev) /\ terminated c = true.
Proof.
  exists [Client 0; Client 1; Client 0; Client 0; Client 1; Client 1]. eexists _, _. split; [reflexivity|reflexivity].
Qed.

(** *** LS: handles *)
Lemma ls_register_id m a n s h s' : ls_register m a n s = (h, s') -> h = next_id s /\ next_id s' = (next_id s + 1) mod 2 ^ 64.
Proof. intros H. injection H as <- <-. auto. Qed.
Lemma next_unreg h s : next_id (snd (ls_unregister h s)) = next_id s.
Proof. unfold ls_unregister. destruct (N.eqb h 0); [reflexivity|]. destruct (ls_erase h (lregions s)). reflexivity. Qed.
Lemma next_scrub m s : next_id (snd (scrubMemory m s)) = next_id s.
Proof. unfold scrubMemory. destruct (scrub_regions _ _ _) as [[l e] st]. reflexivity. Qed.
Lemma lrun_ids l : forall m s hs m' s', next_id s + N.of_nat (registrations l) < 2 ^ 64 -> lrun l m s = (hs, m', s') ->
  (forall h, In h hs -> next_id s <= h) /\ NoDup hs /\ next_id s' = next_id s + N.of_nat (registrations l).
Proof.
  induction l as [|o l IH]; intros m s hs m' s' Hlt R; cbn [lrun] in R.
  - injection R as <- <- <-. split; [contradiction|]. split; [constructor|]. unfold registrations. simpl. lia.
  - destruct o.
    + destruct (ls_register m addr size s) as [h s1] eqn:E. destruct (lrun l m s1) as [[hs1 m1] s2] eqn:R1.
      apply ls_register_id in E. destruct E as [-> E]. injection R as <- <- <-.
      unfold registrations in *. simpl in *. rewrite N.mod_small in E by lia.
      destruct (IH _ _ _ _ _ ltac:(rewrite E; lia) R1) as (A & B & C). split; [|split].
      * intros h [<-|H]; [lia|]. specialize (A _ H). lia.
      * constructor; [|exact B]. intros K. specialize (A _ K). lia.
      * rewrite C, E. lia.
    + unfold registrations in *. simpl in *. rewrite <- (next_unreg h s) in *. eapply IH; eauto.
    + unfold registrations in *. simpl in *. rewrite <- (next_scrub m s) in *. eapply IH; eauto.
    + unfold registrations in *. simpl in *. eapply IH; eauto.
Qed.
Theorem ls_handles_sequential l m hs m' s' : N.of_nat (registrations l) < 2 ^ 64 - 1 -> lrun l m ls_new = (hs, m', s') ->
  NoDup hs /\ ~ In 0 hs.
Proof.
  intros H R. destruct (lrun_ids l m ls_new hs m' s') as (A & B & _); [simpl; lia|exact R|].
  split; [exact B|]. intros K. specialize (A _ K). simpl in A. lia.
Qed.
Theorem ls_handles_race : exists sch s, reg_run sch (regs0 2) = Some s /\ thr s = [RDone 1; RDone 1] /\ ids s = [1; 1].
Proof. exists [0; 1; 0; 1; 0; 1]%nat. eexists. split; [reflexivity|]. split; reflexivity. Qed.
Theorem ls_handles_move m a1 n1 a2 n2 :
  let '(h1, s1) := ls_register m a1 n1 ls_new in
  let '(h2, s2) := ls_register m a2 n2 (ls_moved s1) in
  h1 = h2 /\ map raddr (lregions s2) = [a1; a2] /\ map raddr (lregions (snd (ls_unregister h2 s2))) = [a2].
Proof. simpl. split; [reflexivity|]. split; reflexivity. Qed.

(** *** LS: checksums *)
Lemma blocks_small bs : (0 < length bs <= 64)%nat -> blocks bs = [bs].
Proof.
  intros H. unfold blocks. destruct bs as [|b bs]; [simpl in H; lia|]. cbn [blocks_from length].
  rewrite firstn_all2 by lia. rewrite skipn_all2 by lia. destruct (length bs); reflexivity.
Qed.
Lemma blocks_nil : blocks [] = []. Proof. reflexivity. Qed.
Lemma bytes_len m a n : length (bytes_at m a n) = n.
Proof. unfold bytes_at. rewrite map_length, seq_length. reflexivity. Qed.
Lemma scrubRegion_small m r st : (0 < rsize r <= 64)%nat ->
  scrubRegion m r st = scrub_block (r, 0, st) (bytes_at m (raddr r) (rsize r)).
Proof. intros H. unfold scrubRegion. rewrite blocks_small by (rewrite bytes_len; lia). reflexivity. Qed.
Lemma scrubRegion_empty m r st : rsize r = 0%nat -> scrubRegion m r st = (r, 0, st).
Proof. intros H. unfold scrubRegion. rewrite H. reflexivity. Qed.
Lemma scrubRegion_clean m r st : (rsize r <= 64)%nat -> fresh m r -> scrubRegion m r st = (r, 0, st).
Proof.
  intros H F. destruct (Nat.eq_dec (rsize r) 0) as [E|E]; [apply scrubRegion_empty; exact E|].
  rewrite scrubRegion_small by lia. destruct F as [F|F]; [contradiction|].
  unfold scrub_block. rewrite <- F, N.eqb_refl. reflexivity.
Qed.
Lemma scrub_regions_clean m l st : Forall (fun r => (rsize r <= 64)%nat) l -> Forall (fresh m) l -> scrub_regions m l st = (l, 0, st).
Proof.
  induction l as [|r l IH]; intros H F; simpl; [reflexivity|]. inversion H; inversion F; subst.
  rewrite scrubRegion_clean by assumption. rewrite IH by assumption. reflexivity.
Qed.
Lemma checksum_fresh m r : (rsize r <= 64)%nat -> fresh m (calculateChecksums m r).
Proof.
  intros H. unfold fresh, calculateChecksums. simpl. destruct (Nat.eq_dec (rsize r) 0) as [E|E]; [auto|]. right.
  rewrite blocks_small by (rewrite bytes_len; lia). reflexivity.
Qed.
Definition shape (x y : lregion * N * lstats) : Prop :=
  rid (fst (fst y)) = rid (fst (fst x)) /\ raddr (fst (fst y)) = raddr (fst (fst x)) /\ rsize (fst (fst y)) = rsize (fst (fst x)) /\
  exists k, snd (fst y) = snd (fst x) + k /\ detected (snd y) = detected (snd x) + k /\ corrected (snd y) = corrected (snd x) + k.
Lemma scrub_block_shape x b : shape x (scrub_block x b).
Proof.
  destruct x as [[r e] st]. unfold scrub_block, shape. destruct (negb _); simpl; (repeat (split; [reflexivity|])).
  - exists 1. lia.
  - exists 0. lia.
Qed.
Lemma scrub_blocks_shape bs : forall x, shape x (fold_left scrub_block bs x).
Proof.
  induction bs as [|b bs IH]; intros x; cbn [fold_left].
  - unfold shape. repeat (split; [reflexivity|]). exists 0. lia.
  - destruct (scrub_block_shape x b) as (A1 & A2 & A3 & k & A4 & A5 & A6).
    destruct (IH (scrub_block x b)) as (B1 & B2 & B3 & j & B4 & B5 & B6).
    unfold shape. repeat (split; [congruence|]). exists (k + j). lia.
Qed.
Lemma scrub_regions_shape m l : forall st l' e st', scrub_regions m l st = (l', e, st') ->
  map rsize l' = map rsize l /\ detected st' = detected st + e /\ corrected st' = corrected st + e.
Proof.
  induction l as [|r l IH]; cbn [scrub_regions]; intros st l' e st' H.
  - injection H as <- <- <-. split; [reflexivity|lia].
  - pose proof (scrub_blocks_shape (blocks (bytes_at m (raddr r) (rsize r))) (r, 0, st)) as S.
    unfold scrubRegion in H. destruct (fold_left scrub_block _ _) as [[r1 e1] st1].
    destruct (scrub_regions m l st1) as [[t' e2] st2] eqn:E. injection H as <- <- <-.
    destruct (IH _ _ _ _ E) as (H1 & H2 & H3). destruct S as (_ & _ & S3 & k & S4 & S5 & S6). cbn [fst snd] in *.
    cbn [map]. split; [congruence|lia].
Qed.
Lemma scrub_small m s e m' s' : small s -> scrubMemory m s = (e, m', s') -> m' = m /\ small s' /\ Forall (fresh m) (lregions s').
Proof.
  unfold scrubMemory, small. intros H R. destruct (scrub_regions m (lregions s) (lst s)) as [[l e0] st] eqn:E.
  injection R as <- <- <-. destruct (scrub_regions_shape _ _ _ _ _ _ E) as (M & _ & _). split; [reflexivity|]. simpl.
  assert (Forall (fun r => (rsize r <= 64)%nat) l) as Hl.
  { assert (Forall (fun n => (n <= 64)%nat) (map rsize l)) as K by (rewrite M; rewrite Forall_map; exact H). rewrite Forall_map in K. exact K. }
  split; rewrite Forall_map.
  - eapply Forall_impl; [|exact Hl]. intros r Hr. exact Hr.
  - eapply Forall_impl; [|exact Hl]. intros r Hr. apply checksum_fresh. exact Hr.
Qed.
Lemma scrub_clean m s : small s -> Forall (fresh m) (lregions s) -> fst (fst (scrubMemory m s)) = 0.
Proof. intros H F. unfold scrubMemory. rewrite scrub_regions_clean by assumption. reflexivity. Qed.
(* small regions, memory untouched: no cycle ever reports an error *)
Theorem scrubs_clean n m s : small s -> Forall (fresh m) (lregions s) -> fst (scrubs n m s) = repeat 0 n.
Proof.
  revert s. induction n as [|n IH]; intros s H F; simpl; [reflexivity|].
  pose proof (scrub_clean m s H F) as C. destruct (scrubMemory m s) as [[e m'] s'] eqn:E. simpl in C. subst e.
  destruct (scrub_small _ _ _ _ _ H E) as (-> & H' & F'). specialize (IH s' H' F'). destruct (scrubs n m s'). simpl in *. congruence.
Qed.
Lemma register_fresh m a n s : (n <= 64)%nat -> small s -> Forall (fresh m) (lregions s) ->
  small (snd (ls_register m a n s)) /\ Forall (fresh m) (lregions (snd (ls_register m a n s))).
Proof.
  intros H S F. unfold ls_register, small. simpl. split; apply Forall_app; (split; [assumption|constructor; [|constructor]]).
  - exact H. - right. reflexivity.
Qed.
(* whatever was wrong, the next cycle calls it right: the corrupted contents are accepted *)
Theorem corruption_accepted n m s e m' s' : small s -> scrubMemory m s = (e, m', s') -> m' = m /\ fst (scrubs n m' s') = repeat 0 n.
Proof.
  intros H E. destruct (scrub_small _ _ _ _ _ H E) as (-> & H' & F'). split; [reflexivity|]. apply scrubs_clean; assumption.
Qed.
Theorem corrected_is_detected n m : forall s l s', scrubs n m s = (l, s') -> detected (lst s) = corrected (lst s) ->
  detected (lst s') = corrected (lst s') /\ detected (lst s') = detected (lst s) + fold_right N.add 0 l /\ length l = n.
Proof.
  induction n as [|n IH]; intros s l s' R H; simpl in R.
  - injection R as <- <-. simpl. split; [exact H|]. split; [lia|reflexivity].
  - unfold scrubMemory in R. destruct (scrub_regions m (lregions s) (lst s)) as [[l1 e1] st1] eqn:E.
    destruct (scrub_regions_shape _ _ _ _ _ _ E) as (_ & D & C).
    destruct (scrubs n m _) as [l2 s2] eqn:R2 in R. injection R as <- <-.
    destruct (IH _ _ _ R2) as (A & B & L); [simpl; lia|]. simpl in B |- *. split; [exact A|]. split; [lia|congruence].
Qed.
(* a small region: an error is reported exactly when the checksum of the contents differs from the stored one *)
Theorem small_region_report m r st : (0 < rsize r <= 64)%nat ->
  snd (fst (scrubRegion m r st)) = if N.eqb (Scrubber_calculateCRC32 (bytes_at m (raddr r) (rsize r))) (rcrc r) then 0 else 1.
Proof.
  intros H. rewrite scrubRegion_small by exact H. unfold scrub_block. destruct (N.eqb _ _); reflexivity.
Qed.
(* any region, ECC off, after a cycle: each cycle on untouched memory reports the blocks whose checksum is not that of the last block *)
Lemma fold_last (l : list (list N)) z : fold_left (fun _ b => Scrubber_calculateCRC32 b) l z = last (map Scrubber_calculateCRC32 l) z.
Proof.
  revert z. induction l as [|b l IH]; intros z; [reflexivity|]. simpl fold_left. rewrite IH.
  destruct l as [|c l]; [reflexivity|]. simpl map. 
  assert (forall (A : Type) (x : A) l d d', last (x :: l) d = last (x :: l) d') as K.
  { clear. intros A x l. revert x. induction l as [|y l IH]; intros x d d'; [reflexivity|]. simpl. apply IH. }
  rewrite (K _ _ _ _ z). reflexivity.
Qed.
Lemma scrub_count l : forall r e st, recc r = false ->
  let '(r', e', _) := fold_left scrub_block l (r, e, st) in
  r' = r /\ e' = e + N.of_nat (length (filter (fun b => negb (N.eqb (Scrubber_calculateCRC32 b) (rcrc r))) l)).
Proof.
  induction l as [|b l IH]; intros r e st H; cbn [fold_left filter]; [split; [reflexivity|simpl; lia]|].
  change (scrub_block (r, e, st) b) with (if negb (N.eqb (Scrubber_calculateCRC32 b) (rcrc r))
  then (mkLR (rid r) (raddr r) (rsize r) (recc r) (if recc r then 0 else rcrc r), e + 1,
        mkS (cycles st) (detected st + 1) (corrected st + 1)) else (r, e, st)). destruct (negb (Scrubber_calculateCRC32 b =? rcrc r)) eqn:E.
  - rewrite H. specialize (IH (mkLR (rid r) (raddr r) (rsize r) false (rcrc r)) (e + 1) (mkS (cycles st) (detected st + 1) (corrected st + 1)) eq_refl).
    cbn [rcrc] in IH. destruct (fold_left scrub_block l _) as [[r' e'] s']. destruct IH as [-> ->]. cbn [length]. split; [destruct r; simpl in *; congruence|lia].
  - specialize (IH r e st H). destruct (fold_left scrub_block l (r, e, st)) as [[r' e'] s']. exact IH.
Qed.
Theorem every_cycle_reports m r st : recc r = false ->
  let bs := blocks (bytes_at m (raddr r) (rsize r)) in
  snd (fst (scrubRegion m (calculateChecksums m r) st)) =
  N.of_nat (length (filter (fun b => negb (N.eqb (Scrubber_calculateCRC32 b) (last (map Scrubber_calculateCRC32 bs) 0))) bs)).
Proof.
  intros H bs. unfold scrubRegion. pose proof (scrub_count bs (calculateChecksums m r) 0 st H) as K.
  change (blocks (bytes_at m (raddr (calculateChecksums m r)) (rsize (calculateChecksums m r)))) with bs.
  destruct (fold_left scrub_block bs (calculateChecksums m r, 0, st)) as [[r' e'] s']. destruct K as [_ ->].
  simpl. rewrite N.add_0_l. do 2 f_equal. apply filter_ext. intros b. rewrite fold_last. reflexivity.
Qed.

(* blind checksum: whatever surrounds a byte, it has a value for which flipping its lowest bit goes unreported *)
Theorem blind_region n k m : (k < n <= 64)%nat -> exists b, b < 256 /\
  let '(h, s) := ls_register (poke m k b) 0 n ls_new in
  fst (fst (scrubMemory (poke m k (N.lxor b 1)) s)) = 0.
Proof.
  intros H. destruct (scrubber_blind (bytes_at m 0 k) (bytes_at m (S k) (n - k - 1))) as (b & Hb & _ & E).
  exists b. split; [exact Hb|].
  assert (Split : forall v, bytes_at (poke m k v) 0 n = bytes_at m 0 k ++ v :: bytes_at m (S k) (n - k - 1)).
  { intros v. unfold bytes_at. replace n with (k + S (n - k - 1))%nat at 1 by lia. rewrite seq_app, map_app. f_equal.
    - apply map_ext_in. intros i Hi. apply in_seq in Hi. unfold poke. destruct (Nat.eqb_spec i k); [lia|reflexivity].
    - simpl seq. simpl map. unfold poke at 1. rewrite Nat.eqb_refl. f_equal.
      apply map_ext_in. intros i Hi. apply in_seq in Hi. unfold poke. destruct (Nat.eqb_spec i k); [lia|reflexivity]. }
  set (r := mkLR 1 0 n false (Scrubber_calculateCRC32 (bytes_at (poke m k b) 0 n))).
  change (fst (fst (scrubMemory (poke m k (N.lxor b 1)) (mkLS [r] (2 mod 2 ^ 64) (mkS 0 0 0)))) = 0).
  unfold scrubMemory. cbn [lregions lst].
  rewrite scrub_regions_clean; [reflexivity| |].
  - constructor; [simpl; lia|constructor].
  - constructor; [|constructor]. right. unfold r. cbn [rcrc raddr rsize]. rewrite !Split. exact E.
Qed.

(** *** LS: moving a running scrubber *)
(* reachable: the move can never complete *)
Theorem move_deadlock : exists sch s, mv_run sch mv0 = Some s /\ mpc_ s <> MEnd /\ forall k, mv_step k s = None.
Proof.
  exists [false; true; true]. eexists. split; [reflexivity|]. split; [discriminate|]. intros [|]; reflexivity.
Qed.
Definition minv (s : mv) : Prop := nthr s = false /\ (mpc_ s = M0 -> orun s = true) /\ (mpc_ s <> M0 -> nrun s = true).
Lemma minv_run sch : forall s s', minv s -> mv_run sch s = Some s' -> minv s'.
Proof.
  induction sch as [|k sch IH]; intros s s' I R; cbn [mv_run] in R; [injection R as <-; exact I|].
  destruct (mv_step k s) as [s1|] eqn:S; [|discriminate]. apply (IH s1); [|exact R]. clear R IH.
  destruct I as (I1 & I2 & I3). unfold mv_step, mover_step, old_worker_step in S.
  destruct s as [ol orn ot nr nt mp vp]; cbn [mpc_ vpc_ olock orun oterm nrun nthr] in *.
  destruct k.
  - destruct mp; try discriminate.
    + destruct ol; [discriminate|]. injection S as <-. unfold minv; simpl. split; [exact I1|]. split; [discriminate|auto].
    + destruct orn; injection S as <-; unfold minv; simpl; (split; [exact I1|]; split; [discriminate|intros _; apply I3; discriminate]).
    + destruct vp; try discriminate. injection S as <-; unfold minv; simpl; (split; [exact I1|]; split; [discriminate|intros _; apply I3; discriminate]).
    + injection S as <-; unfold minv; simpl; rewrite I1. destruct nr; (split; [reflexivity|]; split; [discriminate|intros _; apply I3; discriminate]).
    + injection S as <-; unfold minv; simpl; (split; [exact I1|]; split; [discriminate|intros _; apply I3; discriminate]).
  - destruct vp; try discriminate; [|destruct ol; [discriminate|]|]; injection S as <-; unfold minv; simpl; (split; [exact I1|]; split; assumption).
Qed.
(* and whenever it completes, the new object claims to run but has no thread *)
Theorem move_no_thread sch s : mv_run sch mv0 = Some s -> mpc_ s = MEnd -> nrun s = true /\ nthr s = false.
Proof.
  intros R E. assert (minv mv0) as I0 by (split; [reflexivity|split; [reflexivity|intros H; contradiction]]).
  destruct (minv_run _ _ _ I0 R) as (A & _ & B). split; [apply B; congruence|exact A].
Qed.
Lemma move_can_complete : exists sch s, mv_run sch mv0 = Some s /\ mpc_ s = MEnd.
Proof. exists [true; true; false; true; true; true]. eexists. split; reflexivity. Qed.

(** *** SU *)
Theorem backup_restore sizeofT n x corrupted buf : length x = (n * sizeofT)%nat -> length buf = (n * sizeofT)%nat ->
  length corrupted = (n * sizeofT)%nat ->
  exists bk, backup_memory sizeofT buf x n = Ret bk /\ restore_memory sizeofT corrupted bk n = Ret x.
Proof.
  intros H1 H2 H3. exists x. unfold backup_memory, restore_memory, memcpy. rewrite H1, H2, H3, Nat.leb_refl.
  split; (cbn [andb]; f_equal; rewrite <- H1, firstn_all, skipn_all2 by lia; apply app_nil_r).
Qed.
Theorem backup_byte_size sizeofT n x buf : (1 < sizeofT)%nat -> (0 < n)%nat -> length x = (n * sizeofT)%nat -> length buf = (n * sizeofT)%nat ->
  backup_memory sizeofT buf x (n * sizeofT) = UB UB_array_index.
Proof.
  intros H1 H2 H3 H4. unfold backup_memory, memcpy. rewrite H3, H4.
  replace (n * sizeofT * sizeofT <=? n * sizeofT)%nat with false; [reflexivity|]. symmetry. apply Nat.leb_gt. nia.
Qed.
Theorem compare_counts t a : forall b, length a = length b ->
  compare_memory t (length a) a b = Ret (N.of_nat (length (filter (fun p => negb (eqT t (fst p) (snd p))) (combine a b)))).
Proof.
  induction a as [|x a IH]; intros [|y b] H; try discriminate; [reflexivity|].
  cbn [length compare_memory combine filter fst snd]. rewrite IH by (simpl in H; lia). cbn [obind].
  destruct (eqT t x y); cbn [negb length]; f_equal; lia.
Qed.
Theorem compare_out_of_bounds t a b n : (length a < n)%nat -> compare_memory t n a b = UB UB_array_index.
Proof.
  revert b n. induction a as [|x a IH]; intros b n H; (destruct n as [|n]; [simpl in H; lia|]); [reflexivity|].
  destruct b as [|y b]; [reflexivity|]. cbn [compare_memory]. rewrite IH by (simpl in H; lia). reflexivity.
Qed.

(** *** LS: histories *)
Lemma erase_Forall (P : lregion -> Prop) h l : Forall P l -> Forall P (snd (ls_erase h l)).
Proof.
  induction 1 as [|r l Hr Hl IH]; cbn [ls_erase]; [constructor|]. destruct (N.eqb (rid r) h); [exact Hl|].
  destruct (ls_erase h l). simpl in *. constructor; assumption.
Qed.
Theorem untouched_clean l m n hs m' s' : Forall quiet l -> lrun l m ls_new = (hs, m', s') -> fst (scrubs n m' s') = repeat 0 n.
Proof.
  intros Q R. assert (G : forall l s hs m' s', Forall quiet l -> small s -> Forall (fresh m) (lregions s) ->
    lrun l m s = (hs, m', s') -> m' = m /\ small s' /\ Forall (fresh m) (lregions s')).
  { clear. induction l as [|o l IH]; intros s hs m' s' Q S F R; cbn [lrun] in R.
    - injection R as <- <- <-. auto.
    - inversion Q as [|? ? Qo Ql]; subst. destruct o; simpl in Qo.
      + destruct (register_fresh m addr size s Qo S F) as [S1 F1].
        destruct (ls_register m addr size s) as [h s1]. destruct (lrun l m s1) as [[hs1 m1] s2] eqn:R1.
        injection R as <- <- <-. exact (IH _ _ _ _ Ql S1 F1 R1).
      + apply (IH _ _ _ _ Ql) in R; [exact R| |]; unfold small, ls_unregister in *; destruct (N.eqb h 0); try assumption;
        pose proof (erase_Forall _ h _ S) as S1; pose proof (erase_Forall _ h _ F) as F1; destruct (ls_erase h (lregions s)); assumption.
      + destruct (scrubMemory m s) as [[e m1] s1] eqn:E. destruct (scrub_small _ _ _ _ _ S E) as (_ & S1 & F1). simpl in R.
        exact (IH _ _ _ _ Ql S1 F1 R).
      + contradiction. }
  destruct (G l ls_new hs m' s' Q) as (-> & S & F); try assumption; try constructor. apply scrubs_clean; assumption.
Qed.
(* a region of 65 zero bytes, never touched *)
Definition z65 : lscrub := snd (ls_register (fun _ => 0) 0 65 ls_new).
Theorem big_region_errors n : exists e, fst (scrubs (S n) (fun _ => 0) z65) = e :: repeat 1 n /\ 0 < e.
Proof.
  exists 1. split; [|reflexivity].
  set (s1 := snd (scrubMemory (fun _ => 0) z65)).
  assert (E1 : scrubMemory (fun _ => 0) z65 = (1, fun _ => 0, s1)) by (vm_compute; reflexivity).
  set (step1 := fun c d => mkLS (lregions s1) (next_id s1) (mkS c d d)).
  assert (E2 : forall c d, scrubMemory (fun _ => 0) (step1 c d) = (1, fun _ => 0, step1 (c + 1) (d + 1))).
  { intros c d. unfold scrubMemory, step1. cbn [lregions next_id lst].
    assert (L : lregions s1 = [mkLR 1 0 65 false (Scrubber_calculateCRC32 [0])]) by (vm_compute; reflexivity). rewrite L.
    cbn [scrub_regions]. unfold scrubRegion. cbn [raddr rsize].
    assert (Bl : blocks (bytes_at (fun _ => 0) 0 65) = [repeat 0 64; [0]]) by (vm_compute; reflexivity). rewrite Bl.
    cbn [fold_left]. unfold scrub_block. cbn [rcrc rid raddr rsize recc].
    assert (C : (Scrubber_calculateCRC32 (repeat 0 64) =? Scrubber_calculateCRC32 [0]) = false) by (vm_compute; reflexivity).
    rewrite C. cbn [negb rcrc rid raddr rsize recc cycles detected corrected]. rewrite N.eqb_refl. cbn [negb map cycles detected corrected].
    unfold calculateChecksums. cbn [rid raddr rsize recc]. rewrite Bl. reflexivity. }
  assert (G : forall n c d, fst (scrubs n (fun _ => 0) (step1 c d)) = repeat 1 n).
  { clear n. induction n as [|n IH]; intros c d; [reflexivity|]. cbn [scrubs]. rewrite E2. specialize (IH (c + 1) (d + 1)).
    destruct (scrubs n (fun _ => 0) (step1 (c + 1) (d + 1))). simpl in IH |- *. congruence. }
  cbn [scrubs]. rewrite E1. change s1 with (step1 (cycles (lst s1)) (detected (lst s1))).
  specialize (G n (cycles (lst s1)) (detected (lst s1))). destruct (scrubs n _ _). simpl in G |- *. congruence.
Qed.
Theorem big_region_every_cycle n : fst (scrubs n (fun _ => 0) (snd (ls_register (fun _ => 0) 0 65 ls_new))) = repeat 1 n.
Proof.
  destruct n as [|n]; [reflexivity|]. destruct (big_region_errors n) as (e & E & _).
  change (snd (ls_register (fun _ => 0) 0 65 ls_new)) with z65. rewrite E. 
  assert (fst (scrubs 1 (fun _ => 0) z65) = [1]) as K by (vm_compute; reflexivity).
  cbn [scrubs] in E, K. destruct (scrubMemory (fun _ => 0) z65) as [[e0 m0] s0]. cbn in K. destruct (scrubs n m0 s0). simpl in E, K. 
  injection K as ->. injection E as <- _. reflexivity.
Qed.
