(** Properties C469-C472: a model that scrubs itself (inference/model.hpp). *)
From Coq Require Import List Bool Arith Lia.
Import ListNotations.
From Verif Require Import Scrub_Model Mdl_Model.

(** ** what a history says *)
(** auto-scrubbing has been asked for and not yet ended: the last of "enable called", "disable returned", "destroyed" is the first *)
Definition scrub_wanted (l : list mev) : bool :=
  fold_left (fun b e => match e with EvCall MEnable => true | EvDone MDisable | EvDone MDestroy => false | _ => b end) l false.
(** the object is only destroyed with auto-scrubbing off *)
Fixpoint safe_use (on : bool) (prog : list mop) : Prop :=
  match prog with [] => True | MEnable :: r => safe_use true r | MDisable :: r => safe_use false r | MInfer :: r => safe_use on r | MDestroy :: _ => on = false end.

(** ** runs as reachable states with a trace *)
Inductive reach (prog : list mop) : mstate -> list mev -> Prop :=
| reach_new : reach prog (model_new prog) []
| reach_step s tr k s' e : reach prog s tr -> model_step k s = Some (s', e) -> reach prog s' (tr ++ e).
Lemma run_reach prog sch : forall s tr s' e, reach prog s tr -> model_run sch s = Some (s', e) -> reach prog s' (tr ++ e).
Proof.
  induction sch as [|k r IH]; intros s tr s' e H Q; cbn [model_run] in Q; [injection Q as <- <-; rewrite app_nil_r; exact H|]. destruct (model_step k s) as [[s1 e1]|] eqn:K; [|discriminate Q]. destruct (model_run r s1) as [[s2 e2]|] eqn:W; [|discriminate Q]. injection Q as <- <-. rewrite app_assoc. eapply IH; [|exact W]. eapply reach_step; eassumption.
Qed.
Lemma run_new prog sch s e : model_run sch (model_new prog) = Some (s, e) -> reach prog s e.
Proof. intros H. exact (run_reach prog sch _ [] _ _ (reach_new prog) H). Qed.
(** the call in progress *)
Definition cur (l : list mev) : option mop := fold_left (fun b e => match e with EvCall o => Some o | EvDone _ => None | _ => b end) l None.
Definition head (s : mstate) : option mop := match m_pc s with P0 => None | _ => hd_error (m_prog s) end.
Lemma wanted_app l e : scrub_wanted (l ++ [e]) = match e with EvCall MEnable => true | EvDone MDisable | EvDone MDestroy => false | _ => scrub_wanted l end.
Proof. unfold scrub_wanted. rewrite fold_left_app. reflexivity. Qed.
Lemma cur_app l e : cur (l ++ [e]) = match e with EvCall o => Some o | EvDone _ => None | _ => cur l end.
Proof. unfold cur. rewrite fold_left_app. reflexivity. Qed.
(** every step gives at most one event *)
Lemma step_one k s s' e : model_step k s = Some (s', e) -> e = [] \/ exists x, e = [x].
Proof.
  unfold model_step. destruct (m_aborted s); [discriminate|]. destruct k; [unfold owner|unfold scrub_thread]; intros H.
  - destruct (m_prog s) as [|[] r]; [discriminate H|..]; destruct (m_pc s); try (destruct (m_sc s) as [[b []]|]); inversion H; subst; eauto.
  - destruct (m_sc s) as [[b []]|]; [..|discriminate H]; try (destruct (m_obj s)); inversion H; subst; eauto.
Qed.
Definition inv (s : mstate) (tr : list mev) : Prop :=
  ((m_sc s <> None \/ head s = Some MEnable) -> scrub_wanted tr = true) /\ cur tr = head s /\ (m_pc s <> P0 -> m_prog s <> []).
Lemma inv_step k s s' e tr : model_step k s = Some (s', e) -> inv s tr -> inv s' (tr ++ e).
Proof.
  unfold model_step. destruct (m_aborted s); [discriminate|]. intros H (I1 & I2 & I3). unfold inv, head in *. destruct k; [unfold owner in H|unfold scrub_thread in H].
  - destruct (m_prog s) as [|[] r] eqn:P; [discriminate H|..]; destruct (m_pc s) eqn:C; try (destruct (m_sc s) as [[b []]|] eqn:S); inversion H; subst; cbn [m_sc m_pc m_prog hd_error] in *; rewrite ?app_nil_r, ?wanted_app, ?cur_app, ?P;
      (split; [intros Q; first [reflexivity | (apply I1; first [exact Q | (left; discriminate) | (right; reflexivity) | (destruct Q as [Q|Q]; [left; exact Q|discriminate Q])]) | (exfalso; destruct Q as [Q|Q]; [apply Q; reflexivity|discriminate Q])]|split; [first [reflexivity|exact I2]|try discriminate; try congruence]]).
  - destruct (m_sc s) as [[b []]|] eqn:S; [..|discriminate H|discriminate H]; try (destruct (m_obj s)); inversion H; subst; cbn [m_sc m_pc m_prog] in *; rewrite ?app_nil_r, ?wanted_app, ?cur_app; (split; [intros _; apply I1; left; discriminate|split; [exact I2|exact I3]]).
Qed.
Lemma inv_reach prog s tr : reach prog s tr -> inv s tr.
Proof. induction 1 as [|s tr k s' e R IH K]; [|eapply inv_step; eassumption]. split; [|split; [reflexivity|intros Q; exfalso; apply Q; reflexivity]]. intros [Q|Q]; [exfalso; apply Q; reflexivity|discriminate Q]. Qed.
Lemma snoc_split (A : Type) (tr : list A) x l1 y l2 : tr ++ [x] = l1 ++ y :: l2 -> (l2 = [] /\ x = y /\ tr = l1) \/ (exists r, l2 = r ++ [x] /\ tr = l1 ++ y :: r).
Proof.
  intros H. destruct (exists_last (l := y :: l2) ltac:(discriminate)) as (r & z & Q). rewrite Q, app_assoc in H. apply app_inj_tail in H. destruct H as [H1 H2]. subst z. destruct r as [|y' r'].
  - cbn in Q. injection Q as -> ->. left. rewrite app_nil_r in H1. auto.
  - cbn in Q. injection Q as <- ->. right. exists r'. auto.
Qed.
(** the step that gives a repair has a scrubber *)
Lemma repair_sc k s s' x : model_step k s = Some (s', [x]) -> (x = EvRepair \/ x = EvPureCall) -> m_sc s <> None.
Proof.
  unfold model_step. destruct (m_aborted s); [discriminate|]. intros H X. destruct k; [unfold owner in H|unfold scrub_thread in H].
  - exfalso. destruct (m_prog s) as [|[] r] eqn:P; [discriminate H|..]; destruct (m_pc s) eqn:C; try (destruct (m_sc s) as [[b []]|] eqn:S); inversion H; subst; destruct X; discriminate.
  - destruct (m_sc s); [discriminate|discriminate H].
Qed.

(** ** C469: repairs only happen while auto-scrubbing is wanted *)
Lemma repairs_wanted prog s tr : reach prog s tr -> forall l1 l2, tr = l1 ++ EvRepair :: l2 -> scrub_wanted l1 = true.
Proof.
  induction 1 as [|s tr k s' e R IH K]; intros l1 l2 Q; [destruct l1; discriminate Q|]. destruct (step_one _ _ _ _ K) as [->|[x ->]]; [rewrite app_nil_r in Q; exact (IH _ _ Q)|]. destruct (snoc_split _ _ _ _ _ _ Q) as [(-> & X & <-)|(r & -> & T)]; [|exact (IH _ _ T)].
  apply (proj1 (inv_reach _ _ _ R)). left. eapply repair_sc; [exact K|left; exact X].
Qed.
Theorem C469_repairs_while_wanted : forall prog sch s l1 l2, model_run sch (model_new prog) = Some (s, l1 ++ EvRepair :: l2) -> scrub_wanted l1 = true.
Proof. intros prog sch s l1 l2 H. exact (repairs_wanted _ _ _ (run_new _ _ _ _ H) _ _ eq_refl). Qed.
Example C469_nonvacuous : exists s l2, model_run [Owner; Owner; Owner; Scrubber; Scrubber; Owner; Owner; Scrubber; Scrubber; Owner] (model_new [MEnable; MDisable]) = Some (s, [EvCall MEnable; EvDone MEnable] ++ EvRepair :: l2) /\ m_prog s = [] /\ m_sc s = None /\ scrub_wanted ([EvCall MEnable; EvDone MEnable; EvRepair; EvCall MDisable; EvDone MDisable]) = false.
Proof. eexists. eexists. split; [reflexivity|]. repeat split; reflexivity. Qed.

(** ** C470: destroying a model *)
(** with auto-scrubbing on, the worker can call repair() after the derived part is gone: a pure virtual call *)
Theorem C470_destroy_refuted : exists sch s l, model_run sch (model_new [MEnable; MInfer; MDestroy]) = Some (s, l) /\ In EvPureCall l /\ m_aborted s = true.
Proof. exists [Owner; Owner; Owner; Owner; Owner; Owner; Owner; Scrubber; Scrubber]. eexists. eexists. split; [reflexivity|]. split; [cbn; tauto|reflexivity]. Qed.
Definition present (sc : option (bool * wpc)) : bool := match sc with Some _ => true | None => false end.
Definition disc (s : mstate) : Prop :=
  match m_prog s, m_pc s with
  | p, P0 => safe_use (present (m_sc s)) p
  | MEnable :: r, _ => safe_use true r
  | MDisable :: r, _ => safe_use false r
  | MInfer :: r, _ => safe_use (present (m_sc s)) r
  | MDestroy :: _, _ => m_sc s = None
  | [], _ => True
  end.
Definition safe_inv (s : mstate) (tr : list mev) : Prop := disc s /\ (m_obj s <> Whole -> m_sc s = None) /\ (m_obj s = Whole \/ m_prog s = [] \/ hd_error (m_prog s) = Some MDestroy) /\ m_aborted s = false /\ ~ In EvPureCall tr.
Lemma safe_step k s s' e tr : model_step k s = Some (s', e) -> safe_inv s tr -> safe_inv s' (tr ++ e).
Proof.
  unfold model_step, safe_inv. intros H (D & O & W & A & N). rewrite A in H. assert (NA : forall x, x <> EvPureCall -> ~ In EvPureCall (tr ++ [x])) by (intros x X I; apply in_app_or in I; destruct I as [I|[I|[]]]; [exact (N I)|exact (X I)]).
  destruct k; [unfold owner in H|unfold scrub_thread in H]; unfold disc in *.
  - destruct (m_prog s) as [|[] r] eqn:P; [discriminate H|..]; destruct (m_pc s) eqn:C; try (destruct (m_sc s) as [[b []]|] eqn:S); cbn [safe_use present hd_error] in *; inversion H; subst; cbn [m_sc m_pc m_prog m_obj m_aborted present] in *; rewrite ?P, ?app_nil_r in *; cbn [hd_error] in *; try discriminate D;
      (split; [first [exact D|reflexivity|exact I|(destruct r as [|[] ?]; exact D)]|split; [first [exact O|reflexivity|intros Q; specialize (O Q); discriminate O|idtac]|split; [first [exact W|tauto|idtac]|split; [reflexivity|first [exact N|apply NA; discriminate]]]]]); try (destruct W as [W|[W|W]]; [left; exact W|discriminate W|discriminate W]); try (intros Q; destruct W as [W|[W|W]]; [congruence|discriminate W|discriminate W]).
  - destruct (m_sc s) as [[b []]|] eqn:S; [..|discriminate H|discriminate H]; try (destruct (m_obj s) eqn:OB); inversion H; subst; cbn [m_sc m_pc m_prog m_obj m_aborted present] in *; rewrite ?app_nil_r;
      try (exfalso; assert (Q : @Some (bool * wpc) (b, WScrub) = None) by (apply O; discriminate); discriminate Q);
      (split; [destruct (m_prog s) as [|[] ?], (m_pc s); first [exact D|discriminate D]|split; [first [exact O|intros Q; specialize (O Q); discriminate O]|split; [exact W|split; [reflexivity|first [exact N|apply NA; discriminate]]]]]).
Qed.
Theorem C470_disable_first_partial : forall prog sch s l, safe_use false prog -> model_run sch (model_new prog) = Some (s, l) -> ~ In EvPureCall l /\ m_aborted s = false.
Proof.
  intros prog sch s l SU H. apply run_new in H. assert (G : safe_inv s l); [|unfold safe_inv in G; tauto]. induction H as [|s tr k s' e R IH K]; [|eapply safe_step; eassumption]. unfold safe_inv, disc. cbn. destruct prog; split; auto; repeat split; auto; try (intros []).
Qed.
Example C470_nonvacuous : safe_use false [MEnable; MInfer; MDisable; MDestroy] /\ ~ safe_use false [MEnable; MInfer; MDestroy].
Proof. split; [reflexivity|discriminate]. Qed.

(** ** C471: every call returns *)
Lemma run_app a b : forall s s1 e1 s2 e2, model_run a s = Some (s1, e1) -> model_run b s1 = Some (s2, e2) -> model_run (a ++ b) s = Some (s2, e1 ++ e2).
Proof.
  induction a as [|k r IH]; intros s s1 e1 s2 e2 A B; cbn [model_run app] in *; [injection A as <- <-; exact B|]. destruct (model_step k s) as [[t f]|]; [|discriminate A]. destruct (model_run r t) as [[u g]|] eqn:Q; [|discriminate A]. injection A as <- <-. rewrite (IH _ _ _ _ _ Q B), app_assoc. reflexivity.
Qed.
Definition waiting (s : mstate) : bool := match m_prog s, m_pc s with MEnable :: _, P2 | MDisable :: _, P2 | MDisable :: _, P3 | MDestroy :: _, P3 => true | _, _ => false end.
Definition told (s : mstate) : Prop := waiting s = true -> exists w, m_sc s = Some (false, w).
Lemma told_reach prog s tr : reach prog s tr -> told s.
Proof.
  induction 1 as [|s tr k s' e R IH K]; [intros Q; destruct prog as [|[] ?]; discriminate Q|]. unfold model_step in K. destruct (m_aborted s); [discriminate K|]. unfold told, waiting in *. destruct k; [unfold owner in K|unfold scrub_thread in K].
  - destruct (m_prog s) as [|[] r] eqn:P; [discriminate K|..]; destruct (m_pc s) eqn:C; try (destruct (m_sc s) as [[b []]|] eqn:S); inversion K; subst; cbn [m_sc m_pc m_prog] in *; rewrite ?P; intros Q; try discriminate Q; try (eexists; reflexivity); try (destruct r as [|[] ?]; discriminate Q).
  - destruct (m_sc s) as [[b []]|] eqn:S; [..|discriminate K|discriminate K]; try (destruct (m_obj s)); inversion K; subst; cbn [m_sc m_pc m_prog] in *; intros Q; destruct (IH Q) as [w W]; injection W as -> _; eexists; reflexivity.
Qed.
Definition pc_left (p : mpc) : nat := match p with P0 => 3 | P1 => 2 | P2 => 1 | P3 => 0 end.
Definition work (s : mstate) : nat := 4 * length (m_prog s) + pc_left (m_pc s).
Lemma join_ends o r pc w : forall ob, exists sch s' l, model_run sch (mkM ob (Some (false, w)) (o :: r) pc false) = Some (s', l) /\ (m_aborted s' = true \/ s' = mkM ob (Some (false, WExit)) (o :: r) pc false).
Proof.
  intros ob. destruct w.
  - exists [Scrubber]. eexists. eexists. split; [reflexivity|]. right; reflexivity.
  - destruct ob; [exists [Scrubber; Scrubber; Scrubber]|exists [Scrubber]|exists [Scrubber]]; eexists; eexists; (split; [reflexivity|]); [right; reflexivity|left; reflexivity|left; reflexivity].
  - exists [Scrubber; Scrubber]. eexists. eexists. split; [reflexivity|]. right; reflexivity.
  - exists []. eexists. eexists. split; [reflexivity|]. right; reflexivity.
Qed.
Lemma onward s : m_aborted s = false -> m_prog s <> [] -> told s -> exists sch s' l, model_run sch s = Some (s', l) /\ (m_aborted s' = true \/ work s' < work s).
Proof.
  intros A N T. destruct s as [ob sc [|o r] pc ab]; cbn [m_aborted m_prog] in *; [congruence|]. subst ab. destruct (waiting (mkM ob sc (o :: r) pc false)) eqn:W.
  - destruct (T W) as [w Q]. cbn [m_sc] in Q. subst sc. destruct (join_ends o r pc w ob) as (sch & s' & l & H & [F|F]); [exists sch, s', l; split; [exact H|left; exact F]|]. subst s'.
    destruct o, pc; try discriminate W; (eexists; eexists; eexists; split; [eapply run_app; [exact H|]; instantiate (3 := [Owner]); reflexivity|right; unfold work; cbn; lia]).
  - destruct o, pc; try discriminate W; try (destruct sc as [[b w]|]); (exists [Owner]; eexists; eexists; split; [reflexivity|right; unfold work; cbn; lia]).
Qed.
Lemma progress n : forall prog s tr, reach prog s tr -> work s <= n -> exists sch s' l, model_run sch s = Some (s', l) /\ (m_prog s' = [] \/ m_aborted s' = true).
Proof.
  induction n as [|n IH]; intros prog s tr R M.
  - exists [], s, []. split; [reflexivity|]. left. unfold work in M. destruct (m_prog s); [reflexivity|cbn in M; lia].
  - destruct (m_aborted s) eqn:A; [exists [], s, []; split; [reflexivity|right; exact A]|]. destruct (m_prog s) as [|o r] eqn:P; [exists [], s, []; split; [reflexivity|left; exact P]|]. destruct (onward s A ltac:(rewrite P; discriminate) (told_reach _ _ _ R)) as (sch & s' & l & H & [F|F]); [exists sch, s', l; split; [exact H|right; exact F]|].
    destruct (IH prog s' (tr ++ l) (run_reach _ _ _ _ _ _ R H) ltac:(lia)) as (sch2 & s2 & l2 & H2 & E2). exists (sch ++ sch2), s2, (l ++ l2). split; [eapply run_app; eassumption|exact E2].
Qed.
(** from every point of every run of a program that disables before it destroys, the remaining calls can all return *)
Theorem C471_no_deadlock : forall prog sch s l, safe_use false prog -> model_run sch (model_new prog) = Some (s, l) ->
  exists more s' l', model_run (sch ++ more) (model_new prog) = Some (s', l ++ l') /\ m_prog s' = [].
Proof.
  intros prog sch s l SU H. destruct (progress _ prog s l (run_new _ _ _ _ H) (le_n _)) as (more & s' & l' & Q & E). exists more, s', l'. pose proof (run_app _ _ _ _ _ _ _ H Q) as W. split; [exact W|]. destruct E as [E|E]; [exact E|]. pose proof (C470_disable_first_partial _ _ _ _ SU W) as [_ B]. congruence.
Qed.
Example C471_nonvacuous : exists s l, safe_use false [MEnable; MEnable; MDisable] /\ model_run [Owner; Owner; Owner; Scrubber; Owner; Owner] (model_new [MEnable; MEnable; MDisable]) = Some (s, l) /\ model_step Owner s = None /\ m_prog s <> [].
Proof. eexists. eexists. split; [exact I|]. split; [reflexivity|]. split; [reflexivity|discriminate]. Qed.

(** ** C472: inference and repair *)
(** nothing keeps a repair out of an inference *)
Theorem C472_exclusive_refuted : exists sch s, model_run sch (model_new [MEnable; MInfer]) = Some (s, [EvCall MEnable; EvDone MEnable; EvCall MInfer; EvRepair; EvDone MInfer]).
Proof. exists [Owner; Owner; Owner; Owner; Scrubber; Scrubber; Owner]. eexists. reflexivity. Qed.
Definition quiet (e : mev) : Prop := e = EvRepair \/ e = EvPureCall.
Lemma quiet_cur l2 : Forall quiet l2 -> forall l1 o, cur (l1 ++ EvCall o :: l2) = Some o.
Proof. induction l2 as [|x r IH] using rev_ind; intros F l1 o; [rewrite cur_app; reflexivity|]. apply Forall_app in F. destruct F as [F1 F2]. inversion F2 as [|? ? Q _]; subst. change (l1 ++ EvCall o :: r ++ [x]) with (l1 ++ (EvCall o :: r) ++ [x]). rewrite app_assoc, cur_app. destruct Q as [->| ->]; apply IH, F1. Qed.
Lemma quiet_wanted l2 : Forall quiet l2 -> forall l1, scrub_wanted (l1 ++ EvCall MInfer :: l2) = scrub_wanted l1.
Proof. induction l2 as [|x r IH] using rev_ind; intros F l1; [rewrite wanted_app; reflexivity|]. apply Forall_app in F. destruct F as [F1 F2]. inversion F2 as [|? ? Q _]; subst. change (l1 ++ EvCall MInfer :: r ++ [x]) with (l1 ++ (EvCall MInfer :: r) ++ [x]). rewrite app_assoc, wanted_app. destruct Q as [->| ->]; apply IH, F1. Qed.
(** what a step may say *)
Lemma step_event k s s' x : model_step k s = Some (s', [x]) -> match x with EvCall _ => head s = None | EvDone o => head s = Some o | _ => True end.
Proof.
  unfold model_step, head. destruct (m_aborted s); [discriminate|]. intros H. destruct k; [unfold owner in H|unfold scrub_thread in H].
  - destruct (m_prog s) as [|[] r] eqn:P; [discriminate H|..]; destruct (m_pc s) eqn:C; try (destruct (m_sc s) as [[b []]|] eqn:S); inversion H; subst; reflexivity.
  - destruct (m_sc s) as [[b []]|]; [..|discriminate H|discriminate H]; try (destruct (m_obj s)); inversion H; subst; exact I.
Qed.
Lemma during prog s tr : reach prog s tr -> forall l1 o l2 l3, tr = l1 ++ EvCall o :: l2 ++ l3 -> ~ In (EvDone o) l2 -> Forall quiet l2.
Proof.
  induction 1 as [|s tr k s' e R IH K]; intros l1 o l2 l3 Q N; [destruct l1; discriminate Q|]. destruct (step_one _ _ _ _ K) as [->|[x ->]]; [rewrite app_nil_r in Q; eapply IH; eassumption|].
  destruct l3 as [|y l3'] using rev_ind.
  - rewrite app_nil_r in Q. destruct (snoc_split _ _ _ _ _ _ Q) as [(-> & _)|(r & -> & T)]; [constructor|]. assert (F : Forall quiet r) by (apply (IH l1 o r []); [rewrite app_nil_r; exact T|intros J; apply N, in_or_app; left; exact J]). apply Forall_app. split; [exact F|]. constructor; [|constructor].
    pose proof (quiet_cur r F l1 o) as CU. rewrite <- T in CU. rewrite (proj1 (proj2 (inv_reach _ _ _ R))) in CU. pose proof (step_event _ _ _ _ K) as SE. destruct x as [o'|o'| |]; [congruence| |left; reflexivity|right; reflexivity]. exfalso. apply N, in_or_app. right. left. congruence.
  - clear IHl3'. assert (T : tr = l1 ++ EvCall o :: l2 ++ l3'). { replace (l1 ++ EvCall o :: l2 ++ l3' ++ [y]) with ((l1 ++ EvCall o :: l2 ++ l3') ++ [y]) in Q by (rewrite <- app_assoc; cbn [app]; rewrite <- app_assoc; reflexivity). apply app_inj_tail in Q. apply Q. } eapply IH; eassumption.
Qed.
(** a repair during an inference was asked for before the inference began: with auto-scrubbing off there is none *)
Theorem C472_off_partial : forall prog sch s l1 l2 l3, model_run sch (model_new prog) = Some (s, l1 ++ EvCall MInfer :: l2 ++ EvRepair :: l3) -> ~ In (EvDone MInfer) l2 -> scrub_wanted l1 = true.
Proof.
  intros prog sch s l1 l2 l3 H N. apply run_new in H. pose proof (during _ _ _ H l1 MInfer l2 _ eq_refl N) as F. rewrite <- (quiet_wanted l2 F l1). apply (repairs_wanted _ _ _ H (l1 ++ EvCall MInfer :: l2) l3). rewrite <- app_assoc. reflexivity.
Qed.
Example C472_nonvacuous : exists s, model_run [Owner; Owner; Owner; Owner; Scrubber; Scrubber; Owner] (model_new [MEnable; MInfer]) = Some (s, [EvCall MEnable; EvDone MEnable] ++ EvCall MInfer :: [] ++ EvRepair :: [EvDone MInfer]).
Proof. eexists. reflexivity. Qed.

Print Assumptions C469_repairs_while_wanted.
Print Assumptions C470_destroy_refuted.
Print Assumptions C470_disable_first_partial.
Print Assumptions C471_no_deadlock.
Print Assumptions C472_exclusive_refuted.
Print Assumptions C472_off_partial.
