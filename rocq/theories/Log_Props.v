(** Properties C473-C475: the logger (core/logger.hpp). *)
From Coq Require Import List Bool Arith Lia.
Import ListNotations.
From Verif Require Import Log_Model.

(** ** what a history of calls says *)
Section Spec.
Context {path msg : Type}.
Variable opens : path -> bool.
Notation call := (lcall path msg).
(** the calls of init, in order *)
Definition inits (h : list call) : list (LogLevel * bool) := flat_map (fun c => match c with LInit l f _ => [(l, f)] | _ => [] end) h.
Definition last_init (h : list call) : LogLevel * bool := last (inits h) (LINFO, false).
(** everything written *)
Definition lines (h : list call) : list (line path msg) := snd (log_run opens logger0 h).
(** some file has been opened and not closed since *)
Definition none_open (h : list call) : Prop := forall a l q b, h = a ++ LInit l true q :: b -> opens q = true -> In LClose b.
(** the first init to ask for a file, since none was open, asked for p *)
Definition opened (h : list call) (p : path) : Prop := exists a l b, h = a ++ LInit l true p :: b /\ opens p = true /\ ~ In LClose b /\ none_open a.

Lemma run_snoc s (h : list call) c : log_run opens s (h ++ [c]) = (fst (lcall_do opens (fst (log_run opens s h)) c), snd (log_run opens s h) ++ snd (lcall_do opens (fst (log_run opens s h)) c)).
Proof.
  revert s. induction h as [|d r IH]; intros s; cbn [app log_run].
  - cbn [fst snd app]. destruct (lcall_do opens s c) as [s1 o1]. cbn [fst snd app]. rewrite app_nil_r. reflexivity.
  - destruct (lcall_do opens s d) as [s1 o1]. rewrite IH. destruct (log_run opens s1 r) as [s2 o2]. cbn [fst snd]. rewrite app_assoc. reflexivity.
Qed.
Definition state (h : list call) : logger path := fst (log_run opens logger0 h).
Lemma state_snoc h c : state (h ++ [c]) = fst (lcall_do opens (state h) c). Proof. unfold state. rewrite run_snoc. reflexivity. Qed.
Lemma lines_snoc h c : lines (h ++ [c]) = lines h ++ snd (lcall_do opens (state h) c). Proof. unfold lines, state. rewrite run_snoc. reflexivity. Qed.
Lemma inits_snoc h c : inits (h ++ [c]) = inits h ++ match c with LInit l f _ => [(l, f)] | _ => [] end.
Proof. unfold inits. rewrite flat_map_app. cbn. rewrite app_nil_r. reflexivity. Qed.
Lemma state_init h : (lg_level (state h), lg_to_file (state h)) = last_init h.
Proof.
  induction h as [|c h IH] using rev_ind; [reflexivity|]. rewrite state_snoc. unfold last_init in *. rewrite inits_snoc. destruct c; cbn [lcall_do fst log_init lg_level lg_to_file log_close]; [rewrite last_last; reflexivity|rewrite app_nil_r; exact IH|rewrite app_nil_r; exact IH].
Qed.
Lemma snoc_mid (A : Type) (h : list A) c a x b : h ++ [c] = a ++ x :: b -> (b = [] /\ c = x /\ h = a) \/ (exists r, b = r ++ [c] /\ h = a ++ x :: r).
Proof.
  intros H. destruct (exists_last (l := x :: b) ltac:(discriminate)) as (r & z & Q). rewrite Q, app_assoc in H. apply app_inj_tail in H. destruct H as [H1 H2]. subst z. destruct r as [|y r'].
  - cbn in Q. injection Q as -> ->. left. rewrite app_nil_r in H1. auto.
  - cbn in Q. injection Q as <- ->. right. exists r'. auto.
Qed.
Lemma stream_ok h : match lg_stream (state h) with Some p => opened h p | None => none_open h end.
Proof.
  induction h as [|c h IH] using rev_ind; [intros a l q b Q; destruct a; discriminate Q|]. rewrite state_snoc. destruct c as [lv f q|lv m|]; cbn [lcall_do fst log_init lg_stream log_close].
  - destruct (lg_stream (state h)) as [p|].
    + destruct IH as (a & l & b & -> & O & N & C). exists a, l, (b ++ [LInit lv f q]). split; [rewrite <- app_assoc; reflexivity|]. split; [exact O|]. split; [|exact C]. intros I. apply in_app_or in I. destruct I as [I|[I|[]]]; [exact (N I)|discriminate I].
    + destruct (f && opens q) eqn:F.
      * apply andb_prop in F. destruct F as [-> O]. exists h, lv, []. split; [reflexivity|]. split; [exact O|]. split; [intros []|exact IH].
      * intros a l q' b Q O. destruct (snoc_mid _ _ _ _ _ _ Q) as [(-> & E & ->)|(r & -> & T)]; [injection E as <- -> ->; rewrite O in F; discriminate F|]. apply in_or_app. left. exact (IH _ _ _ _ T O).
  - destruct (lg_stream (state h)) as [p|].
    + destruct IH as (a & l & b & -> & O & N & C). exists a, l, (b ++ [LLog lv m]). split; [rewrite <- app_assoc; reflexivity|]. split; [exact O|]. split; [|exact C]. intros I. apply in_app_or in I. destruct I as [I|[I|[]]]; [exact (N I)|discriminate I].
    + intros a l q' b Q O. destruct (snoc_mid _ _ _ _ _ _ Q) as [(-> & E & ->)|(r & -> & T)]; [discriminate E|]. apply in_or_app. left. exact (IH _ _ _ _ T O).
  - intros a l q' b Q O. destruct (snoc_mid _ _ _ _ _ _ Q) as [(-> & E & ->)|(r & -> & T)]; [discriminate E|]. apply in_or_app. right. left. reflexivity.
Qed.
Lemma opened_unique h p p' : opened h p -> opened h p' -> p = p'.
Proof.
  intros (a & l & b & H & O & N & C) (a' & l' & b' & H' & O' & N' & C'). rewrite H in H'. clear H h. revert a' H' C'. induction a as [|x a IH]; intros a' H' C'.
  - destruct a' as [|y a']; cbn in H'; [injection H'; congruence|]. injection H' as <- ->. exfalso. pose proof (C' [] _ _ _ eq_refl O) as I. apply N, in_or_app. left. exact I.
  - destruct a' as [|y a']; cbn in H'.
    + injection H' as -> <-. exfalso. pose proof (C [] _ _ _ eq_refl O') as I. apply N', in_or_app. left. exact I.
    + injection H' as <- H'. apply (IH (fun d e q f Q O2 => C (x :: d) e q f (f_equal (cons x) Q) O2) a' H'). intros d e q f Q O2. exact (C' (x :: d) e q f (f_equal (cons x) Q) O2).
Qed.
Lemma opened_stream h p : opened h p <-> lg_stream (state h) = Some p.
Proof.
  pose proof (stream_ok h) as S. split; intros H; [|rewrite H in S; exact S]. destruct (lg_stream (state h)) as [q|]; [f_equal; exact (opened_unique h q p S H)|]. exfalso. destruct H as (a & l & b & Q & O & N & _). exact (N (S _ _ _ _ Q O)).
Qed.
End Spec.

(** ** C473: the console *)
Definition console_of {path msg} (o : list (line path msg)) : list (LogLevel * msg) := flat_map (fun x => match x with Console l m => [(l, m)] | _ => [] end) o.
Theorem C473_console : forall (path msg : Type) (opens : path -> bool) (h : list (lcall path msg)),
  (forall l m, console_of (lines opens (h ++ [LLog l m])) = console_of (lines opens h) ++ (if rank (fst (last_init h)) <=? rank l then [(l, m)] else [])) /\
  (forall l f p, lines opens (h ++ [LInit l f p]) = lines opens h) /\ lines opens (h ++ [LClose]) = lines opens h.
Proof.
  intros path msg opens h. split; [|split; intros; rewrite lines_snoc; cbn; apply app_nil_r]. intros l m. rewrite lines_snoc. unfold console_of. rewrite flat_map_app. f_equal. cbn [lcall_do snd]. rewrite <- (state_init opens h). cbn [fst]. unfold log_log. rewrite Nat.ltb_antisym. destruct (rank (lg_level (state opens h)) <=? rank l); [|reflexivity]. cbn [negb flat_map app]. destruct (lg_to_file (state opens h)); [|reflexivity]. destruct (lg_stream (state opens h)); reflexivity.
Qed.
Example C473_nonvacuous : console_of (lines (fun _ : nat => true) [LLog LDEBUG 1; LLog LINFO 2; LInit LERROR false 0; LLog LWARNING 3; LLog LCRITICAL 4]) = [(LINFO, 2); (LCRITICAL, 4)].
Proof. reflexivity. Qed.

(** ** C474: the file *)
(** asked for file 2 the logger goes on writing to file 1 *)
Theorem C474_asked_file_refuted :
  ~ (forall (path msg : Type) (opens : path -> bool) (h : list (lcall path msg)) l p m, opens p = true -> In (InFile p l m) (lines opens (h ++ [LInit l true p; LLog l m]))) /\
  lines (fun _ : nat => true) [LInit LINFO true 1; LInit LINFO true 2; LLog LINFO 7] = [Console LINFO 7; InFile 1 LINFO 7].
Proof. split; [|reflexivity]. intros H. specialize (H nat nat (fun _ => true) [LInit LINFO true 1] LINFO 2 7 eq_refl). cbn in H. intuition discriminate. Qed.
(** a line goes to a file exactly when it goes to the console, the last init asked for a file, and that file is the one opened first since none was open; it goes there once *)
Theorem C474_opened_file_partial : forall (path msg : Type) (opens : path -> bool) (h : list (lcall path msg)) l m, exists new,
  lines opens (h ++ [LLog l m]) = lines opens h ++ new /\
  (forall p l' m', In (InFile p l' m') new <-> l' = l /\ m' = m /\ rank (fst (last_init h)) <= rank l /\ snd (last_init h) = true /\ opened opens h p) /\ length new <= 2.
Proof.
  intros path msg opens h l m. exists (snd (lcall_do opens (state opens h) (LLog l m))). split; [apply lines_snoc|]. pose proof (state_init opens h) as S. rewrite <- S. cbn [fst snd lcall_do]. clear S. split.
  - intros p l' m'. rewrite opened_stream. unfold log_log. destruct (rank l <? rank (lg_level (state opens h))) eqn:B; [apply Nat.ltb_lt in B; split; [intros []|intros (_ & _ & Q & _); lia]|]. apply Nat.ltb_ge in B. destruct (lg_to_file (state opens h)); [|split; [intros [Q|[]]; discriminate Q|intros (_ & _ & _ & Q & _); discriminate Q]].
    destruct (lg_stream (state opens h)) as [q|]; [|split; [intros [Q|[]]; discriminate Q|intros (_ & _ & _ & _ & Q); discriminate Q]]. split; [intros [Q|[Q|[]]]; [discriminate Q|]; injection Q as -> -> ->; auto|]. intros (-> & -> & _ & _ & Q). injection Q as ->. right. left. reflexivity.
  - unfold log_log. destruct (rank l <? rank (lg_level (state opens h))); [cbn; lia|]. destruct (lg_to_file (state opens h)); [destruct (lg_stream (state opens h))|]; cbn; lia.
Qed.
Example C474_nonvacuous : opened (msg := nat) (fun _ => true) [LInit LINFO true 1; LClose; LInit LINFO true 2] 2 /\ lines (fun _ => true) [LInit LINFO true 1; LClose; LInit LINFO true 2; LLog LINFO 7] = [Console LINFO 7; InFile 2 LINFO 7].
Proof. split; [|reflexivity]. exists [LInit LINFO true 1; LClose], LINFO, []. split; [reflexivity|]. split; [reflexivity|]. split; [intros []|]. intros a l q b Q _. destruct a as [|x [|y [|z a]]]; cbn in Q; injection Q; intros; subst; try discriminate; try (left; reflexivity). Qed.

(** ** C475: threads *)
(** a call of a logging function reads level_ without the mutex while init is about to write it *)
Theorem C475_race_refuted : exists sch (s : tstate nat) i j l m l' r r', trun sch (threads_new LINFO [[TLog LERROR 1]; [TInit LDEBUG]]) = Some s /\ i <> j /\
  nth_error (t_threads s) i = Some (TLog l m :: r, T0) /\ nth_error (t_threads s) j = Some (TInit l' :: r', THeld) /\ t_lock s = Some j.
Proof. exists [1]. eexists. exists 0, 1. do 5 eexists. split; [reflexivity|]. split; [discriminate|]. repeat split; reflexivity. Qed.
Section T.
Context {msg : Type}.
Lemma nth_put (A : Type) (l : list A) i v j : i < length l -> nth_error (put l i v) j = if j =? i then Some v else nth_error l j.
Proof.
  revert i j. induction l as [|x l IH]; intros i j H; [cbn in H; lia|]. destruct i as [|i]; [destruct j as [|j]; reflexivity|]. destruct j as [|j]; [reflexivity|]. change (put (x :: l) (S i) v) with (x :: put l i v). cbn [nth_error Nat.eqb]. apply IH. cbn in H. lia.
Qed.
Definition passing (lv : LogLevel) (p : list (tcall msg)) : list msg := flat_map (fun c => match c with TLog l m => if rank lv <=? rank l then [m] else [] | TInit _ => [] end) p.
Definition of_thread (i : nat) (o : list (nat * msg)) : list msg := flat_map (fun x => if fst x =? i then [snd x] else []) o.
Definition no_init (p : list (tcall msg)) : Prop := forall l, ~ In (TInit l) p.
Definition tinv (lv : LogLevel) (progs : list (list (tcall msg))) (s : tstate msg) : Prop :=
  t_level s = lv /\ length (t_threads s) = length progs /\
  (forall i p pc, nth_error (t_threads s) i = Some (p, pc) -> (pc = THeld \/ pc = TFile -> t_lock s = Some i) /\ (pc <> T0 -> exists l m r, p = TLog l m :: r /\ rank lv <= rank l)) /\
  match t_lock s with None => t_file s = t_console s | Some i => exists l m r, (nth_error (t_threads s) i = Some (TLog l m :: r, THeld) /\ t_file s = t_console s) \/ (nth_error (t_threads s) i = Some (TLog l m :: r, TFile) /\ t_console s = t_file s ++ [(i, m)]) end /\
  (forall i q, nth_error progs i = Some q -> exists d p pc, nth_error (t_threads s) i = Some (p, pc) /\ q = d ++ p /\ of_thread i (t_file s) = passing lv d).
Lemma tinv_step lv progs i s s' : Forall no_init progs -> tstep i s = Some s' -> tinv lv progs s -> tinv lv progs s'.
Proof.
  intros NI H (L & LEN & TH & LK & PR). unfold tstep in H. destruct (nth_error (t_threads s) i) as [[p pc]|] eqn:NT; [|discriminate H]. assert (IB : i < length (t_threads s)) by (apply nth_error_Some; congruence). pose proof (TH i p pc NT) as [TH1 TH2].
  assert (LP : forall v, length (put (t_threads s) i v) = length progs). { intros v. unfold put. rewrite app_length. cbn [length]. rewrite firstn_length, skipn_length. lia. }
  assert (QI : exists q, nth_error progs i = Some q) by (destruct (nth_error progs i) eqn:Q; [eauto|apply nth_error_None in Q; lia]). destruct QI as [q QI]. destruct (PR i q QI) as (d & p' & pc' & E1 & E2 & E3). rewrite NT in E1. injection E1 as <- <-.
  assert (NO : forall l r, p <> TInit l :: r). { intros l r Q. rewrite Forall_forall in NI. apply (NI q (nth_error_In _ _ QI) l). rewrite E2, Q. apply in_or_app. right. left. reflexivity. }
  destruct p as [|[l m|l] r]; [discriminate H| |exfalso; eapply NO; reflexivity]. destruct pc.
  - injection H as <-. destruct (rank l <? rank (t_level s)) eqn:B; unfold tinv; cbn [t_level t_lock t_console t_file t_threads].
    + split; [exact L|]. split; [apply LP|]. split; [|split].
      * intros j p2 pc2 Q. rewrite nth_put in Q by exact IB. destruct (j =? i); [injection Q as <- <-; split; [intros [X|X]; discriminate X|congruence]|exact (TH j p2 pc2 Q)].
      * destruct (t_lock s) as [j|] eqn:K; [|exact LK]. destruct LK as (l2 & m2 & r2 & LK). exists l2, m2, r2. rewrite nth_put by exact IB. destruct (j =? i) eqn:JI; [|exact LK]. apply Nat.eqb_eq in JI. subst j. rewrite NT in LK. destruct LK as [[X _]|[X _]]; discriminate X.
      * intros j q2 Q2. destruct (PR j q2 Q2) as (d2 & p2 & pc2 & F1 & F2 & F3). rewrite nth_put by exact IB. destruct (j =? i) eqn:JI; [|exists d2, p2, pc2; auto]. apply Nat.eqb_eq in JI. subst j. rewrite NT in F1. injection F1 as <- <-. exists (d2 ++ [TLog l m]), r, T0. split; [reflexivity|]. split; [rewrite <- app_assoc; exact F2|]. unfold passing in *. rewrite flat_map_app, <- F3. cbn. rewrite L in B. apply Nat.ltb_lt in B. destruct (rank lv <=? rank l) eqn:X; [apply Nat.leb_le in X; lia|]. cbn. rewrite app_nil_r. reflexivity.
    + split; [exact L|]. split; [apply LP|]. split; [|split].
      * intros j p2 pc2 Q. rewrite nth_put in Q by exact IB. destruct (j =? i); [injection Q as <- <-; split; [intros [X|X]; discriminate X|]|exact (TH j p2 pc2 Q)]. intros _. exists l, m, r. split; [reflexivity|]. apply Nat.ltb_ge in B. rewrite L in B. exact B.
      * destruct (t_lock s) as [j|] eqn:K; [|exact LK]. destruct LK as (l2 & m2 & r2 & LK). exists l2, m2, r2. rewrite nth_put by exact IB. destruct (j =? i) eqn:JI; [|exact LK]. apply Nat.eqb_eq in JI. subst j. rewrite NT in LK. destruct LK as [[X _]|[X _]]; discriminate X.
      * intros j q2 Q2. destruct (PR j q2 Q2) as (d2 & p2 & pc2 & F1 & F2 & F3). rewrite nth_put by exact IB. destruct (j =? i) eqn:JI; [|exists d2, p2, pc2; auto]. apply Nat.eqb_eq in JI. subst j. rewrite NT in F1. injection F1 as <- <-. exists d2. eexists. eexists. split; [reflexivity|]. auto.
  - destruct (t_lock s) as [j0|] eqn:K; [discriminate H|]. injection H as <-. unfold tinv; cbn [t_level t_lock t_console t_file t_threads]. split; [exact L|]. split; [apply LP|]. split; [|split].
    + intros j p2 pc2 Q. rewrite nth_put in Q by exact IB. destruct (j =? i) eqn:JI; [injection Q as <- <-; split; [intros _; f_equal; apply Nat.eqb_eq in JI; congruence|]; intros _; apply TH2; discriminate|]. destruct (TH j p2 pc2 Q) as [T1 T2]. split; [|exact T2]. intros X. specialize (T1 X). discriminate T1.
    + exists l, m, r. left. rewrite nth_put, Nat.eqb_refl by exact IB. split; [reflexivity|exact LK].
    + intros j q2 Q2. destruct (PR j q2 Q2) as (d2 & p2 & pc2 & F1 & F2 & F3). rewrite nth_put by exact IB. destruct (j =? i) eqn:JI; [|exists d2, p2, pc2; auto]. apply Nat.eqb_eq in JI. subst j. rewrite NT in F1. injection F1 as <- <-. exists d2. eexists. eexists. split; [reflexivity|]. auto.
  - injection H as <-. specialize (TH1 (or_introl eq_refl)). rewrite TH1 in LK. destruct LK as (l2 & m2 & r2 & [[X LK]|[X _]]); rewrite NT in X; [|discriminate X]. injection X as <- <- <-. unfold tinv; cbn [t_level t_lock t_console t_file t_threads]. split; [exact L|]. split; [apply LP|]. split; [|split].
    + intros j p2 pc2 Q. rewrite nth_put in Q by exact IB. destruct (j =? i) eqn:JI; [injection Q as <- <-; apply Nat.eqb_eq in JI; subst j; split; [intros _; exact TH1|]; intros _; apply TH2; discriminate|]. exact (TH j p2 pc2 Q).
    + rewrite TH1. exists l, m, r. right. rewrite nth_put, Nat.eqb_refl by exact IB. split; [reflexivity|]. rewrite LK. reflexivity.
    + intros j q2 Q2. destruct (PR j q2 Q2) as (d2 & p2 & pc2 & F1 & F2 & F3). rewrite nth_put by exact IB. destruct (j =? i) eqn:JI; [|exists d2, p2, pc2; auto]. apply Nat.eqb_eq in JI. subst j. rewrite NT in F1. injection F1 as <- <-. exists d2. eexists. eexists. split; [reflexivity|]. auto.
  - injection H as <-. specialize (TH1 (or_intror eq_refl)). rewrite TH1 in LK. destruct LK as (l2 & m2 & r2 & [[X _]|[X LK]]); rewrite NT in X; [discriminate X|]. injection X as <- <- <-. destruct (TH2 ltac:(discriminate)) as (l3 & m3 & r3 & Y & RK). injection Y as <- <- <-. unfold tinv; cbn [t_level t_lock t_console t_file t_threads]. split; [exact L|]. split; [apply LP|]. split; [|split].
    + intros j p2 pc2 Q. rewrite nth_put in Q by exact IB. destruct (j =? i) eqn:JI; [injection Q as <- <-; split; [intros [Z|Z]; discriminate Z|congruence]|]. destruct (TH j p2 pc2 Q) as [T1 T2]. split; [|exact T2]. intros Z. specialize (T1 Z). rewrite TH1 in T1. injection T1 as T1. apply Nat.eqb_neq in JI. congruence.
    + symmetry. exact LK.
    + intros j q2 Q2. destruct (PR j q2 Q2) as (d2 & p2 & pc2 & F1 & F2 & F3). rewrite nth_put by exact IB. unfold of_thread in *. rewrite flat_map_app. cbn [flat_map fst snd app]. rewrite (Nat.eqb_sym i j). destruct (j =? i) eqn:JI; [|exists d2, p2, pc2; cbn [app]; rewrite app_nil_r; auto]. apply Nat.eqb_eq in JI. subst j. rewrite NT in F1. injection F1 as <- <-. exists (d2 ++ [TLog l m]), r, T0. split; [reflexivity|]. split; [rewrite <- app_assoc; exact F2|]. unfold passing in *. rewrite flat_map_app, <- F3. cbn. apply Nat.leb_le in RK. rewrite RK. reflexivity.
Qed.
Lemma tinv_run lv progs sch : Forall no_init progs -> forall s s', tinv lv progs s -> trun sch s = Some s' -> tinv lv progs s'.
Proof. intros NI. induction sch as [|i r IH]; intros s s' V H; cbn [trun] in H; [injection H as <-; exact V|]. destruct (tstep i s) as [s1|] eqn:T; [|discriminate H]. eapply IH; [|exact H]. eapply tinv_step; eassumption. Qed.
Lemma tinv_new lv progs : tinv lv progs (threads_new lv progs).
Proof.
  unfold tinv, threads_new. cbn [t_level t_lock t_console t_file t_threads]. split; [reflexivity|]. split; [apply map_length|]. split; [|split; [reflexivity|]].
  - intros i p pc Q. rewrite nth_error_map in Q. destruct (nth_error progs i); [|discriminate Q]. injection Q as <- <-. split; [intros [X|X]; discriminate X|congruence].
  - intros i q Q. exists [], q, T0. rewrite nth_error_map, Q. repeat split; reflexivity.
Qed.
End T.
(** threads that only log: in every schedule, whenever no line is being written file and console agree line by line, and once every thread is through the file holds for each thread exactly the messages it logged at or above the level, in its order *)
Theorem C475_log_only_partial : forall (msg : Type) lv (progs : list (list (tcall msg))) sch s, Forall no_init progs -> trun sch (threads_new lv progs) = Some s ->
  (t_lock s = None -> t_file s = t_console s) /\
  (forall i q, nth_error progs i = Some q -> exists d p pc, nth_error (t_threads s) i = Some (p, pc) /\ q = d ++ p /\ of_thread i (t_file s) = passing lv d).
Proof. intros msg lv progs sch s NI H. pose proof (tinv_run lv progs sch NI _ _ (tinv_new lv progs) H) as (_ & _ & _ & LK & PR). split; [|exact PR]. intros K. rewrite K in LK. exact LK. Qed.
Example C475_nonvacuous : exists s, Forall no_init [[TLog LERROR 1; TLog LDEBUG 5]; [TLog LINFO 2]] /\ trun [0; 1; 1; 1; 1; 0; 0; 0; 0] (threads_new LINFO [[TLog LERROR 1; TLog LDEBUG 5]; [TLog LINFO 2]]) = Some s /\ t_file s = [(1, 2); (0, 1)] /\ t_threads s = [([], T0); ([], T0)].
Proof. eexists. split; [repeat constructor; intros l I; cbn in I; intuition discriminate|]. split; [vm_compute; reflexivity|]. split; reflexivity. Qed.

(** any programs, init included: whoever holds the mutex is inside a call, and nobody else is *)
Definition ginv {msg : Type} (s : tstate msg) : Prop :=
  (forall i p pc, nth_error (t_threads s) i = Some (p, pc) -> (pc = THeld \/ pc = TFile -> t_lock s = Some i) /\ (pc = TWait \/ pc = TFile -> exists l m r, p = TLog l m :: r)) /\
  match t_lock s with None => t_file s = t_console s
  | Some i => exists c r, (nth_error (t_threads s) i = Some (c :: r, THeld) /\ t_file s = t_console s) \/ (exists l m, c = TLog l m /\ nth_error (t_threads s) i = Some (c :: r, TFile) /\ t_console s = t_file s ++ [(i, m)]) end.
Lemma ginv_step (msg : Type) i (s s' : tstate msg) : tstep i s = Some s' -> ginv s -> ginv s'.
Proof.
  intros H (TH & LK). unfold tstep in H. destruct (nth_error (t_threads s) i) as [[p pc]|] eqn:NT; [|discriminate H]. assert (IB : i < length (t_threads s)) by (apply nth_error_Some; congruence). pose proof (TH i p pc NT) as [TH1 TH2].
  assert (KEEP : forall q pc', pc = T0 \/ pc = TWait -> pc' = T0 \/ (pc' = TWait /\ exists l m r, q = TLog l m :: r) -> ginv (mkT (t_level s) (t_lock s) (t_console s) (t_file s) (put (t_threads s) i (q, pc')))).
  { intros q pc' HP HQ. unfold ginv; cbn [t_level t_lock t_console t_file t_threads]. split.
    - intros j p2 pc2 Q. rewrite nth_put in Q by exact IB. destruct (j =? i); [|exact (TH j p2 pc2 Q)]. injection Q as <- <-. destruct HQ as [->|[-> E]]; (split; [intros [X|X]; discriminate X|]); [intros [X|X]; discriminate X|intros _; exact E].
    - destruct (t_lock s) as [j|]; [|exact LK]. destruct LK as (c & r & LK). exists c, r. rewrite nth_put by exact IB. destruct (j =? i) eqn:JI; [|exact LK]. apply Nat.eqb_eq in JI. subst j. exfalso. rewrite NT in LK. destruct LK as [[X _]|(? & ? & _ & X & _)]; injection X as _ X; subst pc; destruct HP as [HP|HP]; discriminate HP. }
  assert (TAKE : forall c r, t_lock s = None -> ginv (mkT (t_level s) (Some i) (t_console s) (t_file s) (put (t_threads s) i (c :: r, THeld)))).
  { intros c r K. rewrite K in LK. unfold ginv; cbn [t_level t_lock t_console t_file t_threads]. split.
    - intros j p2 pc2 Q. rewrite nth_put in Q by exact IB. destruct (j =? i) eqn:JI; [apply Nat.eqb_eq in JI; subst j; injection Q as <- <-; split; [reflexivity|intros [X|X]; discriminate X]|]. destruct (TH j p2 pc2 Q) as [T1 T2]. split; [intros X; specialize (T1 X); congruence|exact T2].
    - exists c, r. left. rewrite nth_put, Nat.eqb_refl by exact IB. split; [reflexivity|exact LK]. }
  assert (FREE : forall lv c o q, t_lock s = Some i -> c = o -> ginv (mkT lv None c o (put (t_threads s) i (q, T0)))).
  { intros lv c o q K E. unfold ginv; cbn [t_level t_lock t_console t_file t_threads]. split; [|congruence]. intros j p2 pc2 Q. rewrite nth_put in Q by exact IB. destruct (j =? i) eqn:JI; [injection Q as <- <-; split; intros [X|X]; discriminate X|]. destruct (TH j p2 pc2 Q) as [T1 T2]. split; [|exact T2]. intros X. specialize (T1 X). apply Nat.eqb_neq in JI. congruence. }
  destruct p as [|[l m|l] r]; [discriminate H| |].
  - destruct pc.
    + injection H as <-. destruct (rank l <? rank (t_level s)); apply KEEP; eauto 8.
    + destruct (t_lock s) eqn:K; [discriminate H|]. injection H as <-. apply TAKE. reflexivity.
    + injection H as <-. specialize (TH1 (or_introl eq_refl)). rewrite TH1 in LK. destruct LK as (c & r2 & [[X LK]|(? & ? & _ & X & _)]); rewrite NT in X; [|discriminate X]. unfold ginv; cbn [t_level t_lock t_console t_file t_threads]. rewrite TH1. split.
      * intros j p2 pc2 Q. rewrite nth_put in Q by exact IB. destruct (j =? i) eqn:JI; [apply Nat.eqb_eq in JI; subst j; injection Q as <- <-; split; [reflexivity|intros _; eauto]|]. rewrite <- TH1. exact (TH j p2 pc2 Q).
      * exists (TLog l m), r. right. exists l, m. split; [reflexivity|]. rewrite nth_put, Nat.eqb_refl by exact IB. split; [reflexivity|]. rewrite LK. reflexivity.
    + injection H as <-. specialize (TH1 (or_intror eq_refl)). rewrite TH1 in LK. destruct LK as (c & r2 & [[X _]|(l2 & m2 & E & X & LK)]); rewrite NT in X; [discriminate X|]. injection X as X _. rewrite E in X. injection X as <- <-. apply FREE; [exact TH1|exact LK].
  - destruct pc; try (exfalso; destruct TH2 as (? & ? & ? & X); [solve [auto]|discriminate X]).
    + destruct (t_lock s) eqn:K; [discriminate H|]. injection H as <-. apply TAKE. reflexivity.
    + injection H as <-. specialize (TH1 (or_introl eq_refl)). apply FREE; [exact TH1|]. rewrite TH1 in LK. destruct LK as (c & r2 & [[X LK]|(? & ? & _ & X & _)]); rewrite NT in X; [congruence|discriminate X].
Qed.
Lemma ginv_run (msg : Type) sch : forall s s' : tstate msg, ginv s -> trun sch s = Some s' -> ginv s'.
Proof. induction sch as [|i r IH]; intros s s' V H; cbn [trun] in H; [injection H as <-; exact V|]. destruct (tstep i s) as [s1|] eqn:T; [|discriminate H]. eapply IH; [|exact H]. eapply ginv_step; eassumption. Qed.
Lemma ginv_new (msg : Type) lv (progs : list (list (tcall msg))) : ginv (threads_new lv progs).
Proof. split; [|reflexivity]. intros i p pc Q. unfold threads_new in Q. cbn [t_threads] in Q. rewrite nth_error_map in Q. destruct (nth_error progs i); [|discriminate Q]. injection Q as <- <-. split; intros [X|X]; discriminate X. Qed.
(** any programs, init included, in every schedule: the file is never more than one line behind the console and agrees with it whenever the mutex is free; and the threads never deadlock *)
Theorem C475_any_threads_partial : forall (msg : Type) lv (progs : list (list (tcall msg))) sch s, trun sch (threads_new lv progs) = Some s ->
  (t_lock s = None -> t_file s = t_console s) /\ (exists c, t_console s = t_file s ++ c /\ length c <= 1) /\ ((exists i p pc, nth_error (t_threads s) i = Some (p, pc) /\ p <> []) -> exists j s', tstep j s = Some s').
Proof.
  intros msg lv progs sch s H. pose proof (ginv_run msg sch _ _ (ginv_new msg lv progs) H) as (TH & LK). split; [intros K; rewrite K in LK; exact LK|]. split.
  - destruct (t_lock s) as [i|]; [|exists []; rewrite app_nil_r, LK; auto]. destruct LK as (c & r & [[_ E]|(l & m & _ & _ & E)]); [exists []; rewrite app_nil_r, E; auto|exists [(i, m)]; auto].
  - intros (i & p & pc & NT & NE). destruct (t_lock s) as [j|] eqn:K.
    + destruct LK as (c & r & [[X _]|(l & m & -> & X & _)]); exists j; unfold tstep; rewrite X; [destruct c|]; eexists; reflexivity.
    + exists i. unfold tstep. rewrite NT, K. destruct (TH i p pc NT) as [T1 _]. destruct p as [|[l m|l] r]; [congruence| |]; destruct pc; eexists; reflexivity.
Qed.
Example C475_any_nonvacuous : exists s, trun [0; 1; 0; 0; 0; 1; 1] (threads_new LINFO [[TLog LINFO 1]; [TLog LDEBUG 5; TInit LERROR]]) = Some s /\ t_file s = [(0, 1)] /\ t_level s = LERROR.
Proof. eexists. split; [vm_compute; reflexivity|]. split; reflexivity. Qed.

Print Assumptions C475_any_threads_partial.
Print Assumptions C473_console.
Print Assumptions C474_asked_file_refuted.
Print Assumptions C474_opened_file_partial.
Print Assumptions C475_race_refuted.
Print Assumptions C475_log_only_partial.
