(** Histories of calls, executing with an arbitrary accelerator, diagnostics. *)
From Coq Require Import String List NArith ZArith Bool Reals SpecFloat Lia Lra.
Import ListNotations.
From Verif Require Import Outcome Words Floats FloatsR FloatsS HealthFloat Bits_Model PNN_Model Hw_Model Hw_Spec Hw_Proofs Hw2_Proofs.

(** ** the accelerator *)
Lemma acall_inv h : forall a, cfg (acall_run a h) = last_config (cfg a) h /\ errors (acall_run a h) = errors a.
Proof.
  unfold acall_run, last_config. induction h as [|k h IH]; intros a; [split; reflexivity|]. cbn [fold_left]. destruct (IH (acall_step a k)) as [A B]. rewrite A, B. destruct k; split; reflexivity.
Qed.
Lemma atype_eqb_spec x y : atype_eqb x y = true <-> x = y.
Proof. split; [destruct x, y; try reflexivity; discriminate|intros <-; destruct x; reflexivity]. Qed.
Lemma available_spec a : is_available a = true <-> a_type (cfg a) <> NO_ACCEL.
Proof.
  unfold is_available. destruct (atype_eqb (a_type (cfg a)) NO_ACCEL) eqn:K; cbn [negb].
  - apply atype_eqb_spec in K. split; [discriminate|congruence].
  - split; [|reflexivity]. intros _ Q. rewrite Q in K. discriminate.
Qed.
Lemma best_none c : create_best_available c = create_accelerator NO_ACCEL c.
Proof. reflexivity. Qed.

(** ** the integration *)
Lemma base_tmr b (a : accel) input buffer : tmr_execute base_run b a input buffer = Ret (a, buffer, false).
Proof. destruct b; reflexivity. Qed.
Lemma integ_exec i input buffer : integ_execute i input buffer = Ret (i, buffer, false).
Proof. unfold integ_execute. rewrite base_tmr. cbn [obind]. destruct i; reflexivity. Qed.
Lemma icall_inv h : forall i, exists j, icall_run i h = Ret j /\ (cfg (acc j), use_sw j) = fold_left soft_step h (cfg (acc i), use_sw i) /\ errors (acc j) = errors (acc i).
Proof.
  unfold icall_run. induction h as [|k h IH]; intros i; [exists i; repeat split|]. cbn [fold_left].
  assert (K : exists i', icall_step (Ret i) k = Ret i' /\ (cfg (acc i'), use_sw i') = soft_step (cfg (acc i), use_sw i) k /\ errors (acc i') = errors (acc i)).
  { unfold icall_step. cbn [obind]. destruct k as [|x b|b|c]; cbn [soft_step fst snd].
    - eexists. split; [reflexivity|]. unfold integ_initialize. cbn [fst]. destruct (a_tmr (cfg (acc i))); split; reflexivity.
    - rewrite integ_exec. cbn [obind fst]. eexists. split; [reflexivity|]. split; reflexivity.
    - eexists. split; [reflexivity|]. split; reflexivity.
    - eexists. split; [reflexivity|]. split; reflexivity. }
  destruct K as (i' & -> & Q & Z). destruct (IH i') as (j & J & L & M). exists j. split; [exact J|]. rewrite <- Q. split; [exact L|]. congruence.
Qed.
Lemma new_inv c h : exists j, icall_run (integ_new c) h = Ret j /\ (cfg (acc j), use_sw j) = soft_after c h /\ errors (acc j) = 0%N.
Proof. destruct (icall_inv h (integ_new c)) as (j & A & B & D). exists j. split; [exact A|]. split; [exact B|exact D]. Qed.
Definition calm (k : icall) : Prop := match k with ISoft false | IUpdate _ => False | _ => True end.
Lemma calm_soft c h : Forall calm h -> fst (soft_after c h) = with_type NO_ACCEL c /\ (snd (soft_after c h) = true \/ a_tmr c = COMPLETE).
Proof.
  intros F. unfold soft_after. assert (G : forall b, (b = true \/ a_tmr c = COMPLETE) -> fst (fold_left soft_step h (with_type NO_ACCEL c, b)) = with_type NO_ACCEL c /\ (snd (fold_left soft_step h (with_type NO_ACCEL c, b)) = true \/ a_tmr c = COMPLETE)).
  { induction F as [|k h Hk F IH]; intros b Hb; [split; [reflexivity|exact Hb]|]. cbn [fold_left]. destruct k as [|x u|[]|d]; try contradiction; cbn [soft_step fst snd].
    - apply IH. change (a_tmr (with_type NO_ACCEL c)) with (a_tmr c). destruct (a_tmr c); auto.
    - apply IH; exact Hb.
    - apply IH; auto. }
  apply G; auto.
Qed.

(** ** an arbitrary accelerator *)
Section Any.
Context {St : Type}.
Variable run : St -> list N -> list N -> St * list N * bool.
(** the answers of three consecutive runs on zeroed buffers of the caller's size *)
Definition three_runs (s : St) (input buffer : list N) : (list N * bool) * (list N * bool) * (list N * bool) * St :=
  let '(s1, o0, k0) := run s input (repeat 0%N (length buffer)) in
  let '(s2, o1, k1) := run s1 input (repeat 0%N (length buffer)) in
  let '(s3, o2, k2) := run s2 input (repeat 0%N (length buffer)) in ((o0, k0), (o1, k1), (o2, k2), s3).
Lemma exec_three s input buffer o0 k0 o1 k1 o2 k2 s3 : three_runs s input buffer = ((o0, k0), (o1, k1), (o2, k2), s3) ->
  tmr_execute run true s input buffer = if (k0 && k1 && k2)%bool then obind (vote_from o0 o1 o2 0 buffer) (fun v => Ret (s3, v, true)) else Ret (s3, buffer, false).
Proof.
  unfold three_runs, tmr_execute, zeros. cbn [negb]. destruct (run s input (repeat 0%N (length buffer))) as [[s1 p0] q0]. destruct (run s1 input (repeat 0%N (length buffer))) as [[s2 p1] q1].
  destruct (run s2 input (repeat 0%N (length buffer))) as [[s3' p2] q2]. intros H. injection H as -> -> -> -> -> -> ->. destruct (k0 && k1 && k2)%bool; reflexivity.
Qed.
End Any.

Lemma forall2_len (P : N -> N -> Prop) l m : Forall2 P l m -> length l = length m.
Proof. induction 1; cbn; congruence. Qed.
Lemma forall2_nth (P : N -> N -> Prop) l m : length l = length m -> (forall k, (k < length l)%nat -> P (nth k l 0%N) (nth k m 0%N)) -> Forall2 P l m.
Proof.
  revert m. induction l as [|x l IH]; intros [|y m] L H; try discriminate L; constructor.
  - apply (H 0%nat). cbn. lia.
  - apply IH; [cbn in L; lia|]. intros k K. apply (H (S k)). cbn. lia.
Qed.
Lemma forall2_get (P : N -> N -> Prop) l m : Forall2 P l m -> forall k, (k < length l)%nat -> P (nth k l 0%N) (nth k m 0%N).
Proof. induction 1 as [|x y l m H F IH]; intros k K; [cbn in K; lia|]. destruct k as [|k]; [exact H|]. apply IH. cbn in K. lia. Qed.

(** ** diagnostics *)
Fixpoint no_newline (s : string) : bool := match s with EmptyString => true | String c s => negb (Ascii.eqb c (Ascii.ascii_of_nat 10)) && no_newline s end.
Lemma line_inj s : forall t r u, no_newline s = true -> no_newline t = true -> (line s ++ r = line t ++ u)%string -> s = t /\ r = u.
Proof.
  unfold line. induction s as [|a s IH]; intros [|b t] r u Hs Ht H; cbn [append newline] in H; cbn [no_newline] in Hs, Ht.
  - injection H as H. auto.
  - exfalso. injection H as H _. subst b. rewrite Ascii.eqb_refl in Ht. discriminate Ht.
  - exfalso. injection H as H _. subst a. rewrite Ascii.eqb_refl in Hs. discriminate Hs.
  - injection H as -> H. apply andb_prop in Hs as [_ Hs]. apply andb_prop in Ht as [_ Ht]. destruct (IH t r u Hs Ht H) as [-> ->]. auto.
Qed.
Lemma diag_identifies show show_n a b : diagnostics show show_n a = diagnostics show show_n b ->
  a_type (cfg a) = a_type (cfg b) /\ a_ecc (cfg a) = a_ecc (cfg b) /\ a_tmr (cfg a) = a_tmr (cfg b) /\ a_scrub (cfg a) = a_scrub (cfg b).
Proof.
  unfold diagnostics. intros H. apply line_inj in H as [_ H]; [|reflexivity|reflexivity]. apply line_inj in H as [_ H]; [|reflexivity|reflexivity].
  apply line_inj in H as [T H]; [|destruct (a_type (cfg a)); reflexivity|destruct (a_type (cfg b)); reflexivity].
  apply line_inj in H as [C H]; [|destruct (a_ecc (cfg a)); reflexivity|destruct (a_ecc (cfg b)); reflexivity].
  apply line_inj in H as [M H]; [|destruct (a_tmr (cfg a)); reflexivity|destruct (a_tmr (cfg b)); reflexivity].
  apply line_inj in H as [K H]; [|destruct (a_scrub (cfg a)); reflexivity|destruct (a_scrub (cfg b)); reflexivity]. clear H.
  split; [destruct (a_type (cfg a)), (a_type (cfg b)); (reflexivity || discriminate T)|]. split; [destruct (a_ecc (cfg a)), (a_ecc (cfg b)); (reflexivity || discriminate C)|].
  split; [destruct (a_tmr (cfg a)), (a_tmr (cfg b)); (reflexivity || discriminate M)|]. destruct (a_scrub (cfg a)), (a_scrub (cfg b)); (reflexivity || discriminate K).
Qed.
Lemma integ_diag_identifies show show_n i j : integ_diagnostics show show_n i = integ_diagnostics show show_n j ->
  use_sw i = use_sw j /\ diagnostics show show_n (acc i) = diagnostics show show_n (acc j).
Proof.
  unfold integ_diagnostics. intros H. apply line_inj in H as [_ H]; [|reflexivity|reflexivity]. apply line_inj in H as [_ H]; [|reflexivity|reflexivity].
  apply line_inj in H as [_ H]; [|destruct (a_type (cfg (acc i))); reflexivity|destruct (a_type (cfg (acc j))); reflexivity].
  apply line_inj in H as [U H]; [|destruct (use_sw i); reflexivity|destruct (use_sw j); reflexivity].
  split; [destruct (use_sw i), (use_sw j); (reflexivity || discriminate U)|]. apply (line_inj EmptyString EmptyString) in H; [apply H|reflexivity|reflexivity].
Qed.
