(** getPatternDistribution with no other thread running; independence of objects. *)
From Coq Require Import String List NArith ZArith Bool Lia SpecFloat Reals Lra.
Import ListNotations.
From Flocq Require Import Core.
From Flocq.IEEE754 Require Import BinarySingleNaN.
From Verif Require Import Outcome Words Floats FloatsR FloatsS Tracker_Model Tracker_Spec Tracker_Proofs Tracker2_Proofs.
Local Arguments N.add : simpl never.
Local Arguments N.pow : simpl never.
Local Arguments N.modulo : simpl never.

Lemma R_one : oks (sofZ 1) /\ R (sofZ 1) = 1%R.
Proof. split; [split; reflexivity|]. vm_compute sofZ. unfold R, SF2R, F2R. simpl. lra. Qed.
Lemma frac_ok a b : (a <= b)%N -> (0 < b < 2 ^ 64)%N ->
  let x := sdiv (sofZ (Z.of_N a)) (sofZ (Z.of_N b)) in fle zero_s x = true /\ fle x (sofZ 1) = true.
Proof.
  intros H Hb x. change (2 ^ 64)%N with 18446744073709551616%N in Hb.
  assert (Ha' : (Z.abs (Z.of_N a) <= 2 ^ 64)%Z) by (change (2 ^ 64)%Z with 18446744073709551616%Z; lia).
  assert (Hb' : (Z.abs (Z.of_N b) <= 2 ^ 64)%Z) by (change (2 ^ 64)%Z with 18446744073709551616%Z; lia).
  destruct (ofZ_s _ Ha') as [Oa _]. destruct (ofZ_s _ Hb') as [Ob _].
  pose proof (ofZ_s_mono (Z.of_N a) (Z.of_N b) Ha' Hb' ltac:(lia)) as M.
  pose proof (ofZ_s_mono 1 (Z.of_N b) ltac:(change (2 ^ 64)%Z with 18446744073709551616%Z; lia) Hb' ltac:(lia)) as M1.
  rewrite (proj2 R_one) in M1.
  pose proof (ofZ_s_mono 0 (Z.of_N a) ltac:(change (2 ^ 64)%Z with 18446744073709551616%Z; lia) Ha' ltac:(lia)) as M0.
  change (R (sofZ 0)) with 0%R in M0.
  assert (0 <= R (sofZ (Z.of_N a)) / R (sofZ (Z.of_N b)) <= 1)%R as B.
  { split; [apply Rmult_le_pos; [lra|left; apply Rinv_0_lt_compat; lra]|].
    apply (Rmult_le_reg_r (R (sofZ (Z.of_N b)))); [lra|]. unfold Rdiv. rewrite Rmult_assoc, Rinv_l by lra. lra. }
  destruct (div_s _ _ Oa Ob) as [Od Ed]; [lra|apply mids_small; lra|].
  fold x in Od, Ed. split.
  - apply fle_s; [apply R_zero|exact Od|]. rewrite (proj2 R_zero), Ed. apply rnd_pos. lra.
  - apply fle_s; [exact Od|apply R_one|]. rewrite Ed. apply rnd32_le; [apply R_one|]. rewrite (proj2 R_one). lra.
Qed.
Lemma filter_len_le {A} (f g : A -> bool) l : (forall x, f x = true -> g x = true) -> length (filter f l) <= length (filter g l).
Proof.
  intros H. induction l as [|a l IH]; simpl; [lia|]. destruct (f a) eqn:E.
  - rewrite (H a E). simpl. lia. - destruct (g a); simpl; lia.
Qed.
Lemma with_le_on t p progs : (how_many (errors_with t p) progs <= how_many (errors_on t) progs)%N.
Proof.
  unfold how_many. pose proof (filter_len_le (errors_with t p) (errors_on t) (concat progs)) as H.
  assert (forall x, errors_with t p x = true -> errors_on t x = true) as K.
  { intros x. destruct x; simpl; try discriminate. intros E. apply andb_prop in E. tauto. }
  specialize (H K). lia.
Qed.

Theorem distribution_quiescent progs sch c ev t : never_reset t progs -> run sch (start progs) = Some (c, ev) -> finished c ->
  (how_many (errors_on t) progs < 2 ^ 64)%N ->
  exists n c' l, run (repeat (0, 0%Z) n) (only (wld c) (PatternDistribution t)) = Some (c', [(0, EvRet (PatternDistribution t) (RDist l))]) /\
    finished c' /\ wld c' = wld c /\ length l = 6 /\ Forall in_unit l.
Proof.
  intros Hr Rn F Hs. destruct (tracker_exact _ _ _ _ _ Hr Rn F) as (T1 & T2 & _ & _).
  pose proof (i_len _ _ _ _ (inv_run _ _ _ _ _ Hr Rn)) as Hl.
  rewrite N.mod_small in T1 by exact Hs. unfold getTotalErrorCount in T1.
  assert (Hp : forall p, p < 6 -> (nth p (pats (trk (wld c) t)) 0 <= cnt (trk (wld c) t))%N).
  { intros p Hp. specialize (T2 p Hp). unfold getPatternCount in T2. rewrite Hl, (proj2 (Nat.ltb_lt p 6)) in T2 by exact Hp.
    pose proof (with_le_on t p progs). rewrite N.mod_small in T2 by lia. lia. }
  unfold only. destruct (N.eqb (cnt (trk (wld c) t)) 0) eqn:E.
  - exists 1. cbn. rewrite E. eexists _, _. split; [reflexivity|]. split; [|split; [reflexivity|split; [reflexivity|]]].
    + intros th H. simpl in H. intuition.
    + repeat constructor; reflexivity.
  - exists 8. cbn -[sdiv sofZ nth Nat.ltb length]. rewrite E.
    repeat (rewrite ?Hl; cbn -[sdiv sofZ nth length]).
    eexists _, _. split; [reflexivity|]. split; [|split; [reflexivity|split; [reflexivity|]]].
    + intros th H. simpl in H. intuition.
    + apply N.eqb_neq in E. repeat constructor; apply frac_ok; auto; try (apply Hp; lia); lia.
Qed.

(** counts and history lengths of an object depend only on the calls on it *)
Theorem counts_independent progs1 sch1 c1 ev1 progs2 sch2 c2 ev2 t :
  never_reset t progs1 -> never_reset t progs2 ->
  run sch1 (start progs1) = Some (c1, ev1) -> finished c1 -> run sch2 (start progs2) = Some (c2, ev2) -> finished c2 ->
  filter (errors_on t) (concat progs1) = filter (errors_on t) (concat progs2) ->
  getTotalErrorCount (trk (wld c1) t) = getTotalErrorCount (trk (wld c2) t) /\
  forall p, p < 6 -> getPatternCount (trk (wld c1) t) p = getPatternCount (trk (wld c2) t) p.
Proof.
  intros H1 H2 R1 F1 R2 F2 E.
  destruct (tracker_exact _ _ _ _ _ H1 R1 F1) as (A1 & A2 & _ & _).
  destruct (tracker_exact _ _ _ _ _ H2 R2 F2) as (B1 & B2 & _ & _).
  assert (W : forall p l, filter (errors_with t p) l = filter (errors_with t p) (filter (errors_on t) l)).
  { intros p l. induction l as [|a l IH]; simpl; [reflexivity|].
    destruct (errors_on t a) eqn:Ea; simpl.
    - destruct (errors_with t p a); rewrite IH; reflexivity.
    - replace (errors_with t p a) with false; [exact IH|]. destruct a; simpl in *; try reflexivity. rewrite Ea. reflexivity. }
  split.
  - rewrite A1, B1. unfold how_many. rewrite E. reflexivity.
  - intros p Hp. rewrite (A2 p Hp), (B2 p Hp). unfold how_many. rewrite (W p (concat progs1)), (W p (concat progs2)), E. reflexivity.
Qed.
(* a run in which a call is made *)
