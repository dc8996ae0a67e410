(** Proofs about the interleaving model of RadiationErrorTracker. *)
From Coq Require Import String List NArith ZArith Bool Lia SpecFloat.
Import ListNotations.
From Verif Require Import Outcome Words Floats Tracker_Model Tracker_Spec.

Local Arguments N.add : simpl never.
Local Arguments N.mul : simpl never.
Local Arguments N.pow : simpl never.
Local Arguments N.modulo : simpl never.
Local Arguments N.to_nat : simpl never.
Local Arguments lastn : simpl never.
Local Opaque max_history_size.

(** *** Sums over all pending calls *)
Fixpoint sumf {A} (f : A -> N) (l : list A) : N := match l with [] => 0%N | x :: r => (f x + sumf f r)%N end.
Lemma sumf_app {A} (f : A -> N) l1 l2 : sumf f (l1 ++ l2) = (sumf f l1 + sumf f l2)%N.
Proof. induction l1; simpl; lia. Qed.
Definition total (f : call * pc -> N) (ts : list thread) : N := sumf (sumf f) ts.

Lemma nth_error_split' {A} (l : list A) i x : nth_error l i = Some x ->
  l = firstn i l ++ x :: skipn (S i) l.
Proof.
  revert i. induction l as [|a l IH]; intros [|i] H; simpl in *; try discriminate.
  - congruence.
  - f_equal. apply IH. exact H.
Qed.
Definition done_zero (f : call * pc -> N) : Prop := forall c, f (c, PDone) = 0%N.
Lemma step_total i now c c' ev : step i now c = Some (c', ev) ->
  exists cl p rest w' p' e, nth_error (ths c) i = Some ((cl, p) :: rest) /\
    act cl p now (wld c) = Some (w', p', e) /\ ev = map (pair i) e /\ wld c' = w' /\
    ths c' = set_nth (ths c) i (match p' with PDone => rest | _ => (cl, p') :: rest end) /\
    (forall f, (f (cl, p) <= total f (ths c))%N) /\
    forall f, done_zero f -> (total f (ths c') + f (cl, p) = total f (ths c) + f (cl, p'))%N.
Proof.
  unfold step. destruct (nth_error (ths c) i) as [[|[cl p] rest]|] eqn:E; try discriminate.
  destruct (act cl p now (wld c)) as [[[w' p'] e]|] eqn:A; try discriminate.
  intros H. injection H as <- <-. exists cl, p, rest, w', p', e. repeat (split; [reflexivity||assumption|]).
  split. { intros f. unfold total. rewrite (nth_error_split' _ _ _ E), sumf_app. simpl. lia. }
  intros f Hd. simpl. unfold total. rewrite (nth_error_split' _ _ _ E) at 2. unfold set_nth.
  rewrite !sumf_app. simpl. pose proof (Hd cl).
  destruct p'; simpl; lia.
Qed.

(** *** Arrays of counters *)
Lemma nth_map_combine {A} (l : list A) d (g : nat -> A -> A) i k :
  nth i (map (fun '(j, x) => g j x) (combine (seq k (length l)) l)) d = if Nat.ltb i (length l) then g (k + i) (nth i l d) else d.
Proof.
  revert i k. induction l as [|a l IH]; intros i k; simpl.
  - destruct i; reflexivity.
  - destruct i; simpl.
    + rewrite Nat.add_0_r. reflexivity.
    + rewrite IH. replace (S k + i) with (k + S i) by lia. reflexivity.
Qed.
Lemma len_map_combine {A} (l : list A) (g : nat -> A -> A) k : length (map (fun '(j, x) => g j x) (combine (seq k (length l)) l)) = length l.
Proof. rewrite map_length, combine_length, seq_length. lia. Qed.
Lemma nth_add_len l i : length (nth_add l i) = length l.
Proof. apply (len_map_combine l (fun j x => if Nat.eqb j i then (x + 1) mod 2 ^ 64 else x)%N). Qed.
Lemma nth_add_nth l i j : nth j (nth_add l i) 0%N =
  (if Nat.eqb j i && Nat.ltb j (length l) then (nth j l 0 + 1) mod 2 ^ 64 else nth j l 0)%N.
Proof.
  unfold nth_add. rewrite (nth_map_combine l 0%N (fun j x => if Nat.eqb j i then (x + 1) mod 2 ^ 64 else x)%N).
  simpl. destruct (Nat.ltb_spec j (length l)) as [H|H].
  - destruct (Nat.eqb j i); reflexivity.
  - rewrite andb_false_r. rewrite nth_overflow by lia. reflexivity.
Qed.
Lemma nth_zero_len l i : length (nth_zero l i) = length l.
Proof. apply (len_map_combine l (fun j x => if Nat.eqb j i then 0 else x)%N). Qed.
Lemma nth_zero_nth l i j : nth j (nth_zero l i) 0%N = if Nat.eqb j i then 0%N else nth j l 0%N.
Proof.
  unfold nth_zero. rewrite (nth_map_combine l 0%N (fun j x => if Nat.eqb j i then 0 else x)%N).
  simpl. destruct (Nat.ltb_spec j (length l)) as [H|H]; [reflexivity|].
  rewrite nth_overflow by lia. destruct (Nat.eqb j i); reflexivity.
Qed.

(** *** lastn *)
Lemma lastn_all {A} n (l : list A) : length l <= n -> lastn n l = l.
Proof. intros H. unfold lastn. replace (length l - n) with 0 by lia. reflexivity. Qed.
Lemma lastn_len {A} n (l : list A) : length (lastn n l) = Nat.min n (length l).
Proof. unfold lastn. rewrite skipn_length. lia. Qed.
Lemma lastn_app1 {A} n (l : list A) x : lastn (S n) (l ++ [x]) = lastn n l ++ [x].
Proof.
  unfold lastn. rewrite app_length. simpl. replace (length l + 1 - S n) with (length l - n) by lia.
  rewrite skipn_app. replace (length l - n - length l) with 0 by lia. reflexivity.
Qed.
Lemma tl_skipn {A} k (l : list A) : tl (skipn k l) = skipn (S k) l.
Proof. revert l. induction k; intros [|a l]; try reflexivity. simpl in *. rewrite IHk. reflexivity. Qed.
Lemma lastn_tl {A} n (l : list A) : n < length l -> tl (lastn (S n) l) = lastn n l.
Proof. intros H. unfold lastn. rewrite tl_skipn. f_equal. lia. Qed.
Lemma lastn_same {A} n (l : list A) : length l <= n -> lastn (S n) l = lastn n l.
Proof. intros H. rewrite !lastn_all by lia. reflexivity. Qed.
Lemma skipn_min {A} k (l : list A) : skipn (length l - Nat.min k (length l)) l = lastn k l.
Proof. unfold lastn. destruct (Nat.le_ge_cases k (length l)); [rewrite Nat.min_l by lia|rewrite Nat.min_r by lia]; [reflexivity|].
  replace (length l - length l) with 0 by lia. replace (length l - k) with 0 by lia. reflexivity. Qed.

(** *** The invariant for one object *)
Definition pend_cnt t (x : call * pc) : N :=
  match x with (RecordError t' _ _, PStart) => b2n (Nat.eqb t' t) | _ => 0%N end.
Definition pend_pat t q (x : call * pc) : N :=
  match x with
  | (RecordError t' p _, (PStart | PPat)) => b2n (Nat.eqb t' t && Nat.eqb p q) | _ => 0%N end.
Definition resets t (x : call * pc) : N :=
  match x with (_, PDone) => 0%N | (Reset t', _) => b2n (Nat.eqb t' t) | _ => 0%N end.
Definition in_cs t (x : call * pc) : N :=
  match x with
  | (RecordError t' _ _, (PPush | PPop | PUnlock)) | (Reset t', (QClear | QUnlock)) | (RecentErrors t' _, (RCopy | RUnlock _)) =>
      b2n (Nat.eqb t' t)
  | _ => 0%N end.
Definition at_pop t (x : call * pc) : N :=
  match x with (RecordError t' _ _, PPop) => b2n (Nat.eqb t' t) | _ => 0%N end.

Record inv (t : nat) (a : list (list call)) (c : config) (ev : list (nat * event)) : Prop := {
  i_len : length (pats (trk (wld c) t)) = 6;
  i_noreset : total (resets t) (ths c) = 0%N;
  i_cnt : ((cnt (trk (wld c) t) + total (pend_cnt t) (ths c)) mod 2 ^ 64 = how_many (errors_on t) a mod 2 ^ 64)%N;
  i_cntlt : (cnt (trk (wld c) t) < 2 ^ 64)%N;
  i_pat : forall q, q < 6 ->
    ((nth q (pats (trk (wld c) t)) 0 + total (pend_pat t q) (ths c)) mod 2 ^ 64 = how_many (errors_with t q) a mod 2 ^ 64)%N;
  i_patlt : forall q, q < 6 -> (nth q (pats (trk (wld c) t)) 0 < 2 ^ 64)%N;
  i_cs : total (in_cs t) (ths c) = b2n (locked (trk (wld c) t));
  i_hist : hist (trk (wld c) t) = lastn (max_history_size + N.to_nat (total (at_pop t) (ths c))) (logged t ev)
}.

Lemma logged_app t e1 e2 : logged t (e1 ++ e2) = logged t e1 ++ logged t e2.
Proof.
  induction e1 as [|[k [t' e|c r]] e1 IH]; simpl; [reflexivity| |exact IH].
  destruct (Nat.eqb t' t); simpl; rewrite IH; reflexivity.
Qed.

Lemma pop_le_cs t ts : (total (at_pop t) ts <= total (in_cs t) ts)%N.
Proof.
  unfold total. induction ts as [|th ts IH]; simpl; [lia|].
  assert (sumf (at_pop t) th <= sumf (in_cs t) th)%N.
  { clear. induction th as [|[cl p] th IH]; cbn [sumf]; [lia|].
    assert (at_pop t (cl, p) <= in_cs t (cl, p))%N by (destruct cl, p; cbn [at_pop in_cs]; try lia). lia. }
  lia.
Qed.

Ltac dz := let c := fresh in intros c; destruct c; reflexivity.
Lemma modadd_l a b c n : (n <> 0 -> ((a mod n + b) mod n = c -> (a + b) mod n = c))%N.
Proof. intros Hn H. rewrite N.add_mod_idemp_l in H; auto. Qed.

Lemma upd_same {A} (f : nat -> A) i v : upd f i v i = v.
Proof. unfold upd. rewrite Nat.eqb_refl. reflexivity. Qed.
Lemma upd_other {A} (f : nat -> A) i j v : j <> i -> upd f i v j = f j.
Proof. unfold upd. intros H. destruct (Nat.eqb_spec j i); [contradiction|reflexivity]. Qed.

(* what an action does to object t *)
Ltac act_cases H :=
  unfold act in H;
  repeat match type of H with
  | context [match ?x with _ => _ end] => is_var x; destruct x
  end; try discriminate H.

Lemma act_other cl p now w w' p' e t : act cl p now w = Some (w', p', e) ->
  match cl with RecordError t' _ _ | Reset t' | PatternDistribution t' | RecentErrors t' _ => t' <> t end ->
  trk w' t = trk w t /\ (forall k, logged t (map (pair k) e) = []) /\
  (forall f, In f [pend_cnt t; resets t; in_cs t; at_pop t] -> f (cl, p) = 0%N /\ f (cl, p') = 0%N) /\
  (forall q, pend_pat t q (cl, p) = 0%N /\ pend_pat t q (cl, p') = 0%N).
Proof.
  intros H Ht.
  assert (Z : forall f, In f [pend_cnt t; resets t; in_cs t; at_pop t] -> forall x, f (cl, x) = 0%N).
  { intros f Hf x. apply Nat.eqb_neq in Ht || (destruct cl; apply Nat.eqb_neq in Ht).
    all: simpl in Hf; repeat destruct Hf as [<-|Hf]; try contradiction; destruct x; simpl; try rewrite Ht; reflexivity. }
  assert (Zp : forall q x, pend_pat t q (cl, x) = 0%N).
  { intros q x. destruct cl; apply Nat.eqb_neq in Ht; destruct x; simpl; try rewrite Ht; reflexivity. }
  split; [|split; [|split; [intros f Hf; split; apply Z; exact Hf|intros q; split; apply Zp]]].
  - clear Z Zp. destruct cl; unfold act in H; destruct p; try discriminate;
      repeat match type of H with context [if ?b then _ else _] => destruct b end; try discriminate;
      injection H as <- <- <-; simpl; try reflexivity; apply upd_other; auto.
  - intros k. clear Z Zp. destruct cl; unfold act in H; destruct p; try discriminate;
      repeat match type of H with context [if ?b then _ else _] => destruct b end; try discriminate;
      injection H as <- <- <-; simpl; try reflexivity.
    apply Nat.eqb_neq in Ht. rewrite Ht. reflexivity.
Qed.

Lemma eqbD (a b : nat) : {a = b} + {a <> b}. Proof. apply Nat.eq_dec. Defined.

Lemma inv_step t a c ev i now c' e : inv t a c ev -> step i now c = Some (c', e) -> inv t a c' (ev ++ e).
Proof.
  intros I S. destruct (step_total _ _ _ _ _ S) as (cl & p & rest & w' & p' & e0 & Hn & A & -> & Hw & Hths & Tle & T).
  destruct I as [Il Ir Ic Icl Ip Ipl Ics Ih].
  set (own := match cl with RecordError t' _ _ | Reset t' | PatternDistribution t' | RecentErrors t' _ => t' end).
  assert (Dz : forall f, In f [pend_cnt t; resets t; in_cs t; at_pop t] -> done_zero f)
    by (intros f Hf; simpl in Hf; repeat destruct Hf as [<-|Hf]; try contradiction; dz).
  assert (Dzp : forall q, done_zero (pend_pat t q)) by (intros q; dz).
  destruct (eqbD own t) as [Ho|Ho].
  2:{ destruct (act_other _ _ _ _ _ _ _ t A) as (A1 & A2 & A3 & A4). { unfold own in Ho. destruct cl; exact Ho. }
    assert (K : forall f, In f [pend_cnt t; resets t; in_cs t; at_pop t] -> total f (ths c') = total f (ths c)).
    { intros f Hf. destruct (A3 f Hf) as [z1 z2]. specialize (T f (Dz f Hf)). lia. }
    assert (Kp : forall q, total (pend_pat t q) (ths c') = total (pend_pat t q) (ths c)).
    { intros q. destruct (A4 q) as [z1 z2]. specialize (T _ (Dzp q)). lia. }
    split; rewrite ?Hw, ?A1, ?logged_app, ?A2, ?app_nil_r, ?K by (simpl; tauto); auto.
    - intros q Hq. rewrite Kp. auto. }
  pose proof (T _ (Dz (pend_cnt t) ltac:(simpl; tauto))) as T1.
  pose proof (T _ (Dz (resets t) ltac:(simpl; tauto))) as T2.
  pose proof (T _ (Dz (in_cs t) ltac:(simpl; tauto))) as T3.
  pose proof (T _ (Dz (at_pop t) ltac:(simpl; tauto))) as T4.
  assert (T5 : forall q, (total (pend_pat t q) (ths c') + pend_pat t q (cl, p) = total (pend_pat t q) (ths c) + pend_pat t q (cl, p'))%N)
    by (intros q; apply T; auto).
  pose proof (pop_le_cs t (ths c)) as Pop.
  clear T Hn S.
  destruct cl as [t' pt d|t'|t'|t' k]; unfold own in Ho; subst t'; clear own.
  - (* RecordError *)
    destruct p; simpl in A; try discriminate.
    + (* PStart *) injection A as <- <- <-.
      split; rewrite ?Hw; simpl; rewrite ?upd_same, ?app_nil_r; cbn [cnt pats locked hist].
      * exact Il. * simpl in T2. lia.
      * simpl in T1. rewrite Nat.eqb_refl in T1. cbn [b2n] in T1. rewrite N.add_mod_idemp_l by discriminate.
        rewrite <- Ic. f_equal. lia.
      * apply N.mod_lt. discriminate.
      * intros q Hq. specialize (T5 q). simpl in T5. replace (total (pend_pat t q) (ths c')) with (total (pend_pat t q) (ths c)) by lia. auto.
      * exact Ipl.
      * simpl in T3. lia.
      * simpl in T4. replace (total (at_pop t) (ths c')) with (total (at_pop t) (ths c)) by lia. exact Ih.
    + (* PPat *) injection A as <- <- <-.
      simpl in T1, T2, T3, T4.
      replace (total (at_pop t) (ths c)) with (total (at_pop t) (ths c')) in Ih by lia.
      replace (total (pend_cnt t) (ths c)) with (total (pend_cnt t) (ths c')) in Ic by lia.
      destruct (Nat.ltb_spec pt (length (pats (trk (wld c) t)))) as [Hp|Hp].
      * split; rewrite ?Hw; simpl; rewrite ?upd_same, ?app_nil_r; cbn [cnt pats locked hist]; auto; try lia.
        -- rewrite nth_add_len. exact Il.
        -- intros q Hq. rewrite nth_add_nth. specialize (T5 q). simpl in T5. rewrite Nat.eqb_refl in T5.
           rewrite (proj2 (Nat.ltb_lt q (length _))) by lia. rewrite andb_true_r.
           rewrite (Nat.eqb_sym q pt). destruct (Nat.eqb pt q); simpl in T5.
           ++ rewrite N.add_mod_idemp_l by discriminate. rewrite <- (Ip q Hq). f_equal. lia.
           ++ rewrite <- (Ip q Hq). f_equal. lia.
        -- intros q Hq. rewrite nth_add_nth. destruct (_ && _); [apply N.mod_lt; discriminate|auto].
      * split; rewrite ?Hw; simpl; rewrite ?app_nil_r; auto; try lia.
        intros q Hq. specialize (T5 q). simpl in T5. rewrite Nat.eqb_refl in T5.
        replace (Nat.eqb pt q) with false in T5 by (symmetry; apply Nat.eqb_neq; lia). simpl in T5.
        rewrite <- (Ip q Hq). f_equal. lia.
    + (* PTime *) destruct (Z.ltb now (clk (wld c))); try discriminate. injection A as <- <- <-.
      simpl in T1, T2, T3, T4. split; rewrite ?Hw; simpl; rewrite ?app_nil_r; auto; try lia.
      * rewrite <- Ic. f_equal. lia.
      * intros q Hq. specialize (T5 q). simpl in T5. rewrite <- (Ip q Hq). f_equal. lia.
      * rewrite Ih. do 2 f_equal. lia.
    + (* PStore *) injection A as <- <- <-.
      assert (Ea : after_history d = PNow \/ after_history d = PLock) by (destruct d; simpl; auto).
      simpl in T1, T2, T3, T4.
      assert (total (pend_cnt t) (ths c') = total (pend_cnt t) (ths c)) as E1 by (destruct Ea as [E|E]; rewrite E in T1; lia).
      assert (total (resets t) (ths c') = total (resets t) (ths c)) as E2 by (destruct Ea as [E|E]; rewrite E in T2; lia).
      assert (total (in_cs t) (ths c') = total (in_cs t) (ths c)) as E3 by (destruct Ea as [E|E]; rewrite E in T3; lia).
      assert (total (at_pop t) (ths c') = total (at_pop t) (ths c)) as E4 by (destruct Ea as [E|E]; rewrite E in T4; lia).
      split; rewrite ?Hw; simpl; rewrite ?upd_same, ?app_nil_r, ?E1, ?E2, ?E3, ?E4; cbn [cnt pats locked hist]; auto.
      intros q Hq. specialize (T5 q). simpl in T5. rewrite <- (Ip q Hq). do 2 f_equal. destruct Ea as [E|E]; rewrite E in T5; lia.
    + (* PLock *) destruct (locked (trk (wld c) t)) eqn:L; try discriminate. injection A as <- <- <-.
      simpl in T1, T2, T3, T4. rewrite Nat.eqb_refl in T3. cbn [b2n] in *.
      split; rewrite ?Hw; simpl; rewrite ?upd_same, ?app_nil_r; cbn [cnt pats locked hist b2n]; auto; try lia.
      * rewrite <- Ic. f_equal. lia.
      * intros q Hq. specialize (T5 q). simpl in T5. rewrite <- (Ip q Hq). f_equal. lia.
      * rewrite Ih. do 2 f_equal. lia.
    + (* PPush *) destruct (Z.ltb now (clk (wld c))); try discriminate. injection A as <- <- <-.
      simpl in T1, T2, T3, T4. rewrite Nat.eqb_refl in T3, T4. cbn [b2n] in *.
      split; rewrite ?Hw; simpl; rewrite ?upd_same; cbn [cnt pats locked hist b2n]; auto; try lia.
      * rewrite <- Ic. f_equal. lia.
      * intros q Hq. specialize (T5 q). simpl in T5. rewrite <- (Ip q Hq). f_equal. lia.
      * rewrite logged_app. simpl. rewrite Nat.eqb_refl.
        assert (b2n (locked (trk (wld c) t)) <= 1)%N by (destruct (locked _); simpl; lia).
        (* nobody else is at the pop: the pusher is itself in the critical section *)
        assert (total (at_pop t) (ths c) = 0)%N.
        { assert (total (at_pop t) (ths c') <= total (in_cs t) (ths c'))%N by apply pop_le_cs. lia. }
        replace (total (at_pop t) (ths c')) with 1%N by lia.
        rewrite Ih, H0. replace (max_history_size + N.to_nat 1) with (S (max_history_size + N.to_nat 0)) by lia.
        rewrite lastn_app1. reflexivity.
    + (* PPop *) injection A as <- <- <-.
      simpl in T1, T2, T3, T4. rewrite Nat.eqb_refl in T3, T4. cbn [b2n] in *.
      assert (b2n (locked (trk (wld c) t)) <= 1)%N by (destruct (locked _); simpl; lia).
      assert (Hone : total (at_pop t) (ths c) = 1%N) by lia.
      assert (Hz : total (at_pop t) (ths c') = 0%N) by lia.
      rewrite Hone in Ih. replace (max_history_size + N.to_nat 1) with (S max_history_size) in Ih by lia.
      assert (Hl : length (hist (trk (wld c) t)) = Nat.min (S max_history_size) (length (logged t ev))) by (rewrite Ih; apply lastn_len).
      assert (Hcs : total (in_cs t) (ths c') = total (in_cs t) (ths c)) by lia.
      destruct (Nat.ltb_spec max_history_size (length (hist (trk (wld c) t)))) as [Hp|Hp].
      * split; rewrite ?Hw; simpl; rewrite ?upd_same, ?app_nil_r, ?Hcs; cbn [cnt pats locked hist b2n]; auto; try lia.
        -- rewrite <- Ic. f_equal. lia.
        -- intros q Hq. specialize (T5 q). simpl in T5. rewrite <- (Ip q Hq). f_equal. lia.
        -- rewrite Hz, Ih. change (N.to_nat 0) with 0. rewrite lastn_tl by lia. rewrite Nat.add_0_r. reflexivity.
      * split; rewrite ?Hw; simpl; rewrite ?app_nil_r, ?Hcs; auto; try lia.
        -- rewrite <- Ic. f_equal. lia.
        -- intros q Hq. specialize (T5 q). simpl in T5. rewrite <- (Ip q Hq). f_equal. lia.
        -- rewrite Hz, Ih. change (N.to_nat 0) with 0. rewrite lastn_same by lia. rewrite Nat.add_0_r. reflexivity.
    + (* PUnlock *) injection A as <- <- <-.
      simpl in T1, T2, T3, T4. rewrite Nat.eqb_refl in T3. cbn [b2n] in *.
      assert (b2n (locked (trk (wld c) t)) <= 1)%N by (destruct (locked _); simpl; lia).
      split; rewrite ?Hw; simpl; rewrite ?upd_same, ?app_nil_r; cbn [cnt pats locked hist b2n]; auto; try lia.
      * rewrite <- Ic. f_equal. lia.
      * intros q Hq. specialize (T5 q). simpl in T5. rewrite <- (Ip q Hq). f_equal. lia.
      * rewrite Ih. do 2 f_equal. lia.
    + (* PNow *) destruct (Z.ltb now (clk (wld c))); try discriminate. injection A as <- <- <-.
      simpl in T1, T2, T3, T4. split; rewrite ?Hw; simpl; rewrite ?app_nil_r; auto; try lia.
      * rewrite <- Ic. f_equal. lia.
      * intros q Hq. specialize (T5 q). simpl in T5. rewrite <- (Ip q Hq). f_equal. lia.
      * rewrite Ih. do 2 f_equal. lia.
    + (* PLast *) injection A as <- <- <-.
      destruct (Z.ltb one_second_count (now0 - lct (wld c))); simpl in T1, T2, T3, T4;
      (split; rewrite ?Hw; simpl; rewrite ?app_nil_r; auto; try lia;
      [ rewrite <- Ic; f_equal; lia
      | intros q Hq; specialize (T5 q); simpl in T5; rewrite <- (Ip q Hq); f_equal; lia
      | rewrite Ih; do 2 f_equal; lia ]).
    + (* PCas *) destruct (Z.eqb (lct (wld c)) last); injection A as <- <- <-;
      simpl in T1, T2, T3, T4;
      (split; rewrite ?Hw; simpl; rewrite ?app_nil_r; auto; try lia;
      [ rewrite <- Ic; f_equal; lia
      | intros q Hq; specialize (T5 q); simpl in T5; rewrite <- (Ip q Hq); f_equal; lia
      | rewrite Ih; do 2 f_equal; lia ]).
    + injection A as <- <- <-; simpl in T1, T2, T3, T4;
      (split; rewrite ?Hw; simpl; rewrite ?app_nil_r; auto; try lia;
      [ rewrite <- Ic; f_equal; lia
      | intros q Hq; specialize (T5 q); simpl in T5; rewrite <- (Ip q Hq); f_equal; lia
      | rewrite Ih; do 2 f_equal; lia ]).
    + injection A as <- <- <-; simpl in T1, T2, T3, T4;
      (split; rewrite ?Hw; simpl; rewrite ?app_nil_r; auto; try lia;
      [ rewrite <- Ic; f_equal; lia
      | intros q Hq; specialize (T5 q); simpl in T5; rewrite <- (Ip q Hq); f_equal; lia
      | rewrite Ih; do 2 f_equal; lia ]).
    + injection A as <- <- <-; simpl in T1, T2, T3, T4;
      (split; rewrite ?Hw; simpl; rewrite ?app_nil_r; auto; try lia;
      [ rewrite <- Ic; f_equal; lia
      | intros q Hq; specialize (T5 q); simpl in T5; rewrite <- (Ip q Hq); f_equal; lia
      | rewrite Ih; do 2 f_equal; lia ]).
    + injection A as <- <- <-; simpl in T1, T2, T3, T4;
      (split; rewrite ?Hw; simpl; rewrite ?upd_same, ?app_nil_r; cbn [cnt pats locked hist]; auto; try lia;
      [ rewrite <- Ic; f_equal; lia
      | intros q Hq; specialize (T5 q); simpl in T5; rewrite <- (Ip q Hq); f_equal; lia
      | rewrite Ih; do 2 f_equal; lia ]).
  - (* Reset: excluded *)
    exfalso. rewrite Ir in T2. assert (resets t (Reset t, p) = 1%N).
    { destruct p; simpl; rewrite ?Nat.eqb_refl; try reflexivity. discriminate A. }
    specialize (Tle (resets t)). lia.
  - destruct p; simpl in A; try discriminate;
      (match type of A with context [if ?b then _ else _] => destruct b end;
      injection A as <- <- <-; simpl in T1, T2, T3, T4;
      (split; rewrite ?Hw, ?logged_app; simpl; rewrite ?app_nil_r; auto; try lia;
      [ rewrite <- Ic; f_equal; lia
      | intros q Hq; specialize (T5 q); simpl in T5; rewrite <- (Ip q Hq); f_equal; lia
      | rewrite Ih; do 2 f_equal; lia ])).
  - assert (b2n (locked (trk (wld c) t)) <= 1)%N by (destruct (locked _); simpl; lia).
    destruct p; simpl in A; try discriminate.
    + destruct (locked (trk (wld c) t)) eqn:L; try discriminate.
      injection A as <- <- <-; simpl in T1, T2, T3, T4; rewrite Nat.eqb_refl in T3; cbn [b2n] in *;
      (split; rewrite ?Hw, ?logged_app; simpl; rewrite ?upd_same, ?app_nil_r; cbn [cnt pats locked hist b2n]; auto; try lia;
      [ rewrite <- Ic; f_equal; lia
      | intros q Hq; specialize (T5 q); simpl in T5; rewrite <- (Ip q Hq); f_equal; lia
      | rewrite Ih; do 2 f_equal; lia ]).
    + injection A as <- <- <-; simpl in T1, T2, T3, T4; rewrite Nat.eqb_refl in T3; cbn [b2n] in *;
      (split; rewrite ?Hw, ?logged_app; simpl; rewrite ?app_nil_r; auto; try lia;
      [ rewrite <- Ic; f_equal; lia
      | intros q Hq; specialize (T5 q); simpl in T5; rewrite <- (Ip q Hq); f_equal; lia
      | rewrite Ih; do 2 f_equal; lia ]).
    + injection A as <- <- <-; simpl in T1, T2, T3, T4; rewrite Nat.eqb_refl in T3; cbn [b2n] in *;
      (split; rewrite ?Hw, ?logged_app; simpl; rewrite ?upd_same, ?app_nil_r; cbn [cnt pats locked hist b2n]; auto; try lia;
      [ rewrite <- Ic; f_equal; lia
      | intros q Hq; specialize (T5 q); simpl in T5; rewrite <- (Ip q Hq); f_equal; lia
      | rewrite Ih; do 2 f_equal; lia ]).
Qed.

(** *** The start *)
Lemma total_start (f : call * pc -> N) progs : total f (ths (start progs)) = sumf (fun c => f (c, PStart)) (concat progs).
Proof.
  unfold total, start. simpl. induction progs as [|pr progs IH]; simpl; [reflexivity|].
  rewrite sumf_app, IH. f_equal. clear. induction pr; simpl; congruence.
Qed.
Lemma sumf_filter (g : call -> bool) l : sumf (fun c => b2n (g c)) l = N.of_nat (length (filter g l)).
Proof. induction l as [|a l IH]; simpl; [reflexivity|]. rewrite IH. destruct (g a); simpl length; cbn [b2n]; lia. Qed.
Lemma sumf_ext {A} (f g : A -> N) l : (forall x, In x l -> f x = g x) -> sumf f l = sumf g l.
Proof. induction l as [|a l IH]; simpl; intros H; [reflexivity|]. rewrite (H a), IH by auto. reflexivity. Qed.
Lemma sumf_zero {A} (f : A -> N) l : (forall x, In x l -> f x = 0%N) -> sumf f l = 0%N.
Proof. induction l as [|a l IH]; simpl; intros H; [reflexivity|]. rewrite (H a), IH by auto. reflexivity. Qed.

Lemma inv_start t progs : never_reset t progs -> inv t progs (start progs) [].
Proof.
  intros Hr. split; try (intros q Hq); rewrite ?total_start; simpl.
  - reflexivity.
  - apply sumf_zero. intros x Hx. destruct x; try reflexivity. simpl.
    destruct (Nat.eqb_spec t0 t); [|reflexivity]. subst. exfalso. apply in_concat in Hx. destruct Hx as (pr & H1 & H2).
    exact (Hr pr H1 H2).
  - f_equal. unfold how_many. rewrite <- sumf_filter. apply sumf_ext. intros x _. destruct x; reflexivity.
  - reflexivity.
  - replace (match q with 0 => 0%N | S _ => _ end) with 0%N.
    2:{ do 6 (destruct q as [|q]; [reflexivity|]). lia. }
    f_equal. unfold how_many. rewrite <- sumf_filter. apply sumf_ext. intros x _. destruct x; reflexivity.
  - do 6 (destruct q as [|q]; [reflexivity|]). lia.
  - apply sumf_zero. intros x _. destruct x; reflexivity.
  - reflexivity.
Qed.

Lemma run_app s1 s2 c c2 ev : run (s1 ++ s2) c = Some (c2, ev) ->
  exists c1 e1 e2, run s1 c = Some (c1, e1) /\ run s2 c1 = Some (c2, e2) /\ ev = e1 ++ e2.
Proof.
  revert c ev. induction s1 as [|[i now] s1 IH]; simpl; intros c ev H.
  - exists c, [], ev. auto.
  - destruct (step i now c) as [[c1 e1]|] eqn:S; [|discriminate].
    destruct (run (s1 ++ s2) c1) as [[c3 e3]|] eqn:R; [|discriminate]. injection H as <- <-.
    destruct (IH _ _ R) as (d & f1 & f2 & H1 & H2 & ->). exists d, (e1 ++ f1), f2. rewrite H1.
    split; [reflexivity|split; [exact H2|]]. rewrite app_assoc. reflexivity.
Qed.
(* induction over executions, extending at the end *)
Lemma run_inv (P : config -> list (nat * event) -> Prop) c0 :
  P c0 [] ->
  (forall c ev i now c' e, P c ev -> step i now c = Some (c', e) -> P c' (ev ++ e)) ->
  forall sch c ev, run sch c0 = Some (c, ev) -> P c ev.
Proof.
  intros H0 HS sch. induction sch as [|[i now] sch IH] using rev_ind; intros c ev R.
  - simpl in R. injection R as <- <-. exact H0.
  - destruct (run_app _ _ _ _ _ R) as (c1 & e1 & e2 & R1 & R2 & ->).
    simpl in R2. destruct (step i now c1) as [[c2 e3]|] eqn:S; [|discriminate]. injection R2 as <- <-.
    rewrite app_nil_r. eapply HS; [apply (IH _ _ R1)|exact S].
Qed.
Lemma inv_run t progs sch c ev : never_reset t progs -> run sch (start progs) = Some (c, ev) -> inv t progs c ev.
Proof. intros Hr. apply (run_inv (inv t progs)); [apply inv_start; exact Hr|]. intros. eapply inv_step; eauto. Qed.

(** *** Each thread's log is its own program order *)
Definition rest1 (t : nat) (x : call * pc) : list (nat * string) :=
  match x with
  | (RecordError t' p d, (PStart | PPat | PTime | PStore _)) =>
      if Nat.eqb t' t && negb (String.eqb d EmptyString) then [(p, d)] else []
  | (RecordError t' p d, (PLock | PPush)) => if Nat.eqb t' t then [(p, d)] else []
  | _ => [] end.
Definition rest (t : nat) (th : thread) : list (nat * string) := flat_map (rest1 t) th.
Definition own_log t k ev := map (fun e => (epat e, edata e)) (logged t (by_thread k ev)).
Lemma by_thread_app k a b : by_thread k (a ++ b) = by_thread k a ++ by_thread k b.
Proof. apply filter_app. Qed.
Lemma own_log_app t k a b : own_log t k (a ++ b) = own_log t k a ++ own_log t k b.
Proof. unfold own_log. rewrite by_thread_app, logged_app, map_app. reflexivity. Qed.
Lemma by_thread_same i e : by_thread i (map (pair i) e) = map (pair i) e.
Proof. induction e; simpl; [reflexivity|]. rewrite Nat.eqb_refl, IHe. reflexivity. Qed.
Lemma by_thread_other i k e : i <> k -> by_thread k (map (pair i) e) = [].
Proof. intros H. induction e; simpl; [reflexivity|]. apply Nat.eqb_neq in H. rewrite H. exact IHe. Qed.
Lemma nth_set_nth {A} (l : list A) i k v d : i < length l -> nth k (set_nth l i v) d = if Nat.eqb k i then v else nth k l d.
Proof.
  revert i k. induction l as [|a l IH]; intros [|i] [|k] H; simpl in *; try lia; try reflexivity.
  unfold set_nth in *. simpl. apply IH. lia.
Qed.
Lemma act_rest t cl p now w w' p' e i : act cl p now w = Some (w', p', e) ->
  own_log t i (map (pair i) e) ++ rest1 t (cl, p') = rest1 t (cl, p).
Proof.
  intros A. unfold own_log. rewrite by_thread_same.
  destruct cl as [t' q d|t'|t'|t' k]; destruct p; simpl in A; try discriminate;
    repeat match type of A with context [if ?b then _ else _] => destruct b end; try discriminate;
    injection A as <- <- <-; simpl; try reflexivity.
  - destruct d; simpl; rewrite ?andb_false_r, ?andb_true_r; reflexivity.
  - destruct (Nat.eqb t' t); reflexivity.
Qed.
Lemma own_log_other t i k e : i <> k -> own_log t k (map (pair i) e) = [].
Proof. intros H. unfold own_log. rewrite by_thread_other by exact H. reflexivity. Qed.

Lemma own_step t k i now c c' e : step i now c = Some (c', e) ->
  own_log t k e ++ rest t (nth k (ths c') []) = rest t (nth k (ths c) []).
Proof.
  intros S. destruct (step_total _ _ _ _ _ S) as (cl & p & tl & w' & p' & e0 & Hn & A & -> & Hw & Hths & _ & _).
  rewrite Hths. assert (Hi : i < length (ths c)) by (apply nth_error_Some; congruence).
  rewrite nth_set_nth by exact Hi. destruct (Nat.eqb_spec k i) as [->|Hk].
  - erewrite (nth_error_nth (ths c) i) by exact Hn. change (rest t ((cl, p) :: tl)) with (rest1 t (cl, p) ++ rest t tl).
    rewrite <- (act_rest t _ _ _ _ _ _ _ i A), <- app_assoc. f_equal.
    destruct p'; simpl; try reflexivity; try (destruct cl; reflexivity).
  - rewrite own_log_other by auto. reflexivity.
Qed.
Lemma rest_start t pr : rest t (map (fun c => (c, PStart)) pr) = details t pr.
Proof.
  unfold rest. induction pr as [|c pr IH]; simpl; [reflexivity|]. rewrite IH.
  destruct c; simpl; try reflexivity. destruct (_ && _); reflexivity.
Qed.
Lemma nth_start k progs : nth k (ths (start progs)) [] = map (fun c => (c, PStart)) (nth k progs []).
Proof. unfold start. simpl. exact (map_nth (map (fun c : call => (c, PStart))) progs [] k). Qed.
Lemma own_run t k progs sch c ev : run sch (start progs) = Some (c, ev) ->
  own_log t k ev ++ rest t (nth k (ths c) []) = details t (nth k progs []).
Proof.
  revert sch c ev. apply (run_inv (fun c ev => own_log t k ev ++ rest t (nth k (ths c) []) = details t (nth k progs []))).
  - rewrite nth_start, rest_start. reflexivity.
  - intros c ev i now c' e IH S. rewrite own_log_app, <- app_assoc, (own_step t k _ _ _ _ _ S). exact IH.
Qed.

Lemma finished_total f c : finished c -> total f (ths c) = 0%N.
Proof.
  intros H. unfold total. apply sumf_zero. intros th Hin. rewrite (H th Hin). reflexivity.
Qed.
Lemma how_many_small f progs : (how_many f progs < 2 ^ 64)%N -> (how_many f progs mod 2 ^ 64 = how_many f progs)%N.
Proof. apply N.mod_small. Qed.

Theorem tracker_exact progs sch c ev t : never_reset t progs -> run sch (start progs) = Some (c, ev) -> finished c ->
  getTotalErrorCount (trk (wld c) t) = (how_many (errors_on t) progs mod 2 ^ 64)%N /\
  (forall p, p < 6 -> getPatternCount (trk (wld c) t) p = (how_many (errors_with t p) progs mod 2 ^ 64)%N) /\
  hist (trk (wld c) t) = lastn max_history_size (logged t ev) /\
  (forall k, map (fun e => (epat e, edata e)) (logged t (by_thread k ev)) = details t (nth k progs [])).
Proof.
  intros Hr R F. pose proof (inv_run _ _ _ _ _ Hr R) as I. destruct I as [Il Ir Ic Icl Ip Ipl Ics Ih].
  rewrite !finished_total in * by exact F. rewrite N.add_0_r in Ic.
  split; [|split; [|split]].
  - unfold getTotalErrorCount. rewrite <- Ic. symmetry. apply N.mod_small. exact Icl.
  - intros p Hp. unfold getPatternCount. rewrite Il. rewrite (proj2 (Nat.ltb_lt p 6)) by lia.
    rewrite <- (Ip p Hp), finished_total, N.add_0_r by exact F. symmetry. apply N.mod_small. auto.
  - rewrite Ih. change (N.to_nat 0) with 0. rewrite Nat.add_0_r. reflexivity.
  - intros k. pose proof (own_run t k _ _ _ _ R) as H.
    assert (nth k (ths c) [] = []) as E. { destruct (nth_in_or_default k (ths c) []) as [Hin|E]; [apply F; exact Hin|exact E]. }
    rewrite E in H. simpl in H. rewrite app_nil_r in H. exact H.
Qed.
(* at every moment *)
Theorem tracker_history progs sch c ev t : never_reset t progs -> run sch (start progs) = Some (c, ev) ->
  length (hist (trk (wld c) t)) <= S max_history_size /\
  (locked (trk (wld c) t) = false -> hist (trk (wld c) t) = lastn max_history_size (logged t ev)).
Proof.
  intros Hr R. pose proof (inv_run _ _ _ _ _ Hr R) as I. destruct I as [Il Ir Ic Icl Ip Ipl Ics Ih].
  pose proof (pop_le_cs t (ths c)) as Pop. split.
  - rewrite Ih, lastn_len. destruct (locked _); cbn [b2n] in Ics; lia.
  - intros L. rewrite L in Ics. cbn [b2n] in Ics. rewrite Ih. f_equal. lia.
Qed.
