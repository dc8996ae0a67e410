From Coq Require Import List Bool Arith Lia Permutation.
Import ListNotations.
From Verif Require Import SimpleTMR_Model SimpleTMR_Spec.

Section P.
Context {T : Type} (eqb : T -> T -> bool) (Hl : lawful eqb).

Lemma eqb_refl x : eqb x x = true.
Proof. apply Hl; reflexivity. Qed.
Lemma eqb_neq x y : x <> y -> eqb x y = false.
Proof. intros H. destruct (eqb x y) eqn:E; auto. apply Hl in E; contradiction. Qed.
Lemma eq_dec (x y : T) : {x = y} + {x <> y}.
Proof. destruct (eqb x y) eqn:E; [left; apply Hl; auto|right; intros ->; rewrite eqb_refl in E; discriminate]. Qed.

Ltac eqs :=
  repeat match goal with
  | |- context [eqb ?x ?x] => rewrite (eqb_refl x)
  | |- context [eqb ?x ?y] =>
      let E := fresh "E" in destruct (eqb x y) eqn:E;
      [apply Hl in E; subst|]
  | H : context [eqb ?x ?x] |- _ => rewrite (eqb_refl x) in H
  end; simpl in *; try discriminate; auto.

Lemma core_masks v i w : core_get eqb (write3 (core_new v) i w) = v.
Proof. unfold core_get; destruct i as [|[|[|i]]]; simpl; eqs. Qed.
Lemma basic_masks v i w : basic_get eqb (write3 (basic_new v) i w) = v.
Proof. unfold basic_get; destruct i as [|[|[|i]]]; simpl; eqs. Qed.
Lemma tmr_masks m v i w : snd (tmr_get eqb (tmr_setRawCopy (tmr_set m v) i w)) = v.
Proof. unfold tmr_get; destruct i as [|[|[|i]]]; simpl; eqs. Qed.

(** generic history argument *)
Section Hist.
Variables (get : copies3 T -> T) (set_ : copies3 T -> T -> copies3 T) (repair : copies3 T -> copies3 T).
Hypothesis Hget : forall v i w, get (write3 (mk3 v v v) i w) = v.
Hypothesis Hset : forall s v, set_ s v = mk3 v v v.
Hypothesis Hrep : forall s, repair s = mk3 (get s) (get s) (get s).

Definition hstep (s : copies3 T) (o : op T) : copies3 T :=
  match o with Set_ v => set_ s v | Upset i w => write3 s i w | Repair => repair s end.

Definition hinv (v : T) (hit : option nat) (s : copies3 T) : Prop :=
  match hit with
  | None => s = mk3 v v v
  | Some i => exists w, s = write3 (mk3 v v v) i w
  end.

Lemma hinv_get v hit s : hinv v hit s -> get s = v.
Proof.
  destruct hit as [i|]; simpl.
  - intros [w ->]. apply Hget.
  - intros ->. change (mk3 v v v) with (write3 (mk3 v v v) 0 v). apply Hget.
Qed.

Lemma write3_write3 (s : copies3 T) i w w' : write3 (write3 s i w) i w' = write3 s i w'.
Proof. destruct i as [|[|[|i]]]; reflexivity. Qed.

Lemma hist_inv h : forall v hit s, hinv v hit s -> spaced hit h = true ->
  exists hit', hinv (last_set v h) hit' (fold_left hstep h s).
Proof.
  induction h as [|o h IH]; simpl; intros v hit s Hi Hs; [eauto|].
  destruct o as [x|i w|]; simpl.
  - apply (IH x None); [simpl; apply Hset|exact Hs].
  - destruct hit as [j|].
    + apply andb_prop in Hs as [Hj Hs]. apply Nat.eqb_eq in Hj; subst j.
      apply (IH v (Some i)); [|exact Hs].
      destruct Hi as [w0 ->]. exists w. apply write3_write3.
    + apply (IH v (Some i)); [|exact Hs]. simpl in Hi; subst s. exists w; reflexivity.
  - apply (IH v None); [|exact Hs]. simpl. rewrite Hrep, (hinv_get _ _ _ Hi). reflexivity.
Qed.

Lemma hist_get v h : spaced None h = true -> get (fold_left hstep h (mk3 v v v)) = last_set v h.
Proof.
  intros Hs. destruct (hist_inv h v None (mk3 v v v) eq_refl Hs) as [hit' H].
  exact (hinv_get _ _ _ H).
Qed.
Lemma hist_repair v h : spaced None h = true ->
  repair (fold_left hstep h (mk3 v v v)) = mk3 (last_set v h) (last_set v h) (last_set v h).
Proof. intros Hs. rewrite Hrep, (hist_get v h Hs). reflexivity. Qed.
End Hist.

Definition core_hstep := hstep (core_set) (core_repair eqb).
Definition basic_hstep := hstep (basic_set) (basic_repair eqb).

Lemma core_hist v h : spaced None h = true ->
  core_get eqb (fold_left core_hstep h (core_new v)) = last_set v h /\
  core_repair eqb (fold_left core_hstep h (core_new v)) =
    mk3 (last_set v h) (last_set v h) (last_set v h).
Proof.
  intros Hs; split.
  - apply (hist_get (core_get eqb) core_set (core_repair eqb)); auto. exact core_masks.
  - apply (hist_repair (core_get eqb) core_set (core_repair eqb)); auto. exact core_masks.
Qed.
Lemma basic_hist v h : spaced None h = true ->
  basic_get eqb (fold_left basic_hstep h (basic_new v)) = last_set v h /\
  basic_repair eqb (fold_left basic_hstep h (basic_new v)) =
    mk3 (last_set v h) (last_set v h) (last_set v h).
Proof.
  intros Hs; split.
  - apply (hist_get (basic_get eqb) basic_set (basic_repair eqb)); auto. exact basic_masks.
  - apply (hist_repair (basic_get eqb) basic_set (basic_repair eqb)); auto. exact basic_masks.
Qed.

Lemma basic_hasErrors_iff (s : copies3 T) :
  basic_hasErrors eqb s = true <-> ~ (c0 s = c1 s /\ c1 s = c2 s).
Proof.
  unfold basic_hasErrors. rewrite negb_true_iff, andb_false_iff.
  destruct s as [x y z]; simpl. split.
  - intros [H|H] [-> ->]; rewrite eqb_refl in H; discriminate.
  - intros H. destruct (eq_dec x y) as [->|n]; [|left; apply eqb_neq; auto].
    destruct (eq_dec y z) as [->|n]; [tauto|right; apply eqb_neq; auto].
Qed.

(** *** statistics *)
Definition tcall (m : @tmr T) (c : call T) : @tmr T :=
  match c with
  | CGet => fst (tmr_get eqb m)
  | CSet v => tmr_set m v
  | CSetRaw i w => tmr_setRawCopy m i w
  | CReset => tmr_reset m
  end.

Definition tup (s : copies3 T) := (c0 s, c1 s, c2 s).

Definition books_of (m : @tmr T) : books T :=
  mkbooks (detected (tstats m)) (corrected (tstats m)) (uncorrectable (tstats m)) (cblog m).

Lemma tup_write s i w : tup (write3 s i w) = spec_copies (tup s) (CSetRaw i w).
Proof. destruct i as [|[|[|i]]]; reflexivity. Qed.

Lemma stats_exact h : forall m, has_cb m = true ->
  booked (tup (tcopies m)) h (books_of m) (books_of (fold_left tcall h m)).
Proof.
  induction h as [|c h IH]; intros m Hcb; cbn [fold_left]; [constructor|].
  destruct c as [|v|i w|].
  - destruct m as [[x y z] [d c u] cb log]; simpl in Hcb; subst cb.
    cbn [tcall]. unfold tmr_get; cbn [tcopies c0 c1 c2].
    destruct (eq_dec x y) as [->|nxy].
    + rewrite eqb_refl; simpl.
      destruct (eq_dec y z) as [->|nyz].
      * rewrite eqb_refl; simpl. apply bk_get_ok. apply (IH (mktmr (mk3 z z z) _ true log)); reflexivity.
      * rewrite (eqb_neq _ _ nyz); simpl.
        eapply (bk_get_corr _ y z); [auto|reflexivity|].
        apply (IH (tmr_note (mktmr (mk3 y y z) (mkst d c u) true log) y z)); reflexivity.
    + rewrite (eqb_neq _ _ nxy); simpl.
      destruct (eq_dec x z) as [->|nxz].
      * rewrite eqb_refl; simpl.
        eapply (bk_get_corr _ z y); [auto|simpl; apply perm_skip, perm_swap|].
        apply (IH (tmr_note (mktmr (mk3 z y z) (mkst d c u) true log) z y)); reflexivity.
      * rewrite (eqb_neq _ _ nxz); simpl.
        destruct (eq_dec y z) as [->|nyz].
        -- rewrite eqb_refl; simpl.
           eapply (bk_get_corr _ z x); [auto| |].
           { simpl. eapply perm_trans; [apply perm_swap|apply perm_skip, perm_swap]. }
           apply (IH (tmr_note (mktmr (mk3 x z z) (mkst d c u) true log) z x)); reflexivity.
        -- rewrite (eqb_neq _ _ nyz); simpl.
           apply bk_get_unc; auto.
           apply (IH (mktmr (mk3 x y z) (mkst (S d) c (S u)) true log)); reflexivity.
  - apply bk_set. apply (IH (tmr_set m v)). exact Hcb.
  - apply bk_raw. rewrite <- tup_write. apply (IH (tmr_setRawCopy m i w)). exact Hcb.
  - apply bk_reset. apply (IH (tmr_reset m)). exact Hcb.
Qed.

Lemma perm3_unique (x y z g b g' b' : T) : g <> b -> g' <> b' ->
  Permutation [x; y; z] [g; g; b] -> Permutation [x; y; z] [g'; g'; b'] -> g = g' /\ b = b'.
Proof.
  intros n n' P1 P2.
  assert (P : Permutation [g; g; b] [g'; g'; b']) by (rewrite <- P1; exact P2).
  pose proof (proj1 (Permutation_count_occ eq_dec _ _) P) as C.
  pose proof (C g) as Cg. pose proof (C b) as Cb. simpl in Cg, Cb.
  repeat match goal with H : context [eq_dec ?a ?c] |- _ => destruct (eq_dec a c) end;
    subst; try congruence; try lia; auto.
Qed.

Lemma booked_det h : forall cs b b1 b2, booked (T:=T) cs h b b1 -> booked cs h b b2 -> b1 = b2.
Proof.
  induction h as [|c h IH]; intros cs b b1 b2 H1 H2.
  - inversion H1; inversion H2; subst; reflexivity.
  - destruct c as [|v|i w|].
    2-4: inversion H1; inversion H2; subst; eapply IH; eauto.
    assert (X : forall v g d : T, g <> d -> ~ Permutation [v; v; v] [g; g; d]).
    { intros v g d n P.
      pose proof (Permutation_in d (Permutation_sym P) (or_intror (or_intror (or_introl eq_refl)))) as Id.
      pose proof (Permutation_in g (Permutation_sym P) (or_introl eq_refl)) as Ig.
      simpl in *. intuition congruence. }
    assert (Y : forall x y z g d : T, x <> y -> x <> z -> y <> z -> ~ Permutation [x; y; z] [g; g; d]).
    { intros x y z g d nxy nxz nyz P.
      assert (NoDup [x; y; z]) as N.
      { repeat constructor; simpl; intuition. }
      apply (Permutation_NoDup P) in N. inversion N; subst. simpl in *; tauto. }
    inversion H1 as [| | | |v1 ? ? ? B1|? g1 e1 ? ? ? N1 P1 B1|x1 y1 z1 ? ? ? n1 n2 n3 B1]; subst;
    inversion H2 as [| | | |v2 ? ? ? B2|? g2 e2 ? ? ? N2 P2 B2|x2 y2 z2 ? ? ? m1 m2 m3 B2]; subst;
      simpl in *; try congruence; try (eapply IH; eassumption);
      try (exfalso; eapply X; eassumption); try (exfalso; eapply Y; eassumption).
    all: try (destruct (perm3_unique _ _ _ _ _ _ _ N1 N2 P1 P2); subst; eapply IH; eassumption).
    all: exfalso; match goal with P : Permutation _ _ |- _ => revert P; apply Y; assumption end.
Qed.

Lemma stats_sum h : forall m,
  detected (tstats m) = corrected (tstats m) + uncorrectable (tstats m) ->
  let m' := fold_left tcall h m in
  detected (tstats m') = corrected (tstats m') + uncorrectable (tstats m').
Proof.
  induction h as [|c h IH]; intros m Hm; cbn [fold_left]; [exact Hm|].
  apply IH. destruct c; simpl; auto.
  unfold tmr_get, tmr_note.
  repeat match goal with |- context [if ?b then _ else _] => destruct b end; simpl; lia.
Qed.

(** *** four copies *)
Definition e4_hist_copies (s : @copies4 T) := [d0 s; d1 s; d2 s; d3 s].

Lemma e4_scan_max (entries : list (T * nat)) : forall best m,
  (forall k n, In (k, n) entries -> n <= m) -> e4_scan entries best m = best.
Proof.
  induction entries as [|[k n] r IH]; simpl; intros best m H; auto.
  assert (n <= m) by (apply (H k); auto).
  destruct (Nat.ltb_spec m n); [lia|]. apply IH. intros; eapply H; eauto.
Qed.

(* an entry that strictly dominates all others is always selected *)
Lemma e4_scan_dom (entries : list (T * nat)) v c : forall best m,
  In (v, c) entries -> m < c -> (forall k n, In (k, n) entries -> (k, n) = (v, c) \/ n < c) ->
  e4_scan entries best m = v.
Proof.
  induction entries as [|[k n] r IH]; simpl; intros best m Hin Hm Hd; [tauto|].
  destruct Hin as [E|Hin].
  - inversion E; subst. destruct (Nat.ltb_spec m c); [|lia].
    apply e4_scan_max. intros k' n' H'. destruct (Hd k' n' (or_intror H')) as [E'|]; [inversion E'|]; lia.
  - destruct (Hd k n (or_introl eq_refl)) as [E'|Hlt].
    + inversion E'; subst. destruct (Nat.ltb_spec m c); [|lia].
      apply e4_scan_max. intros k' n' H'. destruct (Hd k' n' (or_intror H')) as [E''|]; [inversion E''|]; lia.
    + destruct (Nat.ltb_spec m n); apply IH; auto; lia.
Qed.

Ltac kill n n' H :=
  repeat (rewrite ?eqb_refl, ?(eqb_neq _ _ n), ?(eqb_neq _ _ n') in H; simpl in H).

Lemma e4_masks v i w entries k :
  let s := write4 (mk4 v v v v k) i w in
  Permutation entries (e4_counts eqb s) -> e4_get_in_order eqb s entries = v.
Proof.
  intros s HP. subst s. unfold e4_get_in_order.
  destruct (eq_dec v w) as [<-|n].
  - destruct i as [|[|[|[|i]]]]; simpl; rewrite !eqb_refl; reflexivity.
  - assert (n' : w <> v) by auto.
    destruct (Nat.lt_ge_cases i 4) as [Hi|Hi].
    2:{ destruct i as [|[|[|[|i]]]]; [lia..|]. simpl. rewrite !eqb_refl. reflexivity. }
    assert (Hc : e4_counts eqb (write4 (mk4 v v v v k) i w) = [(v, 3); (w, 1)] \/
                 e4_counts eqb (write4 (mk4 v v v v k) i w) = [(w, 1); (v, 3)]).
    { unfold e4_counts.
      destruct i as [|[|[|[|i]]]]; [| | | |lia]; simpl;
      repeat (rewrite ?eqb_refl, ?(eqb_neq _ _ n), ?(eqb_neq _ _ n'); simpl); auto. }
    assert (Hs : e4_scan entries (d0 (write4 (mk4 v v v v k) i w)) 0 = v).
    { apply (e4_scan_dom entries v 3); [|lia|].
      - apply (Permutation_in _ (Permutation_sym HP)). destruct Hc as [->| ->]; simpl; auto.
      - intros x c Hin. apply (Permutation_in _ HP) in Hin.
        destruct Hc as [Hc|Hc]; rewrite Hc in Hin; simpl in Hin;
          destruct Hin as [E|[E|[]]]; inversion E; subst; auto. }
    rewrite Hs.
    destruct i as [|[|[|[|i]]]]; [| | | |lia]; simpl;
      repeat (rewrite ?eqb_refl, ?(eqb_neq _ _ n), ?(eqb_neq _ _ n'); simpl); auto.
Qed.

Lemma e4_hasErrors_iff (s : @copies4 T) :
  e4_hasErrors eqb s = true <-> ~ (d0 s = d1 s /\ d0 s = d2 s /\ d0 s = d3 s).
Proof.
  unfold e4_hasErrors. rewrite !orb_true_iff, !negb_true_iff.
  destruct s as [a b c d k]; simpl. split.
  - intros [[H|H]|H] [-> [E1 E2]]; subst; rewrite eqb_refl in H; discriminate.
  - intros H. destruct (eq_dec a b) as [->|n]; [|left; left; apply eqb_neq; auto].
    destruct (eq_dec b c) as [->|n]; [|left; right; apply eqb_neq; auto].
    destruct (eq_dec c d) as [->|n]; [tauto|right; apply eqb_neq; auto].
Qed.

(* the value repaired to is one of the four stored copies *)
Lemma bump_keys m k : forall x n, In (x, n) (bump eqb m k) -> x = k \/ exists n', In (x, n') m.
Proof.
  induction m as [|[k' n'] r IH]; simpl; intros x n H.
  - destruct H as [E|[]]. inversion E; auto.
  - destruct (eqb k' k) eqn:E.
    + destruct H as [H|H]; [inversion H; subst; right; eauto|right; eauto].
    + destruct H as [H|H]; [inversion H; subst; right; eauto|].
      destruct (IH _ _ H) as [->|[n'' H']]; eauto.
Qed.
Lemma e4_scan_in (entries : list (T * nat)) : forall best m,
  e4_scan entries best m = best \/ exists n, In (e4_scan entries best m, n) entries.
Proof.
  induction entries as [|[k n] r IH]; simpl; intros best m; auto.
  destruct (m <? n).
  - right. destruct (IH k n) as [->|[n' H]]; eauto.
  - destruct (IH best m) as [->|[n' H]]; eauto.
Qed.
Lemma e4_get_in s entries : Permutation entries (e4_counts eqb s) ->
  In (e4_get_in_order eqb s entries) [d0 s; d1 s; d2 s; d3 s].
Proof.
  intros HP. unfold e4_get_in_order.
  destruct (_ && _ && _); [simpl; auto|].
  destruct (e4_scan_in entries (d0 s) 0) as [->|[n H]]; [simpl; auto|].
  apply (Permutation_in _ HP) in H. unfold e4_counts in H. revert H.
  generalize (e4_scan entries (d0 s) 0). intros x H.
  repeat match goal with
  | H : In (_, _) (bump _ _ _) |- _ => apply bump_keys in H; destruct H as [->|[? H]]; [simpl; auto|]
  end. inversion H.
Qed.

Lemma e4_repair_equal s entries : Permutation entries (e4_counts eqb s) ->
  let s' := fst (e4_repair eqb s entries) in
  d0 s' = d1 s' /\ d0 s' = d2 s' /\ d0 s' = d3 s' /\ In (d0 s') [d0 s; d1 s; d2 s; d3 s] /\
  (snd (e4_repair eqb s entries) = e4_hasErrors eqb s).
Proof.
  intros HP. unfold e4_repair. destruct (e4_hasErrors eqb s) eqn:E; simpl.
  - repeat split; auto. pose proof (e4_get_in s entries HP) as H. exact H.
  - assert (H : ~ (e4_hasErrors eqb s = true)) by (rewrite E; discriminate).
    rewrite e4_hasErrors_iff in H.
    destruct (eq_dec (d0 s) (d1 s)) as [E1|n]; [|tauto].
    destruct (eq_dec (d0 s) (d2 s)) as [E2|n]; [|tauto].
    destruct (eq_dec (d0 s) (d3 s)) as [E3|n]; [|tauto].
    repeat split; auto.
Qed.

Lemma e4_repair_masks v i w k entries :
  let s := write4 (mk4 v v v v k) i w in
  Permutation entries (e4_counts eqb s) ->
  let s' := fst (e4_repair eqb s entries) in
  d0 s' = v /\ d1 s' = v /\ d2 s' = v /\ d3 s' = v.
Proof.
  intros s HP. pose proof (e4_masks v i w entries k HP) as Hm. fold s in Hm.
  unfold e4_repair. destruct (e4_hasErrors eqb s) eqn:E; simpl.
  - rewrite Hm; auto.
  - assert (H : ~ (e4_hasErrors eqb s = true)) by (rewrite E; discriminate).
    rewrite e4_hasErrors_iff in H.
    assert (X : d0 s = d1 s /\ d0 s = d2 s /\ d0 s = d3 s).
    { destruct (eq_dec (d0 s) (d1 s)) as [E1|n]; [|tauto].
      destruct (eq_dec (d0 s) (d2 s)) as [E2|n]; [|tauto].
      destruct (eq_dec (d0 s) (d3 s)) as [E3|n]; tauto. }
    subst s. destruct i as [|[|[|[|i]]]]; simpl in *; intuition congruence.
Qed.

(* histories of the four-copy container: the iteration order is chosen by [pick] at
   every repair *)
Section E4Hist.
Variable pick : nat -> list (T * nat) -> list (T * nat).
Hypothesis Hpick : forall n l, Permutation (pick n l) l.

Definition e4_step (sn : @copies4 T * nat) (o : op T) : @copies4 T * nat :=
  let '(s, n) := sn in
  match o with
  | Set_ v => (e4_set s v, n)
  | Upset i w => (write4 s i w, n)
  | Repair => (fst (e4_repair eqb s (pick n (e4_counts eqb s))), S n)
  end.

Definition e4_inv (v : T) (hit : option nat) (s : @copies4 T) : Prop :=
  exists k, match hit with
  | None => s = mk4 v v v v k
  | Some i => exists w, s = write4 (mk4 v v v v k) i w
  end.

Lemma e4_hist_inv h : forall v hit s n, e4_inv v hit s -> spaced hit h = true ->
  exists hit', e4_inv (last_set v h) hit' (fst (fold_left e4_step h (s, n))).
Proof.
  induction h as [|o h IH]; simpl; intros v hit s n Hi Hs; [eauto|].
  destruct o as [x|i w|].
  - apply (IH x None); [exists 0; reflexivity|exact Hs].
  - destruct hit as [j|].
    + apply andb_prop in Hs as [Hj Hs]. apply Nat.eqb_eq in Hj; subst j.
      apply (IH v (Some i)); [|exact Hs].
      destruct Hi as [k [w0 ->]]. exists k, w. destruct i as [|[|[|[|i]]]]; reflexivity.
    + apply (IH v (Some i)); [|exact Hs]. destruct Hi as [k ->]. exists k, w; reflexivity.
  - apply (IH v None); [|exact Hs].
    assert (X : exists k i w, s = write4 (mk4 v v v v k) i w).
    { destruct hit as [i|]; destruct Hi as [k Hi]; [destruct Hi as [w ->]|subst s].
      - eauto. - exists k, 4, v. reflexivity. }
    destruct X as (k & i & w & ->).
    pose proof (e4_repair_masks v i w k _ (Hpick n (e4_counts eqb (write4 (mk4 v v v v k) i w)))) as H.
    simpl in H. destruct H as (H0 & H1 & H2 & H3).
    destruct (fst (e4_repair eqb _ _)) as [a b c d k'] eqn:E in H0, H1, H2, H3 |- *.
    exists k'. simpl in *. subst. reflexivity.
Qed.

Lemma e4_hist_get v h n entries : spaced None h = true ->
  let s := fst (fold_left e4_step h (e4_new v, n)) in
  Permutation entries (e4_counts eqb s) ->
  e4_get_in_order eqb s entries = last_set v h.
Proof.
  intros Hs s HP.
  destruct (e4_hist_inv h v None (e4_new v) n) as [hit' H]; [exists 0; reflexivity|exact Hs|].
  fold s in H. destruct hit' as [i|]; destruct H as [k H].
  - destruct H as [w H]. rewrite H in *. apply e4_masks; exact HP.
  - rewrite H in *. apply (e4_masks _ 4 (last_set v h)); exact HP.
Qed.

(* C05: the counter never exceeds 1 *)
Lemma e4_count_le1 h : forall s n, err_count s <= 1 ->
  err_count (fst (fold_left e4_step h (s, n))) <= 1.
Proof.
  induction h as [|o h IH]; simpl; intros s n H; [exact H|].
  destruct o as [x|i w|].
  - apply IH; simpl; lia.
  - apply IH. destruct i as [|[|[|[|i]]]]; exact H.
  - apply IH. unfold e4_repair. destruct (e4_hasErrors eqb s); simpl; lia.
Qed.
End E4Hist.
End P.
