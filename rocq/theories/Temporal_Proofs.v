From Coq Require Import List NArith ZArith Bool Lia SpecFloat Sorting.Sorted.
Import ListNotations.
From Verif Require Import Outcome Words Arith Floats Health_Model Health_Spec HealthW_Proofs Stuck_Model Stuck_Spec Stuck_Proofs StuckHist_Proofs Temporal_Model Temporal_Spec.

(** *** the vote over executions *)
Section Vote.
Context {V : Type}.
Variable lt : V -> V -> bool.
Variable P : V -> Prop.
Variable O : ordered lt P.
Let eqv := same lt.
Let occ := occurrences lt.

Lemma eqv_iff a b : eqv a b = true <-> lt a b = false /\ lt b a = false.
Proof. unfold eqv, same. destruct (lt a b), (lt b a); cbn; intuition congruence. Qed.
Lemma eqv_refl a : P a -> eqv a a = true.
Proof. intros Pa. apply eqv_iff. rewrite (ord_irr _ _ O a Pa). auto. Qed.
Lemma eqv_sym a b : eqv a b = eqv b a.
Proof. unfold eqv, same. apply andb_comm. Qed.
Lemma lt_asym a b : P a -> P b -> lt a b = true -> lt b a = false.
Proof.
  intros Pa Pb H. destruct (lt b a) eqn:E; [|reflexivity].
  rewrite <- (ord_irr _ _ O a Pa). symmetry. apply (ord_trans _ _ O a b a); assumption.
Qed.
Lemma lt_eqv_l a b c : P a -> P b -> P c -> eqv a b = true -> lt a c = lt b c.
Proof.
  intros Pa Pb Pc H. apply eqv_iff in H. destruct H as [H1 H2].
  destruct (lt a c) eqn:E, (lt b c) eqn:F; try reflexivity.
  - destruct (ord_cmp _ _ O a c b Pa Pc Pb E); congruence.
  - destruct (ord_cmp _ _ O b c a Pb Pc Pa F); congruence.
Qed.
Lemma lt_eqv_r a b c : P a -> P b -> P c -> eqv a b = true -> lt c a = lt c b.
Proof.
  intros Pa Pb Pc H. apply eqv_iff in H. destruct H as [H1 H2].
  destruct (lt c a) eqn:E, (lt c b) eqn:F; try reflexivity.
  - destruct (ord_cmp _ _ O c a b Pc Pa Pb E); congruence.
  - destruct (ord_cmp _ _ O c b a Pc Pb Pa F); congruence.
Qed.
Lemma eqv_eqv a b c : P a -> P b -> P c -> eqv a b = true -> eqv a c = eqv b c.
Proof. intros Pa Pb Pc H. unfold eqv, same. rewrite (lt_eqv_l a b c), (lt_eqv_r a b c); auto. Qed.

Lemma occ_app x l y : occ x (l ++ [y]) = (occ x l + if eqv x y then 1 else 0)%nat.
Proof.
  unfold occ, occurrences. rewrite filter_app, app_length. cbn [filter]. fold (eqv x y). destruct (eqv x y); reflexivity.
Qed.
Lemma occ_eqv a b l : P a -> P b -> Forall P l -> eqv a b = true -> occ a l = occ b l.
Proof.
  intros Pa Pb H E. unfold occ, occurrences. induction H as [|x l Px H IH]; [reflexivity|]. cbn [filter].
  fold (eqv a x). fold (eqv b x). rewrite (eqv_eqv a b x Pa Pb Px E). destruct (eqv b x); cbn [length]; congruence.
Qed.

(* what the map looks like after counting l *)
Definition keys_ok (m : list (V * nat)) (l : list V) : Prop :=
  StronglySorted (fun x y => lt (fst x) (fst y) = true) m /\
  (forall k n, In (k, n) m -> In k l /\ n = occ k l /\ (1 <= n)%nat) /\
  (forall x, In x l -> exists k n, In (k, n) m /\ eqv k x = true).

Lemma count_in_keys m k : forall x, In x (count_in lt m k) -> fst x = k \/ exists n, In (fst x, n) m.
Proof.
  induction m as [|[k' n] m IH]; intros x H.
  - cbn in H. destruct H as [<-|[]]. left. reflexivity.
  - cbn [count_in] in H. destruct (lt k' k).
    + destruct H as [<-|H]; [right; exists n; left; reflexivity|]. destruct (IH x H) as [E|[j E]]; [auto|right; exists j; right; exact E].
    + destruct (lt k k').
      * destruct H as [<-|H]; [left; reflexivity|]. right. exists (snd x). rewrite <- surjective_pairing. exact H.
      * destruct H as [<-|H]; [right; exists n; left; reflexivity|]. right. exists (snd x). rewrite <- surjective_pairing. right. exact H.
Qed.

Lemma count_in_sorted m k : P k -> (forall j n, In (j, n) m -> P j) ->
  StronglySorted (fun x y => lt (fst x) (fst y) = true) m ->
  StronglySorted (fun x y => lt (fst x) (fst y) = true) (count_in lt m k).
Proof.
  intros Pk Pm S. induction S as [|[k' n] m S IH F]; [cbn; repeat constructor|].
  cbn [count_in]. assert (Pk' : P k') by (apply (Pm k' n); left; reflexivity).
  destruct (lt k' k) eqn:E.
  - constructor; [apply IH; intros j i Hj; apply (Pm j i); right; exact Hj|].
    apply Forall_forall. intros x Hx. destruct (count_in_keys m k x Hx) as [->|[i Hi]]; [exact E|].
    rewrite Forall_forall in F. apply (F (fst x, i) Hi).
  - destruct (lt k k') eqn:E2.
    + constructor; [constructor; assumption|]. constructor; [exact E2|].
      apply Forall_forall. intros x Hx. rewrite Forall_forall in F. specialize (F x Hx). cbn in *.
      apply (ord_trans _ _ O k k' (fst x)); auto. apply (Pm (fst x) (snd x)). right. rewrite <- surjective_pairing. exact Hx.
    + constructor; [exact S|]. exact F.
Qed.

(* exact contents after one more count *)
Lemma count_in_spec m k : P k -> (forall j n, In (j, n) m -> P j) ->
  StronglySorted (fun x y => lt (fst x) (fst y) = true) m ->
  (forall j n, In (j, n) (count_in lt m k) ->
     (In (j, n) m /\ eqv j k = false) \/ (exists i, n = (i + 1)%nat /\ In (j, i) m /\ eqv j k = true) \/
     (j = k /\ n = 1%nat /\ forall x i, In (x, i) m -> eqv x k = false)) /\
  (forall j i, In (j, i) m -> exists n, In (j, n) (count_in lt m k)) /\
  (exists j n, In (j, n) (count_in lt m k) /\ eqv j k = true).
Proof.
  intros Pk Pm S. induction S as [|[k' n'] m S IH F].
  - cbn. split; [|split].
    + intros j n [H|[]]. injection H as <- <-. right. right. split; [reflexivity|]. split; [reflexivity|]. intros x i [].
    + intros j i [].
    + exists k, 1%nat. split; [auto|apply eqv_refl; exact Pk].
  - assert (Pk' : P k') by (apply (Pm k' n'); left; reflexivity).
    assert (Pm' : forall j n, In (j, n) m -> P j) by (intros j n H; apply (Pm j n); right; exact H).
    specialize (IH Pm'). rewrite Forall_forall in F.
    cbn [count_in]. destruct (lt k' k) eqn:E.
    + assert (Ek : eqv k' k = false) by (unfold eqv, same; rewrite E; reflexivity).
      destruct IH as (I1 & I2 & I3). split; [|split].
      * intros j n [H|H].
        { injection H as <- <-. left. split; [left; reflexivity|exact Ek]. }
        destruct (I1 j n H) as [[A B]|[(i & A & B & C)|(A & B & C)]].
        { left. split; [right; exact A|exact B]. }
        { right. left. exists i. split; [exact A|]. split; [right; exact B|exact C]. }
        { right. right. split; [exact A|]. split; [exact B|]. intros x i [Hx|Hx]; [injection Hx as <- <-; exact Ek|apply (C x i Hx)]. }
      * intros j i [H|H]; [injection H as <- <-; exists n'; left; reflexivity|]. destruct (I2 j i H) as [n Hn]. exists n. right. exact Hn.
      * destruct I3 as (j & n & A & B). exists j, n. split; [right; exact A|exact B].
    + destruct (lt k k') eqn:E2.
      * assert (Big : forall x i, In (x, i) ((k', n') :: m) -> eqv x k = false).
        { intros x i [Hx|Hx].
          - injection Hx as <- <-. unfold eqv, same. rewrite E2. apply andb_false_r.
          - assert (lt k x = true) as Lx.
            { apply (ord_trans _ _ O k k' x); auto; [apply (Pm' x i Hx)|apply (F (x, i) Hx)]. }
            unfold eqv, same. rewrite Lx. apply andb_false_r. }
        split; [|split].
        { intros j n [H|H]; [injection H as <- <-; right; right; auto|]. left. split; [exact H|]. apply (Big j n H). }
        { intros j i H. exists i. right. exact H. }
        { exists k, 1%nat. split; [left; reflexivity|apply eqv_refl; exact Pk]. }
      * assert (Ek : eqv k' k = true) by (apply eqv_iff; auto).
        split; [|split].
        { intros j n [H|H].
          - injection H as <- <-. right. left. exists n'. split; [reflexivity|]. split; [left; reflexivity|exact Ek].
          - left. split; [right; exact H|]. assert (lt k' j = true) as L by (apply (F (j, n) H)).
            assert (Pj := Pm' j n H). rewrite (eqv_sym j k). rewrite <- (eqv_eqv k' k j Pk' Pk Pj Ek).
            unfold eqv, same. rewrite L. reflexivity. }
        { intros j i [H|H]; [injection H as <- <-; exists (n' + 1)%nat; left; reflexivity|exists i; right; exact H]. }
        { exists k', (n' + 1)%nat. split; [left; reflexivity|exact Ek]. }
Qed.

Lemma count_keeps m l k : Forall P l -> P k -> keys_ok m l -> keys_ok (count_in lt m k) (l ++ [k]).
Proof.
  intros Pl Pk (S & A & B).
  assert (Pm : forall j n, In (j, n) m -> P j).
  { intros j n H. destruct (A j n H) as [Hin _]. rewrite Forall_forall in Pl. auto. }
  destruct (count_in_spec m k Pk Pm S) as (C1 & C2 & C3).
  split; [apply count_in_sorted; assumption|]. split.
  - intros j n H. rewrite occ_app. destruct (C1 j n H) as [[H1 H2]|[(i & H1 & H2 & H3)|(H1 & H2 & H3)]].
    + destruct (A j n H1) as (X & Y & Z). rewrite H2. split; [apply in_or_app; auto|]. lia.
    + destruct (A j i H2) as (X & Y & Z). rewrite H3. split; [apply in_or_app; auto|]. lia.
    + subst j n. rewrite (eqv_refl k Pk). split; [apply in_or_app; right; left; reflexivity|].
      assert (occ k l = 0%nat) as ->; [|lia].
      unfold occ, occurrences. destruct (filter (same lt k) l) as [|y r] eqn:E; [reflexivity|exfalso].
      assert (Hy : In y (filter (same lt k) l)) by (rewrite E; left; reflexivity).
      apply filter_In in Hy. destruct Hy as [Hy Ey]. destruct (B y Hy) as (j & n & Hj & Hjy).
      assert (Pj := Pm j n Hj). assert (Py : P y) by (rewrite Forall_forall in Pl; auto).
      specialize (H3 j n Hj). fold (eqv k y) in Ey. rewrite (eqv_eqv j y k Pj Py Pk Hjy), eqv_sym in H3. congruence.
  - intros x Hx. apply in_app_or in Hx. destruct Hx as [Hx|[<-|[]]].
    + destruct (B x Hx) as (j & n & Hj & E). destruct (C2 j n Hj) as [n' Hn]. exists j, n'. auto.
    + exact C3.
Qed.
Lemma counted l : Forall P l -> keys_ok (fold_left (count_in lt) l []) l.
Proof.
  intros H. induction l as [|x l IH] using rev_ind.
  - cbn. split; [constructor|]. split; [intros k n []|intros x []].
  - rewrite fold_left_app. cbn [fold_left]. apply Forall_app in H. destruct H as [Hl Hx]. inversion Hx; subst.
    apply count_keeps; auto.
Qed.

Lemma max_fold m : forall x0, let r := fold_left (fun best y : V * nat => if (snd best <? snd y)%nat then y else best) m x0 in
  exists pre post, x0 :: m = pre ++ r :: post /\ (forall y, In y pre -> (snd y < snd r)%nat) /\ (forall y, In y post -> (snd y <= snd r)%nat).
Proof.
  induction m as [|y m IH] using rev_ind; intros x0; cbv zeta.
  - exists [], []. cbn. split; [reflexivity|]. split; intros y [].
  - rewrite fold_left_app. cbn [fold_left]. destruct (IH x0) as (pre & post & E & A & B). cbv zeta in E.
    set (r := fold_left _ m x0) in *. destruct (Nat.ltb_spec (snd r) (snd y)) as [L|L].
    + exists (x0 :: m), []. cbn [app]. split; [reflexivity|]. split; [|intros z []].
      rewrite E. intros z Hz. apply in_app_or in Hz. destruct Hz as [Hz|[<-|Hz]]; [specialize (A z Hz)| |specialize (B z Hz)]; lia.
    + exists pre, (post ++ [y]). split; [rewrite app_comm_cons, E, <- app_assoc; reflexivity|]. split; [exact A|].
      intros z Hz. apply in_app_or in Hz. destruct Hz as [Hz|[<-|[]]]; [auto|lia].
Qed.
Lemma vote_spec l : Forall P l -> l <> [] -> exists r, findMostCommonResult lt l = Ret r /\
  In r l /\
  (forall x, In x l -> (occ x l <= occ r l)%nat) /\
  (forall x, In x l -> occ x l = occ r l -> lt x r = false).
Proof.
  intros Pl Hne. unfold findMostCommonResult. destruct (counted l Pl) as (S & A & B).
  set (m := fold_left (count_in lt) l []) in *. destruct m as [|x0 m].
  { destruct l as [|x l]; [contradiction|]. destruct (B x) as (k & n & [] & _). left. reflexivity. }
  cbn [max_element]. destruct (max_fold m x0) as (pre & post & E & MA & MB). cbv zeta in E.
  set (r := fold_left _ m x0) in *. destruct r as [k n]. cbn [snd] in *. exists k. split; [reflexivity|].
  assert (Hr : In (k, n) (x0 :: m)) by (rewrite E; apply in_or_app; right; left; reflexivity).
  destruct (A k n Hr) as (Hk & -> & _). split; [exact Hk|].
  rewrite Forall_forall in Pl.
  split.
  - intros x Hx. destruct (B x Hx) as (k' & n' & Hk' & E'). destruct (A k' n' Hk') as (Hin & -> & _).
    rewrite <- (occ_eqv k' x l) by (auto; apply Forall_forall; exact Pl).
    rewrite E in Hk'. apply in_app_or in Hk'. destruct Hk' as [H|[H|H]];
      [specialize (MA _ H); cbn in MA; lia|injection H as ->; lia|specialize (MB _ H); exact MB].
  - intros x Hx Ho. destruct (B x Hx) as (k' & n' & Hk' & E'). destruct (A k' n' Hk') as (Hin & -> & _).
    rewrite <- (lt_eqv_l k' x k) by auto.
    rewrite <- (occ_eqv k' x l) in Ho by (auto; apply Forall_forall; exact Pl).
    rewrite E in Hk'. apply in_app_or in Hk'. destruct Hk' as [H|[H|H]].
    + specialize (MA _ H). cbn in MA. lia.
    + injection H as ->. apply (ord_irr _ _ O). auto.
    + apply lt_asym; auto. rewrite E in S. clear - S H. induction pre as [|a pre IH]; cbn in S.
      * inversion S as [|? ? _ F]; subst. rewrite Forall_forall in F. apply (F _ H).
      * inversion S; subst. auto.
Qed.
(* a strict majority of executions decides *)
Lemma vote_majority l v : Forall P l -> P v -> (length l < 2 * occ v l)%nat ->
  exists r, findMostCommonResult lt l = Ret r /\ eqv r v = true.
Proof.
  intros Pl Pv H. assert (Hne : l <> []) by (intros ->; cbn in H; lia).
  destruct (vote_spec l Pl Hne) as (r & E & Hr & Hm & _). exists r. split; [exact E|].
  rewrite Forall_forall in Pl. assert (Pr := Pl r Hr).
  destruct (eqv r v) eqn:Q; [reflexivity|exfalso].
  (* the classes of r and v are disjoint *)
  assert (D : forall l', Forall P l' -> (occ r l' + occ v l' <= length l')%nat).
  { intros l' H'. unfold occ, occurrences. induction H' as [|x l' Px H' IH]; [cbn; lia|]. cbn [filter length].
    fold (eqv r x). fold (eqv v x). destruct (eqv r x) eqn:E1, (eqv v x) eqn:E2; cbn [length]; try lia.
    exfalso. rewrite eqv_sym in E2. rewrite (eqv_eqv r x v Pr Px Pv E1) in Q. congruence. }
  assert (Hv : In v l \/ exists x, In x l /\ eqv v x = true).
  { right. unfold occ, occurrences in H. destruct (filter (same lt v) l) as [|x q] eqn:F; [cbn in H; lia|].
    exists x. apply filter_In. unfold eqv. rewrite F. left. reflexivity. }
  assert (occ v l <= occ r l)%nat.
  { destruct Hv as [Hv|(x & Hx & Ex)]; [apply Hm; exact Hv|]. rewrite (occ_eqv v x l) by (auto; apply Forall_forall; exact Pl). apply Hm. exact Hx. }
  assert (D' := D l). rewrite Forall_forall in D'. specialize (D' Pl). lia.
Qed.
End Vote.

Lemma run_n_length {V S} (op : S -> V * S) n : forall s, length (fst (run_n op n s)) = n.
Proof.
  induction n as [|n IH]; intros s; [reflexivity|]. cbn [run_n]. destruct (op s) as [r s1].
  specialize (IH s1). destruct (run_n op n s1) as [l s2]. cbn in *. congruence.
Qed.
Lemma execute_zero {V S} (lt : V -> V -> bool) (op : S -> V * S) s : execute lt 0 op s = UB UB_deref_end.
Proof. reflexivity. Qed.
Lemma execute_spec {V S} (lt : V -> V -> bool) P (op : S -> V * S) n s : ordered lt P -> (1 <= n)%nat ->
  let l := fst (run_n op n s) in Forall P l ->
  exists r, execute lt n op s = Ret (r, snd (run_n op n s)) /\ In r l /\
  (forall x, In x l -> (occurrences lt x l <= occurrences lt r l)%nat) /\
  (forall x, In x l -> occurrences lt x l = occurrences lt r l -> lt x r = false) /\
  (forall v, P v -> (n < 2 * occurrences lt v l)%nat -> same lt r v = true).
Proof.
  intros O Hn l Pl. unfold execute. pose proof (run_n_length op n s) as L. fold l in L. unfold l in *.
  destruct (run_n op n s) as [l' s']. cbn [fst snd] in *. clear l.
  assert (Hne : l' <> []) by (intros ->; cbn in L; lia).
  destruct (vote_spec lt P O l' Pl Hne) as (r & E & A & B & C). exists r. rewrite E. cbn [obind].
  split; [reflexivity|]. split; [exact A|]. split; [exact B|]. split; [exact C|].
  intros v Pv H. rewrite <- L in H. destruct (vote_majority lt P O l' v Pl Pv H) as (r' & E' & Q).
  rewrite E in E'. injection E' as <-. exact Q.
Qed.

(** *** std::less on the arithmetic types is a strict weak order away from NaN *)
Lemma to_signed_lt_trans : forall a b c : Z, (a <? b)%Z = true -> (b <? c)%Z = true -> (a <? c)%Z = true.
Proof. intros a b c. rewrite !Z.ltb_lt. lia. Qed.
Definition skey (x : sf) : Z * Z * Z :=    (* sign/class, exponent, mantissa: lexicographic *)
  match x with
  | S754_nan => (9, 0, 0)
  | S754_infinity true => (-2, 0, 0)
  | S754_finite true m e => (-1, - e, Z.neg m)
  | S754_zero _ => (0, 0, 0)
  | S754_finite false m e => (1, e, Z.pos m)
  | S754_infinity false => (2, 0, 0)
  end%Z.
Definition klt (x y : Z * Z * Z) : Prop :=
  let '(a, b, c) := x in let '(a', b', c') := y in
  (a < a' \/ a = a' /\ (b < b' \/ b = b' /\ c < c'))%Z.
Lemma flt_key x y : x <> S754_nan -> y <> S754_nan -> (flt x y = true <-> klt (skey x) (skey y)).
Proof.
  intros Hx Hy. unfold flt, SFltb.
  destruct x as [sx|sx| |sx mx ex]; [destruct sx|destruct sx|contradiction|destruct sx];
    destruct y as [sy|sy| |sy my ey]; try contradiction; try destruct sy; cbn [SFcompare skey klt];
    try (split; [discriminate || lia|lia || reflexivity]);
    try (split; [intros _; lia|reflexivity]); try (split; [discriminate|lia]).
  - destruct (Z.compare_spec ex ey) as [E|E|E].
    + change (Pos.compare_cont Eq mx my) with (Pos.compare mx my). destruct (Pos.compare_spec mx my) as [F|F|F]; cbn; split; intros; try discriminate; try reflexivity; lia.
    + cbn; split; intros; try discriminate; lia.
    + cbn; split; intros; try reflexivity; lia.
  - destruct (Z.compare_spec ex ey) as [E|E|E].
    + change (Pos.compare_cont Eq mx my) with (Pos.compare mx my). destruct (Pos.compare_spec mx my) as [F|F|F]; cbn; split; intros; try discriminate; try reflexivity; lia.
    + cbn; split; intros; try reflexivity; lia.
    + cbn; split; intros; try discriminate; lia.
Qed.
