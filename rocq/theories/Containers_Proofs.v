(** Proofs about FixedVector, FixedMap and StaticAllocator. *)
From Coq Require Import List NArith Arith Bool Lia.
Import ListNotations.
From Verif Require Import Outcome Words Containers_Model Containers_Spec.

(** *** arrays *)
Lemma aset_length {A} (d : list (option A)) : forall i x, length (aset d i x) = length d.
Proof. induction d as [|y d IH]; intros [|i] x; cbn; auto. Qed.
Lemma aset_same {A} (d : list (option A)) : forall i x, (i < length d)%nat -> nth_error (aset d i x) i = Some (Some x).
Proof. induction d as [|y d IH]; intros [|i] x H; cbn in *; try lia; auto. apply IH. lia. Qed.
Lemma aset_other {A} (d : list (option A)) : forall i j x, i <> j -> nth_error (aset d i x) j = nth_error d j.
Proof. induction d as [|y d IH]; intros [|i] [|j] x H; cbn; auto; try lia. Qed.

(* [d] holds the list [l] in its first cells *)
Definition holds {A} (d : list (option A)) (l : list A) : Prop :=
  (length l <= length d)%nat /\ forall i x, nth_error l i = Some x -> nth_error d i = Some (Some x).

Lemma holds_read {A} (d : list (option A)) l i x : holds d l -> nth_error l i = Some x -> aread d i = Ret x.
Proof. intros [_ H] E. unfold aread. rewrite (H i x E). reflexivity. Qed.

Lemma holds_push {A} (d : list (option A)) l x : holds d l -> (length l < length d)%nat ->
  awrite d (length l) x = Ret (aset d (length l) x) /\ holds (aset d (length l) x) (l ++ [x]).
Proof.
  intros [L H] C. split.
  - unfold awrite. destruct (Nat.ltb_spec (length l) (length d)); [reflexivity|lia].
  - split; [rewrite aset_length, app_length; cbn; lia|].
    intros i y E. destruct (Nat.lt_trichotomy i (length l)) as [Hi|[->|Hi]].
    + rewrite nth_error_app1 in E by lia. rewrite aset_other by lia. apply H; exact E.
    + rewrite nth_error_app2, Nat.sub_diag in E by lia. injection E as <-. apply aset_same; exact C.
    + assert (nth_error (l ++ [x]) i = None) as N by (apply nth_error_None; rewrite app_length; cbn; lia).
      congruence.
Qed.

Definition upd {A} (i : nat) (x : A) (l : list A) : list A := firstn i l ++ x :: skipn (S i) l.
Lemma upd_length {A} i (x : A) l : (i < length l)%nat -> length (upd i x l) = length l.
Proof. intros H. unfold upd. rewrite app_length, firstn_length. cbn [length]. rewrite skipn_length. lia. Qed.
Lemma upd_nth {A} i (x : A) l j : (i < length l)%nat ->
  nth_error (upd i x l) j = if Nat.eqb j i then Some x else nth_error l j.
Proof.
  revert i j. induction l as [|y l IH]; intros [|i] [|j] H; cbn in *; try lia; auto.
  unfold upd in IH. rewrite <- (IH i j) by lia. reflexivity.
Qed.

Lemma holds_upd {A} (d : list (option A)) l i x : holds d l -> (i < length l)%nat ->
  awrite d i x = Ret (aset d i x) /\ holds (aset d i x) (upd i x l).
Proof.
  intros [L H] C. split.
  - unfold awrite. destruct (Nat.ltb_spec i (length d)); [reflexivity|lia].
  - split; [rewrite aset_length, upd_length by exact C; exact L|].
    intros j y E. rewrite upd_nth in E by exact C. destruct (Nat.eqb_spec j i) as [->|N].
    + injection E as <-. apply aset_same. lia.
    + rewrite aset_other by auto. apply H; exact E.
Qed.

Lemma holds_firstn {A} (d : list (option A)) l n : holds d l -> holds d (firstn n l).
Proof.
  intros [L H]. split; [rewrite firstn_length; lia|].
  intros i x E. apply H. rewrite <- E. clear -E.
  revert i n E. induction l as [|y l IH]; intros [|i] [|n] E; cbn in *; try discriminate; auto.
Qed.

(** *** FixedVector *)
Definition vrel {T} (cap : nat) (s : fvec T) (l : list T) : Prop :=
  length (v_data s) = cap /\ v_size s = length l /\ holds (v_data s) l.

Lemma vrel_new {T} cap : vrel cap (@fv_new T cap) [].
Proof.
  split; [apply repeat_length|]. split; [reflexivity|].
  split; [cbn; lia|]. intros [|i] x E; discriminate E.
Qed.

Lemma vec_step_ok {T} cap (s : fvec T) l o l' x : vrel cap s l -> list_step cap l o = Some (l', x) ->
  exists s', vec_step cap s o = Ret (s', x) /\ vrel cap s' l'.
Proof.
  intros (L & S & H) E. destruct o as [y|i| | | |i|i y]; cbn [list_step] in E; cbn [vec_step].
  - unfold fv_push. rewrite S. destruct (Nat.ltb_spec (length l) cap) as [C|C].
    + injection E as <- <-. destruct (Nat.leb_spec cap (length l)); [lia|].
      destruct (holds_push (v_data s) l y H ltac:(lia)) as [W H'].
      rewrite W. cbn [obind]. eexists. split; [reflexivity|].
      split; [cbn; rewrite aset_length; exact L|]. split; [cbn; rewrite app_length; cbn; lia|exact H'].
    + injection E as <- <-. destruct (Nat.leb_spec cap (length l)); [|lia]. cbn [obind].
      eexists. split; [reflexivity|]. split; auto.
  - unfold fv_at. rewrite S. destruct (nth_error l i) as [y|] eqn:N; injection E as <- <-.
    + assert (i < length l)%nat by (apply nth_error_Some; congruence).
      destruct (Nat.leb_spec (length l) i); [lia|].
      rewrite (holds_read _ _ _ _ H N). cbn [obind]. eexists. split; [reflexivity|]. split; auto.
    + apply nth_error_None in N. destruct (Nat.leb_spec (length l) i); [|lia]. cbn [obind].
      eexists. split; [reflexivity|]. split; auto.
  - injection E as <- <-. eexists. split; [reflexivity|]. split; [exact L|]. split; [reflexivity|].
    exact (holds_firstn _ _ 0 H).
  - injection E as <- <-. unfold fv_size. rewrite S. eexists. split; [reflexivity|]. split; auto.
  - injection E as <- <-. unfold fv_empty. rewrite S. eexists. split; [|split; [exact L|split; [exact S|exact H]]].
    destruct l; reflexivity.
  - destruct (nth_error l i) as [y|] eqn:N; [|discriminate]. injection E as <- <-.
    unfold fv_get. rewrite (holds_read _ _ _ _ H N). cbn [obind]. eexists. split; [reflexivity|]. split; auto.
  - destruct (Nat.ltb_spec i (length l)) as [C|C]; [|discriminate]. injection E as <- <-.
    destruct (holds_upd (v_data s) l i y H C) as [W H']. unfold fv_put. rewrite W. cbn [obind].
    eexists. split; [reflexivity|]. split; [cbn; rewrite aset_length; exact L|].
    split; [|exact H']. cbn [v_size]. rewrite S. symmetry. exact (upd_length i y l C).
Qed.

Lemma vec_run_ok {T} cap : forall (os : list (vop T)) s l xs, vrel cap s l ->
  list_run cap l os = Some xs -> vec_run cap s os = Ret xs.
Proof.
  induction os as [|o os IH]; cbn [list_run vec_run]; intros s l xs R E; [injection E as <-; reflexivity|].
  destruct (list_step cap l o) as [[l' x]|] eqn:St; [|discriminate].
  destruct (vec_step_ok cap s l o l' x R St) as (s' & Ev & R'). rewrite Ev. cbn [obind].
  destruct (list_run cap l' os) as [ys|] eqn:Er; [|discriminate]. injection E as <-.
  rewrite (IH _ _ _ R' Er). reflexivity.
Qed.

(** *** FixedMap *)
Section FM.
  Context {K V : Type} (keq : K -> K -> bool) (cap : nat).
  Hypothesis keq_ok : forall x y, keq x y = true <-> x = y.

  (* the list of entries *)
  Definition mrel (s : fmap K V) (l : list (K * V)) : Prop :=
    length (m_keys s) = cap /\ length (m_vals s) = cap /\ m_size s = length l /\
    holds (m_keys s) (map fst l) /\ holds (m_vals s) (map snd l) /\ NoDup (map fst l).
  Definition abst (l : list (K * V)) (m : pmap K V) : Prop :=
    p_card m = length l /\ forall k v, p_get m k = Some v <-> In (k, v) l.

  Lemma keq_neq x y : keq x y = false <-> x <> y.
  Proof.
    split.
    - intros E H. apply keq_ok in H. congruence.
    - intros H. destruct (keq x y) eqn:E; [|reflexivity]. apply keq_ok in E. contradiction.
  Qed.

  Lemma mrel_new : mrel (fm_new cap) [].
  Proof.
    repeat split; try apply repeat_length; cbn; try lia; try constructor; intros [|i] x E; discriminate E.
  Qed.

  Lemma search_ok (s : fmap K V) k : forall n i (l1 l2 : list (K * V)), holds (m_keys s) (map fst (l1 ++ l2)) -> length l1 = i -> length l2 = n ->
    (exists j v, fm_search keq n i s k = Ret (Some j) /\ (j < length (l1 ++ l2))%nat /\
                 nth_error (l1 ++ l2) j = Some (k, v)) \/
    (fm_search keq n i s k = Ret None /\ ~ In k (map fst l2)).
  Proof.
    induction n as [|n IH]; intros i l1 l2 H L1 L2; cbn [fm_search].
    - right. split; [reflexivity|]. destruct l2; [intros []|discriminate L2].
    - destruct l2 as [|[k' v'] l2]; [discriminate L2|].
      assert (N : nth_error (l1 ++ (k', v') :: l2) i = Some (k', v')).
      { rewrite nth_error_app2 by lia. rewrite <- L1, Nat.sub_diag. reflexivity. }
      assert (N' : nth_error (map fst (l1 ++ (k', v') :: l2)) i = Some k').
      { exact (map_nth_error fst i _ N). }
      rewrite (holds_read _ _ _ _ H N'). cbn [obind].
      destruct (keq k' k) eqn:E.
      + apply keq_ok in E. subst k'. left. exists i, v'. repeat split; auto.
        apply nth_error_Some. congruence.
      + assert (A : l1 ++ (k', v') :: l2 = (l1 ++ [(k', v')]) ++ l2) by (rewrite <- app_assoc; reflexivity).
        rewrite A in H |- *. destruct (IH (Datatypes.S i) (l1 ++ [(k', v')]) l2 H) as [Q|[Q1 Q2]].
        * rewrite app_length. cbn. lia.
        * cbn in L2. lia.
        * left. exact Q.
        * right. split; [exact Q1|]. cbn. intros [Q|Q]; [|exact (Q2 Q)].
          apply keq_neq in E. contradiction.
  Qed.

  Lemma search_top s l k : mrel s l ->
    (exists j v, fm_search keq (m_size s) 0 s k = Ret (Some j) /\ (j < length l)%nat /\ nth_error l j = Some (k, v)) \/
    (fm_search keq (m_size s) 0 s k = Ret None /\ ~ In k (map fst l)).
  Proof. intros (_ & _ & S & H & _). exact (search_ok s k (m_size s) 0 [] l H eq_refl (eq_sym S)). Qed.

  Lemma nodup_fst (l : list (K * V)) k v v' : NoDup (map fst l) -> In (k, v) l -> In (k, v') l -> v = v'.
  Proof.
    induction l as [|[a b] l IH]; cbn; [intros _ []|]; intros N [E|I] [E'|I'].
    - congruence.
    - inversion N; subst. injection E as -> ->. destruct H1. apply (in_map fst) in I'. exact I'.
    - inversion N; subst. injection E' as -> ->. destruct H1. apply (in_map fst) in I. exact I.
    - inversion N; subst. auto.
  Qed.

  Lemma abst_none l m k : abst l m -> ~ In k (map fst l) -> p_get m k = None.
  Proof.
    intros [_ H] N. destruct (p_get m k) as [v|] eqn:E; [|reflexivity].
    apply H in E. destruct N. apply (in_map fst) in E. exact E.
  Qed.

  Lemma map_upd {A B} (f : A -> B) i x l : map f (upd i x l) = upd i (f x) (map f l).
  Proof. unfold upd. rewrite map_app, firstn_map. cbn [map]. rewrite skipn_map. reflexivity. Qed.

  Lemma upd_same {A} i (x : A) l : nth_error l i = Some x -> upd i x l = l.
  Proof.
    revert i. induction l as [|y l IH]; intros [|i] E; cbn in *; try discriminate.
    - injection E as ->. reflexivity.
    - unfold upd in *. cbn. f_equal. apply IH. exact E.
  Qed.

  Lemma in_upd {A} i (x : A) l y : (i < length l)%nat ->
    (In y (upd i x l) <-> y = x \/ exists j, j <> i /\ nth_error l j = Some y).
  Proof.
    intros H. split.
    - intros I. apply In_nth_error in I. destruct I as [j E]. rewrite upd_nth in E by exact H.
      destruct (Nat.eqb_spec j i); [left; congruence|right; eauto].
    - intros [->|(j & N & E)].
      + apply (nth_error_In _ i). rewrite upd_nth, Nat.eqb_refl by exact H. reflexivity.
      + apply (nth_error_In _ j). rewrite upd_nth by exact H. destruct (Nat.eqb_spec j i); [contradiction|exact E].
  Qed.

  Lemma nodup_index {A} (l : list A) i j x : NoDup l -> nth_error l i = Some x -> nth_error l j = Some x -> i = j.
  Proof.
    intros N Ei Ej. apply (proj1 (NoDup_nth_error l) N); [|congruence]. apply nth_error_Some. congruence.
  Qed.

  Lemma step_insert_old s l m j k v v0 : mrel s l -> abst l m -> (j < length l)%nat -> nth_error l j = Some (k, v0) ->
    awrite (m_vals s) j v = Ret (aset (m_vals s) j v) /\
    mrel (mkm (m_keys s) (aset (m_vals s) j v) (m_size s)) (upd j (k, v) l) /\
    abst (upd j (k, v) l) (mkp (fun k' => if keq k' k then Some v else p_get m k') (p_card m)).
  Proof.
    intros (L1 & L2 & S & H1 & H2 & ND) (C & G) J E.
    assert (KS : map fst (upd j (k, v) l) = map fst l).
    { rewrite map_upd. apply upd_same. exact (map_nth_error fst j l E). }
    destruct (holds_upd (m_vals s) (map snd l) j v H2) as [W H']; [rewrite map_length; exact J|].
    split; [exact W|]. split.
    - repeat split; cbn [m_keys m_vals m_size].
      + exact L1.
      + rewrite aset_length. exact L2.
      + rewrite upd_length by exact J. exact S.
      + rewrite KS. apply H1.
      + rewrite KS. apply H1.
      + rewrite map_upd. cbn [snd]. apply H'.
      + rewrite map_upd. cbn [snd]. apply H'.
      + rewrite KS. exact ND.
    - split; [cbn; rewrite upd_length by exact J; exact C|].
      intros k' v'. cbn [p_get]. rewrite in_upd by exact J.
      assert (NK : forall j' y, nth_error l j' = Some (k, y) -> j' = j).
      { intros j' y E'. apply (nodup_index (map fst l) j' j k ND); [exact (map_nth_error fst j' l E')|exact (map_nth_error fst j l E)]. }
      destruct (keq k' k) eqn:Q.
      + apply keq_ok in Q. subst k'. split.
        * intros X. injection X as <-. left. reflexivity.
        * intros [X|(j' & N & X)]; [congruence|]. destruct N. exact (NK _ _ X).
      + apply keq_neq in Q. rewrite G. split.
        * intros I. right. apply In_nth_error in I. destruct I as [j' E']. exists j'. split; [|exact E'].
          intros ->. congruence.
        * intros [X|(j' & N & X)]; [congruence|]. eapply nth_error_In. exact X.
  Qed.

  Lemma in_removed (l : list (K * V)) j k v0 y : NoDup (map fst l) -> nth_error l j = Some (k, v0) ->
    (exists i, i <> j /\ nth_error l i = Some y) <-> (In y l /\ fst y <> k).
  Proof.
    intros ND E. split.
    - intros (i & N & X). split; [eapply nth_error_In; exact X|]. intros Q. apply N.
      apply (nodup_index (map fst l) i j k ND); [|exact (map_nth_error fst j l E)].
      rewrite <- Q. exact (map_nth_error fst i l X).
    - intros [I N]. apply In_nth_error in I. destruct I as [i X]. exists i. split; [|exact X].
      intros ->. rewrite E in X. injection X as <-. exact (N eq_refl).
  Qed.

  (* the entries after erase: move the last entry into slot j, drop the last slot *)
  Definition shrink (l : list (K * V)) (j : nat) : list (K * V) :=
    match nth_error l (length l - 1) with
    | Some y => firstn (length l - 1) (upd j y l)
    | None => []
    end.
  Lemma shrink_length l j : (j < length l)%nat -> length (shrink l j) = (length l - 1)%nat.
  Proof.
    intros H. unfold shrink. destruct (nth_error l (length l - 1)) eqn:E.
    - rewrite firstn_length, upd_length by exact H. lia.
    - apply nth_error_None in E. lia.
  Qed.
  Lemma nth_firstn {A} (l : list A) : forall n i, nth_error (firstn n l) i = if (i <? n)%nat then nth_error l i else None.
  Proof.
    induction l as [|x l IH]; intros [|n] [|i]; cbn [firstn nth_error]; auto.
    - destruct (Nat.ltb _ _); reflexivity.
    - rewrite IH. reflexivity.
  Qed.
  Lemma in_shrink l j y : (j < length l)%nat ->
    (In y (shrink l j) <-> exists i, i <> j /\ nth_error l i = Some y).
  Proof.
    intros H. unfold shrink. destruct (nth_error l (length l - 1)) as [z|] eqn:Z.
    2:{ apply nth_error_None in Z. lia. }
    split.
    - intros I. apply In_nth_error in I. destruct I as [i E]. rewrite nth_firstn in E.
      destruct (Nat.ltb_spec i (length l - 1)) as [B|B]; [|discriminate].
      rewrite upd_nth in E by exact H. destruct (Nat.eqb_spec i j) as [Q|N].
      + subst i. injection E as ->. exists (length l - 1)%nat. split; [lia|exact Z].
      + eauto.
    - intros (i & N & E). assert (i < length l)%nat by (apply nth_error_Some; congruence).
      destruct (Nat.eq_dec i (length l - 1)) as [->|N2].
      + apply (nth_error_In _ j). rewrite nth_firstn, upd_nth by exact H.
        destruct (Nat.ltb_spec j (length l - 1)); [|lia]. rewrite Nat.eqb_refl. congruence.
      + apply (nth_error_In _ i). rewrite nth_firstn, upd_nth by exact H.
        destruct (Nat.ltb_spec i (length l - 1)); [|lia]. destruct (Nat.eqb_spec i j); [contradiction|exact E].
  Qed.

  Lemma NoDup_firstn {A} (l : list A) n : NoDup l -> NoDup (firstn n l).
  Proof.
    intros H. rewrite <- (firstn_skipn n l) in H. remember (skipn n l) as r. clear Heqr.
    remember (firstn n l) as q. clear Heqq. revert H. induction q as [|x q IH]; intros H; [constructor|].
    cbn in H. inversion H; subst. constructor; [|auto]. intros I. apply H2. apply in_or_app. auto.
  Qed.

  Lemma shrink_nodup l j : (j < length l)%nat -> NoDup (map fst l) -> NoDup (map fst (shrink l j)).
  Proof.
    intros H ND. apply NoDup_nth_error. intros a b La E. rewrite map_length, shrink_length in La by exact H.
    unfold shrink in E. destruct (nth_error l (length l - 1)) as [z|] eqn:Z; [|apply nth_error_None in Z; lia].
    rewrite !nth_error_map, !nth_firstn in E.
    destruct (Nat.ltb_spec a (length l - 1)); [|lia].
    rewrite upd_nth in E by exact H.
    destruct (Nat.ltb_spec b (length l - 1)) as [Lb|Lb].
    2:{ exfalso. destruct (Nat.eqb_spec a j); cbn in E; [discriminate|].
        destruct (nth_error l a) eqn:X; [discriminate|]. apply nth_error_None in X. lia. }
    rewrite upd_nth in E by exact H.
    assert (P : forall i i', (i < length l)%nat -> nth_error (map fst l) i = nth_error (map fst l) i' -> i = i').
    { intros i i' Li. apply (proj1 (NoDup_nth_error (map fst l)) ND). rewrite map_length. exact Li. }
    destruct (Nat.eqb_spec a j) as [->|Na], (Nat.eqb_spec b j) as [->|Nb]; auto.
    - exfalso. rewrite <- Z in E. rewrite <- !nth_error_map in E. apply P in E; lia.
    - exfalso. rewrite <- Z in E. rewrite <- !nth_error_map in E. apply P in E; lia.
    - rewrite <- !nth_error_map in E. apply P in E; lia.
  Qed.

  Lemma holds_shrink {A} (f : K * V -> A) (d : list (option A)) l j : (j < length l)%nat -> holds d (map f l) ->
    (j < length l - 1)%nat ->
    exists y, nth_error l (length l - 1) = Some y /\ aread d (length l - 1) = Ret (f y) /\
      awrite d j (f y) = Ret (aset d j (f y)) /\ holds (aset d j (f y)) (map f (shrink l j)).
  Proof.
    intros H Hd Hj. destruct (nth_error l (length l - 1)) as [y|] eqn:E; [|apply nth_error_None in E; lia].
    exists y. split; [reflexivity|].
    split; [exact (holds_read _ _ _ _ Hd (map_nth_error f _ l E))|].
    destruct (holds_upd d (map f l) j (f y) Hd) as [W H']; [rewrite map_length; exact H|].
    split; [exact W|]. unfold shrink. rewrite E, <- firstn_map, map_upd. apply holds_firstn. exact H'.
  Qed.

  Lemma shrink_last l j : (j < length l)%nat -> ~ (j < length l - 1)%nat -> shrink l j = firstn (length l - 1) l.
  Proof.
    intros H N. unfold shrink. destruct (nth_error l (length l - 1)) as [y|] eqn:E.
    - assert (j = length l - 1)%nat as -> by lia. rewrite upd_same by exact E. reflexivity.
    - apply nth_error_None in E. lia.
  Qed.

  Lemma map_step_ok s l m o m' x : mrel s l -> abst l m -> pmap_step keq cap m o = (m', x) ->
    exists s' l', map_step keq cap s o = Ret (s', x) /\ mrel s' l' /\ abst l' m'.
  Proof.
    intros R A E. destruct o as [k v|k|k| |]; cbn [pmap_step] in E; cbv zeta in E; cbn [map_step].
    - destruct (search_top s l k R) as [(j & v0 & Q & J & N)|[Q N]]; unfold fm_insert; rewrite Q; cbn [obind].
      + assert (G : p_get m k = Some v0) by (apply A; eapply nth_error_In; exact N).
        rewrite G in E. injection E as <- <-.
        destruct (step_insert_old s l m j k v v0 R A J N) as (W & R' & A'). rewrite W. cbn [obind].
        eauto.
      + rewrite (abst_none _ _ _ A N) in E. destruct R as (L1 & L2 & S & H1 & H2 & ND). destruct A as [C G].
        rewrite C in E. rewrite S. destruct (Nat.ltb_spec (length l) cap) as [B|B].
        * injection E as <- <-. destruct (Nat.leb_spec cap (length l)); [lia|].
          pose proof (holds_push (m_keys s) (map fst l) k H1) as P1. rewrite map_length in P1.
          destruct (P1 ltac:(lia)) as [W1 H1'].
          pose proof (holds_push (m_vals s) (map snd l) v H2) as P2. rewrite map_length in P2.
          destruct (P2 ltac:(lia)) as [W2 H2'].
          rewrite W1. cbn [obind]. rewrite W2. cbn [obind]. eexists _, (l ++ [(k, v)]). split; [reflexivity|]. split.
          -- split; [cbn; rewrite aset_length; exact L1|]. split; [cbn; rewrite aset_length; exact L2|].
             split; [cbn; rewrite app_length; cbn; lia|]. rewrite !map_app. split; [exact H1'|]. split; [exact H2'|].
             cbn [map fst]. apply NoDup_rev in ND. rewrite <- (rev_involutive (map fst l ++ [k])).
             apply NoDup_rev. rewrite rev_unit. constructor; [|exact ND]. rewrite <- in_rev. exact N.
          -- split; [cbn; rewrite app_length; cbn; lia|]. intros k' v'. cbn [p_get]. rewrite in_app_iff. cbn [In].
             destruct (keq k' k) eqn:Eq.
             ++ apply keq_ok in Eq. subst k'. split; [intros X; injection X as <-; auto|].
                intros [I|[X|[]]]; [|congruence]. destruct N. apply (in_map fst) in I. exact I.
             ++ apply keq_neq in Eq. rewrite G. split; [auto|]. intros [I|[X|[]]]; [exact I|congruence].
        * injection E as <- <-. destruct (Nat.leb_spec cap (length l)); [|lia]. cbn [obind].
          exists s, l. split; [reflexivity|]. split; [split; auto|split; auto].
    - injection E as <- <-. exists s, l. split; [|split; assumption].
      unfold fm_find. destruct (search_top s l k R) as [(j & v0 & Q & J & N)|[Q N]]; rewrite Q; cbn [obind].
      + assert (G : p_get m k = Some v0) by (apply A; eapply nth_error_In; exact N). rewrite G.
        destruct R as (_ & _ & _ & _ & H2 & _).
        rewrite (holds_read _ _ _ _ H2 (map_nth_error snd j l N)). reflexivity.
      + rewrite (abst_none _ _ _ A N). reflexivity.
    - unfold fm_erase. destruct (search_top s l k R) as [(j & v0 & Q & J & N)|[Q N]]; rewrite Q; cbn [obind].
      + assert (G : p_get m k = Some v0) by (apply A; eapply nth_error_In; exact N). rewrite G in E.
        injection E as <- <-. destruct R as (L1 & L2 & S & H1 & H2 & ND). destruct A as [C G'].
        assert (AB : abst (shrink l j) (mkp (fun k' => if keq k' k then None else p_get m k') (p_card m - 1))).
        { split; [cbn; rewrite shrink_length by exact J; lia|]. intros k' v'. cbn [p_get].
          rewrite in_shrink, (in_removed l j k v0) by assumption. cbn [fst].
          destruct (keq k' k) eqn:Eq.
          - apply keq_ok in Eq. split; [discriminate|]. intros [_ X]. contradiction.
          - apply keq_neq in Eq. rewrite G'. tauto. }
        rewrite S. destruct (Nat.ltb_spec j (length l - 1)) as [B|B].
        * destruct (holds_shrink fst _ l j J H1 B) as (y & Ey & R1 & W1 & S1).
          destruct (holds_shrink snd _ l j J H2 B) as (y' & Ey' & R2 & W2 & S2).
          rewrite Ey in Ey'. injection Ey' as <-.
          rewrite R1. cbn [obind]. rewrite W1. cbn [obind]. rewrite R2. cbn [obind]. rewrite W2. cbn [obind].
          eexists _, (shrink l j). split; [reflexivity|]. split; [|exact AB].
          split; [cbn; rewrite aset_length; exact L1|]. split; [cbn; rewrite aset_length; exact L2|].
          split; [cbn; rewrite shrink_length by exact J; reflexivity|]. split; [exact S1|]. split; [exact S2|].
          apply shrink_nodup; assumption.
        * cbn [obind]. eexists _, (shrink l j). split; [reflexivity|]. split; [|exact AB].
          split; [exact L1|]. split; [exact L2|]. split; [cbn; rewrite shrink_length by exact J; reflexivity|].
          split; [|split; [|apply shrink_nodup; assumption]].
          -- cbn. rewrite (shrink_last l j J ltac:(lia)), <- firstn_map. apply holds_firstn; exact H1.
          -- cbn. rewrite (shrink_last l j J ltac:(lia)), <- firstn_map. apply holds_firstn; exact H2.
      + rewrite (abst_none _ _ _ A N) in E. injection E as <- <-. eauto.
    - injection E as <- <-. eexists _, []. split; [reflexivity|].
      destruct R as (L1 & L2 & S & H1 & H2 & ND). split.
      + split; [exact L1|]. split; [exact L2|]. split; [reflexivity|].
        split; [exact (holds_firstn _ _ 0 H1)|]. split; [exact (holds_firstn _ _ 0 H2)|constructor].
      + split; [reflexivity|]. intros k v. cbn. split; [discriminate|intros []].
    - injection E as <- <-. exists s, l. split; [|split; assumption]. unfold fm_size.
      destruct R as (_ & _ & S & _). destruct A as [C _]. rewrite S, C. reflexivity.
  Qed.

  Lemma map_run_ok : forall os s l m m' xs, mrel s l -> abst l m -> pmap_run keq cap m os = (m', xs) ->
    map_run keq cap s os = Ret xs /\ exists l', abst l' m' /\ NoDup (map fst l') /\ (length l' <= cap)%nat.
  Proof.
    induction os as [|o os IH]; cbn [pmap_run map_run]; intros s l m m' xs R A E.
    - injection E as <- <-. split; [reflexivity|]. exists l. split; [exact A|].
      destruct R as (L1 & _ & _ & (H & _) & _ & ND). split; [exact ND|]. rewrite map_length in H. lia.
    - destruct (pmap_step keq cap m o) as [m1 x] eqn:Es. destruct (pmap_run keq cap m1 os) as [m2 ys] eqn:Er.
      injection E as <- <-. destruct (map_step_ok s l m o m1 x R A Es) as (s' & l' & E1 & R' & A').
      rewrite E1. cbn [obind]. destruct (IH s' l' m1 m2 ys R' A' Er) as [E2 Q]. rewrite E2. split; [reflexivity|exact Q].
  Qed.

  Theorem fixed_map_refines : forall (os : list (mop K V)),
    map_run keq cap (fm_new cap) os = Ret (snd (pmap_run keq cap pempty os)) /\
    card_ok (fst (pmap_run keq cap pempty os)) /\ (p_card (fst (pmap_run keq cap pempty os)) <= cap)%nat.
  Proof.
    intros os. destruct (pmap_run keq cap pempty os) as [m' xs] eqn:E.
    destruct (map_run_ok os (fm_new cap) [] pempty m' xs mrel_new) as (Q & l & (C & G) & ND & L); [|exact E|].
    - split; [reflexivity|]. intros k v. cbn. split; [discriminate|intros []].
    - split; [exact Q|]. cbn [fst]. split; [|lia]. exists (map fst l). split; [exact ND|].
      split; [rewrite map_length; auto|]. intros k. split.
      + intros I. apply in_map_iff in I. destruct I as ([k' v] & Ek & I). cbn in Ek. subst k'.
        apply G in I. congruence.
      + intros N. destruct (p_get m' k) as [v|] eqn:Eg; [|contradiction]. apply G in Eg.
        apply (in_map fst) in Eg. exact Eg.
  Qed.
End FM.

Theorem fixed_vector_refines {T} cap (os : list (vop T)) xs :
  list_run cap [] os = Some xs -> vec_run cap (fv_new cap) os = Ret xs.
Proof. intros E. exact (vec_run_ok cap os _ [] xs (vrel_new cap) E). Qed.

(** *** StaticAllocator *)
Local Open Scope N_scope.

Lemma sa_aligned_math al next k : al = 2 ^ k -> k < 64 -> next + al <= 2 ^ 64 ->
  sa_aligned al next = al * ((next + al - 1) / al).
Proof.
  intros -> Hk Hn. assert (P : 0 < 2 ^ k) by (apply N.neq_0_lt_0, N.pow_nonzero; lia).
  assert (Pk : 2 ^ k < 2 ^ 64) by (apply N.pow_lt_mono_r; lia).
  assert (A : subw (addw next (2 ^ k)) 1 = next + 2 ^ k - 1).
  { unfold subw, addw, wrap. rewrite N.mod_mod by lia. rewrite (N.mod_small 1) by lia.
    destruct (N.eq_dec (next + 2 ^ k) (2 ^ 64)) as [E|E].
    - rewrite E, N.mod_same, N.add_0_l by lia. rewrite N.mod_small by lia. lia.
    - rewrite (N.mod_small (next + 2 ^ k)) by lia.
      replace (next + 2 ^ k + 2 ^ 64 - 1) with (next + 2 ^ k - 1 + 1 * 2 ^ 64) by lia.
      rewrite N.mod_add by lia. apply N.mod_small. lia. }
  assert (B : subw (2 ^ k) 1 = N.ones k).
  { unfold subw, wrap. rewrite (N.mod_small (2 ^ k)) by lia. rewrite (N.mod_small 1) by lia.
    rewrite N.ones_equiv. replace (2 ^ k + 2 ^ 64 - 1) with (N.pred (2 ^ k) + 1 * 2 ^ 64) by lia.
    rewrite N.mod_add by lia. apply N.mod_small. lia. }
  unfold sa_aligned. rewrite A, B. set (y := next + 2 ^ k - 1).
  assert (Hy : y < 2 ^ 64) by (unfold y; lia).
  apply N.bits_inj. intros i. rewrite N.land_spec. unfold notw. rewrite N.lxor_spec, wrap_testbit.
  rewrite N.mul_comm, <- N.shiftl_mul_pow2, <- N.shiftr_div_pow2.
  destruct (N.ltb_spec i 64) as [Hi|Hi].
  - rewrite (N.ones_spec_low 64 i) by lia.
    destruct (N.ltb_spec i k) as [Hik|Hik].
    + rewrite N.ones_spec_low by lia. rewrite N.shiftl_spec_low by lia. cbn. rewrite andb_false_r. reflexivity.
    + rewrite N.ones_spec_high by lia. rewrite N.shiftl_spec_high' by lia. rewrite N.shiftr_spec'.
      replace (i - k + k) with i by lia. cbn. apply andb_true_r.
  - rewrite (testbit_above 64 y) by assumption. cbn. destruct (N.ltb_spec i k); [lia|].
    rewrite N.shiftl_spec_high' by lia. rewrite N.shiftr_spec'. replace (i - k + k) with i by lia.
    symmetry. apply testbit_above with 64; assumption.
Qed.

Lemma roundup_bounds al x : 0 < al -> x <= al * ((x + al - 1) / al) /\ al * ((x + al - 1) / al) < x + al.
Proof.
  intros H. pose proof (N.div_mod (x + al - 1) al ltac:(lia)) as D.
  pose proof (N.mod_lt (x + al - 1) al ltac:(lia)) as M.
  set (q := al * ((x + al - 1) / al)) in *. set (r := (x + al - 1) mod al) in *.
  clearbody q r. lia.
Qed.

Section AllocProofs.
  Context (cap sz al base : N) (k : N).
  Hypothesis Hal : al = 2 ^ k.
  Hypothesis Hk : k < 64.

  (* requests of at least one object whose byte size does not wrap *)
  Definition fair (n : N) : Prop := 1 <= n /\ cap + al + n * sz < 2 ^ 64.
  Definition fair_op (o : aop) : Prop := match o with AAlloc n => fair n | _ => True end.

  Lemma al_pos : 0 < al. Proof. rewrite Hal. apply N.neq_0_lt_0, N.pow_nonzero. lia. Qed.

  Lemma allocate_cases next n : 0 < sz -> next <= cap -> fair n ->
    let a := al * ((next + al - 1) / al) in
    (a + n * sz <= cap /\ sa_allocate cap sz al base (Some next) n = Ret (Some (a + n * sz), base + a)) \/
    (cap < a + n * sz /\ sa_allocate cap sz al base (Some next) n = Throw E_bad_alloc).
  Proof.
    intros Hs Hn [F1 F2] a. pose proof al_pos as P.
    destruct (roundup_bounds al next P) as [B1 B2]. fold a in B1, B2.
    assert (E : sa_aligned al next = a) by (apply (sa_aligned_math al next k Hal Hk); lia).
    assert (M : addw a (mulw n sz) = a + n * sz).
    { unfold addw, mulw. rewrite (wrap_small 64 (n * sz)) by lia. apply wrap_small. lia. }
    unfold sa_allocate. rewrite E. cbv zeta. rewrite M.
    destruct (N.ltb_spec cap (a + n * sz)) as [C|C]; [right; auto|left].
    split; [exact C|]. destruct (N.leb_spec cap a); [exfalso; nia|]. reflexivity.
  Qed.

  Definition ainv (s : alloc_state) (bs : list block) : Prop :=
    exists next, s = Some next /\ next <= cap /\
      Forall (fun b => base <= fst b /\ fst b + snd b <= base + next /\ (fst b - base) mod al = 0) bs /\
      pairwise disjoint bs.

  Lemma alloc_run_ok : 0 < sz -> forall os s bs, ainv s bs -> Forall fair_op os ->
    exists s' bs', alloc_run cap sz al base s bs os = Ret (s', bs') /\ ainv s' bs'.
  Proof.
    intros Hs. induction os as [|o os IH]; intros s bs I F; cbn [alloc_run]; [eauto|].
    inversion F as [|? ? Fo Fr]; subst. destruct o as [n|p n|].
    - destruct I as (next & -> & Hn & B & D).
      destruct (allocate_cases next n Hs Hn Fo) as [[C E]|[C E]]; rewrite E.
      + apply IH; [|exact Fr]. eexists. split; [reflexivity|]. split; [exact C|].
        destruct (roundup_bounds al next al_pos) as [B1 B2].
        set (a := al * ((next + al - 1) / al)) in *. split.
        * constructor.
          -- cbn [fst snd]. split; [lia|]. split; [lia|]. replace (base + a - base) with a by lia.
             unfold a. rewrite N.mul_comm. apply N.mod_mul. pose proof al_pos. lia.
          -- eapply Forall_impl; [|exact B]. cbn. intros b (Q1 & Q2 & Q3). repeat split; auto. lia.
        * constructor; [|exact D]. eapply Forall_impl; [|exact B]. cbn. intros b (Q1 & Q2 & _).
          right. cbn. lia.
      + apply IH; [|exact Fr]. exists next. auto.
    - apply IH; [exact I|exact Fr].
    - apply IH; [|exact Fr]. exists 0. split; [reflexivity|]. split; [lia|]. split; constructor.
  Qed.

  (* alignof divides the alignment of storage_ *)
  Theorem allocator_safe : 0 < sz -> base mod al = 0 -> forall os, Forall fair_op os ->
    exists s bs, alloc_run cap sz al base sa_new [] os = Ret (s, bs) /\
      Forall (fun b => inside base cap b /\ fst b mod al = 0) bs /\ pairwise disjoint bs.
  Proof.
    intros Hs Hb os F. destruct (alloc_run_ok Hs os sa_new []) as (s & bs & E & (next & _ & Hn & B & D)); [|exact F|].
    - exists 0. split; [reflexivity|]. split; [lia|]. split; constructor.
    - exists s, bs. split; [exact E|]. split; [|exact D].
      eapply Forall_impl; [|exact B]. intros b (Q1 & Q2 & Q3). split; [split; lia|].
      replace (fst b) with ((fst b - base) + base) by lia.
      pose proof al_pos. rewrite N.add_mod, Q3, Hb by lia. apply N.mod_0_l. lia.
  Qed.
End AllocProofs.

(* a request of ceil(2^64/sz) objects wraps to fewer than sz bytes *)
Lemma allocate_wraps cap sz al base k : al = 2 ^ k -> k < 64 -> 2 <= sz -> sz <= cap -> cap < 2 ^ 64 ->
  exists n next p, n < 2 ^ 64 /\ sa_allocate cap sz al base sa_new n = Ret (Some next, p) /\
    p = base /\ next < sz /\ 2 ^ 64 <= n * sz.
Proof.
  intros Ha Hk Hs Hc Hm. set (n := (2 ^ 64 + sz - 1) / sz).
  pose proof (N.div_mod (2 ^ 64 + sz - 1) sz ltac:(lia)) as D. fold n in D.
  pose proof (N.mod_lt (2 ^ 64 + sz - 1) sz ltac:(lia)) as M.
  set (r := (2 ^ 64 + sz - 1) mod sz) in *. clearbody n r. rewrite (N.mul_comm sz n) in D.
  assert (L : 2 ^ 64 <= n * sz < 2 ^ 64 + sz) by (set (q := n * sz) in *; clearbody q; lia).
  assert (Hn : n < 2 ^ 64) by nia.
  assert (A0 : sa_aligned al 0 = 0).
  { assert (P : 0 < al) by (rewrite Ha; apply N.neq_0_lt_0, N.pow_nonzero; lia).
    assert (2 ^ k < 2 ^ 64) by (apply N.pow_lt_mono_r; lia).
    rewrite (sa_aligned_math al 0 k Ha Hk) by lia. rewrite N.div_small by lia. lia. }
  assert (W : mulw n sz = n * sz - 2 ^ 64).
  { unfold mulw, wrap. replace (n * sz) with (n * sz - 2 ^ 64 + 1 * 2 ^ 64) at 1 by lia.
    rewrite N.mod_add by lia. apply N.mod_small. lia. }
  exists n, (n * sz - 2 ^ 64), base. split; [exact Hn|]. split.
  - unfold sa_allocate, sa_new. cbv zeta. rewrite A0, W. unfold addw. rewrite N.add_0_l, wrap_small by lia.
    destruct (N.ltb_spec cap (n * sz - 2 ^ 64)); [lia|]. destruct (N.leb_spec cap 0); [lia|].
    rewrite N.add_0_r. reflexivity.
  - repeat split; lia.
Qed.

Lemma allocate_misaligned cap sz al base k : al = 2 ^ k -> k < 64 -> 0 < sz -> cap + al + sz < 2 ^ 64 -> sz <= cap ->
  exists s, sa_allocate cap sz al base sa_new 1 = Ret (s, base).
Proof.
  intros Ha Hk Hs Hc Hl. unfold sa_new. destruct (allocate_cases cap sz al base k Ha Hk 0 1 Hs) as [[_ E]|[C E]].
  - lia.
  - split; lia.
  - rewrite E. rewrite N.div_small; [|pose proof (al_pos al k Ha); lia]. rewrite N.mul_0_r, N.add_0_r. eauto.
  - exfalso. rewrite N.div_small in C; [|pose proof (al_pos al k Ha); lia]. lia.
Qed.

Lemma allocate_zero_full cap sz al base k : al = 2 ^ k -> k < 64 -> cap mod al = 0 -> cap + al < 2 ^ 64 ->
  sa_allocate cap sz al base (Some cap) 0 = UB UB_array_index.
Proof.
  intros Ha Hk Hm Hc. pose proof (al_pos al k Ha) as P.
  assert (E : sa_aligned al cap = cap).
  { rewrite (sa_aligned_math al cap k Ha Hk) by lia.
    apply N.mod_divides in Hm; [|lia]. destruct Hm as [q ->].
    replace (al * q + al - 1) with (q * al + (al - 1)) by lia.
    rewrite N.div_add_l by lia. rewrite (N.div_small (al - 1)) by lia. rewrite N.add_0_r. reflexivity. }
  unfold sa_allocate. rewrite E. cbv zeta. unfold addw, mulw. rewrite N.mul_0_l.
  rewrite (wrap_small 64 0) by lia. rewrite N.add_0_r, wrap_small by lia.
  rewrite N.ltb_irrefl, N.leb_refl. reflexivity.
Qed.

Lemma equal_not_shared cap sz al base1 base2 k n s1 p : al = 2 ^ k -> k < 64 -> 0 < sz -> 1 <= n ->
  cap + al + n * sz < 2 ^ 64 -> base1 + cap <= base2 ->
  sa_allocate cap sz al base1 sa_new n = Ret (s1, p) -> inside base2 cap (p, n * sz) -> False.
Proof.
  intros Ha Hk Hs Hn Hc Hb E [I1 I2]. cbn [fst snd] in *. unfold sa_new in E.
  destruct (allocate_cases cap sz al base1 k Ha Hk 0 n Hs) as [[C E']|[C E']]; [lia|split; lia| |].
  - rewrite E' in E. assert (Ep : p = base1 + al * ((0 + al - 1) / al)) by congruence. rewrite Ep in I1.
    assert (D0 : (0 + al - 1) / al = 0) by (apply N.div_small; pose proof (al_pos al k Ha); lia).
    rewrite D0, N.mul_0_r in C, I1.
    clear I2 E' Hc D0.
    assert (0 < n * sz) by (apply N.mul_pos_pos; lia). set (q := n * sz) in *. clearbody q. lia.
  - congruence.
Qed.
