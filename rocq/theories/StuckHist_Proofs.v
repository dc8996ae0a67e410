(** One deviating copy over histories of repair(): the stuck-bit scenario (C29). *)
From Coq Require Import List NArith ZArith Bool Lia SpecFloat.
Import ListNotations.
From Verif Require Import Outcome Words Arith Floats CrcTMR_Proofs Health_Model Stuck_Model Stuck_Spec Stuck_Proofs.
Local Open Scope N_scope.
Local Opaque d1 d005 d01 d015 d02 d09 dadd dsub dmul ddiv fmin fmax.

Definition one_dev (k : nat) (v x : N) (s : st) : Prop :=
  sc (ssel s k) = x /\ forall i, (i < 3)%nat -> i <> k -> sc (ssel s i) = v /\ smask (ssel s i) = 0.

Lemma dev_get w k v x s : (k < 3)%nat -> v < 2 ^ w -> one_dev k v x s ->
  fst (st_get w s) = v.
Proof.
  intros Hk Vv [Hx H]. unfold st_get. destruct (N.eqb_spec (pot s) 0) as [E|E]; cbn [negb].
  { apply (get_standard_pair s v k Hk). intros i Hi Hik. apply H; assumption. }
  cbn [fst]. 
  destruct ((sc (s0 s) =? sc (s1 s)) && (sc (s1 s) =? sc (s2 s))) eqn:A.
  - unfold get_aware. rewrite A. apply andb_prop in A. destruct A as [A1 A2]. apply N.eqb_eq in A1, A2.
    destruct k as [|[|[|k]]]; [| | |lia].
    + destruct (H 1%nat); cbn [ssel] in *; [lia|lia|congruence].
    + destruct (H 0%nat); cbn [ssel] in *; [lia|lia|congruence].
    + destruct (H 0%nat); cbn [ssel] in *; [lia|lia|congruence].
  - apply N.bits_inj. intros j. rewrite get_aware_bits by exact A.
    destruct (N.ltb_spec j w) as [Hj|Hj]; [|rewrite (testbit_above w v j Vv Hj); reflexivity]. cbn [andb].
    pose proof (H 0%nat) as H0. pose proof (H 1%nat) as H1. pose proof (H 2%nat) as H2. cbn [ssel] in *.
    unfold aware_bit. rewrite !bitv_b2n.
    destruct k as [|[|[|k]]]; [| | |lia]; cbn [ssel] in Hx.
    + destruct H1 as [-> ->]; [lia|lia|]. destruct H2 as [-> ->]; [lia|lia|]. rewrite Hx, !N.bits_0.
      destruct (N.testbit (pot s) j), (N.testbit (smask (s0 s)) j), (N.testbit x j), (N.testbit v j); reflexivity.
    + destruct H0 as [-> ->]; [lia|lia|]. destruct H2 as [-> ->]; [lia|lia|]. rewrite Hx, !N.bits_0.
      destruct (N.testbit (pot s) j), (N.testbit (smask (s1 s)) j), (N.testbit x j), (N.testbit v j); reflexivity.
    + destruct H0 as [-> ->]; [lia|lia|]. destruct H1 as [-> ->]; [lia|lia|]. rewrite Hx, !N.bits_0.
      destruct (N.testbit (pot s) j), (N.testbit (smask (s2 s)) j), (N.testbit x j), (N.testbit v j); reflexivity.
Qed.
Lemma get_data w s : let s' := snd (st_get w s) in
  pot s' = pot s /\ cnt s' = cnt s /\
  (forall i, sc (ssel s' i) = sc (ssel s i) /\ smask (ssel s' i) = smask (ssel s i)).
Proof.
  unfold st_get. destruct (negb _); [cbn; auto|apply get_standard_data].
Qed.

Definition bump (n : N) : N := if n <? 255 then n + 1 else n.
Lemma track_dev w k v x s : (k < 3)%nat -> one_dev k v x s ->
  let s' := track w s in one_dev k v x s' /\ forall j,
  let hit := (j <? w) && N.testbit (N.lxor x v) j in
  cnt s' j = (if hit then bump (cnt s j) else cnt s j) /\
  N.testbit (smask (ssel s' k)) j = (if hit then N.testbit x j else N.testbit (smask (ssel s k)) j) /\
  N.testbit (pot s') j = (if hit then N.testbit (pot s) j || (3 <=? cnt s' j) else N.testbit (pot s) j).
Proof.
  intros Hk [Hx H].
  assert (G : fst (get_standard s) = v).
  { apply (get_standard_pair s v k Hk). intros i Hi Hik. apply H; assumption. }
  unfold track. pose proof (get_standard_data s) as D. destruct (get_standard s) as [v' z]. cbn [fst snd] in *. subst v'.
  destruct D as (P & C & D).
  assert (E : forall i, (i < 3)%nat -> i <> k -> sc (ssel z i) = v /\ smask (ssel z i) = 0).
  { intros i Hi Hik. destruct (D i) as [-> ->]. apply H; assumption. }
  assert (Ex : sc (ssel z k) = x) by (destruct (D k) as [-> _]; exact Hx).
  destruct (D k) as [_ Em].
  pose proof (E 0%nat) as E0. pose proof (E 1%nat) as E1. pose proof (E 2%nat) as E2. cbn [ssel] in *.
  destruct k as [|[|[|k]]]; [| | |lia]; cbn [ssel] in *.
  - rewrite <- Em, <- P, <- C.
    pose proof (fun j => track_copy_spec w v (s0 z) (pot z) (cnt z) j) as T.
    destruct (track_copy w v (s0 z) (pot z) (cnt z)) as [[c po] co].
    rewrite (track_copy_same w v (s1 z)) by (apply E1; lia). rewrite (track_copy_same w v (s2 z)) by (apply E2; lia).
    cbv zeta in T. rewrite Ex in T. split.
    + split; [apply (T 0)|]. intros [|[|[|i]]] Hi Hik; try lia; cbn [ssel s0 s1 s2]; auto.
    + intros j. cbn [ssel s0 pot cnt]. unfold bump. apply T.
  - rewrite <- Em, <- P, <- C.
    rewrite (track_copy_same w v (s0 z)) by (apply E0; lia).
    pose proof (fun j => track_copy_spec w v (s1 z) (pot z) (cnt z) j) as T.
    destruct (track_copy w v (s1 z) (pot z) (cnt z)) as [[c po] co].
    rewrite (track_copy_same w v (s2 z)) by (apply E2; lia).
    cbv zeta in T. rewrite Ex in T. split.
    + split; [apply (T 0)|]. intros [|[|[|i]]] Hi Hik; try lia; cbn [ssel s0 s1 s2]; auto.
    + intros j. cbn [ssel s1 pot cnt]. unfold bump. apply T.
  - rewrite <- Em, <- P, <- C.
    rewrite (track_copy_same w v (s0 z)) by (apply E0; lia).
    rewrite (track_copy_same w v (s1 z)) by (apply E1; lia).
    pose proof (fun j => track_copy_spec w v (s2 z) (pot z) (cnt z) j) as T.
    destruct (track_copy w v (s2 z) (pot z) (cnt z)) as [[c po] co].
    cbv zeta in T. rewrite Ex in T. split.
    + split; [apply (T 0)|]. intros [|[|[|i]]] Hi Hik; try lia; cbn [ssel s0 s1 s2]; auto.
    + intros j. cbn [ssel s2 pot cnt]. unfold bump. apply T.
Qed.

(* the state after repair() when only copy k deviates *)
Lemma repair_dev w k v x s : (k < 3)%nat -> v < 2 ^ w -> x < 2 ^ w -> one_dev k v x s ->
  let s' := st_repair w s in
  one_dev k v (sc (ssel s' k)) s' /\ forall j,
  let hit := N.testbit (N.lxor x v) j in
  cnt s' j = (if hit then bump (cnt s j) else cnt s j) /\
  N.testbit (smask (ssel s' k)) j = (if hit then N.testbit x j else N.testbit (smask (ssel s k)) j) /\
  N.testbit (pot s') j = (if hit then N.testbit (pot s) j || (3 <=? cnt s' j) else N.testbit (pot s) j) /\
  N.testbit (sc (ssel s' k)) j = (if hit && negb (N.testbit (smask (ssel s' k)) j) then N.testbit v j else N.testbit x j).
Proof.
  intros Hk Vv Vx H.
  destruct (track_dev w k v x s Hk H) as [H1 T]. cbv zeta in T.
  assert (HW : forall j, (j <? w) && N.testbit (N.lxor x v) j = N.testbit (N.lxor x v) j).
  { intros j. destruct (N.ltb_spec j w) as [Hj|Hj]; [reflexivity|].
    rewrite (testbit_above w (N.lxor x v) j); [reflexivity|apply lxor_below; assumption|exact Hj]. }
  assert (G := dev_get w k v x _ Hk Vv H1).
  unfold st_repair. pose proof (get_data w (track w s)) as D.
  destruct (st_get w (track w s)) as [v' z]. cbn [fst snd] in *. subst v'. destruct D as (P & C & D).
  destruct H1 as [X1 H1].
  assert (Y : forall i, (i < 3)%nat -> ssel (with_s z (rescore w v (repair_bits w v (s0 z))) (rescore w v (repair_bits w v (s1 z)))
      (rescore w v (repair_bits w v (s2 z)))) i = rescore w v (repair_bits w v (ssel z i))).
  { intros [|[|[|i]]] Hi; lia || reflexivity. }
  cbv zeta. split.
  - split; [reflexivity|]. intros i Hi Hik. rewrite (Y i Hi). destruct (H1 i Hi Hik) as [A B]. destruct (D i) as [A' B'].
    rewrite A in A'. rewrite B in B'. rewrite repair_bits_same by exact A'. cbn [rescore sc smask]. auto.
  - intros j. rewrite (Y k Hk). cbn [with_s pot cnt]. rewrite P, C. destruct (T j) as (TA & TB & TC). rewrite HW in TA, TB, TC.
    cbn [rescore sc smask]. rewrite repair_bits_mask. destruct (D k) as [D1 D2]. rewrite D2.
    split; [exact TA|]. split; [exact TB|]. split; [exact TC|].
    rewrite repair_bits_spec, D1, D2, X1, HW. reflexivity.
Qed.

(** *** the defect: bit b of copy k reads p, the value has the opposite bit *)
Definition put (v b : N) (p : bool) : N := if p then N.setbit v b else N.clearbit v b.
Lemma put_spec v b p j : N.testbit (put v b p) j = if j =? b then p else N.testbit v j.
Proof. apply (set_bit_spec v b p j). Qed.
Lemma put_below w v b p : v < 2 ^ w -> b < w -> put v b p < 2 ^ w.
Proof.
  intros Hv Hb. apply below_of_bits. intros i Hi. rewrite put_spec. destruct (N.eqb_spec i b); [lia|].
  apply (testbit_above w); assumption.
Qed.
Lemma stick_dev k v x b p s : (k < 3)%nat -> one_dev k v x s -> one_dev k v (put x b p) (stick k b p s).
Proof.
  intros Hk [Hx H]. unfold stick. rewrite Hx. fold (put x b p). split.
  - destruct k as [|[|[|k]]]; lia || reflexivity.
  - intros i Hi Hik. specialize (H i Hi Hik).
    destruct k as [|[|[|k]]]; [| | |lia]; destruct i as [|[|[|i]]]; lia || exact H.
Qed.
Lemma stick_data k b p s : (k < 3)%nat -> let s' := stick k b p s in
  pot s' = pot s /\ cnt s' = cnt s /\ smask (ssel s' k) = smask (ssel s k).
Proof. intros Hk. destruct k as [|[|[|k]]]; [| | |lia]; cbn; auto. Qed.

(* the state after n repairs *)
Definition J (k : nat) (v b : N) (p : bool) (n : nat) (s : st) : Prop :=
  one_dev k v (put v b p) s /\
  (forall j, cnt s j = if j =? b then N.min 255 (N.of_nat n) else 0) /\
  (forall j, N.testbit (smask (ssel s k)) j = (j =? b) && p && (1 <=? n)%nat) /\
  (forall j, N.testbit (pot s) j = (j =? b) && (3 <=? n)%nat).
Lemma J_repairs w k v b p n s : (k < 3)%nat -> v < 2 ^ w -> b < w -> N.testbit v b = negb p ->
  J k v b p n (repairs w k b p n (stick k b p (st_set v s))).
Proof.
  intros Hk Vv Hb Hp. induction n as [|n IH].
  - cbn [repairs]. assert (one_dev k v v (st_set v s)) as O.
    { split; [destruct k as [|[|k]]; reflexivity|]. intros [|[|[|i]]] Hi Hik; lia || (split; reflexivity). }
    split; [apply stick_dev; assumption|]. destruct (stick_data k b p (st_set v s) Hk) as (-> & -> & ->).
    split; [|split]; intros j.
    + cbn. destruct (j =? b); reflexivity.
    + rewrite andb_false_r. replace (smask (ssel (st_set v s) k)) with 0 by (destruct k as [|[|k]]; reflexivity). apply N.bits_0.
    + rewrite andb_false_r. apply N.bits_0.
  - cbn [repairs]. set (z := repairs w k b p n (stick k b p (st_set v s))) in *. clearbody z.
    destruct IH as (O & IC & IM & IP).
    destruct (repair_dev w k v (put v b p) z Hk Vv (put_below w v b p Vv Hb) O) as [O' R]. cbv zeta in R.
    set (z' := st_repair w z) in *. clearbody z'.
    assert (HD : forall j, N.testbit (N.lxor (put v b p) v) j = (j =? b)).
    { intros j. rewrite N.lxor_spec, put_spec. destruct (N.eqb_spec j b) as [->|]; [rewrite Hp; destruct p; reflexivity|].
      apply xorb_nilpotent. }
    destruct (stick_data k b p z' Hk) as (E1 & E2 & E3).
    assert (RC : forall j, cnt z' j = (if j =? b then N.min 255 (N.of_nat (S n)) else 0)).
    { intros j. destruct (R j) as (-> & _). rewrite HD, IC. destruct (j =? b); [|reflexivity].
      unfold bump. destruct (N.ltb_spec (N.min 255 (N.of_nat n)) 255); lia. }
    assert (RM : forall j, N.testbit (smask (ssel z' k)) j = (j =? b) && p).
    { intros j. destruct (R j) as (_ & -> & _). rewrite HD, put_spec, IM. destruct (j =? b); reflexivity. }
    unfold J. rewrite E1, E2, E3. split; [|split; [exact RC|split]].
    + assert (put (sc (ssel z' k)) b p = put v b p) as <-; [|apply stick_dev; assumption].
      apply N.bits_inj. intros j. rewrite !put_spec. destruct (N.eqb_spec j b) as [->|Hjb]; [reflexivity|].
      destruct (R j) as (_ & _ & _ & ->). rewrite HD. destruct (N.eqb_spec j b); [contradiction|]. cbn [andb].
      rewrite put_spec. destruct (N.eqb_spec j b); [contradiction|reflexivity].
    + intros j. rewrite RM. cbn. rewrite andb_true_r. reflexivity.
    + intros j. destruct (R j) as (_ & _ & -> & _). rewrite HD, IP, RC. destruct (N.eqb_spec j b); [|reflexivity]. cbn [andb].
      destruct (Nat.leb_spec 3 n), (Nat.leb_spec 3 (S n)), (N.leb_spec 3 (N.min 255 (N.of_nat (S n)))); lia || reflexivity.
Qed.

(** C29, stuck at 1 *)
Lemma stuck1_excluded w k v b n s x y z : (k < 3)%nat -> v < 2 ^ w -> b < w -> N.testbit v b = false -> (3 <= n)%nat ->
  (x =? y) && (y =? z) = false ->
  let s' := repairs w k b true n (stick k b true (st_set v s)) in
  N.testbit (pot s') b = true /\ N.testbit (smask (ssel s' k)) b = true /\ fst (st_get w s') = v /\
  forall i j, (i < 3)%nat -> (j < 3)%nat -> i <> k -> j <> k -> i <> j ->
  N.testbit (fst (st_get w (contents s' x y z))) b = N.testbit (at_ x y z i) b && N.testbit (at_ x y z j) b.
Proof.
  intros Hk Vv Hb Hp Hn Hne s'. destruct (J_repairs w k v b true n s Hk Vv Hb Hp) as (O & _ & M & P). fold s' in O, M, P.
  assert (Pb : N.testbit (pot s') b = true).
  { rewrite P, N.eqb_refl. destruct (Nat.leb_spec 3 n); [reflexivity|lia]. }
  assert (Mb : N.testbit (smask (ssel s' k)) b = true).
  { rewrite M, N.eqb_refl. destruct (Nat.leb_spec 1 n); [reflexivity|lia]. }
  split; [exact Pb|]. split; [exact Mb|]. split; [apply (dev_get w k v _ s' Hk Vv O)|].
  intros i j Hi Hj Hik Hjk Hij. destruct O as [_ O].
  unfold st_get. destruct (N.eqb_spec (pot (contents s' x y z)) 0) as [E|_].
  { cbn [contents st_corrupt with_s pot] in E. rewrite E, N.bits_0 in Pb. discriminate. }
  cbn [negb fst]. rewrite get_aware_bits by exact Hne.
  destruct (N.ltb_spec b w); [|lia]. cbn [andb].
  unfold aware_bit. cbn [contents st_corrupt with_s pot s0 s1 s2 smask sc]. rewrite Pb, !bitv_b2n. cbn [sc smask].
  pose proof (O 0%nat) as O0. pose proof (O 1%nat) as O1. pose proof (O 2%nat) as O2. cbn [ssel] in O0, O1, O2.
  destruct k as [|[|[|k]]]; [| | |lia]; cbn [ssel] in Mb; rewrite Mb.
  - destruct O1 as [_ ->]; [lia|lia|]. destruct O2 as [_ ->]; [lia|lia|]. rewrite !N.bits_0.
    destruct i as [|[|[|i]]], j as [|[|[|j]]]; try lia; cbn [at_]; destruct (N.testbit y b), (N.testbit z b); reflexivity.
  - destruct O0 as [_ ->]; [lia|lia|]. destruct O2 as [_ ->]; [lia|lia|]. rewrite !N.bits_0.
    destruct i as [|[|[|i]]], j as [|[|[|j]]]; try lia; cbn [at_]; destruct (N.testbit x b), (N.testbit z b); reflexivity.
  - destruct O0 as [_ ->]; [lia|lia|]. destruct O1 as [_ ->]; [lia|lia|]. rewrite !N.bits_0.
    destruct i as [|[|[|i]]], j as [|[|[|j]]]; try lia; cbn [at_]; destruct (N.testbit x b), (N.testbit y b); reflexivity.
Qed.
(** C29, stuck at 0: the copy keeps voting, however many repairs; one upset of the same bit in another
    copy outvotes the remaining good one *)
Lemma stuck0_votes w k v b n s i : (k < 3)%nat -> (i < 3)%nat -> i <> k -> v < 2 ^ w -> b < w -> N.testbit v b = true ->
  let s' := repairs w k b false n (stick k b false (st_set v s)) in
  smask (ssel s' k) = 0 /\ fst (st_get w s') = v /\
  fst (st_get w (st_corrupt i (N.clearbit v b) s')) = N.clearbit v b /\ N.clearbit v b <> v.
Proof.
  intros Hk Hi Hik Vv Hb Hp s'. destruct (J_repairs w k v b false n s Hk Vv Hb Hp) as (O & _ & M & P). fold s' in O, M, P.
  assert (Mk : smask (ssel s' k) = 0).
  { apply N.bits_inj. intros j. rewrite M, N.bits_0, andb_false_r. reflexivity. }
  assert (Vc : N.clearbit v b < 2 ^ w) by (apply (put_below w v b false); assumption).
  split; [exact Mk|]. split; [apply (dev_get w k v _ s' Hk Vv O)|]. split.
  - destruct O as [Ox O]. cbn [put] in Ox.
    (* the third copy is now the deviating one *)
    set (m := (3 - i - k)%nat).
    assert (Hm : (m < 3)%nat /\ m <> i /\ m <> k) by (unfold m; destruct k as [|[|[|k]]], i as [|[|[|i]]]; lia).
    destruct Hm as (Hm & Hmi & Hmk).
    apply (dev_get w m (N.clearbit v b) v); auto. destruct (O m Hm Hmk) as [Em1 Em2].
    destruct (O i Hi Hik) as [_ Ei].
    split.
    + clear - Em1 Hm Hmi Hi. destruct i as [|[|[|i]]], m as [|[|[|m]]]; lia || exact Em1.
    + intros l Hl Hlm. destruct (Nat.eq_dec l i) as [->|Hli].
      * clear - Ei Hi. destruct i as [|[|[|i]]]; lia || (split; [reflexivity|exact Ei]).
      * assert (l = k) as -> by (unfold m in *; destruct k as [|[|[|k]]], i as [|[|[|i]]], l as [|[|[|l]]]; lia).
        clear - Ox Mk Hk Hi Hik. destruct i as [|[|[|i]]], k as [|[|[|k]]]; lia || (split; [exact Ox|exact Mk]).
  - intros E. apply (f_equal (fun x => N.testbit x b)) in E. rewrite N.clearbit_eq, Hp in E. discriminate.
Qed.
