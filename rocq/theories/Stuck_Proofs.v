From Coq Require Import List NArith ZArith Bool Lia SpecFloat.
Import ListNotations.
From Verif Require Import Outcome Words Arith Floats CrcTMR_Proofs Health_Model Stuck_Model Stuck_Spec.
Local Open Scope N_scope.
Local Opaque d1 d005 d01 d015 d02 d09 dadd dsub dmul ddiv fmin fmax.

Lemma bitv_b2n c b : bitv c b = b2n (N.testbit (sc c) b).
Proof. apply shiftr_land1. Qed.
Lemma set_bit_spec m b v j : N.testbit (set_bit m b v) j = if j =? b then v else N.testbit m j.
Proof.
  unfold set_bit. destruct v.
  - rewrite N.setbit_eqb, (N.eqb_sym b j). destruct (j =? b); reflexivity.
  - rewrite N.clearbit_eqb, (N.eqb_sym b j). destruct (j =? b); cbn; [apply andb_false_r|apply andb_true_r].
Qed.

Lemma get_aware_bits w s j : (sc (s0 s) =? sc (s1 s)) && (sc (s1 s) =? sc (s2 s)) = false ->
  N.testbit (get_aware w s) j = (j <? w) && aware_bit s j.
Proof.
  intros E. unfold get_aware. rewrite E.
  pose proof (bit_loop_testbit w (N.to_nat w) (aware_bit s) j) as L.
  rewrite N2Nat.id in L. rewrite <- L by lia. f_equal. clear.
  generalize (N.to_nat w) at 1 2. intros n. generalize 0 at 2 4. generalize 0.
  induction n as [|n IH]; intros i r; [reflexivity|]. cbn [for_up]. rewrite IH. f_equal.
  destruct (aware_bit s i); cbn [b2n]; [reflexivity|].
  rewrite N.shiftl_0_l. unfold wrap. rewrite N.mod_0_l by (apply N.pow_nonzero; lia). rewrite N.lor_0_r. reflexivity.
Qed.

Lemma track_loop w x d m po co j : 
  let '(m', po', co') := for_up (N.to_nat w) 0 (track_bit x d) (m, po, co) in
  let hit := (j <? w) && N.testbit d j in
  co' j = (if hit then (if co j <? 255 then co j + 1 else co j) else co j) /\
  N.testbit m' j = (if hit then N.testbit x j else N.testbit m j) /\
  N.testbit po' j = (if hit then N.testbit po j || (3 <=? co' j) else N.testbit po j).
Proof.
  pose proof (for_up_inv (fun k p => let '(m', po', co') := p in
    let hit := (j <? k) && N.testbit d j in
    co' j = (if hit then (if co j <? 255 then co j + 1 else co j) else co j) /\
    N.testbit m' j = (if hit then N.testbit x j else N.testbit m j) /\
    N.testbit po' j = (if hit then N.testbit po j || (3 <=? co' j) else N.testbit po j))
    (track_bit x d) (N.to_nat w) 0 (m, po, co)) as K.
  rewrite N.add_0_l, N2Nat.id in K. apply K; clear K.
  - destruct (N.ltb_spec j 0); [lia|]. cbn. auto.
  - intros k [[m1 po1] co1] Hk (A & B & C). unfold track_bit. destruct (N.testbit d k) eqn:D.
    + cbv zeta. rewrite set_bit_spec. destruct (N.eqb_spec j k) as [->|Hjk].
      * rewrite D, andb_true_r in *. destruct (N.ltb_spec k k); [lia|]. destruct (N.ltb_spec k (k + 1)); [|lia].
        rewrite A. split; [reflexivity|]. split; [reflexivity|].
        destruct (3 <=? _); [rewrite N.setbit_eq, orb_true_r; reflexivity|rewrite C, orb_false_r; reflexivity].
      * assert (E : (j <? k + 1) = (j <? k)) by (destruct (N.ltb_spec j k), (N.ltb_spec j (k + 1)); lia || reflexivity).
        rewrite E. split; [exact A|]. split; [exact B|].
        destruct (3 <=? (if co1 k <? 255 then _ else _)); [rewrite N.setbit_neq by lia|]; exact C.
    + destruct (N.eqb_spec j k) as [->|Hjk].
      * rewrite D, !andb_false_r in *. auto.
      * assert (E : (j <? k + 1) = (j <? k)) by (destruct (N.ltb_spec j k), (N.ltb_spec j (k + 1)); lia || reflexivity).
        rewrite E. auto.
Qed.

Lemma track_copy_same w v c po co : sc c = v -> track_copy w v c po co = (c, po, co).
Proof. intros H. unfold track_copy. rewrite H, N.eqb_refl. reflexivity. Qed.

Lemma track_copy_spec w v c po co j : let '(c', po', co') := track_copy w v c po co in
  let hit := (j <? w) && N.testbit (N.lxor (sc c) v) j in
  sc c' = sc c /\ shl c' = shl c /\
  co' j = (if hit then (if co j <? 255 then co j + 1 else co j) else co j) /\
  N.testbit (smask c') j = (if hit then N.testbit (sc c) j else N.testbit (smask c) j) /\
  N.testbit po' j = (if hit then N.testbit po j || (3 <=? co' j) else N.testbit po j).
Proof.
  unfold track_copy. destruct (N.eqb_spec (sc c) v) as [E|E].
  - cbv zeta. rewrite E, N.lxor_nilpotent, N.bits_0, andb_false_r. auto.
  - pose proof (track_loop w (sc c) (N.lxor (sc c) v) (smask c) po co j) as L.
    destruct (for_up _ 0 _ _) as [[m po'] co']. cbv zeta in *. cbn [sc shl smask]. tauto.
Qed.

Lemma repair_bits_spec w v c j :
  N.testbit (sc (repair_bits w v c)) j =
  (if (j <? w) && N.testbit (N.lxor (sc c) v) j && negb (N.testbit (smask c) j) then N.testbit v j else N.testbit (sc c) j).
Proof.
  unfold repair_bits. destruct (N.eqb_spec (sc c) v) as [E|E].
  - rewrite E, N.lxor_nilpotent, N.bits_0, andb_false_r. reflexivity.
  - cbn [sc]. set (P := N.lxor (sc c) v).
    pose proof (for_up_inv (fun k x => N.testbit x j =
      (if (j <? k) && N.testbit P j && negb (N.testbit (smask c) j) then N.testbit v j else N.testbit (sc c) j))
      (fun b x => if N.testbit P b && negb (N.testbit (smask c) b) then set_bit x b (N.testbit v b) else x)
      (N.to_nat w) 0 (sc c)) as K.
    rewrite N.add_0_l, N2Nat.id in K. apply K; clear K.
    + destruct (N.ltb_spec j 0); [lia|reflexivity].
    + intros k x Hk IH. destruct (N.eqb_spec j k) as [->|Hjk].
      * destruct (N.ltb_spec k k); [lia|]. destruct (N.ltb_spec k (k + 1)); [|lia]. cbn [andb] in *.
        destruct (N.testbit P k && _); [rewrite set_bit_spec, N.eqb_refl; reflexivity|exact IH].
      * assert (E' : (j <? k + 1) = (j <? k)) by (destruct (N.ltb_spec j k), (N.ltb_spec j (k + 1)); lia || reflexivity).
        rewrite E'. destruct (N.testbit P k && _); [rewrite set_bit_spec; destruct (N.eqb_spec j k); [lia|]|]; exact IH.
Qed.
Lemma repair_bits_mask w v c : smask (repair_bits w v c) = smask c.
Proof. unfold repair_bits. destruct (sc c =? v); reflexivity. Qed.
Lemma repair_bits_same w v c : sc c = v -> repair_bits w v c = c.
Proof. intros H. unfold repair_bits. rewrite H, N.eqb_refl. reflexivity. Qed.

(** *** what get_standard returns *)
Lemma get_standard_data s : let s' := snd (get_standard s) in
  pot s' = pot s /\ cnt s' = cnt s /\
  (forall i, sc (ssel s' i) = sc (ssel s i) /\ smask (ssel s' i) = smask (ssel s i)).
Proof.
  unfold get_standard. cbv zeta.
  repeat match goal with |- context [if ?b then _ else _] => destruct b end; cbn [snd pot cnt with_s];
    (split; [reflexivity|split; [reflexivity|]]); intros [|[|i]]; split; reflexivity.
Qed.
Lemma get_standard_pair s v k : (k < 3)%nat -> (forall i, (i < 3)%nat -> i <> k -> sc (ssel s i) = v) -> fst (get_standard s) = v.
Proof.
  intros Hk H. pose proof (H 0%nat) as H0. pose proof (H 1%nat) as H1. pose proof (H 2%nat) as H2. cbn [ssel] in *.
  unfold get_standard. destruct k as [|[|[|k]]]; [| | |lia].
  - rewrite H1, H2 by lia. destruct (N.eqb_spec (sc (s0 s)) v) as [E|E]; cbn [orb fst]; [exact E|].
    rewrite N.eqb_refl. reflexivity.
  - rewrite H0, H2 by lia. rewrite N.eqb_refl, orb_true_r. reflexivity.
  - rewrite H0, H1 by lia. rewrite N.eqb_refl. reflexivity.
Qed.

(** *** C27 *)
Lemma st_one_corrupt w s v k u : (k < 3)%nat -> fst (st_get w (st_corrupt k u (st_set v s))) = v.
Proof.
  intros Hk. unfold st_get. replace (pot (st_corrupt k u (st_set v s))) with 0 by (destruct k as [|[|[|k]]]; reflexivity).
  cbn [N.eqb negb]. apply (get_standard_pair _ v k Hk).
  intros i Hi Hik. destruct k as [|[|[|k]]]; [| | |lia]; destruct i as [|[|[|i]]]; lia || reflexivity.
Qed.
Lemma sf_one_corrupt t v k u : (k < 3)%nat -> eqT t v v = true ->
  let r := sf_get t (sf_corrupt k u (sf_set v)) in eqT t r v = true /\ (r = v \/ r = u).
Proof.
  intros Hk Hv. destruct k as [|[|[|k]]]; [| | |lia]; unfold sf_get; cbn; rewrite ?Hv; cbn; rewrite ?orb_true_r; cbn; auto.
  destruct (eqT t u v) eqn:E; cbn; auto.
Qed.
Lemma sf_repaired t s v : eqT t (sf_get t s) v = true ->
  let s' := sf_repair t s in eqT t (f0 s') v = true /\ eqT t (f1 s') v = true /\ eqT t (f2 s') v = true.
Proof.
  intros H. unfold sf_repair. cbn. 
  assert (K : forall c, eqT t (if eqT t c (sf_get t s) then c else sf_get t s) v = true).
  { intros c. destruct (eqT t c (sf_get t s)) eqn:E; [|exact H]. apply (eqT_trans t c (sf_get t s) v); assumption. }
  auto.
Qed.

(** *** C28 *)
Lemma st_repair_one w s v k u : (k < 3)%nat -> v < 2 ^ w -> u < 2 ^ w ->
  let s' := st_repair w (st_corrupt k u (st_set v s)) in
  (forall i, (i < 3)%nat -> sc (ssel s' i) = if (i =? k)%nat then N.lor v u else v) /\
  pot s' = 0.
Proof.
  intros Hk Vv Vu.
  set (z := st_corrupt k u (st_set v s)).
  assert (Z : forall i, (i < 3)%nat -> sc (ssel z i) = (if (i =? k)%nat then u else v) /\ smask (ssel z i) = 0).
  { intros i Hi. unfold z. destruct k as [|[|[|k]]]; [| | |lia]; destruct i as [|[|[|i]]]; try lia; split; reflexivity. }
  assert (Zp : pot z = 0 /\ cnt z = fun _ => 0) by (unfold z; destruct k as [|[|[|k]]]; [| | |lia]; split; reflexivity).
  assert (G : fst (get_standard z) = v).
  { apply (get_standard_pair z v k Hk). intros i Hi Hik. destruct (Z i Hi) as [E _]. rewrite E.
    destruct (Nat.eqb_spec i k); [contradiction|reflexivity]. }
  unfold st_repair, track.
  pose proof (get_standard_data z) as D. destruct (get_standard z) as [v' z1]. cbn [fst snd] in *. subst v'.
  destruct D as (P1 & C1 & D1). destruct Zp as [P0 C0]. rewrite P0 in P1. rewrite C0 in C1.
  (* the tracked state *)
  destruct (track_copy w v (s0 z1) (pot z1) (cnt z1)) as [[a po1] co1] eqn:T0.
  destruct (track_copy w v (s1 z1) po1 co1) as [[b po2] co2] eqn:T1.
  destruct (track_copy w v (s2 z1) po2 co2) as [[c po3] co3] eqn:T2.
  assert (F0 := track_copy_spec w v (s0 z1) (pot z1) (cnt z1)). rewrite T0 in F0. cbv zeta in F0.
  assert (F1 := track_copy_spec w v (s1 z1) po1 co1). rewrite T1 in F1. cbv zeta in F1.
  assert (F2 := track_copy_spec w v (s2 z1) po2 co2). rewrite T2 in F2. cbv zeta in F2.
  assert (S0 : sc (s0 z1) = if (0 =? k)%nat then u else v).
  { destruct (D1 0%nat) as [E _]. cbn [ssel] in E. rewrite E. apply (Z 0%nat). lia. }
  assert (S1 : sc (s1 z1) = if (1 =? k)%nat then u else v).
  { destruct (D1 1%nat) as [E _]. cbn [ssel] in E. rewrite E. apply (Z 1%nat). lia. }
  assert (S2 : sc (s2 z1) = if (2 =? k)%nat then u else v).
  { destruct (D1 2%nat) as [E _]. cbn [ssel] in E. rewrite E. apply (Z 2%nat). lia. }
  assert (M : forall i, (i < 3)%nat -> smask (ssel z1 i) = 0).
  { intros i Hi. destruct (D1 i) as [_ E]. rewrite E. apply Z. exact Hi. }
  assert (M0 := M 0%nat). assert (M1 := M 1%nat). assert (M2 := M 2%nat). cbn [ssel] in M0, M1, M2.
  assert (Hpo : po3 = 0).
  { apply N.bits_inj. intros j. rewrite N.bits_0.
    destruct (F0 j) as (_ & _ & A & _ & A'). destruct (F1 j) as (_ & _ & B & _ & B'). destruct (F2 j) as (_ & _ & C & _ & C').
    rewrite P1, N.bits_0 in A'. rewrite C1 in A. rewrite S0 in A, A'. rewrite S1 in B, B'. rewrite S2 in C, C'.
    rewrite C'. destruct k as [|[|[|k]]]; [| | |lia]; cbn [Nat.eqb] in *; rewrite ?N.lxor_nilpotent, ?N.bits_0, ?andb_false_r in *;
      destruct ((j <? w) && N.testbit (N.lxor u v) j); rewrite ?B', ?A', ?C, ?B, ?A; reflexivity. }
  assert (R : forall c', sc c' = u ->
     (forall j, N.testbit (smask c') j = (if (j <? w) && N.testbit (N.lxor u v) j then N.testbit u j else false)) ->
     sc (repair_bits w v c') = N.lor v u).
  { intros c' Ec Em. apply N.bits_inj. intros j. rewrite repair_bits_spec, Em, Ec, N.lor_spec, N.lxor_spec.
    destruct (N.ltb_spec j w) as [Hj|Hj].
    - destruct (N.testbit u j), (N.testbit v j); reflexivity.
    - rewrite (testbit_above w u j Vu Hj), (testbit_above w v j Vv Hj). reflexivity. }
  assert (G2 : fst (get_standard (mkst a b c po3 co3)) = v).
  { apply (get_standard_pair _ v k Hk). intros i Hi Hik. 
    destruct i as [|[|[|i]]]; [| | |lia]; cbn [ssel s0 s1 s2];
      [destruct (F0 0) as [-> _]; rewrite S0|destruct (F1 0) as [-> _]; rewrite S1|destruct (F2 0) as [-> _]; rewrite S2];
      destruct k as [|[|[|k]]]; cbn; congruence || lia. }
  unfold st_get. cbn [pot]. rewrite Hpo. rewrite Hpo in G2. cbn [N.eqb negb].
  pose proof (get_standard_data (mkst a b c 0 co3)) as D2.
  destruct (get_standard (mkst a b c 0 co3)) as [v' z2]. cbn [fst snd] in *. subst v'.
  destruct D2 as (P2 & C2 & D2). cbn [pot] in P2.
  split; [|exact P2].
  intros i Hi.
  assert (K : forall x, sc (rescore w v x) = sc x) by reflexivity.
  destruct i as [|[|[|i]]]; [| | |lia]; cbn [ssel with_s s0 s1 s2]; rewrite K.
  - destruct (D2 0%nat) as [E1 E2]. cbn [ssel s0] in E1, E2. destruct (Nat.eqb_spec 0 k) as [<-|Hne].
    + apply R; [rewrite E1; destruct (F0 0) as [-> _]; exact S0|].
      intros j. rewrite E2. destruct (F0 j) as (_ & _ & _ & -> & _). rewrite M0, S0, N.bits_0 by lia. reflexivity.
    + rewrite repair_bits_same; rewrite E1; destruct (F0 0) as [-> _]; rewrite S0; destruct k; congruence || reflexivity.
  - destruct (D2 1%nat) as [E1 E2]. cbn [ssel s1] in E1, E2. destruct (Nat.eqb_spec 1 k) as [<-|Hne].
    + apply R; [rewrite E1; destruct (F1 0) as [-> _]; exact S1|].
      intros j. rewrite E2. destruct (F1 j) as (_ & _ & _ & -> & _). rewrite M1, S1, N.bits_0 by lia. reflexivity.
    + assert (S1' : sc (s1 z1) = v) by (rewrite S1; destruct k as [|[|k]]; congruence || reflexivity).
      rewrite repair_bits_same; rewrite E1; destruct (F1 0) as [-> _]; exact S1'.
  - destruct (D2 2%nat) as [E1 E2]. cbn [ssel s2] in E1, E2. destruct (Nat.eqb_spec 2 k) as [<-|Hne].
    + apply R; [rewrite E1; destruct (F2 0) as [-> _]; exact S2|].
      intros j. rewrite E2. destruct (F2 j) as (_ & _ & _ & -> & _). rewrite M2, S2, N.bits_0 by lia. reflexivity.
    + assert (S2' : sc (s2 z1) = v) by (rewrite S2; destruct k as [|[|[|k]]]; congruence || reflexivity).
      rewrite repair_bits_same; rewrite E1; destruct (F2 0) as [-> _]; exact S2'.
Qed.
(* repair() restores the copy exactly when the upset set no bit *)
Lemma st_repair_iff w s v k u : (k < 3)%nat -> v < 2 ^ w -> u < 2 ^ w ->
  (sc (ssel (st_repair w (st_corrupt k u (st_set v s))) k) = v <-> N.ldiff u v = 0).
Proof.
  intros Hk Vv Vu. destruct (st_repair_one w s v k u Hk Vv Vu) as [H _]. rewrite H, Nat.eqb_refl by exact Hk.
  split; intros E.
  - apply N.bits_inj. intros j. rewrite N.ldiff_spec, N.bits_0. apply (f_equal (fun x => N.testbit x j)) in E.
    rewrite N.lor_spec in E. destruct (N.testbit u j), (N.testbit v j); cbn in *; congruence.
  - apply N.bits_inj. intros j. apply (f_equal (fun x => N.testbit x j)) in E. rewrite N.ldiff_spec, N.bits_0 in E.
    rewrite N.lor_spec. destruct (N.testbit u j), (N.testbit v j); cbn in *; congruence.
Qed.
(* the unrepaired copy makes the next upset visible: copies (v|u hit again) agree on a wrong value *)
Lemma st_second_upset w s v u : v < 2 ^ w -> u < 2 ^ w -> N.ldiff u v <> 0 ->
  let r := fst (st_get w (st_corrupt 0 (N.lor v u) (st_repair w (st_corrupt 2 u (st_set v s))))) in
  r = N.lor v u /\ r <> v.
Proof.
  intros Vv Vu Hd. destruct (st_repair_one w s v 2 u) as [H P]; auto.
  assert (E2 := H 2%nat). cbn [Nat.eqb ssel] in E2.
  assert (r : fst (st_get w (st_corrupt 0 (N.lor v u) (st_repair w (st_corrupt 2 u (st_set v s))))) = N.lor v u).
  { unfold st_get. cbn [st_corrupt with_s pot] in *. rewrite P. cbn [N.eqb negb].
    apply (get_standard_pair _ _ 1%nat); [lia|]. intros i Hi Hne. destruct i as [|[|[|i]]]; try lia; cbn [ssel with_s s0 s1 s2 sc]; auto. }
  cbv zeta. rewrite r. split; [reflexivity|]. intros E. apply Hd.
  apply (st_repair_iff w s v 2 u); auto. rewrite H, Nat.eqb_refl by lia. exact E.
Qed.
