(** Chien search; interleaving. *)
From Coq Require Import List NArith ZArith Bool Lia.
Import ListNotations.
From Verif Require Import Outcome Words GF_Model GF_Spec GF_Proofs GFPoly_Proofs.
Local Open Scope N_scope.
Local Arguments N.add : simpl never.
Local Arguments N.mul : simpl never.
Local Arguments N.pow : simpl never.
Local Arguments N.lxor : simpl never.
Local Arguments N.div : simpl never.
Local Arguments N.modulo : simpl never.
Local Arguments N.testbit : simpl never.

Lemma flen {A} (f : A -> bool) l : (length (filter f l) <= length l)%nat.
Proof. induction l as [|x l IH]; cbn; [lia|]. destruct (f x); cbn; lia. Qed.
Section Chien.
Variables (m P : N) (T : tables).
Hypothesis OK : gf_ok m P T.
Notation ord := (N.to_nat (2 ^ m) - 1)%nat.
Notation gm := (ms m P).
Notation V := (value gm).
Notation els := (Forall (fun x : N => x < 2 ^ m)).
Lemma chien_step i : (0 <= i <= order m)%Z -> expt T (u64 (order m - i) mod order m) = Ret (inv m P T (al m P (Z.to_nat i))).
Proof.
  intros Hi. pose proof (order_ord m P T OK) as OO. pose proof (two_lt m P T OK) as T2. pose proof (ok_u16 m P T OK) as U.
  unfold u64. rewrite (Z.mod_small (order m - i) (2 ^ 64)) by lia.
  replace (order m - i)%Z with (Z.of_nat (ord - Z.to_nat i)) by lia. rewrite (expt_mod m P T OK). f_equal.
  pose proof (al_nz m P T OK (Z.to_nat i)) as Nz. pose proof (al_lt m P T OK (Z.to_nat i)) as Lt.
  pose proof (gm_inv m P T OK _ Lt Nz) as I.
  assert (X : gm (al m P (Z.to_nat i)) (al m P (ord - Z.to_nat i)) = 1).
  { rewrite (gm_al m P T OK). replace (Z.to_nat i + (ord - Z.to_nat i))%nat with ord by lia. apply (ok_wrap m P T OK). }
  (* inverses are unique *)
  set (a := al m P (Z.to_nat i)) in *. set (b := al m P (ord - Z.to_nat i)) in *.
  assert (Hb : b < 2 ^ m) by apply (al_lt m P T OK).
  assert (Hi2 : inv m P T a < 2 ^ m) by apply (al_lt m P T OK).
  rewrite <- (gm_1 m P T OK b Hb), <- I. rewrite <- (gm_assoc m P T OK) by assumption.
  rewrite (gm_comm m P T OK (inv m P T a) b) by assumption. rewrite (gm_assoc m P T OK) by assumption. rewrite X. apply (gm_1 m P T OK). exact Hi2.
Qed.
Definition root_at (l : list N) (len : N) (p : Z) : bool := (V l (inv m P T (al m P (Z.to_nat (Z.of_N len - 1 - p)))) =? 0).
Lemma find_errors_spec l len : els l -> l <> [] -> (Z.of_nat (length l) < 2 ^ 64)%Z -> (Z.of_N len <= order m + 1)%Z ->
  exists ps, rs_find_errors m T l len = Ret ps /\
    (let all := filter (root_at l len) (map (fun i => Z.of_N len - 1 - Z.of_nat i)%Z (seq 0 (N.to_nat len))) in
     ps = if Nat.eqb (length all) (length l - 1) then all else []).
Proof.
  intros Hl Ne H64 Hlen. unfold rs_find_errors. set (all := filter _ _).
  pose proof (order_ord m P T OK) as OO. pose proof (ok_u16 m P T OK) as U16.
  assert (Ll : (1 <= length l)%nat) by (destruct l; [contradiction|cbn; lia]).
  assert (Hall : (length all <= N.to_nat len)%nat).
  { unfold all. etransitivity; [apply flen|]. rewrite map_length, seq_length. lia. }
  destruct (loop_inv (fun i ps => ps = filter (root_at l len) (map (fun i => Z.of_N len - 1 - Z.of_nat i)%Z (seq 0 (Z.to_nat i))))
     (fun i (pos : list Z) => obind (expt T (u64 (order m - i) mod order m)) (fun x_inv => obind (eval_from m T l x_inv 0) (fun ev =>
      Ret (if ev =? 0 then pos ++ [(Z.of_N len - 1 - i)%Z] else pos)))) (N.to_nat len) 0%Z []) as (r & Er & Qr).
  - reflexivity.
  - intros i ps Hi ->. rewrite chien_step by lia. cbn [obind]. rewrite (eval_from_spec m P T OK) by (auto; try apply (al_lt m P T OK); apply (zero_lt m P T OK)).
    cbn [obind]. eexists. split; [reflexivity|]. replace (Z.to_nat (i + 1)) with (Z.to_nat i + 1)%nat by lia.
    rewrite seq_app, map_app, filter_app. cbn [seq map filter]. replace (Z.of_nat (0 + Z.to_nat i)) with i by lia.
    assert (Q : root_at l len (Z.of_N len - 1 - i) = (hv m P l (inv m P T (al m P (Z.to_nat i))) 0 =? 0)).
    { unfold root_at. replace (Z.of_N len - 1 - (Z.of_N len - 1 - i))%Z with i by lia. reflexivity. }
    rewrite Q. destruct (hv m P l (inv m P T (al m P (Z.to_nat i))) 0 =? 0); [reflexivity|rewrite app_nil_r; reflexivity].
  - replace (Z.to_nat (0 + Z.of_nat (N.to_nat len))) with (N.to_nat len) in Qr by lia. fold all in Qr. subst r.
    cbv zeta. change (u64 (size l - 1)) with ((Z.of_nat (length l) - 1) mod 2 ^ 64)%Z. destruct (Z.ltb_spec (Z.of_N len) ((Z.of_nat (length l) - 1) mod 2 ^ 64)) as [Hlt|Hge].
    + exists []. split; [reflexivity|]. destruct (Nat.eqb_spec (length all) (length l - 1)) as [E|]; [|reflexivity]. exfalso.
      rewrite Z.mod_small in Hlt; lia.
    + rewrite Er. cbn [obind]. eexists. split; [reflexivity|].
      rewrite Z.mod_small by lia.
      destruct (Nat.eqb_spec (length all) (length l - 1)), (Z.eqb_spec (Z.of_nat (length all)) (Z.of_nat (length l) - 1)); try lia; reflexivity.
Qed.
End Chien.

(** *** interleaving *)
Definition bitat (r : list N) (y z : N) : bool := N.testbit (nth (N.to_nat y) r 0) z.
Lemma set_bit_length r y z : length (set_bit r y z) = length r.
Proof. apply upd_length. Qed.
Lemma set_bit_at r y' z' y z : y' < N.of_nat (length r) -> bitat (set_bit r y' z') y z = bitat r y z || ((y =? y') && (z =? z')).
Proof.
  intros H. unfold bitat, set_bit. rewrite upd_nth by lia. destruct (Nat.eqb_spec (N.to_nat y) (N.to_nat y')) as [E|E].
  - assert (y = y') by lia. subst y'. rewrite N.eqb_refl. rewrite N.lor_spec, N.pow2_bits_eqb. cbn [andb]. f_equal. apply N.eqb_sym.
  - destruct (N.eqb_spec y y') as [->|]; [contradiction|]. rewrite orb_false_r. reflexivity.
Qed.
Lemma or_loop (L : nat) body (F : N -> N -> N -> bool) : forall n i r,
  length r = L ->
  (forall j r, i <= j < i + N.of_nat n -> length r = L -> length (body j r) = L /\ forall y z, bitat (body j r) y z = bitat r y z || F j y z) ->
  length (for_up n i body r) = L /\
  forall y z, bitat (for_up n i body r) y z = true <-> bitat r y z = true \/ exists j, i <= j < i + N.of_nat n /\ F j y z = true.
Proof.
  induction n as [|n IH]; intros i r Lr S.
  - split; [exact Lr|]. intros y z. cbn [for_up]. split; [auto|]. intros [H|(j & H & _)]; [exact H|lia].
  - cbn [for_up]. destruct (S i r) as [L1 B1]; [lia|exact Lr|].
    destruct (IH (i + 1) (body i r) L1) as [L2 B2]; [intros j q Hj; apply S; lia|]. split; [exact L2|]. intros y z.
    rewrite B2, B1, orb_true_iff. split.
    + intros [[H|H]|(j & H & E)]; [auto|right; exists i; split; [lia|exact H]|right; exists j; split; [lia|exact E]].
    + intros [H|(j & H & E)]; [auto|]. destruct (N.eq_dec j i) as [->|]; [auto|]. right. exists j. split; [lia|exact E].
Qed.
(* both directions have this shape *)
Lemma two_loops (L : nat) (bc : N) (cond : N -> N -> bool) (Y Z : N -> N -> N) :
  (forall bit block, cond bit block = true -> Y bit block < N.of_nat L) ->
  let r := for_up 8 0 (fun bit r => for_up (N.to_nat bc) 0 (fun block r =>
             if cond bit block then set_bit r (Y bit block) (Z bit block) else r) r) (repeat 0 L) in
  length r = L /\ forall y z, bitat r y z = true <-> exists bit block, bit < 8 /\ block < bc /\ cond bit block = true /\ y = Y bit block /\ z = Z bit block.
Proof.
  intros HY r. set (F := fun bit y z => existsb (fun b => let block := N.of_nat b in cond bit block && ((y =? Y bit block) && (z =? Z bit block))) (seq 0 (N.to_nat bc))).
  assert (HF : forall bit y z, F bit y z = true <-> exists block, block < bc /\ cond bit block = true /\ y = Y bit block /\ z = Z bit block).
  { intros bit y z. unfold F. rewrite existsb_exists. split.
    - intros (b & Hb & E). apply in_seq in Hb. cbv zeta in E. apply andb_prop in E. destruct E as [E1 E2]. apply andb_prop in E2.
      destruct E2 as [E2 E3]. apply N.eqb_eq in E2, E3. exists (N.of_nat b). repeat split; auto. lia.
    - intros (block & Hb & E1 & E2 & E3). exists (N.to_nat block). split; [apply in_seq; lia|]. cbv zeta. rewrite N2Nat.id, E1, E2, E3, !N.eqb_refl. reflexivity. }
  destruct (or_loop L (fun bit r => for_up (N.to_nat bc) 0 (fun block r => if cond bit block then set_bit r (Y bit block) (Z bit block) else r) r) F 8 0 (repeat 0 L)) as [L1 B1].
  - apply repeat_length.
  - intros bit r0 _ Lr0.
    destruct (or_loop L (fun block r => if cond bit block then set_bit r (Y bit block) (Z bit block) else r)
       (fun block y z => cond bit block && ((y =? Y bit block) && (z =? Z bit block))) (N.to_nat bc) 0 r0 Lr0) as [L2 B2].
    + intros block r1 _ Lr1. destruct (cond bit block) eqn:E; cbn [andb].
      * split; [rewrite set_bit_length; exact Lr1|]. intros y z. apply set_bit_at. rewrite Lr1. apply HY. exact E.
      * split; [exact Lr1|]. intros. rewrite orb_false_r. reflexivity.
    + split; [exact L2|]. intros y z. apply eq_true_iff_eq. rewrite B2, orb_true_iff, HF. split.
      * intros [H|(j & Hj & H)]; [auto|]. apply andb_prop in H. destruct H as [H1 H2]. apply andb_prop in H2. destruct H2 as [H2 H3].
        apply N.eqb_eq in H2, H3. right. exists j. repeat split; auto. lia.
      * intros [H|(j & Hj & H1 & H2 & H3)]; [auto|]. right. exists j. split; [lia|]. rewrite H1, H2, H3, !N.eqb_refl. reflexivity.
  - split; [exact L1|]. intros y z. unfold r. rewrite B1. split.
    + intros [H|(bit & Hb & H)].
      * exfalso. unfold bitat in H. rewrite nth_repeat in H. rewrite N.bits_0 in H. discriminate.
      * apply HF in H. destruct H as (block & H). exists bit, block. repeat split; try apply H. lia.
    + intros (bit & block & H1 & H2 & H3 & H4). right. exists bit. split; [lia|]. apply HF. exists block. tauto.
Qed.
Lemma for_up_ext {A} (f g : N -> A -> A) : forall n i a, (forall j x, f j x = g j x) -> for_up n i f a = for_up n i g a.
Proof. induction n as [|n IH]; intros i a H; [reflexivity|]. cbn [for_up]. rewrite H. apply IH, H. Qed.
Definition blocks (data : list N) : N := (N.of_nat (length data) + 7) / 8.
Lemma blocks_bound data : N.of_nat (length data) <= 8 * blocks data /\ blocks data <= N.of_nat (length data).
Proof.
  unfold blocks. set (n := N.of_nat (length data)). pose proof (N.div_mod (n + 7) 8 ltac:(lia)) as D. pose proof (N.mod_lt (n + 7) 8 ltac:(lia)) as M.
  set (q := (n + 7) / 8) in *. set (r := (n + 7) mod 8) in *. clearbody q r. lia.
Qed.
Lemma interleave_bits data : length (interleave data) = length data /\
  forall y z, bitat (interleave data) y z = true <->
    exists bit block, bit < 8 /\ block < blocks data /\ (bit * blocks data + block < N.of_nat (length data) /\ bitat data block bit = true) /\
      y = (bit * blocks data + block) / 8 /\ z = (bit * blocks data + block) mod 8.
Proof.
  set (bc := blocks data). set (n := N.of_nat (length data)).
  pose proof (two_loops (length data) bc (fun bit block => (block <? n) && (bit * bc + block <? n) && N.testbit (nth (N.to_nat block) data 0) bit)
    (fun bit block => (bit * bc + block) / 8) (fun bit block => (bit * bc + block) mod 8)) as W. cbv zeta in W. destruct W as [L1 B1].
  { intros bit block E. apply andb_prop in E. destruct E as [E _]. apply andb_prop in E. destruct E as [_ E]. apply N.ltb_lt in E.
    apply N.le_lt_trans with (bit * bc + block); [apply N.div_le_upper_bound; lia|exact E]. }
  match type of L1 with length ?x = _ => assert (Q : interleave data = x) end.
  { unfold interleave. fold n. change ((n + 7) / 8) with bc. apply for_up_ext. intros bit r. apply for_up_ext. intros block r'.
    destruct ((block <? n) && (bit * bc + block <? n)); [|reflexivity]. reflexivity. }
  rewrite Q. split; [exact L1|]. intros y z. rewrite B1. split.
  - intros (bit & block & H1 & H2 & H3 & H4 & H5). exists bit, block. apply andb_prop in H3. destruct H3 as [H3 H6]. apply andb_prop in H3. destruct H3 as [_ H3].
    apply N.ltb_lt in H3. repeat split; assumption.
  - intros (bit & block & H1 & H2 & (H3 & H6) & H4 & H5). exists bit, block. repeat split; try assumption.
    apply andb_true_intro. split; [|exact H6]. apply andb_true_intro. split; apply N.ltb_lt; [|exact H3].
    pose proof (blocks_bound data). fold bc n in H. lia.
Qed.
Lemma deinterleave_bits data : length (deinterleave data) = length data /\
  forall y z, bitat (deinterleave data) y z = true <->
    z < 8 /\ y < blocks data /\ z * blocks data + y < N.of_nat (length data) /\
      bitat data ((z * blocks data + y) / 8) ((z * blocks data + y) mod 8) = true.
Proof.
  set (bc := blocks data). set (n := N.of_nat (length data)).
  pose proof (two_loops (length data) bc (fun bit block => (bit * bc + block <? n) && (block <? n) && N.testbit (nth (N.to_nat ((bit * bc + block) / 8)) data 0) ((bit * bc + block) mod 8))
    (fun bit block => block) (fun bit block => bit)) as W. cbv zeta in W. destruct W as [L1 B1].
  { intros bit block E. apply andb_prop in E. destruct E as [E _]. apply andb_prop in E. destruct E as [_ E]. apply N.ltb_lt in E. exact E. }
  match type of L1 with length ?x = _ => assert (Q : deinterleave data = x) end.
  { unfold deinterleave. fold n. change ((n + 7) / 8) with bc. apply for_up_ext. intros bit r. apply for_up_ext. intros block r'.
    destruct ((bit * bc + block <? n) && (block <? n)); [|reflexivity]. reflexivity. }
  rewrite Q. split; [exact L1|]. intros y z. rewrite B1. split.
  - intros (bit & block & H1 & H2 & H3 & -> & ->). apply andb_prop in H3. destruct H3 as [H3 H6]. apply andb_prop in H3. destruct H3 as [H3 _].
    apply N.ltb_lt in H3. repeat split; assumption.
  - intros (H1 & H2 & H3 & H6). exists z, y. repeat split; try assumption.
    apply andb_true_intro. split; [|exact H6]. apply andb_true_intro. pose proof (blocks_bound data). fold bc n in H. split; apply N.ltb_lt; lia.
Qed.
(** bit z of byte y survives the round trip iff y < ceil(n/8) and z * ceil(n/8) + y < n; every other bit becomes 0 *)
Theorem roundtrip_bits data y z :
  bitat (deinterleave (interleave data)) y z =
  (z <? 8) && (y <? blocks data) && (z * blocks data + y <? N.of_nat (length data)) && bitat data y z.
Proof.
  destruct (interleave_bits data) as [L1 B1]. destruct (deinterleave_bits (interleave data)) as [L2 B2].
  assert (Eb : blocks (interleave data) = blocks data) by (unfold blocks; rewrite L1; reflexivity). rewrite Eb, L1 in B2.
  apply eq_true_iff_eq. rewrite B2, B1. rewrite !andb_true_iff, !N.ltb_lt. set (bc := blocks data) in *. split.
  - intros (H1 & H2 & H3 & bit & block & G1 & G2 & (G3 & G4) & G5 & G6).
    assert (E : z * bc + y = bit * bc + block).
    { rewrite (N.div_mod (z * bc + y) 8), (N.div_mod (bit * bc + block) 8), G5, G6 by lia. reflexivity. }
    assert (E2 : z = bit /\ y = block).
    { assert (Q : z = bit). { transitivity ((z * bc + y) / bc); [apply (N.div_unique _ bc z y); lia|symmetry; apply (N.div_unique _ bc bit block); lia]. }
      subst. lia. }
    destruct E2; subst. tauto.
  - intros (((H1 & H2) & H3) & H4). repeat split; try assumption. exists z, y. tauto.
Qed.
Theorem roundtrip_iff data : Forall (fun b => b < 256) data ->
  (deinterleave (interleave data) = data <->
   forall i b, (i < length data)%nat -> N.testbit (nth i data 0) b = true ->
     N.of_nat i < blocks data /\ b * blocks data + N.of_nat i < N.of_nat (length data)).
Proof.
  intros Hb. split.
  - intros E i b Hi H. pose proof (roundtrip_bits data (N.of_nat i) b) as R. rewrite E in R. unfold bitat in R. rewrite Nat2N.id, H in R.
    symmetry in R. rewrite !andb_true_iff, !N.ltb_lt in R. tauto.
  - intros H. destruct (interleave_bits data) as [L1 _]. destruct (deinterleave_bits (interleave data)) as [L2 _].
    apply (nth_ext _ _ 0 0); [lia|]. intros i Hi. rewrite L2, L1 in Hi. apply N.bits_inj. intros b.
    pose proof (roundtrip_bits data (N.of_nat i) b) as R. unfold bitat in R. rewrite Nat2N.id in R. rewrite R.
    destruct (N.testbit (nth i data 0) b) eqn:E; [|apply andb_false_r].
    destruct (H i b Hi E) as [H1 H2].
    assert (H3 : b < 8).
    { apply N.nle_gt. intros H8. rewrite (testbit_above 8) in E; [discriminate| |exact H8].
      rewrite Forall_forall in Hb. apply Hb, nth_In, Hi. }
    rewrite andb_true_r. rewrite !andb_true_iff, !N.ltb_lt. tauto.
Qed.
