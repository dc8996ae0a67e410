(** Analyses, epochs and whole training calls. *)
From Coq Require Import List NArith ZArith Bool Arith Lia SpecFloat.
Import ListNotations.
From Verif Require Import Outcome Words Floats Approx_Model Bits_Model PNN_Model PNN_Spec PNN_Proofs PNN3_Proofs PNN5_Proofs Train_Model Train_Spec Train_Proofs Train2_Proofs.
Local Open Scope nat_scope.

(** entries of a marked map *)
Lemma nth_upd {A} (l : list A) i g k : nth_error (upd l i g) k = if Nat.eqb k i then option_map g (nth_error l k) else nth_error l k.
Proof.
  revert i k; induction l as [|x l IH]; intros [|i] [|k]; cbn [upd nth_error Nat.eqb option_map]; try reflexivity.
  - destruct (Nat.eqb k i); reflexivity.
  - apply IH.
Qed.
Definition same3 (l i j l' i' j' : nat) : bool := Nat.eqb l l' && Nat.eqb i i' && Nat.eqb j j'.
Lemma get3_put3 {A} (k : list (list (list A))) l i j v l' i' j' : get3 (put3 k l i j v) l' i' j' = option_map (fun z => if same3 l' i' j' l i j then v else z) (get3 k l' i' j').
Proof.
  unfold get3, put3, same3. rewrite nth_upd. destruct (Nat.eqb l' l) eqn:El; cbn [andb].
  2:{ destruct (nth_error k l') as [w|]; [|reflexivity]. destruct (nth_error w i') as [row|]; [|reflexivity]. destruct (nth_error row j'); reflexivity. }
  destruct (nth_error k l') as [w|]; cbn [option_map]; [|reflexivity]. rewrite nth_upd. destruct (Nat.eqb i' i) eqn:Ei; cbn [andb].
  2:{ destruct (nth_error w i') as [row|]; [|reflexivity]. destruct (nth_error row j'); reflexivity. }
  destruct (nth_error w i') as [row|]; cbn [option_map]; [|reflexivity]. rewrite nth_upd. destruct (Nat.eqb j' j); destruct (nth_error row j'); reflexivity.
Qed.
Definition drawn (l' : nat) (ts : list (nat * nat * N)) (l i j : nat) : bool := existsb (fun t => same3 l i j l' (fst (fst t)) (snd (fst t))) ts.
Lemma get3_mark k v l' ts l i j : get3 (mark k v l' ts) l i j = option_map (fun z => if drawn l' ts l i j then v else z) (get3 k l i j).
Proof.
  revert k; induction ts as [|t ts IH]; intros k; cbn [mark fold_left drawn existsb].
  - destruct (get3 k l i j); reflexivity.
  - unfold mark in IH. rewrite IH, get3_put3. fold (drawn l' ts l i j). destruct (get3 k l i j); cbn [option_map]; [|reflexivity].
    destruct (drawn l' ts l i j); [rewrite orb_true_r; reflexivity|]. rewrite orb_false_r. reflexivity.
Qed.
Definition ntests (w : list (list N)) : nat := match tests_of w with Ret n => n | _ => O end.
Definition tests (d : cdraw) (m : list (list (list N) * list N)) (l : nat) : list (nat * nat * N) := map (d l) (seq 0 (ntests (nth l (map fst m) []))).
Definition marks (k : list (list (list sf))) (v : sf) (d : cdraw) (m : list (list (list N) * list N)) (ls : list nat) := fold_left (fun k l => mark k v l (tests d m l)) ls k.
Lemma get3_marks k v d m ls l i j : get3 (marks k v d m ls) l i j = option_map (fun z => if existsb (fun l' => drawn l' (tests d m l') l i j) ls then v else z) (get3 k l i j).
Proof.
  revert k; induction ls as [|l' ls IH]; intros k; cbn [marks fold_left existsb].
  - destruct (get3 k l i j); reflexivity.
  - unfold marks in IH. rewrite IH, get3_mark. destruct (get3 k l i j); cbn [option_map]; [|reflexivity].
    destruct (existsb _ ls); [rewrite orb_true_r; reflexivity|]. rewrite orb_false_r. reflexivity.
Qed.
Lemma lens_marks k v d m ls : lens (marks k v d m ls) = lens k.
Proof. revert k; induction ls as [|l ls IH]; intros k; [reflexivity|]. cbn [marks fold_left]. unfold marks in IH. rewrite IH. apply lens_mark. Qed.
Lemma lens_new m : lens (new_map m) = lens (map fst m).
Proof. unfold lens, new_map. rewrite !map_map. apply map_ext. intros p. rewrite map_map. apply map_ext. intros row. apply map_length. Qed.
Lemma get3_new m l i j v : get3 (new_map m) l i j = Some v -> v = S754_zero false.
Proof.
  unfold get3, new_map. rewrite nth_error_map. destruct (nth_error m l) as [p|]; cbn [option_map]; [|discriminate]. rewrite nth_error_map. destruct (nth_error (fst p) i) as [row|]; cbn [option_map]; [|discriminate].
  rewrite nth_error_map. destruct (nth_error row j); cbn; congruence.
Qed.

Section S.
Variables (expf : sf -> sf) (s : pnn) (samples : list (list N * list N)).
Hypothesis HI : Inv s.
Hypothesis Hin : 0 < hd O (sizes s).
Hypothesis Hout : 0 < last (sizes s) O.
Hypothesis HF : Forall (fun p => length (fst p) = hd O (sizes s) /\ length (snd p) = last (sizes s) O) samples.
Let f := network (params s) (acts s).

Lemma test_layers_ret d k c m x y ls q : length x = hd O (sizes s) -> length y = last (sizes s) O ->
  test_layers expf d k (at_ s c m) x y (mean_squared_error f [(x, y)]) ls = Ret q -> exists c', q = (marks k (level_ s expf x y) d m ls, at_ s c' m).
Proof.
  intros Hx Hy; revert k c; induction ls as [|l ls IH]; intros k c H; cbn [test_layers] in H; [exists c; injection H as <-; reflexivity|].
  apply obind_ret in H. destruct H as (n & En & H). change (mirror (at_ s c m)) with m in En. apply obind_ret in H. destruct H as (q1 & E1 & H).
  destruct (test_weights_ret s HI Hin expf k c m x y l _ q1 Hx Hy E1) as [c1 ->]. cbn [fst snd] in H. destruct (IH _ _ H) as [c2 ->]. exists c2.
  cbn [marks fold_left]. unfold tests, ntests. rewrite En. reflexivity.
Qed.
Lemma test_layers_ok d k c m x y ls : length x = hd O (sizes s) -> length y = last (sizes s) O -> lens k = lens (map fst m) -> legal_cdraw m d -> Forall (fun l => l < length m) ls ->
  Forall (fun l => exists n, tests_of (nth l (map fst m) []) = Ret n) ls ->
  exists c', test_layers expf d k (at_ s c m) x y (mean_squared_error f [(x, y)]) ls = Ret (marks k (level_ s expf x y) d m ls, at_ s c' m).
Proof.
  intros Hx Hy HL HD H1 H2; revert k c HL; induction ls as [|l ls IH]; intros k c HL; cbn [test_layers]; [exists c; reflexivity|].
  apply Forall_cons_iff in H1; destruct H1 as [Hl H1]. apply Forall_cons_iff in H2; destruct H2 as [[n En] H2].
  change (mirror (at_ s c m)) with m. rewrite En. cbn [obind].
  destruct (test_weights_ok s HI Hin expf k c m x y l (map (d l) (seq 0 n)) Hx Hy HL) as [c1 E1].
  { apply Forall_forall. intros t Ht. apply in_map_iff in Ht. destruct Ht as (z & <- & _). apply HD, Hl. }
  fold f in E1. rewrite E1. cbn [obind fst snd]. destruct (IH H1 H2 (mark k (level_ s expf x y) l (map (d l) (seq 0 n))) c1) as [c2 E2]; [rewrite lens_mark; exact HL|].
  exists c2. rewrite E2. cbn [marks fold_left]. unfold tests, ntests. rewrite En. reflexivity.
Qed.

Definition map_of (r : rat) (m : list (list (list N) * list N)) := match crit r with Some k => k | None => new_map m end.
Definition level1 : sf := match samples with (x, y) :: _ => level_ s expf x y | [] => S754_nan end.
Definition marked (r : rat) (d : cdraw) m : rat := with_crit r (marks (map_of r m) level1 d m (seq 0 (length m))).
Definition sub_in := concat (map fst (firstn 10 samples)).
Definition sub_out := concat (map snd (firstn 10 samples)).
Lemma Forall_firstn {A} (P : A -> Prop) n l : Forall P l -> Forall P (firstn n l).
Proof. intros H; revert n; induction H; intros [|n]; cbn; auto. Qed.
Lemma sub_lens : length sub_in = length (firstn 10 samples) * hd O (sizes s) /\ length sub_out = length (firstn 10 samples) * last (sizes s) O.
Proof.
  pose proof (Forall_firstn _ 10 _ HF) as G. unfold sub_in, sub_out. split.
  - rewrite (concat_length_const _ (hd O (sizes s))), map_length; [reflexivity|]. apply Forall_map. eapply Forall_impl; [|exact G]; cbn; tauto.
  - rewrite (concat_length_const _ (last (sizes s) O)), map_length; [reflexivity|]. apply Forall_map. eapply Forall_impl; [|exact G]; cbn; tauto.
Qed.
Lemma sub_first x y sam : samples = (x, y) :: sam -> firstn (hd O (sizes s)) sub_in = x /\ firstn (last (sizes s) O) sub_out = y.
Proof.
  intros E. pose proof HF as G. rewrite E in G. apply Forall_cons_iff in G. destruct G as [[Hx Hy] _]. cbn [fst snd] in *.
  unfold sub_in, sub_out. rewrite E. cbn [firstn map concat fst snd]. rewrite <- Hx, <- Hy.
  split; rewrite firstn_app, Nat.sub_diag, firstn_all; cbn [firstn]; apply app_nil_r.
Qed.
Lemma update_unfold r c m d : samples <> [] -> exists x y sam, samples = (x, y) :: sam /\ length x = hd O (sizes s) /\ length y = last (sizes s) O /\ level1 = level_ s expf x y /\
  exists c1, updateCriticalityMap expf r (at_ s c m) sub_in sub_out d =
    obind (test_layers expf d (map_of r m) (at_ s c1 m) x y (mean_squared_error f [(x, y)]) (seq 0 (length m))) (fun q => Ret (with_crit r (fst q), snd q)).
Proof.
  intros NE. assert (ES : exists x y sam, samples = (x, y) :: sam) by (destruct samples as [|[x y] sam]; [congruence|eauto]). destruct ES as (x & y & sam & ES).
  pose proof HF as G. rewrite ES in G. apply Forall_cons_iff in G. destruct G as [[Hx Hy] _]. cbn [fst snd] in Hx, Hy.
  exists x, y, sam. split; [exact ES|]. split; [exact Hx|]. split; [exact Hy|]. split; [unfold level1; rewrite ES; reflexivity|].
  destruct (sub_lens) as [L1 L2]. destruct (sub_first x y sam ES) as [F1 F2].
  unfold updateCriticalityMap. change (sizes (at_ s c m)) with (sizes s). rewrite L1, L2, F1, F2, !Nat.mod_mul by lia. rewrite (proj2 (Nat.eqb_neq _ _)) by lia. rewrite (proj2 (Nat.eqb_neq _ _)) by lia.
  cbn [orb Nat.eqb negb]. assert (P : 1 <= length (firstn 10 samples)) by (rewrite ES; cbn; lia).
  rewrite (proj2 (Nat.ltb_ge _ _)) by nia. rewrite (proj2 (Nat.ltb_ge _ _)) by nia. cbn [orb]. change (mirror (at_ s c m)) with m.
  destruct (loss1 s HI Hin c m x y Hx Hy) as [c1 E1]. rewrite E1. cbn [obind fst snd]. exists c1. reflexivity.
Qed.
Lemma update_ret r c m d r' s' : samples <> [] -> updateCriticalityMap expf r (at_ s c m) sub_in sub_out d = Ret (r', s') -> r' = marked r d m /\ exists c', s' = at_ s c' m.
Proof.
  intros NE H. destruct (update_unfold r c m d NE) as (x & y & sam & ES & Hx & Hy & EL & c1 & E). rewrite E in H. apply obind_ret in H. destruct H as (q & E1 & H).
  destruct (test_layers_ret d _ c1 m x y _ q Hx Hy E1) as [c2 ->]. cbn [fst snd] in H. injection H as <- <-. split; [unfold marked; rewrite EL; reflexivity|]. exists c2; reflexivity.
Qed.
Lemma update_empty r c m d : samples = [] -> updateCriticalityMap expf r (at_ s c m) sub_in sub_out d = UB UB_out_of_bounds.
Proof.
  intros E. destruct sub_lens as [L1 L2]. unfold updateCriticalityMap. change (sizes (at_ s c m)) with (sizes s). rewrite L1, L2, !Nat.mod_mul by lia.
  rewrite (proj2 (Nat.eqb_neq _ _)) by lia. rewrite (proj2 (Nat.eqb_neq _ _)) by lia. rewrite E. cbn [orb Nat.eqb negb firstn length Nat.mul]. rewrite (proj2 (Nat.ltb_lt _ _)) by lia. reflexivity.
Qed.
Definition tests_fit (m : list (list (list N) * list N)) : Prop := Forall (fun p => exists n, tests_of (fst p) = Ret n) m.
Lemma update_ok r c m d : samples <> [] -> crit_fits r m -> legal_cdraw m d -> tests_fit m ->
  exists c', updateCriticalityMap expf r (at_ s c m) sub_in sub_out d = Ret (marked r d m, at_ s c' m).
Proof.
  intros NE HC HD HT. destruct (update_unfold r c m d NE) as (x & y & sam & ES & Hx & Hy & EL & c1 & E). rewrite E.
  destruct (test_layers_ok d (map_of r m) c1 m x y (seq 0 (length m)) Hx Hy) as [c2 E2].
  - unfold map_of, crit_fits in *. destruct (crit r) as [k|]; [|apply lens_new]. unfold lens. rewrite map_map. exact HC.
  - exact HD.
  - apply Forall_forall. intros l Hl. apply in_seq in Hl. lia.
  - apply Forall_forall. intros l Hl. apply in_seq in Hl. unfold tests_fit in HT. rewrite Forall_forall in HT.
    destruct (HT (nth l m ([], []))) as [n En]; [apply nth_In; lia|]. exists n. rewrite <- En. f_equal. exact (map_nth fst m ([], []) l).
  - rewrite E2. cbn [obind fst snd]. exists c2. unfold marked. rewrite EL. reflexivity.
Qed.

(** one epoch *)
Definition injected (r : rat) (d : idraw) (e freq : Z) (m : list (list (list N) * list N)) : rat := if (e mod freq =? 0)%Z then after_round s samples r d m else r.
Definition strucked (r : rat) (d : idraw) (e freq : Z) (m : list (list (list N) * list N)) := if (e mod freq =? 0)%Z then struck r d m else m.
Lemma epoch_ret r c m batch freq e d cd r' s' : epoch expf r (at_ s c m) samples batch freq e d cd = Ret (r', s') ->
  exists c', s' = at_ s c' (strucked r d e freq m) /\
  (r' = injected r d e freq m \/ (samples <> [] /\ target r = true /\ crit r <> None /\ r' = marked (injected r d e freq m) cd (strucked r d e freq m))).
Proof.
  unfold epoch. intros H. apply obind_ret in H. destruct H as (order & _ & H). apply obind_ret in H. destruct H as (s1 & E1 & H).
  destruct (train_order_ret s samples HI Hin HF order c m s1 E1) as [c1 ->]. apply obind_ret in H. destruct H as ([r1 s2] & E2 & H).
  assert (G : r1 = injected r d e freq m /\ exists c2, s2 = at_ s c2 (strucked r d e freq m)).
  { unfold injected, strucked. destruct (e mod freq =? 0)%Z.
    - destruct (round_eq s samples HI Hin HF r c1 m freq d) as [c2 E]. rewrite E in E2. destruct (_ && _)%bool; [|discriminate E2]. injection E2 as <- <-. split; [reflexivity|]. exists c2; reflexivity.
    - injection E2 as <- <-. split; [reflexivity|]. exists c1; reflexivity. }
  destruct G as (-> & c2 & ->). set (r1 := injected r d e freq m) in *.
  assert (T : target r1 = target r /\ crit r1 = crit r) by (unfold r1, injected; destruct (e mod freq =? 0)%Z; split; reflexivity). destruct T as [T1 T2]. rewrite T1, T2 in H.
  destruct (target r) eqn:ET; [|injection H as <- <-; exists c2; auto]. destruct (crit r) eqn:EC; [|injection H as <- <-; exists c2; auto].
  apply obind_ret in H. destruct H as (f10 & _ & H). destruct (e mod f10 =? 0)%Z; [|injection H as <- <-; exists c2; auto].
  change (concat (map fst (firstn 10 samples))) with sub_in in H. change (concat (map snd (firstn 10 samples))) with sub_out in H.
  assert (NE : samples <> []). { intros E. rewrite (update_empty _ _ _ _ E) in H. discriminate H. }
  destruct (update_ret r1 c2 _ cd r' s' NE H) as (-> & c3 & ->). exists c3. split; [reflexivity|]. right. repeat split; auto. discriminate.
Qed.
Lemma epoch_ok r c m batch freq e d cd : samples <> [] -> (exists order, epoch_order (Z.of_nat (length samples)) batch = Ret order /\ Forall (fun k => (Z.to_nat k < length samples)%nat) order) ->
  fitsb int32 (hits r d m) = true -> fitsb int32 (flips r + hits r d m) = true -> fitsb int32 (10 * freq) = true -> crit_fits r m -> legal_cdraw (strucked r d e freq m) cd -> tests_fit (strucked r d e freq m) ->
  exists r' c', epoch expf r (at_ s c m) samples batch freq e d cd = Ret (r', at_ s c' (strucked r d e freq m)).
Proof.
  intros NE (order & EO & FO) F1 F2 F3 HC HD HT. unfold epoch. rewrite EO. cbn [obind]. destruct (train_order_ok s samples HI Hin HF order c m FO) as [c1 E1]. rewrite E1. cbn [obind].
  assert (G : exists c2, (if (e mod freq =? 0)%Z then round r (at_ s c1 m) samples freq d else Ret (r, at_ s c1 m)) = Ret (injected r d e freq m, at_ s c2 (strucked r d e freq m))).
  { unfold injected, strucked. destruct (e mod freq =? 0)%Z; [|exists c1; reflexivity]. destruct (round_eq s samples HI Hin HF r c1 m freq d) as [c2 E]. exists c2. rewrite E, F1, F2, F3. reflexivity. }
  destruct G as [c2 E2]. rewrite E2. cbn [obind]. set (r1 := injected r d e freq m).
  destruct (target r1) eqn:T; [|eexists _, c2; reflexivity]. destruct (crit r1) as [k|] eqn:K; [|eexists _, c2; reflexivity].
  unfold arith at 1. change (isg int32) with true. rewrite F3. cbn [obind]. destruct (e mod (10 * freq) =? 0)%Z; [|eexists _, c2; reflexivity].
  change (concat (map fst (firstn 10 samples))) with sub_in. change (concat (map snd (firstn 10 samples))) with sub_out.
  destruct (update_ok r1 c2 (strucked r d e freq m) cd NE) as [c3 E3]; [|exact HD|exact HT|exists (marked r1 cd (strucked r d e freq m)), c3; exact E3].
  unfold crit_fits in *. rewrite K. assert (KK : crit r = Some k) by (unfold r1, injected in K; destruct (e mod freq =? 0)%Z; exact K). rewrite KK in HC.
  rewrite HC. unfold strucked. destruct (e mod freq =? 0)%Z; [|reflexivity]. pose proof (shape_struck r d m) as Sh. unfold shape in Sh.
  apply (f_equal (map fst)) in Sh. rewrite !map_map in Sh. cbn [fst] in Sh. symmetry; exact Sh.
Qed.
End S.
